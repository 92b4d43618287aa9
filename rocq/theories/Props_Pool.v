(** Properties of the constant-product pool: C06-C26, C72, C73. *)
From Coq Require Import ZArith List Bool Lia.
From Coq Require Import ZifyBool.
From Verif Require Import Base FMap Decimal DecimalProofs Curve World Token TokenProofs Frame Stake Pool PoolProofs
  Stable StableProofs Rewards Vest Factory Router System SysFrame SysInv SysPool SysStable SysSupply Script Props_Token.
Import ListNotations.
Open Scope Z_scope.

(** The record of the pool contract at address [c]. *)
Definition pool_at (w : World) (c : Addr) (p : Pool) : Prop := fget c (w_pool w) = Some p.

(** An amount that counts only if a condition holds. *)
Definition on (b : bool) (x : Z) : Z := if b then x else 0.

(** The two reserves seen from an offered token: the one sold into, the one bought from. *)
Definition side (p : Pool) (offer : Addr) (x y : Z) (buy : Addr) : Prop :=
  (offer = p_ta p /\ buy = p_tb p /\ x = p_ra p /\ y = p_rb p) \/
  (offer = p_tb p /\ offer <> p_ta p /\ buy = p_ta p /\ x = p_rb p /\ y = p_ra p).

Lemma side_eq p offer x y buy : side p offer x y buy ->
  x = res_of p offer /\ y = res_other p offer /\ buy = buy_of p offer.
Proof.
  unfold res_of, res_other, buy_of. intros [[-> [-> [-> ->]]]|[-> [N [-> [-> ->]]]]].
  - rewrite Z.eqb_refl. auto.
  - destruct (Z.eqb_spec (p_tb p) (p_ta p)); [congruence|]. auto.
Qed.
Lemma side_of p offer : offer = p_ta p \/ offer = p_tb p ->
  side p offer (res_of p offer) (res_other p offer) (buy_of p offer).
Proof.
  unfold side, res_of, res_other, buy_of. intros [->| ->].
  - rewrite Z.eqb_refl. auto.
  - destruct (Z.eqb_spec (p_tb p) (p_ta p)); [left|right]; auto.
Qed.
Lemma on_ind b x : on b x = ind b x. Proof. reflexivity. Qed.

Lemma reach_good H w : reachable H w -> Good w.
Proof. intros R. apply (wg_good _ (reach_wgood _ _ R)). Qed.

(** A contract never signs, so the sender of a pool call is not the pool itself. *)
Lemma sender_not_self H w e c self sender K : reachable H w -> fget self (w_code w) = Some K -> c <> Some self ->
  authed e c sender = true -> sender <> self.
Proof. intros R. apply authed_ne. eapply reach_good; eauto. Qed.

(** ** C06 *)
Theorem C06_pool_solvency H w c p : reachable H w -> pool_at w c p ->
  0 <= p_ra p <= bal w (p_ta p) c /\ 0 <= p_rb p <= bal w (p_tb p) c /\ p_ta p <> p_tb p.
Proof.
  intros R Hp. pose proof (reach_pool _ _ R _ _ Hp) as I.
  split; [apply (pi_ra _ _ _ I)|]. split; [apply (pi_rb _ _ _ I)|]. pose proof (pi_ord _ _ _ I). lia.
Qed.
Print Assumptions C06_pool_solvency.

(** ** C07 *)
Theorem C07_lp_total_bounds_supply H w c p l : reachable H w -> pool_at w c p ->
  holders w (p_share p) l -> total_of w (p_share p) l <= p_total p.
Proof.
  intros R Hp Hl. rewrite (fine_total w (p_share p) l) by (auto; eapply tk_fine_reachable; eauto).
  apply (pi_sup _ _ _ (reach_pool _ _ R _ _ Hp)).
Qed.
Print Assumptions C07_lp_total_bounds_supply.

(** no transaction of the run burns the token [t] at the token contract, directly or through
    a vesting contract *)
Definition no_direct_burn (t : Addr) (w : World) (k : Call) : Prop :=
  match k with
  | CBurn t' _ _ | CBurnFrom t' _ _ _ => t' <> t
  | CVestBurn v _ _ => forall x, fget v (w_vest w) = Some x -> v_token x <> t
  | _ => True
  end.
Theorem C07_lp_total_is_supply H evs w c p l : run_if (no_direct_burn (p_share p)) H w_empty evs w ->
  pool_at w c p -> holders w (p_share p) l -> total_of w (p_share p) l = p_total p.
Proof.
  intros R Hp Hl.
  assert (RC : reachable H w) by (exists evs; eapply run_if_run; eauto).
  rewrite (fine_total w (p_share p) l) by (auto; eapply tk_fine_reachable; eauto).
  assert (SE : ShareEq (p_share p) w).
  { eapply share_eq_run with (w := w_empty).
    - eapply run_if_weaken; [|exact R]. intros w0 k0 N. destruct k0; simpl in *; auto.
      intros [x [E1 E2]]. apply (N x); auto.
    - exists []. constructor.
    - split; intros c0 p0 E; discriminate. }
  apply (proj1 SE _ _ Hp eq_refl).
Qed.
Print Assumptions C07_lp_total_is_supply.

(** ** C08 *)
Theorem C08_first_deposit_locks H w e c self u da mina db minb custom dl w' :
  reachable H w -> c <> Some self -> pool_provide e c self u da mina db minb custom dl w = Ok (tt, w') ->
  exists p', pool_at w' self p' /\ 1000 <= p_total p' /\ 1000 <= bal w' (p_share p') self.
Proof.
  intros R N X. pose proof (reach_good _ _ R) as G.
  pose proof X as X0.
  apply pool_provide_ok in X. destruct X as [_ [_ [_ [p0 [xa [xb [a [b [w1 [w2 [w4 E]]]]]]]]]]].
  pose proof (pe_pool _ _ _ _ _ _ _ _ _ _ _ _ _ _ _ _ _ _ E) as Hp.
  pose proof (reach_pool _ _ R _ _ Hp) as I.
  eapply pool_provide_inv in X0; eauto.
  destruct X0 as [p' [Ep' I']]. exists p'. split; [exact Ep'|].
  destruct (pi_min _ _ _ I') as [Q|Q]; [|exact Q]. exfalso.
  destruct (pe_tot _ _ _ _ _ _ _ _ _ _ _ _ _ _ _ _ _ _ E) as [n [En Hn]].
  rewrite En in Ep'. inversion Ep'; subst p'. simpl in Q. subst n.
  destruct Hn as [Hn|Hn]; [|lia].
  pose proof (mt_pos _ _ _ _ _ (proj1 (proj2 (proj2 Hn)))).
  destruct (pi_min _ _ _ I) as [T0|T0]; [|lia]. pose proof (pi_zero _ _ _ I T0). lia.
Qed.
Print Assumptions C08_first_deposit_locks.

Theorem C08_minimum_liquidity_locked H w l w' c p : reachable H w -> run H w l w' -> pool_at w c p -> p_total p <> 0 ->
  exists p', pool_at w' c p' /\ p_share p' = p_share p /\ 1000 <= p_total p' /\ 1000 <= bal w' (p_share p') c.
Proof.
  intros R X. revert p. induction X as [w|w ev w1 l w2 S X IH]; intros p Hp Nz.
  - exists p. split; [exact Hp|]. split; [reflexivity|]. destruct (pi_min _ _ _ (reach_pool _ _ R _ _ Hp)); [contradiction|auto].
  - assert (R1 : reachable H w1) by (eapply reach_run; [exact R|econstructor; [exact S|constructor]]).
    inversion S; subst.
    + destruct (pool_step _ _ _ _ H1 (reach_good _ _ R) (reach_pool _ _ R) _ _ Hp) as [q [Eq [SI [_ [T _]]]]].
      destruct (IH R1 q Eq) as [p' [A [B C]]]; [lia|]. exists p'. split; [exact A|]. split; [|exact C].
      rewrite B. apply (si_share _ _ SI).
    + apply IH; auto.
Qed.
Print Assumptions C08_minimum_liquidity_locked.

(** ** C09 *)
Theorem C09_withdrawal_pro_rata H w e c self u s mina minb dl a b w' p :
  reachable H w -> c <> Some self -> pool_at w self p ->
  pool_withdraw e c self u s mina minb dl w = Ok ((a, b), w') ->
  exists p', pool_at w' self p' /\
    let x := p_ra p in let y := p_rb p in let T := p_total p in let T' := p_total p' in
    (* what is paid *)
    0 < s /\ s < T /\ T * a <= x * s /\ T * b <= y * s /\ mina <= a /\ minb <= b /\
    x * s * 10^18 < T * (a + 1) * 10^18 + T * x /\ y * s * 10^18 < T * (b + 1) * 10^18 + T * y /\
    (* what the pool records *)
    p_ra p' = x - a /\ p_rb p' = y - b /\ T' = T - s /\
    (* reserve per share of the others *)
    x * T' <= p_ra p' * T /\ y * T' <= p_rb p' * T /\
    (* who pays whom: the sender's shares are burned, nobody else's balance moves *)
    authed e c u = true /\
    forall t x', bal w' t x' = bal w t x' - on ((t =? p_share p) && (x' =? u)) s
      + on ((t =? p_ta p) && (x' =? u)) a - on ((t =? p_ta p) && (x' =? self)) a
      + on ((t =? p_tb p) && (x' =? u)) b - on ((t =? p_tb p) && (x' =? self)) b.
Proof.
  intros R N Hp X. pose proof (reach_good _ _ R) as G.
  pose proof (gd_cpool _ G _ _ Hp) as Hc.
  apply pool_withdraw_ok in X. destruct X as [_ [Au [p0 [ratio [w1 [w2 [w3 [w4 E]]]]]]]].
  pose proof (sender_not_self _ _ _ _ _ _ _ R Hc N Au) as Ns.
  destruct E as [Ep _ [Ps [Pma Pmb]] Nt Er Ea Eb [Ma Mb] Ei Ebn Eo1 Eo2 Ee Ep']. 
  unfold pool_at in Hp. rewrite Hp in Ep. inversion Ep; subst p0.
  pose proof (reach_pool _ _ R _ _ Hp) as I.
  assert (T1 : 1000 <= p_total p /\ 1000 <= bal w (p_share p) self) by (destruct (pi_min _ _ _ I); tauto).
  pose proof (good_supply2 w (p_share p) self u G (not_eq_sym Ns)) as G2.
  pose proof (mv_le _ _ _ _ _ _ Ei) as Ls. pose proof (pi_sup _ _ _ I) as Psup.
  assert (PT : 0 < p_total p) by lia.
  destruct (wd_numbers _ _ _ _ _ Ps PT (proj1 (pi_ra _ _ _ I)) Er Ea) as [Na [La Ua]].
  destruct (wd_numbers _ _ _ _ _ Ps PT (proj1 (pi_rb _ _ _ I)) Er Eb) as [Nb [Lb Ub]].
  change DEC with (10^18) in *.
  eexists. split; [exact Ep'|]. cbv zeta. simpl p_ra; simpl p_rb; simpl p_total.
  do 13 (split; [first [lia|nia]|]). split; [exact Au|].
  intros t x'. rewrite (bal_wtok w4 w') by auto.
  rewrite (mv_bal _ _ _ _ _ _ Eo2), (mv_bal _ _ _ _ _ _ Eo1), (bn_bal _ _ _ _ _ Ebn), (mv_bal _ _ _ _ _ _ Ei); change on with ind.
  lia.
Qed.
Print Assumptions C09_withdrawal_pro_rata.

(** ** C10, C18: deposits *)
Record DepositFacts (e : Env) (c : option Addr) (self u : Addr) (da mina db minb custom dl : option Z)
    (w w' : World) (p p' : Pool) (xa xb a b minted locked : Z) : Prop := {
  df_da : da = Some xa; df_db : db = Some xb;
  df_time : forall d, dl = Some d -> w_now w <= d;
  df_auth : authed e c u = true;
  df_a : 0 <= a <= xa; df_b : 0 <= b <= xb;
  df_first : p_total p = 0 -> a = xa /\ b = xb /\ p_total p' = Z.sqrt (a * b) /\ locked = 1000;
  df_min_a : forall m, mina = Some m -> p_total p <> 0 \/ m <= xa -> m <= a;
  df_min_b : forall m, minb = Some m -> p_total p <> 0 \/ m <= xb -> m <= b;
  df_later : p_total p <> 0 -> locked = 0 /\ 0 < p_ra p /\ 0 < p_rb p /\
    a = Z.min xa (xb * p_ra p / p_rb p) /\ b = Z.min xb (xa * p_rb p / p_ra p) /\
    p_ra p * p_total p' <= p_ra p' * p_total p /\ p_rb p * p_total p' <= p_rb p' * p_total p;
  df_total : p_total p' = p_total p + minted + locked; df_minted : 0 <= minted;
  df_ra : p_ra p' = bal w (p_ta p) self + a; df_rb : p_rb p' = bal w (p_tb p) self + b;
  df_bal : forall t x, bal w' t x = bal w t x
      - on ((t =? p_ta p) && (x =? u)) a + on ((t =? p_ta p) && (x =? self)) a
      - on ((t =? p_tb p) && (x =? u)) b + on ((t =? p_tb p) && (x =? self)) b
      + on ((t =? p_share p) && (x =? u)) minted + on ((t =? p_share p) && (x =? self)) locked }.

Arguments df_da {e c self u da mina db minb custom dl w w' p p' xa xb a b minted locked}.
Arguments df_db {e c self u da mina db minb custom dl w w' p p' xa xb a b minted locked}.
Arguments df_time {e c self u da mina db minb custom dl w w' p p' xa xb a b minted locked}.
Arguments df_auth {e c self u da mina db minb custom dl w w' p p' xa xb a b minted locked}.
Arguments df_a {e c self u da mina db minb custom dl w w' p p' xa xb a b minted locked}.
Arguments df_b {e c self u da mina db minb custom dl w w' p p' xa xb a b minted locked}.
Arguments df_first {e c self u da mina db minb custom dl w w' p p' xa xb a b minted locked}.
Arguments df_min_a {e c self u da mina db minb custom dl w w' p p' xa xb a b minted locked}.
Arguments df_min_b {e c self u da mina db minb custom dl w w' p p' xa xb a b minted locked}.
Arguments df_later {e c self u da mina db minb custom dl w w' p p' xa xb a b minted locked}.
Arguments df_total {e c self u da mina db minb custom dl w w' p p' xa xb a b minted locked}.
Arguments df_minted {e c self u da mina db minb custom dl w w' p p' xa xb a b minted locked}.
Arguments df_ra {e c self u da mina db minb custom dl w w' p p' xa xb a b minted locked}.
Arguments df_rb {e c self u da mina db minb custom dl w w' p p' xa xb a b minted locked}.
Arguments df_bal {e c self u da mina db minb custom dl w w' p p' xa xb a b minted locked}.

Lemma deposit_facts H w e c self u da mina db minb custom dl w' p :
  reachable H w -> c <> Some self -> pool_at w self p ->
  pool_provide e c self u da mina db minb custom dl w = Ok (tt, w') ->
  exists p' xa xb a b minted locked, pool_at w' self p' /\
    DepositFacts e c self u da mina db minb custom dl w w' p p' xa xb a b minted locked.
Proof.
  intros R N Hp X. pose proof (reach_good _ _ R) as G.
  pose proof (gd_cpool _ G _ _ Hp) as Hc. pose proof (reach_pool _ _ R _ _ Hp) as I.
  apply pool_provide_ok in X. destruct X as [Tm [Au [_ [p0 [xa [xb [a [b [w1 [w2 [w4 E]]]]]]]]]]].
  pose proof (sender_not_self _ _ _ _ _ _ _ R Hc N Au) as Ns.
  destruct E as [Ep _ Eda Edb _ En Ea Eb [n [Ep' Hn]] Ee].
  unfold pool_at in Hp. rewrite Hp in Ep. inversion Ep; subst p0.
  pose proof (deposit_amounts_ok _ _ _ _ _ _ _ _ _ En ltac:(apply (pi_ra _ _ _ I)) ltac:(apply (pi_rb _ _ _ I))) as DN.
  pose proof (pi_ord _ _ _ I) as Hord.
  assert (B2 : forall t x, bal w2 t x = bal w t x
      - ind ((t =? p_ta p) && (x =? u)) a + ind ((t =? p_ta p) && (x =? self)) a
      - ind ((t =? p_tb p) && (x =? u)) b + ind ((t =? p_tb p) && (x =? self)) b).
  { intros t x. rewrite (mv_bal _ _ _ _ _ _ Eb), (mv_bal _ _ _ _ _ _ Ea). lia. }
  assert (Ba : bal w2 (p_ta p) self = bal w (p_ta p) self + a).
  { rewrite B2. destruct (Z.eqb_spec (p_ta p) (p_tb p)); [lia|].
    destruct (Z.eqb_spec self u); [congruence|]. rewrite !Z.eqb_refl. unfold ind. simpl. lia. }
  assert (Bb : bal w2 (p_tb p) self = bal w (p_tb p) self + b).
  { rewrite B2. destruct (Z.eqb_spec (p_tb p) (p_ta p)); [lia|].
    destruct (Z.eqb_spec self u); [congruence|]. rewrite !Z.eqb_refl. unfold ind. simpl. lia. }
  pose proof (pi_ra _ _ _ I) as Ira. pose proof (pi_rb _ _ _ I) as Irb.
  pose proof (dn_a _ _ _ _ _ _ _ _ _ DN) as Da. pose proof (dn_b _ _ _ _ _ _ _ _ _ DN) as Db.
  assert (ZT : p_total p = 0 <-> ~ (0 < p_ra p /\ 0 < p_rb p)).
  { split; [intros Q; pose proof (pi_zero _ _ _ I Q); lia|]. intros Q.
    destruct (Z.eq_dec (p_total p) 0); auto. pose proof (pi_some _ _ _ I n0).
    destruct (dn_case _ _ _ _ _ _ _ _ _ DN); lia. }
  assert (MM : p_total p <> 0 -> (0 < p_ra p /\ 0 < p_rb p /\ a = Z.min xa (xb * p_ra p / p_rb p) /\
     b = Z.min xb (xa * p_rb p / p_ra p) /\
     (forall m, mina = Some m -> m <= a) /\ (forall m, minb = Some m -> m <= b))).
  { intros Q. destruct (dn_case _ _ _ _ _ _ _ _ _ DN) as [C|C]; [lia|]. intuition. }
  assert (MF : p_total p = 0 -> a = xa /\ b = xb).
  { intros Q. pose proof (pi_zero _ _ _ I Q). destruct (dn_case _ _ _ _ _ _ _ _ _ DN) as [C|C]; [|lia]. lia. }
  eexists _, xa, xb, a, b, (if p_total p =? 0 then n - 1000 else n - p_total p), (if p_total p =? 0 then 1000 else 0).
  split; [exact Ep'|].
  destruct Hn as [[Fa [Fb [Mt Enn]]]|[Nf [S1000 [Enn [w3 [Mt0 Mt]]]]]].
  - assert (NT : p_total p <> 0) by lia. destruct (Z.eqb_spec (p_total p) 0); [contradiction|].
    specialize (MM NT). pose proof (mt_pos _ _ _ _ _ Mt).
    constructor; auto; simpl; try lia; try (intros; lia).
    + intros m Em _. destruct MM as [_ [_ [_ [_ [M1 _]]]]]. auto.
    + intros m Em _. destruct MM as [_ [_ [_ [_ [_ M2]]]]]. auto.
    + intros _. split; [auto|]. destruct MM as [M1 [M2 [M3 [M4 _]]]]. do 4 (split; [auto|]).
      assert (P1 : 0 <= bal w2 (p_ta p) self * p_total p) by (destruct (pi_min _ _ _ I); nia).
      assert (P2 : 0 <= bal w2 (p_tb p) self * p_total p) by (destruct (pi_min _ _ _ I); nia).
      rewrite !quot_nonneg_div in Enn by lia.
      pose proof (div_floor (bal w2 (p_ta p) self * p_total p) (p_ra p) Fa).
      pose proof (div_floor (bal w2 (p_tb p) self * p_total p) (p_rb p) Fb). split; nia.
    + intros t x. rewrite (bal_wtok w4 w') by auto. rewrite (mt_bal _ _ _ _ _ Mt), B2; change on with ind.
      replace (ind ((t =? p_share p) && (x =? self)) 0) with 0 by (unfold ind; destruct (_ && _); reflexivity). lia.
  - assert (NT : p_total p = 0) by lia. destruct (Z.eqb_spec (p_total p) 0); [|contradiction].
    specialize (MF NT). destruct MF as [-> ->]. pose proof (mt_pos _ _ _ _ _ Mt).
    constructor; auto; simpl; try lia; try (intros; lia).
    intros t x. rewrite (bal_wtok w4 w') by auto. rewrite (mt_bal _ _ _ _ _ Mt), (mt_bal _ _ _ _ _ Mt0), B2; change on with ind.
    replace (n - 1000 - p_total p) with (n - 1000) by lia. lia.
Qed.

Theorem C10_deposit_no_dilution H w e c self u da mina db minb custom dl w' p :
  reachable H w -> c <> Some self -> pool_at w self p -> 0 < p_ra p -> 0 < p_rb p ->
  pool_provide e c self u da mina db minb custom dl w = Ok (tt, w') ->
  exists p', pool_at w' self p' /\ 0 < p_total p /\ p_total p <= p_total p' /\
    p_ra p * p_total p' <= p_ra p' * p_total p /\ p_rb p * p_total p' <= p_rb p' * p_total p.
Proof.
  intros R N Hp Fa Fb X.
  destruct (deposit_facts _ _ _ _ _ _ _ _ _ _ _ _ _ _ R N Hp X) as [p' [xa [xb [a [b [m [lk [Ep F]]]]]]]].
  pose proof (reach_pool _ _ R _ _ Hp) as I. exists p'. split; [exact Ep|].
  assert (NT : p_total p <> 0) by (intros Q; pose proof (pi_zero _ _ _ I Q); lia).
  destruct (df_later F NT) as [L0 [_ [_ [_ [_ [L1 L2]]]]]].
  pose proof (df_minted F).
  pose proof (df_total F).
  destruct (pi_min _ _ _ I); [contradiction|]. split; [lia|]. split; [lia|]. auto.
Qed.
Print Assumptions C10_deposit_no_dilution.

(** ** C11, C12: the product of reserves *)
(** Every swap of the pool at [self], in any state, called by anyone other than the pool. *)
Record SwapFacts (e : Env) (c : option Addr) (self u offer amt : Z) (mi ms dl mf : option Z) (w w' : World)
    (ret : Z) (p p' : Pool) (x y gross fee spread : Z) (buy : Addr) : Prop := {
  sf_before : pool_at w self p; sf_after : pool_at w' self p';
  sf_side : side p offer x y buy;
  sf_side' : side p' offer (x + amt) (y - gross) buy;
  sf_same : p' = set_p_res p (p_ra p') (p_rb p');
  sf_gross : gross = ret + fee;
  sf_pos : 0 < x /\ 0 < y /\ 0 < amt /\ 0 < gross <= y /\ 0 <= ret /\ 0 <= fee;
  sf_product : x * y - (x + amt) < (x + amt) * (y - gross) <= x * y;
  sf_fee : fee = gross * p_fee p / 10000;
  sf_spread : spread = amt * y / x - gross /\ 0 <= spread;
  sf_limit : spread * 10^18 < (opt_or ms (p_maxspread p) * 10^14 + 1) * gross;
  sf_ms : forall s, ms = Some s -> 0 <= s <= p_maxspread p;
  sf_min : forall m, mi = Some m -> m <= ret;
  sf_mf : forall f, mf = Some f -> p_fee p <= f;
  sf_dl : forall d, dl = Some d -> w_now w <= d;
  sf_auth : authed e c u = true;
  sf_rest : w' = set_pool (set_tok w (w_tok w')) (w_pool w');
  sf_others : forall c', c' <> self -> fget c' (w_pool w') = fget c' (w_pool w);
  sf_bal : forall t a, bal w' t a = bal w t a
      - on ((t =? offer) && (a =? u)) amt + on ((t =? offer) && (a =? self)) amt
      + on ((t =? buy) && (a =? u)) ret + on ((t =? buy) && (a =? p_feerec p)) fee
      - on ((t =? buy) && (a =? self)) gross;
  sf_supply : forall t, supply w' t = supply w t }.

Arguments sf_before {e c self u offer amt mi ms dl mf w w' ret p p' x y gross fee spread buy}.
Arguments sf_after {e c self u offer amt mi ms dl mf w w' ret p p' x y gross fee spread buy}.
Arguments sf_side {e c self u offer amt mi ms dl mf w w' ret p p' x y gross fee spread buy}.
Arguments sf_side' {e c self u offer amt mi ms dl mf w w' ret p p' x y gross fee spread buy}.
Arguments sf_same {e c self u offer amt mi ms dl mf w w' ret p p' x y gross fee spread buy}.
Arguments sf_gross {e c self u offer amt mi ms dl mf w w' ret p p' x y gross fee spread buy}.
Arguments sf_pos {e c self u offer amt mi ms dl mf w w' ret p p' x y gross fee spread buy}.
Arguments sf_product {e c self u offer amt mi ms dl mf w w' ret p p' x y gross fee spread buy}.
Arguments sf_fee {e c self u offer amt mi ms dl mf w w' ret p p' x y gross fee spread buy}.
Arguments sf_spread {e c self u offer amt mi ms dl mf w w' ret p p' x y gross fee spread buy}.
Arguments sf_limit {e c self u offer amt mi ms dl mf w w' ret p p' x y gross fee spread buy}.
Arguments sf_ms {e c self u offer amt mi ms dl mf w w' ret p p' x y gross fee spread buy}.
Arguments sf_min {e c self u offer amt mi ms dl mf w w' ret p p' x y gross fee spread buy}.
Arguments sf_mf {e c self u offer amt mi ms dl mf w w' ret p p' x y gross fee spread buy}.
Arguments sf_dl {e c self u offer amt mi ms dl mf w w' ret p p' x y gross fee spread buy}.
Arguments sf_auth {e c self u offer amt mi ms dl mf w w' ret p p' x y gross fee spread buy}.
Arguments sf_rest {e c self u offer amt mi ms dl mf w w' ret p p' x y gross fee spread buy}.
Arguments sf_others {e c self u offer amt mi ms dl mf w w' ret p p' x y gross fee spread buy}.
Arguments sf_bal {e c self u offer amt mi ms dl mf w w' ret p p' x y gross fee spread buy}.
Arguments sf_supply {e c self u offer amt mi ms dl mf w w' ret p p' x y gross fee spread buy}.

Lemma fee_floor g f : g * dec_bps f / DEC = g * f / 10000.
Proof.
  unfold dec_bps, DEC. replace (g * (f * 100000000000000)) with ((g * f) * 100000000000000) by lia.
  change 1000000000000000000 with (10000 * 100000000000000). apply Z.div_mul_cancel_r; lia.
Qed.

Lemma swap_facts e c self u offer amt mi ms dl mf w ret w' : u <> self ->
  pool_swap e c self u offer amt mi ms dl mf w = Ok (ret, w') ->
  exists p p' x y gross fee spread buy,
    SwapFacts e c self u offer amt mi ms dl mf w w' ret p p' x y gross fee spread buy.
Proof.
  intros Ns X. apply pool_swap_ok in X. destruct X as [C [A [Pa [Dl X]]]].
  apply do_swap_ok in X; auto. destruct X as [p [r [w1 [w2 [w3 E]]]]].
  pose proof (SwapEff_nums _ _ _ _ _ _ _ _ _ _ _ _ _ _ _ _ E) as SN.
  pose proof (swap_both_pos _ _ _ _ _ _ _ _ _ _ _ _ _ _ _ _ E) as [Px [Py Pg]].
  destruct E as [Ep Eo _ _ Er Emi Emf Ems Et [q [Eq Lq]] Ei Eout Ec Ee]. subst ret.
  pose proof (gross_bounds _ _ _ (sn_x _ _ _ _ _ SN) (sn_y _ _ _ _ _ SN) (sn_dx _ _ _ _ _ SN)) as [GB GP].
  destruct SN as [_ _ _ _ Ssum Scomm Sret Scp _ Sspr Ssp].
  rewrite <- Ssum in GB, GP, Scomm, Sspr.
  exists p. eexists. exists (res_of p offer), (res_other p offer), (cs_ret r + cs_comm r), (cs_comm r), (cs_spread r), (buy_of p offer).
  assert (Ep' : fget self (w_pool w') = Some (set_res_for p offer (res_of p offer + amt) (res_other p offer - (cs_ret r + cs_comm r)))).
  { rewrite Ee. simpl. apply fget_set_same. }
  constructor; try exact Ep'; auto; try lia.
  - apply side_of; auto.
  - destruct (side_of _ _ Eo) as [[-> [E2 [E3 E4]]]|[-> [N2 [E2 [E3 E4]]]]].
    + left. unfold set_res_for. rewrite Z.eqb_refl. simpl. auto.
    + right. unfold set_res_for. destruct (Z.eqb_spec (p_tb p) (p_ta p)); [congruence|]. simpl. auto.
  - unfold set_res_for. destruct (offer =? p_ta p); reflexivity.
  - rewrite Scomm at 1. apply fee_floor.
  - apply dec_from_ratio_pos in Eq; [|lia|lia]. destruct Eq as [_ [_ [_ Uq]]].
    change DEC with (10^18) in Uq. unfold dec_bps in Lq.
    assert ((cs_ret r + cs_comm r) * (q + 1) <= (opt_or ms (p_maxspread p) * 10 ^ 14 + 1) * (cs_ret r + cs_comm r)) by nia.
    lia.
  - rewrite Ee. rewrite (mv_rest _ _ _ _ _ _ Ec), (mv_rest _ _ _ _ _ _ Eout), (mv_rest _ _ _ _ _ _ Ei). reflexivity.
  - intros c' Nc. rewrite Ee. simpl. apply fget_set_other; auto.
  - intros t a. rewrite (bal_wtok w3 w') by (rewrite Ee; reflexivity).
    rewrite (mv_bal _ _ _ _ _ _ Ec), (mv_bal _ _ _ _ _ _ Eout), (mv_bal _ _ _ _ _ _ Ei); change on with ind.
    replace (ind ((t =? buy_of p offer) && (a =? self)) (cs_ret r + cs_comm r)) with
      (ind ((t =? buy_of p offer) && (a =? self)) (cs_ret r) + ind ((t =? buy_of p offer) && (a =? self)) (cs_comm r)).
    + lia.
    + unfold ind. destruct (_ && _); lia.
  - intros t. rewrite (supply_wtok w3 w') by (rewrite Ee; reflexivity).
    rewrite (mv_sup _ _ _ _ _ _ Ec), (mv_sup _ _ _ _ _ _ Eout), (mv_sup _ _ _ _ _ _ Ei). reflexivity.
Qed.

Theorem C11_constant_product e c self u offer amt mi ms dl mf w ret w' : u <> self ->
  pool_swap e c self u offer amt mi ms dl mf w = Ok (ret, w') ->
  exists p p' x y y' buy, pool_at w self p /\ pool_at w' self p' /\
    side p offer x y buy /\ side p' offer (x + amt) y' buy /\
    x * y - (x + amt) < (x + amt) * y' <= x * y.
Proof.
  intros Ns X. destruct (swap_facts _ _ _ _ _ _ _ _ _ _ _ _ _ Ns X) as [p [p' [x [y [g [f [sp [buy F]]]]]]]].
  exists p, p', x, y, (y - g), buy.
  split; [apply (sf_before F)|]. split; [apply (sf_after F)|]. split; [apply (sf_side F)|]. split; [apply (sf_side' F)|].
  apply (sf_product F).
Qed.
Print Assumptions C11_constant_product.

(** ** C13 *)
Theorem C13_price_below_spot e c self u offer amt mi ms dl mf w ret w' : u <> self ->
  pool_swap e c self u offer amt mi ms dl mf w = Ok (ret, w') ->
  exists p p' x y y' buy, pool_at w self p /\ pool_at w' self p' /\
    side p offer x y buy /\ side p' offer (x + amt) y' buy /\
    0 < x /\ 0 < y - y' <= y /\ (y - y') * x <= amt * y /\ ret <= y - y' /\
    (forall r w1, pool_simulate_swap self offer amt w = Ok (r, w1) ->
       ss_spread r = amt * y / x - (y - y')).
Proof.
  intros Ns X. destruct (swap_facts _ _ _ _ _ _ _ _ _ _ _ _ _ Ns X) as [p [p' [x [y [g [f [sp [buy F]]]]]]]].
  exists p, p', x, y, (y - g), buy.
  pose proof (sf_pos F) as P. pose proof (sf_gross F) as Gg. pose proof (sf_spread F) as [S1 S2].
  split; [apply (sf_before F)|]. split; [apply (sf_after F)|]. split; [apply (sf_side F)|]. split; [apply (sf_side' F)|].
  split; [lia|]. split; [lia|]. split.
  { pose proof (div_floor (amt * y) x ltac:(lia)). nia. }
  split; [lia|].
  intros r w1 Q. clear Gg S1. unfold pool_simulate_swap in Q. rstep Q. winv.
  match goal with R : fget self (w_pool w) = Some ?q |- _ => pose proof (sf_before F) as B; unfold pool_at in B; rewrite B in R; inversion R; subst q end.
  match goal with R : _ = Ok (r, w1) |- _ => rename R into Q end.
  destruct (side_eq _ _ _ _ _ (sf_side F)) as [Ex [Ey _]].
  assert (E1 : (if offer =? p_ta p then (p_ra p, p_rb p) else (p_rb p, p_ra p)) = (x, y)).
  { subst x y. unfold res_of, res_other. destruct (offer =? p_ta p); reflexivity. }
  rewrite E1 in Q. clear Ex Ey. rstep Q. simpl.
  match goal with R : compute_swap _ _ _ _ _ = Ok ?z |- _ => pose proof (compute_swap_ok _ _ _ _ _ R) as SN; rename z into cr end.
  pose proof (sf_product F) as Pr.
  assert (G1 : gross_out x y amt = g).
  { pose proof (gross_bounds x y amt ltac:(lia) ltac:(lia) ltac:(lia)) as [_ Q2].
    remember (gross_out x y amt) as g2. clear - Q2 Pr P. nia. }
  rewrite (sn_spread _ _ _ _ _ SN), G1. lia.
Qed.
Print Assumptions C13_price_below_spot.

(** ** C14 *)
Theorem C14_swap_settlement e c self u offer amt mi ms dl mf w ret w' : u <> self ->
  pool_swap e c self u offer amt mi ms dl mf w = Ok (ret, w') ->
  exists p p' x y gross fee buy, pool_at w self p /\ pool_at w' self p' /\
    side p offer x y buy /\ side p' offer (x + amt) (y - gross) buy /\
    gross = ret + fee /\ fee = gross * p_fee p / 10000 /\ 0 < amt /\ 0 <= ret /\
    (* only the two reserves of this pool and token balances change *)
    p' = set_p_res p (p_ra p') (p_rb p') /\
    w' = set_pool (set_tok w (w_tok w')) (w_pool w') /\
    (forall c', c' <> self -> fget c' (w_pool w') = fget c' (w_pool w)) /\
    (forall t a, bal w' t a = bal w t a
      - on ((t =? offer) && (a =? u)) amt + on ((t =? offer) && (a =? self)) amt
      + on ((t =? buy) && (a =? u)) ret + on ((t =? buy) && (a =? p_feerec p)) fee
      - on ((t =? buy) && (a =? self)) gross) /\
    (forall t, supply w' t = supply w t).
Proof.
  intros Ns X. destruct (swap_facts _ _ _ _ _ _ _ _ _ _ _ _ _ Ns X) as [p [p' [x [y [g [f [sp [buy F]]]]]]]].
  exists p, p', x, y, g, f, buy.
  split; [apply (sf_before F)|]. split; [apply (sf_after F)|]. split; [apply (sf_side F)|]. split; [apply (sf_side' F)|].
  split; [apply (sf_gross F)|]. split; [apply (sf_fee F)|]. split; [apply (sf_pos F)|]. split; [apply (sf_pos F)|].
  split; [apply (sf_same F)|]. split; [apply (sf_rest F)|]. split; [apply (sf_others F)|]. split; [apply (sf_bal F)|].
  apply (sf_supply F).
Qed.
Print Assumptions C14_swap_settlement.

(** in reachable states the side condition [u <> self] holds for every caller other than the pool *)
Theorem C14_sender_is_not_the_pool H w e c self u offer amt mi ms dl mf ret w' :
  reachable H w -> c <> Some self -> pool_swap e c self u offer amt mi ms dl mf w = Ok (ret, w') -> u <> self.
Proof.
  intros R N X. apply pool_swap_ok in X. destruct X as [C [A _]]. eapply sender_not_self; eauto.
Qed.
Print Assumptions C14_sender_is_not_the_pool.

(** ** C15 *)
Theorem C15_swap_guards e c self u offer amt mi ms dl mf w ret w' : u <> self ->
  pool_swap e c self u offer amt mi ms dl mf w = Ok (ret, w') ->
  exists p p' x y y' buy, pool_at w self p /\ pool_at w' self p' /\
    side p offer x y buy /\ side p' offer (x + amt) y' buy /\
    authed e c u = true /\
    (forall d, dl = Some d -> w_now w <= d) /\
    (forall m, mi = Some m -> m <= ret) /\
    (forall f, mf = Some f -> p_fee p <= f) /\
    (forall s, ms = Some s -> 0 <= s <= p_maxspread p) /\
    (* spread over gross amount is within the limit in bps, up to 10^-18 *)
    let limit := match ms with Some s => s | None => p_maxspread p end in
    (amt * y / x - (y - y')) * 10^18 < (limit * 10^14 + 1) * (y - y').
Proof.
  intros Ns X. destruct (swap_facts _ _ _ _ _ _ _ _ _ _ _ _ _ Ns X) as [p [p' [x [y [g [f [sp [buy F]]]]]]]].
  exists p, p', x, y, (y - g), buy.
  split; [apply (sf_before F)|]. split; [apply (sf_after F)|]. split; [apply (sf_side F)|]. split; [apply (sf_side' F)|].
  split; [apply (sf_auth F)|]. split; [apply (sf_dl F)|]. split; [apply (sf_min F)|]. split; [apply (sf_mf F)|].
  split; [apply (sf_ms F)|]. pose proof (sf_limit F) as L. rewrite (proj1 (sf_spread F)) in L. cbv zeta.
  replace (y - (y - g)) with g by lia. exact L.
Qed.
Print Assumptions C15_swap_guards.

(** ** C16 *)
Theorem C16_quote_is_execution self offer amt w r w1 : pool_simulate_swap self offer amt w = Ok (r, w1) ->
  w1 = w /\ ss_total r = ss_ask r + ss_comm r + ss_spread r /\
  forall e c u mi ms dl mf ret w', u <> self ->
    pool_swap e c self u offer amt mi ms dl mf w = Ok (ret, w') ->
    ret = ss_ask r /\
    exists p p' x y buy, pool_at w self p /\ pool_at w' self p' /\ side p offer x y buy /\
      side p' offer (x + amt) (y - (ss_ask r + ss_comm r)) buy /\
      ss_comm r = (ss_ask r + ss_comm r) * p_fee p / 10000 /\
      ss_spread r = amt * y / x - (ss_ask r + ss_comm r).
Proof.
  intros Q. unfold pool_simulate_swap in Q. rstep Q. winv.
  match goal with R : fget self (w_pool w) = Some ?q |- _ => rename q into p; rename R into Hp end.
  match goal with R : _ = Ok (r, w1) |- _ => rename R into Q end.
  assert (E1 : (if offer =? p_ta p then (p_ra p, p_rb p) else (p_rb p, p_ra p)) = (res_of p offer, res_other p offer)).
  { unfold res_of, res_other. destruct (offer =? p_ta p); reflexivity. }
  rewrite E1 in Q. rstep Q. simpl.
  match goal with R : compute_swap _ _ _ _ _ = Ok ?z |- _ => rename z into cr; rename R into CS end.
  split; [reflexivity|]. split; [lia|].
  intros e c u mi ms dl mf ret w' Ns X.
  destruct (swap_facts _ _ _ _ _ _ _ _ _ _ _ _ _ Ns X) as [p0 [p' [xs [ys [g [f [sp [buy F]]]]]]]].
  pose proof (sf_before F) as B. unfold pool_at in B. rewrite Hp in B. inversion B; subst p0.
  destruct (side_eq _ _ _ _ _ (sf_side F)) as [Ex [Ey _]].
  rewrite <- Ex, <- Ey in CS. pose proof (compute_swap_ok _ _ _ _ _ CS) as SN.
  pose proof (sf_pos F) as P. pose proof (sf_product F) as Pr.
  assert (G1 : gross_out xs ys amt = g).
  { pose proof (gross_bounds xs ys amt ltac:(lia) ltac:(lia) ltac:(lia)) as [_ Q2].
    remember (gross_out xs ys amt) as g2. clear - Q2 Pr P. nia. }
  pose proof (sn_sum _ _ _ _ _ SN) as S1. pose proof (sn_comm _ _ _ _ _ SN) as S2. rewrite G1 in S1, S2.
  rewrite fee_floor in S2. pose proof (sf_fee F). pose proof (sf_gross F).
  split; [lia|]. exists p, p', xs, ys, buy. rewrite S1.
  split; [exact Hp|]. split; [apply (sf_after F)|]. split; [apply (sf_side F)|]. split; [apply (sf_side' F)|].
  split; [exact S2|]. rewrite (sn_spread _ _ _ _ _ SN), G1. reflexivity.
Qed.
Print Assumptions C16_quote_is_execution.

Lemma net_after_fee g f fee ret : fee = g * f / 10000 -> g = ret + fee -> g * (10000 - f) <= ret * 10000.
Proof. intros E1 E2. pose proof (Z.mul_div_le (g * f) 10000 ltac:(lia)). rewrite <- E1 in H. lia. Qed.

Lemma quote_bound D e4 amt inv g om ret :
  0 < amt -> 0 < D -> 0 < om -> om <= 10000 -> D = 10000 * e4 -> 0 < e4 ->
  amt * inv < D * g -> D * D < om * e4 * (inv + 1) -> g * om <= ret * 10000 ->
  amt * (D * D) < ret * (D * D) + amt * D.
Proof.
  intros Pa PD Po Lo ED Pe K1 K2 K3.
  assert (A1 : (amt * inv + 1) * (om * e4) <= D * g * (om * e4)) by (apply Z.mul_le_mono_nonneg_r; nia).
  assert (A2 : D * g * (om * e4) <= ret * (D * D)).
  { replace (D * g * (om * e4)) with (D * e4 * (g * om)) by ring.
    replace (ret * (D * D)) with (D * e4 * (ret * 10000)) by (rewrite ED; ring).
    apply Z.mul_le_mono_nonneg_l; nia. }
  assert (A3 : amt * (D * D) < amt * (om * e4 * (inv + 1))) by (apply Z.mul_lt_mono_pos_l; auto).
  assert (A4 : om * e4 <= D) by nia.
  assert (A5 : amt * (om * e4) <= amt * D) by (apply Z.mul_le_mono_nonneg_l; lia).
  assert (A6 : 0 < om * e4) by nia. lia.
Qed.
Lemma quote_final D amt ret : 0 < D -> 0 < amt -> amt * (D * D) < ret * (D * D) + amt * D ->
  (amt <= D -> amt <= ret) /\ amt * D < ret * D + amt.
Proof.
  intros PD Pa K.
  assert (K2 : amt * D < ret * D + amt).
  { apply Z.mul_lt_mono_pos_l with D; auto. lia. }
  split; [|exact K2]. intros L. destruct (Z_le_gt_dec amt ret); auto. exfalso. nia.
Qed.

(** ** C17: the quote itself may be short (refuted below), one more unit is enough *)
Theorem C17_quote_plus_one_suffices H w self ask amt r w1 e c u mi ms dl mf offer ret w' p :
  reachable H w -> pool_at w self p -> c <> Some self -> 0 < amt ->
  pool_simulate_reverse self ask amt w = Ok (r, w1) ->
  (offer = p_ta p /\ ask = p_tb p) \/ (offer = p_tb p /\ ask = p_ta p) ->
  pool_swap e c self u offer (sr_offer r + 1) mi ms dl mf w = Ok (ret, w') ->
  (amt <= 10^18 -> amt <= ret) /\ amt * 10^18 < ret * 10^18 + amt.
Proof.
  intros R Hp N Pa Q Os X.
  pose proof (C14_sender_is_not_the_pool _ _ _ _ _ _ _ _ _ _ _ _ _ _ R N X) as Ns.
  destruct (swap_facts _ _ _ _ _ _ _ _ _ _ _ _ _ Ns X) as [p0 [p' [x [y [g [f [sp [buy F]]]]]]]].
  pose proof (sf_before F) as B. unfold pool_at in *. rewrite Hp in B. inversion B; subst p0.
  pose proof (reach_pool _ _ R _ _ Hp) as I. pose proof (pi_ord _ _ _ I) as Ord. pose proof (pi_bps _ _ _ I) as Bps.
  unfold pool_simulate_reverse in Q. rstep Q. winv.
  match goal with K : fget self (w_pool w) = Some ?q |- _ => rewrite Hp in K; inversion K; subst q end.
  match goal with K : _ = Ok (r, w1) |- _ => rename K into Q end.
  assert (E1 : (if ask =? p_tb p then (p_ra p, p_rb p) else (p_rb p, p_ra p)) = (x, y)).
  { destruct (side_eq _ _ _ _ _ (sf_side F)) as [-> [-> _]]. unfold res_of, res_other.
    destruct Os as [[-> ->]|[-> ->]].
    - rewrite !Z.eqb_refl. reflexivity.
    - destruct (Z.eqb_spec (p_ta p) (p_tb p)), (Z.eqb_spec (p_tb p) (p_ta p)); try lia. reflexivity. }
  rewrite E1 in Q. apply mbind_ok in Q. destruct Q as [[[o s] cm] [w2 [Q1 Q2]]].
  apply mlift_ok in Q1. destruct Q1 as [v [Q1 Ev]]. inversion Ev; subst v w2.
  rstep Q2. simpl in *.
  pose proof (sf_pos F) as P. pose proof (sf_product F) as Pr.
  unfold compute_offer_amount, dec_sub, dec_div in Q1. rstep Q1.
  pose proof (sf_fee F) as Fe. pose proof (sf_gross F) as Fg.
  unfold vbps in Bps. assert (BF : 0 <= p_fee p <= 10000) by lia.
  repeat match goal with K : dec_from_ratio _ _ = Ok ?z |- _ => rename z into inv; rename K into Kinv end.
  match goal with K : i_mul_dec amt _ = Ok ?z |- _ => rename z into q0; rename K into Kg end.
  assert (PO : 0 < dec_one - dec_bps (p_fee p)).
  { pose proof (proj1 (dec_from_ratio_ok _ _ _ Kinv)). unfold dec_one, dec_bps, DEC in *. lia. }
  assert (Pone : 0 <= dec_one) by (unfold dec_one, DEC; lia).
  apply dec_from_ratio_pos in Kinv; [|exact Pone|exact PO]. destruct Kinv as [Pi [_ [_ Ui]]].
  apply i_mul_dec_pos in Kg; [|lia|exact Pi]. destruct Kg as [Pg0 [_ [_ Ug]]].
  (* the quotient is positive, so the requested gross amount is below the reserve *)
  assert (DP : 0 < y - q0).
  { destruct (Z_lt_le_dec 0 (y - q0)); auto. exfalso.
    assert (x * y ÷ (y - q0) <= 0); [|lia].
    destruct (Z.eq_dec (y - q0) 0) as [Z0|Z0]; [rewrite Z0, Z.quot_0_r_ext by reflexivity; lia|].
    replace (y - q0) with (- (q0 - y)) by lia. rewrite Z.quot_opp_r by lia.
    assert (0 <= x * y ÷ (q0 - y)) by (apply Z.quot_pos; nia). lia. }
  rewrite quot_nonneg_div in * by nia.
  pose proof (div_floor (x * y) (y - q0) DP) as [D1 D2].
  remember (x * y / (y - q0)) as q1.
  (* more than q0 leaves the pool *)
  assert (G1 : q0 + 1 <= g).
  { replace (x + (q1 - x + 1)) with (q1 + 1) in * by lia.
    assert (0 < q1 + 1) by lia.
    assert (LT : (q1 + 1) * (y - g) < (q1 + 1) * (y - q0)) by lia.
    apply Z.mul_lt_mono_pos_l in LT; [lia|assumption]. }
  (* what is left after the fee *)
  pose proof (net_after_fee _ _ _ _ Fe Fg) as NetB.
  change (10^18) with DEC. apply quote_final; [reflexivity|exact Pa|].
  apply (quote_bound DEC 100000000000000 amt inv g (10000 - p_fee p) ret); auto.
  - reflexivity.
  - clear - PO BF. unfold dec_one, dec_bps, DEC in PO. lia.
  - clear - BF. lia.
  - reflexivity.
  - apply Z.lt_le_trans with (DEC * (q0 + 1)); [exact Ug|]. apply Z.mul_le_mono_nonneg_l; [discriminate|exact G1].
  - replace ((10000 - p_fee p) * 100000000000000) with (dec_one - dec_bps (p_fee p)) by (unfold dec_one, dec_bps, DEC; ring).
    exact Ui.
Qed.
Print Assumptions C17_quote_plus_one_suffices.

(** ** C18 *)
Theorem C18_deposit_bounds H w e c self u da mina db minb custom dl w' p :
  reachable H w -> c <> Some self -> pool_at w self p ->
  pool_provide e c self u da mina db minb custom dl w = Ok (tt, w') ->
  exists xa xb a b minted locked, da = Some xa /\ db = Some xb /\ authed e c u = true /\
    (* the sender loses a and b and nobody else pays *)
    (forall t x, bal w' t x = bal w t x
      - on ((t =? p_ta p) && (x =? u)) a + on ((t =? p_ta p) && (x =? self)) a
      - on ((t =? p_tb p) && (x =? u)) b + on ((t =? p_tb p) && (x =? self)) b
      + on ((t =? p_share p) && (x =? u)) minted + on ((t =? p_share p) && (x =? self)) locked) /\
    0 <= minted /\ 0 <= locked /\ 0 <= a <= xa /\ 0 <= b <= xb /\
    (* the minimum is respected, except by a first deposit asking for more than it offers *)
    (forall m, mina = Some m -> p_total p <> 0 \/ m <= xa -> m <= a) /\
    (forall m, minb = Some m -> p_total p <> 0 \/ m <= xb -> m <= b).
Proof.
  intros R N Hp X.
  destruct (deposit_facts _ _ _ _ _ _ _ _ _ _ _ _ _ _ R N Hp X) as [p' [xa [xb [a [b [m [lk [Ep F]]]]]]]].
  exists xa, xb, a, b, m, lk.
  split; [apply (df_da F)|]. split; [apply (df_db F)|]. split; [apply (df_auth F)|]. split; [apply (df_bal F)|].
  split; [apply (df_minted F)|]. split.
  { destruct (Z.eq_dec (p_total p) 0) as [Q|Q].
    - destruct (df_first F Q) as [_ [_ [_ ->]]]. lia.
    - destruct (df_later F Q) as [-> _]. lia. }
  split; [apply (df_a F)|]. split; [apply (df_b F)|]. split; [apply (df_min_a F)|]. apply (df_min_b F).
Qed.
Print Assumptions C18_deposit_bounds.

(** ** C19 *)
Theorem C19_deposit_withdraw_no_profit H w e c self u da mina db minb custom dl w1 p p1
    w2 e2 c2 u2 mina2 minb2 dl2 a2 b2 w3 :
  reachable H w -> c <> Some self -> pool_at w self p -> p_total p <> 0 ->
  (* no donated tokens *)
  bal w (p_ta p) self = p_ra p -> bal w (p_tb p) self = p_rb p ->
  pool_provide e c self u da mina db minb custom dl w = Ok (tt, w1) -> pool_at w1 self p1 ->
  (* later, with nothing else happening to the pool, somebody redeems as many shares as were minted *)
  reachable H w2 -> pool_at w2 self p1 -> c2 <> Some self ->
  pool_withdraw e2 c2 self u2 (p_total p1 - p_total p) mina2 minb2 dl2 w2 = Ok ((a2, b2), w3) ->
  exists a b, 0 <= a /\ 0 <= b /\ a2 <= a /\ b2 <= b /\
    (* a and b are what the deposit took *)
    (forall t x, bal w1 t x = bal w t x
      - on ((t =? p_ta p) && (x =? u)) a + on ((t =? p_ta p) && (x =? self)) a
      - on ((t =? p_tb p) && (x =? u)) b + on ((t =? p_tb p) && (x =? self)) b
      + on ((t =? p_share p) && (x =? u)) (p_total p1 - p_total p)).
Proof.
  intros R N Hp NT Da Db X Hp1 R2 Hp2 N2 Y.
  destruct (deposit_facts _ _ _ _ _ _ _ _ _ _ _ _ _ _ R N Hp X) as [p' [xa [xb [a [b [m [lk [Ep F]]]]]]]].
  unfold pool_at in *. rewrite Hp1 in Ep. inversion Ep; subst p'.
  destruct (C09_withdrawal_pro_rata _ _ _ _ _ _ _ _ _ _ _ _ _ _ R2 N2 Hp2 Y) as [p3 [_ Z]]. cbv zeta in Z.
  destruct Z as [S1 [S2 [Wa [Wb _]]]].
  destruct (df_later F NT) as [L0 [_ [_ [_ [_ [L1 L2]]]]]].
  pose proof (df_ra F) as Ra. pose proof (df_rb F) as Rb. rewrite Da in Ra. rewrite Db in Rb.
  pose proof (df_total F) as Tt. pose proof (df_minted F) as Mm.
  pose proof (df_a F). pose proof (df_b F).
  exists a, b. split; [lia|]. split; [lia|].
  assert (0 < p_total p1) by lia.
  split; [nia|]. split; [nia|].
  intros t x. rewrite (df_bal F t x). subst lk. replace (p_total p1 - p_total p) with m by lia.
  unfold on. destruct ((t =? p_share p) && (x =? self)); lia.
Qed.
Print Assumptions C19_deposit_withdraw_no_profit.

(** ** C20 *)
Theorem C20_round_trip H w e1 c1 self u1 offer dx mi1 ms1 dl1 mf1 r1 w1 w2 e2 c2 u2 buy mi2 ms2 dl2 mf2 r2 w3 p x y :
  reachable H w -> u1 <> self -> u2 <> self -> pool_at w self p -> side p offer x y buy ->
  pool_swap e1 c1 self u1 offer dx mi1 ms1 dl1 mf1 w = Ok (r1, w1) ->
  (* nothing else happens to the pool before the way back *)
  fget self (w_pool w2) = fget self (w_pool w1) ->
  pool_swap e2 c2 self u2 buy r1 mi2 ms2 dl2 mf2 w2 = Ok (r2, w3) ->
  r2 <= dx + (x + dx - 1 + (y - 1)) / y /\
  exists p1 fee1, pool_at w1 self p1 /\ side p1 offer (x + dx) (y - (r1 + fee1)) buy /\
    fee1 = (r1 + fee1) * p_fee p / 10000 /\
    (dx - 1 <= (fee1 - 1) * x -> r2 <= dx).
Proof.
  intros R N1 N2 Hp Sd X Eq Y.
  pose proof (pi_ord _ _ _ (reach_pool _ _ R _ _ Hp)) as Ord.
  destruct (swap_facts _ _ _ _ _ _ _ _ _ _ _ _ _ N1 X) as [p0 [p1 [x0 [y0 [g1 [f1 [sp1 [buy1 F1]]]]]]]].
  destruct (swap_facts _ _ _ _ _ _ _ _ _ _ _ _ _ N2 Y) as [p2 [p3 [x2 [y2 [g2 [f2 [sp2 [buy2 F2]]]]]]]].
  pose proof (sf_before F1) as B1. unfold pool_at in *. rewrite Hp in B1. inversion B1; subst p0.
  pose proof (sf_before F2) as B2. pose proof (sf_after F1) as A1. unfold pool_at in *. rewrite Eq, A1 in B2. inversion B2; subst p2.
  destruct (side_eq _ _ _ _ _ (sf_side F1)) as [E1 [E2 E3]]. destruct (side_eq _ _ _ _ _ Sd) as [E4 [E5 E6]].
  assert (x0 = x) by congruence. assert (y0 = y) by congruence. assert (buy1 = buy) by congruence. clear E1 E2 E3 E4 E5 E6. subst x0 y0 buy1.
  assert (S2 : x2 = y - g1 /\ y2 = x + dx).
  { pose proof (sf_side' F1) as Sa. pose proof (sf_side F2) as Sb. pose proof (sf_same F1) as Sm.
    assert (p_ta p1 = p_ta p) by (rewrite Sm; reflexivity). assert (p_tb p1 = p_tb p) by (rewrite Sm; reflexivity).
    destruct Sa as [[? [? [? ?]]]|[? [? [? [? ?]]]]], Sb as [[? [? [? ?]]]|[? [? [? [? ?]]]]]; split; try congruence; exfalso; lia. }
  destruct S2 as [-> ->].
  pose proof (sf_pos F1) as P1. pose proof (sf_pos F2) as P2.
  pose proof (sf_product F1) as Q1. pose proof (sf_product F2) as Q2.
  pose proof (sf_gross F1) as G1. pose proof (sf_gross F2) as G2.
  pose proof (sf_fee F1) as Fe1.
  replace (y - g1 + r1) with (y - f1) in Q2 by lia.
  (* Q2 : (y - g1) * (x + dx) - (y - f1) < (y - f1) * (x + dx - g2) *)
  assert (Pf : 0 < y - f1) by lia.
  split.
  - pose proof (div_floor (x + dx - 1 + (y - 1)) y ltac:(lia)) as [_ Dq].
    remember ((x + dx - 1 + (y - 1)) / y) as k.
    assert (K : x + dx - 1 <= y * k) by nia.
    (* (y-f1)*(x+dx-g2+1) > (y-g1)(x+dx) > xy-(x+dx) >= y(x-k)-1 *)
    assert (x - k < x + dx - g2 + 1); [|lia].
    destruct (Z_lt_le_dec (x - k) (x + dx - g2 + 1)); auto. exfalso.
    assert ((y - f1) * (x + dx - g2 + 1) <= y * (x - k)); [|nia].
    assert (0 <= x + dx - g2 + 1) by lia. nia.
  - exists p1, f1. split; [exact A1|]. rewrite <- G1. split; [apply (sf_side' F1)|]. split; [exact Fe1|].
    intros C. assert (x - 1 < x + dx - g2); [|lia].
    assert ((y - f1) * x <= x * y - (x + dx - 1)) by lia.
    assert ((y - f1) * x < (y - f1) * (x + dx - g2 + 1)) by nia. nia.
Qed.
Print Assumptions C20_round_trip.

(** ** C21 *)
Theorem C21_no_drain H w e c self u offer amt mi ms dl mf ret w' p x y buy :
  reachable H w -> c <> Some self -> pool_at w self p -> side p offer x y buy -> 4 <= y ->
  pool_swap e c self u offer amt mi ms dl mf w = Ok (ret, w') ->
  exists p' y', pool_at w' self p' /\ side p' offer (x + amt) y' buy /\ 0 < y'.
Proof.
  intros R N Hp Sd Y4 X.
  pose proof (C14_sender_is_not_the_pool _ _ _ _ _ _ _ _ _ _ _ _ _ _ R N X) as Ns.
  destruct (swap_facts _ _ _ _ _ _ _ _ _ _ _ _ _ Ns X) as [p0 [p' [x0 [y0 [g [f [sp [buy1 F]]]]]]]].
  pose proof (sf_before F) as B. unfold pool_at in *. rewrite Hp in B. inversion B; subst p0.
  destruct (side_eq _ _ _ _ _ (sf_side F)) as [E1 [E2 E3]]. destruct (side_eq _ _ _ _ _ Sd) as [E4 [E5 E6]].
  assert (x0 = x) by congruence. assert (y0 = y) by congruence. assert (buy1 = buy) by congruence. clear E1 E2 E3 E4 E5 E6. subst x0 y0 buy1.
  exists p', (y - g). split; [apply (sf_after F)|]. split; [apply (sf_side' F)|].
  pose proof (sf_pos F) as P. pose proof (sf_product F) as Pr. pose proof (sf_limit F) as L. pose proof (sf_spread F) as [S1 S2].
  pose proof (pi_bps _ _ _ (reach_pool _ _ R _ _ Hp)) as Bps. unfold vbps in Bps.
  assert (Lim : opt_or ms (p_maxspread p) <= 10000).
  { unfold opt_or. destruct ms as [s|]; [pose proof (sf_ms F s eq_refl); lia|lia]. }
  destruct (Z_lt_le_dec 0 (y - g)); auto. exfalso. assert (g = y) by lia. subst g.
  assert (D : x * y < x + amt) by lia.
  assert (Sp : y * (y - 1) <= amt * y / x) by (apply Z.div_le_lower_bound; nia).
  assert (2 * y <= sp) by nia. nia.
Qed.
Print Assumptions C21_no_drain.

(** ** C22 *)
Theorem C22_settings_valid H w c p : reachable H w -> pool_at w c p ->
  0 <= p_fee p <= 10000 /\ 0 <= p_maxslip p <= 10000 /\ 0 <= p_maxspread p <= 10000 /\ 0 <= p_maxref p <= 10000.
Proof. intros R Hp. pose proof (pi_bps _ _ _ (reach_pool _ _ R _ _ Hp)) as B. unfold vbps in B. lia. Qed.
Print Assumptions C22_settings_valid.

(** ** C24 *)
Theorem C24_only_admin_changes_settings H w e k w' c p : reachable H w -> pool_at w c p -> exec e k w = Ok (tt, w') ->
  exists p', pool_at w' c p' /\
    p_ta p' = p_ta p /\ p_tb p' = p_tb p /\ p_share p' = p_share p /\ p_stake p' = p_stake p /\
    (p_fee p' <> p_fee p \/ p_feerec p' <> p_feerec p \/ p_maxslip p' <> p_maxslip p \/
     p_maxspread p' <> p_maxspread p \/ p_maxref p' <> p_maxref p \/ p_defslip p' <> p_defslip p \/
     p_admin p' <> p_admin p ->
     signs e (p_admin p) = true /\ p_total p' = p_total p /\ p_ra p' = p_ra p /\ p_rb p' = p_rb p).
Proof.
  intros R Hp X.
  destruct (pool_step _ _ _ _ X (reach_good _ _ R) (reach_pool _ _ R) _ _ Hp) as [p' [E [SI [SC _]]]].
  exists p'. split; [exact E|]. destruct SI. split; [auto|]. split; [auto|]. split; [auto|]. split; [auto|].
  intros D. destruct SC as [SC|SC]; [|exact SC]. exfalso. destruct SC. intuition.
Qed.
Print Assumptions C24_only_admin_changes_settings.

Theorem C24_initialise_once w self p e i f d s m w' : pool_at w self p ->
  pool_initialize e self i f d s m w <> Ok (tt, w').
Proof.
  intros Hp X. apply pool_initialize_ok in X. destruct X as [_ [Np _]]. unfold pool_at in Hp. congruence.
Qed.
Print Assumptions C24_initialise_once.

(** ** C25: once one reserve is used up the pool is frozen for ever *)
Theorem C25_drained_pool_is_frozen H w l w' c p : reachable H w -> run H w l w' ->
  pool_at w c p -> p_total p <> 0 -> p_ra p = 0 \/ p_rb p = 0 ->
  (exists p', pool_at w' c p' /\ p_total p' = p_total p /\ p_ra p' = p_ra p /\ p_rb p' = p_rb p) /\
  (forall e d u da mina db minb custom dl w1, d <> Some c -> pool_provide e d c u da mina db minb custom dl w' <> Ok (tt, w1)) /\
  (forall e d u s mina minb dl r w1, d <> Some c -> pool_withdraw e d c u s mina minb dl w' <> Ok (r, w1)) /\
  (forall e d u o a mi ms dl mf r w1, d <> Some c -> pool_swap e d c u o a mi ms dl mf w' <> Ok (r, w1)).
Proof.
  intros R X. revert p. induction X as [w|w ev w1 l w2 S X IH]; intros p Hp Nz D.
  - pose proof (reach_good _ _ R) as G. pose proof (reach_pool _ _ R _ _ Hp) as I.
    split; [exists p; auto|]. repeat split; intros.
    + eapply dead_no_deposit; eauto. split; auto.
    + eapply dead_no_withdraw; eauto. split; auto.
    + eapply dead_no_swap; eauto. split; auto.
  - assert (R1 : reachable H w1) by (eapply reach_run; [exact R|econstructor; [exact S|constructor]]).
    inversion S; subst.
    + destruct (pool_step _ _ _ _ H1 (reach_good _ _ R) (reach_pool _ _ R) _ _ Hp) as [q [Eq [_ [_ [_ T]]]]].
      destruct (T (conj Nz D)) as [T1 [T2 T3]].
      destruct (IH R1 q Eq) as [[p' [A [B [C E]]]] Rest]; [congruence|destruct D; [left|right]; congruence|].
      split; [|exact Rest]. exists p'. split; [exact A|]. split; [congruence|]. split; congruence.
    + apply IH; auto.
Qed.
Print Assumptions C25_drained_pool_is_frozen.

(** ** C72: query_share announces exactly what a withdrawal pays *)
Theorem C72_query_share_is_payout self s w a b w1 e c u mina minb dl a' b' w' :
  pool_query_share self s w = Ok ((a, b), w1) ->
  pool_withdraw e c self u s mina minb dl w = Ok ((a', b'), w') -> w1 = w /\ a' = a /\ b' = b.
Proof.
  intros Q X. apply pool_withdraw_ok in X. destruct X as [_ [_ [p [ratio [v1 [v2 [v3 [v4 E]]]]]]]].
  destruct E as [Ep _ _ Nt Er Ea Eb _ _ _ _ _ _ _].
  unfold pool_query_share in Q. rstep Q. winv.
  match goal with K : fget self (w_pool w) = Some ?q |- _ => rewrite Ep in K; inversion K; subst q end.
  destruct (Z.eqb_spec (p_total p) 0); [contradiction|].
  match goal with K : dec_from_ratio _ _ = Ok ?z, K2 : i_mul_dec (p_ra p) ?z = Ok ?v |- context [?v] =>
    rewrite Er in K; inversion K; subst z end.
  split; [reflexivity|]. split; congruence.
Qed.
Print Assumptions C72_query_share_is_payout.
