(** Properties of the stable pool: C27-C34, C74-C82. *)
From Coq Require Import ZArith List Bool Lia Psatz.
From Coq Require Import ZifyBool.
From Verif Require Import Base FMap Decimal DecimalProofs Curve World Token TokenProofs Frame Stake Pool PoolProofs
  Stable StableProofs NewtonProofs Rewards Vest Factory Router System SysFrame SysInv SysPool SysStable SysSupply Script
  Props_Token Props_Pool.
Import ListNotations.
Open Scope Z_scope.

(** The record of the stable pool contract at address [c]. *)
Definition stable_at (w : World) (c : Addr) (p : Stable) : Prop := fget c (w_stable w) = Some p.

(** The two reserves seen from an offered token: sold into, bought from. *)
Definition lside (p : Stable) (offer : Addr) (x y : Z) (buy : Addr) : Prop :=
  (offer = l_ta p /\ buy = l_tb p /\ x = l_ra p /\ y = l_rb p) \/
  (offer = l_tb p /\ offer <> l_ta p /\ buy = l_ta p /\ x = l_rb p /\ y = l_ra p).

Lemma lside_eq p offer x y buy : lside p offer x y buy ->
  x = l_res p offer /\ y = l_oth p offer /\ buy = l_buy p offer.
Proof.
  unfold l_res, l_oth, l_buy. intros [[-> [-> [-> ->]]]|[-> [N [-> [-> ->]]]]].
  - rewrite Z.eqb_refl. auto.
  - destruct (Z.eqb_spec (l_tb p) (l_ta p)); [congruence|]. auto.
Qed.
Lemma lside_of p offer : offer = l_ta p \/ offer = l_tb p ->
  lside p offer (l_res p offer) (l_oth p offer) (l_buy p offer).
Proof.
  unfold lside, l_res, l_oth, l_buy. intros [->| ->].
  - rewrite Z.eqb_refl. auto.
  - destruct (Z.eqb_spec (l_tb p) (l_ta p)); [left|right]; auto.
Qed.

(** ** C27 *)
Theorem C27_stable_solvency H w c p : reachable H w -> stable_at w c p ->
  0 <= l_ra p <= bal w (l_ta p) c /\ 0 <= l_rb p <= bal w (l_tb p) c /\ l_ta p <> l_tb p.
Proof.
  intros R Hp. pose proof (reach_stable _ _ R _ _ Hp) as I.
  split; [apply (li_ra _ _ _ I)|]. split; [apply (li_rb _ _ _ I)|]. pose proof (li_ord _ _ _ I). lia.
Qed.
Print Assumptions C27_stable_solvency.

(** ** C28 *)
Theorem C28_stable_total_bounds_supply H w c p l : reachable H w -> stable_at w c p ->
  holders w (l_share p) l -> total_of w (l_share p) l <= l_total p.
Proof.
  intros R Hp Hl. rewrite (fine_total w (l_share p) l) by (auto; eapply tk_fine_reachable; eauto).
  apply (li_sup _ _ _ (reach_stable _ _ R _ _ Hp)).
Qed.
Print Assumptions C28_stable_total_bounds_supply.

Theorem C28_stable_total_is_supply H evs w c p l : run_if (no_direct_burn (l_share p)) H w_empty evs w ->
  stable_at w c p -> holders w (l_share p) l -> total_of w (l_share p) l = l_total p.
Proof.
  intros R Hp Hl.
  assert (RC : reachable H w) by (exists evs; eapply run_if_run; eauto).
  rewrite (fine_total w (l_share p) l) by (auto; eapply tk_fine_reachable; eauto).
  assert (SE : ShareEq (l_share p) w).
  { eapply share_eq_run with (w := w_empty).
    - eapply run_if_weaken; [|exact R]. intros w0 k0 N. destruct k0; simpl in *; auto.
      intros [x [E1 E2]]. apply (N x); auto.
    - exists []. constructor.
    - split; intros c0 p0 E; discriminate. }
  apply (proj2 SE _ _ Hp eq_refl).
Qed.
Print Assumptions C28_stable_total_is_supply.

(** ** C29 *)
(** The pool's own invariant value for reserves [a] and [b]: D of the amounts scaled to 18 decimals. *)
Definition scaled (x dec : Z) : Z := x * 10 ^ (18 - dec).
Definition value_D (p : Stable) (a b D : Z) : Prop :=
  compute_d (l_namp p) (scaled a (l_preca p)) (scaled b (l_precb p)) = Ok D.

Lemma scale_ok x d r : 0 <= d <= 18 -> scale_value x d DECIMAL_PRECISION = Ok r -> r = scaled x d.
Proof.
  unfold scale_value, scaled, DECIMAL_PRECISION. intros Hd.
  destruct (Z.ltb_spec d 18); intros H0; rstep H0.
  - match goal with R : pow10_u _ = Ok _ |- _ => apply pow10_u_ok in R; destruct R as [_ [-> _]] end. reflexivity.
  - match goal with R : pow10_u _ = Ok _ |- _ => apply pow10_u_ok in R; destruct R as [_ [-> _]] end.
    replace (d - 18) with 0 by lia. replace (18 - d) with 0 by lia. rewrite Z.pow_0_r, Z.div_1_r. lia.
Qed.
Lemma scaled_nonneg x d : 0 <= x -> 0 <= scaled x d.
Proof. intros. unfold scaled. apply Z.mul_nonneg_nonneg; [auto|]. apply Z.pow_nonneg. lia. Qed.

Lemma w2u_ok x r : w2u x = Ok r -> r = x.
Proof. unfold w2u. destruct (x <=? U128_MAX); intros H; inversion H; auto. Qed.

Lemma amp_reached H w c p : reachable H w -> stable_at w c p -> amp_of p (w_now w) = Ok (l_namp p).
Proof.
  intros R Hp. pose proof (reach_stable _ _ R _ _ Hp) as I. unfold amp_of, current_amp.
  pose proof (li_ampt _ _ _ I). destruct (Z.ltb_spec (w_now w) (l_nampt p)); [lia|reflexivity].
Qed.

Lemma stable_sender H w e c self u K : reachable H w -> fget self (w_code w) = Some K -> c <> Some self ->
  authed e c u = true -> u <> self.
Proof. intros R. apply authed_ne. eapply reach_good; eauto. Qed.

Theorem C29_stable_deposit H w e c self u da db custom dl mins w' p :
  reachable H w -> c <> Some self -> stable_at w self p ->
  stable_provide e c self u da db custom dl mins w = Ok (tt, w') ->
  exists D1 minted p', stable_at w' self p' /\
    value_D p (l_ra p + da) (l_rb p + db) D1 /\
    (* minted shares *)
    0 <= minted /\ (forall m, mins = Some m -> m <= minted) /\
    (l_total p = 0 -> 0 < minted /\ minted = D1 / 10 ^ (18 - l_prec p) - 1000) /\
    (l_total p <> 0 -> exists D0, value_D p (l_ra p) (l_rb p) D0 /\ 0 < D0 <= D1 /\
        minted * D0 <= l_total p * (D1 - D0) /\
        l_total p * (D1 - D0) * 10 ^ 18 < (minted + 1) * 10 ^ 18 * D0 + l_total p * D0) /\
    l_total p' = l_total p + minted /\
    (* who pays: the sender, exactly what was offered *)
    authed e c u = true /\ 0 < da /\ 0 < db /\ (forall d, dl = Some d -> w_now w <= d) /\
    l_ra p' = bal w (l_ta p) self + da /\ l_rb p' = bal w (l_tb p) self + db /\
    (forall t x, bal w' t x = bal w t x
      - on ((t =? l_ta p) && (x =? u)) da + on ((t =? l_ta p) && (x =? self)) da
      - on ((t =? l_tb p) && (x =? u)) db + on ((t =? l_tb p) && (x =? self)) db
      + on ((t =? l_share p) && (x =? u)) minted).
Proof.
  intros R N Hp X. pose proof (reach_good _ _ R) as G. pose proof (reach_stable _ _ R _ _ Hp) as I.
  pose proof (gd_cstable _ G _ _ Hp) as Hc.
  assert (A : authed e c u = true) by (unfold stable_provide in X; rstep X; winv; auto).
  pose proof (stable_sender _ _ _ _ _ _ _ R Hc N A) as Ns.
  pose proof (li_ord _ _ _ I) as Hord.
  apply stable_provide_ok in X; auto.
  2:{ intros q Eq. unfold stable_at in Hp. rewrite Hp in Eq. inversion Eq; subst. lia. }
  destruct X as [Dl [_ [p0 [am [x [y [nd [s [w1 [w2 [w3 E]]]]]]]]]]].
  destruct E as [Ep _ Epos _ Emin Eamp Eda Edb End Esh E1 E2 Em Ee Ep'].
  unfold stable_at in Hp. rewrite Hp in Ep. inversion Ep; subst p0. clear Ep.
  rewrite (amp_reached _ _ _ _ R Hp) in Eamp. inversion Eamp; subst am. clear Eamp.
  destruct (li_dec _ _ _ I) as [D1 [D2 [D3 [D4 D5]]]].
  rewrite D1 in Eda. rewrite D2 in Edb. inversion Eda; inversion Edb; subst x y. clear Eda Edb.
  assert (VD : forall a b D, invariant_of (l_namp p) a b (l_preca p) (l_precb p) = Ok D -> value_D p a b D).
  { intros a b D Q. unfold invariant_of in Q. apply rbind_ok in Q. destruct Q as [sa [Qa Q]].
    apply rbind_ok in Q. destruct Q as [sb [Qb Q]]. apply scale_ok in Qa; auto. apply scale_ok in Qb; auto.
    subst sa sb. exact Q. }
  assert (B2 : forall t x, bal w2 t x = bal w t x
      - ind ((t =? l_ta p) && (x =? u)) da + ind ((t =? l_ta p) && (x =? self)) da
      - ind ((t =? l_tb p) && (x =? u)) db + ind ((t =? l_tb p) && (x =? self)) db).
  { intros t x. rewrite (mv_bal _ _ _ _ _ _ E2), (mv_bal _ _ _ _ _ _ E1). lia. }
  pose proof (mt_pos _ _ _ _ _ Em) as Ps.
  pose proof (VD _ _ _ End) as V1.
  eexists nd, s, _. split; [exact Ep'|]. split; [exact V1|]. split; [lia|]. split; [exact Emin|].
  split.
  { intros T0. unfold stable_shares in Esh. rewrite T0, Z.eqb_refl in Esh. rstep Esh.
    match goal with K : pow10_u _ = Ok _ |- _ => apply pow10_u_ok in K; destruct K as [_ [-> _]] end.
    match goal with K : w2u _ = Ok ?b |- _ => apply w2u_ok in K; subst b end.
    unfold DECIMAL_PRECISION, MINIMUM_LIQUIDITY_AMOUNT in *. lia. }
  split.
  { intros T0. unfold stable_shares in Esh. destruct (Z.eqb_spec (l_total p) 0); [contradiction|].
    unfold dec_div in Esh. rstep Esh.
    match goal with K : invariant_of _ _ _ _ _ = Ok ?d |- _ => apply VD in K; rename K into V0; rename d into D0 end.
    repeat match goal with K : w2u _ = Ok ?b |- _ => apply w2u_ok in K; subst b end.
    exists D0. split; [exact V0|].
    match goal with K : dec_from_ratio _ _ = Ok _ |- _ => rename K into Kr end.
    match goal with K : i_mul_dec _ _ = Ok _ |- _ => rename K into Km end.
    pose proof (dec_from_ratio_ok _ _ _ Kr) as [Nz _].
    assert (P0 : 0 < D0).
    { unfold value_D in V0. apply compute_d_ok in V0; [|apply scaled_nonneg; apply I|apply scaled_nonneg; apply I].
      destruct V0 as [[_ [_ Z0]]|[_ [_ [_ [_ [_ [[Z1 _] _]]]]]]]; lia. }
    assert (Tp : 0 < l_total p) by (pose proof (li_tot _ _ _ I); lia).
    apply dec_from_ratio_pos in Kr; [|lia|exact P0]. destruct Kr as [Pr [_ [Lr Ur]]].
    apply i_mul_dec_pos in Km; [|lia|exact Pr]. destruct Km as [_ [_ [Lm Um]]].
    change (10 ^ 18) with DEC.
    split; [lia|].
    assert (DP : 0 < DEC) by reflexivity.
    generalize dependent DEC. intros D Lr Ur Lm Um DP. 
    match type of Lm with D * ?m <= ?t * ?q => set (mm := m) in *; set (r := q) in * end.
    split.
    - (* minted*D*D0 <= T*r*D0 <= T*delta*D *)
      assert (D * (mm * D0) <= D * (l_total p * (nd - D0))); [|nia].
      assert (D * mm * D0 <= l_total p * r * D0) by nia. nia.
    - assert (l_total p * r < D * (mm + 1)) by lia.
      assert ((nd - D0) * D < D0 * (r + 1)) by lia. nia. }
  split; [reflexivity|]. split; [exact A|]. split; [lia|]. split; [lia|]. split; [exact Dl|].
  split.
  { simpl. rewrite B2. destruct (Z.eqb_spec (l_ta p) (l_tb p)); [lia|].
    destruct (Z.eqb_spec self u); [congruence|]. rewrite !Z.eqb_refl. unfold ind. simpl. lia. }
  split.
  { simpl. rewrite B2. destruct (Z.eqb_spec (l_tb p) (l_ta p)); [lia|].
    destruct (Z.eqb_spec self u); [congruence|]. rewrite !Z.eqb_refl. unfold ind. simpl. lia. }
  intros t x. rewrite (bal_wtok w3 w') by auto. rewrite (mt_bal _ _ _ _ _ Em), B2; change on with ind. lia.
Qed.
Print Assumptions C29_stable_deposit.

(** ** C30 *)
Record LSwapFacts (e : Env) (c : option Addr) (self u offer amt : Z) (mi ms dl mf : option Z) (w w' : World)
    (ret : Z) (p p' : Stable) (x y gross fee : Z) (buy : Addr) : Prop := {
  lf_before : stable_at w self p; lf_after : stable_at w' self p';
  lf_side : lside p offer x y buy; lf_side' : lside p' offer (x + amt) (y - gross) buy;
  lf_same : p' = set_l_res p (l_ra p') (l_rb p');
  lf_gross : gross = ret + fee;
  lf_pos : 0 <= x /\ 0 <= y /\ 0 < amt /\ 0 < gross <= y /\ 0 <= ret /\ 0 <= fee;
  lf_fee : fee = gross * l_fee p / 10000;
  lf_limit : Z.max 0 (amt - gross) * 10^18 < (opt_or ms (l_maxspread p) * 10^14 + 1) * gross;
  lf_ms : forall s, ms = Some s -> 0 <= s <= l_maxspread p;
  lf_min : forall m, mi = Some m -> m <= ret;
  lf_mf : forall f, mf = Some f -> l_fee p <= f;
  lf_dl : forall d, dl = Some d -> w_now w <= d;
  lf_auth : authed e c u = true;
  lf_rest : w' = set_stable (set_tok w (w_tok w')) (w_stable w');
  lf_others : forall c', c' <> self -> fget c' (w_stable w') = fget c' (w_stable w);
  lf_bal : forall t a, bal w' t a = bal w t a
      - on ((t =? offer) && (a =? u)) amt + on ((t =? offer) && (a =? self)) amt
      + on ((t =? buy) && (a =? u)) ret + on ((t =? buy) && (a =? l_feerec p)) fee
      - on ((t =? buy) && (a =? self)) gross;
  lf_supply : forall t, supply w' t = supply w t;
  lf_nums : exists spread, StNums (l_namp p) (l_prec p) x (l_pof p offer) y (l_pot p offer) amt (dec_bps (l_fee p)) ret spread fee (y - gross);
  lf_calc : exists spread, stable_compute_swap (l_namp p) (l_prec p) x (l_pof p offer) y (l_pot p offer) amt (dec_bps (l_fee p)) = Ok (ret, spread, fee) }.
Arguments lf_before {e c self u offer amt mi ms dl mf w w' ret p p' x y gross fee buy}.
Arguments lf_after {e c self u offer amt mi ms dl mf w w' ret p p' x y gross fee buy}.
Arguments lf_side {e c self u offer amt mi ms dl mf w w' ret p p' x y gross fee buy}.
Arguments lf_side' {e c self u offer amt mi ms dl mf w w' ret p p' x y gross fee buy}.
Arguments lf_same {e c self u offer amt mi ms dl mf w w' ret p p' x y gross fee buy}.
Arguments lf_gross {e c self u offer amt mi ms dl mf w w' ret p p' x y gross fee buy}.
Arguments lf_pos {e c self u offer amt mi ms dl mf w w' ret p p' x y gross fee buy}.
Arguments lf_fee {e c self u offer amt mi ms dl mf w w' ret p p' x y gross fee buy}.
Arguments lf_limit {e c self u offer amt mi ms dl mf w w' ret p p' x y gross fee buy}.
Arguments lf_ms {e c self u offer amt mi ms dl mf w w' ret p p' x y gross fee buy}.
Arguments lf_min {e c self u offer amt mi ms dl mf w w' ret p p' x y gross fee buy}.
Arguments lf_mf {e c self u offer amt mi ms dl mf w w' ret p p' x y gross fee buy}.
Arguments lf_dl {e c self u offer amt mi ms dl mf w w' ret p p' x y gross fee buy}.
Arguments lf_auth {e c self u offer amt mi ms dl mf w w' ret p p' x y gross fee buy}.
Arguments lf_rest {e c self u offer amt mi ms dl mf w w' ret p p' x y gross fee buy}.
Arguments lf_others {e c self u offer amt mi ms dl mf w w' ret p p' x y gross fee buy}.
Arguments lf_bal {e c self u offer amt mi ms dl mf w w' ret p p' x y gross fee buy}.
Arguments lf_supply {e c self u offer amt mi ms dl mf w w' ret p p' x y gross fee buy}.
Arguments lf_nums {e c self u offer amt mi ms dl mf w w' ret p p' x y gross fee buy}.
Arguments lf_calc {e c self u offer amt mi ms dl mf w w' ret p p' x y gross fee buy}.

Lemma lswap_facts H w e c self u offer amt mi ms dl mf ret w' :
  reachable H w -> c <> Some self -> stable_swap e c self u offer amt mi ms dl mf w = Ok (ret, w') ->
  exists p p' x y gross fee buy,
    LSwapFacts e c self u offer amt mi ms dl mf w w' ret p p' x y gross fee buy.
Proof.
  intros R N X. apply stable_swap_ok in X. destruct X as [C [A [Pa [Dl X]]]].
  pose proof (stable_sender _ _ _ _ _ _ _ R C N A) as Ns.
  apply stable_do_swap_ok in X; auto. destruct X as [p [am [sp [cm [ny [w1 [w2 [w3 E]]]]]]]].
  destruct E as [Ep Eof _ Eamp Epos SN Ecalc Emin Efee Ems Esp Ein Eout Ecom Eend].
  pose proof (reach_stable _ _ R _ _ Ep) as I.
  rewrite (amp_reached _ _ _ _ R Ep) in Eamp. inversion Eamp; subst am. clear Eamp.
  assert (Hf : 0 <= dec_bps (l_fee p) <= DEC).
  { apply dec_bps_fee. pose proof (li_bps _ _ _ I). lia. }
  pose proof (StNums_range _ _ _ _ _ _ _ _ _ _ _ _ SN Hf) as [Rc Rr].
  pose proof (sm_ny _ _ _ _ _ _ _ _ _ _ _ _ SN) as Rn. pose proof (sm_sum _ _ _ _ _ _ _ _ _ _ _ _ SN) as Rs.
  destruct Esp as [q [Eq Lq]]. pose proof (proj1 (dec_from_ratio_ok _ _ _ Eq)) as Nz.
  assert (Ny : l_oth p offer - (ret + cm) = ny) by lia.
  exists p. eexists. exists (l_res p offer), (l_oth p offer), (ret + cm), cm, (l_buy p offer).
  assert (Ep' : fget self (w_stable w') = Some (set_l_for p offer (l_res p offer + amt) (l_oth p offer - (ret + cm)))).
  { rewrite Eend. simpl. apply fget_set_same. }
  constructor; try exact Ep'; auto; try lia.
  - apply lside_of; auto.
  - destruct (lside_of _ _ Eof) as [[-> [E2 [E3 E4]]]|[-> [N2 [E2 [E3 E4]]]]].
    + left. unfold set_l_for. rewrite Z.eqb_refl. simpl. auto.
    + right. unfold set_l_for. destruct (Z.eqb_spec (l_tb p) (l_ta p)); [congruence|]. simpl. auto.
  - unfold set_l_for. destruct (offer =? l_ta p); reflexivity.
  - pose proof (sm_comm _ _ _ _ _ _ _ _ _ _ _ _ SN) as Sc.
    rewrite quot_nonneg_div in Sc; [|apply Z.mul_nonneg_nonneg; lia|reflexivity].
    replace (l_oth p offer - ny) with (ret + cm) in Sc by lia. rewrite fee_floor in Sc. exact Sc.
  - rewrite (sm_spread _ _ _ _ _ _ _ _ _ _ _ _ SN) in Eq. rewrite <- Rs in Eq.
    apply dec_from_ratio_pos in Eq; [|lia|lia]. destruct Eq as [_ [_ [_ Uq]]].
    change DEC with (10^18) in Uq. unfold dec_bps in Lq.
    assert ((ret + cm) * (q + 1) <= (opt_or ms (l_maxspread p) * 10 ^ 14 + 1) * (ret + cm)) by nia.
    lia.
  - rewrite Eend. rewrite (mv_rest _ _ _ _ _ _ Ecom), (mv_rest _ _ _ _ _ _ Eout), (mv_rest _ _ _ _ _ _ Ein). reflexivity.
  - intros c' Nc. rewrite Eend. simpl. apply fget_set_other; auto.
  - intros t a. rewrite (bal_wtok w3 w') by (rewrite Eend; reflexivity).
    rewrite (mv_bal _ _ _ _ _ _ Ecom), (mv_bal _ _ _ _ _ _ Eout), (mv_bal _ _ _ _ _ _ Ein); change on with ind.
    replace (ind ((t =? l_buy p offer) && (a =? self)) (ret + cm)) with
      (ind ((t =? l_buy p offer) && (a =? self)) ret + ind ((t =? l_buy p offer) && (a =? self)) cm).
    + lia.
    + unfold ind. destruct (_ && _); lia.
  - intros t. rewrite (supply_wtok w3 w') by (rewrite Eend; reflexivity).
    rewrite (mv_sup _ _ _ _ _ _ Ecom), (mv_sup _ _ _ _ _ _ Eout), (mv_sup _ _ _ _ _ _ Ein). reflexivity.
  - rewrite Ny. eauto.
  - eauto.
Qed.

Theorem C30_stable_swap H w e c self u offer amt mi ms dl mf ret w' :
  reachable H w -> c <> Some self -> stable_swap e c self u offer amt mi ms dl mf w = Ok (ret, w') ->
  exists p p' x y gross fee buy, stable_at w self p /\ stable_at w' self p' /\
    lside p offer x y buy /\ lside p' offer (x + amt) (y - gross) buy /\
    gross = ret + fee /\ fee = gross * l_fee p / 10000 /\ 0 < amt /\ 0 < gross <= y /\ 0 <= ret /\ 0 <= fee /\
    (* only the two reserves of this pool and token balances change *)
    p' = set_l_res p (l_ra p') (l_rb p') /\
    w' = set_stable (set_tok w (w_tok w')) (w_stable w') /\
    (forall c', c' <> self -> fget c' (w_stable w') = fget c' (w_stable w)) /\
    (forall t a, bal w' t a = bal w t a
      - on ((t =? offer) && (a =? u)) amt + on ((t =? offer) && (a =? self)) amt
      + on ((t =? buy) && (a =? u)) ret + on ((t =? buy) && (a =? l_feerec p)) fee
      - on ((t =? buy) && (a =? self)) gross) /\
    (forall t, supply w' t = supply w t) /\
    (* guards *)
    authed e c u = true /\
    (forall d, dl = Some d -> w_now w <= d) /\
    (forall m, mi = Some m -> m <= ret) /\
    (forall f, mf = Some f -> l_fee p <= f) /\
    (forall s, ms = Some s -> 0 <= s <= l_maxspread p) /\
    let limit := match ms with Some s => s | None => l_maxspread p end in
    Z.max 0 (amt - gross) * 10^18 < (limit * 10^14 + 1) * gross.
Proof.
  intros R N X. destruct (lswap_facts _ _ _ _ _ _ _ _ _ _ _ _ _ _ R N X) as [p [p' [x [y [g [f [buy F]]]]]]].
  exists p, p', x, y, g, f, buy.
  split; [apply (lf_before F)|]. split; [apply (lf_after F)|]. split; [apply (lf_side F)|]. split; [apply (lf_side' F)|].
  split; [apply (lf_gross F)|]. split; [apply (lf_fee F)|]. split; [apply (lf_pos F)|]. split; [apply (lf_pos F)|].
  split; [apply (lf_pos F)|]. split; [apply (lf_pos F)|].
  split; [apply (lf_same F)|]. split; [apply (lf_rest F)|]. split; [apply (lf_others F)|]. split; [apply (lf_bal F)|].
  split; [apply (lf_supply F)|]. split; [apply (lf_auth F)|]. split; [apply (lf_dl F)|]. split; [apply (lf_min F)|].
  split; [apply (lf_mf F)|]. split; [apply (lf_ms F)|]. apply (lf_limit F).
Qed.
Print Assumptions C30_stable_swap.

(** ** C31 *)
Theorem C31_stable_quote_is_execution H w self offer amt r w1 : reachable H w ->
  stable_simulate_swap self offer amt w = Ok (r, w1) ->
  w1 = w /\ ss_total r = ss_ask r + ss_comm r + ss_spread r /\
  forall e c u mi ms dl mf ret w', c <> Some self ->
    stable_swap e c self u offer amt mi ms dl mf w = Ok (ret, w') ->
    ret = ss_ask r /\
    exists p p' x y buy, stable_at w self p /\ stable_at w' self p' /\ lside p offer x y buy /\
      lside p' offer (x + amt) (y - (ss_ask r + ss_comm r)) buy /\
      ss_comm r = (ss_ask r + ss_comm r) * l_fee p / 10000 /\
      ss_spread r = Z.max 0 (amt - (ss_ask r + ss_comm r)).
Proof.
  intros R Q. unfold stable_simulate_swap in Q. rstep Q. winv.
  match goal with K : fget self (w_stable w) = Some ?q |- _ => rename q into p; rename K into Hp end.
  match goal with K : _ = Ok (r, w1) |- _ => rename K into Q end.
  assert (E1 : (if offer =? l_ta p then (l_ra p, l_rb p) else (l_rb p, l_ra p)) = (l_res p offer, l_oth p offer)).
  { unfold l_res, l_oth. destruct (offer =? l_ta p); reflexivity. }
  assert (E3 : (if offer =? l_ta p then (l_preca p, l_precb p) else (l_precb p, l_preca p)) = (l_pof p offer, l_pot p offer)).
  { unfold l_pof, l_pot. destruct (offer =? l_ta p); reflexivity. }
  rewrite E1, E3 in Q. cbv beta iota zeta in Q. rstep Q. winv.
  match goal with x : (Z * Z * Z)%type |- _ => destruct x as [[rt sp] cm] end.
  match goal with K : _ = Ok (r, w1) |- _ => rename K into Q end.
  cbv beta iota zeta in Q. rstep Q. simpl.
  match goal with K : stable_compute_swap _ _ _ _ _ _ _ _ = Ok _ |- _ => rename K into CS end.
  match goal with K : amp_of _ _ = Ok _ |- _ => rewrite (amp_reached _ _ _ _ R Hp) in K; inversion K; subst; clear K end.
  split; [reflexivity|]. split; [lia|].
  intros e c u mi ms dl mf ret w' N X.
  destruct (lswap_facts _ _ _ _ _ _ _ _ _ _ _ _ _ _ R N X) as [p0 [p' [xo [yo [g [f [buy F]]]]]]].
  pose proof (lf_before F) as B. unfold stable_at in B. rewrite Hp in B. inversion B; subst p0.
  destruct (lside_eq _ _ _ _ _ (lf_side F)) as [Ex [Ey _]].
  destruct (lf_calc F) as [sp' CS']. destruct (lf_nums F) as [sp2 SN].
  rewrite Ex, Ey in CS'. rewrite CS in CS'. inversion CS'; subst ret sp' f. clear CS'.
  pose proof (stable_compute_swap_ok _ _ _ _ _ _ _ _ _ _ _ CS) as [ny SN'].
  split; [reflexivity|]. exists p, p', xo, yo, buy.
  rewrite <- (lf_gross F).
  split; [exact Hp|]. split; [apply (lf_after F)|]. split; [apply (lf_side F)|]. split; [apply (lf_side' F)|].
  split; [apply (lf_fee F)|]. rewrite (sm_spread _ _ _ _ _ _ _ _ _ _ _ _ SN').
  rewrite <- (sm_sum _ _ _ _ _ _ _ _ _ _ _ _ SN'), (lf_gross F). reflexivity.
Qed.
Print Assumptions C31_stable_quote_is_execution.

(** ** C32: what does hold: only update_config naming the current admin changes settings *)
Definition SameConfL (p p' : Stable) : Prop :=
  l_fee p' = l_fee p /\ l_feerec p' = l_feerec p /\ l_maxslip p' = l_maxslip p /\
  l_maxspread p' = l_maxspread p /\ l_admin p' = l_admin p.
Definition SameIdsL (p p' : Stable) : Prop :=
  l_ta p' = l_ta p /\ l_tb p' = l_tb p /\ l_share p' = l_share p /\ l_stake p' = l_stake p /\
  l_defslip p' = l_defslip p /\ l_iamp p' = l_iamp p /\ l_iampt p' = l_iampt p /\ l_namp p' = l_namp p /\
  l_nampt p' = l_nampt p /\ l_prec p' = l_prec p /\ l_preca p' = l_preca p /\ l_precb p' = l_precb p.

Theorem C32_settings_need_admin_name H w e k w' c p : reachable H w -> stable_at w c p -> exec e k w = Ok (tt, w') ->
  exists p', stable_at w' c p' /\ SameIdsL p p' /\
    (SameConfL p p' \/ exists a1 a2 a3 a4 a5, k = CStableConfig c (l_admin p) a1 a2 a3 a4 a5).
Proof.
  intros R Hp X. pose proof (reach_good _ _ R) as G. pose proof (reach_stable _ _ R _ _ Hp) as I.
  pose proof (gd_cstable _ G _ _ Hp) as Hc. unfold stable_at in *.
  assert (RES : forall x y, SameIdsL p (set_l_res p x y) /\ SameConfL p (set_l_res p x y)).
  { intros. split; repeat split. }
  destruct (routed k) eqn:Rt.
  { destruct (routed_maps _ _ _ _ X Rt G) as [M _]. destruct (xm_stable _ _ M _ _ Hp) as [p' [E [x [y ->]]]].
    destruct (RES x y). eauto. }
  destruct (exec_framec _ _ _ _ X G) as [G' [X' [_ [_ U]]]].
  destruct (exists_dec_acts k c KStable) as [[T|[T _]]|N]; [|congruence|].
  2:{ rewrite (ut_stable _ _ _ (U _ _ Hc N)). exists p. split; auto. split; [repeat split|left; repeat split]. }
  pose proof (exec_tkind _ _ _ _ _ X T) as TK. rewrite Hc in TK.
  destruct k; simpl in T, TK; inversion T; try discriminate TK; subst; simpl in X; try discriminate Rt;
      try (apply drop_ok in X; destruct X as [r X]).
  - apply stable_initialize_ok in X. destruct X as [_ [Np _]]. congruence.
  - assert (A : authed e None u = true) by (unfold stable_provide in X; rstep X; winv; auto).
    assert (Nn : @None Addr <> Some c) by discriminate. pose proof (authed_ne _ _ _ _ _ _ G Hc Nn A) as Ns.
    apply stable_provide_ok in X; auto.
    2:{ intros q Eq. rewrite Hp in Eq. inversion Eq; subst. pose proof (li_ord _ _ _ I). lia. }
    destruct X as [_ [_ [p0 [am [x [y [nd [s [w1 [w2 [w3 E]]]]]]]]]]].
    destruct E as [Ep _ _ _ _ _ _ _ _ _ E1 E2 Em Ee Ep']. rewrite Hp in Ep. inversion Ep; subst p0.
    eexists. split; [exact Ep'|]. split; [repeat split|left; repeat split].
  - assert (Nn : @None Addr <> Some c) by discriminate.
    destruct (stable_swap_maps _ _ _ _ _ _ _ _ _ _ _ _ _ X G Nn) as [_ _ M _].
    destruct (M _ _ Hp) as [p' [E [x [y ->]]]]. destruct (RES x y). eauto.
  - destruct r as [ra rb].
    apply stable_withdraw_ok in X. destruct X as [_ [Au [p0 [ratio [w1 [w2 [w3 [w4 E]]]]]]]].
    destruct E as [Ep _ _ _ _ _ _ _ Ei Eb Eo1 Eo2 Ee Ep']. rewrite Hp in Ep. inversion Ep; subst p0.
    eexists. split; [exact Ep'|]. split; [repeat split|left; repeat split].
  - unfold stable_update_config in X. rstep X. winv.
    match goal with K : fget c (w_stable w) = Some ?q |- _ => rewrite Hp in K; inversion K; subst q end.
    simpl. rewrite fget_set_same. eexists. split; [reflexivity|]. split; [repeat split|].
    right. assert (u = l_admin p) by lia. subst u. eauto 6.
  - apply stable_upgrade_ok in X. subst w'. exists p. split; auto. split; [repeat split|left; repeat split].
Qed.
Print Assumptions C32_settings_need_admin_name.

(** ** C33 *)
(** The step functions of the two iterations, as in the comments of the source: for D with leverage l,
    sum s and q = 4ab; for y the solution of y^2 + (b - D) y = c. *)
Theorem C33_D_iteration amp a b D : 0 <= a -> 0 <= b -> compute_d amp a b = Ok D ->
  (D = 0 <-> a + b = 0) /\
  (D <> 0 -> exists d, let l := amp / 100 * (2 * 10 ^ 18) in let p := d ^ 3 / (4 * a * b) in
     D = ((l * (a + b) + 2 * p) * d) / ((l - 1) * d + 3 * p) /\ 0 < (l - 1) * d + 3 * p /\ Z.abs (D - d) <= 10 ^ 12).
Proof.
  intros Pa Pb X. apply compute_d_ok in X; auto. destruct X as [[-> [-> ->]]|[Qa [Qb [Am [_ [_ [[J1 J2] [d [[Jd _] [E Ab]]]]]]]]]].
  - split; [tauto|]. congruence.
  - split; [lia|]. intros _. exists d. cbv zeta. split; [exact E|]. split; [|exact Ab].
    assert (1 <= amp / 100) by (apply Z.div_le_lower_bound; lia).
    assert (0 <= d ^ 3 / (4 * a * b)) by (apply Z.div_pos; [apply Z.pow_nonneg; lia|nia]).
    assert (0 < (amp / 100 * (2 * 10 ^ 18) - 1) * d) by (apply Z.mul_pos_pos; lia). lia.
Qed.
Print Assumptions C33_D_iteration.

Theorem C33_y_iteration amp new a b target r : 0 <= a -> 0 <= b -> calc_y amp new a b target = Ok r ->
  exists D y y0, compute_d amp a b = Ok D /\ r = y / 10 ^ (18 - target) /\
    let s := new + D * 100 / (2 * amp) - D in let c := D ^ 3 * 100 / (8 * amp * new) in
    y = (y0 ^ 2 + c) / (2 * y0 + s) /\ 0 < 2 * y0 + s /\ 0 <= y /\ Z.abs (y - y0) <= 10 ^ 12.
Proof.
  intros Pa Pb X. apply calc_y_ok in X; auto. destruct X as [D [y [y0 [HD [_ [_ [_ [Py [Er [_ [Ey [W [Ab _]]]]]]]]]]]]].
  exists D, y, y0. split; [exact HD|]. split; [exact Er|]. cbv zeta in *. unfold y_next in Ey.
  replace (2 * y0 + (new + D * 100 / (2 * amp) - D)) with (2 * y0 + (new + D * 100 / (2 * amp)) - D) by lia. auto.
Qed.
Print Assumptions C33_y_iteration.

(** ** C82 *)
Theorem C82_D_bounds amp a b D : 0 < a -> 0 < b -> compute_d amp a b = Ok D ->
  let l := amp / 100 * (2 * 10 ^ 18) in
  0 < D <= a + b /\
  (* one more unit is above the root of (l-1) x + x^3/(4ab) = l (a+b) *)
  l * (a + b) * (4 * a * b) < (l - 1) * (D + 1) * (4 * a * b) + (D + 1) ^ 3 /\
  (* so D is the plain sum unless the reserves are very far apart *)
  (l - 1) * (4 * a * b) * (a + b - D - 1) < (a + b + 1) ^ 3 - (a + b) * (4 * a * b).
Proof.
  intros Pa Pb X. apply compute_d_ok in X; [|lia|lia]. destruct X as [[-> _]|[_ [_ [Am [_ [_ [[J1 J2] _]]]]]]]; [lia|].
  cbv zeta. split; [exact J1|]. split; [exact J2|]. unfold above in J2.
  revert J2. generalize (amp / 100 * (2 * 10 ^ 18)). intros l J2.
  assert (D + 1 <= a + b + 1) by lia. assert ((D + 1) ^ 3 <= (a + b + 1) ^ 3) by (apply Z.pow_le_mono_l; lia). lia.
Qed.
Print Assumptions C82_D_bounds.

(** ** C74-C76: what the invariant means for a swap *)
Lemma curve_mono c s y z : 0 <= c -> 0 <= y -> c < (y + 1) ^ 2 + s * (y + 1) -> y + 1 <= z -> c < z ^ 2 + s * z.
Proof. intros. assert (0 < y + 1 + s) by nia. nia. Qed.

(** a point on or above the curve is worth at least D *)
Lemma above_sum amp D X Z0 : 0 < amp -> 0 <= D -> 0 < X -> 0 < Z0 ->
  D ^ 3 * 100 / (8 * amp * X) < Z0 ^ 2 + (X + D * 100 / (2 * amp) - D) * Z0 -> D <= X + Z0.
Proof.
  intros Pa PD PX PZ Hc. destruct (Z_le_gt_dec D (X + Z0)) as [|Gt]; [auto|exfalso].
  assert (U : D ^ 3 * 100 < (D ^ 3 * 100 / (8 * amp * X) + 1) * (8 * amp * X)).
  { pose proof (Z.mul_succ_div_gt (D ^ 3 * 100) (8 * amp * X)). assert (0 < 8 * amp * X) by nia. lia. }
  assert (L : D * 100 / (2 * amp) * (2 * amp) <= D * 100).
  { pose proof (Z.mul_div_le (D * 100) (2 * amp)). lia. }
  assert (Pg : 0 <= D * 100 / (2 * amp)) by (apply Z.div_pos; lia).
  revert U L Pg Hc. generalize (D ^ 3 * 100 / (8 * amp * X)) (D * 100 / (2 * amp)). intros c g U L Pg Hc.
  assert (C1 : c + 1 <= g * Z0).
  { assert ((X + Z0 - D) * Z0 <= - Z0) by nia. lia. }
  assert (U2 : D ^ 3 * 100 < g * Z0 * (8 * amp * X)).
  { eapply Z.lt_le_trans; [exact U|]. apply Z.mul_le_mono_nonneg_r; [|exact C1]. assert (0 < amp * X) by nia. lia. }
  assert (U3 : g * Z0 * (8 * amp * X) <= D * 100 * (4 * (X * Z0))).
  { replace (g * Z0 * (8 * amp * X)) with (g * (2 * amp) * (4 * (X * Z0))) by ring.
    apply Z.mul_le_mono_nonneg_r; [|exact L]. assert (0 < X * Z0) by nia. lia. }
  assert (D2 : D * D < 4 * (X * Z0)).
  { assert (K : D * (D * D) < D * (4 * (X * Z0))) by nia. apply Z.mul_lt_mono_pos_l in K; auto. nia. }
  assert (4 * (X * Z0) <= (X + Z0) * (X + Z0)) by (pose proof (Z.square_nonneg (X - Z0)); nia).
  nia.
Qed.

Lemma swap_curve H w e c self u offer amt mi ms dl mf ret w' p :
  reachable H w -> c <> Some self -> stable_at w self p ->
  stable_swap e c self u offer amt mi ms dl mf w = Ok (ret, w') ->
  exists p' x y gross fee buy D X Z0,
    LSwapFacts e c self u offer amt mi ms dl mf w w' ret p p' x y gross fee buy /\
    let px := if offer =? l_ta p then l_preca p else l_precb p in
    let py := if offer =? l_ta p then l_precb p else l_preca p in
    compute_d (l_namp p) (scaled x px) (scaled y py) = Ok D /\
    X = scaled (x + amt) (l_prec p) /\ Z0 = scaled (y - gross + 1) (l_prec p) /\
    0 <= D /\ 0 < X /\ 0 < Z0 /\ D ^ 3 * 10 ^ 20 < 2 ^ 256 /\
    D ^ 3 * 100 / (8 * l_namp p * X) < Z0 ^ 2 + (X + D * 100 / (2 * l_namp p) - D) * Z0.
Proof.
  intros R N Hp X. pose proof (reach_stable _ _ R _ _ Hp) as I.
  destruct (lswap_facts _ _ _ _ _ _ _ _ _ _ _ _ _ _ R N X) as [p0 [p' [x [y [g [f [buy F]]]]]]].
  pose proof (lf_before F) as B. unfold stable_at in *. rewrite Hp in B. inversion B; subst p0.
  destruct (lf_nums F) as [sp SN]. destruct (sm_in _ _ _ _ _ _ _ _ _ _ _ _ SN) as [s2 [sx [sy [E2 [Ex [Ey Ec]]]]]].
  destruct (li_dec _ _ _ I) as [_ [_ [Pr [Pa Pb]]]]. pose proof (lf_pos F) as Po. destruct (li_amp _ _ _ I) as [_ [_ Am]].
  apply scale_ok in E2; [|lia].
  apply scale_ok in Ex; [|unfold l_pof; destruct (offer =? l_ta p); lia].
  apply scale_ok in Ey; [|unfold l_pot; destruct (offer =? l_ta p); lia].
  assert (Nx : 0 <= sx) by (subst sx; apply scaled_nonneg; lia). assert (Nsy : 0 <= sy) by (subst sy; apply scaled_nonneg; lia).
  apply calc_y_ok in Ec; auto. destruct Ec as [D [ys [y0 [HD [Tg [Pn [Pam [Py [Er [Ov [_ [_ [_ Hc]]]]]]]]]]]]].
  exists p', x, y, g, f, buy, D, s2, (scaled (y - g + 1) (l_prec p)).
  split; [exact F|]. cbv zeta.
  assert (Pw : 0 < 10 ^ (18 - l_prec p)) by (apply Z.pow_pos_nonneg; lia).
  assert (Z1 : ys + 1 <= scaled (y - g + 1) (l_prec p)).
  { unfold scaled. rewrite Er. pose proof (Z.mul_succ_div_gt ys (10 ^ (18 - l_prec p)) Pw). lia. }
  assert (D0 : 0 <= D).
  { apply compute_d_ok in HD; auto. destruct HD as [[_ [_ ->]]|[_ [_ [_ [_ [_ [[J _] _]]]]]]]; lia. }
  split. { destruct (lside_eq _ _ _ _ _ (lf_side F)) as [X1 [X2 _]]. subst sx sy. exact HD. } split; [exact E2|]. split; [reflexivity|]. split; [exact D0|]. split; [exact Pn|].
  split; [lia|]. split; [exact Ov|].
  eapply curve_mono; [|exact Py|exact Hc|exact Z1].
  apply Z.div_pos; [|apply Z.mul_pos_pos; lia]. apply Z.mul_nonneg_nonneg; [apply Z.pow_nonneg; lia|lia].
Qed.

(** the D of the pool does not depend on which side is called the first one *)
Lemma compute_d_sym amp a b D : compute_d amp a b = Ok D -> compute_d amp b a = Ok D.
Proof.
  assert (A1 : add_u b a = add_u a b) by (unfold add_u; rewrite (Z.add_comm b a); reflexivity).
  assert (A2 : forall x y, mul_u x y = mul_u y x) by (intros x y; unfold mul_u; rewrite (Z.mul_comm x y); reflexivity).
  unfold compute_d. rewrite A1. intros H.
  destruct (mul_u (amp / AMP_PRECISION) N_COINS_PRECISION) as [l|]; [|exact H].
  destruct (mul_u a N_COINS) as [a2|]; [|discriminate H]. destruct (mul_u b N_COINS) as [b2|]; [|discriminate H].
  unfold rbind at 1 2 3. unfold rbind at 1 2 3 in H. rewrite (A2 b2 a2). exact H.
Qed.

(** C74: the new balances, counted with one more unit of the bought token, lie above the curve of the
    invariant computed before the swap. *)
Theorem C74_swap_stays_above_curve H w e c self u offer amt mi ms dl mf ret w' p :
  reachable H w -> c <> Some self -> stable_at w self p -> l_preca p = l_precb p ->
  stable_swap e c self u offer amt mi ms dl mf w = Ok (ret, w') ->
  exists p' x' y' buy D, stable_at w' self p' /\ lside p' offer x' y' buy /\
    value_D p (l_ra p) (l_rb p) D /\
    let X := scaled x' (l_preca p) in let Y := scaled (y' + 1) (l_preca p) in
    D ^ 3 * 100 / (8 * l_namp p * X) < Y ^ 2 + (X + D * 100 / (2 * l_namp p) - D) * Y.
Proof.
  intros R N Hp Eq X.
  destruct (swap_curve _ _ _ _ _ _ _ _ _ _ _ _ _ _ _ R N Hp X) as [p' [x [y [g [f [buy [D [X0 [Z0 [F K]]]]]]]]]].
  cbv zeta in K. destruct K as [HD [EX [EZ [_ [_ [_ [_ Hc]]]]]]].
  destruct (li_dec _ _ _ (reach_stable _ _ R _ _ Hp)) as [_ [_ [Pr _]]].
  assert (Pr' : l_prec p = l_preca p) by lia. rewrite Pr' in *.
  exists p', (x + amt), (y - g), buy, D.
  split; [apply (lf_after F)|]. split; [apply (lf_side' F)|]. split.
  - unfold value_D. rewrite <- Eq in HD |- *.
    replace (if offer =? l_ta p then l_preca p else l_preca p) with (l_preca p) in HD by (destruct (offer =? l_ta p); auto).
    destruct (lf_side F) as [[_ [_ [-> ->]]]|[_ [_ [_ [-> ->]]]]]; [exact HD|]. apply compute_d_sym. exact HD.
  - cbv zeta. subst X0 Z0. exact Hc.
Qed.
Print Assumptions C74_swap_stays_above_curve.

Lemma par_units x y amt g P D dust : 1 <= P -> D <= (x + amt) * P + (y - g + 1) * P ->
  (x + y) * P <= D + dust * P -> g <= amt + 1 + dust.
Proof. intros P1 L1 L2. assert (K : (g - amt - 1 - dust) * P <= 0) by lia. nia. Qed.
Lemma near_sum l s q D : 0 < q -> 0 < D <= s -> above l s q D -> (s + 1) ^ 3 <= (l - 1) * q -> s <= D + 1.
Proof.
  unfold above. intros Qp J1 J2 Hq.
  assert ((D + 1) ^ 3 <= (s + 1) ^ 3) by (apply Z.pow_le_mono_l; lia).
  assert (0 <= (s + 1) ^ 3) by (apply Z.pow_nonneg; lia).
  destruct (Z_le_gt_dec s (D + 1)); [auto|exfalso].
  assert ((l - 1) * q * 1 <= (l - 1) * q * (s - D - 1)) by (apply Z.mul_le_mono_nonneg_l; lia).
  assert (0 <= s * q) by (apply Z.mul_nonneg_nonneg; lia).
  lia.
Qed.

(** C75: a swap never pays out more than comes in, apart from two units of rounding, unless the
    reserves are so unequal that D differs from their sum. *)
Theorem C75_swap_not_better_than_par H w e c self u offer amt mi ms dl mf ret w' p :
  reachable H w -> c <> Some self -> stable_at w self p -> l_preca p = l_precb p ->
  stable_swap e c self u offer amt mi ms dl mf w = Ok (ret, w') ->
  exists p' x y x' y' buy D, stable_at w' self p' /\ lside p offer x y buy /\ lside p' offer x' y' buy /\
    value_D p (l_ra p) (l_rb p) D /\
    D <= scaled (x' + y' + 1) (l_preca p) /\
    (* with at most [dust] between D and the sum of the reserves *)
    (forall dust, scaled (x + y) (l_preca p) <= D + scaled dust (l_preca p) -> y - y' <= (x' - x) + 1 + dust) /\
    let s := scaled (x + y) (l_preca p) in
    let q := 4 * scaled x (l_preca p) * scaled y (l_preca p) in
    ((s + 1) ^ 3 <= (l_namp p / 100 * (2 * 10 ^ 18) - 1) * q -> ret <= amt + 2).
Proof.
  intros R N Hp Eq X.
  destruct (swap_curve _ _ _ _ _ _ _ _ _ _ _ _ _ _ _ R N Hp X) as [p' [x [y [g [f [buy [D [X0 [Z0 [F K]]]]]]]]]].
  cbv zeta in K. destruct K as [HD [EX [EZ [D0 [PX [PZ [_ Hc]]]]]]].
  pose proof (reach_stable _ _ R _ _ Hp) as I.
  destruct (li_dec _ _ _ I) as [_ [_ [Pr [Pa _]]]]. destruct (li_amp _ _ _ I) as [_ [_ Am]].
  assert (Pr' : l_prec p = l_preca p) by lia. rewrite Pr' in *.
  assert (HD2 : compute_d (l_namp p) (scaled x (l_preca p)) (scaled y (l_preca p)) = Ok D).
  { rewrite <- Eq in HD. destruct (offer =? l_ta p); exact HD. }
  assert (Sm : D <= X0 + Z0) by (apply (above_sum (l_namp p)); auto; lia).
  assert (Fp : 1 <= 10 ^ (18 - l_preca p)) by (assert (0 < 10 ^ (18 - l_preca p)) by (apply Z.pow_pos_nonneg; lia); lia).
  unfold scaled in *. pose proof (lf_pos F) as Po. pose proof (lf_gross F) as Gr.
  exists p', x, y, (x + amt), (y - g), buy, D.
  split; [apply (lf_after F)|]. split; [apply (lf_side F)|]. split; [apply (lf_side' F)|]. split.
  { unfold value_D, scaled. rewrite <- Eq.
    destruct (lf_side F) as [[_ [_ [-> ->]]]|[_ [_ [_ [-> ->]]]]]; [exact HD2|]. apply compute_d_sym. exact HD2. }
  revert HD2 EX EZ Fp. generalize (10 ^ (18 - l_preca p)). intros P HD2 EX EZ Fp.
  split; [lia|].
  assert (A : forall dust, (x + y) * P <= D + dust * P -> g <= amt + 1 + dust).
  { intros dust Hd. apply (par_units x y amt g P D dust); lia. }
  split. { intros dust Hd. specialize (A _ Hd). lia. }
  cbv zeta. intros Hq. apply compute_d_ok in HD2; [|apply Z.mul_nonneg_nonneg; lia|apply Z.mul_nonneg_nonneg; lia].
  destruct HD2 as [[_ [E0 _]]|[Qa [Qb [_ [_ [_ [[J1 J2] _]]]]]]].
  { exfalso. apply Z.mul_eq_0 in E0. lia. }
  replace (x * P + y * P) with ((x + y) * P) in * by ring.
  assert (Qp : 0 < 4 * (x * P) * (y * P)) by (apply Z.mul_pos_pos; [|exact Qb]; lia).
  assert (S1 : (x + y) * P <= D + 1) by (eapply near_sum; eauto).
  assert (g <= amt + 1 + 1) by (apply A; lia). lia.
Qed.
Print Assumptions C75_swap_not_better_than_par.

(** C76: the U256 arithmetic of calc_y caps the pool size *)
Lemma cube_bound D : 0 <= D -> D ^ 3 * 10 ^ 20 < 2 ^ 256 -> D < 10504 * 10 ^ 15.
Proof.
  intros P L. destruct (Z_lt_le_dec D (10504 * 10 ^ 15)) as [|G]; [auto|exfalso].
  assert ((10504 * 10 ^ 15) ^ 3 <= D ^ 3) by (apply Z.pow_le_mono_l; lia).
  assert (2 ^ 256 <= (10504 * 10 ^ 15) ^ 3 * 10 ^ 20) by (vm_compute; discriminate). lia.
Qed.
(** reserves of at least one unit each have product at least their sum less one *)
Lemma sum_bound l s q D M : 0 < D <= s -> D + 1 <= M -> above l s q D -> 4 * (s - 1) <= q -> 4 <= M -> M < 7 * l ->
  s < 2 * M.
Proof.
  unfold above. intros J1 LM J2 Lq M1 Hl. destruct (Z_lt_le_dec s (2 * M)) as [|G]; [auto|exfalso].
  assert (A1 : l * (2 * M) * q <= l * s * q).
  { apply Z.mul_le_mono_nonneg_r; [lia|]. apply Z.mul_le_mono_nonneg_l; lia. }
  assert (A2 : (l - 1) * (D + 1) * q <= (l - 1) * M * q).
  { apply Z.mul_le_mono_nonneg_r; [lia|]. apply Z.mul_le_mono_nonneg_l; lia. }
  assert (A3 : (D + 1) ^ 3 <= M ^ 3) by (apply Z.pow_le_mono_l; lia).
  assert (A4 : M * ((l + 1) * q) < M * (M * M)) by lia.
  apply Z.mul_lt_mono_pos_l in A4; [|lia].
  assert (A5 : (l + 1) * (7 * M) <= (l + 1) * q) by (apply Z.mul_le_mono_nonneg_l; lia).
  assert (A6 : M * M <= (7 * l) * M) by (apply Z.mul_le_mono_nonneg_r; lia).
  lia.
Qed.

Theorem C76_swaps_need_small_pools H w e c self u offer amt mi ms dl mf ret w' p :
  reachable H w -> c <> Some self -> stable_at w self p ->
  stable_swap e c self u offer amt mi ms dl mf w = Ok (ret, w') ->
  exists D, value_D p (l_ra p) (l_rb p) D /\ D < 10504 * 10 ^ 15 /\
    scaled (l_ra p) (l_preca p) + scaled (l_rb p) (l_precb p) < 21008 * 10 ^ 15 + 2.
Proof.
  intros R N Hp X.
  destruct (swap_curve _ _ _ _ _ _ _ _ _ _ _ _ _ _ _ R N Hp X) as [p' [x [y [g [f [buy [D [X0 [Z0 [F K]]]]]]]]]].
  cbv zeta in K. destruct K as [HD [EX [EZ [D0 [PX [PZ [Ov Hc]]]]]]].
  pose proof (reach_stable _ _ R _ _ Hp) as I.
  assert (HV : value_D p (l_ra p) (l_rb p) D).
  { unfold value_D. destruct (lf_side F) as [[-> [_ [-> ->]]]|[-> [Nt [_ [-> ->]]]]].
    - rewrite Z.eqb_refl in HD. exact HD.
    - destruct (Z.eqb_spec (l_tb p) (l_ta p)); [congruence|]. apply compute_d_sym. exact HD. }
  exists D. split; [exact HV|]. pose proof (cube_bound _ D0 Ov) as CB. split; [exact CB|].
  unfold value_D in HV.
  assert (Na : 0 <= scaled (l_ra p) (l_preca p)) by (apply scaled_nonneg; apply (li_ra _ _ _ I)).
  assert (Nb : 0 <= scaled (l_rb p) (l_precb p)) by (apply scaled_nonneg; apply (li_rb _ _ _ I)).
  apply compute_d_ok in HV; auto.
  revert HV Na Nb. generalize (scaled (l_ra p) (l_preca p)) (scaled (l_rb p) (l_precb p)). intros a b HV Na Nb.
  destruct HV as [[-> [-> ->]]|[Qa [Qb [Am [_ [_ [[J1 J2] _]]]]]]]; [lia|].
  assert (1 <= l_namp p / 100) by (apply Z.div_le_lower_bound; lia).
  assert (a + b < 2 * (10504 * 10 ^ 15 + 1)).
  { eapply (sum_bound _ _ _ D); [exact J1| |exact J2| | |]; try lia. assert (a + b - 1 <= a * b) by nia. lia. }
  lia.
Qed.
Print Assumptions C76_swaps_need_small_pools.

(** C77: so do deposits *)
Theorem C77_deposits_need_small_pools H w e c self u da db custom dl mins w' p :
  reachable H w -> c <> Some self -> stable_at w self p ->
  stable_provide e c self u da db custom dl mins w = Ok (tt, w') ->
  scaled (l_ra p + da) (l_preca p) * scaled (l_rb p + db) (l_precb p) < 2 ^ 126.
Proof.
  intros R N Hp X. pose proof (reach_stable _ _ R _ _ Hp) as I.
  destruct (C29_stable_deposit _ _ _ _ _ _ _ _ _ _ _ _ _ R N Hp X) as [D1 [m [p' [_ [HV [_ [_ [_ [_ [_ [_ [Pa [Pb _]]]]]]]]]]]]].
  pose proof (li_ra _ _ _ I). pose proof (li_rb _ _ _ I). unfold value_D in HV.
  apply compute_d_ok in HV; [|apply scaled_nonneg; lia|apply scaled_nonneg; lia].
  destruct HV as [[-> [-> _]]|[Qa [Qb [_ [B _]]]]]; [reflexivity|].
  change (2 ^ 128) with (4 * 2 ^ 126) in B. revert B. generalize (2 ^ 126). intros. nia.
Qed.
Print Assumptions C77_deposits_need_small_pools.

(** ** C80, C81 *)
Theorem C80_stable_withdrawal H w e c self u s mina minb dl a b w' p :
  reachable H w -> c <> Some self -> stable_at w self p ->
  stable_withdraw e c self u s mina minb dl w = Ok ((a, b), w') ->
  exists p', stable_at w' self p' /\
    let x := l_ra p in let y := l_rb p in let T := l_total p in let T' := l_total p' in
    0 < s /\ s <= T /\ T * a <= x * s /\ T * b <= y * s /\ mina <= a /\ minb <= b /\
    x * s * 10^18 < T * (a + 1) * 10^18 + T * x /\ y * s * 10^18 < T * (b + 1) * 10^18 + T * y /\
    l_ra p' = x - a /\ l_rb p' = y - b /\ T' = T - s /\
    x * T' <= l_ra p' * T /\ y * T' <= l_rb p' * T /\
    authed e c u = true /\ (forall d, dl = Some d -> w_now w <= d) /\
    forall t x', bal w' t x' = bal w t x' - on ((t =? l_share p) && (x' =? u)) s
      + on ((t =? l_ta p) && (x' =? u)) a - on ((t =? l_ta p) && (x' =? self)) a
      + on ((t =? l_tb p) && (x' =? u)) b - on ((t =? l_tb p) && (x' =? self)) b.
Proof.
  intros R N Hp X. pose proof (reach_good _ _ R) as G.
  pose proof (gd_cstable _ G _ _ Hp) as Hc.
  apply stable_withdraw_ok in X. destruct X as [Dl [Au [p0 [ratio [w1 [w2 [w3 [w4 E]]]]]]]].
  destruct E as [Ep _ [Ps [Pma Pmb]] Nt Er Ea Eb [Ma Mb] Ei Ebn Eo1 Eo2 Ee Ep'].
  unfold stable_at in *. rewrite Hp in Ep. inversion Ep; subst p0.
  pose proof (reach_stable _ _ R _ _ Hp) as I.
  pose proof (good_supply w (l_share p) u G) as G2.
  pose proof (mv_le _ _ _ _ _ _ Ei) as Ls. pose proof (li_sup _ _ _ I) as Psup.
  pose proof (li_tot _ _ _ I). assert (PT : 0 < l_total p) by lia.
  destruct (wd_numbers _ _ _ _ _ Ps PT (proj1 (li_ra _ _ _ I)) Er Ea) as [Na [La Ua]].
  destruct (wd_numbers _ _ _ _ _ Ps PT (proj1 (li_rb _ _ _ I)) Er Eb) as [Nb [Lb Ub]].
  change DEC with (10^18) in *.
  eexists. split; [exact Ep'|]. cbv zeta. simpl l_ra; simpl l_rb; simpl l_total.
  do 13 (split; [first [lia|nia]|]). split; [exact Au|]. split; [exact Dl|].
  intros t x'. rewrite (bal_wtok w4 w') by auto.
  rewrite (mv_bal _ _ _ _ _ _ Eo2), (mv_bal _ _ _ _ _ _ Eo1), (bn_bal _ _ _ _ _ Ebn), (mv_bal _ _ _ _ _ _ Ei); change on with ind.
  lia.
Qed.
Print Assumptions C80_stable_withdrawal.

Theorem C81_stable_query_share_is_payout self s w a b w1 e c u mina minb dl a' b' w' :
  stable_query_share self s w = Ok ((a, b), w1) ->
  stable_withdraw e c self u s mina minb dl w = Ok ((a', b'), w') -> w1 = w /\ a' = a /\ b' = b.
Proof.
  intros Q X. apply stable_withdraw_ok in X. destruct X as [_ [_ [p [ratio [v1 [v2 [v3 [v4 E]]]]]]]].
  destruct E as [Ep _ _ Nt Er Ea Eb _ _ _ _ _ _ _].
  unfold stable_query_share in Q. rstep Q. winv.
  match goal with K : fget self (w_stable w) = Some ?q |- _ => rewrite Ep in K; inversion K; subst q end.
  destruct (Z.eqb_spec (l_total p) 0); [contradiction|].
  match goal with K : dec_from_ratio _ _ = Ok ?z, K2 : i_mul_dec (l_ra p) ?z = Ok ?v |- context [?v] =>
    rewrite Er in K; inversion K; subst z end.
  split; [reflexivity|]. split; congruence.
Qed.
Print Assumptions C81_stable_query_share_is_payout.
