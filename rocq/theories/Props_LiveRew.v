(** When the calls of a stake_rewards contract succeed, and what they record (C148). *)
From Coq Require Import ZArith List Bool Lia.
From Coq Require Import ZifyBool.
From Verif Require Import Base FMap Decimal DecimalProofs Curve World Token TokenProofs Frame Stake Pool PoolProofs
  Stable StableProofs Rewards Vest Factory Router System SysFrame SysInv SysPool SysSupply SysStake SysRewards
  Script Runs Props_Token Props_Pool Props_Stake Props_Rewards Props_Live Props_LiveTok Props_Calls.
Import ListNotations.
Open Scope Z_scope.

Definition fits (x : Z) : Prop := I128_MIN <= x <= I128_MAX.

(** the power of a stake: nothing below the minimum, else one per thousand *)
Definition power (r : Rewards) (t : Z) : Z := if t <? r_minbond r then 0 else Z.quot t 1000.
Definition power_fits (r : Rewards) (t : Z) : Prop := t < r_minbond r \/ fits (t * 10^18).

Lemma power_iff r t p : calc_power r t = Ok p <-> power_fits r t /\ p = power r t.
Proof.
  unfold power_fits, fits. split.
  - intros X. pose proof (calc_power_ok _ _ _ X) as ->. split; [|reflexivity].
    unfold calc_power in X. destruct (Z.ltb_spec t (r_minbond r)); [auto|right].
    unfold i_mul_dec in X. change dec_one with (10^18) in X. destruct (Z.eqb_spec t 0) as [E0|]; [rewrite E0; vm_compute; split; discriminate|].
    change (10^18 =? 0) with false in X. cbn [orb] in X. rstep X. lia.
  - intros [F ->]. unfold calc_power, power. destruct (Z.ltb_spec t (r_minbond r)); [reflexivity|].
    destruct F as [F|F]; [lia|].
    assert (Q : i_mul_dec t dec_one = Ok t).
    { unfold i_mul_dec. change dec_one with DEC. destruct (Z.eqb_spec t 0) as [->|]; [reflexivity|].
      change (DEC =? 0) with false. cbn [orb]. unfold mul_i.
      change (10^18) with DEC in F. rewrite chk_ok by (unfold in_i128; lia). unfold rbind, div_i.
      change (DEC =? 0) with false. cbv iota. rewrite Z.quot_mul by discriminate.
      apply chk_ok. unfold in_i128, DEC, I128_MIN, I128_MAX in *. lia. }
    rewrite Q. unfold rbind, div_i. change (TOKEN_PER_POWER =? 0) with false. cbv iota. apply chk_ok.
    unfold TOKEN_PER_POWER, in_i128. assert (- Z.abs t <= Z.quot t 1000 <= Z.abs t).
    { pose proof (Z.quot_abs t 1000 ltac:(lia)) as A. change (Z.abs 1000) with 1000 in A.
      assert (Z.abs t ÷ 1000 <= Z.abs t) by (rewrite Z.quot_div_nonneg by lia; apply Z.div_le_upper_bound; lia). lia. }
    unfold I128_MIN, I128_MAX in *. lia.
Qed.
Lemma power_small r t : power_fits r t -> - 10^37 <= power r t <= 10^37.
Proof.
  intros F. unfold power. destruct (Z.ltb_spec t (r_minbond r)); [vm_compute; split; discriminate|]. destruct F as [F|F]; [lia|].
  pose proof (Z.quot_abs t 1000 ltac:(lia)) as A. change (Z.abs 1000) with 1000 in A.
  rewrite Z.quot_div_nonneg in A by lia.
  assert (Z.abs t / 1000 <= 10^37) by (apply Z.div_le_upper_bound; [lia|]; unfold fits, I128_MIN, I128_MAX in F; lia). lia.
Qed.
Lemma power_diff r t t' : power_fits r t -> power_fits r t' -> fits (power r t' - power r t).
Proof. intros A B. apply power_small in A, B. unfold fits, I128_MIN, I128_MAX. lia. Qed.

(** the record of [u] after its power changed by [d] *)
Definition corrected (r : Rewards) (u d : Z) : Rewards :=
  if d =? 0 then r else
  mkRewards (r_staking r) (r_token r) (r_maxc r) (r_minreward r) (r_minbond r) (r_admin r) (r_spp r) (r_left r) (r_dist r) (r_wdr r)
    (r_curve r) (fset u (fst (fgetd (0, 0) u (r_adj r)) - r_spp r * d, snd (fgetd (0, 0) u (r_adj r))) (r_adj r)).
Definition correctable (r : Rewards) (u d : Z) : Prop :=
  d = 0 \/ (r_spp r <= I128_MAX /\ fits (r_spp r * d) /\ fits (fst (fgetd (0, 0) u (r_adj r)) - r_spp r * d)).

Lemma update_iff r u p0 p1 r' : fits (p1 - p0) -> 1 <= r_spp r ->
  update_rewards r u p0 p1 = Ok r' <-> correctable r u (p1 - p0) /\ r' = corrected r u (p1 - p0).
Proof.
  intros F P. unfold update_rewards, correctable, corrected, r_adj_of, fits in *.
  destruct (Z.eqb_spec p0 p1) as [->|N].
  - rewrite Z.sub_diag, Z.eqb_refl. split; [intros X; inversion X; auto|intros [_ ->]; reflexivity].
  - destruct (Z.eqb_spec (p1 - p0) 0); [lia|]. destruct (fgetd (0, 0) u (r_adj r)) as [corr wd]. cbn [fst snd]. split.
    + intros X. rstep X. split; [|reflexivity]. right. lia.
    + intros [[Z0|[F1 [F2 F3]]] ->]; [lia|]. unfold sub_i, mul_i, u2i.
      rewrite (chk_ok in_i128 (p1 - p0)) by (unfold in_i128; lia). unfold rbind.
      destruct (Z.ltb_spec I128_MAX (r_spp r)); [lia|].
      rewrite (chk_ok in_i128 (r_spp r * (p1 - p0))) by (unfold in_i128; lia).
      rewrite chk_ok by (unfold in_i128; lia). reflexivity.
Qed.

(** how much of the stakes counts: each stake by the days since it was made, up to 60 *)
Fixpoint grown (t : Z) (l : list StakeE) : Z :=
  match l with [] => 0 | k :: tl => Z.min 60 ((t - k_ts k) / 86400) * k_amt k + grown t tl end.
Fixpoint amounts (l : list StakeE) : Z := match l with [] => 0 | k :: tl => k_amt k + amounts tl end.
Definition share_of (t : Z) (l : list StakeE) : Z := if amounts l =? 0 then 0 else grown t l * 10^18 / (60 * amounts l).
Definition stakes_fit (t : Z) (l : list StakeE) : Prop :=
  Forall (fun k => 0 <= t - k_ts k <= U64_MAX /\ 0 <= k_amt k) l /\ 60 * amounts l <= I128_MAX /\ grown t l * 10^18 <= I128_MAX.

Lemma grown_le t l : Forall (fun k => 0 <= t - k_ts k <= U64_MAX /\ 0 <= k_amt k) l -> 0 <= grown t l <= 60 * amounts l.
Proof.
  induction 1 as [|k l [A B] _ IH]; cbn [grown amounts]; [lia|].
  assert (0 <= (t - k_ts k) / 86400) by (apply Z.div_pos; lia). nia.
Qed.
Lemma amounts_nonneg t l : Forall (fun k => 0 <= t - k_ts k <= U64_MAX /\ 0 <= k_amt k) l -> 0 <= amounts l.
Proof. intros F. apply grown_le in F. lia. Qed.

Lemma weigh_iff t l : forall ws tw a b, 0 <= ws <= tw -> tw <= U128_MAX ->
  weigh t l ws tw = Ok (a, b) <->
  Forall (fun k => 0 <= t - k_ts k <= U64_MAX /\ 0 <= k_amt k) l /\ tw + 60 * amounts l <= U128_MAX /\
  a = ws + grown t l /\ b = tw + 60 * amounts l.
Proof.
  induction l as [|k l IH]; intros ws tw a b L M.
  - cbn [weigh amounts grown]. split; [intros X; inversion X; repeat split; auto; lia|intros [_ [_ [-> ->]]]; do 2 f_equal; lia].
  - assert (Pw : forall d, (if d <? 60 then d else 60) = Z.min 60 d) by (intros d; destruct (Z.ltb_spec d 60); lia).
    cbn [amounts grown]. unfold weigh; fold weigh. cbv zeta. change SECONDS_PER_DAY with 86400. split.
    + intros X. rstep X. rewrite !Pw in *. assert (0 <= (t - k_ts k) / 86400) by (apply Z.div_pos; lia).
      match goal with K : weigh _ _ _ _ = Ok _ |- _ => apply IH in K; [|nia|lia]; destruct K as [K1 [K2 [K3 K4]]] end.
      split; [constructor; auto; split; lia|]. lia.
    + intros [F [N [-> ->]]]. inversion F as [|? ? [A B] F']; subst. pose proof (amounts_nonneg _ _ F') as Ap.
      assert (Q : 0 <= (t - k_ts k) / 86400) by (apply Z.div_pos; lia).
      assert (0 <= Z.min 60 ((t - k_ts k) / 86400) * k_amt k <= 60 * k_amt k) by nia.
      unfold sub_64, mul_u, add_u, i2u. rewrite (chk_ok in_u64) by (unfold in_u64; lia). unfold rbind. rewrite Pw.
      destruct (Z.ltb_spec (k_amt k) 0); [lia|].
      rewrite (chk_ok in_u128 (Z.min 60 ((t - k_ts k) / 86400) * k_amt k)) by (unfold in_u128; lia).
      rewrite (chk_ok in_u128 (ws + _)) by (unfold in_u128; lia).
      rewrite (chk_ok in_u128 (60 * k_amt k)) by (unfold in_u128; lia).
      rewrite (chk_ok in_u128 (tw + _)) by (unfold in_u128; lia).
      apply IH; try lia. split; [auto|]. repeat split; lia.
Qed.

Lemma wpower_iff t l m : withdraw_power t l = Ok m <-> stakes_fit t l /\ m = share_of t l.
Proof.
  assert (U0 : 0 <= U128_MAX) by (unfold U128_MAX; lia).
  unfold withdraw_power, stakes_fit, share_of. split.
  - intros X. rstep X. match goal with K : weigh _ _ _ _ = Ok ?p |- _ => destruct p as [a b]; rename K into W end.
    match goal with K : (if _ then _ else _) = Ok m |- _ => rename K into X end.
    apply weigh_iff in W; [|lia|lia]. destruct W as [F [N [-> ->]]]. pose proof (grown_le _ _ F) as GL. cbn [Z.add] in *.
    destruct (Z.ltb_spec 0 (60 * amounts l)).
    + rstep X. match goal with K : dec_from_ratio _ _ = Ok _ |- _ => rename K into Rr end.
      pose proof (from_ratio_fits _ _ _ Rr) as FF. apply dec_from_ratio_pos in Rr; [|lia..].
      destruct (Z.eqb_spec (amounts l) 0); [lia|]. change (10^18) with DEC. split; [split; [auto|lia]|]. tauto.
    + inversion X; subst. destruct (Z.eqb_spec (amounts l) 0); [|lia].
      split; [|reflexivity]. split; [auto|]. unfold I128_MAX. lia.
  - intros [[F [N D]] ->]. pose proof (grown_le _ _ F) as GL.
    assert (W : weigh t l 0 0 = Ok (grown t l, 60 * amounts l)).
    { apply weigh_iff; try lia. split; [auto|]. unfold I128_MAX, U128_MAX in *. lia. }
    rewrite W. unfold rbind. destruct (Z.eqb_spec (amounts l) 0) as [E|E].
    + rewrite E. reflexivity.
    + destruct (Z.ltb_spec 0 (60 * amounts l)); [|lia]. unfold u2i.
      destruct (Z.ltb_spec I128_MAX (grown t l)); [lia|]. destruct (Z.ltb_spec I128_MAX (60 * amounts l)); [lia|].
      change (10^18) with DEC in *. apply from_ratio_runs; lia.
Qed.
Lemma share_range t l : stakes_fit t l -> 0 <= share_of t l <= 10^18.
Proof.
  intros [F _]. pose proof (grown_le _ _ F). unfold share_of. destruct (Z.eqb_spec (amounts l) 0); [lia|].
  split; [apply Z.div_pos; lia|]. apply Z.div_le_upper_bound; lia.
Qed.

(** what [u] has earned and not yet received, and the part of it that is paid now *)
Definition points (r : Rewards) (u : Addr) (b : Bonding) : Z :=
  r_spp r * power r (b_total b) + fst (fgetd (0, 0) u (r_adj r)).
Definition unpaid (r : Rewards) (u : Addr) (b : Bonding) : Z := points r u b / 2^32 - snd (fgetd (0, 0) u (r_adj r)).
Definition due_now (r : Rewards) (t : Z) (u : Addr) (b : Bonding) : Z := unpaid r u b * share_of t (b_stakes b) / 10^18.
Definition computable (r : Rewards) (t : Z) (u : Addr) (b : Bonding) : Prop :=
  power_fits r (b_total b) /\ r_spp r <= I128_MAX /\ fits (r_spp r * power r (b_total b)) /\ 0 <= points r u b <= I128_MAX /\
  0 <= unpaid r u b /\ stakes_fit t (b_stakes b) /\ unpaid r u b * share_of t (b_stakes b) <= I128_MAX.

Lemma due_iff r t u b x : 0 <= snd (fgetd (0, 0) u (r_adj r)) ->
  reward_now r t u b = Ok x <-> computable r t u b /\ x = due_now r t u b.
Proof.
  intros Pa. unfold reward_now, withdrawable, computable, due_now, unpaid, points, r_adj_of, fits.
  set (adj := fgetd (0, 0) u (r_adj r)) in *. unfold shr_i128, SHARES_SHIFT. change (2^32) with 4294967296. split.
  - intros X. destruct (calc_power r (b_total b)) as [p|] eqn:Ep; [|discriminate]. apply power_iff in Ep. destruct Ep as [Fp ->].
    set (p := power r (b_total b)) in *. set (q := (r_spp r * p + fst adj) / 4294967296) in *. unfold rbind in X.
    destruct (u2i (r_spp r)) as [s|] eqn:Es; [|discriminate]. unfold u2i in Es. destruct (Z.ltb_spec I128_MAX (r_spp r)); [discriminate|]. injection Es as <-.
    destruct (mul_i (r_spp r) p) as [mm|] eqn:Em; [|discriminate]. apply Base.chk_ok in Em. destruct Em as [-> Im].
    destruct (add_i (r_spp r * p) (fst adj)) as [ps|] eqn:Ea; [|discriminate]. apply Base.chk_ok in Ea. destruct Ea as [-> Ia]. fold q in X.
    unfold i2u in X. destruct (Z.ltb_spec q 0); [discriminate|].
    destruct (sub_u q (snd adj)) as [a|] eqn:Eu; [|discriminate]. apply Base.chk_ok in Eu. destruct Eu as [-> Iu].
    destruct (withdraw_power t (b_stakes b)) as [m|] eqn:W; [|discriminate]. apply wpower_iff in W. destruct W as [Fw ->].
    pose proof (share_range _ _ Fw) as SR. unfold u2i in X. destruct (Z.ltb_spec I128_MAX (q - snd adj)); [discriminate|].
    pose proof (mul_dec_fits _ _ _ X) as Mf. apply i_mul_dec_ok in X. unfold in_i128, in_u128 in *.
    assert (0 <= r_spp r * p + fst adj). { unfold q in *. destruct (Z_lt_ge_dec (r_spp r * p + fst adj) 0) as [L|]; [|lia].
      exfalso. assert ((r_spp r * p + fst adj) / 4294967296 < 0) by (apply Z.div_lt_upper_bound; lia). lia. }
    split; [split; [exact Fp|]; split; [lia|]; split; [lia|]; split; [lia|]; split; [lia|]; split; [exact Fw|exact Mf]|]. rewrite X. change (10^18) with DEC. apply Z.quot_div_nonneg; [nia|reflexivity].
  - intros [[Fp [Fs [Fm [Fa [Fu [Fw Fd]]]]]] ->]. pose proof (share_range _ _ Fw) as SR.
    set (p := power r (b_total b)) in *. set (q := (r_spp r * p + fst adj) / 4294967296) in *.
    assert (Q : q <= I128_MAX). { unfold q. apply Z.div_le_upper_bound; [lia|]. unfold I128_MAX in *. lia. }
    assert (Ep : calc_power r (b_total b) = Ok p) by (apply power_iff; auto). rewrite Ep. unfold rbind, u2i, mul_i, add_i, i2u, sub_u.
    destruct (Z.ltb_spec I128_MAX (r_spp r)); [lia|]. rewrite (chk_ok in_i128) by (unfold in_i128; lia).
    rewrite (chk_ok in_i128) by (unfold in_i128, I128_MIN; lia). fold q. destruct (Z.ltb_spec q 0); [lia|].
    rewrite chk_ok by (unfold in_u128, I128_MAX, U128_MAX in *; lia).
    assert (Ew : withdraw_power t (b_stakes b) = Ok (share_of t (b_stakes b))) by (apply wpower_iff; auto). rewrite Ew.
    destruct (Z.ltb_spec I128_MAX (q - snd adj)); [lia|]. change (10^18) with DEC. apply mul_dec_runs; lia.
Qed.

Lemma run_get_rewards a r w : fget a (w_rewards w) = Some r -> get_rewards a w = Ok (r, w).
Proof. intros E. unfold get_rewards. rewrite E. reflexivity. Qed.
Lemma lift_bind {A B} (m : res A) (k : A -> ST World B) w r :
  mbind (mlift m) k w = Ok r <-> exists x, m = Ok x /\ k x w = Ok r.
Proof.
  unfold mbind, mlift. destruct m as [x|er]; [|split; [discriminate|intros [x [X _]]; discriminate]].
  split; [eauto|intros [y [X Y]]; inversion X; subst; exact Y].
Qed.

Lemma transfer_is_tok e c t from to amt w x w' : tok_transfer e c t from to amt w = Ok (x, w') -> is_tok w t.
Proof.
  intros X. unfold tok_transfer in X. apply mbind_ok in X. destruct X as [[] [w0 [A X]]]. apply require_auth_ok in A. destruct A as [_ ->].
  apply mbind_ok in X. destruct X as [[] [w1 [B X]]]. apply mguard_ok in B. destruct B as [_ B]; injection B as ->.
  unfold upd_tok in X. apply mbind_ok in X. destruct X as [k [w2 [K _]]]. apply get_tok_ok in K. destruct K as [K _]. exists k. exact K.
Qed.

(** ** C148 *)
Section RewardsCalls.
  Variables (H : Addr -> Salt -> Addr) (w : World) (e : Env) (self : Addr) (r : Rewards).
  Hypotheses (R : reachable H w) (E : rewards_at w self r).

  Lemma rw_setup : Good w /\ fget self (w_code w) = Some KRewards /\ RewardsInv w self r /\ 0 <= self.
  Proof using R E.
    pose proof (reach_good _ _ R) as G. pose proof (gd_crewards _ G _ _ E) as Hc.
    split; [auto|]. split; [auto|]. split; [eapply reach_rewards; eauto|]. apply (gd_pos _ G _ _ Hc).
  Qed.

  Theorem C148_add_user u b w' :
    exec e (CRewAddUser self u b) w = Ok (tt, w') <->
    signs e (r_staking r) = true /\ power_fits r (b_total b) /\ correctable r u (power r (b_total b)) /\
    w' = set_rewards w (fset self (corrected r u (power r (b_total b))) (w_rewards w)).
  Proof using R E.
    destruct rw_setup as [G [Hc [I _]]]. unfold rewards_at in E. cbn [exec]. unfold rewards_add_user.
    rewrite (run_bind _ _ _ tt w) by (apply run_enter; auto). rewrite (run_bind _ _ _ r w) by (apply run_get_rewards; auto).
    rewrite auth_bind. destruct (signs e (r_staking r)); [|split; [discriminate|intros [X _]; discriminate]].
    rewrite lift_bind. pose proof (rv_spp _ _ _ I) as P. split.
    - intros [p [Ep X]]. apply power_iff in Ep. destruct Ep as [Fp ->]. apply lift_bind in X. destruct X as [r' [Er X]].
      assert (D := power_small _ _ Fp). apply update_iff in Er; [|unfold fits, I128_MIN, I128_MAX; lia|auto]. rewrite Z.sub_0_r in Er. destruct Er as [C ->].
      unfold put_rewards in X. apply mmod_iff in X. auto.
    - intros [_ [Fp [C ->]]]. exists (power r (b_total b)). split; [apply power_iff; auto|]. apply lift_bind.
      exists (corrected r u (power r (b_total b))). assert (D := power_small _ _ Fp). split; [|reflexivity].
      apply update_iff; [unfold fits, I128_MIN, I128_MAX; lia|auto|]. rewrite Z.sub_0_r. auto.
  Qed.

  Theorem C148_bond u b w' :
    exec e (CRewBond self u b) w = Ok (tt, w') <->
    signs e (r_staking r) = true /\ exists l k, b_stakes b = l ++ [k] /\
    power_fits r (b_total b) /\ fits (b_total b + k_amt k) /\ power_fits r (b_total b + k_amt k) /\
    correctable r u (power r (b_total b + k_amt k) - power r (b_total b)) /\
    w' = set_rewards w (fset self (corrected r u (power r (b_total b + k_amt k) - power r (b_total b))) (w_rewards w)).
  Proof using R E.
    destruct rw_setup as [G [Hc [I _]]]. unfold rewards_at in E. cbn [exec]. unfold rewards_bond.
    rewrite (run_bind _ _ _ tt w) by (apply run_enter; auto). rewrite (run_bind _ _ _ r w) by (apply run_get_rewards; auto).
    rewrite auth_bind. destruct (signs e (r_staking r)); [|split; [discriminate|intros [X _]; discriminate]].
    pose proof (rv_spp _ _ _ I) as P. split.
    - intros X. split; [reflexivity|]. apply lift_bind in X. destruct X as [k [Ek X]].
      destruct (rev (b_stakes b)) as [|k0 l] eqn:Er; [discriminate|]. inversion Ek; subst k0. exists (rev l), k.
      split. { rewrite <- (rev_involutive (b_stakes b)), Er. reflexivity. }
      apply lift_bind in X. destruct X as [p0 [E0 X]]. apply power_iff in E0. destruct E0 as [F0 ->].
      apply lift_bind in X. destruct X as [t [Et X]]. apply Base.chk_ok in Et. destruct Et as [-> It].
      apply lift_bind in X. destruct X as [p1 [E1 X]]. apply power_iff in E1. destruct E1 as [F1 ->].
      apply lift_bind in X. destruct X as [r' [Eu X]]. apply update_iff in Eu; [|apply power_diff; auto|auto]. destruct Eu as [C ->].
      unfold put_rewards in X. apply mmod_iff in X. unfold in_i128 in It. unfold fits. split; [auto|]. split; [lia|]. auto.
    - intros [_ [l [k [El [F0 [Ft [F1 [C ->]]]]]]]]. apply lift_bind. exists k.
      rewrite El, rev_unit. split; [reflexivity|]. apply lift_bind. exists (power r (b_total b)). split; [apply power_iff; auto|].
      apply lift_bind. exists (b_total b + k_amt k). split; [apply chk_ok; unfold in_i128, fits in *; lia|].
      apply lift_bind. exists (power r (b_total b + k_amt k)). split; [apply power_iff; auto|].
      apply lift_bind. eexists. split; [apply update_iff; [apply power_diff; auto|auto|split; [exact C|reflexivity]]|reflexivity].
  Qed.

  (** what a payment of [amt] to [u] records *)
  Definition paid_out (u amt : Z) : Rewards :=
    mkRewards (r_staking r) (r_token r) (r_maxc r) (r_minreward r) (r_minbond r) (r_admin r) (r_spp r) (r_left r) (r_dist r)
      (r_wdr r - amt) (r_curve r) (fset u (fst (fgetd (0, 0) u (r_adj r)), snd (fgetd (0, 0) u (r_adj r)) + amt) (r_adj r)).

  (** the contract can pay [amt] to [u] *)
  Definition payable (u amt : Z) : Prop :=
    amt = 0 \/ (amt <= r_wdr r /\ is_tok w (r_token r) /\ (u = self \/ bal w (r_token r) u + amt <= I128_MAX)).

  Lemma pay_runs cl u b : authed e cl (r_staking r) = true -> computable r (w_now w) u b -> payable u (due_now r (w_now w) u b) ->
    exists w', rewards_withdraw e cl self u b w = Ok (tt, w').
  Proof using R E.
    destruct rw_setup as [G [Hc [I Ps]]]. intros A C D. unfold rewards_at in E.
    pose proof (adj_each _ _ _ u I) as Pa. unfold r_adj_of in Pa. pose proof (rv_wdr _ _ _ I) as Wd.
    unfold payable in D. set (amt := due_now r (w_now w) u b) in *.
    assert (Rn : reward_now r (w_now w) u b = Ok amt) by (apply due_iff; auto).
    pose proof (reward_now_ok _ _ _ _ _ Rn) as [a [m [Wa [_ [La _]]]]].
    unfold rewards_withdraw. rewrite (run_bind _ _ _ tt w) by (apply run_enter; auto).
    rewrite (run_bind _ _ _ r w) by (apply run_get_rewards; auto). rewrite (run_bind _ _ _ tt w) by (apply run_auth; auto).
    rewrite (run_bind _ _ _ _ w (run_now w)). rewrite (run_bind _ _ _ amt w) by (apply run_lift; auto).
    destruct (Z.eqb_spec amt 0); [exists w; reflexivity|]. destruct D as [D|[D1 [D2 D3]]]; [lia|].
    destruct (r_adj_of r u) as [corr wd] eqn:Ea. pose proof Ea as Eb. unfold r_adj_of in Eb. rewrite Eb in Pa. cbn [snd] in Pa.
    pose proof (good_bal w (r_token r) self G) as Gb.
    rewrite as_u128_pos by (unfold I128_MAX, U128_MAX in *; lia).
    assert (Wb : wd + amt <= U128_MAX).
    { apply withdrawable_ok in Wa. destruct Wa as [p [Ep [Ea' [Pa1 Pa2]]]]. cbn [fst snd] in *.
      destruct C as [_ [_ [_ [[_ Cp] _]]]]. unfold points in Cp. rewrite Eb in Cp. cbn [fst] in Cp.
      apply power_iff in Ep. destruct Ep as [_ ->].
      assert ((r_spp r * power r (b_total b) + corr) / 2 ^ 32 <= I128_MAX).
      { apply Z.div_le_upper_bound; [lia|]. unfold I128_MAX in *. lia. }
      unfold I128_MAX, U128_MAX in *. lia. }
    rewrite (run_bind _ _ _ (wd + amt) w) by (apply run_lift, chk_ok; unfold in_u128; lia).
    rewrite (run_bind _ _ _ (r_wdr r - amt) w) by (apply run_lift, chk_ok; unfold in_u128, I128_MAX, U128_MAX in *; lia).
    match goal with |- exists w', mbind (put_rewards self ?x) ?k w = _ =>
      pose proof (eq_refl : put_rewards self x w = Ok (tt, set_rewards w (fset self x (w_rewards w)))) as PX;
      rewrite (run_bind _ _ _ _ _ PX) end.
    destruct (frame_good _ _ KRewards _ _ _ _ (frame_put_rewards e self _) PX G Hc) as [G1 Hc1].
    match goal with |- exists w', tok_transfer _ _ _ _ _ _ ?w0 = _ => set (w1 := w0) in * end.
    destruct (run_transfer e (Some self) (r_token r) self u amt w1) as [w2 [X _]]; eauto.
    - unfold authed. rewrite Z.eqb_refl. apply orb_true_r.
    - change (bal w1 (r_token r) self) with (bal w (r_token r) self). lia.
    - change (bal w1 (r_token r) u) with (bal w (r_token r) u). destruct D3; auto.
  Qed.

  (** what is known of a payment that went through *)
  Lemma rpay_needs u b w' r' amt : RPay self u b w w' r r' amt ->
    computable r (w_now w) u b /\ amt = due_now r (w_now w) u b /\ payable u amt /\
    ((amt = 0 /\ w' = w /\ r' = r) \/ (0 < amt /\ r' = paid_out u amt /\ Moved (r_token r) self u amt (set_rewards w (fset self r' (w_rewards w))) w')).
  Proof using R E.
    destruct rw_setup as [G [Hc [I Ps]]]. pose proof (adj_each _ _ _ u I) as Pa. unfold r_adj_of in Pa. pose proof (rv_wdr _ _ _ I) as Wd.
    intros [P1 P2]. apply due_iff in P1; auto. destruct P1 as [C ->]. split; [auto|]. split; [auto|]. unfold payable.
    destruct P2 as [[Z0 P2]|[P2 [P3 [M P4]]]]; [auto|]. split; [|right; auto].
    right. split; [auto|].
    pose proof (mv_le _ _ _ _ _ _ M) as L. pose proof (mv_fit _ _ _ _ _ _ M) as F. rewrite (mv_bal _ _ _ _ _ _ M), !Z.eqb_refl in F.
    change (bal (set_rewards w _) (r_token r) self) with (bal w (r_token r) self) in L.
    change (bal (set_rewards w _) (r_token r) u) with (bal w (r_token r) u) in F.
    split; [apply (bal_is_tok w (r_token r) self); lia|].
    destruct (Z.eqb_spec u self); [auto|]. right. unfold ind in F. cbn [andb] in F. lia.
  Qed.

  Theorem C148_withdraw u b :
    (exists w', exec e (CRewWithdraw self u b) w = Ok (tt, w')) <->
    signs e (r_staking r) = true /\ computable r (w_now w) u b /\ payable u (due_now r (w_now w) u b).
  Proof using R E.
    destruct rw_setup as [G [Hc [I Ps]]]. cbn [exec]. split.
    - intros [w' X]. apply rewards_withdraw_ok in X. destruct X as [r0 [r' [amt [_ [E0 [A P]]]]]].
      unfold rewards_at in E. rewrite E in E0. inversion E0; subst r0. rewrite authed_none in A.
      destruct (rpay_needs _ _ _ _ _ P) as [C [-> [D _]]]. auto.
    - intros [A [C D]]. apply pay_runs; auto. rewrite authed_none. auto.
  Qed.
  (** and then exactly this is recorded and paid *)
  Theorem C148_withdraw_effect u b w' : exec e (CRewWithdraw self u b) w = Ok (tt, w') ->
    let amt := due_now r (w_now w) u b in
    (amt = 0 /\ w' = w) \/
    (0 < amt /\ rewards_at w' self (paid_out u amt) /\
     Moved (r_token r) self u amt (set_rewards w (fset self (paid_out u amt) (w_rewards w))) w').
  Proof using R E.
    cbn [exec]. intros X. apply rewards_withdraw_ok in X. destruct X as [r0 [r' [amt [_ [E0 [A P]]]]]].
    pose proof E as E'. unfold rewards_at in E'. rewrite E' in E0. inversion E0; subst r0. cbv zeta.
    destruct (rpay_needs _ _ _ _ _ P) as [C [Ea [_ [[Z0 [W _]]|[L [Er M]]]]]]; rewrite <- Ea; [auto|right].
    split; [auto|]. subst r'. split; [|exact M]. apply (rpay_get _ _ _ _ _ _ _ _ P E').
  Qed.

  (** the query announces the same amount *)
  Theorem C148_query u b x w1 : rewards_query self u b w = Ok (x, w1) <->
    computable r (w_now w) u b /\ x = due_now r (w_now w) u b /\ w1 = w.
  Proof using R E.
    destruct rw_setup as [G [Hc [I Ps]]]. pose proof (adj_each _ _ _ u I) as Pa. unfold r_adj_of in Pa.
    unfold rewards_query. rewrite (run_bind _ _ _ tt w) by (apply run_enter; auto).
    rewrite (run_bind _ _ _ r w) by (apply run_get_rewards; auto). rewrite (run_bind _ _ _ _ w (run_now w)).
    rewrite lift_bind. split.
    - intros [y [Y X]]. pose proof (reward_now_ok _ _ _ _ _ Y) as [a0 [m0 [_ [_ [P _]]]]].
      apply due_iff in Y; auto. destruct Y as [C ->]. unfold mlift in X. rewrite i2u_runs in X by lia. inversion X; subst. split; [auto|split; congruence].
    - intros [C [-> ->]]. assert (Y : reward_now r (w_now w) u b = Ok (due_now r (w_now w) u b)) by (apply due_iff; auto).
      pose proof (reward_now_ok _ _ _ _ _ Y) as [a0 [m0 [_ [_ [P _]]]]].
      exists (due_now r (w_now w) u b). split; [auto|]. unfold mlift. rewrite i2u_runs by lia. reflexivity.
  Qed.

  (** [unbond] first pays what is due, then lowers the power *)
  Definition after_payment (u amt : Z) : Rewards := if amt =? 0 then r else paid_out u amt.

  Lemma unbond_run u b x w' : exec e (CRewUnbond self u b x) w = Ok (tt, w') <->
    signs e u = true /\ signs e (r_staking r) = true /\ computable r (w_now w) u b /\
    exists w1, rewards_withdraw e None self u b w = Ok (tt, w1) /\
    fits (b_total b - x) /\ power_fits r (b_total b - x) /\ correctable r u (power r (b_total b - x) - power r (b_total b)) /\
    w' = set_rewards w1 (fset self (corrected (after_payment u (due_now r (w_now w) u b)) u
                                      (power r (b_total b - x) - power r (b_total b))) (w_rewards w1)).
  Proof using R E.
    destruct rw_setup as [G [Hc [I Ps]]]. pose proof (adj_each _ _ _ u I) as Pa. unfold r_adj_of in Pa.
    pose proof (rv_spp _ _ _ I) as Sp. cbn [exec]. unfold rewards_unbond.
    rewrite (run_bind _ _ _ tt w) by (apply run_enter; auto).
    rewrite auth_bind. destruct (signs e u) eqn:Su; [|split; [discriminate|intros [X _]; discriminate]].
    rewrite (run_bind _ _ _ r w) by (apply run_get_rewards; auto).
    rewrite auth_bind. destruct (signs e (r_staking r)) eqn:Ss; [|split; [discriminate|intros [_ [X _]]; discriminate]].
    assert (After : forall w1, rewards_withdraw e None self u b w = Ok (tt, w1) ->
      fget self (w_rewards w1) = Some (after_payment u (due_now r (w_now w) u b)) /\ (due_now r (w_now w) u b = 0 -> w1 = w)).
    { intros w1 X. apply rewards_withdraw_ok in X. destruct X as [r0 [r' [amt [_ [E0 [_ P]]]]]].
      pose proof E as E'. unfold rewards_at in E'. rewrite E' in E0. inversion E0; subst r0.
      pose proof (rpay_get _ _ _ _ _ _ _ _ P E') as Eg.
      destruct (rpay_needs _ _ _ _ _ P) as [_ [Ea [_ [[Z0 [Ew Er]]|[L [Er _]]]]]]; rewrite <- Ea; unfold after_payment; subst r'.
      - rewrite Z0. auto.
      - destruct (Z.eqb_spec amt 0); [lia|]. split; [auto|lia]. }
    assert (Zero : computable r (w_now w) u b -> due_now r (w_now w) u b = 0 -> rewards_withdraw e None self u b w = Ok (tt, w)).
    { intros C Z0. destruct (pay_runs None u b) as [w1 X]; [rewrite authed_none; auto|auto|left; auto|].
      rewrite X. destruct (After _ X) as [_ ->]; auto. }
    set (r1 := after_payment u (due_now r (w_now w) u b)) in *.
    assert (M : r_minbond r1 = r_minbond r /\ r_spp r1 = r_spp r /\ fst (fgetd (0, 0) u (r_adj r1)) = fst (fgetd (0, 0) u (r_adj r))).
    { unfold r1, after_payment. destruct (_ =? 0); [auto|]. simpl. unfold fgetd. rewrite fget_set_same. auto. }
    destruct M as [M1 [M2 M3]].
    assert (Pp : forall t, power r1 t = power r t) by (intros; unfold power; rewrite M1; auto).
    assert (Pf : forall t, power_fits r1 t <-> power_fits r t) by (intros; unfold power_fits; rewrite M1; tauto).
    assert (Pc : forall d, correctable r1 u d <-> correctable r u d) by (intros; unfold correctable; rewrite M2, M3; tauto).
    (* the second part, in the ledger after the payment *)
    assert (Tail : forall w1, fget self (w_rewards w1) = Some r1 -> computable r (w_now w) u b ->
      (r1 <- get_rewards self ;; p0 <- mlift (calc_power r1 (b_total b)) ;; t <- mlift (sub_i (b_total b) x) ;;
       p1 <- mlift (calc_power r1 t) ;; r2 <- mlift (update_rewards r1 u p0 p1) ;; put_rewards self r2) w1 = Ok (tt, w') <->
      fits (b_total b - x) /\ power_fits r (b_total b - x) /\ correctable r u (power r (b_total b - x) - power r (b_total b)) /\
      w' = set_rewards w1 (fset self (corrected r1 u (power r (b_total b - x) - power r (b_total b))) (w_rewards w1))).
    { intros w1 E1 C. destruct C as [C0 _]. rewrite (run_bind _ _ _ r1 w1) by (apply run_get_rewards; auto).
      rewrite lift_bind. split.
      - intros [p0 [E0 X]]. apply power_iff in E0. destruct E0 as [F0 ->].
        apply lift_bind in X. destruct X as [t [Et X]]. apply Base.chk_ok in Et. destruct Et as [-> It].
        apply lift_bind in X. destruct X as [p1 [E2 X]]. apply power_iff in E2. destruct E2 as [F1 ->].
        apply lift_bind in X. destruct X as [r' [Eu X]]. apply update_iff in Eu; [|apply power_diff; auto|lia]. destruct Eu as [Cc ->].
        unfold put_rewards in X. apply mmod_iff in X. rewrite !Pp in *. apply Pf in F1. apply Pc in Cc.
        unfold in_i128 in It. unfold fits. split; [lia|]. auto.
      - intros [Ft [F1 [Cc ->]]]. rewrite <- !Pp in Cc. rewrite <- !Pp. apply Pc in Cc. apply Pf in F1. apply Pf in C0.
        exists (power r1 (b_total b)). split; [apply power_iff; auto|].
        apply lift_bind. exists (b_total b - x). split; [apply chk_ok; unfold in_i128, fits in *; lia|].
        apply lift_bind. exists (power r1 (b_total b - x)). split; [apply power_iff; auto|].
        apply lift_bind. exists (corrected r1 u (power r1 (b_total b - x) - power r1 (b_total b))). split; [|reflexivity].
        apply update_iff; [apply power_diff; auto|lia|auto]. }
    split.
    - intros X. apply mbind_ok in X. destruct X as [found [w0 [Q X]]]. apply C148_query in Q. destruct Q as [C [-> ->]].
      apply mbind_ok in X. destruct X as [[] [w1 [K X]]]. split; [reflexivity|]. split; [reflexivity|]. split; [auto|]. exists w1.
      assert (W : rewards_withdraw e None self u b w = Ok (tt, w1)).
      { destruct (Z.eqb_spec (due_now r (w_now w) u b) 0); [|exact K]. inversion K; subst. auto. }
      split; [auto|]. apply Tail in X; auto. apply (After _ W).
    - intros [_ [_ [C [w1 [W X]]]]]. assert (Q : rewards_query self u b w = Ok (due_now r (w_now w) u b, w)) by (apply C148_query; auto).
      rewrite (run_bind _ _ _ _ _ Q). rewrite (run_bind _ _ _ tt w1).
      + apply Tail; auto. apply (After _ W).
      + destruct (Z.eqb_spec (due_now r (w_now w) u b) 0) as [Z0|]; [|exact W]. rewrite (Zero C Z0) in W. inversion W. reflexivity.
  Qed.

  Theorem C148_unbond u b x :
    (exists w', exec e (CRewUnbond self u b x) w = Ok (tt, w')) <->
    signs e u = true /\ signs e (r_staking r) = true /\ computable r (w_now w) u b /\ payable u (due_now r (w_now w) u b) /\
    fits (b_total b - x) /\ power_fits r (b_total b - x) /\ correctable r u (power r (b_total b - x) - power r (b_total b)).
  Proof using R E.
    split.
    - intros [w' X]. apply unbond_run in X. destruct X as [A [B [C [w1 [W [D1 [D2 [D3 _]]]]]]]].
      assert (X : exists w', exec e (CRewWithdraw self u b) w = Ok (tt, w')) by (exists w1; exact W).
      apply C148_withdraw in X. tauto.
    - intros [A [B [C [D [D1 [D2 D3]]]]]]. destruct (pay_runs None u b) as [w1 W]; [rewrite authed_none; auto|auto|auto|].
      eexists. apply unbond_run. repeat (split; [eassumption|]). exists w1. repeat (split; [eassumption|]). reflexivity.
  Qed.
  Theorem C148_unbond_effect u b x w' : exec e (CRewUnbond self u b x) w = Ok (tt, w') ->
    let amt := due_now r (w_now w) u b in
    let r' := corrected (after_payment u amt) u (power r (b_total b - x) - power r (b_total b)) in
    rewards_at w' self r' /\
    ((amt = 0 /\ w' = set_rewards w (fset self r' (w_rewards w))) \/
     (0 < amt /\ exists w1, Moved (r_token r) self u amt (set_rewards w (fset self (paid_out u amt) (w_rewards w))) w1 /\
       w' = set_rewards w1 (fset self r' (w_rewards w1)))).
  Proof using R E.
    intros X. apply unbond_run in X. destruct X as [A [B [C [w1 [W [_ [_ [_ ->]]]]]]]]. cbv zeta.
    split; [unfold rewards_at; simpl; apply fget_set_same|].
    destruct (C148_withdraw_effect u b w1 W) as [[Z0 ->]|[L [_ M]]]; [left; auto|right]. split; [auto|]. eauto.
  Qed.

  (** ** Distribution *)
  (** what is recorded when [amt] new tokens are spread over the power [p] *)
  Definition spread_over (p amt : Z) : Rewards :=
    let pts := (amt * 2^32) mod 2^128 + r_left r in
    mkRewards (r_staking r) (r_token r) (r_maxc r) (r_minreward r) (r_minbond r) (r_admin r)
      (r_spp r + pts / p) ((pts mod p) mod 2^64) (r_dist r + amt) (r_wdr r + amt) (r_curve r) (r_adj r).

  Theorem C148_distribute total w' :
    exec e (CRewDistribute self total) w = Ok (tt, w') <->
    signs e (r_staking r) = true /\ power_fits r total /\
    (let p := power r total in
     (p = 0 /\ w' = w) \/
     (0 < p /\ is_tok w (r_token r) /\ exists locked, cvalue (r_curve r) (w_now w) = Ok locked /\
      let amt := bal w (r_token r) self - r_wdr r - locked in
      (amt = 0 /\ w' = w) \/
      (0 < amt /\ (amt * 2^32) mod 2^128 + r_left r <= U128_MAX /\
       r_spp r + ((amt * 2^32) mod 2^128 + r_left r) / p <= U128_MAX /\ r_dist r + amt <= U128_MAX /\
       w' = set_rewards w (fset self (spread_over p amt) (w_rewards w))))).
  Proof using R E.
    destruct rw_setup as [G [Hc [I Ps]]]. cbn [exec]. unfold rewards_distribute.
    pose proof (rv_wdr _ _ _ I) as Wd. pose proof (rv_spp _ _ _ I) as Sp. pose proof (rv_left _ _ _ I) as Lf.
    pose proof (rv_dist _ _ _ I) as Ds. pose proof (good_bal w (r_token r) self G) as Gb.
    rewrite (run_bind _ _ _ tt w) by (apply run_enter; auto). rewrite (run_bind _ _ _ r w) by (apply run_get_rewards; auto).
    rewrite auth_bind. destruct (signs e (r_staking r)); [|split; [discriminate|intros [X _]; discriminate]].
    rewrite lift_bind. cbv zeta.
    assert (Sh : forall a, shl_u128 a SHARES_SHIFT = (a * 2^32) mod 2^128) by reflexivity.
    assert (Mp : forall a, 0 <= (a * 2^32) mod 2^128) by (intros; apply Z.mod_pos_bound; lia).
    split.
    - intros [p [Ep X]]. apply power_iff in Ep. destruct Ep as [Fp ->]. split; [reflexivity|]. split; [auto|].
      apply lift_bind in X. destruct X as [q [Eq X]]. unfold i2u in Eq. destruct (Z.ltb_spec (power r total) 0); [discriminate|].
      injection Eq as <-. destruct (Z.eqb_spec (power r total) 0) as [Z0|Z0]; [left; split; [auto|inversion X; auto]|right].
      split; [lia|]. apply mbind_ok in X. destruct X as [bl [w0 [Eb X]]].
      pose proof (tok_balance_ok _ _ _ _ _ Eb) as Eb'. destruct Eb' as [-> [-> T0]].
      split; [auto|].
      apply lift_bind in X. destruct X as [u0 [Eu X]]. rewrite i2u_runs in Eu by lia. injection Eu as <-.
      rewrite (run_bind _ _ _ _ w (run_now w)) in X. apply lift_bind in X. destruct X as [lk [El X]]. exists lk. split; [auto|].
      pose proof (cvalue_pos _ _ _ (rv_curve _ _ _ I) El) as Lp.
      apply lift_bind in X. destruct X as [a1 [E1 X]]. apply Base.chk_ok in E1. destruct E1 as [-> _].
      apply lift_bind in X. destruct X as [a2 [E2 X]]. apply Base.chk_ok in E2. destruct E2 as [-> I2]. unfold in_u128 in I2.
      destruct (Z.eqb_spec (bal w (r_token r) self - r_wdr r - lk) 0) as [Za|Za]; [left; split; [auto|inversion X; auto]|right].
      split; [lia|]. set (amt := bal w (r_token r) self - r_wdr r - lk) in *. rewrite Sh in X.
      apply lift_bind in X. destruct X as [pts [E3 X]]. apply Base.chk_ok in E3. destruct E3 as [-> I3].
      apply lift_bind in X. destruct X as [sp [E4 X]]. apply Base.chk_ok in E4. destruct E4 as [-> I4].
      apply lift_bind in X. destruct X as [ds [E5 X]]. apply Base.chk_ok in E5. destruct E5 as [-> I5].
      apply lift_bind in X. destruct X as [wd [E6 X]]. apply Base.chk_ok in E6. destruct E6 as [-> I6].
      unfold put_rewards in X. apply mmod_iff in X. unfold in_u128 in *.
      split; [lia|]. split; [lia|]. split; [lia|]. exact X.
    - intros [_ [Fp X]]. exists (power r total). split; [apply power_iff; auto|]. apply lift_bind. exists (power r total).
      destruct X as [[Z0 ->]|[Pp [T [lk [El X]]]]].
      + rewrite Z0. split; reflexivity.
      + split; [apply i2u_runs; lia|]. destruct (Z.eqb_spec (power r total) 0) as [Z0|Z0]; [lia|].
        rewrite (run_bind _ _ _ _ _ (run_balance _ _ _ T)). apply lift_bind. exists (bal w (r_token r) self). split; [apply i2u_runs; lia|].
        rewrite (run_bind _ _ _ _ w (run_now w)). apply lift_bind. exists lk. split; [auto|].
        pose proof (cvalue_pos _ _ _ (rv_curve _ _ _ I) El) as Lp.
        assert (Bu : I128_MAX <= U128_MAX) by (unfold I128_MAX, U128_MAX; lia).
        apply lift_bind. exists (bal w (r_token r) self - r_wdr r). split; [apply chk_ok; unfold in_u128; lia|].
        apply lift_bind. exists (bal w (r_token r) self - r_wdr r - lk).
        split; [apply chk_ok; unfold in_u128; lia|].
        destruct X as [[Za ->]|[Pa [A1 [A2 [A3 ->]]]]].
        * rewrite Za. reflexivity.
        * set (amt := bal w (r_token r) self - r_wdr r - lk) in *. destruct (Z.eqb_spec amt 0); [lia|]. rewrite Sh.
          pose proof (Mp amt) as Mpa.
          assert (0 <= ((amt * 2 ^ 32) mod 2 ^ 128 + r_left r) / power r total) by (apply Z.div_pos; lia).
          apply lift_bind. exists ((amt * 2^32) mod 2^128 + r_left r). split; [apply chk_ok; unfold in_u128; lia|].
          apply lift_bind. exists (r_spp r + ((amt * 2^32) mod 2^128 + r_left r) / power r total). split; [apply chk_ok; unfold in_u128; lia|].
          apply lift_bind. exists (r_dist r + amt). split; [apply chk_ok; unfold in_u128; lia|].
          apply lift_bind. exists (r_wdr r + amt). split; [apply chk_ok; unfold in_u128; lia|]. reflexivity.
  Qed.

  (** ** Funding *)
  (** the schedule in force after [amount] was added over [duration] from [start] *)
  Definition new_schedule (start duration amount : Z) (k : curve) : Prop :=
    let c := SatLin start amount (w_now w + duration) 0 in
    match cend (r_curve r) with
    | Some x => if x <? w_now w then k = c else combine (r_curve r) c = Ok k /\ csize k <= r_maxc r
    | None => combine (r_curve r) c = Ok k /\ csize k <= r_maxc r
    end.

  Theorem C148_fund start duration amount :
    (exists w', exec e (CRewFund self start duration amount) w = Ok (tt, w')) <->
    signs e (r_admin r) = true /\ signs e (r_staking r) = true /\ w_now w <= start /\ r_minreward r <= amount /\
    is_tok w (r_token r) /\ 0 <= amount <= bal w (r_token r) (r_admin r) /\ bal w (r_token r) self + amount <= I128_MAX /\
    0 <= w_now w + duration <= U64_MAX /\ exists k, new_schedule start duration amount k.
  Proof using R E.
    destruct rw_setup as [G [Hc [I Ps]]]. cbn [exec]. split.
    - intros [w' X]. pose proof X as X0. apply rewards_fund_ok in X. destruct X as [r0 [r' [_ [E0 [A [B F]]]]]].
      unfold rewards_at in E. rewrite E in E0. inversion E0; subst r0. rewrite authed_none in A, B.
      destruct F as [F1 F2 F3 F4 [w1 [M Ew]] [k [Ek F5]]].
      assert (N : r_admin r <> self). { intros Q. rewrite signs_neg in B by lia. discriminate. }
      pose proof (mv_le _ _ _ _ _ _ M) as L. pose proof (mv_fit _ _ _ _ _ _ M) as Ft. rewrite (mv_bal _ _ _ _ _ _ M), !Z.eqb_refl in Ft.
      destruct (Z.eqb_spec self (r_admin r)); [congruence|]. unfold ind in Ft. cbn [andb] in Ft.
      split; [auto|]. split; [auto|]. split; [auto|]. split; [auto|]. split.
      { unfold rewards_fund in X0. rstep X0. match goal with K : tok_transfer _ _ _ _ _ _ _ = Ok _ |- _ => apply transfer_is_tok in K; rename K into Tk end.
        winv. match goal with K1 : fget self (w_rewards _) = Some ?a, K2 : is_tok _ (r_token ?a) |- _ => rewrite E in K1; injection K1 as K1; subst a; exact K2 end. }
      split; [lia|]. split; [lia|]. split; [auto|].
      exists k. unfold new_schedule. destruct F5 as [[x [Cx [Lx ->]]]|[Fx [Cx Sx]]].
      + rewrite Cx. destruct (Z.ltb_spec x (w_now w)); [reflexivity|lia].
      + destruct (cend (r_curve r)) as [x|]; [|auto]. specialize (Fx _ eq_refl). destruct (Z.ltb_spec x (w_now w)); [lia|auto].
    - intros [B [A [F1 [F2 [T [F3 [F4 [F5 [k K]]]]]]]]]. unfold rewards_fund.
      rewrite (run_bind _ _ _ tt w) by (apply run_enter; auto). rewrite (run_bind _ _ _ r w) by (apply run_get_rewards; auto).
      rewrite (run_bind _ _ _ tt w) by (apply run_auth; rewrite authed_none; auto).
      rewrite (run_bind _ _ _ tt w) by (apply run_auth; rewrite authed_none; auto).
      rewrite (run_bind _ _ _ _ w (run_now w)).
      rewrite (run_bind _ _ _ tt w) by (apply run_guard; lia). rewrite (run_bind _ _ _ tt w) by (apply run_guard; lia).
      destruct (run_transfer e (Some self) (r_token r) (r_admin r) self amount w) as [w1 [X M]]; auto.
      { unfold authed. rewrite B. reflexivity. }
      rewrite (run_bind _ _ _ tt w1) by exact X.
      rewrite (run_bind _ _ _ (w_now w + duration) w1) by (apply run_lift, chk_ok; unfold in_u64; lia).
      rewrite (run_bind _ _ _ amount w1) by (apply run_lift, i2u_runs; lia). cbn [crange].
      destruct (Z.ltb_spec amount 0); [lia|].
      rewrite (run_bind _ _ _ tt w1) by (apply run_guard; lia).
      rewrite (run_bind _ _ _ k w1); [eexists; reflexivity|]. apply run_lift. unfold new_schedule in K.
      assert (Cb : combine (r_curve r) (SatLin start amount (w_now w + duration) 0) = Ok k /\ csize k <= r_maxc r ->
        (let? k0 := combine (r_curve r) (SatLin start amount (w_now w + duration) 0) in
         match validate_complexity k0 (r_maxc r) with Some _ => Err (EContract 12) | None => Ok k0 end) = Ok k).
      { intros [-> Sz]. unfold rbind, validate_complexity. destruct (Z.leb_spec (csize k) (r_maxc r)); [reflexivity|lia]. }
      destruct (cend (r_curve r)) as [x|]; [|apply Cb; auto]. destruct (x <? w_now w); [rewrite K; reflexivity|apply Cb; auto].
  Qed.
  Theorem C148_fund_effect start duration amount w' : exec e (CRewFund self start duration amount) w = Ok (tt, w') ->
    exists k w1, new_schedule start duration amount k /\ Moved (r_token r) (r_admin r) self amount w w1 /\
      w' = set_rewards w1 (fset self (mkRewards (r_staking r) (r_token r) (r_maxc r) (r_minreward r) (r_minbond r) (r_admin r)
             (r_spp r) (r_left r) (r_dist r) (r_wdr r) k (r_adj r)) (w_rewards w)).
  Proof using R E.
    cbn [exec]. intros X. apply rewards_fund_ok in X. destruct X as [r0 [r' [_ [E0 [A [B F]]]]]].
    unfold rewards_at in E. rewrite E in E0. inversion E0; subst r0.
    destruct F as [F1 F2 F3 F4 [w1 [M Ew]] [k [Ek F5]]]. exists k, w1. split; [|split; [auto|subst r'; exact Ew]].
    unfold new_schedule. destruct F5 as [[x [Cx [Lx ->]]]|[Fx [Cx Sx]]].
    - rewrite Cx. destruct (Z.ltb_spec x (w_now w)); [reflexivity|lia].
    - destruct (cend (r_curve r)) as [x|]; [|auto]. specialize (Fx _ eq_refl). destruct (Z.ltb_spec x (w_now w)); [lia|auto].
  Qed.

  (** the undistributed amount is what the contract holds beyond what it owes *)
  Theorem C148_undistributed x w1 : rewards_undistributed self w = Ok (x, w1) <->
    is_tok w (r_token r) /\ x = bal w (r_token r) self - r_wdr r /\ w1 = w.
  Proof using R E.
    destruct rw_setup as [G [Hc [I Ps]]]. pose proof (rv_wdr _ _ _ I) as Wd. pose proof (good_bal w (r_token r) self G) as Gb.
    unfold rewards_undistributed. rewrite (run_bind _ _ _ tt w) by (apply run_enter; auto).
    rewrite (run_bind _ _ _ r w) by (apply run_get_rewards; auto). split.
    - intros X. apply mbind_ok in X. destruct X as [bl [w0 [Eb X]]].
      pose proof (tok_balance_ok _ _ _ _ _ Eb) as Eb'. destruct Eb' as [-> [-> T0]].
      split; [auto|]. rewrite (run_bind _ _ _ (bal w (r_token r) self) w) in X by (apply run_lift, i2u_runs; lia).
      unfold mlift in X. destruct (sub_u _ _) as [y|] eqn:Es in X; [|discriminate]. apply Base.chk_ok in Es. destruct Es as [-> _]. inversion X. auto.
    - intros [T [-> ->]]. rewrite (run_bind _ _ _ _ _ (run_balance _ _ _ T)).
      rewrite (run_bind _ _ _ (bal w (r_token r) self) w) by (apply run_lift, i2u_runs; lia).
      apply run_lift, chk_ok. unfold in_u128, I128_MAX, U128_MAX in *. lia.
  Qed.
End RewardsCalls.
Print Assumptions C148_add_user.
Print Assumptions C148_bond.
Print Assumptions C148_withdraw.
Print Assumptions C148_withdraw_effect.
Print Assumptions C148_query.
Print Assumptions C148_unbond.
Print Assumptions C148_unbond_effect.
Print Assumptions C148_distribute.
Print Assumptions C148_fund.
Print Assumptions C148_fund_effect.
Print Assumptions C148_undistributed.
