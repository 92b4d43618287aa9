(** Listing of vesting schedules, and the two pool helpers that no entry point calls (C130-C132). *)
From Coq Require Import ZArith List Bool Lia.
From Coq Require Import ZifyBool.
From Verif Require Import Base FMap Decimal DecimalProofs Curve World Token TokenProofs Frame Stake Pool PoolProofs
  Stable StableProofs Rewards Vest Factory Router System SysFrame SysInv SysPool SysStable SysSupply
  SysVest SysStake SysRewards Script Runs Extra Props_Token Props_Pool Props_Stable Props_Vest Props_Stake Props_Live.
Import ListNotations.
Open Scope Z_scope.

(** ** C130 *)
Lemma all_from_nth m : dense m -> forall f i n, 0 <= i -> (Z.of_nat (length m) - i < Z.of_nat f) ->
  nth_error (all_from f i m) n = fget (i + Z.of_nat n) m.
Proof.
  intros D f. induction f as [|f IH]; intros i n Hi L.
  - assert (N : fmem (i + Z.of_nat n) m = false).
    { apply Bool.not_true_iff_false. rewrite (D (i + Z.of_nat n)). lia. }
    unfold fmem in N. simpl. destruct (fget (i + Z.of_nat n) m); [discriminate|]. destruct n; reflexivity.
  - simpl. destruct (fget i m) as [x|] eqn:E.
    + destruct n as [|n]; simpl.
      * rewrite Z.add_0_r. auto.
      * rewrite IH by lia. f_equal. lia.
    + assert (N : fmem (i + Z.of_nat n) m = false).
      { apply Bool.not_true_iff_false. rewrite (D (i + Z.of_nat n)). intros Q.
        assert (M : fmem i m = true) by (apply D; lia). unfold fmem in M. rewrite E in M. discriminate. }
      unfold fmem in N. destruct (fget (i + Z.of_nat n) m); [discriminate|]. destruct n; reflexivity.
Qed.

(** the listing query answers for every vesting contract, and lists exactly the schedules of the
    address, each at its own index *)
Theorem C130_listing_complete H w c v u : reachable H w -> vest_at w c v ->
  exists l, vest_query_all c u w = Ok (l, w) /\
    forall i x, entry_at w c u i x <-> 0 <= i /\ nth_error l (Z.to_nat i) = Some x.
Proof.
  intros R E. pose proof (reach_vest _ _ R _ _ E) as I. pose proof (reach_good _ _ R) as G.
  exists (all_from (S (length (v_entries v u))) 0 (v_entries v u)). split.
  - unfold vest_query_all.
    rewrite (run_bind _ _ _ tt w) by (apply run_enter; apply (gd_cvest _ G _ _ E)).
    unfold get_vest, vest_at in *. unfold mbind. rewrite E. reflexivity.
  - intros i x. rewrite (entry_iff _ _ _ _ _ _ E). pose proof (vv_dense _ _ _ I u) as D. split.
    + intros F. assert (B : 0 <= i < Z.of_nat (length (v_entries v u))).
      { apply D. unfold fmem. rewrite F. reflexivity. }
      split; [lia|]. rewrite all_from_nth by (auto; lia). rewrite <- F. f_equal. lia.
    + intros [Hi N]. rewrite all_from_nth in N by (auto; lia). rewrite <- N. f_equal. lia.
Qed.
Print Assumptions C130_listing_complete.

(** ** C131 *)
(** [within tol x y]: x times (1 - tol), rounded down, is at most y *)
Definition within (s x y : Z) : Prop := x * (DEC - s) < (y + 1) * DEC.
Theorem C131_slippage_check tol d0 d1 r0 r1 mx : 0 <= d0 -> 0 <= d1 -> 0 <= r0 -> 0 <= r1 ->
  (forall t, tol = Some t -> vbps t = true) ->
  let s := match tol with Some t => dec_bps t | None => dec_percent 1 end in
  assert_slippage_tolerance tol d0 d1 r0 r1 mx = Ok tt ->
  s <= mx /\ within s (d0 * r1) (d1 * r0) /\ within s (d1 * r0) (d0 * r1).
Proof.
  intros N0 N1 M0 M1 T s X. unfold assert_slippage_tolerance in X. fold s in X.
  assert (Sb : 0 <= s <= DEC).
  { subst s. destruct tol as [t|]; [|unfold dec_percent, DEC; lia].
    specialize (T t eq_refl). unfold vbps in T. unfold dec_bps, DEC. lia. }
  unfold rbind in X. destruct (Z.ltb_spec mx s) as [|Ls]; [discriminate|]. simpl in X. split; [exact Ls|].
  destruct (dec_sub dec_one s) as [om|] eqn:E1; [|discriminate].
  destruct (mul_i d0 r1) as [a|] eqn:E2; [|discriminate].
  destruct (i_mul_dec a om) as [x|] eqn:E3; [|discriminate].
  destruct (mul_i d1 r0) as [b|] eqn:E4; [|discriminate].
  destruct (i_mul_dec b dec_one) as [y|] eqn:E5; [|discriminate].
  destruct (Z.ltb_spec y x) as [|L1]; [discriminate|]. simpl in X.
  destruct (i_mul_dec b om) as [x'|] eqn:E6; [|discriminate].
  destruct (i_mul_dec a dec_one) as [y'|] eqn:E7; [|discriminate].
  destruct (Z.ltb_spec y' x') as [|L2]; [discriminate|].
  unfold dec_sub, sub_i in E1. apply Base.chk_ok in E1. unfold mul_i in E2, E4. apply Base.chk_ok in E2, E4.
  assert (om = DEC - s) by (unfold dec_one in E1; lia). assert (a = d0 * r1) by lia. assert (b = d1 * r0) by lia. subst om a b.
  assert (A0 : 0 <= d0 * r1) by nia. assert (B0 : 0 <= d1 * r0) by nia.
  assert (F : forall z r, 0 <= z -> i_mul_dec z dec_one = Ok r -> r = z).
  { intros z r Z0 Q. apply i_mul_dec_ok in Q. subst r. unfold dec_one. apply Z.quot_mul. unfold DEC. lia. }
  assert (K : forall z r, 0 <= z -> i_mul_dec z (DEC - s) = Ok r -> z * (DEC - s) < (r + 1) * DEC).
  { intros z r Z0 Q. apply i_mul_dec_ok in Q. subst r. rewrite Z.quot_div_nonneg by (unfold DEC in *; nia).
    pose proof (div_floor (z * (DEC - s)) DEC ltac:(unfold DEC; lia)). lia. }
  apply F in E5, E7; auto. apply K in E3, E6; auto. subst y y'. unfold within. split.
  - assert ((x + 1) * DEC <= (d1 * r0 + 1) * DEC) by (apply Z.mul_le_mono_nonneg_r; unfold DEC; lia). lia.
  - assert ((x' + 1) * DEC <= (d0 * r1 + 1) * DEC) by (apply Z.mul_le_mono_nonneg_r; unfold DEC; lia). lia.
Qed.
Print Assumptions C131_slippage_check.
(** as long as the products times 10^18 fit in an i128 the check is exact *)
Theorem C131_slippage_check_exact tol d0 d1 r0 r1 mx : 0 <= d0 -> 0 <= d1 -> 0 <= r0 -> 0 <= r1 ->
  (forall t, tol = Some t -> vbps t = true) ->
  d0 * r1 * 10 ^ 18 <= I128_MAX -> d1 * r0 * 10 ^ 18 <= I128_MAX ->
  let s := match tol with Some t => dec_bps t | None => dec_percent 1 end in
  assert_slippage_tolerance tol d0 d1 r0 r1 mx = Ok tt <->
  s <= mx /\ within s (d0 * r1) (d1 * r0) /\ within s (d1 * r0) (d0 * r1).
Proof.
  intros N0 N1 M0 M1 T F0 F1 s. split; [apply C131_slippage_check; auto|]. intros [Ls [W0 W1]].
  change (10 ^ 18) with DEC in F0, F1.
  assert (Sb : 0 <= s <= DEC).
  { subst s. destruct tol as [t|]; [|unfold dec_percent, DEC; lia].
    specialize (T t eq_refl). unfold vbps in T. unfold dec_bps, DEC. lia. }
  assert (A0 : 0 <= d0 * r1) by nia. assert (B0 : 0 <= d1 * r0) by nia.
  assert (Dp : 0 < DEC) by (unfold DEC; lia).
  set (a := d0 * r1) in *. set (b := d1 * r0) in *.
  assert (Ea : mul_i d0 r1 = Ok a) by (apply mul_i_runs; auto; fold a; nia).
  assert (Eb : mul_i d1 r0 = Ok b) by (apply mul_i_runs; auto; fold b; nia).
  assert (Em : forall z r, r * DEC <= z -> z < (r + 1) * DEC -> z / DEC = r).
  { intros z r Q1 Q2. symmetry. apply (Z.div_unique _ _ _ (z - r * DEC)); lia. }
  assert (K : forall z y, 0 <= z -> within s z y -> z * (DEC - s) / DEC <= y).
  { intros z y Z0 Wz. unfold within in Wz. apply Z.lt_succ_r. apply Z.div_lt_upper_bound; auto. lia. }
  assert (Ex : forall z, 0 <= z -> z * DEC <= I128_MAX -> i_mul_dec z (DEC - s) = Ok (z * (DEC - s) / DEC)).
  { intros z Z0 Fz. apply mul_dec_runs; auto; [lia|]. nia. }
  assert (Ey : forall z, 0 <= z -> z * DEC <= I128_MAX -> i_mul_dec z dec_one = Ok z).
  { intros z Z0 Fz. unfold dec_one. rewrite mul_dec_runs by (auto; lia). rewrite Z.div_mul by lia. reflexivity. }
  unfold assert_slippage_tolerance. fold s. unfold rbind.
  destruct (Z.ltb_spec mx s); [lia|]. simpl negb. cbv iota.
  assert (Es : dec_sub dec_one s = Ok (DEC - s)).
  { unfold dec_sub, sub_i, dec_one. apply chk_ok. unfold in_i128, I128_MIN, I128_MAX, DEC in *. lia. }
  rewrite Es, Ea, (Ex a), Eb, (Ey b) by auto.
  pose proof (K a b A0 W0). destruct (Z.ltb_spec b (a * (DEC - s) / DEC)); [lia|]. simpl negb. cbv iota.
  rewrite (Ex b), (Ey a) by auto.
  pose proof (K b a B0 W1). destruct (Z.ltb_spec a (b * (DEC - s) / DEC)); [lia|]. reflexivity.
Qed.
Print Assumptions C131_slippage_check_exact.

(** ** C132 *)
Lemma half_bounds low high s m : 0 <= low -> low < high -> add_i low high = Ok s -> div_i s 2 = Ok m ->
  m = (low + high) / 2.
Proof.
  intros L W A D. apply Base.chk_ok in A. destruct A as [-> A]. unfold div_i in D. simpl in D.
  apply Base.chk_ok in D. destruct D as [-> _]. apply Z.quot_div_nonneg; lia.
Qed.

Lemma sim_keeps self offer m w q w' : pool_simulate_swap self offer m w = Ok (q, w') -> w' = w.
Proof.
  intros X. unfold pool_simulate_swap in X. rstep X. winv.
  match goal with Q : (let '(_, _) := ?c in _) _ = Ok _ |- _ => destruct c as [rs rb]; rstep Q end. reflexivity.
Qed.

(** 128 rounds always suffice: more give the same result *)
Lemma split_fuel self offer is_a target deposit w : forall f low high fo fa n,
  0 <= low <= high -> high - low <= 2 ^ Z.of_nat f ->
  split_loop (S f + n) self offer is_a target deposit low high fo fa w =
  split_loop (S f) self offer is_a target deposit low high fo fa w.
Proof.
  induction f as [|f IH]; intros low high fo fa n B Wd.
  - change (2 ^ Z.of_nat 0) with 1 in Wd. cbn [split_loop plus]. unfold mbind, mlift.
    destruct (sub_i high low) as [wd|] eqn:E; [|reflexivity]. apply Base.chk_ok in E. destruct E as [-> _].
    destruct (Z.ltb_spec 500 (high - low)); [lia|]. reflexivity.
  - rewrite Nat2Z.inj_succ, Z.pow_succ_r in Wd by lia.
    change (S (S f) + n)%nat with (S (S f + n)). remember (S f + n)%nat as g eqn:Eg. remember (S f) as h eqn:Eh.
    cbn [split_loop]. unfold mbind, mlift.
    destruct (sub_i high low) as [wd|] eqn:E; [|reflexivity]. apply Base.chk_ok in E. destruct E as [-> _].
    destruct (Z.ltb_spec 500 (high - low)); [|reflexivity].
    destruct (add_i low high) as [sm|] eqn:E1; [|reflexivity].
    destruct (div_i sm 2) as [mid|] eqn:E2; [|reflexivity].
    pose proof (half_bounds low high sm mid ltac:(lia) ltac:(lia) E1 E2) as Em.
    assert (2 * mid <= low + high < 2 * mid + 2) by (subst mid; pose proof (div_floor (low + high) 2 ltac:(lia)); lia).
    assert (low < mid < high) by lia.
    destruct (pool_simulate_swap self offer mid w) as [[q w1]|] eqn:E3; [|reflexivity]. apply sim_keeps in E3. subst w1.
    destruct (sub_i deposit mid) as [rest|]; [|reflexivity].
    destruct (if is_a then dec_from_ratio (ss_ask q) rest else dec_from_ratio rest (ss_ask q)) as [ratio|]; [|reflexivity].
    destruct (is_approx_ratio ratio target (dec_percent 1)) as [[|]|]; [reflexivity| |reflexivity].
    subst g h. destruct (if target <? ratio then is_a else negb is_a); apply IH; lia.
Qed.

(** what a result of the loop is: the last amount tried with its quote *)
Lemma split_result self offer is_a target deposit w : forall f low high fo fa r w',
  0 <= low <= high -> high <= deposit ->
  split_loop f self offer is_a target deposit low high fo fa w = Ok (r, w') ->
  w' = w /\ ((high - low <= 500 /\ r = (fo, fa)) \/
    (500 < high - low /\ 0 < fst r < deposit /\ exists q, pool_simulate_swap self offer (fst r) w = Ok (q, w) /\ snd r = ss_ask q)).
Proof.
  induction f as [|f IH]; intros low high fo fa r w' B D X; [discriminate|].
  cbn [split_loop] in X. unfold mbind, mlift in X.
  destruct (sub_i high low) as [wd|] eqn:E; [|discriminate]. apply Base.chk_ok in E. destruct E as [-> _].
  destruct (Z.ltb_spec 500 (high - low)); [|unfold mret in X; inversion X; subst; auto].
  destruct (add_i low high) as [sm|] eqn:E1; [|discriminate].
  destruct (div_i sm 2) as [mid|] eqn:E2; [|discriminate].
  pose proof (half_bounds low high sm mid ltac:(lia) ltac:(lia) E1 E2) as Em.
  assert (2 * mid <= low + high < 2 * mid + 2) by (subst mid; pose proof (div_floor (low + high) 2 ltac:(lia)); lia).
  assert (low < mid < high) by lia.
  destruct (pool_simulate_swap self offer mid w) as [[q w1]|] eqn:E3; [|discriminate].
  pose proof (sim_keeps _ _ _ _ _ _ E3). subst w1.
  destruct (sub_i deposit mid) as [rest|]; [|discriminate].
  destruct (if is_a then dec_from_ratio (ss_ask q) rest else dec_from_ratio rest (ss_ask q)) as [ratio|]; [|discriminate].
  destruct (is_approx_ratio ratio target (dec_percent 1)) as [[|]|]; [| |discriminate].
  - unfold mret in X. inversion X; subst r w'. split; auto. right. simpl. split; [lia|]. split; [lia|]. eauto.
  - destruct (if target <? ratio then is_a else negb is_a);
      (apply IH in X; [|lia|lia]; destruct X as [-> [[? ->]|[? [? ?]]]]; (split; [reflexivity|]); right; split; try lia;
       [split; [simpl; lia|]; exists q; auto | auto]).
Qed.

(** The split of a deposit.  A deposit of at most 500 units is not split: everything is to be
    swapped, for a quote of 0.  Otherwise a positive part of it is to be swapped, the second
    component is the quote of simulate_swap for that part, and nothing is written. *)
Theorem C132_split_deposit self ra rb deposit offer w r w' :
  pool_split_deposit self ra rb deposit offer w = Ok (r, w') ->
  w' = w /\ 0 < ra /\ 0 < rb /\ 0 < deposit /\
  (deposit <= 500 -> r = (deposit, 0)) /\
  (500 < deposit -> 0 < fst r < deposit /\
     exists q, pool_simulate_swap self offer (fst r) w = Ok (q, w) /\ snd r = ss_ask q).
Proof.
  intros X. unfold pool_split_deposit in X. rstep X. winv.
  match goal with Q : split_loop _ _ _ _ _ _ _ _ _ _ _ = Ok _ |- _ => rename Q into X end.
  apply split_result in X; [|lia|lia]. rewrite Z.sub_0_r in X. destruct X as [-> X].
  split; [reflexivity|]. split; [lia|]. split; [lia|]. split; [lia|].
  destruct X as [[L ->]|[L X]]; split; intros; auto; lia.
Qed.
Print Assumptions C132_split_deposit.

(** the search ends: beyond 128 rounds nothing changes, for any deposit an i128 can hold *)
Theorem C132_search_ends self offer is_a target deposit w n : 0 <= deposit <= I128_MAX ->
  split_loop (128 + n) self offer is_a target deposit 0 deposit deposit 0 w =
  split_loop 128 self offer is_a target deposit 0 deposit deposit 0 w.
Proof.
  intros D. apply (split_fuel self offer is_a target deposit w 127); [lia|].
  change (2 ^ Z.of_nat 127) with (I128_MAX + 1). lia.
Qed.
Print Assumptions C132_search_ends.
