(** C174-C176: the iterations of the stable pool always converge; what follows for deposits and quotes. *)
From Coq Require Import ZArith List Bool Lia.
From Coq Require Import ZifyBool.
From Verif Require Import Base FMap Decimal DecimalProofs Curve World Token TokenProofs Frame Stake Pool PoolProofs
  Stable StableProofs NewtonProofs NewtonLive Rewards Vest Factory Router System SysFrame SysInv SysPool SysStable SysSupply Script
  Runs Props_Token Props_Pool Props_PoolCases Props_Live Props_Stable Props_StableCases Props_LiveStable Props_LiveMisc.
Import ListNotations.
Open Scope Z_scope.

(** ** C174 *)
(** The invariant D of positive amounts is computed exactly when the numbers of the first round fit
    the integer types, and otherwise the failure is an overflow. *)
Theorem C174_D_computed_iff amp a b : 0 < a -> 0 < b -> 100 <= amp ->
  let l := amp / 100 * (2 * 10 ^ 18) in let s := a + b in
  ((exists D, compute_d amp a b = Ok D) <->
   l < 2 ^ 128 /\ 4 * a * b < 2 ^ 128 /\ s ^ 3 < 2 ^ 256 /\ (l * s + 2 * (s ^ 3 / (4 * a * b))) * s < 2 ^ 256) /\
  (forall err, compute_d amp a b = Err err -> err = EArith).
Proof.
  intros Pa Pb Am l s. pose proof (compute_d_exact amp a b Pa Pb Am) as [X1 X2].
  assert (Dc : d_fits amp a b \/ ~ d_fits amp a b).
  { unfold d_fits. cbv zeta. fold l s.
    destruct (Z_le_gt_dec l U128_MAX); [|right; lia]. destruct (Z_le_gt_dec (4 * a * b) U128_MAX); [|right; lia].
    destruct (Z_le_gt_dec (s ^ 3) U256_MAX); [|right; lia].
    destruct (Z_le_gt_dec ((l * s + 2 * (s ^ 3 / (4 * a * b))) * s) U256_MAX); [|right; lia]. left; auto. }
  split.
  - unfold d_fits in *. cbv zeta in *. fold l s in X1, X2, Dc. unfold U128_MAX, U256_MAX in *. split.
    + intros [D E]. destruct Dc as [F|F]; [lia|]. rewrite X2 in E by exact F. discriminate.
    + intros F. apply X1. lia.
  - intros err E. destruct Dc as [F|F]; [destruct (X1 F); congruence|]. rewrite X2 in E by exact F. congruence.
Qed.
Print Assumptions C174_D_computed_iff.

(** The new reserve is computed exactly when D is, and the numbers before the second iteration fit. *)
Theorem C174_y_computed_iff amp new a b target : 0 < a -> 0 < b -> 100 <= amp -> 0 <= new -> 0 <= target ->
  ((exists r, calc_y amp new a b target = Ok r) <->
   exists D, compute_d amp a b = Ok D /\ amp * (2 * 10 ^ 18) < 2 ^ 128 /\ D ^ 3 * 10 ^ 20 < 2 ^ 256 /\ 0 < new /\
     4 * new * (amp * (2 * 10 ^ 18)) < 2 ^ 256 /\ target <= 18) /\
  (forall err, calc_y amp new a b target = Err err -> err = EArith).
Proof.
  intros Pa Pb Am Pn Pt. destruct (compute_d amp a b) as [D|e0] eqn:HD.
  - pose proof (calc_y_exact amp new a b target D Pa Pb Am Pn Pt HD) as [X1 X2].
    assert (Dc : y_fits amp new D target \/ ~ y_fits amp new D target).
    { unfold y_fits.
      destruct (Z_le_gt_dec (amp * (2 * 10 ^ 18)) U128_MAX); [|right; lia].
      destruct (Z_le_gt_dec (D ^ 3 * 10 ^ 20) U256_MAX); [|right; lia].
      destruct (Z_lt_le_dec 0 new); [|right; lia].
      destruct (Z_le_gt_dec (4 * new * (amp * (2 * 10 ^ 18))) U256_MAX); [|right; lia].
      destruct (Z_le_gt_dec target 18); [|right; lia]. left; auto. }
    split.
    + unfold y_fits, U128_MAX, U256_MAX in *. split.
      * intros [r E]. destruct Dc as [F|F]; [exists D; split; [reflexivity|lia]|]. rewrite X2 in E by exact F. discriminate.
      * intros [D' [E F]]. injection E as <-. apply X1. lia.
    + intros err E. destruct Dc as [F|F]; [destruct (X1 F); congruence|]. rewrite X2 in E by exact F. congruence.
  - assert (E0 : e0 = EArith) by (apply (C174_D_computed_iff amp a b); auto). unfold calc_y. rewrite HD. cbn [rbind]. split.
    + split; [intros [r E]; discriminate|intros [D [E _]]; discriminate].
    + intros err E. rewrite rb_err in E. congruence.
Qed.
Print Assumptions C174_y_computed_iff.

(** Whatever the arguments, neither iteration uses up its 64 rounds: the two errors the code reserves
    for that (13 and 14) do not occur. *)
Lemma d_zero_round f s l q : q = 0 -> d_loop (S f) s l s q = Err EArith.
Proof.
  intros ->. unfold d_loop; fold d_loop. unfold cube_w, chk. destruct (in_u256 (s ^ 3)); reflexivity.
Qed.

Lemma chk_err p x err : chk p x = Err err -> err = EArith.
Proof. unfold chk. destruct (p x); congruence. Qed.

Theorem C174_D_failure_is_overflow amp a b err : 0 <= amp -> 0 <= a -> 0 <= b -> compute_d amp a b = Err err -> err = EArith.
Proof.
  intros Pm Pa Pb E.
  destruct (Z.eq_dec (4 * a * b) 0) as [Z0|Z0].
  - unfold compute_d in E.
    destruct (mul_u (amp / AMP_PRECISION) N_COINS_PRECISION) eqn:E1; [rewrite rb_ok in E|rewrite rb_err in E; injection E as <-; apply chk_err in E1; exact E1].
    destruct (mul_u a N_COINS) as [a2|] eqn:E2; [rewrite rb_ok in E|rewrite rb_err in E; injection E as <-; apply chk_err in E2; exact E2].
    destruct (mul_u b N_COINS) as [b2|] eqn:E3; [rewrite rb_ok in E|rewrite rb_err in E; injection E as <-; apply chk_err in E3; exact E3].
    destruct (add_u a b) as [s|] eqn:E4; [rewrite rb_ok in E|rewrite rb_err in E; injection E as <-; apply chk_err in E4; exact E4].
    destruct (s =? 0); [discriminate|].
    apply mul_u_ok in E2. apply mul_u_ok in E3. destruct E2 as [-> _]. destruct E3 as [-> _].
    change (mul_u (a * N_COINS) (b * N_COINS)) with (chk in_u128 (a * N_COINS * (b * N_COINS))) in E.
    replace (a * N_COINS * (b * N_COINS)) with 0 in E by (unfold N_COINS; lia).
    change (chk in_u128 0) with (Ok 0) in E. rewrite rb_ok in E. rewrite d_zero_round in E by reflexivity. congruence.
  - assert (Qa : 0 < a) by (destruct (Z.eq_dec a 0); [subst; lia|lia]).
    assert (Qb : 0 < b) by (destruct (Z.eq_dec b 0); [subst; lia|lia]).
    destruct (Z_le_gt_dec 100 amp) as [A|A].
    { apply (proj2 (C174_D_computed_iff amp a b Qa Qb A) _ E). }
    unfold compute_d in E. replace (amp / AMP_PRECISION) with 0 in E by (symmetry; apply Z.div_small; unfold AMP_PRECISION; lia).
    change (mul_u 0 N_COINS_PRECISION) with (Ok 0) in E. rewrite rb_ok in E.
    unfold mul_u, add_u, chk in E.
    repeat match type of E with
      | rbind (if ?c then _ else _) _ = _ => destruct c; [rewrite rb_ok in E|rewrite rb_err in E; congruence]
      | (if ?c then _ else _) = _ => destruct c; [discriminate|] end.
    change 64%nat with (S 63) in E. unfold d_loop in E; fold d_loop in E. unfold cube_w, chk, calculate_step in E.
    destruct (in_u256 _) in E; [rewrite rb_ok in E|rewrite rb_err in E; congruence].
    rewrite div_w_nz in E by (unfold N_COINS; lia). rewrite rb_ok in E.
    unfold mul_w, add_w, sub_w, chk in E.
    destruct (in_u256 _) in E; [rewrite rb_ok in E|rewrite !rb_err in E; congruence].
    destruct (in_u256 _) in E; [rewrite rb_ok in E|rewrite !rb_err in E; congruence].
    destruct (in_u256 _) in E; [rewrite rb_ok in E|rewrite !rb_err in E; congruence].
    destruct (in_u256 _) in E; [rewrite rb_ok in E|rewrite !rb_err in E; congruence].
    change (in_u256 (0 - 1)) with false in E. cbv iota in E. rewrite !rb_err in E. congruence.
Qed.
Print Assumptions C174_D_failure_is_overflow.

Theorem C174_y_failure_is_overflow amp new a b target err : 0 <= amp -> 0 <= new -> 0 <= a -> 0 <= b -> 0 <= target ->
  calc_y amp new a b target = Err err -> err = EArith.
Proof.
  intros Pm Pn Pa Pb Pt E. destruct (compute_d amp a b) as [D|e0] eqn:HD.
  2:{ unfold calc_y in E. rewrite HD, rb_err in E. injection E as <-. apply (C174_D_failure_is_overflow amp a b); auto. }
  pose proof HD as HD'. apply compute_d_ok in HD'; auto. destruct HD' as [[-> [-> ->]]|[Qa [Qb [A _]]]].
  2:{ apply (proj2 (C174_y_computed_iff amp new a b target Qa Qb A Pn Pt) _ E). }
  unfold calc_y in E. rewrite HD, rb_ok in E. clear HD.
  unfold mul_u in E.
  destruct (chk in_u128 (amp * DEC)) as [l1|] eqn:E1; [rewrite rb_ok in E|rewrite rb_err in E; injection E as <-; apply chk_err in E1; exact E1].
  destruct (chk in_u128 (l1 * N_COINS)) as [lev|] eqn:E2; [rewrite rb_ok in E|rewrite rb_err in E; injection E as <-; apply chk_err in E2; exact E2].
  rewrite chk_u, rb_ok in E by (unfold AMP_PRECISION, DEC, U128_MAX; lia).
  change (cube_w 0) with (Ok 0) in E. rewrite rb_ok in E. unfold mul_w, add_w in E.
  change (0 * (AMP_PRECISION * DEC)) with 0 in E.
  rewrite (chk_w 0), rb_ok in E by (unfold U256_MAX; lia).
  destruct (chk in_u256 (new * 4)) as [n4|] eqn:E3; [rewrite rb_ok in E|rewrite rb_err in E; injection E as <-; apply chk_err in E3; exact E3].
  destruct (chk in_u256 (n4 * lev)) as [den|] eqn:E4; [rewrite rb_ok in E|rewrite rb_err in E; injection E as <-; apply chk_err in E4; exact E4].
  apply Base.chk_ok in E1. apply Base.chk_ok in E2. apply Base.chk_ok in E3. apply Base.chk_ok in E4.
  destruct (Z.eq_dec den 0) as [D0|D0].
  { unfold div_w at 1 in E. rewrite D0 in E. cbn [Z.eqb] in E. rewrite rb_err in E. congruence. }
  rewrite div_w_nz, rb_ok in E by exact D0. rewrite Z.div_0_l in E by exact D0.
  rewrite rb_ok in E.
  assert (L0 : lev <> 0) by (intros ->; apply D0; destruct E4 as [-> _]; ring).
  rewrite div_w_nz, rb_ok in E by exact L0. rewrite Z.div_0_l in E by exact L0.
  rewrite Z.add_0_r in E.
  assert (Nn : 0 < new) by (destruct (Z.eq_dec new 0); [subst; lia|lia]).
  destruct E3 as [-> E3]. unfold in_u256 in E3.
  rewrite chk_w, rb_ok in E by lia.
  rewrite y_loop_step in E by (try lia; change (0 ^ 2) with 0; unfold U256_MAX; lia).
  replace (y_next 0 new 0 0) with 0 in E.
  2:{ unfold y_next. change (0 ^ 2 + 0) with 0. rewrite Z.div_0_l; lia. }
  change (Z.abs (0 - 0) <=? 10 ^ 12) with true in E. cbv iota in E. rewrite rb_ok in E.
  unfold pow10_u, DECIMAL_PRECISION in E. destruct (Z.ltb_spec (18 - target) 0); [rewrite rb_err in E; congruence|].
  destruct (chk in_u128 (10 ^ (18 - target))) as [f|] eqn:E5; [rewrite rb_ok in E|rewrite rb_err in E; injection E as <-; apply chk_err in E5; exact E5].
  change (w2u 0) with (Ok 0) in E. rewrite rb_ok in E. unfold div_u in E. destruct (f =? 0); congruence.
Qed.
Print Assumptions C174_y_failure_is_overflow.

Example C174_case1 : compute_d 600 (3 * 10 ^ 18) 1 = Ok 2840794846374757578. Proof. vm_compute. reflexivity. Qed.
Example C174_case2 : calc_y 100 1 (10 ^ 18) (10 ^ 18) 18 = Ok 1000000000500000000124999999. Proof. vm_compute. reflexivity. Qed.
Example C174_case3 : compute_d 600 (10 ^ 20) (10 ^ 20) = Err EArith /\ compute_d 600 1 0 = Err EArith /\ compute_d 600 0 0 = Ok 0.
Proof. vm_compute. auto. Qed.

(** ** C175 *)
(** up to ten units of 10^18 on both sides together everything fits *)
Lemma capacity amp a b : 0 < a -> 0 < b -> 100 <= amp <= 10 ^ 8 -> a + b <= 10 ^ 19 -> d_fits amp a b.
Proof.
  intros Pa Pb [A1 A2] S1. pose proof (prod_facts a b Pa Pb) as [Q [Q1 [Q2 Q3]]].
  assert (L : amp / 100 <= 1000000) by (change 1000000 with (10 ^ 8 / 100); apply Z.div_le_mono; lia).
  assert (L1 : 0 <= amp / 100) by (apply Z.div_pos; lia).
  unfold d_fits. cbv zeta. change (2 * 10 ^ 18) with 2000000000000000000. change (10 ^ 19) with 10000000000000000000 in S1.
  remember (amp / 100) as k. remember (a + b) as s.
  assert (S2 : s * s <= 10000000000000000000 * 10000000000000000000) by (apply Z.mul_le_mono_nonneg; lia).
  assert (S3 : s ^ 3 <= 10000000000000000000 ^ 3) by (apply Z.pow_le_mono_l; lia).
  change (10000000000000000000 ^ 3) with 1000000000000000000000000000000000000000000000000000000000 in S3.
  assert (S0 : 0 < s ^ 3) by (apply Z.pow_pos_nonneg; lia).
  assert (Dv : 0 <= s ^ 3 / (4 * a * b) <= s ^ 3).
  { split; [apply Z.div_pos; lia|]. apply Z.div_le_upper_bound; [lia|].
    assert (1 * s ^ 3 <= 4 * a * b * s ^ 3) by (apply Z.mul_le_mono_nonneg_r; lia). lia. }
  assert (K1 : k * 2000000000000000000 * s <= 2000000000000000000000000 * 10000000000000000000) by (apply Z.mul_le_mono_nonneg; lia).
  assert (K0 : 0 <= k * 2000000000000000000 * s) by (apply Z.mul_nonneg_nonneg; lia).
  assert (K2 : (k * 2000000000000000000 * s + 2 * (s ^ 3 / (4 * a * b))) * s <=
    (2000000000000000000000000 * 10000000000000000000 + 2 * 1000000000000000000000000000000000000000000000000000000000) * 10000000000000000000)
    by (apply Z.mul_le_mono_nonneg; lia).
  unfold U128_MAX, U256_MAX. lia.
Qed.

Theorem C175_capacity amp new a b target : 0 < a -> 0 < b -> a + b <= 10 ^ 19 -> 100 <= amp <= 10 ^ 8 ->
  (exists D, compute_d amp a b = Ok D /\ 0 < D <= a + b) /\
  (0 < new < 2 ^ 128 -> 0 <= target <= 18 -> exists r, calc_y amp new a b target = Ok r).
Proof.
  intros Pa Pb S1 Am.
  destruct (proj1 (compute_d_exact amp a b Pa Pb ltac:(lia)) (capacity amp a b Pa Pb Am S1)) as [D HD].
  assert (RD : 0 < D <= a + b).
  { pose proof HD as X. apply compute_d_ok in X; [|lia|lia]. destruct X as [[? _]|[_ [_ [_ [_ [_ [[X _] _]]]]]]]; lia. }
  split; [exists D; auto|]. intros Pn Pt.
  apply (proj1 (calc_y_exact amp new a b target D Pa Pb ltac:(lia) ltac:(lia) ltac:(lia) HD)).
  unfold y_fits. change (2 * 10 ^ 18) with 2000000000000000000. change (10 ^ 8) with 100000000 in Am.
  change (10 ^ 19) with 10000000000000000000 in S1.
  assert (S3 : D ^ 3 <= 10000000000000000000 ^ 3) by (apply Z.pow_le_mono_l; lia).
  change (10000000000000000000 ^ 3) with 1000000000000000000000000000000000000000000000000000000000 in S3.
  change (10 ^ 20) with 100000000000000000000.
  assert (N : 4 * new * (amp * 2000000000000000000) <= 4 * new * (100000000 * 2000000000000000000)) by (apply Z.mul_le_mono_nonneg_l; lia).
  unfold U128_MAX, U256_MAX. lia.
Qed.
Print Assumptions C175_capacity.
Example C175_capacity_case : calc_y (10 ^ 8) (2 ^ 128 - 1) (10 ^ 19 - 1) 1 0 = Ok 0 /\ (exists r, calc_y 100 1 (10 ^ 19 - 1) 1 18 = Ok r).
Proof. split; [vm_compute; reflexivity|]. eexists. vm_compute. reflexivity. Qed.

(** A deposit into a pool within that capacity, whose reserves are not too unequal, succeeds. *)
Theorem C175_deposit_succeeds H w e self p u da db :
  reachable H w -> stable_at w self p -> signs e u = true ->
  0 < da <= bal w (l_ta p) u -> 0 < db <= bal w (l_tb p) u ->
  bal w (l_ta p) self + da <= I128_MAX -> bal w (l_tb p) self + db <= I128_MAX ->
  l_defslip p <= l_maxslip p -> 0 < l_ra p -> 0 < l_rb p -> 0 < l_total p <= 10 ^ 20 ->
  let x0 := scaled (l_ra p) (l_preca p) in let y0 := scaled (l_rb p) (l_precb p) in
  let x1 := scaled (l_ra p + da) (l_preca p) in let y1 := scaled (l_rb p + db) (l_precb p) in
  let near x y := (x + y + 1) ^ 3 <= (l_namp p / 100 * (2 * 10 ^ 18) - 1) * (4 * x * y) in
  near x0 y0 -> near x1 y1 -> x1 + y1 <= 10 ^ 19 -> x1 + y1 + 2 <= 2 * (x0 + y0) ->
  exists w', exec e (CStableProvide self u da db None None None) w = Ok (tt, w').
Proof.
  intros R Hp Sg Ba Bb Fa Fb Sl Pa Pb Tt x0 y0 x1 y1 near N0 N1 Cp Dbl.
  pose proof (reach_stable _ _ R _ _ Hp) as I. destruct (li_amp _ _ _ I) as [_ [_ Am]].
  destruct (li_dec _ _ _ I) as [_ [_ [_ [Pr1 Pr2]]]].
  assert (P1 : 1 <= 10 ^ (18 - l_preca p)) by (assert (0 < 10 ^ (18 - l_preca p)) by (apply Z.pow_pos_nonneg; lia); lia).
  assert (P2 : 1 <= 10 ^ (18 - l_precb p)) by (assert (0 < 10 ^ (18 - l_precb p)) by (apply Z.pow_pos_nonneg; lia); lia).
  assert (X0 : 1 <= x0 /\ x0 + 1 <= x1 /\ 1 <= y0 /\ y0 + 1 <= y1).
  { unfold x0, x1, y0, y1, scaled. revert P1 P2. generalize (10 ^ (18 - l_preca p)) (10 ^ (18 - l_precb p)). clear - Pa Pb Ba Bb. intros f g F1 F2. nia. }
  destruct (proj1 (C175_capacity (l_namp p) 1 x0 y0 0 ltac:(lia) ltac:(lia) ltac:(lia) ltac:(lia))) as [D0 [V0 R0]].
  destruct (proj1 (C175_capacity (l_namp p) 1 x1 y1 0 ltac:(lia) ltac:(lia) ltac:(lia) ltac:(lia))) as [D1 [V1 R1]].
  assert (L0 : x0 + y0 <= D0 + 1).
  { pose proof V0 as V. apply compute_d_ok in V; [|lia|lia]. destruct V as [[? _]|[_ [_ [_ [_ [_ [[J1 J2] _]]]]]]]; [lia|].
    eapply near_sum; [|exact J1|exact J2|exact N0]. pose proof (prod_facts x0 y0 ltac:(lia) ltac:(lia)). lia. }
  assert (L1 : x1 + y1 <= D1 + 1).
  { pose proof V1 as V. apply compute_d_ok in V; [|lia|lia]. destruct V as [[? _]|[_ [_ [_ [_ [_ [[J1 J2] _]]]]]]]; [lia|].
    eapply near_sum; [|exact J1|exact J2|exact N1]. pose proof (prod_facts x1 y1 ltac:(lia) ltac:(lia)). lia. }
  apply (C150_stable_deposit_succeeds_iff H w e self p R Hp u da db None None None).
  set (ratio := (D1 - D0) * 10 ^ 18 / D0).
  assert (Rr : 0 <= ratio <= 10 ^ 18).
  { unfold ratio. split; [apply Z.div_pos; lia|]. apply Z.div_le_upper_bound; [lia|].
    change (10 ^ 18) with 1000000000000000000. lia. }
  change (10 ^ 20) with 100000000000000000000 in Tt. change (10 ^ 19) with 10000000000000000000 in Cp.
  assert (Rt : l_total p * ratio <= 100000000000000000000 * 10 ^ 18) by (apply Z.mul_le_mono_nonneg; lia).
  change (100000000000000000000 * 10 ^ 18) with 100000000000000000000000000000000000000 in Rt.
  assert (Mr : 0 <= l_total p * ratio / 10 ^ 18 <= l_total p).
  { assert (0 <= l_total p * ratio) by (apply Z.mul_nonneg_nonneg; lia).
    split; [apply Z.div_pos; lia|]. apply Z.div_le_upper_bound; [lia|]. rewrite Z.mul_comm. apply Z.mul_le_mono_nonneg_r; lia. }
  exists (l_total p * ratio / 10 ^ 18). unfold deposit_allowed.
  split; [exact Sg|]. split; [discriminate|]. split; [exact Sl|]. split; [exact Ba|]. split; [exact Bb|].
  split; [exact Fa|]. split; [exact Fb|]. split; [|split; [discriminate|unfold I128_MAX; lia]].
  exists D1. split; [exact V1|]. split; [lia|]. intros _. exists D0. split; [exact V0|]. split; [lia|]. cbv zeta. fold ratio.
  change (10 ^ 18) with 1000000000000000000 in *.
  unfold I128_MAX. split; [lia|]. split; [lia|]. split; [lia|reflexivity].
Qed.
Print Assumptions C175_deposit_succeeds.

(** ** C176 *)
Lemma y_loop_top f : forall y b c d r z, 0 <= c -> rooty c (b - d) r -> r - 1 <= y ->
  y_loop f y b c d = Ok z -> z <= r + 10 ^ 12.
Proof.
  induction f as [|f IH]; intros y b c d r z Pc Cr Ly X; [discriminate|].
  unfold y_loop in X; fold y_loop in X. unfold square_w in X.
  apply rbind_ok in X. destruct X as [y2 [H2 X]]. apply Base.chk_ok in H2. destruct H2 as [-> _].
  rstep X.
  match goal with R : (if ?b then _ else _) = Ok z |- _ => rename R into X end.
  replace ((y ^ 2 + c) / (y * N_COINS + b - d)) with (y_next c b d y) in X.
  2:{ unfold y_next, N_COINS. rewrite (Z.mul_comm y 2). reflexivity. }
  rewrite abs_diff_abs in X. unfold N_COINS in *.
  assert (W : 0 < 2 * y + b - d) by lia.
  pose proof (y_next_root c b d r y W Cr) as Up. pose proof (rooty_pos c (b - d) r Pc Cr) as Rt. assert (Pr : 0 < r) by (apply Cr).
  match type of X with (if ?b then _ else _) = _ => destruct b eqn:Eb end.
  - injection X as <-. unfold TOL in Eb. change (10 ^ 12) with 1000000000000.
    destruct (Z_le_gt_dec (y_next c b d y) r) as [|G]; [lia|].
    destruct (Z_lt_le_dec y r) as [Y1|Y1].
    + assert (X1 : 1 * 1 <= (y_next c b d y - r) * (2 * y + b - d)) by (apply Z.mul_le_mono_nonneg; lia).
      replace ((y - r) * (y - r)) with 1 in Up by (replace y with (r - 1) by lia; ring). lia.
    + assert (X1 : (y_next c b d y - r) * (2 * (y - r)) <= (y_next c b d y - r) * (2 * y + b - d)) by (apply Z.mul_le_mono_nonneg_l; lia).
      assert (2 * (y_next c b d y - r) < y - r).
      { apply Z.mul_lt_mono_pos_r with (p := y - r); [|lia]. destruct (Z.eq_dec y r) as [->|]; [|lia]. exfalso.
        assert (X2 : 1 * 1 <= (y_next c b d r - r) * (2 * r + b - d)) by (apply Z.mul_le_mono_nonneg; lia). lia. }
      lia.
  - eapply (IH (y_next c b d y)); [exact Pc|exact Cr| |exact X].
    apply (rooty_low c (b - d)); auto; [apply y_next_nonneg; auto|]. apply y_next_above. exact W.
Qed.

Lemma calc_y_loop amp new a b target r : 0 <= a -> 0 <= b -> calc_y amp new a b target = Ok r ->
  exists D y, compute_d amp a b = Ok D /\ r = y / 10 ^ (18 - target) /\
    y_loop 64 D (new + D * 100 / (2 * amp)) (D ^ 3 * 100 / (8 * amp * new)) D = Ok y.
Proof.
  intros Pa Pb X. destruct (calc_y_ok _ _ _ _ _ _ Pa Pb X) as [D0 [_ [_ [HD0 [_ [PN [PA _]]]]]]].
  unfold calc_y in X. rewrite HD0, rb_ok in X.
  apply rbind_ok in X. destruct X as [l1 [H1 X]]. rstep H1.
  apply rbind_ok in X. destruct X as [lev [H2 X]]. rstep H2.
  apply rbind_ok in X. destruct X as [ap [H3 X]]. rstep H3.
  apply rbind_ok in X. destruct X as [d3 [H4 X]]. unfold cube_w in H4. apply Base.chk_ok in H4. destruct H4 as [-> H4].
  apply rbind_ok in X. destruct X as [num [H5 X]]. rstep H5.
  apply rbind_ok in X. destruct X as [n4 [H6 X]]. rstep H6.
  apply rbind_ok in X. destruct X as [den [H7 X]]. rstep H7.
  apply rbind_ok in X. destruct X as [c [H8 X]]. apply div_w_ok in H8. destruct H8 as [N8 Ec].
  apply rbind_ok in X. destruct X as [dm [H9 X]]. apply mul_w_ok in H9. destruct H9 as [E9 H9].
  apply rbind_ok in X. destruct X as [dq [H10 X]]. apply div_w_ok in H10. destruct H10 as [N10 Eq].
  apply rbind_ok in X. destruct X as [bb [H11 X]]. apply add_w_ok in H11. destruct H11 as [Eb H11].
  apply rbind_ok in X. destruct X as [y [H12 X]].
  apply rbind_ok in X. destruct X as [f [H13 X]].
  apply rbind_ok in X. destruct X as [u [H14 X]].
  apply pow10_u_ok in H13. destruct H13 as [T0 [-> _]].
  unfold w2u in H14. destruct (y <=? U128_MAX); [|discriminate]. inversion H14; subst u.
  apply div_u_ok in X. destruct X as [Nf Er].
  exists D0, y. split; [exact HD0|]. split; [exact Er|].
  assert (Pos : 0 < DEC) by reflexivity. unfold N_COINS in *.
  assert (E1 : D0 * 100 / (2 * amp) = dq).
  { rewrite Eq, E9. replace (D0 * (AMP_PRECISION * DEC)) with (D0 * 100 * DEC) by (unfold AMP_PRECISION; ring).
    replace (amp * DEC * 2) with (2 * amp * DEC) by ring. symmetry. apply Z.div_mul_cancel_r; lia. }
  assert (E2 : D0 ^ 3 * 100 / (8 * amp * new) = c).
  { rewrite Ec. replace (D0 ^ 3 * (AMP_PRECISION * DEC)) with (D0 ^ 3 * 100 * DEC) by (unfold AMP_PRECISION; ring).
    replace (new * 4 * (amp * DEC * 2)) with (8 * amp * new * DEC) by ring. symmetry. apply Z.div_mul_cancel_r; [|lia].
    clear - PA PN. nia. }
  rewrite E1, E2, <- Eb. exact H12.
Qed.

Lemma compute_d_balanced amp h : 0 < h -> 2 * h <= 10 ^ 19 -> 100 <= amp <= 10 ^ 8 -> compute_d amp h h = Ok (2 * h).
Proof.
  intros Ph Mh Am. pose proof (capacity amp h h Ph Ph Am ltac:(lia)) as F. unfold d_fits in F. cbv zeta in F.
  assert (A1 : 1 <= amp / 100) by (apply Z.div_le_lower_bound; lia).
  assert (Ll : 2 * 10 ^ 18 <= amp / 100 * (2 * 10 ^ 18)) by (change (2 * 10 ^ 18) with 2000000000000000000; lia).
  pose proof (prod_facts h h Ph Ph) as [Q [Q1 [Q2 Q3]]].
  unfold compute_d. change N_COINS_PRECISION with (2 * 10 ^ 18). change AMP_PRECISION with 100. unfold mul_u, add_u, N_COINS.
  remember (amp / 100 * (2 * 10 ^ 18)) as l. assert (L20 : 20 <= l) by (change (2 * 10 ^ 18) with 2000000000000000000 in Ll; lia).
  destruct F as [F1 [F2 [F3 F4]]]. replace (h + h) with (2 * h) in * by ring.
  rewrite chk_u, rb_ok by lia. rewrite chk_u, rb_ok by lia. rewrite rb_ok, chk_u, rb_ok by lia.
  destruct (Z.eqb_spec (2 * h) 0); [lia|]. replace (h * 2 * (h * 2)) with (4 * h * h) by ring. rewrite chk_u, rb_ok by lia.
  change 64%nat with (S 63). rewrite d_loop_step by (auto; lia).
  assert (E : d_next l (2 * h) (4 * h * h) (2 * h) = 2 * h).
  { unfold d_next. cbv zeta. replace ((2 * h) ^ 3) with (2 * h * (4 * h * h)) by ring. rewrite Z.div_mul by lia.
    replace ((l * (2 * h) + 2 * (2 * h)) * (2 * h)) with (2 * h * ((l - 1) * (2 * h) + 3 * (2 * h))) by ring.
    apply Z.div_mul. assert (0 < (l - 1) * (2 * h)) by (apply Z.mul_pos_pos; lia). lia. }
  rewrite E. replace (2 * h - 2 * h) with 0 by ring. reflexivity.
Qed.

(** the new reserve for a balanced pool is at most what the constant product leaves *)
Lemma balanced_root amp h d eps r : 0 < h -> 0 < d -> 100 <= amp -> 0 <= eps -> eps * (h + d) <= h * d ->
  rooty ((2 * h) ^ 3 * 100 / (8 * amp * (h + d))) (h + d + 2 * h * 100 / (2 * amp) - 2 * h) r -> r <= h - eps.
Proof.
  intros Ph Pd Am Pe He [Pr [_ G]].
  replace (2 * h * 100) with (2 * (h * 100)) in G by ring. rewrite Z.div_mul_cancel_l in G by lia.
  replace ((2 * h) ^ 3 * 100) with (8 * (h * h * h * 100)) in G by ring.
  replace (8 * amp * (h + d)) with (8 * (amp * (h + d))) in G by ring.
  rewrite Z.div_mul_cancel_l in G by (try lia; assert (0 < amp * (h + d)) by (apply Z.mul_pos_pos; lia); lia).
  assert (Pm : 0 < amp * (h + d)) by (apply Z.mul_pos_pos; lia).
  pose proof (div_floor (h * 100) amp ltac:(lia)) as [K1 K2]. pose proof (div_floor (h * h * h * 100) (amp * (h + d)) Pm) as [C1 _].
  assert (Pk : 0 <= h * 100 / amp) by (apply Z.div_pos; lia).
  assert (Phh : 0 < h * h) by (apply Z.mul_pos_pos; lia).
  assert (Pc : 0 <= h * h * h * 100 / (amp * (h + d))).
  { apply Z.div_pos; [|exact Pm]. assert (0 < h * h * h) by (apply Z.mul_pos_pos; lia). lia. }
  remember (h * 100 / amp) as k. remember (h * h * h * 100 / (amp * (h + d))) as c.
  destruct (Z_le_gt_dec r (h - eps)) as [|N]; [auto|exfalso].
  assert (Eh : eps < h).
  { destruct (Z_lt_le_dec eps h) as [|E]; [auto|exfalso]. assert (h * (h + d) <= eps * (h + d)) by (apply Z.mul_le_mono_nonneg_r; lia). lia. }
  assert (Ed : eps < d).
  { destruct (Z_lt_le_dec eps d) as [|E]; [auto|exfalso]. assert (d * (h + d) <= eps * (h + d)) by (apply Z.mul_le_mono_nonneg_r; lia).
    assert (0 < d * d) by (apply Z.mul_pos_pos; lia). lia. }
  (* c (h + d) < (k + 1) h^2 *)
  assert (B1 : c * (h + d) < (k + 1) * (h * h)).
  { apply Z.mul_lt_mono_pos_l with (p := amp); [lia|].
    assert (h * 100 * (h * h) < amp * (k + 1) * (h * h)) by (apply Z.mul_lt_mono_pos_r; lia). lia. }
  (* (h - eps)(h + d) >= h^2 *)
  assert (B2 : h * h <= (h - eps) * (h + d)) by lia.
  assert (B3 : (k + 1) * (h * h) <= (d - eps + k) * ((h - eps) * (h + d))) by (apply Z.mul_le_mono_nonneg; lia).
  assert (B4 : c < (h - eps) * (d - eps + k)).
  { apply Z.mul_lt_mono_pos_r with (p := h + d); lia. }
  assert (B5 : c < (h - eps) * (h - eps) + (h + d + k - 2 * h) * (h - eps)) by lia.
  pose proof (hy_mono c (h + d + k - 2 * h) (h - eps) (r - 1) Pc ltac:(lia) B5). lia.
Qed.

Theorem C176_balanced_new_reserve amp h d target r : 0 < h -> 0 < d -> 2 * h <= 10 ^ 19 -> 100 <= amp <= 10 ^ 8 ->
  calc_y amp (h + d) h h target = Ok r ->
  r <= (h - h * d / (h + d) + 10 ^ 12) / 10 ^ (18 - target).
Proof.
  intros Ph Pd Mh Am X. destruct (calc_y_ok _ _ _ _ _ _ (Z.lt_le_incl _ _ Ph) (Z.lt_le_incl _ _ Ph) X) as [_ [_ [_ [_ [Tg _]]]]].
  apply calc_y_loop in X; [|lia|lia]. destruct X as [D [y [HD [-> L]]]].
  rewrite compute_d_balanced in HD by auto. assert (ED : D = 2 * h) by congruence. subst D. clear HD.
  remember ((2 * h) ^ 3 * 100 / (8 * amp * (h + d))) as c.
  assert (P8 : 0 < 8 * amp * (h + d)) by (apply Z.mul_pos_pos; lia).
  assert (P3 : 0 < (2 * h) ^ 3) by (apply Z.pow_pos_nonneg; lia).
  assert (Pc : 0 <= c) by (subst c; apply Z.div_pos; lia).
  destruct (rooty_exists c (h + d + 2 * h * 100 / (2 * amp) - 2 * h) Pc) as [r Cr].
  assert (Hhd : 0 < h * d) by (apply Z.mul_pos_pos; lia).
  pose proof (div_floor (h * d) (h + d) ltac:(lia)) as [F1 F2].
  assert (Pe : 0 <= h * d / (h + d)) by (apply Z.div_pos; lia).
  assert (Rr : r <= h - h * d / (h + d)).
  { subst c. apply (balanced_root amp h d _ r); auto; lia. }
  assert (Pw : 0 < 10 ^ (18 - target)) by (apply Z.pow_pos_nonneg; lia).
  apply Z.div_le_mono; [exact Pw|].
  assert (y <= r + 10 ^ 12); [|lia].
  assert (L2 : r - 1 <= 2 * h) by (clear - Rr Pe Ph; lia).
  exact (y_loop_top 64 (2 * h) (h + d + 2 * h * 100 / (2 * amp)) c (2 * h) r y Pc Cr L2 L).
Qed.
Print Assumptions C176_balanced_new_reserve.

(** A balanced stable pool within capacity quotes every offer that is not tiny, and it quotes at least
    what a constant product pool would pay, up to the tolerance of the iteration. *)
Theorem C176_balanced_pool_quotes H w self p offer amt :
  reachable H w -> stable_at w self p -> offer = l_ta p \/ offer = l_tb p -> l_preca p = l_precb p ->
  l_ra p = l_rb p -> 0 < l_ra p -> 0 < amt <= I128_MAX ->
  let h := scaled (l_ra p) (l_preca p) in let d := scaled amt (l_preca p) in
  2 * h <= 10 ^ 19 -> h + d < 2 ^ 128 -> 10 ^ 12 <= h * d / (h + d) ->
  exists q, stable_simulate_swap self offer amt w = Ok (q, w) /\
    h * d / (h + d) <= scaled (ss_ask q + ss_comm q) (l_preca p) + 10 ^ 12.
Proof.
  intros R Hp Of Ep Er Pr Pa h d Ch Cd Tiny.
  pose proof (reach_good _ _ R) as G. pose proof (gd_cstable _ G _ _ Hp) as Hc.
  pose proof (reach_stable _ _ R _ _ Hp) as I. destruct (li_amp _ _ _ I) as [_ [_ Am]].
  destruct (li_dec _ _ _ I) as [_ [_ [Pmax [Pr1 Pr2]]]]. assert (Ept : l_prec p = l_preca p) by lia.
  pose proof (amp_reached _ _ _ _ R Hp) as Amp.
  assert (Ff : 0 <= dec_bps (l_fee p) <= DEC).
  { pose proof (li_bps _ _ _ I) as Bp. apply dec_bps_fee. lia. }
  assert (P1 : 1 <= 10 ^ (18 - l_preca p)) by (assert (0 < 10 ^ (18 - l_preca p)) by (apply Z.pow_pos_nonneg; lia); lia).
  assert (Qh : l_ra p <= h) by (unfold h, scaled; revert P1; generalize (10 ^ (18 - l_preca p)); clear - Pr; intros; nia).
  assert (Qd : amt <= d) by (unfold d, scaled; revert P1; generalize (10 ^ (18 - l_preca p)); clear - Pa; intros; nia).
  assert (Am' : 100 <= l_namp p <= 10 ^ 8) by (change (10 ^ 8) with 100000000; lia).
  destruct (proj2 (C175_capacity (l_namp p) (h + d) h h (l_preca p) ltac:(lia) ltac:(lia) ltac:(lia) Am') ltac:(lia) ltac:(lia)) as [ny Y].
  pose proof (C176_balanced_new_reserve (l_namp p) h d (l_preca p) ny ltac:(lia) ltac:(lia) Ch Am' Y) as Up.
  assert (Ny : 0 <= ny <= l_ra p /\ h * d / (h + d) <= scaled (l_ra p - ny) (l_preca p) + 10 ^ 12).
  { assert (N0 : 0 <= ny).
    { destruct (calc_y_ok _ _ _ _ _ _ (Z.le_trans _ _ _ (Z.lt_le_incl _ _ Pr) Qh) (Z.le_trans _ _ _ (Z.lt_le_incl _ _ Pr) Qh) Y) as [_ [y [_ [_ [_ [_ [_ [Yp [-> _]]]]]]]]]. apply Z.div_pos; lia. }
    pose proof (Z.mul_div_le (h - h * d / (h + d) + 10 ^ 12) (10 ^ (18 - l_preca p)) ltac:(lia)) as M.
    unfold scaled in *. unfold h in *. revert P1 M Up Tiny. generalize (10 ^ (18 - l_preca p)) as P. intros P P1 M Up Tiny.
    clear - N0 P1 M Up Tiny. clearbody d.
    remember (l_ra p * P * d / (l_ra p * P + d)) as g. remember ((l_ra p * P - g + 10 ^ 12) / P) as z.
    assert (P * ny <= P * z) by (apply Z.mul_le_mono_nonneg_l; lia).
    split; [split; [exact N0|]|lia]. apply Z.mul_le_mono_pos_l with (p := P); lia. }
  destruct Ny as [[N0 N1] Bd].
  change (10 ^ 19) with 10000000000000000000 in Ch.
  set (g := l_ra p - ny) in *.
  assert (Rg : 0 <= g * dec_bps (l_fee p) <= 5000000000000000000 * DEC).
  { split; [apply Z.mul_nonneg_nonneg; lia|]. apply Z.mul_le_mono_nonneg; lia. }
  assert (Rc : 0 <= g * dec_bps (l_fee p) / DEC <= g).
  { split; [apply Z.div_pos; [lia|reflexivity]|]. apply Z.div_le_upper_bound; [reflexivity|]. rewrite Z.mul_comm. apply Z.mul_le_mono_nonneg_r; lia. }
  set (fee := g * dec_bps (l_fee p) / DEC) in *.
  assert (Cs : stable_compute_swap (l_namp p) (l_prec p) (l_ra p) (l_preca p) (l_ra p) (l_preca p) amt (dec_bps (l_fee p)) =
    Ok (g - fee, if g <? amt then amt - g else 0, fee)).
  { unfold stable_compute_swap. rewrite Ept.
    assert (Es : scaled (l_ra p + amt) (l_preca p) = h + d) by (unfold h, d, scaled; ring).
    unfold add_u. rewrite chk_u, rb_ok by (unfold U128_MAX; lia).
    rewrite scale_runs, rb_ok by (try lia; rewrite Es; unfold U128_MAX; lia).
    rewrite !scale_runs by (try lia; fold h; unfold U128_MAX; lia). rewrite !rb_ok. rewrite Es. fold h. rewrite Y, rb_ok.
    unfold sub_u. rewrite chk_u, rb_ok by (unfold U128_MAX; lia). fold g.
    unfold u2i. assert (Sp : (if g <? amt then if I128_MAX <? amt - g then Err EPanic else Ok (amt - g) else Ok 0) = Ok (if g <? amt then amt - g else 0)).
    { destruct (Z.ltb_spec g amt); [|reflexivity]. replace (I128_MAX <? amt - g) with false by lia. reflexivity. }
    rewrite Sp, rb_ok. replace (I128_MAX <? g) with false by (unfold I128_MAX; lia). rewrite rb_ok.
    rewrite mul_dec_runs, rb_ok by (try lia; unfold I128_MAX, DEC in *; lia). fold fee.
    unfold sub_i, chk. replace (in_i128 (g - fee)) with true by (unfold in_i128, I128_MIN, I128_MAX; lia). reflexivity. }
  exists (mkSimSwap (g - fee) fee (if g <? amt then amt - g else 0) (g - fee + fee + if g <? amt then amt - g else 0)).
  cbn [ss_ask ss_comm]. replace (g - fee + fee) with g by ring. split; [|exact Bd].
  unfold stable_simulate_swap.
  rewrite (run_bind _ _ _ tt w) by (apply run_enter; auto).
  rewrite (run_bind _ _ _ p w) by (apply run_get_stable; auto).
  rewrite (run_bind _ _ _ tt w) by (apply run_guard; lia).
  replace (if offer =? l_ta p then (l_ra p, l_rb p) else (l_rb p, l_ra p)) with (l_ra p, l_ra p) by (rewrite <- Er; destruct (offer =? l_ta p); reflexivity).
  replace (if offer =? l_ta p then (l_preca p, l_precb p) else (l_precb p, l_preca p)) with (l_preca p, l_preca p) by (rewrite <- Ep; destruct (offer =? l_ta p); reflexivity).
  rewrite (run_bind _ _ _ _ w) by apply run_now.
  rewrite (run_bind _ _ _ (l_ra p) w) by (apply run_lift, i2u_runs; lia).
  rewrite (run_bind _ _ _ (l_ra p) w) by (apply run_lift, i2u_runs; lia).
  rewrite (run_bind _ _ _ amt w) by (apply run_lift, i2u_runs; lia).
  rewrite (run_bind _ _ _ (l_namp p) w) by (apply run_lift; exact Amp).
  rewrite (run_bind _ _ _ _ w) by (apply run_lift; exact Cs). cbv beta iota.
  rewrite (run_bind _ _ _ g w).
  2:{ apply run_lift. unfold add_i. replace (g - fee + fee) with g by ring. apply chk_ok. unfold in_i128, I128_MIN, I128_MAX. lia. }
  rewrite (run_bind _ _ _ (g + if g <? amt then amt - g else 0) w).
  2:{ apply run_lift, chk_ok. unfold in_i128, I128_MIN. destruct (Z.ltb_spec g amt); [lia|]. unfold I128_MAX. lia. }
  reflexivity.
Qed.
Print Assumptions C176_balanced_pool_quotes.

(** Hence a swap without limits succeeds in such a pool as soon as the guaranteed output keeps within
    the pool's own spread limit. *)
Theorem C176_balanced_swap_succeeds H w e self p u offer amt buy g :
  reachable H w -> stable_at w self p -> lside p offer (l_ra p) (l_ra p) buy -> l_preca p = l_precb p ->
  l_ra p = l_rb p -> 0 < l_ra p -> signs e u = true -> 0 < amt <= bal w offer u ->
  let h := scaled (l_ra p) (l_preca p) in let d := scaled amt (l_preca p) in
  2 * h <= 10 ^ 19 -> d <= h -> 10 ^ 12 <= h * d / (h + d) ->
  0 < g -> scaled g (l_preca p) + 10 ^ 12 <= h * d / (h + d) -> (amt - g) * 10 ^ 4 <= l_maxspread p * g ->
  bal w offer self + amt <= I128_MAX -> bal w buy u + l_ra p <= I128_MAX -> bal w buy (l_feerec p) + l_ra p <= I128_MAX ->
  exists ret w', stable_swap e None self u offer amt None None None None w = Ok (ret, w').
Proof.
  intros R Hp Sd Ep Er Pr Sg Pa h d Ch Dh Tiny Pg Gg Sp F1 F2 F3.
  pose proof (reach_good _ _ R) as G. pose proof (good_bal w offer u G) as Gu.
  pose proof (reach_stable _ _ R _ _ Hp) as I. destruct (li_dec _ _ _ I) as [_ [_ [_ [Pr1 Pr2]]]].
  assert (Of : offer = l_ta p \/ offer = l_tb p) by (destruct Sd as [[? _]|[? _]]; auto).
  change (10 ^ 19) with 10000000000000000000 in Ch.
  destruct (C176_balanced_pool_quotes H w self p offer amt R Hp Of Ep Er Pr ltac:(lia) Ch ltac:(lia) Tiny) as [q [Sq Bd]].
  fold h d in Bd.
  assert (P1 : 1 <= 10 ^ (18 - l_preca p)) by (assert (0 < 10 ^ (18 - l_preca p)) by (apply Z.pow_pos_nonneg; lia); lia).
  assert (Gq : g <= ss_ask q + ss_comm q).
  { assert (X : scaled g (l_preca p) <= scaled (ss_ask q + ss_comm q) (l_preca p)) by lia. unfold scaled in X.
    apply Z.mul_le_mono_pos_r with (p := 10 ^ (18 - l_preca p)); lia. }
  assert (Am : amt <= 10000000000000000000).
  { assert (amt <= d); [|lia]. unfold d, scaled. assert (amt * 1 <= amt * 10 ^ (18 - l_preca p)) by (apply Z.mul_le_mono_nonneg_l; lia). lia. }
  apply (C128_stable_swap_succeeds_iff H w e self p u offer amt None None None None (l_ra p) (l_ra p) buy R Hp Sd).
  exists q. split; [exact Sq|]. cbv zeta.
  destruct (stable_simulate_ok _ _ _ _ _ _ Sq) as [p1 [am [E1 [_ [P2 [P3 [P4 [_ Ca]]]]]]]].
  unfold stable_at in Hp. rewrite Hp in E1. injection E1 as <-.
  destruct (stable_compute_swap_ok _ _ _ _ _ _ _ _ _ _ _ Ca) as [ny SN].
  assert (Ff : 0 <= dec_bps (l_fee p) <= DEC).
  { pose proof (li_bps _ _ _ I) as Bp. apply dec_bps_fee. lia. }
  pose proof (StNums_range _ _ _ _ _ _ _ _ _ _ _ _ SN Ff) as [Rc Rr].
  pose proof (sm_spread _ _ _ _ _ _ _ _ _ _ _ _ SN) as Rs. pose proof (sm_sum _ _ _ _ _ _ _ _ _ _ _ _ SN) as Rm.
  pose proof (sm_ny _ _ _ _ _ _ _ _ _ _ _ _ SN) as Rn.
  assert (Lo : l_oth p offer = l_ra p) by (unfold l_oth; destruct (offer =? l_ta p); lia).
  rewrite Lo in *. set (gross := ss_ask q + ss_comm q) in *.
  assert (Ms : 0 <= l_maxspread p <= 10000).
  { pose proof (li_bps _ _ _ I) as Bp. unfold vbps in Bp. lia. }
  assert (S0 : ss_spread q * 10 ^ 4 <= l_maxspread p * gross).
  { destruct (Z_le_gt_dec (amt - gross) 0) as [K|K].
    - replace (ss_spread q) with 0 by lia. apply Z.mul_nonneg_nonneg; lia.
    - assert (l_maxspread p * g <= l_maxspread p * gross) by (apply Z.mul_le_mono_nonneg_l; lia).
      change (10 ^ 4) with 10000 in *. lia. }
  split; [exact Sg|]. split; [discriminate|]. split; [discriminate|]. split; [discriminate|]. split; [discriminate|].
  split; [exact Pa|]. split; [lia|].
  split. { change (10 ^ 18) with 1000000000000000000. unfold I128_MAX. lia. }
  split.
  { apply Z.div_le_upper_bound; [lia|].
    replace (ss_spread q * 10 ^ 18) with (ss_spread q * 10 ^ 4 * 10 ^ 14) by (change (10 ^ 18) with (10 ^ 4 * 10 ^ 14); ring).
    replace (gross * (l_maxspread p * 10 ^ 14)) with (l_maxspread p * gross * 10 ^ 14) by ring.
    apply Z.mul_le_mono_nonneg_r; [discriminate|exact S0]. }
  split; [exact F1|]. split; [lia|]. intros _. unfold on. destruct (Z.eqb_spec (l_feerec p) u) as [E|E]; [rewrite E|]; lia.
Qed.
Print Assumptions C176_balanced_swap_succeeds.

Example C175_deposit_case : exists w', exec (env_of [-4]) (CStableProvide 20 (-4) 1000000 1 None None None) yW = Ok (tt, w').
Proof.
  eapply (C175_deposit_succeeds xH yW _ 20 _ (-4) 1000000 1 yW_reach yW_pool); try (vm_compute; reflexivity);
    try (split; [reflexivity|]); vm_compute; discriminate.
Qed.
Example C176_case : exists q, stable_simulate_swap 20 1 1000000 yW = Ok (q, yW) /\ ss_ask q + ss_comm q = 985815 /\ 10 ^ 18 * 10 ^ 17 / (10 ^ 18 + 10 ^ 17) = 90909090909090909.
Proof. eexists. vm_compute. repeat split. Qed.
Example C176_swap_case : exists ret w', stable_swap (env_of [-4]) None 20 (-4) 1 100000 None None None None yW = Ok (ret, w').
Proof.
  eapply (C176_balanced_swap_succeeds xH yW _ 20 _ (-4) 1 100000 2 98990 yW_reach yW_pool); try (vm_compute; reflexivity);
    try (vm_compute; discriminate); try (split; [reflexivity|vm_compute; discriminate]).
  left. vm_compute. auto.
Qed.
