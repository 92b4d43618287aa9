(** The two Newton iterations of the stable pool always converge. *)
From Coq Require Import ZArith List Bool Lia Psatz.
From Coq Require Import ZifyBool.
From Verif Require Import Base FMap Decimal DecimalProofs World Token TokenProofs Frame Stake Pool PoolProofs Stable StableProofs NewtonProofs.
Import ListNotations.
Open Scope Z_scope.

Lemma rb_ok {A B} (x : A) (k : A -> res B) : rbind (Ok x) k = k x.
Proof. reflexivity. Qed.
Lemma chk_w x : 0 <= x <= U256_MAX -> chk in_u256 x = Ok x.
Proof. intros H. unfold chk, in_u256. replace ((0 <=? x) && (x <=? U256_MAX)) with true by lia. reflexivity. Qed.
Lemma chk_u x : 0 <= x <= U128_MAX -> chk in_u128 x = Ok x.
Proof. intros H. unfold chk, in_u128. replace ((0 <=? x) && (x <=? U128_MAX)) with true by lia. reflexivity. Qed.
Lemma div_w_nz a b : b <> 0 -> div_w a b = Ok (a / b).
Proof. intros H. unfold div_w. destruct (Z.eqb_spec b 0); [contradiction|reflexivity]. Qed.

(** the least integer above the root of (l-1) x + x^3/q = l s *)
Definition gp (l s q x : Z) : Prop := l * s * q < (l - 1) * x * q + x ^ 3.
Definition rootc (l s q r : Z) : Prop := gp l s q r /\ ~ gp l s q (r - 1).

Lemma root_exists l s q : 1 <= l -> 0 < q -> 0 < s -> gp l s q s \/ gp l s q (s + 1) -> exists r, 0 < r <= s + 1 /\ rootc l s q r.
Proof.
  intros Ll Lq Ls G0.
  assert (G : gp l s q (s + 1)).
  { destruct G0 as [G|G]; [|exact G]. unfold gp in *. assert (s ^ 3 <= (s + 1) ^ 3) by (apply Z.pow_le_mono_l; lia).
    assert ((l - 1) * s * q <= (l - 1) * (s + 1) * q) by (apply Z.mul_le_mono_nonneg_r; [lia|]; apply Z.mul_le_mono_nonneg_l; lia). lia. }
  clear G0. revert G. generalize (s + 1) (proj2 (Z.lt_succ_r 0 (s + 1)) ltac:(lia)).
  assert (Dec : forall x, gp l s q x \/ ~ gp l s q x).
  { intros x. unfold gp. destruct (Z_lt_ge_dec (l * s * q) ((l - 1) * x * q + x ^ 3)); [left|right]; lia. }
  intros n Hn G. assert (P : 0 <= n) by lia. clear Hn. revert G.
  pattern n. apply natlike_ind; [| |exact P].
  - intros G. exfalso. unfold gp in G. nia.
  - intros x Px IH G. destruct (Dec x) as [Gx|Gx].
    + destruct (IH Gx) as [r [Hr Cr]]. exists r. split; [lia|exact Cr].
    + exists (Z.succ x). split; [lia|]. split; [exact G|]. replace (Z.succ x - 1) with x by lia. exact Gx.
Qed.

Lemma gp_mono l s q x y : 1 <= l -> 0 < q -> 0 <= x <= y -> gp l s q x -> gp l s q y.
Proof.
  intros Ll Lq Lx G. unfold gp in *. assert (x ^ 3 <= y ^ 3) by (apply Z.pow_le_mono_l; lia).
  assert ((l - 1) * x * q <= (l - 1) * y * q) by (apply Z.mul_le_mono_nonneg_r; [lia|]; apply Z.mul_le_mono_nonneg_l; lia). lia.
Qed.

Lemma above_root l s q r d : 1 <= l -> 0 < q -> 0 < r -> rootc l s q r -> 0 <= d -> above l s q d -> r - 1 <= d.
Proof.
  intros Ll Lq Pr [_ G2] Pd A. destruct (Z_le_gt_dec (r - 1) d) as [|K]; [auto|exfalso].
  apply G2. apply gp_mono with (x := d + 1); [auto|auto|lia|exact A].
Qed.

(** the step for D, from above *)
Lemma next_bounds l s q r d : 6 <= l -> 4 <= q -> rootc l s q r -> 0 < r <= d ->
  let d' := d_next l s q d in
  d' <= d /\ 3 * (d' - r - 1) <= 2 * (d - r) /\ (r < d' -> (d' - r - 1) * d <= (d - r) ^ 2).
Proof.
  intros Ll Lq [G1 _] [Pr Ld]. cbv zeta. unfold d_next. cbv zeta.
  pose proof (div_floor (d ^ 3) q ltac:(lia)) as [F1 F2].
  assert (P0 : 0 <= d ^ 3 / q) by (apply Z.div_pos; [apply Z.pow_nonneg|]; lia).
  assert (Gd : gp l s q d) by (apply gp_mono with (x := r); [lia|lia|lia|exact G1]).
  remember (d ^ 3 / q) as p. clear Heqp.
  assert (D0 : 0 < (l - 1) * d + 3 * p) by nia.
  pose proof (div_floor ((l * s + 2 * p) * d) ((l - 1) * d + 3 * p) D0) as [N1 _].
  assert (U : (l * s + 2 * p) * d / ((l - 1) * d + 3 * p) <= d).
  { apply Z.lt_succ_r. apply Z.div_lt_upper_bound; [exact D0|].
    unfold gp in Gd.
    assert (l * s - (l - 1) * d <= p).
    { destruct (Z_le_gt_dec (l * s - (l - 1) * d) p) as [|K]; [auto|exfalso].
      assert (q * (p + 1) <= q * (l * s - (l - 1) * d)) by nia. lia. }
    nia. }
  remember ((l * s + 2 * p) * d / ((l - 1) * d + 3 * p)) as d'. clear Heqd'.
  split; [exact U|].
  (* (d' - r) q den <= d (d-r)^2 (2d+r) + q r *)
  assert (A : q * ((l * s + 2 * p) * d - r * ((l - 1) * d + 3 * p)) <= d * ((d - r) ^ 2 * (2 * d + r)) + q * d).
  { assert (E : q * ((l * s + 2 * p) * d - r * ((l - 1) * d + 3 * p)) = d * (l * s * q - (l - 1) * r * q) + (q * p) * (2 * d - 3 * r)) by ring.
    rewrite E. unfold gp in G1.
    assert (X1 : d * (l * s * q - (l - 1) * r * q) <= d * r ^ 3) by (apply Z.mul_le_mono_nonneg_l; lia).
    assert (E2 : d * ((d - r) ^ 2 * (2 * d + r)) = d * r ^ 3 + d ^ 3 * (2 * d - 3 * r)) by ring.
    rewrite E2.
    destruct (Z_le_gt_dec (3 * r) (2 * d)) as [C|C].
    - assert ((q * p) * (2 * d - 3 * r) <= d ^ 3 * (2 * d - 3 * r)) by (apply Z.mul_le_mono_nonneg_r; lia). nia.
    - assert ((d ^ 3 - q * p) * (3 * r - 2 * d) <= q * (3 * r - 2 * d)) by (apply Z.mul_le_mono_nonneg_r; lia).
      assert (q * (3 * r - 2 * d) <= q * d) by (apply Z.mul_le_mono_nonneg_l; lia). lia. }
  destruct (Z_le_gt_dec d' r) as [C|C]; [split; [lia|lia]|].
  assert (B : (d' - r) * (q * (l - 4) + 3 * d ^ 2) <= (d - r) ^ 2 * (2 * d + r) + q).
  { assert (B1 : d * (q * (l - 4) + 3 * d ^ 2) <= q * ((l - 1) * d + 3 * p)).
    { replace (d * (q * (l - 4) + 3 * d ^ 2)) with (q * ((l - 1) * d) - 3 * q * d + 3 * d ^ 3) by ring.
      nia. }
    assert (B2 : (d' - r) * (q * ((l - 1) * d + 3 * p)) <= d * ((d - r) ^ 2 * (2 * d + r)) + q * d).
    { eapply Z.le_trans; [|exact A]. 
      replace ((d' - r) * (q * ((l - 1) * d + 3 * p))) with (q * (((l - 1) * d + 3 * p) * d' - r * ((l - 1) * d + 3 * p))) by ring.
      apply Z.mul_le_mono_nonneg_l; lia. }
    assert (B3 : (d' - r) * (d * (q * (l - 4) + 3 * d ^ 2)) <= (d' - r) * (q * ((l - 1) * d + 3 * p))) by (apply Z.mul_le_mono_nonneg_l; lia).
    apply Z.mul_le_mono_pos_l with (p := d); [lia|]. lia. }
  set (k := d' - r - 1). assert (Pk : 0 <= k) by (unfold k; lia).
  replace (d' - r) with (k + 1) in B by (unfold k; lia).
  assert (Pd : 0 < d) by lia. assert (Pd2 : 0 < d ^ 2) by (rewrite Z.pow_2_r; apply Z.mul_pos_pos; lia).
  assert (Q1 : q * 2 <= q * (l - 4)) by (apply Z.mul_le_mono_nonneg_l; lia).
  assert (Pe : 0 <= (d - r) ^ 2) by (apply Z.pow_nonneg; lia).
  assert (B' : k * (3 * d ^ 2) <= (d - r) ^ 2 * (2 * d + r)).
  { assert (k * (3 * d ^ 2) <= k * (q * (l - 4) + 3 * d ^ 2)) by (apply Z.mul_le_mono_nonneg_l; lia).
    rewrite Z.mul_add_distr_r in B. lia. }
  split.
  - assert ((d - r) ^ 2 * (2 * d + r) <= (d - r) * (2 * d ^ 2)).
    { replace ((d - r) ^ 2 * (2 * d + r)) with ((d - r) * ((d - r) * (2 * d + r))) by ring.
      apply Z.mul_le_mono_nonneg_l; [lia|].
      replace ((d - r) * (2 * d + r)) with (2 * d ^ 2 - (d * r + r * r)) by ring. 
      assert (0 <= d * r + r * r) by (apply Z.add_nonneg_nonneg; apply Z.mul_nonneg_nonneg; lia). lia. }
    apply Z.mul_le_mono_pos_r with (p := d ^ 2); [lia|].
    clearbody k. clear - B' H. lia.
  - intros _. assert (X : (d - r) ^ 2 * (2 * d + r) <= (d - r) ^ 2 * (3 * d)) by (apply Z.mul_le_mono_nonneg_l; lia).
    apply Z.mul_le_mono_pos_r with (p := 3 * d); [lia|].
    replace (k * d * (3 * d)) with (k * (3 * d ^ 2)) by ring. lia.
Qed.

(** the step from the last integer below the root *)
Lemma next_below l s q r d : 20 <= l -> 4 <= q -> rootc l s q r -> d = r - 1 -> 0 < d -> d_next l s q d <= r + 1.
Proof.
  intros Ll Lq [G1 _] -> Pd. unfold d_next. cbv zeta.
  pose proof (div_floor ((r - 1) ^ 3) q ltac:(lia)) as [F1 F2].
  assert (P0 : 0 <= (r - 1) ^ 3 / q) by (apply Z.div_pos; [apply Z.pow_nonneg|]; lia).
  remember ((r - 1) ^ 3 / q) as p. clear Heqp.
  assert (D0 : 0 < (l - 1) * (r - 1) + 3 * p) by nia.
  apply Z.lt_succ_r. apply Z.div_lt_upper_bound; [exact D0|].
  apply Z.mul_lt_mono_pos_l with (p := q); [lia|].
  unfold gp in G1.
  assert (X1 : (r - 1) * (l * s * q) <= (r - 1) * ((l - 1) * r * q + r ^ 3)) by (apply Z.mul_le_mono_nonneg_l; lia).
  set (t := q * p) in *.
  (* goal: (r-1) l s q + 2 t (r-1) < (r+2) ((l-1)(r-1) q + 3 t) *)
  cut ((r - 1) * ((l - 1) * r * q + r ^ 3) + 2 * t * (r - 1) < (r + 2) * ((l - 1) * (r - 1) * q + 3 * t)).
  { unfold t in *. nia. }
  assert (T : (r - 1) ^ 3 - q < t) by lia.
  assert (Y : (r - 1) * r ^ 3 - t * (r + 8) < 2 * (l - 1) * (r - 1) * q); [|lia].
  assert (t * (r + 8) >= ((r - 1) ^ 3 - q) * (r + 8)) by nia.
  assert (E : (r - 1) * r ^ 3 - ((r - 1) ^ 3 - q) * (r + 8) = (r - 1) * (r ^ 3 - (r - 1) ^ 2 * (r + 8)) + q * (r + 8)) by ring.
  assert (E2 : r ^ 3 - (r - 1) ^ 2 * (r + 8) = - 6 * r ^ 2 + 15 * r - 8) by ring.
  rewrite E2 in E.
  assert (N : - 6 * r ^ 2 + 15 * r - 8 <= 0) by nia.
  assert (N2 : (r - 1) * (- 6 * r ^ 2 + 15 * r - 8) <= 0) by (apply Z.mul_nonneg_nonpos; lia).
  assert (N3 : q * (r + 8) <= q * (10 * (r - 1))) by (apply Z.mul_le_mono_nonneg_l; lia).
  assert (N4 : 38 * ((r - 1) * q) <= 2 * (l - 1) * ((r - 1) * q)) by (apply Z.mul_le_mono_nonneg_r; [apply Z.mul_nonneg_nonneg|]; lia).
  assert (N5 : 0 < (r - 1) * q) by (apply Z.mul_pos_pos; lia).
  lia.
Qed.

(** ** The loop for D *)
Lemma d_loop_step f d l s q : 6 <= l -> 4 <= q -> 2 <= s -> 0 < d <= s ->
  s ^ 3 <= U256_MAX -> (l * s + 2 * (s ^ 3 / q)) * s <= U256_MAX ->
  d_loop (S f) d l s q = if Z.abs (d_next l s q d - d) <=? 10 ^ 12 then Ok (d_next l s q d) else d_loop f (d_next l s q d) l s q.
Proof.
  intros Ll Lq Ls [Pd Ld] M1 M2.
  unfold d_loop; fold d_loop. unfold cube_w, calculate_step.
  assert (C1 : d ^ 3 <= s ^ 3) by (apply Z.pow_le_mono_l; lia).
  assert (C0 : 0 < d ^ 3) by (apply Z.pow_pos_nonneg; lia).
  assert (C2 : d ^ 3 / q <= s ^ 3 / q) by (apply Z.div_le_mono; lia).
  assert (C3 : 0 <= d ^ 3 / q) by (apply Z.div_pos; lia).
  rewrite chk_w by lia. rewrite rb_ok.
  rewrite div_w_nz by lia. rewrite rb_ok.
  remember (d ^ 3 / q) as p. remember (s ^ 3 / q) as p0.
  unfold N_COINS, mul_w, add_w, sub_w.
  assert (L0 : 0 < l * s) by (apply Z.mul_pos_pos; lia).
  assert (B0 : l * s + 2 * p <= l * s + 2 * p0) by lia.
  assert (B1 : (l * s + 2 * p) * d <= (l * s + 2 * p0) * s) by (apply Z.mul_le_mono_nonneg; lia).
  assert (B2 : (l * s + 2 * p0) * 2 <= (l * s + 2 * p0) * s) by (apply Z.mul_le_mono_nonneg_l; lia).
  assert (B5 : l * 1 <= l * s) by (apply Z.mul_le_mono_nonneg_l; lia).
  assert (B3 : d * (l - 1) <= l * s) by nia.
  assert (B4 : 0 < d * (l - 1)) by (apply Z.mul_pos_pos; lia).
  rewrite chk_w by lia. rewrite rb_ok. rewrite chk_w by lia. rewrite rb_ok. rewrite chk_w by lia. rewrite rb_ok.
  rewrite chk_w by (split; [apply Z.mul_nonneg_nonneg; lia|lia]). rewrite rb_ok. rewrite chk_w by lia. rewrite rb_ok.
  rewrite chk_w by lia. rewrite rb_ok. rewrite chk_w by lia. rewrite rb_ok. rewrite chk_w by lia. rewrite rb_ok.
  rewrite div_w_nz by lia. rewrite rb_ok.
  replace ((l * s + p * 2) * d / (d * (l - 1) + p * 3)) with (d_next l s q d).
  - rewrite abs_diff_abs. reflexivity.
  - unfold d_next. cbv zeta. rewrite <- Heqp. f_equal; ring.
Qed.

(** close to the root the loop stops *)
Lemma d_loop_stops f d l s q r : 20 <= l -> 4 <= q <= s * s -> 2 <= s -> 0 < r -> rootc l s q r ->
  s ^ 3 <= U256_MAX -> (l * s + 2 * (s ^ 3 / q)) * s <= U256_MAX ->
  DInv l s q d -> d - r <= 10 ^ 11 -> exists D, d_loop (S f) d l s q = Ok D.
Proof.
  intros Ll Lq Ls Pr Cr M1 M2 [[Pd Ld] A] Near.
  rewrite d_loop_step by (auto; lia).
  assert (Rd : r - 1 <= d) by (apply (above_root l s q); auto; lia).
  assert (Nz : (l - 1) * d + 3 * (d ^ 3 / q) <> 0).
  { assert (0 <= d ^ 3 / q) by (apply Z.div_pos; [apply Z.pow_nonneg|]; lia). assert (0 < (l - 1) * d) by (apply Z.mul_pos_pos; lia). lia. }
  assert (P' : 0 < d_next l s q d) by (apply next_pos; lia).
  assert (A' : above l s q (d_next l s q d)) by (apply next_above; auto; lia).
  assert (Rd' : r - 1 <= d_next l s q d) by (apply (above_root l s q); auto; lia).
  assert (U : d_next l s q d <= d + 2).
  { destruct (Z.eq_dec d (r - 1)) as [E|E].
    - pose proof (next_below l s q r d Ll ltac:(lia) Cr E Pd). lia.
    - pose proof (next_bounds l s q r d ltac:(lia) ltac:(lia) Cr ltac:(lia)) as [B _]. cbv zeta in B. lia. }
  destruct (Z.leb_spec (Z.abs (d_next l s q d - d)) (10 ^ 12)) as [C|C]; [eauto|exfalso].
  change (10 ^ 12) with 1000000000000 in C. change (10 ^ 11) with 100000000000 in Near. lia.
Qed.

(** one round: either done or an invariant state closer to the root *)
Lemma d_loop_round f d l s q r : 20 <= l -> 4 <= q <= s * s -> 2 <= s -> 0 < r -> rootc l s q r ->
  s ^ 3 <= U256_MAX -> (l * s + 2 * (s ^ 3 / q)) * s <= U256_MAX ->
  DInv l s q d ->
  (forall d', DInv l s q d' -> d' <= d -> 3 * (d' - r - 1) <= 2 * (d - r) -> (r < d' -> (d' - r - 1) * d <= (d - r) ^ 2) ->
     exists D, d_loop f d' l s q = Ok D) ->
  exists D, d_loop (S f) d l s q = Ok D.
Proof.
  intros Ll Lq Ls Pr Cr M1 M2 J K. pose proof J as [[Pd Ld] A].
  assert (Rd : r - 1 <= d) by (apply (above_root l s q); auto; lia).
  destruct (Z.eq_dec d (r - 1)) as [E|E].
  { apply (d_loop_stops _ d l s q r); auto. change (10 ^ 11) with 100000000000. lia. }
  rewrite d_loop_step by (auto; lia).
  destruct (Z.abs (d_next l s q d - d) <=? 10 ^ 12); [eauto|].
  assert (Nz : (l - 1) * d + 3 * (d ^ 3 / q) <> 0).
  { assert (0 <= d ^ 3 / q) by (apply Z.div_pos; [apply Z.pow_nonneg|]; lia). assert (0 < (l - 1) * d) by (apply Z.mul_pos_pos; lia). lia. }
  pose proof (next_bounds l s q r d ltac:(lia) ltac:(lia) Cr ltac:(lia)) as [B1 [B2 B3]]. cbv zeta in B1, B2, B3.
  apply K; auto.
  split; [split|].
  - apply next_pos; lia.
  - apply next_le; auto; lia.
  - apply next_above; auto; lia.
Qed.

(** quadratic phase: the distance to the root shrinks by 2^14 in every round *)
Lemma d_loop_fast n : forall f d l s q r, 20 <= l -> 4 <= q <= s * s -> 2 <= s -> 0 < r -> rootc l s q r ->
  s ^ 3 <= U256_MAX -> (l * s + 2 * (s ^ 3 / q)) * s <= U256_MAX ->
  DInv l s q d -> 16384 * (d - r) <= d -> d - r - 2 <= 10 ^ 10 * 16384 ^ (Z.of_nat n) -> exists D, d_loop (n + S f) d l s q = Ok D.
Proof.
  induction n as [|n IH]; intros f d l s q r Ll Lq Ls Pr Cr M1 M2 J Sm Bd.
  - apply (d_loop_stops _ d l s q r); auto; change (16384 ^ Z.of_nat 0) with 1 in Bd; change (10 ^ 10) with 10000000000 in Bd; change (10 ^ 11) with 100000000000; lia.
  - destruct (Z_le_gt_dec (d - r) (10 ^ 11)) as [C|C]; [apply (d_loop_stops _ d l s q r); auto|].
    change (10 ^ 11) with 100000000000 in *. change (10 ^ 10) with 10000000000 in *.
    cbn [plus]. apply d_loop_round with (r := r); auto.
    intros d' J' L1 L2 L3. pose proof J' as [[Pd' Ld'] A'].
    assert (Rd' : r - 1 <= d') by (apply (above_root l s q); auto; lia).
    assert (S' : 16384 * (d' - r - 1) <= d - r).
    { destruct (Z_le_gt_dec d' r) as [|G]; [lia|]. specialize (L3 ltac:(lia)).
      assert (X : 16384 * (d' - r - 1) * d <= (d - r) * d).
      { rewrite Z.pow_2_r in L3. assert (16384 * ((d - r) * (d - r)) <= d * (d - r)).
        { rewrite Z.mul_assoc. apply Z.mul_le_mono_nonneg_r; lia. } lia. }
      apply Z.mul_le_mono_pos_r with (p := d); lia. }
    apply IH with (r := r); auto; [lia|].
    rewrite Nat2Z.inj_succ, Z.pow_succ_r in Bd by lia.
    assert (0 < 16384 ^ Z.of_nat n) by (apply Z.pow_pos_nonneg; lia). lia.
Qed.

(** linear phase: every round takes a third of the distance *)
Lemma d_loop_slow n : forall f d l s q r X, 20 <= l -> 4 <= q <= s * s -> 2 <= s -> 0 < r -> rootc l s q r ->
  s ^ 3 <= U256_MAX -> (l * s + 2 * (s ^ 3 / q)) * s <= U256_MAX ->
  DInv l s q d -> 2 ^ (Z.of_nat n) * (d - r - 3) <= 3 ^ (Z.of_nat n) * X ->
  (forall d', DInv l s q d' -> d' - r - 3 <= Z.max 0 X -> exists D, d_loop f d' l s q = Ok D) ->
  exists D, d_loop (n + f) d l s q = Ok D.
Proof.
  induction n as [|n IH]; intros f d l s q r X Ll Lq Ls Pr Cr M1 M2 J Bd K.
  - apply K; auto. change (2 ^ Z.of_nat 0) with 1 in Bd. change (3 ^ Z.of_nat 0) with 1 in Bd. lia.
  - cbn [plus]. apply d_loop_round with (r := r); auto.
    intros d' J' L1 L2 _. apply IH with (r := r) (X := X); auto.
    rewrite Nat2Z.inj_succ, !Z.pow_succ_r in Bd by lia.
    assert (P2 : 0 < 2 ^ Z.of_nat n) by (apply Z.pow_pos_nonneg; lia).
    assert (2 ^ Z.of_nat n * (3 * (d' - r - 3)) <= 2 ^ Z.of_nat n * (2 * (d - r - 3))) by (apply Z.mul_le_mono_nonneg_l; lia).
    lia.
Qed.

(** the root is not far below the sum *)
Lemma root_near_sum l s q r : 2 * 10 ^ 18 <= l -> 2 * s <= q -> 2 <= s -> s ^ 3 <= U256_MAX -> 0 < r -> rootc l s q r -> s <= 256 * r.
Proof.
  intros Ll Lq Ls M Pr [G _]. destruct (Z_le_gt_dec s (256 * r)) as [|K]; [auto|exfalso].
  unfold gp in G.
  assert (X1 : l * q * (255 * r) <= l * q * (s - r)).
  { apply Z.mul_le_mono_nonneg_l; [apply Z.mul_nonneg_nonneg|]; lia. }
  assert (X0 : 0 <= r * q) by (apply Z.mul_nonneg_nonneg; lia).
  assert (X2 : l * q * 255 * r < r ^ 2 * r).
  { replace (r ^ 2 * r) with (r ^ 3) by ring. lia. }
  apply Z.mul_lt_mono_pos_r in X2; [|lia].
  assert (X3 : l * (512 * r) <= l * q) by (apply Z.mul_le_mono_nonneg_l; lia).
  assert (X4 : l * (512 * 255) * r < r * r) by (rewrite <- Z.pow_2_r; lia).
  apply Z.mul_lt_mono_pos_r in X4; [|lia].
  change (10 ^ 18) with 1000000000000000000 in Ll.
  assert (X5 : 66846720000000000000000000 <= s) by lia.
  assert (X6 : 66846720000000000000000000 ^ 3 <= s ^ 3) by (apply Z.pow_le_mono_l; lia).
  unfold U256_MAX in M. 
  assert (X7 : 2 ^ 256 - 1 < 66846720000000000000000000 ^ 3) by reflexivity.
  lia.
Qed.

Lemma d_loop_converges l s q : 2 * 10 ^ 18 <= l -> 2 * s <= q -> 4 <= q <= s * s -> 2 <= s ->
  s ^ 3 <= U256_MAX -> (l * s + 2 * (s ^ 3 / q)) * s <= U256_MAX ->
  exists D, d_loop 64 s l s q = Ok D.
Proof.
  intros Ll Lq2 Lq Ls M1 M2.
  assert (A0 : above l s q s) by (apply sum_above; lia).
  destruct (root_exists l s q) as [r [[Pr Rs] Cr]]; [lia|lia|lia|right; exact A0|].
  assert (J0 : DInv l s q s) by (split; [lia|exact A0]).
  assert (Nr : s <= 256 * r) by (apply (root_near_sum l s q); auto; lia).
  change (10 ^ 18) with 1000000000000000000 in Ll.
  destruct (Z_le_gt_dec r (10 ^ 8)) as [C|C].
  { apply (d_loop_stops 63 s l s q r); auto; try lia; change (10 ^ 8) with 100000000 in C; change (10 ^ 11) with 100000000000; lia. }
  change (10 ^ 8) with 100000000 in C.
  pose proof (div_floor r 32768 ltac:(lia)) as [F1 F2].
  change 64%nat with (40 + (23 + 1))%nat.
  apply (d_loop_slow 40 (23 + 1) s l s q r (r / 32768)); auto; try lia.
  intros d J L. pose proof J as [[Pd Ld] A].
  assert (Rd : r - 1 <= d) by (apply (above_root l s q); auto; lia).
  assert (L' : d - r <= r / 32768 + 3) by lia.
  apply (d_loop_fast 23 0 d l s q r); auto; try lia.
  change (Z.of_nat 23) with 23.
  assert (Sm : s < 2 ^ 86).
  { destruct (Z_lt_le_dec s (2 ^ 86)) as [|K]; [auto|exfalso].
    assert ((2 ^ 86) ^ 3 <= s ^ 3) by (apply Z.pow_le_mono_l; lia). unfold U256_MAX in M1.
    assert (2 ^ 256 - 1 < (2 ^ 86) ^ 3) by reflexivity. lia. }
  assert (2 ^ 86 <= 10 ^ 10 * 16384 ^ 23) by (intros E; discriminate E).
  lia.
Qed.

(** ** When the invariant D is computed *)
Definition d_fits (amp a b : Z) : Prop :=
  let l := amp / 100 * (2 * 10 ^ 18) in
  l <= U128_MAX /\ 4 * a * b <= U128_MAX /\ (a + b) ^ 3 <= U256_MAX /\
  (l * (a + b) + 2 * ((a + b) ^ 3 / (4 * a * b))) * (a + b) <= U256_MAX.

Lemma chk_bad p x : p x = false -> chk p x = Err EArith.
Proof. unfold chk. intros ->. reflexivity. Qed.
Lemma out_w x : U256_MAX < x -> in_u256 x = false.
Proof. unfold in_u256. intros; lia. Qed.
Lemma out_u x : U128_MAX < x -> in_u128 x = false.
Proof. unfold in_u128. intros; lia. Qed.
Lemma rb_err {A B} e (k : A -> res B) : rbind (Err e) k = Err e.
Proof. reflexivity. Qed.

Lemma prod_facts a b : 0 < a -> 0 < b -> 4 <= 4 * a * b <= (a + b) * (a + b) /\ 2 * (a + b) <= 4 * a * b /\ 2 * a <= 4 * a * b /\ 2 * b <= 4 * a * b.
Proof. intros. pose proof (Z.square_nonneg (a - b)). nia. Qed.

Lemma compute_d_exact amp a b : 0 < a -> 0 < b -> 100 <= amp ->
  (d_fits amp a b -> exists D, compute_d amp a b = Ok D) /\ (~ d_fits amp a b -> compute_d amp a b = Err EArith).
Proof.
  intros Pa Pb Am. pose proof (prod_facts a b Pa Pb) as [Q [Q1 [Q2 Q3]]].
  assert (A1 : 1 <= amp / 100) by (apply Z.div_le_lower_bound; lia).
  assert (Ll : 2 * 10 ^ 18 <= amp / 100 * (2 * 10 ^ 18)) by (change (2 * 10 ^ 18) with 2000000000000000000; lia).
  assert (Lp : 0 < 10 ^ 18) by reflexivity.
  unfold compute_d, d_fits. change N_COINS_PRECISION with (2 * 10 ^ 18). change AMP_PRECISION with 100. cbv zeta.
  remember (amp / 100 * (2 * 10 ^ 18)) as l.
  unfold mul_u. rewrite <- Heql. clear Heql. remember (a + b) as s. assert (Ls : 2 <= s) by lia.
  unfold N_COINS, add_u. rewrite <- Heqs.
  split.
  - intros [F1 [F2 [F3 F4]]].
    rewrite chk_u by lia. rewrite rb_ok, chk_u by lia. rewrite rb_ok, chk_u by lia. rewrite rb_ok, chk_u by lia. rewrite rb_ok.
    destruct (Z.eqb_spec s 0); [lia|]. replace (a * 2 * (b * 2)) with (4 * a * b) by ring.
    rewrite chk_u by lia. rewrite rb_ok. apply d_loop_converges; auto.
  - intros NF.
    destruct (Z_lt_le_dec U128_MAX l) as [K1|K1]; [rewrite chk_bad; [reflexivity|apply out_u; exact K1]|].
    rewrite chk_u, rb_ok by lia.
    destruct (Z_lt_le_dec U128_MAX (a * 2)) as [K2|K2]; [rewrite chk_bad; [reflexivity|apply out_u; exact K2]|].
    rewrite chk_u, rb_ok by lia.
    destruct (Z_lt_le_dec U128_MAX (b * 2)) as [K3|K3]; [rewrite chk_bad; [reflexivity|apply out_u; exact K3]|].
    rewrite chk_u, rb_ok by lia.
    destruct (Z_lt_le_dec U128_MAX s) as [K4|K4]; [rewrite chk_bad; [reflexivity|apply out_u; exact K4]|].
    rewrite chk_u, rb_ok by lia.
    destruct (Z.eqb_spec s 0); [lia|]. replace (a * 2 * (b * 2)) with (4 * a * b) by ring.
    destruct (Z_lt_le_dec U128_MAX (4 * a * b)) as [K5|K5]; [rewrite chk_bad; [reflexivity|apply out_u; exact K5]|].
    rewrite chk_u, rb_ok by lia.
    change 64%nat with (S 63). unfold d_loop; fold d_loop. unfold cube_w, calculate_step, mul_w, add_w, sub_w, N_COINS.
    destruct (Z_lt_le_dec U256_MAX (s ^ 3)) as [K6|K6]; [rewrite chk_bad; [reflexivity|apply out_w; exact K6]|].
    assert (C0 : 0 < s ^ 3) by (apply Z.pow_pos_nonneg; lia).
    assert (C3 : 0 <= s ^ 3 / (4 * a * b)) by (apply Z.div_pos; lia).
    rewrite chk_w, rb_ok by lia. rewrite div_w_nz, rb_ok by lia.
    remember (s ^ 3 / (4 * a * b)) as p.
    assert (L0 : 0 < l * s) by (apply Z.mul_pos_pos; lia).
    destruct (Z_lt_le_dec U256_MAX (l * s)) as [K7|K7]; [rewrite (chk_bad _ (l * s)); [reflexivity|apply out_w; exact K7]|].
    rewrite chk_w, rb_ok by lia.
    destruct (Z_lt_le_dec U256_MAX (p * 2)) as [K8|K8]; [rewrite (chk_bad _ (p * 2)); [reflexivity|apply out_w; exact K8]|].
    rewrite chk_w, rb_ok by lia.
    destruct (Z_lt_le_dec U256_MAX (l * s + p * 2)) as [K9|K9]; [rewrite (chk_bad _ (l * s + p * 2)); [reflexivity|apply out_w; exact K9]|].
    rewrite chk_w, rb_ok by lia.
    assert (K10 : U256_MAX < (l * s + p * 2) * s).
    { destruct (Z_lt_le_dec U256_MAX ((l * s + p * 2) * s)) as [|K]; [auto|exfalso]. apply NF.
      split; [lia|]. split; [lia|]. split; [lia|]. rewrite (Z.mul_comm 2 p). lia. }
    rewrite (chk_bad _ ((l * s + p * 2) * s)); [reflexivity|apply out_w; exact K10].
Qed.

(** ** The loop for y *)
(** the least positive integer above the root of x^2 + t x = c *)
Definition rooty (c t r : Z) : Prop := 0 < r /\ c < r * r + t * r /\ (r - 1) * (r - 1) + t * (r - 1) <= c.

Lemma hy_mono c t x y : 0 <= c -> 0 <= x <= y -> c < x * x + t * x -> c < y * y + t * y.
Proof.
  intros Pc [Px L] H.
  assert (Q : 0 < x + t).
  { destruct (Z_lt_le_dec 0 (x + t)) as [|K]; [auto|exfalso]. assert (x * (x + t) <= 0) by (apply Z.mul_nonneg_nonpos; lia). lia. }
  assert (x * (x + t) <= y * (y + t)) by (apply Z.mul_le_mono_nonneg; lia). lia.
Qed.

Lemma rooty_exists c t : 0 <= c -> exists r, rooty c t r.
Proof.
  intros Pc.
  assert (G : exists n, 0 <= n /\ c < n * n + t * n).
  { exists (c + Z.abs t + 1). split; [lia|]. assert (0 <= (c + Z.abs t + 1 + t - 1) * (c + Z.abs t + 1)) by (apply Z.mul_nonneg_nonneg; lia). lia. }
  destruct G as [n [P G]]. revert G. pattern n. apply natlike_ind; [|intros x Px IH G|exact P].
  - intros G. lia.
  - destruct (Z_lt_le_dec c (x * x + t * x)) as [K|K]; [auto|].
    exists (Z.succ x). unfold rooty. split; [lia|]. split; [exact G|]. replace (Z.succ x - 1) with x by lia. exact K.
Qed.

Lemma rooty_low c t r y : 0 <= c -> rooty c t r -> 0 <= y -> c < (y + 1) ^ 2 + t * (y + 1) -> r - 1 <= y.
Proof.
  intros Pc [Pr [_ G]] Py H. destruct (Z_le_gt_dec (r - 1) y) as [|K]; [auto|exfalso].
  rewrite Z.pow_2_r in H. pose proof (hy_mono c t (y + 1) (r - 1) Pc ltac:(lia) H). lia.
Qed.

Lemma rooty_pos c t r : 0 <= c -> rooty c t r -> 0 < r + t.
Proof.
  intros Pc [Pr [G _]]. destruct (Z_lt_le_dec 0 (r + t)) as [|K]; [auto|exfalso].
  assert (r * (r + t) <= 0) by (apply Z.mul_nonneg_nonpos; lia). lia.
Qed.

(** one step, measured from the root *)
Lemma y_next_root c b d r y : 0 < 2 * y + b - d -> rooty c (b - d) r ->
  (y_next c b d y - r) * (2 * y + b - d) < (y - r) * (y - r).
Proof.
  intros W [_ [G _]]. unfold y_next.
  pose proof (div_floor (y ^ 2 + c) (2 * y + b - d) W) as [F _]. remember ((y ^ 2 + c) / (2 * y + b - d)) as Y.
  rewrite Z.pow_2_r in F. lia.
Qed.

Lemma y_next_nonneg c b d y : 0 <= c -> 0 < 2 * y + b - d -> 0 <= y_next c b d y.
Proof. intros. unfold y_next. apply Z.div_pos; [|lia]. pose proof (Z.square_nonneg y). rewrite Z.pow_2_r. lia. Qed.

Lemma y_loop_step f y b c d : 0 <= y -> 0 <= c -> 0 <= b -> 0 <= d -> 0 < 2 * y + b - d -> y ^ 2 + c <= U256_MAX -> 2 * y + b <= U256_MAX ->
  y_loop (S f) y b c d = if Z.abs (y_next c b d y - y) <=? 10 ^ 12 then Ok (y_next c b d y) else y_loop f (y_next c b d y) b c d.
Proof.
  intros Py Pc Pb Pd W M1 M2. unfold y_loop; fold y_loop. unfold square_w, add_w, mul_w, sub_w, N_COINS.
  assert (0 <= y ^ 2) by (apply Z.pow_nonneg; lia).
  rewrite chk_w, rb_ok by lia. rewrite chk_w, rb_ok by lia. rewrite chk_w, rb_ok by lia. rewrite chk_w, rb_ok by lia. rewrite chk_w, rb_ok by lia.
  rewrite div_w_nz, rb_ok by lia. rewrite (Z.mul_comm y 2). fold (y_next c b d y). rewrite abs_diff_abs. reflexivity.
Qed.

Section YLoop.
  Variables (b c d r Y : Z).
  Hypotheses (Pc : 0 <= c) (Pb : 0 <= b) (Pd : 0 <= d) (Cr : rooty c (b - d) r) (MY : Y ^ 2 + c <= U256_MAX) (MB : 2 * Y + b <= U256_MAX).

  Definition YInv (y : Z) : Prop := r - 1 <= y <= Y /\ 0 < 2 * y + b - d.

  Lemma y_inv_runs f y : YInv y ->
    y_loop (S f) y b c d = if Z.abs (y_next c b d y - y) <=? 10 ^ 12 then Ok (y_next c b d y) else y_loop f (y_next c b d y) b c d.
  Proof.
    intros [[L1 L2] W]. assert (Pr : 0 < r) by (apply Cr). apply y_loop_step; auto; try lia.
    assert (y ^ 2 <= Y ^ 2) by (apply Z.pow_le_mono_l; lia). lia.
  Qed.

  Lemma y_next_low y : 0 < 2 * y + b - d -> r - 1 <= y_next c b d y.
  Proof.
    intros W. apply (rooty_low c (b - d)); auto; [apply y_next_nonneg; auto|]. apply y_next_above. exact W.
  Qed.

  Lemma y_stops f y : YInv y -> y - r <= 10 ^ 11 -> exists y', y_loop (S f) y b c d = Ok y' /\ y' <= Z.max Y r.
  Proof.
    intros J Near. rewrite y_inv_runs by auto. destruct J as [[L1 L2] W].
    pose proof (y_next_low y W) as Lo. pose proof (y_next_root c b d r y W Cr) as Up.
    assert (U : y_next c b d y <= Z.max y r).
    { destruct (Z_le_gt_dec (y_next c b d y) (Z.max y r)) as [|K]; [auto|exfalso].
      destruct (Z_lt_le_dec y r) as [Y1|Y1].
      - assert (E : y = r - 1) by lia.
        assert (X : 1 * 1 <= (y_next c b d y - r) * (2 * y + b - d)) by (apply Z.mul_le_mono_nonneg; lia).
        replace ((y - r) * (y - r)) with 1 in Up by (rewrite E; ring). lia.
      - assert (X : (y - r) * (2 * y + b - d) <= (y_next c b d y - r) * (2 * y + b - d)) by (apply Z.mul_le_mono_nonneg_r; lia).
        pose proof (rooty_pos c (b - d) r Pc Cr).
        assert ((y - r) * (y - r) <= (y - r) * (2 * y + b - d)) by (apply Z.mul_le_mono_nonneg_l; destruct Cr; lia). lia. }
    replace (Z.abs (y_next c b d y - y) <=? 10 ^ 12) with true.
    2:{ change (10 ^ 12) with 1000000000000. change (10 ^ 11) with 100000000000 in Near. lia. }
    eexists; split; [reflexivity|lia].
  Qed.

  Lemma y_round f y : YInv y ->
    (forall y', YInv y' -> y' <= y -> 2 * (y' - r) <= y - r -> (y' - r) * (2 * r + b - d) <= (y - r) * (y - r) ->
       exists z, y_loop f y' b c d = Ok z /\ z <= Z.max Y r) ->
    exists z, y_loop (S f) y b c d = Ok z /\ z <= Z.max Y r.
  Proof.
    intros J K. destruct (Z_le_gt_dec y r) as [C|C].
    { apply y_stops; auto. change (10 ^ 11) with 100000000000. lia. }
    rewrite y_inv_runs by auto. destruct J as [[L1 L2] W].
    pose proof (y_next_low y W) as Lo. pose proof (y_next_root c b d r y W Cr) as Up.
    pose proof (rooty_pos c (b - d) r Pc Cr) as Rt. assert (Pr : 0 < r) by (apply Cr).
    pose proof (y_next_nonneg c b d y Pc W) as Nn.
    remember (y_next c b d y) as y'.
    assert (H2 : 2 * (y' - r) <= y - r).
    { destruct (Z_le_gt_dec y' r) as [|G]; [lia|].
      assert (X : (y' - r) * (2 * (y - r)) <= (y' - r) * (2 * y + b - d)) by (apply Z.mul_le_mono_nonneg_l; lia).
      apply Z.mul_le_mono_pos_r with (p := y - r); lia. }
    assert (Hm : (y' - r) * (2 * r + b - d) <= (y - r) * (y - r)).
    { destruct (Z_le_gt_dec y' r) as [|G].
      - assert ((y' - r) * (2 * r + b - d) <= 0) by (apply Z.mul_nonpos_nonneg; lia). pose proof (Z.square_nonneg (y - r)). lia.
      - assert ((y' - r) * (2 * r + b - d) <= (y' - r) * (2 * y + b - d)) by (apply Z.mul_le_mono_nonneg_l; lia). lia. }
    destruct (Z.leb_spec (Z.abs (y' - y)) (10 ^ 12)) as [S1|S1].
    { eexists; split; [reflexivity|lia]. }
    change (10 ^ 12) with 1000000000000 in S1.
    apply K; auto; [|lia]. split; [lia|].
    destruct (Z_le_gt_dec r y') as [G|G]; [lia|]. assert (E : y' = r - 1) by lia.
    destruct (Z_le_gt_dec 2 r) as [R2|R2]; [lia|]. assert (y' = 0) by lia.
    (* a step from beyond 10^12 to zero *)
    unfold y_next in Heqy'. pose proof (div_floor (y ^ 2 + c) (2 * y + b - d) W) as [_ F].
    rewrite <- Heqy' in F. rewrite Z.pow_2_r in F.
    assert (1000000000000 * y <= y * y) by (apply Z.mul_le_mono_nonneg_r; lia). lia.
  Qed.

  Lemma y_halve n : forall f y X, YInv y -> y - r <= 2 ^ (Z.of_nat n) * X ->
    (forall y', YInv y' -> y' - r <= X -> exists z, y_loop f y' b c d = Ok z /\ z <= Z.max Y r) -> 0 <= X ->
    exists z, y_loop (n + f) y b c d = Ok z /\ z <= Z.max Y r.
  Proof.
    induction n as [|n IH]; intros f y X J Bd K PX.
    - apply K; auto. change (2 ^ Z.of_nat 0) with 1 in Bd. lia.
    - cbn [plus]. apply y_round; auto. intros y' J' L1 L2 L3. apply IH with (X := X); auto.
      rewrite Nat2Z.inj_succ, Z.pow_succ_r in Bd by lia. lia.
  Qed.

  Lemma y_fast n : forall f y, YInv y -> 16384 * (y - r) <= 2 * r + b - d -> y - r <= 10 ^ 11 * 16384 ^ (Z.of_nat n) ->
    exists z, y_loop (n + S f) y b c d = Ok z /\ z <= Z.max Y r.
  Proof.
    induction n as [|n IH]; intros f y J Sm Bd.
    - apply y_stops; auto; change (16384 ^ Z.of_nat 0) with 1 in Bd; lia.
    - destruct (Z_le_gt_dec (y - r) (10 ^ 11)) as [C|C]; [apply y_stops; auto|].
      change (10 ^ 11) with 100000000000 in *.
      cbn [plus]. apply y_round; auto. intros y' J' L1 L2 L3.
      pose proof (rooty_pos c (b - d) r Pc Cr) as Rt. assert (Pr : 0 < r) by (apply Cr).
      assert (X : 16384 * (y' - r) <= y - r).
      { apply Z.mul_le_mono_pos_r with (p := 2 * r + b - d); [lia|].
        assert ((y - r) * (16384 * (y - r)) <= (y - r) * (2 * r + b - d)) by (apply Z.mul_le_mono_nonneg_l; lia). lia. }
      apply IH; auto; [lia|].
      rewrite Nat2Z.inj_succ, Z.pow_succ_r in Bd by lia. lia.
  Qed.
End YLoop.

Lemma y_loop_converges b c d : 0 < d -> 0 < b -> b <= 10 ^ 60 -> 0 <= 8 * c <= d ^ 3 -> d ^ 3 * 10 ^ 20 <= U256_MAX ->
  exists y, y_loop 64 d b c d = Ok y /\ 0 <= y <= U128_MAX.
Proof.
  intros Pd Pb Mb [Pc8 Lc] M. assert (Pc : 0 <= c) by lia.
  assert (D3 : d ^ 3 <= 1157920892373161954235709850086879078532699846656405640394).
  { unfold U256_MAX in M. change (10 ^ 20) with 100000000000000000000 in M. lia. }
  assert (Dm : d <= 10600000000000000000).
  { destruct (Z_le_gt_dec d 10600000000000000000) as [|K]; [auto|exfalso].
    assert (10600000000000000000 ^ 3 <= d ^ 3) by (apply Z.pow_le_mono_l; lia).
    assert (1157920892373161954235709850086879078532699846656405640394 < 10600000000000000000 ^ 3) by reflexivity. lia. }
  clear M.
  assert (D2 : d ^ 2 <= 112360000000000000000000000000000000000).
  { change 112360000000000000000000000000000000000 with (10600000000000000000 ^ 2). apply Z.pow_le_mono_l. lia. }
  assert (D2p : d * 1 <= d * d) by (apply Z.mul_le_mono_nonneg_l; lia). assert (E2 : d ^ 2 = d * d) by ring.
  assert (E3 : d ^ 3 = d * (d * d)) by ring.
  set (Y := d + d ^ 2).
  assert (MY : Y ^ 2 + c <= U256_MAX).
  { assert (Y <= 112360000000000000010600000000000000000) by (unfold Y; lia).
    assert (Y ^ 2 <= 112360000000000000010600000000000000000 ^ 2) by (apply Z.pow_le_mono_l; unfold Y; lia).
    assert (112360000000000000010600000000000000000 ^ 2 + 1157920892373161954235709850086879078532699846656405640394 <= U256_MAX) by (intros E; discriminate E).
    lia. }
  change (10 ^ 60) with 1000000000000000000000000000000000000000000000000000000000000 in Mb.
  assert (MB : 2 * Y + b <= U256_MAX).
  { unfold Y, U256_MAX. lia. }
  destruct (rooty_exists c (b - d) Pc) as [r Cr]. assert (Pr : 0 < r) by (apply Cr).
  pose proof (rooty_pos c (b - d) r Pc Cr) as Rt.
  assert (W : 0 < 2 * d + b - d) by lia.
  assert (DY : d ^ 2 <= Y ^ 2) by (apply Z.pow_le_mono_l; unfold Y; lia).
  pose proof (y_next_nonneg c b d d Pc W) as Nn.
  pose proof (y_next_low b c d r Pc Cr d W) as Lo.
  assert (Up : y_next c b d d * d <= d * d + c).
  { unfold y_next. pose proof (div_floor (d ^ 2 + c) (2 * d + b - d) W) as [F _].
    remember ((d ^ 2 + c) / (2 * d + b - d)) as y1. unfold y_next in Nn. rewrite <- Heqy1 in Nn.
    assert (d * y1 <= (2 * d + b - d) * y1) by (apply Z.mul_le_mono_nonneg_r; lia). lia. }
  assert (U1 : y_next c b d d <= Y).
  { unfold Y. apply Z.mul_le_mono_pos_r with (p := d); [lia|]. replace ((d + d ^ 2) * d) with (d * d + d ^ 3) by ring. lia. }
  assert (Fin : forall z, z <= Z.max Y r -> z <= U128_MAX).
  { intros z Hz. assert (r <= Y + 1) by lia. unfold Y, U128_MAX in *. lia. }
  enough (G : exists y, y_loop 64 d b c d = Ok y /\ y <= Z.max Y r).
  { destruct G as [y [G1 G2]]. exists y. split; [exact G1|]. split; [apply (y_loop_nonneg _ _ _ _ _ _ G1)|apply Fin; exact G2]. }
  change 64%nat with (S 63).
  rewrite y_loop_step; auto; try lia; try (unfold Y in MB; lia).
  destruct (Z.leb_spec (Z.abs (y_next c b d d - d)) (10 ^ 12)) as [S1|S1].
  { eexists; split; [reflexivity|lia]. }
  change (10 ^ 12) with 1000000000000 in S1.
  remember (y_next c b d d) as y1.
  assert (J1 : YInv b d r Y y1).
  { split; [lia|].
    destruct (Z_le_gt_dec r y1) as [G|G]; [lia|]. assert (E : y1 = r - 1) by lia.
    destruct (Z_le_gt_dec 2 r) as [R2|R2]; [lia|]. assert (y1 = 0) by lia.
    unfold y_next in Heqy1. pose proof (div_floor (d ^ 2 + c) (2 * d + b - d) W) as [_ F].
    rewrite <- Heqy1 in F. rewrite E2 in F.
    assert (1000000000000 * d <= d * d) by (apply Z.mul_le_mono_nonneg_r; lia). lia. }
  destruct (Z_lt_le_dec c (d * d)) as [C|C].
  - (* few coins missing: plain halving is enough *)
    assert (Y2 : y1 < 2 * d).
    { apply Z.mul_lt_mono_pos_r with (p := d); lia. }
    change 63%nat with (62 + 1)%nat.
    apply (y_halve b c d r Y Pc ltac:(lia) ltac:(lia) Cr MY MB 62 1 y1 (10 ^ 11)); auto.
    + change (Z.of_nat 62) with 62. change (2 ^ 62 * 10 ^ 11) with 461168601842738790400000000000. lia.
    + intros y' J' L'. apply (y_stops b c d r Y Pc ltac:(lia) ltac:(lia) Cr MY MB 0 y'); auto.
    + change (10 ^ 11) with 100000000000. lia.
  - assert (Mm : 4 * c < (2 * r + b - d) * (2 * r + b - d)).
    { destruct Cr as [_ [G _]]. pose proof (Z.square_nonneg (b - d)). lia. }
    remember (2 * r + b - d) as m. assert (Pm : 0 < m) by lia.
    assert (E1 : y1 - r <= 2147483648 * m).
    { destruct (Z_le_gt_dec (y1 - r) (2147483648 * m)) as [|K]; [auto|exfalso].
      assert (B1 : (y1 - r) * d <= 2 * c).
      { assert (0 <= r * d) by (apply Z.mul_nonneg_nonneg; lia). lia. }
      assert (B0 : 2147483648 * m * d <= (y1 - r) * d) by (apply Z.mul_le_mono_nonneg_r; lia).
      assert (B2 : (2147483648 * m * d) * (2147483648 * m * d) <= (2 * c) * (2 * c)).
      { assert (0 <= m * d) by (apply Z.mul_nonneg_nonneg; lia). apply Z.mul_le_mono_nonneg; lia. }
      replace (2147483648 * m * d * (2147483648 * m * d)) with ((4611686018427387904 * (d * d)) * (m * m)) in B2 by ring.
      assert (Pdd : 0 < d * d) by (apply Z.mul_pos_pos; lia).
      assert (B3 : (4611686018427387904 * (d * d)) * (4 * c) < (4611686018427387904 * (d * d)) * (m * m)) by (apply Z.mul_lt_mono_pos_l; lia).
      assert (B4 : (4611686018427387904 * (d * d)) * (4 * c) < c * (4 * c)) by lia.
      apply Z.mul_lt_mono_pos_r in B4; [|lia].
      assert (B5 : 36893488147419103232 * (d * d) < d * (d * d)) by lia.
      apply Z.mul_lt_mono_pos_r in B5; lia. }
    assert (D6 : 1000000 <= d).
    { destruct (Z_le_gt_dec 1000000 d) as [|K]; [auto|exfalso].
      assert (B1 : 8 * y1 <= 8 * d + d * d).
      { apply Z.mul_le_mono_pos_r with (p := d); [lia|]. lia. }
      assert (d * d <= 1000000 * 1000000) by (apply Z.mul_le_mono_nonneg; lia). lia. }
    assert (M6 : 2 * d <= m).
    { destruct (Z_le_gt_dec (2 * d) m) as [|K]; [auto|exfalso].
      assert (m * m <= (2 * d) * (2 * d)) by (apply Z.mul_le_mono_nonneg; lia). lia. }
    change 63%nat with (46 + (16 + 1))%nat.
    pose proof (div_floor m 16384 ltac:(lia)) as [F1 F2].
    apply (y_halve b c d r Y Pc ltac:(lia) ltac:(lia) Cr MY MB 46 (16 + 1) y1 (m / 16384)); auto.
    + change (Z.of_nat 46) with 46. change (2 ^ 46) with 70368744177664. lia.
    + intros y' J' L'. apply (y_fast b c d r Y Pc ltac:(lia) ltac:(lia) Cr MY MB 16 0 y'); auto.
      * lia.
      * change (Z.of_nat 16) with 16. assert (Y <= 112360000000000000010600000000000000000) by (unfold Y; lia).
        assert (112360000000000000010600000000000000000 <= 10 ^ 11 * 16384 ^ 16) by (intros E; discriminate E).
        destruct J' as [[_ ?] _]. lia.
    + lia.
Qed.

(** ** When the new reserve is computed *)
Definition y_fits (amp new D target : Z) : Prop :=
  amp * (2 * 10 ^ 18) <= U128_MAX /\ D ^ 3 * 10 ^ 20 <= U256_MAX /\ 0 < new /\
  4 * new * (amp * (2 * 10 ^ 18)) <= U256_MAX /\ target <= 18.

Lemma pow10_runs n : 0 <= n <= 18 -> pow10_u n = Ok (10 ^ n).
Proof.
  intros H. unfold pow10_u. destruct (Z.ltb_spec n 0); [lia|]. apply chk_u. split; [apply Z.pow_nonneg; lia|].
  assert (10 ^ n <= 10 ^ 18) by (apply Z.pow_le_mono_r; lia). unfold U128_MAX. change (10 ^ 18) with 1000000000000000000 in *. lia.
Qed.

Lemma calc_y_exact amp new a b target D : 0 < a -> 0 < b -> 100 <= amp -> 0 <= new -> 0 <= target -> compute_d amp a b = Ok D ->
  (y_fits amp new D target -> exists r, calc_y amp new a b target = Ok r) /\
  (~ y_fits amp new D target -> calc_y amp new a b target = Err EArith).
Proof.
  intros Pa Pb Am Pn Pt HD.
  assert (PD : 0 < D).
  { apply compute_d_ok in HD; [|lia|lia]. destruct HD as [[? _]|[_ [_ [_ [_ [_ [[[? _] _] _]]]]]]]; lia. }
  unfold calc_y, y_fits. rewrite HD, rb_ok. unfold mul_u, mul_w, add_w, cube_w. clear HD.
  change (AMP_PRECISION * DEC) with (10 ^ 20). unfold N_COINS, DECIMAL_PRECISION. change DEC with 1000000000000000000. change (10 ^ 18) with 1000000000000000000.
  change (10 ^ 20) with 100000000000000000000.
  rewrite (chk_u 100000000000000000000) by (unfold U128_MAX; lia).
  replace (amp * 1000000000000000000 * 2) with (amp * (2 * 1000000000000000000)) by ring.
  remember (amp * (2 * 1000000000000000000)) as lev. assert (Hlev : amp * 1000000000000000000 <= lev) by lia.
  assert (Ll : 200000000000000000000 <= lev) by lia. 
  assert (D3 : 0 < D ^ 3) by (apply Z.pow_pos_nonneg; lia).
  assert (D1 : D * 1 <= D ^ 3) by (replace (D ^ 3) with (D * D ^ 2) by ring; apply Z.mul_le_mono_nonneg_l; [lia|]; assert (0 < D ^ 2) by (apply Z.pow_pos_nonneg; lia); lia).
  assert (N4 : 0 <= new * 4 * lev) by (apply Z.mul_nonneg_nonneg; lia).
  replace (4 * new * lev) with (new * 4 * lev) by ring.
  assert (Nl : new * 4 * 200000000000000000000 <= new * 4 * lev) by (apply Z.mul_le_mono_nonneg_l; lia).
  assert (Runs : lev <= U128_MAX -> D ^ 3 * 100000000000000000000 <= U256_MAX -> 0 < new -> new * 4 * lev <= U256_MAX ->
    exists y, 0 <= y <= U128_MAX /\ y_loop 64 D (new + D * 100000000000000000000 / lev) (D ^ 3 * 100000000000000000000 / (new * 4 * lev)) D = Ok y /\
      0 <= D * 100000000000000000000 / lev <= D).
  { intros F1 F2 F3 F4.
    assert (DQ : 0 <= D * 100000000000000000000 / lev <= D).
    { split; [apply Z.div_pos; lia|]. apply Z.lt_succ_r. apply Z.div_lt_upper_bound; [lia|].
      assert (200000000000000000000 * Z.succ D <= lev * Z.succ D) by (apply Z.mul_le_mono_nonneg_r; lia). lia. }
    destruct (y_loop_converges (new + D * 100000000000000000000 / lev) (D ^ 3 * 100000000000000000000 / (new * 4 * lev)) D) as [y [Y1 Y2]].
    - lia.
    - lia.
    - change (10 ^ 60) with 1000000000000000000000000000000000000000000000000000000000000.
      unfold U256_MAX in *. lia.
    - split; [apply Z.mul_nonneg_nonneg; [lia|]; apply Z.div_pos; lia|].
      pose proof (div_floor (D ^ 3 * 100000000000000000000) (new * 4 * lev) ltac:(lia)) as [F _].
      remember (D ^ 3 * 100000000000000000000 / (new * 4 * lev)) as c.
      assert (Pc : 0 <= c) by (subst c; apply Z.div_pos; lia).
      assert (800000000000000000000 * c <= (new * 4 * lev) * c) by (apply Z.mul_le_mono_nonneg_r; lia). lia.
    - exact F2.
    - exists y. split; [exact Y2|]. split; [exact Y1|]. exact DQ. }
  split.
  - intros [F1 [F2 [F3 [F4 F5]]]]. destruct (Runs F1 F2 F3 F4) as [y [Y2 [Y1 Y3]]].
    rewrite chk_u, rb_ok by lia.
    replace (amp * 1000000000000000000 * 2) with lev by lia.
    rewrite chk_u, rb_ok by lia. rewrite rb_ok. rewrite chk_w, rb_ok by lia. rewrite chk_w, rb_ok by lia.
    rewrite chk_w, rb_ok by (unfold U256_MAX in *; lia). rewrite chk_w, rb_ok by lia. rewrite div_w_nz, rb_ok by lia.
    rewrite chk_w, rb_ok by lia. rewrite div_w_nz, rb_ok by lia. rewrite chk_w, rb_ok by (unfold U256_MAX in *; lia).
    rewrite Y1, rb_ok. rewrite pow10_runs, rb_ok by lia. unfold w2u. replace (y <=? U128_MAX) with true by lia. rewrite rb_ok.
    unfold div_u. assert (0 < 10 ^ (18 - target)) by (apply Z.pow_pos_nonneg; lia).
    destruct (Z.eqb_spec (10 ^ (18 - target)) 0); [lia|]. eauto.
  - intros NF.
    destruct (Z_lt_le_dec U128_MAX (amp * 1000000000000000000)) as [K1|K1]; [rewrite chk_bad; [reflexivity|apply out_u; exact K1]|].
    rewrite chk_u, rb_ok by lia. replace (amp * 1000000000000000000 * 2) with lev by lia.
    destruct (Z_lt_le_dec U128_MAX lev) as [K2|K2]; [rewrite chk_bad; [reflexivity|apply out_u; exact K2]|].
    rewrite chk_u, rb_ok by lia. rewrite rb_ok.
    destruct (Z_lt_le_dec U256_MAX (D ^ 3)) as [K3|K3]; [rewrite chk_bad; [reflexivity|apply out_w; exact K3]|].
    rewrite chk_w, rb_ok by lia.
    destruct (Z_lt_le_dec U256_MAX (D ^ 3 * 100000000000000000000)) as [K4|K4]; [rewrite (chk_bad _ (D ^ 3 * 100000000000000000000)); [reflexivity|apply out_w; exact K4]|].
    rewrite chk_w, rb_ok by lia.
    destruct (Z_lt_le_dec U256_MAX (new * 4)) as [K5|K5]; [rewrite (chk_bad _ (new * 4)); [reflexivity|apply out_w; exact K5]|].
    rewrite chk_w, rb_ok by lia.
    destruct (Z_lt_le_dec U256_MAX (new * 4 * lev)) as [K6|K6]; [rewrite (chk_bad _ (new * 4 * lev)); [reflexivity|apply out_w; exact K6]|].
    rewrite chk_w, rb_ok by lia.
    destruct (Z.eq_dec new 0) as [->|N0].
    { unfold div_w at 1. replace (0 * 4 * lev) with 0 by ring. reflexivity. }
    destruct (Runs K2 K4 ltac:(lia) K6) as [y [Y2 [Y1 Y3]]].
    rewrite div_w_nz, rb_ok by lia. rewrite chk_w, rb_ok by lia. rewrite div_w_nz, rb_ok by lia.
    rewrite chk_w, rb_ok by (unfold U256_MAX in *; lia). rewrite Y1, rb_ok.
    destruct (Z_le_gt_dec target 18) as [K7|K7].
    { exfalso. apply NF. split; [exact K2|]. split; [exact K4|]. split; [lia|]. split; [exact K6|exact K7]. }
    unfold pow10_u. destruct (Z.ltb_spec (18 - target) 0); [reflexivity|lia].
Qed.
