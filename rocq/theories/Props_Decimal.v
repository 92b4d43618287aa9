(** Properties of the decimal package: powers, inverses and conversions (C110-C114). *)
From Coq Require Import ZArith List Bool Lia.
From Coq Require Import ZifyBool.
From Verif Require Import Base Decimal Decimal256 DecimalProofs Props_Lib.
Import ListNotations.
Open Scope Z_scope.

Lemma DEC_pow : DEC = 10 ^ 18. Proof. reflexivity. Qed.
Lemma DEC_pos : 0 < DEC. Proof. reflexivity. Qed.

(** ** Powers by squaring *)
(** [v] approximates [b]^[m] (as decimals) from below; for [b] <= 1 it is short by at most
    [m - 1] units of the last place *)
Record Ap (b v m : Z) : Prop := {
  ap_m : 0 <= m; ap_pos : 0 <= v; ap_zero : m = 0 -> v = DEC;
  ap_up : v * DEC ^ m <= b ^ m * DEC;
  ap_low : b <= DEC -> b ^ m * DEC <= (v + Z.max 0 (m - 1)) * DEC ^ m;
  ap_exact : forall k, b = k * DEC -> v = k ^ m * DEC }.

Lemma ap_base b : 0 <= b -> Ap b b 1.
Proof.
  intros P. constructor; [lia|lia|lia| | |].
  - rewrite !Z.pow_1_r. lia.
  - rewrite !Z.pow_1_r. lia.
  - intros k ->. rewrite Z.pow_1_r. reflexivity.
Qed.
Lemma ap_one b : Ap b DEC 0.
Proof.
  constructor; [lia|unfold DEC; lia|auto| | |].
  - rewrite !Z.pow_0_r. lia.
  - rewrite !Z.pow_0_r. unfold DEC. lia.
  - intros. rewrite Z.pow_0_r. lia.
Qed.

Lemma ap_bound b v m : 0 <= b -> Ap b v m -> b <= DEC -> b ^ m <= DEC ^ m /\ v <= DEC.
Proof.
  intros B A L. assert (Q : b ^ m <= DEC ^ m) by (apply Z.pow_le_mono_l; lia). split; [exact Q|].
  pose proof (ap_up _ _ _ A) as U. pose proof (Z.pow_pos_nonneg DEC m DEC_pos (ap_m _ _ _ A)) as D.
  pose proof DEC_pos. nia.
Qed.

Lemma ap_mul b v1 v2 a c v : 0 <= b -> Ap b v1 a -> 1 <= a -> Ap b v2 c -> v = v1 * v2 / DEC -> Ap b v (a + c).
Proof.
  intros B A1 La A2 ->. pose proof DEC_pos as DP.
  pose proof (ap_m _ _ _ A2) as Lc. pose proof (ap_pos _ _ _ A1) as P1. pose proof (ap_pos _ _ _ A2) as P2.
  pose proof (div_floor (v1 * v2) DEC DP) as [F1 F2]. assert (F0 : 0 <= v1 * v2 / DEC) by (apply Z.div_pos; nia).
  remember (v1 * v2 / DEC) as v eqn:Ev.
  pose proof (Z.pow_pos_nonneg DEC a DP ltac:(lia)) as Dp1. pose proof (Z.pow_pos_nonneg DEC c DP Lc) as Dp2.
  pose proof (Z.pow_nonneg b a B) as Bp1. pose proof (Z.pow_nonneg b c B) as Bp2.
  constructor; [lia|exact F0|lia| | |]; rewrite ?Z.pow_add_r by lia.
  - (* upper *)
    pose proof (ap_up _ _ _ A1) as U1. pose proof (ap_up _ _ _ A2) as U2.
    set (P := DEC ^ a) in *. set (Q := DEC ^ c) in *. set (X := b ^ a) in *. set (Y := b ^ c) in *.
    assert (S1 : DEC * v * (P * Q) <= v1 * v2 * (P * Q)) by (apply Z.mul_le_mono_nonneg_r; nia).
    assert (S2 : v1 * P * (v2 * Q) <= X * DEC * (Y * DEC)) by (apply Z.mul_le_mono_nonneg; nia).
    assert (S3 : DEC * (v * (P * Q)) <= DEC * (X * Y * DEC)) by lia.
    apply Z.mul_le_mono_pos_l in S3; [exact S3|exact DP].
  - (* lower *)
    intros L. destruct (Z.eq_dec c 0) as [->|Nc].
    { rewrite (ap_zero _ _ _ A2 eq_refl) in Ev. rewrite Z.div_mul in Ev by lia. subst v1.
      rewrite Z.add_0_r, !Z.pow_0_r, !Z.mul_1_r. apply (ap_low _ _ _ A1 L). }
    pose proof (ap_low _ _ _ A1 L) as L1. pose proof (ap_low _ _ _ A2 L) as L2.
    destruct (ap_bound _ _ _ B A1 L) as [Q1 _]. destruct (ap_bound _ _ _ B A2 L) as [_ Q2].
    replace (Z.max 0 (a - 1)) with (a - 1) in L1 by lia. replace (Z.max 0 (c - 1)) with (c - 1) in L2 by lia.
    replace (Z.max 0 (a + c - 1)) with (a + c - 1) by lia.
    set (P := DEC ^ a) in *. set (Q := DEC ^ c) in *. set (X := b ^ a) in *. set (Y := b ^ c) in *.
    assert (T1 : X * DEC * (Y * DEC) <= X * DEC * ((v2 + (c - 1)) * Q)) by (apply Z.mul_le_mono_nonneg_l; nia).
    assert (T2 : X * DEC * (v2 * Q) <= (v1 + (a - 1)) * P * (v2 * Q)) by (apply Z.mul_le_mono_nonneg_r; nia).
    assert (T3 : X * DEC * ((c - 1) * Q) <= P * DEC * ((c - 1) * Q)) by (apply Z.mul_le_mono_nonneg_r; nia).
    assert (T4 : (a - 1) * v2 * (P * Q) <= (a - 1) * DEC * (P * Q)) by (apply Z.mul_le_mono_nonneg_r; nia).
    assert (T5 : v1 * v2 * (P * Q) <= DEC * (v + 1) * (P * Q)) by (apply Z.mul_le_mono_nonneg_r; nia).
    assert (T6 : DEC * (X * Y * DEC) <= DEC * ((v + (a + c - 1)) * (P * Q))) by nia.
    apply Z.mul_le_mono_pos_l in T6; [exact T6|exact DP].
  - intros k Ek. rewrite (ap_exact _ _ _ A1 k Ek), (ap_exact _ _ _ A2 k Ek) in Ev.
    subst v. replace (k ^ a * DEC * (k ^ c * DEC)) with (k ^ a * k ^ c * DEC * DEC) by ring.
    rewrite Z.div_mul by lia. rewrite Z.pow_add_r by lia. reflexivity.
Qed.

(** both pow functions, over the respective multiplication *)
Fixpoint sq_loop (mul : Z -> Z -> res Z) (fuel : nat) (x y n : Z) : res Z :=
  match fuel with
  | O => mul x y
  | S f =>
      if 1 <? n then
        if n mod 2 =? 0 then let? x2 := mul x x in sq_loop mul f x2 y (n / 2)
        else let? y2 := mul x y in let? x2 := mul x x in sq_loop mul f x2 y2 ((n - 1) / 2)
      else mul x y
  end.
Lemma dec_loop_eq f : forall x y n, dec_pow_loop f x y n = sq_loop dec_mul f x y n.
Proof.
  induction f as [|f IH]; intros x y n; [reflexivity|]. simpl. destruct (1 <? n); [|reflexivity].
  destruct (n mod 2 =? 0).
  - destruct (dec_mul x x); [apply IH|reflexivity].
  - destruct (dec_mul x y); [|reflexivity]. destruct (dec_mul x x); [apply IH|reflexivity].
Qed.
Lemma d256_loop_eq f : forall x y n, d256_pow_loop f x y n = sq_loop d256_mul f x y n.
Proof.
  induction f as [|f IH]; intros x y n; [reflexivity|]. simpl. destruct (1 <? n); [|reflexivity].
  destruct (n mod 2 =? 0).
  - destruct (d256_mul x x); [apply IH|reflexivity].
  - destruct (d256_mul x y); [|reflexivity]. destruct (d256_mul x x); [apply IH|reflexivity].
Qed.
Lemma loop_ap mul b : 0 <= b -> (forall x y v, 0 <= x -> 0 <= y -> mul x y = Ok v -> v = x * y / DEC) ->
  forall f x y n r k m, sq_loop mul f x y n = Ok r -> 1 <= n < 2 ^ (Z.of_nat f + 1) -> 1 <= k ->
  Ap b x k -> Ap b y m -> Ap b r (k * n + m).
Proof.
  intros B M. induction f as [|f IH]; intros x y n r k m E Rn Lk Ax Ay; simpl in E.
  - replace (k * n + m) with (k + m) by (change (2 ^ (Z.of_nat 0 + 1)) with 2 in Rn; replace n with 1 by lia; lia).
    eapply ap_mul; eauto. apply M; auto; [apply Ax|apply Ay].
  - rewrite Nat2Z.inj_succ in Rn. replace (Z.succ (Z.of_nat f) + 1) with (Z.of_nat f + 1 + 1) in Rn by lia.
    rewrite Z.pow_add_r in Rn by lia. change (2 ^ 1) with 2 in Rn.
    destruct (Z.ltb_spec 1 n) as [L|L].
    2:{ replace (k * n + m) with (k + m) by (replace n with 1 by lia; lia).
        eapply ap_mul; eauto. apply M; auto; [apply Ax|apply Ay]. }
    pose proof (Z.div_mod n 2 ltac:(lia)) as DM. pose proof (Z.mod_pos_bound n 2 ltac:(lia)) as MB.
    destruct (Z.eqb_spec (n mod 2) 0) as [Ev|Od].
    + rstep E. match goal with K : mul x x = Ok ?z |- _ => rename K into E1; rename z into x2 end.
      assert (A2 : Ap b x2 (k + k)) by (eapply ap_mul; eauto; apply M; auto; apply Ax).
      replace (k * n + m) with ((k + k) * (n / 2) + m) by nia.
      eapply IH; eauto; lia.
    + rstep E. match goal with K : mul x x = Ok ?z, K2 : mul x y = Ok ?z2 |- _ => rename K into E1; rename z into x2; rename K2 into E2; rename z2 into y2 end.
      assert (A2 : Ap b x2 (k + k)) by (eapply ap_mul; eauto; apply M; auto; apply Ax).
      assert (A3 : Ap b y2 (k + m)) by (eapply ap_mul; eauto; apply M; auto; [apply Ax|apply Ay]).
      assert (E3 : (n - 1) / 2 = n / 2) by (symmetry; apply Z.div_unique with 0; lia).
      rewrite E3 in *.
      replace (k * n + m) with ((k + k) * (n / 2) + (k + m)) by nia.
      eapply IH; eauto; lia.
Qed.

(** ** C110 *)
Theorem C110_pow b n r : 0 <= b -> 0 <= n < 2 ^ 32 -> dec_pow b n = Ok r ->
  0 <= r /\ r * DEC ^ n <= b ^ n * DEC /\
  (b <= DEC -> b ^ n * DEC <= (r + Z.max 0 (n - 1)) * DEC ^ n) /\
  (forall k, b = k * DEC -> r = k ^ n * DEC).
Proof.
  intros B N E. unfold dec_pow in E. assert (A : Ap b r n).
  { destruct (Z.eqb_spec n 0) as [->|Nz]; [inversion E; subst; apply ap_one|].
    rewrite dec_loop_eq in E. replace n with (1 * n + 0) by lia.
    eapply (loop_ap dec_mul b B); [|exact E| |lia|apply ap_base; auto|apply ap_one].
    - intros x y v Px Py Q. apply dec_mul_ok in Q. destruct Q as [_ ->]. apply quot_nonneg_div; [nia|reflexivity].
    - split; [lia|]. eapply Z.lt_trans; [apply N|]. reflexivity. }
  split; [apply A|]. split; [apply A|]. split; [apply A|apply A].
Qed.
Print Assumptions C110_pow.

Theorem C110_pow_256 b n r : 0 <= b -> 0 <= n < 2 ^ 32 -> d256_pow b n = Ok r ->
  0 <= r /\ r * DEC ^ n <= b ^ n * DEC /\
  (b <= DEC -> b ^ n * DEC <= (r + Z.max 0 (n - 1)) * DEC ^ n) /\
  (forall k, b = k * DEC -> r = k ^ n * DEC).
Proof.
  intros B N E. unfold d256_pow in E. assert (A : Ap b r n).
  { destruct (Z.eqb_spec n 0) as [->|Nz]; [inversion E; subst; apply ap_one|].
    rewrite d256_loop_eq in E. replace n with (1 * n + 0) by lia.
    eapply (loop_ap d256_mul b B); [|exact E| |lia|apply ap_base; auto|apply ap_one].
    - intros x y v Px Py Q. unfold d256_mul in Q. rstep Q. reflexivity.
    - split; [lia|]. eapply Z.lt_trans; [apply N|]. reflexivity. }
  split; [apply A|]. split; [apply A|]. split; [apply A|apply A].
Qed.
Print Assumptions C110_pow_256.

(** powers of numbers between 0 and 1 never fail, up to the largest exponent *)
Lemma sq_loop_total mul : (forall x y, 0 <= x <= DEC -> 0 <= y <= DEC -> exists v, mul x y = Ok v /\ 0 <= v <= DEC) ->
  forall f x y n, 0 <= x <= DEC -> 0 <= y <= DEC -> exists v, sq_loop mul f x y n = Ok v /\ 0 <= v <= DEC.
Proof.
  intros M. induction f as [|f IH]; intros x y n X Y; cbn [sq_loop]; [auto|].
  destruct (1 <? n); [|auto]. destruct (n mod 2 =? 0).
  - destruct (M x x X X) as [v [E B]]. rewrite E. apply IH; auto.
  - destruct (M x y X Y) as [u [E1 B1]]. destruct (M x x X X) as [v [E B]]. rewrite E1, E. apply IH; auto.
Qed.
Lemma unit_mul x y : 0 <= x <= DEC -> 0 <= y <= DEC -> 0 <= x * y <= DEC * DEC /\ 0 <= x * y / DEC <= DEC.
Proof.
  intros X Y. assert (P : 0 <= x * y <= DEC * DEC) by nia. split; [exact P|]. split.
  - apply Z.div_pos; [lia|reflexivity].
  - apply Z.div_le_upper_bound; [reflexivity|lia].
Qed.
Theorem C110_pow_total b n : 0 <= b <= DEC -> 0 <= n < 2 ^ 32 ->
  (exists r, dec_pow b n = Ok r /\ 0 <= r <= DEC) /\ (exists r, d256_pow b n = Ok r /\ 0 <= r <= DEC).
Proof.
  intros B N. assert (O1 : 0 <= DEC <= DEC) by (unfold DEC; lia). split.
  - unfold dec_pow. destruct (n =? 0); [exists DEC; split; [reflexivity|exact O1]|]. rewrite dec_loop_eq.
    apply sq_loop_total; auto. intros x y X Y. destruct (unit_mul x y X Y) as [P Q]. exists (x * y / DEC). split; [|exact Q].
    unfold dec_mul. rewrite mul_i_intro by (split; [unfold I128_MIN; lia|eapply Z.le_trans; [apply P|vm_compute; discriminate]]).
    unfold rbind, div_i. change (DEC =? 0) with false. cbv iota. rewrite quot_nonneg_div by (try reflexivity; lia).
    unfold chk. replace (in_i128 (x * y / DEC)) with true; [reflexivity|]. symmetry. apply in_i128_iff.
    split; [unfold I128_MIN; lia|eapply Z.le_trans; [apply Q|vm_compute; discriminate]].
  - unfold d256_pow. destruct (n =? 0); [exists DEC; split; [reflexivity|exact O1]|]. rewrite d256_loop_eq.
    apply sq_loop_total; auto. intros x y X Y. destruct (unit_mul x y X Y) as [P Q]. exists (x * y / DEC). split; [|exact Q].
    unfold d256_mul, mul_w, chk. replace (in_u256 (x * y)) with true; [reflexivity|]. symmetry. apply in_u256_iff.
    split; [lia|eapply Z.le_trans; [apply P|vm_compute; discriminate]].
Qed.
Print Assumptions C110_pow_total.

(** 0.9^7 = 0.4782969 exactly; 0.333...^5 cut to 18 places; 2^100; an exponent of 2^32 - 1 *)
Example C110_instance :
  dec_pow (dec_percent 90) 7 = Ok 478296900000000000 /\
  dec_pow 333333333333333333 5 = Ok 4115226337448559 /\
  d256_pow (2 * DEC) 100 = Ok (2 ^ 100 * DEC) /\ dec_pow (dec_percent 99) 4294967295 = Ok 0.
Proof. repeat split; vm_compute; reflexivity. Qed.

(** ** C111 *)
Theorem C111_inv v : in_i128 v = true ->
  match dec_inv v with
  | None => v = 0
  | Some r => trunc_of (DEC * DEC) v r /\ in_i128 r = true
  end.
Proof.
  intros R. unfold dec_inv. destruct (Z.eqb_spec v 0) as [E|E]; [exact E|].
  split; [apply quot_trunc; auto|]. apply quot_in_i128; auto.
  - split; vm_compute; discriminate.
  - intros [C _]. discriminate C.
Qed.
Print Assumptions C111_inv.
Theorem C111_inv_256 v : 0 <= v ->
  match d256_inv v with
  | None => v = 0
  | Some r => 0 <= r /\ r * v <= DEC * DEC < (r + 1) * v
  end.
Proof.
  intros R. unfold d256_inv. destruct (Z.eqb_spec v 0) as [E|E]; [exact E|].
  pose proof (div_floor DEC_SQ v ltac:(lia)) as F. change (DEC * DEC) with DEC_SQ.
  split; [apply Z.div_pos; [vm_compute; discriminate|lia]|]. nia.
Qed.
Print Assumptions C111_inv_256.
Theorem C111_zero_only : dec_inv 0 = None /\ d256_inv 0 = None /\
  forall v, v <> 0 -> dec_inv v <> None /\ d256_inv v <> None.
Proof.
  split; [reflexivity|]. split; [reflexivity|]. intros v N. unfold dec_inv, d256_inv.
  destruct (Z.eqb_spec v 0); [contradiction|]. split; discriminate.
Qed.
Print Assumptions C111_zero_only.
Example C111_instance : dec_inv (3 * DEC) = Some 333333333333333333 /\ dec_inv (- dec_percent 40) = Some (- dec_percent 250) /\
  d256_inv (dec_percent 40) = Some (dec_percent 250).
Proof. repeat split; vm_compute; reflexivity. Qed.

(** ** C112 *)
Lemma trunc_scale p q r k : 0 < k -> trunc_of p q r -> trunc_of (p * k) (q * k) r.
Proof.
  intros K [Q [B S]]. split; [nia|]. rewrite !Z.abs_mul, (Z.abs_eq k) by lia. split; [nia|].
  intros N. specialize (S N). rewrite S. replace (p * k * (q * k)) with (p * q * (k * k)) by ring.
  assert (0 < k * k) by nia. nia.
Qed.
Lemma trunc_exact p q r : q <> 0 -> p = r * q -> trunc_of p q r.
Proof.
  intros Q ->. split; [exact Q|]. rewrite Z.abs_mul. split; [nia|]. intros N.
  replace (r * q * q) with (r * (q * q)) by ring. assert (0 < q * q) by nia. nia.
Qed.

(** [from_atomics a p] is a / 10^p, cut to 18 places *)
Theorem C112_from_atomics a p r : dec_from_atomics a p = Ok r ->
  (0 <= p -> trunc_of (a * DEC) (10 ^ p) r) /\ (p <= 0 -> r = a * 10 ^ (- p) * DEC).
Proof.
  unfold dec_from_atomics. intros E. destruct (Z.ltb_spec p 18) as [L|L].
  - rstep E. unfold pow10_i in *. match goal with K : chk in_i128 (10 ^ _) = Ok _ |- _ => apply chk_ok in K; destruct K as [K _]; subst end.
    split; intros P.
    + apply trunc_exact; [apply Z.pow_nonzero; lia|]. rewrite <- Z.mul_assoc, <- Z.pow_add_r by lia.
      replace (18 - p + p) with 18 by lia. reflexivity.
    + rewrite <- Z.mul_assoc, DEC_pow, <- Z.pow_add_r by lia. do 2 f_equal. lia.
  - split; [|lia]. intros _. destruct (Z.eqb_spec p 18) as [->|N].
    + inversion E; subst. apply trunc_exact; [discriminate|]. reflexivity.
    + rstep E. unfold pow10_i in *. match goal with K : chk in_i128 (10 ^ _) = Ok _ |- _ => apply chk_ok in K; destruct K as [K _]; subst end.
      replace (10 ^ p) with (10 ^ (p - 18) * DEC) by (rewrite DEC_pow, <- Z.pow_add_r by lia; f_equal; lia).
      apply trunc_scale; [reflexivity|]. apply quot_trunc. apply Z.pow_nonzero; lia.
Qed.
Print Assumptions C112_from_atomics.

Lemma pow10_range n : 0 <= n <= 38 -> in_i128 (10 ^ n) = true.
Proof.
  intros B. apply in_i128_iff. split; [pose proof (Z.pow_nonneg 10 n ltac:(lia)); unfold I128_MIN; lia|].
  eapply Z.le_trans; [apply Z.pow_le_mono_r with (c := 38); lia|vm_compute; discriminate].
Qed.
Lemma pow10_over n : 38 < n -> in_i128 (10 ^ n) = false.
Proof.
  intros B. destruct (in_i128 (10 ^ n)) eqn:E; [|reflexivity]. apply in_i128_iff in E. destruct E as [_ E].
  assert (10 ^ 39 <= 10 ^ n) by (apply Z.pow_le_mono_r; lia).
  assert (I128_MAX < 10 ^ 39) by reflexivity. lia.
Qed.
(** [to_i128_with_precision v p] is v * 10^p, cut to an integer, and is defined for 0 <= p <= 18
    (and down to -20) *)
Theorem C112_to_i128 v p r : dec_to_i128 v p = Ok r -> p <= 18 /\
  (0 <= p -> trunc_of (v * 10 ^ p) DEC r) /\ (p <= 0 -> trunc_of v (DEC * 10 ^ (- p)) r).
Proof.
  unfold dec_to_i128. intros E. destruct (Z.ltb_spec 18 p) as [L|L]; [discriminate E|]. split; [exact L|].
  rstep E. unfold pow10_i in *. match goal with K : chk in_i128 (10 ^ _) = Ok _ |- _ => apply chk_ok in K; destruct K as [K _]; subst end.
  assert (T : trunc_of v (10 ^ (18 - p)) (Z.quot v (10 ^ (18 - p)))) by (apply quot_trunc; apply Z.pow_nonzero; lia).
  split; intros P.
  - replace DEC with (10 ^ (18 - p) * 10 ^ p) by (rewrite DEC_pow, <- Z.pow_add_r by lia; f_equal; lia).
    apply trunc_scale; [apply Z.pow_pos_nonneg; lia|exact T].
  - replace (DEC * 10 ^ (- p)) with (10 ^ (18 - p)) by (rewrite DEC_pow, <- Z.pow_add_r by lia; f_equal; lia). exact T.
Qed.
Print Assumptions C112_to_i128.
Theorem C112_to_i128_total v p : in_i128 v = true ->
  (exists r, dec_to_i128 v p = Ok r) <-> -20 <= p <= 18.
Proof.
  intros R. unfold dec_to_i128. destruct (Z.ltb_spec 18 p) as [L|L].
  { split; [intros [r E]; discriminate E|lia]. }
  unfold pow10_i, chk at 1. destruct (Z_le_dec (-20) p) as [L2|L2].
  - rewrite pow10_range by lia. split; [lia|intros _]. unfold rbind, div_i.
    assert (N : 10 ^ (18 - p) <> 0) by (apply Z.pow_nonzero; lia).
    destruct (Z.eqb_spec (10 ^ (18 - p)) 0); [contradiction|]. unfold chk.
    rewrite quot_in_i128; [eauto|exact N|apply in_i128_iff; exact R|].
    pose proof (Z.pow_nonneg 10 (18 - p) ltac:(lia)). lia.
  - rewrite pow10_over by lia. split; [intros [r E]; discriminate E|lia].
Qed.
Print Assumptions C112_to_i128_total.
(** an integer amount of [p] places survives the conversion to a decimal and back *)
Theorem C112_roundtrip a p v : in_i128 a = true -> 0 <= p <= 18 -> dec_from_atomics a p = Ok v -> dec_to_i128 v p = Ok a.
Proof.
  intros R P E. destruct (C112_from_atomics _ _ _ E) as [F _]. specialize (F ltac:(lia)).
  assert (V : v = a * 10 ^ (18 - p)).
  { apply (trunc_unique (a * DEC) (10 ^ p)); [exact F|]. apply trunc_exact; [apply Z.pow_nonzero; lia|].
    rewrite <- Z.mul_assoc, <- Z.pow_add_r by lia. rewrite DEC_pow. do 2 f_equal. lia. }
  assert (Rv : in_i128 v = true).
  { revert E. unfold dec_from_atomics. destruct (Z.ltb_spec p 18).
    - intros E. destruct (pow10_i (18 - p)) as [f|] eqn:K; [|discriminate E]. unfold rbind in E. apply chk_ok in E. destruct E as [-> Q]. exact Q.
    - destruct (Z.eqb_spec p 18); [|lia]. intros E. inversion E; subst. congruence. }
  destruct (proj2 (C112_to_i128_total v p Rv) ltac:(lia)) as [r Q]. rewrite Q. f_equal.
  destruct (C112_to_i128 _ _ _ Q) as [_ [T _]]. specialize (T ltac:(lia)).
  apply (trunc_unique (v * 10 ^ p) DEC); [exact T|]. apply trunc_exact; [discriminate|].
  subst v. rewrite <- Z.mul_assoc, <- Z.pow_add_r by lia. rewrite DEC_pow. do 2 f_equal. lia.
Qed.
Print Assumptions C112_roundtrip.
(** percent, permille and basis points are the ratios to 100, 1000 and 10000 *)
Theorem C112_percent x : - 2 ^ 63 <= x < 2 ^ 63 ->
  dec_from_ratio x 100 = Ok (dec_percent x) /\ dec_from_ratio x 1000 = Ok (dec_permille x) /\
  dec_from_ratio x 10000 = Ok (dec_bps x).
Proof.
  intros B. change (2 ^ 63) with 9223372036854775808 in B.
  assert (G : forall d k, 0 < d -> d * k = DEC -> 0 < k -> dec_from_ratio x d = Ok (x * k)).
  { intros d k D K Kp. assert (N : d <> 0) by lia. assert (Rx : I128_MIN <= x * DEC <= I128_MAX) by (unfold DEC, I128_MIN, I128_MAX; lia).
    unfold dec_from_ratio. destruct (Z.eqb_spec d 0); [contradiction|].
    rewrite mul_i_intro by exact Rx. unfold rbind, div_i. destruct (Z.eqb_spec d 0); [contradiction|].
    unfold chk. rewrite quot_in_i128; auto; [|lia]. rewrite <- K. replace (x * (d * k)) with (x * k * d) by ring.
    rewrite Z.quot_mul by auto. reflexivity. }
  split; [|split]; apply G; reflexivity.
Qed.
Print Assumptions C112_percent.
Example C112_instance :
  dec_from_atomics 123456 7 = Ok 12345600000000000 /\ dec_from_atomics (-1999) 21 = Ok (-1) /\
  dec_to_i128 12345600000000000 7 = Ok 123456 /\ dec_to_i128 (dec_bps 12999) 1 = Ok 12 /\
  dec_from_atomics 5 (-2) = Ok (500 * DEC) /\ dec_from_ratio (-7) 10000 = Ok (dec_bps (-7)).
Proof. repeat split; vm_compute; reflexivity. Qed.

(** ** C113: refuted; the distance of two decimals may come out negative *)
Theorem C113_abs_diff_refuted : exists a b, in_i128 a = true /\ in_i128 b = true /\ dec_abs_diff a b = -1.
Proof. exists I128_MAX, I128_MIN. repeat split; vm_compute; reflexivity. Qed.
Print Assumptions C113_abs_diff_refuted.
(** what holds: it is the distance whenever that fits in an i128, and otherwise it is negative *)
Theorem C113_abs_diff a b : in_i128 a = true -> in_i128 b = true ->
  (Z.abs (a - b) <= I128_MAX -> dec_abs_diff a b = Z.abs (a - b)) /\
  (I128_MAX < Z.abs (a - b) -> dec_abs_diff a b < 0) /\ dec_abs_diff a b = dec_abs_diff b a.
Proof.
  intros A B. apply in_i128_iff in A, B. unfold dec_abs_diff, wrap_i128. unfold I128_MIN, I128_MAX, U128_MAX in *.
  replace (Z.abs (b - a)) with (Z.abs (a - b)) by lia.
  destruct (Z.leb_spec (Z.abs (a - b)) 170141183460469231731687303715884105727); repeat split; lia.
Qed.
Print Assumptions C113_abs_diff.
Theorem C113_abs v : in_i128 v = true ->
  match dec_abs v with Ok r => r = Z.abs v /\ v <> I128_MIN | Err _ => v = I128_MIN end.
Proof.
  intros R. apply in_i128_iff in R. unfold dec_abs. destruct (Z.ltb_spec v 0) as [L|L].
  - unfold chk. destruct (in_i128 (- v)) eqn:E.
    + apply in_i128_iff in E. unfold I128_MIN, I128_MAX in *. lia.
    + destruct (Z.eq_dec v I128_MIN) as [Q|Q]; [exact Q|].
      assert (in_i128 (- v) = true) by (apply in_i128_iff; unfold I128_MIN, I128_MAX in *; lia). congruence.
  - unfold I128_MIN in *. lia.
Qed.
Print Assumptions C113_abs.
Example C113_instance : dec_abs_diff (dec_percent (-3)) (dec_percent 4) = dec_percent 7 /\
  dec_abs (dec_percent (-3)) = Ok (dec_percent 3) /\ dec_abs I128_MIN = Err EArith.
Proof. repeat split; vm_compute; reflexivity. Qed.

(** ** C114 *)
(** results are the exact values rounded down *)
Theorem C114_mul a b r : d256_mul a b = Ok r -> r * DEC <= a * b < (r + 1) * DEC.
Proof. unfold d256_mul. intros E. rstep E. pose proof (div_floor (a * b) DEC DEC_pos). lia. Qed.
Print Assumptions C114_mul.
Theorem C114_div a b r : 0 <= b -> d256_div a b = Ok r -> 0 < b /\ r * b <= a * DEC < (r + 1) * b.
Proof.
  unfold d256_div, d256_from_ratio. destruct (Z.eqb_spec b 0) as [C|C]; [discriminate|]. intros P E. rstep E.
  pose proof (div_floor (a * DEC) b ltac:(lia)). split; nia.
Qed.
Print Assumptions C114_div.
Theorem C114_from_ratio n d r : 0 <= d -> d256_from_ratio n d = Ok r -> 0 < d /\ r * d <= n * DEC < (r + 1) * d.
Proof. intros D E. exact (C114_div n d r D E). Qed.
Print Assumptions C114_from_ratio.
(** failure only for a zero divisor or when the scaled product leaves 256 bits *)
Theorem C114_total a b : 0 <= a -> 0 <= b ->
  ((exists r, d256_mul a b = Ok r) <-> a * b <= U256_MAX) /\
  ((exists r, d256_div a b = Ok r) <-> b <> 0 /\ a * DEC <= U256_MAX).
Proof.
  intros A B. unfold d256_mul, d256_div, d256_from_ratio. split.
  - unfold mul_w, chk. destruct (in_u256 (a * b)) eqn:E.
    + apply in_u256_iff in E. split; [lia|]. intros _. exists (a * b / DEC). reflexivity.
    + split; [intros [r C]; discriminate C|]. intros L.
      assert (in_u256 (a * b) = true) by (apply in_u256_iff; nia). congruence.
  - destruct (Z.eqb_spec b 0) as [Z0|Z0]; [split; [intros [r C]; discriminate C|tauto]|].
    unfold mul_w, chk. destruct (in_u256 (a * DEC)) eqn:E.
    + apply in_u256_iff in E. split; [intros _; split; [exact Z0|lia]|]. intros _. exists (a * DEC / b).
      unfold rbind, div_w. destruct (Z.eqb_spec b 0); [contradiction|reflexivity].
    + split; [intros [r C]; discriminate C|]. intros [_ L].
      assert (in_u256 (a * DEC) = true) by (apply in_u256_iff; pose proof DEC_pos; nia). congruence.
Qed.
Print Assumptions C114_total.
(** on non-negative numbers, where Decimal gives an answer Decimal256 gives the same *)
Theorem C114_agrees a b r : 0 <= a -> 0 <= b ->
  (dec_mul a b = Ok r -> d256_mul a b = Ok r) /\ (dec_div a b = Ok r -> d256_div a b = Ok r) /\
  (dec_add a b = Ok r -> d256_add a b = Ok r) /\ (dec_sub a b = Ok r -> b <= a -> d256_sub a b = Ok r) /\
  (dec_inv a = Some r -> d256_inv a = Some r).
Proof.
  intros A B. assert (IU : I128_MAX <= U256_MAX) by (vm_compute; discriminate).
  split; [|split; [|split; [|split]]].
  - intros E. apply dec_mul_ok in E. destruct E as [R ->]. unfold d256_mul, mul_w, chk.
    rewrite (proj2 (in_u256_iff (a * b))) by nia. unfold rbind, div_w. cbn [Z.eqb DEC]. rewrite quot_nonneg_div by (try reflexivity; nia). reflexivity.
  - intros E. apply dec_from_ratio_ok in E. destruct E as [N [R ->]]. unfold d256_div, d256_from_ratio.
    destruct (Z.eqb_spec b 0); [contradiction|]. pose proof DEC_pos.
    unfold mul_w, chk. rewrite (proj2 (in_u256_iff (a * DEC))) by nia. unfold rbind, div_w.
    destruct (Z.eqb_spec b 0); [contradiction|]. rewrite quot_nonneg_div by nia. reflexivity.
  - unfold dec_add. intros E. apply add_i_ok in E. destruct E as [-> R]. unfold d256_add, add_w, chk.
    rewrite (proj2 (in_u256_iff (a + b))) by lia. reflexivity.
  - unfold dec_sub. intros E L. apply sub_i_ok in E. destruct E as [-> R]. unfold d256_sub, sub_w, chk.
    rewrite (proj2 (in_u256_iff (a - b))) by lia. reflexivity.
  - unfold dec_inv, d256_inv. destruct (Z.eqb_spec a 0); [discriminate|]. intros E. inversion E; subst.
    rewrite quot_nonneg_div by (try lia; vm_compute; discriminate). reflexivity.
Qed.
Print Assumptions C114_agrees.
(** addition and subtraction are exact or fail *)
Theorem C114_add_sub a b r :
  (d256_add a b = Ok r -> r = a + b /\ r <= U256_MAX) /\ (d256_sub a b = Ok r -> r = a - b /\ 0 <= r).
Proof. unfold d256_add, d256_sub. split; intros E; rstep E; lia. Qed.
Print Assumptions C114_add_sub.
(** conversions from and to integers of [p] places *)
Theorem C114_from_atomics a p r : 0 <= a -> 0 <= p -> d256_from_atomics a p = Ok r ->
  r * 10 ^ p <= a * DEC < (r + 1) * 10 ^ p.
Proof.
  unfold d256_from_atomics. intros A P E. destruct (Z.ltb_spec p 18) as [L|L].
  - rstep E. unfold pow10_w in *. match goal with K : chk in_u256 (10 ^ _) = Ok _ |- _ => apply chk_ok in K; destruct K as [K _]; subst end.
    replace DEC with (10 ^ (18 - p) * 10 ^ p) by (rewrite DEC_pow, <- Z.pow_add_r by lia; f_equal; lia).
    pose proof (Z.pow_pos_nonneg 10 p). nia.
  - destruct (Z.eqb_spec p 18) as [->|N]; [inversion E; subst; change (10 ^ 18) with DEC; pose proof DEC_pos; nia|].
    rstep E. unfold pow10_w in *. match goal with K : chk in_u256 (10 ^ _) = Ok _ |- _ => apply chk_ok in K; destruct K as [K _]; subst end.
    replace (10 ^ p) with (10 ^ (p - 18) * DEC) by (rewrite DEC_pow, <- Z.pow_add_r by lia; f_equal; lia).
    pose proof (Z.pow_pos_nonneg 10 (p - 18) ltac:(lia) ltac:(lia)) as Q. pose proof (div_floor a _ Q) as F. pose proof DEC_pos.
    set (k := 10 ^ (p - 18)) in *. split; nia.
Qed.
Print Assumptions C114_from_atomics.
Theorem C114_to_u128 v p r : 0 <= v -> 0 <= p -> d256_to_u128 v p = Ok r ->
  p <= 18 /\ v <= U128_MAX /\ r * DEC <= v * 10 ^ p < (r + 1) * DEC.
Proof.
  unfold d256_to_u128, d256_atomics. intros V P E. destruct (Z.leb_spec v U128_MAX) as [L|L]; [|discriminate E].
  unfold of_option in E. cbv beta iota delta [rbind] in E. destruct (Z.ltb_spec 18 p) as [L2|L2]; [discriminate E|].
  split; [exact L2|]. split; [exact L|].
  destruct (chk in_u128 (10 ^ (18 - p))) as [d|] eqn:K; [|discriminate E]. apply chk_ok in K. destruct K as [-> _].
  apply div_u_ok in E. destruct E as [_ ->].
  replace DEC with (10 ^ (18 - p) * 10 ^ p) by (rewrite DEC_pow, <- Z.pow_add_r by lia; f_equal; lia).
  pose proof (Z.pow_pos_nonneg 10 (18 - p) ltac:(lia) ltac:(lia)) as Q. pose proof (div_floor v _ Q) as F.
  pose proof (Z.pow_pos_nonneg 10 p ltac:(lia) ltac:(lia)). set (k := 10 ^ (18 - p)) in *. split; nia.
Qed.
Print Assumptions C114_to_u128.
Theorem C114_percent x : 0 <= x < 2 ^ 64 ->
  d256_from_ratio x 100 = Ok (d256_percent x) /\ d256_from_ratio x 1000 = Ok (d256_permille x) /\
  d256_from_ratio x 10000 = Ok (d256_bps x).
Proof.
  intros B. change (2 ^ 64) with 18446744073709551616 in B.
  assert (G : forall d k, 0 < d -> d * k = DEC -> d256_from_ratio x d = Ok (x * k)).
  { intros d k D K. unfold d256_from_ratio. destruct (Z.eqb_spec d 0); [lia|].
    unfold mul_w, chk. rewrite (proj2 (in_u256_iff (x * DEC))) by (unfold DEC, U256_MAX; lia). unfold rbind, div_w.
    destruct (Z.eqb_spec d 0); [lia|]. rewrite <- K. replace (x * (d * k)) with (x * k * d) by ring.
    rewrite Z.div_mul by lia. reflexivity. }
  split; [|split]; apply G; reflexivity.
Qed.
Print Assumptions C114_percent.
Example C114_instance : d256_mul d256_max 1 = Ok (U256_MAX / DEC) /\ d256_div (7 * DEC) (3 * DEC) = Ok 2333333333333333333 /\
  d256_mul (dec_percent 150) (dec_percent 150) = Ok (dec_percent 225) /\ dec_mul (20 * DEC) (20 * DEC) = Err EArith /\
  d256_mul (20 * DEC) (20 * DEC) = Ok (400 * DEC) /\ d256_to_u128 (dec_percent 1299) 1 = Ok 129.
Proof. repeat split; vm_compute; reflexivity. Qed.

(** ** C115: refuted; distances of large numbers are not computed although they fit in 256 bits *)
Theorem C115_abs_diff_256_refuted : exists a b, 0 <= a <= U256_MAX /\ 0 <= b <= U256_MAX /\
  (exists v, d256_div a (2 * DEC) = Ok v) /\ d256_abs_diff a b = Err EPanic.
Proof.
  exists (2 ^ 128), (2 ^ 128). split; [split; vm_compute; discriminate|]. split; [split; vm_compute; discriminate|].
  split; [exists (2 ^ 127); vm_compute; reflexivity|vm_compute; reflexivity].
Qed.
Print Assumptions C115_abs_diff_256_refuted.
(** exactly the operands of 128 bits are served *)
Theorem C115_abs_diff_256 a b :
  (a <= U128_MAX /\ b <= U128_MAX -> d256_abs_diff a b = Ok (Z.abs (a - b))) /\
  (U128_MAX < a \/ U128_MAX < b -> d256_abs_diff a b = Err EPanic).
Proof.
  unfold d256_abs_diff, d256_atomics. destruct (Z.leb_spec a U128_MAX), (Z.leb_spec b U128_MAX); split; intros; try lia; reflexivity.
Qed.
Print Assumptions C115_abs_diff_256.
Example C115_instance : d256_abs_diff (dec_percent 3) (dec_percent 8) = Ok (dec_percent 5).
Proof. vm_compute. reflexivity. Qed.

(** ** C116: refuted; [multiply_ratio] scales by 10^18 once too often: 1 * (1/1) is 10^18 *)
Theorem C116_multiply_ratio_refuted : exists v n d, d <> 0 /\ n = d /\
  dec_multiply_ratio v n d = Ok (v * DEC) /\ d256_multiply_ratio v n d = Ok (v * DEC) /\ 0 < v.
Proof. exists (dec_percent 1), 2, 2. repeat split; try (vm_compute; reflexivity). discriminate. Qed.
Print Assumptions C116_multiply_ratio_refuted.
(** whenever it answers, the answer is the number v * n / d times 10^18, rounded *)
Theorem C116_multiply_ratio v n d r : 0 <= v -> 0 <= n -> 0 < d ->
  dec_multiply_ratio v n d = Ok r \/ d256_multiply_ratio v n d = Ok r ->
  r * d <= (v * n) * DEC < (r + 1) * d.
Proof.
  intros V N D [E|E].
  - unfold dec_multiply_ratio in E. rstep E. match goal with K : dec_from_ratio _ _ = Ok _ |- _ => apply dec_from_ratio_pos in K; [|nia|exact D] end. lia.
  - unfold d256_multiply_ratio in E. rstep E. match goal with K : d256_from_ratio _ _ = Ok _ |- _ => apply C114_from_ratio in K; [|lia] end. lia.
Qed.
Print Assumptions C116_multiply_ratio.
