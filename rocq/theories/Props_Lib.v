(** Properties of the curve and decimal packages (C55-C61). *)
From Coq Require Import ZArith List Bool Lia.
From Verif Require Import Base Decimal DecimalProofs Curve CurveProofs CurveCombine.
Import ListNotations.
Open Scope Z_scope.

(** ** C55 *)
Theorem C55_decreasing_curves : forall c x1 x2 v1 v2,
  wf_curve c -> validate_dec c = None -> 0 <= x1 <= x2 ->
  cvalue c x1 = Ok v1 -> cvalue c x2 = Ok v2 -> v2 <= v1.
Proof. exact validate_dec_monotone. Qed.
Print Assumptions C55_decreasing_curves.

Theorem C55_increasing_curves : forall c x1 x2 v1 v2,
  wf_curve c -> validate_inc c = None -> 0 <= x1 <= x2 ->
  cvalue c x1 = Ok v1 -> cvalue c x2 = Ok v2 -> v1 <= v2.
Proof. exact validate_inc_monotone. Qed.
Print Assumptions C55_increasing_curves.

Definition ex_curve : curve := PieceLin [(10, 1000); (13, 700); (20, 0)].
Example C55_instance :
  wf_curve ex_curve /\ validate_dec ex_curve = None /\
  cvalue ex_curve 11 = Ok 900 /\ cvalue ex_curve 15 = Ok 500 /\
  validate_inc (SatLin 5 7 10 90) = None /\ cvalue (SatLin 5 7 10 90) 6 = Ok 23.
Proof.
  repeat split; try reflexivity.
  repeat constructor; simpl; unfold U64_MAX, U128_MAX; lia.
Qed.

(** ** C56 *)
Theorem C56_value_in_range : forall c x v,
  wf_curve c -> cvalidate c = None -> 0 <= x -> cvalue c x = Ok v ->
  fst (crange c) <= v <= snd (crange c).
Proof. exact value_in_range. Qed.
Print Assumptions C56_value_in_range.

(** [curve_fits]: every segment's height times width fits in u128. *)
Theorem C56_value_defined : forall c x,
  wf_curve c -> cvalidate c = None -> curve_fits c -> 0 <= x -> exists v, cvalue c x = Ok v.
Proof. exact value_defined. Qed.
Print Assumptions C56_value_defined.

Example C56_instance : crange ex_curve = (0, 1000) /\ curve_fits ex_curve.
Proof. split; [reflexivity|]. simpl. unfold U128_MAX. lia. Qed.

(** Evaluation does fail by overflow inside a steep valid curve, and by division by
    zero on an invalid (zero-width) one. *)
Example C56_overflow_case :
  cvalidate (SatLin 0 340282366920938463463374607431768211455 10 0) = None /\
  cvalue (SatLin 0 340282366920938463463374607431768211455 10 0) 5 = Err EArith /\
  cvalue (SatLin 5 100 5 0) 5 = Err EArith.
Proof. repeat split; vm_compute; reflexivity. Qed.

(** ** C57 *)
Theorem C57_combine_at_steps : forall c d r t,
  good_curve c -> good_curve d -> combine c d = Ok r -> 0 <= t ->
  In t (step_times c) \/ In t (step_times d) ->
  forall a b, cvalue c t = Ok a -> cvalue d t = Ok b -> cvalue r t = Ok (a + b).
Proof. exact combine_at_steps. Qed.
Print Assumptions C57_combine_at_steps.

Theorem C57_combine_everywhere : forall c d r x v a b,
  good_curve c -> good_curve d -> combine c d = Ok r -> 0 <= x ->
  cvalue c x = Ok a -> cvalue d x = Ok b -> cvalue r x = Ok v ->
  Z.abs (v - (a + b)) <= 2.
Proof. exact combine_close_all. Qed.
Print Assumptions C57_combine_everywhere.

Theorem C57_combine_decreasing : forall c d r x1 x2 v1 v2,
  good_curve c -> good_curve d -> validate_dec c = None -> validate_dec d = None ->
  combine c d = Ok r -> 0 <= x1 <= x2 -> cvalue r x1 = Ok v1 -> cvalue r x2 = Ok v2 -> v2 <= v1.
Proof. exact combine_decreasing. Qed.
Print Assumptions C57_combine_decreasing.

Definition ex_c1 : curve := SatLin 10 10 20 0.
Definition ex_c2 : curve := SatLin 13 100 33 0.
Example C57_instance :
  good_curve ex_c1 /\ good_curve ex_c2 /\
  combine ex_c1 ex_c2 = Ok (PieceLin [(10, 110); (13, 107); (20, 65); (33, 0)]) /\
  cvalue ex_c1 18 = Ok 2 /\ cvalue ex_c2 18 = Ok 75 /\
  cvalue (PieceLin [(10, 110); (13, 107); (20, 65); (33, 0)]) 18 = Ok 77.
Proof.
  unfold good_curve, wf_curve, wf_step, U64_MAX, U128_MAX; simpl.
  repeat split; try lia; try reflexivity.
Qed.
(** The bound 2 is attained: the combined curve is not always the exact sum. *)
Example C57_bound_tight :
  exists r, combine (SatLin 7 21 16 23) (SatLin 9 25 18 19) = Ok r /\
    cvalue (SatLin 7 21 16 23) 15 = Ok 22 /\ cvalue (SatLin 9 25 18 19) 15 = Ok 21 /\
    cvalue r 15 = Ok 45.
Proof. eexists. repeat split; vm_compute; reflexivity. Qed.

(** ** C58 *)
Theorem C58_combined_size : forall c d r, combine c d = Ok r -> csize r <= csize c + csize d.
Proof. exact combine_size. Qed.
Print Assumptions C58_combined_size.

(** Times of a combined piecewise curve are exactly the times of both, strictly increasing. *)
Theorem C58_combined_times : forall p q r,
  pl_good p -> pl_good q -> pl_combine p q = Ok r ->
  strict_from None (map fst r) /\
  forall t, In t (map fst r) <-> In t (map fst p) \/ In t (map fst q).
Proof.
  intros p q r Gp Gq H. destruct (pl_combine_good p q r Gp Gq H) as [_ T].
  rewrite T. split; [apply comb_times_strict | apply comb_times_in].
Qed.
Print Assumptions C58_combined_times.

(** ** C59 *)
Theorem C59_from_ratio : forall n d r, dec_from_ratio n d = Ok r -> trunc_of (n * DEC) d r.
Proof.
  intros n d r H. apply dec_from_ratio_ok in H as [D [_ ->]]. now apply quot_trunc.
Qed.
Print Assumptions C59_from_ratio.

Theorem C59_mul : forall a b r, dec_mul a b = Ok r -> trunc_of (a * b) DEC r.
Proof. intros a b r H. apply dec_mul_ok in H as [_ ->]. apply quot_trunc. discriminate. Qed.
Print Assumptions C59_mul.

Theorem C59_mul_int : forall x d r, i_mul_dec x d = Ok r -> trunc_of (x * d) DEC r.
Proof. intros x d r H. apply i_mul_dec_ok in H as ->. apply quot_trunc. discriminate. Qed.
Print Assumptions C59_mul_int.

Lemma quot_in_i128 a b : b <> 0 -> I128_MIN <= a <= I128_MAX -> ~ (a = I128_MIN /\ b = -1) ->
  in_i128 (Z.quot a b) = true.
Proof.
  intros B A N. apply in_i128_iff. destruct (quot_trunc a b B) as [_ [[L U] S]].
  unfold I128_MIN, I128_MAX in *. set (r := Z.quot a b) in *.
  assert (Z.abs r <= Z.abs a) by nia.
  destruct (Z.eq_dec (Z.abs b) 1).
  - destruct (Z.eq_dec b 1); [subst; unfold r; rewrite Z.quot_1_r; lia|].
    assert (b = -1) by lia. subst b.
    assert (r = - a); [|lia]. unfold r. change (-1) with (Z.opp 1).
    rewrite Z.quot_opp_r, Z.quot_1_r by lia. auto.
  - assert (2 * Z.abs r <= Z.abs a) by nia. lia.
Qed.

(** Failure happens exactly for a zero denominator or an overflowing product. *)
Theorem C59_from_ratio_total : forall n d,
  in_i128 d = true ->
  (exists r, dec_from_ratio n d = Ok r) <->
  d <> 0 /\ I128_MIN <= n * DEC <= I128_MAX.
Proof.
  intros n d D. split.
  - intros [r H]. apply dec_from_ratio_ok in H. tauto.
  - intros [Hd Hb]. unfold dec_from_ratio. destruct (Z.eqb_spec d 0); [congruence|].
    rewrite mul_i_intro by auto. unfold rbind, div_i. destruct (Z.eqb_spec d 0); [congruence|].
    unfold chk. rewrite quot_in_i128; eauto.
    intros [E _]. unfold DEC, I128_MIN in E. lia.
Qed.
Print Assumptions C59_from_ratio_total.

Example C59_instance :
  dec_from_ratio 1 3 = Ok 333333333333333333 /\ dec_from_ratio (-2) 3 = Ok (-666666666666666666) /\
  i_mul_dec 7 (dec_bps 3333) = Ok 2 /\ dec_mul (dec_percent 50) (dec_percent (-50)) = Ok (- dec_percent 25).
Proof. repeat split; vm_compute; reflexivity. Qed.

(** ** C60 *)
Theorem C60_text_roundtrip : forall v, 0 <= v <= I128_MAX -> dec_parse (dec_show v) = Ok v.
Proof. exact dec_roundtrip_nonneg. Qed.
Print Assumptions C60_text_roundtrip.

(** "1.05" *)
Example C60_instance : dec_show (dec_percent 105) = [49; 46; 48; 53].
Proof. vm_compute. reflexivity. Qed.

(** ** C61: refuted.  -0.5 prints as "0.-5", which parses as -0.05. *)
Theorem C61_negative_roundtrip_refuted :
  exists v, I128_MIN <= v < 0 /\ dec_show v = [48; 46; 45; 53] /\
            dec_parse (dec_show v) = Ok (v / 10).
Proof.
  exists (- dec_percent 50). unfold I128_MIN. split; [vm_compute; split; congruence|].
  split; vm_compute; reflexivity.
Qed.
Print Assumptions C61_negative_roundtrip_refuted.

(** ... and "-0.5" parses as +0.5. *)
Theorem C61_negative_parse_refuted : dec_parse [45; 48; 46; 53] = Ok (dec_percent 50).
Proof. vm_compute. reflexivity. Qed.
Print Assumptions C61_negative_parse_refuted.
