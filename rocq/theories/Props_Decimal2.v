(** Rest of C59: division, sums, and when the operations fail. *)
From Coq Require Import ZArith List Bool Lia.
From Coq Require Import ZifyBool.
From Verif Require Import Base Decimal DecimalProofs Props_Lib Runs.
Import ListNotations.
Open Scope Z_scope.

Theorem C59_div : forall a b r, dec_div a b = Ok r -> b <> 0 /\ trunc_of (a * DEC) b r.
Proof. intros a b r H. split; [apply dec_from_ratio_ok in H; tauto | now apply C59_from_ratio]. Qed.
Print Assumptions C59_div.

Theorem C59_div_int : forall a n r, dec_div_i a n = Ok r -> n <> 0 /\ trunc_of a n r.
Proof.
  intros a n r H. unfold dec_div_i, div_i in H. destruct (Z.eqb_spec n 0); [discriminate|].
  apply Base.chk_ok in H as [-> _]. split; [auto|]. now apply quot_trunc.
Qed.
Print Assumptions C59_div_int.

Theorem C59_sums : forall a b,
  (forall r, dec_add a b = Ok r <-> r = a + b /\ I128_MIN <= a + b <= I128_MAX) /\
  (forall r, dec_sub a b = Ok r <-> r = a - b /\ I128_MIN <= a - b <= I128_MAX).
Proof.
  intros a b. unfold dec_add, dec_sub, add_i, sub_i. split; intros r; split.
  - intros E. apply Base.chk_ok in E as [-> I]. apply in_i128_iff in I. auto.
  - intros [-> I]. apply in_i128_iff in I. unfold chk. now rewrite I.
  - intros E. apply Base.chk_ok in E as [-> I]. apply in_i128_iff in I. auto.
  - intros [-> I]. apply in_i128_iff in I. unfold chk. now rewrite I.
Qed.
Print Assumptions C59_sums.

(** Failure happens exactly when the product leaves i128, for a zero divisor, or for MIN / -1. *)
Theorem C59_failures : forall a b, in_i128 a = true -> in_i128 b = true ->
  ((exists r, dec_mul a b = Ok r) <-> I128_MIN <= a * b <= I128_MAX) /\
  ((exists r, i_mul_dec a b = Ok r) <-> I128_MIN <= a * b <= I128_MAX) /\
  ((exists r, dec_div a b = Ok r) <-> b <> 0 /\ I128_MIN <= a * DEC <= I128_MAX) /\
  ((exists r, dec_div_i a b = Ok r) <-> b <> 0 /\ ~ (a = I128_MIN /\ b = -1)).
Proof.
  intros a b Ia Ib.
  assert (Q : I128_MIN <= a * b <= I128_MAX -> div_i (a * b) DEC = Ok (Z.quot (a * b) DEC)).
  { intros I. unfold div_i. change (DEC =? 0) with false. cbv iota. unfold chk.
    rewrite quot_in_i128; [reflexivity|discriminate|auto|]. intros [_ X]. discriminate X. }
  split; [|split; [|split]].
  - split.
    + intros [r H]. apply dec_mul_ok in H. tauto.
    + intros I. unfold dec_mul. rewrite mul_i_intro by auto. unfold rbind. rewrite Q by auto. eauto.
  - unfold i_mul_dec. split.
    + intros [r H]. destruct (Z.eqb_spec a 0); [subst; unfold I128_MIN, I128_MAX; lia|].
      destruct (Z.eqb_spec b 0); [subst; rewrite Z.mul_0_r; unfold I128_MIN, I128_MAX; lia|].
      cbn [orb] in H. unfold mul_i in H. destruct (chk in_i128 (a * b)) eqn:E; unfold rbind in H; [|discriminate].
      apply Base.chk_ok in E as [_ E]. now apply in_i128_iff.
    + intros I. destruct ((a =? 0) || (b =? 0)); [eauto|]. rewrite mul_i_intro by auto. unfold rbind. rewrite Q by auto. eauto.
  - now apply C59_from_ratio_total.
  - unfold dec_div_i, div_i. apply in_i128_iff in Ia. destruct (Z.eqb_spec b 0).
    + split; [intros [r X]; discriminate | tauto].
    + split.
      * intros [r X]. split; [auto|]. intros [-> ->]. vm_compute in X. discriminate.
      * intros [_ N]. unfold chk. rewrite quot_in_i128 by auto. eauto.
Qed.
Print Assumptions C59_failures.

Example C59_instance2 :
  dec_div (dec_percent 100) (dec_percent 300) = Ok 333333333333333333 /\
  dec_div_i (dec_percent (-100)) 3 = Ok (-333333333333333333) /\
  (forall r, dec_mul (10^20) (10^20) <> Ok r) /\ (forall r, dec_div_i I128_MIN (-1) <> Ok r).
Proof. repeat split; try (vm_compute; reflexivity); intros r X; vm_compute in X; discriminate. Qed.
