(** Deposits and withdrawals in one piece and in several: C247. *)
From Coq Require Import ZArith List Bool Lia.
From Coq Require Import ZifyBool.
From Verif Require Import Base FMap World Token Frame Pool PoolProofs System SysFrame SysInv SysPool SysSupply
  Props_Token Props_Pool Props_Guards Props_Effects2.
Import ListNotations.
Open Scope Z_scope.

(** ** C247 *)
(** Whatever is added to and taken from a pool by anybody without a swap: if it leaves the pool with no more of either
    token than one deposit would, it leaves no more shares than that one deposit. *)
Theorem C247_one_deposit_is_best H w e c p u da mina db minb custom dl w1 p1 l w2 p2 :
  reachable H w -> pool_at w c p -> p_total p <> 0 ->
  pool_provide e None c u da mina db minb custom dl w = Ok (tt, w1) -> pool_at w1 c p1 ->
  run_if (fun _ k => ~ may_swap c k) H w l w2 -> pool_at w2 c p2 ->
  p_ra p2 <= p_ra p1 -> p_rb p2 <= p_rb p1 ->
  p_total p2 <= p_total p1.
Proof.
  intros R Hp NT X Hp1 Rn Hp2 La Lb. pose proof (reach_pool _ _ R _ _ Hp) as I.
  destruct (C105_share_value_kept_for_ever _ _ _ _ _ _ R Hp Rn) as [q [Eq [A B]]].
  unfold pool_at in *. rewrite Hp2 in Eq. inversion Eq; subst q.
  destruct (C153_deposit_effect _ _ _ _ _ _ _ _ _ _ _ _ _ R Hp X) as [xa [xb [a [b [n [lk [_ [_ [_ [F [E _]]]]]]]]]]].
  unfold pool_at in E. rewrite Hp1 in E. inversion E; subst p1. destruct (F NT) as [_ [_ [_ En]]]. simpl in *. subst n.
  destruct (pi_min _ _ _ I) as [|M]; [contradiction|].
  assert (Pa : 0 < p_ra p /\ 0 < p_rb p).
  { destruct (C107_deposit_at_pool_price _ _ _ None _ _ _ _ _ _ _ _ _ _ R ltac:(discriminate) Hp NT X) as [ya [yb [a' [b' [q [_ [_ [_ [_ [_ Q]]]]]]]]]].
    cbv zeta in Q. split; apply Q. }
  assert (0 <= p_total p) by lia.
  apply Z.min_glb; apply Z.div_le_lower_bound; try lia.
  - transitivity (p_ra p2 * p_total p); [lia|apply Z.mul_le_mono_nonneg_r; lia].
  - transitivity (p_rb p2 * p_total p); [lia|apply Z.mul_le_mono_nonneg_r; lia].
Qed.
Print Assumptions C247_one_deposit_is_best.

(** ... and if it leaves no fewer shares than one withdrawal would, it has taken at most one unit and a
    10^18-th of the reserve more of either token than that one withdrawal. *)
Theorem C247_one_withdrawal_is_nearly_best H w e c p u s m1 m2 dl a b w1 p1 l w2 p2 :
  reachable H w -> pool_at w c p ->
  pool_withdraw e None c u s m1 m2 dl w = Ok ((a, b), w1) -> pool_at w1 c p1 ->
  run_if (fun _ k => ~ may_swap c k) H w l w2 -> pool_at w2 c p2 -> p_total p1 <= p_total p2 ->
  (p_ra p - p_ra p2 - a - 1) * 10^18 < p_ra p /\ (p_rb p - p_rb p2 - b - 1) * 10^18 < p_rb p.
Proof.
  intros R Hp X Hp1 Rn Hp2 L. pose proof (reach_pool _ _ R _ _ Hp) as I.
  destruct (C105_share_value_kept_for_ever _ _ _ _ _ _ R Hp Rn) as [q [Eq [A B]]].
  unfold pool_at in *. rewrite Hp2 in Eq. inversion Eq; subst q.
  destruct (C09_withdrawal_pro_rata _ _ _ None _ _ _ _ _ _ _ _ _ _ R ltac:(discriminate) Hp X) as [q [Eq1 Q]].
  unfold pool_at in Eq1. rewrite Hp1 in Eq1. inversion Eq1; subst q. cbv zeta in Q.
  destruct Q as [P1 [P2 [P3 [P4 [_ [_ [P5 [P6 [P7 [P8 [P9 _]]]]]]]]]]].
  pose proof (pi_ra _ _ _ I). pose proof (pi_rb _ _ _ I).
  assert (Go : forall x x2 a0, 0 <= x -> x * p_total p2 <= x2 * p_total p ->
     x * s * 10^18 < p_total p * (a0 + 1) * 10^18 + p_total p * x -> (x - x2 - a0 - 1) * 10^18 < x).
  { intros x x2 a0 Px K1 K2. assert (T : 0 < p_total p) by lia.
    assert (K3 : x * (p_total p - s) <= x2 * p_total p).
    { etransitivity; [|exact K1]. apply Z.mul_le_mono_nonneg_l; lia. }
    enough (p_total p * ((x - x2 - a0 - 1) * 10^18) < p_total p * x) by (apply Z.mul_lt_mono_pos_l in H2; auto).
    nia. }
  split; [apply Go|apply Go]; auto; lia.
Qed.
Print Assumptions C247_one_withdrawal_is_nearly_best.
