(** Withdrawals from a stable pool in one piece and in several: C249. *)
From Coq Require Import ZArith List Bool Lia.
From Coq Require Import ZifyBool.
From Verif Require Import Base FMap Decimal DecimalProofs Curve World Token TokenProofs Frame Stake Pool PoolProofs
  Stable StableProofs Rewards Vest Factory Router System SysFrame SysInv SysPool SysStable SysSupply SysVest SysStake Script Runs
  Props_Token Props_Pool Props_Stable Props_Vest Props_Stake SysFact Props_Factory SysAllow Props_Router Props_Guards Props_StableHistory.
Import ListNotations.
Open Scope Z_scope.

(** what every share stands for does not fall while a pool is neither swapped in nor deposited to *)
Lemma s_leave H w l w' c p p' : reachable H w -> stable_at w c p ->
  run_if (fun _ k => ~ s_may_swap c k /\ s_deposits c k = 0) H w l w' -> stable_at w' c p' ->
  l_total p' <= l_total p /\ l_ra p * l_total p' <= l_ra p' * l_total p /\ l_rb p * l_total p' <= l_rb p' * l_total p.
Proof.
  intros R Hp Rn Hp'. revert p R Hp.
  induction Rn as [w|w e k w1 l w2 St Ok1 Rn IH|w n s w1 l w2 St Rn IH]; intros p R Hp.
  - unfold stable_at in *. rewrite Hp in Hp'. inversion Hp'; subst p'. lia.
  - assert (R1 : reachable H w1) by (eapply reach_run; [exact R|econstructor; [exact St|constructor]]).
    assert (R2 : reachable H w2) by (eapply reach_run; [exact R1|eapply run_if_run; exact Rn]).
    inversion St as [e0 k0 w0 Eh X|]; subst. destruct Ok1 as [NS ND].
    assert (Q : exists q, stable_at w1 c q /\ l_total q <= l_total p /\ l_ra p * l_total q <= l_ra q * l_total p /\ l_rb p * l_total q <= l_rb q * l_total p).
    { assert (Cs : (exists u s ma mb dl, k = CStableWithdraw c u s ma mb dl) \/ ~ s_moves c k).
      { destruct k; try (right; simpl; tauto).
        - right. simpl in *. destruct (Z.eqb_spec p0 c); [discriminate|auto].
        - destruct (Z.eq_dec p0 c) as [->|N]; [left; eauto 10|right; simpl; tauto]. }
      destruct Cs as [[u [s [ma [mb [dl ->]]]]]|NM].
      - simpl in X. apply drop_ok in X. destruct X as [[a b] X].
        destruct (C80_stable_withdrawal _ _ _ None _ _ _ _ _ _ _ _ _ _ R ltac:(discriminate) Hp X) as [q [E Q]]. cbv zeta in Q.
        exists q. split; [exact E|]. intuition lia.
      - destruct (s_idle _ _ _ _ _ _ _ R Hp X NS NM) as [q [E [_ [T [A B]]]]]. exists q. split; [exact E|]. rewrite T, A, B. lia. }
    destruct Q as [q [E [T [A B]]]]. destruct (IH Hp' q R1 E) as [T' [A' B']].
    pose proof (reach_stable _ _ R _ _ Hp) as I0. pose proof (reach_stable _ _ R1 _ _ E) as I1. pose proof (reach_stable _ _ R2 _ _ Hp') as I2.
    pose proof (li_tot _ _ _ I0). pose proof (li_tot _ _ _ I1). pose proof (li_tot _ _ _ I2).
    pose proof (li_ra _ _ _ I0). pose proof (li_rb _ _ _ I0). pose proof (li_ra _ _ _ I2). pose proof (li_rb _ _ _ I2).
    assert (Go : forall x y z t u v, 0 <= x -> 0 <= z -> 0 <= t -> 0 <= u -> 0 <= v <= u -> x * u <= y * t -> y * v <= z * u -> x * v <= z * t).
    { intros x y z t u v Px Pz Pt Pu Pv K1 K2. destruct (Z.eq_dec u 0) as [->|Nu]; [assert (v = 0) as -> by lia; nia|].
      enough (Kk : u * (x * v) <= u * (z * t)) by (apply Z.mul_le_mono_pos_l in Kk; lia).
      transitivity (y * t * v); [nia|]. nia. }
    split; [lia|]. split; [eapply Go with (y := l_ra q) (u := l_total q)|eapply Go with (y := l_rb q) (u := l_total q)]; lia.
  - assert (R1 : reachable H w1) by (eapply reach_run; [exact R|econstructor; [exact St|constructor]]).
    inversion St; subst. eapply IH; eauto.
Qed.

(** ** C249 *)
(** Whatever anybody does to a stable pool without swapping or depositing: if it leaves no fewer shares than one
    withdrawal would, it has taken at most one unit and a 10^18-th of the reserve more of either token than that one. *)
Theorem C249_one_stable_withdrawal_is_nearly_best H w e c p u s m1 m2 dl a b w1 p1 l w2 p2 :
  reachable H w -> stable_at w c p ->
  stable_withdraw e None c u s m1 m2 dl w = Ok ((a, b), w1) -> stable_at w1 c p1 ->
  run_if (fun _ k => ~ s_may_swap c k /\ s_deposits c k = 0) H w l w2 -> stable_at w2 c p2 -> l_total p1 <= l_total p2 ->
  (l_ra p - l_ra p2 - a - 1) * 10^18 < l_ra p /\ (l_rb p - l_rb p2 - b - 1) * 10^18 < l_rb p.
Proof.
  intros R Hp X Hp1 Rn Hp2 L. pose proof (reach_stable _ _ R _ _ Hp) as I.
  destruct (s_leave _ _ _ _ _ _ _ R Hp Rn Hp2) as [_ [A B]].
  destruct (C80_stable_withdrawal _ _ _ None _ _ _ _ _ _ _ _ _ _ R ltac:(discriminate) Hp X) as [q [Eq1 Q]].
  unfold stable_at in *. rewrite Hp1 in Eq1. inversion Eq1; subst q. cbv zeta in Q.
  destruct Q as [P1 [P2 [P3 [P4 [_ [_ [P5 [P6 [P7 [P8 [P9 _]]]]]]]]]]].
  pose proof (li_ra _ _ _ I). pose proof (li_rb _ _ _ I).
  assert (Go : forall x x2 a0, 0 <= x -> x * l_total p2 <= x2 * l_total p ->
     x * s * 10^18 < l_total p * (a0 + 1) * 10^18 + l_total p * x -> (x - x2 - a0 - 1) * 10^18 < x).
  { intros x x2 a0 Px K1 K2. assert (T : 0 < l_total p) by lia.
    assert (K3 : x * (l_total p - s) <= x2 * l_total p).
    { etransitivity; [|exact K1]. apply Z.mul_le_mono_nonneg_l; lia. }
    enough (Kk : l_total p * ((x - x2 - a0 - 1) * 10^18) < l_total p * x) by (apply Z.mul_lt_mono_pos_l in Kk; auto).
    nia. }
  split; [apply Go|apply Go]; auto; lia.
Qed.
Print Assumptions C249_one_stable_withdrawal_is_nearly_best.

(** Leaving after others costs nothing: the payout is the share of the reserves before they left, less at most one
    unit and a 10^18-th of the reserve. *)
Theorem C249_leaving_a_stable_pool_later_costs_nothing H w c p l w1 p1 e u s m1 m2 dl a b w2 :
  reachable H w -> stable_at w c p -> run_if (fun _ k => ~ s_may_swap c k /\ s_deposits c k = 0) H w l w1 -> stable_at w1 c p1 ->
  stable_withdraw e None c u s m1 m2 dl w1 = Ok ((a, b), w2) ->
  l_ra p * s * 10^18 < l_total p * (a + 1) * 10^18 + l_total p * l_ra p1 /\
  l_rb p * s * 10^18 < l_total p * (b + 1) * 10^18 + l_total p * l_rb p1.
Proof.
  intros R Hp Rn Hp1 X. assert (R1 : reachable H w1) by (eapply reach_run; [exact R|eapply run_if_run; exact Rn]).
  destruct (s_leave _ _ _ _ _ _ _ R Hp Rn Hp1) as [T [A B]].
  destruct (C80_stable_withdrawal _ _ _ None _ _ _ _ _ _ _ _ _ _ R1 ltac:(discriminate) Hp1 X) as [q [_ Q]]. cbv zeta in Q.
  destruct Q as [P1 [P2 [P3 [P4 [_ [_ [P5 [P6 _]]]]]]]].
  assert (Go : forall x x1 t t1 a0, 0 < t1 -> 0 < t -> x * t1 <= x1 * t -> x1 * s * 10^18 < t1 * (a0 + 1) * 10^18 + t1 * x1 ->
    x * s * 10^18 < t * (a0 + 1) * 10^18 + t * x1).
  { intros x x1 t t1 a0 Pt1 Pt K1 K2. enough (Kk : t1 * (x * s * 10^18) < t1 * (t * (a0 + 1) * 10^18 + t * x1)) by (apply Z.mul_lt_mono_pos_l in Kk; auto).
    apply Z.le_lt_trans with (t * (x1 * s * 10^18)).
    - replace (t1 * (x * s * 10^18)) with (x * t1 * (s * 10^18)) by ring. replace (t * (x1 * s * 10^18)) with (x1 * t * (s * 10^18)) by ring.
      apply Z.mul_le_mono_nonneg_r; lia.
    - replace (t1 * (t * (a0 + 1) * 10^18 + t * x1)) with (t * (t1 * (a0 + 1) * 10^18 + t1 * x1)) by ring. apply Z.mul_lt_mono_pos_l; lia. }
  split; eapply Go; [| |exact A|exact P5| | |exact B|exact P6]; lia.
Qed.
Print Assumptions C249_leaving_a_stable_pool_later_costs_nothing.

(** The same for a constant-product pool, in which others may deposit meanwhile as well. *)
Theorem C249_leaving_later_costs_nothing H w c p l w1 p1 e u s m1 m2 dl a b w2 :
  reachable H w -> pool_at w c p -> p_total p <> 0 -> run_if (fun _ k => ~ may_swap c k) H w l w1 -> pool_at w1 c p1 ->
  pool_withdraw e None c u s m1 m2 dl w1 = Ok ((a, b), w2) ->
  p_ra p * s * 10^18 < p_total p * (a + 1) * 10^18 + p_total p * p_ra p1 /\
  p_rb p * s * 10^18 < p_total p * (b + 1) * 10^18 + p_total p * p_rb p1.
Proof.
  intros R Hp NT Rn Hp1 X. assert (R1 : reachable H w1) by (eapply reach_run; [exact R|eapply run_if_run; exact Rn]).
  destruct (C105_share_value_kept_for_ever _ _ _ _ _ _ R Hp Rn) as [q [Eq [A B]]]. unfold pool_at in *. rewrite Hp1 in Eq. inversion Eq; subst q.
  destruct (C09_withdrawal_pro_rata _ _ _ None _ _ _ _ _ _ _ _ _ _ R1 ltac:(discriminate) Hp1 X) as [q [_ Q]]. cbv zeta in Q.
  destruct Q as [P1 [P2 [P3 [P4 [_ [_ [P5 [P6 _]]]]]]]].
  destruct (pi_min _ _ _ (reach_pool _ _ R _ _ Hp)) as [|M]; [contradiction|].
  assert (Go : forall x x1 t t1 a0, 0 < t1 -> 0 < t -> x * t1 <= x1 * t -> x1 * s * 10^18 < t1 * (a0 + 1) * 10^18 + t1 * x1 ->
    x * s * 10^18 < t * (a0 + 1) * 10^18 + t * x1).
  { intros x x1 t t1 a0 Pt1 Pt K1 K2. enough (Kk : t1 * (x * s * 10^18) < t1 * (t * (a0 + 1) * 10^18 + t * x1)) by (apply Z.mul_lt_mono_pos_l in Kk; auto).
    apply Z.le_lt_trans with (t * (x1 * s * 10^18)).
    - replace (t1 * (x * s * 10^18)) with (x * t1 * (s * 10^18)) by ring. replace (t * (x1 * s * 10^18)) with (x1 * t * (s * 10^18)) by ring.
      apply Z.mul_le_mono_nonneg_r; lia.
    - replace (t1 * (t * (a0 + 1) * 10^18 + t * x1)) with (t * (t1 * (a0 + 1) * 10^18 + t1 * x1)) by ring. apply Z.mul_lt_mono_pos_l; lia. }
  split; eapply Go; [| |exact A|exact P5| | |exact B|exact P6]; lia.
Qed.
Print Assumptions C249_leaving_later_costs_nothing.

(** ** Concrete cases are in Props_SplitStableCases. *)
