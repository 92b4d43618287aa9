(** Withdrawals and the price: C253. *)
From Coq Require Import ZArith List Bool Lia.
From Coq Require Import ZifyBool.
From Verif Require Import Base FMap Decimal DecimalProofs Curve World Token TokenProofs Frame Stake Pool PoolProofs
  Stable StableProofs Rewards Vest Factory Router System SysFrame SysInv SysPool SysStable SysSupply SysVest SysStake Script Runs
  Props_Token Props_Pool Props_Stable Props_Vest Props_Stake SysFact Props_Factory SysAllow Props_Router Props_Guards Props_Effects2 Props_StableHistory.
Import ListNotations.
Open Scope Z_scope.

(** how many withdrawals from the pool at [c] a call makes *)
Definition leaves_pool (c : Addr) (k : Call) : Z :=
  match k with CPoolWithdraw p _ _ _ _ _ | CStableWithdraw p _ _ _ _ _ => if p =? c then 1 else 0 | _ => 0 end.
(** the call may deposit to the pool at [c] *)
Definition enters_pool (c : Addr) (k : Call) : Prop :=
  match k with CPoolProvide p _ _ _ _ _ _ _ | CStableProvide p _ _ _ _ _ _ => p = c | _ => False end.

Lemma cross x y r : 0 <= x -> 0 <= y -> 0 <= r -> (x - x * r / 10^18) * y - x * (y - y * r / 10^18) <= y.
Proof.
  intros Px Py Pr. pose proof (Z.mul_div_le (y * r) (10^18) ltac:(lia)) as B.
  pose proof (Z.mul_succ_div_gt (x * r) (10^18) ltac:(lia)) as A.
  set (a := x * r / 10^18) in *. set (b := y * r / 10^18) in *.
  enough (10^18 * (b * x) <= 10^18 * (a * y + y)) by lia.
  transitivity (x * (y * r)).
  - replace (10^18 * (b * x)) with (x * (10^18 * b)) by ring. apply Z.mul_le_mono_nonneg_l; lia.
  - replace (x * (y * r)) with (y * (x * r)) by ring. replace (10^18 * (a * y + y)) with (y * (10^18 * Z.succ a)) by ring.
    apply Z.mul_le_mono_nonneg_l; lia.
Qed.
Lemma cross_trans x0 y0 x y x' y' k n : 0 <= x0 -> 0 <= y0 -> 0 <= x' <= x -> 0 <= y' <= y -> 0 <= k -> 0 <= n ->
  x * y0 - x0 * y <= k * y0 -> x' * y - x * y' <= n * y -> x' * y0 - x0 * y' <= (k + n) * y0.
Proof.
  intros P0 Q0 P Q Pk Pn A B. destruct (Z.eq_dec y 0) as [E|E].
  - assert (y' = 0) by lia. subst y y'. assert (x' * y0 <= x * y0) by (apply Z.mul_le_mono_nonneg_r; lia).
    assert (0 <= n * y0) by (apply Z.mul_nonneg_nonneg; lia). lia.
  - enough (y * (x' * y0 - x0 * y') <= y * ((k + n) * y0)) by (apply Z.mul_le_mono_pos_l in H; lia).
    assert (y0 * (x' * y - x * y') <= y0 * (n * y)) by (apply Z.mul_le_mono_nonneg_l; lia).
    assert (y' * (x * y0 - x0 * y) <= y' * (k * y0)) by (apply Z.mul_le_mono_nonneg_l; lia).
    assert (y' * (k * y0) <= y * (k * y0)) by (apply Z.mul_le_mono_nonneg_r; [apply Z.mul_nonneg_nonneg; lia|lia]).
    lia.
Qed.

(** ** C253 *)
(** Without swaps and deposits, [n] withdrawals, by whomever and among whatever other calls, leave the price of either token
    the same up to [n] units: what the reserve of one token is beyond the old price of the other reserve is at most [n]. *)
Theorem C253_withdrawals_keep_the_price H w l w' c p p' : reachable H w -> pool_at w c p ->
  run_if (fun _ k => ~ may_swap c k /\ ~ enters_pool c k) H w l w' -> pool_at w' c p' ->
  0 <= p_ra p' <= p_ra p /\ 0 <= p_rb p' <= p_rb p /\
  p_ra p' * p_rb p - p_ra p * p_rb p' <= s_count (leaves_pool c) l * p_rb p /\
  p_rb p' * p_ra p - p_rb p * p_ra p' <= s_count (leaves_pool c) l * p_ra p.
Proof.
  intros R Hp Rn Hp'. revert p R Hp.
  assert (CN : forall l, 0 <= s_count (leaves_pool c) l).
  { clear. induction l as [|[e k|n s] l IH]; simpl; try lia. destruct k; simpl; try lia; destruct (_ =? _); lia. }
  induction Rn as [w|w e k w1 l w2 St Ok1 Rn IH|w n s w1 l w2 St Rn IH]; intros p R Hp.
  - pose proof (reach_pool _ _ R _ _ Hp) as I. pose proof (pi_ra _ _ _ I). pose proof (pi_rb _ _ _ I).
    unfold pool_at in *. rewrite Hp in Hp'. inversion Hp'; subst p'. simpl. lia.
  - assert (R1 : reachable H w1) by (eapply reach_run; [exact R|econstructor; [exact St|constructor]]).
    inversion St as [e0 k0 w0 Eh X|]; subst. destruct Ok1 as [NS ND].
    pose proof (reach_pool _ _ R _ _ Hp) as I. pose proof (pi_ra _ _ _ I) as Ra. pose proof (pi_rb _ _ _ I) as Rb.
    assert (Q : exists q, pool_at w1 c q /\ 0 <= p_ra q <= p_ra p /\ 0 <= p_rb q <= p_rb p /\
      p_ra q * p_rb p - p_ra p * p_rb q <= leaves_pool c k * p_rb p /\ p_rb q * p_ra p - p_rb p * p_ra q <= leaves_pool c k * p_ra p).
    { pose proof (reach_good _ _ R) as G. pose proof (gd_cpool _ G _ _ Hp) as Hc.
      assert (L0 : 0 <= leaves_pool c k) by (clear; destruct k; simpl; try lia; destruct (_ =? _); lia).
      assert (SAME : forall q, pool_at w1 c q -> p_ra q = p_ra p -> p_rb q = p_rb p ->
        exists q, pool_at w1 c q /\ 0 <= p_ra q <= p_ra p /\ 0 <= p_rb q <= p_rb p /\
        p_ra q * p_rb p - p_ra p * p_rb q <= leaves_pool c k * p_rb p /\ p_rb q * p_ra p - p_rb p * p_ra q <= leaves_pool c k * p_ra p).
      { intros q E A B. exists q. split; [exact E|]. rewrite A, B.
        assert (0 <= leaves_pool c k * p_rb p) by (apply Z.mul_nonneg_nonneg; lia).
        assert (0 <= leaves_pool c k * p_ra p) by (apply Z.mul_nonneg_nonneg; lia). lia. }
      destruct (exec_framec _ _ _ _ X G) as [G' [X' [_ [_ U]]]].
      destruct (exists_dec_acts k c KPool) as [[T|[T _]]|N].
      2:{ exfalso. apply NS. destruct k; simpl in *; try discriminate T; auto. }
      2:{ eapply SAME; eauto. unfold pool_at. rewrite (ut_pool _ _ _ (U _ _ Hc N)). exact Hp. }
      pose proof (exec_tkind _ _ _ _ _ X T) as TK. rewrite Hc in TK.
      destruct k; simpl in T, TK; inversion T; try discriminate TK; subst; simpl in X;
        try (apply drop_ok in X; destruct X as [r X]).
      - apply pool_initialize_ok in X. destruct X as [_ [Np _]]. unfold pool_at in Hp. congruence.
      - exfalso. apply ND. reflexivity.
      - exfalso. apply NS. reflexivity.
      - destruct r as [a b]. destruct (C153_withdrawal_effect _ _ _ _ _ _ _ _ _ _ _ _ _ R Hp X) as [A [B [E _]]].
        cbv zeta in A, B. eexists. split; [exact E|]. simpl. rewrite Z.eqb_refl.
        pose proof (reach_pool _ _ R1 _ _ E) as I1. pose proof (pi_ra _ _ _ I1) as Ra1. pose proof (pi_rb _ _ _ I1) as Rb1. simpl in Ra1, Rb1.
        assert (Pr : 0 <= share * 10^18 / p_total p).
        { destruct (C09_withdrawal_pro_rata _ _ _ None _ _ _ _ _ _ _ _ _ _ R ltac:(discriminate) Hp X) as [q [_ F]]. cbv zeta in F.
          destruct F as [F1 [F2 _]]. apply Z.div_pos; lia. }
        assert (0 <= a). { rewrite A. apply Z.div_pos; [apply Z.mul_nonneg_nonneg; lia|lia]. }
        assert (0 <= b). { rewrite B. apply Z.div_pos; [apply Z.mul_nonneg_nonneg; lia|lia]. }
        split; [lia|]. split; [lia|]. rewrite A, B.
        pose proof (cross (p_ra p) (p_rb p) _ ltac:(lia) ltac:(lia) Pr). pose proof (cross (p_rb p) (p_ra p) _ ltac:(lia) ltac:(lia) Pr). lia.
      - unfold pool_update_config in X. rstep X. winv.
        match goal with R : fget c (w_pool w) = Some ?q |- _ => unfold pool_at in Hp; rewrite Hp in R; inversion R; subst q end.
        eapply SAME; [unfold pool_at; simpl; rewrite fget_set_same; reflexivity|reflexivity..].
      - apply pool_update_ok in X. subst w1. eapply SAME; [exact Hp|reflexivity..].
      - unfold pool_upgrade in X. rstep X. winv.
        match goal with R : fget c (w_pool w) = Some ?q |- _ => unfold pool_at in Hp; rewrite Hp in R; inversion R; subst q end.
        eapply SAME; [unfold pool_at; simpl; rewrite fget_set_same; reflexivity|reflexivity..]. }
    destruct Q as [q [E [Qa [Qb [Ca Cb]]]]]. destruct (IH Hp' q R1 E) as [Ia [Ib [Da Db]]].
    assert (L0 : 0 <= leaves_pool c k) by (clear; destruct k; simpl; try lia; destruct (_ =? _); lia).
    simpl s_count. specialize (CN l).
    split; [lia|]. split; [lia|].
    split; [eapply cross_trans with (x := p_ra q) (y := p_rb q); lia|eapply cross_trans with (x := p_rb q) (y := p_ra q); lia].
  - assert (R1 : reachable H w1) by (eapply reach_run; [exact R|econstructor; [exact St|constructor]]).
    inversion St; subst. simpl. eapply IH; eauto.
Qed.
Print Assumptions C253_withdrawals_keep_the_price.

(** The same in stable pools. *)
Theorem C253_stable_withdrawals_keep_the_price H w l w' c p p' : reachable H w -> stable_at w c p ->
  run_if (fun _ k => ~ s_may_swap c k /\ ~ enters_pool c k) H w l w' -> stable_at w' c p' ->
  0 <= l_ra p' <= l_ra p /\ 0 <= l_rb p' <= l_rb p /\
  l_ra p' * l_rb p - l_ra p * l_rb p' <= s_count (leaves_pool c) l * l_rb p /\
  l_rb p' * l_ra p - l_rb p * l_ra p' <= s_count (leaves_pool c) l * l_ra p.
Proof.
  intros R Hp Rn Hp'. revert p R Hp.
  assert (CN : forall l, 0 <= s_count (leaves_pool c) l).
  { clear. induction l as [|[e k|n s] l IH]; simpl; try lia. destruct k; simpl; try lia; destruct (_ =? _); lia. }
  induction Rn as [w|w e k w1 l w2 St Ok1 Rn IH|w n s w1 l w2 St Rn IH]; intros p R Hp.
  - pose proof (reach_stable _ _ R _ _ Hp) as I. pose proof (li_ra _ _ _ I). pose proof (li_rb _ _ _ I).
    unfold stable_at in *. rewrite Hp in Hp'. inversion Hp'; subst p'. simpl. lia.
  - assert (R1 : reachable H w1) by (eapply reach_run; [exact R|econstructor; [exact St|constructor]]).
    inversion St as [e0 k0 w0 Eh X|]; subst. destruct Ok1 as [NS ND].
    pose proof (reach_stable _ _ R _ _ Hp) as I. pose proof (li_ra _ _ _ I) as Ra. pose proof (li_rb _ _ _ I) as Rb.
    assert (L0 : 0 <= leaves_pool c k) by (clear; destruct k; simpl; try lia; destruct (_ =? _); lia).
    assert (Q : exists q, stable_at w1 c q /\ 0 <= l_ra q <= l_ra p /\ 0 <= l_rb q <= l_rb p /\
      l_ra q * l_rb p - l_ra p * l_rb q <= leaves_pool c k * l_rb p /\ l_rb q * l_ra p - l_rb p * l_ra q <= leaves_pool c k * l_ra p).
    { assert (Cs : (exists u s ma mb dl, k = CStableWithdraw c u s ma mb dl) \/ ~ s_moves c k).
      { destruct k; try (right; simpl; tauto). destruct (Z.eq_dec p0 c) as [->|N]; [left; eauto 10|right; simpl; tauto]. }
      destruct Cs as [[u [s [ma [mb [dl ->]]]]]|NM].
      - simpl in X. apply drop_ok in X. destruct X as [[a b] X].
        destruct (C153_stable_withdrawal_effect _ _ _ _ _ _ _ _ _ _ _ _ _ R Hp X) as [A [B [[q [E [_ [Ea [Eb _]]]]] _]]]. cbv zeta in A, B.
        exists q. split; [exact E|]. simpl. rewrite Z.eqb_refl, Ea, Eb.
        pose proof (reach_stable _ _ R1 _ _ E) as I1. pose proof (li_ra _ _ _ I1) as Ra1. pose proof (li_rb _ _ _ I1) as Rb1. rewrite Ea in Ra1. rewrite Eb in Rb1.
        assert (Pr : 0 <= s * 10^18 / l_total p).
        { destruct (C80_stable_withdrawal _ _ _ None _ _ _ _ _ _ _ _ _ _ R ltac:(discriminate) Hp X) as [q' [_ F]]. cbv zeta in F.
          destruct F as [F1 [F2 _]]. apply Z.div_pos; lia. }
        assert (0 <= a). { rewrite A. apply Z.div_pos; [apply Z.mul_nonneg_nonneg; lia|lia]. }
        assert (0 <= b). { rewrite B. apply Z.div_pos; [apply Z.mul_nonneg_nonneg; lia|lia]. }
        split; [lia|]. split; [lia|]. rewrite A, B.
        pose proof (cross (l_ra p) (l_rb p) _ ltac:(lia) ltac:(lia) Pr). pose proof (cross (l_rb p) (l_ra p) _ ltac:(lia) ltac:(lia) Pr). lia.
      - destruct (s_idle _ _ _ _ _ _ _ R Hp X NS NM) as [q [E [_ [_ [A B]]]]]. exists q. split; [exact E|]. rewrite A, B.
        assert (0 <= leaves_pool c k * l_rb p) by (apply Z.mul_nonneg_nonneg; lia).
        assert (0 <= leaves_pool c k * l_ra p) by (apply Z.mul_nonneg_nonneg; lia). lia. }
    destruct Q as [q [E [Qa [Qb [Ca Cb]]]]]. destruct (IH Hp' q R1 E) as [Ia [Ib [Da Db]]].
    simpl s_count. specialize (CN l).
    split; [lia|]. split; [lia|].
    split; [eapply cross_trans with (x := l_ra q) (y := l_rb q); lia|eapply cross_trans with (x := l_rb q) (y := l_ra q); lia].
  - assert (R1 : reachable H w1) by (eapply reach_run; [exact R|econstructor; [exact St|constructor]]).
    inversion St; subst. simpl. eapply IH; eauto.
Qed.
Print Assumptions C253_stable_withdrawals_keep_the_price.

(** ** Concrete cases are in Props_PriceCases. *)
