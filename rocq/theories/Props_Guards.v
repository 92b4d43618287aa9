(** Properties of limits that callers rely on: value of a share, deadlines, deposit prices and
    single initialisation (C105-C109). *)
From Coq Require Import ZArith List Bool Lia.
From Coq Require Import ZifyBool.
From Verif Require Import Base FMap Decimal DecimalProofs Curve World Token TokenProofs Frame Stake Pool PoolProofs
  Stable StableProofs Rewards Vest Factory Router System SysFrame SysInv SysPool SysStable SysSupply
  SysVest SysStake SysRewards Script Runs Props_Token Props_Pool Props_Stable Props_Vest Props_Stake Props_Rewards SysFact Props_Factory Props_Upgrade.
Import ListNotations.
Open Scope Z_scope.

(** ** C105 *)
(** [k] may swap on the pool at [c] *)
Definition may_swap (c : Addr) (k : Call) : Prop :=
  match k with
  | CPoolSwap p _ _ _ _ _ _ _ => p = c
  | CHopSwap _ _ _ _ _ _ _ | CTrade _ _ _ _ _ _ _ _ _ => True
  | _ => False
  end.

Theorem C105_share_value_kept H w e k w' c p : reachable H w -> pool_at w c p -> exec e k w = Ok (tt, w') ->
  ~ may_swap c k ->
  exists p', pool_at w' c p' /\
    p_ra p * p_total p' <= p_ra p' * p_total p /\ p_rb p * p_total p' <= p_rb p' * p_total p.
Proof.
  intros R Hp X NS. pose proof (reach_good _ _ R) as G. pose proof (gd_cpool _ G _ _ Hp) as Hc.
  pose proof (reach_pool _ _ R _ _ Hp) as I.
  assert (SAME : forall q, pool_at w' c q -> p_total q = p_total p -> p_ra q = p_ra p -> p_rb q = p_rb p ->
    exists p', pool_at w' c p' /\ p_ra p * p_total p' <= p_ra p' * p_total p /\ p_rb p * p_total p' <= p_rb p' * p_total p).
  { intros q E A B C. exists q. rewrite A, B, C. split; [exact E|]. lia. }
  destruct (exec_framec _ _ _ _ X G) as [G' [X' [_ [_ U]]]].
  destruct (exists_dec_acts k c KPool) as [[T|[T _]]|N].
  2:{ exfalso. apply NS. destruct k; simpl in *; try discriminate T; auto. }
  2:{ eapply SAME; eauto. unfold pool_at. rewrite (ut_pool _ _ _ (U _ _ Hc N)). exact Hp. }
  pose proof (exec_tkind _ _ _ _ _ X T) as TK. rewrite Hc in TK.
  destruct k; simpl in T, TK; inversion T; try discriminate TK; subst; simpl in X;
      try (apply drop_ok in X; destruct X as [r X]).
  - apply pool_initialize_ok in X. destruct X as [_ [Np _]]. unfold pool_at in Hp. congruence.
  - destruct (deposit_facts H _ _ None _ _ _ _ _ _ _ _ _ _ R ltac:(discriminate) Hp X) as [p' [xa [xb [a [b [m [lk [E F]]]]]]]].
    exists p'. split; [exact E|]. destruct (Z.eq_dec (p_total p) 0) as [Q|Q].
    + destruct (pi_zero _ _ _ I Q) as [-> ->]. rewrite Q. lia.
    + apply (df_later F Q).
  - exfalso. apply NS. reflexivity.
  - destruct r as [a b].
    destruct (C09_withdrawal_pro_rata H _ _ None _ _ _ _ _ _ _ _ _ _ R ltac:(discriminate) Hp X) as [p' [E F]].
    exists p'. split; [exact E|]. cbv zeta in F. tauto.
  - unfold pool_update_config in X. rstep X. winv.
    match goal with R : fget c (w_pool w) = Some ?q |- _ => unfold pool_at in Hp; rewrite Hp in R; inversion R; subst q end.
    eapply SAME; [unfold pool_at; simpl; rewrite fget_set_same; reflexivity|reflexivity..].
  - apply pool_update_ok in X. subst w'. eapply SAME; [exact Hp|reflexivity..].
  - unfold pool_upgrade in X. rstep X. winv.
    match goal with R : fget c (w_pool w) = Some ?q |- _ => unfold pool_at in Hp; rewrite Hp in R; inversion R; subst q end.
    eapply SAME; [unfold pool_at; simpl; rewrite fget_set_same; reflexivity|reflexivity..].
Qed.
Print Assumptions C105_share_value_kept.

Lemma ratio_trans a t a1 t1 a2 t2 : 0 <= t1 -> 0 <= t -> 0 <= t2 -> (t1 = 0 -> t = 0 /\ a = 0) ->
  a * t1 <= a1 * t -> a1 * t2 <= a2 * t1 -> a * t2 <= a2 * t.
Proof.
  intros P1 P P2 Z0 A B. destruct (Z.eq_dec t1 0) as [Q|Q]; [destruct (Z0 Q) as [-> ->]; lia|].
  assert (a * t1 * t2 <= a1 * t * t2) by (apply Z.mul_le_mono_nonneg_r; lia).
  assert (a1 * t2 * t <= a2 * t1 * t) by (apply Z.mul_le_mono_nonneg_r; lia).
  assert (t1 * (a * t2) <= t1 * (a2 * t)) by lia. nia.
Qed.

Theorem C105_share_value_kept_for_ever H w l w' c p : reachable H w -> pool_at w c p ->
  run_if (fun _ k => ~ may_swap c k) H w l w' ->
  exists p', pool_at w' c p' /\
    p_ra p * p_total p' <= p_ra p' * p_total p /\ p_rb p * p_total p' <= p_rb p' * p_total p.
Proof.
  intros R Hp Rn. revert p R Hp.
  induction Rn as [w|w e k w1 l w2 St Ok1 Rn IH|w n s w1 l w2 St Rn IH]; intros p R Hp.
  - exists p. split; [exact Hp|]. lia.
  - assert (R1 : reachable H w1) by (eapply reach_run; [exact R|econstructor; [exact St|constructor]]).
    inversion St as [e0 k0 w0 Eh X|]; subst.
    destruct (C105_share_value_kept _ _ _ _ _ _ _ R Hp X Ok1) as [q [Eq [A B]]].
    destruct (IH q R1 Eq) as [p' [E [A' B']]]. exists p'. split; [exact E|].
    pose proof (reach_pool _ _ R _ _ Hp) as I. pose proof (reach_pool _ _ R1 _ _ Eq) as I1.
    assert (R2 : reachable (e_hash e) w2) by (eapply reach_run; [exact R1|eapply run_if_run; exact Rn]).
    pose proof (reach_pool _ _ R2 _ _ E) as I2.
    assert (Z0 : p_total q = 0 -> p_total p = 0).
    { intros Q. destruct (pool_step _ _ _ _ X (reach_good _ _ R) (reach_pool _ _ R) _ _ Hp) as [q' [Eq' [_ [_ [T _]]]]].
      unfold pool_at in Eq. rewrite Eq in Eq'. inversion Eq'; subst q'. lia. }
    assert (N0 : 0 <= p_total q) by (destruct (pi_min _ _ _ I1); lia).
    assert (N1 : 0 <= p_total p) by (destruct (pi_min _ _ _ I); lia).
    assert (N2 : 0 <= p_total p') by (destruct (pi_min _ _ _ I2); lia).
    split; (eapply ratio_trans; [exact N0|exact N1|exact N2| |eassumption|eassumption]);
      intros Q; specialize (Z0 Q); destruct (pi_zero _ _ _ I Z0); auto.
  - assert (R1 : reachable H w1) by (eapply reach_run; [exact R|econstructor; [exact St|constructor]]).
    inversion St; subst. apply IH; auto.
Qed.
Print Assumptions C105_share_value_kept_for_ever.

(** ** C106 *)
Definition deadline_of (k : Call) : option Z :=
  match k with
  | CPoolProvide _ _ _ _ _ _ _ dl | CPoolWithdraw _ _ _ _ _ dl | CPoolSwap _ _ _ _ _ _ dl _
  | CStableProvide _ _ _ _ _ dl _ | CStableWithdraw _ _ _ _ _ dl | CStableSwap _ _ _ _ _ _ dl _
  | CHopSwap _ _ _ _ _ dl _ | CTrade _ _ _ _ _ _ dl _ _ => dl
  | _ => None
  end.
Lemma any_swap_deadline e c p u o a mi ms dl mf w r d : any_swap e c p u o a mi ms dl mf w = Ok r -> dl = Some d -> w_now w <= d.
Proof.
  intros X E. destruct r as [r w']. unfold any_swap in X. apply mbind_ok in X. destruct X as [w0 [w1 [Q X]]].
  apply mget_ok in Q. inversion Q; subst w0 w1; clear Q. destruct (fget p (w_code w)) as [[]|]; try discriminate.
  - unfold pool_swap in X. rstep X. winv. auto.
  - unfold stable_swap in X. rstep X. winv. auto.
Qed.
Theorem C106_deadlines e k w w' d : exec e k w = Ok (tt, w') -> deadline_of k = Some d -> w_now w <= d.
Proof.
  intros X E. destruct k; simpl in E; try discriminate E; simpl in X; try (apply drop_ok in X; destruct X as [r X]).
  - unfold pool_provide in X. rstep X. winv. auto.
  - unfold pool_swap in X. rstep X. winv. auto.
  - unfold pool_withdraw in X. rstep X. winv. auto.
  - unfold stable_provide in X. rstep X. winv. auto.
  - unfold stable_swap in X. rstep X. winv. auto.
  - unfold stable_withdraw in X. rstep X. winv. auto.
  - unfold hop_swap in X. rstep X. winv. destruct ops as [|o ops]; [discriminate|].
    match goal with K : hop_swaps _ _ _ _ _ _ _ _ _ _ = Ok _ |- _ => rename K into HS end.
    simpl in HS. apply mbind_ok in HS. destruct HS as [pl [w1 [Q HS]]]. apply pure_fact_pool_by_pair in Q. subst w1.
    apply mbind_ok in HS. destruct HS as [v [w2 [Q _]]].
    eapply any_swap_deadline; eauto.
  - apply trader_trade_ok in X. destruct X as [dd [amt [_ [_ [_ [_ [_ [_ [_ X]]]]]]]]]. eapply any_swap_deadline; eauto.
Qed.
Print Assumptions C106_deadlines.

(** ** C107 *)
(** A deposit into a funded pool is made at the pool's price: each side is what the other side asks
    for, rounded down, if that is less than the amount desired.  The side that is not cut may be short
    of the price by at most the tolerance, which is the caller's or the pool's default; a caller's
    tolerance above the pool's maximum is refused. *)
Theorem C107_deposit_at_pool_price H w e c self u da mina db minb custom dl w' p :
  reachable H w -> c <> Some self -> pool_at w self p -> p_total p <> 0 ->
  pool_provide e c self u da mina db minb custom dl w = Ok (tt, w') ->
  exists xa xb a b p', da = Some xa /\ db = Some xb /\ pool_at w' self p' /\
    p_ra p' = bal w (p_ta p) self + a /\ p_rb p' = bal w (p_tb p) self + b /\
    let x := p_ra p in let y := p_rb p in
    let slip := match custom with Some s => s | None => p_defslip p end in
    0 < x /\ 0 < y /\
    a = Z.min xa (xb * x / y) /\ b = Z.min xb (xa * y / x) /\
    (xa < xb * x / y -> (xb * x / y - xa) * 10 ^ 18 < xa * (slip * 10 ^ 14 + 1)) /\
    (xb < xa * y / x -> (xa * y / x - xb) * 10 ^ 18 < xb * (slip * 10 ^ 14 + 1)) /\
    (forall s, custom = Some s -> s <= p_maxslip p).
Proof.
  intros R N Hp NT X. pose proof (reach_good _ _ R) as G.
  pose proof (gd_cpool _ G _ _ Hp) as Hc. pose proof (reach_pool _ _ R _ _ Hp) as I.
  destruct (deposit_facts _ _ _ _ _ _ _ _ _ _ _ _ _ _ R N Hp X) as [p' [xa [xb [a [b [m [lk [Ep F]]]]]]]].
  destruct (df_later F NT) as [_ [Px [Py [Ea [Eb _]]]]].
  exists xa, xb, a, b, p'.
  split; [apply (df_da F)|]. split; [apply (df_db F)|]. split; [exact Ep|]. split; [apply (df_ra F)|]. split; [apply (df_rb F)|].
  cbv zeta. split; [exact Px|]. split; [exact Py|]. split; [exact Ea|]. split; [exact Eb|].
  apply pool_provide_ok in X. destruct X as [_ [_ [_ [p0 [ya [yb [a0 [b0 [w1 [w2 [w4 E]]]]]]]]]]].
  pose proof (pe_pool _ _ _ _ _ _ _ _ _ _ _ _ _ _ _ _ _ _ E) as Ep0. unfold pool_at in Hp. rewrite Hp in Ep0. inversion Ep0; subst p0.
  pose proof (pe_da _ _ _ _ _ _ _ _ _ _ _ _ _ _ _ _ _ _ E) as Qa. rewrite (df_da F) in Qa. inversion Qa; subst ya.
  pose proof (pe_db _ _ _ _ _ _ _ _ _ _ _ _ _ _ _ _ _ _ E) as Qb. rewrite (df_db F) in Qb. inversion Qb; subst yb.
  pose proof (deposit_amounts_ok _ _ _ _ _ _ _ _ _ (pe_nums _ _ _ _ _ _ _ _ _ _ _ _ _ _ _ _ _ _ E)
    ltac:(apply (pi_ra _ _ _ I)) ltac:(apply (pi_rb _ _ _ I))) as DN.
  pose proof (dn_da _ _ _ _ _ _ _ _ _ DN). pose proof (dn_db _ _ _ _ _ _ _ _ _ DN).
  destruct (dn_case _ _ _ _ _ _ _ _ _ DN) as [Q|[_ [_ [_ [_ [_ [_ [SA SB]]]]]]]]; [lia|].
  assert (SL : forall o n, 0 < n -> n < o -> o * DEC / n - DEC <= dec_bps (opt_or custom (p_defslip p)) ->
    (o - n) * 10 ^ 18 < n * ((match custom with Some s => s | None => p_defslip p end) * 10 ^ 14 + 1)).
  { intros o n Pn Lt Q. unfold opt_or in Q. set (s := match custom with Some s => s | None => p_defslip p end) in *.
    change (dec_bps s) with (s * 10 ^ 14) in Q. pose proof (Z.mod_pos_bound (o * DEC) n Pn). pose proof (Z.div_mod (o * DEC) n ltac:(lia)).
    change DEC with (10 ^ 18) in *. nia. }
  split; [intros L; apply SL; auto|]. split; [intros L; apply SL; auto|].
  apply (pe_custom _ _ _ _ _ _ _ _ _ _ _ _ _ _ _ _ _ _ E).
Qed.
Print Assumptions C107_deposit_at_pool_price.

(** ** C108 *)
Lemma bind_same {A B} (m : ST World A) (k1 k2 : A -> ST World B) w :
  (forall x w1, m w = Ok (x, w1) -> k1 x w1 = k2 x w1) -> mbind m k1 w = mbind m k2 w.
Proof. intros H. unfold mbind. destruct (m w) as [[x w1]|]; [apply H; reflexivity|reflexivity]. Qed.

(** In a stable pool the tolerance has no effect on the amounts: any two admissible values give the
    same result, so a depositor is protected by [min_shares] only. *)
Theorem C108_stable_tolerance_is_ignored e c self u da db dl mins w p s1 s2 : stable_at w self p ->
  s1 <= l_maxslip p -> s2 <= l_maxslip p ->
  stable_provide e c self u da db (Some s1) dl mins w = stable_provide e c self u da db (Some s2) dl mins w.
Proof.
  intros Hp L1 L2. unfold stable_provide.
  apply bind_same. intros x0 w0 E. apply enter_ok in E. destruct E as [_ ->].
  apply bind_same. intros x1 w1 E. apply check_deadline_ok in E. destruct E as [_ ->].
  apply bind_same. intros x2 w2 E. apply mguard_ok in E. destruct E as [_ E]. inversion E; subst x2 w2; clear E.
  apply bind_same. intros x3 w3 E. apply require_auth_ok in E. destruct E as [_ ->].
  apply bind_same. intros q w4 E. apply get_stable_ok in E. destruct E as [E ->].
  unfold stable_at in Hp. rewrite Hp in E. inversion E; subst q.
  unfold mbind at 1. unfold mbind at 25. 
  replace (l_maxslip p <? s1) with false by lia. replace (l_maxslip p <? s2) with false by lia. reflexivity.
Qed.
Print Assumptions C108_stable_tolerance_is_ignored.

(** ** C109 *)
(** storage of contract [a] has been set up *)
Definition initialised (w : World) (a : Addr) : Prop :=
  (exists x, fget a (w_pool w) = Some x) \/ (exists x, fget a (w_stable w) = Some x) \/
  (exists x, fget a (w_stake w) = Some x) \/ (exists x, fget a (w_rewards w) = Some x) \/
  (exists x, fget a (w_vest w) = Some x) \/ (exists x, fget a (w_fact w) = Some x) \/
  (exists x, fget a (w_hop w) = Some x) \/ (exists x, fget a (w_trader w) = Some x).
Definition init_target (k : Call) : option Addr :=
  match k with
  | CPoolInit a _ _ _ _ _ | CStableInit a _ _ _ _ | CStakeInit a _ _ _ _ _ _ _ | CRewInit a _ _ _ _ _ _
  | CVestInit a _ _ _ _ | CFactInit a _ _ _ _ _ _ _ | CHopInit a _ _ | CTraderInit a _ _ _ _ => Some a
  | _ => None
  end.

Ltac no_other G Hc :=
  intros [[q Q]|[[q Q]|[[q Q]|[[q Q]|[[q Q]|[[q Q]|[[q Q]|[q Q]]]]]]]];
  [pose proof (gd_cpool _ G _ _ Q)|pose proof (gd_cstable _ G _ _ Q)|pose proof (gd_cstake _ G _ _ Q)|pose proof (gd_crewards _ G _ _ Q)
  |pose proof (gd_cvest _ G _ _ Q)|pose proof (gd_cfact _ G _ _ Q)|pose proof (gd_chop _ G _ _ Q)|pose proof (gd_ctrader _ G _ _ Q)]; congruence.

Theorem C109_initialised_once H w e k w' a : reachable H w -> exec e k w = Ok (tt, w') -> init_target k = Some a ->
  ~ initialised w a /\ initialised w' a.
Proof.
  intros R X T. pose proof (reach_good _ _ R) as G.
  destruct k; simpl in T; inversion T; subst; simpl in X.
  - apply pool_initialize_ok in X. destruct X as [Hc [Np [_ [_ [_ X]]]]]. cbv zeta in X. subst w'.
    split; [no_other G Hc|]. left. eexists. simpl. apply fget_set_same.
  - apply stable_initialize_ok in X. destruct X as [Hc [Np [_ [_ [_ [_ [_ [pa [pb [_ [_ [_ X]]]]]]]]]]]]. cbv zeta in X. subst w'.
    split; [no_other G Hc|]. do 1 right. left. eexists. simpl. apply fget_set_same.
  - apply stake_initialize_ok in X. destruct X as [Hc [Np [_ [_ ->]]]].
    split; [no_other G Hc|]. do 2 right. left. eexists. simpl. apply fget_set_same.
  - apply rewards_initialize_ok in X. destruct X as [Hc [Np ->]].
    split; [no_other G Hc|]. do 3 right. left. eexists. simpl. apply fget_set_same.
  - unfold vest_initialize in X. rstep X. winv.
    match goal with K : negb (fmem _ _) = true |- _ => apply fmem_false in K end.
    match goal with K : fget _ (w_code w) = Some _ |- _ => rename K into Hc end.
    split; [no_other G Hc|]. do 4 right. left. eexists. simpl. apply fget_set_same.
  - apply fact_initialize_ok in X. destruct X as [Hc [Np [_ X]]]. cbv zeta in X. destruct X as [_ [_ ->]].
    split; [no_other G Hc|]. do 5 right. left. eexists. simpl. apply fget_set_same.
  - unfold hop_initialize in X. rstep X. winv.
    match goal with K : negb (fmem _ _) = true |- _ => apply fmem_false in K end.
    match goal with K : fget _ (w_code w) = Some _ |- _ => rename K into Hc end.
    split; [no_other G Hc|]. do 6 right. left. eexists. simpl. apply fget_set_same.
  - unfold trader_initialize in X. rstep X. winv.
    match goal with K : negb (fmem _ _) = true |- _ => apply fmem_false in K end.
    match goal with K : fget _ (w_code w) = Some _ |- _ => rename K into Hc end.
    split; [no_other G Hc|]. do 7 right. eexists. simpl. apply fget_set_same.
Qed.
Print Assumptions C109_initialised_once.

Theorem C109_stays_initialised H w l w' a : reachable H w -> run H w l w' -> initialised w a -> initialised w' a.
Proof.
  intros R Rn I. apply (run_ind2 H (fun w => initialised w a)) with (2 := R) (3 := Rn); [|exact I].
  clear. intros w ev w1 R St I. inversion St as [e k w0 Eh X|]; subst; [|exact I].
  pose proof (reach_good _ _ R) as G.
  destruct I as [[q Q]|[[q Q]|[[q Q]|[[q Q]|[[q Q]|[[q Q]|[[q Q]|[q Q]]]]]]]]; unfold initialised.
  - destruct (pool_step _ _ _ _ X G (reach_pool _ _ R) _ _ Q) as [q' [E _]]. eauto.
  - destruct (C32_settings_need_admin_name _ _ _ _ _ _ _ R Q X) as [q' [E _]]. eauto.
  - destruct (C44_only_manager_or_owner_distributes _ _ _ _ _ _ _ R Q X) as [q' [E _]]. eauto.
  - destruct (rewards_step _ _ _ _ _ _ X G Q) as [q' [E _]]. eauto 7.
  - destruct (vest_keeps _ _ _ _ _ _ R St Q) as [q' [E _]]. eauto 8.
  - destruct (C64_only_whitelisted_create _ _ _ _ _ _ _ R Q X) as [q' [E _]]. eauto 9.
  - pose proof (hop_keeps _ _ _ _ _ _ R St Q). eauto 10.
  - pose proof (trader_keeps _ _ _ _ _ _ R St Q). eauto 11.
Qed.
Print Assumptions C109_stays_initialised.
