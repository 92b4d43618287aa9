(** Properties of the stake_rewards contract: C45-C48, C89-C92. *)
From Coq Require Import ZArith List Bool Lia.
From Coq Require Import ZifyBool.
From Verif Require Import Base FMap Decimal DecimalProofs Curve CurveProofs CurveCombine World Token TokenProofs Frame Runs Stake Pool PoolProofs
  Stable StableProofs Rewards Vest Factory Router System SysFrame SysInv SysPool SysSupply SysVest SysStake SysRewards
  Script Props_Token Props_Pool Props_Vest Props_Stake.
Import ListNotations.
Open Scope Z_scope.

(** The record of the rewards contract at [c]. *)
Definition rewards_at (w : World) (c : Addr) (r : Rewards) : Prop := fget c (w_rewards w) = Some r.

(** ** C45 *)
(** The reward tokens that left contract [c] in one transaction for a user: the calls that pay are
    withdraw_rewards and calculate_unbond. *)
Definition paid_in (c : Addr) (w : World) (k : Call) (w' : World) : Z :=
  match fget c (w_rewards w) with
  | Some r => match k with
              | CRewWithdraw c' u _ | CRewUnbond c' u _ _ => if c' =? c then bal w' (r_token r) u - bal w (r_token r) u else 0
              | _ => 0
              end
  | None => 0
  end.
(** a history from the empty ledger, with everything [c] paid out in it *)
Inductive paid_run (H : Addr -> Salt -> Addr) (c : Addr) : World -> Z -> Prop :=
| pr_nil : paid_run H c w_empty 0
| pr_tx w n e k w' : paid_run H c w n -> step H w (Tx e k) w' -> (forall u b, k = CRewWithdraw c u b -> u <> c) ->
    paid_run H c w' (n + paid_in c w k w')
| pr_tick w n t s w' : paid_run H c w n -> step H w (Tick t s) w' -> paid_run H c w' n.
Lemma paid_reach H c w n : paid_run H c w n -> reachable H w.
Proof.
  induction 1.
  - exists []. constructor.
  - eapply reach_run; [eassumption|]. econstructor; [eassumption|constructor].
  - eapply reach_run; [eassumption|]. econstructor; [eassumption|constructor].
Qed.
Lemma rpay_moved c u b w w' r r' amt : RPay c u b w w' r r' amt -> u <> c -> 0 <= amt /\
  bal w' (r_token r) u - bal w (r_token r) u = amt /\ bal w' (r_token r) c = bal w (r_token r) c - amt /\ r_dist r' = r_dist r /\ r_wdr r' = r_wdr r - amt /\ r_token r' = r_token r.
Proof.
  intros [_ [[-> [-> ->]]|[Pa [Lw [M E]]]]] N; [repeat split; lia|].
  rewrite !(mv_bal _ _ _ _ _ _ M), !Z.eqb_refl. unfold ind.
  destruct (Z.eqb_spec c u); [congruence|]. destruct (Z.eqb_spec u c); [congruence|].
  change (bal (set_rewards w (fset c r' (w_rewards w))) (r_token r) u) with (bal w (r_token r) u).
  change (bal (set_rewards w (fset c r' (w_rewards w))) (r_token r) c) with (bal w (r_token r) c).
  subst r'. simpl. repeat split; lia.
Qed.
Lemma shifted_dist u d r r' : shifted u d r r' -> r_dist r' = r_dist r /\ r_wdr r' = r_wdr r /\ r_spp r' = r_spp r /\ r_left r' = r_left r /\
  r_token r' = r_token r /\ r_minbond r' = r_minbond r /\ r_curve r' = r_curve r /\ r_staking r' = r_staking r.
Proof. intros [[_ ->]| ->]; repeat split; auto. Qed.

Theorem C45_distributed_minus_withdrawable_is_paid : forall H c w n r, paid_run H c w n -> rewards_at w c r ->
  r_dist r - r_wdr r = n /\ fsum snd (r_adj r) = n /\ 0 <= r_wdr r <= bal w (r_token r) c.
Proof.
  intros H c w n r R Hr.
  pose proof (reach_rewards _ _ (paid_reach _ _ _ _ R) _ _ Hr) as I.
  enough (E : r_dist r - r_wdr r = n). { pose proof (rv_paid _ _ _ I). pose proof (rv_wdr _ _ _ I). lia. }
  clear I. enough (Q : match fget c (w_rewards w) with Some r => r_dist r - r_wdr r = n | None => n = 0 end).
  { unfold rewards_at in Hr. rewrite Hr in Q. exact Q. }
  clear r Hr. induction R as [|w n e k w' R IH St Nu|w n t s w' R IH St].
  - reflexivity.
  - inversion St as [e0 k0 w0 Eh X|]; subst. pose proof (reach_good _ _ (paid_reach _ _ _ _ R)) as G.
    unfold paid_in. destruct (fget c (w_rewards w)) as [r|] eqn:E.
    + destruct (rewards_step _ _ _ _ _ _ X G E) as [r' [-> RS]]. pose proof (gd_crewards _ G _ _ E) as Hc.
      destruct RS; subst; rewrite ?Z.eqb_refl.
      * match goal with V : RUpd _ _ _ _ _ _ _ |- _ => destruct (shifted_dist _ _ _ _ (ru_shift _ _ _ _ _ _ _ V)) as [? [? _]] end. lia.
      * match goal with V : RUpd _ _ _ _ _ _ _ |- _ => destruct (shifted_dist _ _ _ _ (ru_shift _ _ _ _ _ _ _ V)) as [? [? _]] end. lia.
      * match goal with V : RUnbond _ _ _ _ _ _ _ _ _ _ _ _ |- _ => destruct V as [_ _ V3 [w1 [V4 V5]]] end.
        assert (Un : u <> c) by (eapply (authed_ne _ None); eauto; discriminate).
        destruct (rpay_moved _ _ _ _ _ _ _ _ V4 Un) as [? [? [_ [? [? _]]]]]. destruct (shifted_dist _ _ _ _ V3) as [? [? _]].
        subst w'. change (bal (set_rewards w1 (fset c r' (w_rewards w1))) (r_token r) u) with (bal w1 (r_token r) u). lia.
      * lia.
      * match goal with V : RDist _ _ _ _ _ _ _ _ _ |- _ => rewrite (rd_after _ _ _ _ _ _ _ _ _ V) end. simpl. lia.
      * match goal with V : RPay _ _ _ _ _ _ _ _ |- _ => destruct (rpay_moved _ _ _ _ _ _ _ _ V (Nu _ _ eq_refl)) as [? [? [_ [? [? _]]]]] end. lia.
      * match goal with V : RFund _ _ _ _ _ _ _ _ |- _ => destruct (rf_after _ _ _ _ _ _ _ _ V) as [q [-> _]] end. simpl. lia.
      * match goal with V : match ?k with _ => _ end |- _ => destruct k end; try lia;
          match goal with V : ?x <> c |- _ => destruct (Z.eqb_spec x c); [congruence|lia] end.
    + destruct (fget c (w_rewards w')) as [r'|] eqn:E'; [|lia].
      destruct (rewards_fresh _ _ _ _ _ _ X G E E') as [a [s [t [m [mr [mb [-> _]]]]]]]. simpl. lia.
  - inversion St; subst. exact IH.
Qed.
Print Assumptions C45_distributed_minus_withdrawable_is_paid.

(** ** C46 *)
Theorem C46_locked_rewards_stay : forall e c tot w w' r,
  Good w -> exec e (CRewDistribute c tot) w = Ok (tt, w') -> rewards_at w c r ->
  w' = w \/ exists r' lk, rewards_at w' c r' /\ cvalue (r_curve r) (w_now w) = Ok lk /\ r_curve r' = r_curve r /\
    bal w' (r_token r') c - r_wdr r' = lk /\ r_wdr r < r_wdr r'.
Proof.
  intros e c tot w w' r G X Hr. destruct (rewards_step _ _ _ _ _ _ X G Hr) as [r' [E' RS]].
  destruct RS; try discriminate; auto.
  - right. match goal with V : RDist _ _ _ _ _ _ _ _ _ |- _ => destruct V as [V1 V2 V3 V4 V5 V6 V7 V8] end. cbv zeta in V8.
    exists r', lk. split; auto. subst r'. simpl. split; [congruence|]. split; auto. split; [|lia].
    rewrite V7. change (bal w (r_token r) c - (r_wdr r + amt) = lk). lia.
  - exfalso. match goal with K : CRewDistribute _ _ = _ |- _ => idtac | _ => idtac end. auto.
Qed.
Print Assumptions C46_locked_rewards_stay.

(** no other call takes reward tokens out of the part that is not yet distributed *)
Theorem C46_only_distribute_releases : forall e k c w w' r,
  Good w -> exec e k w = Ok (tt, w') -> rewards_at w c r -> (forall tot, k <> CRewDistribute c tot) ->
  exists r', rewards_at w' c r' /\ r_wdr r' <= r_wdr r /\ r_dist r' = r_dist r /\ r_token r' = r_token r /\
    bal w (r_token r) c - r_wdr r <= bal w' (r_token r) c - r_wdr r'.
Proof.
  intros e k c w w' r G X Hr Nd. destruct (rewards_step _ _ _ _ _ _ X G Hr) as [r' [E' RS]]. exists r'. split; auto.
  assert (Pay : forall u b w1 r1 amt, RPay c u b w w1 r r1 amt -> r_wdr r1 <= r_wdr r /\ r_dist r1 = r_dist r /\ r_token r1 = r_token r /\
    bal w (r_token r) c - r_wdr r <= bal w1 (r_token r) c - r_wdr r1).
  { intros u b w1 r1 amt V. destruct (Z.eq_dec u c) as [->|N].
    - destruct V as [_ [[-> [-> ->]]|[Pa [Lw [M ->]]]]]; [repeat split; lia|]. rewrite (mv_bal _ _ _ _ _ _ M), !Z.eqb_refl. unfold ind. simpl.
      match goal with |- context [bal (set_rewards w ?m) (r_token r) c] => change (bal (set_rewards w m) (r_token r) c) with (bal w (r_token r) c) end.
      repeat split; lia.
    - destruct (rpay_moved _ _ _ _ _ _ _ _ V N) as [? [? [? [? [? ?]]]]]. repeat split; auto; lia. }
  destruct RS; subst.
  - match goal with V : RUpd _ _ _ _ _ _ _ |- _ => destruct V as [V1 ->]; destruct (shifted_dist _ _ _ _ V1) as [? [? [_ [_ [? _]]]]] end.
    match goal with |- context [bal (set_rewards w ?m) (r_token r) c] => change (bal (set_rewards w m) (r_token r) c) with (bal w (r_token r) c) end. repeat split; auto; lia.
  - match goal with V : RUpd _ _ _ _ _ _ _ |- _ => destruct V as [V1 ->]; destruct (shifted_dist _ _ _ _ V1) as [? [? [_ [_ [? _]]]]] end.
    match goal with |- context [bal (set_rewards w ?m) (r_token r) c] => change (bal (set_rewards w m) (r_token r) c) with (bal w (r_token r) c) end. repeat split; auto; lia.
  - match goal with V : RUnbond _ _ _ _ _ _ _ _ _ _ _ _ |- _ => destruct V as [_ _ V3 [w1 [V4 ->]]] end. destruct (shifted_dist _ _ _ _ V3) as [? [? [_ [_ [? _]]]]].
    apply Pay in V4. destruct V4 as [? [? [? ?]]].
    match goal with |- context [bal (set_rewards w1 ?m) (r_token r) c] => change (bal (set_rewards w1 m) (r_token r) c) with (bal w1 (r_token r) c) end. repeat split; try congruence; lia.
  - exfalso. eapply Nd; reflexivity.
  - exfalso. eapply Nd; reflexivity.
  - eauto.
  - match goal with V : RFund _ _ _ _ _ _ _ _ |- _ => destruct V as [F1 F2 F3 F4 [w1 [M ->]] [q [-> _]]] end. simpl.
    match goal with |- context [bal (set_rewards w1 ?m) (r_token r) c] => change (bal (set_rewards w1 m) (r_token r) c) with (bal w1 (r_token r) c) end.
    rewrite (mv_bal _ _ _ _ _ _ M), !Z.eqb_refl. unfold ind. destruct (Z.eqb_spec c (r_admin r)); [congruence|]. simpl. repeat split; lia.
  - match goal with V : forall t, bal w t c <= _ |- _ => specialize (V (r_token r)) end. repeat split; auto; lia.
Qed.
Print Assumptions C46_only_distribute_releases.

(** ** C47: repeated withdrawals are refuted in Props_RewardsCases.  What does hold: all
    withdrawals together never exceed the claim before the multiplier, and at full multiplier
    the second one pays nothing. *)
Lemma withdrawable_less r r' t co wd a amt : r_spp r' = r_spp r -> r_minbond r' = r_minbond r -> 0 <= amt <= a ->
  withdrawable r t (co, wd) = Ok a -> withdrawable r' t (co, wd + amt) = Ok (a - amt).
Proof.
  intros E1 E2 L. unfold withdrawable, rbind. rewrite (calc_power_same r r') by auto. rewrite E1.
  destruct (calc_power r t) as [p|]; [|discriminate]. cbv beta iota.
  destruct (u2i (r_spp r)) as [q|]; [|discriminate]. cbv beta iota.
  destruct (mul_i q p) as [m|]; [|discriminate]. cbn [fst snd].
  destruct (add_i m co) as [s|]; [|discriminate]. cbv beta iota.
  destruct (i2u (shr_i128 s SHARES_SHIFT)) as [x|]; [|discriminate]. cbv beta iota.
  intros H. rstep H. rewrite sub_u_intro by lia. f_equal. lia.
Qed.

(** paying lowers the claim by exactly what is paid, and the recorded stakes decide the part *)
Theorem C47_claim_shrinks_by_the_payment : forall e c u b w w' r a,
  Good w -> u <> c -> exec e (CRewWithdraw c u b) w = Ok (tt, w') -> rewards_at w c r ->
  withdrawable r (b_total b) (r_adj_of r u) = Ok a ->
  exists r', rewards_at w' c r' /\ 0 <= bal w' (r_token r) u - bal w (r_token r) u <= a /\
    withdrawable r' (b_total b) (r_adj_of r' u) = Ok (a - (bal w' (r_token r) u - bal w (r_token r) u)).
Proof.
  intros e c u b w w' r a G Nu X Hr Ha. destruct (rewards_step _ _ _ _ _ _ X G Hr) as [r' [E' RS]]. exists r'. split; auto.
  destruct RS; try discriminate.
  - match goal with K : CRewWithdraw _ _ _ = _ |- _ => inversion K; subst end.
    match goal with V : RPay _ _ _ _ _ _ _ _ |- _ => destruct (rpay_moved _ _ _ _ _ _ _ _ V Nu) as [P0 [P1 _]]; rename V into Vp end.
    destruct (reward_now_ok _ _ _ _ _ (rp_now _ _ _ _ _ _ _ _ Vp)) as [a0 [m [A1 [A2 [A3 A4]]]]]. rewrite Ha in A1. inversion A1; subst a0.
    rewrite P1. split; auto. destruct (rp_eff _ _ _ _ _ _ _ _ Vp) as [[E [Ew Er]]|[Pa [Lw [M Er]]]].
    + rewrite E, Er, Z.sub_0_r. auto.
    + destruct (r_adj_of r u0) as [co wd] eqn:Ea. subst r'. unfold r_adj_of at 1. simpl. rewrite fgetd_set_same.
      eapply withdrawable_less; eauto.
  - exfalso. auto.
Qed.
Print Assumptions C47_claim_shrinks_by_the_payment.

Lemma weigh_full t l : forall ws tw a b, weigh t l ws tw = Ok (a, b) -> (forall k, In k l -> k_ts k + 60 * 86400 <= t) -> ws = tw -> a = b.
Proof.
  induction l as [|k l IH]; intros ws tw a b H F E; [simpl in H; inversion H; congruence|].
  unfold weigh in H; fold weigh in H. rstep H. match goal with K : weigh _ _ _ _ = _ |- _ => eapply IH in K; eauto end.
  - intros k' I. apply F. right; auto.
  - pose proof (F k (or_introl eq_refl)). assert (60 <= (t - k_ts k) / SECONDS_PER_DAY) by (apply Z.div_le_lower_bound; unfold SECONDS_PER_DAY; lia).
    destruct (Z.ltb_spec ((t - k_ts k) / SECONDS_PER_DAY) 60); lia.
Qed.
Lemma withdraw_power_full t l m : withdraw_power t l = Ok m -> (forall k, In k l -> k_ts k + 60 * 86400 <= t) -> m = DEC \/ m = 0.
Proof.
  unfold withdraw_power. intros H F. rstep H. match goal with K : weigh _ _ _ _ = Ok ?p |- _ => destruct p as [a b] eqn:Ep; pose proof K as Kw; apply weigh_full in K; auto; apply weigh_ok in Kw; [|lia] end.
  destruct (Z.ltb_spec 0 b); [|inversion R0; auto]. rstep R0.
  match goal with K : dec_from_ratio _ _ = Ok _ |- _ => apply dec_from_ratio_ok in K; destruct K as [K1 [_ ->]] end. left. subst.
  rewrite Z.mul_comm. apply Z.quot_mul. lia.
Qed.
Theorem C47_full_multiplier_pays_once : forall e e2 c u b w w1 w2 r,
  Good w -> u <> c -> rewards_at w c r -> (forall k, In k (b_stakes b) -> k_ts k + 60 * 86400 <= w_now w) ->
  exec e (CRewWithdraw c u b) w = Ok (tt, w1) -> exec e2 (CRewWithdraw c u b) w1 = Ok (tt, w2) ->
  w2 = w1.
Proof.
  intros e e2 c u b w w1 w2 r G Nu Hr F X1 X2.
  destruct (exec_framec _ _ _ _ X1 G) as [G1 [_ [En _]]].
  apply rewards_withdraw_ok in X1. destruct X1 as [r0 [r1 [amt0 [_ [E0 [_ V1]]]]]]. unfold rewards_at in Hr. rewrite Hr in E0. inversion E0; subst r0.
  pose proof (rpay_get _ _ _ _ _ _ _ _ V1 Hr) as E1.
  apply rewards_withdraw_ok in X2. destruct X2 as [r0 [r2 [amt [_ [E2 [_ V2]]]]]]. rewrite E1 in E2. inversion E2; subst r0. clear E0 E2.
  destruct (reward_now_ok _ _ _ _ _ (rp_now _ _ _ _ _ _ _ _ V1)) as [a [m [A1 [A2 [A3 A4]]]]].
  assert (Nw : w_now w1 = w_now w) by lia.
  pose proof (rp_now _ _ _ _ _ _ _ _ V2) as N2. rewrite Nw in N2. destruct (reward_now_ok _ _ _ _ _ N2) as [a2 [m2 [B1 [B2 [B3 B4]]]]].
  rewrite A2 in B2. inversion B2; subst m2.
  assert (Z0 : amt = 0).
  { destruct (withdraw_power_full _ _ _ A2 F) as [->| ->].
    - rewrite Z.div_mul in A4 by (unfold DEC; lia). subst amt0.
      destruct (rp_eff _ _ _ _ _ _ _ _ V1) as [[E [Ew Er]]|[Pa [Lw [M Er]]]].
      + subst. rewrite A1 in B1. inversion B1; subst. lia.
      + destruct (r_adj_of r u) as [co wd] eqn:Ea.
        assert (Q : withdrawable r1 (b_total b) (r_adj_of r1 u) = Ok (a - a)).
        { rewrite Er at 2. unfold r_adj_of at 1. simpl r_adj. rewrite fgetd_set_same. eapply (withdrawable_less r); [subst r1; reflexivity|subst r1; reflexivity|lia|exact A1]. }
        rewrite B1 in Q. inversion Q. lia.
    - rewrite Z.mul_0_r in B4. rewrite B4. reflexivity. }
  destruct (rp_eff _ _ _ _ _ _ _ _ V2) as [[_ [Ew _]]|[Pa _]]; [auto|lia].
Qed.
Print Assumptions C47_full_multiplier_pays_once.

(** ** C48 *)
(** a reward curve that ends at zero *)
Definition ends_at_zero (k : curve) : Prop :=
  match k with
  | Constant y => y = 0
  | SatLin a b d e => wf_step (a, b) /\ wf_step (d, e) /\ a < d /\ e = 0
  | PieceLin s => pl_good s /\ pl_end_value s = Some 0
  end.
Lemma good_last tl : forall f, times_from (fst f) tl -> In (last tl f) (f :: tl) /\ forall p, In p (f :: tl) -> fst p <= fst (last tl f).
Proof.
  induction tl as [|g tl IH]; intros f T; [simpl; split; [auto|intros p [->|[]]; lia]|].
  destruct T as [T1 T2]. rewrite last_cons. destruct (IH g T2) as [A B]. split; [right; auto|].
  intros p [->|I]; [|auto]. specialize (B g (or_introl eq_refl)). lia.
Qed.
(** the last step *)
Lemma good_end s : pl_good s -> exists p, In p s /\ (forall q, In q s -> fst q <= fst p) /\ cend (PieceLin s) = Some (fst p) /\ pl_end_value s = Some (snd p).
Proof.
  destruct s as [|f tl]; [intros []|]. intros [W T]. destruct (good_last tl f T) as [A B]. exists (last tl f). split; auto. split; auto.
  unfold cend, pl_end_value. rewrite last_cons. auto.
Qed.
Lemma pl_value_past s x p : pl_good s -> In p s -> (forall q, In q s -> fst q <= fst p) -> fst p <= x -> pl_value s x = Ok (snd p).
Proof.
  intros G I M L. destruct s as [|f tl]; [destruct I|]. pose proof G as [W T]. destruct (good_last tl f T) as [A B].
  assert (E : last tl f = p).
  { pose proof (B _ I) as B1. pose proof (M _ A) as B2. assert (Et : fst p = fst (last tl f)) by lia. destruct p as [t v], (last tl f) as [t' v'] eqn:El.
    simpl in Et. subst t'. pose proof (pl_value_at _ _ _ G I) as V1. pose proof (pl_value_at _ _ _ G A) as V2. congruence. }
  destruct (Z.leb_spec x (fst f)).
  - assert (fst f <= fst p) by (apply M; left; auto). assert (x = fst p) by lia. subst x. destruct p. apply pl_value_at; auto.
  - unfold pl_value. rewrite last_cons, E. destruct (Z.leb_spec x (fst f)); [lia|]. destruct (Z.leb_spec (fst p) x); [auto|lia].
Qed.
Lemma ends_value k x : ends_at_zero k -> (forall d, cend k = Some d -> d < x) -> cvalue k x = Ok 0.
Proof.
  destruct k as [y|a b d e|s]; intros E L.
  - simpl in *. congruence.
  - destruct E as [W1 [W2 [Lt ->]]]. specialize (L d eq_refl). simpl. unfold sl_value.
    destruct (Z.ltb_spec x a); [lia|]. destruct (Z.ltb_spec d x); [auto|lia].
  - destruct E as [G E]. destruct (good_end s G) as [p [I [M [C V]]]]. specialize (L _ C). simpl. rewrite (pl_value_past s x p); auto; [congruence|lia].
Qed.
(** combining two ended curves gives a curve that ends at zero, at the later of the two ends *)
Lemma pl_combine_ends p q r tp tq : pl_good p -> pl_good q -> pl_combine p q = Ok r ->
  pl_end_value p = Some 0 -> pl_end_value q = Some 0 -> cend (PieceLin p) = Some tp -> cend (PieceLin q) = Some tq ->
  ends_at_zero (PieceLin r) /\ cend (PieceLin r) = Some (Z.max tp tq).
Proof.
  intros Gp Gq H Ep Eq Cp Cq. destruct (pl_combine_good _ _ _ Gp Gq H) as [Gr T].
  destruct (good_end p Gp) as [lp [Ip [Mp [Cp' Vp]]]]. destruct (good_end q Gq) as [lq [Iq [Mq [Cq' Vq]]]]. destruct (good_end r Gr) as [lr [Ir [Mr [Cr Vr]]]].
  rewrite Cp in Cp'. rewrite Cq in Cq'. inversion Cp'; inversion Cq'; subst tp tq. clear Cp' Cq'.
  assert (In1 : forall t, In t (map fst p) \/ In t (map fst q) -> t <= fst lr).
  { intros t Ht. apply comb_times_in in Ht. rewrite <- T in Ht. apply in_map_iff in Ht. destruct Ht as [z [<- Iz]]. auto. }
  assert (L1 : fst lp <= fst lr) by (apply In1; left; apply in_map; auto).
  assert (L2 : fst lq <= fst lr) by (apply In1; right; apply in_map; auto).
  assert (U : fst lr <= Z.max (fst lp) (fst lq)).
  { assert (Q : In (fst lr) (map fst r)) by (apply in_map; auto). rewrite T in Q. apply comb_times_in in Q.
    destruct Q as [Q|Q]; apply in_map_iff in Q; destruct Q as [z [Ez Iz]]; [pose proof (Mp _ Iz)|pose proof (Mq _ Iz)]; lia. }
  split; [|rewrite Cr; f_equal; lia]. split; auto. rewrite Vr. f_equal.
  unfold pl_combine in H. apply combine_at_ok in H as [_ V]. destruct lr as [t v]. simpl in *. destruct (V _ _ Ir) as [a [b [A [B [-> _]]]]].
  rewrite (pl_value_past p t lp) in A by auto. rewrite (pl_value_past q t lq) in B by auto.
  rewrite Ep in Vp. rewrite Eq in Vq. inversion Vp; inversion Vq; inversion A; inversion B. lia.
Qed.
Lemma ends_steps k : ends_at_zero k -> (forall y, k <> Constant y) -> pl_good (steps_of k) /\ pl_end_value (steps_of k) = Some 0 /\ cend (PieceLin (steps_of k)) = cend k.
Proof.
  destruct k as [y|a b d e|s]; intros E N; [exfalso; eapply N; reflexivity| |simpl in *; tauto].
  destruct E as [W1 [W2 [L ->]]]. simpl. repeat split; auto. constructor; auto.
Qed.
Lemma shift_zero s s' : shift_steps 0 s = Ok s' -> s' = s.
Proof.
  intros H. apply shift_steps_ok in H as [-> _]. induction s as [|[t v] tl IH]; [reflexivity|]. cbn [map fst snd]. rewrite IH, Z.add_0_l. reflexivity.
Qed.
Lemma combine_const_zero k k' : combine_const k 0 = Ok k' -> k' = k.
Proof.
  destruct k; simpl; intros H; rstep H; rewrite ?Z.add_0_r; auto. f_equal. apply shift_zero; auto.
Qed.
Lemma combine_ends k1 k2 r : ends_at_zero k1 -> ends_at_zero k2 -> combine k1 k2 = Ok r ->
  ends_at_zero r /\ cend r = match cend k1, cend k2 with Some a, Some b => Some (Z.max a b) | Some a, None | None, Some a => Some a | None, None => None end.
Proof.
  intros E1 E2 H. destruct (combine_comm_case _ _ _ H) as [[y [k [E C]]]|[Nc [Nd [s [-> P]]]]].
  - destruct E as [[-> ->]|[-> ->]]; simpl in *; subst y; apply combine_const_zero in C; subst r; split; auto.
    + destruct (cend k2); auto.
    + destruct (cend k1); auto.
  - destruct (ends_steps _ E1 Nc) as [A1 [A2 A3]]. destruct (ends_steps _ E2 Nd) as [B1 [B2 B3]].
    destruct (good_end _ A1) as [l1 [_ [_ [C1 _]]]]. destruct (good_end _ B1) as [l2 [_ [_ [C2 _]]]].
    rewrite <- A3, <- B3, C1, C2. cbv iota.
    destruct P as [P|P]; [exact (pl_combine_ends _ _ _ _ _ A1 B1 P A2 B2 C1 C2)|]. rewrite Z.max_comm. exact (pl_combine_ends _ _ _ _ _ B1 A1 P B2 A2 C2 C1).
Qed.

(** every funding of [c] ends after it starts *)
Definition funds_forward (c : Addr) (w : World) (k : Call) : Prop := forall st du amt, k = CRewFund c st du amt -> st < w_now w + du.
Lemma fund_curve c st du amt w w' r r' : Good w -> 0 <= w_now w -> RFund c st du amt w w' r r' -> r_admin r <> c -> st < w_now w + du -> ends_at_zero (r_curve r) ->
  ends_at_zero (r_curve r') /\ exists x, cend (r_curve r') = Some x /\
    (x = w_now w + du \/ exists y, cend (r_curve r) = Some y /\ x = Z.max y (w_now w + du)).
Proof.
  intros G P0 [F1 F2 F3 F4 [w1 [M _]] [q [-> K]]] N L E. simpl.
  assert (Ez : ends_at_zero (SatLin st amt (w_now w + du) 0)).
  { simpl. unfold wf_step; simpl. pose proof (good_bal w (r_token r) (r_admin r) G). pose proof (mv_le _ _ _ _ _ _ M).
    unfold I128_MAX, U128_MAX, U64_MAX in *. repeat split; lia. }
  destruct K as [[x [C [Lx ->]]]|[C [K _]]].
  - split; auto. exists (w_now w + du). simpl. auto.
  - destruct (combine_ends _ _ _ E Ez K) as [A B]. split; auto. simpl cend in B.
    destruct (cend (r_curve r)) as [y|]; [exists (Z.max y (w_now w + du)); eauto|exists (w_now w + du); eauto].
Qed.
Lemma curve_step c e k w w' r r' : Good w -> 0 <= w_now w -> RStep e k w w' c r r' -> funds_forward c w k -> ends_at_zero (r_curve r) -> ends_at_zero (r_curve r').
Proof.
  intros G P0 St F E. destruct St; subst; auto.
  - match goal with V : RUpd _ _ _ _ _ _ _ |- _ => destruct (shifted_dist _ _ _ _ (ru_shift _ _ _ _ _ _ _ V)) as [_ [_ [_ [_ [_ [_ [-> _]]]]]]] end. auto.
  - match goal with V : RUpd _ _ _ _ _ _ _ |- _ => destruct (shifted_dist _ _ _ _ (ru_shift _ _ _ _ _ _ _ V)) as [_ [_ [_ [_ [_ [_ [-> _]]]]]]] end. auto.
  - match goal with V : RUnbond _ _ _ _ _ _ _ _ _ _ _ _ |- _ => destruct V as [_ _ V3 [w1 [V4 V5]]] end.
    destruct (shifted_dist _ _ _ _ V3) as [_ [_ [_ [_ [_ [_ [-> _]]]]]]]. destruct (rp_eff _ _ _ _ _ _ _ _ V4) as [[_ [_ ->]]|[_ [_ [_ ->]]]]; auto.
  - match goal with V : RDist _ _ _ _ _ _ _ _ _ |- _ => rewrite (rd_after _ _ _ _ _ _ _ _ _ V) end. auto.
  - match goal with V : RPay _ _ _ _ _ _ _ _ |- _ => destruct (rp_eff _ _ _ _ _ _ _ _ V) as [[_ [_ ->]]|[_ [_ [_ ->]]]] end; auto.
  - eapply fund_curve; eauto.
Qed.
Lemma forward_curve H c w l w' : run_if (funds_forward c) H w l w' -> reachable H w ->
  (forall r, rewards_at w c r -> ends_at_zero (r_curve r)) -> forall r, rewards_at w' c r -> ends_at_zero (r_curve r).
Proof.
  apply (run_if_inv (funds_forward c) H (fun w => forall r, rewards_at w c r -> ends_at_zero (r_curve r))).
  - intros e k w1 w2 _ RC F X V r Hr. pose proof (reach_wgood _ _ RC) as [G N _].
    destruct (fget c (w_rewards w1)) as [r1|] eqn:E.
    + destruct (rewards_step _ _ _ _ _ _ X G E) as [r2 [E2 St]]. unfold rewards_at in Hr. rewrite Hr in E2. inversion E2; subst r2.
      eapply curve_step; eauto. lia.
    + destruct (rewards_fresh _ _ _ _ _ _ X G E Hr) as [a [s [t [m [mr [mb [-> _]]]]]]]. reflexivity.
  - intros w1 n sq _ V r Hr. apply V. exact Hr.
Qed.
Theorem C48_funded_rewards_unlock : forall H c l w r t, run_if (funds_forward c) H w_empty l w -> rewards_at w c r ->
  (forall x, cend (r_curve r) = Some x -> x < t) -> cvalue (r_curve r) t = Ok 0.
Proof.
  intros H c l w r t R Hr L. apply ends_value; auto. eapply (forward_curve H c _ _ _ R); eauto.
  - exists []. constructor.
  - intros r0 Hx. discriminate.
Qed.
Print Assumptions C48_funded_rewards_unlock.
(** a funding moves the end of the curve no further than its own end *)
Theorem C48_end_after_funding : forall H c l w r e st du amt w', run_if (funds_forward c) H w_empty l w -> rewards_at w c r ->
  exec e (CRewFund c st du amt) w = Ok (tt, w') -> st < w_now w + du ->
  exists r' x, rewards_at w' c r' /\ cend (r_curve r') = Some x /\ (x = w_now w + du \/ exists y, cend (r_curve r) = Some y /\ x = Z.max y (w_now w + du)).
Proof.
  intros H c l w r e st du amt w' R Hr X L.
  assert (RC : reachable H w) by (exists l; eapply run_if_run; eauto).
  assert (E : ends_at_zero (r_curve r)). { eapply (forward_curve H c _ _ _ R); eauto; [exists []; constructor|intros r0 Hx; discriminate]. }
  pose proof (reach_wgood _ _ RC) as [G N _].
  destruct (rewards_step _ _ _ _ _ _ X G Hr) as [r' [E' St]]. destruct St; try discriminate; [|exfalso; auto].
  match goal with K : CRewFund _ _ _ _ = _ |- _ => inversion K; subst end.
  match goal with V : RFund _ _ _ _ _ _ _ _ |- _ => eapply fund_curve in V; eauto; [|lia] end.
  match goal with V : _ /\ exists x, _ |- _ => destruct V as [_ [x V]] end. exists r', x. split; auto.
Qed.
Print Assumptions C48_end_after_funding.
(** ... so a distribution made after the end releases everything the contract holds *)
Theorem C48_everything_released : forall H c l w r e tot w', run_if (funds_forward c) H w_empty l w -> rewards_at w c r ->
  (forall x, cend (r_curve r) = Some x -> x < w_now w) ->
  exec e (CRewDistribute c tot) w = Ok (tt, w') -> w' <> w ->
  exists r', rewards_at w' c r' /\ r_wdr r' = bal w' (r_token r') c.
Proof.
  intros H c l w r e tot w' R Hr L X Nw.
  assert (RC : reachable H w) by (exists l; eapply run_if_run; eauto).
  destruct (C46_locked_rewards_stay _ _ _ _ _ _ (reach_good _ _ RC) X Hr) as [->|[r' [lk [E' [V [_ [B _]]]]]]]; [congruence|].
  rewrite (C48_funded_rewards_unlock _ _ _ _ _ _ R Hr L) in V. inversion V; subst. exists r'. split; auto. lia.
Qed.
Print Assumptions C48_everything_released.

(** ** C89: the points are solvent when the staking contract reports honestly *)
(** [T] is what each user has staked, as the staking contract knows it.  Honest calls:
    bond reports the stake before plus the new last entry, unbond and withdraw the current
    stake, add_user the stake of a user not reported before, distribute a total that is at
    least the sum of the reported stakes. *)
Definition tells (c : Addr) (k : Call) (T T' : Addr -> Z) : Prop :=
  match k with
  | CRewBond c' u b => c' = c /\ b_total b = T u /\ (forall l x, b_stakes b = l ++ [x] -> 0 <= k_amt x /\ T' u = T u + k_amt x) /\ forall v, v <> u -> T' v = T v
  | CRewUnbond c' u b x => c' = c /\ b_total b = T u /\ x <= T u /\ T' u = T u - x /\ forall v, v <> u -> T' v = T v
  | CRewAddUser c' u b => c' = c /\ T u = 0 /\ 0 <= b_total b /\ T' u = b_total b /\ forall v, v <> u -> T' v = T v
  | CRewWithdraw c' u b => c' = c /\ b_total b = T u /\ forall v, T' v = T v
  | CRewDistribute c' tot => c' = c /\ (forall l, NoDup l -> zsum T l <= tot) /\ forall v, T' v = T v
  | _ => forall v, T' v = T v
  end.
Definition on_rewards (k : Call) (c : Addr) : Prop :=
  match k with CRewBond c' _ _ | CRewUnbond c' _ _ _ | CRewAddUser c' _ _ | CRewWithdraw c' _ _ | CRewDistribute c' _ => c' = c | _ => False end.
Inductive honest (H : Addr -> Salt -> Addr) (c : Addr) : World -> (Addr -> Z) -> Prop :=
| ho_nil T : (forall u, T u = 0) -> honest H c w_empty T
| ho_mine w T e k w' T' : honest H c w T -> step H w (Tx e k) w' -> on_rewards k c -> tells c k T T' -> honest H c w' T'
| ho_other w T e k w' : honest H c w T -> step H w (Tx e k) w' -> ~ on_rewards k c -> honest H c w' T
| ho_tick w T t s w' : honest H c w T -> step H w (Tick t s) w' -> honest H c w' T.
Lemma honest_reach H c w T : honest H c w T -> reachable H w.
Proof.
  induction 1; try (eapply reach_run; [eassumption|]; econstructor; [eassumption|constructor]).
  exists []. constructor.
Qed.

(** the power of a stake *)
Definition pw (r : Rewards) (t : Z) : Z := if t <? r_minbond r then 0 else t / 1000.
Lemma pw_pos r t : 0 <= t -> 0 <= pw r t.
Proof. intros P. unfold pw. destruct (_ <? _); [lia|]. apply Z.div_pos; lia. Qed.
Lemma pw_zero r : pw r 0 = 0.
Proof. unfold pw. destruct (_ <? _); reflexivity. Qed.
Lemma calc_pw r t p : 0 <= t -> calc_power r t = Ok p -> p = pw r t.
Proof. intros P H. apply calc_power_ok in H. rewrite H. unfold pw. destruct (_ <? _); auto. apply Z.quot_div_nonneg; lia. Qed.
Lemma pw_add r T l tot : (forall u, 0 <= T u) -> zsum T l <= tot -> zsum (fun u => pw r (T u)) l <= pw r tot.
Proof.
  intros P L.
  assert (Q : 1000 * zsum (fun u => pw r (T u)) l <= zsum T l /\ (zsum T l < r_minbond r -> zsum (fun u => pw r (T u)) l = 0)).
  { clear L. induction l as [|a l [IH1 IH2]]; cbn [zsum]; [lia|]. pose proof (P a) as Pa.
    assert (0 <= zsum T l) by (clear - P; induction l; simpl; [lia|specialize (P a); lia]).
    set (z := zsum (fun u => pw r (T u)) l) in *. unfold pw. pose proof (Z.mul_div_le (T a) 1000 ltac:(lia)).
    destruct (Z.ltb_spec (T a) (r_minbond r)); split; intros; lia. }
  assert (0 <= zsum T l) by (clear - P; induction l; simpl; [lia|specialize (P a); lia]).
  destruct Q as [Q1 Q2]. unfold pw at 2. destruct (Z.ltb_spec tot (r_minbond r)); [rewrite Q2; lia|].
  apply Z.div_le_lower_bound; lia.
Qed.
(** points of a user *)
Definition pts (r : Rewards) (T : Addr -> Z) (u : Addr) : Z := r_spp r * pw r (T u) + fst (r_adj_of r u).
Record Points (r : Rewards) (T : Addr -> Z) : Prop := {
  pt_pos : forall u, 0 <= T u;
  pt_paid : forall u, 2^32 * snd (r_adj_of r u) <= pts r T u;
  pt_sum : forall l, NoDup l -> zsum (pts r T) l + r_left r <= 2^32 * r_dist r }.

Lemma adj_set r u a v : r_adj_of (set_r_adj r u a) v = if v =? u then a else r_adj_of r v.
Proof. unfold r_adj_of. simpl. apply fgetd_set. Qed.
(** the points do not change when a stake changes *)
Lemma shifted_points r r' T T' u : shifted u (pw r (T' u) - pw r (T u)) r r' -> (forall v, v <> u -> T' v = T v) ->
  forall v, pts r' T' v = pts r T v /\ snd (r_adj_of r' v) = snd (r_adj_of r v).
Proof.
  intros V N v. unfold pts.
  destruct V as [[E ->]| ->].
  - split; auto. destruct (Z.eq_dec v u) as [->|Nv]; [|rewrite N; auto]. replace (pw r (T' u)) with (pw r (T u)) by lia. auto.
  - rewrite adj_set. change (r_spp (set_r_adj r u (fst (r_adj_of r u) - r_spp r * (pw r (T' u) - pw r (T u)), snd (r_adj_of r u)))) with (r_spp r).
    match goal with |- context [pw (set_r_adj r u ?a)] => change (pw (set_r_adj r u a)) with (pw r) end.
    destruct (Z.eqb_spec v u) as [->|Nv]; simpl; [split; [lia|auto]|rewrite N; auto].
Qed.
Lemma points_ext r r' T T' : Points r T -> (forall u, 0 <= T' u) -> (forall v, pts r' T' v = pts r T v /\ snd (r_adj_of r' v) = snd (r_adj_of r v)) ->
  r_left r' = r_left r -> r_dist r' = r_dist r -> Points r' T'.
Proof.
  intros [A B C] P E El Ed. constructor; auto.
  - intros u. destruct (E u) as [-> ->]. auto.
  - intros l N. rewrite (zsum_ext _ (pts r T)) by (intros a _; apply E). rewrite El, Ed. auto.
Qed.
Lemma paid_points c u b w w' r r' amt T : RPay c u b w w' r r' amt -> b_total b = T u -> Points r T -> Points r' T.
Proof.
  intros V Eb P. destruct (rp_eff _ _ _ _ _ _ _ _ V) as [[_ [_ ->]]|[Pa [_ [_ ->]]]]; auto.
  destruct (reward_now_ok _ _ _ _ _ (rp_now _ _ _ _ _ _ _ _ V)) as [a [m [A1 [A2 [A3 _]]]]].
  destruct (withdrawable_ok _ _ _ _ A1) as [p [Hp [Ea [Ha _]]]].
  destruct P as [P1 P2 P3]. rewrite Eb in Hp. apply calc_pw in Hp; auto.
  set (r2 := set_r_dist r (r_spp r) (r_left r) (r_dist r) (r_wdr r - amt)).
  assert (E : forall v, pts (set_r_adj r2 u (fst (r_adj_of r u), snd (r_adj_of r u) + amt)) T v = pts r T v).
  { intros v. unfold pts. rewrite adj_set. destruct (Z.eqb_spec v u) as [->|]; reflexivity. }
  constructor; auto.
  - intros v. rewrite E, adj_set. destruct (Z.eqb_spec v u) as [->|]; [|apply (P2 v)]. simpl snd.
    unfold pts. rewrite <- Hp. pose proof (Z.mul_div_le (r_spp r * p + fst (r_adj_of r u)) (2^32) ltac:(lia)). nia.
  - intros l N. rewrite (zsum_ext _ (pts r T)) by (intros v _; apply E). apply P3; auto.
Qed.
Lemma dist_points c tot w w' r r' P amt lk T : RDist c tot w w' r r' P amt lk -> 0 <= r_left r -> (forall l, NoDup l -> zsum T l <= tot) -> Points r T -> Points r' T.
Proof.
  intros V L0 Ht Q. destruct Q as [P1 P2 P3]. destruct V as [V1 V2 V3 V4 V5 V6 V7 V8]. cbv zeta in V8.
  set (n := shl_u128 amt SHARES_SHIFT + r_left r) in *.
  assert (Hn : 0 <= shl_u128 amt SHARES_SHIFT <= 2^32 * amt).
  { unfold shl_u128, SHARES_SHIFT. split; [apply Z.mod_pos_bound; unfold U128_MAX; lia|]. rewrite (Z.mul_comm amt). apply Z.mod_le; unfold U128_MAX; lia. }
  assert (P0 : 0 <= tot) by (specialize (Ht [] (NoDup_nil _)); simpl in Ht; lia).
  apply calc_pw in V1; auto. set (q := n / P) in *.
  assert (0 <= q) by (apply Z.div_pos; lia).
  assert (E : forall v, pts r' T v = pts r T v + q * pw r (T v)).
  { intros v. unfold pts. subst r'. simpl r_spp. match goal with |- context [pw (set_r_dist r ?a ?b ?d ?f)] => change (pw (set_r_dist r a b d f)) with (pw r) end.
    match goal with |- context [r_adj_of (set_r_dist r ?a ?b ?d ?f)] => change (r_adj_of (set_r_dist r a b d f)) with (r_adj_of r) end. ring. }
  constructor; auto.
  - intros v. rewrite E. replace (r_adj_of r' v) with (r_adj_of r v) by (subst r'; reflexivity). specialize (P2 v). pose proof (pw_pos r (T v) (P1 v)). nia.
  - intros l N. rewrite (zsum_ext _ _ l (fun v _ => E v)), zsum_plus. specialize (P3 l N).
    assert (S : zsum (fun v => q * pw r (T v)) l = q * zsum (fun v => pw r (T v)) l) by (clear; induction l; simpl; [lia|rewrite IHl; ring]).
    rewrite S. pose proof (pw_add r T l tot P1 (Ht l N)) as W. rewrite <- V1 in W.
    assert (D : P * q + n mod P = n) by (unfold q; rewrite <- Z.div_mod; lia).
    assert (Lf : r_left r' <= n mod P). { subst r'. simpl. unfold as_u64. apply Z.mod_le; [apply Z.mod_pos_bound; lia|unfold U64_MAX; lia]. }
    assert (Dd : r_dist r' = r_dist r + amt) by (subst r'; reflexivity). rewrite Dd. nia.
Qed.

Lemma honest_points H c w T : honest H c w T ->
  (forall u, 0 <= T u) /\ (fget c (w_rewards w) = None -> forall u, T u = 0) /\ forall r, rewards_at w c r -> Points r T.
Proof.
  induction 1 as [T Z0|w T e k w' T' Ho [IHp [IHn IH]] St On Tl|w T e k w' Ho [IHp [IHn IH]] St On|w T t s w' Ho [IHp [IHn IH]] St].
  - split; [intros u; rewrite Z0; lia|]. split; [auto|]. intros r Hr. discriminate.
  - pose proof (honest_reach _ _ _ _ Ho) as RC. pose proof (reach_good _ _ RC) as G. inversion St as [e0 k0 w0 Eh X|]; subst.
    assert (Pos : fget c (w_rewards w) <> None -> forall u, 0 <= T' u).
    { intros _. destruct k; simpl in On; try tauto; subst; simpl in Tl.
      - destruct Tl as [_ [Tz [Pb [Tu Tv]]]]. intros v. destruct (Z.eq_dec v u) as [->|N]; [lia|rewrite Tv; auto].
      - destruct Tl as [_ [Tb [Tx Tv]]]. apply rewards_bond_ok in X. destruct X as [r0 [r' [x [p0 [p1 [_ [_ [_ [[l El] _]]]]]]]]].
        destruct (Tx _ _ El). intros v. destruct (Z.eq_dec v u) as [->|N]; [specialize (IHp u); lia|rewrite Tv; auto].
      - destruct Tl as [_ [Tb [Tx [Tu Tv]]]]. intros v. destruct (Z.eq_dec v u) as [->|N]; [lia|rewrite Tv; auto].
      - destruct Tl as [_ [_ Tv]]. intros v. rewrite Tv. auto.
      - destruct Tl as [_ [_ Tv]]. intros v. rewrite Tv. auto. }
    destruct (fget c (w_rewards w)) as [r|] eqn:E.
    + split; [apply Pos; discriminate|]. destruct (rewards_step _ _ _ _ _ _ X G E) as [r2 [E2 RS]]. split; [congruence|]. intros r' Hr'. specialize (IH r E). specialize (Pos ltac:(discriminate)).
      unfold rewards_at in Hr'. rewrite Hr' in E2. inversion E2; subst r2. clear E2.
      assert (Ext : forall q, (forall v, T' v = T v) -> Points q T -> Points q T').
      { intros q Tv Pq. eapply points_ext; eauto. intros v. unfold pts. rewrite Tv. auto. }
      destruct RS; subst; simpl in On, Tl; try contradiction.
      * destruct Tl as [_ [Tz [Pb [Tu Tv]]]]. match goal with V0 : RUpd _ _ _ _ _ _ _ |- _ => destruct V0 as [V _] end.
        assert (Hp : p = pw r (b_total b)) by (apply calc_pw; auto).
        assert (V' : shifted u (pw r (T' u) - pw r (T u)) r r').
        { replace (pw r (T u)) with 0 by (rewrite Tz; unfold pw; destruct (_ <? _); reflexivity). rewrite Tu, <- Hp, Z.sub_0_r. auto. }
        destruct (shifted_dist _ _ _ _ V) as [D1 [_ [_ [D2 _]]]]. eapply points_ext; eauto. eapply shifted_points; eauto.
      * destruct Tl as [_ [Tb [Tx Tv]]]. match goal with V0 : RUpd _ _ _ _ _ _ _ |- _ => destruct V0 as [V _] end.
        match goal with K : b_stakes b = _ |- _ => destruct (Tx _ _ K) as [Px Tu] end.
        assert (Hp0 : p0 = pw r (T u)) by (rewrite <- Tb; apply calc_pw; [rewrite Tb; auto|auto]).
        assert (Hp1 : p1 = pw r (T' u)) by (rewrite Tu, <- Tb; apply calc_pw; [specialize (IHp u); lia|auto]).
        destruct (shifted_dist _ _ _ _ V) as [D1 [_ [_ [D2 _]]]]. eapply points_ext; eauto. eapply shifted_points; eauto. rewrite <- Hp0, <- Hp1. auto.
      * destruct Tl as [_ [Tb [Tx [Tu Tv]]]].
        match goal with V : RUnbond _ _ _ _ _ _ _ _ _ _ _ _ |- _ => destruct V as [V1 V2 V3 [w1 [V4 V5]]] end.
        pose proof (paid_points _ _ _ _ _ _ _ _ _ V4 Tb IH) as I1.
        assert (Mb : pw r1 = pw r) by (destruct (rp_eff _ _ _ _ _ _ _ _ V4) as [[_ [_ ->]]|[_ [_ [_ ->]]]]; reflexivity).
        apply calc_pw in V1; [|rewrite Tb; auto]. apply calc_pw in V2; [|lia]. rewrite Tb in V1, V2.
        destruct (shifted_dist _ _ _ _ V3) as [D1 [_ [_ [D2 _]]]]. eapply points_ext; eauto. eapply shifted_points; eauto.
        rewrite Mb, Tu, <- V1, <- V2. auto.
      * destruct Tl as [_ [_ Tv]]. auto.
      * destruct Tl as [_ [Ht Tv]]. apply Ext; auto. eapply dist_points; eauto. apply (rv_left _ _ _ (reach_rewards _ _ RC _ _ E)).
      * destruct Tl as [_ [Tb Tv]]. apply Ext; auto. eapply paid_points; eauto.
      * exfalso. destruct k; simpl in On; subst; try contradiction; auto.
    + exfalso. destruct k; simpl in On; try tauto; subst; simpl in X.
      all: unfold rewards_add_user, rewards_bond, rewards_unbond, rewards_distribute, rewards_withdraw in X; rstep X; winv; congruence.
  - pose proof (honest_reach _ _ _ _ Ho) as RC. pose proof (reach_good _ _ RC) as G. inversion St as [e0 k0 w0 Eh X|]; subst.
    destruct (fget c (w_rewards w)) as [r|] eqn:E.
    + specialize (IH r E). destruct (rewards_step _ _ _ _ _ _ X G E) as [r2 [E2 RS]]. split; auto. split; [congruence|]. intros r' Hr'. unfold rewards_at in Hr'. rewrite Hr' in E2. inversion E2; subst r2.
      destruct RS; subst; simpl in On; try (exfalso; apply On; reflexivity); auto.
      match goal with V : RFund _ _ _ _ _ _ _ _ |- _ => destruct (rf_after _ _ _ _ _ _ _ _ V) as [q [-> _]] end.
      eapply points_ext; eauto; intros v; split; reflexivity.
    + split; auto. split; [auto|]. intros r' Hr'. specialize (IHn eq_refl). destruct (rewards_fresh _ _ _ _ _ _ X G E Hr') as [a [s [t [m [mr [mb [-> Ek]]]]]]].
      assert (Zp : forall u, pts (new_rewards a s t m mr mb) T u = 0).
      { intros u. unfold pts, pw. rewrite IHn. simpl. destruct (_ <? _); reflexivity. }
      constructor; auto.
      * intros u. rewrite Zp. simpl. lia.
      * intros l _. rewrite (zsum_ext _ (fun _ => 0)) by (intros u _; apply Zp). rewrite zsum_zero. simpl. lia.
  - inversion St; subst. split; auto.
Qed.

Lemma rewards_query_ok c u b w x w' : rewards_query c u b w = Ok (x, w') -> exists r, fget c (w_rewards w) = Some r /\ reward_now r (w_now w) u b = Ok x.
Proof. unfold rewards_query. intros H. rstep H. winv. eauto. Qed.
(** the amounts the contract would pay out now to distinct users, at their recorded stakes,
    add up to no more than it has set aside, which it holds *)
Theorem C89_claims_are_covered : forall H c w T r l, honest H c w T -> rewards_at w c r ->
  NoDup (map fst l) ->
  Forall (fun x => exists b, b_total b = T (fst x) /\ rewards_query c (fst x) b w = Ok (snd x, w)) l ->
  sum_of snd l <= r_wdr r /\ r_wdr r <= bal w (r_token r) c.
Proof.
  intros H c w T r l Ho Hr N F. pose proof (honest_reach _ _ _ _ Ho) as RC. pose proof (reach_rewards _ _ RC _ _ Hr) as I.
  split; [|apply (rv_wdr _ _ _ I)]. destruct (honest_points _ _ _ _ Ho) as [Pp [_ IH]]. specialize (IH r Hr). destruct IH as [P1 P2 P3].
  set (cl u := pts r T u / 2^32 - snd (r_adj_of r u)).
  assert (Cp : forall u, 0 <= cl u). { intros u. unfold cl. specialize (P2 u). assert (snd (r_adj_of r u) <= pts r T u / 2^32) by (apply Z.div_le_lower_bound; lia). lia. }
  assert (L1 : sum_of snd l <= zsum cl (map fst l)).
  { clear N. induction F as [|x l Hx F IH]; simpl; [lia|]. destruct Hx as [b [Eb Q]]. apply rewards_query_ok in Q. destruct Q as [r0 [E0 Q]].
    unfold rewards_at in Hr. rewrite Hr in E0. inversion E0; subst r0. apply reward_now_ok in Q. destruct Q as [a [m [A1 [_ [A3 _]]]]].
    destruct (withdrawable_ok _ _ _ _ A1) as [p [Hp [Ea _]]]. rewrite Eb in Hp. apply calc_pw in Hp; auto.
    assert (a = cl (fst x)) by (unfold cl, pts; rewrite <- Hp; auto). lia. }
  assert (Un : forall l0, NoDup l0 -> zsum cl l0 <= r_wdr r); [|specialize (Un _ N); lia].
  clear - P1 P2 P3 I Cp. intros l N.
  (* enlarge the list so that it covers everybody who was paid *)
  set (l2 := l ++ filter (fun k => negb (zmem k l)) (fkeys (r_adj r))).
  assert (N2 : NoDup l2).
  { unfold l2. pose proof (rv_sorted _ _ _ I) as Sd. assert (NF : NoDup (filter (fun k => negb (zmem k l)) (fkeys (r_adj r)))) by (apply NoDup_filter; eapply sorted_nodup; eauto).
    assert (D : forall x, In x l -> ~ In x (filter (fun k => negb (zmem k l)) (fkeys (r_adj r)))).
    { intros x Ix K. apply filter_In in K. destruct K as [_ K]. apply zmem_in in Ix. rewrite Ix in K. discriminate. }
    revert D NF. generalize (filter (fun k => negb (zmem k l)) (fkeys (r_adj r))). clear - N. induction N as [|x l N1 N2 IH]; simpl; intros q D NF; auto.
    constructor; [|apply IH; auto]. rewrite in_app_iff. intros [K|K]; [tauto|]. eapply D; eauto. }
  assert (A : zsum cl l <= zsum cl l2). { unfold l2. rewrite zsum_app. pose proof (zsum_nonneg cl (filter (fun k => negb (zmem k l)) (fkeys (r_adj r))) (fun a _ => Cp a)). lia. }
  assert (Sn : fsum snd (r_adj r) = zsum (fun u => snd (r_adj_of r u)) l2).
  { rewrite (fsum_cover_by snd (r_adj r) l2 (rv_sorted _ _ _ I) N2).
    - apply zsum_ext. intros u _. unfold r_adj_of, fgetd. destruct (fget u (r_adj r)); auto.
    - intros u v Eu _. unfold l2. apply in_or_app. destruct (zmem u l) eqn:Z0; [left; apply zmem_in; auto|right].
      apply filter_In. rewrite Z0. split; auto. apply keys_mem. unfold fmem. rewrite Eu. auto. }
  assert (B : zsum cl l2 = zsum (fun u => pts r T u / 2^32) l2 - zsum (fun u => snd (r_adj_of r u)) l2) by (unfold cl; clear; induction l2; cbn [zsum]; lia).
  assert (C : 2^32 * zsum (fun u => pts r T u / 2^32) l2 <= zsum (pts r T) l2).
  { clear. induction l2 as [|a l2 IH]; cbn [zsum]; [lia|]. pose proof (Z.mul_div_le (pts r T a) (2^32) ltac:(lia)). lia. }
  specialize (P3 l2 N2). pose proof (rv_left _ _ _ I). pose proof (rv_paid _ _ _ I). lia.
Qed.
Print Assumptions C89_claims_are_covered.

(** ** C90: changing a stake keeps the rewards earned before *)
Theorem C90_stake_changes_keep_claims : forall H c w T e k w' T' r u a a',
  honest H c w T -> exec e k w = Ok (tt, w') -> tells c k T T' -> rewards_at w c r ->
  (exists b, k = CRewBond c u b) \/ (exists b, k = CRewAddUser c u b) ->
  withdrawable r (T u) (r_adj_of r u) = Ok a ->
  exists r', rewards_at w' c r' /\ (forall t, bal w' t c = bal w t c) /\
    (forall v, v <> u -> T' v = T v /\ r_adj_of r' v = r_adj_of r v) /\
    (withdrawable r' (T' u) (r_adj_of r' u) = Ok a' -> a' = a).
Proof.
  intros H c w T e k w' T' r u a a' Ho X Tl Hr K Ha. pose proof (reach_good _ _ (honest_reach _ _ _ _ Ho)) as G.
  destruct (honest_points _ _ _ _ Ho) as [Pp _].
  destruct (withdrawable_ok _ _ _ _ Ha) as [p [Hp [Ea _]]]. apply calc_pw in Hp; auto.
  assert (Fin : forall d r', RUpd c u d w w' r r' -> fget c (w_rewards w') = Some r' -> 0 <= T' u -> d = pw r (T' u) - pw r (T u) -> (forall v, v <> u -> T' v = T v) ->
    rewards_at w' c r' /\ (forall t, bal w' t c = bal w t c) /\ (forall v, v <> u -> T' v = T v /\ r_adj_of r' v = r_adj_of r v) /\
    (withdrawable r' (T' u) (r_adj_of r' u) = Ok a' -> a' = a)).
  { intros d r' [V1 V2] E' Pu Ed Tv. split; auto. split; [intros t; subst w'; reflexivity|]. split.
    - intros v Nv. split; auto. destruct V1 as [[_ ->]| ->]; auto. rewrite adj_set. destruct (Z.eqb_spec v u); [congruence|auto].
    - intros Ha'. destruct (withdrawable_ok _ _ _ _ Ha') as [p' [Hp' [Ea' _]]]. apply calc_pw in Hp'; auto. subst d.
      destruct (shifted_points _ _ _ _ _ V1 Tv u) as [E1 E2]. unfold pts in E1. rewrite Ea', Ea, Hp', Hp, E1, E2. reflexivity. }
  destruct K as [[b ->]|[b ->]]; simpl in X, Tl.
  - destruct Tl as [_ [Tb [Tx Tv]]]. apply rewards_bond_ok in X. destruct X as [r0 [r' [x [p0 [p1 [_ [E0 [_ [[l El] [H0 [H1 V]]]]]]]]]]].
    unfold rewards_at in Hr. rewrite Hr in E0. inversion E0; subst r0. exists r'. destruct (Tx _ _ El) as [Px Tu]. pose proof (Pp u).
    apply calc_pw in H0; [|lia]. apply calc_pw in H1; [|lia]. eapply Fin; eauto; [|lia|].
    + rewrite (ru_world _ _ _ _ _ _ _ V). simpl. apply fget_set_same.
    + rewrite H0, H1, Tb, Tu. reflexivity.
  - destruct Tl as [_ [Tz [Pb [Tu Tv]]]]. apply rewards_add_user_ok in X. destruct X as [r0 [r' [p0 [_ [E0 [_ [H0 V]]]]]]].
    unfold rewards_at in Hr. rewrite Hr in E0. inversion E0; subst r0. exists r'. apply calc_pw in H0; auto. eapply Fin; eauto; [|lia|].
    + rewrite (ru_world _ _ _ _ _ _ _ V). simpl. apply fget_set_same.
    + rewrite H0, Tu, Tz, pw_zero. lia.
Qed.
Print Assumptions C90_stake_changes_keep_claims.

(** ** C91: a distribution credits every token *)
Theorem C91_distribution_is_fully_credited : forall e c tot w w' r,
  Good w -> exec e (CRewDistribute c tot) w = Ok (tt, w') -> rewards_at w c r -> w' <> w -> 0 <= tot < 2^64 ->
  exists r', rewards_at w' c r' /\
    ((r_dist r' - r_dist r) * 2^32 <= U128_MAX ->
     (r_spp r' - r_spp r) * pw r tot + r_left r' = (r_dist r' - r_dist r) * 2^32 + r_left r /\ 0 <= r_left r' < pw r tot).
Proof.
  intros e c tot w w' r G X Hr Nw Lt. destruct (rewards_step _ _ _ _ _ _ X G Hr) as [r' [E' RS]]. exists r'. split; auto.
  destruct RS; try discriminate; try congruence.
  match goal with V : RDist _ _ _ _ _ _ _ _ _ |- _ => destruct V as [V1 V2 V3 V4 V5 V6 V7 V8] end. cbv zeta in V8.
  match goal with K : CRewDistribute _ _ = _ |- _ => inversion K; subst tot0 end.
  apply calc_pw in V1; [|lia]. subst r'. simpl. rewrite <- V1. intros Ub.
  replace (r_dist r + amt - r_dist r) with amt in * by lia.
  assert (Sh : shl_u128 amt SHARES_SHIFT = amt * 2^32) by (unfold shl_u128, SHARES_SHIFT; apply Z.mod_small; lia).
  rewrite Sh. set (n := amt * 2^32 + r_left r).
  assert (PL : P < 2^64). { subst P. unfold pw. destruct (_ <? _); [lia|]. assert (tot / 1000 <= tot) by (apply Z.div_le_upper_bound; lia). lia. }
  pose proof (Z.mod_pos_bound n P V2). unfold as_u64. rewrite (Z.mod_small (n mod P) (U64_MAX + 1)) by (unfold U64_MAX; lia).
  split; [|lia]. pose proof (Z.div_mod n P ltac:(lia)). unfold n in *. lia.
Qed.
Print Assumptions C91_distribution_is_fully_credited.

(** ** C92: who may drive the accounting *)
Theorem C92_staking_contract_signs : forall e k c w w' r r', Good w -> exec e k w = Ok (tt, w') ->
  rewards_at w c r -> rewards_at w' c r' -> r' <> r ->
  signs e (r_staking r) = true /\ (r_curve r' <> r_curve r -> signs e (r_admin r) = true).
Proof.
  intros e k c w w' r r' G X Hr Hr' N. destruct (rewards_step _ _ _ _ _ _ X G Hr) as [r2 [E2 RS]].
  unfold rewards_at in Hr'. rewrite Hr' in E2. inversion E2; subst r2. rewrite <- !(authed_root e).
  destruct RS; subst; try congruence; split; auto; intros Nc; try (exfalso; apply Nc).
  - match goal with V : RUpd _ _ _ _ _ _ _ |- _ => destruct (shifted_dist _ _ _ _ (ru_shift _ _ _ _ _ _ _ V)) as [_ [_ [_ [_ [_ [_ [-> _]]]]]]] end. auto.
  - match goal with V : RUpd _ _ _ _ _ _ _ |- _ => destruct (shifted_dist _ _ _ _ (ru_shift _ _ _ _ _ _ _ V)) as [_ [_ [_ [_ [_ [_ [-> _]]]]]]] end. auto.
  - match goal with V : RUnbond _ _ _ _ _ _ _ _ _ _ _ _ |- _ => destruct V as [_ _ V3 [w1 [V4 V5]]] end.
    destruct (shifted_dist _ _ _ _ V3) as [_ [_ [_ [_ [_ [_ [-> _]]]]]]]. destruct (rp_eff _ _ _ _ _ _ _ _ V4) as [[_ [_ ->]]|[_ [_ [_ ->]]]]; auto.
  - match goal with V : RDist _ _ _ _ _ _ _ _ _ |- _ => rewrite (rd_after _ _ _ _ _ _ _ _ _ V) end. auto.
  - match goal with V : RPay _ _ _ _ _ _ _ _ |- _ => destruct (rp_eff _ _ _ _ _ _ _ _ V) as [[_ [_ ->]]|[_ [_ [_ ->]]]] end; auto.
Qed.
Print Assumptions C92_staking_contract_signs.
