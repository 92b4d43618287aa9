(** Exact conditions under which rewards are paid (C137), and reward tokens that do not exist (C138). *)
From Coq Require Import ZArith List Bool Lia.
From Coq Require Import ZifyBool.
From Verif Require Import Base FMap Decimal DecimalProofs Curve World Token TokenProofs Frame Stake Pool PoolProofs
  Stable StableProofs Rewards Vest Factory Router System SysFrame SysInv SysPool SysStable SysSupply
  SysVest SysStake SysRewards SysFact Script Runs Props_Token Props_Pool Props_Stable Props_Vest Props_Stake Props_Live Props_LiveTok.
Import ListNotations.
Open Scope Z_scope.

Lemma is_tok_moved t a b x w w' y : Moved t a b x w w' -> is_tok w' y <-> is_tok w y.
Proof.
  intros M. pose proof (mv_dec _ _ _ _ _ _ M) as D. split; apply is_tok_dec; intros z; rewrite D; reflexivity.
Qed.

Lemma pay_rewards_tok e self u s t b l : forall w r w', pay_rewards e self u s t b l w = Ok (r, w') ->
  forall a, In a l -> is_tok w a.
Proof.
  induction l as [|a l IH]; intros w r w' X x I; [destruct I|]. simpl in X.
  apply mbind_ok in X. destruct X as [p [w0 [X0 X]]]. apply mlift_ok in X0. destruct X0 as [p1 [_ E1]]. inversion E1; subst.
  apply mbind_ok in X. destruct X as [q [w1 [X1 X]]].
  pose proof (tok_transfer_moved _ _ _ _ _ _ _ _ _ X1) as [_ M]. apply tok_transfer_ok in X1. destruct X1 as [_ [k [k' [U _]]]].
  destruct I as [<-|I]; [exists k; apply (proj1 U)|]. apply (is_tok_moved _ _ _ _ _ _ _ M). eapply IH; eauto.
Qed.

Lemma pay_rewards_runs e self u s t b l : forall w, Good w -> fget self (w_code w) = Some KStake -> NoDup l ->
  (forall a, In a l -> exists p, pending_rewards s t a b = Ok p /\ is_tok w a /\ 0 <= p <= bal w a self /\
     (self = u \/ bal w a u + p <= I128_MAX)) ->
  exists w', pay_rewards e self u s t b l w = Ok (tt, w').
Proof.
  induction l as [|a l IH]; intros w G Hc ND A; [exists w; reflexivity|]. inversion ND as [|? ? N1 N2]; subst.
  destruct (A a (or_introl eq_refl)) as [p [P1 [P2 [P3 P4]]]]. simpl.
  rewrite (run_bind _ _ _ p w) by (apply run_lift; exact P1).
  destruct (run_transfer e (Some self) a self u p w G) as [w1 [X1 M]]; auto.
  { unfold authed. rewrite Z.eqb_refl. apply orb_true_r. }
  rewrite (run_bind _ _ _ tt w1) by exact X1.
  destruct (frame_good e self KStake _ _ _ _ (frame_transfer e (Some self) KStake a self u p) X1 G Hc) as [G1 Hc1].
  apply IH; auto. intros x I. destruct (A x (or_intror I)) as [q [Q1 [Q2 [Q3 Q4]]]]. exists q. split; [exact Q1|].
  split; [apply (is_tok_moved _ _ _ _ _ _ _ M); exact Q2|].
  assert (Nx : x <> a) by (intros ->; contradiction).
  rewrite !(mv_bal _ _ _ _ _ _ M). destruct (Z.eqb_spec x a); [contradiction|]. cbn [andb ind]. unfold ind.
  split; [lia|]. destruct Q4; [left; auto|right; lia].
Qed.

Lemma query_pending_runs s t b l : (forall a, In a l -> exists p, pending_rewards s t a b = Ok p) ->
  exists r, query_pending s t b l = Ok r.
Proof.
  induction l as [|a l IH]; intros A; simpl; [eauto|]. destruct (A a (or_introl eq_refl)) as [p P]. rewrite P. unfold rbind at 1.
  destruct IH as [r R]; [intros; apply A; right; auto|]. rewrite R. unfold rbind. eauto.
Qed.

(** A reward withdrawal succeeds exactly if the query answers and the contract can pay each amount it
    announces; it needs nobody's signature. *)
Theorem C137_withdraw_rewards_succeeds_iff H w e self s u : reachable H w -> stake_at w self s ->
  (exists w', stake_withdraw_rewards e self u w = Ok (tt, w')) <->
  (exists l, stake_query_rewards self u w = Ok (l, w) /\
     forall a v, In (a, v) l -> is_tok w a /\ v <= bal w a self /\ (u = self \/ bal w a u + v <= I128_MAX)).
Proof.
  intros R E. pose proof (reach_stake _ _ R _ _ E) as I. pose proof (reach_good _ _ R) as G.
  pose proof (proj1 (reach_now _ _ R)) as P. pose proof (gd_cstake _ G _ _ E) as Hc. split.
  - intros [w' X].
    assert (Tk : forall a, In a (s_dists s) -> is_tok w a).
    { pose proof X as X0. unfold stake_withdraw_rewards in X0. rstep X0. winv.
      match goal with K : fget self (w_stake w) = Some ?q |- _ => unfold stake_at in E; rewrite E in K; inversion K; subst end.
      match goal with K : pay_rewards _ _ _ _ _ _ _ _ = _ |- _ => exact (pay_rewards_tok _ _ _ _ _ _ _ _ _ _ K) end. }
    destruct (frame_good e self KStake _ _ _ _ (frame_stake_withdraw_rewards e self u) X G Hc) as [G' _].
    apply stake_withdraw_ok in X; [|intros s0 E0; unfold stake_at in E; rewrite E in E0; inversion E0; subst; apply (sv_nodup _ _ _ I)].
    destruct X as [s0 [s' [B1 B2 B3 [w1 [M Ew]] _]]]. unfold stake_at in E. rewrite E in B2. inversion B2; subst s0.
    destruct (query_pending_runs s (w_now w) (s_user s u) (s_dists s)) as [l Q]; [intros a Ia; eexists; apply B3; auto|].
    exists l. split; [rewrite (query_run _ _ _ _ _ R E), Q; reflexivity|]. intros a v Iv.
    assert (C : claimable w self u a v).
    { exists l. split; [rewrite (query_run _ _ _ _ _ R E), Q; reflexivity|exact Iv]. }
    destruct (claimable_pending _ _ _ _ _ _ _ R E C) as [Ia [Hp Pv]].
    pose proof (B3 a Ia) as Hp2. rewrite Hp in Hp2. inversion Hp2 as [Ev].
    pose proof (pd_pos _ _ _ _ _ _ M a Ia) as Ps. rewrite <- Ev in Ps.
    split; [apply Tk; exact Ia|]. split; [lia|]. destruct (Z.eq_dec u self); [auto|right].
    pose proof (good_bal _ a u G') as Gb. rewrite Ew in Gb. change (bal (set_stake w1 _) a u) with (bal w1 a u) in Gb.
    rewrite (pd_bal _ _ _ _ _ _ M), (proj2 (zmem_in _ _) Ia), <- Ev, Z.eqb_refl in Gb.
    destruct (Z.eqb_spec u self); [contradiction|]. unfold ind in Gb. cbn [andb] in Gb. lia.
  - intros [l [Q A]].
    assert (C : forall a, In a (s_dists s) -> exists v, In (a, v) l).
    { rewrite (query_run _ _ _ _ _ R E) in Q. destruct (query_pending _ _ _ _) as [r|] eqn:Eq; [|discriminate]. inversion Q; subst r.
      apply query_pending_ok in Eq. destruct Eq as [Q1 _]. intros a Ia. rewrite <- Q1 in Ia. apply in_map_iff in Ia.
      destruct Ia as [[a' v] [E1 E2]]. simpl in E1. subst a'. eauto. }
    unfold stake_withdraw_rewards. rewrite (run_bind _ _ _ tt w) by (apply run_enter; auto).
    rewrite (run_bind _ _ _ s w) by (apply run_get_stake; auto).
    rewrite (run_bind _ _ _ _ w) by apply run_now. cbv zeta.
    destruct (pay_rewards_runs e self u s (w_now w) (s_user s u) (s_dists s) w G Hc (sv_nodup _ _ _ I)) as [w1 X1].
    { intros a Ia. destruct (C a Ia) as [v Iv]. destruct (A _ _ Iv) as [A1 [A2 A3]].
      destruct (claimable_pending H w self s u a v R E ltac:(exists l; auto)) as [_ [Hp Pv]].
      exists v. split; [exact Hp|]. split; [exact A1|]. split; [lia|]. destruct A3; auto. }
    rewrite (run_bind _ _ _ tt w1) by exact X1. eexists. reflexivity.
Qed.
Print Assumptions C137_withdraw_rewards_succeeds_iff.

(** ** C138.  A distribution flow for an address that is no token contract: nobody can withdraw any
    reward any more, whatever happens. *)
Definition never_token (w : World) (a : Addr) : Prop :=
  a < 0 \/ exists k, fget a (w_code w) = Some k /\ k <> KTok.

Theorem C138_bad_flow_blocks_rewards H w c s a l w2 : reachable H w -> stake_at w c s -> In a (s_dists s) -> never_token w a ->
  run H w l w2 -> forall e u w', stake_withdraw_rewards e c u w2 <> Ok (tt, w').
Proof.
  intros R E Ia Na Rn.
  assert (K : (exists s2, stake_at w2 c s2 /\ In a (s_dists s2)) /\ never_token w2 a).
  { apply (run_ind2 H (fun w => (exists s2, stake_at w c s2 /\ In a (s_dists s2)) /\ never_token w a)) with (2 := R) (3 := Rn).
    - intros v ev v' Rv St [[s2 [E2 I2]] N2]. inversion St as [e0 k0 v0 Eh0 X0|]; subst.
      + pose proof (reach_good _ _ Rv) as G. pose proof (reach_stake _ _ Rv _ _ E2) as I.
        destruct (C44_only_manager_or_owner_distributes _ _ _ _ _ _ _ Rv E2 X0) as [s3 [E3 [_ [_ D]]]]. split.
        * exists s3. split; [exact E3|].
          destruct D as [[D _]|[[u0 [a0 [_ [_ [_ [_ [D _]]]]]]]|[u0 [amt [a0 [_ [_ [_ [_ [D _]]]]]]]]]]; rewrite D; auto.
          apply in_or_app; auto.
        * destruct (exec_framec _ _ _ _ X0 G) as [_ [Ex _]]. destruct N2 as [N2|[k [N2 N3]]]; [left; exact N2|right].
          exists k. split; [apply Ex; exact N2|exact N3].
      + split; [exists s2; split; auto|]. exact N2.
    - split; [exists s; auto|exact Na]. }
  destruct K as [[s2 [E2 I2]] N2]. pose proof (reach_run _ _ _ _ R Rn) as R2. pose proof (reach_good _ _ R2) as G2.
  intros e u w' X. destruct (proj1 (C137_withdraw_rewards_succeeds_iff H w2 e c s2 u R2 E2) (ex_intro _ w' X)) as [q [Q A]].
  rewrite (query_run _ _ _ _ _ R2 E2) in Q. destruct (query_pending _ _ _ _) as [r|] eqn:Eq; [|discriminate]. inversion Q; subst r.
  apply query_pending_ok in Eq. destruct Eq as [Q1 _]. rewrite <- Q1 in I2. apply in_map_iff in I2.
  destruct I2 as [[a' v] [E1 E3]]. simpl in E1. subst a'. destruct (A _ _ E3) as [[k Tk] _].
  apply (gd_ctok _ G2) in Tk. destruct N2 as [N2|[k' [N2 N3]]]; [|congruence].
  apply (gd_pos _ G2) in Tk. lia.
Qed.
Print Assumptions C138_bad_flow_blocks_rewards.
