(** The invariant of a rewards contract, with holdings allowed to fall short by a drift: a copy of SysRewards in which the credit not yet withdrawn is bounded by the balance plus the drift. *)
From Coq Require Import ZArith List Bool Lia.
From Coq Require Import ZifyBool.
From Verif Require Import Base FMap Decimal DecimalProofs Curve CurveProofs World Token TokenProofs Frame Stake Pool PoolProofs
  Stable StableProofs Rewards Vest Factory Router System SysFrame SysInv SysPool SysRewards.
Import ListNotations.
Open Scope Z_scope.

Section Drift.
Variable dr : Addr -> Addr -> Z.
Hypothesis dr_pos : forall t c, 0 <= dr t c.

Record RewardsD (w : World) (c : Addr) (r : Rewards) : Prop := {
  rz_sorted : fsorted (r_adj r);
  rz_wdr : 0 <= r_wdr r <= bal w (r_token r) c + dr (r_token r) c;
  rz_dist : r_wdr r <= r_dist r;
  rz_paid : fsum snd (r_adj r) = r_dist r - r_wdr r;
  rz_each : forall u a, In (u, a) (r_adj r) -> 0 <= snd a;
  rz_spp : 1 <= r_spp r;
  rz_left : 0 <= r_left r;
  rz_curve : cpos (r_curve r) }.

Lemma RewardsD_same w w' c r : RewardsD w c r -> bal w (r_token r) c <= bal w' (r_token r) c -> RewardsD w' c r.
Proof. intros [A B C D E F G K] L. constructor; auto. lia. Qed.

Lemma RewardsD_new w c a s t m mr mb : Good w -> RewardsD w c (new_rewards a s t m mr mb).
Proof. intros G. pose proof (good_bal w t c G). pose proof (dr_pos t c). constructor; simpl; try lia; try exact I. Qed.

Lemma adj_eachD w c r u : RewardsD w c r -> 0 <= snd (r_adj_of r u).
Proof.
  intros I. unfold r_adj_of, fgetd. destruct (fget u (r_adj r)) eqn:E; simpl; [|lia]. apply fget_in in E. apply (rz_each _ _ _ I _ _ E).
Qed.

Lemma shifted_invD w w' c u d r r' : shifted u d r r' -> (forall t, bal w t c <= bal w' t c) -> RewardsD w c r -> RewardsD w' c r'.
Proof.
  intros [[_ ->]|E] L I; [eapply RewardsD_same; eauto|]. pose proof (adj_eachD _ _ _ u I) as P. destruct I as [A B C D F G K Cp]. subst r'. constructor; simpl; auto.
  - apply fsorted_set; auto.
  - specialize (L (r_token r)). lia.
  - rewrite adj_sum. simpl. lia.
  - intros x a Ia. apply adj_in in Ia; auto. destruct Ia as [[-> ->]|Ia]; simpl; eauto.
Qed.

Lemma rpay_invD c u b w w' r r' amt : RPay c u b w w' r r' amt -> RewardsD w c r -> RewardsD w' c r'.
Proof.
  intros [_ [[_ [-> ->]]|[Pa [Lw [M E]]]]] I; auto. pose proof (adj_eachD _ _ _ u I) as P. destruct I as [A B C D F G K Cp].
  assert (Bl : bal w' (r_token r) c >= bal w (r_token r) c - amt).
  { rewrite (mv_bal _ _ _ _ _ _ M). change (bal (set_rewards w _) (r_token r) c) with (bal w (r_token r) c). rewrite !Z.eqb_refl.
    unfold ind. simpl. destruct (c =? u); lia. }
  subst r'. constructor; simpl; auto; try lia.
  - apply fsorted_set; auto.
  - pose proof (adj_sum r u (fst (r_adj_of r u), snd (r_adj_of r u) + amt)) as Q. simpl in Q. lia.
  - intros x a Ia. apply adj_in in Ia; auto. destruct Ia as [[-> ->]|Ia]; simpl; eauto. lia.
Qed.

Lemma rdist_invD c tot w w' r r' P amt lk : RDist c tot w w' r r' P amt lk -> RewardsD w c r -> RewardsD w' c r'.
Proof.
  intros V I. destruct V as [V1 V2 V3 V4 V5 V6 V7 V8]. cbv zeta in V8. destruct I as [A B C D F G K Cp].
  pose proof (cvalue_pos _ _ _ Cp V3) as Pl.
  assert (Eb : bal w' (r_token r) c = bal w (r_token r) c) by (rewrite V7; reflexivity).
  assert (0 <= shl_u128 amt SHARES_SHIFT) by (unfold shl_u128; apply Z.mod_pos_bound; unfold U128_MAX; lia).
  pose proof (dr_pos (r_token r) c) as Dp.
  subst r'. constructor; simpl; auto; try lia.
  - assert (0 <= (shl_u128 amt SHARES_SHIFT + r_left r) / P) by (apply Z.div_pos; lia). lia.
  - unfold as_u64. apply Z.mod_pos_bound. unfold U64_MAX. lia.
Qed.

Lemma rfund_invD c st du amt w w' r r' : RFund c st du amt w w' r r' -> r_admin r <> c -> RewardsD w c r -> RewardsD w' c r'.
Proof.
  intros [F1 F2 F3 F4 [w1 [M Ew]] [k [Er K]]] N I. destruct I as [A B C D F G L Cp].
  assert (Eb : bal w' (r_token r) c = bal w (r_token r) c + amt).
  { subst w'. change (bal w1 (r_token r) c = bal w (r_token r) c + amt). rewrite (mv_bal _ _ _ _ _ _ M), !Z.eqb_refl.
    unfold ind. destruct (Z.eqb_spec c (r_admin r)); [congruence|]. simpl. lia. }
  subst r'. constructor; simpl; auto; try lia.
  destruct K as [[x [_ [_ ->]]]|[_ [K _]]]; [simpl; lia|eapply combine_pos; eauto].
Qed.

Lemma RewardsD_step e k w w' c r r' : RStep e k w w' c r r' -> RewardsD w c r -> RewardsD w' c r'.
Proof.
  intros St I. destruct St; subst.
  - match goal with V : RUpd _ _ _ _ _ _ _ |- _ => destruct V as [V1 V2] end. eapply shifted_invD; eauto. subst w'. intros t. apply Z.le_refl.
  - match goal with V : RUpd _ _ _ _ _ _ _ |- _ => destruct V as [V1 V2] end. eapply shifted_invD; eauto. subst w'. intros t. apply Z.le_refl.
  - match goal with V : RUnbond _ _ _ _ _ _ _ _ _ _ _ _ |- _ => destruct V as [_ _ V3 [w1 [V4 V5]]] end.
    pose proof (rpay_invD _ _ _ _ _ _ _ _ V4 I) as I1. eapply shifted_invD; eauto. subst w'. intros t. apply Z.le_refl.
  - auto.
  - eapply rdist_invD; eauto.
  - eapply rpay_invD; eauto.
  - eapply rfund_invD; eauto.
  - eapply RewardsD_same; eauto.
Qed.

Definition AllRewardsD (w : World) : Prop := forall c r, fget c (w_rewards w) = Some r -> RewardsD w c r.

Lemma rewards_all_stepD e k w w' : exec e k w = Ok (tt, w') -> Good w -> AllRewardsD w -> AllRewardsD w'.
Proof.
  intros H G A c x Hx. destruct (fget c (w_rewards w)) as [s|] eqn:E.
  - destruct (rewards_step _ _ _ _ _ _ H G E) as [s2 [E2 St]]. rewrite Hx in E2. inversion E2; subst s2. eapply RewardsD_step; eauto.
  - destruct (exec_framec _ _ _ _ H G) as [G' _].
    destruct (rewards_fresh _ _ _ _ _ _ H G E Hx) as [a [lp [mb [mr [m [o [-> _]]]]]]]. apply RewardsD_new; auto.
Qed.


End Drift.
