(** The invariant of a stake contract, with holdings allowed to fall short by a drift: a copy of SysStake in which the bonded total is bounded by the balance plus the drift. *)
From Coq Require Import ZArith List Bool Lia.
From Coq Require Import ZifyBool.
From Verif Require Import Base FMap Decimal DecimalProofs Curve CurveProofs World Token TokenProofs Frame Stake Pool PoolProofs
  Stable StableProofs Rewards Vest Factory Router System SysFrame SysInv SysPool SysStake.
Import ListNotations.
Open Scope Z_scope.

Section Drift.
Variable dr : Addr -> Addr -> Z.
Hypothesis dr_pos : forall t c, 0 <= dr t c.

Record StakeD (w : World) (c : Addr) (s : Stake) : Prop := {
  sz_sorted : fsorted (s_users s);
  sz_user : forall u b, In (u, b) (s_users s) -> SUser (w_now w) b;
  sz_sum : s_total s = fsum b_total (s_users s);
  sz_total : 0 <= s_total s <= I128_MAX;
  sz_min : 0 < s_minbond s;
  sz_nodup : NoDup (s_dists s);
  sz_rh : forall a, In a (s_dists s) <-> fmem a (s_rh s) = true;
  sz_hist : forall a h, fget a (s_rh s) = Some h -> fsorted h /\
     forall d A, fget d h = Some A -> 0 <= A <= I128_MAX /\ 0 <= d <= w_now w /\ fmem d (s_tsh s) = true;
  sz_tsh : forall d T, fget d (s_tsh s) = Some T -> 0 <= T <= I128_MAX /\ 0 <= d <= w_now w /\ fsum (before d) (s_users s) <= T;
  sz_lp : ~ In (s_lp s) (s_dists s) -> s_total s <= bal w (s_lp s) c + dr (s_lp s) c }.

Lemma s_user_okD w c s u : StakeD w c s -> 0 <= w_now w -> SUser (w_now w) (s_user s u).
Proof.
  intros I P. unfold s_user, fgetd. destruct (fget u (s_users s)) as [b|] eqn:E; [|apply SUser_empty; auto].
  apply fget_in in E. eapply sz_user; eauto.
Qed.

Lemma user_total_leD w c s u : StakeD w c s -> 0 <= w_now w -> 0 <= b_total (s_user s u) <= s_total s.
Proof.
  intros I P. pose proof (s_user_okD _ _ _ u I P) as U. pose proof (before_le _ 0 _ U).
  split; [lia|]. rewrite (sz_sum _ _ _ I). 
  assert (PO : forall k v, In (k, v) (s_users s) -> 0 <= b_total v).
  { intros k v K. pose proof (before_le _ 0 _ (sz_user _ _ _ I _ _ K)). lia. }
  unfold s_user, fgetd. destruct (fget u (s_users s)) as [b|] eqn:E.
  - eapply fsum_ge_get; eauto.
  - simpl. apply fsum_nonneg; auto.
Qed.

Lemma StakeD_same w w' c s : StakeD w c s -> w_now w <= w_now w' -> bal w (s_lp s) c <= bal w' (s_lp s) c -> StakeD w' c s.
Proof.
  intros [A1 A2 A3 A4 A5 A6 A7 A8 A9 A10] N B. constructor; auto.
  - intros u b I. eapply SUser_le; eauto.
  - intros a h E. destruct (A8 _ _ E) as [E1 E2]. split; auto. intros d A E3. specialize (E2 _ _ E3). intuition lia.
  - intros d T E. specialize (A9 _ _ E). intuition lia.
  - intros K. specialize (A10 K). lia.
Qed.

Lemma StakeD_UT w w' c s : UT c w w' -> Ext w w' -> fget c (w_code w) = Some KStake -> StakeD w c s -> StakeD w' c s.
Proof. intros U X _ I. eapply StakeD_same; eauto; [apply X|apply (ut_bal _ _ _ U)]. Qed.

Lemma StakeD_new w c a lp mb mr m o mc : Good w -> 0 < mb -> StakeD w c (new_stake a lp mb mr m o mc).
Proof.
  intros G P. constructor; simpl; auto; try lia; try (intros; discriminate).
  - exact I.
  - unfold I128_MAX. lia.
  - constructor.
  - intros x. split; [intros []|discriminate].
  - intros _. pose proof (good_bal w lp c G). pose proof (dr_pos lp c). lia.
Qed.

Lemma StakeD_user w w' c s u b' all : StakeD w c s -> 0 <= w_now w -> w_now w' = w_now w -> SUser (w_now w) b' ->
  all = s_total s + (b_total b' - b_total (s_user s u)) -> all <= I128_MAX ->
  (forall d, d <= w_now w -> before d b' <= before d (s_user s u)) ->
  (~ In (s_lp s) (s_dists s) -> bal w' (s_lp s) c >= bal w (s_lp s) c + (b_total b' - b_total (s_user s u))) ->
  StakeD w' c (set_s_total (set_s_users s (fset u b' (s_users s))) all).
Proof.
  intros I P En Ub Ea Em Hb Hl. pose proof (user_total_leD _ _ _ u I P) as UT0. pose proof (before_le _ 0 _ Ub).
  destruct I as [A1 A2 A3 A4 A5 A6 A7 A8 A9 A10]. constructor; simpl; rewrite ?En; auto.
  - apply fsorted_set; auto.
  - intros v b I. apply fset_in in I. destruct I as [E|I]; [inversion E; subst; auto|eauto].
  - rewrite user_fsum by reflexivity. lia.
  - lia.
  - intros d T E. specialize (A9 _ _ E). rewrite user_fsum by reflexivity.
    specialize (Hb d ltac:(lia)). intuition lia.
  - intros K. specialize (A10 K). specialize (Hl K). lia.
Qed.

Lemma bond_invD e c self u amt w w' s s' : SBond e c self u amt w w' s s' -> Good w -> 0 <= w_now w -> c <> Some self ->
  StakeD w self s -> StakeD w' self s'.
Proof.
  intros [B1 B2 B3 B4 B5 B6 [w1 [M Ew]] ->] G P N I.
  pose proof (authed_ne _ _ _ _ _ _ G B1 N B3) as Ns.
  pose proof (s_user_okD _ _ _ u I P) as [U1 U2 U3]. pose proof (sz_min _ _ _ I).
  assert (En : w_now w' = w_now w) by (rewrite Ew, (mv_rest _ _ _ _ _ _ M); reflexivity).
  eapply StakeD_user; eauto; simpl; try lia.
  - constructor; simpl; auto.
    + unfold stakes_sum. rewrite ksum_app. simpl. unfold stakes_sum in U1. lia.
    + intros k K. apply in_app_or in K. destruct K as [K|[<-|[]]]; auto. simpl. lia.
  - intros d Hd. unfold before; simpl. rewrite ksum_app. simpl. unfold old_amt at 2. simpl.
    destruct (Z.ltb_spec (w_now w) d); lia.
  - intros _. rewrite Ew. change (bal (set_stake w1 _) (s_lp s) self) with (bal w1 (s_lp s) self).
    rewrite (mv_bal _ _ _ _ _ _ M). rewrite !Z.eqb_refl. destruct (Z.eqb_spec self u); [congruence|]. simpl. lia.
Qed.

Lemma unbond_invD e c self u amt ts w w' s s' l : SUnbond e c self u amt ts w w' s s' l -> Good w -> 0 <= w_now w -> c <> Some self ->
  StakeD w self s -> StakeD w' self s'.
Proof.
  intros [B1 B2 B3 B4 [w1 [M Ew]] ->] G P N I.
  pose proof (authed_ne _ _ _ _ _ _ G B1 N B3) as Ns.
  pose proof (s_user_okD _ _ _ u I P) as [U1 U2 U3].
  destruct (remove_stake_ok _ _ _ _ B4) as [k [K1 [K2 [K3 [K4 [K5 K6]]]]]].
  assert (En : w_now w' = w_now w) by (rewrite Ew, (mv_rest _ _ _ _ _ _ M); reflexivity).
  pose proof (sz_total _ _ _ I). pose proof (U3 _ K1).
  eapply StakeD_user; eauto; simpl; try lia.
  - constructor; simpl; auto.
    unfold stakes_sum in *. rewrite K4 in U1. lia.
  - intros d Hd. unfold before; simpl. rewrite (K4 (old_amt d)). assert (0 <= old_amt d k) by (unfold old_amt; destruct (_ <? _); lia). lia.
  - intros _. rewrite Ew. change (bal (set_stake w1 _) (s_lp s) self) with (bal w1 (s_lp s) self).
    rewrite (mv_bal _ _ _ _ _ _ M). rewrite !Z.eqb_refl. destruct (Z.eqb_spec self u); [congruence|]. simpl. lia.
Qed.

Lemma flow_invD e c self u a w w' s s' : SFlow e c self u a w w' s s' -> StakeD w self s -> StakeD w' self s'.
Proof.
  intros [B1 B2 B3 B4 B5 -> ->] [A1 A2 A3 A4 A5 A6 A7 A8 A9 A10]. constructor; simpl; auto.
  - apply NoDup_app_one; auto.
  - intros x. rewrite fmem_set. rewrite in_app_iff, A7. simpl. rewrite orb_true_iff, Z.eqb_eq. intuition congruence.
  - intros x h E. rewrite fget_set in E. destruct (Z.eqb_spec x a); [|apply (A8 x); auto]. inversion E; subst h. split; [exact I|]. discriminate.
  - intros K. apply A10. intros K2. apply K. apply in_or_app; auto.
Qed.

Lemma dist_invD e c self u amt a w w' s s' h : SDist e c self u amt a w w' s s' h -> Good w -> 0 <= w_now w -> c <> Some self ->
  StakeD w self s -> StakeD w' self s'.
Proof.
  intros [B1 B2 B3 B4 B5 B6 M Es] G P N I0. pose proof I0 as [A1 A2 A3 A4 A5 A6 A7 A8 A9 A10].
  pose proof (authed_ne _ _ _ _ _ _ G B1 N B3) as Ns.
  assert (En : w_now w' = w_now w) by (rewrite (mv_rest _ _ _ _ _ _ M); reflexivity).
  pose proof (mv_pos _ _ _ _ _ _ M). pose proof (mv_le _ _ _ _ _ _ M) as ML.
  change (bal (set_stake w _) a u) with (bal w a u) in ML. pose proof (good_bal w a u G).
  rewrite !as_u128_pos in Es by lia.
  rewrite Es. constructor; simpl; rewrite ?En; auto.
  - intros x. rewrite fmem_set, A7. rewrite orb_true_iff, Z.eqb_eq. split; auto. intros [->|]; auto. apply A7; auto.
  - intros x h0 E. rewrite fget_set in E. destruct (Z.eqb_spec x a).
    + inversion E; subst h0. destruct (A8 _ _ B6) as [E1 E2]. split; [apply fsorted_set; auto|]. intros d A E3.
      rewrite fget_set in E3. rewrite fmem_set. destruct (Z.eqb_spec d (w_now w)); simpl.
      * inversion E3; subst. split; [lia|]. split; [lia|auto].
      * apply (E2 _ _ E3).
    + destruct (A8 _ _ E) as [E1 E2]. split; auto. intros d A E3. rewrite fmem_set. destruct (E2 _ _ E3) as [X1 [X2 X3]].
      rewrite X3, orb_true_r. auto.
  - intros d T E. rewrite fget_set in E. destruct (Z.eqb_spec d (w_now w)).
    + inversion E; subst. split; [lia|]. split; [lia|]. rewrite A3. eapply before_total; eauto.
    + apply (A9 _ _ E).
  - intros K. specialize (A10 K). rewrite (mv_bal _ _ _ _ _ _ M). change (bal (set_stake w _) (s_lp s) self) with (bal w (s_lp s) self).
    destruct (Z.eqb_spec self u); [congruence|]. rewrite andb_false_r. unfold ind at 1. destruct (_ && _); simpl; unfold ind; lia.
Qed.

Lemma with_invD e self u w w' s s' : SWith e self u w w' s s' -> 0 <= w_now w ->
  StakeD w self s -> StakeD w' self s'.
Proof.
  intros [B1 B2 B3 [w1 [M Ew]] ->] P I.
  pose proof (s_user_okD _ _ _ u I P) as [U1 U2 U3].
  assert (En : w_now w' = w_now w) by (rewrite Ew, (pd_rest _ _ _ _ _ _ M); reflexivity).
  match goal with |- StakeD w' self (set_s_users s ?m) => change (set_s_users s m) with (set_s_total (set_s_users s m) (s_total s)) end.
  pose proof (sz_total _ _ _ I).
  eapply StakeD_user; eauto; simpl; try lia.
  - constructor; simpl; auto; lia.
  - intros d _. unfold before; simpl. lia.
  - intros K. rewrite Ew. change (bal (set_stake w1 _) (s_lp s) self) with (bal w1 (s_lp s) self).
    rewrite (pd_bal _ _ _ _ _ _ M). rewrite (proj2 (zmem_not_in _ _) K). simpl. lia.
Qed.

Lemma StakeD_step e k w w' c s s' : SStep e k w w' c s s' -> Good w -> 0 <= w_now w -> w_now w <= w_now w' -> StakeD w c s -> StakeD w' c s'.
Proof.
  intros St G P N I. destruct St.
  - eapply bond_invD; eauto; discriminate.
  - eapply unbond_invD; eauto; discriminate.
  - eapply flow_invD; eauto.
  - eapply dist_invD; eauto; discriminate.
  - eapply with_invD; eauto.
  - eapply StakeD_same; eauto.
Qed.

Definition AllStakeD : World -> Prop := AllI w_stake StakeD.

Lemma stake_all_stepD e k w w' : exec e k w = Ok (tt, w') -> Good w -> 0 <= w_now w -> AllStakeD w -> AllStakeD w'.
Proof.
  intros H G P A c s' Hx. destruct (exec_framec _ _ _ _ H G) as [G' [X' [En _]]].
  destruct (fget c (w_stake w)) as [s|] eqn:E.
  - pose proof (A _ _ E) as I. destruct (stake_step _ _ _ _ _ _ H G E (sz_nodup _ _ _ I)) as [s2 [E2 St]].
    rewrite Hx in E2. inversion E2; subst s2. eapply StakeD_step; eauto. lia.
  - destruct (stake_fresh _ _ _ _ _ _ H G E Hx) as [a [lp [mb [mr [m [o [mc [-> Pm]]]]]]]]. apply StakeD_new; auto.
Qed.

Lemma stake_timeD w n s : w_now w <= n -> AllStakeD w -> AllStakeD (set_time w n s).
Proof. intros L A c x Hx. apply A in Hx. eapply StakeD_same; [exact Hx|exact L|apply Z.le_refl]. Qed.


End Drift.
