(** The invariant of a vesting contract, with holdings allowed to fall short by a drift: a copy of SysVest in which the unclaimed amount is bounded by the balance plus the drift. *)
From Coq Require Import ZArith List Bool Lia.
From Coq Require Import ZifyBool.
From Verif Require Import Base FMap Decimal DecimalProofs Curve CurveProofs World Token TokenProofs Frame Stake Pool PoolProofs
  Stable StableProofs Rewards Vest Factory Router System SysFrame SysInv SysPool SysVest.
Import ListNotations.
Open Scope Z_scope.

Section Drift.
Variable dr : Addr -> Addr -> Z.
Hypothesis dr_pos : forall t c, 0 <= dr t c.

Record VestD (w : World) (c : Addr) (v : Vest) : Prop := {
  vz_owed : owed v <= bal w (v_token v) c + dr (v_token v) c;
  vz_nonneg : nonneg_ents v;
  vz_dense : forall u, dense (v_entries v u);
  vz_ent : forall u i x, fget i (v_entries v u) = Some x -> VEntry (w_now w) u x }.

Lemma VestD_UT w w' c v : UT c w w' -> Ext w w' -> fget c (w_code w) = Some KVest -> VestD w c v -> VestD w' c v.
Proof.
  intros U X _ [A B C D]. constructor; auto.
  - pose proof (ut_bal _ _ _ U (v_token v)). lia.
  - intros u i x E. eapply VEntry_le; [apply X|eauto].
Qed.

Lemma VestD_same w w' c v v' : VestD w c v -> v_ent v' = v_ent v -> v_token v' = v_token v ->
  bal w (v_token v) c <= bal w' (v_token v) c -> w_now w <= w_now w' -> VestD w' c v'.
Proof.
  intros [A B C D] E1 E2 L N.
  assert (Ee : forall u, v_entries v' u = v_entries v u) by (intros; unfold v_entries; rewrite E1; auto).
  constructor.
  - unfold owed in *. rewrite E1, E2. lia.
  - unfold nonneg_ents. rewrite E1. apply B.
  - intros u. rewrite Ee. apply C.
  - intros u i x E. rewrite Ee in E. eapply VEntry_le; eauto.
Qed.

Lemma vest_create_invD e c self l w u w' v : vest_create e c self l w = Ok (u, w') -> Good w -> 0 <= w_now w -> c <> Some self ->
  fget self (w_vest w) = Some v -> VestD w self v ->
  exists v', fget self (w_vest w') = Some v' /\ VestD w' self v'.
Proof.
  intros H G Nw N Ev [A B C D]. apply vest_create_ok in H. destruct H as [v0 [v' [tot V]]].
  destruct V as [V1 V2 V3 V4 V5 V6 V7 V8 V9]. rewrite Ev in V2. inversion V2; subst v0.
  pose proof (authed_ne _ _ _ _ _ _ G V1 N V4) as Ns.
  pose proof (create_all_ok _ _ _ _ _ V7 C B V3) as [H1 [H2 [H3 [H4 [H5 [H6 _]]]]]].
  exists v'. split; auto. constructor; auto.
  - replace (v_token v') with (v_token v) by (rewrite H1; reflexivity). rewrite (mv_bal _ _ _ _ _ _ V8). change (bal (set_vest w (fset self v' (w_vest w))) (v_token v) self) with (bal w (v_token v) self).
    rewrite !Z.eqb_refl. destruct (Z.eqb_spec self (v_admin v)); [congruence|]. simpl. lia.
  - assert (En : w_now w' = w_now w) by (rewrite (mv_rest _ _ _ _ _ _ V8); reflexivity). rewrite En.
    intros u' i x E. apply H6 in E. destruct E as [E|[cc [T [I1 [I2 [I3 ->]]]]]]; [eauto|].
    assert (Ty : typed_curve cc = true) by (rewrite forallb_forall in V3; apply (V3 (u', cc)); auto).
    constructor; simpl; auto; [eauto|]. exists 0. split; [lia|]. apply (schedule_start _ _ Ty I2).
Qed.

Lemma vest_claim_invD e c self u i w r w' v : vest_claim e c self u i w = Ok (r, w') -> Good w -> 0 <= w_now w -> c <> Some self ->
  fget self (w_vest w) = Some v -> VestD w self v ->
  exists v', fget self (w_vest w') = Some v' /\ VestD w' self v'.
Proof.
  intros H G Nw N Ev [A B C D]. apply vest_claim_ok in H. destruct H as [v0 [x [lk V]]].
  destruct V as [V1 V2 V3 V4 V5 V6 V7 V8]. rewrite Ev in V2. inversion V2; subst v0.
  pose proof (authed_ne _ _ _ _ _ _ G V1 N V3) as Ns.
  destruct (D _ _ _ V4) as [D1 D2 [T D3] D4].
  destruct (schedule_start _ _ D2 D3) as [S0 Vd].
  assert (L0 : 0 <= lk).
  { apply value_wf in V5; [lia|apply typed_wf; auto| |auto]. destruct (vi_sched x); simpl in *; [reflexivity| |];
        destruct (sl_validate _ _) || destruct (pl_validate _); auto; discriminate. }
  eexists. split; [exact V8|]. constructor.
  - rewrite owed_with, V4. simpl. rewrite (mv_bal _ _ _ _ _ _ V7).
    change (bal (set_vest w _) (v_token v) self) with (bal w (v_token v) self).
    rewrite !Z.eqb_refl. destruct (Z.eqb_spec self u); [congruence|]. simpl. lia.
  - apply nonneg_with; auto.
  - intros u'. rewrite entries_with. destruct (u' =? u); auto. eapply dense_put; eauto.
  - assert (En : w_now w' = w_now w) by (rewrite (mv_rest _ _ _ _ _ _ V7); reflexivity). rewrite En.
    intros u' i' x' E. rewrite entries_with in E. destruct (Z.eqb_spec u' u); [subst u'|eauto].
    rewrite fget_set in E. destruct (Z.eqb_spec i' i); [|eauto]. inversion E; subst x' i'.
    constructor; simpl; auto; [eauto|]. exists (w_now w). split; [lia|auto].
Qed.

Lemma vest_mint_invD e c self u amt w r w' v : vest_mint e c self u amt w = Ok (r, w') ->
  fget self (w_vest w) = Some v -> VestD w self v ->
  exists v', fget self (w_vest w') = Some v' /\ VestD w' self v'.
Proof.
  intros H Ev I. apply vest_mint_ok in H. destruct H as [v0 [m [V1 [V2 [V3 [V4 [V5 [V6 [w1 [M [Et En]]]]]]]]]]].
  rewrite Ev in V1. inversion V1; subst v0. eexists. split; [exact V6|].
  eapply VestD_same; [exact I|reflexivity|reflexivity| |lia].
  rewrite (bal_wtok w1 w') by auto. rewrite (mt_bal _ _ _ _ _ M). pose proof (mt_pos _ _ _ _ _ M).
  unfold ind. destruct (_ && _); lia.
Qed.

Lemma vest_initialize_invD self a t mc m w u w' : vest_initialize self a t mc m w = Ok (u, w') -> Good w ->
  exists v, fget self (w_vest w') = Some v /\ VestD w' self v.
Proof.
  unfold vest_initialize. intros H G. rstep H. winv. simpl. rewrite fget_set_same. eexists. split; [reflexivity|].
  constructor.
  - change (bal (set_vest w _) t self) with (bal w t self). unfold owed; simpl. pose proof (good_bal w t self G). pose proof (dr_pos t self). change (0 <= bal w t self + dr t self). lia.
  - intros u0 m0 i0 y0 [].
  - intros u0. apply dense_empty.
  - intros u0 i0 y0 E. unfold v_entries in E. simpl in E. discriminate.
Qed.

Definition AllVestD : World -> Prop := AllI w_vest VestD.

Lemma vest_all_stepD e k w w' : exec e k w = Ok (tt, w') -> Good w -> 0 <= w_now w -> AllVestD w -> AllVestD w'.
Proof.
  intros H G Nw A.
  assert (OWN : forall c, (exists p', fget c (w_vest w') = Some p' /\ VestD w' c p') ->
    forall x', fget c (w_vest w') = Some x' -> VestD w' c x').
  { intros c [p' [E1 E2]] x' Hx. rewrite Hx in E1. inversion E1; subst; auto. }
  refine (kind_step w_vest KVest VestD gd_cvest (fun _ _ _ H => ut_vest _ _ _ H) VestD_UT e k w w' H G A _ _).
  - intros c [T|[T [E|E]]] C; [|discriminate..]. apply OWN.
    pose proof (exec_tkind _ _ _ _ _ H T) as TK. rewrite C in TK.
    destruct k; simpl in T, TK; inversion T; try discriminate TK; subst; simpl in H.
    all: try (destruct (fget c (w_vest w)) as [v0|] eqn:Ep;
      [|exfalso; match type of H with ?m = _ => unfold vest_create, vest_claim, vest_burn, vest_mint, vest_update_minter, vest_update_capacity, vest_update in H end;
        rstep H; winv; congruence]; pose proof (A _ _ Ep) as I).
    + eapply vest_initialize_invD; eauto.
    + eapply vest_create_invD; eauto; discriminate.
    + eapply vest_claim_invD; eauto; discriminate.
    + apply vest_burn_ok in H. destruct H as [v1 [E1 [E2 Bn]]]. rewrite Ep in E1. inversion E1; subst v1.
      assert (Ns : u <> c) by (eapply authed_ne; eauto; discriminate).
      assert (E3 : fget c (w_vest w') = Some v0) by (rewrite (bn_rest _ _ _ _ _ Bn); simpl; auto).
      exists v0. split; auto. eapply VestD_same; [exact I|reflexivity|reflexivity| |].
      * rewrite (bn_bal _ _ _ _ _ Bn). destruct (Z.eqb_spec c u); [congruence|]. rewrite andb_false_r. simpl. lia.
      * rewrite (bn_rest _ _ _ _ _ Bn). simpl. lia.
    + eapply vest_mint_invD; eauto.
    + apply vest_update_minter_ok in H. destruct H as [v1 [E1 [_ [_ ->]]]]. rewrite Ep in E1. inversion E1; subst v1.
      simpl. rewrite fget_set_same. eexists. split; [reflexivity|]. eapply VestD_same; [exact I|..]; try reflexivity; simpl; try lia.
    + apply vest_update_capacity_ok in H. destruct H as [v1 [m [E1 [_ [_ [_ ->]]]]]]. rewrite Ep in E1. inversion E1; subst v1.
      simpl. rewrite fget_set_same. eexists. split; [reflexivity|]. eapply VestD_same; [exact I|..]; try reflexivity; simpl; try lia.
    + apply vest_update_ok in H. subst w'. exists v0. split; [exact Ep|]. eapply VestD_same; [exact I|..]; try reflexivity; simpl; try lia; try (unfold bal; simpl; lia).
  - intros c x' D G' C Hx. exfalso.
    assert (NoP : fget c (w_vest w) = None).
    { destruct (fget c (w_vest w)) eqn:E; auto. apply (gd_cvest _ G) in E. congruence. }
    destruct k; try discriminate D; deploy_cases H.
    all: try (subst w'; simpl in Hx; rewrite ?fget_set in Hx; congruence).
    match goal with Q : match ty with Xyk => _ | StableT => _ end |- _ => rename Q into Hm end.
    subst. rename Hm into H. simpl in Hx.
    destruct ty; simpl in H.
    + apply pool_initialize_ok in H. destruct H as [_ [_ [_ [_ [_ H]]]]]. cbv zeta in H. subst. simpl in Hx. congruence.
    + destruct H as [a [_ H]]. apply stable_initialize_ok in H.
      destruct H as [? [? [? [? [? [? [? [? [? [? [? [? H]]]]]]]]]]]]. cbv zeta in H. subst. simpl in Hx. congruence.
Qed.

Lemma vest_timeD w n s : w_now w <= n -> AllVestD w -> AllVestD (set_time w n s).
Proof. intros L A c x Hx. apply A in Hx. eapply VestD_same; [exact Hx|reflexivity|reflexivity|apply Z.le_refl|exact L]. Qed.


End Drift.
