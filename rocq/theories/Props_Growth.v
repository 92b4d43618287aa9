(** C195-C198: which records can grow, and who makes them grow.  Every call that walks through
    a list pays for its length; these theorems bound each list by calls that named accounts
    signed themselves. *)
From Coq Require Import ZArith List Bool Lia.
From Coq Require Import ZifyBool.
From Verif Require Import Base FMap Decimal DecimalProofs Curve World Token TokenProofs Frame Stake Pool PoolProofs
  Stable StableProofs Rewards Vest Factory Router System SysFrame SysInv SysPool SysStable SysSupply
  SysVest SysStake SysRewards SysFact Script Props_Token Props_Pool Props_Vest Props_Stake Props_Rewards Props_Factory
  Props_StakeCases Props_RewardsCases Props_VestCases Props_FactoryCases.
Import ListNotations.
Open Scope list_scope.
Open Scope Z_scope.

Definition count (f : Event -> bool) (l : list Event) : nat := length (filter f l).

(** [n] grows by at most one, and only with an event that satisfies [f]; [Q] can be carried back *)
Lemma count_run H (n : World -> nat) (f : Event -> bool) (Q : World -> Prop) :
  (forall w ev w', reachable H w -> step H w ev w' -> Q w' -> Q w /\ (n w' <= n w + (if f ev then 1 else 0))%nat) ->
  forall w0 l w, run H w0 l w -> reachable H w0 -> Q w -> Q w0 /\ (n w <= n w0 + count f l)%nat.
Proof.
  intros St w0 l w R. induction R as [w|w ev w1 l w2 S R IH]; intros Rw Qw; [split; [auto|unfold count; simpl; lia]|].
  assert (R1 : reachable H w1) by (eapply reach_run; [exact Rw|econstructor; [exact S|constructor]]).
  destruct (IH R1 Qw) as [Q1 L1]. destruct (St _ _ _ Rw S Q1) as [Q0 L0]. split; [auto|].
  unfold count in *. simpl. destruct (f ev); simpl; lia.
Qed.
Lemma fset_length_le {V} k (v : V) m : (length (fset k v m) <= S (length m))%nat.
Proof.
  destruct (fget k m) as [x|] eqn:E; [rewrite (fset_length_mem k v x) by auto; lia|rewrite fset_length by auto; lia].
Qed.
Lemma remove_stake_len l : forall amt ts l', remove_stake l amt ts = Ok l' -> length l = S (length l').
Proof.
  induction l as [|k l IH]; intros amt ts l' H; [discriminate|]. unfold remove_stake in H; fold remove_stake in H.
  destruct (_ && _); [inversion H; subst; reflexivity|]. rstep H.
  match goal with K : remove_stake l _ _ = _ |- _ => apply IH in K end. simpl. lia.
Qed.

(** ** C195: stake records *)
Definition stakes_no (c u : Addr) (w : World) : nat :=
  match fget c (w_stake w) with Some s => length (b_stakes (s_user s u)) | None => O end.
Definition flows_no (c : Addr) (w : World) : nat :=
  match fget c (w_stake w) with Some s => length (s_dists s) | None => O end.
Definition days_no (c : Addr) (w : World) : nat :=
  match fget c (w_stake w) with Some s => length (s_tsh s) | None => O end.
Definition hist_no (c a : Addr) (w : World) : nat :=
  match fget c (w_stake w) with Some s => length (fgetd fempty a (s_rh s)) | None => O end.

(** the calls that may make them grow *)
Definition own_bond (c u : Addr) (ev : Event) : bool :=
  match ev with Tx e (CBond c' u' _) => (c' =? c) && (u' =? u) && signs e u | _ => false end.
Definition by_role (e : Env) (m o u : Addr) : bool := ((u =? m) || (u =? o)) && signs e u.
Definition role_flow (c m o : Addr) (ev : Event) : bool :=
  match ev with Tx e (CFlow c' u _) => (c' =? c) && by_role e m o u | _ => false end.
Definition role_dist (c m o : Addr) (ev : Event) : bool :=
  match ev with Tx e (CDistribute c' u _ _) => (c' =? c) && by_role e m o u | _ => false end.
Definition role_dist_of (c m o a : Addr) (ev : Event) : bool :=
  match ev with Tx e (CDistribute c' u _ a') => (c' =? c) && (a' =? a) && by_role e m o u | _ => false end.

Definition roles (c m o : Addr) (w : World) : Prop :=
  forall s, fget c (w_stake w) = Some s -> s_manager s = m /\ s_owner s = o.

Lemma user_set s u b u' : s_user (set_s_users s (fset u b (s_users s))) u' = if u' =? u then b else s_user s u'.
Proof. unfold s_user. simpl. apply fgetd_set. Qed.

(** one transaction on an existing stake contract *)
Lemma stake_grow e k w w' c s u a : exec e k w = Ok (tt, w') -> Good w -> fget c (w_stake w) = Some s -> NoDup (s_dists s) ->
  exists s', fget c (w_stake w') = Some s' /\ s_manager s' = s_manager s /\ s_owner s' = s_owner s /\
   (length (b_stakes (s_user s' u)) <= length (b_stakes (s_user s u)) + (if own_bond c u (Tx e k) then 1 else 0))%nat /\
   (length (s_dists s') <= length (s_dists s) + (if role_flow c (s_manager s) (s_owner s) (Tx e k) then 1 else 0))%nat /\
   (length (s_tsh s') <= length (s_tsh s) + (if role_dist c (s_manager s) (s_owner s) (Tx e k) then 1 else 0))%nat /\
   (length (fgetd fempty a (s_rh s')) <= length (fgetd fempty a (s_rh s)) +
      (if role_dist_of c (s_manager s) (s_owner s) a (Tx e k) then 1 else 0))%nat.
Proof.
  intros X G E ND. destruct (stake_step _ _ _ _ _ _ X G E ND) as [s' [E' St]]. exists s'. split; [exact E'|].
  assert (Rl : forall x, (x = s_manager s \/ x = s_owner s) -> signs e x = true -> by_role e (s_manager s) (s_owner s) x = true).
  { intros x [->| ->] Sg; unfold by_role; rewrite Z.eqb_refl, Sg, ?orb_true_r; reflexivity. }
  destruct St as [x amt s' K V|x amt ts s' l K V|x y s' K V|x amt y s' h K V|x s' K V|K _].
  - destruct V as [_ _ V1 _ _ _ _ ->]. rewrite authed_root in V1. simpl. subst k. simpl. rewrite Z.eqb_refl. simpl.
    repeat (split; [first [reflexivity|lia]|]). split; [|split; [lia|split; [lia|lia]]].
    unfold s_user. simpl. rewrite fgetd_set. destruct (Z.eqb_spec u x) as [->|N].
    + rewrite Z.eqb_refl, V1. simpl. rewrite app_length. simpl. unfold s_user. lia.
    + lia.
  - destruct V as [_ _ V1 V2 _ ->]. simpl. subst k. simpl.
    repeat (split; [first [reflexivity|lia]|]). split; [|split; [lia|split; [lia|lia]]].
    unfold s_user. simpl. rewrite fgetd_set. destruct (Z.eqb_spec u x) as [->|N]; [|lia].
    simpl. apply remove_stake_len in V2. unfold s_user in V2. lia.
  - destruct V as [_ _ V1 V2 V3 _ ->]. rewrite authed_root in V1. simpl. subst k. simpl. rewrite Z.eqb_refl, (Rl _ V2 V1). simpl.
    repeat (split; [first [reflexivity|lia]|]). split; [unfold s_user; simpl; lia|]. split; [rewrite app_length; simpl; lia|]. split; [lia|].
    rewrite fgetd_set. destruct (Z.eqb_spec a y) as [->|N]; simpl; lia.
  - destruct V as [_ _ V1 V2 V3 V4 _ ->]. rewrite authed_root in V1. simpl. subst k. simpl. rewrite Z.eqb_refl, (Rl _ V2 V1). simpl.
    repeat (split; [first [reflexivity|lia]|]). split; [unfold s_user; simpl; lia|]. split; [lia|].
    split; [pose proof (fset_length_le (w_now w) (as_u128 (s_total s)) (s_tsh s)); lia|].
    rewrite fgetd_set. destruct (Z.eqb_spec a y) as [->|N].
    + rewrite Z.eqb_refl. simpl. pose proof (fset_length_le (w_now w) (as_u128 amt) h). unfold fgetd. rewrite V4. lia.
    + lia.
  - destruct V as [_ _ _ _ ->]. simpl. subst k. simpl.
    repeat (split; [first [reflexivity|lia]|]). split; [|split; [lia|split; [lia|lia]]].
    unfold s_user. simpl. rewrite fgetd_set. destruct (Z.eqb_spec u x) as [->|N]; simpl; unfold s_user; lia.
  - repeat split; lia.
Qed.

Lemma stake_count H w ev w' c m o u a : reachable H w -> step H w ev w' -> roles c m o w' ->
  roles c m o w /\
  (stakes_no c u w' <= stakes_no c u w + (if own_bond c u ev then 1 else 0))%nat /\
  (flows_no c w' <= flows_no c w + (if role_flow c m o ev then 1 else 0))%nat /\
  (days_no c w' <= days_no c w + (if role_dist c m o ev then 1 else 0))%nat /\
  (hist_no c a w' <= hist_no c a w + (if role_dist_of c m o a ev then 1 else 0))%nat.
Proof.
  intros R S Ro. unfold stakes_no, flows_no, days_no, hist_no.
  destruct S as [e k w' Eh X|n q].
  - destruct (fget c (w_stake w)) as [s|] eqn:E.
    + destruct (stake_grow _ _ _ _ _ _ u a X (reach_good _ _ R) E (sv_nodup _ _ _ (reach_stake _ _ R _ _ E)))
        as [s' [E' [Em [Eo [A [B [C D]]]]]]].
      destruct (Ro _ E') as [Q1 Q2]. rewrite E'. rewrite Em in Q1. rewrite Eo in Q2. subst m o.
      split; [intros s0 E0; rewrite E in E0; inversion E0; subst; auto|]. auto.
    + split; [intros s0 E0; congruence|]. destruct (fget c (w_stake w')) as [s'|] eqn:E'; [|lia].
      destruct (stake_fresh _ _ _ _ _ _ X (reach_good _ _ R) E E') as [q1 [q2 [q3 [q4 [q5 [q6 [q7 [-> _]]]]]]]].
      unfold new_stake. simpl. lia.
  - split; [exact Ro|]. simpl. lia.
Qed.

(** A user's list of stakes holds no more entries than the bonds the user signed; the reward
    tokens are no more than the flows manager or owner signed, and the histories no longer than
    the distributions they signed. *)
Theorem C195_stake_records_grow_only_by_those_who_pay H l w c s u a : run H w_empty l w -> stake_at w c s ->
  (length (b_stakes (s_user s u)) <= count (own_bond c u) l)%nat /\
  (length (s_dists s) <= count (role_flow c (s_manager s) (s_owner s)) l)%nat /\
  (length (s_tsh s) <= count (role_dist c (s_manager s) (s_owner s)) l)%nat /\
  (forall h, fget a (s_rh s) = Some h -> (length h <= count (role_dist_of c (s_manager s) (s_owner s) a) l)%nat).
Proof.
  intros R E. set (m := s_manager s). set (o := s_owner s).
  assert (Re : reachable H w_empty) by (exists []; constructor).
  assert (Q : roles c m o w) by (intros s0 E0; unfold stake_at in E; rewrite E in E0; inversion E0; subst; auto).
  assert (Sx : forall (n : World -> nat) (f : Event -> bool), (forall w0 ev w1, reachable H w0 -> step H w0 ev w1 -> roles c m o w1 -> roles c m o w0 /\ (n w1 <= n w0 + (if f ev then 1 else 0))%nat) ->
     n w_empty = O -> (n w <= count f l)%nat).
  { intros n f St Z0. destruct (count_run H n f (roles c m o) St _ _ _ R Re Q) as [_ K]. lia. }
  assert (A : (stakes_no c u w <= count (own_bond c u) l)%nat).
  { apply Sx; [|reflexivity]. intros w0 ev w1 Rw St Q1. destruct (stake_count _ _ _ _ _ _ _ u a Rw St Q1) as [K0 [K1 _]]. auto. }
  assert (B : (flows_no c w <= count (role_flow c m o) l)%nat).
  { apply Sx; [|reflexivity]. intros w0 ev w1 Rw St Q1. destruct (stake_count _ _ _ _ _ _ _ u a Rw St Q1) as [K0 [_ [K1 _]]]. auto. }
  assert (C : (days_no c w <= count (role_dist c m o) l)%nat).
  { apply Sx; [|reflexivity]. intros w0 ev w1 Rw St Q1. destruct (stake_count _ _ _ _ _ _ _ u a Rw St Q1) as [K0 [_ [_ [K1 _]]]]. auto. }
  assert (D : (hist_no c a w <= count (role_dist_of c m o a) l)%nat).
  { apply Sx; [|reflexivity]. intros w0 ev w1 Rw St Q1. destruct (stake_count _ _ _ _ _ _ _ u a Rw St Q1) as [K0 [_ [_ [_ K1]]]]. auto. }
  unfold stakes_no, flows_no, days_no, hist_no in A, B, C, D. unfold stake_at in E. rewrite E in A, B, C, D.
  split; [exact A|]. split; [exact B|]. split; [exact C|]. intros h Eh. unfold fgetd in D. rewrite Eh in D. exact D.
Qed.
Print Assumptions C195_stake_records_grow_only_by_those_who_pay.
(** in the script s1 one bond of -2, two flows and one distribution; all bounds are met exactly *)
Example C195_example : length (b_stakes (s_user sS1 (-2))) = 1%nat /\ count (own_bond 20 (-2)) (map event_of s1) = 1%nat /\
  length (s_dists sS1) = 2%nat /\ count (role_flow 20 (-1) (-9)) (map event_of s1) = 2%nat /\
  length (s_tsh sS1) = 1%nat /\ count (role_dist 20 (-1) (-9)) (map event_of s1) = 1%nat /\
  count (role_dist_of 20 (-1) (-9) 2) (map event_of s1) = 1%nat.
Proof. vm_compute. repeat split. Qed.

(** ** C196: vesting schedules *)
Definition sched_no (c u : Addr) (w : World) : nat :=
  match fget c (w_vest w) with Some v => length (v_entries v u) | None => O end.
Definition admin_grant (c ad u : Addr) (ev : Event) : bool :=
  match ev with Tx e (CVestCreate c' l) => (c' =? c) && zmem u (map fst l) && signs e ad | _ => false end.

Lemma create_all_len l : forall v tot v' tot' u, create_all v l tot = Ok (v', tot') -> no_dup (map fst l) = true ->
  (length (v_entries v' u) <= length (v_entries v u) + (if zmem u (map fst l) then 1 else 0))%nat /\ v_admin v' = v_admin v /\ v_maxc v' = v_maxc v.
Proof.
  induction l as [|[x c] l IH]; intros v tot v' tot' u H ND; unfold create_all in H; fold create_all in H.
  - inversion H; subst. split; [lia|auto].
  - rstep H. simpl in ND. apply andb_true_iff in ND. destruct ND as [N1 N2].
    match goal with K : create_all _ l _ = _ |- _ => destruct (IH _ _ _ _ u K N2) as [A [B C]] end.
    split; [|split; [rewrite B; reflexivity|rewrite C; reflexivity]].
    unfold save_vesting in A. cbv zeta in A. unfold v_entries at 2 in A. simpl v_ent in A. rewrite fgetd_set in A.
    simpl map. unfold zmem in *. simpl existsb. rewrite (Z.eqb_sym u x) in *. destruct (Z.eqb_spec x u) as [->|N]; simpl.
    + destruct (existsb (fun y => u =? y) (map fst l)) eqn:Z0.
      * exfalso. simpl in N1. rewrite ?Z0 in N1.
        assert (existsb (Z.eqb u) (map fst l) = true) by (rewrite <- Z0; reflexivity). discriminate.
      * match type of A with (_ <= length (fset ?i ?y ?m0) + _)%nat => pose proof (fset_length_le i y m0) end. lia.
    + exact A.
Qed.

Lemma vest_fresh e k w w' c v' : exec e k w = Ok (tt, w') -> Good w -> fget c (w_vest w) = None -> fget c (w_vest w') = Some v' ->
  v_ent v' = fempty.
Proof.
  intros H G En Hx.
  destruct (exec_framec _ _ _ _ H G) as [G' [X' [_ [_ U]]]].
  destruct (fget c (w_code w)) as [kd|] eqn:Ec.
  - assert (kd = KVest).
    { pose proof (ex_code _ _ X' _ _ Ec). pose proof (gd_cvest _ G' _ _ Hx). congruence. }
    subst kd.
    destruct (exists_dec_acts k c KVest) as [[T|[T [E|E]]]|N]; [|discriminate..|].
    + pose proof (exec_tkind _ _ _ _ _ H T) as TK. rewrite Ec in TK.
      destruct k; simpl in T, TK; inversion T; try discriminate TK; subst; simpl in H.
      { unfold vest_initialize in H. rstep H. winv. simpl in Hx. rewrite fget_set_same in Hx. inversion Hx; subst. reflexivity. }
      all: exfalso; match type of H with ?m = _ => unfold vest_create, vest_claim, vest_burn, vest_mint, vest_update_minter, vest_update_capacity, vest_update in H end;
        rstep H; winv; congruence.
    + specialize (U _ _ Ec N). rewrite (ut_vest _ _ _ U) in Hx. congruence.
  - destruct (deploys k) eqn:D.
    + exfalso. destruct k; try discriminate D; deploy_cases H.
      all: try (subst w'; simpl in Hx; rewrite ?fget_set in Hx; congruence).
      match goal with Q : match ty with Xyk => _ | StableT => _ end |- _ => rename Q into Hm end.
      subst. rename Hm into H. simpl in Hx.
      destruct ty; simpl in H.
      * apply pool_initialize_ok in H. destruct H as [_ [_ [_ [_ [NP H]]]]]. cbv zeta in H. subst. simpl in Hx. congruence.
      * destruct H as [a [_ H]]. apply stable_initialize_ok in H.
        destruct H as [? [? [? [? [? [? [? [? [? [? [? [? H]]]]]]]]]]]]. cbv zeta in H. subst. simpl in Hx. congruence.
    + pose proof (exec_samecode e k D _ _ _ H) as Sc. unfold SameCode in Sc. pose proof (gd_cvest _ G' _ _ Hx). congruence.
Qed.

Definition vadmin (c ad : Addr) (w : World) : Prop := forall v, fget c (w_vest w) = Some v -> v_admin v = ad.

Lemma vest_grow e k w w' c v u : exec e k w = Ok (tt, w') -> Good w -> fget c (w_vest w) = Some v ->
  exists v', fget c (w_vest w') = Some v' /\ v_admin v' = v_admin v /\ v_maxc v' = v_maxc v /\
   (length (v_entries v' u) <= length (v_entries v u) + (if admin_grant c (v_admin v) u (Tx e k) then 1 else 0))%nat.
Proof.
  intros X G E. destruct (vest_step _ _ _ _ _ _ X G E) as [v' [E' St]]. exists v'. split; [exact E'|].
  destruct St as [l tot v' K V|x i y lk K V|? ? ? ? K|? ? K|? ? ? K|K _].
  - destruct V as [_ _ _ V1 _ V2 V3 _ _]. rewrite authed_root in V1. destruct (create_all_len _ _ _ _ _ u V3 V2) as [A [B C]].
    subst k. simpl. rewrite Z.eqb_refl, V1, andb_true_r. simpl. auto.
  - split; [reflexivity|]. split; [reflexivity|]. rewrite entries_with. destruct (Z.eqb_spec u x) as [->|N]; [|lia].
    rewrite (fset_length_mem i _ y) by (apply (vk_entry _ _ _ _ _ _ _ _ _ _ V)). lia.
  - repeat split. unfold v_entries; simpl. lia.
  - repeat split. unfold v_entries; simpl. lia.
  - repeat split. unfold v_entries; simpl. lia.
  - repeat split. lia.
Qed.

(** An account holds no more vesting schedules than the contract's admin granted it. *)
Theorem C196_schedules_grow_only_by_the_admin H l w c v u : run H w_empty l w -> vest_at w c v ->
  (length (v_entries v u) <= count (admin_grant c (v_admin v) u) l)%nat.
Proof.
  intros R E. set (ad := v_admin v).
  assert (Re : reachable H w_empty) by (exists []; constructor).
  assert (Q : vadmin c ad w) by (intros s0 E0; unfold vest_at in E; rewrite E in E0; inversion E0; subst; auto).
  destruct (count_run H (sched_no c u) (admin_grant c ad u) (vadmin c ad)) with (w0 := w_empty) (l := l) (w := w) as [_ K]; auto.
  - intros w0 ev w1 R0 S Q1. unfold sched_no. destruct S as [e k w1 Eh X|n q].
    + destruct (fget c (w_vest w0)) as [v0|] eqn:E0.
      * destruct (vest_grow _ _ _ _ _ _ u X (reach_good _ _ R0) E0) as [v1 [E1 [A [_ B]]]].
        pose proof (Q1 _ E1) as Q2. rewrite A in Q2. rewrite E1.
        split; [intros x Ex; rewrite E0 in Ex; inversion Ex; subst; auto|]. rewrite <- Q2. exact B.
      * split; [intros x Ex; congruence|]. destruct (fget c (w_vest w1)) as [v1|] eqn:E1; [|lia].
        pose proof (vest_fresh _ _ _ _ _ _ X (reach_good _ _ R0) E0 E1) as F. unfold v_entries. rewrite F. simpl. lia.
    + split; [exact Q1|]. simpl. lia.
  - unfold sched_no in K. unfold vest_at in E. rewrite E in K. simpl in K. exact K.
Qed.
Print Assumptions C196_schedules_grow_only_by_the_admin.
Example C196_example : vest_at (world_of v2) 30 (vV 750 600 600) /\ length (v_entries (vV 750 600 600) (-5)) = 2%nat /\
  count (admin_grant 30 (-1) (-5)) (map event_of v2) = 2%nat /\ count (admin_grant 30 (-1) (-7)) (map event_of v2) = 1%nat.
Proof. vm_compute. repeat split. Qed.

(** Every stored vesting schedule has fewer points than the contract's limit. *)
Theorem C196_schedules_stay_small H w c v u i x : reachable H w -> vest_at w c v -> fget i (v_entries v u) = Some x ->
  csize (vi_sched x) < v_maxc v.
Proof.
  intros R. revert w R c v u i x.
  apply (reach_ind2 H (fun w => forall c v u i x, vest_at w c v -> fget i (v_entries v u) = Some x -> csize (vi_sched x) < v_maxc v));
    [intros; discriminate|].
  intros w ev w' R S IH c v' u i x E' Ex. unfold vest_at in *. destruct S as [e k w' Eh X|n q]; [|simpl in E'; eauto].
  destruct (fget c (w_vest w)) as [v|] eqn:E.
  - destruct (vest_step _ _ _ _ _ _ X (reach_good _ _ R) E) as [v1 [E1 St]]. rewrite E' in E1. inversion E1; subst v1.
    destruct St as [l tot v' K V|y j z lk K V|? ? ? ? K|? ? K|? ? ? K|K _]; try (unfold v_entries in *; simpl in *; eauto; fail).
    + destruct V as [_ _ V0 V1 _ V2 V3 _ _]. pose proof (reach_vest _ _ R _ _ E) as I.
      destruct (create_all_len _ _ _ _ _ u V3 V2) as [_ [_ Mc]]. rewrite Mc.
      destruct (create_all_ok _ _ _ _ _ V3 (vv_dense _ _ _ I) (vv_nonneg _ _ _ I) V0) as [_ [_ [_ [_ [_ [B _]]]]]].
      destruct (B _ _ _ Ex) as [Q|[q [T [_ [_ [Sz ->]]]]]]; [eapply IH; eauto|exact Sz].
    + rewrite entries_with in Ex. simpl. destruct (Z.eqb_spec u y) as [->|N]; [|eapply IH; eauto].
      rewrite fget_set in Ex. destruct (Z.eqb_spec i j) as [->|N]; [|eapply IH; eauto].
      inversion Ex; subst x. simpl. eapply IH; [exact E|]. apply (vk_entry _ _ _ _ _ _ _ _ _ _ V).
  - pose proof (vest_fresh _ _ _ _ _ _ X (reach_good _ _ R) E E') as F. unfold v_entries in Ex. rewrite F in Ex. discriminate.
Qed.
Print Assumptions C196_schedules_stay_small.
Example C196_small_example : fget 1 (v_entries (vV 750 600 600) (-5)) = Some (mkVInfo 600 (-5) vpl) /\ csize vpl = 3 /\ v_maxc (vV 750 600 600) = 10.
Proof. vm_compute. repeat split. Qed.

(** ** C197: reward curves *)
(** However often a rewards contract is funded, the curve it stores has at most two points or
    at most the limit set at initialisation, and the limit never changes. *)
Theorem C197_reward_curve_stays_small H w c r : reachable H w -> rewards_at w c r ->
  csize (r_curve r) <= Z.max 2 (r_maxc r).
Proof.
  intros R. revert w R c r.
  apply (reach_ind2 H (fun w => forall c r, rewards_at w c r -> csize (r_curve r) <= Z.max 2 (r_maxc r))); [intros; discriminate|].
  intros w ev w' R S IH c r' E'. unfold rewards_at in *. destruct S as [e k w' Eh X|n q]; [|simpl in E'; eauto].
  destruct (fget c (w_rewards w)) as [r|] eqn:E.
  - pose proof (IH _ _ E) as L. destruct (rewards_step _ _ _ _ _ _ X (reach_good _ _ R) E) as [v1 [E1 St]]. rewrite E' in E1. inversion E1; subst v1.
    assert (Sh : forall u d a b, shifted u d a b -> r_curve b = r_curve a /\ r_maxc b = r_maxc a).
    { intros u d a b [[_ ->]| ->]; [auto|]. split; reflexivity. }
    assert (Pa : forall u b wa wb a a' amt, RPay c u b wa wb a a' amt -> r_curve a' = r_curve a /\ r_maxc a' = r_maxc a).
    { intros u b wa wb a a' amt [_ [[_ [_ ->]]|[_ [_ [_ ->]]]]]; [auto|]. split; reflexivity. }
    destruct St as [? ? ? ? K _ _ V|? ? ? ? ? ? ? K _ _ _ _ V|? ? ? ? ? ? ? ? K _ _ V|? K|? ? ? ? ? K _ V|? ? ? ? K _ V|? ? ? ? K _ _ _ V|K _]; try exact L.
    + destruct V as [V _]. destruct (Sh _ _ _ _ V) as [-> ->]. exact L.
    + destruct V as [V _]. destruct (Sh _ _ _ _ V) as [-> ->]. exact L.
    + destruct V as [_ _ V [w1 [P _]]]. destruct (Sh _ _ _ _ V) as [-> ->]. destruct (Pa _ _ _ _ _ _ _ P) as [-> ->]. exact L.
    + destruct V as [_ _ _ _ _ _ _ V]. cbv zeta in V. rewrite V. exact L.
    + destruct (Pa _ _ _ _ _ _ _ V) as [-> ->]. exact L.
    + destruct V as [_ _ _ _ _ [q [-> [[y [_ [_ ->]]]|[_ [_ Q]]]]]]; simpl; lia.
  - destruct (rewards_fresh _ _ _ _ _ _ X (reach_good _ _ R) E E') as [? [? [? [? [? [? [-> _]]]]]]]. simpl. lia.
Qed.
Print Assumptions C197_reward_curve_stays_small.
Example C197_example : reachable xH (world_of r8) /\ exists r, rewards_at (world_of r8) 30 r /\ csize (r_curve r) = 4 /\ r_maxc r = 10.
Proof. split; [apply world_reach; vm_compute; reflexivity|]. eexists. split; [vm_compute; reflexivity|]. vm_compute. auto. Qed.

(** ** C198: the factory's list of pools *)
Definition signed_create (c : Addr) (ev : Event) : bool :=
  match ev with Tx e (CCreate c' u _ _ _ _ _) => (c' =? c) && signs e u | _ => false end.

Theorem C198_pool_list_grows_only_by_whitelisted_creators H w e k w' c f : reachable H w -> fact_at w c f -> exec e k w = Ok (tt, w') ->
  exists f', fact_at w' c f' /\
   (f_lps f' = f_lps f \/
    exists u i ty amp ds mf p, k = CCreate c u i ty amp ds mf /\ signs e u = true /\ In u (f_white f) /\ f_lps f' = f_lps f ++ [p]).
Proof.
  intros R E X. destruct (fact_step _ _ _ _ _ _ X (reach_good _ _ R) E) as [f' [E' St]]. exists f'. split; [exact E'|].
  destruct St as [u i ty amp ds mf p K S W _ _ _ _ _| | |]; auto.
  right. exists u, i, ty, amp, ds, mf, p. repeat split; auto.
Qed.
Print Assumptions C198_pool_list_grows_only_by_whitelisted_creators.
Theorem C198_pool_list_counts_creations H l w c f : run H w_empty l w -> fact_at w c f ->
  (length (f_lps f) <= count (signed_create c) l)%nat.
Proof.
  intros R E.
  destruct (count_run H (fun w => match fget c (w_fact w) with Some f => length (f_lps f) | None => O end) (signed_create c) (fun _ => True))
    with (w0 := w_empty) (l := l) (w := w) as [_ K]; auto; [|exists []; constructor|].
  - intros w0 ev w1 R0 S _. split; [exact I|]. destruct S as [e k w1 Eh X|n q]; [|simpl; lia].
    destruct (fget c (w_fact w0)) as [f0|] eqn:E0.
    + destruct (C198_pool_list_grows_only_by_whitelisted_creators _ _ _ _ _ _ _ R0 E0 X) as [f1 [E1 Q]]. unfold fact_at in E1. rewrite E1.
      destruct Q as [->|[u [i [ty [amp [ds [mf [p [-> [Sg [_ ->]]]]]]]]]]]; [lia|].
      rewrite app_length. simpl. rewrite Z.eqb_refl, Sg. simpl. lia.
    + destruct (fget c (w_fact w1)) as [f1|] eqn:E1; [|lia].
      destruct (fact_fresh _ _ _ _ _ _ X (reach_good _ _ R0) E0 E1) as [? [? [? [? [? [? [? [? [-> _]]]]]]]]]. simpl. lia.
  - simpl in K. unfold fact_at in E. rewrite E in K. exact K.
Qed.
Print Assumptions C198_pool_list_counts_creations.
Example C198_example : exists f, fact_at fW 20 f /\ length (f_lps f) = 2%nat /\
  count (signed_create 20) (map event_of (fsetup [-5] ++ fpools)) = 2%nat.
Proof. eexists. split; [vm_compute; reflexivity|]. vm_compute. auto. Qed.
