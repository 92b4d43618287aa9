(** Properties of the vesting contract: C49-C54, C85-C88. *)
From Coq Require Import ZArith List Bool Lia.
From Coq Require Import ZifyBool.
From Verif Require Import Base FMap Decimal DecimalProofs Curve CurveProofs World Token TokenProofs Frame Runs Stake Pool PoolProofs
  Stable StableProofs Rewards Vest Factory Router System SysFrame SysInv SysPool SysSupply SysVest Script Props_Token Props_Pool.
Import ListNotations.
Open Scope Z_scope.

(** The record of the vesting contract at [c]; its entry number [i] for recipient [u]. *)
Definition vest_at (w : World) (c : Addr) (v : Vest) : Prop := fget c (w_vest w) = Some v.
Definition entry_at (w : World) (c u i : Z) (x : VInfo) : Prop :=
  exists v m, vest_at w c v /\ fget u (v_ent v) = Some m /\ fget i m = Some x.
Definition no_entry (w : World) (c u i : Z) : Prop := forall x, ~ entry_at w c u i x.

Lemma entry_iff w c v u i x : vest_at w c v -> (entry_at w c u i x <-> fget i (v_entries v u) = Some x).
Proof.
  intros E. unfold entry_at, v_entries, fgetd. split.
  - intros [v0 [m [E0 [E1 E2]]]]. unfold vest_at in *. rewrite E in E0. inversion E0; subst v0. rewrite E1. auto.
  - intros F. destruct (fget u (v_ent v)) as [m|] eqn:Em; [|discriminate]. eauto.
Qed.
Lemma entry_fun w c u i x y : entry_at w c u i x -> entry_at w c u i y -> x = y.
Proof.
  intros [v [m [E1 [E2 E3]]]] [v' [m' [F1 [F2 F3]]]]. unfold vest_at in *. congruence.
Qed.

(** the unclaimed balance of an entry *)
Definition unclaimed (v : Vest) (ui : Z * Z) : Z :=
  match fget (fst ui) (v_ent v) with
  | Some m => match fget (snd ui) m with Some x => vi_bal x | None => 0 end
  | None => 0
  end.
Lemma unclaimed_ent v u i : unclaimed v (u, i) = match fget i (v_entries v u) with Some x => vi_bal x | None => 0 end.
Proof. unfold unclaimed, v_entries, fgetd; simpl. destruct (fget u (v_ent v)); auto. Qed.

Fixpoint sum_of {A} (f : A -> Z) (l : list A) : Z := match l with [] => 0 | x :: tl => f x + sum_of f tl end.

Lemma owed_bound l : forall v, NoDup l -> nonneg_ents v -> sum_of (unclaimed v) l <= owed v.
Proof.
  induction l as [|[u i] l IH]; intros v ND NN; simpl; [apply owed_nonneg; auto|].
  inversion ND as [|? ? NI ND']; subst. rewrite unclaimed_ent. destruct (fget i (v_entries v u)) as [x|] eqn:E.
  - pose proof (IH (with_ent v u i (mkVInfo 0 (vi_rcpt x) (vi_sched x))) ND' (nonneg_with v u i (mkVInfo 0 (vi_rcpt x) (vi_sched x)) NN (Z.le_refl 0))) as Q.
    rewrite owed_with, E in Q. cbn [vi_bal] in Q.
    assert (S : sum_of (unclaimed (with_ent v u i (mkVInfo 0 (vi_rcpt x) (vi_sched x)))) l = sum_of (unclaimed v) l).
    { clear - NI. induction l as [|[a b] l IH]; simpl; auto. rewrite IH by (intros K; apply NI; right; auto).
      rewrite !unclaimed_ent, entries_with. destruct (Z.eqb_spec a u); auto. subst a.
      rewrite fget_set. destruct (Z.eqb_spec b i); auto. subst. exfalso. apply NI. left; auto. }
    lia.
  - specialize (IH v ND' NN). lia.
Qed.

(** ** C49 *)
Theorem C49_vesting_solvency H w c v l : reachable H w -> vest_at w c v -> NoDup l ->
  sum_of (unclaimed v) l <= bal w (v_token v) c.
Proof.
  intros R E N. pose proof (reach_vest _ _ R _ _ E) as I.
  pose proof (owed_bound l v N (vv_nonneg _ _ _ I)). pose proof (vv_owed _ _ _ I). lia.
Qed.
Print Assumptions C49_vesting_solvency.

(** ** C52 *)
Theorem C52_entries_independent H w e k w' c u i x : reachable H w -> exec e k w = Ok (tt, w') ->
  entry_at w c u i x -> k <> CVestClaim c u i -> entry_at w' c u i x.
Proof.
  intros R X E N. pose proof (reach_good _ _ R) as G. destruct E as [v [m [Ev Em]]].
  assert (E : fget i (v_entries v u) = Some x) by (apply (entry_iff w c); [auto|]; exists v, m; auto).
  pose proof (reach_vest _ _ R _ _ Ev) as I.
  destruct (vest_step _ _ _ _ _ _ X G Ev) as [v' [Ev' S]]. apply (entry_iff w' c v'); auto.
  inversion S; subst; auto.
  - match goal with V : VCreate _ _ _ _ _ _ _ _ _ |- _ => destruct V end.
    pose proof (create_all_ok _ _ _ _ _ vc_all (vv_dense _ _ _ I) (vv_nonneg _ _ _ I) vc_typed) as [_ [_ [_ [_ [Q _]]]]].
    apply Q; auto.
  - rewrite entries_with. destruct (Z.eqb_spec u u0); auto. subst u0. rewrite fget_set. destruct (Z.eqb_spec i i0); auto. congruence.
Qed.
Print Assumptions C52_entries_independent.

(** the entries of a recipient are numbered 0, 1, 2, ... without gaps *)
Theorem C52_indexes_consecutive H w c v u : reachable H w -> vest_at w c v ->
  exists n, 0 <= n /\ forall i, (exists x, entry_at w c u i x) <-> 0 <= i < n.
Proof.
  intros R E. pose proof (reach_vest _ _ R _ _ E) as I. exists (Z.of_nat (length (v_entries v u))). split; [lia|].
  intros i. rewrite <- (vv_dense _ _ _ I u i). unfold fmem. split.
  - intros [x Hx]. apply (entry_iff _ _ _ _ _ _ E) in Hx. rewrite Hx. reflexivity.
  - destruct (fget i (v_entries v u)) as [x|] eqn:F; [|discriminate]. intros _. exists x. apply (entry_iff _ _ _ _ _ _ E). auto.
Qed.
Print Assumptions C52_indexes_consecutive.

(** the new entry of each listed recipient gets the next number and locks the whole amount *)
Theorem C52_creation_appends H w e c l w' v u cu : reachable H w -> vest_at w c v ->
  exec e (CVestCreate c l) w = Ok (tt, w') -> In (u, cu) l ->
  exists n T, 0 <= n /\ (forall i, (exists x, entry_at w c u i x) <-> 0 <= i < n) /\
    entry_at w' c u n (mkVInfo T u cu) /\ cvalue cu 0 = Ok T /\
    (forall i x, n < i -> ~ entry_at w' c u i x).
Proof.
  intros R Ev X Iu. pose proof (reach_good _ _ R) as G. pose proof (reach_vest _ _ R _ _ Ev) as I.
  destruct (vest_step _ _ _ _ _ _ X G Ev) as [v' [Ev' S]].
  inversion S; subst; try discriminate; [|congruence].
  match goal with V : VCreate _ _ _ _ _ _ _ _ _ |- _ => destruct V end.
  match goal with K : CVestCreate c l = CVestCreate c ?q |- _ => inversion K; subst q end.
  pose proof (create_all_ok _ _ _ _ _ vc_all (vv_dense _ _ _ I) (vv_nonneg _ _ _ I) vc_typed) as [_ [_ [D' [_ [Q1 [Q2 Q3]]]]]].
  destruct (Q3 vc_dup _ _ Iu) as [T [V1 V2]]. exists (Z.of_nat (length (v_entries v u))), T. split; [lia|].
  split. { intros i. rewrite <- (vv_dense _ _ _ I u i). unfold fmem. split.
    - intros [x Hx]. apply (entry_iff _ _ _ _ _ _ Ev) in Hx. rewrite Hx. reflexivity.
    - destruct (fget i (v_entries v u)) as [x|] eqn:F; [|discriminate]. intros _. exists x. apply (entry_iff _ _ _ _ _ _ Ev). auto. }
  split; [apply (entry_iff _ _ _ _ _ _ Ev'); auto|].
  split. { apply schedule_start; auto. rewrite forallb_forall in vc_typed. apply (vc_typed (u, cu)); auto. }
  intros i x L E. apply (entry_iff _ _ _ _ _ _ Ev') in E.
  (* at most one entry per recipient is added *)
  assert (One : forall l v tot v' tot', create_all v l tot = Ok (v', tot') -> (forall u, dense (v_entries v u)) -> no_dup (map fst l) = true ->
     (length (v_entries v' u) <= length (v_entries v u) + (if zmem u (map fst l) then 1 else 0))%nat).
  { clear. induction l as [|[a b] l IH]; intros v tot v' tot' H D ND; unfold create_all in H; fold create_all in H.
    - inversion H; subst. simpl. lia.
    - rstep H. match goal with K : create_all _ l _ = _ |- _ => rename K into H end.
      simpl in ND. apply andb_true_iff in ND. destruct ND as [ND1 ND2].
      match type of H with create_all ?q _ _ = _ => set (v1 := q) in * end.
      assert (Ev1 : forall u0, v_entries v1 u0 = if u0 =? a then fset (Z.of_nat (length (v_entries v a))) (mkVInfo x a b) (v_entries v a) else v_entries v u0).
      { intros u0. unfold v1, save_vesting. rewrite first_free_dense by apply D. apply fgetd_set. }
      assert (D1 : forall u0, dense (v_entries v1 u0)).
      { intros u0. rewrite Ev1. destruct (u0 =? a); auto. apply dense_add, D. }
      specialize (IH _ _ _ _ H D1 ND2). rewrite Ev1 in IH. simpl map. 
      change (zmem u (a :: map fst l)) with ((u =? a) || zmem u (map fst l)).
      destruct (Z.eqb_spec u a); simpl.
      + subst a. destruct (zmem u (map fst l)); [discriminate|].
        assert (Nn : fget (Z.of_nat (length (v_entries v u))) (v_entries v u) = None).
        { destruct (fget _ (v_entries v u)) eqn:E; auto. exfalso.
          assert (F : fmem (Z.of_nat (length (v_entries v u))) (v_entries v u) = true) by (unfold fmem; rewrite E; auto). apply D in F. lia. }
        rewrite fset_length in IH by auto. lia.
      + lia. }
  specialize (One _ _ _ _ _ vc_all (vv_dense _ _ _ I) vc_dup).
  assert (B : 0 <= i < Z.of_nat (length (v_entries v' u))) by (apply D'; unfold fmem; rewrite E; auto).
  destruct (zmem u (map fst l)); lia.
Qed.
Print Assumptions C52_creation_appends.

(** ** C53 *)
(** creating schedules: signed by the admin, who pays exactly what the schedules lock at the start *)
Theorem C53_admin_creates_and_pays H w e c l w' v : reachable H w -> vest_at w c v ->
  exec e (CVestCreate c l) w = Ok (tt, w') ->
  signs e (v_admin v) = true /\
  (forall u cu, In (u, cu) l -> exists T, cvalue cu 0 = Ok T) /\
  forall t a, let total := sum_of (fun uc => match cvalue (snd uc) 0 with Ok T => T | Err _ => 0 end) l in
    bal w' t a = bal w t a - on ((t =? v_token v) && (a =? v_admin v)) total + on ((t =? v_token v) && (a =? c)) total.
Proof.
  intros R Ev X. pose proof (reach_good _ _ R) as G. pose proof (reach_vest _ _ R _ _ Ev) as I.
  destruct (vest_step _ _ _ _ _ _ X G Ev) as [v' [Ev' S]].
  inversion S; subst; try discriminate; [|congruence].
  match goal with V : VCreate _ _ _ _ _ _ _ _ _ |- _ => destruct V end.
  match goal with K : CVestCreate c l = CVestCreate c ?q |- _ => inversion K; subst q end.
  split; [rewrite <- authed_root; auto|]. split.
  - intros u cu Iu.
    pose proof (create_all_ok _ _ _ _ _ vc_all (vv_dense _ _ _ I) (vv_nonneg _ _ _ I) vc_typed) as [_ [_ [_ [_ [_ [_ Q3]]]]]].
    destruct (Q3 vc_dup _ _ Iu) as [T [V1 V2]]. exists T. apply schedule_start; auto.
    rewrite forallb_forall in vc_typed. apply (vc_typed (u, cu)); auto.
  - intros t a total. pose proof (create_all_total _ _ _ _ _ vc_all vc_typed) as Et.
    assert (Es : total = tot).
    { rewrite Et. unfold total. clear. simpl. induction l as [|[a b] l IH]; simpl; auto. rewrite IH. lia. }
    rewrite Es. rewrite (mv_bal _ _ _ _ _ _ vc_paid). reflexivity.
Qed.
Print Assumptions C53_admin_creates_and_pays.

(** an entry appears only in such a call *)
Theorem C53_entries_appear_only_by_creation H w e k w' c u i x : reachable H w -> exec e k w = Ok (tt, w') ->
  (exists v, vest_at w c v) -> no_entry w c u i -> entry_at w' c u i x ->
  exists l, k = CVestCreate c l /\ In (u, vi_sched x) l /\ vi_rcpt x = u.
Proof.
  intros R X [v Ev] N E. pose proof (reach_good _ _ R) as G. pose proof (reach_vest _ _ R _ _ Ev) as I.
  destruct (vest_step _ _ _ _ _ _ X G Ev) as [v' [Ev' S]].
  assert (NE : fget i (v_entries v u) = None).
  { destruct (fget i (v_entries v u)) as [y|] eqn:F; auto. exfalso. apply (N y). apply (entry_iff _ _ _ _ _ _ Ev). auto. }
  apply (entry_iff _ _ _ _ _ _ Ev') in E.
  inversion S; subst; try (exfalso; unfold v_entries in *; simpl in *; congruence).
  - match goal with V : VCreate _ _ _ _ _ _ _ _ _ |- _ => destruct V end.
    pose proof (create_all_ok _ _ _ _ _ vc_all (vv_dense _ _ _ I) (vv_nonneg _ _ _ I) vc_typed) as [_ [_ [_ [_ [_ [Q _]]]]]].
    destruct (Q _ _ _ E) as [K|[cu [T [I1 [I2 [I3 ->]]]]]]; [congruence|]. exists l. auto.
  - exfalso. match goal with V : VClaim _ _ _ _ _ _ _ _ _ _ |- _ => destruct V end.
    rewrite entries_with in E. destruct (Z.eqb_spec u u0); [subst u0|congruence]. rewrite fget_set in E.
    destruct (Z.eqb_spec i i0); congruence.
Qed.
Print Assumptions C53_entries_appear_only_by_creation.

(** an entry changes only by a claim signed by its recipient; what it loses is paid to the recipient *)
Theorem C53_only_recipient_claims H w e k w' c v u i x x' : reachable H w -> exec e k w = Ok (tt, w') ->
  vest_at w c v -> entry_at w c u i x -> entry_at w' c u i x' -> x' <> x ->
  k = CVestClaim c u i /\ signs e u = true /\ vi_rcpt x = u /\ vi_rcpt x' = u /\ vi_sched x' = vi_sched x /\
  0 < vi_bal x - vi_bal x' /\
  forall t a, bal w' t a = bal w t a - on ((t =? v_token v) && (a =? c)) (vi_bal x - vi_bal x')
                                     + on ((t =? v_token v) && (a =? u)) (vi_bal x - vi_bal x').
Proof.
  intros R X Ev E E' N. pose proof (reach_good _ _ R) as G. pose proof (reach_vest _ _ R _ _ Ev) as I.
  destruct (vest_step _ _ _ _ _ _ X G Ev) as [v' [Ev' S]].
  pose proof (proj1 (entry_iff _ _ _ _ _ _ Ev) E) as F.
  pose proof (proj1 (entry_iff _ _ _ _ _ _ Ev') E') as F'.
  inversion S; subst; try (exfalso; unfold v_entries in *; simpl in *; congruence).
  - exfalso. apply N. eapply entry_fun; [exact E'|]. eapply C52_entries_independent; eauto. discriminate.
  - match goal with V : VClaim _ _ _ _ _ _ _ _ _ _ |- _ => destruct V end.
    pose proof (ve_rcpt _ _ _ (vv_ent _ _ _ I _ _ _ F)) as Hr.
    rewrite entries_with in F'. destruct (Z.eqb_spec u u0) as [Q|]; [subst u0|congruence]. rewrite fget_set in F'.
    destruct (Z.eqb_spec i i0); [subst i0|congruence]. rewrite F in vk_entry. inversion vk_entry; subst x0. inversion F'; subst x'. simpl.
    split; [reflexivity|]. split; [rewrite <- authed_root; auto|]. split; [auto|]. split; [auto|]. split; [auto|]. split; [lia|].
    intros t a. rewrite (mv_bal _ _ _ _ _ _ vk_paid). reflexivity.
Qed.
Print Assumptions C53_only_recipient_claims.

(** ** C50 *)
(** [claimed H c u i t w evs w' n]: the events lead from [w] to [w'], and during the claims
    of [u] on entry [i] of contract [c] the balance of [u] in token [t] rose by [n] in total. *)
Inductive claimed (H : Addr -> Salt -> Addr) (c u i t : Addr) : World -> list Event -> World -> Z -> Prop :=
| cl_nil w : claimed H c u i t w [] w 0
| cl_claim w e w1 l w2 n : step H w (Tx e (CVestClaim c u i)) w1 -> claimed H c u i t w1 l w2 n ->
    claimed H c u i t w (Tx e (CVestClaim c u i) :: l) w2 (bal w1 t u - bal w t u + n)
| cl_other w ev w1 l w2 n : step H w ev w1 -> (forall e, ev <> Tx e (CVestClaim c u i)) ->
    claimed H c u i t w1 l w2 n -> claimed H c u i t w (ev :: l) w2 n.

(** every run has such an account of the claims *)
Lemma claimed_total H c u i t w l w' : run H w l w' -> exists n, claimed H c u i t w l w' n.
Proof.
  intros X. induction X as [w|w ev w1 l w2 S X [n IH]]; [exists 0; constructor|].
  destruct ev as [e k|a b]; [|exists n; eapply cl_other; eauto; intros; discriminate].
  assert (D : k = CVestClaim c u i \/ k <> CVestClaim c u i).
  { destruct k; try (right; discriminate).
    destruct (Z.eq_dec v c); [|right; congruence]. destruct (Z.eq_dec u0 u); [|right; congruence].
    destruct (Z.eq_dec i0 i); [left; congruence|right; congruence]. }
  destruct D as [->|D]; eexists; [eapply cl_claim; eauto|eapply cl_other; eauto; intros; congruence].
Qed.
Lemma claimed_run H c u i t w l w' n : claimed H c u i t w l w' n -> run H w l w'.
Proof. induction 1; [constructor|econstructor; eauto..]. Qed.

Lemma step_reach H w ev w1 : reachable H w -> step H w ev w1 -> reachable H w1.
Proof. intros R S. eapply reach_run; [exact R|econstructor; [exact S|constructor]]. Qed.

(** a vesting contract keeps its token and its admin *)
Lemma vest_keeps H w ev w1 c v : reachable H w -> step H w ev w1 -> vest_at w c v ->
  exists v', vest_at w1 c v' /\ v_token v' = v_token v /\ v_admin v' = v_admin v /\ v_maxc v' = v_maxc v.
Proof.
  intros R S Ev. inversion S; subst; [|exists v; auto].
  pose proof (reach_good _ _ R) as G. pose proof (reach_vest _ _ R _ _ Ev) as I.
  destruct (vest_step _ _ _ _ _ _ H1 G Ev) as [v' [Ev' V]]. exists v'. split; auto.
  inversion V; subst; auto.
  match goal with K : VCreate _ _ _ _ _ _ _ _ _ |- _ => destruct K end.
  pose proof (create_all_ok _ _ _ _ _ vc_all (vv_dense _ _ _ I) (vv_nonneg _ _ _ I) vc_typed) as [Q _].
  rewrite Q. auto.
Qed.

Lemma claimed_entry H c u i t w l w' n v x : reachable H w -> claimed H c u i t w l w' n ->
  vest_at w c v -> v_token v = t -> entry_at w c u i x ->
  exists x', entry_at w' c u i x' /\ vi_sched x' = vi_sched x /\ n = vi_bal x - vi_bal x'.
Proof.
  intros R X. revert R v x. induction X as [w|w e w1 l w2 n S X IH|w ev w1 l w2 n S N X IH]; intros R v x Ev Et Ex.
  - exists x. split; [auto|]. split; [auto|lia].
  - destruct (vest_keeps _ _ _ _ _ _ R S Ev) as [v1 [Ev1 [Et1 _]]].
    pose proof (step_reach _ _ _ _ R S) as R1. inversion S; subst.
    match goal with K : exec _ _ _ = _ |- _ => rename K into He end.
    pose proof (reach_good _ _ R) as G. pose proof (reach_vest _ _ R _ _ Ev) as I.
    destruct (vest_step _ _ _ _ _ _ He G Ev) as [v2 [Ev2 V]]. 
    assert (v2 = v1) by (unfold vest_at in *; congruence). subst v2.
    inversion V; subst; try discriminate; [|congruence].
    match goal with K : CVestClaim _ _ _ = CVestClaim _ _ _ |- _ => inversion K; subst u0 i0 end.
    match goal with K : VClaim _ _ _ _ _ _ _ _ _ _ |- _ => destruct K end.
    pose proof (proj1 (entry_iff _ _ _ _ _ _ Ev) Ex) as F. rewrite F in vk_entry. inversion vk_entry; subst x0.
    assert (Ns : u <> c) by (eapply (authed_ne _ None); eauto; discriminate).
    destruct (IH R1 _ (mkVInfo lk (vi_rcpt x) (vi_sched x)) Ev1 Et1) as [x' [A [B C]]].
    { apply (entry_iff _ _ _ _ _ _ Ev1). rewrite entries_with, Z.eqb_refl. apply fget_set_same. }
    exists x'. split; [auto|]. split; [auto|]. simpl in C.
    rewrite (mv_bal _ _ _ _ _ _ vk_paid). change (bal (set_vest w _) (v_token v) u) with (bal w (v_token v) u).
    rewrite !Z.eqb_refl. destruct (Z.eqb_spec u c); [congruence|]. simpl. lia.
  - destruct (vest_keeps _ _ _ _ _ _ R S Ev) as [v1 [Ev1 [Et1 _]]].
    apply (IH (step_reach _ _ _ _ R S) v1); auto; [congruence|].
    inversion S; subst.
    + eapply C52_entries_independent; eauto. intros ->. eapply N; reflexivity.
    + destruct Ex as [v0 [m0 Q]]. exists v0, m0. exact Q.
Qed.

(** After a creation, the recipient has received by claims exactly the initial total minus
    the entry's balance, which is what the schedule locked at some earlier moment; so never
    more than the schedule has unlocked by now. *)
Theorem C50_claims_follow_schedule H w e c l w1 v u cu T idx evs w2 n :
  reachable H w -> vest_at w c v -> e_hash e = H -> exec e (CVestCreate c l) w = Ok (tt, w1) ->
  In (u, cu) l -> no_entry w c u idx -> entry_at w1 c u idx (mkVInfo T u cu) ->
  claimed H c u idx (v_token v) w1 evs w2 n ->
  cvalue cu 0 = Ok T /\
  (exists tl, 0 <= tl <= w_now w2 /\ cvalue cu tl = Ok (T - n)) /\
  (forall lk, cvalue cu (w_now w2) = Ok lk -> n <= T - lk).
Proof.
  intros R Ev Hh X Iu N E C.
  destruct (C52_creation_appends _ _ _ _ _ _ _ _ _ R Ev X Iu) as [ix [T' [P [I1 [I2 [I3 I4]]]]]].
  assert (R1 : reachable H w1) by (eapply step_reach; [exact R|constructor; eauto]).
  assert (Ei : idx = ix).
  { destruct (Z.lt_trichotomy idx ix) as [L|[L|L]]; auto; exfalso.
    - destruct (Z.lt_ge_cases idx 0) as [L0|L0].
      + pose proof E as [v1 [m1 [Ev1 _]]].
        destruct (C52_indexes_consecutive _ _ _ _ u R1 Ev1) as [nn [_ Q]].
        assert (0 <= ix < nn) by (apply Q; eauto).
        assert (0 <= idx < nn); [apply Q; eauto|lia].
      + assert (Q : 0 <= idx < ix) by lia. apply I1 in Q. destruct Q as [y Q]. apply (N y); auto.
    - apply (I4 idx _ L E). }
  subst ix. pose proof (entry_fun _ _ _ _ _ _ E I2) as Q. inversion Q; subst T'.
  destruct (vest_keeps _ _ _ _ _ _ R (st_tx _ _ _ _ _ Hh X) Ev) as [v1 [Ev1 [Et1 _]]].
  destruct (claimed_entry _ _ _ _ _ _ _ _ _ _ _ R1 C Ev1 Et1 E) as [x' [A [B D]]]. simpl in *.
  assert (R2 : reachable H w2) by (eapply reach_run; [exact R1|eapply claimed_run; eauto]).
  destruct A as [v2 [m2 [Ev2 A]]]. pose proof (reach_vest _ _ R2 _ _ Ev2) as In2.
  assert (F : fget idx (v_entries v2 u) = Some x') by (apply (entry_iff _ _ _ _ _ _ Ev2); exists v2, m2; auto).
  destruct (vv_ent _ _ _ In2 _ _ _ F) as [F1 F2 [T2 F3] [tl [F4 F5]]]. rewrite B in *.
  replace (T - n) with (vi_bal x') by lia.
  split; [auto|]. split; [eauto|]. intros lk Hlk.
  destruct (schedule_start _ _ F2 F3) as [_ Vd].
  pose proof (validate_dec_monotone _ _ _ _ _ (typed_wf _ F2) Vd F4 F5 Hlk). lia.
Qed.
Print Assumptions C50_claims_follow_schedule.

(** right after a claim at time t the total received is exactly what t unlocks *)
Theorem C50_claim_catches_up H w e c l w1 v u cu T idx evs e2 w2 n :
  reachable H w -> vest_at w c v -> e_hash e = H -> exec e (CVestCreate c l) w = Ok (tt, w1) ->
  In (u, cu) l -> no_entry w c u idx -> entry_at w1 c u idx (mkVInfo T u cu) ->
  claimed H c u idx (v_token v) w1 (evs ++ [Tx e2 (CVestClaim c u idx)]) w2 n ->
  exists lk, cvalue cu (w_now w2) = Ok lk /\ n = T - lk.
Proof.
  intros R Ev Hh X Iu N E C.
  assert (R1 : reachable H w1) by (eapply step_reach; [exact R|constructor; eauto]).
  destruct (vest_keeps _ _ _ _ _ _ R (st_tx _ _ _ _ _ Hh X) Ev) as [v1 [Ev1 [Et1 _]]].
  destruct (claimed_entry _ _ _ _ _ _ _ _ _ _ _ R1 C Ev1 Et1 E) as [x' [A [B D]]]. simpl in *.
  exists (vi_bal x'). split; [|lia].
  assert (M : exists w3, run H w1 evs w3 /\ step H w3 (Tx e2 (CVestClaim c u idx)) w2).
  { clear - C. apply claimed_run in C. revert w1 C. induction evs as [|ev evs IH]; simpl; intros w1 C.
    - inversion C; subst. match goal with K : run _ _ [] _ |- _ => inversion K; subst end. exists w1. split; [constructor|auto].
    - inversion C; subst. match goal with K : run _ _ (_ ++ _) _ |- _ => destruct (IH _ K) as [w3 [Q1 Q2]] end.
      exists w3. split; auto. econstructor; eauto. }
  destruct M as [w3 [M1 M2]].
  assert (R3 : reachable H w3) by (eapply reach_run; eauto).
  inversion M2; subst. match goal with K : exec e2 _ _ = _ |- _ => rename K into He end.
  simpl in He. apply vest_claim_ok in He. destruct He as [v3 [x3 [lk V]]]. destruct V.
  assert (En : w_now w2 = w_now w3) by (rewrite (mv_rest _ _ _ _ _ _ vk_paid); reflexivity).
  pose proof (proj1 (entry_iff _ _ _ _ _ _ vk_after) A) as F. rewrite entries_with, Z.eqb_refl, fget_set_same in F.
  inversion F; subst x'. simpl in *. rewrite En. subst; auto.
Qed.
Print Assumptions C50_claim_catches_up.

(** ** C51 *)
Theorem C51_everything_claimable_at_end H w c v u i x e :
  reachable H w -> vest_at w c v -> entry_at w c u i x -> ended (vi_sched x) (w_now w) -> 0 < vi_bal x ->
  signs e u = true -> bal w (v_token v) u + vi_bal x <= I128_MAX ->
  exists w', exec e (CVestClaim c u i) w = Ok (tt, w') /\
    bal w' (v_token v) u = bal w (v_token v) u + vi_bal x /\ entry_at w' c u i (mkVInfo 0 u (vi_sched x)).
Proof.
  intros R Ev Ex En P Sg Fit. pose proof (reach_good _ _ R) as G. pose proof (reach_vest _ _ R _ _ Ev) as I.
  pose proof (proj1 (entry_iff _ _ _ _ _ _ Ev) Ex) as F.
  destruct (vv_ent _ _ _ I _ _ _ F) as [F1 F2 [T F3] _].
  pose proof (schedule_end _ _ _ F2 F3 En) as L0.
  pose proof (gd_cvest _ G _ _ Ev) as Hc.
  pose proof (owed_ge _ _ _ _ (vv_nonneg _ _ _ I) F) as Ow. pose proof (vv_owed _ _ _ I) as Ob.
  assert (Au : authed e None u = true) by (rewrite authed_root; auto).
  assert (Ns : u <> c) by (eapply (authed_ne _ None); eauto; discriminate).
  assert (Rg : vi_bal x <= I128_MAX) by (pose proof (good_bal w (v_token v) c G); lia).
  set (wm := set_vest w (fset c (v_put v u i (mkVInfo 0 (vi_rcpt x) (vi_sched x))) (w_vest w))).
  assert (Gm : Good wm).
  { destruct G. constructor; auto. simpl. intros a y. rewrite fget_set. destruct (Z.eqb_spec a c); [subst; auto|apply gd_cvest]. }
  destruct (tok_transfer_runs e (Some c) (v_token v) c u (vi_bal x) wm Gm) as [w' Hw].
  { unfold authed. rewrite Z.eqb_refl. apply orb_true_r. }
  { apply (bal_is_tok wm (v_token v) c). change (bal wm (v_token v) c) with (bal w (v_token v) c). lia. }
  { change (bal wm (v_token v) c) with (bal w (v_token v) c). lia. }
  { auto. }
  { change (bal wm (v_token v) u) with (bal w (v_token v) u). lia. }
  assert (Hx : vest_claim e None c u i w = Ok (tt, w')).
  { assert (Hg : v_get v u i = Ok x) by (unfold v_get; rewrite F; reflexivity).
    unfold vest_claim.
    rewrite (run_bind _ _ _ tt w) by (apply run_enter; auto).
    rewrite (run_bind _ _ _ tt w) by (apply run_auth; auto).
    rewrite (run_bind _ _ _ v w) by (unfold get_vest; rewrite Ev; auto).
    rewrite (run_bind _ _ _ (w_now w) w) by reflexivity.
    rewrite (run_bind _ _ _ (vi_bal x) w).
    2:{ apply run_lift. unfold available. rewrite Hg. unfold rbind at 1. rewrite L0. unfold rbind at 1. unfold sub_u.
        rewrite chk_ok by (unfold in_u128, U128_MAX, I128_MAX in *; lia). unfold rbind. unfold u2i.
        rewrite Z.sub_0_r. destruct (Z.ltb_spec I128_MAX (vi_bal x)); [lia|reflexivity]. }
    rewrite (run_bind _ _ _ tt w) by (apply run_guard; lia).
    rewrite (run_bind _ _ _ x w) by (apply run_lift; auto).
    rewrite (run_bind _ _ _ 0 w) by (apply run_lift; auto).
    rewrite (run_bind _ _ _ tt w) by (apply run_guard; lia).
    rewrite (run_bind _ _ _ (vi_bal x) w) by (apply run_lift; unfold i2u; destruct (Z.ltb_spec (vi_bal x) 0); [lia|reflexivity]).
    rewrite (run_bind _ _ _ tt w) by (apply run_guard; lia).
    rewrite (run_bind _ _ _ 0 w).
    2:{ apply run_lift. unfold sub_u. rewrite Z.sub_diag. apply chk_ok. reflexivity. }
    rewrite (run_bind _ _ _ tt wm) by reflexivity. exact Hw. }
  exists w'. split; [exact Hx|].
  apply tok_transfer_moved in Hw. destruct Hw as [_ M]. split.
  - rewrite (mv_bal _ _ _ _ _ _ M). change (bal wm (v_token v) u) with (bal w (v_token v) u).
    rewrite !Z.eqb_refl. destruct (Z.eqb_spec u c); [congruence|]. simpl. lia.
  - assert (Ew : vest_at w' c (with_ent v u i (mkVInfo 0 (vi_rcpt x) (vi_sched x)))).
    { unfold vest_at. rewrite (mv_rest _ _ _ _ _ _ M). simpl. apply fget_set_same. }
    apply (entry_iff _ _ _ _ _ _ Ew). rewrite entries_with, Z.eqb_refl, fget_set_same. rewrite F1. reflexivity.
Qed.
Print Assumptions C51_everything_claimable_at_end.

(** ** C54 *)
(** what the minter may still mint *)
Definition capacity (v : Vest) : Z := match v_minter v with Some m => snd m | None => 0 end.

Theorem C54_mint_lowers_capacity H w e c u amt w' v : reachable H w -> vest_at w c v ->
  exec e (CVestMint c u amt) w = Ok (tt, w') ->
  signs e u = true /\ option_map fst (v_minter v) = Some u /\ 0 < amt <= capacity v /\
  (exists v', vest_at w' c v' /\ capacity v' = capacity v - amt /\ v_ent v' = v_ent v) /\
  forall t a, bal w' t a = bal w t a + on ((t =? v_token v) && (a =? c)) amt.
Proof.
  intros R Ev X. pose proof (reach_good _ _ R) as G.
  destruct (vest_step _ _ _ _ _ _ X G Ev) as [v' [Ev' V]]. inversion V; subst; try discriminate; [|congruence].
  match goal with K : CVestMint _ _ _ = CVestMint _ _ _ |- _ => inversion K; subst end.
  match goal with K : v_minter v = Some _ |- _ => unfold capacity; rewrite K end. simpl.
  split; [auto|]. split; [auto|]. split; [auto|]. split; [eexists; split; [exact Ev'|]; split; reflexivity|].
  intros t a. rewrite (bal_wtok w1 w') by auto. rewrite (mt_bal _ _ _ _ _ H5). reflexivity.
Qed.
Print Assumptions C54_mint_lowers_capacity.

Theorem C54_only_admin_raises_capacity H w e k w' c v v' : reachable H w -> vest_at w c v -> vest_at w' c v' ->
  exec e k w = Ok (tt, w') -> capacity v < capacity v' ->
  signs e (v_admin v) = true /\ k = CVestCapacity c (v_admin v) (capacity v').
Proof.
  intros R Ev Ev1 X L. pose proof (reach_good _ _ R) as G. pose proof (reach_vest _ _ R _ _ Ev) as I.
  destruct (vest_step _ _ _ _ _ _ X G Ev) as [v2 [Ev2 V]].
  assert (v2 = v') by (unfold vest_at in *; congruence). subst v2.
  inversion V; subst; unfold capacity in *; simpl in *; try lia.
  - match goal with K : VCreate _ _ _ _ _ _ _ _ _ |- _ => destruct K end.
    pose proof (create_all_ok _ _ _ _ _ vc_all (vv_dense _ _ _ I) (vv_nonneg _ _ _ I) vc_typed) as [Q _].
    rewrite Q in L. simpl in L. lia.
  - match goal with K : v_minter v = Some _ |- _ => rewrite K in L; simpl in L; lia end.
  - auto.
Qed.
Print Assumptions C54_only_admin_raises_capacity.

(** [minted_log H c w evs w' m g]: during the events the mint calls added [m] tokens to the
    contract and the capacity updates granted [g] on top of what was left. *)
Inductive minted_log (H : Addr -> Salt -> Addr) (c : Addr) : World -> list Event -> World -> Z -> Z -> Prop :=
| ml_nil w : minted_log H c w [] w 0 0
| ml_mint w e u amt v w1 l w2 m g : step H w (Tx e (CVestMint c u amt)) w1 -> vest_at w c v -> minted_log H c w1 l w2 m g ->
    minted_log H c w (Tx e (CVestMint c u amt) :: l) w2 (bal w1 (v_token v) c - bal w (v_token v) c + m) g
| ml_capacity w e u n v w1 l w2 m g : step H w (Tx e (CVestCapacity c u n)) w1 -> vest_at w c v -> minted_log H c w1 l w2 m g ->
    minted_log H c w (Tx e (CVestCapacity c u n) :: l) w2 m (Z.max 0 (n - capacity v) + g)
| ml_other w ev w1 l w2 m g : step H w ev w1 -> (forall e u amt, ev <> Tx e (CVestMint c u amt)) ->
    (forall e u n, ev <> Tx e (CVestCapacity c u n)) -> minted_log H c w1 l w2 m g -> minted_log H c w (ev :: l) w2 m g.

Lemma minted_log_total H c w l w' : run H w l w' -> forall v, reachable H w -> vest_at w c v -> exists m g, minted_log H c w l w' m g.
Proof.
  intros X. induction X as [w|w ev w1 l w2 S X IH]; intros v R Ev; [exists 0, 0; constructor|].
  destruct (vest_keeps _ _ _ _ _ _ R S Ev) as [v1 [Ev1 _]].
  destruct (IH v1 (step_reach _ _ _ _ R S) Ev1) as [m [g Q]].
  destruct ev as [e k|a b]; [|exists m, g; eapply ml_other; eauto; intros; discriminate].
  destruct k; try (exists m, g; eapply ml_other; eauto; intros; discriminate).
  - destruct (Z.eq_dec v0 c); [subst v0; eexists _, _; eapply ml_mint; eauto|].
    exists m, g; eapply ml_other; eauto; intros; congruence.
  - destruct (Z.eq_dec v0 c); [subst v0; eexists _, _; eapply ml_capacity; eauto|].
    exists m, g; eapply ml_other; eauto; intros; congruence.
Qed.

Theorem C54_minting_respects_capacity H w c v evs w' m g : reachable H w -> vest_at w c v ->
  minted_log H c w evs w' m g -> m <= Z.max 0 (capacity v) + g.
Proof.
  intros R Ev X. revert R v Ev. induction X as [w|w e u amt v0 w1 l w2 m g S Ev0 X IH|w e u n v0 w1 l w2 m g S Ev0 X IH|w ev w1 l w2 m g S N1 N2 X IH]; intros R v Ev.
  - lia.
  - assert (v0 = v) by (unfold vest_at in *; congruence). subst v0. pose proof (step_reach _ _ _ _ R S) as R1.
    inversion S; subst. destruct (C54_mint_lowers_capacity _ _ _ _ _ _ _ _ R Ev H4) as [_ [_ [P [[v' [Ev' [Cv _]]] B]]]].
    specialize (IH R1 v' Ev'). rewrite B, !Z.eqb_refl. simpl. lia.
  - assert (v0 = v) by (unfold vest_at in *; congruence). subst v0. pose proof (step_reach _ _ _ _ R S) as R1.
    inversion S; subst. pose proof (reach_good _ _ R) as G. destruct (vest_step _ _ _ _ _ _ H4 G Ev) as [v' [Ev' V]].
    specialize (IH R1 v' Ev'). inversion V; subst; try discriminate; [|congruence].
    match goal with K : CVestCapacity _ _ _ = _ |- _ => inversion K; subst end. unfold capacity in IH at 1. simpl in IH. lia.
  - destruct (vest_keeps _ _ _ _ _ _ R S Ev) as [v1 [Ev1 _]]. specialize (IH (step_reach _ _ _ _ R S) v1 Ev1).
    enough (capacity v1 <= capacity v) by lia. inversion S; subst.
    + destruct (Z.lt_ge_cases (capacity v) (capacity v1)) as [L|L]; auto. exfalso.
      destruct (C54_only_admin_raises_capacity _ _ _ _ _ _ _ _ R Ev Ev1 H1 L) as [_ ->]. eapply N2; reflexivity.
    + assert (v1 = v) by (unfold vest_at in *; simpl in *; congruence). subst. lia.
Qed.
Print Assumptions C54_minting_respects_capacity.

(** ** C86 *)
(** the only way out of a vesting contract is a claim, and it takes exactly what the entry loses *)
Theorem C86_tokens_leave_only_by_claims H w e k w' c v : reachable H w -> vest_at w c v -> exec e k w = Ok (tt, w') ->
  bal w (v_token v) c <= bal w' (v_token v) c \/
  exists u i x x', k = CVestClaim c u i /\ entry_at w c u i x /\ entry_at w' c u i x' /\
    bal w' (v_token v) c = bal w (v_token v) c - (vi_bal x - vi_bal x').
Proof.
  intros R Ev X. pose proof (reach_good _ _ R) as G.
  destruct (vest_step _ _ _ _ _ _ X G Ev) as [v' [Ev' V]].
  pose proof (gd_cvest _ G _ _ Ev) as Hc.
  inversion V; subst.
  - left. match goal with K : VCreate _ _ _ _ _ _ _ _ _ |- _ => destruct K end.
    assert (Ns : v_admin v <> c) by (eapply (authed_ne _ None); eauto; discriminate).
    rewrite (mv_bal _ _ _ _ _ _ vc_paid). change (bal (set_vest w _) (v_token v) c) with (bal w (v_token v) c).
    rewrite !Z.eqb_refl. destruct (Z.eqb_spec c (v_admin v)); [congruence|]. simpl. pose proof (mv_pos _ _ _ _ _ _ vc_paid). lia.
  - right. pose proof H1 as V1. match goal with K : VClaim _ _ _ _ _ _ _ _ _ _ |- _ => destruct K end.
    assert (Ns : u <> c) by (eapply (authed_ne _ None); eauto; discriminate).
    eexists u, i, x, _. split; [reflexivity|]. split; [apply (entry_iff _ _ _ _ _ _ Ev); auto|].
    split; [apply (entry_iff _ _ _ _ _ _ Ev'); rewrite entries_with, Z.eqb_refl; apply fget_set_same|]. simpl.
    rewrite (mv_bal _ _ _ _ _ _ vk_paid). change (bal (set_vest w _) (v_token v) c) with (bal w (v_token v) c).
    rewrite !Z.eqb_refl. destruct (Z.eqb_spec c u); [congruence|]. simpl. lia.
  - left. rewrite (bal_wtok w1 w') by auto. rewrite (mt_bal _ _ _ _ _ H5). rewrite !Z.eqb_refl. simpl. lia.
  - left. rewrite (bal_wtok w w') by auto. lia.
  - left. rewrite (bal_wtok w w') by auto. lia.
  - left. auto.
Qed.
Print Assumptions C86_tokens_leave_only_by_claims.

(** what a contract holds beyond its stored balances never decreases, so tokens minted into
    it (or sent to it) stay there for ever *)
Theorem C86_surplus_is_stuck H w l w' c v : reachable H w -> vest_at w c v -> run H w l w' ->
  exists v', vest_at w' c v' /\ v_token v' = v_token v /\
    bal w (v_token v) c - owed v <= bal w' (v_token v) c - owed v'.
Proof.
  intros R Ev X. revert R v Ev. induction X as [w|w ev w1 l w2 S X IH]; intros R v Ev.
  - exists v. split; [auto|]. split; [auto|lia].
  - destruct (vest_keeps _ _ _ _ _ _ R S Ev) as [v1 [Ev1 [Et1 _]]].
    destruct (IH (step_reach _ _ _ _ R S) v1 Ev1) as [v' [A [B C]]]. exists v'. split; auto. split; [congruence|].
    enough (bal w (v_token v) c - owed v <= bal w1 (v_token v) c - owed v1) by (rewrite Et1 in C; lia).
    inversion S; subst.
    + pose proof (reach_good _ _ R) as G. pose proof (reach_vest _ _ R _ _ Ev) as I. pose proof (gd_cvest _ G _ _ Ev) as Hc.
      destruct (vest_step _ _ _ _ _ _ H1 G Ev) as [v2 [Ev2 V]].
      assert (v2 = v1) by (unfold vest_at in *; congruence). subst v2.
      inversion V; subst.
      * match goal with K : VCreate _ _ _ _ _ _ _ _ _ |- _ => destruct K end.
        assert (Ns : v_admin v <> c) by (eapply (authed_ne _ None); eauto; discriminate).
        pose proof (create_all_ok _ _ _ _ _ vc_all (vv_dense _ _ _ I) (vv_nonneg _ _ _ I) vc_typed) as [_ [_ [_ [Q _]]]].
        rewrite (mv_bal _ _ _ _ _ _ vc_paid). change (bal (set_vest w _) (v_token v) c) with (bal w (v_token v) c).
        rewrite !Z.eqb_refl. destruct (Z.eqb_spec c (v_admin v)); [congruence|]. simpl. lia.
      * match goal with K : VClaim _ _ _ _ _ _ _ _ _ _ |- _ => destruct K end.
        assert (Ns : u <> c) by (eapply (authed_ne _ None); eauto; discriminate).
        rewrite owed_with, vk_entry. simpl.
        rewrite (mv_bal _ _ _ _ _ _ vk_paid). change (bal (set_vest w _) (v_token v) c) with (bal w (v_token v) c).
        rewrite !Z.eqb_refl. destruct (Z.eqb_spec c u); [congruence|]. simpl. lia.
      * match goal with K : w_tok w1 = w_tok ?q |- _ => rewrite (bal_wtok q w1) by auto end. match goal with K : Minted _ _ _ _ _ |- _ => rewrite (mt_bal _ _ _ _ _ K) end.
        unfold owed; simpl. rewrite !Z.eqb_refl. simpl. lia.
      * rewrite (bal_wtok w w1) by auto. unfold owed; simpl. lia.
      * rewrite (bal_wtok w w1) by auto. unfold owed; simpl. lia.
      * lia.
    + assert (v1 = v) by (unfold vest_at in *; simpl in *; congruence). subst.
      change (bal (set_time w n s) (v_token v) c) with (bal w (v_token v) c). lia.
Qed.
Print Assumptions C86_surplus_is_stuck.

(** ** C87 *)
Theorem C87_query_is_what_claim_pays H w e c u i w' v a : reachable H w -> vest_at w c v ->
  exec e (CVestClaim c u i) w = Ok (tt, w') -> vest_available c u i w = Ok (a, w) ->
  bal w' (v_token v) u = bal w (v_token v) u + a /\ 0 < a.
Proof.
  intros R Ev X Q. pose proof (reach_good _ _ R) as G. simpl in X. apply vest_claim_ok in X. destruct X as [v0 [x [lk V]]]. destruct V.
  assert (v0 = v) by (unfold vest_at in *; congruence). subst v0.
  assert (Ns : u <> c) by (eapply (authed_ne _ None); eauto; discriminate).
  assert (Ea : a = vi_bal x - lk).
  { unfold vest_available in Q. rewrite (run_bind _ _ _ tt w) in Q by (apply run_enter; auto).
    rewrite (run_bind _ _ _ v w) in Q by (unfold get_vest; rewrite vk_before; auto).
    rewrite (run_bind _ _ _ (w_now w) w) in Q by reflexivity. rstep Q.
    match goal with K : available _ _ _ _ = Ok _ |- _ => unfold available in K; rstep K end.
    match goal with K : v_get v u i = Ok _ |- _ => unfold v_get in K; rewrite vk_entry in K; inversion K; subst end.
    match goal with K : cvalue _ _ = Ok ?z |- _ => tryif constr_eq z lk then fail else rewrite vk_locked in K; inversion K; subst; lia end. }
  subst a. split; [|lia].
  rewrite (mv_bal _ _ _ _ _ _ vk_paid). change (bal (set_vest w _) (v_token v) u) with (bal w (v_token v) u).
  rewrite !Z.eqb_refl. destruct (Z.eqb_spec u c); [congruence|]. simpl. lia.
Qed.
Print Assumptions C87_query_is_what_claim_pays.
Theorem C87_claim_implies_query H w e c u i w' : reachable H w -> exec e (CVestClaim c u i) w = Ok (tt, w') ->
  exists a, vest_available c u i w = Ok (a, w).
Proof.
  intros R X. simpl in X. unfold vest_claim in X. rstep X. winv.
  unfold vest_available. 
  match goal with K : fget c (w_code w) = Some KVest |- _ => rewrite (run_bind _ _ _ tt w) by (apply run_enter; auto) end.
  match goal with K : fget c (w_vest w) = Some ?q |- _ => rewrite (run_bind _ _ _ q w) by (unfold get_vest; rewrite K; auto) end.
  rewrite (run_bind _ _ _ (w_now w) w) by reflexivity.
  eexists. apply run_lift. eassumption.
Qed.
Print Assumptions C87_claim_implies_query.
