(** Facts about lifetimes (Life.v) used by Props_Touch.v. *)
From Coq Require Import ZArith List Bool Lia.
From Verif Require Import Base FMap World System SysInv SysFact Frame Touch TouchErase Life TouchCover TouchGrow.
From Verif Require Import Props_Pool.
Import ListNotations.
Open Scope list_scope.
Open Scope Z_scope.

Local Arguments touch : simpl never.

Lemma bump_pos t : 0 < threshold_of t < bump_of t.
Proof. destruct t; unfold threshold_of, bump_of, DAY_IN_LEDGERS; lia. Qed.
Lemma extended_ge seq t v : v <= extended seq t v.
Proof. unfold extended. destruct (_ <=? _); lia. Qed.
Lemma extended_long seq t v : seq + threshold_of t < extended seq t v.
Proof. unfold extended. pose proof (bump_pos t). destruct (Z.leb_spec (v - seq) (threshold_of t)); lia. Qed.
Lemma extended_le seq t v : extended seq t v <= Z.max v (seq + bump_of t).
Proof. unfold extended. destruct (_ <=? _); lia. Qed.

Lemma lset_same L c k v : lset L c k v c k = Some v.
Proof. unfold lset. now rewrite Z.eqb_refl, key_eqb_refl. Qed.
Lemma lset_other L c k v c' k' : ~ (c' = c /\ k' = k) -> lset L c k v c' k' = L c' k'.
Proof.
  intros N. unfold lset. destruct (Z.eqb_spec c' c); auto. destruct (key_eqb_spec k' k); auto. destruct N; auto.
Qed.
Lemma same_or_not (c c' : Addr) (k k' : Key) : (c' = c /\ k' = k) \/ ~ (c' = c /\ k' = k).
Proof. destruct (Z.eq_dec c' c); [|right; tauto]. destruct (key_eqb_spec k' k); [auto | right; tauto]. Qed.

(** ** one access *)
Lemma touch_dead m seq L c k a v : L c k = Some v -> v < seq -> touch m seq L (mkT c k a) = None.
Proof. intros E H. unfold touch. rewrite E. apply Z.ltb_lt in H. now rewrite H. Qed.
Lemma touch_ok m seq L c k a : (forall v, L c k = Some v -> seq <= v) -> (is_bump a = true -> L c k <> None) ->
  exists L', touch m seq L (mkT c k a) = Some L'.
Proof.
  intros A B. unfold touch. destruct (L c k) as [v|].
  - specialize (A v eq_refl). destruct (Z.ltb_spec v seq); [lia|]. destruct a; eauto.
  - destruct a; eauto. now destruct B.
Qed.
Lemma touch_other m seq L c k a L' c' k' : touch m seq L (mkT c k a) = Some L' -> ~ (c' = c /\ k' = k) -> L' c' k' = L c' k'.
Proof.
  unfold touch. intros H N. destruct (L c k) as [v|].
  - destruct (v <? seq); [discriminate|]. destruct a; inversion H; subst; auto; now apply lset_other.
  - destruct a; inversion H; subst; auto; now apply lset_other.
Qed.
Lemma touch_at m seq L c k a L' : touch m seq L (mkT c k a) = Some L' ->
  (exists v, L c k = Some v /\ seq <= v /\
     L' c k = Some (match a with Bump t => extended seq t v | Peek => extended seq TP v | _ => v end))
  \/ (L c k = None /\ L' c k = match a with Put => Some (seq + m - 1) | _ => None end /\ is_bump a = false).
Proof.
  unfold touch. intros H. destruct (L c k) as [v|] eqn:E.
  - left. exists v. destruct (Z.ltb_spec v seq); [discriminate|]. split; auto. split; [lia|].
    destruct a; inversion H; subst; auto; apply lset_same.
  - right. split; auto. destruct a; inversion H; subst; split; auto; apply lset_same.
Qed.

(** ** a whole record *)
Lemma replay_app m seq D1 : forall L D2, replay m seq L (D1 ++ D2) =
  match replay m seq L D1 with Some L1 => replay m seq L1 D2 | None => None end.
Proof. induction D1 as [|x tl IH]; simpl; intros L D2; auto. destruct (touch m seq L x); auto. Qed.

Lemma touch_mono m seq L x L' c k v : touch m seq L x = Some L' -> L c k = Some v -> exists v', L' c k = Some v' /\ v <= v'.
Proof.
  destruct x as [c0 k0 a]. intros H E. destruct (same_or_not c0 c k0 k) as [[-> ->]|N].
  - apply touch_at in H as [(v0 & E0 & _ & H)|(E0 & _)]; [|congruence]. rewrite E in E0. inversion E0; subst v0.
    exists (match a with Bump t => extended seq t v | Peek => extended seq TP v | _ => v end). split; auto.
    destruct a; try lia; apply extended_ge.
  - rewrite (touch_other _ _ _ _ _ _ _ _ _ H N). exists v. split; auto; lia.
Qed.
Lemma replay_mono m seq D : forall L L' c k v, replay m seq L D = Some L' -> L c k = Some v -> exists v', L' c k = Some v' /\ v <= v'.
Proof.
  induction D as [|x tl IH]; simpl; intros L L' c k v H E.
  - inversion H; subst. exists v. split; auto; lia.
  - destruct (touch m seq L x) as [L1|] eqn:T; [|discriminate]. destruct (touch_mono _ _ _ _ _ _ _ _ T E) as (v1 & E1 & G1).
    destruct (IH _ _ _ _ _ H E1) as (v2 & E2 & G2). exists v2. split; auto; lia.
Qed.
Lemma touch_dom m seq L x L' c k : touch m seq L x = Some L' -> (L' c k <> None <-> L c k <> None \/ x = mkT c k Put).
Proof.
  destruct x as [c0 k0 a]. intros H. destruct (same_or_not c0 c k0 k) as [[-> ->]|N].
  - apply touch_at in H as [(v0 & E0 & _ & ->)|(E0 & -> & B)]; rewrite E0.
    + split; [left|]; congruence.
    + destruct a; try discriminate B; (split; intros X; [|destruct X; congruence]); try congruence; auto.
  - rewrite (touch_other _ _ _ _ _ _ _ _ _ H N). split; auto. intros [X|X]; auto. inversion X; subst. destruct N; auto.
Qed.
Lemma replay_dom m seq D : forall L L', replay m seq L D = Some L' ->
  forall c k, L' c k <> None <-> L c k <> None \/ In (mkT c k Put) D.
Proof.
  induction D as [|x tl IH]; simpl; intros L L' H c k.
  - inversion H; subst. tauto.
  - destruct (touch m seq L x) as [L1|] eqn:T; [|discriminate]. rewrite (IH _ _ H), (touch_dom _ _ _ _ _ _ _ T). tauto.
Qed.
Lemma replay_live m seq D : forall L L', replay m seq L D = Some L' ->
  forall x v, In x D -> L (x_at x) (x_key x) = Some v -> seq <= v.
Proof.
  induction D as [|y tl IH]; simpl; intros L L' H x v I E; [contradiction|].
  destruct (touch m seq L y) as [L1|] eqn:T; [|discriminate]. destruct y as [c k a].
  destruct (same_or_not c (x_at x) k (x_key x)) as [[A B]|N].
  - rewrite A, B in E. apply touch_at in T as [(v0 & E0 & G & _)|(E0 & _)]; congruence.
  - destruct I as [<-|I]; [destruct N; auto|]. eapply IH; eauto. now rewrite (touch_other _ _ _ _ _ _ _ _ _ T N).
Qed.
Lemma replay_goes m seq D : 1 <= m -> forall (S : Addr -> Key -> Prop) L, cov S D -> (forall c k, S c k -> L c k <> None) ->
  (forall x v, In x D -> L (x_at x) (x_key x) = Some v -> seq <= v) -> exists L', replay m seq L D = Some L'.
Proof.
  intros M. induction D as [|[c k a] tl IH]; simpl; intros S L C HS HL; [eauto|].
  destruct (touch_ok m seq L c k a) as [L1 T].
  { intros v E. apply (HL (mkT c k a) v); auto. }
  { intros B. destruct a; try discriminate. apply HS. apply C. }
  rewrite T.
  assert (HL1 : forall x v, In x tl -> L1 (x_at x) (x_key x) = Some v -> seq <= v).
  { intros x v I E. destruct (same_or_not c (x_at x) k (x_key x)) as [[A B]|N].
    - rewrite A, B in E. apply touch_at in T as [(v0 & E0 & G & E1)|(E0 & E1 & _)].
      + rewrite E in E1. inversion E1. destruct a; try lia; eapply Z.le_trans; try exact G; apply extended_ge.
      + rewrite E in E1. destruct a; inversion E1. lia.
    - rewrite (touch_other _ _ _ _ _ _ _ _ _ T N) in E. eapply HL; eauto. }
  assert (HS1 : forall c' k', S c' k' -> L1 c' k' <> None).
  { intros c' k' X. apply (touch_dom _ _ _ _ _ _ _ T). left. auto. }
  destruct a; try (eapply IH; eauto; fail).
  - apply (IH _ L1 C); auto. intros c' k' [X|[-> ->]]; auto. apply (touch_dom _ _ _ _ _ _ _ T). auto.
  - apply (IH S); auto. apply C.
Qed.
Lemma replay_long m seq D L L' c k t : replay m seq L D = Some L' -> In (mkT c k (Bump t)) D ->
  exists v, L' c k = Some v /\ seq + threshold_of t < v.
Proof.
  intros H I. apply in_split in I as (D1 & D2 & ->). rewrite replay_app in H.
  destruct (replay m seq L D1) as [L1|]; [|discriminate]. simpl in H.
  destruct (touch m seq L1 (mkT c k (Bump t))) as [L2|] eqn:T; [|discriminate].
  apply touch_at in T as [(v & _ & _ & E)|(_ & _ & B)]; [|discriminate].
  destruct (replay_mono _ _ _ _ _ _ _ _ H E) as (v' & E' & G). exists v'. split; auto. pose proof (extended_long seq t v). lia.
Qed.
Lemma replay_peek m seq D L L' c k : replay m seq L D = Some L' -> In (mkT c k Peek) D -> L c k <> None ->
  exists v, L' c k = Some v /\ seq + threshold_of TP < v.
Proof.
  intros H I N. apply in_split in I as (D1 & D2 & ->). rewrite replay_app in H.
  destruct (replay m seq L D1) as [L1|] eqn:R; [|discriminate]. simpl in H.
  destruct (touch m seq L1 (mkT c k Peek)) as [L2|] eqn:T; [|discriminate].
  apply touch_at in T as [(v & _ & _ & E)|(E & _)].
  - destruct (replay_mono _ _ _ _ _ _ _ _ H E) as (v' & E' & G). exists v'. split; auto. pose proof (extended_long seq TP v). lia.
  - destruct (L c k) as [v|] eqn:X; [|congruence]. destruct (replay_mono _ _ _ _ _ _ _ _ R X) as (v' & E' & _). congruence.
Qed.
Definition nobump (c : Addr) (k : Key) (D : list Touch) : Prop :=
  forall a, In (mkT c k a) D -> match a with Bump _ | Peek => False | _ => True end.
Lemma replay_nobump m seq D : forall L L' c k, replay m seq L D = Some L' -> nobump c k D ->
  forall v, L c k = Some v -> L' c k = Some v.
Proof.
  induction D as [|[c0 k0 a] tl IH]; simpl; intros L L' c k H N v E.
  - now inversion H; subst.
  - destruct (touch m seq L (mkT c0 k0 a)) as [L1|] eqn:T; [|discriminate].
    assert (N' : nobump c k tl) by (intros b I; apply N; simpl; auto).
    destruct (same_or_not c0 c k0 k) as [[-> ->]|X].
    + apply touch_at in T as [(v0 & E0 & _ & E1)|(E0 & _)]; [|congruence]. rewrite E in E0. inversion E0; subst v0.
      apply (IH _ _ _ _ H N'). specialize (N a (or_introl eq_refl)). destruct a; auto; contradiction.
    + apply (IH _ _ _ _ H N'). now rewrite (touch_other _ _ _ _ _ _ _ _ _ T X).
Qed.
Lemma replay_born m seq D : forall L L' c k, replay m seq L D = Some L' -> nobump c k D ->
  L c k = None -> forall v, L' c k = Some v -> v = seq + m - 1.
Proof.
  induction D as [|[c0 k0 a] tl IH]; simpl; intros L L' c k H N E v E'.
  - inversion H; subst. congruence.
  - destruct (touch m seq L (mkT c0 k0 a)) as [L1|] eqn:T; [|discriminate].
    assert (N' : nobump c k tl) by (intros b I; apply N; simpl; auto).
    destruct (same_or_not c0 c k0 k) as [[-> ->]|X].
    + apply touch_at in T as [(v0 & E0 & _)|(_ & E1 & _)]; [congruence|]. destruct a; try (eapply IH; eauto; fail).
      rewrite (replay_nobump _ _ _ _ _ _ _ H N' _ E1) in E'. congruence.
    + eapply IH; eauto. now rewrite (touch_other _ _ _ _ _ _ _ _ _ T X).
Qed.
Lemma replay_untouched m seq D : forall L L' c k, replay m seq L D = Some L' -> (forall a, ~ In (mkT c k a) D) -> L' c k = L c k.
Proof.
  induction D as [|[c0 k0 a] tl IH]; simpl; intros L L' c k H N.
  - now inversion H; subst.
  - destruct (touch m seq L (mkT c0 k0 a)) as [L1|] eqn:T; [|discriminate].
    rewrite (IH _ _ _ _ H). { apply (touch_other _ _ _ _ _ _ _ _ _ T). intros [-> ->]. apply (N a). auto. }
    intros b I. apply (N b). auto.
Qed.

(** ** whole histories *)
Definition Tracks (w : World) (L : Life) : Prop := forall c k, present w c k = true <-> L c k <> None.

Lemma zexec_exec e k w w' D : zexec e k (w, []) = Ok (tt, (w', D)) -> exec e k w = Ok (tt, w').
Proof.
  intros H. pose proof (zexec_touches e k w []) as T. destruct (exec e k w) as [[[] w1]|]; [|congruence].
  destruct T as (D' & T). congruence.
Qed.
Lemma exec_zexec e k w w' : exec e k w = Ok (tt, w') -> exists D, zexec e k (w, []) = Ok (tt, (w', D)).
Proof. intros H. pose proof (zexec_touches e k w []) as T. rewrite H in T. destruct T as (D & T). exists D. exact T. Qed.
Lemma good_wf w : Good w -> Wf w.
Proof.
  intros G t H. unfold fmem in *. destruct (fget t (w_tok w)) eqn:E; [|discriminate]. now rewrite (gd_ctok _ G _ _ E).
Qed.
Lemma reach_wf H w : reachable H w -> Wf w.
Proof. intros R. eapply good_wf, reach_good; eauto. Qed.

Lemma lstep_step H m w L ev w' L' : lstep H m w L ev w' L' -> reachable H w -> reachable H w'.
Proof.
  intros S R. destruct S; auto.
  - eapply reach_tx; eauto. eapply zexec_exec; eauto.
  - eapply reach_run; eauto. eapply run_cons; [apply st_tick; eauto | constructor].
Qed.
Lemma lset_held L c k v c' k' : L c k <> None -> (lset L c k v c' k' <> None <-> L c' k' <> None).
Proof.
  intros H. destruct (same_or_not c c' k k') as [[-> ->]|N].
  - rewrite lset_same. split; [auto | congruence].
  - rewrite lset_other by auto. tauto.
Qed.
Lemma lstep_tracks H m w L ev w' L' : lstep H m w L ev w' L' -> reachable H w -> Tracks w L -> Tracks w' L'.
Proof.
  intros S R T. destruct S as [e k w' D L' E X Y|n s|c k v v'|c k v].
  - intros c0 k0. destruct (zexec_grow _ _ _ _ _ (reach_wf _ _ R) X) as [_ G]. rewrite (replay_dom _ _ _ _ _ Y), <- (T c0 k0).
    split.
    + intros P. exact (g_new _ _ _ G _ _ P).
    + intros [P|P]; [apply (g_keep _ _ _ G), P | apply (g_put _ _ _ G), P].
  - intros c0 k0. rewrite <- (T c0 k0). destruct k0; reflexivity.
  - intros c0 k0. rewrite lset_held by congruence. apply T.
  - intros c0 k0. rewrite lset_held by congruence. apply T.
Qed.
Lemma lrun_ind2 H m (P : World -> Life -> Prop) :
  (forall w L ev w' L', reachable H w -> Tracks w L -> lstep H m w L ev w' L' -> P w L -> P w' L') ->
  forall w L l w' L', reachable H w -> Tracks w L -> lrun H m w L l w' L' -> P w L -> reachable H w' /\ Tracks w' L' /\ P w' L'.
Proof.
  intros S w L l w' L' R T X. induction X as [w L|w L ev w1 L1 l w2 L2 X1 X2 IH]; auto.
  intros P0. apply IH; eauto using lstep_step, lstep_tracks.
Qed.
Lemma tracks_empty : Tracks w_empty no_life.
Proof. intros c k. unfold no_life. split; [|congruence]. destruct k; discriminate. Qed.
Lemma lreach_tracks H m w L : lreach H m w L -> reachable H w /\ Tracks w L.
Proof.
  intros [l X]. assert (R : reachable H w_empty) by (exists []; constructor).
  destruct (lrun_ind2 H m (fun _ _ => True) (fun _ _ _ _ _ _ _ _ _ => I) _ _ _ _ _ R tracks_empty X I) as (A & B & _). auto.
Qed.
Lemma lreach_run H m w L l w' L' : lreach H m w L -> lrun H m w L l w' L' -> lreach H m w' L'.
Proof.
  intros [l0 X0] X. exists (l0 ++ l). revert X. induction X0; simpl; auto. intros X. econstructor; eauto.
Qed.

Lemma lstep_mono H m w L ev w' L' : lstep H m w L ev w' L' -> 1 <= m -> forall c k v, L c k = Some v ->
  exists v', L' c k = Some v' /\ v <= v'.
Proof.
  intros S M c k v E. destruct S as [e k0 w' D L' _ X Y|n s|c0 k0 v0 v' E0 G1 G2|c0 k0 v0 E0 G].
  - eapply replay_mono; eauto.
  - exists v. split; auto; lia.
  - destruct (same_or_not c0 c k0 k) as [[-> ->]|N].
    + rewrite E in E0. inversion E0; subst. exists v'. split; [apply lset_same | lia].
    + exists v. rewrite lset_other by auto. split; auto; lia.
  - destruct (same_or_not c0 c k0 k) as [[-> ->]|N].
    + rewrite E in E0. inversion E0; subst. exists (w_seq w + m - 1). split; [apply lset_same | lia].
    + exists v. rewrite lset_other by auto. split; auto; lia.
Qed.
Lemma lrun_mono H m w L l w' L' : lrun H m w L l w' L' -> 1 <= m -> forall c k v, L c k = Some v ->
  exists v', L' c k = Some v' /\ v <= v'.
Proof.
  intros X M. induction X as [w L|w L ev w1 L1 l w2 L2 X1 X2 IH]; intros c k v E.
  - exists v. split; auto; lia.
  - destruct (lstep_mono _ _ _ _ _ _ _ X1 M _ _ _ E) as (v1 & E1 & G1). destruct (IH _ _ _ E1) as (v2 & E2 & G2).
    exists v2. split; auto; lia.
Qed.

(** ** a property of every record *)
Definition logs {A} (G : list Touch -> Prop) (m : TST A) : Prop := forall w l,
  match m (w, l) with Ok (_, (_, l')) => exists D, l' = l ++ D /\ G D | Err _ => True end.
Definition emits {A} (x : Touch) (m : TST A) : Prop := logs (fun D => In x D) m.

Section Logs.
Variable G : list Touch -> Prop.
Hypothesis G0 : G [].
Hypothesis GA : forall D1 D2, G D1 -> G D2 -> G (D1 ++ D2).
Lemma lg_bind {A B} (m : TST A) (k : A -> TST B) : logs G m -> (forall a, logs G (k a)) -> logs G (mbind m k).
Proof.
  intros H K w l. unfold mbind. specialize (H w l). destruct (m (w, l)) as [[a [w1 l1]]|]; auto.
  destruct H as (D1 & -> & H1). specialize (K a w1 (l ++ D1)). destruct (k a (w1, l ++ D1)) as [[b [w2 l2]]|]; auto.
  destruct K as (D2 & -> & H2). exists (D1 ++ D2). rewrite app_assoc. auto.
Qed.
Lemma lg_tf {A} (m : ST World A) : logs G (tf m).
Proof. intros w l. unfold tf. cbn [fst snd]. destruct (m w) as [[a w']|]; auto. exists []. now rewrite app_nil_r. Qed.
Lemma lg_ret {A} (a : A) : logs G (mret a).
Proof. intros w l. exists []. now rewrite app_nil_r. Qed.
Lemma lg_fail {A} x : logs G (@mfail _ A x).
Proof. intros w l. exact I. Qed.
Lemma lg_lift {A} (r : res A) : logs G (mlift r).
Proof. intros w l. unfold mlift. destruct r; auto. exists []. now rewrite app_nil_r. Qed.
Lemma lg_guard b x : logs G (@mguard TW b x).
Proof. intros w l. unfold mguard. destruct b; auto. exists []. now rewrite app_nil_r. Qed.
Lemma lg_note D : G D -> logs G (tnote D).
Proof. intros H w l. unfold tnote. cbn. eauto. Qed.
End Logs.
Lemma logs_zexec G e k w w' D : logs G (zexec e k) -> zexec e k (w, []) = Ok (tt, (w', D)) -> G D.
Proof. intros L H. specialize (L w []). rewrite H in L. destruct L as (D' & E & X). simpl in E. now subst. Qed.
