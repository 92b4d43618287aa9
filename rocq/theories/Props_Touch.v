(** Properties of ledger-entry lifetimes (Touch.v, Life.v): which calls state archival can stop,
    which entries the contracts keep alive, and which they let lapse. *)
From Coq Require Import ZArith List Bool Lia.
From Verif Require Import Base FMap Decimal Curve World Token Stake Pool Stable Rewards Vest Factory Router System SysInv SysFact.
From Verif Require Import Frame SysVest Touch TouchErase Life TouchCover TouchGrow LifeLemmas TouchLogs.
Import ListNotations.
Open Scope list_scope.
Open Scope Z_scope.

(** ** C184: recording the accesses changes nothing *)
Theorem C184_recording_accesses_changes_nothing e k w :
  (forall w', exec e k w = Ok (tt, w') <-> exists D, zexec e k (w, []) = Ok (tt, (w', D))) /\
  (forall x, exec e k w = Err x <-> zexec e k (w, []) = Err x).
Proof.
  pose proof (zexec_touches e k w []) as T. split.
  - intros w'. split; [apply exec_zexec | intros [D X]; eapply zexec_exec; eauto].
  - intros x. destruct (exec e k w) as [[[] w1]|y].
    + destruct T as (D & ->). split; congruence.
    + rewrite T. split; congruence.
Qed.
Print Assumptions C184_recording_accesses_changes_nothing.

(** ** C185: lifetimes follow the ledger; archival is the only thing that can stop a call *)
Theorem C185_lifetimes_follow_the_ledger H m w L : lreach H m w L ->
  reachable H w /\ (forall c k, present w c k = true <-> L c k <> None).
Proof. apply lreach_tracks. Qed.
Print Assumptions C185_lifetimes_follow_the_ledger.

Theorem C185_only_lapsed_entries_stop_a_call H m w L e k w' : 1 <= m -> lreach H m w L -> e_hash e = H -> exec e k w = Ok (tt, w') ->
  exists D, zexec e k (w, []) = Ok (tt, (w', D)) /\
    ((exists L', lstep H m w L (LTx e k) w' L') <->
     forall x v, In x D -> L (x_at x) (x_key x) = Some v -> w_seq w <= v).
Proof.
  intros M R E X. destruct (exec_zexec _ _ _ _ X) as (D & Z). exists D. split; auto.
  destruct (lreach_tracks _ _ _ _ R) as [Rw T]. split.
  - intros (L' & S). inversion S; subst. match goal with A : zexec e k (w, []) = Ok (tt, (w', ?D2)) |- _ =>
      assert (D2 = D) by congruence; subst D2 end. eapply replay_live; eauto.
  - intros A. destruct (zexec_grow _ _ _ _ _ (reach_wf _ _ Rw) Z) as [_ Gr].
    destruct (replay_goes m (w_seq w) D M (here w) L (g_cov _ _ _ Gr)) as [L' Y]; auto.
    + intros c y P. now apply T.
    + exists L'. econstructor; eauto.
Qed.
Print Assumptions C185_only_lapsed_entries_stop_a_call.

(** ** C186: nothing shortens a lifetime *)
Theorem C186_lifetimes_never_shrink H m w L l w' L' c k v : 1 <= m -> lrun H m w L l w' L' -> L c k = Some v ->
  exists v', L' c k = Some v' /\ v <= v'.
Proof. intros M X E. eapply lrun_mono; eauto. Qed.
Print Assumptions C186_lifetimes_never_shrink.

(** ** C187: what a call reads or writes then lives for 29 days, except stake_rewards' books *)
Definition care (p : Key -> bool) (t : Ttl) (D : list Touch) : Prop := forall c k, p k = true ->
  In (mkT c k Look) D \/ In (mkT c k Put) D -> exists t', In (mkT c k (Bump t')) D /\ threshold_of t <= threshold_of t'.
Lemma care_nil p t : care p t [].
Proof. intros c k _ [[]|[]]. Qed.
Lemma care_app p t D1 D2 : care p t D1 -> care p t D2 -> care p t (D1 ++ D2).
Proof.
  intros A B c k P X.
  assert (Y : (In (mkT c k Look) D1 \/ In (mkT c k Put) D1) \/ (In (mkT c k Look) D2 \/ In (mkT c k Put) D2))
    by (rewrite !in_app_iff in X; tauto).
  destruct Y as [Y|Y]; [apply A in Y | apply B in Y]; auto; destruct Y as (t' & Y & Z); exists t'; split; auto; apply in_or_app; auto.
Qed.
Lemma care_owe p t c k t' (m : TST unit) : threshold_of t <= threshold_of t' ->
  emits (mkT c k (Bump t')) m -> logs (care p t) m -> logs (care p t) (mbind (tnote [mkT c k Look]) (fun _ => m)).
Proof.
  intros T E G w l. unfold mbind, tnote. cbn [fst snd]. specialize (E w (l ++ [mkT c k Look])). specialize (G w (l ++ [mkT c k Look])).
  destruct (m (w, l ++ [mkT c k Look])) as [[a [w' l']]|]; auto. destruct E as (D1 & E1 & I1). destruct G as (D2 & E2 & C2).
  rewrite E1 in E2. apply app_inv_head in E2. subst D2. exists (mkT c k Look :: D1). rewrite E1, <- app_assoc. split; auto.
  intros c0 k0 P X. simpl in X.
  assert (Y : (c0 = c /\ k0 = k) \/ (In (mkT c0 k0 Look) D1 \/ In (mkT c0 k0 Put) D1)).
  { destruct X as [[X|X]|[X|X]]; try (inversion X; subst); auto. }
  destruct Y as [[-> ->]|Y].
  - exists t'. simpl. auto.
  - destruct (C2 c0 k0 P Y) as (t2 & Y2 & Z2). exists t2. simpl. auto.
Qed.
Lemma care_note p t D : (forall c k, In (mkT c k Look) D \/ In (mkT c k Put) D -> p k = true ->
  exists t', In (mkT c k (Bump t')) D /\ threshold_of t <= threshold_of t') -> care p t D.
Proof. intros H c k P X. auto. Qed.
Definition kept (k : Key) : bool := negb (trio k) && match k with YInst => false | _ => true end.
Ltac cns := let X := fresh "X" in let P := fresh "P" in let c9 := fresh "c" in let y9 := fresh "y" in
  apply care_note; simpl; intros c9 y9 X P;
  repeat match goal with H : _ \/ _ |- _ => destruct H end; try contradiction;
  match goal with H : mkT _ _ _ = _ |- _ => inversion H; subst end;
  first [ discriminate P
        | eexists; split; [eauto | unfold threshold_of, bump_of, DAY_IN_LEDGERS; lia]
        | exfalso; match goal with H : trio ?y = true |- _ => unfold kept in P; rewrite H in P; discriminate P end ].
Lemma care_kept e k : logs (care kept TP) (zexec e k).
Proof.
  apply lg_zexec; try apply care_nil; try apply care_app; intros.
  all: try (apply care_owe with TP; auto; lia).
  all: try cns.
  - apply lg_bind; [apply care_app | | auto]. unfold z_decimals. apply lg_bind; [apply care_app | apply lg_tf, care_nil |].
    intros. apply lg_bind; [apply care_app | | intros; apply lg_ret, care_nil]. apply lg_note. cns.
Qed.

Theorem C187_used_entries_live_29_days H m w L e k w' L' D c y a :
  1 <= m -> lreach H m w L -> lstep H m w L (LTx e k) w' L' -> zexec e k (w, []) = Ok (tt, (w', D)) ->
  In (mkT c y a) D -> a <> Has ->
  (forall b, y <> YAdj b) -> y <> YCurve -> y <> YDistr -> y <> YInst ->
  present w' c y = true ->
  exists v, L' c y = Some v /\ w_seq w + 29 * 17280 < v.
Proof.
  intros M R S Z I N N1 N2 N3 N4 P. destruct (lreach_tracks _ _ _ _ R) as [Rw T].
  pose proof (lstep_tracks _ _ _ _ _ _ _ S Rw T) as T'.
  inversion S; subst. match goal with A : zexec e k (w, []) = Ok (tt, (w', ?D2)) |- _ =>
      assert (D2 = D) by congruence; subst D2 end.
  pose proof (logs_zexec _ _ _ _ _ _ (care_kept e k) Z) as C.
  assert (K : kept y = true) by (destruct y; try reflexivity; exfalso; try congruence; eapply N1; reflexivity).
  assert (B : (exists t', In (mkT c y (Bump t')) D /\ threshold_of TP <= threshold_of t') ->
              exists v, L' c y = Some v /\ w_seq w + 29 * 17280 < v).
  { intros (t' & B & G). match goal with Y : replay _ _ _ _ = Some _ |- _ => destruct (replay_long _ _ _ _ _ _ _ _ Y B) as (v & E & V) end.
    exists v. split; auto. unfold threshold_of, bump_of, DAY_IN_LEDGERS in *. destruct t'; lia. }
  destruct a; try congruence; try (apply B, C; auto; fail).
  - match goal with Y : replay _ _ _ _ = Some _ |- _ => destruct (replay_long _ _ _ _ _ _ _ _ Y I) as (v & E & V) end.
    destruct t; [exists v; split; auto; unfold threshold_of, bump_of, DAY_IN_LEDGERS in *; lia|].
    exfalso. assert (Q : logs (Forall (fun x => x_act x = Bump TI -> x_key x = YInst)) (zexec e k)).
    { apply lg_zexec; auto; intros; try (apply Forall_app; auto); repeat constructor; simpl; try discriminate; auto.
      all: try (apply lg_bind; [intros; apply Forall_app; auto | apply lg_note; repeat constructor; discriminate | auto]).
      apply lg_bind; [intros; apply Forall_app; auto | | auto]. unfold z_decimals.
      apply lg_bind; [intros; apply Forall_app; auto | apply lg_tf; constructor | intros].
      apply lg_bind; [intros; apply Forall_app; auto | apply lg_note; repeat constructor; discriminate | intros; apply lg_ret; constructor]. }
    pose proof (logs_zexec _ _ _ _ _ _ Q Z) as F. rewrite Forall_forall in F. specialize (F _ I eq_refl). simpl in F. congruence.
  - destruct (L c y) as [v0|] eqn:E0.
    + assert (N0 : L c y <> None) by congruence.
      match goal with Y : replay _ _ _ _ = Some _ |- _ => destruct (replay_peek _ _ _ _ _ _ _ Y I N0) as (v & E & V) end.
      exists v. split; [exact E | exact V].
    + apply T' in P. match goal with Y : replay _ _ _ _ = Some _ |- _ => apply (replay_dom _ _ _ _ _ Y) in P end.
      destruct P as [P|P]; [congruence|]. apply B, C; auto.
Qed.
Print Assumptions C187_used_entries_live_29_days.

(** ** C188: a call keeps every contract it passes through alive for 6 days *)
Definition instk (k : Key) : bool := match k with YInst => true | _ => false end.
Ltac cni := let X := fresh "X" in let P := fresh "P" in let c9 := fresh "c" in let y9 := fresh "y" in
  apply care_note; simpl; intros c9 y9 X P;
  repeat match goal with H : _ \/ _ |- _ => destruct H end; try contradiction;
  match goal with H : mkT _ _ _ = _ |- _ => inversion H; subst end;
  first [ discriminate P
        | exfalso; match goal with H : plain ?y = true |- _ => destruct y; discriminate end
        | exfalso; match goal with H : trio ?y = true |- _ => destruct y; discriminate end
        | eexists; split; [eauto | unfold threshold_of, bump_of, DAY_IN_LEDGERS; lia] ].
Lemma care_dec c (k : Z -> TST unit) : (forall d, emits (mkT c YInst (Bump TI)) (k d)) -> (forall d, logs (care instk TI) (k d)) ->
  logs (care instk TI) (mbind (z_decimals c) k).
Proof.
  intros E G w l. unfold z_decimals, mbind, tf, seen, tnote, mret. cbn [fst snd]. destruct (tok_decimals c w) as [[d w1]|]; [|exact I]. cbn [fst snd].
  specialize (E d w1 (l ++ [mkT c YInst Look])). specialize (G d w1 (l ++ [mkT c YInst Look])).
  destruct (k d (w1, l ++ [mkT c YInst Look])) as [[a [w' l']]|]; auto. destruct E as (D1 & E1 & I1). destruct G as (D2 & E2 & C2).
  rewrite E1 in E2. apply app_inv_head in E2. subst D2. exists (mkT c YInst Look :: D1). rewrite E1, <- app_assoc. split; auto.
  intros c0 k0 P X. simpl in X.
  assert (Y : (c0 = c /\ k0 = YInst) \/ (In (mkT c0 k0 Look) D1 \/ In (mkT c0 k0 Put) D1)).
  { destruct X as [[X|X]|[X|X]]; try (inversion X; subst); auto. }
  destruct Y as [[-> ->]|Y].
  - exists TI. simpl. split; [auto | lia].
  - destruct (C2 c0 k0 P Y) as (t2 & Y2 & Z2). exists t2. simpl. auto.
Qed.
Lemma care_inst e k : of_inst k = false -> logs (care instk TI) (zexec e k).
Proof.
  intros O. apply lg_zexec_inst; auto; try apply care_nil; try apply care_app; intros.
  all: try (apply care_owe with TP; auto; unfold threshold_of, bump_of, DAY_IN_LEDGERS; lia).
  all: try cni.
  apply care_dec; auto.
Qed.

Theorem C188_touched_contracts_live_6_days H m w L e k w' L' D c a :
  1 <= m -> lstep H m w L (LTx e k) w' L' -> zexec e k (w, []) = Ok (tt, (w', D)) ->
  match k with
  | CDeploy _ _ | CDeployTok _ _ _ | CPoolInit _ _ _ _ _ _ | CStableInit _ _ _ _ _ | CRewInit _ _ _ _ _ _ _ | CFactInit _ _ _ _ _ _ _ _
  | CTraderInit _ _ _ _ _ | CCreate _ _ _ _ _ _ _ | CPoolUpdate _ _ | CPoolUpgrade _ _ _ | CStakeUpdate _ _ | CRewUpdate _ _
  | CVestUpdate _ _ | CFactUpdate _ _ _ => False
  | _ => True
  end ->
  In (mkT c YInst a) D ->
  exists v, L' c YInst = Some v /\ w_seq w + 6 * 17280 < v.
Proof.
  intros M S Z O I. assert (O' : of_inst k = false) by (destruct k; auto; contradiction).
  inversion S; subst. match goal with A : zexec e k (w, []) = Ok (tt, (w', ?D2)) |- _ =>
      assert (D2 = D) by congruence; subst D2 end.
  pose proof (logs_zexec _ _ _ _ _ _ (care_inst e k O') Z) as C.
  match goal with Y : replay _ _ _ _ = Some _ |- _ => rename Y into Y0 end.
  assert (B : (exists t', In (mkT c YInst (Bump t')) D) -> exists v, L' c YInst = Some v /\ w_seq w + 6 * 17280 < v).
  { intros (t' & B). destruct (replay_long _ _ _ _ _ _ _ _ Y0 B) as (v & E & V).
    exists v. split; auto. unfold threshold_of, bump_of, DAY_IN_LEDGERS in *. destruct t'; lia. }
  assert (F : Forall (fun x => x_key x = YInst -> x_act x <> Has /\ x_act x <> Peek) D).
  { refine (logs_zexec _ _ _ _ _ _ _ Z).
    assert (Q : forall d1 d2, Forall (fun x => x_key x = YInst -> x_act x <> Has /\ x_act x <> Peek) d1 ->
      Forall (fun x => x_key x = YInst -> x_act x <> Has /\ x_act x <> Peek) d2 ->
      Forall (fun x => x_key x = YInst -> x_act x <> Has /\ x_act x <> Peek) (d1 ++ d2)) by (intros; apply Forall_app; auto).
    apply lg_zexec; auto; intros.
    all: try (repeat constructor; intros; simpl in *; subst; first [discriminate | match goal with H : plain _ = true |- _ => discriminate H end]).
    all: try (apply lg_bind; [exact Q | apply lg_note; repeat constructor; discriminate | auto]).
    apply lg_bind; [exact Q | | auto]. unfold z_decimals.
    apply lg_bind; [exact Q | apply lg_tf; constructor | intros].
    apply lg_bind; [exact Q | apply lg_note; repeat constructor; discriminate | intros; apply lg_ret; constructor]. }
  rewrite Forall_forall in F. specialize (F _ I eq_refl). simpl in F.
  destruct a; try (exfalso; tauto).
  - destruct (C c YInst eq_refl (or_introl I)) as (t' & X & _). eauto.
  - destruct (C c YInst eq_refl (or_intror I)) as (t' & X & _). eauto.
  - eauto.
Qed.
Print Assumptions C188_touched_contracts_live_6_days.

(** ** C189: stake_rewards' books are never extended by any call *)
Definition outside (c : Addr) (k : Key) (ev : LEvent) : Prop :=
  match ev with LExtend c' k' _ | LRestore c' k' => c' = c /\ k' = k | _ => False end.
Definition quiet_trio (D : list Touch) : Prop :=
  Forall (fun x => trio (x_key x) = true -> match x_act x with Bump _ | Peek => False | _ => True end) D.
Lemma quiet_app d1 d2 : quiet_trio d1 -> quiet_trio d2 -> quiet_trio (d1 ++ d2).
Proof. intros. apply Forall_app; auto. Qed.
Lemma quiet_all e k : logs quiet_trio (zexec e k).
Proof.
  assert (Q := quiet_app).
  assert (PT : forall k, plain k = true -> trio k = true -> False) by (intros [] A B; discriminate).
  apply lg_zexec; auto; try constructor; intros.
  all: try (repeat constructor; simpl; intros; try discriminate; exfalso; eapply PT; eauto; fail).
  all: try (repeat constructor; simpl; intros; auto; fail).
  all: try (apply lg_bind; [exact Q | apply lg_note; repeat constructor; discriminate | auto]).
  apply lg_bind; [exact Q | | auto]. unfold z_decimals.
  apply lg_bind; [exact Q | apply lg_tf; constructor | intros].
  apply lg_bind; [exact Q | apply lg_note; repeat constructor; discriminate | intros; apply lg_ret; constructor].
Qed.
Lemma trio_nobump e k w w' D c y : zexec e k (w, []) = Ok (tt, (w', D)) -> trio y = true -> nobump c y D.
Proof.
  intros Z T a I. pose proof (logs_zexec _ _ _ _ _ _ (quiet_all e k) Z) as F. unfold quiet_trio in F. rewrite Forall_forall in F.
  apply (F _ I T).
Qed.
Lemma lstep_trio H m w L ev w' L' c y v : lstep H m w L ev w' L' -> trio y = true -> ~ outside c y ev ->
  L c y = Some v -> L' c y = Some v.
Proof.
  intros S T N E. destruct S as [e k w' D L' _ X Y|n s|c0 k0 v0 v1 E0 _ _|c0 k0 v0 E0 _].
  - eapply replay_nobump; eauto. eapply trio_nobump; eauto.
  - auto.
  - rewrite lset_other; auto. intros [-> ->]. apply N. simpl; auto.
  - rewrite lset_other; auto. intros [-> ->]. apply N. simpl; auto.
Qed.
Lemma lrun_trio H m w L l w' L' c y v : lrun H m w L l w' L' -> trio y = true -> Forall (fun ev => ~ outside c y ev) l ->
  L c y = Some v -> L' c y = Some v.
Proof.
  intros X T. induction X as [w L|w L ev w1 L1 l w2 L2 X1 X2 IH]; intros F E; auto.
  inversion F; subst. apply IH; auto. eapply lstep_trio; eauto.
Qed.

Theorem C189_reward_books_are_never_extended H m w L l w' L' c v :
  lrun H m w L l w' L' ->
  forall y, (y = YCurve \/ y = YDistr \/ exists u, y = YAdj u) ->
  Forall (fun ev => ~ outside c y ev) l ->
  L c y = Some v -> L' c y = Some v.
Proof.
  intros X y T F E. eapply lrun_trio; eauto. destruct T as [->|[->|[u ->]]]; reflexivity.
Qed.
Print Assumptions C189_reward_books_are_never_extended.

(** an entry no call extends is born for the network's minimum only *)
Theorem C189_reward_books_are_born_short H m w L e k w' L' c y v :
  lstep H m w L (LTx e k) w' L' -> (y = YCurve \/ y = YDistr \/ exists u, y = YAdj u) ->
  L c y = None -> L' c y = Some v -> v = w_seq w + m - 1.
Proof.
  intros S T E E'. assert (T' : trio y = true) by (destruct T as [->|[->|[u ->]]]; reflexivity).
  inversion S; subst. eapply replay_born; eauto. eapply trio_nobump; eauto.
Qed.
Print Assumptions C189_reward_books_are_born_short.

Lemma emit_blocks H m w L e k w' L' x v : emits x (zexec e k) -> lstep H m w L (LTx e k) w' L' ->
  L (x_at x) (x_key x) = Some v -> w_seq w <= v.
Proof.
  intros E S X. inversion S; subst. match goal with Y : replay _ _ _ _ = Some _, Z : zexec _ _ _ = _ |- _ =>
    exact (replay_live _ _ _ _ _ Y _ _ (logs_zexec _ _ _ _ _ _ E Z) X) end.
Qed.
Lemma em_getr c ks ls y : In y ls -> emits (mkT c y Look) (z_get_rewards c ks ls).
Proof.
  intros I. unfold z_get_rewards. apply em_r; [logT|]. intros r. apply em_r; [logT|]. intros _. apply em_l; [|intros; logTs].
  apply em_note. apply in_map_iff. eauto.
Qed.
Lemma em_getp c ks y a : In (mkT c y a) (flat_map (fun k => [mkT c k Look; mkT c k (Bump TP)]) ks) -> emits (mkT c y a) (z_get_pool c ks).
Proof.
  intros I. unfold z_get_pool. apply em_r; [logT|]. intros r. apply em_l; [|intros; logTs].
  apply em_note. exact I.
Qed.
Ltac emg := repeat lazymatch goal with
  | |- emits _ (mbind (z_get_rewards _ _ _) _) => apply em_l; [apply em_getr; simpl; auto | intros ?; solve [logTs]]
  | |- emits _ (mbind (z_get_pool _ _) _) => apply em_l; [apply em_getp; simpl; auto 14 | intros ?; solve [logTs]]
  | |- emits _ (mbind _ _) => apply em_r; [solve [logT] | intros ?]
  end.
Lemma em_drop {A} x (m : TST A) : emits x m -> emits x (z_drop m).
Proof. intros E. apply em_l; [exact E | intros; logTs]. Qed.

Theorem C189_lapsed_rewards_lock_every_user_out H m w L e k w' L' c u v :
  (exists b, k = CRewAddUser c u b) \/ (exists b, k = CRewBond c u b) \/ (exists b, k = CRewWithdraw c u b) \/
  (exists b x, k = CRewUnbond c u b x) ->
  L c YDistr = Some v -> v < w_seq w -> ~ lstep H m w L (LTx e k) w' L'.
Proof.
  intros K E V S.
  assert (X : emits (mkT c YDistr Look) (zexec e k)).
  { destruct K as [[b ->]|[[b ->]|[[b ->]|(b & x & ->)]]]; cbn [zexec].
    - unfold z_rewards_add_user. emg.
    - unfold z_rewards_bond. emg.
    - unfold z_rewards_withdraw. emg.
    - unfold z_rewards_unbond. emg. }
  pose proof (emit_blocks _ _ _ _ _ _ _ _ _ _ X S E). lia.
Qed.
Print Assumptions C189_lapsed_rewards_lock_every_user_out.

(** ** C190: the share total of a pool is not kept alive by swaps *)
Definition no_total (D : list Touch) : Prop := Forall (fun x => x_key x <> YTotal) D.
Lemma not_total e k : of_total k = false -> logs no_total (zexec e k).
Proof.
  intros O. assert (Q : forall d1 d2, no_total d1 -> no_total d2 -> no_total (d1 ++ d2)) by (intros; apply Forall_app; auto).
  assert (PT : forall k, plain k = true -> k <> YTotal) by (intros [] A B; discriminate).
  assert (TT : forall k, trio k = true -> k <> YTotal) by (intros [] A B; discriminate).
  apply lg_zexec_total; auto; try constructor; intros.
  all: try (repeat constructor; simpl; auto; discriminate).
  all: try (repeat constructor; simpl; auto; fail).
  all: try (apply lg_bind; [exact Q | apply lg_note; repeat constructor; discriminate | auto]).
  apply lg_bind; [exact Q | | auto]. unfold z_decimals.
  apply lg_bind; [exact Q | apply lg_tf; constructor | intros].
  apply lg_bind; [exact Q | apply lg_note; repeat constructor; discriminate | intros; apply lg_ret; constructor].
Qed.
Definition moves_shares (ev : LEvent) : Prop :=
  match ev with LTx _ (CPoolInit _ _ _ _ _ _) | LTx _ (CPoolProvide _ _ _ _ _ _ _ _) | LTx _ (CPoolWithdraw _ _ _ _ _ _)
  | LTx _ (CCreate _ _ _ _ _ _ _) => True | _ => False end.

Theorem C190_swaps_do_not_keep_the_share_total_alive H m w L l w' L' p :
  lrun H m w L l w' L' ->
  Forall (fun ev => ~ moves_shares ev /\ ~ outside p YTotal ev) l ->
  L' p YTotal = L p YTotal.
Proof.
  intros X. induction X as [w L|w L ev w1 L1 l w2 L2 X1 X2 IH]; intros F; auto.
  inversion F as [|? ? [N1 N2] F']; subst. rewrite (IH F'). clear IH X2 F F'.
  destruct X1 as [e k w' D L' _ X Y|n s|c0 k0 v0 v1 E0 _ _|c0 k0 v0 E0 _]; auto.
  - eapply replay_untouched; eauto. intros a I.
    assert (O : of_total k = false) by (destruct k; auto; exfalso; apply N1; exact Logic.I).
    pose proof (logs_zexec _ _ _ _ _ _ (not_total e k O) X) as G. unfold no_total in G. rewrite Forall_forall in G. now apply G in I.
  - rewrite lset_other; auto. intros [A B]. subst. apply N2. simpl; auto.
  - rewrite lset_other; auto. intros [A B]. subst. apply N2. simpl; auto.
Qed.
Print Assumptions C190_swaps_do_not_keep_the_share_total_alive.

Theorem C190_lapsed_share_total_blocks_liquidity H m w L e k w' L' p v :
  (exists u da ma db mb cu dl, k = CPoolProvide p u da ma db mb cu dl) \/ (exists u s a b dl, k = CPoolWithdraw p u s a b dl) ->
  L p YTotal = Some v -> v < w_seq w -> ~ lstep H m w L (LTx e k) w' L'.
Proof.
  intros K E V S.
  assert (X : emits (mkT p YTotal Look) (zexec e k)).
  { destruct K as [(u & da & ma & db & mb & cu & dl & ->)|(u & s & a & b & dl & ->)]; cbn [zexec].
    - unfold z_pool_provide. emg.
    - apply em_drop. unfold z_pool_withdraw. emg. }
  pose proof (emit_blocks _ _ _ _ _ _ _ _ _ _ X S E). lia.
Qed.
Print Assumptions C190_lapsed_share_total_blocks_liquidity.

(** ** C191: archival never takes anything away for good *)
Definition a_restore (ev : LEvent) : Prop := match ev with LRestore _ _ => True | _ => False end.
Lemma lrun_snoc H m w L l w1 L1 ev w2 L2 : lrun H m w L l w1 L1 -> lstep H m w1 L1 ev w2 L2 -> lrun H m w L (l ++ [ev]) w2 L2.
Proof. intros X S. induction X; simpl; econstructor; eauto. constructor. Qed.
Lemma restore_all H m w : 1 <= m -> forall D L, exists l L1, Forall a_restore l /\ lrun H m w L l w L1 /\
  forall x v, In x D -> L1 (x_at x) (x_key x) = Some v -> w_seq w <= v.
Proof.
  intros M. induction D as [|[c k a] tl IH]; intros L.
  - exists [], L. split; [constructor|]. split; [constructor|]. intros x v [].
  - destruct (IH L) as (l & L1 & F & X & A). destruct (L1 c k) as [v|] eqn:E.
    + destruct (Z_lt_le_dec v (w_seq w)) as [V|V].
      * exists (l ++ [LRestore c k]), (lset L1 c k (w_seq w + m - 1)). split; [apply Forall_app; repeat constructor; auto|].
        split; [eapply lrun_snoc; [exact X | econstructor; eauto]|].
        intros x v' I E'. destruct (same_or_not c (x_at x) k (x_key x)) as [[Q1 Q2]|N].
        -- rewrite <- Q1, <- Q2, lset_same in E'. inversion E'. lia.
        -- rewrite lset_other in E' by (intros [Q1 Q2]; apply N; auto). destruct I as [<-|I]; [exfalso; apply N; auto | eauto].
      * exists l, L1. split; auto. split; auto. intros x v' [<-|I] E'; [|eauto]. simpl in E'. congruence.
    + exists l, L1. split; auto. split; auto. intros x v' [<-|I] E'; [|eauto]. simpl in E'. congruence.
Qed.

Theorem C191_archival_is_never_permanent H m w L e k w' : 1 <= m -> lreach H m w L -> e_hash e = H -> exec e k w = Ok (tt, w') ->
  exists l L1 L', Forall (fun ev => exists c y, ev = LRestore c y) l /\ lrun H m w L l w L1 /\ lstep H m w L1 (LTx e k) w' L'.
Proof.
  intros M R E X. destruct (exec_zexec _ _ _ _ X) as (D & Z). destruct (restore_all H m w M D L) as (l & L1 & F & Y & A).
  destruct (C185_only_lapsed_entries_stop_a_call _ _ _ _ _ _ _ M (lreach_run _ _ _ _ _ _ _ R Y) E X) as (D' & Z' & G).
  assert (D' = D) by congruence. subst D'. destruct (proj2 G A) as [L' S]. exists l, L1, L'. repeat split; auto.
  eapply Forall_impl; [|exact F]. intros [] Q; try contradiction. eauto.
Qed.
Print Assumptions C191_archival_is_never_permanent.

(** ** C192: what is used again within 29 days is still there *)
Theorem C192_used_entries_survive_29_days H m w L e k w1 L1 D l w2 L2 c y a :
  1 <= m -> lreach H m w L -> lstep H m w L (LTx e k) w1 L1 -> zexec e k (w, []) = Ok (tt, (w1, D)) ->
  In (mkT c y a) D -> a <> Has ->
  (forall b, y <> YAdj b) -> y <> YCurve -> y <> YDistr -> y <> YInst ->
  present w1 c y = true ->
  lrun H m w1 L1 l w2 L2 -> w_seq w2 <= w_seq w + 29 * 17280 ->
  exists v, L2 c y = Some v /\ w_seq w2 <= v.
Proof.
  intros M R S Z I N N1 N2 N3 N4 P X Q.
  destruct (C187_used_entries_live_29_days _ _ _ _ _ _ _ _ _ _ _ _ M R S Z I N N1 N2 N3 N4 P) as (v & E & V).
  destruct (lrun_mono _ _ _ _ _ _ _ X M _ _ _ E) as (v' & E' & V'). exists v'. split; auto. lia.
Qed.
Print Assumptions C192_used_entries_survive_29_days.

(** ** C193: a lapsed schedule stops all further grants to its owner *)
Lemma indices_in n : forall i j, i <= j < i + Z.of_nat n -> In j (indices n i).
Proof.
  induction n as [|n IH]; intros i j B; [lia|]. simpl. destruct (Z.eq_dec i j); auto. right. apply IH. lia.
Qed.
Lemma asked_in l : forall v u j, In u (map fst l) -> no_dup (map fst l) = true -> 0 <= j <= free_index v u -> In (YVest u j) (asked v l).
Proof.
  induction l as [|[a c] tl IH]; cbn [asked map fst no_dup In]; intros v u j I N B; [contradiction|].
  apply andb_true_iff in N as [N1 N2].
  destruct (Z.eq_dec a u) as [->|NE].
  - apply in_or_app. left. apply (in_map (YVest u) (indices _ 0) j), (indices_in (S _)). lia.
  - apply in_or_app. right. destruct I as [I|I]; [congruence|]. apply IH; auto.
    replace (free_index (saved v a c) u) with (free_index v u); auto.
    unfold free_index. replace (v_entries (saved v a c) u) with (v_entries v u); auto.
    unfold saved, save_vesting, v_entries at 2. simpl. rewrite fgetd_set. destruct (Z.eqb_spec u a); [congruence | auto].
Qed.
Lemma tf_inv {A} (m : ST World A) w l a s : tf m (w, l) = Ok (a, s) -> exists w', m w = Ok (a, w') /\ s = (w', l).
Proof. unfold tf. cbn [fst snd]. destruct (m w) as [[b w']|]; [|discriminate]. intros E. inversion E; subst. eauto. Qed.
Lemma note_inv D w l a s : tnote D (w, l) = Ok (a, s) -> s = (w, l ++ D).
Proof. unfold tnote. cbn [fst snd]. intros E. now inversion E. Qed.
Lemma logs_inv {A} G (m : TST A) w l a s : logs G m -> m (w, l) = Ok (a, s) -> exists w' D, s = (w', l ++ D) /\ G D.
Proof. intros H E. specialize (H w l). rewrite E in H. destruct s as [w' l']. destruct H as (D & -> & X). eauto. Qed.
Lemma vest_create_asks e v l w w' D x : zexec e (CVestCreate v l) (w, []) = Ok (tt, (w', D)) -> fget v (w_vest w) = Some x ->
  no_dup (map fst l) = true /\ forall y, In y (asked x l) -> In (mkT v y Has) D.
Proof.
  cbn [zexec]. unfold z_vest_create, z_get_vest. intros Z E.
  apply mbind_ok in Z as (a0 & s0 & Z0 & Z). apply tf_inv in Z0 as (w0 & Z0 & ->). apply enter_ok in Z0 as [_ ->].
  apply mbind_ok in Z as (a1 & s1 & Z1 & Z). apply note_inv in Z1. subst s1.
  apply mbind_ok in Z as (a2 & s2 & Z2 & Z). apply note_inv in Z2. subst s2.
  apply mbind_ok in Z as (a3 & s3 & Z3 & Z). apply mguard_ok in Z3 as [_ Z3]. inversion Z3; subst.
  apply mbind_ok in Z as (x0 & s4 & Z4 & Z).
  apply mbind_ok in Z4 as (x1 & s5 & Z5 & Z4). apply tf_inv in Z5 as (w5 & Z5 & ->). apply get_vest_ok in Z5 as [E5 ->].
  assert (x1 = x) by congruence. subst x1.
  apply mbind_ok in Z4 as (a6 & s6 & Z6 & Z4). apply note_inv in Z6. subst s6. inversion Z4; subst. clear Z4.
  match type of Z with _ (w, ?q) = _ => set (l0 := q) in Z; clearbody l0 end.
  apply mbind_ok in Z as (a7 & s7 & Z7 & Z). apply tf_inv in Z7 as (w7 & Z7 & ->).
  apply mbind_ok in Z as (a8 & s8 & Z8 & Z). apply mguard_ok in Z8 as [_ Z8]. inversion Z8; subst.
  apply mbind_ok in Z as (a9 & s9 & Z9 & Z). apply mguard_ok in Z9 as [ND Z9]. inversion Z9; subst. split; [exact ND|].
  intros y I.
  match type of Z with ?m (w7, l0) = _ => assert (EM : emits (mkT v y Has) m) end.
  { apply em_r; [logT|]. intros [v' tot]. apply em_r; [logT|]. intros bal. apply em_r; [logT|]. intros ti.
    apply em_r; [logT|]. intros _. apply em_l; [|intros; logTs]. apply em_note. apply (in_map (fun k => mkT v k Has)). exact I. }
  destruct (logs_inv _ _ _ _ _ _ EM Z) as (w9 & D9 & E9 & I9). inversion E9; subst. apply in_or_app. auto.
Qed.

Theorem C193_lapsed_schedule_stops_new_grants H m w L e v l w' L' u i x :
  lreach H m w L -> L v (YVest u i) = Some x -> x < w_seq w -> In u (map fst l) ->
  ~ lstep H m w L (LTx e (CVestCreate v l)) w' L'.
Proof.
  intros R E V I S. destruct (lreach_tracks _ _ _ _ R) as [Rw T].
  assert (P : present w v (YVest u i) = true) by (apply T; congruence).
  simpl in P. destruct (fget v (w_vest w)) as [y|] eqn:Ey; [|discriminate].
  pose proof (reach_vest _ _ Rw _ _ Ey) as Iv. pose proof (vv_dense _ _ _ Iv u) as Dn.
  inversion S; subst. match goal with Z : zexec _ _ _ = _ |- _ => destruct (vest_create_asks _ _ _ _ _ _ _ Z Ey) as [ND A] end.
  assert (B : 0 <= i <= free_index y u).
  { unfold free_index. rewrite first_free_dense by exact Dn. apply Dn in P. lia. }
  match goal with Y : replay _ _ _ _ = Some _ |- _ =>
    pose proof (replay_live _ _ _ _ _ Y _ _ (A _ (asked_in _ _ _ _ I ND B)) E) end. lia.
Qed.
Print Assumptions C193_lapsed_schedule_stops_new_grants.

(** ** C194: nobody is stopped by the lapse of somebody else's record *)
Definition own_stake (c u : Addr) (x : Touch) : Prop :=
  match x_key x with YUser y => x_at x = c /\ y = u | YBal y => y = u \/ y = c | _ => True end.
Ltac iso := repeat first
  [ progress cbv zeta
  | lazymatch goal with |- logs _ (match ?t with _ => _ end) => destruct t end
  | apply lg_tf; constructor | apply lg_ret; constructor | apply lg_lift; constructor | apply lg_guard; constructor | apply lg_fail
  | apply lg_note; cbn; repeat (apply Forall_cons; [cbn; solve [auto] |]); solve [apply Forall_nil]
  | apply lg_bind; [intros; apply Forall_app; auto | | intros ?] ].
Lemma iso_transfer c u e cc t f to a : (f = u \/ f = c) -> (to = u \/ to = c) -> logs (Forall (own_stake c u)) (z_transfer e cc t f to a).
Proof. intros A B. unfold z_transfer, z_upd_tok, come. iso. Qed.
Lemma iso_pay c u e s t b l : logs (Forall (own_stake c u)) (z_pay_rewards e c u s t b l).
Proof.
  induction l as [|a tl IH]; simpl; [apply lg_ret; constructor|].
  apply lg_bind; [intros; apply Forall_app; auto | apply lg_lift; constructor | intros p].
  apply lg_bind; [intros; apply Forall_app; auto | apply lg_note; repeat constructor | intros _].
  apply lg_bind; [intros; apply Forall_app; auto | apply iso_transfer; auto | auto].
Qed.

Theorem C194_stakers_only_need_their_own_records e k w w' D c u :
  (exists a, k = CBond c u a) \/ (exists a t, k = CUnbond c u a t) \/ k = CWithdrawRewards c u ->
  zexec e k (w, []) = Ok (tt, (w', D)) -> forall x, In x D ->
  (forall y, x_key x = YUser y -> x_at x = c /\ y = u) /\ (forall y, x_key x = YBal y -> y = u \/ y = c).
Proof.
  intros K Z x I.
  assert (G : logs (Forall (own_stake c u)) (zexec e k)).
  { destruct K as [[a ->]|[(a & t & ->)| ->]]; cbn [zexec].
    - unfold z_stake_bond, z_get_stake, z_put_stake, come. iso; apply iso_transfer; auto.
    - unfold z_stake_unbond, z_get_stake, z_put_stake, come. iso; apply iso_transfer; auto.
    - unfold z_stake_withdraw_rewards, z_get_stake, z_put_stake, come. iso; apply iso_pay. }
  pose proof (logs_zexec _ _ _ _ _ _ G Z) as F. rewrite Forall_forall in F. specialize (F _ I). unfold own_stake in F.
  split; intros y E; rewrite E in F; auto.
Qed.
Print Assumptions C194_stakers_only_need_their_own_records.

Definition own_vest (c u i : Addr) (x : Touch) : Prop :=
  match x_key x with YVest y j => x_at x = c /\ y = u /\ j = i | YBal y => y = u \/ y = c | _ => True end.
Lemma iso_transferv c u i e cc t f to a : (f = u \/ f = c) -> (to = u \/ to = c) -> logs (Forall (own_vest c u i)) (z_transfer e cc t f to a).
Proof. intros A B. unfold z_transfer, z_upd_tok, come. iso. Qed.

Theorem C194_claimants_only_need_their_own_schedule e w w' D c u i :
  zexec e (CVestClaim c u i) (w, []) = Ok (tt, (w', D)) -> forall x, In x D ->
  (forall y j, x_key x = YVest y j -> x_at x = c /\ y = u /\ j = i) /\ (forall y, x_key x = YBal y -> y = u \/ y = c).
Proof.
  intros Z x I.
  assert (G : logs (Forall (own_vest c u i)) (zexec e (CVestClaim c u i))).
  { cbn [zexec]. unfold z_vest_claim, z_put_vest, come, instP. iso; apply iso_transferv; auto. }
  pose proof (logs_zexec _ _ _ _ _ _ G Z) as F. rewrite Forall_forall in F. specialize (F _ I). unfold own_vest in F.
  split; [intros y j E | intros y E]; rewrite E in F; auto.
Qed.
Print Assumptions C194_claimants_only_need_their_own_schedule.
