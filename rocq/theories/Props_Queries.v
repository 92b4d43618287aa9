(** C205-C213: the read-only entry points.  [zanswer q (w, [])] answers query [q] in ledger [w] and
    records the entries it reads and extends (Queries.v). *)
From Coq Require Import ZArith List Bool Lia.
From Verif Require Import Base FMap Decimal Curve World Token Frame Stake Pool Stable Rewards Vest Factory Router Extra System SysFrame SysInv SysFact Script
  TokenProofs PoolProofs SysPool SysSupply Props_Token Props_Pool Props_PoolCases Props_Factory Props_FactoryCases.
From Verif Require Import Touch TouchErase Life TouchCover TouchGrow LifeLemmas TouchLogs TouchCost Props_Touch Props_TouchCases
  Footprint FootprintSim FootprintFrame Props_Footprint.
From Verif Require Import Queries QueriesErase QueriesObs QueriesSim QueriesTime.
Import ListNotations.
Open Scope list_scope.
Open Scope Z_scope.

(** ** C205: a query changes nothing, and extends only what is there *)
Theorem C205_queries_change_nothing q w l a s : zanswer q (w, l) = Ok (a, s) ->
  exists D, s = (w, l ++ D) /\
    forall c y act, In (mkT c y act) D -> act <> Put /\ forall t, act = Bump t -> present w c y = true.
Proof.
  intros X. destruct (ob_zanswer w q l a s X) as (D & E & F & _). exists D. split; [exact E|]. intros c y act I.
  rewrite Forall_forall in F. specialize (F _ I). unfold mild in F. cbn in F. split; [intros -> | intros t ->]; [exact F|]. now apply andb_true_iff in F.
Qed.
Print Assumptions C205_queries_change_nothing.
(** the recorded queries answer what the query functions of the model answer *)
Definition said {A} (f : A -> Answer) (r : res (A * World)) : res Answer := match r with Ok (a, _) => Ok (f a) | Err x => Err x end.
Lemma said_of {A} (f : A -> Answer) q (m : TST A) (m0 : ST World A) w : zanswer q = amap f m -> touches m m0 -> answer q w = said f (m0 w).
Proof.
  intros E T. unfold answer. rewrite E. unfold amap, mbind. specialize (T w []). unfold said. destruct (m0 w) as [[a w']|].
  - destruct T as (D & ->). reflexivity.
  - rewrite T. reflexivity.
Qed.
Theorem C205_queries_answer_as_modelled w :
  (forall t u, answer (QBalance t u) w = said AInt (tok_balance t u w)) /\
  (forall t f s, answer (QAllowance t f s) w = said AInt (tok_allowance t f s w)) /\
  (forall p o a, answer (QPoolSim p o a) w = said ASim (pool_simulate_swap p o a w)) /\
  (forall p o a, answer (QPoolRev p o a) w = said ARev (pool_simulate_reverse p o a w)) /\
  (forall p a, answer (QPoolShare p a) w = said (fun x => AShare (fst x) (snd x)) (pool_query_share p a w)) /\
  (forall p o a, answer (QStabSim p o a) w = said ASim (stable_simulate_swap p o a w)) /\
  (forall p o a, answer (QStabRev p o a) w = said ARev (stable_simulate_reverse p o a w)) /\
  (forall p a, answer (QStabShare p a) w = said (fun x => AShare (fst x) (snd x)) (stable_query_share p a w)) /\
  (forall k u, answer (QStaked k u) w = said AStaked (stake_query_staked k u w)) /\
  (forall k u, answer (QRewards k u) w = said APairs (stake_query_rewards k u w)) /\
  (forall r n, answer (QAnnual r n) w = said AInt (rewards_annualized r n w)) /\
  (forall r u b, answer (QWithdrawable r u b) w = said AInt (rewards_query r u b w)) /\
  (forall v u i, answer (QVestClaimable v u i) w = said AInt (vest_available v u i w)) /\
  (forall v u, answer (QVestAll v u) w = said AVests (vest_query_all v u w)) /\
  (forall f a b, answer (QPairPool f a b) w = said AInt (fact_pool_by_pair f a b w)) /\
  (forall f u b, answer (QPortfolio f u b) w = said AFolio (fact_portfolio f u b w)) /\
  (forall h ops a, answer (QRoute h ops a) w = said ARoute (hop_simulate h ops a w)) /\
  (forall h ops a, answer (QRouteRev h ops a) w = said ARoute (hop_reverse h ops a w)).
Proof.
  repeat split; intros; (eapply said_of; [reflexivity | auto with touch]).
Qed.
Print Assumptions C205_queries_answer_as_modelled.

(** ** C206: an answer depends on the entries read, the time and the ledger number only *)
Theorem C206_answers_depend_on_reads q w1 a D w2 : zanswer q (w1, []) = Ok (a, (w1, D)) -> w_now w2 = w_now w1 -> w_seq w2 = w_seq w1 ->
  (forall c y, touched D c y -> same w1 w2 c y) -> zanswer q (w2, []) = Ok (a, (w2, D)).
Proof.
  intros X T S A. destruct (sim_zanswer (touched D) q w1 w2 [] [] a w1 D) as (b & w2' & Y & E & _).
  - constructor; auto.
  - exact X.
  - intros x I. exists (x_act x). destruct x; exact I.
  - subst b. destruct (ob_zanswer w2 q _ _ _ Y) as (D' & E' & _). cbn in E'. inversion E'; subst. exact Y.
Qed.
Print Assumptions C206_answers_depend_on_reads.

(** ** C207: an answer stays good until something it was read from is written *)
Inductive untouched (H : Addr -> Salt -> Addr) (D : list Touch) : World -> list Event -> World -> Prop :=
| un_nil w : untouched H D w [] w
| un_tx w e k w1 D1 l w2 : e_hash e = H -> zexec e k (w, []) = Ok (tt, (w1, D1)) ->
    (forall c y, touched D c y -> ~ may_change D1 c y) -> untouched H D w1 l w2 -> untouched H D w (Tx e k :: l) w2
| un_tick w n s l w2 : w_now w <= n <= U64_MAX -> w_seq w <= s <= U32_MAX -> untouched H D (set_time w n s) l w2 -> untouched H D w (Tick n s :: l) w2.
Lemma zanswer_world q w l a s : zanswer q (w, l) = Ok (a, s) -> fst s = w.
Proof. intros X. destruct (ob_zanswer w q l a s X) as (D & -> & _). reflexivity. Qed.
Theorem C207_answers_stay_good H q w a D l w' : reachable H w -> zanswer q (w, []) = Ok (a, (w, D)) ->
  (timeless q = true \/ Forall (fun ev => match ev with Tick _ _ => False | _ => True end) l) ->
  untouched H D w l w' -> zanswer q (w', []) = Ok (a, (w', D)).
Proof.
  intros R X T U. revert R X T. induction U as [w|w e k w1 D1 l w2 E Z A U IH|w n s l w2 N S U IH]; intros R X T; [exact X| |].
  - destruct (C202_changes_recorded _ _ _ _ _ _ R Z) as (F & N & S). apply IH.
    + eapply reach_tx; eauto. eapply zexec_exec; eauto.
    + eapply C206_answers_depend_on_reads; eauto.
    + destruct T as [T|T]; [auto | inversion T; auto].
  - destruct T as [T|T]; [|inversion T; contradiction]. apply IH; auto.
    + destruct R as [l0 R]. exists (l0 ++ [Tick n s]). eapply run_app; [exact R|]. econstructor; [|constructor]. constructor; auto.
    + rewrite (tt_zanswer q T), X. reflexivity.
Qed.
Print Assumptions C207_answers_stay_good.

(** ** C208: only a lapsed entry stops a query; a query shortens no lifetime and is worth no more
    than extensions by hand *)
Definition an_extension (ev : LEvent) : Prop := match ev with LExtend _ _ _ => True | _ => False end.
Lemma extended_le seq t v : v <= extended seq t v.
Proof. unfold extended. destruct (v - seq <=? threshold_of t); lia. Qed.
Lemma mild_replay H m w : forall D L, (forall c y, present w c y = true -> L c y <> None) -> Forall (mild w) D ->
  (forall x v, In x D -> L (x_at x) (x_key x) = Some v -> w_seq w <= v) ->
  exists l L', replay m (w_seq w) L D = Some L' /\ Forall an_extension l /\ lrun H m w L l w L'.
Proof.
  induction D as [|[c y a] D IH]; intros L P F V.
  - exists [], L. repeat constructor.
  - inversion F as [|? ? M F']; subst. unfold mild in M. cbn [x_at x_key x_act] in M. cbn [replay touch].
    assert (K : forall t v, L c y = Some v -> exists l L', replay m (w_seq w) (lset L c y (extended (w_seq w) t v)) D = Some L' /\
      Forall an_extension l /\ lrun H m w L l w L').
    { intros t v E. assert (Vv : w_seq w <= v) by (apply (V (mkT c y a)); [left; reflexivity | exact E]).
      destruct (IH (lset L c y (extended (w_seq w) t v))) as (l & L' & Y & G & X); auto.
      - intros c0 y0 P0. destruct (same_or_not c c0 y y0) as [[<- <-]|N]; [rewrite lset_same; discriminate|]. rewrite lset_other; [apply P, P0 | intros [-> ->]; apply N; auto].
      - intros x v0 I. destruct (same_or_not c (x_at x) y (x_key x)) as [[E1 E2]|N].
        + rewrite <- E1, <- E2, lset_same. intros Q. inversion Q; subst. pose proof (extended_le (w_seq w) t v). lia.
        + rewrite lset_other; [|intros [E1 E2]; apply N; auto]. apply V. right. exact I.
      - exists (LExtend c y (extended (w_seq w) t v) :: l), L'. split; [exact Y|]. split; [constructor; [exact Logic.I | exact G]|].
        econstructor; [|exact X]. econstructor; [exact E | exact Vv | apply extended_le]. }
    assert (K0 : exists l L', replay m (w_seq w) L D = Some L' /\ Forall an_extension l /\ lrun H m w L l w L').
    { apply IH; auto. intros x v0 I. apply V. right. exact I. }
    destruct (L c y) as [v|] eqn:E.
    + assert (Vv : w_seq w <= v) by (apply (V (mkT c y a)); [left; reflexivity | exact E]).
      rewrite (proj2 (Z.ltb_ge _ _) Vv). destruct a; auto; contradiction.
    + destruct a; auto; try contradiction. exfalso. apply andb_true_iff in M as [M _]. apply (P _ _ M). exact E.
Qed.
Theorem C208_only_lapsed_entries_stop_a_query H m w L q a D : lreach H m w L -> zanswer q (w, []) = Ok (a, (w, D)) ->
  ((exists L', replay m (w_seq w) L D = Some L') <-> forall x v, In x D -> L (x_at x) (x_key x) = Some v -> w_seq w <= v) /\
  (forall L', replay m (w_seq w) L D = Some L' ->
     lreach H m w L' /\ (exists l, Forall an_extension l /\ lrun H m w L l w L') /\
     (forall c y v, L c y = Some v -> exists v', L' c y = Some v' /\ v <= v') /\
     (forall c y t, In (mkT c y (Bump t)) D -> exists v, L' c y = Some v /\ w_seq w + threshold_of t < v)).
Proof.
  intros R X. destruct (lreach_tracks _ _ _ _ R) as [Rw T]. destruct (ob_zanswer w q _ _ _ X) as (D' & E' & F & _). cbn in E'. inversion E'; subst D'. clear E'.
  assert (G : (forall x v, In x D -> L (x_at x) (x_key x) = Some v -> w_seq w <= v) ->
    exists l L', replay m (w_seq w) L D = Some L' /\ Forall an_extension l /\ lrun H m w L l w L').
  { intros V. apply mild_replay; auto. intros c y. apply T. }
  split.
  - split; [intros [L' Y]; eapply replay_live; eauto | intros V; destruct (G V) as (l & L' & Y & _); eauto].
  - intros L' Y. destruct (G (replay_live _ _ _ _ _ Y)) as (l & L2 & Y2 & A & Z). assert (L2 = L') by congruence. subst L2.
    split; [eapply lreach_run; eauto|]. split; [eauto|]. split.
    + intros c y v E. clear - A Z E. revert v E. induction Z as [|w L ev w1 L1 l w2 L2 S Z IH]; intros v E; [exists v; split; [auto|lia]|].
      inversion A as [|? ? A1 A2]; subst. destruct S; try contradiction.
      destruct (same_or_not c0 c k y) as [[<- <-]|N].
      * destruct (IH A2 v') as (v2 & E2 & V2); [apply lset_same|]. exists v2. split; [exact E2|]. rewrite E in *. match goal with Q : Some _ = Some _ |- _ => inversion Q; subst end. lia.
      * apply IH; auto. rewrite lset_other; [exact E | intros [-> ->]; apply N; auto].
    + intros c y t I. destruct (replay_long _ _ _ _ _ _ _ _ Y I) as (v & E & V). eauto.
Qed.
Print Assumptions C208_only_lapsed_entries_stop_a_query.
(** lapsed entries can be restored, by anybody, and then the query is served *)
Theorem C208_queries_can_be_restored H m w L q a D : 1 <= m -> lreach H m w L -> zanswer q (w, []) = Ok (a, (w, D)) ->
  exists l L1 L', Forall (fun ev => exists c y, ev = LRestore c y) l /\ lrun H m w L l w L1 /\ replay m (w_seq w) L1 D = Some L'.
Proof.
  intros M R X. destruct (restore_all H m w M D L) as (l & L1 & F & Y & A).
  destruct (C208_only_lapsed_entries_stop_a_query _ _ _ _ _ _ _ (lreach_run _ _ _ _ _ _ _ R Y) X) as [[_ G] _]. destruct (G A) as [L' Z].
  exists l, L1, L'. split; [|auto]. eapply Forall_impl; [|exact F]. intros [] Q; try contradiction. eauto.
Qed.
Print Assumptions C208_queries_can_be_restored.
