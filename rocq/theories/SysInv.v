(** Lifting invariants of one contract to all reachable ledgers. *)
From Coq Require Import ZArith List Bool Lia.
From Coq Require Import ZifyBool.
From Verif Require Import Base FMap Decimal Curve World Token TokenProofs Frame Stake Pool PoolProofs
  Stable Rewards Vest Factory Router System SysFrame.
Import ListNotations.
Open Scope Z_scope.

(** ** What the deploying entry points leave behind *)
Definition new_stake (admin lp minbond minreward manager owner maxc : Z) : Stake :=
  mkStake lp minbond minreward manager owner maxc admin 0 fempty fempty [] fempty.

Lemma fmem_false {V} a (m : fmap V) : negb (fmem a m) = true -> fget a m = None.
Proof. unfold fmem. destruct (fget a m); [discriminate|auto]. Qed.

Lemma stake_initialize_ok self a l mb mr m o mc w u w' :
  stake_initialize self a l mb mr m o mc w = Ok (u, w') ->
  fget self (w_code w) = Some KStake /\ fget self (w_stake w) = None /\ 0 < mb /\ 0 < mr /\
  w' = set_stake w (fset self (new_stake a l mb mr m o mc) (w_stake w)).
Proof.
  unfold stake_initialize. intros H. rstep H. winv.
  match goal with R : negb (fmem _ _) = true |- _ => apply fmem_false in R end.
  split; [auto|]. split; [auto|]. split; [lia|]. split; [lia|]. reflexivity.
Qed.

Record NewPool (H : Addr -> Salt -> Addr) (self : Addr) (i : PoolInit) (factory dec : Z) (w : World) : Prop := {
  np_ord : i_ta i < i_tb i;
  np_sa : H self (SPair (i_ta i) (i_tb i)) <> i_ta i;
  np_sb : H self (SPair (i_ta i) (i_tb i)) <> i_tb i;
  np_pos : 0 <= H self (SPair (i_ta i) (i_tb i)) /\ 0 <= H self SEmpty;
  np_share : fget (H self (SPair (i_ta i) (i_tb i))) (w_code w) = None;
  np_stake : fget (H self SEmpty) (w_code w) = None;
  np_ne : H self SEmpty <> H self (SPair (i_ta i) (i_tb i));
  np_stake_none : fget (H self SEmpty) (w_stake w) = None;
  np_dec : 0 <= dec <= 18;
  np_mb : 0 < i_minbond i; np_mr : 0 < i_minreward i }.

Definition with_children (H : Addr -> Salt -> Addr) (self : Addr) (i : PoolInit) (factory dec : Z) (w : World) : World :=
  let sh := H self (SPair (i_ta i) (i_tb i)) in
  let stk := H self SEmpty in
  set_stake (set_code (set_tok w (fset sh (mkToken self dec fempty fempty 0 0) (w_tok w)))
    (fset stk KStake (fset sh KTok (w_code w))))
    (fset stk (new_stake (i_admin i) sh (i_minbond i) (i_minreward i) (i_manager i) factory (i_maxc i)) (w_stake w)).

Lemma children_ok e self i factory dec w sh stk w1 w2 :
  deploy_share e self (i_ta i) (i_tb i) dec w = Ok (sh, w1) ->
  deploy_stake_of e self (i_admin i) sh (i_minbond i) (i_minreward i) (i_manager i) factory (i_maxc i) w1 = Ok (stk, w2) ->
  i_ta i < i_tb i ->
  NewPool (e_hash e) self i factory dec w /\ sh = e_hash e self (SPair (i_ta i) (i_tb i)) /\ stk = e_hash e self SEmpty /\
  w2 = with_children (e_hash e) self i factory dec w.
Proof.
  unfold deploy_share, deploy_stake_of. intros H1 H2 Hord. rstep H1. rstep H2.
  repeat match goal with
  | R : tok_deploy _ _ _ _ = Ok _ |- _ => apply tok_deploy_ok in R; destruct R as [? [? [? ->]]]
  | R : deploy _ _ _ = Ok _ |- _ => apply deploy_ok in R; destruct R as [? [? ->]]
  | R : stake_initialize _ _ _ _ _ _ _ _ _ = Ok _ |- _ => apply stake_initialize_ok in R; destruct R as [? [? [? [? ->]]]]
  end.
  simpl in *.
  match goal with R : fget (e_hash e self SEmpty) (fset ?x _ _) = None |- _ => 
    rewrite fget_set in R; destruct (Z.eqb_spec (e_hash e self SEmpty) x); [discriminate|] end.
  split; [|auto]. constructor; auto; lia.
Qed.

Lemma pool_initialize_ok e self i factory dec ds mf w u w' :
  pool_initialize e self i factory dec ds mf w = Ok (u, w') ->
  fget self (w_code w) = Some KPool /\ fget self (w_pool w) = None /\
  vbps (i_fee i) && vbps (i_maxslip i) && vbps (i_maxspread i) && vbps (i_maxref i) && vbps ds && vbps mf = true /\
  i_fee i <= mf /\
  NewPool (e_hash e) self i factory dec w /\
  let w1 := with_children (e_hash e) self i factory dec w in
  w' = set_pool w1 (fset self (mkPool (i_ta i) (i_tb i) (e_hash e self (SPair (i_ta i) (i_tb i))) (e_hash e self SEmpty)
        (i_fee i) (i_feerec i) (i_maxslip i) (i_maxspread i) (i_maxref i) ds (i_admin i) 0 0 0) (w_pool w)).
Proof.
  unfold pool_initialize. intros H. rstep H. winv.
  match goal with R : negb (fmem _ _) = true |- _ => apply fmem_false in R end.
  match goal with R : deploy_share _ _ _ _ _ _ = Ok _, R2 : deploy_stake_of _ _ _ _ _ _ _ _ _ _ = Ok _ |- _ =>
    destruct (children_ok _ _ _ _ _ _ _ _ _ _ R R2 ltac:(lia)) as [NP [-> [-> ->]]] end.
  split; [auto|]. split; [auto|]. split; [auto|]. split; [lia|]. split; [auto|]. reflexivity.
Qed.

Lemma stable_initialize_ok e self i factory amp mf w u w' :
  stable_initialize e self i factory amp mf w = Ok (u, w') ->
  fget self (w_code w) = Some KStable /\ fget self (w_stable w) = None /\
  vbps (i_fee i) && vbps (i_maxslip i) && vbps (i_maxspread i) && vbps (i_defslip i) && vbps mf = true /\
  i_fee i <= mf /\ amp <> 0 /\ amp <= MAX_AMP /\ 0 <= amp /\
  exists pa pb, tdec w (i_ta i) = Some pa /\ tdec w (i_tb i) = Some pb /\
  NewPool (e_hash e) self i factory (if pb <? pa then pa else pb) w /\
  let w1 := with_children (e_hash e) self i factory (if pb <? pa then pa else pb) w in
  w' = set_stable w1 (fset self (mkStable (i_ta i) (i_tb i) (e_hash e self (SPair (i_ta i) (i_tb i))) (e_hash e self SEmpty)
        (i_fee i) (i_feerec i) (i_maxslip i) (i_defslip i) (i_maxspread i) (i_admin i)
        (amp * AMP_PRECISION) (w_now w) (amp * AMP_PRECISION) (w_now w) (if pb <? pa then pa else pb) pa pb 0 0 0) (w_stable w)).
Proof.
  unfold stable_initialize. intros H. rstep H. winv.
  match goal with R : negb (fmem _ _) = true |- _ => apply fmem_false in R end.
  match goal with R : deploy_share _ _ _ _ _ _ = Ok _, R2 : deploy_stake_of _ _ _ _ _ _ _ _ _ _ = Ok _ |- _ =>
    destruct (children_ok _ _ _ _ _ _ _ _ _ _ R R2 ltac:(lia)) as [NP [-> [-> ->]]] end.
  split; [auto|]. split; [auto|]. split; [auto|]. split; [lia|]. split; [lia|]. split; [lia|].
  split; [unfold AMP_PRECISION in *; lia|].
  eexists _, _. split; [eassumption|]. split; [eassumption|]. split; [auto|]. reflexivity.
Qed.

Lemma fact_initialize_ok e self admin lph stabh stakeh tokh white lpdec w u w' :
  fact_initialize e self admin lph stabh stakeh tokh white lpdec w = Ok (u, w') ->
  fget self (w_code w) = Some KFact /\ fget self (w_fact w) = None /\ white <> [] /\
  let h := e_hash e self (SOne admin) in
  0 <= h /\ fget h (w_code w) = None /\
  w' = set_fact (set_hop (set_code w (fset h KHop (w_code w))) (fset h (mkHop admin self) (w_hop w)))
         (fset self (mkFact admin h lph stakeh tokh stabh white lpdec [] fempty) (w_fact w)).
Proof.
  unfold fact_initialize, hop_initialize. intros H. rstep H. winv.
  match goal with R : deploy _ _ _ = Ok _ |- _ => apply deploy_ok in R; destruct R as [? [? ->]] end.
  match goal with R : negb (fmem self _) = true |- _ => apply fmem_false in R end.
  split; [auto|]. split; [auto|]. split; [destruct white; [discriminate|congruence]|].
  split; [auto|]. split; [auto|]. reflexivity.
Qed.

Definition kind_of (ty : PoolType) : kind := match ty with Xyk => KPool | StableT => KStable end.

Lemma fact_create_ok e c self sender i ty amp ds mf w p w' :
  fact_create e c self sender i ty amp ds mf w = Ok (p, w') ->
  exists f w1 w2, fget self (w_code w) = Some KFact /\ fget self (w_fact w) = Some f /\
  authed e c sender = true /\ zmem sender (f_white f) = true /\
  i_ta i < i_tb i /\ 0 < i_minbond i /\ 0 < i_minreward i /\
  p = e_hash e self (SPair (i_ta i) (i_tb i)) /\ 0 <= p /\ fget p (w_code w) = None /\
  w1 = set_code w (fset p (kind_of ty) (w_code w)) /\
  (match ty with
   | Xyk => pool_initialize e p i self (f_lpdec f) ds mf w1 = Ok (tt, w2)
   | StableT => exists a, amp = Some a /\ stable_initialize e p i self a mf w1 = Ok (tt, w2)
   end) /\
  w' = set_fact w2 (fset self (set_f_reg f (f_lps f ++ [p]) (pair_set f (i_ta i) (i_tb i) p)) (w_fact w2)).
Proof.
  unfold fact_create. intros H. rstep H. winv. 
  match goal with R : deploy _ _ _ = Ok _ |- _ => apply deploy_ok in R; destruct R as [? [? ->]] end.
  match goal with R : fget self (w_fact w) = Some ?f |- _ => exists f end.
  eexists _, _. split; [eassumption|]. split; [reflexivity || eassumption|]. split; [auto|]. split; [auto|].
  split; [lia|]. split; [lia|]. split; [lia|]. split; [reflexivity|]. split; [auto|]. split; [auto|].
  split; [reflexivity|]. split; [|reflexivity].
  destruct ty.
  - match goal with x : unit |- _ => destruct x end. assumption.
  - destruct amp as [a|]; [|discriminate]. exists a. split; auto.
    match goal with x : unit |- _ => destruct x end. assumption.
Qed.

Lemma exists_dec_acts k c K : {acts k c K} + {~ acts k c K}.
Proof.
  unfold acts, pools_only.
  destruct (target k) as [t|] eqn:T.
  - destruct (Z.eq_dec t c); [left; left; congruence|].
    destruct (routed k); [|right; intros [E|[E _]]; [inversion E; contradiction|discriminate]].
    destruct K; try (left; right; split; auto; fail); right; intros [E|[_ [E|E]]]; congruence.
  - destruct (routed k); [|right; intros [E|[E _]]; discriminate].
    destruct K; try (left; right; split; auto; fail); right; intros [E|[_ [E|E]]]; congruence.
Qed.

(** ** Generic step: invariants of one contract kind *)
Section KindStep.
  Context {X : Type} (sel : World -> fmap X) (K : kind) (I : World -> Addr -> X -> Prop).
  Context (hcode : forall w, Good w -> forall a x, fget a (sel w) = Some x -> fget a (w_code w) = Some K).
  Context (hut : forall w w' c, UT c w w' -> fget c (sel w') = fget c (sel w)).
  Context (hI : forall w w' c x, UT c w w' -> Ext w w' -> fget c (w_code w) = Some K -> I w c x -> I w' c x).

  Definition AllI (w : World) : Prop := forall c x, fget c (sel w) = Some x -> I w c x.

  Lemma kind_keep w w' c : Good w -> Good w' -> Ext w w' -> AllI w -> fget c (w_code w) <> None ->
    (fget c (w_code w) = Some K -> UT c w w') -> forall x, fget c (sel w') = Some x -> I w' c x.
  Proof.
    intros G G' X' A N U x Hx.
    destruct (fget c (w_code w)) as [kd|] eqn:Ec; [|congruence].
    assert (kd = K).
    { pose proof (ex_code _ _ X' _ _ Ec). pose proof (hcode _ G' _ _ Hx). congruence. }
    subst kd. specialize (U eq_refl). rewrite (hut _ _ _ U) in Hx. eapply hI; eauto.
  Qed.

  Lemma kind_step e k w w' : exec e k w = Ok (tt, w') -> Good w -> AllI w ->
    (forall c, acts k c K -> fget c (w_code w) = Some K -> forall x', fget c (sel w') = Some x' -> I w' c x') ->
    (forall c x', deploys k = true -> Good w' -> fget c (w_code w) = None -> fget c (sel w') = Some x' -> I w' c x') ->
    AllI w'.
  Proof.
    intros H G A Own New c x' Hx.
    destruct (exec_framec _ _ _ _ H G) as [G' [X' [_ [_ U]]]].
    destruct (fget c (w_code w)) as [kd|] eqn:Ec.
    - destruct (exists_dec_acts k c K).
      + eapply Own; eauto. 
        assert (kd = K).
        { pose proof (ex_code _ _ X' _ _ Ec). pose proof (hcode _ G' _ _ Hx). congruence. }
        congruence.
      + eapply (kind_keep w w' c); auto; [congruence|]. intros Hk. eapply U; eauto.
    - destruct (deploys k) eqn:D; [eapply New; eauto|].
      pose proof (hcode _ G' _ _ Hx) as Hc.
      pose proof (exec_samecode e k D _ _ _ H) as Sc. unfold SameCode in Sc. congruence.
  Qed.
End KindStep.

(** ** What a deploying transaction creates *)
Lemma Good_newcode a k w : 0 <= a -> fget a (w_code w) = None -> Good w -> Good (set_code w (fset a k (w_code w))).
Proof.
  intros P N G.
  assert (H : deploy a k w = Ok (tt, set_code w (fset a k (w_code w)))).
  { unfold deploy, mbind, mget, mguard, mmod. unfold fmem. rewrite N.
    destruct (0 <=? a) eqn:E; [reflexivity|lia]. }
  destruct (frame_deploy (mkEnv [] (fun _ _ => 0)) None KTok a k _ _ _ H G) as [G' _]; auto. discriminate.
Qed.

Lemma exec_deploy_ok a k w u w' :
  (match k with KTok => mfail EHost | _ => deploy a k end) w = Ok (u, w') ->
  k <> KTok /\ 0 <= a /\ fget a (w_code w) = None /\ w' = set_code w (fset a k (w_code w)).
Proof. intros H. destruct k; try discriminate H; apply deploy_ok in H; (split; [discriminate|tauto]). Qed.

(** Splits the deploying transactions into their effects; [H] is the execution. *)
Ltac deploy_cases H :=
  simpl in H;
  try (apply drop_ok in H; destruct H as [? H]);
  first
  [ (apply pool_initialize_ok in H; destruct H as [? [? [? [? [? H]]]]]; cbv zeta in H)
  | (apply stable_initialize_ok in H; destruct H as [? [? [? [? [? [? [? [? [? [? [? [? H]]]]]]]]]]]]; cbv zeta in H)
  | (apply fact_initialize_ok in H; destruct H as [? [? [? H]]]; cbv zeta in H; destruct H as [? [? H]])
  | (apply fact_create_ok in H; destruct H as [? [? [? [? [? [? [? [? [? [? [? [? [? [? [? H]]]]]]]]]]]]]]])
  | (apply tok_deploy_ok in H; destruct H as [? [? [? H]]])
  | (apply exec_deploy_ok in H; destruct H as [? [? [? H]]])
  | idtac ].

(** The kind of contract a transaction invokes. *)
Definition tkind (k : Call) : kind :=
  match k with
  | CDeploy _ _ | CDeployTok _ _ _ | CMint _ _ _ | CSetAdmin _ _ | CApprove _ _ _ _ _ | CTransfer _ _ _ _
  | CTransferFrom _ _ _ _ _ | CBurn _ _ _ | CBurnFrom _ _ _ _ => KTok
  | CPoolInit _ _ _ _ _ _ | CPoolProvide _ _ _ _ _ _ _ _ | CPoolSwap _ _ _ _ _ _ _ _
  | CPoolWithdraw _ _ _ _ _ _ | CPoolConfig _ _ _ _ _ _ _ | CPoolUpdate _ _ | CPoolUpgrade _ _ _ => KPool
  | CStableInit _ _ _ _ _ | CStableProvide _ _ _ _ _ _ _ | CStableSwap _ _ _ _ _ _ _ _
  | CStableWithdraw _ _ _ _ _ _ | CStableConfig _ _ _ _ _ _ _ | CStableUpgrade _ _ => KStable
  | CStakeInit _ _ _ _ _ _ _ _ | CBond _ _ _ | CUnbond _ _ _ _ | CFlow _ _ _ | CDistribute _ _ _ _
  | CWithdrawRewards _ _ | CStakeUpdate _ _ => KStake
  | CRewInit _ _ _ _ _ _ _ | CRewAddUser _ _ _ | CRewBond _ _ _ | CRewUnbond _ _ _ _ | CRewDistribute _ _
  | CRewWithdraw _ _ _ | CRewFund _ _ _ _ | CRewUpdate _ _ => KRewards
  | CVestInit _ _ _ _ _ | CVestCreate _ _ | CVestClaim _ _ _ | CVestBurn _ _ _ | CVestMint _ _ _
  | CVestMinter _ _ _ | CVestCapacity _ _ _ | CVestUpdate _ _ => KVest
  | CFactInit _ _ _ _ _ _ _ _ | CCreate _ _ _ _ _ _ _ | CWhitelist _ _ _ _ | CHashes _ _ _ _ | CFactUpdate _ _ _ => KFact
  | CHopInit _ _ _ | CHopUpdate _ _ | CHopSwap _ _ _ _ _ _ _ => KHop
  | CTraderInit _ _ _ _ _ | CTraderTransfer _ _ _ _ _ | CTrade _ _ _ _ _ _ _ _ _ => KTrader
  end.

Lemma exec_tkind e k w w' c : exec e k w = Ok (tt, w') -> target k = Some c -> fget c (w_code w) = Some (tkind k).
Proof.
  intros H T. destruct k; simpl in T; inversion T; subst; simpl in H;
    try (apply drop_ok in H; destruct H as [? H]); simpl;
    eapply enter_first; exact H.
Qed.

Lemma trader_trade_ok e c self sender tok pool amount ms dl mi mf w r w' :
  trader_trade e c self sender tok pool amount ms dl mi mf w = Ok (r, w') ->
  exists d amt, fget self (w_code w) = Some KTrader /\ authed e c sender = true /\
    fget self (w_trader w) = Some d /\ sender = d_admin d /\
    (forall s, ms = Some s -> 0 <= s <= 10000) /\ (tok = d_ta d \/ tok = d_tb d) /\
    amt = match amount with Some a => a | None => bal w tok sender end /\
    any_swap e (Some self) pool self tok amt mi ms dl mf w = Ok (r, w').
Proof.
  unfold trader_trade. intros H.
  do 7 (apply mbind_ok in H; destruct H as [? [? [? H]]]). winv.
  repeat match goal with R : mguard _ _ _ = Ok _ |- _ => apply mguard_ok in R; destruct R as [R E]; inversion E; subst; clear E end.
  match goal with R : fget self (w_trader _) = Some ?d |- _ => exists d end.
  match goal with Q : (match amount with Some _ => _ | None => _ end) _ = Ok (?a, _) |- _ => exists a; rename Q into QQ end.
  split; [auto|]. split; [auto|]. split; [auto|]. split; [lia|].
  split; [intros s ->; lia|]. split; [lia|].
  destruct amount; [rstep QQ; auto|]. winv. auto.
Qed.

(** ** Reachability *)
Record WGood (w : World) : Prop := {
  wg_good : Good w;
  wg_now : 0 <= w_now w <= U64_MAX;
  wg_seq : 0 <= w_seq w <= U32_MAX }.

Lemma WGood_empty : WGood w_empty.
Proof. constructor; [apply Good_empty| |]; simpl; unfold U64_MAX, U32_MAX; lia. Qed.

Lemma Good_time w n s : Good w -> Good (set_time w n s).
Proof. intros []. constructor; auto. Qed.

Lemma WGood_step H w ev w' : step H w ev w' -> WGood w -> WGood w'.
Proof.
  intros S [G N Q]. destruct S.
  - destruct (exec_framec _ _ _ _ H1 G) as [G' [_ [N' [Q' _]]]]. constructor; auto; congruence.
  - constructor; simpl; try lia. apply Good_time; auto.
Qed.

Lemma run_inv H (P : World -> Prop) :
  (forall w ev w', WGood w -> step H w ev w' -> P w -> P w') ->
  forall w l w', run H w l w' -> WGood w -> P w -> P w' /\ WGood w'.
Proof.
  intros Hs w l w' R. induction R; intros G Pw; [auto|].
  apply IHR; [eapply WGood_step; eauto|eauto].
Qed.

Lemma reach_inv H (P : World -> Prop) : P w_empty ->
  (forall e k w w', e_hash e = H -> WGood w -> exec e k w = Ok (tt, w') -> P w -> P w') ->
  (forall w n s, w_now w <= n <= U64_MAX -> P w -> P (set_time w n s)) ->
  forall w, reachable H w -> P w.
Proof.
  intros H0 Htx Htick w [l R].
  apply (run_inv H P) in R; auto using WGood_empty; [tauto|].
  intros w1 ev w2 G S Pw. destruct S; eauto.
Qed.

Lemma reach_wgood H w : reachable H w -> WGood w.
Proof. intros [l R]. apply (run_inv H (fun _ => True)) in R; auto using WGood_empty. tauto. Qed.

Lemma run_app H w l1 w1 l2 w2 : run H w l1 w1 -> run H w1 l2 w2 -> run H w (l1 ++ l2) w2.
Proof. induction 1; simpl; auto. intros. econstructor; eauto. Qed.
Lemma reach_run H w l w' : reachable H w -> run H w l w' -> reachable H w'.
Proof. intros [l0 R0] R. exists (l0 ++ l). eapply run_app; eauto. Qed.
Lemma reach_tx H w e k w' : reachable H w -> e_hash e = H -> exec e k w = Ok (tt, w') -> reachable H w'.
Proof. intros R E X. eapply reach_run; eauto. econstructor; [econstructor; eauto|constructor]. Qed.
