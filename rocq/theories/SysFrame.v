(** Frames of all entry points and of whole transactions. *)
From Coq Require Import ZArith List Bool Lia.
From Coq Require Import ZifyBool.
From Verif Require Import Base FMap Decimal Curve World Token TokenProofs Frame Stake Pool PoolProofs
  Stable Rewards Vest Factory Router System.
Import ListNotations.
Open Scope Z_scope.

(** ** Stable pool *)
Lemma frame_stable_initialize e self i f a m : safe (Frame e (Some self) KStable) (stable_initialize e self i f a m).
Proof. unfold stable_initialize. frame_tac. Qed.
Lemma frame_stable_mint e self to a : safe (Frame e (Some self) KStable) (stable_mint_shares e self to a).
Proof. unfold stable_mint_shares. frame_tac. Qed.
Lemma frame_stable_burn e self a : safe (Frame e (Some self) KStable) (stable_burn_shares e self a).
Proof. unfold stable_burn_shares. frame_tac. Qed.
Global Hint Resolve frame_stable_mint frame_stable_burn : frame.
Lemma frame_stable_provide e c self u da db cu dl ms :
  safe (Frame e (Some self) KStable) (stable_provide e c self u da db cu dl ms).
Proof. unfold stable_provide. frame_tac. Qed.
Lemma frame_stable_do_swap e self u o a mi ms mf : safe (Frame e (Some self) KStable) (stable_do_swap e self u o a mi ms mf).
Proof. unfold stable_do_swap. frame_tac. Qed.
Global Hint Resolve frame_stable_do_swap : frame.
Lemma frame_stable_swap e c self u o a mi ms dl mf :
  safe (Frame e (Some self) KStable) (stable_swap e c self u o a mi ms dl mf).
Proof. unfold stable_swap. frame_tac. Qed.
Lemma frame_stable_withdraw e c self u s a b dl :
  safe (Frame e (Some self) KStable) (stable_withdraw e c self u s a b dl).
Proof. unfold stable_withdraw. frame_tac. Qed.
Lemma frame_stable_update_config e self u a1 a2 a3 a4 a5 :
  safe (Frame e (Some self) KStable) (stable_update_config self u a1 a2 a3 a4 a5).
Proof. unfold stable_update_config. frame_tac. Qed.
Lemma frame_stable_upgrade e c self h : safe (Frame e (Some self) KStable) (stable_upgrade e c self h).
Proof. unfold stable_upgrade. frame_tac. Qed.
Lemma stable_upgrade_ok e c self h w u w' : stable_upgrade e c self h w = Ok (u, w') -> w' = set_wasm w (fset self h (w_wasm w)).
Proof. unfold stable_upgrade. intros H. rstep H. winv. reflexivity. Qed.

(** ** Rewards *)
Lemma frame_rewards_initialize e self a b c d f g :
  safe (Frame e (Some self) KRewards) (rewards_initialize self a b c d f g).
Proof. unfold rewards_initialize. frame_tac. Qed.
Lemma frame_rewards_add_user e c self u b : safe (Frame e (Some self) KRewards) (rewards_add_user e c self u b).
Proof. unfold rewards_add_user. frame_tac. Qed.
Lemma frame_rewards_bond e c self u b : safe (Frame e (Some self) KRewards) (rewards_bond e c self u b).
Proof. unfold rewards_bond. frame_tac. Qed.
Lemma frame_rewards_withdraw e c self u b : safe (Frame e (Some self) KRewards) (rewards_withdraw e c self u b).
Proof. unfold rewards_withdraw. frame_tac. Qed.
Lemma pure_rewards_query self u b : pure (rewards_query self u b).
Proof. unfold rewards_query. pure_tac. Qed.
Global Hint Resolve frame_rewards_withdraw : frame.
Global Hint Resolve pure_rewards_query : pure.
Lemma frame_rewards_unbond e c self u b x : safe (Frame e (Some self) KRewards) (rewards_unbond e c self u b x).
Proof. unfold rewards_unbond. frame_tac. Qed.
Lemma frame_rewards_distribute e c self t : safe (Frame e (Some self) KRewards) (rewards_distribute e c self t).
Proof. unfold rewards_distribute. frame_tac. Qed.
Lemma frame_rewards_fund e c self s d a : safe (Frame e (Some self) KRewards) (rewards_fund e c self s d a).
Proof. unfold rewards_fund. frame_tac. Qed.

(** ** Vesting *)
Lemma frame_vest_initialize e self a t m o : safe (Frame e (Some self) KVest) (vest_initialize self a t m o).
Proof. unfold vest_initialize. frame_tac. Qed.
Lemma frame_vest_create e c self l : safe (Frame e (Some self) KVest) (vest_create e c self l).
Proof. unfold vest_create. frame_tac. Qed.
Lemma frame_vest_claim e c self u i : safe (Frame e (Some self) KVest) (vest_claim e c self u i).
Proof. unfold vest_claim. frame_tac. Qed.
Lemma frame_vest_burn e c self u a : safe (Frame e (Some self) KVest) (vest_burn e c self u a).
Proof. unfold vest_burn. frame_tac. Qed.
Lemma frame_vest_mint e c self u a : safe (Frame e (Some self) KVest) (vest_mint e c self u a).
Proof. unfold vest_mint. frame_tac. Qed.
Lemma frame_vest_update_minter e c self u a : safe (Frame e (Some self) KVest) (vest_update_minter e c self u a).
Proof. unfold vest_update_minter. frame_tac. Qed.
Lemma frame_vest_update_capacity e c self u a : safe (Frame e (Some self) KVest) (vest_update_capacity e c self u a).
Proof. unfold vest_update_capacity. frame_tac. Qed.
Lemma frame_vest_update e c self h : safe (Frame e (Some self) KVest) (vest_update e c self h).
Proof. unfold vest_update. frame_tac. Qed.
Lemma vest_update_ok e c self h w u w' : vest_update e c self h w = Ok (u, w') -> w' = set_wasm w (fset self h (w_wasm w)).
Proof. unfold vest_update. intros H. rstep H. winv. reflexivity. Qed.

(** ** Factory *)
Lemma frame_hop_initialize e self a f : safe (Frame e (Some self) KHop) (hop_initialize self a f).
Proof. unfold hop_initialize. frame_tac. Qed.

Lemma mbind_assoc_ok {A B C} (m : ST World A) (f : A -> ST World B) (g : B -> ST World C) w :
  mbind m (fun a => mbind (f a) g) w = mbind (mbind m f) g w.
Proof. unfold mbind. destruct (m w) as [[a w1]|]; reflexivity. Qed.

Lemma safe_assoc {A B C} P (m : ST World A) (f : A -> ST World B) (g : B -> ST World C) :
  safe P (mbind (mbind m f) g) -> safe P (mbind m (fun a => mbind (f a) g)).
Proof. intros H w a w' R. rewrite mbind_assoc_ok in R. eauto. Qed.
Lemma safe_assoc' {A B C} P (m : ST World A) (f : A -> ST World B) (g : B -> ST World C) :
  safe P (mbind m (fun a => mbind (f a) g)) -> safe P (mbind (mbind m f) g).
Proof. intros H w a w' R. rewrite <- mbind_assoc_ok in R. eauto. Qed.

Lemma frame_fact_initialize e self a b c d f l g :
  safe (Frame e (Some self) KFact) (fact_initialize e self a b c d f l g).
Proof.
  unfold fact_initialize. do 4 (apply frame_bind; [frame_tac|intro]). cbv zeta.
  apply safe_assoc.
  apply frame_bind; [|intro; frame_tac].
  apply frame_deploy_then. apply frame_hop_initialize.
Qed.

Lemma frame_fact_create e c self u i ty amp ds mf :
  safe (Frame e (Some self) KFact) (fact_create e c self u i ty amp ds mf).
Proof.
  unfold fact_create. do 8 (apply frame_bind; [frame_tac|intro]). cbv zeta.
  apply safe_assoc.
  apply safe_assoc.
  apply frame_bind; [|intro; frame_tac].
  apply safe_assoc'.
  apply frame_deploy_then. apply frame_bind; [frame_tac|intro].
  destruct ty; [apply frame_pool_initialize|apply frame_stable_initialize].
Qed.
Lemma frame_fact_update_whitelist e c self u a r : safe (Frame e (Some self) KFact) (fact_update_whitelist e c self u a r).
Proof. unfold fact_update_whitelist. frame_tac. Qed.
Lemma frame_fact_update_hashes e c self x y z : safe (Frame e (Some self) KFact) (fact_update_hashes e c self x y z).
Proof. unfold fact_update_hashes. frame_tac. Qed.
Lemma frame_fact_update e c self h x : safe (Frame e (Some self) KFact) (fact_update e c self h x).
Proof. unfold fact_update. frame_tac. Qed.
Lemma pure_fact_pool_by_pair f a b : pure (fact_pool_by_pair f a b).
Proof. unfold fact_pool_by_pair. pure_tac. Qed.
Global Hint Resolve pure_fact_pool_by_pair : pure.

(** ** Trader *)
Lemma frame_trader_initialize e c self a x y o : safe (Frame e (Some self) KTrader) (trader_initialize e c self a x y o).
Proof. unfold trader_initialize. frame_tac. Qed.
Lemma frame_trader_transfer e c self u r a t : safe (Frame e (Some self) KTrader) (trader_transfer e c self u r a t).
Proof. unfold trader_transfer. frame_tac. Qed.
Lemma frame_hop_update e c self h : safe (Frame e (Some self) KHop) (hop_update e c self h).
Proof. unfold hop_update. frame_tac. Qed.
Lemma hop_update_ok e c self h w u w' : hop_update e c self h w = Ok (u, w') -> w' = set_wasm w (fset self h (w_wasm w)).
Proof. unfold hop_update. intros H. rstep H. winv. reflexivity. Qed.
Lemma frame_stake_update e c self h : safe (Frame e (Some self) KStake) (stake_update e c self h).
Proof. unfold stake_update. frame_tac. Qed.
Lemma stake_update_ok e c self h w u w' : stake_update e c self h w = Ok (u, w') -> w' = set_wasm w (fset self h (w_wasm w)).
Proof. unfold stake_update. intros H. rstep H. winv. reflexivity. Qed.
Lemma frame_rewards_update e c self h : safe (Frame e (Some self) KRewards) (rewards_update e c self h).
Proof. unfold rewards_update. frame_tac. Qed.
Lemma rewards_update_ok e c self h w u w' : rewards_update e c self h w = Ok (u, w') -> w' = set_wasm w (fset self h (w_wasm w)).
Proof. unfold rewards_update. intros H. rstep H. winv. reflexivity. Qed.
Lemma pool_update_ok e c self h w u w' : pool_update e c self h w = Ok (u, w') -> w' = set_wasm w (fset self h (w_wasm w)).
Proof. unfold pool_update. intros H. rstep H. winv. reflexivity. Qed.

(** ** Frames with several acting contracts *)
Definition FrameK (e : Env) (T : Addr -> kind -> Prop) (w w' : World) : Prop :=
  Good w ->
  Good w' /\ Ext w w' /\ w_now w' = w_now w /\ w_seq w' = w_seq w /\
  (forall a, a < 0 -> signs e a = false -> AC a w w') /\
  (forall c k, fget c (w_code w) = Some k -> ~ T c k -> UT c w w').

Lemma FrameK_refl e T w : FrameK e T w w.
Proof.
  intros G. split; [auto|]. split; [apply Ext_refl|]. split; [auto|]. split; [auto|].
  split; intros; [apply AC_refl|apply UT_refl].
Qed.
Lemma FrameK_trans e T w1 w2 w3 : FrameK e T w1 w2 -> FrameK e T w2 w3 -> FrameK e T w1 w3.
Proof.
  intros A B G. destruct (A G) as [G2 [X2 [N2 [Q2 [L2 U2]]]]].
  destruct (B G2) as [G3 [X3 [N3 [Q3 [L3 U3]]]]].
  split; [auto|]. split; [eapply Ext_trans; eauto|].
  split; [congruence|]. split; [congruence|]. split.
  - intros a H1 H2. eapply AC_trans; eauto.
  - intros c k H1 H2. eapply UT_trans; [eapply U2; eauto|].
    eapply U3; eauto. apply (ex_code _ _ X2); eauto.
Qed.
Lemma FrameK_bind {A B} e T (m : ST World A) (k : A -> ST World B) :
  safe (FrameK e T) m -> (forall a, safe (FrameK e T) (k a)) -> safe (FrameK e T) (mbind m k).
Proof. apply safe_bind. intros. eapply FrameK_trans; eauto. Qed.
Lemma FrameK_pure {A} e T (m : ST World A) : pure m -> safe (FrameK e T) m.
Proof. apply safe_pure, FrameK_refl. Qed.

Lemma Frame_FrameK e self K (T : Addr -> kind -> Prop) w w' :
  Frame e self K w w' -> (forall s, self = Some s -> fget s (w_code w) = Some K) ->
  (forall s, self = Some s -> T s K) -> FrameK e T w w'.
Proof.
  intros F S HT G. destruct (F G S) as [A [B [C [D [E U]]]]].
  split; [auto|]. split; [auto|]. split; [auto|]. split; [auto|]. split; [auto|].
  intros c k Hc NT. eapply U; eauto. intros E2. apply NT. rewrite (S c (eq_sym E2)) in Hc.
  inversion Hc; subst. apply HT. auto.
Qed.

Definition pools_only : Addr -> kind -> Prop := fun _ k => k = KPool \/ k = KStable.

Lemma enter_first {A} self K (m : ST World A) w x w' :
  (enter self K ;; m) w = Ok (x, w') -> fget self (w_code w) = Some K.
Proof. intros H. apply mbind_ok in H. destruct H as [? [? [H _]]]. apply enter_ok in H. tauto. Qed.

Lemma framek_any_swap e c p u o a mi ms dl mf :
  safe (FrameK e pools_only) (any_swap e c p u o a mi ms dl mf).
Proof.
  intros w r w' H. unfold any_swap in H. apply mbind_ok in H. destruct H as [w0 [w1 [E H]]].
  apply mget_ok in E. inversion E; subst w0 w1; clear E.
  destruct (fget p (w_code w)) as [[]|] eqn:Ec; try discriminate.
  - eapply Frame_FrameK; [eapply frame_pool_swap; eauto| |]; intros s Es; inversion Es; subst; auto.
    left; auto.
  - eapply Frame_FrameK; [eapply frame_stable_swap; eauto| |]; intros s Es; inversion Es; subst; auto.
    right; auto.
Qed.

Lemma framek_hop_swaps e self f r ops ms dl mf : forall a,
  safe (FrameK e pools_only) (hop_swaps e self f r ops a ms dl mf).
Proof.
  induction ops; intros amt; simpl.
  - apply FrameK_pure. pure_tac.
  - apply FrameK_bind; [apply FrameK_pure; pure_tac|intro].
    apply FrameK_bind; [apply framek_any_swap|intro]. apply IHops.
Qed.
Lemma framek_hop_swap e c self u ops ms a dl mf : safe (FrameK e pools_only) (hop_swap e c self u ops ms a dl mf).
Proof.
  unfold hop_swap. repeat (apply FrameK_bind; [apply FrameK_pure; pure_tac|intro]).
  apply framek_hop_swaps.
Qed.
Lemma framek_trader_trade e c self u t p a ms dl mi mf :
  safe (FrameK e pools_only) (trader_trade e c self u t p a ms dl mi mf).
Proof.
  unfold trader_trade. do 7 (apply FrameK_bind; [apply FrameK_pure; pure_tac|intro]).
  apply framek_any_swap.
Qed.

(** ** Whole transactions *)
(** the contract a transaction calls *)
Definition target (k : Call) : option Addr :=
  match k with
  | CDeploy _ _ | CDeployTok _ _ _ | CMint _ _ _ | CSetAdmin _ _ | CApprove _ _ _ _ _ | CTransfer _ _ _ _
  | CTransferFrom _ _ _ _ _ | CBurn _ _ _ | CBurnFrom _ _ _ _ => None
  | CPoolInit p _ _ _ _ _ | CPoolProvide p _ _ _ _ _ _ _ | CPoolSwap p _ _ _ _ _ _ _
  | CPoolWithdraw p _ _ _ _ _ | CPoolConfig p _ _ _ _ _ _ | CPoolUpdate p _ | CPoolUpgrade p _ _
  | CStableInit p _ _ _ _ | CStableProvide p _ _ _ _ _ _ | CStableSwap p _ _ _ _ _ _ _
  | CStableWithdraw p _ _ _ _ _ | CStableConfig p _ _ _ _ _ _ | CStableUpgrade p _
  | CStakeInit p _ _ _ _ _ _ _ | CBond p _ _ | CUnbond p _ _ _ | CFlow p _ _ | CDistribute p _ _ _
  | CWithdrawRewards p _ | CStakeUpdate p _
  | CRewInit p _ _ _ _ _ _ | CRewAddUser p _ _ | CRewBond p _ _ | CRewUnbond p _ _ _ | CRewDistribute p _
  | CRewWithdraw p _ _ | CRewFund p _ _ _ | CRewUpdate p _
  | CVestInit p _ _ _ _ | CVestCreate p _ | CVestClaim p _ _ | CVestBurn p _ _ | CVestMint p _ _
  | CVestMinter p _ _ | CVestCapacity p _ _ | CVestUpdate p _
  | CFactInit p _ _ _ _ _ _ _ | CCreate p _ _ _ _ _ _ | CWhitelist p _ _ _ | CHashes p _ _ _ | CFactUpdate p _ _
  | CHopInit p _ _ | CHopUpdate p _ | CTraderInit p _ _ _ _ | CTraderTransfer p _ _ _ _
  | CHopSwap p _ _ _ _ _ _ | CTrade p _ _ _ _ _ _ _ _ => Some p
  end.
(** transactions that reach pools through another contract *)
Definition routed (k : Call) : bool :=
  match k with CHopSwap _ _ _ _ _ _ _ | CTrade _ _ _ _ _ _ _ _ _ => true | _ => false end.
(** the two token calls that use an allowance *)
Definition uses_allowance (k : Call) : bool :=
  match k with CTransferFrom _ _ _ _ _ | CBurnFrom _ _ _ _ => true | _ => false end.

Definition acts (k : Call) (c : Addr) (kd : kind) : Prop :=
  target k = Some c \/ (routed k = true /\ pools_only c kd).

Lemma drop_ok {A} (m : ST World A) w u w' : drop m w = Ok (u, w') -> exists a, m w = Ok (a, w').
Proof. unfold drop. intros H. rstep H. eauto. Qed.

Lemma exec_frame e k w w' : exec e k w = Ok (tt, w') -> uses_allowance k = false -> FrameK e (acts k) w w'.
Proof.
  intros H NA.
  assert (X : forall self K, Frame e (Some self) K w w' -> target k = Some self ->
     fget self (w_code w) = Some K -> FrameK e (acts k) w w').
  { intros self K F Et Ec. eapply Frame_FrameK; [exact F| |]; intros s Es; inversion Es; subst; auto. left; auto. }
  assert (X0 : Frame e None KTok w w' -> FrameK e (acts k) w w').
  { intros F. eapply Frame_FrameK; [exact F| |]; intros s Es; discriminate. }
  assert (XR : routed k = true -> FrameK e pools_only w w' -> FrameK e (acts k) w w').
  { intros R F G. destruct (F G) as [A [B [C [D [E U]]]]]. repeat (split; [assumption|]).
    intros c kd Hc N. eapply U; eauto. intros P. apply N. right. auto. }
  assert (XP : w' = w -> FrameK e (acts k) w w') by (intros ->; apply FrameK_refl).
  destruct k; try discriminate NA; simpl in H;
    try (apply drop_ok in H; destruct H as [r H]);
    try (apply X0; first [(eapply frame_mint; exact H)|(eapply frame_set_admin; exact H)|(eapply frame_approve; exact H)|(eapply frame_transfer; exact H)
                          |(eapply frame_burn; exact H)|(eapply frame_tok_deploy; exact H)]);
    try (eapply X; [first [(eapply frame_pool_initialize; exact H)|(eapply frame_pool_provide; exact H)|(eapply frame_pool_swap; exact H)
           |(eapply frame_pool_withdraw; exact H)|(eapply frame_pool_update_config; exact H)|(eapply frame_pool_update; exact H)|(eapply frame_pool_upgrade; exact H)|(eapply frame_stable_upgrade; exact H)|(eapply frame_stake_update; exact H)|(eapply frame_rewards_update; exact H)|(eapply frame_vest_update; exact H)|(eapply frame_hop_update; exact H)
           |(eapply frame_stable_initialize; exact H)|(eapply frame_stable_provide; exact H)|(eapply frame_stable_swap; exact H)
           |(eapply frame_stable_withdraw; exact H)|(eapply frame_stable_update_config; exact H)
           |(eapply frame_stake_initialize; exact H)|(eapply frame_stake_bond; exact H)|(eapply frame_stake_unbond; exact H)
           |(eapply frame_stake_create_flow; exact H)|(eapply frame_stake_distribute; exact H)|(eapply frame_stake_withdraw_rewards; exact H)
           |(eapply frame_rewards_initialize; exact H)|(eapply frame_rewards_add_user; exact H)|(eapply frame_rewards_bond; exact H)
           |(eapply frame_rewards_unbond; exact H)|(eapply frame_rewards_distribute; exact H)|(eapply frame_rewards_withdraw; exact H)
           |(eapply frame_rewards_fund; exact H)
           |(eapply frame_vest_initialize; exact H)|(eapply frame_vest_create; exact H)|(eapply frame_vest_claim; exact H)|(eapply frame_vest_burn; exact H)
           |(eapply frame_vest_mint; exact H)|(eapply frame_vest_update_minter; exact H)|(eapply frame_vest_update_capacity; exact H)
           |(eapply frame_fact_initialize; exact H)|(eapply frame_fact_create; exact H)|(eapply frame_fact_update_whitelist; exact H)
           |(eapply frame_fact_update_hashes; exact H)|(eapply frame_fact_update; exact H)
           |(eapply frame_hop_initialize; exact H)|(eapply frame_trader_initialize; exact H)|(eapply frame_trader_transfer; exact H)]
         |reflexivity|eapply enter_first; exact H]; fail).
  - destruct k; try discriminate H; apply X0; eapply frame_deploy; exact H.
  - apply XR; auto. eapply framek_hop_swap; eauto.
  - apply XR; auto. eapply framek_trader_trade; eauto.
Qed.

(** what holds of the contracts in every transaction, allowances included *)
Lemma exec_framec e k w w' : exec e k w = Ok (tt, w') -> Good w ->
  Good w' /\ Ext w w' /\ w_now w' = w_now w /\ w_seq w' = w_seq w /\
  (forall c kd, fget c (w_code w) = Some kd -> ~ acts k c kd -> UT c w w').
Proof.
  intros H G. destruct (uses_allowance k) eqn:U.
  - destruct k; try discriminate U; simpl in H;
      [apply frame_transfer_from in H | apply frame_burn_from in H];
      destruct (H G) as [A [B [C [D E]]]]; repeat (split; [assumption|]); intros; eapply E; eauto.
  - destruct (exec_frame _ _ _ _ H U G) as [A [B [C [D [_ E]]]]]. repeat (split; [assumption|]). exact E.
Qed.

(** ** Functions that deploy nothing leave the code map alone *)
Definition SameCode (w w' : World) : Prop := w_code w' = w_code w.
Lemma sc_bind {A B} (m : ST World A) (k : A -> ST World B) :
  safe SameCode m -> (forall a, safe SameCode (k a)) -> safe SameCode (mbind m k).
Proof. apply safe_bind. unfold SameCode; intros; congruence. Qed.
Lemma sc_pure {A} (m : ST World A) : pure m -> safe SameCode m.
Proof. apply safe_pure. reflexivity. Qed.
Lemma sc_mmod (f : World -> World) : (forall w, w_code (f w) = w_code w) -> safe SameCode (mmod f).
Proof. intros E w u w' H. apply mmod_ok in H. inversion H; subst. apply E. Qed.
Lemma sc_upd t f : safe SameCode (upd_tok t f).
Proof.
  unfold upd_tok, put_tok. apply sc_bind; [apply sc_pure; pure_tac|intro].
  apply sc_bind; [apply sc_pure; pure_tac|intro]. apply sc_mmod. reflexivity.
Qed.
Ltac sc_tac :=
  repeat first
  [ solve [apply sc_pure; auto with pure]
  | apply sc_upd
  | apply sc_bind; [|intro]
  | solve [apply sc_mmod; reflexivity]
  | match goal with
    | |- safe _ (let '(_, _) := ?p in _) => destruct p
    | |- safe _ (if ?b then _ else _) => destruct b
    | |- safe _ (mwhen ?b _) => unfold mwhen; destruct b
    | |- safe _ (match ?o with _ => _ end) => destruct o
    end
  | progress unfold tok_transfer, tok_mint, tok_burn, tok_set_admin, tok_approve, tok_transfer_from, tok_burn_from,
      put_pool, put_stable, put_stake, put_rewards, put_vest, put_fact, put_hop, put_trader, put_wasm,
      mint_shares, burn_shares, new_share_total, do_swap, stable_mint_shares, stable_burn_shares, stable_do_swap,
      pool_provide, pool_swap, pool_withdraw, pool_update_config, pool_update, pool_upgrade, stake_update, rewards_update,
      stable_provide, stable_swap, stable_withdraw, stable_update_config, stable_upgrade,
      stake_initialize, stake_bond, stake_unbond, stake_create_flow, stake_distribute, stake_withdraw_rewards,
      rewards_initialize, rewards_add_user, rewards_bond, rewards_unbond, rewards_distribute, rewards_withdraw,
      rewards_fund, vest_initialize, vest_create, vest_claim, vest_burn, vest_mint, vest_update_minter,
      vest_update_capacity, vest_update, fact_update_whitelist, fact_update_hashes, fact_update, hop_initialize,
      hop_update, trader_initialize, trader_transfer, drop
  | progress cbv beta zeta ].

Lemma sc_pay e self u s t b l : safe SameCode (pay_rewards e self u s t b l).
Proof. induction l; simpl; sc_tac. auto. Qed.
Lemma sc_any_swap e c p u o a mi ms dl mf : safe SameCode (any_swap e c p u o a mi ms dl mf).
Proof. unfold any_swap. sc_tac. Qed.
Lemma sc_hop_swaps e self f r ops ms dl mf : forall a, safe SameCode (hop_swaps e self f r ops a ms dl mf).
Proof.
  induction ops; intros amt; simpl; [sc_tac|].
  apply sc_bind; [sc_tac|intro]. apply sc_bind; [apply sc_any_swap|intro]. auto.
Qed.

Definition deploys (k : Call) : bool :=
  match k with
  | CDeploy _ _ | CDeployTok _ _ _ | CPoolInit _ _ _ _ _ _ | CStableInit _ _ _ _ _ | CFactInit _ _ _ _ _ _ _ _
  | CCreate _ _ _ _ _ _ _ => true
  | _ => false
  end.

Lemma exec_samecode e k : deploys k = false -> safe SameCode (exec e k).
Proof.
  intros D. destruct k; try discriminate D; simpl exec; try (sc_tac; fail).
  - unfold stake_withdraw_rewards. sc_tac. apply sc_pay.
  - unfold drop, hop_swap. sc_tac. apply sc_hop_swaps.
Qed.
