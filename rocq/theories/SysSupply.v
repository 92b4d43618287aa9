(** Which transactions can change a token's supply. *)
From Coq Require Import ZArith List Bool Lia.
From Coq Require Import ZifyBool.
From Verif Require Import Base FMap Decimal DecimalProofs Curve World Token TokenProofs Frame Stake Pool PoolProofs
  Stable StableProofs Rewards Vest Factory Router System SysFrame SysInv SysPool SysStable.
Import ListNotations.
Open Scope Z_scope.

(** ** Supplies unchanged *)
Definition SupEq (w w' : World) : Prop := forall t, supply w' t = supply w t.
Lemma se_bind {A B} (m : ST World A) (k : A -> ST World B) :
  safe SupEq m -> (forall a, safe SupEq (k a)) -> safe SupEq (mbind m k).
Proof. apply safe_bind. unfold SupEq; intros; congruence. Qed.
Lemma se_pure {A} (m : ST World A) : pure m -> safe SupEq m.
Proof. apply safe_pure. intros w t. reflexivity. Qed.
Lemma se_mmod (f : World -> World) : (forall w, w_tok (f w) = w_tok w) -> safe SupEq (mmod f).
Proof. intros E w u w' H t. apply mmod_ok in H. inversion H; subst. apply supply_wtok, E. Qed.
Lemma se_transfer e c t f to a : safe SupEq (tok_transfer e c t f to a).
Proof. intros w u w' H x. apply tok_transfer_moved in H. apply (mv_sup _ _ _ _ _ _ (proj2 H)). Qed.

Ltac se_tac :=
  repeat first
  [ solve [apply se_pure; auto with pure]
  | apply se_transfer
  | apply se_bind; [|intro]
  | solve [apply se_mmod; reflexivity]
  | match goal with
    | |- safe _ (let '(_, _) := ?p in _) => destruct p
    | |- safe _ (if ?b then _ else _) => destruct b
    | |- safe _ (mwhen ?b _) => unfold mwhen; destruct b
    | |- safe _ (match ?o with _ => _ end) => destruct o
    end
  | progress unfold put_pool, put_stable, put_stake, put_rewards, put_vest, put_fact, put_hop, put_trader, put_wasm,
      do_swap, stable_do_swap, pool_swap, stable_swap
  | progress cbv beta zeta ].

Lemma se_pool_swap e c self u o a mi ms dl mf : safe SupEq (pool_swap e c self u o a mi ms dl mf).
Proof. se_tac. Qed.
Lemma se_stable_swap e c self u o a mi ms dl mf : safe SupEq (stable_swap e c self u o a mi ms dl mf).
Proof. se_tac. Qed.
Lemma se_any_swap e c p u o a mi ms dl mf : safe SupEq (any_swap e c p u o a mi ms dl mf).
Proof. unfold any_swap. se_tac. Qed.
Lemma se_hop_swaps e self f r ops ms dl mf : forall a, safe SupEq (hop_swaps e self f r ops a ms dl mf).
Proof.
  induction ops; intros amt; simpl; [se_tac|].
  apply se_bind; [se_tac|intro]. apply se_bind; [apply se_any_swap|intro]. auto.
Qed.
Lemma se_pay e self u s t b l : safe SupEq (pay_rewards e self u s t b l).
Proof. induction l; simpl; se_tac. auto. Qed.

(** ** No supply goes down *)
Definition SupGe (w w' : World) : Prop := forall t k, fget t (w_code w) = Some k ->
  fget t (w_code w') = Some k /\ supply w t <= supply w' t.
Lemma sg_bind {A B} (m : ST World A) (k : A -> ST World B) :
  safe SupGe m -> (forall a, safe SupGe (k a)) -> safe SupGe (mbind m k).
Proof.
  apply safe_bind. unfold SupGe; intros a b c H1 H2 t kd Hc.
  destruct (H1 _ _ Hc) as [C1 L1]. destruct (H2 _ _ C1). split; auto. lia.
Qed.
Lemma sg_pure {A} (m : ST World A) : pure m -> safe SupGe m.
Proof. apply safe_pure. intros w t k H. split; auto. lia. Qed.
Lemma sg_mmod (f : World -> World) : (forall w, w_tok (f w) = w_tok w) -> (forall w, w_code (f w) = w_code w) -> safe SupGe (mmod f).
Proof. intros E E2 w u w' H t k Hc. apply mmod_ok in H. inversion H; subst. rewrite E2. split; auto. rewrite (supply_wtok w (f w)) by auto. lia. Qed.
Lemma sg_transfer e c t f to a : safe SupGe (tok_transfer e c t f to a).
Proof.
  intros w u w' H x k Hc. apply tok_transfer_moved in H. destruct H as [_ H].
  rewrite (mv_sup _ _ _ _ _ _ H), (mv_rest _ _ _ _ _ _ H). split; auto. lia.
Qed.
Lemma sg_mint e c t to a : safe SupGe (tok_mint e c t to a).
Proof.
  intros w u w' H x k Hc. apply tok_mint_minted in H. destruct H as [_ H].
  rewrite (mt_sup _ _ _ _ _ H), (mt_rest _ _ _ _ _ H). split; auto.
  pose proof (mt_pos _ _ _ _ _ H). unfold ind. destruct (x =? t); lia.
Qed.
Lemma sg_tokupd t k k' w w' : TokUpd t k k' w w' -> tk_supply k' = tk_supply k -> SupGe w w'.
Proof.
  intros U E x kd Hc. rewrite (supply_upd _ _ _ _ _ x U). destruct U as [E1 ->]. simpl. split; auto.
  destruct (Z.eqb_spec x t) as [->|]; [|lia]. unfold supply. rewrite E1. lia.
Qed.
Lemma sg_deploy a k : safe SupGe (deploy a k).
Proof.
  intros w u w' H t kd Hc. apply deploy_ok in H. destruct H as [_ [N ->]]. simpl.
  rewrite fget_set_other by congruence. split; auto. unfold supply; simpl. lia.
Qed.
Lemma sg_tok_deploy t a d : safe SupGe (tok_deploy t a d).
Proof.
  intros w u w' H x kd Hc. apply tok_deploy_ok in H. destruct H as [_ [_ [N ->]]]. simpl.
  assert (x <> t) by congruence.
  rewrite fget_set_other by auto. split; auto. unfold supply; simpl. rewrite fget_set_other by auto. lia.
Qed.
Lemma sg_set_admin e c t a : safe SupGe (tok_set_admin e c t a).
Proof.
  intros w u w' H. apply tok_set_admin_ok in H. destruct H as [k0 [_ U]]. eapply sg_tokupd; eauto.
Qed.
Lemma sg_approve e c t f s a x : safe SupGe (tok_approve e c t f s a x).
Proof.
  intros w u w' H. apply tok_approve_ok in H. destruct H as [_ [_ [k [k' [A U]]]]]. eapply sg_tokupd; eauto.
  apply tk_write_allowance_ok in A. destruct A as [_ [_ [_ [A _]]]]. unfold tk_supply. rewrite A. reflexivity.
Qed.
Lemma sg_transfer_from e c t s f to a : safe SupGe (tok_transfer_from e c t s f to a).
Proof.
  intros w u w' H. apply tok_transfer_from_ok in H. destruct H as [_ [P [k [k0 [k' [A [E [_ U]]]]]]]].
  eapply sg_tokupd; eauto. apply tk_spend_allowance_ok in A; auto. destruct A as [_ [_ [_ [A _]]]].
  rewrite (te_sup _ _ _ _ _ E). unfold tk_supply. rewrite A. reflexivity.
Qed.

Ltac sg_tac :=
  repeat first
  [ solve [apply sg_pure; auto with pure]
  | apply sg_transfer | apply sg_mint | apply sg_set_admin | apply sg_approve | apply sg_transfer_from
  | apply sg_tok_deploy | apply sg_deploy
  | apply sg_bind; [|intro]
  | solve [apply sg_mmod; reflexivity]
  | match goal with
    | |- safe _ (let '(_, _) := ?p in _) => destruct p
    | |- safe _ (if ?b then _ else _) => destruct b
    | |- safe _ (mwhen ?b _) => unfold mwhen; destruct b
    | |- safe _ (match ?o with _ => _ end) => destruct o
    end
  | progress unfold 
      put_pool, put_stable, put_stake, put_rewards, put_vest, put_fact, put_hop, put_trader, put_wasm,
      deploy_share, deploy_stake_of, pool_initialize, stable_initialize, fact_initialize, fact_create,
      mint_shares, new_share_total, do_swap, stable_mint_shares, stable_do_swap,
      pool_provide, pool_swap, pool_update_config, pool_update, pool_upgrade, stake_update, rewards_update,
      stable_provide, stable_swap, stable_update_config, stable_upgrade,
      stake_initialize, stake_bond, stake_unbond, stake_create_flow, stake_distribute, stake_withdraw_rewards,
      rewards_initialize, rewards_add_user, rewards_bond, rewards_unbond, rewards_distribute, rewards_withdraw,
      rewards_fund, vest_initialize, vest_create, vest_claim, vest_mint, vest_update_minter,
      vest_update_capacity, vest_update, fact_update_whitelist, fact_update_hashes, fact_update, hop_initialize,
      hop_update, trader_initialize, trader_transfer, drop
  | progress cbv beta zeta ].

Lemma sg_pay e self u s t b l : safe SupGe (pay_rewards e self u s t b l).
Proof. induction l; simpl; sg_tac. auto. Qed.
Lemma sg_any_swap e c p u o a mi ms dl mf : safe SupGe (any_swap e c p u o a mi ms dl mf).
Proof. unfold any_swap. sg_tac. Qed.
Lemma sg_hop_swaps e self f r ops ms dl mf : forall a, safe SupGe (hop_swaps e self f r ops a ms dl mf).
Proof.
  induction ops; intros amt; simpl; [sg_tac|].
  apply sg_bind; [sg_tac|intro]. apply sg_bind; [apply sg_any_swap|intro]. auto.
Qed.

(** the transactions that can burn the token [t] *)
Definition burns (w : World) (k : Call) (t : Addr) : Prop :=
  match k with
  | CBurn t' _ _ | CBurnFrom t' _ _ _ => t' = t
  | CVestBurn v _ _ => exists x, fget v (w_vest w) = Some x /\ v_token x = t
  | CPoolWithdraw p _ _ _ _ _ => exists x, fget p (w_pool w) = Some x /\ p_share x = t
  | CStableWithdraw p _ _ _ _ _ => exists x, fget p (w_stable w) = Some x /\ l_share x = t
  | _ => False
  end.

Theorem exec_supply_ge e k w w' t kd : exec e k w = Ok (tt, w') -> fget t (w_code w) = Some kd ->
  ~ burns w k t -> supply w t <= supply w' t.
Proof.
  intros H C NB.
  assert (X : forall m : ST World unit, m w = Ok (tt, w') -> safe SupGe m -> supply w t <= supply w' t).
  { intros m Hm S. apply (S _ _ _ Hm _ _ C). }
  destruct k; simpl in NB; try (eapply X; [exact H|]; simpl exec; sg_tac; fail).
  - simpl in H. apply tok_burn_burned in H. destruct H as [_ H]. rewrite (bn_sup _ _ _ _ _ H).
    destruct (Z.eqb_spec t t0); [congruence|]. simpl. lia.
  - simpl in H. apply tok_burn_from_ok in H. destruct H as [_ [_ [? [? [_ [_ U]]]]]].
    rewrite (supply_upd _ _ _ _ _ t U). destruct (Z.eqb_spec t t0); [congruence|]. lia.
  - simpl in H. apply drop_ok in H. destruct H as [[a b] H]. apply pool_withdraw_ok in H.
    destruct H as [_ [_ [q [ra [w1 [w2 [w3 [w4 E]]]]]]]]. destruct E as [Ep _ _ _ _ _ _ _ Ei Eb Eo1 Eo2 Ee _].
    rewrite (supply_wtok w4 w') by auto.
    rewrite (mv_sup _ _ _ _ _ _ Eo2), (mv_sup _ _ _ _ _ _ Eo1), (bn_sup _ _ _ _ _ Eb), (mv_sup _ _ _ _ _ _ Ei).
    destruct (Z.eqb_spec t (p_share q)); [exfalso; apply NB; eauto|]. simpl. lia.
  - simpl in H. apply drop_ok in H. destruct H as [[a b] H]. apply stable_withdraw_ok in H.
    destruct H as [_ [_ [q [ra [w1 [w2 [w3 [w4 E]]]]]]]]. destruct E as [Ep _ _ _ _ _ _ _ Ei Eb Eo1 Eo2 Ee _].
    rewrite (supply_wtok w4 w') by auto.
    rewrite (mv_sup _ _ _ _ _ _ Eo2), (mv_sup _ _ _ _ _ _ Eo1), (bn_sup _ _ _ _ _ Eb), (mv_sup _ _ _ _ _ _ Ei).
    destruct (Z.eqb_spec t (l_share q)); [exfalso; apply NB; eauto|]. simpl. lia.
  - eapply X; [exact H|]. simpl exec. sg_tac. apply sg_pay.
  - simpl in H. unfold vest_burn in H. rstep H. winv. tinv.
    match goal with R : Burned _ _ _ _ _ |- _ => rewrite (bn_sup _ _ _ _ _ R) end.
    match goal with R : fget v (w_vest w) = Some ?x |- _ => 
      destruct (Z.eqb_spec t (v_token x)); [exfalso; apply NB; eauto|] end. simpl. lia.
  - eapply X; [exact H|]. simpl exec. unfold drop, hop_swap. sg_tac. apply sg_hop_swaps.
Qed.

(** ** Share supply equals the pool's total *)
(** transactions other than a withdrawal that burn the token [t] *)
Definition burns_directly (w : World) (k : Call) (t : Addr) : Prop :=
  match k with
  | CBurn t' _ _ | CBurnFrom t' _ _ _ => t' = t
  | CVestBurn v _ _ => exists x, fget v (w_vest w) = Some x /\ v_token x = t
  | _ => False
  end.


(** one swap of any pool: exactly one pool record changes, in its reserves *)
Definition RSwapL (p p' : Stable) : Prop := exists x y, p' = set_l_res p x y.
Lemma RSwapL_refl p : RSwapL p p.
Proof. exists (l_ra p), (l_rb p). destruct p; reflexivity. Qed.
Lemma RSwapL_trans p q r : RSwapL p q -> RSwapL q r -> RSwapL p r.
Proof. intros [x [y ->]] [x2 [y2 ->]]. exists x2, y2. reflexivity. Qed.
Definition PRL (R : Stable -> Stable -> Prop) (w w' : World) : Prop :=
  forall c p, fget c (w_stable w) = Some p -> exists p', fget c (w_stable w') = Some p' /\ R p p'.
Record SwapMaps (w w' : World) : Prop := {
  xm_pool : PR RSwap w w';
  xm_pool_none : forall c, fget c (w_pool w) = None -> fget c (w_pool w') = None;
  xm_stable : PRL RSwapL w w';
  xm_stable_none : forall c, fget c (w_stable w) = None -> fget c (w_stable w') = None }.

Lemma SwapMaps_refl w : SwapMaps w w.
Proof. constructor; auto; intros c p E; eauto using RSwap_refl, RSwapL_refl. Qed.
Lemma SwapMaps_trans a b c : SwapMaps a b -> SwapMaps b c -> SwapMaps a c.
Proof.
  intros [P1 P2 P3 P4] [Q1 Q2 Q3 Q4]. constructor; auto.
  - intros x p E. destruct (P1 _ _ E) as [q [E1 R1]]. destruct (Q1 _ _ E1) as [r [E2 R2]]. eauto using RSwap_trans.
  - intros x p E. destruct (P3 _ _ E) as [q [E1 R1]]. destruct (Q3 _ _ E1) as [r [E2 R2]]. eauto using RSwapL_trans.
Qed.

Lemma pool_swap_maps e c self u o a mi ms dl mf w r w' :
  pool_swap e c self u o a mi ms dl mf w = Ok (r, w') -> Good w -> c <> Some self -> SwapMaps w w'.
Proof.
  intros H G N. pose proof H as H0. apply pool_swap_ok in H. destruct H as [C [A [_ [_ H]]]].
  pose proof (authed_ne _ _ _ _ _ _ G C N A) as Ns.
  apply do_swap_ok in H; auto. destruct H as [p0 [r0 [w1 [w2 [w3 E]]]]].
  pose proof (se_pool _ _ _ _ _ _ _ _ _ _ _ _ _ _ _ _ E) as Ep.
  assert (Es : w_stable w' = w_stable w).
  { rewrite (se_end _ _ _ _ _ _ _ _ _ _ _ _ _ _ _ _ E). simpl.
    rewrite (mv_stable _ _ _ _ _ _ (se_com _ _ _ _ _ _ _ _ _ _ _ _ _ _ _ _ E)),
      (mv_stable _ _ _ _ _ _ (se_out _ _ _ _ _ _ _ _ _ _ _ _ _ _ _ _ E)),
      (mv_stable _ _ _ _ _ _ (se_in _ _ _ _ _ _ _ _ _ _ _ _ _ _ _ _ E)). reflexivity. }
  assert (Epp : forall x, x <> self -> fget x (w_pool w') = fget x (w_pool w)).
  { intros x Nx. rewrite (se_end _ _ _ _ _ _ _ _ _ _ _ _ _ _ _ _ E). simpl. apply fget_set_other; auto. }
  constructor; rewrite ?Es; auto.
  - intros x p Ex. destruct (Z.eq_dec x self) as [->|Nx].
    + eapply swap_RSwap; eauto.
    + rewrite Epp by auto. eauto using RSwap_refl.
  - intros x Ex. rewrite Epp; auto. congruence.
  - intros x p Ex. rewrite Es. eauto using RSwapL_refl.
Qed.

Lemma stable_swap_maps e c self u o a mi ms dl mf w r w' :
  stable_swap e c self u o a mi ms dl mf w = Ok (r, w') -> Good w -> c <> Some self -> SwapMaps w w'.
Proof.
  intros H G N. pose proof H as H0. apply stable_swap_ok in H. destruct H as [C [A [_ [_ H]]]].
  pose proof (authed_ne _ _ _ _ _ _ G C N A) as Ns.
  apply stable_do_swap_ok in H; auto. destruct H as [p0 [am [sp [cm [ny [w1 [w2 [w3 E]]]]]]]].
  destruct E as [Ep _ _ _ _ _ _ _ _ _ _ Ei Eo Ec Ee].
  assert (Es : w_pool w' = w_pool w).
  { rewrite Ee. simpl. rewrite (mv_pool _ _ _ _ _ _ Ec), (mv_pool _ _ _ _ _ _ Eo), (mv_pool _ _ _ _ _ _ Ei). reflexivity. }
  assert (Epp : forall x, x <> self -> fget x (w_stable w') = fget x (w_stable w)).
  { intros x Nx. rewrite Ee. simpl. apply fget_set_other; auto. }
  constructor; rewrite ?Es; auto.
  - intros x p Ex. rewrite Es. eauto using RSwap_refl.
  - intros x p Ex. destruct (Z.eq_dec x self) as [->|Nx].
    + rewrite Ee. simpl. rewrite fget_set_same. eexists. split; [reflexivity|].
      rewrite Ep in Ex. inversion Ex; subst. unfold set_l_for. destruct (o =? l_ta p); eexists _, _; reflexivity.
    + rewrite Epp by auto. eauto using RSwapL_refl.
  - intros x Ex. rewrite Epp; auto. congruence.
Qed.

Lemma any_swap_maps e c p u o a mi ms dl mf w r w' :
  any_swap e c p u o a mi ms dl mf w = Ok (r, w') -> Good w -> not_pool w c -> SwapMaps w w'.
Proof.
  intros H G N. unfold any_swap in H. apply mbind_ok in H. destruct H as [w0 [w1 [E H]]].
  apply mget_ok in E. inversion E; subst w0 w1; clear E.
  assert (c <> Some p).
  { intros ->. destruct (N p eq_refl). destruct (fget p (w_code w)) as [[]|] eqn:Ec; try discriminate; congruence. }
  destruct (fget p (w_code w)) as [[]|] eqn:Ec; try discriminate.
  - eapply pool_swap_maps; eauto.
  - eapply stable_swap_maps; eauto.
Qed.

Lemma hop_swaps_maps e self f r ops ms dl mf : forall amt w x w',
  hop_swaps e self f r ops amt ms dl mf w = Ok (x, w') -> Good w ->
  fget self (w_code w) = Some KHop -> SwapMaps w w'.
Proof.
  induction ops as [|o ops IH]; simpl; intros amt w x w' H G C.
  - rstep H. apply SwapMaps_refl.
  - apply mbind_ok in H. destruct H as [p [w1 [H1 H]]]. apply pure_fact_pool_by_pair in H1. subst w1.
    apply mbind_ok in H. destruct H as [v [w2 [H2 H]]].
    pose proof (framek_any_swap _ _ _ _ _ _ _ _ _ _ _ _ _ H2 G) as [G' [X' _]].
    eapply SwapMaps_trans; [|exact (IH _ _ _ _ H G' (ex_code _ _ X' _ _ C))].
    eapply any_swap_maps; eauto. intros a' E. inversion E; subst. split; congruence.
Qed.

Lemma routed_maps e k w w' : exec e k w = Ok (tt, w') -> routed k = true -> Good w -> SwapMaps w w' /\ SupEq w w'.
Proof.
  intros H R G. destruct k; try discriminate R; simpl in H; apply drop_ok in H; destruct H as [r H].
  - unfold hop_swap in H. rstep H. winv. split; [eapply hop_swaps_maps; eauto|eapply se_hop_swaps; eauto].
  - apply trader_trade_ok in H. destruct H as [dd [amt [C [_ [_ [_ [_ [_ [_ H]]]]]]]]].
    split; [|eapply se_any_swap; eauto].
    eapply any_swap_maps; eauto. intros a' E. inversion E; subst. split; congruence.
Qed.

(** pools and stable pools that appear in a transaction start empty *)
Lemma new_pool e k w w' c p' : exec e k w = Ok (tt, w') -> Good w ->
  fget c (w_pool w) = None -> fget c (w_pool w') = Some p' -> p_total p' = 0 /\ p_ra p' = 0 /\ p_rb p' = 0.
Proof.
  intros H G Np Hp.
  destruct (routed k) eqn:R.
  { destruct (routed_maps _ _ _ _ H R G) as [M _]. rewrite (xm_pool_none _ _ M _ Np) in Hp. discriminate. }
  destruct (exec_framec _ _ _ _ H G) as [G' [X' [_ [_ U]]]].
  pose proof (gd_cpool _ G' _ _ Hp) as Hc'.
  destruct (fget c (w_code w)) as [kd|] eqn:Hc.
  - assert (kd = KPool) by (pose proof (ex_code _ _ X' _ _ Hc); congruence). subst kd.
    destruct (exists_dec_acts k c KPool) as [[T|[T _]]|N]; [|congruence|].
    2:{ rewrite (ut_pool _ _ _ (U _ _ Hc N)) in Hp. congruence. }
    pose proof (exec_tkind _ _ _ _ _ H T) as TK. rewrite Hc in TK.
    destruct k; simpl in T, TK; inversion T; try discriminate TK; subst; simpl in H;
      try (apply drop_ok in H; destruct H as [r H]).
    2-7: exfalso; unfold pool_provide, pool_swap, do_swap, pool_withdraw, pool_update_config, pool_update, pool_upgrade in H;
        rstep H; winv; congruence.
    apply pool_initialize_ok in H. destruct H as [_ [_ [_ [_ [_ H]]]]]. cbv zeta in H. subst w'.
    simpl in Hp. rewrite fget_set_same in Hp. inversion Hp; subst; auto.
  - assert (D : deploys k = true).
    { destruct (deploys k) eqn:D; auto. pose proof (exec_samecode e k D _ _ _ H) as Sc. unfold SameCode in Sc. congruence. }
    destruct k; try discriminate D; deploy_cases H.
    1-5: subst w'; simpl in Hp; rewrite ?fget_set in Hp; try congruence.
    + destruct (Z.eqb_spec c p); congruence.
    + match goal with Q : match ty with Xyk => _ | StableT => _ end |- _ => rename Q into Hm end.
      subst. rename Hm into H. simpl in Hp.
      destruct ty; simpl in H.
      * apply pool_initialize_ok in H. destruct H as [_ [_ [_ [_ [_ H]]]]]. cbv zeta in H. rewrite H in Hp. simpl in Hp.
        rewrite fget_set in Hp. destruct (Z.eqb_spec c (e_hash e f (SPair (i_ta i) (i_tb i)))); [|congruence].
        inversion Hp; subst; auto.
      * destruct H as [a [_ H]]. apply stable_initialize_ok in H.
        destruct H as [? [? [? [? [? [? [? [? [? [? [? [? H]]]]]]]]]]]]. cbv zeta in H. rewrite H in Hp. simpl in Hp. congruence.
Qed.

Lemma new_stable e k w w' c p' : exec e k w = Ok (tt, w') -> Good w ->
  fget c (w_stable w) = None -> fget c (w_stable w') = Some p' -> l_total p' = 0 /\ l_ra p' = 0 /\ l_rb p' = 0.
Proof.
  intros H G Np Hp.
  destruct (routed k) eqn:R.
  { destruct (routed_maps _ _ _ _ H R G) as [M _]. rewrite (xm_stable_none _ _ M _ Np) in Hp. discriminate. }
  destruct (exec_framec _ _ _ _ H G) as [G' [X' [_ [_ U]]]].
  pose proof (gd_cstable _ G' _ _ Hp) as Hc'.
  destruct (fget c (w_code w)) as [kd|] eqn:Hc.
  - assert (kd = KStable) by (pose proof (ex_code _ _ X' _ _ Hc); congruence). subst kd.
    destruct (exists_dec_acts k c KStable) as [[T|[T _]]|N]; [|congruence|].
    2:{ rewrite (ut_stable _ _ _ (U _ _ Hc N)) in Hp. congruence. }
    pose proof (exec_tkind _ _ _ _ _ H T) as TK. rewrite Hc in TK.
    destruct k; simpl in T, TK; inversion T; try discriminate TK; subst; simpl in H;
      try (apply drop_ok in H; destruct H as [r H]).
    2-6: exfalso; unfold stable_provide, stable_swap, stable_do_swap, stable_withdraw, stable_update_config, stable_upgrade in H;
        rstep H; winv; congruence.
    apply stable_initialize_ok in H. destruct H as [? [? [? [? [? [? [? [? [? [? [? [? H]]]]]]]]]]]]. cbv zeta in H. subst w'.
    simpl in Hp. rewrite fget_set_same in Hp. inversion Hp; subst; auto.
  - assert (D : deploys k = true).
    { destruct (deploys k) eqn:D; auto. pose proof (exec_samecode e k D _ _ _ H) as Sc. unfold SameCode in Sc. congruence. }
    destruct k; try discriminate D; deploy_cases H.
    1-5: subst w'; simpl in Hp; rewrite ?fget_set in Hp; try congruence.
    + destruct (Z.eqb_spec c p); congruence.
    + match goal with Q : match ty with Xyk => _ | StableT => _ end |- _ => rename Q into Hm end.
      subst. rename Hm into H. simpl in Hp.
      destruct ty; simpl in H.
      * apply pool_initialize_ok in H. destruct H as [_ [_ [_ [_ [_ H]]]]]. cbv zeta in H. rewrite H in Hp. simpl in Hp. congruence.
      * destruct H as [a [_ H]]. apply stable_initialize_ok in H.
        destruct H as [? [? [? [? [? [? [? [? [? [? [? [? H]]]]]]]]]]]]. cbv zeta in H. rewrite H in Hp. simpl in Hp.
        rewrite fget_set in Hp. destruct (Z.eqb_spec c (e_hash e f (SPair (i_ta i) (i_tb i)))); [|congruence].
        inversion Hp; subst; auto.
Qed.

Definition ShareEq (t : Addr) (w : World) : Prop :=
  (forall c p, fget c (w_pool w) = Some p -> p_share p = t -> supply w t = p_total p) /\
  (forall c p, fget c (w_stable w) = Some p -> l_share p = t -> supply w t = l_total p).

Lemma supply_nonneg w t : Good w -> 0 <= supply w t.
Proof. intros G. pose proof (good_bal w t 0 G). pose proof (good_supply w t 0 G). lia. Qed.

Lemma share_code w t c : Good w -> tadmin w t = Some c -> fget t (w_code w) = Some KTok.
Proof. unfold tadmin. intros G. destruct (fget t (w_tok w)) eqn:E; [|discriminate]. intros _. eapply (gd_ctok _ G); eauto. Qed.

Lemma pool_share_diff e k w w' c p : exec e k w = Ok (tt, w') -> Good w -> AllPool w -> AllStable w ->
  fget c (w_pool w) = Some p -> ~ burns_directly w k (p_share p) ->
  exists p', fget c (w_pool w') = Some p' /\ p_share p' = p_share p /\
    supply w' (p_share p) - p_total p' = supply w (p_share p) - p_total p.
Proof.
  intros H G AP AS Hp NB. pose proof (AP _ _ Hp) as I.
  destruct (routed k) eqn:R.
  { destruct (routed_maps _ _ _ _ H R G) as [M S]. destruct (xm_pool _ _ M _ _ Hp) as [p' [E [_ [SI [T _]]]]].
    exists p'. rewrite (S (p_share p)), T. split; [auto|]. split; [apply SI|lia]. }
  destruct (exec_framec _ _ _ _ H G) as [G' [X' [_ [_ U]]]].
  pose proof (gd_cpool _ G _ _ Hp) as Hc.
  destruct (exists_dec_acts k c KPool) as [[T|[T _]]|N]; [|congruence|].
  2:{ specialize (U _ _ Hc N). exists p. rewrite (ut_pool _ _ _ U). split; [auto|]. split; [auto|].
      destruct (ut_tok _ _ _ U _ (pi_adm _ _ _ I)) as [_ L].
      assert (supply w (p_share p) <= supply w' (p_share p)); [|lia].
      eapply exec_supply_ge; eauto.
      - eapply share_code; eauto. apply (pi_adm _ _ _ I).
      - destruct k; simpl; simpl in NB; auto; intros [x [Ex Sx]].
        + pose proof (pi_adm _ _ _ (AP _ _ Ex)) as A1. rewrite Sx, (pi_adm _ _ _ I) in A1. inversion A1; subst.
          apply N. left. reflexivity.
        + pose proof (li_adm _ _ _ (AS _ _ Ex)) as A1. rewrite Sx, (pi_adm _ _ _ I) in A1. inversion A1; subst.
          pose proof (gd_cstable _ G _ _ Ex). congruence. }
  pose proof (exec_tkind _ _ _ _ _ H T) as TK. rewrite Hc in TK.
  destruct k; simpl in T, TK; inversion T; try discriminate TK; subst; simpl in H; try discriminate R;
      try (apply drop_ok in H; destruct H as [r H]).
  - apply pool_initialize_ok in H. destruct H as [_ [Np _]]. congruence.
  - apply pool_provide_ok in H.
    destruct H as [_ [_ [_ [p0 [xa [xb [a [b [w1 [w2 [w4 E]]]]]]]]]]].
    destruct E as [Ep _ _ _ _ _ E1 E2 Et Ee]. rewrite Hp in Ep. inversion Ep; subst p0.
    destruct Et as [n [En Hn]]. eexists. split; [exact En|]. split; [reflexivity|].
    rewrite (supply_wtok w4 w') by auto. simpl p_total.
    assert (S2 : supply w2 (p_share p) = supply w (p_share p)) by (rewrite (mv_sup _ _ _ _ _ _ E2), (mv_sup _ _ _ _ _ _ E1); auto).
    destruct Hn as [[_ [_ [M _]]]|[_ [_ [_ [w3 [M1 M2]]]]]].
    + rewrite (mt_sup _ _ _ _ _ M), Z.eqb_refl. simpl. lia.
    + rewrite (mt_sup _ _ _ _ _ M2), (mt_sup _ _ _ _ _ M1), Z.eqb_refl. simpl. lia.
  - destruct (swap_RSwap _ _ _ _ _ _ _ _ _ _ _ _ _ _ H G ltac:(discriminate) Hp) as [p' [E [_ [SI [Tt _]]]]].
    exists p'. rewrite (se_pool_swap _ _ _ _ _ _ _ _ _ _ _ _ _ H (p_share p)), Tt. split; [auto|]. split; [apply SI|lia].
  - destruct r as [ra rb].
    apply pool_withdraw_ok in H. destruct H as [_ [Au [p0 [ratio [w1 [w2 [w3 [w4 E]]]]]]]].
    destruct E as [Ep _ _ _ _ _ _ _ Ei Eb Eo1 Eo2 Ee Ep']. rewrite Hp in Ep. inversion Ep; subst p0.
    eexists. split; [exact Ep'|]. split; [reflexivity|]. rewrite (supply_wtok w4 w') by auto.
    rewrite (mv_sup _ _ _ _ _ _ Eo2), (mv_sup _ _ _ _ _ _ Eo1), (bn_sup _ _ _ _ _ Eb), (mv_sup _ _ _ _ _ _ Ei), Z.eqb_refl.
    simpl. lia.
  - unfold pool_update_config in H. rstep H. winv. 
    match goal with R : fget c (w_pool w) = Some ?q |- _ => rewrite Hp in R; inversion R; subst q end.
    simpl. rewrite fget_set_same. eexists. split; [reflexivity|]. split; [reflexivity|]. reflexivity.
  - apply pool_update_ok in H. subst w'. exists p. split; [exact Hp|]. split; reflexivity.
  - unfold pool_upgrade in H. rstep H. winv. 
    match goal with R : fget c (w_pool w) = Some ?q |- _ => rewrite Hp in R; inversion R; subst q end.
    simpl. rewrite fget_set_same. eexists. split; [reflexivity|]. split; [reflexivity|]. reflexivity.
Qed.

Lemma stable_share_diff e k w w' c p : exec e k w = Ok (tt, w') -> Good w -> AllPool w -> AllStable w ->
  fget c (w_stable w) = Some p -> ~ burns_directly w k (l_share p) ->
  exists p', fget c (w_stable w') = Some p' /\ l_share p' = l_share p /\
    supply w' (l_share p) - l_total p' = supply w (l_share p) - l_total p.
Proof.
  intros H G AP AS Hp NB. pose proof (AS _ _ Hp) as I.
  destruct (routed k) eqn:R.
  { destruct (routed_maps _ _ _ _ H R G) as [M S]. destruct (xm_stable _ _ M _ _ Hp) as [p' [E [x [y ->]]]].
    eexists. split; [exact E|]. rewrite (S (l_share p)). simpl. auto. }
  destruct (exec_framec _ _ _ _ H G) as [G' [X' [_ [_ U]]]].
  pose proof (gd_cstable _ G _ _ Hp) as Hc.
  destruct (exists_dec_acts k c KStable) as [[T|[T _]]|N]; [|congruence|].
  2:{ specialize (U _ _ Hc N). exists p. rewrite (ut_stable _ _ _ U). split; [auto|]. split; [auto|].
      destruct (ut_tok _ _ _ U _ (li_adm _ _ _ I)) as [_ L].
      assert (supply w (l_share p) <= supply w' (l_share p)); [|lia].
      eapply exec_supply_ge; eauto.
      - eapply share_code; eauto. apply (li_adm _ _ _ I).
      - destruct k; simpl; simpl in NB; auto; intros [x [Ex Sx]].
        + pose proof (pi_adm _ _ _ (AP _ _ Ex)) as A1. rewrite Sx, (li_adm _ _ _ I) in A1. inversion A1; subst.
          pose proof (gd_cpool _ G _ _ Ex). congruence.
        + pose proof (li_adm _ _ _ (AS _ _ Ex)) as A1. rewrite Sx, (li_adm _ _ _ I) in A1. inversion A1; subst.
          apply N. left. reflexivity. }
  pose proof (exec_tkind _ _ _ _ _ H T) as TK. rewrite Hc in TK.
  destruct k; simpl in T, TK; inversion T; try discriminate TK; subst; simpl in H; try discriminate R;
      try (apply drop_ok in H; destruct H as [r H]).
  - apply stable_initialize_ok in H. destruct H as [_ [Np _]]. congruence.
  - pose proof (enter_first _ _ _ _ _ _ H) as C.
    assert (A : authed e None u = true) by (unfold stable_provide in H; rstep H; winv; auto).
    assert (Nn : @None Addr <> Some c) by discriminate. pose proof (authed_ne _ _ _ _ _ _ G C Nn A) as Ns.
    apply stable_provide_ok in H; auto.
    2:{ intros q Eq. rewrite Hp in Eq. inversion Eq; subst. pose proof (li_ord _ _ _ I). lia. }
    destruct H as [_ [_ [p0 [am [x [y [nd [s [w1 [w2 [w3 E]]]]]]]]]]].
    destruct E as [Ep _ _ _ _ _ _ _ _ _ E1 E2 Em Ee Ep']. rewrite Hp in Ep. inversion Ep; subst p0.
    eexists. split; [exact Ep'|]. split; [reflexivity|]. rewrite (supply_wtok w3 w') by auto.
    rewrite (mt_sup _ _ _ _ _ Em), (mv_sup _ _ _ _ _ _ E2), (mv_sup _ _ _ _ _ _ E1), Z.eqb_refl. simpl. lia.
  - destruct (stable_swap_maps _ _ _ _ _ _ _ _ _ _ _ _ _ H G ltac:(discriminate)) as [_ _ M _].
    destruct (M _ _ Hp) as [p' [E [x [y ->]]]]. eexists. split; [exact E|].
    rewrite (se_stable_swap _ _ _ _ _ _ _ _ _ _ _ _ _ H (l_share p)). simpl. auto.
  - destruct r as [ra rb].
    apply stable_withdraw_ok in H. destruct H as [_ [Au [p0 [ratio [w1 [w2 [w3 [w4 E]]]]]]]].
    destruct E as [Ep _ _ _ _ _ _ _ Ei Eb Eo1 Eo2 Ee Ep']. rewrite Hp in Ep. inversion Ep; subst p0.
    eexists. split; [exact Ep'|]. split; [reflexivity|]. rewrite (supply_wtok w4 w') by auto.
    rewrite (mv_sup _ _ _ _ _ _ Eo2), (mv_sup _ _ _ _ _ _ Eo1), (bn_sup _ _ _ _ _ Eb), (mv_sup _ _ _ _ _ _ Ei), Z.eqb_refl.
    simpl. lia.
  - unfold stable_update_config in H. rstep H. winv. 
    match goal with R : fget c (w_stable w) = Some ?q |- _ => rewrite Hp in R; inversion R; subst q end.
    simpl. rewrite fget_set_same. eexists. split; [reflexivity|]. split; [reflexivity|]. reflexivity.
  - apply stable_upgrade_ok in H. subst w'. exists p. split; [exact Hp|]. split; reflexivity.
Qed.

Theorem share_eq_step e k w w' t : exec e k w = Ok (tt, w') -> Good w -> AllPool w -> AllStable w ->
  ShareEq t w -> ~ burns_directly w k t -> ShareEq t w'.
Proof.
  intros H G AP AS [S1 S2] NB.
  pose proof (pool_all_step _ _ _ _ H G AP) as AP'. pose proof (stable_all_step _ _ _ _ H G AS) as AS'.
  destruct (exec_framec _ _ _ _ H G) as [G' _].
  split; intros c p' Hp' Es.
  - destruct (fget c (w_pool w)) as [p|] eqn:Hp.
    + destruct (pool_step _ _ _ _ H G AP _ _ Hp) as [q [Eq [SI _]]]. rewrite Hp' in Eq. inversion Eq; subst q.
      pose proof (si_share _ _ SI) as E2.
      destruct (pool_share_diff _ _ _ _ _ _ H G AP AS Hp) as [q [Eq' [_ D]]]; [congruence|].
      rewrite Hp' in Eq'. inversion Eq'; subst q. specialize (S1 _ _ Hp ltac:(congruence)).
      rewrite <- E2, Es in D. lia.
    + destruct (new_pool _ _ _ _ _ _ H G Hp Hp') as [Z0 _]. pose proof (pi_sup _ _ _ (AP' _ _ Hp')) as L.
      pose proof (supply_nonneg w' t G'). rewrite Es in L. lia.
  - destruct (fget c (w_stable w)) as [p|] eqn:Hp.
    + destruct (Z.eq_dec (l_share p) t) as [E2|N2].
      * destruct (stable_share_diff _ _ _ _ _ _ H G AP AS Hp) as [q [Eq' [_ D]]]; [congruence|].
        rewrite Hp' in Eq'. inversion Eq'; subst q. specialize (S2 _ _ Hp E2). rewrite E2 in D. lia.
      * exfalso. apply N2.
        assert (SH : exists q, fget c (w_stable w') = Some q /\ l_share q = l_share p).
        { clear NB S1 S2. pose proof (gd_cstable _ G _ _ Hp) as Hc.
          destruct (routed k) eqn:R.
          { destruct (routed_maps _ _ _ _ H R G) as [M S]. destruct (xm_stable _ _ M _ _ Hp) as [q [E [x [y ->]]]]. eauto. }
          destruct (exec_framec _ _ _ _ H G) as [_ [_ [_ [_ U]]]].
          destruct (exists_dec_acts k c KStable) as [[T|[T _]]|N]; [|congruence|].
          2:{ specialize (U _ _ Hc N). exists p. rewrite (ut_stable _ _ _ U). auto. }
          destruct (stable_share_diff _ _ _ _ _ _ H G AP AS Hp) as [q [Eq' [D _]]]; [|eauto].
          pose proof (exec_tkind _ _ _ _ _ H T) as TK. rewrite Hc in TK.
          destruct k; simpl in TK; try discriminate TK; simpl; auto. }
        destruct SH as [q [Eq' D]]. rewrite Hp' in Eq'. inversion Eq'; subst q. congruence.
    + destruct (new_stable _ _ _ _ _ _ H G Hp Hp') as [Z0 _]. pose proof (li_sup _ _ _ (AS' _ _ Hp')) as L.
      pose proof (supply_nonneg w' t G'). rewrite Es in L. lia.
Qed.

(** ** Runs whose transactions satisfy a condition *)
Inductive run_if (ok : World -> Call -> Prop) (H : Addr -> Salt -> Addr) : World -> list Event -> World -> Prop :=
| ri_nil w : run_if ok H w [] w
| ri_tx w e k w1 l w2 : step H w (Tx e k) w1 -> ok w k -> run_if ok H w1 l w2 -> run_if ok H w (Tx e k :: l) w2
| ri_tick w n s w1 l w2 : step H w (Tick n s) w1 -> run_if ok H w1 l w2 -> run_if ok H w (Tick n s :: l) w2.

Lemma run_if_weaken (ok ok2 : World -> Call -> Prop) H w l w2 : (forall w k, ok w k -> ok2 w k) ->
  run_if ok H w l w2 -> run_if ok2 H w l w2.
Proof. intros I. induction 1; econstructor; eauto. Qed.
Lemma run_if_all (ok : World -> Call -> Prop) H w l w2 :
  Forall (fun ev => match ev with Tx _ k => forall w, ok w k | Tick _ _ => True end) l ->
  run H w l w2 -> run_if ok H w l w2.
Proof.
  intros F R. induction R; [constructor|]. inversion F; subst.
  destruct ev; econstructor; eauto.
Qed.
Lemma run_if_run ok H w l w' : run_if ok H w l w' -> run H w l w'.
Proof. induction 1; econstructor; eauto. Qed.

(** a fact about every reachable ledger of a restricted run *)
Lemma run_if_inv (ok : World -> Call -> Prop) H (P : World -> Prop) :
  (forall e k w w', e_hash e = H -> reachable H w -> ok w k -> exec e k w = Ok (tt, w') -> P w -> P w') ->
  (forall w n s, w_now w <= n <= U64_MAX -> P w -> P (set_time w n s)) ->
  forall w l w', run_if ok H w l w' -> reachable H w -> P w -> P w'.
Proof.
  intros Htx Htick w l w' R. induction R; intros RC Pw; [auto| |].
  - apply IHR; [eapply reach_run; eauto; econstructor; eauto; constructor|].
    inversion H0; subst. eapply Htx; eauto.
  - apply IHR; [eapply reach_run; eauto; econstructor; eauto; constructor|].
    inversion H0; subst. apply Htick; auto.
Qed.

Lemma share_eq_run H t w l w' : run_if (fun w k => ~ burns_directly w k t) H w l w' -> reachable H w ->
  ShareEq t w -> ShareEq t w'.
Proof.
  apply run_if_inv.
  - intros e k w1 w2 _ RC NB X S. eapply share_eq_step; eauto using reach_pool, reach_stable.
    apply (wg_good _ (reach_wgood _ _ RC)).
  - intros w1 n s _ [A B]. split; intros c p Hp Es; [apply (A _ _ Hp Es)|apply (B _ _ Hp Es)].
Qed.
