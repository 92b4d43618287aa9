(** Properties of code replacement and of the admin roles (C100-C103). *)
From Coq Require Import ZArith List Bool Lia.
From Coq Require Import ZifyBool.
From Verif Require Import Base FMap Decimal DecimalProofs Curve World Token TokenProofs Frame Stake Pool PoolProofs
  Stable StableProofs Rewards Vest Factory Router System SysFrame SysInv SysPool SysStable SysSupply SysVest SysStake SysRewards
  Script Runs Props_Token Props_Pool Props_Stable Props_Vest Props_Stake Props_Rewards SysFact Props_Factory.
Import ListNotations.
Open Scope Z_scope.

(** [ad] is the admin in the storage of contract [a]; tokens and traders have no entry point that
    replaces their code and are left out. *)
Inductive admin_is (w : World) (a ad : Addr) : Prop :=
| ai_pool p : fget a (w_pool w) = Some p -> p_admin p = ad -> admin_is w a ad
| ai_stable p : fget a (w_stable w) = Some p -> l_admin p = ad -> admin_is w a ad
| ai_stake s : fget a (w_stake w) = Some s -> s_admin s = ad -> admin_is w a ad
| ai_rewards r : fget a (w_rewards w) = Some r -> r_admin r = ad -> admin_is w a ad
| ai_vest v : fget a (w_vest w) = Some v -> v_admin v = ad -> admin_is w a ad
| ai_fact f : fget a (w_fact w) = Some f -> f_admin f = ad -> admin_is w a ad
| ai_hop h : fget a (w_hop w) = Some h -> h_admin h = ad -> admin_is w a ad.

(** ** Every other call leaves all code in place *)
Definition SameWasm (w w' : World) : Prop := w_wasm w' = w_wasm w.
Lemma sw_bind {A B} (m : ST World A) (k : A -> ST World B) :
  safe SameWasm m -> (forall a, safe SameWasm (k a)) -> safe SameWasm (mbind m k).
Proof. apply safe_bind. unfold SameWasm. congruence. Qed.
Lemma sw_pure {A} (m : ST World A) : pure m -> safe SameWasm m.
Proof. apply safe_pure. reflexivity. Qed.
Lemma sw_mmod (f : World -> World) : (forall w, w_wasm (f w) = w_wasm w) -> safe SameWasm (mmod f).
Proof. intros E w u w' H. apply mmod_ok in H. inversion H; subst. apply E. Qed.
Lemma sw_upd t f : safe SameWasm (upd_tok t f).
Proof. intros w u w' H. unfold upd_tok, put_tok in H. rstep H. winv. reflexivity. Qed.
Lemma sw_deploy a k : safe SameWasm (deploy a k).
Proof. intros w u w' H. apply deploy_ok in H. destruct H as [_ [_ ->]]. reflexivity. Qed.
Lemma sw_tok_deploy t a d : safe SameWasm (tok_deploy t a d).
Proof. intros w u w' H. apply tok_deploy_ok in H. destruct H as [_ [_ [_ ->]]]. reflexivity. Qed.

Ltac sw_tac :=
  repeat first
  [ solve [apply sw_pure; auto with pure]
  | apply sw_upd | apply sw_deploy | apply sw_tok_deploy
  | apply sw_bind; [|intro]
  | solve [apply sw_mmod; reflexivity]
  | match goal with
    | |- safe _ (let '(_, _) := ?p in _) => destruct p
    | |- safe _ (if ?b then _ else _) => destruct b
    | |- safe _ (mwhen ?b _) => unfold mwhen; destruct b
    | |- safe _ (match ?o with _ => _ end) => destruct o
    end
  | progress unfold tok_transfer, tok_mint, tok_burn, tok_set_admin, tok_approve, tok_transfer_from, tok_burn_from,
      put_pool, put_stable, put_stake, put_rewards, put_vest, put_fact, put_hop, put_trader,
      deploy_share, deploy_stake_of, pool_initialize, stable_initialize, fact_create, fact_initialize,
      mint_shares, burn_shares, new_share_total, do_swap, stable_mint_shares, stable_burn_shares, stable_do_swap,
      pool_provide, pool_swap, pool_withdraw, pool_update_config,
      stable_provide, stable_swap, stable_withdraw, stable_update_config,
      stake_initialize, stake_bond, stake_unbond, stake_create_flow, stake_distribute, stake_withdraw_rewards,
      rewards_initialize, rewards_add_user, rewards_bond, rewards_unbond, rewards_distribute, rewards_withdraw,
      rewards_fund, vest_initialize, vest_create, vest_claim, vest_burn, vest_mint, vest_update_minter,
      vest_update_capacity, fact_update_whitelist, fact_update_hashes, hop_initialize,
      trader_initialize, trader_transfer, drop
  | progress cbv beta zeta ].

Lemma sw_pay e self u s t b l : safe SameWasm (pay_rewards e self u s t b l).
Proof. induction l; simpl; sw_tac. auto. Qed.
Lemma sw_any_swap e c p u o a mi ms dl mf : safe SameWasm (any_swap e c p u o a mi ms dl mf).
Proof. unfold any_swap. sw_tac. Qed.
Lemma sw_hop_swaps e self f r ops ms dl mf : forall a, safe SameWasm (hop_swaps e self f r ops a ms dl mf).
Proof.
  induction ops; intros amt; simpl; [sw_tac|].
  apply sw_bind; [sw_tac|intro]. apply sw_bind; [apply sw_any_swap|intro]. auto.
Qed.

(** the entry points that replace code, and the contract each of them replaces *)
Definition replaces (k : Call) : option (Addr * Z) :=
  match k with
  | CPoolUpdate p h | CPoolUpgrade p h _ | CStableUpgrade p h | CStakeUpdate p h | CRewUpdate p h
  | CVestUpdate p h | CFactUpdate p h _ | CHopUpdate p h => Some (p, h)
  | _ => None
  end.

Lemma exec_same_wasm e k : replaces k = None -> safe SameWasm (exec e k).
Proof.
  intros D. destruct k; try discriminate D; simpl exec; try (sw_tac; fail).
  - unfold stake_withdraw_rewards. sw_tac. apply sw_pay.
  - unfold drop, hop_swap. sw_tac. apply sw_hop_swaps.
Qed.

Lemma exec_replaces e k w w' a h : replaces k = Some (a, h) -> exec e k w = Ok (tt, w') ->
  w_wasm w' = fset a h (w_wasm w) /\ (exists ad, admin_is w a ad /\ signs e ad = true) /\
  fget a (w_code w) <> None /\ fget a (w_code w) <> Some KTok /\ fget a (w_code w) <> Some KTrader.
Proof.
  intros D X. destruct k; simpl in D; inversion D; subst; simpl in X;
    match type of X with ?m = _ =>
      unfold pool_update, pool_upgrade, stable_upgrade, stake_update, rewards_update, vest_update, fact_update, hop_update in X end;
    rstep X; winv; rewrite authed_none in *; (split; [reflexivity|split; [|repeat split; congruence]]).
  - eexists. split; [eapply ai_pool; eauto|auto].
  - eexists. split; [eapply ai_pool; eauto|auto].
  - eexists. split; [eapply ai_stable; eauto|auto].
  - eexists. split; [eapply ai_stake; eauto|auto].
  - eexists. split; [eapply ai_rewards; eauto|auto].
  - eexists. split; [eapply ai_vest; eauto|auto].
  - eexists. split; [eapply ai_fact; eauto|auto].
  - eexists. split; [eapply ai_hop; eauto|auto].
Qed.

Lemma signs_in e a : signs e a = true -> a < 0 /\ In a (e_auth e).
Proof.
  unfold signs. intros S0. apply andb_prop in S0. destruct S0 as [L S0]. apply existsb_exists in S0.
  destruct S0 as [y [I Q]]. apply Z.eqb_eq in Q. subst. split; [lia|auto].
Qed.

(** ** C100 *)
Theorem C100_code_replaced_by_admin_only H w ev w1 a : step H w ev w1 -> fget a (w_wasm w1) <> fget a (w_wasm w) ->
  exists e k ad, ev = Tx e k /\ admin_is w a ad /\ ad < 0 /\ In ad (e_auth e).
Proof.
  intros St N. inversion St as [e k w0 Eh X|]; subst; [|exfalso; apply N; reflexivity].
  destruct (replaces k) as [[b h]|] eqn:D.
  - destruct (exec_replaces _ _ _ _ _ _ D X) as [E [[ad [A S1]] _]]. rewrite E, fget_set in N.
    destruct (Z.eqb_spec a b); [subst b|congruence]. apply signs_in in S1. exists e, k, ad. tauto.
  - pose proof (exec_same_wasm e k D _ _ _ X) as Q. unfold SameWasm in Q. congruence.
Qed.
Print Assumptions C100_code_replaced_by_admin_only.

(** and the admin of a pool, stable pool, staking, reward, vesting or multihop contract can *)
Theorem C100_admin_can_replace H w e a ad h : reachable H w -> admin_is w a ad -> ad < 0 -> In ad (e_auth e) ->
  exists k w1, exec e k w = Ok (tt, w1) /\ fget a (w_wasm w1) = Some h.
Proof.
  intros R A L I. pose proof (reach_good _ _ R) as G.
  assert (S0 : authed e None ad = true).
  { rewrite authed_none. unfold signs. apply andb_true_intro. split; [lia|]. apply existsb_exists. exists ad. split; auto. apply Z.eqb_refl. }
  destruct A as [p E Ead|p E Ead|s E Ead|r E Ead|v E Ead|f E Ead|p E Ead]; subst ad.
  - exists (CPoolUpdate a h). eexists. simpl. unfold pool_update. split.
    + rewrite (run_bind _ _ _ tt w) by (apply run_enter; apply (gd_cpool _ G _ _ E)).
      rewrite (run_bind _ _ _ p w) by (unfold get_pool; rewrite E; auto).
      rewrite (run_bind _ _ _ tt w) by (apply run_auth; auto). reflexivity.
    + simpl. apply fget_set_same.
  - exists (CStableUpgrade a h). eexists. simpl. unfold stable_upgrade. split.
    + rewrite (run_bind _ _ _ tt w) by (apply run_enter; apply (gd_cstable _ G _ _ E)).
      rewrite (run_bind _ _ _ p w) by (unfold get_stable; rewrite E; auto).
      rewrite (run_bind _ _ _ tt w) by (apply run_auth; auto). reflexivity.
    + simpl. apply fget_set_same.
  - exists (CStakeUpdate a h). eexists. simpl. unfold stake_update. split.
    + rewrite (run_bind _ _ _ tt w) by (apply run_enter; apply (gd_cstake _ G _ _ E)).
      rewrite (run_bind _ _ _ s w) by (unfold get_stake; rewrite E; auto).
      rewrite (run_bind _ _ _ tt w) by (apply run_auth; auto). reflexivity.
    + simpl. apply fget_set_same.
  - exists (CRewUpdate a h). eexists. simpl. unfold rewards_update. split.
    + rewrite (run_bind _ _ _ tt w) by (apply run_enter; apply (gd_crewards _ G _ _ E)).
      rewrite (run_bind _ _ _ r w) by (unfold get_rewards; rewrite E; auto).
      rewrite (run_bind _ _ _ tt w) by (apply run_auth; auto). reflexivity.
    + simpl. apply fget_set_same.
  - exists (CVestUpdate a h). eexists. simpl. unfold vest_update. split.
    + rewrite (run_bind _ _ _ tt w) by (apply run_enter; apply (gd_cvest _ G _ _ E)).
      rewrite (run_bind _ _ _ v w) by (unfold get_vest; rewrite E; auto).
      rewrite (run_bind _ _ _ tt w) by (apply run_auth; auto). reflexivity.
    + simpl. apply fget_set_same.
  - exists (CFactUpdate a h 0). eexists. simpl. unfold fact_update. split.
    + rewrite (run_bind _ _ _ tt w) by (apply run_enter; apply (gd_cfact _ G _ _ E)).
      rewrite (run_bind _ _ _ f w) by (unfold get_fact; rewrite E; auto).
      rewrite (run_bind _ _ _ tt w) by (apply run_auth; auto). reflexivity.
    + simpl. apply fget_set_same.
  - exists (CHopUpdate a h). eexists. simpl. unfold hop_update. split.
    + rewrite (run_bind _ _ _ tt w) by (apply run_enter; apply (gd_chop _ G _ _ E)).
      rewrite (run_bind _ _ _ p w) by (unfold get_hop; rewrite E; auto).
      rewrite (run_bind _ _ _ tt w) by (apply run_auth; auto). reflexivity.
    + simpl. apply fget_set_same.
Qed.
Print Assumptions C100_admin_can_replace.

(** ** C101 *)
Theorem C101_tokens_and_traders_keep_their_code H w a : reachable H w ->
  fget a (w_code w) = Some KTok \/ fget a (w_code w) = Some KTrader -> fget a (w_wasm w) = None.
Proof.
  intros R C.
  assert (Q : forall a, fget a (w_wasm w) <> None ->
    fget a (w_code w) <> None /\ fget a (w_code w) <> Some KTok /\ fget a (w_code w) <> Some KTrader).
  { clear a C. revert w R. apply (reach_ind2 H (fun w => forall a, fget a (w_wasm w) <> None ->
      fget a (w_code w) <> None /\ fget a (w_code w) <> Some KTok /\ fget a (w_code w) <> Some KTrader)).
    { intros a N. exfalso. apply N. reflexivity. }
    intros w ev w1 R St IH a N. inversion St as [e k w0 Eh X|]; subst; [|apply IH; exact N].
    pose proof (reach_good _ _ R) as G. destruct (exec_framec _ _ _ _ X G) as [_ [X' _]].
    assert (T : fget a (w_code w) <> None /\ fget a (w_code w) <> Some KTok /\ fget a (w_code w) <> Some KTrader).
    { destruct (replaces k) as [[b h]|] eqn:D.
      - destruct (exec_replaces _ _ _ _ _ _ D X) as [E [_ T]]. rewrite E, fget_set in N.
        destruct (Z.eqb_spec a b); [subst b; exact T|apply IH; exact N].
      - pose proof (exec_same_wasm e k D _ _ _ X) as Q. unfold SameWasm in Q. apply IH. congruence. }
    destruct T as [T1 [T2 T3]]. destruct (fget a (w_code w)) as [kd|] eqn:Ec; [|congruence].
    rewrite (ex_code _ _ X' _ _ Ec). auto. }
  destruct (fget a (w_wasm w)) eqn:E; [|reflexivity]. exfalso.
  destruct (Q a ltac:(congruence)) as [_ [T1 T2]]. destruct C; contradiction.
Qed.
Print Assumptions C101_tokens_and_traders_keep_their_code.

(** ** C102 *)
(** Apart from the pools, no contract can hand over its admin role: whoever is stored at
    initialisation stays admin for ever. *)
Lemma rewards_admin_step e k w w' c r r' : RStep e k w w' c r r' -> r_admin r' = r_admin r.
Proof.
  assert (SH : forall u d x y, shifted u d x y -> r_admin y = r_admin x) by (intros u d x y [[_ ->]| ->]; reflexivity).
  assert (PA : forall c u b w w' x y amt, RPay c u b w w' x y amt -> r_admin y = r_admin x).
  { intros ? ? ? ? ? x y amt P. destruct (rp_eff _ _ _ _ _ _ _ _ P) as [[_ [_ ->]]|[_ [_ [_ ->]]]]; reflexivity. }
  intros St. destruct St.
  - match goal with V : RUpd _ _ _ _ _ _ _ |- _ => eapply SH; apply V end.
  - match goal with V : RUpd _ _ _ _ _ _ _ |- _ => eapply SH; apply V end.
  - match goal with V : RUnbond _ _ _ _ _ _ _ _ _ _ _ _ |- _ => destruct V as [_ _ V1 [w1 [V2 _]]] end.
    rewrite (SH _ _ _ _ V1). eapply PA; eauto.
  - reflexivity.
  - match goal with V : RDist _ _ _ _ _ _ _ _ _ |- _ => rewrite (rd_after _ _ _ _ _ _ _ _ _ V); reflexivity end.
  - eapply PA; eauto.
  - match goal with V : RFund _ _ _ _ _ _ _ _ |- _ => destruct (rf_after _ _ _ _ _ _ _ _ V) as [x [-> _]]; reflexivity end.
  - reflexivity.
Qed.

Lemma hop_keeps H w ev w1 c h : reachable H w -> step H w ev w1 -> fget c (w_hop w) = Some h -> fget c (w_hop w1) = Some h.
Proof.
  intros R St Eh. inversion St as [e k w0 Ehh X|]; subst; [|exact Eh].
  pose proof (reach_good _ _ R) as G. pose proof (gd_chop _ G _ _ Eh) as Hc.
  destruct (exec_framec _ _ _ _ X G) as [G' [X' [_ [_ U]]]].
  destruct (exists_dec_acts k c KHop) as [[T|[T [E|E]]]|N]; [|discriminate..|rewrite (ut_hop _ _ _ (U _ _ Hc N)); exact Eh].
  pose proof (exec_tkind _ _ _ _ _ X T) as TK. rewrite Hc in TK.
  destruct k; simpl in T, TK; inversion T; try discriminate TK; subst; simpl in X; try (apply drop_ok in X; destruct X as [r X]).
  - unfold hop_initialize in X. rstep X. winv. exfalso. unfold fmem in *. rewrite Eh in *. discriminate.
  - pose proof (framek_hop_swap _ _ _ _ _ _ _ _ _ _ _ _ X G) as [_ [_ [_ [_ [_ U']]]]].
    rewrite (ut_hop _ _ _ (U' _ _ Hc ltac:(intros [Q|Q]; discriminate Q))). exact Eh.
  - apply hop_update_ok in X. subst w1. exact Eh.
Qed.

Lemma trader_keeps H w ev w1 c h : reachable H w -> step H w ev w1 -> fget c (w_trader w) = Some h -> fget c (w_trader w1) = Some h.
Proof.
  intros R St Eh. inversion St as [e k w0 Ehh X|]; subst; [|exact Eh].
  pose proof (reach_good _ _ R) as G. pose proof (gd_ctrader _ G _ _ Eh) as Hc.
  destruct (exec_framec _ _ _ _ X G) as [G' [X' [_ [_ U]]]].
  destruct (exists_dec_acts k c KTrader) as [[T|[T [E|E]]]|N]; [|discriminate..|rewrite (ut_trader _ _ _ (U _ _ Hc N)); exact Eh].
  pose proof (exec_tkind _ _ _ _ _ X T) as TK. rewrite Hc in TK.
  destruct k; simpl in T, TK; inversion T; try discriminate TK; subst; simpl in X; try (apply drop_ok in X; destruct X as [r X]).
  - unfold trader_initialize in X. rstep X. winv. exfalso. unfold fmem in *. rewrite Eh in *. discriminate.
  - pose proof (framek_trader_trade _ _ _ _ _ _ _ _ _ _ _ _ _ _ X G) as [_ [_ [_ [_ [_ U']]]]].
    rewrite (ut_trader _ _ _ (U' _ _ Hc ltac:(intros [Q|Q]; discriminate Q))). exact Eh.
  - unfold trader_transfer in X. rstep X. winv. tinv.
    match goal with M : Moved _ _ _ _ _ _ |- _ => rewrite (mv_rest _ _ _ _ _ _ M) end. exact Eh.
Qed.

Theorem C102_admins_are_fixed H w l w' c : reachable H w -> run H w l w' ->
  (forall s, fget c (w_stake w) = Some s -> exists s', fget c (w_stake w') = Some s' /\ s_admin s' = s_admin s /\
     s_manager s' = s_manager s /\ s_owner s' = s_owner s) /\
  (forall r, fget c (w_rewards w) = Some r -> exists r', fget c (w_rewards w') = Some r' /\ r_admin r' = r_admin r) /\
  (forall v, fget c (w_vest w) = Some v -> exists v', fget c (w_vest w') = Some v' /\ v_admin v' = v_admin v) /\
  (forall f, fget c (w_fact w) = Some f -> exists f', fget c (w_fact w') = Some f' /\ f_admin f' = f_admin f) /\
  (forall h, fget c (w_hop w) = Some h -> fget c (w_hop w') = Some h) /\
  (forall d, fget c (w_trader w) = Some d -> fget c (w_trader w') = Some d).
Proof.
  intros R Rn.
  split; [|split; [|split; [|split; [|split]]]].
  - intros s E. apply (run_ind2 H (fun w' => exists s', fget c (w_stake w') = Some s' /\ s_admin s' = s_admin s /\
       s_manager s' = s_manager s /\ s_owner s' = s_owner s)) with (2 := R) (3 := Rn); [|eauto].
    clear R Rn w w' l E. intros w ev w1 R St [s1 [E [A [M O]]]]. inversion St as [e k w0 Eh X|]; subst; [|exists s1; auto].
    destruct (C44_only_manager_or_owner_distributes _ _ _ _ _ _ _ R E X) as [s2 [E2 [[? [? [? [? [? [? ?]]]]]] _]]].
    exists s2. split; [exact E2|]. repeat split; congruence.
  - intros r E. apply (run_ind2 H (fun w' => exists r', fget c (w_rewards w') = Some r' /\ r_admin r' = r_admin r)) with (2 := R) (3 := Rn); [|eauto].
    clear R Rn w w' l E. intros w ev w1 R St [r1 [E A]]. inversion St as [e k w0 Eh X|]; subst; [|exists r1; auto].
    destruct (rewards_step _ _ _ _ _ _ X (reach_good _ _ R) E) as [r2 [E2 V]]. exists r2. split; [exact E2|].
    rewrite (rewards_admin_step _ _ _ _ _ _ _ V). exact A.
  - intros v E. apply (run_ind2 H (fun w' => exists v', fget c (w_vest w') = Some v' /\ v_admin v' = v_admin v)) with (2 := R) (3 := Rn); [|eauto].
    clear R Rn w w' l E. intros w ev w1 R St [v1 [E A]].
    destruct (vest_keeps _ _ _ _ _ _ R St E) as [v2 [E2 [_ [Q _]]]]. exists v2. split; [exact E2|congruence].
  - intros f E. apply (run_ind2 H (fun w' => exists f', fget c (w_fact w') = Some f' /\ f_admin f' = f_admin f)) with (2 := R) (3 := Rn); [|eauto].
    clear R Rn w w' l E. intros w ev w1 R St [f1 [E A]]. inversion St as [e k w0 Eh X|]; subst; [|exists f1; auto].
    destruct (C64_only_whitelisted_create _ _ _ _ _ _ _ R E X) as [f2 [E2 [Q _]]]. exists f2. split; [exact E2|congruence].
  - intros h E. apply (run_ind2 H (fun w' => fget c (w_hop w') = Some h)) with (2 := R) (3 := Rn); [|exact E].
    clear R Rn w w' l E. intros w ev w1 R St E. eapply hop_keeps; eauto.
  - intros h E. apply (run_ind2 H (fun w' => fget c (w_trader w') = Some h)) with (2 := R) (3 := Rn); [|exact E].
    clear R Rn w w' l E. intros w ev w1 R St E. eapply trader_keeps; eauto.
Qed.
Print Assumptions C102_admins_are_fixed.

(** ** C103 *)
(** A deployed contract that has not been initialised can be taken over by anybody: [ad] is chosen
    by the caller and nobody has to sign. *)
Theorem C103_initialisation_is_open H w c ad e : reachable H w -> e_auth e = [] ->
  (fget c (w_code w) = Some KStake -> fget c (w_stake w) = None ->
     exists w', exec e (CStakeInit c ad 0 1 1 ad ad 1) w = Ok (tt, w') /\ admin_is w' c ad) /\
  (fget c (w_code w) = Some KRewards -> fget c (w_rewards w) = None ->
     exists w', exec e (CRewInit c ad 0 0 1 1 1) w = Ok (tt, w') /\ admin_is w' c ad) /\
  (fget c (w_code w) = Some KVest -> fget c (w_vest w) = None ->
     exists w', exec e (CVestInit c ad 0 1 None) w = Ok (tt, w') /\ admin_is w' c ad) /\
  (fget c (w_code w) = Some KHop -> fget c (w_hop w) = None ->
     exists w', exec e (CHopInit c ad 0) w = Ok (tt, w') /\ admin_is w' c ad).
Proof.
  intros R _.
  split; [|split; [|split]]; intros Hc Hn; eexists; simpl;
    match goal with |- ?m _ = _ /\ _ => unfold stake_initialize, rewards_initialize, vest_initialize, hop_initialize end.
  - rewrite (run_bind _ _ _ tt w) by (apply run_enter; auto). rewrite (run_bind _ _ _ w w) by reflexivity.
    rewrite (run_bind _ _ _ tt w) by (apply run_guard; unfold fmem; rewrite Hn; reflexivity).
    do 3 (rewrite (run_bind _ _ _ tt w) by (apply run_guard; reflexivity)).
    split; [reflexivity|]. eapply ai_stake; [simpl; apply fget_set_same|reflexivity].
  - rewrite (run_bind _ _ _ tt w) by (apply run_enter; auto). rewrite (run_bind _ _ _ w w) by reflexivity.
    rewrite (run_bind _ _ _ tt w) by (apply run_guard; unfold fmem; rewrite Hn; reflexivity).
    split; [reflexivity|]. eapply ai_rewards; [simpl; apply fget_set_same|reflexivity].
  - rewrite (run_bind _ _ _ tt w) by (apply run_enter; auto). rewrite (run_bind _ _ _ w w) by reflexivity.
    rewrite (run_bind _ _ _ tt w) by (apply run_guard; unfold fmem; rewrite Hn; reflexivity).
    split; [reflexivity|]. eapply ai_vest; [simpl; apply fget_set_same|reflexivity].
  - rewrite (run_bind _ _ _ tt w) by (apply run_enter; auto). rewrite (run_bind _ _ _ w w) by reflexivity.
    rewrite (run_bind _ _ _ tt w) by (apply run_guard; unfold fmem; rewrite Hn; reflexivity).
    split; [reflexivity|]. eapply ai_hop; [simpl; apply fget_set_same|reflexivity].
Qed.
Print Assumptions C103_initialisation_is_open.
