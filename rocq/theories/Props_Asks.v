(** C177-C183: which signatures each call demands.  [aexec] (Asks.v) is the transaction
    together with the list of its demands; a demand names the signer, the contract that
    invoked the demanding frame ([None] at the root) and the call, with all its arguments,
    to which the host binds the signature. *)
From Coq Require Import ZArith List Bool Lia.
From Coq Require Import ZifyBool.
From Verif Require Import Base FMap Decimal DecimalProofs Curve World Token TokenProofs Frame Stake Pool PoolProofs
  Stable StableProofs Rewards Vest Factory Router System SysFrame SysInv SysPool SysStable SysSupply
  SysVest SysStake SysRewards SysFact Script Runs Props_Token Props_Pool Props_Stable Props_Vest Props_Stake Props_Rewards Props_Live
  Props_LiveTok Props_LiveStable Props_LiveStake Props_Factory Props_LiveFact Props_LiveVest Props_LiveMisc Props_Router Props_Calls Props_Effects
  Props_Effects2 Props_Upgrade Asks AsksErase AsksExact.
Import ListNotations.
Open Scope list_scope.
Open Scope Z_scope.

(** ** C177: exactly the recorded signatures are needed *)
Theorem C177_recording_changes_nothing e k w w' :
  exec e k w = Ok (tt, w') <-> exists D, aexec e k (w, []) = Ok (tt, (w', D)).
Proof. split; [apply exec_aexec | intros [D X]; eapply aexec_exec; eauto]. Qed.
Print Assumptions C177_recording_changes_nothing.

Lemma signed_in e D : signed e D = true <-> forall x, In x D -> signs e (k_who x) = true.
Proof. unfold signed. apply forallb_forall. Qed.

(** whoever else signs or does not sign: the call succeeds if and only if all the recorded
    signers have signed, and then with the same result and the same demands *)
Theorem C177_exact_signers e e' k w w' D : aexec e k (w, []) = Ok (tt, (w', D)) -> e_hash e' = e_hash e ->
  ((exists w2, exec e' k w = Ok (tt, w2)) <-> (forall x, In x D -> signs e' (k_who x) = true)) /\
  (forall w2 D2, aexec e' k (w, []) = Ok (tt, (w2, D2)) -> w2 = w' /\ D2 = D).
Proof.
  intros X HH. pose proof (aexec_asks e e' k HH w []) as A. rewrite (aexec_exec _ _ _ _ _ X) in A.
  destruct A as [D0 [E [S0 A]]]. rewrite X in E. injection E as E. change ([] ++ D0) with D0 in *. subst D0.
  rewrite <- signed_in. destruct (signed e' D).
  - split.
    + split; auto. intros _. exists w'. eapply aexec_exec; eauto.
    + intros w2 D2 Y. rewrite A in Y. inversion Y; auto.
  - destruct A as [x A]. split.
    + split; [|discriminate]. intros [w2 Y]. apply exec_aexec in Y. destruct Y as [D2 Y]. rewrite A in Y. discriminate.
    + intros w2 D2 Y. rewrite A in Y. discriminate.
Qed.
Print Assumptions C177_exact_signers.

(** ** C178: the demands of every call *)
(** contract [c] demands that [u] sign a transfer of its tokens to [c] *)
Definition pay (c u t x : Z) : Ask := mkAsk u (Some c) (CTransfer t u c x).

(** calls that demand nothing *)
Definition free (k : Call) : bool :=
  match k with
  | CDeploy _ _ | CDeployTok _ _ _ | CPoolInit _ _ _ _ _ _ | CStableInit _ _ _ _ _ | CStakeInit _ _ _ _ _ _ _ _
  | CRewInit _ _ _ _ _ _ _ | CVestInit _ _ _ _ _ | CFactInit _ _ _ _ _ _ _ _ | CHopInit _ _ _
  | CStableConfig _ _ _ _ _ _ _ | CWithdrawRewards _ _ => true
  | _ => false
  end.

(** calls that demand one signature only: of an address among the arguments, or of the
    administrator (for the rewards contract: the staking address) on record *)
Definition single (w : World) (k : Call) (u : Addr) : Prop :=
  match k with
  | CApprove _ f _ _ _ | CTransfer _ f _ _ | CBurn _ f _ => u = f
  | CTransferFrom _ s _ _ _ | CBurnFrom _ s _ _ => u = s
  | CMint t _ _ | CSetAdmin t _ => tadmin w t = Some u
  | CPoolConfig p _ _ _ _ _ _ | CPoolUpdate p _ | CPoolUpgrade p _ _ => exists q, pool_at w p q /\ u = p_admin q
  | CStableUpgrade p _ => exists q, stable_at w p q /\ u = l_admin q
  | CUnbond _ v _ _ | CFlow _ v _ => u = v
  | CStakeUpdate c _ => exists s, stake_at w c s /\ u = s_admin s
  | CRewAddUser c _ _ | CRewBond c _ _ | CRewDistribute c _ | CRewWithdraw c _ _ =>
      exists r, rewards_at w c r /\ u = r_staking r
  | CRewUpdate c _ => exists r, rewards_at w c r /\ u = r_admin r
  | CVestClaim _ v _ | CVestMinter _ v _ | CVestCapacity _ v _ => u = v
  | CVestUpdate c _ => exists v, vest_at w c v /\ u = v_admin v
  | CCreate _ v _ _ _ _ _ | CWhitelist _ v _ _ => u = v
  | CHashes f _ _ _ | CFactUpdate f _ _ => exists g, fact_at w f g /\ u = f_admin g
  | CHopUpdate h _ => exists g, fget h (w_hop w) = Some g /\ u = h_admin g
  | CTraderInit _ a _ _ _ => u = a
  | CTraderTransfer _ v _ _ _ => u = v
  | _ => False
  end.

(** the demands along a route: for every leg the swap and the transfer of what the leg
    before it has returned *)
Inductive RouteAsks (e : Env) (h f u : Addr) (ms dl mf : option Z) : list SwapOp -> Z -> World -> list Ask -> Prop :=
| ra_nil x w : RouteAsks e h f u ms dl mf [] x w []
| ra_cons o ops p k x y w w1 D : fact_pool_by_pair f (o_offer o) (o_ask o) w = Ok (p, w) ->
    (k = CPoolSwap p u (o_offer o) x (o_min o) ms dl mf /\ pool_swap e None p u (o_offer o) x (o_min o) ms dl mf w = Ok (y, w1) \/
     k = CStableSwap p u (o_offer o) x (o_min o) ms dl mf /\ stable_swap e None p u (o_offer o) x (o_min o) ms dl mf w = Ok (y, w1)) ->
    RouteAsks e h f u ms dl mf ops y w1 D ->
    RouteAsks e h f u ms dl mf (o :: ops) x w (mkAsk u (Some h) k :: pay p u (o_offer o) x :: D).

Inductive Demands (e : Env) (w : World) (k : Call) : list Ask -> Prop :=
| dm_free : free k = true -> Demands e w k []
| dm_single u : single w k u -> Demands e w k [mkAsk u None k]
| dm_swap p u o x mi ms dl mf : k = CPoolSwap p u o x mi ms dl mf \/ k = CStableSwap p u o x mi ms dl mf ->
    Demands e w k [mkAsk u None k; pay p u o x]
| dm_deposit p q u xa ma xb mb cu dl a b : k = CPoolProvide p u (Some xa) ma (Some xb) mb cu dl -> pool_at w p q ->
    (p_total q = 0 -> a = xa /\ b = xb) ->
    (p_total q <> 0 -> a = Z.min xa (xb * p_ra q / p_rb q) /\ b = Z.min xb (xa * p_rb q / p_ra q)) ->
    Demands e w k [mkAsk u None k; pay p u (p_ta q) a; pay p u (p_tb q) b]
| dm_stable_deposit p q u a b cu dl ms : k = CStableProvide p u a b cu dl ms -> stable_at w p q ->
    Demands e w k [mkAsk u None k; pay p u (l_ta q) a; pay p u (l_tb q) b]
| dm_withdraw p q u s a b dl : k = CPoolWithdraw p u s a b dl -> pool_at w p q ->
    Demands e w k [mkAsk u None k; pay p u (p_share q) s]
| dm_stable_withdraw p q u s a b dl : k = CStableWithdraw p u s a b dl -> stable_at w p q ->
    Demands e w k [mkAsk u None k; pay p u (l_share q) s]
| dm_bond c s u x : k = CBond c u x -> stake_at w c s -> Demands e w k [mkAsk u None k; pay c u (s_lp s) x]
| dm_distribute c u x t : k = CDistribute c u x t -> Demands e w k [mkAsk u None k; pay c u t x]
| dm_rew_unbond c r u b x l : k = CRewUnbond c u b x -> rewards_at w c r -> (l = [] \/ l = [mkAsk (r_staking r) None k]) ->
    Demands e w k (mkAsk u None k :: mkAsk (r_staking r) None k :: l)
| dm_fund c r s d x : k = CRewFund c s d x -> rewards_at w c r ->
    Demands e w k [mkAsk (r_admin r) None k; mkAsk (r_staking r) None k; pay c (r_admin r) (r_token r) x]
| dm_vest_create c v l x : k = CVestCreate c l -> vest_at w c v ->
    x = sum_of (fun uc => match cvalue (snd uc) 0 with Ok T => T | Err _ => 0 end) l ->
    Demands e w k [mkAsk (v_admin v) None k; pay c (v_admin v) (v_token v) x]
| dm_vest_burn c v u x y : k = CVestBurn c u x -> vest_at w c v -> (0 <= x <= U128_MAX -> y = x) ->
    Demands e w k [mkAsk u None k; mkAsk u (Some c) (CBurn (v_token v) u y)]
| dm_vest_mint c v u x a : k = CVestMint c u x -> vest_at w c v -> tadmin w (v_token v) = Some a ->
    Demands e w k (mkAsk u None k :: if a =? c then [] else [mkAsk a (Some c) (CMint (v_token v) c x)])
| dm_route h d u ops ms x dl mf D : k = CHopSwap h u ops ms x dl mf -> fget h (w_hop w) = Some d ->
    RouteAsks e h (h_fact d) u ms dl mf ops x w D ->
    Demands e w k (mkAsk u None k :: D).

Lemma adrop_ok {A} (m : AST A) s u s' : a_drop m s = Ok (u, s') -> exists a, m s = Ok (a, s').
Proof. unfold a_drop. intros X. apply mbind_ok in X. destruct X as [a [s1 [X Y]]]. inversion Y; subst. eauto. Qed.

Lemma asks_ok {A} e (m : AST A) m' m0 w l a w' l' : @asks e e A m m' m0 -> m (w, l) = Ok (a, (w', l')) -> m0 w = Ok (a, w').
Proof.
  intros E X. specialize (E w l). destruct (m0 w) as [[b w1]|x].
  - destruct E as [D [E _]]. rewrite X in E. inversion E; subst. reflexivity.
  - congruence.
Qed.

Lemma a_swap_caller e h p u o x mi ms dl mf w l r w' l' : signs e u = true -> 0 <= p -> h <> u ->
  a_pool_swap e (Some h) p u o x mi ms dl mf (w, l) = Ok (r, (w', l')) ->
  pool_swap e None p u o x mi ms dl mf w = Ok (r, w') /\
  l' = l ++ [mkAsk u (Some h) (CPoolSwap p u o x mi ms dl mf); pay p u o x].
Proof.
  intros S0 Pp Nh X. assert (Np : u <> p) by (intros ->; rewrite signs_neg in S0; [discriminate|lia]). split.
  - pose proof (asks_ok _ _ _ _ _ _ _ _ _ (k_pool_swap eq_refl (Some h) p u o x mi ms dl mf) X) as Y. revert Y.
    unfold pool_swap, require_auth, authed. rewrite S0. simpl orb. auto.
  - apply ax_pool_swap in X. simpl in X. rewrite X. unfold moving. simpl.
    rewrite (asked_of u h) by congruence. rewrite (asked_of u p) by congruence. reflexivity.
Qed.
Lemma a_stable_swap_caller e h p u o x mi ms dl mf w l r w' l' : signs e u = true -> 0 <= p -> h <> u ->
  a_stable_swap e (Some h) p u o x mi ms dl mf (w, l) = Ok (r, (w', l')) ->
  stable_swap e None p u o x mi ms dl mf w = Ok (r, w') /\
  l' = l ++ [mkAsk u (Some h) (CStableSwap p u o x mi ms dl mf); pay p u o x].
Proof.
  intros S0 Pp Nh X. assert (Np : u <> p) by (intros ->; rewrite signs_neg in S0; [discriminate|lia]). split.
  - pose proof (asks_ok _ _ _ _ _ _ _ _ _ (k_stable_swap eq_refl (Some h) p u o x mi ms dl mf) X) as Y. revert Y.
    unfold stable_swap, require_auth, authed. rewrite S0. simpl orb. auto.
  - apply ax_stable_swap in X. simpl in X. rewrite X. unfold moving. simpl.
    rewrite (asked_of u h) by congruence. rewrite (asked_of u p) by congruence. reflexivity.
Qed.

Lemma hop_asks e h f u ms dl mf ops : signs e u = true -> h <> u -> forall x w l r w' l', Good w ->
  a_hop_swaps e h f u ops x ms dl mf (w, l) = Ok (r, (w', l')) ->
  exists d, l' = l ++ d /\ RouteAsks e h f u ms dl mf ops x w d.
Proof.
  intros S0 Nh. induction ops as [|o ops IH]; intros x w l r w' l' G X.
  - inversion X; subst. exists []. split; [now rewrite app_nil_r|constructor].
  - cbn [a_hop_swaps] in X. apply mbind_ok in X. destruct X as [p [[w1 l1] [Q X]]].
    apply af_ok in Q. destruct Q as [w2 [Q E]]. pose proof (pure_fact_pool_by_pair _ _ _ _ _ _ Q). subst w2. inversion E; subst w1 l1; clear E.
    apply mbind_ok in X. destruct X as [y [[w1 l1] [D X]]].
    pose proof (asks_ok _ _ _ _ _ _ _ _ _ (k_any_swap eq_refl _ _ _ _ _ _ _ _ _) D) as D0.
    pose proof (framek_any_swap _ _ _ _ _ _ _ _ _ _ _ _ _ D0 G) as [G' _].
    apply IH in X; [|exact G']. destruct X as [d2 [-> L2]].
    unfold a_any_swap in D. apply mbind_ok in D. destruct D as [w0 [[w2 l2] [E D]]]. inversion E; subst w0 w2 l2; clear E.
    destruct (fget p (w_code w)) as [[]|] eqn:C; try discriminate; pose proof (gd_pos _ G _ _ C) as Pp.
    + apply a_swap_caller in D; auto. destruct D as [D ->]. eexists. rewrite <- app_assoc. split; [reflexivity|].
      eapply (ra_cons _ _ _ _ _ _ _ _ _ p); [exact Q|left; split; [reflexivity|exact D]|exact L2].
    + apply a_stable_swap_caller in D; auto. destruct D as [D ->]. eexists. rewrite <- app_assoc. split; [reflexivity|].
      eapply (ra_cons _ _ _ _ _ _ _ _ _ p); [exact Q|right; split; [reflexivity|exact D]|exact L2].
Qed.

Lemma moving_root self u k l : u <> self -> moving self u k None l = mkAsk u None k :: map (fun x => pay self u (fst x) (snd x)) l.
Proof.
  intros N. unfold moving. rewrite asked_root. simpl. f_equal.
  induction l as [|x l IH]; simpl; auto. rewrite asked_of by auto. simpl. now rewrite IH.
Qed.

Ltac one X := ainv X; rewrite ?app_nil_l; rewrite ?asked_root, ?asked_self; eapply dm_single; simpl; eauto.

Lemma deposit_amt H w e self p u xa mina xb minb custom dl w' a b : reachable H w -> pool_at w self p ->
  pool_provide e None self u (Some xa) mina (Some xb) minb custom dl w = Ok (tt, w') ->
  deposit_amounts xa mina xb minb (p_ra p) (p_rb p) (dec_bps (match custom with Some s => s | None => p_defslip p end)) = Ok (a, b) ->
  (p_total p = 0 -> a = xa /\ b = xb) /\
  (p_total p <> 0 -> a = Z.min xa (xb * p_ra p / p_rb p) /\ b = Z.min xb (xa * p_rb p / p_ra p)).
Proof.
  intros R Hp X DA. pose proof (reach_good _ _ R) as G.
  pose proof (gd_cpool _ G _ _ Hp) as Hc. pose proof (reach_pool _ _ R _ _ Hp) as I.
  destruct (C153_deposit_effect _ _ _ _ _ _ _ _ _ _ _ _ _ R Hp X) as [xa1 [xb1 [a1 [b1 [n1 [lk [E1 [E2 [F1 [F2 [Ep _]]]]]]]]]]].
  inversion E1; inversion E2; subst xa1 xb1.
  apply pool_provide_ok in X. destruct X as [Tm [Au [_ [p0 [xa0 [xb0 [a0 [b0 [w1 [w2 [w4 E]]]]]]]]]]].
  assert (Ns : u <> self) by (eapply (sender_not_self H w e None self); [exact R|exact Hc|discriminate|exact Au]).
  destruct E as [Ep0 _ Eda Edb _ En Ea Eb [n [Ep' Hn]] Ee].
  unfold pool_at in *. rewrite Hp in Ep0. inversion Ep0; subst p0. inversion Eda; inversion Edb; subst xa0 xb0.
  unfold opt_or in En. rewrite DA in En. inversion En; subst a0 b0.
  pose proof (pi_ord _ _ _ I) as Hord.
  assert (B2 : forall t x, bal w2 t x = bal w t x
      - ind ((t =? p_ta p) && (x =? u)) a + ind ((t =? p_ta p) && (x =? self)) a
      - ind ((t =? p_tb p) && (x =? u)) b + ind ((t =? p_tb p) && (x =? self)) b).
  { intros t x. rewrite (mv_bal _ _ _ _ _ _ Eb), (mv_bal _ _ _ _ _ _ Ea). lia. }
  assert (Ba : bal w2 (p_ta p) self = bal w (p_ta p) self + a).
  { rewrite B2. destruct (Z.eqb_spec (p_ta p) (p_tb p)); [lia|].
    destruct (Z.eqb_spec self u); [congruence|]. rewrite !Z.eqb_refl. unfold ind. simpl. lia. }
  assert (Bb : bal w2 (p_tb p) self = bal w (p_tb p) self + b).
  { rewrite B2. destruct (Z.eqb_spec (p_tb p) (p_ta p)); [lia|].
    destruct (Z.eqb_spec self u); [congruence|]. rewrite !Z.eqb_refl. unfold ind. simpl. lia. }
  rewrite Ep in Ep'. inversion Ep'. assert (a1 = a) by lia. assert (b1 = b) by lia. subst a1 b1.
  split; [intros Q; destruct (F1 Q) as [Q1 [Q2 _]]|intros Q; destruct (F2 Q) as [Q1 [Q2 _]]]; auto.
Qed.

Lemma vest_total H w e self v v' l n w' : reachable H w -> vest_at w self v -> vest_create e None self l w = Ok (tt, w') ->
  create_all v l 0 = Ok (v', n) -> n = sum_of (fun uc => match cvalue (snd uc) 0 with Ok T => T | Err _ => 0 end) l.
Proof.
  intros R E X C. pose proof (reach_good _ _ R) as G. pose proof (gd_cvest _ G _ _ E) as Hc.
  destruct (C155_creation_effect _ _ _ _ _ _ _ R E X) as [_ [_ [_ [_ [B _]]]]].
  apply vest_create_ok in X. destruct X as [v0 [v1 [tot [B1 B2 B3 B4 B5 B6 B7 M Ev']]]].
  unfold vest_at in E. rewrite E in B2. inversion B2; subst v0. rewrite C in B7. inversion B7; subst v1 tot.
  assert (Ns : v_admin v <> self) by (eapply (sender_not_self H w e None self); [exact R|exact Hc|discriminate|exact B4]).
  specialize (B (v_token v) self). rewrite (mv_bal _ _ _ _ _ _ M) in B. rewrite Z.eqb_refl in B.
  destruct (Z.eqb_spec self (v_admin v)); [congruence|]. rewrite Z.eqb_refl in B. unfold ind, on in B. simpl in B.
  change (bal (set_vest w (fset self v' (w_vest w))) (v_token v) self) with (bal w (v_token v) self) in B. lia.
Qed.

Theorem C178_demands H w e k w' D : reachable H w -> aexec e k (w, []) = Ok (tt, (w', D)) -> Demands e w k D.
Proof.
  intros R X. pose proof (reach_good _ _ R) as G. pose proof (aexec_exec _ _ _ _ _ X) as X0.
  assert (NS : forall c K v, fget c (w_code w) = Some K -> In (mkAsk v None k) D -> v <> c).
  { intros c K v C I ->. destruct (C177_exact_signers e e k w w' D X eq_refl) as [[Q _] _].
    specialize (Q (ex_intro _ _ X0) _ I). cbn [k_who] in Q. rewrite (signs_neg _ _ (gd_pos _ G _ _ C)) in Q. discriminate. }
  destruct k; try (simpl in X; apply af_ok in X; destruct X as [w2 [X Y]]; inversion Y; subst; now apply dm_free).
  all: cbn [aexec] in X; try (apply adrop_ok in X; destruct X as [ret X]); cbn [exec] in X0.
  - unfold a_mint in X. one X. unfold tadmin. match goal with K : fget t (w_tok _) = _ |- _ => rewrite K end. reflexivity.
  - unfold a_set_admin in X. one X. unfold tadmin. match goal with K : fget t (w_tok _) = _ |- _ => rewrite K end. reflexivity.
  - unfold a_approve in X. one X.
  - apply ax_transfer in X. destruct X as [w1 [_ X]]. inversion X. eapply dm_single. reflexivity.
  - unfold a_transfer_from in X. one X.
  - apply ax_burn in X. destruct X as [w1 [_ X]]. inversion X. eapply dm_single. reflexivity.
  - unfold a_burn_from in X. one X.
  - (* provide *) 
    assert (exists q, fget p (w_pool w) = Some q) as [q Q] by (unfold a_pool_provide in X; ainv X; eauto).
    pose proof (reach_pool _ _ R _ _ Q) as I.
    destruct (ax_pool_provide _ _ _ _ _ _ _ _ _ _ _ _ _ _ X Q (pi_adm _ _ _ I)) as [xa [xb [a [b [-> [-> [DA E]]]]]]].
    simpl snd in E. simpl app in E. subst D.
    assert (N : u <> p) by (eapply NS; [apply (gd_cpool _ G _ _ Q)|left; reflexivity]).
    rewrite moving_root by exact N.
    destruct (deposit_amt _ _ _ _ _ _ _ _ _ _ _ _ _ _ _ R Q X0 DA) as [F1 F2].
    eapply dm_deposit; eauto.
  - 
    assert (exists q, fget p (w_pool w) = Some q) as [q Q] by (unfold a_pool_swap, a_do_swap in X; ainv X; eauto).
    apply ax_pool_swap in X. simpl snd in X. simpl app in X. subst D.
    rewrite moving_root by (eapply NS; [apply (gd_cpool _ G _ _ Q)|left; reflexivity]).
    eapply dm_swap; eauto.
  - destruct (ax_pool_withdraw _ _ _ _ _ _ _ _ _ _ _ _ X) as [q [Q E]]. simpl in E. subst D.
    rewrite moving_root by (eapply NS; [apply (gd_cpool _ G _ _ Q)|left; reflexivity]).
    eapply dm_withdraw; eauto.
  - unfold a_pool_update_config in X. one X.
  - unfold a_pool_update in X. one X.
  - unfold a_pool_upgrade in X. one X.
  - assert (exists q, fget p (w_stable w) = Some q) as [q Q] by (unfold a_stable_provide in X; ainv X; eauto).
    pose proof (reach_stable _ _ R _ _ Q) as I.
    pose proof (ax_stable_provide _ _ _ _ _ _ _ _ _ _ _ _ _ X Q (li_adm _ _ _ I)) as E. simpl in E. subst D.
    rewrite moving_root by (eapply NS; [apply (gd_cstable _ G _ _ Q)|left; reflexivity]).
    eapply dm_stable_deposit; eauto.
  - assert (exists q, fget p (w_stable w) = Some q) as [q Q] by (unfold a_stable_swap, a_stable_do_swap in X; ainv X; eauto).
    apply ax_stable_swap in X. simpl snd in X. simpl app in X. subst D.
    rewrite moving_root by (eapply NS; [apply (gd_cstable _ G _ _ Q)|left; reflexivity]).
    eapply dm_swap; eauto.
  - destruct (ax_stable_withdraw _ _ _ _ _ _ _ _ _ _ _ _ X) as [q [Q E]]. simpl in E. subst D.
    rewrite moving_root by (eapply NS; [apply (gd_cstable _ G _ _ Q)|left; reflexivity]).
    eapply dm_stable_withdraw; eauto.
  - unfold a_stable_upgrade in X. one X.
  - destruct (ax_bond _ _ _ _ _ _ _ _ X) as [s [Q E]]. simpl in E. subst D.
    rewrite moving_root by (eapply NS; [apply (gd_cstake _ G _ _ Q)|left; reflexivity]).
    eapply dm_bond; eauto.
  - apply ax_unbond in X. simpl in X. subst D. eapply dm_single. reflexivity.
  - apply ax_flow in X. simpl in X. subst D. eapply dm_single. reflexivity.
  - assert (exists q, fget k (w_stake w) = Some q) as [q Q] by (unfold a_stake_distribute in X; ainv X; eauto).
    apply ax_distribute in X. simpl snd in X. simpl app in X. subst D.
    rewrite moving_root by (eapply NS; [apply (gd_cstake _ G _ _ Q)|left; reflexivity]).
    eapply dm_distribute; eauto.
  - apply ax_withdraw_rewards in X. simpl in X. subst D. now apply dm_free.
  - unfold a_stake_update in X. one X.
  - unfold a_rewards_add_user in X. one X.
  - unfold a_rewards_bond in X. one X.
  - destruct (ax_rewards_unbond _ _ _ _ _ _ _ _ _ X) as [q [n [Q [N E]]]]. simpl snd in E. simpl app in E. subst D.
    destruct N; subst n; simpl; eapply dm_rew_unbond; eauto.
  - destruct (ax_rewards_distribute _ _ _ _ _ _ _ X) as [q [Q E]]. simpl in E. subst D. eapply dm_single. simpl. eauto.
  - destruct (ax_rewards_withdraw _ _ _ _ _ _ _ _ _ X) as [q [Q E]]. simpl in E. subst D. eapply dm_single. simpl. eauto.
  - destruct (ax_rewards_fund _ _ _ _ _ _ _ _ _ X) as [q [Q E]]. simpl snd in E. simpl app in E. subst D.
    rewrite asked_of by (eapply NS; [apply (gd_crewards _ G _ _ Q)|left; reflexivity]).
    eapply dm_fund; eauto.
  - unfold a_rewards_update in X. one X.
  - destruct (ax_vest_create _ _ _ _ _ _ _ X) as [q [q' [n [Q [C E]]]]]. simpl snd in E. simpl app in E. subst D.
    rewrite moving_root by (eapply NS; [apply (gd_cvest _ G _ _ Q)|left; reflexivity]).
    eapply dm_vest_create; eauto. eapply vest_total; eauto.
  - apply ax_vest_claim in X. simpl in X. subst D. eapply dm_single. reflexivity.
  - destruct (ax_vest_burn _ _ _ _ _ _ _ _ X) as [q [Q E]]. simpl snd in E. simpl app in E. subst D.
    rewrite asked_of by (eapply NS; [apply (gd_cvest _ G _ _ Q)|left; reflexivity]).
    eapply dm_vest_burn; eauto. intros Ra.
    destruct (proj1 (C149_vest_burn _ _ e R _ _ u amt Q Ra) (ex_intro _ _ X0)) as [_ [_ F2]].
    eapply wrap_small; [lia|exact F2|]. apply (good_bal w (v_token q) u G).
  - destruct (ax_vest_mint _ _ _ _ _ _ _ _ X) as [q [t [Q [T E]]]]. simpl snd in E. simpl app in E. subst D.
    assert (TA : tadmin w (v_token q) = Some (t_admin t)) by (unfold tadmin; rewrite T; reflexivity).
    unfold asked. simpl. rewrite Z.eqb_sym. eapply (dm_vest_mint _ _ _ _ _ _ _ _ eq_refl Q TA).
  - unfold a_vest_update_minter in X. one X.
  - unfold a_vest_update_capacity in X. one X.
  - unfold a_vest_update in X. one X.
  - unfold a_fact_create in X. destruct ty; one X.
  - unfold a_fact_update_whitelist in X. one X.
  - unfold a_fact_update_hashes in X. one X.
  - unfold a_fact_update in X. one X.
  - assert (exists d, fget h (w_hop w) = Some d) as [d Q] by (unfold a_hop_swap in X; ainv X; eauto).
    assert (Au : signs e u = true) by (unfold a_hop_swap in X; ainv X; rewrite <- authed_none; assumption).
    assert (Nh : h <> u) by (intros ->; rewrite (signs_neg _ _ (gd_pos _ G _ _ (gd_chop _ G _ _ Q))) in Au; discriminate).
    unfold a_hop_swap in X. ainv X.
    match goal with K : fget h (w_hop w) = Some ?q |- _ => assert (q = d) by congruence; subst q end.
    apply hop_asks in X; auto. destruct X as [D0 [-> RA]]. simpl. eapply dm_route; eauto.
  - unfold a_hop_update in X. one X.
  - unfold a_trader_initialize in X. one X.
  - exfalso. apply drop_ok in X0. destruct X0 as [r X0]. eapply C70_trade_never_succeeds; eauto.
  - unfold a_trader_transfer in X. one X.
Qed.
Print Assumptions C178_demands.

(** ** C182: what a contract may have somebody sign *)
(** Below the root call: only transfers from the signer to the contract that asks; the burn the
    signer asked the vesting contract for; the mint a minter asked the vesting contract for, if
    the token's administrator is somebody else; and the swaps of a route. *)
Definition harmless (k : Call) (x : Ask) (c : Addr) : Prop :=
  match k_call x with
  | CTransfer t f to amt => f = k_who x /\ to = c
  | CBurn t f amt => f = k_who x /\ exists y, k = CVestBurn c f y
  | CMint t to amt => to = c /\ exists u, k = CVestMint c u amt
  | CPoolSwap p u _ _ _ ms dl mf | CStableSwap p u _ _ _ ms dl mf => u = k_who x /\ exists ops amt, k = CHopSwap c u ops ms amt dl mf
  | _ => False
  end.

Lemma route_harmless e h f u ms dl mf ops0 amt ops x w D : RouteAsks e h f u ms dl mf ops x w D ->
  forall a c, In a D -> k_from a = Some c -> harmless (CHopSwap h u ops0 ms amt dl mf) a c.
Proof.
  induction 1 as [|o ops p k x y w w1 D Q K RA IH]; simpl; [tauto|].
  intros a c [<-|[<-|I]] F; simpl in F.
  - inversion F; subst c. destruct K as [[-> _]|[-> _]]; unfold harmless; simpl; eauto.
  - inversion F; subst c. unfold harmless. simpl. auto.
  - eauto.
Qed.

Theorem C182_only_pulled_to_itself H w e k w' D a c : reachable H w -> aexec e k (w, []) = Ok (tt, (w', D)) ->
  In a D -> k_from a = Some c -> harmless k a c.
Proof.
  intros R X I F. destruct (C178_demands _ _ _ _ _ _ R X); simpl in I;
    repeat (destruct I as [<-|I]; [try discriminate F; simpl in F; inversion F; subst; unfold harmless; simpl; eauto|]); try tauto.
  - match goal with L : l = [] \/ _ |- _ => destruct L as [->| ->] end; simpl in I; [tauto|]. destruct I as [<-|[]]. discriminate F.
  - destruct (a0 =? c0); simpl in I; [tauto|]. destruct I as [<-|[]]. simpl in F. inversion F; subst. unfold harmless. simpl. eauto.
  - subst k. eapply route_harmless; eauto.
Qed.
Print Assumptions C182_only_pulled_to_itself.

(** ** C183: who may be asked *)
(** A call demands no signature at all exactly if it is one of the eleven free calls. *)
Theorem C183_unsigned_calls H w e k w' D : reachable H w -> aexec e k (w, []) = Ok (tt, (w', D)) ->
  if free k then D = [] else exists u l, D = mkAsk u None k :: l.
Proof.
  intros R X. destruct (C178_demands _ _ _ _ _ _ R X); try (rewrite H0); auto;
    try (subst k; simpl; eauto; fail).
  - destruct k; simpl in H0; try contradiction; simpl; eauto.
  - destruct H0; subst k; simpl; eauto.
Qed.
Print Assumptions C183_unsigned_calls.

(** Nobody else is asked than the root signer, except in three calls: unbonding in and funding the
    rewards contract also demand its staking address, and minting through the vesting contract
    also demands the token's administrator. *)
Lemma route_who e h f u ms dl mf ops x w D : RouteAsks e h f u ms dl mf ops x w D -> forall a, In a D -> k_who a = u.
Proof. induction 1; simpl; [tauto|]. intros a [<-|[<-|I]]; auto. Qed.
Theorem C183_third_parties H w e k w' u l a : reachable H w -> aexec e k (w, []) = Ok (tt, (w', mkAsk u None k :: l)) ->
  In a l -> k_who a <> u ->
  (exists c r v b x, k = CRewUnbond c v b x /\ rewards_at w c r /\ k_who a = r_staking r) \/
  (exists c r s d x, k = CRewFund c s d x /\ rewards_at w c r /\ k_who a = r_staking r) \/
  (exists c v s x, k = CVestMint c s x /\ vest_at w c v /\ tadmin w (v_token v) = Some (k_who a)).
Proof.
  intros R X I N. pose proof (C178_demands _ _ _ _ _ _ R X) as Q. inversion Q; subst; simpl in I;
    repeat (match type of I with _ \/ _ => destruct I as [<-|I]; [simpl in N; try (exfalso; apply N; reflexivity)|] end); try tauto.
  - left. do 5 eexists. split; [reflexivity|]. split; [eassumption|]. reflexivity.
  - left. match goal with L : _ = [] \/ _ |- _ => destruct L as [->| ->] end; simpl in I; [tauto|]. destruct I as [<-|[]]. do 5 eexists. split; [reflexivity|]. split; [eassumption|]. reflexivity.
  - right. left. do 5 eexists. split; [reflexivity|]. split; [eassumption|]. reflexivity.
  - right. right. destruct (a0 =? c); simpl in I; [tauto|]. destruct I as [<-|[]]. do 4 eexists. split; [reflexivity|]. split; [eassumption|]. assumption.
  - exfalso. apply N. eapply route_who; eauto.
Qed.
Print Assumptions C183_third_parties.

(** ** C179: signatures that stay good *)
(** The calls whose demands do not depend on prices or on a role that can be handed over. *)
Definition lasting (k : Call) : bool :=
  match k with
  | CMint _ _ _ | CSetAdmin _ _ | CPoolConfig _ _ _ _ _ _ _ | CPoolUpdate _ _ | CPoolUpgrade _ _ _
  | CStableUpgrade _ _ | CVestMint _ _ _ | CRewUnbond _ _ _ _ => false
  | CPoolProvide _ _ _ _ _ _ _ _ => false
  | CHopSwap _ _ ops _ _ _ _ => match ops with [_] => true | _ => false end
  | CVestBurn _ _ x => (0 <=? x) && (x <=? U128_MAX)
  | _ => true
  end.

Record Kept (w w2 : World) : Prop := {
  kp_pool : forall c p, pool_at w c p -> exists p', pool_at w2 c p' /\ SameIds p p';
  kp_stable : forall c p, stable_at w c p -> exists p', stable_at w2 c p' /\ SameIdsL p p';
  kp_stake : forall c s, stake_at w c s -> exists s', stake_at w2 c s' /\ s_lp s' = s_lp s /\ s_admin s' = s_admin s;
  kp_rew : forall c r, rewards_at w c r -> exists r', rewards_at w2 c r' /\ r_admin r' = r_admin r /\ r_staking r' = r_staking r /\ r_token r' = r_token r;
  kp_vest : forall c v, vest_at w c v -> exists v', vest_at w2 c v' /\ v_admin v' = v_admin v /\ v_token v' = v_token v;
  kp_fact : forall c f, fact_at w c f -> exists f', fact_at w2 c f' /\ f_admin f' = f_admin f /\ incl (f_lps f) (f_lps f');
  kp_hop : forall c h, fget c (w_hop w) = Some h -> fget c (w_hop w2) = Some h;
  kp_tokens : forall p t, pool_tokens w p = Some t -> pool_tokens w2 p = Some t;
  kp_code : forall c k, fget c (w_code w) = Some k -> fget c (w_code w2) = Some k }.

Lemma rewards_ids_step e k w w' c r r' : SysRewards.RStep e k w w' c r r' -> r_staking r' = r_staking r /\ r_token r' = r_token r.
Proof.
  assert (SH : forall u d x y, shifted u d x y -> r_staking y = r_staking x /\ r_token y = r_token x) by (intros u d x y [[_ ->]| ->]; split; reflexivity).
  assert (PA : forall c u b w w' x y amt, RPay c u b w w' x y amt -> r_staking y = r_staking x /\ r_token y = r_token x).
  { intros ? ? ? ? ? x y amt P. destruct (rp_eff _ _ _ _ _ _ _ _ P) as [[_ [_ ->]]|[_ [_ [_ ->]]]]; split; reflexivity. }
  intros St. destruct St.
  - match goal with V : RUpd _ _ _ _ _ _ _ |- _ => eapply SH; apply V end.
  - match goal with V : RUpd _ _ _ _ _ _ _ |- _ => eapply SH; apply V end.
  - match goal with V : RUnbond _ _ _ _ _ _ _ _ _ _ _ _ |- _ => destruct V as [_ _ V1 [w1 [V2 _]]] end.
    destruct (SH _ _ _ _ V1). destruct (PA _ _ _ _ _ _ _ _ V2). split; congruence.
  - auto.
  - match goal with V : RDist _ _ _ _ _ _ _ _ _ |- _ => rewrite (rd_after _ _ _ _ _ _ _ _ _ V); auto end.
  - eapply PA; eauto.
  - match goal with V : RFund _ _ _ _ _ _ _ _ |- _ => destruct (rf_after _ _ _ _ _ _ _ _ V) as [x [-> _]]; auto end.
  - auto.
Qed.

Lemma kept H w l w2 : reachable H w -> run H w l w2 -> Kept w w2.
Proof.
  intros R Rn. apply (run_ind2 H (Kept w)) with (2 := R) (3 := Rn).
  - clear Rn w2. intros w1 ev w2 R1 St K. inversion St as [e k w0 Eh X|]; subst; [|destruct K; constructor; auto].
    pose proof (reach_good _ _ R1) as G.
    destruct K as [K1 K2 K3 K4 K5 K6 K7 K8 K9]. constructor.
    + intros c p E. destruct (K1 _ _ E) as [p1 [E1 I1]].
      destruct (pool_step _ _ _ _ X G (reach_pool _ _ R1) _ _ E1) as [p2 [E2 [I2 _]]].
      exists p2. split; [exact E2|]. eapply SameIds_trans; eauto.
    + intros c p E. destruct (K2 _ _ E) as [p1 [E1 I1]].
      destruct (C32_settings_need_admin_name _ _ _ _ _ _ _ R1 E1 X) as [p2 [E2 [I2 _]]].
      exists p2. split; [exact E2|]. unfold SameIdsL in *. intuition congruence.
    + intros c s E. destruct (K3 _ _ E) as [s1 [E1 [A1 B1]]].
      destruct (C44_only_manager_or_owner_distributes _ _ _ _ _ _ _ R1 E1 X) as [s2 [E2 [[? [? [? [? [? [? ?]]]]]] _]]].
      destruct (stake_lp_tx _ _ _ _ _ _ _ R1 X E1) as [s3 [E3 L3]]. unfold stake_at in *. rewrite E2 in E3. inversion E3; subst s3.
      exists s2. split; [exact E2|]. split; congruence.
    + intros c r E. destruct (K4 _ _ E) as [r1 [E1 [A1 [B1 D1]]]].
      destruct (rewards_step _ _ _ _ _ _ X G E1) as [r2 [E2 V]]. exists r2. split; [exact E2|].
      destruct (rewards_ids_step _ _ _ _ _ _ _ V). rewrite (rewards_admin_step _ _ _ _ _ _ _ V). repeat split; congruence.
    + intros c v E. destruct (K5 _ _ E) as [v1 [E1 [A1 B1]]].
      destruct (vest_keeps _ _ _ _ _ _ R1 St E1) as [v2 [E2 [? [? _]]]]. exists v2. split; [exact E2|]. split; congruence.
    + intros c f E. destruct (K6 _ _ E) as [f1 [E1 [A1 B1]]].
      destruct (C64_only_whitelisted_create _ _ _ _ _ _ _ R1 E1 X) as [f2 [E2 [Q [_ [_ [L _]]]]]]. exists f2. split; [exact E2|].
      split; [congruence|]. intros q I. apply B1 in I. destruct L as [-> |[u [i [ty [am [ds [mf [p [_ [_ [_ [-> _]]]]]]]]]]]]; auto.
      apply in_or_app; auto.
    + intros c h E. eapply hop_keeps; eauto.
    + intros p t E. eapply pool_tokens_tx; eauto.
    + intros c kd E. destruct (exec_framec _ _ _ _ X G) as [_ [X' _]]. apply (ex_code _ _ X'). auto.
  - constructor; eauto.
    + intros; eexists; split; [eauto|apply SameIds_refl].
    + intros; eexists; split; [eauto|repeat split].
    + intros; eexists; split; [eauto|]. split; [reflexivity|apply incl_refl].
Qed.

(** With any history in between, the same call demands the same signatures. *)
Theorem C179_signatures_last H w l w2 e e2 k w' w2' D D2 : reachable H w -> run H w l w2 -> lasting k = true ->
  aexec e k (w, []) = Ok (tt, (w', D)) -> aexec e2 k (w2, []) = Ok (tt, (w2', D2)) -> D2 = D.
Proof.
  intros R Rn L X X2. pose proof (reach_run _ _ _ _ R Rn) as R2. pose proof (kept _ _ _ _ R Rn) as K.
  pose proof (reach_good _ _ R2) as G2.
  pose proof (C178_demands _ _ _ _ _ _ R X) as Q. pose proof (C178_demands _ _ _ _ _ _ R2 X2) as Q2. clear X X2.
  assert (Kf : forall c h f, fget c (w_hop w) = Some h -> fget c (w_hop w2) = Some f -> f = h).
  { intros c h f E E2. rewrite (kp_hop _ _ K _ _ E) in E2. congruence. }
  assert (KP : forall c p p', pool_at w c p -> pool_at w2 c p' -> p_share p' = p_share p).
  { intros c p p' E E2. destruct (kp_pool _ _ K _ _ E) as [q [Eq I]]. unfold pool_at in *. rewrite Eq in E2. inversion E2; subst. apply I. }
  assert (KL : forall c p p', stable_at w c p -> stable_at w2 c p' -> l_ta p' = l_ta p /\ l_tb p' = l_tb p /\ l_share p' = l_share p).
  { intros c p p' E E2. destruct (kp_stable _ _ K _ _ E) as [q [Eq I]]. unfold stable_at in *. rewrite Eq in E2. inversion E2; subst. unfold SameIdsL in I. tauto. }
  assert (KS : forall c p p', stake_at w c p -> stake_at w2 c p' -> s_lp p' = s_lp p /\ s_admin p' = s_admin p).
  { intros c p p' E E2. destruct (kp_stake _ _ K _ _ E) as [q [Eq I]]. unfold stake_at in *. rewrite Eq in E2. inversion E2; subst. exact I. }
  assert (KR : forall c p p', rewards_at w c p -> rewards_at w2 c p' -> r_admin p' = r_admin p /\ r_staking p' = r_staking p /\ r_token p' = r_token p).
  { intros c p p' E E2. destruct (kp_rew _ _ K _ _ E) as [q [Eq I]]. unfold rewards_at in *. rewrite Eq in E2. inversion E2; subst. exact I. }
  assert (KV : forall c p p', vest_at w c p -> vest_at w2 c p' -> v_admin p' = v_admin p /\ v_token p' = v_token p).
  { intros c p p' E E2. destruct (kp_vest _ _ K _ _ E) as [q [Eq I]]. unfold vest_at in *. rewrite Eq in E2. inversion E2; subst. exact I. }
  assert (KF : forall c p p', fact_at w c p -> fact_at w2 c p' -> f_admin p' = f_admin p).
  { intros c p p' E E2. destruct (kp_fact _ _ K _ _ E) as [q [Eq [I _]]]. unfold fact_at in *. rewrite Eq in E2. inversion E2; subst. exact I. }
  destruct k; try discriminate L; cbn [lasting] in L;
    inversion Q; subst; try discriminate;
    try match goal with F : single _ _ _ |- _ => simpl in F; try contradiction end;
    repeat match goal with F : _ \/ _ |- _ => destruct F; try discriminate end;
    repeat match goal with F : @eq Call _ _ |- _ => inversion F; clear F; subst end;
    inversion Q2; subst; try discriminate;
    try match goal with F : single w2 _ _ |- _ => simpl in F; try contradiction end;
    repeat match goal with F : _ \/ _ |- _ => destruct F; try discriminate end;
    repeat match goal with F : @eq Call _ _ |- _ => inversion F; clear F; subst end;
    subst; try reflexivity;
    try (match goal with E : stable_at w _ _, E2 : stable_at w2 _ _ |- _ => destruct (KL _ _ _ E E2) as [A1 [A2 A3]]; rewrite ?A1, ?A2, ?A3; reflexivity end);
    try (match goal with E : pool_at w _ _, E2 : pool_at w2 _ _ |- _ => rewrite (KP _ _ _ E E2); reflexivity end);
    try (match goal with E : stake_at w _ _, E2 : stake_at w2 _ _ |- _ => destruct (KS _ _ _ E E2) as [A1 A2]; rewrite ?A1, ?A2; reflexivity end);
    try (match goal with E : rewards_at w _ _, E2 : rewards_at w2 _ _ |- _ => destruct (KR _ _ _ E E2) as [A1 [A2 A3]]; rewrite ?A1, ?A2, ?A3; reflexivity end);
    try (match goal with E : vest_at w _ _, E2 : vest_at w2 _ _ |- _ => destruct (KV _ _ _ E E2) as [A1 A2]; rewrite ?A1, ?A2; reflexivity end);
    try (match goal with E : @ex Stake _, E2 : @ex Stake _ |- _ =>
    destruct E as [q [E ->]]; destruct E2 as [q2 [E2 ->]]; destruct (KS _ _ _ E E2) as [_ ->]; reflexivity end);
    try (match goal with E : @ex Rewards _, E2 : @ex Rewards _ |- _ =>
    destruct E as [q [E ->]]; destruct E2 as [q2 [E2 ->]]; destruct (KR _ _ _ E E2) as [A1 [A2 _]]; rewrite ?A1, ?A2; reflexivity end);
    try (match goal with E : @ex Vest _, E2 : @ex Vest _ |- _ =>
    destruct E as [q [E ->]]; destruct E2 as [q2 [E2 ->]]; destruct (KV _ _ _ E E2) as [-> _]; reflexivity end);
    try (match goal with E : @ex Fact _, E2 : @ex Fact _ |- _ =>
    destruct E as [q [E ->]]; destruct E2 as [q2 [E2 ->]]; rewrite (KF _ _ _ E E2); reflexivity end);
    try (match goal with E : @ex Hop _, E2 : @ex Hop _ |- _ =>
    destruct E as [q [E ->]]; destruct E2 as [q2 [E2 ->]]; rewrite (Kf _ _ _ E E2); reflexivity end);
    idtac.
  - match goal with E : vest_at w _ _, E2 : vest_at w2 _ _, Y : _ -> ?y = _, Y2 : _ -> ?y0 = _ |- context [CBurn _ _ ?y0] => destruct (KV _ _ _ E E2) as [_ A]; rewrite A, Y, Y2 by lia; reflexivity end.
  - match goal with E : fget _ (w_hop w) = Some _, E2 : fget _ (w_hop w2) = Some _ |- _ => pose proof (Kf _ _ _ E E2) as Ed end. subst d0.
    destruct ops as [|o [|? ?]]; try discriminate L.
    match goal with A : RouteAsks _ _ _ _ _ _ _ _ _ w _, B : RouteAsks _ _ _ _ _ _ _ _ _ w2 _ |- _ => inversion A; clear A; subst; inversion B; clear B; subst end.
    match goal with A : RouteAsks _ _ _ _ _ _ _ [] _ _ ?x, B : RouteAsks _ _ _ _ _ _ _ [] _ _ ?y |- _ => inversion A; clear A; subst; inversion B; clear B; subst end.
    match goal with A : fact_pool_by_pair _ _ _ w = Ok (?x, _), B : fact_pool_by_pair _ _ _ w2 = Ok (?y, _) |- _ =>
      assert (Ep : y = x); [|clear A B] end.
    { assert (exists g, fact_at w (h_fact d) g) as [g Eg].
      { match goal with A : fact_pool_by_pair _ _ _ w = Ok _ |- _ => unfold fact_pool_by_pair in A; rstep A; winv; eauto end. }
      destruct (kp_fact _ _ K _ _ Eg) as [g2 [Eg2 [_ In2]]].
      match goal with A : fact_pool_by_pair _ _ _ w = Ok _ |- _ => apply (pair_query_spec _ _ _ _ _ _ _ R Eg) in A; destruct A as [I T] end.
      match goal with B : fact_pool_by_pair _ _ _ w2 = Ok (_, _) |- _ => assert (B' := B); clear B end.
      assert (T2 : fact_pool_by_pair (h_fact d) (o_offer o) (o_ask o) w2 = Ok (p, w2)).
      { apply (pair_query_spec _ _ _ _ _ _ _ R2 Eg2). split; [apply In2, I|]. destruct T as [T|T]; [left|right]; apply (kp_tokens _ _ K); exact T. }
      congruence. }
    subst.
    repeat match goal with A : _ \/ _ |- _ => destruct A as [[-> A]|[-> A]] end; try reflexivity; exfalso;
      repeat match goal with A : pool_swap _ _ _ _ _ _ _ _ _ _ _ = Ok _ |- _ => apply pool_swap_ok in A; destruct A as [A _]
      | A : stable_swap _ _ _ _ _ _ _ _ _ _ _ = Ok _ |- _ => apply stable_swap_ok in A; destruct A as [A _] end;
      match goal with A : fget _ (w_code w) = Some _ |- _ => pose proof (kp_code _ _ K _ _ A); congruence end.
Qed.
Print Assumptions C179_signatures_last.

(** ** C180: a deposit's signature depends on the pool's ratio *)
(** The same deposit demands the same signatures in a later state exactly if the ratio of the
    reserves gives the same two amounts; the slippage tolerance plays no part in this. *)
Theorem C180_deposit_signature_good_iff H w l w2 e e2 p q q2 u xa ma xb mb cu dl w' w2' D D2 :
  reachable H w -> run H w l w2 -> pool_at w p q -> pool_at w2 p q2 -> p_total q <> 0 -> p_total q2 <> 0 ->
  aexec e (CPoolProvide p u (Some xa) ma (Some xb) mb cu dl) (w, []) = Ok (tt, (w', D)) ->
  aexec e2 (CPoolProvide p u (Some xa) ma (Some xb) mb cu dl) (w2, []) = Ok (tt, (w2', D2)) ->
  (D2 = D <-> Z.min xa (xb * p_ra q2 / p_rb q2) = Z.min xa (xb * p_ra q / p_rb q) /\
              Z.min xb (xa * p_rb q2 / p_ra q2) = Z.min xb (xa * p_rb q / p_ra q)).
Proof.
  intros R Rn E E2 T T2 X X2. pose proof (reach_run _ _ _ _ R Rn) as R2. pose proof (kept _ _ _ _ R Rn) as K.
  destruct (kp_pool _ _ K _ _ E) as [q' [E' I]]. unfold pool_at in *. rewrite E2 in E'. inversion E'; subst q'. clear E'.
  pose proof (C178_demands _ _ _ _ _ _ R X) as Q. pose proof (C178_demands _ _ _ _ _ _ R2 X2) as Q2. clear X X2.
  inversion Q; subst; try discriminate; try contradiction; try (destruct H0; discriminate).
  inversion Q2; subst; try discriminate; try contradiction; try (match goal with F : _ \/ _ |- _ => destruct F; discriminate end).
  repeat match goal with F : @eq Call _ _ |- _ => inversion F; clear F; subst end.
  unfold pool_at in *.
  repeat match goal with A : fget ?c (w_pool ?v) = Some ?x, B : fget ?c (w_pool ?v) = Some ?y |- _ => assert (y = x) by congruence; subst y; clear B end.
  repeat match goal with A : p_total ?x <> 0, B : p_total ?x <> 0 -> _ |- _ => destruct (B A) as [-> ->]; clear B end.
  rewrite (si_ta _ _ I), (si_tb _ _ I). unfold pay. split.
  - intros F. inversion F. auto.
  - intros [-> ->]. reflexivity.
Qed.
Print Assumptions C180_deposit_signature_good_iff.
