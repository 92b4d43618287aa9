(** Custody (C157): every way in which tokens can leave a contract of the protocol.  What one transaction
    takes from a contract is a payout of that contract; token, kind of call and, where the call names it,
    the amount are determined.  In particular tokens sent to a contract that has no payout for them stay
    there for ever. *)
From Coq Require Import ZArith List Bool Lia.
From Coq Require Import ZifyBool.
From Verif Require Import Base FMap Decimal DecimalProofs Curve World Token TokenProofs Frame Stake Pool PoolProofs
  Stable StableProofs Rewards Vest Factory Router System SysFrame SysInv SysPool SysStable SysSupply
  SysVest SysStake SysRewards SysFact Script Runs Props_Token Props_Pool Props_Stable Props_Vest Props_Stake Props_Rewards Props_Router Props_Live
  Props_LiveTok Props_LiveStable Props_LiveStake Props_Factory Props_LiveFact Props_LiveVest Props_LiveMisc Props_Calls Props_Effects
  Props_Effects2.
Import ListNotations.
Open Scope Z_scope.

(** ** Calls without a payout *)
(** tokens exist where token code is deployed; and [a] has at least what it had *)
Definition Rooted (w : World) : Prop := forall t k, fget t (w_tok w) = Some k -> fget t (w_code w) <> None.
Definition Keeps (a : Addr) (w w' : World) : Prop := Rooted w -> Rooted w' /\ NL a w w'.
Section KeepsR.
  Variable a : Addr.
  Lemma ke_bind {A B} (m : ST World A) (k : A -> ST World B) : safe (Keeps a) m -> (forall x, safe (Keeps a) (k x)) -> safe (Keeps a) (mbind m k).
  Proof.
    apply safe_bind. intros w1 w2 w3 H1 H2 R. destruct (H1 R) as [R2 N1]. destruct (H2 R2) as [R3 N2]. split; auto. eapply NL_trans; eauto.
  Qed.
  Lemma ke_pure {A} (m : ST World A) : pure m -> safe (Keeps a) m.
  Proof. apply safe_pure. intros w R. split; auto. apply NL_refl. Qed.
  Lemma ke_mmod (f : World -> World) : (forall w, w_tok (f w) = w_tok w /\ w_code (f w) = w_code w) -> safe (Keeps a) (mmod f).
  Proof.
    intros E w u w' H R. apply mmod_ok in H. inversion H; subst. destruct (E w) as [E1 E2]. split.
    - intros t k. rewrite E1, E2. apply R.
    - intros t. unfold bal. rewrite E1. lia.
  Qed.
  Lemma ke_deploy b k : safe (Keeps a) (deploy b k).
  Proof.
    intros w u w' H R. unfold deploy in H. rstep H. winv.
    match goal with K : mmod _ _ = Ok _ |- _ => apply mmod_ok in K; inversion K; subst | _ => idtac end. split.
    - intros t q E. simpl in *. rewrite fget_set. destruct (Z.eqb_spec t b); [discriminate|eauto].
    - intros t. unfold bal. simpl. lia.
  Qed.
  Lemma ke_deploy_tok t ad d : safe (Keeps a) (tok_deploy t ad d).
  Proof.
    intros w u w' H R. apply tok_deploy_ok in H. destruct H as [P [D [N ->]]]. split.
    - intros x q. simpl. rewrite !fget_set. destruct (Z.eqb_spec x t); [discriminate|]. apply R.
    - intros x. unfold bal. simpl. rewrite fget_set. destruct (Z.eqb_spec x t); [|lia]. subst.
      destruct (fget t (w_tok w)) eqn:E; [exfalso; eapply R; eauto|]. unfold tk_balance, fgetd; simpl. lia.
  Qed.
End KeepsR.
Ltac ke_tac :=
  repeat first
  [ solve [apply ke_pure; auto with pure]
  | apply ke_deploy | apply ke_deploy_tok
  | apply ke_bind; [|intro]
  | solve [apply ke_mmod; intros; split; reflexivity]
  | match goal with
    | |- safe _ (let '(_, _) := ?p in _) => destruct p
    | |- safe _ (if ?b then _ else _) => destruct b
    | |- safe _ (mwhen ?b _) => unfold mwhen; destruct b
    | |- safe _ (match ?o with _ => _ end) => destruct o
    end
  | progress unfold put_pool, put_stable, put_stake, put_rewards, put_vest, put_fact, put_hop, put_trader, put_wasm,
      pool_initialize, pool_update_config, pool_update, pool_upgrade, stable_initialize, stable_update_config, stable_upgrade,
      stake_initialize, stake_create_flow, stake_update, rewards_initialize, rewards_add_user, rewards_bond,
      rewards_distribute, rewards_update, vest_initialize, vest_update_minter, vest_update_capacity, vest_update,
      fact_initialize, fact_create, fact_update_whitelist, fact_update_hashes, fact_update, hop_initialize, hop_update, trader_initialize, drop
  | progress cbv beta zeta ].

(** settings, initialisations and bookkeeping: no transfer at all *)
Definition quiet (k : Call) : bool :=
  match k with
  | CPoolInit _ _ _ _ _ _ | CPoolConfig _ _ _ _ _ _ _ | CPoolUpdate _ _ | CPoolUpgrade _ _ _
  | CStableInit _ _ _ _ _ | CStableConfig _ _ _ _ _ _ _ | CStableUpgrade _ _
  | CStakeInit _ _ _ _ _ _ _ _ | CFlow _ _ _ | CStakeUpdate _ _
  | CRewInit _ _ _ _ _ _ _ | CRewAddUser _ _ _ | CRewBond _ _ _ | CRewDistribute _ _ | CRewUpdate _ _
  | CVestInit _ _ _ _ _ | CVestMinter _ _ _ | CVestCapacity _ _ _ | CVestUpdate _ _
  | CFactInit _ _ _ _ _ _ _ _ | CCreate _ _ _ _ _ _ _ | CWhitelist _ _ _ _ | CHashes _ _ _ _ | CFactUpdate _ _ _
  | CHopInit _ _ _ | CHopUpdate _ _ | CTraderInit _ _ _ _ _ => true
  | _ => false
  end.
Lemma quiet_keeps a e k : quiet k = true -> safe (Keeps a) (exec e k).
Proof. intros Q. destruct k; try discriminate Q; simpl exec; ke_tac. Qed.
Lemma good_rooted w : Good w -> Rooted w.
Proof. intros G t k E. rewrite (gd_ctok _ G _ _ E). discriminate. Qed.

(** ** C157 *)
(** Transaction [k] pays tokens [t] out of contract [a], which runs code of kind [kd]. *)
Definition payout (w w' : World) (e : Env) (k : Call) (a t : Addr) (kd : kind) : Prop :=
  let paid := bal w t a - bal w' t a in
  let signed u := u < 0 /\ In u (e_auth e) in
  match kd with
  | KPool | KStable =>
      (* one of the pool's two tokens, to a signing user: a swap for the other one, a withdrawal, or a route
         with an operation that asks for it *)
      exists ta tb u, pool_tokens w a = Some (ta, tb) /\ (t = ta \/ t = tb) /\ signed u /\
        ((exists o x mi ms dl mf, (k = CPoolSwap a u o x mi ms dl mf \/ k = CStableSwap a u o x mi ms dl mf) /\ o <> t) \/
         (exists s m1 m2 dl, k = CPoolWithdraw a u s m1 m2 dl \/ k = CStableWithdraw a u s m1 m2 dl) \/
         (exists h ops ms x dl mf o, k = CHopSwap h u ops ms x dl mf /\ In o ops /\ o_ask o = t))
  | KStake =>
      (* share tokens back to the signing staker whose entry is removed, or rewards *)
      exists s u, stake_at w a s /\
        ((exists ts, k = CUnbond a u paid ts /\ t = s_lp s /\ signed u /\ In (mkStakeE paid ts) (stakes_of s u)) \/
         (k = CWithdrawRewards a u /\ In t (s_dists s)))
  | KRewards =>
      exists r u b, rewards_at w a r /\ t = r_token r /\ signed (r_staking r) /\
        (k = CRewWithdraw a u b \/ exists x, k = CRewUnbond a u b x)
  | KVest => exists v u i, vest_at w a v /\ t = v_token v /\ signed u /\ k = CVestClaim a u i
  | KTrader =>
      exists d to tok, fget a (w_trader w) = Some d /\ signed (d_admin d) /\
        k = CTraderTransfer a (d_admin d) to paid tok /\ match tok with Some y => y | None => d_out d end = t
  | KTok | KFact | KHop => False
  end.

Lemma signs_in e u : signs e u = true -> u < 0 /\ In u (e_auth e).
Proof. unfold signs. rewrite andb_true_iff, Z.ltb_lt, existsb_exists. intros [A [y0 [I Q]]]. apply Z.eqb_eq in Q. subst. auto. Qed.

Lemma legs_payout H e f u ms dl mf : e_hash e = H -> forall ops ps x w r w', reachable H w -> Legs e f u ms dl mf ops ps x w r w' ->
  forall t a, 0 <= a -> bal w' t a < bal w t a -> exists o, In o ops /\ o_ask o = t /\
    (pool_tokens w a = Some (o_offer o, o_ask o) \/ pool_tokens w a = Some (o_ask o, o_offer o)).
Proof.
  intros Eh. induction ops as [|o ops IH]; intros ps x w r w' R L t a Pa Lt; inversion L as [|o0 ops0 p ps0 x0 y z w0 w1 w2 Q D L']; subst; [lia|].
  destruct (leg_facts _ _ _ _ _ _ _ _ _ _ _ _ _ R eq_refl Q D) as [R1 F].
  assert (FG : exists g, fact_at w f g).
  { unfold fact_pool_by_pair in Q. apply mbind_ok in Q. destruct Q as [z1 [v1 [Q1 Q]]]. apply enter_ok in Q1. destruct Q1 as [_ ->].
    apply mbind_ok in Q. destruct Q as [g [v1 [Q1 Q]]]. apply get_fact_ok in Q1. destruct Q1 as [Q1 ->]. eauto. }
  destruct FG as [g Eg]. pose proof Q as Q0. apply (pair_query_spec _ _ _ _ _ _ _ R Eg) in Q0. destruct Q0 as [_ T].
  destruct (Z_lt_le_dec (bal w1 t a) (bal w t a)) as [L1|L1].
  - exists o. destruct (lg_bal _ _ _ _ _ _ _ _ _ F) as [rec [fee [Ef [Pf B]]]]. rewrite B in L1.
    pose proof (lg_pos _ _ _ _ _ _ _ _ _ F). pose proof (lg_ret _ _ _ _ _ _ _ _ _ F). destruct (lg_user _ _ _ _ _ _ _ _ _ F) as [Pu _].
    destruct (Z.eqb_spec a u); [lia|]. rewrite !andb_false_r in L1.
    destruct (Z.eqb_spec t (o_ask o)) as [->|]; [|simpl in L1; unfold on in L1; destruct ((t =? o_offer o) && (a =? p)); lia].
    destruct (Z.eqb_spec a p) as [->|].
    + split; [left; auto|]. split; [auto|]. destruct T; auto.
    + exfalso. rewrite !andb_false_r in L1. simpl in L1. unfold on in L1. destruct (a =? rec); lia.
  - destruct (IH _ _ _ _ _ R1 L' t a Pa ltac:(lia)) as [o1 [I1 [A1 T1]]]. exists o1. split; [right; auto|]. split; [auto|].
    pose proof L' as LL. apply (legs_pools _ _ _ _ _ _ _ eq_refl _ _ _ _ _ _ R1) in LL.
    destruct (pool_tokens w a) as [tt0|] eqn:Et.
    + assert (X : pool_tokens w1 a = Some tt0).
      { destruct D as [D|D].
        - eapply (pool_tokens_tx _ w e (CPoolSwap p u (o_offer o) x (o_min o) ms dl mf)); eauto. simpl. unfold drop, mbind. rewrite D. reflexivity.
        - eapply (pool_tokens_tx _ w e (CStableSwap p u (o_offer o) x (o_min o) ms dl mf)); eauto. simpl. unfold drop, mbind. rewrite D. reflexivity. }
      rewrite X in T1. exact T1.
    + exfalso. (* the pool exists before the first leg already *)
      assert (Np : a <> p) by (intros ->; destruct T; congruence).
      destruct (lg_other _ _ _ _ _ _ _ _ _ F _ Np) as [E1 E2]. unfold pool_tokens in *. rewrite E1, E2 in T1. destruct T1; congruence.
Qed.

Lemma moved_up tk u a x w w1 t : Moved tk u a x w w1 -> u <> a -> bal w t a <= bal w1 t a.
Proof.
  intros M N. rewrite (mv_bal _ _ _ _ _ _ M). pose proof (mv_pos _ _ _ _ _ _ M). destruct (Z.eqb_spec a u); [congruence|].
  rewrite andb_false_r. unfold ind. destruct ((t =? tk) && (a =? a)); lia.
Qed.
Lemma moved_down tk u a x w w1 t : Moved tk a u x w w1 -> bal w1 t a < bal w t a -> t = tk /\ bal w t a - bal w1 t a = x.
Proof.
  intros M. rewrite (mv_bal _ _ _ _ _ _ M). pose proof (mv_pos _ _ _ _ _ _ M).
  destruct (Z.eqb_spec t tk); [|simpl; lia]. rewrite Z.eqb_refl. simpl. destruct (a =? u); simpl; lia.
Qed.

Theorem C157_every_payout H w e k w' a t kd : reachable H w -> step H w (Tx e k) w' -> fget a (w_code w) = Some kd ->
  bal w' t a < bal w t a -> payout w w' e k a t kd.
Proof.
  intros R St C L. inversion St as [e0 k0 w0 Eh X|]; subst. pose proof (reach_good _ _ R) as G. pose proof (gd_pos _ G _ _ C) as Pa.
  destruct (quiet k) eqn:Qk.
  { destruct (quiet_keeps a _ _ Qk _ _ _ X (good_rooted _ G)) as [_ N]. specialize (N t). lia. }
  destruct (exec_framec _ _ _ _ X G) as [_ [_ [_ [_ U]]]].
  destruct (exists_dec_acts k a kd) as [A|N]; [|pose proof (ut_bal _ _ _ (U _ _ C N) t); lia].
  (* trades never succeed, routes lower only pools *)
  assert (HS : forall h u ops ms x dl mf, k = CHopSwap h u ops ms x dl mf -> payout w w' e k a t kd).
  { intros h u ops ms x dl mf ->. simpl in X. apply drop_ok in X. destruct X as [r X].
    pose proof (framek_hop_swap _ _ _ _ _ _ _ _ _ _ _ _ X G) as [_ [_ [_ [_ [_ FK]]]]].
    assert (PK : kd = KPool \/ kd = KStable).
    { destruct kd; auto; exfalso;
        match type of C with _ = Some ?kk => assert (NP : ~ pools_only a kk) by (unfold pools_only; intros [Z0|Z0]; discriminate);
          pose proof (ut_bal _ _ _ (FK _ _ C NP) t); lia end. }
    assert (Eh0 : exists d, fget h (w_hop w) = Some d).
    { pose proof X as X0. unfold hop_swap in X0. rstep X0. winv. eauto. }
    destruct Eh0 as [d Ed]. apply (C66_multihop_is_its_swaps _ _ _ _ _ _ _ _ _ _ _ _ _ R Ed) in X.
    destruct X as [_ [_ [Pu [Iu [ps Lg]]]]].
    destruct (legs_payout _ _ _ _ _ _ _ eq_refl _ _ _ _ _ _ R Lg t a Pa L) as [o [Io [Ao T]]].
    assert (Q : exists ta tb u0, pool_tokens w a = Some (ta, tb) /\ (t = ta \/ t = tb) /\ (u0 < 0 /\ In u0 (e_auth e)) /\ u0 = u).
    { destruct T as [T|T]; rewrite T; do 3 eexists; (split; [reflexivity|]); (split; [|split; [split; eassumption|reflexivity]]); auto. }
    destruct Q as [ta [tb [u0 [Q1 [Q2 [Q3 ->]]]]]].
    unfold payout. destruct PK as [->| ->]; exists ta, tb, u; (split; [exact Q1|]); (split; [exact Q2|]); (split; [exact Q3|]);
      right; right; exists h, ops, ms, x, dl, mf, o; auto. }
  destruct (routed k) eqn:Rk.
  { destruct k; try discriminate Rk; [eapply HS; reflexivity|]. exfalso. simpl in X. unfold drop in X.
    apply mbind_ok in X. destruct X as [y [w1 [X _]]]. eapply C70_trade_never_succeeds; eauto. }
  destruct A as [T|[T _]]; [|congruence].
  pose proof (exec_tkind _ _ _ _ _ X T) as TK. rewrite C in TK. assert (TK1 : kd = tkind k) by congruence. clear TK HS U. subst kd.
  destruct k; simpl in T, Qk; try discriminate Qk; try discriminate Rk; inversion T; subst; simpl tkind in *; simpl in X; cbn [payout].
  - (* deposit *)
    exfalso. pose proof X as X0. apply pool_provide_ok in X0. destruct X0 as [_ [Au [V [p [xa0 [xb0 [a1 [b1 [w1 [w2 [w4 E]]]]]]]]]]].
    destruct E as [Ep _ _ _ _ _ _ _ _ _]. assert (Hp : pool_at w a p) by exact Ep.
    destruct (C153_deposit_effect _ _ _ _ _ _ _ _ _ _ _ _ _ R Hp X) as [xa [xb [a0 [b0 [n [lk [-> [-> [Z1 [Z2 [_ [B _]]]]]]]]]]]].
    pose proof (reach_pool _ _ R _ _ Hp) as I. pose proof (pi_ra _ _ _ I). pose proof (pi_rb _ _ _ I).
    unfold vpos in V. assert (P1 : 0 <= xa /\ 0 <= xb) by lia.
    assert (P2 : 0 <= a0 /\ 0 <= b0 /\ 0 <= lk).
    { destruct (Z.eq_dec (p_total p) 0) as [Q|Q]; [destruct (Z1 Q) as [-> [-> [_ ->]]]; lia|]. destruct (Z2 Q) as [-> [-> [-> _]]].
      assert (0 <= xb * p_ra p / p_rb p).
      { destruct (Z.eq_dec (p_rb p) 0) as [Q0|]; [rewrite Q0, Zdiv_0_r; lia|apply Z.div_pos; nia]. }
      assert (0 <= xa * p_rb p / p_ra p).
      { destruct (Z.eq_dec (p_ra p) 0) as [Q0|]; [rewrite Q0, Zdiv_0_r; lia|apply Z.div_pos; nia]. }
      lia. }
    rewrite authed_none in Au. apply signs_in in Au. rewrite B in L. destruct (Z.eqb_spec a u); [lia|].
    rewrite !andb_false_r in L. unfold on in L.
    destruct ((t =? p_ta p) && (a =? a)), ((t =? p_tb p) && (a =? a)), ((t =? p_share p) && (a =? a)); lia.
  - (* swap *)
    apply drop_ok in X. destruct X as [r X].
    assert (Ns : u <> a) by (eapply C14_sender_is_not_the_pool; [exact R| |exact X]; discriminate).
    destruct (swap_facts _ _ _ _ _ _ _ _ _ _ _ _ _ Ns X) as [s [s' [rx [ry [gr [fee [sp [buy F]]]]]]]].
    pose proof (sf_before F) as E1. pose proof (sf_side F) as S1. pose proof (sf_auth F) as Au. destruct (sf_pos F) as [_ [_ [P1 [P2 [P3 P4]]]]].
    pose proof (pi_ord _ _ _ (reach_pool _ _ R _ _ E1)) as Or.
    rewrite authed_none in Au. apply signs_in in Au. rewrite (sf_bal F) in L. destruct (Z.eqb_spec a u); [congruence|]. rewrite !andb_false_r in L.
    destruct (Z.eqb_spec t buy) as [->|]; [|unfold on in L; simpl in L; destruct ((t =? offer) && (a =? a)); lia].
    exists (p_ta s), (p_tb s), u. split; [unfold pool_tokens; unfold pool_at in E1; rewrite E1; auto|].
    split; [destruct S1 as [[_ [-> _]]|[_ [_ [-> _]]]]; auto|]. split; [exact Au|]. left. do 6 eexists. split; [left; reflexivity|].
    destruct S1 as [[-> [-> _]]|[-> [_ [-> _]]]]; lia.
  - (* withdrawal *)
    apply drop_ok in X. destruct X as [[ra rb] X]. pose proof X as X0.
    apply pool_withdraw_ok in X0. destruct X0 as [_ [Au [p [ratio0 [w1 [w2 [w3 [w4 E]]]]]]]]. destruct E as [Ep _ _ _ _ _ _ _ _ _ _ _ _ _].
    assert (Hp : pool_at w a p) by exact Ep. destruct (C153_withdrawal_effect _ _ _ _ _ _ _ _ _ _ _ _ _ R Hp X) as [_ [_ [_ [B _]]]].
    rewrite authed_none in Au. apply signs_in in Au. rewrite B in L. destruct (Z.eqb_spec a u); [lia|]. rewrite !andb_false_r in L. rewrite Z.eqb_refl, !andb_true_r in L.
    exists (p_ta p), (p_tb p), u. split; [unfold pool_tokens; rewrite Ep; auto|].
    split; [destruct (Z.eqb_spec t (p_ta p)); auto; destruct (Z.eqb_spec t (p_tb p)); auto; simpl in L; lia|].
    split; [exact Au|]. right. left. do 4 eexists. left. reflexivity.
  - (* stable deposit *)
    exfalso. assert (Hp : exists p, stable_at w a p) by (unfold stable_provide in X; rstep X; winv; unfold stable_at; eauto). destruct Hp as [p Hp].
    destruct (C150_stable_deposit_effect _ _ _ _ _ R Hp _ _ _ _ _ _ _ X) as [m [D [_ [_ [_ [_ B]]]]]].
    destruct D as [Sg [_ [_ [P1 [P2 _]]]]]. apply signs_in in Sg. rewrite B in L. destruct (Z.eqb_spec a u); [lia|]. rewrite !andb_false_r in L.
    unfold on in L. destruct ((t =? l_ta p) && (a =? a)), ((t =? l_tb p) && (a =? a)); lia.
  - (* stable swap *)
    apply drop_ok in X. destruct X as [r X]. assert (NN : None <> Some a) by discriminate.
    destruct (lswap_facts _ _ _ _ _ _ _ _ _ _ _ _ _ _ R NN X) as [s [s' [rx [ry [gr [fee [buy F]]]]]]].
    pose proof (lf_before F) as E1. pose proof (lf_side F) as S1. pose proof (lf_auth F) as Au. destruct (lf_pos F) as [_ [_ [P1 [P2 [P3 P4]]]]].
    pose proof (li_ord _ _ _ (reach_stable _ _ R _ _ E1)) as Or.
    rewrite authed_none in Au. apply signs_in in Au. rewrite (lf_bal F) in L. destruct (Z.eqb_spec a u); [lia|]. rewrite !andb_false_r in L.
    destruct (Z.eqb_spec t buy) as [->|]; [|unfold on in L; simpl in L; destruct ((t =? offer) && (a =? a)); lia].
    assert (Np : fget a (w_pool w) = None) by (destruct (fget a (w_pool w)) eqn:Ep; auto; pose proof (gd_cpool _ G _ _ Ep); congruence).
    exists (l_ta s), (l_tb s), u. split; [unfold pool_tokens; unfold stable_at in E1; rewrite Np, E1; auto|].
    split; [destruct S1 as [[_ [-> _]]|[_ [_ [-> _]]]]; auto|]. split; [exact Au|]. left. do 6 eexists. split; [right; reflexivity|].
    destruct S1 as [[-> [-> _]]|[-> [_ [-> _]]]]; lia.
  - (* stable withdrawal *)
    apply drop_ok in X. destruct X as [[ra rb] X]. pose proof X as X0.
    apply stable_withdraw_ok in X0. destruct X0 as [_ [Au [p [ratio0 [w1 [w2 [w3 [w4 E]]]]]]]]. destruct E as [Ep _ _ _ _ _ _ _ _ _ _ _ _ _].
    assert (Hp : stable_at w a p) by exact Ep. destruct (C153_stable_withdrawal_effect _ _ _ _ _ _ _ _ _ _ _ _ _ R Hp X) as [_ [_ [_ [B _]]]].
    rewrite authed_none in Au. apply signs_in in Au. rewrite B in L. destruct (Z.eqb_spec a u); [lia|]. rewrite !andb_false_r in L. rewrite Z.eqb_refl, !andb_true_r in L.
    assert (Np : fget a (w_pool w) = None) by (destruct (fget a (w_pool w)) eqn:Ep0; auto; pose proof (gd_cpool _ G _ _ Ep0); congruence).
    exists (l_ta p), (l_tb p), u. split; [unfold pool_tokens; rewrite Np, Ep; auto|].
    split; [destruct (Z.eqb_spec t (l_ta p)); auto; destruct (Z.eqb_spec t (l_tb p)); auto; simpl in L; lia|].
    split; [exact Au|]. right. left. do 4 eexists. right. reflexivity.
  - (* bond *)
    exfalso. apply stake_bond_ok in X. destruct X as [s [s' [_ _ Au _ _ _ [w1 [M ->]] _]]]. rewrite authed_none in Au. apply signs_in in Au.
    pose proof (moved_up _ _ _ _ _ _ t M ltac:(lia)). rewrite (bal_wtok w1) in L by reflexivity. lia.
  - (* unbond *)
    apply stake_unbond_ok in X. destruct X as [s [s' [l [_ Es Au Rm [w1 [M Ew]] _]]]]. rewrite authed_none in Au. apply signs_in in Au.
    rewrite (bal_wtok w1 w') in * by (rewrite Ew; reflexivity). destruct (moved_down _ _ _ _ _ _ t M L) as [-> D].
    exists s, u. split; [exact Es|]. left. exists ts. rewrite D. split; [reflexivity|]. split; [reflexivity|]. split; [exact Au|].
    apply remove_first in Rm. destruct Rm as [l1 [l2 [L1 _]]]. rewrite stakes_user in L1. rewrite L1. apply in_or_app. right. left. reflexivity.
  - (* distribute *)
    exfalso. apply stake_distribute_ok in X. destruct X as [s [s' [h [_ _ Au _ _ _ M _]]]]. rewrite authed_none in Au. apply signs_in in Au.
    pose proof (moved_up _ _ _ _ _ _ t M ltac:(lia)) as Q. change (bal (set_stake w _) t a) with (bal w t a) in Q. lia.
  - (* rewards of the staking contract *)
    pose proof X as X0. apply stake_withdraw_ok in X0; [|intros s0 E0; apply (sv_nodup _ _ _ (reach_stake _ _ R _ _ E0))].
    destruct X0 as [s [s' [_ Es _ [w1 [M Ew]] _]]]. exists s, u. split; [exact Es|]. right. split; [reflexivity|].
    destruct (in_dec Z.eq_dec t (s_dists s)) as [|N]; auto. exfalso.
    rewrite (bal_wtok w1 w') in L by (rewrite Ew; reflexivity). rewrite (pd_bal _ _ _ _ _ _ M) in L.
    assert (Q : zmem t (s_dists s) = false).
    { unfold zmem. destruct (existsb (Z.eqb t) (s_dists s)) eqn:Q; auto. apply existsb_exists in Q. destruct Q as [z [I0 Q]]. apply Z.eqb_eq in Q. subst. contradiction. }
    rewrite Q in L. simpl in L. lia.
  - (* unbond of stake_rewards *)
    apply rewards_unbond_ok in X. destruct X as [r [r1 [r' [amt [p0 [p1 [_ [E [Au [_ V]]]]]]]]]]. destruct V as [_ _ _ [w1 [P Ew]]].
    rewrite authed_none in Au. apply signs_in in Au. exists r, u, b. split; [exact E|].
    rewrite (bal_wtok w1 w') in L by (rewrite Ew; reflexivity).
    split; [|split; [exact Au|right; eexists; reflexivity]].
    destruct P as [_ [[_ [-> _]]|[_ [_ [M _]]]]]; [lia|]. apply (moved_down _ _ _ _ _ _ t M). exact L.
  - apply rewards_withdraw_ok in X. destruct X as [r [r' [amt [_ [E [Au P]]]]]].
    rewrite authed_none in Au. apply signs_in in Au. exists r, u, b. split; [exact E|]. split; [|split; [exact Au|left; reflexivity]].
    destruct P as [_ [[_ [-> _]]|[_ [_ [M _]]]]]; [lia|]. apply (moved_down _ _ _ _ _ _ t M). exact L.
  - (* fund *)
    exfalso. apply rewards_fund_ok in X. destruct X as [r [r' [_ [_ [_ [Au V]]]]]]. destruct V as [_ _ _ _ [w1 [M Ew]] _].
    rewrite authed_none in Au. apply signs_in in Au. rewrite (bal_wtok w1 w') in L by (rewrite Ew; reflexivity).
    pose proof (moved_up _ _ _ _ _ _ t M ltac:(lia)). lia.
  - (* schedules *)
    exfalso. apply vest_create_ok in X. destruct X as [v [v' [tot [_ _ _ Au _ _ _ M _]]]]. rewrite authed_none in Au. apply signs_in in Au.
    pose proof (moved_up _ _ _ _ _ _ t M ltac:(lia)) as Q. change (bal (set_vest w _) t a) with (bal w t a) in Q. lia.
  - (* claim *)
    apply vest_claim_ok in X. destruct X as [v [x [lk [_ E Au _ _ _ M _]]]]. rewrite authed_none in Au. apply signs_in in Au.
    exists v, u, i. split; [exact E|]. split; [|split; [exact Au|reflexivity]]. apply (moved_down _ _ _ _ _ _ t M). exact L.
  - (* burn *)
    exfalso. unfold vest_burn in X. rstep X. winv. tinv.
    match goal with K : authed e None u = true |- _ => rewrite authed_none in K; apply signs_in in K end.
    match goal with K : Burned _ _ _ _ _ |- _ => rewrite (bn_bal _ _ _ _ _ K) in L end.
    destruct (Z.eqb_spec a u); [lia|]. rewrite andb_false_r in L. simpl in L. lia.
  - (* mint *)
    exfalso. apply vest_mint_ok in X. destruct X as [v [m [_ [_ [_ [_ [P [_ [w1 [M [Et _]]]]]]]]]]].
    rewrite (bal_wtok w1 w') in L by exact Et. rewrite (mt_bal _ _ _ _ _ M) in L. unfold ind in L. destruct ((t =? v_token v) && (a =? a)); lia.
  - (* transfer of a trader *)
    assert (Ed : exists d, fget a (w_trader w) = Some d) by (unfold trader_transfer in X; rstep X; winv; eauto). destruct Ed as [d Ed].
    destruct (C69_only_transfers _ _ e (CTraderTransfer a u rcpt amt tok) _ _ _ t R Ed X L) as [I [to [x [tk [Q [_ [T1 D]]]]]]].
    assert (Au : signs e u = true) by (rewrite <- authed_none; unfold trader_transfer in X; rstep X; winv; auto).
    inversion Q; subst. exists d, to, tk. split; [exact Ed|]. split; [apply signs_in; exact Au|]. split; reflexivity.
Qed.
Print Assumptions C157_every_payout.

(** Tokens at the address of a token, of a factory or of a router never leave it again. *)
Theorem C157_lost_tokens H w l w' a t kd : reachable H w -> run H w l w' -> fget a (w_code w) = Some kd ->
  kd = KTok \/ kd = KFact \/ kd = KHop -> bal w t a <= bal w' t a.
Proof.
  intros R Rn C K. assert (P : reachable H w' /\ fget a (w_code w') = Some kd /\ bal w t a <= bal w' t a); [|tauto].
  revert R C. induction Rn as [w|w ev w1 l w2 St Rn IH]; intros R C; [split; [auto|split; [auto|lia]]|].
  assert (R1 : reachable H w1) by (eapply step_reach; eauto). assert (C1 : fget a (w_code w1) = Some kd).
  { inversion St as [e0 k0 w0 Eh X|]; subst; [|exact C].
    destruct (exec_framec _ _ _ _ X (reach_good _ _ R)) as [_ [EX _]]. apply (ex_code _ _ EX). exact C. }
  destruct (IH R1 C1) as [A [B D]]. split; [auto|]. split; [auto|].
  enough (bal w t a <= bal w1 t a) by lia.
  destruct (Z_lt_le_dec (bal w1 t a) (bal w t a)) as [L|]; [|lia]. exfalso.
  inversion St as [e0 k0 w0 Eh X|]; subst; [|unfold bal in L; simpl in L; lia].
  pose proof (C157_every_payout _ _ _ _ _ _ _ _ R St C L) as Q. destruct K as [->|[->| ->]]; exact Q.
Qed.
Print Assumptions C157_lost_tokens.

(** Tokens other than its two at the address of an initialised pool, share tokens included, never leave it. *)
Theorem C157_pool_stray_tokens H w l w' a ta tb t : reachable H w -> run H w l w' -> pool_tokens w a = Some (ta, tb) ->
  t <> ta -> t <> tb -> bal w t a <= bal w' t a.
Proof.
  intros R Rn T Na Nb. revert R T. induction Rn as [w|w ev w1 l w2 St Rn IH]; intros R T; [lia|].
  assert (R1 : reachable H w1) by (eapply step_reach; eauto).
  assert (T1 : pool_tokens w1 a = Some (ta, tb)).
  { inversion St as [e0 k0 w0 Eh X|]; subst; [exact (pool_tokens_tx _ _ _ _ _ _ _ R X T)|exact T]. }
  specialize (IH R1 T1). enough (bal w t a <= bal w1 t a) by lia.
  destruct (Z_lt_le_dec (bal w1 t a) (bal w t a)) as [L|]; [|lia]. exfalso.
  inversion St as [e0 k0 w0 Eh X|]; subst; [|unfold bal in L; simpl in L; lia].
  assert (Q : exists ta0 tb0, pool_tokens w a = Some (ta0, tb0) /\ (t = ta0 \/ t = tb0)).
  { destruct (pool_tokens_code _ _ _ (reach_good _ _ R) T) as [C|C]; pose proof (C157_every_payout _ _ _ _ _ _ _ _ R St C L) as Q;
      destruct Q as [x [y [u [Q1 [Q2 _]]]]]; eauto. }
  destruct Q as [x [y [Q1 Q2]]]. rewrite T in Q1. inversion Q1; subst. destruct Q2; congruence.
Qed.
Print Assumptions C157_pool_stray_tokens.

(** A staking contract pays out share tokens only to the staker whose entry goes; the token of a flow only as
    rewards; anything else it is sent stays. *)
Theorem C157_stake_stray_tokens H w e k w' a s t : reachable H w -> step H w (Tx e k) w' -> stake_at w a s ->
  t <> s_lp s -> ~ In t (s_dists s) -> bal w t a <= bal w' t a.
Proof.
  intros R St E N1 N2. destruct (Z_lt_le_dec (bal w' t a) (bal w t a)) as [L|]; [|lia]. exfalso.
  pose proof (C157_every_payout _ _ _ _ _ _ _ _ R St (gd_cstake _ (reach_good _ _ R) _ _ E) L) as [s0 [u [E0 Q]]].
  unfold stake_at in *. rewrite E in E0. inversion E0; subst. destruct Q as [[ts [_ [Q _]]]|[_ Q]]; contradiction.
Qed.
Print Assumptions C157_stake_stray_tokens.
