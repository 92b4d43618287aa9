(** C242: the error codes of the factory, the router and the trader tell what was wrong. *)
From Coq Require Import ZArith List Bool Lia.
From Coq Require Import ZifyBool.
From Verif Require Import Base FMap Decimal DecimalProofs Curve CurveProofs World Token TokenProofs Frame Stake Pool PoolProofs
  Stable StableProofs Rewards Vest Factory Router System SysFrame SysInv SysPool SysStable SysSupply SysVest SysStake Script ErrProofs
  Props_Token Props_Pool Props_Stable Props_Stake Props_Rewards Props_Vest SysFact Props_Factory SysAllow Props_Router
  Props_Errors Props_ErrorsStable Props_ErrorsLocks.
Import ListNotations.
Open Scope Z_scope.

(** ** The factory *)
Lemma pool_init_err w e self i f d s m n : stakes_coded w -> fget self (w_pool w) = None ->
  pool_initialize e self i f d s m w = Err (EContract n) ->
  (n = 25 /\ m < i_fee i) \/ (n = 18 /\ i_tb i <= i_ta i) \/
  (n = 2 /\ i_minbond i <= 0) \/ (n = 3 /\ i_minreward i <= 0) \/ (n = 12 /\ i_maxc i = 0).
Proof.
  intros Sc Fr X. unfold pool_initialize in X.
  ew X. est X. gtt. est X; [exfalso; est X; unfold fmem in X; rewrite Fr in X; discriminate X|]. rin.
  ew X. ew X; [est X; left; split; [reflexivity|lia]|].
  right. ew X; [est X; left; split; [reflexivity|lia]|].
  right. est X. est X; [|exfalso; noq X]. apply deploy_stake_err in X; [exact X|].
  match goal with D : deploy_share _ _ _ _ _ _ = Ok _ |- _ => apply (deploy_share_coded _ _ _ _ _ _ _ _ D) end. exact Sc.
Qed.
Lemma stable_init_err w e self i f a m n : stakes_coded w -> fget self (w_stable w) = None ->
  stable_initialize e self i f a m w = Err (EContract n) ->
  (n = 22 /\ m < i_fee i) \/ (n = 8 /\ i_tb i <= i_ta i) \/
  (n = 2 /\ i_minbond i <= 0) \/ (n = 3 /\ i_minreward i <= 0) \/ (n = 12 /\ i_maxc i = 0) \/ (n = 18 /\ (a = 0 \/ 1000000 < a)).
Proof.
  intros Sc Fr X. unfold stable_initialize in X.
  ew X. est X. gtt. est X; [exfalso; est X; unfold fmem in X; rewrite Fr in X; discriminate X|]. rin.
  ew X. ew X; [est X; left; split; [reflexivity|lia]|].
  right. ew X; [est X; left; split; [reflexivity|lia]|].
  right. ew X. ew X. cbv zeta in X. est X. est X.
  + apply deploy_stake_err in X; [intuition|].
    match goal with D : deploy_share _ _ _ _ _ _ = Ok _ |- _ => apply (deploy_share_coded _ _ _ _ _ _ _ _ D) end. exact Sc.
  + right. right. right. est X. est X; [est X; split; [reflexivity|unfold MAX_AMP in X; lia]|]. exfalso. noq X.
Qed.

Theorem C242_create_errors H w e self u i ty amp ds mf f n : reachable H w -> fact_at w self f ->
  exec e (CCreate self u i ty amp ds mf) w = Err (EContract n) ->
  (* NotAuthorized *) (n = 3 /\ ~ In u (f_white f)) \/
  (* TokenABiggerThanTokenB *) (n = 5 /\ i_tb i <= i_ta i) \/
  (* MinStakeInvalid *) (n = 6 /\ i_minbond i <= 0) \/
  (* MinRewardInvalid *) (n = 7 /\ i_minreward i <= 0) \/
  (* the pool's SwapFeeBpsOverLimit *) (n = match ty with Xyk => 25 | StableT => 22 end /\ mf < i_fee i) \/
  (* the stake contract's InvalidMaxComplexity *) (n = 12 /\ i_maxc i = 0) \/
  (* the stable pool's InvalidAMP *) (n = 18 /\ ty = StableT /\ exists a, amp = Some a /\ (a = 0 \/ 1000000 < a)).
Proof.
  intros Rc Hf X. pose proof (reach_good _ _ Rc) as G. unfold fact_at in Hf. unfold exec in X. apply drop_err in X. unfold fact_create in X.
  ew X. ew X. ew X. ew X. mine Hf.
  est X; [est X; left; split; [reflexivity|]; intros I; apply zmem_in in I; congruence|]. rin.
  right. est X; [est X; left; split; [reflexivity|lia]|]. rin.
  right. est X; [est X; left; split; [reflexivity|lia]|]. rin.
  right. est X; [est X; left; split; [reflexivity|lia]|]. rin.
  right. cbv zeta in X. est X.
  match goal with D : deploy _ _ _ = Ok _ |- _ => apply deploy_ok in D; destruct D as (_ & Nc & ->) end.
  est X. grd Gv. est X; [|exfalso; noq X].
  match type of X with context [set_code ?q ?r] => remember (set_code q r) as w1 eqn:Ew end.
  assert (Sc : stakes_coded w1).
  { intros k q E. subst w1. simpl in *. rewrite fget_set. destruct (_ =? _); [discriminate|].
    pose proof (gd_cstake _ G _ _ E). congruence. }
  destruct ty.
  - apply pool_init_err in X; [intuition lia|exact Sc|]. subst w1. simpl.
    destruct (fget _ (w_pool w)) as [q|] eqn:E; [|reflexivity]. pose proof (gd_cpool _ G _ _ E). congruence.
  - apply stable_init_err in X; [|exact Sc|].
    + destruct amp as [a|]; [|discriminate]. destruct X as [X|[X|[X|[X|[X|X]]]]]; [left; exact X|exfalso; lia|exfalso; lia|exfalso; lia|right; left; exact X|].
      right. right. destruct X as [-> X]. split; [reflexivity|]. split; [reflexivity|]. eauto.
    + subst w1. simpl.
    destruct (fget _ (w_stable w)) as [q|] eqn:E; [|reflexivity]. pose proof (gd_cstable _ G _ _ E). congruence.
Qed.
Print Assumptions C242_create_errors.

Theorem C242_factory_other_errors H w e self n : reachable H w ->
  (forall a lp sb sk tk wl d, exec e (CFactInit self a lp sb sk tk wl d) w = Err (EContract n) ->
    (* AlreadyInitialized *) (n = 1 /\ exists f, fact_at w self f) \/ (* WhiteListeEmpty *) (n = 2 /\ wl = [])) /\
  (forall f u add rm, fact_at w self f -> exec e (CWhitelist self u add rm) w = Err (EContract n) ->
    (* NotAuthorized *) n = 3 /\ u <> f_admin f) /\
  (forall a b c, exec e (CHashes self a b c) w <> Err (EContract n)) /\
  (forall h s, exec e (CFactUpdate self h s) w <> Err (EContract n)).
Proof.
  intros Rc. pose proof (reach_good _ _ Rc) as G. unfold exec. cbn beta iota.
  split; [|split; [|split]].
  - intros a lp sb sk tk wl d X. unfold fact_initialize in X. ew X. est X. gtt.
    est X; [est X; left; split; [reflexivity|]; unfold fmem, fact_at in *; destruct (fget self (w_fact _)) eqn:E; [eauto|discriminate]|].
    rin. est X; [est X; right; split; [reflexivity|]; destruct wl; [reflexivity|discriminate]|]. rin. cbv zeta in X.
    est X. match goal with D : deploy _ _ _ = Ok _ |- _ => apply deploy_ok in D; destruct D as (_ & Nc & ->) end.
    exfalso. est X; [|noq X]. unfold hop_initialize in X. ew X. est X. gtt. est X; [|noq X]. est X.
    unfold fmem in X. simpl in X. destruct (fget _ (w_hop _)) eqn:E in X; [|discriminate]. pose proof (gd_chop _ G _ _ E). congruence.
  - intros f u add rm Hf X. unfold fact_at in Hf. unfold fact_update_whitelist in X. ew X. ew X. ew X. mine Hf.
    est X; [est X; split; [reflexivity|lia]|noq X].
  - intros a b c X. unfold fact_update_hashes in X. noq X.
  - intros h s X. unfold fact_update in X. noq X.
Qed.
Print Assumptions C242_factory_other_errors.

(** ** Swaps at a pool of either type *)
Definition swap_refused (w : World) (p : Addr) (offer amt : Z) (mi ms dl mf : option Z) (n : Z) : Prop :=
  (exists x, pool_at w p x /\ pool_swap_reason w x offer amt mi ms dl mf n) \/
  (exists x, stable_at w p x /\ stable_swap_reason w p x offer amt mi ms dl mf n) \/
  (* a pool contract that was never initialised: both pools look at the deadline first *)
  (fget p (w_pool w) = None /\ fget p (w_stable w) = None /\ late w dl /\ (n = 22 \/ n = 19)).

Lemma any_swap_err w e c p u offer amt mi ms dl mf n : Good w -> AllPool w -> AllStable w -> amt <= I128_MAX ->
  any_swap e c p u offer amt mi ms dl mf w = Err (EContract n) -> swap_refused w p offer amt mi ms dl mf n.
Proof.
  intros G Ap As Fa X. unfold any_swap in X. apply mbind_err in X. destruct X as [X|(wz & wy & Eg & X)]; [discriminate X|].
  apply mget_ok in Eg. inversion Eg; subst wz wy. clear Eg.
  destruct (fget p (w_code w)) as [[]|] eqn:Ec; try (exfalso; noq X).
  - destruct (fget p (w_pool w)) as [y|] eqn:Ey.
    + left. exists y. split; [exact Ey|]. exact (pool_swap_err _ _ _ _ _ _ _ _ _ _ _ _ _ G (Ap _ _ Ey) Ey X).
    + right. right. split; [exact Ey|].
      assert (Es : fget p (w_stable w) = None).
      { destruct (fget p (w_stable w)) as [z|] eqn:E; [|reflexivity]. pose proof (gd_cstable _ G _ _ E). congruence. }
      split; [exact Es|]. unfold pool_swap in X. ew X. est X; [apply deadline_err in X; destruct X as [-> X]; split; [exact X|left; reflexivity]|].
      exfalso. rin. unfold do_swap in X. ew X. ew X. ew X. congruence.
  - destruct (fget p (w_stable w)) as [y|] eqn:Ey.
    + right. left. exists y. split; [exact Ey|]. exact (stable_swap_err _ _ _ _ _ _ _ _ _ _ _ _ _ (As _ _ Ey) Ey Fa X).
    + right. right.
      assert (Es : fget p (w_pool w) = None).
      { destruct (fget p (w_pool w)) as [z|] eqn:E; [|reflexivity]. pose proof (gd_cpool _ G _ _ E). congruence. }
      split; [exact Es|]. split; [exact Ey|].
      unfold stable_swap in X. ew X. est X; [apply deadline_err in X; destruct X as [-> X]; split; [exact X|right; reflexivity]|].
      exfalso. rin. unfold stable_do_swap in X. ew X. ew X. ew X. congruence.
Qed.

Lemma any_swap_fits e c p u o a mi ms dl mf w r w' : Good w -> AllPool w -> AllStable w -> not_pool w c ->
  any_swap e c p u o a mi ms dl mf w = Ok (r, w') -> r <= I128_MAX.
Proof.
  intros G Ap As N X. unfold any_swap in X. apply mbind_ok in X. destruct X as (w0 & w1 & Eg & X). apply mget_ok in Eg. inversion Eg; subst w0 w1.
  assert (Nc : fget p (w_code w) = Some KPool \/ fget p (w_code w) = Some KStable -> c <> Some p).
  { intros D ->. destruct (N p eq_refl). destruct D; contradiction. }
  destruct (fget p (w_code w)) as [[]|] eqn:Ec; try discriminate.
  - apply pool_swap_ok in X. destruct X as (C & A & _ & _ & X).
    apply do_swap_ok in X; [|exact (authed_ne _ _ _ _ _ _ G C (Nc (or_introl eq_refl)) A)].
    destruct X as (x & q & v1 & v2 & v3 & E). destruct E. apply compute_swap_ok in se_nums. destruct se_nums. lia.
  - apply stable_swap_ok in X. destruct X as (C & A & _ & _ & X).
    apply stable_do_swap_ok in X; [|exact (authed_ne _ _ _ _ _ _ G C (Nc (or_intror eq_refl)) A)].
    destruct X as (x & am & sp & cm & ny & v1 & v2 & v3 & E). destruct E. pose proof (li_bps _ _ _ (As _ _ ls_pool)) as Bp.
    assert (Hf : 0 <= dec_bps (l_fee x) <= DEC) by (unfold dec_bps, DEC, vbps in *; lia).
    pose proof (StNums_range _ _ _ _ _ _ _ _ _ _ _ _ ls_nums Hf) as [Nq Nr]. pose proof (sm_fit _ _ _ _ _ _ _ _ _ _ _ _ ls_nums). lia.
Qed.

(** ** The trader *)
Theorem C242_trade_errors H w e self u tok pool amount ms dl mi mf d n : reachable H w -> fget self (w_trader w) = Some d ->
  (forall a, amount = Some a -> a <= I128_MAX) ->
  exec e (CTrade self u tok pool amount ms dl mi mf) w = Err (EContract n) ->
  (* Unauthorized *) (n = 6 /\ u <> d_admin d) \/
  (* InvalidMaxSpreadBps *) (n = 8 /\ exists s, ms = Some s /\ ~ 0 <= s <= 10000) \/
  (* SwapTokenNotInPair *) (n = 7 /\ tok <> d_ta d /\ tok <> d_tb d) \/
  (* the pool refuses *) swap_refused w pool tok (match amount with Some a => a | None => bal w tok u end) mi ms dl mf n.
Proof.
  intros Rc Hd Fa X. pose proof (reach_good _ _ Rc) as G. unfold exec in X. apply drop_err in X. unfold trader_trade in X.
  ew X. ew X. ew X. mine Hd.
  est X; [est X; left; split; [reflexivity|lia]|]. rin.
  right. est X; [est X; left; split; [reflexivity|]; destruct ms as [s|]; [|discriminate]; exists s; split; [reflexivity|lia]|]. rin.
  right. est X; [est X; left; split; [reflexivity|lia]|]. rin.
  right. destruct amount as [a|].
  - est X. match goal with E : mret _ _ = Ok _ |- _ => inversion E; subst; clear E end.
    eapply any_swap_err; [exact G|exact (reach_pool _ _ Rc)|exact (reach_stable _ _ Rc)|exact (Fa _ eq_refl)|exact X].
  - est X. rin. eapply any_swap_err; [exact G|exact (reach_pool _ _ Rc)|exact (reach_stable _ _ Rc)| |exact X].
    apply (good_bal w tok u G).
Qed.
Print Assumptions C242_trade_errors.

Theorem C242_trader_other_errors w e self n :
  (forall a x y o, exec e (CTraderInit self a x y o) w = Err (EContract n) ->
    (* AlreadyInitialized *) n = 10 /\ exists d, fget self (w_trader w) = Some d) /\
  (forall d u r amt t, fget self (w_trader w) = Some d -> exec e (CTraderTransfer self u r amt t) w = Err (EContract n) ->
    (* Unauthorized *) n = 6 /\ u <> d_admin d).
Proof.
  unfold exec. cbn beta iota. split.
  - intros a x y o X. unfold trader_initialize in X. ew X. ew X. est X. gtt. est X; [est X; split; [reflexivity|]|noq X].
    unfold fmem in X. destruct (fget self (w_trader _)) eqn:E; [eauto|discriminate].
  - intros d u r amt t Hd X. unfold trader_transfer in X. ew X. ew X. ew X. mine Hd. est X; [est X; split; [reflexivity|lia]|noq X].
Qed.
Print Assumptions C242_trader_other_errors.

(** ** The router *)
Lemma chained_false ops : chained ops = false -> exists l1 a b l2, ops = l1 ++ a :: b :: l2 /\ o_ask a <> o_offer b.
Proof.
  induction ops as [|a ops IH]; [discriminate|]. destruct ops as [|b ops]; [discriminate|]. cbn [chained]. intros E.
  apply andb_false_iff in E. destruct E as [E|E].
  - exists [], a, b, ops. split; [reflexivity|lia].
  - destruct (IH E) as (l1 & x & y & l2 & E1 & E2). exists (a :: l1), x, y, l2. split; [rewrite E1; reflexivity|exact E2].
Qed.

Lemma hop_swaps_err e self f u ms dl mf n ops : forall amt w, Good w -> AllPool w -> AllStable w -> fget self (w_code w) = Some KHop ->
  amt <= I128_MAX -> hop_swaps e self f u ops amt ms dl mf w = Err (EContract n) ->
  exists l1 o l2 a w1, ops = l1 ++ o :: l2 /\ hop_swaps e self f u l1 amt ms dl mf w = Ok (a, w1) /\
    (fact_pool_by_pair f (o_offer o) (o_ask o) w1 = Err (EContract n) \/
     exists p, fact_pool_by_pair f (o_offer o) (o_ask o) w1 = Ok (p, w1) /\ swap_refused w1 p (o_offer o) a (o_min o) ms dl mf n).
Proof.
  induction ops as [|o ops IH]; intros amt w G Ap As C Fa X; [discriminate X|]. simpl in X.
  apply mbind_err in X. destruct X as [X|(p & w1 & Q & X)].
  - exists [], o, ops, amt, w. split; [reflexivity|]. split; [reflexivity|]. left. exact X.
  - pose proof Q as Q0. apply pure_fact_pool_by_pair in Q0. subst w1. apply mbind_err in X. destruct X as [X|(v & w2 & Sw & X)].
    + exists [], o, ops, amt, w. split; [reflexivity|]. split; [reflexivity|]. right. exists p. split; [exact Q|].
      exact (any_swap_err _ _ _ _ _ _ _ _ _ _ _ _ G Ap As Fa X).
    + pose proof (framek_any_swap _ _ _ _ _ _ _ _ _ _ _ _ _ Sw G) as [G' [X' _]].
      assert (N : not_pool w (Some self)) by (intros a' E; inversion E; subst; split; congruence).
      apply IH in X; [|exact G'|exact (any_swap_pools _ _ _ _ _ _ _ _ _ _ _ _ _ Sw G N Ap)|exact (any_swap_stables _ _ _ _ _ _ _ _ _ _ _ _ _ Sw G N As)
        |exact (ex_code _ _ X' _ _ C)|exact (any_swap_fits _ _ _ _ _ _ _ _ _ _ _ _ _ G Ap As N Sw)].
      destruct X as (l1 & o' & l2 & a & w3 & E1 & E2 & D). exists (o :: l1), o', l2, a, w3. split; [rewrite E1; reflexivity|].
      split; [|exact D]. simpl. unfold mbind at 1. rewrite Q. unfold mbind. rewrite Sw. exact E2.
Qed.

Lemma pair_query_err w c a b n : fact_pool_by_pair c a b w = Err (EContract n) -> n = 4 /\ exists f, fact_at w c f /\ pair_get f a b = None /\ pair_get f b a = None.
Proof.
  intros X. unfold fact_pool_by_pair in X. ew X. ew X. match goal with R : fget c (w_fact w) = Some ?q |- _ => rename q into f; rename R into Hf end.
  destruct (pair_get f a b) eqn:E1; [discriminate X|]. destruct (pair_get f b a) eqn:E2; [discriminate X|].
  unfold mfail in X. inversion X; subst. split; [reflexivity|]. exists f. auto.
Qed.

(** the pair of tokens of one step of a route *)
Definition pair_of (o : SwapOp) (tk : option (Addr * Addr)) : Prop := tk = Some (o_offer o, o_ask o) \/ tk = Some (o_ask o, o_offer o).

Theorem C242_route_errors H w e self u ops ms amt dl mf h n : reachable H w -> fget self (w_hop w) = Some h -> amt <= I128_MAX ->
  exec e (CHopSwap self u ops ms amt dl mf) w = Err (EContract n) ->
  (* OperationsEmpty *) (n = 2 /\ ops = []) \/
  (* IncorrectAssetSwap *) (n = 3 /\ exists l1 a b l2, ops = l1 ++ a :: b :: l2 /\ o_ask a <> o_offer b) \/
  (* one step fails, those before it having gone through *)
  exists l1 o l2 ps a w1 f, ops = l1 ++ o :: l2 /\ Legs e (h_fact h) u ms dl mf l1 ps amt w a w1 /\ fact_at w (h_fact h) f /\
    ((* the factory's LiquidityPoolNotFound *) (n = 4 /\ forall p, In p (f_lps f) -> ~ pair_of o (pool_tokens w p)) \/
     (* the pool refuses *) exists p, In p (f_lps f) /\ pair_of o (pool_tokens w p) /\ swap_refused w1 p (o_offer o) a (o_min o) ms dl mf n).
Proof.
  intros Rc Hh Fa X. pose proof (reach_good _ _ Rc) as G. unfold exec in X. apply drop_err in X. unfold hop_swap in X.
  ew X. est X; [est X; left; split; [reflexivity|]; destruct ops; [reflexivity|discriminate]|]. rin.
  right. est X; [est X; left; split; [reflexivity|]; apply chained_false; exact X|]. rin.
  right. ew X. ew X. mine Hh.
  match goal with A : authed e None u = true |- _ => assert (Sg : signs e u = true) by (unfold authed in A; simpl in A; rewrite orb_false_r in A; exact A) end.
  pose proof (gd_chop _ G _ _ Hh) as C.
  apply hop_swaps_err in X; [|exact G|exact (reach_pool _ _ Rc)|exact (reach_stable _ _ Rc)|exact C|exact Fa].
  destruct X as (l1 & o & l2 & a & w1 & E1 & E2 & D).
  pose proof (framek_hop_swaps _ _ _ _ _ _ _ _ _ _ _ _ E2 G) as [Gd1 [Xt1 [_ [_ [_ Ut]]]]].
  pose proof (proj1 (hop_legs _ _ _ _ _ _ _ _ Sg _ _ _ _) E2) as [ps Lg].
  assert (Fq : forall f0, fact_at w1 (h_fact h) f0 -> fget (h_fact h) (w_code w) = Some KFact -> fact_at w (h_fact h) f0).
  { intros f0 E Ck. unfold fact_at in *. rewrite <- E. symmetry. apply (ut_fact _ _ _ (Ut _ _ Ck ltac:(intros [|]; discriminate))). }
  assert (Ck : fget (h_fact h) (w_code w1) = Some KFact -> fget (h_fact h) (w_code w) = Some KFact).
  { pose proof (sc_hop_swaps _ _ _ _ _ _ _ _ _ _ _ _ E2) as Sc. unfold SameCode in Sc. rewrite Sc. auto. }
  destruct D as [D|(p & D & Rf)].
  - apply pair_query_err in D. destruct D as (-> & f & Hf & P1 & P2).
    pose proof (Fq _ Hf (Ck (gd_cfact _ Gd1 _ _ Hf))) as Hf0.
    exists l1, o, l2, ps, a, w1, f. split; [exact E1|]. split; [exact Lg|]. split; [exact Hf0|]. left. split; [reflexivity|].
    intros p I T. pose proof (proj2 (pair_query_spec _ _ _ _ (o_offer o) (o_ask o) p Rc Hf0) (conj I T)) as Q.
    rewrite (pair_query _ _ _ _ _ (gd_cfact _ G _ _ Hf0) Hf0), P1, P2 in Q. discriminate Q.
  - assert (Ef : exists f, fact_at w1 (h_fact h) f).
    { unfold fact_pool_by_pair in D. apply mbind_ok in D. destruct D as (? & ? & D1 & D). apply mbind_ok in D. destruct D as (q & ? & D2 & _). winv. eauto. }
    destruct Ef as [f Hf]. pose proof (gd_cfact _ Gd1 _ _ Hf) as Cf1. pose proof (Fq _ Hf (Ck Cf1)) as Hf0.
    exists l1, o, l2, ps, a, w1, f. split; [exact E1|]. split; [exact Lg|]. split; [exact Hf0|]. right. exists p.
    assert (Q : fact_pool_by_pair (h_fact h) (o_offer o) (o_ask o) w = Ok (p, w)).
    { rewrite (pair_query _ _ _ _ _ (Ck Cf1) Hf0). rewrite (pair_query _ _ _ _ _ Cf1 Hf) in D.
      destruct (pair_get f (o_offer o) (o_ask o)); [inversion D; reflexivity|]. destruct (pair_get f (o_ask o) (o_offer o)); inversion D; reflexivity. }
    apply (pair_query_spec _ _ _ _ _ _ _ Rc Hf0) in Q. destruct Q as [I T]. split; [exact I|]. split; [exact T|exact Rf].
Qed.
Print Assumptions C242_route_errors.

Theorem C242_router_other_errors w e self n :
  (forall a f, exec e (CHopInit self a f) w = Err (EContract n) -> (* AlreadyInitialized *) n = 1 /\ exists h, fget self (w_hop w) = Some h) /\
  (forall x, exec e (CHopUpdate self x) w <> Err (EContract n)).
Proof.
  unfold exec. cbn beta iota. split.
  - intros a f X. unfold hop_initialize in X. ew X. est X. gtt. est X; [est X; split; [reflexivity|]|noq X].
    unfold fmem in X. destruct (fget self (w_hop _)) eqn:E; [eauto|discriminate].
  - intros x X. unfold hop_update in X. noq X.
Qed.
Print Assumptions C242_router_other_errors.
