(** C221-C226: what a token that refuses some holder (frozen, or without a trustline) stops. *)
From Coq Require Import ZArith List Bool String Lia.
From Coq Require Import ZifyBool.
From Verif Require Import Base FMap Decimal DecimalProofs Curve World Token TokenProofs Frame Stake Pool PoolProofs
  Stable StableProofs Rewards Vest Factory Router System SysFrame SysInv SysPool SysStable SysSupply
  SysVest SysStake SysRewards SysFact Script Runs Props_Token Props_Pool Props_Stable Props_Vest Props_Stake Props_Rewards Props_Live
  Props_LiveTok Props_LiveStable Props_LiveStake Props_Factory Props_LiveFact Props_LiveVest Props_LiveMisc Props_Router Props_Calls Props_Effects
  Props_Effects2 Events EventsErase EventsLog EventsTok EventsExact EventsExact2 EventsReplay EventsBooks Props_Events Frozen.
Import ListNotations.
Open Scope string_scope.
Open Scope list_scope.
Open Scope Z_scope.

(** ** Plumbing *)
Definition free (B : Refusals) (t : Addr) (xs : list Addr) : Prop := forall x, In x xs -> B t x = false.
Lemma free2 B t x y : free B t [x; y] <-> B t x = false /\ B t y = false.
Proof. unfold free. split; [intros F; split; apply F; simpl; auto|]. intros [A C] z [<-|[<-|[]]]; auto. Qed.
Lemma free3 B t x y z : free B t [x; y; z] <-> B t x = false /\ B t y = false /\ B t z = false.
Proof. unfold free. split; [intros F; repeat split; apply F; simpl; auto|]. intros [A [C D]] v [<-|[<-|[<-|[]]]]; auto. Qed.
Lemma passes_iff (B : Refusals) e k w w' (P : Prop) :
  (forall L, lexec e k (w, []) = Ok (tt, (w', L)) -> (forallb (moves_ok B) L = true <-> P)) ->
  (passes B e k w w' <-> exec e k w = Ok (tt, w') /\ P).
Proof.
  intros Q. split.
  - intros [L [X F]]. split; [eapply lexec_exec; eauto|]. apply (Q L); auto.
  - intros [X F]. destruct (exec_lexec _ _ _ _ X) as [L Y]. exists L. split; auto. apply (Q L); auto.
Qed.
Ltac cases B := repeat match goal with |- context [B ?t ?x] => destruct (B t x) end; cbn; intuition (try discriminate).

(** ** C221: a swap needs the trader, the pool and the fee recipient *)
Theorem C221_swap_needs H w B e self p u offer amt mi ms dl mf x y buy w' :
  reachable H w -> pool_at w self p -> side p offer x y buy ->
  (passes B e (CPoolSwap self u offer amt mi ms dl mf) w w' <->
   exec e (CPoolSwap self u offer amt mi ms dl mf) w = Ok (tt, w') /\
   free B offer [u; self] /\ free B buy [u; self; p_feerec p]).
Proof.
  intros R Hp Sd. apply passes_iff. intros L X. rewrite (C162_swap_events _ _ _ _ _ _ _ _ _ _ _ _ _ _ _ _ _ R Hp Sd X).
  rewrite free2, free3. cbn [forallb moves_ok]. cases B.
Qed.
Print Assumptions C221_swap_needs.

Theorem C221_stable_swap_needs H w B e self p u offer amt mi ms dl mf x y buy w' :
  reachable H w -> stable_at w self p -> lside p offer x y buy ->
  (passes B e (CStableSwap self u offer amt mi ms dl mf) w w' <->
   exec e (CStableSwap self u offer amt mi ms dl mf) w = Ok (tt, w') /\
   free B offer [u; self] /\ free B buy [u; self; l_feerec p]).
Proof.
  intros R Hp Sd. apply passes_iff. intros L X.
  destruct (C162_stable_swap_events _ _ _ _ _ _ _ _ _ _ _ _ _ R X) as [q [q' [x0 [y0 [buy0 [ret [fee [Eq [_ [Sq [_ [_ ->]]]]]]]]]]]].
  unfold stable_at in *. rewrite Hp in Eq. inversion Eq; subst q.
  destruct (lside_eq _ _ _ _ _ Sd) as [_ [_ E1]]. destruct (lside_eq _ _ _ _ _ Sq) as [_ [_ E2]].
  assert (E3 : buy0 = buy) by congruence. rewrite E3. clear E1 E2 E3.
  rewrite free2, free3. cbn [forallb moves_ok].
  cases B.
Qed.
Print Assumptions C221_stable_swap_needs.

(** the same for every leg of a route, with the pools and fee recipients of the ledger before the call *)
Definition leg_free (B : Refusals) (w : World) (f u : Addr) (o : SwapOp) : Prop :=
  forall p rec, fact_pool_by_pair f (o_offer o) (o_ask o) w = Ok (p, w) -> fee_recipient w p = Some rec ->
    free B (o_offer o) [u; p] /\ free B (o_ask o) [u; p; rec].

Lemma pool_by_pair_local f a b w w' p : w_code w' = w_code w -> w_fact w' = w_fact w ->
  fact_pool_by_pair f a b w = Ok (p, w) -> fact_pool_by_pair f a b w' = Ok (p, w').
Proof.
  intros E1 E2 X. unfold fact_pool_by_pair in *.
  apply mbind_ok in X. destruct X as [z [w1 [Q X]]]. apply enter_ok in Q. destruct Q as [C ->].
  apply mbind_ok in X. destruct X as [g [w1 [Q X]]]. apply get_fact_ok in Q. destruct Q as [C1 ->].
  rewrite (run_bind _ _ _ tt w') by (apply run_enter; congruence).
  rewrite (run_bind _ _ _ g w') by (unfold get_fact; rewrite E2, C1; reflexivity).
  destruct (pair_get g a b); [|destruct (pair_get g b a)]; inversion X; subst; reflexivity.
Qed.

Lemma legs_free H B e f u ms dl mf ops x w w' L : e_hash e = H -> reachable H w -> LegLogs e f u ms dl mf ops x w w' L ->
  (forallb (moves_ok B) L = true <-> forall o, In o ops -> leg_free B w f u o).
Proof.
  intros Eh R X. revert R. induction X as [x w|o ops p x y w w1 w2 L1 L2 Q D XL X IH]; intros R.
  - split; [intros _ o []|reflexivity].
  - destruct (leg_facts _ _ _ _ _ _ _ _ _ _ _ _ _ R Eh Q D) as [R1 F]. specialize (IH R1).
    rewrite forallb_app, andb_true_iff, IH. clear IH.
    assert (T : forall o', leg_free B w1 f u o' <-> leg_free B w f u o').
    { intros o'. unfold leg_free. split; intros Y p0 rec E1 E2; apply Y.
      - eapply pool_by_pair_local; [apply (lg_code _ _ _ _ _ _ _ _ _ F)|apply (lg_fact _ _ _ _ _ _ _ _ _ F)|exact E1].
      - rewrite (lg_fee _ _ _ _ _ _ _ _ _ F). exact E2.
      - eapply pool_by_pair_local; [symmetry; apply (lg_code _ _ _ _ _ _ _ _ _ F)|symmetry; apply (lg_fact _ _ _ _ _ _ _ _ _ F)|exact E1].
      - rewrite <- (lg_fee _ _ _ _ _ _ _ _ _ F). exact E2. }
    assert (Hd : forallb (moves_ok B) L1 = true <-> leg_free B w f u o).
    { destruct (lg_bal _ _ _ _ _ _ _ _ _ F) as [rec0 [fee0 [Er [_ _]]]].
      assert (K : forall buy, free B (o_offer o) [u; p] /\ free B (o_ask o) [u; p; rec0] -> buy = o_ask o ->
                  free B (o_offer o) [u; p] /\ free B buy [u; p; rec0]) by (intros; subst; auto).
      assert (LF : leg_free B w f u o <-> free B (o_offer o) [u; p] /\ free B (o_ask o) [u; p; rec0]).
      { split; [intros Y; apply Y; auto|]. intros Y p0 rec E1 E2. rewrite Q in E1. inversion E1; subst p0. rewrite Er in E2. inversion E2; subst. exact Y. }
      rewrite LF, free2, free3. clear K.
      assert (Fa : exists g, fact_at w f g).
      { unfold fact_pool_by_pair in Q. apply mbind_ok in Q. destruct Q as [z1 [w3 [Q1 Q]]]. apply enter_ok in Q1. destruct Q1 as [_ ->].
        apply mbind_ok in Q. destruct Q as [g [w3 [Q1 Q]]]. apply get_fact_ok in Q1. destruct Q1 as [Q1 ->]. eauto. }
      destruct Fa as [g Eg]. apply (pair_query_spec _ _ _ _ _ _ _ R Eg) in Q. destruct Q as [_ Tk].
      destruct XL as [XL|XL].
      - pose proof (lexec_exec _ _ _ _ _ XL) as X0. simpl in X0. apply drop_ok in X0. destruct X0 as [r X0].
        assert (Ns : u <> p) by (eapply C14_sender_is_not_the_pool; [exact R| |exact X0]; discriminate).
        destruct (swap_facts _ _ _ _ _ _ _ _ _ _ _ _ _ Ns X0) as [s [s' [rx [ry [gr [fee [sp [buy SF]]]]]]]].
        pose proof (sf_before SF) as E1. pose proof (sf_side SF) as S1.
        assert (Bb : buy = o_ask o).
        { unfold pool_at in E1. unfold pool_tokens in Tk. rewrite E1 in Tk. pose proof (pi_ord _ _ _ (reach_pool _ _ R _ _ E1)) as Or.
          destruct Tk as [Tk|Tk]; inversion Tk; destruct S1 as [[A [Bq _]]|[A [A2 [Bq _]]]]; congruence || lia. }
        rewrite (C162_swap_events _ _ _ _ _ _ _ _ _ _ _ _ _ _ _ _ _ R E1 S1 XL).
        assert (rec0 = p_feerec s) by (unfold fee_recipient in Er; unfold pool_at in E1; rewrite E1 in Er; congruence).
        subst buy rec0. cbn [forallb moves_ok]. cases B.
      - destruct (C162_stable_swap_events _ _ _ _ _ _ _ _ _ _ _ _ _ R XL) as [q [q' [x0 [y0 [buy [ret [fee [E1 [_ [S1 [_ [_ ->]]]]]]]]]]]].
        unfold stable_at in E1.
        assert (Np : fget p (w_pool w) = None).
        { pose proof (reach_good _ _ R) as G. destruct (fget p (w_pool w)) eqn:Ep; auto.
          pose proof (gd_cpool _ G _ _ Ep). pose proof (gd_cstable _ G _ _ E1). congruence. }
        assert (Bb : buy = o_ask o).
        { unfold pool_tokens in Tk. rewrite Np, E1 in Tk. pose proof (li_ord _ _ _ (reach_stable _ _ R _ _ E1)) as Or.
          destruct Tk as [Tk|Tk]; inversion Tk; destruct S1 as [[A [Bq _]]|[A [A2 [Bq _]]]]; congruence || lia. }
        assert (rec0 = l_feerec q) by (unfold fee_recipient in Er; rewrite Np, E1 in Er; congruence).
        subst buy rec0. cbn [forallb moves_ok]. cases B. }
    rewrite Hd. split.
    + intros [Y Z] o' [<-|I]; [exact Y|]. apply T. apply Z. exact I.
    + intros Y. split; [apply Y; left; reflexivity|]. intros o' I. apply T. apply Y. right. exact I.
Qed.

Theorem C221_route_needs H w B e h d u ops ms amt dl mf w' : reachable H w -> e_hash e = H -> fget h (w_hop w) = Some d ->
  (passes B e (CHopSwap h u ops ms amt dl mf) w w' <->
   exec e (CHopSwap h u ops ms amt dl mf) w = Ok (tt, w') /\ forall o, In o ops -> leg_free B w (h_fact d) u o).
Proof.
  intros R Eh E. apply passes_iff. intros L X. apply (C168_route_events _ _ _ _ _ _ _ _ _ _ _ _ E) in X. eapply legs_free; eauto.
Qed.
Print Assumptions C221_route_needs.

(** ** C223: withdrawing liquidity and rewards, unbonding *)
Theorem C223_liquidity_needs H w B e self p u s m1 m2 dl w' : reachable H w -> pool_at w self p -> free B (p_share p) [u; self] ->
  (passes B e (CPoolWithdraw self u s m1 m2 dl) w w' <->
   exec e (CPoolWithdraw self u s m1 m2 dl) w = Ok (tt, w') /\ free B (p_ta p) [u; self] /\ free B (p_tb p) [u; self]).
Proof.
  intros R Hp. rewrite !free2. intros [S1 S2]. apply passes_iff. intros L X. rewrite (C163_withdrawal_events _ _ _ _ _ _ _ _ _ _ _ _ R Hp X).
  cbn [forallb moves_ok]. rewrite S1, S2. cases B.
Qed.
Print Assumptions C223_liquidity_needs.

Theorem C223_stable_liquidity_needs H w B e self p u s m1 m2 dl w' : reachable H w -> stable_at w self p -> free B (l_share p) [u; self] ->
  (passes B e (CStableWithdraw self u s m1 m2 dl) w w' <->
   exec e (CStableWithdraw self u s m1 m2 dl) w = Ok (tt, w') /\ free B (l_ta p) [u; self] /\ free B (l_tb p) [u; self]).
Proof.
  intros R Hp. rewrite !free2. intros [S1 S2]. apply passes_iff. intros L X. rewrite (C163_stable_withdrawal_events _ _ _ _ _ _ _ _ _ _ _ _ R Hp X).
  cbn [forallb moves_ok]. rewrite S1, S2. cases B.
Qed.
Print Assumptions C223_stable_liquidity_needs.

Lemma pay_log B e self u s t b l : forall w L r w' L', l_pay_rewards e self u s t b l (w, L) = Ok (r, (w', L')) ->
  exists D, L' = L ++ D /\ (forallb (moves_ok B) D = true <-> forall a, In a l -> free B a [u; self]).
Proof.
  induction l as [|a l IH]; intros w L r w' L' X.
  - inversion X; subst. exists []. rewrite app_nil_r. split; [reflexivity|]. split; [intros _ a []|reflexivity].
  - cbn [l_pay_rewards] in X.
    apply mbind_ok in X. destruct X as [p [s1 [Q X]]]. apply mlift_ok in Q. destruct Q as [p0 [_ Q]]. inversion Q; subst p0 s1; clear Q.
    apply mbind_ok in X. destruct X as [z [s1 [Q X]]]. inversion Q; subst z s1; clear Q.
    apply mbind_ok in X. destruct X as [z [[w1 L1] [Q X]]]. apply lx_transfer in Q. destruct Q as [w2 [_ Q]]. inversion Q; subst w1 L1; clear Q.
    apply IH in X. destruct X as [D [-> F]].
    exists ([(self, Pub "withdraw_rewards" "reward_token" (VZ a)); (a, TTransfer self u p)] ++ D). rewrite <- !app_assoc. split; [reflexivity|].
    rewrite forallb_app, andb_true_iff, F. cbn [forallb moves_ok app].
    split.
    + intros [Y Z] a' [<-|I]; [|auto]. apply free2. revert Y. cases B.
    + intros Y. split; [|intros; apply Y; right; auto]. specialize (Y a (or_introl eq_refl)). apply free2 in Y. destruct Y as [-> ->]. reflexivity.
Qed.

Theorem C223_rewards_need w B e c s u w' : stake_at w c s ->
  (passes B e (CWithdrawRewards c u) w w' <->
   exec e (CWithdrawRewards c u) w = Ok (tt, w') /\ forall a, In a (s_dists s) -> free B a [u; c]).
Proof.
  intros Hs. apply passes_iff. intros L X. simpl in X. unfold l_stake_withdraw_rewards in X.
  apply mbind_ok in X. destruct X as [z1 [[w1 l1] [Q X]]]. apply lf_ok in Q. destruct Q as [w2 [Q K]]. apply enter_ok in Q. destruct Q as [_ ->]. inversion K; subst w1 l1; clear K.
  apply mbind_ok in X. destruct X as [z [s1 [Q X]]]. inversion Q; subst z s1; clear Q.
  apply mbind_ok in X. destruct X as [s0 [[w1 l1] [Q X]]]. apply lf_ok in Q. destruct Q as [w2 [Q K]]. apply get_stake_ok in Q. destruct Q as [Q ->]. inversion K; subst w1 l1; clear K.
  unfold stake_at in Hs. rewrite Hs in Q. inversion Q; subst s0; clear Q.
  apply mbind_ok in X. destruct X as [t [[w1 l1] [Q X]]]. apply lf_ok in Q. destruct Q as [w2 [Q K]]. inversion Q; subst w2. inversion K; subst w1 l1; clear K Q.
  apply mbind_ok in X. destruct X as [z [[w1 l1] [Q X]]]. apply (pay_log B) in Q. destruct Q as [D [-> F]].
  apply lf_ok in X. destruct X as [w2 [_ K]]. inversion K; subst. cbn [app forallb moves_ok fst snd]. rewrite <- F. reflexivity.
Qed.
Print Assumptions C223_rewards_need.

Theorem C223_unbonding_needs w B e c s u amt ts w' : stake_at w c s ->
  (passes B e (CUnbond c u amt ts) w w' <->
   exec e (CUnbond c u amt ts) w = Ok (tt, w') /\ free B (s_lp s) [u; c]).
Proof.
  intros Hs. apply passes_iff. intros L X. simpl in X. unfold l_stake_unbond in X. linv X.
  unfold stake_at in Hs. 
  match goal with K : fget c (w_stake _) = Some ?q |- _ => assert (q = s) by congruence; subst q end.
  rewrite free2. cbn [app forallb moves_ok snd fst]. cases B.
Qed.
Print Assumptions C223_unbonding_needs.

(** ** C225: somebody else can withdraw for a refused provider *)
Theorem C225_shares_can_be_passed_on H w B e self p u v s m1 m2 dl w' e1 e2 :
  reachable H w -> e_hash e1 = H -> pool_at w self p -> exec e (CPoolWithdraw self u s m1 m2 dl) w = Ok (tt, w') ->
  u <> v -> signs e1 u = true -> signs e2 v = true ->
  free B (p_share p) [u; self; v] -> free B (p_ta p) [v; self] -> free B (p_tb p) [v; self] ->
  bal w (p_share p) v + s <= I128_MAX ->
  (forall t, t = p_ta p \/ t = p_tb p -> bal w t v + (bal w' t u - bal w t u) <= I128_MAX) ->
  exists w1 w2, passes B e1 (CTransfer (p_share p) u v s) w w1 /\ passes B e2 (CPoolWithdraw self v s m1 m2 dl) w1 w2 /\
    (forall t, t = p_ta p \/ t = p_tb p -> bal w2 t v - bal w t v = bal w' t u - bal w t u /\ bal w2 t u = bal w t u) /\
    bal w2 (p_share p) v = bal w (p_share p) v /\ bal w2 (p_share p) u = bal w' (p_share p) u.
Proof.
  intros R Eh Hp X Nuv S1 S2 F1 F2 F3 Fs Ft. rewrite free3 in F1. destruct F1 as [Bu [Bs Bv]].
  pose proof (reach_good _ _ R) as G. pose proof (gd_cpool _ G _ _ Hp) as Hc. pose proof (gd_pos _ G _ _ Hc) as Ps.
  pose proof (reach_pool _ _ R _ _ Hp) as I. pose proof (pi_ord _ _ _ I) as Od. pose proof (pi_sa _ _ _ I) as Sa. pose proof (pi_sb _ _ _ I) as Sb.
  simpl in X. apply drop_ok in X. destruct X as [[a b] X].
  pose proof (proj1 (C120_withdrawal_succeeds_iff H w e self p u s m1 m2 dl R Hp) (ex_intro _ _ (ex_intro _ _ X))) as [Sg [Dl [Hs [M1 [M2 [O1 [O2 [O3 [O4 O5]]]]]]]]].
  destruct (C153_withdrawal_effect _ _ _ _ _ _ _ _ _ _ _ _ _ R Hp X) as [Ea [Eb [_ [Bw _]]]].
  assert (Nu : u <> self) by (intros ->; rewrite signs_neg in Sg by lia; discriminate).
  assert (Nv : v <> self) by (intros ->; rewrite signs_neg in S2 by lia; discriminate).
  assert (Da : bal w' (p_ta p) u - bal w (p_ta p) u = a).
  { rewrite Bw. unfold on. rewrite !Z.eqb_refl. destruct (Z.eqb_spec (p_ta p) (p_share p)); [congruence|].
    destruct (Z.eqb_spec (p_ta p) (p_tb p)); [lia|]. destruct (Z.eqb_spec u self); [congruence|]. cbn [andb]. lia. }
  assert (Db : bal w' (p_tb p) u - bal w (p_tb p) u = b).
  { rewrite Bw. unfold on. rewrite !Z.eqb_refl. destruct (Z.eqb_spec (p_tb p) (p_share p)); [congruence|].
    destruct (Z.eqb_spec (p_tb p) (p_ta p)); [lia|]. destruct (Z.eqb_spec u self); [congruence|]. cbn [andb]. lia. }
  assert (Du : bal w' (p_share p) u = bal w (p_share p) u - s).
  { rewrite Bw. unfold on. rewrite !Z.eqb_refl. destruct (Z.eqb_spec (p_share p) (p_ta p)); [congruence|].
    destruct (Z.eqb_spec (p_share p) (p_tb p)); [congruence|]. cbn [andb]. lia. }
  assert (Tk : is_tok w (p_share p)).
  { pose proof (pi_adm _ _ _ I) as A. unfold tadmin in A. destruct (fget (p_share p) (w_tok w)) as [k|] eqn:E; [exists k; exact E|discriminate]. }
  destruct (run_transfer e1 None (p_share p) u v s w G) as [w1 [T1 M]]; [rewrite authed_none; exact S1|exact Tk|lia|right; lia|].
  assert (X1 : exec e1 (CTransfer (p_share p) u v s) w = Ok (tt, w1)) by exact T1.
  assert (R1 : reachable H w1) by (eapply reach_tx; eauto).
  assert (Hp1 : pool_at w1 self p) by (unfold pool_at; rewrite (mv_rest _ _ _ _ _ _ M); exact Hp).
  assert (N1 : w_now w1 = w_now w) by (rewrite (mv_rest _ _ _ _ _ _ M); reflexivity).
  assert (B1 : forall t x, t <> p_share p -> bal w1 t x = bal w t x).
  { intros t x Nt. rewrite (mv_bal _ _ _ _ _ _ M). destruct (Z.eqb_spec t (p_share p)); [congruence|]. cbn. lia. }
  assert (B1v : bal w1 (p_share p) v = bal w (p_share p) v + s).
  { rewrite (mv_bal _ _ _ _ _ _ M), !Z.eqb_refl. destruct (Z.eqb_spec v u); [congruence|]. cbn. lia. }
  assert (B1u : bal w1 (p_share p) u = bal w (p_share p) u - s).
  { rewrite (mv_bal _ _ _ _ _ _ M), !Z.eqb_refl. destruct (Z.eqb_spec u v); [congruence|]. cbn. lia. }
  pose proof (good_bal w (p_share p) v G) as Pv.
  pose proof (Ft _ (or_introl eq_refl)) as Fa. pose proof (Ft _ (or_intror eq_refl)) as Fb. rewrite Da in Fa. rewrite Db in Fb.
  assert (Y : exists r w2, pool_withdraw e2 None self v s m1 m2 dl w1 = Ok (r, w2)).
  { apply (C120_withdrawal_succeeds_iff H w1 e2 self p v s m1 m2 dl R1 Hp1). rewrite N1, B1v, !B1 by congruence.
    rewrite <- Ea, <- Eb. rewrite <- Ea in M1. rewrite <- Eb in M2. repeat split; auto; lia. }
  destruct Y as [[a2 b2] [w2 Y]].
  destruct (C153_withdrawal_effect _ _ _ _ _ _ _ _ _ _ _ _ _ R1 Hp1 Y) as [Ea2 [Eb2 [_ [Bw2 _]]]].
  assert (a2 = a) by congruence. assert (b2 = b) by congruence. subst a2 b2.
  exists w1, w2. split; [|split; [|split; [|split]]].
  - exists [(p_share p, TTransfer u v s)]. split.
    + simpl. unfold l_transfer, mbind, lf. cbn [fst snd]. rewrite T1. reflexivity.
    + cbn. rewrite Bu, Bv. reflexivity.
  - apply (C223_liquidity_needs H w1 B e2 self p v s m1 m2 dl w2 R1 Hp1); [apply free2; auto|].
    split; [simpl; unfold drop, mbind; rewrite Y; reflexivity|auto].
  - intros t [->| ->].
    + rewrite Da, !Bw2, !B1 by congruence. unfold on. rewrite !Z.eqb_refl. destruct (Z.eqb_spec (p_ta p) (p_share p)); [congruence|].
      destruct (Z.eqb_spec (p_ta p) (p_tb p)); [lia|]. destruct (Z.eqb_spec u self); [congruence|]. destruct (Z.eqb_spec v self); [congruence|].
      destruct (Z.eqb_spec u v); [congruence|]. cbn [andb]. lia.
    + rewrite Db, !Bw2, !B1 by congruence. unfold on. rewrite !Z.eqb_refl. destruct (Z.eqb_spec (p_tb p) (p_share p)); [congruence|].
      destruct (Z.eqb_spec (p_tb p) (p_ta p)); [lia|]. destruct (Z.eqb_spec u self); [congruence|]. destruct (Z.eqb_spec v self); [congruence|].
      destruct (Z.eqb_spec u v); [congruence|]. cbn [andb]. lia.
  - rewrite Bw2, B1v. unfold on. rewrite !Z.eqb_refl. destruct (Z.eqb_spec (p_share p) (p_ta p)); [congruence|].
    destruct (Z.eqb_spec (p_share p) (p_tb p)); [congruence|]. cbn [andb]. lia.
  - rewrite Bw2, B1u, Du. unfold on. destruct (Z.eqb_spec (p_share p) (p_ta p)); [congruence|].
    destruct (Z.eqb_spec (p_share p) (p_tb p)); [congruence|]. destruct (Z.eqb_spec u v); [congruence|]. rewrite !andb_false_r. cbn [andb]. lia.
Qed.
Print Assumptions C225_shares_can_be_passed_on.
