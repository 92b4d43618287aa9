(** C209-C213: what the queries answer and when they are served. *)
From Coq Require Import ZArith List Bool Lia.
From Verif Require Import Base FMap Decimal Curve World Token Frame Stake Pool Stable Rewards Vest Factory Router Extra System SysFrame SysInv SysFact Script
  TokenProofs PoolProofs SysPool SysSupply SysRewards SysStable Runs Props_Live Props_Token Props_Pool Props_PoolCases Props_Stable Props_Stake Props_Vest Props_Rewards Props_Factory Props_FactoryCases.
From Verif Require Import Touch TouchErase Life TouchCover TouchGrow LifeLemmas TouchLogs TouchCost Props_Touch Props_TouchCases
  Footprint FootprintSim FootprintFrame Props_Footprint.
From Verif Require Import Queries QueriesErase QueriesObs QueriesSim QueriesTime Props_Queries.
Import ListNotations.
Open Scope list_scope.
Open Scope Z_scope.

(** ** C209: one lapsed pool stops the listing of all pools and everybody's portfolio *)
Lemma em_any_info p : emits (mkT p YInst Look) (z_any_info p).
Proof.
  unfold z_any_info. apply em_r; [logT|]. intros w. destruct (fget p (w_code w)) as [[]|]; try (intros ? ?; exact I).
  - unfold z_pool_info, z_pool_query. apply em_l; [|intros; logTs]. apply em_r; [logT|]. intros _. apply em_l; [|intros; logTs]. apply em_note. left; reflexivity.
  - unfold z_stable_info, z_stable_query. apply em_l; [|intros; logTs]. apply em_r; [logT|]. intros _. apply em_l; [|intros; logTs]. apply em_note. left; reflexivity.
Qed.
Lemma em_rows l p : In p l -> emits (mkT p YInst Look) (z_rows l).
Proof.
  induction l as [|q l IH]; [intros []|intros [->|I]]; cbn [z_rows].
  - apply em_l; [apply em_any_info | intros; logTs].
  - apply em_r; [logT|]. intros i. apply em_l; [auto | intros; logTs].
Qed.
Lemma em_portfolio u b l p : In p l -> emits (mkT p YInst Look) (z_portfolio l u b).
Proof.
  induction l as [|q l IH]; [intros []|intros [->|I]]; cbn [z_portfolio].
  - apply em_l; [apply em_any_info | intros; logTs].
  - do 5 (apply em_r; [logT|]; intros ?). apply em_r; [logT|]; intros [xa xb]. apply em_l; [auto | intros [? ?]; logTs].
Qed.
Theorem C209_one_lapsed_pool_stops_the_listing H m w L f g p v q a D : lreach H m w L -> fact_at w f g -> In p (f_lps g) ->
  L p YInst = Some v -> v < w_seq w -> (q = QAllDetails f \/ exists u b, q = QPortfolio f u b) ->
  zanswer q (w, []) = Ok (a, (w, D)) -> replay m (w_seq w) L D = None.
Proof.
  intros R E I Lv V Q X. destruct (replay m (w_seq w) L D) as [L'|] eqn:Y; [|reflexivity]. exfalso.
  assert (T : In (mkT p YInst Look) D).
  { destruct Q as [->|(u & b & ->)]; cbn [zanswer] in X; unfold amap in X; apply mbind_ok in X as (x & s & X & Z); inversion Z; subst; clear Z.
    - unfold z_all_details in X. apply mbind_ok in X as (g' & s & X0 & X). destruct (ob_fact_query w f [YLps] ltac:(intros ? G; repeat constructor; cbn; rewrite (here _ _ _ G); reflexivity) _ _ _ X0) as (D0 & -> & _ & G).
      assert (g' = g) by (unfold fact_at in E; congruence). subst g'.
      pose proof (em_rows (f_lps g) p I w ([] ++ D0)) as M. rewrite X in M. destruct M as (D1 & -> & M). apply in_or_app. auto.
    - unfold z_folio in X. apply mbind_ok in X as (g' & s & X0 & X). destruct (ob_fact_query w f [YLps] ltac:(intros ? G; repeat constructor; cbn; rewrite (here _ _ _ G); reflexivity) _ _ _ X0) as (D0 & -> & _ & G).
      assert (g' = g) by (unfold fact_at in E; congruence). subst g'.
      pose proof (em_portfolio u b (f_lps g) p I w ([] ++ D0)) as M. rewrite X in M. destruct M as (D1 & -> & M). apply in_or_app. auto. }
  pose proof (replay_live _ _ _ _ _ Y _ _ T Lv). lia.
Qed.
Print Assumptions C209_one_lapsed_pool_stops_the_listing.

(** ** C210: the listing always answers, one row for every pool, in the order of creation, with the
    pool's own record *)
Lemma answer_of {A} (f : A -> Answer) q (m : TST A) (m0 : ST World A) w a : zanswer q = amap f m -> touches m m0 -> m0 w = Ok (a, w) -> answer q w = Ok (f a).
Proof. intros E T X. rewrite (said_of _ _ _ _ _ E T), X. reflexivity. Qed.
Lemma row_exists H w f g p : reachable H w -> fact_at w f g -> In p (f_lps g) -> exists i, pool_row w p = Some i.
Proof.
  intros R E I. destruct (C62_registry_is_exact _ _ _ _ R E) as [A _]. destruct (A _ I) as (a & b & _ & T & _).
  unfold pool_tokens, pool_row in *. destruct (fget p (w_pool w)); [eauto|]. destruct (fget p (w_stable w)); [eauto | discriminate].
Qed.
Lemma rows_run H w l : reachable H w -> (forall p, In p l -> exists i, pool_row w p = Some i) ->
  exists r, pools_details l w = Ok (r, w) /\ length r = length l /\ forall p i, In (p, i) (List.combine l r) -> pool_row w p = Some i.
Proof.
  intros R. induction l as [|p l IH]; intros P; [exists []; repeat split; intros ? ? []|].
  destruct (P p) as [i Ei]; [left; reflexivity|]. destruct IH as (r & X & N & Z); [intros; apply P; right; auto|].
  exists (i :: r). cbn [pools_details]. unfold mbind. rewrite (any_info_runs _ _ _ _ R Ei), X. split; [reflexivity|]. split; [cbn; congruence|].
  intros p0 i0 [Q|Q]; [inversion Q; subst; exact Ei | auto].
Qed.
Lemma combine_fst {A B} (l : list A) (r : list B) : length r = length l -> map fst (List.combine l r) = l.
Proof. revert r. induction l; intros [|b r] E; try discriminate; cbn; f_equal; auto. Qed.
Theorem C210_listing_is_exact H w f g : reachable H w -> fact_at w f g ->
  answer (QPools f) w = Ok (AInts (f_lps g)) /\
  exists rows, answer (QAllDetails f) w = Ok (ARows rows) /\ map fst rows = f_lps g /\
    forall p i, In (p, i) rows -> pool_row w p = Some i /\ answer (QDetails f p) w = Ok (ARow p i).
Proof.
  intros R E. pose proof (reach_good _ _ R) as G. unfold fact_at in E. pose proof (gd_cfact _ G _ _ E) as C.
  assert (X : (enter f KFact ;; get_fact f) w = Ok (g, w)).
  { rewrite (run_bind _ _ _ tt w) by (apply run_enter, C). unfold get_fact. rewrite E. reflexivity. }
  split; [eapply (answer_of (fun x => AInts (f_lps x))); [reflexivity | apply tc_fact_query | exact X]|].
  destruct (rows_run H w (f_lps g) R) as (r & Y & N & Z); [intros p I; eapply row_exists; eauto|].
  exists (List.combine (f_lps g) r). split; [|split; [apply combine_fst, N|]].
  - eapply (answer_of ARows) with (m0 := x <- (enter f KFact ;; get_fact f) ;; (r <- pools_details (f_lps x) ;; mret (List.combine (f_lps x) r))).
    + reflexivity.
    + unfold z_all_details. apply tc_bind; [apply tc_fact_query | intros; apply tc_rows].
    + unfold mbind at 1. rewrite X. unfold mbind. rewrite Y. reflexivity.
  - intros p i I. pose proof (Z _ _ I) as P. split; [exact P|].
    eapply (answer_of (ARow p)) with (m0 := enter f KFact ;; any_pool_info p).
    + reflexivity.
    + unfold z_details. apply tc_bind; [apply tc_tf | intros _]. apply tc_note. apply tc_any_info.
    + rewrite (run_bind _ _ _ tt w) by (apply run_enter, C). eapply any_info_runs; eauto.
Qed.
Print Assumptions C210_listing_is_exact.

(** ** C211: distributed and undistributed rewards *)
Theorem C211_undistributed_rewards H w c r k a : reachable H w -> rewards_at w c r -> fget (r_token r) (w_tok w) = Some k ->
  answer (QDistributed c (r_token r)) w = Ok (AInt (r_dist r)) /\
  answer (QUndistributed c (r_token r)) w = Ok (AInt (bal w (r_token r) c - r_wdr r)) /\ 0 <= bal w (r_token r) c - r_wdr r /\
  (a <> r_token r -> answer (QDistributed c a) w = Err EPanic /\ answer (QUndistributed c a) w = Err EPanic).
Proof.
  intros R E T. pose proof (reach_good _ _ R) as G. unfold rewards_at in E. pose proof (gd_crewards _ G _ _ E) as C.
  pose proof (reach_rewards _ _ R _ _ E) as I. pose proof (rv_wdr _ _ _ I) as W. pose proof (good_bal w (r_token r) c G) as B.
  assert (X : forall ks ls l, exists D, z_rewards_query c ks ls (w, l) = Ok (r, (w, D))).
  { intros ks ls l. pose proof (tc_rewards_query c ks ls w l) as Q. rewrite (run_bind _ _ _ tt w) in Q by (apply run_enter, C). unfold get_rewards in Q. rewrite E in Q.
    destruct Q as (D & ->). eauto. }
  assert (Y : forall l, exists D, z_balance (r_token r) c (w, l) = Ok (bal w (r_token r) c, (w, D))).
  { intros l. pose proof (tc_balance (r_token r) c w l) as Q. unfold tok_balance, mbind, get_tok in Q. rewrite T in Q. cbn in Q. destruct Q as (D & ->).
    exists (l ++ D). unfold bal. rewrite T. reflexivity. }
  split; [|split; [|split; [lia|]]].
  - unfold answer. cbn [zanswer]. unfold amap, z_distributed, mbind. destruct (X [] [YDistr] []) as (D & ->). unfold mguard. rewrite Z.eqb_refl. reflexivity.
  - unfold answer. cbn [zanswer]. unfold amap, z_undistributed, mbind. destruct (X [] [YDistr] []) as (D & ->). unfold mguard. rewrite Z.eqb_refl. cbn [mret].
    destruct (Y D) as (D2 & ->). unfold mlift. rewrite i2u_runs by lia. rewrite sub_u_intro by (unfold I128_MAX, U128_MAX in *; lia). reflexivity.
  - intros N. apply Z.eqb_neq in N. unfold answer. cbn [zanswer]. unfold amap, z_distributed, z_undistributed, mbind.
    destruct (X [] [YDistr] []) as (D & ->). unfold mguard. rewrite N. auto.
Qed.
Print Assumptions C211_undistributed_rewards.

(** ** C212: which entries queries keep alive *)
Theorem C212_never_extended_by_queries H q w a D c y : reachable H w -> zanswer q (w, []) = Ok (a, (w, D)) ->
  (In (mkT c y Peek) D \/ exists t, In (mkT c y (Bump t)) D) ->
  y <> YInit /\ y <> YSlip /\ y <> YStab /\ y <> YCurve /\ y <> YDistr /\ (forall u, y <> YAdj u) /\
  (y = YAdmin -> fget c (w_pool w) = None /\ fget c (w_vest w) = None).
Proof.
  intros R X I. destruct (ob_zanswer w q _ _ _ X) as (D' & E' & F & _). cbn in E'. inversion E'; subst D'. rewrite Forall_forall in F.
  assert (K : fresh w c y = true).
  { destruct I as [I|[t I]]; specialize (F _ I); unfold mild in F; cbn in F; [exact F | now apply andb_true_iff in F]. }
  repeat (split; [intros ->; discriminate K|]). split; [intros u ->; discriminate K|]. intros ->. cbn in K. pose proof (reach_good _ _ R) as G.
  assert (C : exists k, fget c (w_code w) = Some k /\ k <> KPool /\ k <> KVest).
  { unfold fmem in K. destruct (fget c (w_stake w)) eqn:E1; [exists KStake; rewrite (gd_cstake _ G _ _ E1); repeat split; discriminate|].
    destruct (fget c (w_rewards w)) eqn:E2; [exists KRewards; rewrite (gd_crewards _ G _ _ E2); repeat split; discriminate|].
    destruct (fget c (w_trader w)) eqn:E3; [exists KTrader; rewrite (gd_ctrader _ G _ _ E3); repeat split; discriminate | discriminate K]. }
  destruct C as (k & C & N1 & N2). split.
  - destruct (fget c (w_pool w)) eqn:E; [|reflexivity]. pose proof (gd_cpool _ G _ _ E). congruence.
  - destruct (fget c (w_vest w)) eqn:E; [|reflexivity]. pose proof (gd_cvest _ G _ _ E). congruence.
Qed.
Print Assumptions C212_never_extended_by_queries.
(** every other entry of an initialised contract can be kept alive with a query by anyone: left out
    below are the three records of a staking contract's flows, which only query_withdrawable_rewards
    reads, and the output token of a trader if there is no such token *)
Definition kept_alive (w : World) (c : Addr) (y : Key) : Prop := exists q a D, zanswer q (w, []) = Ok (a, (w, D)) /\
  (In (mkT c y Peek) D \/ exists t, In (mkT c y (Bump t)) D).
Lemma has {V} c (m : fmap V) : fmem c m = true -> exists x, fget c m = Some x.
Proof. unfold fmem. destruct (fget c m); [eauto | discriminate]. Qed.
Definition come_notes (c : Addr) : list Touch := [mkT c YInst Look; mkT c YInst (Bump TI)].
Lemma tf_runs {A} (m : ST World A) w l a : m w = Ok (a, w) -> tf m (w, l) = Ok (a, (w, l)).
Proof. intros E. unfold tf. cbn. rewrite E. reflexivity. Qed.
Lemma zrun {S A B} (m : ST S A) (k : A -> ST S B) s a s' : m s = Ok (a, s') -> mbind m k s = k a s'.
Proof. unfold mbind. intros ->. reflexivity. Qed.
Section Served.
Variable w : World.
Hypothesis G : Good w.
Lemma rq_pool c x ks l : fget c (w_pool w) = Some x -> z_pool_query c ks (w, l) = Ok (x, (w, (l ++ come_notes c) ++ got_notes c ks)).
Proof.
  intros E. unfold z_pool_query. rewrite (zrun _ _ _ tt (w, l)) by (apply tf_runs, run_enter; eapply gd_cpool; eauto).
  unfold z_get_pool, tf, mbind, come, got, tnote, get_pool. cbn [fst snd]. rewrite E. reflexivity.
Qed.
Lemma rq_stable c x l : fget c (w_stable w) = Some x -> exists D, z_stable_query c (w, l) = Ok (x, (w, (l ++ come_notes c) ++ D)).
Proof.
  intros E. unfold z_stable_query. rewrite (zrun _ _ _ tt (w, l)) by (apply tf_runs, run_enter; eapply gd_cstable; eauto).
  unfold tf, mbind, come, instP, tnote, get_stable. cbn [fst snd]. rewrite E. eexists. reflexivity.
Qed.
Lemma rq_stake c x ks pk l : fget c (w_stake w) = Some x ->
  z_stake_query c ks pk (w, l) = Ok (x, (w, ((l ++ come_notes c) ++ got_notes c ks) ++ map (fun k => mkT c k Peek) pk)).
Proof.
  intros E. unfold z_stake_query. rewrite (zrun _ _ _ tt (w, l)) by (apply tf_runs, run_enter; eapply gd_cstake; eauto).
  unfold z_get_stake, tf, mbind, come, got, peek, tnote, get_stake. cbn [fst snd]. rewrite E. reflexivity.
Qed.
Lemma rq_rewards c x ks ls l : fget c (w_rewards w) = Some x ->
  z_rewards_query c ks ls (w, l) = Ok (x, (w, ((l ++ come_notes c) ++ got_notes c ks) ++ map (fun k => mkT c k Look) ls)).
Proof.
  intros E. unfold z_rewards_query. rewrite (zrun _ _ _ tt (w, l)) by (apply tf_runs, run_enter; eapply gd_crewards; eauto).
  unfold z_get_rewards, tf, mbind, come, got, looks, tnote, get_rewards. cbn [fst snd]. rewrite E. reflexivity.
Qed.
Lemma rq_vest c x ks l : fget c (w_vest w) = Some x -> z_vest_query c ks (w, l) = Ok (x, (w, (l ++ come_notes c) ++ got_notes c ks)).
Proof.
  intros E. unfold z_vest_query. rewrite (zrun _ _ _ tt (w, l)) by (apply tf_runs, run_enter; eapply gd_cvest; eauto).
  unfold z_get_vest, tf, mbind, come, got, tnote, get_vest. cbn [fst snd]. rewrite E. reflexivity.
Qed.
Lemma rq_fact c x ks l : fget c (w_fact w) = Some x -> z_fact_query c ks (w, l) = Ok (x, (w, (l ++ come_notes c) ++ got_notes c ks)).
Proof.
  intros E. unfold z_fact_query. rewrite (zrun _ _ _ tt (w, l)) by (apply tf_runs, run_enter; eapply gd_cfact; eauto).
  unfold z_get_fact, tf, mbind, come, got, tnote, get_fact. cbn [fst snd]. rewrite E. reflexivity.
Qed.
Lemma rq_trader c x ks l : fget c (w_trader w) = Some x -> z_trader_query c ks (w, l) = Ok (x, (w, (l ++ come_notes c) ++ got_notes c ks)).
Proof.
  intros E. unfold z_trader_query. rewrite (zrun _ _ _ tt (w, l)) by (apply tf_runs, run_enter; eapply gd_ctrader; eauto).
  unfold z_get_trader, tf, mbind, come, got, tnote, get_trader. cbn [fst snd]. rewrite E. reflexivity.
Qed.
Lemma kp {A} (f : A -> Answer) q (m : TST A) x D c y : zanswer q = amap f m -> m (w, []) = Ok (x, (w, D)) ->
  (In (mkT c y Peek) D \/ exists t, In (mkT c y (Bump t)) D) -> kept_alive w c y.
Proof. intros E X I. exists q, (f x), D. split; [rewrite E; unfold amap, mbind; rewrite X; reflexivity | exact I]. Qed.
Lemma keeps_all c y : present w c y = true ->
  match y with
  | YInst => fmem c (w_tok w) || fmem c (w_pool w) || fmem c (w_stable w) || fmem c (w_stake w) || fmem c (w_rewards w) || fmem c (w_vest w) || fmem c (w_fact w) || fmem c (w_trader w)
  | YAdmin => fmem c (w_stake w) || fmem c (w_rewards w) || fmem c (w_trader w)
  | YInit | YSlip | YStab | YCurve | YDistr | YAdj _ | YHist _ | YTotHist | YDists => false
  | YTOut => match fget c (w_trader w) with Some x => fmem (d_out x) (w_tok w) | None => false end
  | _ => true
  end = true -> kept_alive w c y.
Proof.
  assert (B : forall t u k, fget t (w_tok w) = Some k -> forall y, (In (mkT t y Peek) (come_notes t ++ [mkT t (YBal u) Peek]) \/
    exists b, In (mkT t y (Bump b)) (come_notes t ++ [mkT t (YBal u) Peek])) -> kept_alive w t y).
  { intros t u k E y0 I. eapply (kp AInt (QBalance t u)); [reflexivity | | exact I]. unfold z_balance, tok_balance, tf, mbind, get_tok, come, tnote. cbn [fst snd].
    rewrite E. reflexivity. }
  assert (Cu : forall (b1 b2 : bool), b1 || b2 = true -> b1 = true \/ b2 = true) by (intros; now apply orb_true_iff).
  destruct y; cbn [present]; intros P K; try discriminate K.
  - repeat match goal with Q : _ || _ = true |- _ => apply Cu in Q as [Q|Q] end; try (apply has in K as [x E]).
    all: try (eapply (B c 0); [exact E | right; exists TI; cbn; auto 20]).
    all: try (eapply (kp _ (QPoolTotal c)); [reflexivity | apply rq_pool, E | right; exists TI; cbn; auto 20]).
    all: try (destruct (rq_stable c x [] E) as (D & Q); eapply (kp _ (QStabStake c)); [reflexivity | exact Q | right; exists TI; cbn; auto 20]).
    all: try (eapply (kp _ (QStakeAdmin c)); [reflexivity | apply rq_stake, E | right; exists TI; cbn; auto 20]).
    all: try (eapply (kp _ (QRewAdmin c)); [reflexivity | apply rq_rewards, E | right; exists TI; cbn; auto 20]).
    all: try (eapply (kp _ (QFactAdmin c)); [reflexivity | apply rq_fact, E | right; exists TI; cbn; auto 20]).
    all: try (eapply (kp _ (QTraderAdmin c)); [reflexivity | apply rq_trader, E | right; exists TI; cbn; auto 20]).
    all: eapply (kp _ (QVestToken c)); [reflexivity | unfold mbind; rewrite (rq_vest c x [] [] E); unfold instP, tnote; cbn [fst snd]; reflexivity | right; exists TI; cbn; auto 20].
  - repeat match goal with Q : _ || _ = true |- _ => apply Cu in Q as [Q|Q] end; apply has in P as [x E].
    all: try (eapply (kp _ (QPoolConfig c)); [reflexivity | apply rq_pool, E | right; exists TP; cbn; auto 20]).
    all: try (eapply (kp _ (QStakeConfig c)); [reflexivity | apply rq_stake, E | right; exists TP; cbn; auto 20]).
    all: try (eapply (kp _ (QRewConfig c)); [reflexivity | apply rq_rewards, E | right; exists TP; cbn; auto 20]).
    all: try (eapply (kp _ (QFactConfig c)); [reflexivity | apply rq_fact, E | right; exists TP; cbn; auto 20]).
  - clear P. repeat match goal with Q : _ || _ = true |- _ => apply Cu in Q as [Q|Q] end; apply has in K as [x E].
    all: try (eapply (kp _ (QStakeAdmin c)); [reflexivity | apply rq_stake, E | right; exists TP; cbn; auto 20]).
    all: try (eapply (kp _ (QRewAdmin c)); [reflexivity | apply rq_rewards, E | right; exists TP; cbn; auto 20]).
    all: try (eapply (kp _ (QTraderAdmin c)); [reflexivity | apply rq_trader, E | right; exists TP; cbn; auto 20]).
  - apply has in P as [x E]. eapply (kp _ (QPoolTotal c)); [reflexivity | apply rq_pool, E | right; exists TP; cbn; auto 20].
  - apply has in P as [x E]. eapply (kp _ (QPoolInfo c)); [reflexivity | unfold z_pool_info, mbind; rewrite (rq_pool c x _ [] E); reflexivity | right; exists TP; cbn; auto 20].
  - apply has in P as [x E]. eapply (kp _ (QPoolInfo c)); [reflexivity | unfold z_pool_info, mbind; rewrite (rq_pool c x _ [] E); reflexivity | right; exists TP; cbn; auto 20].
  - apply has in P as [x E]. eapply (kp _ (QTotalStaked c)); [reflexivity | apply rq_stake, E | right; exists TP; cbn; auto 20].
  - destruct (fget c (w_stake w)) as [s|] eqn:E; [|discriminate]. eapply (kp _ (QStaked c u)); [reflexivity | unfold z_staked, mbind; rewrite (rq_stake c s _ _ [] E); reflexivity | left; cbn; auto 20].
  - destruct (fget c (w_vest w)) as [v|] eqn:E; [|discriminate]. apply has in P as [x Ex].
    eapply (kp AVest (QVestInfo c u i)); [reflexivity | unfold z_vest_info, mbind; rewrite (rq_vest c v _ [] E); unfold mlift, v_get; rewrite Ex; unfold got, tnote; cbn [fst snd of_option]; reflexivity
      | right; exists TP; cbn; auto 20].
  - apply has in P as [x E]. eapply (kp _ (QPools c)); [reflexivity | apply rq_fact, E | right; exists TP; cbn; auto 20].
  - destruct (fget c (w_fact w)) as [f|] eqn:E; [|discriminate]. destruct (pair_get f a b) as [p|] eqn:Ep; [|discriminate].
    eapply (kp AInt (QPairPool c a b)); [reflexivity | unfold z_fact_pool_by_pair; rewrite (zrun _ _ _ tt (w, [])) by (apply tf_runs, run_enter; eapply gd_cfact; eauto);
      unfold tf, mbind, come, peek, tnote, get_fact; cbn [fst snd]; rewrite E; cbn [fst snd]; rewrite Ep; reflexivity | left; cbn; auto 20].
  - apply has in P as [x E]. eapply (kp _ (QTraderName c)); [reflexivity | apply rq_trader, E | right; exists TP; cbn; auto 20].
  - apply has in P as [x E]. eapply (kp _ (QTraderPair c)); [reflexivity | apply rq_trader, E | right; exists TP; cbn; auto 20].
  - destruct (fget c (w_trader w)) as [x|] eqn:E; [|discriminate]. apply has in K as [k Ek].
    eapply (kp AInts (QTraderOut c)); [reflexivity | unfold z_trader_out, mbind; rewrite (rq_trader c x _ [] E); unfold z_decimals, mbind, tf, tok_decimals, mbind, get_tok, seen, tnote;
      cbn [fst snd]; rewrite Ek; reflexivity | right; exists TP; cbn; auto 20].
  - destruct (fget c (w_tok w)) as [k|] eqn:E; [|discriminate]. eapply (B c u); [exact E | left; cbn; auto 20].
Qed.
End Served.

Theorem C212_all_others_can_be_kept_by_queries H w c y : reachable H w -> present w c y = true ->
  match y with
  | YInst => fmem c (w_tok w) || fmem c (w_pool w) || fmem c (w_stable w) || fmem c (w_stake w) || fmem c (w_rewards w) || fmem c (w_vest w) || fmem c (w_fact w) || fmem c (w_trader w)
  | YAdmin => fmem c (w_stake w) || fmem c (w_rewards w) || fmem c (w_trader w)
  | YInit | YSlip | YStab | YCurve | YDistr | YAdj _ | YHist _ | YTotHist | YDists => false
  | YTOut => match fget c (w_trader w) with Some x => fmem (d_out x) (w_tok w) | None => false end
  | _ => true
  end = true ->
  exists q a D, zanswer q (w, []) = Ok (a, (w, D)) /\ (In (mkT c y Peek) D \/ exists t, In (mkT c y (Bump t)) D).
Proof. intros R P K. exact (keeps_all w (reach_good _ _ R) c y P K). Qed.
Print Assumptions C212_all_others_can_be_kept_by_queries.

(** ** C213: what the queries announce is there *)
Theorem C213_announced_reserves_are_held H w q p i l : reachable H w ->
  (q = QPoolInfo p \/ q = QPoolRow p \/ q = QStabInfo p \/ q = QStabRow p) -> answer q w = Ok (ARow p i) ->
  0 <= q_ra i <= bal w (q_ta i) p /\ 0 <= q_rb i <= bal w (q_tb i) p /\ q_ta i <> q_tb i /\
  (holders w (q_share i) l -> total_of w (q_share i) l <= q_total i).
Proof.
  intros R Q X. unfold answer in X. destruct (zanswer q (w, [])) as [[a s]|] eqn:Z; [|discriminate]. inversion X; subst a. clear X.
  assert (C : (exists x, pool_at w p x /\ i = mkPoolInfo (p_ta x) (p_ra x) (p_tb x) (p_rb x) (p_share x) (p_total x) (p_stake x) (p_fee x)) \/
              (exists x, stable_at w p x /\ i = mkPoolInfo (l_ta x) (l_ra x) (l_tb x) (l_rb x) (l_share x) (l_total x) (l_stake x) (l_fee x))).
  { destruct Q as [->|[->|[->| ->]]]; cbn [zanswer] in Z; unfold amap in Z; apply mbind_ok in Z as (j & s1 & Z & Y); inversion Y; subst; clear Y;
    first [unfold z_pool_info in Z | unfold z_stable_info in Z]; apply mbind_ok in Z as (x & s2 & Z & Y); inversion Y; subst; clear Y.
    - left; exists x; split; [|reflexivity]; destruct (ob_pool_query w p [YConfig; YResA; YResB; YTotal] ltac:(intros ? E; repeat constructor; cbn; rewrite (here _ _ _ E); reflexivity) _ _ _ Z) as (_ & _ & _ & E); exact E.
    - left; exists x; split; [|reflexivity]; destruct (ob_pool_query w p [YConfig; YResA; YResB; YTotal] ltac:(intros ? E; repeat constructor; cbn; rewrite (here _ _ _ E); reflexivity) _ _ _ Z) as (_ & _ & _ & E); exact E.
    - right; exists x; split; [|reflexivity]; destruct (ob_stable_query w p _ _ _ Z) as (_ & _ & _ & E); exact E.
    - right; exists x; split; [|reflexivity]; destruct (ob_stable_query w p _ _ _ Z) as (_ & _ & _ & E); exact E. }
  destruct C as [(x & E & ->)|(x & E & ->)]; cbn.
  - destruct (C06_pool_solvency _ _ _ _ R E) as (A & B & N). split; [exact A|]. split; [exact B|]. split; [exact N|]. intros L. eapply C07_lp_total_bounds_supply; eauto.
  - destruct (C27_stable_solvency _ _ _ _ R E) as (A & B & N). split; [exact A|]. split; [exact B|]. split; [exact N|]. intros L. eapply C28_stable_total_bounds_supply; eauto.
Qed.
Print Assumptions C213_announced_reserves_are_held.
(** so do the shares announced by query_total_issued_lp *)
Theorem C213_announced_shares_are_the_same H w q p n q' i : reachable H w ->
  (q = QPoolTotal p \/ q = QStabTotal p) -> answer q w = Ok (AInt n) -> (q' = QPoolInfo p \/ q' = QStabInfo p) -> answer q' w = Ok (ARow p i) ->
  n = q_total i.
Proof.
  intros R Q X Q' X'. unfold answer in X, X'.
  destruct (zanswer q (w, [])) as [[a s]|] eqn:Z; [|discriminate]. inversion X; subst a. clear X.
  destruct (zanswer q' (w, [])) as [[a' s']|] eqn:Z'; [|discriminate]. inversion X'; subst a'. clear X'.
  assert (C : (exists x, pool_at w p x /\ n = p_total x) \/ (exists x, stable_at w p x /\ n = l_total x)).
  { destruct Q as [->| ->]; cbn [zanswer] in Z; unfold amap in Z; apply mbind_ok in Z as (j & s1 & Z & Y); inversion Y; subst; clear Y.
    - left; exists j; split; [|reflexivity]; destruct (ob_pool_query w p [YTotal] ltac:(intros ? E; repeat constructor; cbn; rewrite (here _ _ _ E); reflexivity) _ _ _ Z) as (_ & _ & _ & E); exact E.
    - right. assert (O : obs w (z_stable_total p) (fun n => exists x, fget p (w_stable w) = Some x /\ n = l_total x)) by (unfold z_stable_total; repeat ob; ob_leaf).
      destruct (O _ _ _ Z) as (_ & _ & _ & x & E & ->). exists x. split; [exact E|reflexivity]. }
  assert (C' : (exists x, pool_at w p x /\ q_total i = p_total x) \/ (exists x, stable_at w p x /\ q_total i = l_total x)).
  { destruct Q' as [->| ->]; cbn [zanswer] in Z'; unfold amap in Z'; apply mbind_ok in Z' as (j & s1 & Z' & Y); inversion Y; subst; clear Y;
    first [unfold z_pool_info in Z' | unfold z_stable_info in Z']; apply mbind_ok in Z' as (x & s2 & Z' & Y); inversion Y; subst; clear Y.
    - left; exists x; split; [|reflexivity]; destruct (ob_pool_query w p [YConfig; YResA; YResB; YTotal] ltac:(intros ? E; repeat constructor; cbn; rewrite (here _ _ _ E); reflexivity) _ _ _ Z') as (_ & _ & _ & E); exact E.
    - right; exists x; split; [|reflexivity]; destruct (ob_stable_query w p _ _ _ Z') as (_ & _ & _ & E); exact E. }
  pose proof (reach_good _ _ R) as G.
  destruct C as [(x & E & ->)|(x & E & ->)], C' as [(y & E' & ->)|(y & E' & ->)]; unfold pool_at, stable_at in *; try congruence;
    [apply (gd_cpool _ G) in E; apply (gd_cstable _ G) in E'|apply (gd_cstable _ G) in E; apply (gd_cpool _ G) in E']; congruence.
Qed.
Print Assumptions C213_announced_shares_are_the_same.
(** the announced total of stakes is the sum of the stakes announced user by user *)
Theorem C213_announced_stakes_add_up H w k n g l : reachable H w -> answer (QTotalStaked k) w = Ok (AInt n) ->
  (forall u, answer (QStaked k u) w = Ok (AStaked (g u))) -> NoDup l -> (forall u, b_total (g u) <> 0 -> In u l) ->
  n = sum_of (fun u => b_total (g u)) l.
Proof.
  intros R X A N C. unfold answer in X. destruct (zanswer (QTotalStaked k) (w, [])) as [[a s]|] eqn:Z; [|discriminate]. inversion X; subst a. clear X.
  cbn [zanswer] in Z. unfold amap in Z. apply mbind_ok in Z as (x & s1 & Z & Y). inversion Y; subst; clear Y.
  destruct (ob_stake_query w k [YStaked] [] (Forall_nil _) ltac:(intros ? E; repeat constructor; cbn; rewrite (here _ _ _ E); reflexivity) _ _ _ Z) as (_ & _ & _ & E).
  assert (U : forall u, b_total (g u) = staked x u).
  { intros u. destruct (C35_user_total _ _ _ _ u R E) as (b & Q & _ & T & _). specialize (A u). rewrite (said_of AStaked (QStaked k u) (z_staked k u) _ w eq_refl (tc_staked k u)) in A.
    rewrite Q in A. cbn in A. inversion A; subst. exact T. }
  destruct (C35_total_is_sum_of_stakes _ _ _ _ l R E N) as [S _]; [intros u Q; apply C; rewrite U; exact Q|].
  rewrite S. clear - U. induction l; cbn; congruence.
Qed.
Print Assumptions C213_announced_stakes_add_up.
(** the announced balance of a vesting contract covers everything that is still to be claimed *)
Theorem C213_announced_vesting_is_covered H w c v x l : reachable H w -> vest_at w c v -> answer (QVestHeld c) w = Ok (AInt x) -> NoDup l ->
  sum_of (unclaimed v) l <= x.
Proof.
  intros R E X N. assert (x = bal w (v_token v) c).
  { unfold answer in X. destruct (zanswer (QVestHeld c) (w, [])) as [[a s]|] eqn:Z; [|discriminate]. inversion X; subst a. clear X.
    cbn [zanswer] in Z. unfold amap in Z. apply mbind_ok in Z as (b & s1 & Z & Y). inversion Y; subst; clear Y. unfold z_vest_balance in Z. unfold vest_at in E.
    unfold mbind in Z. rewrite (rq_vest w (reach_good _ _ R) c v _ [] E) in Z. unfold instP, tnote in Z. cbn [fst snd] in Z.
    destruct (ob_balance w (v_token v) c _ _ _ Z) as (_ & _ & _ & k & T & ->). unfold bal. rewrite T. reflexivity. }
  subst x. eapply C49_vesting_solvency; eauto.
Qed.
Print Assumptions C213_announced_vesting_is_covered.
