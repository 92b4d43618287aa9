(** Composition of the router's reverse quotes (C117) and the annualised reward (C118, C119). *)
From Coq Require Import ZArith List Bool Lia.
From Coq Require Import ZifyBool.
From Verif Require Import Base FMap Decimal DecimalProofs Curve CurveProofs World Token TokenProofs Frame Runs Stake Pool PoolProofs
  Stable StableProofs Rewards Vest Factory Router System SysFrame SysInv SysPool SysSupply SysVest SysStake SysRewards
  Script Props_Token Props_Pool Props_Vest Props_Stake Props_Rewards Props_StakeCases Props_RewardsCases Props_FactoryCases Props_Router Props_RouterCases Props_Decimal.
Import ListNotations.
Open Scope Z_scope.

(** ** C117 *)
Lemma pure_any_reverse p a x : pure (any_reverse p a x).
Proof.
  intros w s v Q. unfold any_reverse in Q. unfold mbind at 1, mget in Q. destruct (fget p (w_code w)) as [[]|]; try discriminate; revert Q.
  - unfold pool_simulate_reverse. enough (P : pure (pool_simulate_reverse p a x)) by exact (P w s v).
    unfold pool_simulate_reverse. repeat (apply pure_bind; [auto with *|intros]).
    match goal with |- pure (let '(a, b) := ?z in _) => destruct z as [ra rb] end.
    apply pure_bind; [auto with *|]. intros [[b1 b2] b3]. apply pure_ret.
  - enough (P : pure (stable_simulate_reverse p a x)) by exact (P w s v).
    unfold stable_simulate_reverse. do 3 (apply pure_bind; [auto with *|intros]).
    match goal with |- pure (let '(a, b) := ?z in _) => destruct z as [ra rb] end.
    match goal with |- pure (let '(a, b) := ?z in _) => destruct z as [pa pb] end.
    do 5 (apply pure_bind; [auto with *|intros]).
    apply pure_bind; [auto with *|]. intros [[b1 b2] b3]. apply pure_ret.
Qed.
Lemma revs_pure f : forall ops amt, pure (hop_revs f ops amt).
Proof.
  induction ops as [|o ops IH]; intros amt; cbn [hop_revs]; [apply pure_ret|].
  apply pure_bind; [intros ? ? ? Q; eapply pure_fact_pool_by_pair; eauto|]. intros p.
  apply pure_bind; [apply pure_any_reverse|]. intros r. apply pure_bind; [apply pure_tok_decimals|]. intros d.
  apply pure_bind; [apply IH|]. intros [[b1 b2] b3]. apply pure_ret.
Qed.
Lemma revs_app f l2 : forall l1 amt w a cs ss w',
  hop_revs f (l1 ++ l2) amt w = Ok ((a, cs, ss), w') <->
  exists a1 c1 s1 c2 s2, hop_revs f l1 amt w = Ok ((a1, c1, s1), w) /\ hop_revs f l2 a1 w = Ok ((a, c2, s2), w') /\
    cs = c1 ++ c2 /\ ss = s1 ++ s2.
Proof.
  induction l1 as [|o l1 IH]; intros amt w a cs ss w'.
  - simpl. split.
    + intros Q. exists amt, [], [], cs, ss. auto.
    + intros [a1 [c1 [s1 [c2 [s2 [A [B [-> ->]]]]]]]]. inversion A; subst. exact B.
  - cbn [app hop_revs]. split.
    + intros Q. apply mbind_ok in Q. destruct Q as [p [v1 [Q1 Q]]]. pose proof (pure_fact_pool_by_pair _ _ _ _ _ _ Q1). subst v1.
      apply mbind_ok in Q. destruct Q as [r [v1 [Q2 Q]]]. pose proof (pure_any_reverse _ _ _ _ _ _ Q2). subst v1.
      apply mbind_ok in Q. destruct Q as [dd [v1 [Q3 Q]]]. pose proof (pure_tok_decimals _ _ _ _ Q3). subst v1.
      apply mbind_ok in Q. destruct Q as [[[b cs'] ss'] [v1 [Q4 Q]]]. inversion Q; subst; clear Q.
      apply IH in Q4. destruct Q4 as [a1 [c1 [s1 [c2 [s2 [A [B [-> ->]]]]]]]].
      exists a1, (sr_comm r :: c1), (sr_spread r :: s1), c2, s2. split; [|auto].
      rewrite (run_bind _ _ _ _ _ Q1), (run_bind _ _ _ _ _ Q2), (run_bind _ _ _ _ _ Q3), (run_bind _ _ _ _ _ A). reflexivity.
    + intros [a1 [c1 [s1 [c2 [s2 [A [B [-> ->]]]]]]]].
      apply mbind_ok in A. destruct A as [p [v1 [Q1 A]]]. pose proof (pure_fact_pool_by_pair _ _ _ _ _ _ Q1). subst v1.
      apply mbind_ok in A. destruct A as [r [v1 [Q2 A]]]. pose proof (pure_any_reverse _ _ _ _ _ _ Q2). subst v1.
      apply mbind_ok in A. destruct A as [dd [v1 [Q3 A]]]. pose proof (pure_tok_decimals _ _ _ _ Q3). subst v1.
      apply mbind_ok in A. destruct A as [[[b cs'] ss'] [v1 [Q4 A]]]. inversion A; subst; clear A.
      assert (Q : hop_revs f (l1 ++ l2) (sr_offer r) w = Ok ((a, cs' ++ c2, ss' ++ s2), w')).
      { apply IH. eexists _, _, _, _, _. split; [exact Q4|]. split; [exact B|]. auto. }
      rewrite (run_bind _ _ _ _ _ Q1), (run_bind _ _ _ _ _ Q2), (run_bind _ _ _ _ _ Q3), (run_bind _ _ _ _ _ Q). reflexivity.
Qed.
Lemma rev_chained_app o1 o2 l2 : forall l1, rev_chained ((l1 ++ [o1]) ++ o2 :: l2) =
  rev_chained (l1 ++ [o1]) && (o_offer o1 =? o_ask o2) && rev_chained (o2 :: l2).
Proof.
  induction l1 as [|o l1 IH]; [reflexivity|].
  destruct l1 as [|o' l1].
  - cbn [app rev_chained]. destruct (o_offer o =? o_ask o1); reflexivity.
  - cbn [app rev_chained] in *. rewrite IH. destruct (o_offer o =? o_ask o'); reflexivity.
Qed.
Lemma hop_reverse_iff h ops amt w a cs ss w' :
  hop_reverse h ops amt w = Ok ((a, cs, ss), w') <->
  ops <> [] /\ fget h (w_code w) = Some KHop /\ rev_chained ops = true /\
  exists d, fget h (w_hop w) = Some d /\ hop_revs (h_fact d) ops amt w = Ok ((a, cs, ss), w').
Proof.
  unfold hop_reverse. split.
  - intros Q. apply mbind_ok in Q. destruct Q as [z1 [v [Q1 Q]]]. apply enter_ok in Q1. destruct Q1 as [C ->].
    apply mbind_ok in Q. destruct Q as [z2 [v [Q1 Q]]]. apply mguard_ok in Q1. destruct Q1 as [N Q1]. inversion Q1; subst z2 v; clear Q1.
    apply mbind_ok in Q. destruct Q as [z2 [v [Q1 Q]]]. apply mguard_ok in Q1. destruct Q1 as [R Q1]. inversion Q1; subst z2 v; clear Q1.
    apply mbind_ok in Q. destruct Q as [d [v [Q1 Q]]]. apply get_hop_ok in Q1. destruct Q1 as [Q1 ->].
    split; [intros ->; discriminate N|]. split; [exact C|]. split; [exact R|]. eauto.
  - intros [N [C [R [d [E Q]]]]]. rewrite (run_bind _ _ _ tt w) by (apply run_enter; auto).
    rewrite (run_bind _ _ _ tt w) by (apply run_guard; destruct ops; [congruence|reflexivity]).
    rewrite (run_bind _ _ _ tt w) by (apply run_guard; auto).
    rewrite (run_bind _ _ _ d w) by (unfold get_hop; rewrite E; reflexivity). exact Q.
Qed.

(** a route is quoted leg by leg from its end: what one part needs is what the next part has to deliver *)
Theorem C117_reverse_route_composes h l1 o1 o2 l2 amt w a cs ss w' :
  hop_reverse h ((l1 ++ [o1]) ++ o2 :: l2) amt w = Ok ((a, cs, ss), w') <->
  o_offer o1 = o_ask o2 /\ exists a1 c1 s1 c2 s2,
    hop_reverse h (l1 ++ [o1]) amt w = Ok ((a1, c1, s1), w) /\ hop_reverse h (o2 :: l2) a1 w = Ok ((a, c2, s2), w') /\
    cs = c1 ++ c2 /\ ss = s1 ++ s2.
Proof.
  split.
  - intros Q. apply hop_reverse_iff in Q. destruct Q as [_ [C [R [d [E Q]]]]]. rewrite rev_chained_app in R.
    apply andb_true_iff in R. destruct R as [R R3]. apply andb_true_iff in R. destruct R as [R1 R2]. split; [lia|].
    apply revs_app in Q. destruct Q as [a1 [c1 [s1 [c2 [s2 [A [B [-> ->]]]]]]]]. exists a1, c1, s1, c2, s2.
    split; [|split; [|auto]]; apply hop_reverse_iff.
    + split; [destruct l1; discriminate|]. split; [exact C|]. split; [exact R1|]. eauto.
    + split; [discriminate|]. split; [exact C|]. split; [exact R3|]. eauto.
  - intros [J [a1 [c1 [s1 [c2 [s2 [A [B [-> ->]]]]]]]]].
    apply hop_reverse_iff in A. destruct A as [_ [C [R1 [d [E A]]]]]. apply hop_reverse_iff in B. destruct B as [_ [_ [R2 [d' [E' B]]]]].
    rewrite E in E'. inversion E'; subst d'. apply hop_reverse_iff.
    split; [destruct l1; discriminate|]. split; [exact C|]. split.
    { rewrite rev_chained_app, R1, R2. rewrite (proj2 (Z.eqb_eq _ _) J). reflexivity. }
    exists d. split; [exact E|]. apply revs_app. eexists _, _, _, _, _. split; [exact A|]. split; [exact B|]. auto.
Qed.
Print Assumptions C117_reverse_route_composes.

(** ... and one leg through a constant-product pool asks for an amount that, with one unit more, fetches
    what was requested *)
Theorem C117_reverse_leg H h d o amt w a cs ss w' p e u mi ms dl mf ret w2 : reachable H w ->
  fget h (w_hop w) = Some d -> hop_reverse h [o] amt w = Ok ((a, cs, ss), w') ->
  fact_pool_by_pair (h_fact d) (o_offer o) (o_ask o) w = Ok (p, w) -> fget p (w_code w) = Some KPool ->
  o_offer o <> o_ask o -> 0 < amt ->
  pool_swap e None p u (o_offer o) (a + 1) mi ms dl mf w = Ok (ret, w2) ->
  (amt <= 10^18 -> amt <= ret) /\ amt * 10^18 < ret * 10^18 + amt /\ w' = w.
Proof.
  intros R E Q F C N P X. apply hop_reverse_iff in Q. destruct Q as [_ [_ [_ [d' [E' Q]]]]]. rewrite E in E'. inversion E'; subst d'.
  cbn [hop_revs] in Q. apply mbind_ok in Q. destruct Q as [p' [v1 [Q1 Q]]]. rewrite F in Q1. inversion Q1; subst p' v1; clear Q1.
  apply mbind_ok in Q. destruct Q as [r [v1 [Q2 Q]]]. pose proof (pure_any_reverse _ _ _ _ _ _ Q2). subst v1.
  apply mbind_ok in Q. destruct Q as [dd [v1 [Q3 Q]]]. pose proof (pure_tok_decimals _ _ _ _ Q3). subst v1.
  inversion Q; subst; clear Q.
  unfold any_reverse in Q2. unfold mbind at 1, mget in Q2. rewrite C in Q2.
  pose proof X as X0. assert (NN : None <> Some p) by discriminate.
  pose proof (C14_sender_is_not_the_pool _ _ _ _ _ _ _ _ _ _ _ _ _ _ R NN X) as Ns.
  destruct (swap_facts _ _ _ _ _ _ _ _ _ _ _ _ _ Ns X0) as [p0 [p1 [x [y [g [f [sp [buy Fa]]]]]]]].
  pose proof (sf_before Fa) as Hp. destruct (side_eq _ _ _ _ _ (sf_side Fa)) as [_ [_ Sd]].
  assert (Os : o_offer o = p_ta p0 \/ o_offer o = p_tb p0) by (pose proof (sf_side Fa) as Z0; destruct Z0; intuition).
  assert (As : o_ask o = p_ta p0 \/ o_ask o = p_tb p0).
  { unfold pool_at in Hp. pose proof Q2 as Q. unfold pool_simulate_reverse in Q. apply mbind_ok in Q. destruct Q as [z1 [v [Q1 Q]]]. apply enter_ok in Q1. destruct Q1 as [_ ->].
    apply mbind_ok in Q. destruct Q as [q [v2 [Q1 Q]]]. apply get_pool_ok in Q1. destruct Q1 as [Q1 ->].
    apply mbind_ok in Q. destruct Q as [z2 [v3 [Q4 _]]]. apply mguard_ok in Q4. destruct Q4 as [Q4 _].
    assert (q = p0) by congruence. subst q. lia. }
  destruct (C17_quote_plus_one_suffices H _ p (o_ask o) amt r _ e None u mi ms dl mf (o_offer o) ret w2 p0 R Hp NN P Q2) as [A B]; auto.
  destruct Os, As; try congruence; auto.
Qed.
Print Assumptions C117_reverse_leg.
(** through both pools: for 10000 of token 3 the stable leg asks for 10030 of token 2, for which the other
    leg asks 5055 of token 1 *)
Example C117_example :
  hop_reverse rhop [mkOp 3 2 None; mkOp 2 1 None] 10000 rW = Ok ((5055, [30; 30], [30; 50]), rW) /\
  hop_reverse rhop [mkOp 3 2 None] 10000 rW = Ok ((10030, [30], [30]), rW) /\
  hop_reverse rhop [mkOp 2 1 None] 10030 rW = Ok ((5055, [30], [50]), rW) /\
  hop_reverse rhop [mkOp 2 1 None; mkOp 3 2 None] 10000 rW = Err (EContract 3).
Proof. split; [vm_compute; reflexivity|]. split; [vm_compute; reflexivity|]. split; vm_compute; reflexivity. Qed.

(** ** C118 *)
(** The annualised payout of a rewards contract whose fundings ended after they started: what is unlocked
    in the year to come or, when everything is unlocked earlier, what is locked now scaled to a year. *)
Theorem C118_annualised_payout H c l w r a lk : run_if (funds_forward c) H w_empty l w -> rewards_at w c r ->
  annualized_payout (r_curve r) (w_now w) = Ok a -> cvalue (r_curve r) (w_now w) = Ok lk ->
  match cend (r_curve r) with
  | None => a = 0 /\ lk = 0
  | Some d =>
      (d <= w_now w -> a = 0) /\ (d < w_now w -> lk = 0) /\
      (w_now w + 31536000 <= d -> exists lk', cvalue (r_curve r) (w_now w + 31536000) = Ok lk' /\ a = (lk - lk') * 10^18 /\ 0 <= a) /\
      (w_now w < d < w_now w + 31536000 -> trunc_of (lk * 31536000 * 10^18) (d - w_now w) a /\ forall t, d < t -> cvalue (r_curve r) t = Ok 0)
  end.
Proof.
  intros R Hr E L. pose proof (C48_funded_rewards_unlock H c l w r) as U. unfold annualized_payout in E. revert U.
  destruct (cend (r_curve r)) as [d|] eqn:Ed; intros U.
  - specialize (fun t => U t R Hr). split; [|split; [|split]].
    + intros Ld. destruct (Z.leb_spec d (w_now w)); [inversion E; auto|lia].
    + intros Ld. rewrite U in L by (intros x Q; inversion Q; subst; lia). inversion L; auto.
    + intros Ld. destruct (Z.leb_spec d (w_now w)); [lia|]. unfold SECONDS_PER_YEAR in E.
      destruct (Z.leb_spec 31536000 (d - w_now w)); [|lia].
      rewrite L in E. cbv beta iota delta [rbind] in E.
      destruct (add_64 (w_now w) 31536000) as [t1|] eqn:Et; [|discriminate E]. apply add_64_ok in Et. destruct Et as [-> _].
      destruct (cvalue (r_curve r) (w_now w + 31536000)) as [lk'|] eqn:Ev; [|discriminate E]. exists lk'. split; [reflexivity|].
      destruct (sub_u lk lk') as [z|] eqn:Es; [|discriminate E]. apply sub_u_ok in Es. destruct Es as [-> B].
      destruct (u2i (lk - lk')) as [z|] eqn:Eu; [|discriminate E]. apply u2i_ok in Eu. destruct Eu as [-> _].
      destruct (C112_from_atomics _ _ _ E) as [_ F]. rewrite F by lia. change (10 ^ (- 0)) with 1. change (10^18) with DEC.
      unfold DEC. lia.
    + intros [L1 L2]. destruct (Z.leb_spec d (w_now w)); [lia|]. unfold SECONDS_PER_YEAR in E.
      destruct (Z.leb_spec 31536000 (d - w_now w)); [lia|].
      rewrite L in E. rstep E. split; [|intros t Lt; apply U; intros x9 Q; inversion Q; subst; lia].
      match goal with K : dec_from_ratio _ _ = Ok _ |- _ => apply dec_from_ratio_ok in K; destruct K as [Nd [_ ->]] end.
      change (10^18) with DEC. apply quot_trunc. exact Nd.
  - inversion E; subst. split; [reflexivity|]. rewrite (U (w_now w) R Hr) in L by (intros x Q; discriminate Q). inversion L; auto.
Qed.
Print Assumptions C118_annualised_payout.
Example C118_example : 
  annualized_payout (r_curve (the_rewards r2)) 1050 = Ok (3153600000 * 10^18) /\ cvalue (r_curve (the_rewards r2)) 1050 = Ok 5000 /\
  cend (r_curve (the_rewards r2)) = Some 1100 /\ w_now (world_of r2) = 1050 /\
  annualized_payout (SatLin 0 4 63072000 0) 0 = Ok (2 * 10^18).
Proof. repeat split; vm_compute; reflexivity. Qed.

(** ** C119: refuted.  The rate divides by the points paid so far per unit of power: after a distribution
    the same payout over the same stake is reported as a tiny fraction of what it was. *)
Theorem C119_annualised_rate_refuted : exists w1 w2 x1 x2 a,
  reachable xH w1 /\ reachable xH w2 /\
  annualized_payout (r_curve (the_rewards r1)) (w_now w1) = Ok a /\ rewards_at w1 30 (the_rewards r1) /\
  annualized_payout (r_curve (the_rewards r2)) (w_now w2) = Ok a /\ rewards_at w2 30 (the_rewards r2) /\
  rewards_annualized 30 1000000 w1 = Ok (x1, w1) /\ rewards_annualized 30 1000000 w2 = Ok (x2, w2) /\
  x1 = 3153600 * 10^18 /\ x2 * 20000000000 < x1.
Proof.
  exists (world_of r1), (world_of r2), (3153600 * 10^18), 146850943558530, (3153600000 * 10^18).
  split; [apply world_reach; vm_compute; reflexivity|]. split; [apply world_reach; vm_compute; reflexivity|].
  split; [vm_compute; reflexivity|]. split; [vm_compute; reflexivity|]. split; [vm_compute; reflexivity|].
  split; [vm_compute; reflexivity|]. split; [vm_compute; reflexivity|]. split; [vm_compute; reflexivity|].
  split; [vm_compute; reflexivity|vm_compute; reflexivity].
Qed.
Print Assumptions C119_annualised_rate_refuted.
(** what is reported: the payout over stake power times the cumulated points *)
Theorem C119_reported_rate w c r tot x w' : rewards_at w c r ->
  rewards_annualized c tot w = Ok (x, w') ->
  w' = w /\ exists p, calc_power r tot = Ok p /\
  (p = 0 /\ x = 0 \/ exists a, annualized_payout (r_curve r) (w_now w) = Ok a /\ trunc_of a (p * r_spp r) x).
Proof.
  intros Hr Q. unfold rewards_annualized in Q. apply mbind_ok in Q. destruct Q as [z [v [Q1 Q]]]. apply enter_ok in Q1. destruct Q1 as [_ ->].
  apply mbind_ok in Q. destruct Q as [r' [v [Q1 Q]]]. apply get_rewards_ok in Q1. destruct Q1 as [Q1 ->]. unfold rewards_at in Hr. rewrite Hr in Q1. inversion Q1; subst r'; clear Q1.
  apply mbind_ok in Q. destruct Q as [t [v [Q1 Q]]]. inversion Q1; subst t v; clear Q1.
  apply mbind_ok in Q. destruct Q as [p [v [Q1 Q]]]. apply mlift_ok in Q1. destruct Q1 as [p1 [Ep Q1]]. inversion Q1; subst p1 v; clear Q1.
  destruct (Z.eqb_spec p 0) as [Z0|Z0].
  - inversion Q; subst. split; [auto|]. exists 0. auto.
  - rstep Q. winv. split; [reflexivity|]. exists p. split; [exact Ep|]. right. eexists. split; [eassumption|].
    match goal with K : dec_div_i _ _ = Ok _ |- _ => apply div_i_ok in K; destruct K as [Nz ->]; apply quot_trunc; exact Nz end.
Qed.
Print Assumptions C119_reported_rate.
