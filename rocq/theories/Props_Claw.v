(** C216-C220: what a clawback by the issuer of an asset does to the contracts that hold it. *)
From Coq Require Import ZArith List Bool Lia.
From Coq Require Import ZifyBool.
From Verif Require Import Base FMap Decimal DecimalProofs Curve World Token TokenProofs Frame Stake Pool PoolProofs
  Stable StableProofs Rewards Vest Factory Router System SysFrame SysInv SysPool SysStable SysVest SysRewards SysStake
  Script Props_Token Props_Pool Props_PoolCases Props_Stable Props_Vest Props_VestCases Props_Stake Props_StakeCases
  Props_Rewards Props_RewardsCases Claw ClawPool ClawStable ClawVest ClawRewards ClawStake ClawRun.
Import ListNotations.
Open Scope list_scope.
Open Scope Z_scope.

(** ** C216: a contract falls short by at most what was clawed back from it *)
Theorem C216_shortfall_bounded H l w : crun H w_empty l w ->
  (forall c p, pool_at w c p ->
     p_ra p <= bal w (p_ta p) c + clawed l (p_ta p) c /\ p_rb p <= bal w (p_tb p) c + clawed l (p_tb p) c) /\
  (forall c p, stable_at w c p ->
     l_ra p <= bal w (l_ta p) c + clawed l (l_ta p) c /\ l_rb p <= bal w (l_tb p) c + clawed l (l_tb p) c) /\
  (forall c v us, vest_at w c v -> NoDup us ->
     sum_of (unclaimed v) us <= bal w (v_token v) c + clawed l (v_token v) c) /\
  (forall c r, rewards_at w c r -> r_wdr r <= bal w (r_token r) c + clawed l (r_token r) c) /\
  (forall c s, stake_at w c s -> ~ In (s_lp s) (s_dists s) ->
     s_total s <= bal w (s_lp s) c + clawed l (s_lp s) c).
Proof.
  intros R. apply crun_drifted in R. destruct R as [_ [D1 D2 D3 D4 D5]].
  split; [|split; [|split; [|split]]].
  - intros c p Hp. specialize (D1 _ _ Hp). destruct (pz_ra _ _ _ _ D1), (pz_rb _ _ _ _ D1). auto.
  - intros c p Hp. specialize (D2 _ _ Hp). destruct (lz_ra _ _ _ _ D2), (lz_rb _ _ _ _ D2). auto.
  - intros c v us Hv N. specialize (D3 _ _ Hv). pose proof (owed_bound us v N (vz_nonneg _ _ _ _ D3)).
    pose proof (vz_owed _ _ _ _ D3). lia.
  - intros c r Hr. specialize (D4 _ _ Hr). apply (rz_wdr _ _ _ _ D4).
  - intros c s Hs N. specialize (D5 _ _ Hs). apply (sz_lp _ _ _ _ D5 N).
Qed.
Print Assumptions C216_shortfall_bounded.

(** ... and the share tokens of the pools are out of reach: their supply stays below the recorded
    total and no clawback of them succeeds. *)
Theorem C216_shares_out_of_reach H l w : crun H w_empty l w ->
  (forall c p, pool_at w c p -> (forall hs, holders w (p_share p) hs -> total_of w (p_share p) hs <= p_total p) /\
     forall e from amt w', tok_clawback e (p_share p) from amt w <> Ok (tt, w')) /\
  (forall c p, stable_at w c p -> (forall hs, holders w (l_share p) hs -> total_of w (l_share p) hs <= l_total p) /\
     forall e from amt w', tok_clawback e (l_share p) from amt w <> Ok (tt, w')).
Proof.
  intros R. apply crun_drifted in R. destruct R as [[G _ _] [D1 D2 _ _ _]].
  assert (F : forall t, tk_fine w t).
  { intros t k E. destruct (gd_tok _ G _ _ E). constructor; auto. intros f s a x Q. apply tg_allow in Q. lia. }
  assert (NC : forall t c kd e from amt w', tadmin w t = Some c -> fget c (w_code w) = Some kd -> tok_clawback e t from amt w <> Ok (tt, w')).
  { intros t c kd e from amt w' T K X. apply claw_ok in X. destruct X as [a [A [L _]]]. pose proof (gd_pos _ G _ _ K).
    rewrite T in A. inversion A. lia. }
  split; intros c p Hp.
  - pose proof (D1 _ _ Hp) as I. split.
    + intros hs Hh. rewrite fine_total by auto. apply (pz_sup _ _ _ _ I).
    + intros. eapply NC; [apply (pz_adm _ _ _ _ I)|apply (gd_cpool _ G _ _ Hp)].
  - pose proof (D2 _ _ Hp) as I. split.
    + intros hs Hh. rewrite fine_total by auto. apply (lz_sup _ _ _ _ I).
    + intros. eapply NC; [apply (lz_adm _ _ _ _ I)|apply (gd_cstable _ G _ _ Hp)].
Qed.
Print Assumptions C216_shares_out_of_reach.

(** ** C217: after a clawback, deposits refill the hole or fail; and the depositor pays for it *)
Theorem C217_deposit_refills H l w e c u da mina db minb custom dl w' p : crun H w_empty l w -> pool_at w c p ->
  exec e (CPoolProvide c u da mina db minb custom dl) w = Ok (tt, w') ->
  exists p', pool_at w' c p' /\
    p_ra p' = bal w' (p_ta p) c /\ p_rb p' = bal w' (p_tb p) c /\
    p_ra p <= p_ra p' /\ p_rb p <= p_rb p' /\
    let paid t := bal w t u - bal w' t u in
    let hole_a := p_ra p - bal w (p_ta p) c in
    let hole_b := p_rb p - bal w (p_tb p) c in
    hole_a <= paid (p_ta p) /\ hole_b <= paid (p_tb p) /\
    (p_total p' - p_total p) * p_ra p <= p_total p * (paid (p_ta p) - hole_a) /\
    (p_total p' - p_total p) * p_rb p <= p_total p * (paid (p_tb p) - hole_b).
Proof.
  intros R Hp X. pose proof (clawed_pos _ _ _ _ R) as CP. apply crun_drifted in R. destruct R as [[G _ _] [D1 _ _ _ _]].
  pose proof (D1 _ _ Hp) as I. pose proof (gd_cpool _ G _ _ Hp) as C.
  simpl in X. apply pool_provide_ok in X. destruct X as [_ [A [_ [p0 [xa [xb [a [b [w1 [w2 [w4 E]]]]]]]]]]].
  assert (Ns : u <> c) by (eapply authed_ne; eauto; discriminate).
  pose proof (pe_pool _ _ _ _ _ _ _ _ _ _ _ _ _ _ _ _ _ _ E) as Ep0.
  assert (p0 = p) by (unfold pool_at in Hp; congruence). subst p0.
  destruct E. destruct pe_tot as [n [Ep Hn]].
  pose proof (deposit_amounts_ok _ _ _ _ _ _ _ _ _ pe_nums ltac:(apply (pz_ra _ _ _ _ I)) ltac:(apply (pz_rb _ _ _ _ I))) as DN.
  destruct (dn_a _ _ _ _ _ _ _ _ _ DN) as [Pa _]. destruct (dn_b _ _ _ _ _ _ _ _ _ DN) as [Pb _].
  pose proof (pz_ord _ _ _ _ I) as Od. pose proof (pz_sa _ _ _ _ I) as Sa. pose proof (pz_sb _ _ _ _ I) as Sb.
  assert (B2 : forall t, bal w2 t c = bal w t c + ind (t =? p_ta p) a + ind (t =? p_tb p) b).
  { intros t. rewrite (mv_bal _ _ _ _ _ _ pe_in_b), (mv_bal _ _ _ _ _ _ pe_in_a).
    rewrite (Z.eqb_refl c). rewrite !andb_true_r.
    destruct (Z.eqb_spec c u); [congruence|]. rewrite !andb_false_r. unfold ind. lia. }
  assert (B2u : forall t, bal w2 t u = bal w t u - ind (t =? p_ta p) a - ind (t =? p_tb p) b).
  { intros t. rewrite (mv_bal _ _ _ _ _ _ pe_in_b), (mv_bal _ _ _ _ _ _ pe_in_a).
    rewrite (Z.eqb_refl u). rewrite !andb_true_r.
    destruct (Z.eqb_spec u c); [congruence|]. rewrite !andb_false_r. unfold ind. lia. }
  assert (B4 : forall t x, t <> p_share p -> bal w' t x = bal w2 t x).
  { intros t x Nt. rewrite (bal_wtok w4 w') by auto.
    destruct Hn as [[_ [_ [Mt _]]]|[_ [_ [_ [w3 [M0 Mt]]]]]]; rewrite (mt_bal _ _ _ _ _ Mt), ?(mt_bal _ _ _ _ _ M0);
      destruct (Z.eqb_spec t (p_share p)); try congruence; simpl; lia. }
  pose proof (B2 (p_ta p)) as Ba. pose proof (B2 (p_tb p)) as Bb.
  pose proof (B2u (p_ta p)) as Ua. pose proof (B2u (p_tb p)) as Ub.
  rewrite Z.eqb_refl in Ba, Ua. rewrite Z.eqb_refl in Bb, Ub.
  destruct (Z.eqb_spec (p_ta p) (p_tb p)); [lia|]. destruct (Z.eqb_spec (p_tb p) (p_ta p)); [lia|].
  unfold ind in Ba, Bb, Ua, Ub.
  pose proof (good_bal w (p_ta p) c G) as Ga. pose proof (good_bal w (p_tb p) c G) as Gb.
  eexists. split; [exact Ep|]. cbv zeta. cbn [p_ra p_rb p_total set_p_res set_p_total].
  rewrite !B4 by congruence. 
  destruct I. destruct Hn as [[Fa [Fb [Mt En]]]|[Nf [_ [En _]]]].
  - pose proof (mt_pos _ _ _ _ _ Mt) as Pn.
    assert (Tp : 0 < p_total p) by (destruct pz_min; [specialize (pz_zero H0)|]; lia).
    assert (Qa : n * p_ra p <= bal w2 (p_ta p) c * p_total p).
    { assert (n <= bal w2 (p_ta p) c * p_total p ÷ p_ra p) by lia.
      rewrite Z.quot_div_nonneg in H0 by (try apply Z.mul_nonneg_nonneg; lia).
      pose proof (Z.mul_div_le (bal w2 (p_ta p) c * p_total p) (p_ra p) Fa).
      pose proof (Z.mul_le_mono_nonneg_r _ _ (p_ra p) ltac:(lia) H0). lia. }
    assert (Qb : n * p_rb p <= bal w2 (p_tb p) c * p_total p).
    { assert (n <= bal w2 (p_tb p) c * p_total p ÷ p_rb p) by lia.
      rewrite Z.quot_div_nonneg in H0 by (try apply Z.mul_nonneg_nonneg; lia).
      pose proof (Z.mul_div_le (bal w2 (p_tb p) c * p_total p) (p_rb p) Fb).
      pose proof (Z.mul_le_mono_nonneg_r _ _ (p_rb p) ltac:(lia) H0). lia. }
    assert (Ra : p_ra p <= bal w2 (p_ta p) c).
    { pose proof (Z.mul_le_mono_nonneg_r (p_total p) n (p_ra p) ltac:(lia) ltac:(lia)).
      apply (Z.mul_le_mono_pos_r _ _ (p_total p) Tp). lia. }
    assert (Rb : p_rb p <= bal w2 (p_tb p) c).
    { pose proof (Z.mul_le_mono_nonneg_r (p_total p) n (p_rb p) ltac:(lia) ltac:(lia)).
      apply (Z.mul_le_mono_pos_r _ _ (p_total p) Tp). lia. }
    repeat split; try lia.
  - assert (Z0 : p_ra p = 0 /\ p_rb p = 0).
    { destruct (dn_case _ _ _ _ _ _ _ _ _ DN) as [K|K]; [tauto|lia]. }
    destruct Z0 as [Z1 Z2]. assert (T0 : p_total p = 0).
    { destruct (Z.eq_dec (p_total p) 0) as [|N0]; auto. specialize (pz_some N0). lia. }
    rewrite Z1, Z2, T0. repeat split; lia.
Qed.
Print Assumptions C217_deposit_refills.

(** ** C220: a clawback from a rewards contract stops the distribution until the hole is refilled *)
Theorem C220_distribution_needs_cover w e c tot r w' : rewards_at w c r ->
  r_minbond r <= tot -> 1000 <= tot -> exec e (CRewDistribute c tot) w = Ok (tt, w') ->
  exists lk, cvalue (r_curve r) (w_now w) = Ok lk /\ r_wdr r + lk <= bal w (r_token r) c.
Proof.
  intros Er Hm Ht X. simpl in X. unfold rewards_distribute in X. rstep X. winv.
  match goal with K : fget c (w_rewards w) = Some ?q |- _ => assert (q = r) by (unfold rewards_at in Er; congruence); subst q end.
  match goal with K : calc_power r tot = Ok _ |- _ => apply calc_power_ok in K; destruct (Z.ltb_spec tot (r_minbond r)); [lia|]; subst end.
  match goal with K : (if ?q =? 0 then _ else _) w = _ |- _ => destruct (Z.eqb_spec q 0) as [Z0|Z0]; rename K into KK end.
  { exfalso. rewrite Z.quot_div_nonneg in Z0 by lia. pose proof (Z.div_le_mono 1000 tot 1000 ltac:(lia) Ht).
    change (1000 / 1000) with 1 in *. lia. }
  rstep KK. winv. eexists. split; [eassumption|]. lia.
Qed.
Print Assumptions C220_distribution_needs_cover.

(** ** Concrete runs *)
Ltac done1 := first [solve [vm_compute; reflexivity] | solve [vm_compute; discriminate] | solve [eexists; vm_compute; reflexivity]].
Ltac conj := lazymatch goal with |- _ /\ _ => split; [done1|conj] | _ => done1 end.
Inductive CAct := A (a : Act) | Take (sg : Addr) (t from amt : Z).
Definition cevent_of (a : CAct) : CEvent :=
  match a with A a => Plain (event_of a) | Take sg t from amt => Clawback (env_of [sg]) t from amt end.
Definition cplay1 (a : CAct) (w : World) : option World :=
  match a with
  | A a => play1 a w
  | Take sg t from amt => match tok_clawback (env_of [sg]) t from amt w with Ok (_, w') => Some w' | Err _ => None end
  end.
Fixpoint cplay (l : list CAct) (w : World) : option World :=
  match l with [] => Some w | a :: tl => match cplay1 a w with Some w' => cplay tl w' | None => None end end.
Lemma cplay_run l : forall w w', cplay l w = Some w' -> crun xH w (map cevent_of l) w'.
Proof.
  induction l as [|a l IH]; simpl; intros w w' H; [inversion H; constructor|].
  destruct (cplay1 a w) as [w1|] eqn:E; [|discriminate].
  econstructor; [|apply IH; exact H].
  destruct a as [a|sg t from amt]; simpl in *.
  - assert (P : play [a] w = Some w1) by (simpl; rewrite E; reflexivity).
    apply play_run in P. inversion P; subst. match goal with K : run _ _ [] _ |- _ => inversion K; subst end. constructor. auto.
  - destruct (tok_clawback (env_of [sg]) t from amt w) as [[[] w2]|] eqn:X; [|discriminate]. inversion E; subst.
    constructor; [reflexivity|exact X].
Qed.
Definition cworld (l : list CAct) : World := match cplay l w_empty with Some w => w | None => w_empty end.
Definition cplays (l : list CAct) : bool := match cplay l w_empty with Some _ => true | None => false end.
Lemma cworld_run l : cplays l = true -> crun xH w_empty (map cevent_of l) (cworld l).
Proof. unfold cplays, cworld. intros H. destruct (cplay l w_empty) eqn:E; [|discriminate]. apply cplay_run; auto. Qed.

(** two liquidity providers with half of the pool each; the issuer of token 1 takes half of the pool's tokens *)
Definition k0 : list CAct := map A (xsetup 30 1000 ++ xfund 1000000 2000000 ++
  [Do [-4] (CPoolProvide 10 (-4) (Some 1000000) None (Some 2000000) None None None)]).
Definition k1 : list CAct := k0 ++ [Take (-1) 1 10 1000000].
Definition kP (t a b : Z) : Pool := mkPool 1 2 xshare (xH 10 SEmpty) 30 (-3) 500 1000 500 100 (-1) t a b.
Example k1_run : crun xH w_empty (map cevent_of k1) (cworld k1). Proof. apply cworld_run. vm_compute. reflexivity. Qed.
Example C216_example : pool_at (cworld k1) 10 (kP 2828426 2000000 4000000) /\ bal (cworld k1) 1 10 = 1000000 /\
  clawed (map cevent_of k1) 1 10 = 1000000 /\ bal (cworld k1) 2 10 = 4000000 /\
  (exists x, tok_clawback (env_of [-1]) xshare (-2) 5 (cworld k1) = Err x) /\ 5 <= bal (cworld k1) xshare (-2).
Proof. conj. Qed.

(** a deposit of 1200000 and 2400000 fills the hole; the depositor is credited for the rest only *)
Definition kdep (a b : Z) : list CAct := k1 ++ [A (Do [-4] (CPoolProvide 10 (-4) (Some a) None (Some b) None None None))].
Example C217_example : pool_at (cworld (kdep 1200000 2400000)) 10 (kP 3111268 2200000 6400000) /\
  bal (cworld k1) 1 (-4) - bal (cworld (kdep 1200000 2400000)) 1 (-4) = 1200000 /\
  bal (cworld (kdep 1200000 2400000)) xshare (-4) - bal (cworld k1) xshare (-4) = 282842 /\
  cplays (kdep 900000 1800000) = false.
Proof. conj. Qed.

(** ** C218: "an accepted deposit earns shares": refuted.  A deposit of exactly the hole earns none. *)
Theorem C218_deposit_for_nothing_refuted : exists l w w' p p',
  crun xH w_empty l w /\ pool_at w 10 p /\
  exec (env_of [-4]) (CPoolProvide 10 (-4) (Some 1000000) None (Some 2000000) None None None) w = Ok (tt, w') /\
  pool_at w' 10 p' /\ bal w 1 (-4) - bal w' 1 (-4) = 1000000 /\ bal w 2 (-4) - bal w' 2 (-4) = 2000000 /\
  bal w' (p_share p) (-4) = bal w (p_share p) (-4) /\ p_total p' = p_total p.
Proof.
  exists (map cevent_of k1), (cworld k1), (cworld (kdep 1000000 2000000)), (kP 2828426 2000000 4000000), (kP 2828426 2000000 6000000).
  split; [apply k1_run|]. conj.
Qed.
Print Assumptions C218_deposit_for_nothing_refuted.

(** ** C219: "losses are shared": refuted.  The first provider withdraws the full booked half, the second
    cannot withdraw anything worth more than the rest. *)
Definition k2 : list CAct := k1 ++ [A (Do [-2] (CPoolWithdraw 10 (-2) 1413213 1 1 None))].
Theorem C219_first_come_first_served_refuted : exists l w w' p,
  crun xH w_empty l w /\ pool_at w 10 p /\ bal w (p_share p) (-2) = 1413213 /\ bal w (p_share p) (-4) = 1414213 /\
  exec (env_of [-2]) (CPoolWithdraw 10 (-2) 1413213 1 1 None) w = Ok (tt, w') /\
  bal w' 1 (-2) - bal w 1 (-2) = 999292 /\ bal w' 2 (-2) - bal w 2 (-2) = 1998585 /\
  bal w' 1 10 = 708 /\
  (exists x, exec (env_of [-4]) (CPoolWithdraw 10 (-4) 1414213 1 1 None) w' = Err x) /\
  (exists x, exec (env_of [-4]) (CPoolWithdraw 10 (-4) 1010 1 1 None) w' = Err x).
Proof.
  exists (map cevent_of k1), (cworld k1), (cworld k2), (kP 2828426 2000000 4000000).
  split; [apply k1_run|]. conj.
Qed.
Print Assumptions C219_first_come_first_served_refuted.

(** the rewards contract of Props_RewardsCases loses 6000 of the 10000 it holds; no distribution until they are back *)
Definition k3 : list CAct := map A r3 ++ [Take (-1) 2 30 6000].
Definition k4 : list CAct := k3 ++ [A (Do [-7] (CRewWithdraw 30 (-2) bA))].
Example C220_example : cplays k3 = true /\ rewards_at (cworld k3) 30 (the_rewards r3) /\ bal (cworld k3) 2 30 = 4000 /\
  r_wdr (the_rewards r3) = 10000 /\ r_minbond (the_rewards r3) <= 1000000 /\
  (exists x, exec (env_of [-7]) (CRewDistribute 30 1000000) (cworld k3) = Err x) /\
  exec (env_of [-7]) (CRewWithdraw 30 (-2) bA) (cworld k3) = Ok (tt, cworld k4) /\ bal (cworld k4) 2 30 = 1000 /\
  cplays (k3 ++ [A (Do [-1] (CTransfer 2 (-1) 30 6000)); A (Do [-7] (CRewDistribute 30 1000000))]) = true.
Proof. conj. Qed.
