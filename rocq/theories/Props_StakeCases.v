(** Concrete cases of the staking theorems and the properties that fail: C35-C44, C88. *)
From Coq Require Import ZArith List Bool Lia.
From Coq Require Import ZifyBool.
From Verif Require Import Base FMap Decimal Curve World Token TokenProofs Frame Stake Pool Stable Rewards Vest Factory Router System
  SysSupply SysStake Script Props_Token Props_Pool Props_Vest Props_Stake.
Import ListNotations.
Open Scope Z_scope.

(** ** Scripts whose calls satisfy a condition *)
Fixpoint play_if (okb : World -> Call -> bool) (l : list Act) (w : World) : option World :=
  match l with
  | [] => Some w
  | a :: tl => match a with Do _ k => if okb w k then match play1 a w with Some w' => play_if okb tl w' | None => None end else None
               | Wait _ _ => match play1 a w with Some w' => play_if okb tl w' | None => None end end
  end.
Lemma play_if_run okb (ok : World -> Call -> Prop) : (forall w k, okb w k = true -> ok w k) ->
  forall l w w', play_if okb l w = Some w' -> run_if ok xH w (map event_of l) w'.
Proof.
  intros Ok l. induction l as [|a l IH]; simpl; intros w w' H; [inversion H; constructor|].
  destruct a as [sg k|n s].
  - destruct (okb w k) eqn:Eo; [|discriminate]. destruct (play1 (Do sg k) w) as [w1|] eqn:E; [|discriminate].
    simpl in E. destruct (exec (env_of sg) k w) as [[[] w2]|] eqn:X; [|discriminate]. inversion E; subst.
    eapply ri_tx; [constructor; [reflexivity|exact X]|auto|auto].
  - destruct (play1 (Wait n s) w) as [w1|] eqn:E; [|discriminate]. simpl in E.
    destruct (_ && _) eqn:B in E; [|discriminate]. inversion E; subst. eapply ri_tick; [constructor; lia|auto].
Qed.
Definition okb_total (c : Addr) (w : World) (k : Call) : bool :=
  match k with
  | CDistribute c' _ _ _ => if c' =? c then match fget c (w_stake w) with Some s => match fget (w_now w) (s_tsh s) with Some T => T <=? s_total s | None => true end
                                            | None => true end else true
  | _ => true
  end.
Lemma okb_total_ok c w k : okb_total c w k = true -> keeps_day_total c w k.
Proof.
  destruct k; simpl; auto. intros H E s T Es Et. subst. rewrite Z.eqb_refl in H. unfold stake_at in Es. rewrite Es, Et in H. lia.
Qed.
Definition keeps (c : Addr) (l : list Act) : Prop := play_if (okb_total c) l w_empty = Some (world_of l).
Lemma keeps_run c l : keeps c l -> run_if (keeps_day_total c) xH w_empty (map event_of l) (world_of l).
Proof. intros K. eapply play_if_run; [apply okb_total_ok|exact K]. Qed.

(** LP token 1, reward token 2; stake contract 20 with manager -1 and owner -9; users -2, -3, -4 *)
Definition day : Z := 86400.
Definition ssetup : list Act :=
  [Do [] (CDeployTok 1 (-1) 7); Do [] (CDeployTok 2 (-1) 7); Do [-1] (CMint 1 (-1) 100000); Do [-1] (CMint 2 (-1) (10^21));
   Do [-1] (CMint 1 (-2) 10000); Do [-1] (CMint 1 (-3) 10000); Do [-1] (CMint 1 (-4) 10000);
   Do [] (CDeploy 20 KStake); Do [] (CStakeInit 20 (-1) 1 10 5 (-1) (-9) 10);
   Do [-1] (CFlow 20 (-1) 2); Do [-9] (CFlow 20 (-9) 1)].
Definition sbond : list Act := [Wait 1000 1; Do [-2] (CBond 20 (-2) 600); Do [-3] (CBond 20 (-3) 400)].
Definition s1 : list Act := ssetup ++ sbond ++ [Wait (1000 + 30 * day) 2; Do [-1] (CDistribute 20 (-1) 1000 2)].
Definition sS (b2 b3 b4 : option Bonding) (tot : Z) (tsh h2 h1 : fmap Z) : Stake :=
  mkStake 1 10 5 (-1) (-9) 10 (-1) tot
   (match b4 with Some b => fset (-4) b | None => fun m => m end (match b3 with Some b => fset (-3) b | None => fun m => m end
     (match b2 with Some b => fset (-2) b | None => fun m => m end fempty))) tsh [2; 1] (fset 2 h2 (fset 1 h1 fempty)).
Definition sS1 : Stake := sS (Some (mkBonding [mkStakeE 600 1000] 0 600)) (Some (mkBonding [mkStakeE 400 1000] 0 400)) None 1000
  (fset (1000 + 30 * day) 1000 fempty) (fset (1000 + 30 * day) 1000 fempty) fempty.
Example s1_reach : reachable xH (world_of s1). Proof. apply world_reach. vm_compute. reflexivity. Qed.
Example s1_stake : stake_at (world_of s1) 20 sS1. Proof. vm_compute. reflexivity. Qed.
Example s1_keeps : keeps 20 s1. Proof. vm_compute. reflexivity. Qed.
Example C35_example : staked sS1 (-2) = 600 /\ staked sS1 (-3) = 400 /\ s_total sS1 = 1000. Proof. vm_compute. auto. Qed.
Example C36_example : s_total sS1 = 1000 /\ bal (world_of s1) (s_lp sS1) 20 = 1000. Proof. vm_compute. auto. Qed.
Example C37_example : In (mkStakeE 600 1000) (stakes_of sS1 (-2)) /\ bal (world_of s1) (s_lp sS1) (-2) + 600 <= I128_MAX.
Proof. vm_compute. split; [auto|discriminate]. Qed.
(** half of 600 and half of 400 are claimable after 30 days, and 1000 are there *)
Example C38_example : Forall (fun x => claimable (world_of s1) 20 (fst x) 2 (snd x)) [(-2, 300); (-3, 200)] /\ bal (world_of s1) 2 20 = 1000.
Proof. split; [|vm_compute; auto]. repeat constructor; (eexists; split; [vm_compute; reflexivity|simpl; auto]). Qed.
Definition s2 : list Act := s1 ++ [Do [-5] (CWithdrawRewards 20 (-2))].
Example C39_example : exec (env_of [-5]) (CWithdrawRewards 20 (-2)) (world_of s1) = Ok (tt, world_of s2) /\
  bal (world_of s2) 2 (-2) = 300 /\ stake_query_rewards 20 (-2) (world_of s2) = Ok ([(2, 0); (1, 0)], world_of s2).
Proof. vm_compute. auto. Qed.
Example C40_example : claimable (world_of s1) 20 (-2) 2 300 /\ reward 600 1000 (1000 + 30 * day) 1000 1000 = 300.
Proof. split; [|vm_compute; auto]. eexists; split; [vm_compute; reflexivity|simpl; auto]. Qed.
Example C41_example : (forall a h d A k, fget a (s_rh sS1) = Some h -> fget d h = Some A -> last_claim sS1 (-3) < d -> In k (stakes_of sS1 (-3)) ->
     k_ts k <= d /\ A * 10^18 <= I128_MAX /\ k_amt k * A <= U128_MAX) /\
  (forall a, In a (s_dists sS1) -> is_tok (world_of s1) a /\ bal (world_of s1) a (-3) + bal (world_of s1) a 20 <= I128_MAX).
Proof.
  split.
  - intros a h d A k E1 E2 _ [<-|[]]. change (s_rh sS1) with (fset 2 (fset (1000 + 30 * day) 1000 fempty) (fset 1 (fempty (V := Z)) fempty)) in E1. rewrite !fget_set in E1.
    destruct (Z.eqb_spec a 2); [|destruct (Z.eqb_spec a 1); [|discriminate]]; apply (f_equal (fun o => match o with Some x => x | None => fempty end)) in E1; cbv beta iota in E1; rewrite <- E1 in E2; clear E1.
    + rewrite fget_set in E2. destruct (Z.eqb_spec d (1000 + 30 * day)); [|discriminate]. inversion E2; subst. vm_compute. repeat split; discriminate.
    + discriminate.
  - intros a [<-|[<-|[]]]; (split; [eexists; vm_compute; reflexivity|vm_compute; discriminate]).
Qed.
Example C44_example : exec (env_of [-9]) (CFlow 20 (-9) 5) (world_of s1) <> Err EAuth /\
  exec (env_of [-9]) (CFlow 20 (-9) 2) (world_of s1) = Err (EContract 10) /\
  exec (env_of [-2]) (CDistribute 20 (-2) 10 2) (world_of s1) = Err (EContract 5) /\
  exec (env_of [-2]) (CDistribute 20 (-1) 10 2) (world_of s1) = Err EAuth.
Proof. vm_compute. repeat split. discriminate. Qed.

(** ** C36, C37, C38 fail when the LP token is itself distributed and two distributions of different
    tokens happen in the same ledger: the second one records a lower total for the first *)
Definition t60 : Z := 1000 + 60 * day.
Definition s3 : list Act := ssetup ++ [Wait 1000 1; Do [-2] (CBond 20 (-2) 50); Do [-3] (CBond 20 (-3) 50); Wait t60 2;
  Do [-1] (CDistribute 20 (-1) 1000 1); Do [] (CWithdrawRewards 20 (-2)); Do [-2] (CUnbond 20 (-2) 50 1000); Do [-1] (CDistribute 20 (-1) 1000 2)].
Definition s4 : list Act := s3 ++ [Do [-4] (CBond 20 (-4) 450); Do [] (CWithdrawRewards 20 (-3))].
Definition sS3 : Stake := sS (Some (mkBonding [] t60 0)) (Some (mkBonding [mkStakeE 50 1000] 0 50)) None 50
  (fset t60 50 fempty) (fset t60 1000 fempty) (fset t60 1000 fempty).
Definition sS4 : Stake := sS (Some (mkBonding [] t60 0)) (Some (mkBonding [mkStakeE 50 1000] t60 50)) (Some (mkBonding [mkStakeE 450 t60] 0 450)) 500
  (fset t60 50 fempty) (fset t60 1000 fempty) (fset t60 1000 fempty).
(** user -3 withdrew all the LP tokens, among them the 450 just staked by user -4 *)
Theorem C36_principal_backed_refuted : exists w s, reachable xH w /\ stake_at w 20 s /\ s_total s = 500 /\ bal w (s_lp s) 20 = 0.
Proof. exists (world_of s4), sS4. split; [apply world_reach; vm_compute; reflexivity|]. vm_compute. auto. Qed.
Print Assumptions C36_principal_backed_refuted.
Lemma unbond_needs_funds e c u amt ts w w' s : exec e (CUnbond c u amt ts) w = Ok (tt, w') -> stake_at w c s -> amt <= bal w (s_lp s) c.
Proof.
  intros X E. simpl in X. apply stake_unbond_ok in X. destruct X as [s0 [s' [l [B1 B2 B3 B4 [w1 [M Ew]] _]]]].
  unfold stake_at in E. rewrite E in B2. inversion B2; subst s0. apply (mv_le _ _ _ _ _ _ M).
Qed.
Theorem C37_principal_withdrawable_refuted : exists w s k, reachable xH w /\ stake_at w 20 s /\ In k (stakes_of s (-4)) /\
  bal w (s_lp s) (-4) + k_amt k <= I128_MAX /\ forall e w', exec e (CUnbond 20 (-4) (k_amt k) (k_ts k)) w <> Ok (tt, w').
Proof.
  assert (E : stake_at (world_of s4) 20 sS4) by (vm_compute; reflexivity).
  assert (B : bal (world_of s4) (s_lp sS4) 20 = 0) by (vm_compute; reflexivity).
  exists (world_of s4), sS4, (mkStakeE 450 t60). split; [apply world_reach; vm_compute; reflexivity|]. split; [exact E|].
  split; [vm_compute; auto|]. split; [vm_compute; discriminate|].
  intros e w' X. pose proof (unbond_needs_funds _ _ _ _ _ _ _ _ X E) as L. rewrite B in L. cbn [k_amt] in L. lia.
Qed.
Print Assumptions C37_principal_withdrawable_refuted.
Theorem C38_reward_solvency_refuted : exists w s, reachable xH w /\ stake_at w 20 s /\ claimable w 20 (-3) 1 1000 /\ bal w 1 20 = 550.
Proof.
  exists (world_of s3), sS3. split; [apply world_reach; vm_compute; reflexivity|]. split; [vm_compute; reflexivity|].
  split; [eexists; split; [vm_compute; reflexivity|simpl; auto]|vm_compute; reflexivity].
Qed.
Print Assumptions C38_reward_solvency_refuted.

(** ** C41 fails: somebody who stakes for the first time after a distribution *)
Definition s5 : list Act := s1 ++ [Wait (1000 + 31 * day) 3; Do [-4] (CBond 20 (-4) 100); Wait (1000 + 100 * day) 4; Do [-1] (CDistribute 20 (-1) 1000 2)].
Example s5_keeps : keeps 20 s5. Proof. vm_compute. reflexivity. Qed.
Definition kS5 : Stake := sS (Some (mkBonding [mkStakeE 600 1000] 0 600)) (Some (mkBonding [mkStakeE 400 1000] 0 400))
  (Some (mkBonding [mkStakeE 100 (1000 + 31 * day)] 0 100)) 1100
  (fset (1000 + 30 * day) 1000 (fset (1000 + 100 * day) 1100 fempty)) (fset (1000 + 30 * day) 1000 (fset (1000 + 100 * day) 1000 fempty)) fempty.
Example C41_late_example : late_stake (world_of s5) 20 (-4) (mkStakeE 100 (1000 + 31 * day)).
Proof.
  exists kS5, 2, (fset (1000 + 30 * day) 1000 (fset (1000 + 100 * day) 1000 fempty)), (1000 + 30 * day), 1000, 1000.
  split; [vm_compute; reflexivity|]. split; [vm_compute; auto|]. split; [vm_compute; reflexivity|]. split; [vm_compute; reflexivity|]. split; [vm_compute; reflexivity|].
  split; [lia|]. split; [vm_compute; auto|vm_compute; auto].
Qed.
Theorem C41_every_staker_can_withdraw_refuted : exists w s, reachable xH w /\ stake_at w 20 s /\ staked s (-4) = 100 /\
  s_total s <= bal w (s_lp s) 20 /\ 2000 <= bal w 2 20 /\ forall e w', exec e (CWithdrawRewards 20 (-4)) w <> Ok (tt, w').
Proof.
  assert (R : reachable xH (world_of s5)) by (apply world_reach; vm_compute; reflexivity).
  exists (world_of s5), kS5. split; [exact R|]. split; [vm_compute; reflexivity|]. split; [vm_compute; reflexivity|].
  split; [vm_compute; discriminate|]. split; [vm_compute; discriminate|].
  apply (C41_late_staker_blocked_for_good _ _ _ _ _ [] _ R C41_late_example). constructor.
Qed.
Print Assumptions C41_every_staker_can_withdraw_refuted.

(** ** C42 fails: unbonding forfeits the rewards already earned *)
Theorem C42_unbonding_keeps_rewards_refuted : exists w w', reachable xH w /\ claimable w 20 (-2) 2 300 /\
  exec (env_of [-2]) (CUnbond 20 (-2) 600 1000) w = Ok (tt, w') /\ claimable w' 20 (-2) 2 0 /\ bal w' 2 (-2) = 0.
Proof.
  exists (world_of s1), (world_of (s1 ++ [Do [-2] (CUnbond 20 (-2) 600 1000)])).
  split; [apply world_reach; vm_compute; reflexivity|]. split; [eexists; split; [vm_compute; reflexivity|simpl; auto]|].
  split; [vm_compute; reflexivity|]. split; [eexists; split; [vm_compute; reflexivity|simpl; auto]|vm_compute; reflexivity].
Qed.
Print Assumptions C42_unbonding_keeps_rewards_refuted.

(** ** C43 fails: two distributions of one token in the same ledger; the manager pays 2000, the only
    staker (full multiplier) can claim 1000 *)
Definition s6 : list Act := ssetup ++ [Wait 1000 1; Do [-2] (CBond 20 (-2) 600); Wait t60 2; Do [-1] (CDistribute 20 (-1) 1000 2)].
Definition s7 : list Act := s6 ++ [Do [-1] (CDistribute 20 (-1) 1000 2)].
Theorem C43_every_distribution_claimable_refuted : exists w w', reachable xH w /\ claimable w 20 (-2) 2 1000 /\
  exec (env_of [-1]) (CDistribute 20 (-1) 1000 2) w = Ok (tt, w') /\ bal w' 2 20 = 2000 /\ claimable w' 20 (-2) 2 1000.
Proof.
  exists (world_of s6), (world_of s7).
  split; [apply world_reach; vm_compute; reflexivity|]. split; [eexists; split; [vm_compute; reflexivity|simpl; auto]|].
  split; [vm_compute; reflexivity|]. split; [vm_compute; reflexivity|]. eexists; split; [vm_compute; reflexivity|simpl; auto].
Qed.
Print Assumptions C43_every_distribution_claimable_refuted.

(** ** C88 fails: 200 tokens of 18 decimals to a single staker *)
Definition s8 : list Act := ssetup ++ [Wait 1000 1; Do [-2] (CBond 20 (-2) 600); Wait t60 2; Do [-1] (CDistribute 20 (-1) (2 * 10^20) 2); Wait (t60 + 1) 3].
Definition sS8 : Stake := sS (Some (mkBonding [mkStakeE 600 1000] 0 600)) None None 600 (fset t60 600 fempty) (fset t60 (2 * 10^20) fempty) fempty.
Example C88_example : oversized_stake (world_of s8) 20 (-2) (mkStakeE 600 1000).
Proof.
  exists sS8, 2, (fset t60 (2 * 10^20) fempty), t60, (2 * 10^20), 600.
  split; [vm_compute; reflexivity|]. split; [vm_compute; auto|]. split; [vm_compute; reflexivity|]. split; [vm_compute; reflexivity|]. split; [vm_compute; reflexivity|].
  split; [lia|]. split; [vm_compute; auto|]. split; [vm_compute; auto|]. split; [vm_compute; discriminate|vm_compute; reflexivity].
Qed.
Theorem C88_rewards_of_any_size_withdrawable_refuted : exists w s, reachable xH w /\ stake_at w 20 s /\ stakes_of s (-2) = [mkStakeE 600 1000] /\
  recorded s 2 t60 = Some (2 * 10^20) /\ bal w 2 20 = 2 * 10^20 /\ forall e w', exec e (CWithdrawRewards 20 (-2)) w <> Ok (tt, w').
Proof.
  assert (R : reachable xH (world_of s8)) by (apply world_reach; vm_compute; reflexivity).
  exists (world_of s8), sS8. split; [exact R|]. split; [vm_compute; reflexivity|]. split; [vm_compute; reflexivity|].
  split; [vm_compute; reflexivity|]. split; [vm_compute; reflexivity|].
  apply (C88_oversized_reward_blocks_for_good _ _ _ _ _ [] _ R C88_example). constructor.
Qed.
Print Assumptions C88_rewards_of_any_size_withdrawable_refuted.
