(** Concrete cases of the reward-distribution theorems and the properties that fail: C45-C48, C89-C93. *)
From Coq Require Import ZArith List Bool Lia.
From Coq Require Import ZifyBool.
From Verif Require Import Base FMap Decimal DecimalProofs Curve CurveProofs CurveCombine World Token TokenProofs Frame Stake Pool Stable Rewards Vest Factory Router System
  SysSupply SysStake SysRewards Script Props_Token Props_Pool Props_Vest Props_Stake Props_StakeCases Props_Rewards.
Import ListNotations.
Open Scope Z_scope.

(** ** Scripts with the amount paid out *)
Fixpoint play_paid (c : Addr) (l : list Act) (w : World) (n : Z) : option (World * Z) :=
  match l with
  | [] => Some (w, n)
  | a :: tl =>
      match play1 a w with
      | None => None
      | Some w' =>
          match a with
          | Do _ k => if match k with CRewWithdraw _ u _ => negb (u =? c) | _ => true end then play_paid c tl w' (n + paid_in c w k w') else None
          | Wait _ _ => play_paid c tl w' n
          end
      end
  end.
Lemma play_paid_run c l : forall w n w' n', play_paid c l w n = Some (w', n') -> paid_run xH c w n -> paid_run xH c w' n'.
Proof.
  induction l as [|a l IH]; simpl; intros w n w' n' H R; [inversion H; subst; auto|].
  destruct (play1 a w) as [w1|] eqn:E; [|discriminate]. destruct a as [sg k|t s]; simpl in E.
  - destruct (exec (env_of sg) k w) as [[[] w2]|] eqn:X; [|discriminate]. inversion E; subst.
    match type of H with (if ?b then _ else _) = _ => destruct b eqn:B; [|discriminate] end.
    apply (IH _ _ _ _ H). eapply pr_tx; [exact R|apply (st_tx xH w (env_of sg)); [reflexivity|exact X]|]. intros u b ->. lia.
  - destruct (_ && _) eqn:B in E; [|discriminate]. inversion E; subst. apply (IH _ _ _ _ H). eapply pr_tick; [exact R|constructor; lia].
Qed.

(** ** Honest scripts *)
Definition tell (c : Addr) (k : Call) (m : fmap Z) : option (fmap Z) :=
  match k with
  | CRewBond c' u b => if (c' =? c) && (b_total b =? fgetd 0 u m) then
        match rev (b_stakes b) with x :: _ => if 0 <=? k_amt x then Some (fset u (fgetd 0 u m + k_amt x) m) else None | [] => None end else None
  | CRewUnbond c' u b x => if (c' =? c) && (b_total b =? fgetd 0 u m) && (x <=? fgetd 0 u m) then Some (fset u (fgetd 0 u m - x) m) else None
  | CRewAddUser c' u b => if (c' =? c) && (fgetd 0 u m =? 0) && (0 <=? b_total b) then Some (fset u (b_total b) m) else None
  | CRewWithdraw c' u b => if (c' =? c) && (b_total b =? fgetd 0 u m) then Some m else None
  | CRewDistribute c' tot => if (c' =? c) && (fsum (fun x => x) m <=? tot) then Some m else None
  | _ => Some m
  end.
Definition good_map (m : fmap Z) : Prop := fsorted m /\ forall k v, In (k, v) m -> 0 <= v.
Lemma good_set u v m : good_map m -> 0 <= v -> good_map (fset u v m).
Proof. intros [A B] P. split; [apply fsorted_set; auto|]. intros k x I. apply fset_in in I. destruct I as [I|I]; [inversion I; subst; auto|eauto]. Qed.
Lemma good_get u m : good_map m -> 0 <= fgetd 0 u m.
Proof. intros [_ B]. unfold fgetd. destruct (fget u m) eqn:E; [|lia]. apply fget_in in E. eauto. Qed.
Lemma get_set_other (m : fmap Z) u v x : v <> u -> fgetd 0 v (fset u x m) = fgetd 0 v m.
Proof. apply fgetd_set_other. Qed.
Lemma tell_tells c k m m' : tell c k m = Some m' -> on_rewards k c -> good_map m ->
  tells c k (fun u => fgetd 0 u m) (fun u => fgetd 0 u m') /\ good_map m'.
Proof.
  destruct k; simpl; try tauto; intros H On G; subst; rewrite ?Z.eqb_refl in H; simpl in H.
  - destruct (_ && _) eqn:B in H; [|discriminate]. inversion H; subst. split; [|apply good_set; auto; lia].
    split; [auto|]. split; [lia|]. split; [lia|]. split; [apply fgetd_set_same|]. intros v N. apply get_set_other; auto.
  - destruct (_ =? _) eqn:B in H; [|discriminate]. destruct (rev (b_stakes b)) as [|x q] eqn:Er; [discriminate|]. destruct (0 <=? k_amt x) eqn:Bx; [|discriminate].
    inversion H; subst. pose proof (good_get u m G). split; [|apply good_set; auto; lia]. split; [auto|]. split; [lia|]. split.
    + intros l y El. rewrite El, rev_app_distr in Er. simpl in Er. inversion Er; subst. split; [lia|]. apply fgetd_set_same.
    + intros v N. apply get_set_other; auto.
  - destruct (_ && _) eqn:B in H; [|discriminate]. inversion H; subst. split; [|apply good_set; auto; lia].
    split; [auto|]. split; [lia|]. split; [lia|]. split; [apply fgetd_set_same|]. intros v N. apply get_set_other; auto.
  - destruct (_ <=? _) eqn:B in H; [|discriminate]. inversion H; subst. split; auto. split; [auto|]. split; auto.
    intros l N. destruct G as [G1 G2]. pose proof (fsum_ge_some (fun x => x) m' l G1 N G2) as Q.
    etransitivity; [exact Q|lia].
  - destruct (_ =? _) eqn:B in H; [|discriminate]. inversion H; subst. split; auto. split; [auto|]. split; [lia|auto].
Qed.
Definition on_rewardsb (k : Call) (c : Addr) : bool :=
  match k with CRewBond c' _ _ | CRewUnbond c' _ _ _ | CRewAddUser c' _ _ | CRewWithdraw c' _ _ | CRewDistribute c' _ => c' =? c | _ => false end.
Lemma on_rewards_dec k c : if on_rewardsb k c then on_rewards k c else ~ on_rewards k c.
Proof. destruct k; simpl; auto; match goal with |- if ?a =? ?b then _ else _ => destruct (Z.eqb_spec a b); auto end. Qed.
Fixpoint play_honest (c : Addr) (l : list Act) (w : World) (m : fmap Z) : option (World * fmap Z) :=
  match l with
  | [] => Some (w, m)
  | a :: tl =>
      match play1 a w with
      | None => None
      | Some w' =>
          match a with
          | Do _ k => if on_rewardsb k c then match tell c k m with Some m' => play_honest c tl w' m' | None => None end else play_honest c tl w' m
          | Wait _ _ => play_honest c tl w' m
          end
      end
  end.
Lemma play_honest_run c l : forall w m w' m', play_honest c l w m = Some (w', m') -> good_map m -> honest xH c w (fun u => fgetd 0 u m) ->
  honest xH c w' (fun u => fgetd 0 u m').
Proof.
  induction l as [|a l IH]; simpl; intros w m w' m' H G R; [inversion H; subst; auto|].
  destruct (play1 a w) as [w1|] eqn:E; [|discriminate]. destruct a as [sg k|t s]; simpl in E.
  - destruct (exec (env_of sg) k w) as [[[] w2]|] eqn:X; [|discriminate]. inversion E; subst.
    pose proof (on_rewards_dec k c) as D. destruct (on_rewardsb k c).
    + destruct (tell c k m) as [m1|] eqn:Et; [|discriminate]. destruct (tell_tells _ _ _ _ Et D G) as [Tl G1].
      apply (IH _ _ _ _ H G1). eapply ho_mine; [exact R|apply (st_tx xH w (env_of sg)); [reflexivity|exact X]|exact D|exact Tl].
    + apply (IH _ _ _ _ H G). eapply ho_other; [exact R|apply (st_tx xH w (env_of sg)); [reflexivity|exact X]|exact D].
  - destruct (_ && _) eqn:B in E; [|discriminate]. inversion E; subst. apply (IH _ _ _ _ H G). eapply ho_tick; [exact R|constructor; lia].
Qed.
Definition plays_honest (c : Addr) (l : list Act) (m : fmap Z) : Prop := play_honest c l w_empty fempty = Some (world_of l, m).
Lemma honest_script c l m : plays_honest c l m -> honest xH c (world_of l) (fun u => fgetd 0 u m).
Proof.
  intros P. eapply play_honest_run; [exact P| |].
  - split; [exact I|]. intros k v [].
  - apply ho_nil. auto.
Qed.

(** Reward token 2; rewards contract 30 with admin -1; the staking contract is -7; users -2, -3. *)
Definition rsetup : list Act :=
  [Do [] (CDeployTok 2 (-1) 7); Do [-1] (CMint 2 (-1) (10^30)); Do [] (CDeploy 30 KRewards); Do [] (CRewInit 30 (-1) (-7) 2 10 5 1000)].
Definition kA : StakeE := mkStakeE 600000 1000.
Definition kB : StakeE := mkStakeE 400000 1000.
Definition rbonds : list Act :=
  [Wait 1000 1; Do [-7] (CRewBond 30 (-2) (mkBonding [kA] 0 0)); Do [-7] (CRewBond 30 (-3) (mkBonding [kB] 0 0))].
Definition rfund : list Act := [Do [-1; -7] (CRewFund 30 1000 100 10000)].
Definition r1 : list Act := rsetup ++ rbonds ++ rfund.
Definition r2 : list Act := r1 ++ [Wait 1050 1; Do [-7] (CRewDistribute 30 1000000)].
Definition r3 : list Act := r2 ++ [Wait (1000 + 30 * day) 2; Do [-7] (CRewDistribute 30 1000000)].
Definition bA : Bonding := mkBonding [kA] 0 600000.
Definition bB : Bonding := mkBonding [kB] 0 400000.
Definition r4 : list Act := r3 ++ [Do [-7] (CRewWithdraw 30 (-2) bA)].
Definition r5 : list Act := r4 ++ [Do [-7] (CRewWithdraw 30 (-2) bA)].
Definition the_rewards (l : list Act) : Rewards := match fget 30 (w_rewards (world_of l)) with Some r => r | None => new_rewards 0 0 0 0 0 0 end.
Lemma r5_reach : reachable xH (world_of r5). Proof. apply world_reach. vm_compute. reflexivity. Qed.

Example C45_example : paid_run xH 30 (world_of r4) 3000 /\ rewards_at (world_of r4) 30 (the_rewards r4) /\
  r_dist (the_rewards r4) = 10000 /\ r_wdr (the_rewards r4) = 7000 /\ bal (world_of r4) 2 30 = 7000.
Proof.
  split; [|vm_compute; auto].
  eapply (play_paid_run 30 r4 w_empty 0); [vm_compute; reflexivity|constructor].
Qed.
(** halfway through the curve half of the 10000 stay locked *)
Example C46_example : exists w', exec (env_of [-7]) (CRewDistribute 30 1000000) (world_of (r1 ++ [Wait 1050 1])) = Ok (tt, w') /\
  w' = world_of r2 /\ cvalue (r_curve (the_rewards r2)) 1050 = Ok 5000 /\ r_wdr (the_rewards r2) = 5000 /\ bal w' 2 30 = 10000.
Proof. eexists. split; [vm_compute; reflexivity|]. vm_compute. auto. Qed.

(** C47 fails: at half multiplier a user paid 3000 of 6000 gets 1500 more by calling again at
    once, and so on. *)
Theorem C47_multiplier_bypass_refuted : exists w1 w2 : World, exists c u b,
  reachable xH w1 /\ exec (env_of [-7]) (CRewWithdraw c u b) (world_of r3) = Ok (tt, w1) /\
  exec (env_of [-7]) (CRewWithdraw c u b) w1 = Ok (tt, w2) /\ w_now w2 = w_now w1 /\
  bal w1 2 u - bal (world_of r3) 2 u = 3000 /\ bal w2 2 u - bal w1 2 u = 1500.
Proof.
  exists (world_of r4), (world_of r5), 30, (-2), bA.
  split; [apply world_reach; vm_compute; reflexivity|]. vm_compute. auto 10.
Qed.
Print Assumptions C47_multiplier_bypass_refuted.
Example C47_example : withdrawable (the_rewards r3) (b_total bA) (r_adj_of (the_rewards r3) (-2)) = Ok 6000 /\
  withdrawable (the_rewards r4) (b_total bA) (r_adj_of (the_rewards r4) (-2)) = Ok 3000.
Proof. vm_compute. auto. Qed.
(** after 60 days *)
Definition r6 : list Act := r3 ++ [Wait (1000 + 61 * day) 3].
Definition r7 : list Act := r6 ++ [Do [-7] (CRewWithdraw 30 (-2) bA)].
Example C47_example_full : exec (env_of [-7]) (CRewWithdraw 30 (-2) bA) (world_of r6) = Ok (tt, world_of r7) /\ bal (world_of r7) 2 (-2) = 6000 /\
  exec (env_of [-7]) (CRewWithdraw 30 (-2) bA) (world_of r7) = Ok (tt, world_of r7).
Proof. vm_compute. auto. Qed.

(** C48: a second funding over an active curve *)
Definition r8 : list Act := r1 ++ [Wait 1040 1; Do [-1; -7] (CRewFund 30 1060 200 700)].
Definition okb_forward (c : Addr) (w : World) (k : Call) : bool :=
  match k with CRewFund c' st du _ => if c' =? c then st <? w_now w + du else true | _ => true end.
Lemma okb_forward_ok c w k : okb_forward c w k = true -> funds_forward c w k.
Proof. intros H st du amt ->. simpl in H. rewrite Z.eqb_refl in H. lia. Qed.
Example C48_example : run_if (funds_forward 30) xH w_empty (map event_of r8) (world_of r8) /\
  r_curve (the_rewards r8) = PieceLin [(1000, 10700); (1060, 4700); (1100, 545); (1240, 0)] /\ cend (r_curve (the_rewards r8)) = Some 1240.
Proof.
  split; [|vm_compute; auto]. eapply play_if_run; [apply okb_forward_ok|]. vm_compute. reflexivity.
Qed.
(** C48 fails: a funding that starts after it ends is accepted while a curve is active, and its
    700 tokens stay locked for good. *)
Definition r9 : list Act := r1 ++ [Wait 1040 1; Do [-1; -7] (CRewFund 30 5000 10 700)].
Theorem C48_backwards_funding_refuted : exists w w' r r', reachable xH w /\ rewards_at w 30 r /\
  exec (env_of [-1; -7]) (CRewFund 30 5000 10 700) w = Ok (tt, w') /\ rewards_at w' 30 r' /\
  cvalue (r_curve r) 1100 = Ok 0 /\ cend (r_curve r) = Some 1100 /\ w_now w + 10 = 1050 /\
  forall t, 5000 <= t -> cvalue (r_curve r') t = Ok 700.
Proof.
  exists (world_of (r1 ++ [Wait 1040 1])), (world_of r9), (the_rewards r1), (the_rewards r9).
  split; [apply world_reach; vm_compute; reflexivity|]. do 6 (split; [vm_compute; auto|]).
  intros t L. assert (E : r_curve (the_rewards r9) = PieceLin [(1000, 10700); (1050, 5700); (1100, 700); (5000, 700)]) by (vm_compute; reflexivity).
  rewrite E. unfold cvalue, pl_value. simpl last. simpl fst. simpl snd. destruct (Z.leb_spec t 1000); [lia|]. destruct (Z.leb_spec 5000 t); [auto|lia].
Qed.
Print Assumptions C48_backwards_funding_refuted.

Example C89_example : honest xH 30 (world_of r4) (fun u => fgetd 0 u (fset (-2) 600000 (fset (-3) 400000 fempty))) /\
  rewards_at (world_of r4) 30 (the_rewards r4) /\
  Forall (fun x => exists b, b_total b = fgetd 0 (fst x) (fset (-2) 600000 (fset (-3) 400000 fempty)) /\
    rewards_query 30 (fst x) b (world_of r4) = Ok (snd x, world_of r4)) [(-2, 1500); (-3, 2000)].
Proof.
  split; [apply (honest_script 30 r4); vm_compute; reflexivity|]. split; [vm_compute; auto|].
  constructor; [exists bA; vm_compute; auto|]. constructor; [exists bB; vm_compute; auto|constructor].
Qed.
(** Without honest reports the claims are not covered: a user whose stake was never reported
    claims a share of the past. *)
Example C89_needs_honesty : exists x, rewards_query 30 (-4) (mkBonding [mkStakeE 2000000 1000] 0 2000000) (world_of r4) = Ok (x, world_of r4) /\
  r_wdr (the_rewards r4) < x.
Proof. exists 10000. vm_compute. auto. Qed.
Definition r10 : list Act := r3 ++ [Do [-7] (CRewBond 30 (-2) (mkBonding [kA; mkStakeE 300000 (1000 + 30 * day)] 0 600000))].
Example C90_example : honest xH 30 (world_of r3) (fun u => fgetd 0 u (fset (-2) 600000 (fset (-3) 400000 fempty))) /\
  withdrawable (the_rewards r3) 600000 (r_adj_of (the_rewards r3) (-2)) = Ok 6000 /\
  withdrawable (the_rewards r10) 900000 (r_adj_of (the_rewards r10) (-2)) = Ok 6000.
Proof. split; [apply (honest_script 30 r3); vm_compute; reflexivity|]. vm_compute. auto. Qed.

Example C91_example : r_spp (the_rewards r2) = 21474836481 /\ r_left (the_rewards r2) = 0 /\ 21474836480 * pw (the_rewards r1) 1000000 = 5000 * 2^32.
Proof. vm_compute. auto. Qed.
(** C91 fails for amounts of 2^96 and more: the shift drops the high bits, so that a
    distribution of 2^96 tokens credits nobody and the tokens are set aside for good. *)
Definition r11 : list Act := rsetup ++ rbonds ++ [Do [-1; -7] (CRewFund 30 1000 100 (2^96)); Wait 2000 1].
Definition r12 : list Act := r11 ++ [Do [-7] (CRewDistribute 30 1000000)].
Theorem C91_big_distribution_refuted : exists r r', reachable xH (world_of r11) /\ rewards_at (world_of r11) 30 r /\
  exec (env_of [-7]) (CRewDistribute 30 1000000) (world_of r11) = Ok (tt, world_of r12) /\ rewards_at (world_of r12) 30 r' /\
  r_dist r' - r_dist r = 2^96 /\ r_spp r' = r_spp r /\ r_left r' = r_left r /\
  withdrawable r' 600000 (r_adj_of r' (-2)) = Ok 0 /\ withdrawable r' 400000 (r_adj_of r' (-3)) = Ok 0.
Proof.
  exists (the_rewards r11), (the_rewards r12). split; [apply world_reach; vm_compute; reflexivity|]. vm_compute. auto 12.
Qed.
Print Assumptions C91_big_distribution_refuted.

Example C92_example : signs (env_of [-1; -7]) (-7) = true /\ signs (env_of [-1; -7]) (-1) = true /\
  exec (env_of [-1]) (CRewFund 30 1000 100 10000) (world_of (rsetup ++ rbonds)) = Err EAuth.
Proof. vm_compute. auto. Qed.

(** ** C93 fails: stakes above 170141183460469231731 (2^127 / 10^18) block the contract *)
Lemma calc_power_big r t : r_minbond r <= t -> 170141183460469231731 < t -> calc_power r t = Err EArith.
Proof.
  intros L B. unfold calc_power. destruct (Z.ltb_spec t (r_minbond r)); [lia|]. unfold i_mul_dec.
  destruct (Z.eqb_spec t 0); [lia|]. change (dec_one =? 0) with false. simpl orb. cbv iota.
  assert (E : mul_i t dec_one = Err EArith).
  { unfold mul_i, chk. assert (in_i128 (t * dec_one) = false) as ->; [|auto]. unfold in_i128, I128_MAX, I128_MIN, dec_one, DEC. lia. }
  rewrite E. reflexivity.
Qed.
Theorem C93_large_stakes_refuted : forall e c tot w r, rewards_at w c r -> r_minbond r <= tot -> 170141183460469231731 < tot ->
  (forall w', exec e (CRewDistribute c tot) w <> Ok (tt, w')) /\
  forall u b, b_total b = tot -> (forall w', exec e (CRewWithdraw c u b) w <> Ok (tt, w')) /\ forall x w', exec e (CRewUnbond c u b x) w <> Ok (tt, w').
Proof.
  intros e c tot w r Hr L B. pose proof (calc_power_big r tot L B) as E. unfold rewards_at in Hr. split; [|intros u b Eb; split].
  - intros w' X. simpl in X. unfold rewards_distribute in X. rstep X. winv.
    match goal with K : fget c (w_rewards _) = Some ?q |- _ => rewrite Hr in K; inversion K; subst q end. congruence.
  - intros w' X. simpl in X. apply rewards_withdraw_ok in X. destruct X as [r0 [r' [amt [_ [E0 [_ V]]]]]]. rewrite Hr in E0. inversion E0; subst r0.
    destruct (reward_now_ok _ _ _ _ _ (rp_now _ _ _ _ _ _ _ _ V)) as [a [m [A1 _]]]. destruct (withdrawable_ok _ _ _ _ A1) as [p [Hp _]]. congruence.
  - intros x w' X. simpl in X. apply rewards_unbond_ok in X. destruct X as [r0 [r1 [r' [amt [p0 [p1 [_ [E0 [_ [_ V]]]]]]]]]]. rewrite Hr in E0. inversion E0; subst r0.
    pose proof (rn_p0 _ _ _ _ _ _ _ _ _ _ _ _ V). congruence.
Qed.
Print Assumptions C93_large_stakes_refuted.
(** the calls work just below the limit: 170141183460469 tokens of 6 decimals *)
Example C93_example : exec (env_of [-7]) (CRewDistribute 30 170141183460469231731) (world_of (r1 ++ [Wait 2000 1])) <> Err EArith /\
  exec (env_of [-7]) (CRewDistribute 30 170141183460469231732) (world_of (r1 ++ [Wait 2000 1])) = Err EArith.
Proof. vm_compute. split; [discriminate|reflexivity]. Qed.
