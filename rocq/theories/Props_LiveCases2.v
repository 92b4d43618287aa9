(** Concrete cases for Props_LiveVest, Props_LiveFact and Props_LiveStake, and the refuted claim C138. *)
From Coq Require Import ZArith List Bool Lia.
From Coq Require Import ZifyBool.
From Verif Require Import Base FMap Decimal DecimalProofs Curve World Token TokenProofs Frame Stake Pool PoolProofs
  Stable StableProofs Rewards Vest Factory Router System SysFrame SysInv SysPool SysStable SysSupply
  SysVest SysStake SysRewards SysFact Script Runs Props_Token Props_Pool Props_Stable Props_Vest Props_Stake Props_Factory
  Props_PoolCases Props_StakeCases Props_VestCases Props_FactoryCases Props_Live Props_LiveTok Props_LiveVest Props_LiveFact Props_LiveStake.
Import ListNotations.
Open Scope Z_scope.

(** ** C135: at time 125 a quarter of the 1000 is free; a second claim at the same time is refused *)
Example C135_claim_example : let w := world_of (v1 ++ [Wait 125 2]) in
  reachable xH w /\ vest_at w 30 (mkVest (-1) 1 10 (Some (-6, 500))
    (fset (-5) (fset 0 (mkVInfo 1000 (-5) vlin) fempty) (fset (-7) (fset 0 (mkVInfo 600 (-7) vpl) fempty) fempty))) /\
  cvalue vlin (w_now w) = Ok 750 /\
  (exists w', vest_claim (env_of [-5]) None 30 (-5) 0 w = Ok (tt, w') /\ bal w' 1 (-5) = 250 /\
     forall e r, vest_claim e None 30 (-5) 0 w' <> Ok r).
Proof.
  cbv zeta. split; [apply world_reach; vm_compute; reflexivity|]. split; [vm_compute; reflexivity|]. split; [vm_compute; reflexivity|].
  exists (world_of (v1 ++ [Wait 125 2; Do [-5] (CVestClaim 30 (-5) 0)])).
  split; [vm_compute; reflexivity|]. split; [vm_compute; reflexivity|].
  intros e [[] w'] X.
  assert (R : reachable xH (world_of (v1 ++ [Wait 125 2; Do [-5] (CVestClaim 30 (-5) 0)]))) by (apply world_reach; vm_compute; reflexivity).
  assert (E : vest_at (world_of (v1 ++ [Wait 125 2; Do [-5] (CVestClaim 30 (-5) 0)])) 30 (mkVest (-1) 1 10 (Some (-6, 500))
    (fset (-5) (fset 0 (mkVInfo 750 (-5) vlin) fempty) (fset (-7) (fset 0 (mkVInfo 600 (-7) vpl) fempty) fempty)))) by (vm_compute; reflexivity).
  destruct (proj1 (C135_claim_succeeds_iff _ _ _ _ _ _ _ R E) (ex_intro _ w' X)) as [_ [x [lk [[v [m [E1 [E2 E3]]]] [C [L _]]]]]].
  unfold vest_at in E, E1. rewrite E in E1. inversion E1; subst v. vm_compute in E2. inversion E2; subst m.
  vm_compute in E3. inversion E3; subst x. vm_compute in C. inversion C; subst lk. vm_compute in L. discriminate.
Qed.
Example C135_creation_example : forallb (fun x => typed_curve (snd x)) vlist = true /\
  Forall2 (fun uc T => schedule_of 10 (snd uc) T) vlist [1000; 600] /\ bal (world_of v0) 1 (-1) = 5000 /\
  exists w', vest_create (env_of [-1]) None 30 vlist (world_of v0) = Ok (tt, w').
Proof.
  split; [reflexivity|]. split.
  { constructor; [simpl; lia|]. constructor; [|constructor]. simpl.
    split; [repeat (constructor; simpl; try lia)|]. split; [eexists _, _; split; [reflexivity|lia]|]. simpl. lia. }
  split; [vm_compute; reflexivity|]. eexists. vm_compute. reflexivity.
Qed.
(** a schedule that rises before it falls has no total *)
Example C135_creation_example_fails : forall T, ~ schedule_of 10 (PieceLin [(100, 600); (150, 700); (300, 0)]) T.
Proof. intros T [A _]. inversion A as [|? ? _ F]; subst. inversion F as [|? ? Q]; subst. simpl in Q. lia. Qed.
Example C135_mint_example : tadmin (world_of v0) 1 = Some 30 /\
  (exists w', vest_mint (env_of [-6]) None 30 (-6) 500 (world_of v0) = Ok (tt, w') /\ bal w' 1 30 = 500) /\
  forall r, vest_mint (env_of [-6]) None 30 (-6) 501 (world_of v0) <> Ok r.
Proof. split; [vm_compute; reflexivity|]. split; [eexists; split; vm_compute; reflexivity|]. intros r. vm_compute. discriminate. Qed.

(** ** C136 *)
Definition xroom (p : Addr) (ta tb : Addr) : Prop := room_for (world_of (fsetup [-5])) p (xH p (SPair ta tb)) (xH p SEmpty) ta tb.
Example C136_xyk_example : xroom fp1 1 2 /\
  exists w', fact_create (env_of [-5]) None 20 (-5) (finit 1 2) Xyk None 100 1000 (world_of (fsetup [-5])) = Ok (fp1, w').
Proof.
  split; [|eexists; vm_compute; reflexivity]. unfold xroom, room_for, vacant.
  vm_compute. repeat split; discriminate.
Qed.
Example C136_stable_example : xroom fp2 2 3 /\
  exists w', fact_create (env_of [-5]) None 20 (-5) (finit 2 3) StableT (Some 10) 100 1000 (world_of (fsetup [-5])) = Ok (fp2, w').
Proof.
  split; [|eexists; vm_compute; reflexivity]. unfold xroom, room_for, vacant.
  vm_compute. repeat split; discriminate.
Qed.
(** a fee above the maximum is refused; the same call with the fee at the maximum is accepted *)
Example C136_fee_example :
  (exists r, fact_create (env_of [-5]) None 20 (-5) (finit 1 2) Xyk None 100 30 (world_of (fsetup [-5])) = Ok r) /\
  forall r, fact_create (env_of [-5]) None 20 (-5) (finit 1 2) Xyk None 100 29 (world_of (fsetup [-5])) <> Ok r.
Proof. split; [eexists; vm_compute; reflexivity|]. intros r. vm_compute. discriminate. Qed.

(** ** C137 *)
Example C137_example : stake_query_rewards 20 (-2) (world_of s1) = Ok ([(2, 300); (1, 0)], world_of s1) /\
  bal (world_of s1) 2 20 = 1000 /\ is_tok (world_of s1) 2 /\ is_tok (world_of s1) 1 /\
  exists w', stake_withdraw_rewards (env_of []) 20 (-2) (world_of s1) = Ok (tt, w').
Proof.
  split; [vm_compute; reflexivity|]. split; [vm_compute; reflexivity|].
  split; [eexists; vm_compute; reflexivity|]. split; [eexists; vm_compute; reflexivity|]. eexists. vm_compute. reflexivity.
Qed.

(** ** C138 fails: create_distribution_flow accepts the address -7 of an account.  Before it the user -2
    could withdraw 300; after it no user can withdraw anything, at any time. *)
Definition s138 : list Act := s1 ++ [Do [-1] (CFlow 20 (-1) (-7))].
Theorem C138_new_flow_keeps_rewards_refuted : exists s,
  reachable xH (world_of s1) /\ reachable xH (world_of s138) /\
  exec (env_of [-1]) (CFlow 20 (-1) (-7)) (world_of s1) = Ok (tt, world_of s138) /\
  stake_at (world_of s138) 20 s /\ In (-7) (s_dists s) /\
  claimable (world_of s1) 20 (-2) 2 300 /\ bal (world_of s138) 2 20 = 1000 /\
  (exists w', stake_withdraw_rewards (env_of []) 20 (-2) (world_of s1) = Ok (tt, w')) /\
  forall l w2, run xH (world_of s138) l w2 -> forall e u w', stake_withdraw_rewards e 20 u w2 <> Ok (tt, w').
Proof.
  assert (R0 : reachable xH (world_of s1)) by (apply world_reach; vm_compute; reflexivity).
  assert (R : reachable xH (world_of s138)) by (apply world_reach; vm_compute; reflexivity).
  assert (X : exec (env_of [-1]) (CFlow 20 (-1) (-7)) (world_of s1) = Ok (tt, world_of s138)) by (vm_compute; reflexivity).
  assert (E : exists s, stake_at (world_of s138) 20 s /\ In (-7) (s_dists s)).
  { eexists. split; [vm_compute; reflexivity|]. simpl. auto. }
  destruct E as [s [E I]]. exists s. split; [exact R0|]. split; [exact R|]. split; [exact X|]. split; [exact E|]. split; [exact I|].
  split. { eexists. split; [vm_compute; reflexivity|simpl; auto]. }
  split; [vm_compute; reflexivity|]. split; [eexists; vm_compute; reflexivity|].
  intros l w2 Rn. eapply C138_bad_flow_blocks_rewards; eauto. left. lia.
Qed.
Print Assumptions C138_new_flow_keeps_rewards_refuted.
