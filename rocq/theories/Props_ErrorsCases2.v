(** C241, C242: the codes named in Props_ErrorsLocks and Props_ErrorsRoutes are reported in reachable states.
    C243: codes that mislead. *)
From Coq Require Import ZArith List Bool Lia.
From Coq Require Import ZifyBool.
From Verif Require Import Base FMap Decimal DecimalProofs Curve CurveProofs World Token TokenProofs Frame Stake Pool PoolProofs
  Stable StableProofs Rewards Vest Factory Router System SysFrame SysInv SysPool SysStable SysSupply SysVest SysStake Script ErrProofs
  Props_Token Props_Pool Props_PoolCases Props_Stable Props_StableCases Props_Stake Props_StakeCases Props_Rewards Props_RewardsCases
  Props_Vest Props_VestCases SysFact Props_Factory Props_FactoryCases SysAllow Props_Router Props_RouterCases
  Props_Errors Props_ErrorsStable Props_ErrorsCases Props_ErrorsLocks Props_ErrorsRoutes.
Import ListNotations.
Open Scope Z_scope.

Definition codes (who : list Addr) (k : Call) (l : list Act) : option Z := code_of (exec (env_of who) k (world_of l)).

(** ** C241 *)
Definition vdone : list Act := v1 ++ [Wait 250 2; Do [-5] (CVestClaim 30 (-5) 0)].
Definition vplain : list Act := [Do [-1] (CDeployTok 1 (-1) 7); Do [-1] (CMint 1 (-1) 5000); Do [-1] (CDeploy 30 KVest); Do [-1] (CVestInit 30 (-1) 1 3 None)].
Example vdone_reach : reachable xH (world_of vdone). Proof. apply world_reach; vm_compute; reflexivity. Qed.
Example vplain_reach : reachable xH (world_of vplain). Proof. apply world_reach; vm_compute; reflexivity. Qed.
Example C241_vesting_claim_example :
  codes [-5] (CVestClaim 30 (-5) 1) v1 = Some 1 /\ codes [-5] (CVestClaim 30 (-5) 0) v1 = Some 14 /\
  codes [-5] (CVestClaim 30 (-5) 0) vdone = Some 14.
Proof. vm_compute. repeat split. Qed.
Example C241_vesting_create_example :
  codes [-1] (CVestCreate 30 []) v0 = Some 7 /\ codes [-1] (CVestCreate 30 [(-5, vlin); (-5, vpl)]) v0 = Some 19 /\
  codes [-1] (CVestCreate 30 [(-5, vlin); (-6, Constant 5)]) v0 = Some 29 /\
  codes [-1] (CVestCreate 30 [(-5, SatLin 100 1000 200 1)]) v0 = Some 14 /\
  codes [-1] (CVestCreate 30 [(-5, PieceLin [(100, 600); (150, 5)])]) v0 = Some 14 /\
  codes [-1] (CVestCreate 30 [(-5, vpl)]) vplain = Some 8 /\
  codes [-1] (CVestCreate 30 [(-5, SatLin 100 5001 200 0)]) v0 = Some 25.
Proof. vm_compute. repeat split. Qed.
Example C241_vesting_other_example :
  codes [] (CVestInit 30 (-1) 1 10 None) v0 = Some 31 /\ codes [-5] (CVestBurn 30 (-5) 0) v0 = Some 16 /\
  codes [-6] (CVestMint 30 (-6) 0) v0 = Some 17 /\ codes [-6] (CVestMint 30 (-6) 5) vplain = Some 3 /\
  codes [-5] (CVestMint 30 (-5) 5) v0 = Some 13 /\ codes [-6] (CVestMint 30 (-6) 501) v0 = Some 12 /\
  codes [-1] (CVestMinter 30 (-1) (-7)) v0 = Some 13 /\ codes [-6] (CVestMinter 30 (-6) (-7)) vplain = Some 13 /\
  codes [-6] (CVestCapacity 30 (-6) 7) v0 = Some 13 /\ codes [-1] (CVestCapacity 30 (-1) 7) vplain = Some 3.
Proof. vm_compute. repeat split. Qed.
Definition snew : list Act := ssetup ++ [Do [] (CDeploy 21 KStake)].
Example snew_reach : reachable xH (world_of snew). Proof. apply world_reach; vm_compute; reflexivity. Qed.
Example C241_stake_example :
  codes [] (CStakeInit 20 (-1) 1 10 5 (-1) (-9) 10) s1 = Some 1 /\ codes [-2] (CBond 20 (-2) 9) s1 = Some 4 /\
  codes [-2] (CUnbond 20 (-2) 600 1001) s1 = Some 8 /\ codes [-4] (CUnbond 20 (-4) 600 1000) s1 = Some 8 /\
  codes [-2] (CFlow 20 (-2) 3) s1 = Some 5 /\ codes [-1] (CFlow 20 (-1) 2) s1 = Some 10 /\
  codes [-2] (CDistribute 20 (-2) 10 2) s1 = Some 5 /\ codes [-1] (CDistribute 20 (-1) 10 3) s1 = Some 13.
Proof. vm_compute. repeat split. Qed.
Example C241_stake_init_example :
  codes [] (CStakeInit 21 (-1) 1 0 5 (-1) (-9) 10) snew = Some 2 /\ codes [] (CStakeInit 21 (-1) 1 10 0 (-1) (-9) 10) snew = Some 3 /\
  codes [] (CStakeInit 21 (-1) 1 10 5 (-1) (-9) 0) snew = Some 12.
Proof. vm_compute. repeat split. Qed.
Definition rnarrow : list Act :=
  [Do [] (CDeployTok 2 (-1) 7); Do [-1] (CMint 2 (-1) (10^30)); Do [] (CDeploy 30 KRewards); Do [] (CRewInit 30 (-1) (-7) 2 3 5 1000);
   Wait 1000 1; Do [-1; -7] (CRewFund 30 1000 100 10000)].
Example rnarrow_reach : reachable xH (world_of rnarrow). Proof. apply world_reach; vm_compute; reflexivity. Qed.
Example C241_rewards_fund_example :
  codes [-1; -7] (CRewFund 30 999 100 10000) r1 = Some 9 /\ codes [-1; -7] (CRewFund 30 1000 100 4) r1 = Some 6 /\
  codes [-1; -7] (CRewFund 30 1010 200 10000) rnarrow = Some 12.
Proof. vm_compute. repeat split. Qed.
Example C241_rewards_other_example : codes [] (CRewInit 30 (-1) (-7) 2 3 5 1000) r1 = Some 1 /\
  (exists r, rewards_at (world_of r1) 30 r) /\ exec (env_of [-7]) (CRewBond 30 (-2) (mkBonding [] 0 0)) (world_of r1) = Err EPanic.
Proof. split; [vm_compute; reflexivity|]. split; [eexists; vm_compute; reflexivity|vm_compute; reflexivity]. Qed.

(** ** C242 *)
Definition racts1 : list Act := racts 10000000 10000000.
Definition rlate : list Act := racts1 ++ [Wait 50 50].
Example rlate_reach : reachable xH (world_of rlate). Proof. apply world_reach; vm_compute; reflexivity. Qed.
Definition finit2 (fee minbond minreward maxc : Z) : PoolInit := mkPoolInit (-1) fee (-3) 500 100 1000 500 1 3 minbond minreward (-1) maxc.
Example C242_create_example :
  codes [-4] (CCreate 20 (-4) (finit 1 3) Xyk None 100 1000) racts1 = Some 3 /\
  codes [-5] (CCreate 20 (-5) (finit 3 1) Xyk None 100 1000) racts1 = Some 5 /\
  codes [-5] (CCreate 20 (-5) (finit2 30 0 5 10) Xyk None 100 1000) racts1 = Some 6 /\
  codes [-5] (CCreate 20 (-5) (finit2 30 10 0 10) Xyk None 100 1000) racts1 = Some 7 /\
  codes [-5] (CCreate 20 (-5) (finit2 1001 10 5 10) Xyk None 100 1000) racts1 = Some 25 /\
  codes [-5] (CCreate 20 (-5) (finit2 1001 10 5 10) StableT (Some 10) 100 1000) racts1 = Some 22 /\
  codes [-5] (CCreate 20 (-5) (finit2 30 10 5 0) Xyk None 100 1000) racts1 = Some 12 /\
  codes [-5] (CCreate 20 (-5) (finit2 30 10 5 10) StableT (Some 1000001) 100 1000) racts1 = Some 18.
Proof. vm_compute. repeat split. Qed.
Definition fnew : list Act := fsetup [-5] ++ [Do [] (CDeploy 21 KFact)].
Example fnew_reach : reachable xH (world_of fnew). Proof. apply world_reach; vm_compute; reflexivity. Qed.
Example C242_factory_other_example :
  codes [] (CFactInit 20 (-1) 100 101 102 103 [-5] 7) fnew = Some 1 /\ codes [] (CFactInit 21 (-1) 100 101 102 103 [] 7) fnew = Some 2 /\
  codes [-5] (CWhitelist 20 (-5) [] []) fnew = Some 3.
Proof. vm_compute. repeat split. Qed.
Example C242_trade_example :
  codes [-4] (CTrade 30 (-4) 1 fp1 (Some 1000) None None None None) racts1 = Some 6 /\
  codes [-6] (CTrade 30 (-6) 1 fp1 (Some 1000) (Some 10001) None None None) racts1 = Some 8 /\
  codes [-6] (CTrade 30 (-6) 3 fp1 (Some 1000) None None None None) racts1 = Some 7 /\
  codes [-6] (CTrade 30 (-6) 1 fp2 (Some 1000) None None None None) racts1 = Some 12 /\
  codes [-6] (CTrade 30 (-6) 1 fp1 (Some 1000) None (Some 49) None None) rlate = Some 22 /\
  codes [-6] (CTrade 30 (-6) 1 fp1 (Some 200000) None None None None) racts1 = Some 1.
Proof. vm_compute. repeat split. Qed.
Example C242_trader_other_example :
  codes [-6] (CTraderInit 30 (-6) 1 2 3) racts1 = Some 10 /\ codes [-4] (CTraderTransfer 30 (-4) (-8) 100 (Some 1)) racts1 = Some 6.
Proof. vm_compute. repeat split. Qed.
Example C242_route_example :
  codes [-4] (CHopSwap rhop (-4) [] None 10000 None None) racts1 = Some 2 /\
  codes [-4] (CHopSwap rhop (-4) [mkOp 2 1 None; mkOp 2 3 None] None 10000 None None) racts1 = Some 3 /\
  codes [-4] (CHopSwap rhop (-4) [mkOp 2 1 None; mkOp 9 2 None] None 10000 None None) racts1 = Some 4 /\
  codes [-4] (CHopSwap rhop (-4) [mkOp 2 1 (Some 19800); mkOp 3 2 None] None 10000 None None) racts1 = Some 21 /\
  codes [-4] (CHopSwap rhop (-4) [mkOp 2 1 None; mkOp 3 2 (Some 19800)] None 10000 None None) racts1 = Some 15.
Proof. vm_compute. repeat split. Qed.
Example C242_router_other_example : codes [] (CHopInit rhop (-1) 20) racts1 = Some 1. Proof. vm_compute. reflexivity. Qed.

(** ** C243 fails: what a code says is not always so *)
(** the schedule ends at 0, its time is over, and everything has been paid out; the next claim is answered NeverFullyVested *)
Theorem C243_claim_code_refuted : exists H w e self u i x, reachable H w /\ entry_at w self u i x /\
  vi_sched x = SatLin 100 1000 200 0 /\ 200 < w_now w /\ vi_bal x = 0 /\ exec e (CVestClaim self u i) w = Err (EContract 14).
Proof.
  exists xH, (world_of vdone), (env_of [-5]), 30, (-5), 0, (mkVInfo 0 (-5) vlin).
  split; [exact vdone_reach|]. split.
  - eexists _, _. split; [vm_compute; reflexivity|]. split; vm_compute; reflexivity.
  - split; [reflexivity|]. split; [vm_compute; reflexivity|]. split; [reflexivity|vm_compute; reflexivity].
Qed.
Print Assumptions C243_claim_code_refuted.

(** a first deposit into a stable pool below the minimum is not answered LowLiquidity but fails by an overflow *)
Theorem C243_low_liquidity_refuted : exists H w e self u p, reachable H w /\ stable_at w self p /\ l_total p = 0 /\
  exec e (CStableProvide self u 500 500 None None None) w = Err (EContract 10) /\
  exec e (CStableProvide self u 499 499 None None None) w = Err EArith.
Proof.
  exists xH, yempty, (env_of [-4]), 20, (-4), (yP 0 0 0). split; [exact yempty_reach|]. split; [exact yempty_pool|].
  split; [vm_compute; reflexivity|]. split; vm_compute; reflexivity.
Qed.
Print Assumptions C243_low_liquidity_refuted.

(** the same code of a failed route stands for a missed deadline (stable pool) and for a spread limit above the pool's own (the other pool) *)
Theorem C243_route_code_refuted : exists H w e self u l1 l2 s d, reachable H w /\
  exec e (CHopSwap self u l1 (Some s) 10000 None None) w = Err (EContract 19) /\ ~ late w None /\
  exec e (CHopSwap self u l2 None 10000 (Some d) None) w = Err (EContract 19) /\ late w (Some d).
Proof.
  exists xH, (world_of rlate), (env_of [-4]), rhop, (-4), [mkOp 2 1 None], [mkOp 3 2 None], 1001, 49.
  split; [exact rlate_reach|]. split; [vm_compute; reflexivity|]. split; [intros (d & E & _); discriminate|].
  split; [vm_compute; reflexivity|]. exists 49. split; [reflexivity|vm_compute; reflexivity].
Qed.
Print Assumptions C243_route_code_refuted.
