(** Concrete cases for C248 (Props_RouteBack). *)
From Coq Require Import ZArith List Bool Lia.
From Verif Require Import Base FMap Decimal DecimalProofs Curve World Token TokenProofs Frame Stake Pool PoolProofs
  Stable StableProofs Rewards Vest Factory Router System SysFrame SysInv SysPool SysStable SysSupply SysVest SysStake Script Runs
  Props_Token Props_Pool Props_Stable Props_Vest Props_Stake SysFact Props_Factory Props_PoolCases Props_FactoryCases Props_Router Props_RouterCases
  Props_Foreign2 Props_RouteBack.
Import ListNotations.
Open Scope Z_scope.

(** 10000 of token 1 to token 2 and back return 9942 (reserves 1000000 and 2000000, commission 0.3 %) *)
Example C248_example : exists w' p,
  hop_swap (env_of [-4]) None rhop (-4) [mkOp 2 1 None; mkOp 1 2 None] None 10000 None None rW = Ok (9942, w') /\
  fact_pool_by_pair 20 1 2 rW = Ok (fp1, rW) /\ pool_at rW fp1 p /\ side p 1 1000000 2000000 2 /\
  10000 + (1000000 + 10000 - 1 + (2000000 - 1)) / 2000000 = 10001 /\ (19742 + 59) * p_fee p / 10000 = 59 /\ 10000 - 1 <= (59 - 1) * 1000000.
Proof.
  exists (after (hop_swap (env_of [-4]) None rhop (-4) [mkOp 2 1 None; mkOp 1 2 None] None 10000 None None rW)),
    (match fget fp1 (w_pool rW) with Some p => p | None => xP end).
  split; [vm_compute; reflexivity|]. split; [vm_compute; reflexivity|]. split; [vm_compute; reflexivity|].
  split; [left; vm_compute; auto|]. split; [vm_compute; reflexivity|]. split; [vm_compute; reflexivity|lia].
Qed.
(** 10000 of token 2 to token 3 and back return 9941: less than the two commissions of 29 and 29 took, plus four *)
Example C248_stable_example : exists w' p,
  hop_swap (env_of [-2]) None rhop (-2) [mkOp 3 2 None; mkOp 2 3 None] None 10000 None None rW = Ok (9941, w') /\
  fact_pool_by_pair 20 2 3 rW = Ok (fp2, rW) /\ stable_at rW fp2 p /\ l_preca p = 7 /\ l_precb p = 7 /\ l_fee p = 30.
Proof.
  exists (after (hop_swap (env_of [-2]) None rhop (-2) [mkOp 3 2 None; mkOp 2 3 None] None 10000 None None rW)),
    (match fget fp2 (w_stable rW) with Some p => p | None => lP0 end).
  split; [vm_compute; reflexivity|]. split; [vm_compute; reflexivity|]. split; [vm_compute; reflexivity|].
  split; [vm_compute; reflexivity|]. split; vm_compute; reflexivity.
Qed.
