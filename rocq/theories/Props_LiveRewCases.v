(** Concrete cases for Props_LiveRew (C148). *)
From Coq Require Import ZArith List Bool Lia.
From Verif Require Import Base FMap Decimal Curve World Token Frame Stake Pool Stable Rewards Vest Factory Router System
  Script Props_Rewards Props_StakeCases Props_RewardsCases Props_CallsCases Props_LiveRew.
Import ListNotations.
Open Scope Z_scope.

Example r1_reach : reachable xH (world_of r1). Proof. apply world_reach. vm_compute. reflexivity. Qed.
Example r3_reach : reachable xH (world_of r3). Proof. apply world_reach. vm_compute. reflexivity. Qed.
Example r3_rewards : rewards_at (world_of r3) 30 (the_rewards r3). Proof. vm_compute. reflexivity. Qed.

Example C148_bonds_example :
  works [-7] (CRewAddUser 30 (-4) (mkBonding [] 0 5000)) (world_of r3) = true /\
  works [-4] (CRewAddUser 30 (-4) (mkBonding [] 0 5000)) (world_of r3) = false /\
  works [-7] (CRewAddUser 30 (-4) (mkBonding [] 0 (10^21))) (world_of r3) = false /\
  works [-7] (CRewBond 30 (-2) (mkBonding [kA; mkStakeE 300000 0] 0 600000)) (world_of r3) = true /\
  works [-7] (CRewBond 30 (-2) (mkBonding [] 0 600000)) (world_of r3) = false /\
  works [-2] (CRewBond 30 (-2) (mkBonding [kA] 0 600000)) (world_of r3) = false.
Proof. vm_compute. repeat split. Qed.

(** half of the 6000 earned is paid after 30 days; both the staking contract and (for unbond) the
    user must sign *)
Example C148_payment_example :
  power (the_rewards r3) 600000 = 600 /\ unpaid (the_rewards r3) (-2) bA = 6000 /\
  due_now (the_rewards r3) (1000 + 30 * day) (-2) bA = 3000 /\ r_wdr (the_rewards r3) = 10000 /\
  works [-7] (CRewWithdraw 30 (-2) bA) (world_of r3) = true /\ works [-2] (CRewWithdraw 30 (-2) bA) (world_of r3) = false /\
  works [-7; -2] (CRewUnbond 30 (-2) bA 600000) (world_of r3) = true /\
  works [-7] (CRewUnbond 30 (-2) bA 600000) (world_of r3) = false /\
  works [-7] (CRewWithdraw 30 (-2) (mkBonding [mkStakeE 600000 (10^8)] 0 600000)) (world_of r3) = false /\
  works [-7] (CRewWithdraw 30 (-4) (mkBonding [mkStakeE 3000000 1000] 0 3000000)) (world_of r3) = false.
Proof. vm_compute. repeat split. Qed.

Example C148_distribution_example :
  works [-7] (CRewDistribute 30 1000000) (world_of (r1 ++ [Wait 1050 1])) = true /\
  works [-1] (CRewDistribute 30 1000000) (world_of (r1 ++ [Wait 1050 1])) = false /\
  works [-7] (CRewDistribute 30 999) (world_of (r1 ++ [Wait 1050 1])) = true /\
  works [-1; -7] (CRewFund 30 (1000 + 31 * day) 100 10000) (world_of r3) = true /\
  works [-7] (CRewFund 30 (1000 + 31 * day) 100 10000) (world_of r3) = false /\
  works [-1] (CRewFund 30 (1000 + 31 * day) 100 10000) (world_of r3) = false /\
  works [-1; -7] (CRewFund 30 1000 100 10000) (world_of r3) = false /\
  works [-1; -7] (CRewFund 30 (1000 + 31 * day) 100 4) (world_of r3) = false /\
  rewards_undistributed 30 (world_of r4) = Ok (0, world_of r4).
Proof. vm_compute. repeat split. Qed.
