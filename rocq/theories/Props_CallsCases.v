(** Concrete cases for Props_Calls (C146, C147). *)
From Coq Require Import ZArith List Bool Lia.
From Verif Require Import Base FMap Decimal Curve World Token Frame Stake Pool Stable Rewards Vest Factory Router System
  Script Props_Pool Props_PoolCases Props_StableCases Props_StakeCases Props_RewardsCases Props_VestCases Props_FactoryCases
  Props_LiveFact Props_Calls.
Import ListNotations.
Open Scope Z_scope.

(** did the call succeed? *)
Definition works (sg : list Addr) (k : Call) (w : World) : bool :=
  match exec (env_of sg) k w with Ok _ => true | Err _ => false end.

(** each setting: accepted from the right account, refused from another, or with a bad argument *)
Example C146_example :
  works [-1] (CPoolConfig 10 (Some (-7)) (Some 40) None (Some 10000) None (Some 0)) xW = true /\
  works [-2] (CPoolConfig 10 None (Some 40) None None None None) xW = false /\
  works [-1] (CPoolConfig 10 None None None (Some 10001) None None) xW = false /\
  works [-1] (CPoolUpdate 10 77) xW = true /\ works [-2] (CPoolUpdate 10 77) xW = false /\
  works [-1] (CPoolUpgrade 10 77 200) xW = true /\ works [-2] (CPoolUpgrade 10 77 200) xW = false /\
  works [] (CStableConfig 20 (-1) None (Some 40) None None None) yW = true /\
  works [-2] (CStableConfig 20 (-2) None (Some 40) None None None) yW = false /\
  works [-1] (CStableUpgrade 20 77) yW = true /\ works [-2] (CStableUpgrade 20 77) yW = false /\
  works [-1] (CFlow 20 (-1) 3) (world_of s1) = true /\ works [-9] (CFlow 20 (-9) 3) (world_of s1) = true /\
  works [-2] (CFlow 20 (-2) 3) (world_of s1) = false /\ works [-1] (CFlow 20 (-1) 2) (world_of s1) = false /\
  works [-1] (CStakeUpdate 20 77) (world_of s1) = true /\ works [-9] (CStakeUpdate 20 77) (world_of s1) = false /\
  works [-1] (CRewUpdate 30 77) (world_of r3) = true /\ works [-7] (CRewUpdate 30 77) (world_of r3) = false /\
  works [-6] (CVestMinter 30 (-6) (-8)) (world_of v1) = true /\ works [-1] (CVestMinter 30 (-1) (-8)) (world_of v1) = false /\
  works [-1] (CVestCapacity 30 (-1) 900) (world_of v1) = true /\ works [-6] (CVestCapacity 30 (-6) 900) (world_of v1) = false /\
  works [-1] (CVestUpdate 30 77) (world_of v1) = true /\ works [-6] (CVestUpdate 30 77) (world_of v1) = false /\
  works [-1] (CWhitelist 20 (-1) [-8] [-5]) fW = true /\ works [-5] (CWhitelist 20 (-5) [-8] []) fW = false /\
  works [-1] (CHashes 20 (Some 9) None None) fW = true /\ works [-5] (CHashes 20 (Some 9) None None) fW = false /\
  works [-1] (CFactUpdate 20 9 8) fW = true /\ works [-5] (CFactUpdate 20 9 8) fW = false /\
  works [-1] (CHopUpdate (xH 20 (SOne (-1))) 77) fW = true /\ works [-5] (CHopUpdate (xH 20 (SOne (-1))) 77) fW = false /\
  works [-1] (CSetAdmin 1 (-8)) fW = true /\ works [-5] (CSetAdmin 1 (-8)) fW = false.
Proof. vm_compute. repeat split. Qed.

(** the addresses 10, 20 with code and no storage *)
Definition iW : World := world_of [Do [] (CDeployTok 1 (-1) 7); Do [] (CDeployTok 2 (-1) 6); Do [] (CDeploy 10 KPool);
  Do [] (CDeploy 11 KStable); Do [] (CDeploy 12 KStake); Do [] (CDeploy 13 KRewards); Do [] (CDeploy 14 KVest);
  Do [] (CDeploy 15 KFact); Do [] (CDeploy 16 KHop); Do [] (CDeploy 17 KTrader)].
Example iW_reach : reachable xH iW. Proof. apply world_reach. vm_compute. reflexivity. Qed.
Example C147_startable : startable (env_of []) 10 (xinit 30 1000) 7 iW /\ startable (env_of []) 11 (xinit 30 1000) 7 iW.
Proof. vm_compute. repeat split; discriminate. Qed.
Example C147_example :
  works [] (CPoolInit 10 (xinit 30 1000) (-9) 7 100 1000) iW = true /\
  works [] (CPoolInit 10 (xinit 30 1000) (-9) 7 100 20) iW = false /\
  works [] (CPoolInit 10 (xinit 30 1000) (-9) 19 100 1000) iW = false /\
  works [] (CPoolInit 11 (xinit 30 1000) (-9) 7 100 1000) iW = false /\
  works [] (CStableInit 11 (xinit 30 1000) (-9) 6 1000) iW = true /\
  works [] (CStableInit 11 (xinit 30 1000) (-9) 0 1000) iW = false /\
  works [] (CStakeInit 12 (-1) 1 10 5 (-1) (-9) 10) iW = true /\
  works [] (CStakeInit 12 (-1) 1 0 5 (-1) (-9) 10) iW = false /\
  works [] (CRewInit 13 (-1) 12 1 10 5 10) iW = true /\ works [] (CVestInit 14 (-1) 1 10 None) iW = true /\
  works [] (CFactInit 15 (-1) 100 101 102 103 [-5] 7) iW = true /\ works [] (CFactInit 15 (-1) 100 101 102 103 [] 7) iW = false /\
  works [] (CHopInit 16 (-1) 15) iW = true /\
  works [-6] (CTraderInit 17 (-6) 1 2 1) iW = true /\ works [] (CTraderInit 17 (-6) 1 2 1) iW = false /\
  works [] (CDeploy 18 KPool) iW = true /\ works [] (CDeploy 17 KPool) iW = false /\ works [] (CDeploy (-4) KPool) iW = false /\
  works [] (CDeployTok 18 (-1) 18) iW = true /\ works [] (CDeployTok 18 (-1) 19) iW = false.
Proof. vm_compute. repeat split. Qed.
