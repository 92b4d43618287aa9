(** Concrete cases for the theorems of Props_Upgrade, and the refuted claims (C103, C104). *)
From Coq Require Import ZArith List Bool Lia.
From Coq Require Import ZifyBool.
From Verif Require Import Base FMap Decimal Curve World Token Stake Pool Stable Rewards Vest Factory Router System Script
  Props_PoolCases Props_FactoryCases Props_Upgrade.
Import ListNotations.
Open Scope Z_scope.

(** the admin of pool and staking contract is -1; user -4 cannot replace any code *)
Example C100_example : admin_is fW fp1 (-1) /\ admin_is fW fstake (-1) /\ admin_is fW 20 (-1) /\
  fget fstake (w_wasm (after (exec (env_of [-1]) (CStakeUpdate fstake 77) fW))) = Some 77 /\
  fget fp2 (w_wasm (after (exec (env_of [-1]) (CStableUpgrade fp2 78) fW))) = Some 78 /\
  exec (env_of [-4]) (CStakeUpdate fstake 77) fW = Err EAuth /\
  exec (env_of [-4]) (CPoolUpgrade fp1 77 100) fW = Err EAuth /\
  exec (env_of [-4]) (CFactUpdate 20 77 78) fW = Err EAuth.
Proof.
  split; [eapply ai_pool; vm_compute; reflexivity|]. split; [eapply ai_stake; vm_compute; reflexivity|].
  split; [eapply ai_fact; vm_compute; reflexivity|].
  split; [vm_compute; reflexivity|]. split; [vm_compute; reflexivity|]. split; [vm_compute; reflexivity|].
  split; vm_compute; reflexivity.
Qed.
Example C101_example : fget fshare (w_code fW) = Some KTok /\ fget fshare (w_wasm fW) = None. Proof. vm_compute. auto. Qed.
Example C102_example : match fget fstake (w_stake fW), fget 20 (w_fact fW) with
  | Some s, Some f => s_admin s = -1 /\ s_owner s = 20 /\ f_admin f = -1 | _, _ => False end.
Proof. vm_compute. auto. Qed.

(** ** C103 fails: nobody signs, and -4 becomes the admin of a staking contract deployed by somebody else *)
Theorem C103_only_the_deployer_initialises_refuted : exists w w', reachable xH w /\
  fget 50 (w_code w) = Some KStake /\ exec (env_of []) (CStakeInit 50 (-4) 0 1 1 (-4) (-4) 1) w = Ok (tt, w') /\
  admin_is w' 50 (-4) /\
  exec (env_of [-1]) (CStakeInit 50 (-1) 1 5 10 (-1) (-1) 7) w' = Err (EContract 1).
Proof.
  eexists (world_of [Do [-1] (CDeploy 50 KStake)]), _. split; [apply world_reach; vm_compute; reflexivity|].
  split; [vm_compute; reflexivity|]. split; [vm_compute; reflexivity|].
  split; [eapply ai_stake; vm_compute; reflexivity|vm_compute; reflexivity].
Qed.
Print Assumptions C103_only_the_deployer_initialises_refuted.

(** ** C104 fails: -1 hands the admin role of pool 10 to -6 and can then no longer touch the pool, but
    still replaces the code of the pool's staking contract, which -6 cannot do. *)
Theorem C104_handover_covers_staking_refuted : exists w w1 p q,
  reachable xH w /\ fget 10 (w_pool w) = Some p /\ p_admin p = -1 /\
  exec (env_of [-1]) (CPoolConfig 10 (Some (-6)) None None None None None) w = Ok (tt, w1) /\
  fget 10 (w_pool w1) = Some q /\ p_admin q = -6 /\
  exec (env_of [-1]) (CPoolUpdate 10 77) w1 = Err EAuth /\
  exec (env_of [-6]) (CStakeUpdate (p_stake q) 77) w1 = Err EAuth /\
  exists w2, exec (env_of [-1]) (CStakeUpdate (p_stake q) 77) w1 = Ok (tt, w2) /\ fget (p_stake q) (w_wasm w2) = Some 77.
Proof.
  exists xW, (after (exec (env_of [-1]) (CPoolConfig 10 (Some (-6)) None None None None None) xW)), xP,
    (mkPool 1 2 xshare (xH 10 SEmpty) 30 (-3) 500 1000 500 100 (-6) 1414213 1000000 2000000).
  split; [exact xW_reach|]. split; [exact xW_pool|]. split; [reflexivity|].
  split; [vm_compute; reflexivity|]. split; [vm_compute; reflexivity|]. split; [reflexivity|].
  split; [vm_compute; reflexivity|]. split; [vm_compute; reflexivity|].
  eexists. split; vm_compute; reflexivity.
Qed.
Print Assumptions C104_handover_covers_staking_refuted.
