(** Concrete cases for the theorems of Props_Guards, and the refuted claim C108. *)
From Coq Require Import ZArith List Bool Lia.
From Coq Require Import ZifyBool.
From Verif Require Import Base FMap Decimal Curve World Token Stake Pool Stable Rewards Vest Factory Router System SysSupply Script
  Props_Token Props_Pool Props_Stable Props_PoolCases Props_StableCases Props_FactoryCases Props_RouterCases Props_Guards.
Import ListNotations.
Open Scope Z_scope.

(** two deposits, a withdrawal and a donation; the reserves per share only grow *)
Definition gacts : list Act :=
  [ Do [-4] (CPoolProvide 10 (-4) (Some 333333) None (Some 690000) None (Some 500) None);
    Do [-2] (CPoolWithdraw 10 (-2) 70001 1 1 None); Do [-4] (CTransfer 1 (-4) 10 5555);
    Do [-4] (CPoolProvide 10 (-4) (Some 1000) None (Some 2000) None None (Some 5)) ].
Definition gW : World := world_of (xsetup 30 1000 ++ xfund 1000000 2000000 ++ gacts).
Example C105_example : run_if (fun _ k => ~ may_swap 10 k) xH xW (map event_of gacts) gW /\
  exists p, pool_at gW 10 p /\ (p_ra p, p_rb p, p_total p) = (1290390, 2569670, 1817029).
Proof.
  split.
  - apply run_if_all; [|apply play_run; vm_compute; reflexivity]. repeat constructor; simpl; tauto.
  - eexists. split; vm_compute; reflexivity.
Qed.
(** a deadline is met at its last second and missed one second later *)
Example C106_example :
  (exists r, exec (env_of [-4]) (CPoolSwap 10 (-4) 1 1000 None None (Some 0) None) xW = Ok r) /\
  exec (env_of [-4]) (CPoolSwap 10 (-4) 1 1000 None None (Some 0) None) (set_time xW 1 1) = Err (EContract 22).
Proof. split; [eexists|]; vm_compute; reflexivity. Qed.
(** the desired amounts are cut to the price; a shortage of more than the tolerance is refused *)
Example C107_example :
  (exists p', pool_at (after (pool_provide (env_of [-4]) None 10 (-4) (Some 5000) None (Some 10300) None (Some 500) None xW)) 10 p' /\
     p_ra p' = 1005000 /\ p_rb p' = 2010000) /\
  pool_provide (env_of [-4]) None 10 (-4) (Some 5000) None (Some 10600) None (Some 500) None xW = Err (EContract 9) /\
  pool_provide (env_of [-4]) None 10 (-4) (Some 5000) None (Some 10300) None (Some 501) None xW = Err (EContract 2).
Proof. split; [eexists; split; [vm_compute; reflexivity|vm_compute; auto]|]. split; vm_compute; reflexivity. Qed.

(** ** C108 fails: with a tolerance of 0 a wholly one-sided deposit is accepted *)
Theorem C108_stable_tolerance_refuted : exists w p w1,
  reachable xH w /\ stable_at w 20 p /\ l_ra p = 10^7 /\ l_rb p = 10^7 /\ 0 <= l_maxslip p /\
  stable_provide (env_of [-4]) None 20 (-4) 1000000 1 (Some 0) None None w = Ok (tt, w1).
Proof.
  exists yW, (yP 19999000 (10^7) (10^7)). eexists. split; [exact yW_reach|]. split; [exact yW_pool|].
  split; [reflexivity|]. split; [reflexivity|]. split; [vm_compute; discriminate|]. vm_compute. reflexivity.
Qed.
Print Assumptions C108_stable_tolerance_refuted.
Example C109_example : initialised fW fp1 /\ initialised fW fstake /\ initialised fW 20 /\ ~ initialised fW fshare.
Proof.
  split; [left; eexists; vm_compute; reflexivity|]. split; [do 2 right; left; eexists; vm_compute; reflexivity|].
  split; [do 5 right; left; eexists; vm_compute; reflexivity|].
  intros [[q Q]|[[q Q]|[[q Q]|[[q Q]|[[q Q]|[[q Q]|[[q Q]|[q Q]]]]]]]]; vm_compute in Q; discriminate.
Qed.
