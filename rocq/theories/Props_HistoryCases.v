(** Concrete cases for Props_History (C158) and the claim that fails (C159). *)
From Coq Require Import ZArith List Bool Lia.
From Verif Require Import Base FMap Decimal Curve World Token TokenProofs Frame Stake Pool Stable Rewards Vest Factory Router System SysSupply
  Script Props_Token Props_Pool Props_PoolCases Props_Stake Props_StakeCases Props_CallsCases Props_EffectsCases Props_Guards Props_History.
Import ListNotations.
Open Scope Z_scope.

Definition hacts : list Act :=
  [ Do [-4] (CPoolSwap 10 (-4) 1 1000 None None None None);
    Do [-4] (CPoolProvide 10 (-4) (Some 100000) None (Some 200000) None None None);
    Do [-4] (CPoolSwap 10 (-4) 2 2000 None None None None);
    Wait 5000 7;
    Do [-2] (CPoolWithdraw 10 (-2) 700000 1 1 None) ].
Definition hW : World := match play hacts xW with Some w => w | None => w_empty end.
Definition hP : Pool := mkPool 1 2 xshare (xH 10 SEmpty) 30 (-3) 500 1000 500 100 (-1) 855492 604979 1209741.
Definition hM : Z := 2 * 10^15.
Definition okb_supply (w : World) (k : Call) : bool := (supply w 1 <=? hM) && (supply w 2 <=? hM).
Lemma okb_supply_ok w k : okb_supply w k = true -> supply w 1 <= hM /\ supply w 2 <= hM.
Proof. unfold okb_supply. rewrite andb_true_iff, !Z.leb_le. auto. Qed.
(** two swaps, a deposit and a withdrawal *)
Example C158_example : reachable xH xW /\ pool_at xW 10 xP /\ 0 < p_total xP /\
  run_if (fun v _ => supply v (p_ta xP) <= hM /\ supply v (p_tb xP) <= hM) xH xW (map event_of hacts) hW /\ pool_at hW 10 hP /\
  total_visits 10 (map event_of hacts) = 2.
Proof.
  split; [apply xW_reach|]. split; [apply xW_pool|]. split; [reflexivity|]. split.
  { apply (play_if_run okb_supply); [exact okb_supply_ok|]. vm_compute. reflexivity. }
  split; vm_compute; reflexivity.
Qed.
(** two swaps there and back without deposits: the product goes from 2000000000000 to 1999999001000 and 1999998999999 *)
Definition hacts2 : list Act :=
  [ Do [-4] (CPoolSwap 10 (-4) 1 1000 None None None None); Wait 5000 7; Do [-4] (CPoolSwap 10 (-4) 2 2000 None None None None) ].
Definition hW2 : World := match play hacts2 xW with Some w => w | None => w_empty end.
Definition hP2 : Pool := mkPool 1 2 xshare (xH 10 SEmpty) 30 (-3) 500 1000 500 100 (-1) 1414213 999999 2000001.
Example C158_trading_example : run_if (fun _ k => ~ moves_liquidity 10 k) xH xW (map event_of hacts2) hW2 /\ pool_at hW2 10 hP2 /\
  p_ra hP2 * p_rb hP2 = 1999998999999 /\ p_ra xP * p_rb xP = 2000000000000.
Proof.
  split; [apply run_if_all; [repeat constructor; simpl; auto|apply play_run; vm_compute; reflexivity]|]. vm_compute. repeat split.
Qed.

(** ** C159 fails: the fee of a swap goes to the fee recipient and not to the holders of shares.  1994 of token 2 are paid
    for 1000 of token 1 and a fee of 5 is charged, yet the product of the reserves is lower afterwards.  By
    C158_trading_adds_nothing this is so for every history of swaps. *)
Theorem C159_fees_reach_providers_refuted : exists w w' p p', reachable xH w /\ pool_at w 10 p /\ pool_at w' 10 p' /\
  pool_swap (env_of [-4]) None 10 (-4) 1 1000 None None None None w = Ok (1994, w') /\
  bal w' 2 (p_feerec p) = bal w 2 (p_feerec p) + 5 /\
  p_total p' = p_total p /\ p_ra p' * p_rb p' < p_ra p * p_rb p.
Proof.
  exists xW, (after (pool_swap (env_of [-4]) None 10 (-4) 1 1000 None None None None xW)), xP, (set_p_res xP 1001000 1998001).
  split; [apply xW_reach|]. split; [apply xW_pool|]. vm_compute. repeat split.
Qed.
Print Assumptions C159_fees_reach_providers_refuted.
