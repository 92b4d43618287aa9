(** Concrete cases of C253. *)
From Coq Require Import ZArith List Bool Lia.
From Coq Require Import ZifyBool.
From Verif Require Import Base FMap Decimal Curve World Token TokenProofs Frame Stake Pool Stable Rewards Vest Factory Router System
  SysSupply SysStake Script Props_Token Props_Pool Props_PoolCases Props_Stable Props_StableCases Props_Vest Props_Stake Props_StakeCases Props_Guards
  Props_StableHistory Props_SplitLiquidity Props_SplitLiquidityCases Props_SplitStable Props_SplitStableCases Props_Price.
Import ListNotations.
Open Scope Z_scope.

Definition okb_out (c : Addr) (_ : World) (k : Call) : bool :=
  match k with
  | CPoolSwap p _ _ _ _ _ _ _ | CPoolProvide p _ _ _ _ _ _ _ | CStableSwap p _ _ _ _ _ _ _ | CStableProvide p _ _ _ _ _ _ => negb (p =? c)
  | CHopSwap _ _ _ _ _ _ _ | CTrade _ _ _ _ _ _ _ _ _ => false
  | _ => true
  end.
Lemma out_run c l l' : play_if (okb_out c) l' (world_of l) = Some (world_of (l ++ l')) ->
  run_if (fun _ k => ~ may_swap c k /\ ~ enters_pool c k) xH (world_of l) (map event_of l') (world_of (l ++ l')).
Proof.
  apply (play_if_run (okb_out c)). intros w k. destruct k; simpl; try discriminate; try tauto; intros B; apply negb_true_iff, Z.eqb_neq in B; tauto.
Qed.
Lemma s_out_run c l l' : play_if (okb_out c) l' (world_of l) = Some (world_of (l ++ l')) ->
  run_if (fun _ k => ~ s_may_swap c k /\ ~ enters_pool c k) xH (world_of l) (map event_of l') (world_of (l ++ l')).
Proof.
  apply (play_if_run (okb_out c)). intros w k. destruct k; simpl; try discriminate; try tauto; intros B; apply negb_true_iff, Z.eqb_neq in B; tauto.
Qed.
Definition xouts : list Act := [wd 100000; Do [-2] (CTransfer xshare (-2) (-4) 300000); wd 333; Do [-4] (CPoolWithdraw 10 (-4) 7777 1 1 None)].
(** three withdrawals by two providers: the price of 1 to 2 becomes 923556 to 1847111, half a unit off *)
Example C253_example :
  run_if (fun _ k => ~ may_swap 10 k /\ ~ enters_pool 10 k) xH xW (map event_of xouts) (world_of (xin ++ xouts)) /\
  s_count (leaves_pool 10) (map event_of xouts) = 3 /\ p_ra (pool_of (xin ++ xouts)) = 923556 /\ p_rb (pool_of (xin ++ xouts)) = 1847111.
Proof. split; [apply (out_run 10 xin); vm_compute; reflexivity|]. vm_compute. auto. Qed.
(** the same in a stable pool *)
Definition youts : list Act := ysetup 30 1000 ++ yfund 10000000 10050000.
Example C253_stable_example :
  run_if (fun _ k => ~ s_may_swap 20 k /\ ~ enters_pool 20 k) xH (world_of youts) (map event_of sthrice) (world_of (youts ++ sthrice)) /\
  s_count (leaves_pool 20) (map event_of sthrice) = 3 /\ l_ra (stable_of (youts ++ sthrice)) = 8503667 /\ l_rb (stable_of (youts ++ sthrice)) = 8546186 /\
  8503667 * 10050000 - 10000000 * 8546186 = - 6650000.
Proof. split; [apply (s_out_run 20 youts); vm_compute; reflexivity|]. vm_compute. auto. Qed.
