(** Concrete cases of C249. *)
From Coq Require Import ZArith List Bool Lia.
From Coq Require Import ZifyBool.
From Verif Require Import Base FMap Decimal Curve World Token TokenProofs Frame Stake Pool Stable Rewards Vest Factory Router System
  SysSupply SysStake Script Props_Token Props_Pool Props_PoolCases Props_Stable Props_StableCases Props_Vest Props_Stake Props_StakeCases Props_Guards
  Props_StableHistory Props_SplitLiquidity Props_SplitLiquidityCases Props_SplitStable.
Import ListNotations.
Open Scope Z_scope.

Definition yin : list Act := ysetup 30 1000 ++ yfund (10^7) (10^7).
Definition okb_leave (c : Addr) (_ : World) (k : Call) : bool :=
  match k with
  | CStableSwap p _ _ _ _ _ _ _ | CStableProvide p _ _ _ _ _ _ => negb (p =? c)
  | CHopSwap _ _ _ _ _ _ _ | CTrade _ _ _ _ _ _ _ _ _ => false
  | _ => true
  end.
Lemma leave_run l l' : play_if (okb_leave 20) l' (world_of l) = Some (world_of (l ++ l')) ->
  run_if (fun _ k => ~ s_may_swap 20 k /\ s_deposits 20 k = 0) xH (world_of l) (map event_of l') (world_of (l ++ l')).
Proof.
  apply (play_if_run (okb_leave 20)). intros w k. destruct k; simpl; auto; try discriminate.
  - destruct (_ =? _); simpl; auto; discriminate.
  - intros B. split; [|reflexivity]. intros E. subst. rewrite Z.eqb_refl in B. discriminate.
Qed.
Definition swd (u s : Z) : Act := Do [u] (CStableWithdraw 20 u s 1 1 None).
Definition stable_of (l : list Act) : Stable := match fget 20 (w_stable (world_of l)) with Some p => p | None => yP 0 0 0 end.
Definition sthrice : list Act := [swd (-2) 1000000; swd (-2) 999999; swd (-2) 1000001].
Definition sothers : list Act := [Do [-2] (CTransfer yshare (-2) (-4) 3000000); swd (-2) 7000003; swd (-2) 1234567].
Definition others : list Act := [Do [-2] (CTransfer xshare (-2) (-4) 300000); wd 100000; dep 3333 6666; wd 500000].
(** 3000000 shares redeemed at once pay one unit of each token more than in three parts *)
Example C249_split_example :
  stable_withdraw (env_of [-2]) None 20 (-2) 3000000 1 1 None yW = Ok ((1500075, 1500075), world_of (yin ++ [swd (-2) 3000000])) /\
  run_if (fun _ k => ~ s_may_swap 20 k /\ s_deposits 20 k = 0) xH yW (map event_of sthrice) (world_of (yin ++ sthrice)) /\
  l_total (stable_of (yin ++ sthrice)) = l_total (stable_of (yin ++ [swd (-2) 3000000])) /\
  10^7 - l_ra (stable_of (yin ++ sthrice)) = 1500074.
Proof.
  split; [vm_compute; reflexivity|]. split; [apply (leave_run yin); vm_compute; reflexivity|]. vm_compute. auto.
Qed.
(** -4 gets 1500075 of each also after -2 has withdrawn more than 8000000 shares *)
Example C249_stable_later_example :
  run_if (fun _ k => ~ s_may_swap 20 k /\ s_deposits 20 k = 0) xH yW (map event_of sothers) (world_of (yin ++ sothers)) /\
  l_total (stable_of (yin ++ sothers)) = 11764430 /\
  exists w2, stable_withdraw (env_of [-4]) None 20 (-4) 3000000 1 1 None (world_of (yin ++ sothers)) = Ok ((1500075, 1500075), w2).
Proof.
  split; [apply (leave_run yin); vm_compute; reflexivity|]. split; [vm_compute; reflexivity|].
  exists (after (stable_withdraw (env_of [-4]) None 20 (-4) 3000000 1 1 None (world_of (yin ++ sothers)))). vm_compute. reflexivity.
Qed.
(** and 212132 and 424264 of the constant-product pool, after withdrawals and a deposit *)
Example C249_later_example :
  run_if (fun _ k => ~ may_swap 10 k) xH xW (map event_of others) (world_of (xin ++ others)) /\
  p_total xP = 1414213 /\ p_total (pool_of (xin ++ others)) = 818925 /\
  exists w2, pool_withdraw (env_of [-4]) None 10 (-4) 300000 1 1 None (world_of (xin ++ others)) = Ok ((212132, 424264), w2).
Proof.
  split; [apply (noswap_run xin); vm_compute; reflexivity|]. split; [vm_compute; reflexivity|]. split; [vm_compute; reflexivity|].
  exists (after (pool_withdraw (env_of [-4]) None 10 (-4) 300000 1 1 None (world_of (xin ++ others)))). vm_compute. reflexivity.
Qed.
