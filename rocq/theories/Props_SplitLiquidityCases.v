(** Concrete cases of C247. *)
From Coq Require Import ZArith List Bool Lia.
From Coq Require Import ZifyBool.
From Verif Require Import Base FMap Decimal Curve World Token TokenProofs Frame Stake Pool Stable Rewards Vest Factory Router System
  SysSupply SysStake Script Props_Token Props_Pool Props_PoolCases Props_Vest Props_Stake Props_StakeCases Props_Guards Props_SplitLiquidity.
Import ListNotations.
Open Scope Z_scope.

Definition okb_noswap (c : Addr) (_ : World) (k : Call) : bool :=
  match k with CPoolSwap p _ _ _ _ _ _ _ => negb (p =? c) | CHopSwap _ _ _ _ _ _ _ | CTrade _ _ _ _ _ _ _ _ _ => false | _ => true end.
Lemma okb_noswap_ok c w k : okb_noswap c w k = true -> ~ may_swap c k.
Proof. destruct k; simpl; auto; intros B E; lia. Qed.
Definition xin : list Act := xsetup 30 1000 ++ xfund 1000000 2000000.
(** -4 deposits 100000 and 200000 at once, or in three parts *)
Definition dep (a b : Z) : Act := Do [-4] (CPoolProvide 10 (-4) (Some a) None (Some b) None None None).
Definition once : list Act := [dep 100000 200000].
Definition thrice : list Act := [dep 33333 66666; dep 33333 66666; dep 33334 66668].
Definition pool_of (l : list Act) : Pool := match fget 10 (w_pool (world_of l)) with Some p => p | None => xP end.
Definition wd (s : Z) : Act := Do [-2] (CPoolWithdraw 10 (-2) s 1 1 None).

Lemma noswap_run l l' : play_if (okb_noswap 10) l' (world_of l) = Some (world_of (l ++ l')) ->
  run_if (fun _ k => ~ may_swap 10 k) xH (world_of l) (map event_of l') (world_of (l ++ l')).
Proof. apply (play_if_run (okb_noswap 10) (fun _ k => ~ may_swap 10 k)). intros w k. apply okb_noswap_ok. Qed.
(** the three parts together give two shares less *)
Example C247_deposit_example :
  pool_provide (env_of [-4]) None 10 (-4) (Some 100000) None (Some 200000) None None None xW = Ok (tt, world_of (xin ++ once)) /\
  run_if (fun _ k => ~ may_swap 10 k) xH xW (map event_of thrice) (world_of (xin ++ thrice)) /\
  p_ra (pool_of (xin ++ thrice)) = p_ra (pool_of (xin ++ once)) /\ p_rb (pool_of (xin ++ thrice)) = p_rb (pool_of (xin ++ once)) /\
  p_total (pool_of (xin ++ thrice)) = 1555632 /\ p_total (pool_of (xin ++ once)) = 1555634.
Proof.
  split; [vm_compute; reflexivity|]. split; [apply (noswap_run xin); vm_compute; reflexivity|].
  vm_compute. auto.
Qed.
(** 300000 shares redeemed at once pay one unit of each token more than in three parts *)
Example C247_withdrawal_example :
  pool_withdraw (env_of [-2]) None 10 (-2) 300000 1 1 None xW = Ok ((212132, 424264), world_of (xin ++ [wd 300000])) /\
  run_if (fun _ k => ~ may_swap 10 k) xH xW (map event_of [wd 100000; wd 99999; wd 100001]) (world_of (xin ++ [wd 100000; wd 99999; wd 100001])) /\
  p_total (pool_of (xin ++ [wd 100000; wd 99999; wd 100001])) = p_total (pool_of (xin ++ [wd 300000])) /\
  p_ra xP - p_ra (pool_of (xin ++ [wd 100000; wd 99999; wd 100001])) = 212131.
Proof.
  split; [vm_compute; reflexivity|]. split; [apply (noswap_run xin); vm_compute; reflexivity|].
  vm_compute. auto.
Qed.
