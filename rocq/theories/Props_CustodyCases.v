(** Concrete cases for Props_Custody (C157). *)
From Coq Require Import ZArith List Bool Lia.
From Verif Require Import Base FMap Decimal Curve World Token TokenProofs Frame Stake Pool Stable Rewards Vest Factory Router System
  Script Props_Token Props_Pool Props_Stable Props_Vest Props_Stake SysFact Props_Factory Props_PoolCases Props_StableCases Props_StakeCases
  Props_VestCases Props_FactoryCases Props_RouterCases Props_CallsCases Props_Effects Props_Effects2 Props_EffectsCases Props_Custody.
Import ListNotations.
Open Scope Z_scope.

(** what [c] pays out of token [t] in the call, when it succeeds; -1 when it fails *)
Definition pays (sg : list Addr) (k : Call) (w : World) (c t : Addr) : Z :=
  if works sg k w then bal w t c - bal (then_ sg k w) t c else -1.

(** a swap, a withdrawal and both legs of a route; an unbonding, a reward withdrawal, a vesting claim and a
    transfer by the admin of a trader; the same calls without the right signature *)
Example C157_example : reachable xH rW /\
  pays [-4] (CPoolSwap fp1 (-4) 1 10000 None None None None) rW fp1 2 = 19802 /\
  pays [-5] (CPoolSwap fp1 (-4) 1 10000 None None None None) rW fp1 2 = -1 /\
  pays [-2] (CPoolWithdraw fp1 (-2) 10000 1 1 None) rW fp1 1 = 7071 /\
  pays [-4] (CHopSwap rhop (-4) rops None 10000 None None) rW fp1 2 = 19802 /\
  pays [-4] (CHopSwap rhop (-4) rops None 10000 None None) rW fp2 3 = 19740 /\
  pays [-6] (CTraderTransfer 30 (-6) (-8) 100 (Some 1)) rW 30 1 = 100 /\
  pays [-4] (CTraderTransfer 30 (-6) (-8) 100 (Some 1)) rW 30 1 = -1 /\
  pays [-2] (CUnbond 20 (-2) 600 1000) (world_of s1) 20 1 = 600 /\
  pays [-3] (CUnbond 20 (-2) 600 1000) (world_of s1) 20 1 = -1 /\
  pays [-5] (CWithdrawRewards 20 (-2)) (world_of s1) 20 2 = 300 /\
  pays [-5] (CVestClaim 30 (-5) 0) (world_of v4) 30 1 = 750 /\
  pays [-7] (CVestClaim 30 (-5) 0) (world_of v4) 30 1 = -1.
Proof. split; [exact rW_reach|]. vm_compute. repeat split. Qed.

(** tokens sent to the router and share tokens sent to the pool (besides the 1000 it keeps from the first deposit) are there after a route and a withdrawal *)
Definition stray : list Act := [Do [-4] (CTransfer 1 (-4) rhop 700); Do [-2] (CTransfer fshare (-2) fp1 500)].
Definition later : list Act := [Do [-4] (CHopSwap rhop (-4) rops None 10000 None None); Do [-2] (CPoolWithdraw fp1 (-2) 10000 1 1 None)].
Example C157_stray_example : exists w w', play stray rW = Some w /\ play later w = Some w' /\
  reachable xH w /\ run xH w (map event_of later) w' /\
  fget rhop (w_code w) = Some KHop /\ pool_tokens w fp1 = Some (1, 2) /\ fshare <> 1 /\ fshare <> 2 /\
  bal w 1 rhop = 700 /\ bal w' 1 rhop = 700 /\ bal w fshare fp1 = 1500 /\ bal w' fshare fp1 = 1500.
Proof.
  exists (world_of (racts 10000000 10000000 ++ stray)), (world_of (racts 10000000 10000000 ++ stray ++ later)).
  assert (P : play later (world_of (racts 10000000 10000000 ++ stray)) = Some (world_of (racts 10000000 10000000 ++ stray ++ later)))
    by (vm_compute; reflexivity).
  split; [vm_compute; reflexivity|]. split; [exact P|].
  split; [apply world_reach; vm_compute; reflexivity|]. split; [apply play_run; exact P|].
  split; [vm_compute; reflexivity|]. split; [vm_compute; reflexivity|].
  split; [apply Z.eqb_neq; vm_compute; reflexivity|]. split; [apply Z.eqb_neq; vm_compute; reflexivity|].
  repeat split; vm_compute; reflexivity.
Qed.

(** a token that is neither the share token nor of a flow stays with the staking contract *)
Definition ssent : list Act := s1 ++ [Do [] (CDeployTok 3 (-1) 7); Do [-1] (CMint 3 (-2) 90); Do [-2] (CTransfer 3 (-2) 20 80)].
Example C157_stake_stray_example : reachable xH (world_of ssent) /\ stake_at (world_of ssent) 20 sS1 /\ ~ In 3 (s_dists sS1) /\ 3 <> s_lp sS1 /\
  (let k := CUnbond 20 (-3) 400 1000 in works [-3] k (world_of ssent) = true /\ bal (then_ [-3] k (world_of ssent)) 3 20 = 80) /\
  (let k := CWithdrawRewards 20 (-2) in works [] k (world_of ssent) = true /\ bal (then_ [] k (world_of ssent)) 3 20 = 80) /\
  (let k := CTransfer 3 20 (-2) 80 in works [-1; -2; -3; 20] k (world_of ssent) = false).
Proof.
  split; [apply world_reach; vm_compute; reflexivity|]. split; [vm_compute; reflexivity|]. split; [simpl; lia|]. split; [discriminate|].
  vm_compute. repeat split.
Qed.
