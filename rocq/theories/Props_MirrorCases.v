(** Concrete cases of C251: one pool holds 1000000 and 2000000 of its first and second token, the other the reverse. *)
From Coq Require Import ZArith List Bool Lia.
From Verif Require Import Base FMap Decimal Curve World Token TokenProofs Frame Stake Pool Stable Rewards Vest Factory Router System
  SysSupply SysStake Script Props_Token Props_Pool Props_PoolCases Props_Stable Props_StableCases Props_Mirror.
Import ListNotations.
Open Scope Z_scope.

Definition mW : World := world_of (xsetup 30 1000 ++ xfund 2000000 1000000).
Definition mP : Pool := match fget 10 (w_pool mW) with Some p => p | None => xP end.
Example mW_reach : reachable xH mW. Proof. apply world_reach; vm_compute; reflexivity. Qed.

Example mirrored : mirror xP mP. Proof. vm_compute. auto. Qed.
Example xP_side : side xP 1 1000000 2000000 2. Proof. left. vm_compute. auto. Qed.
Example mP_side : side mP 2 1000000 2000000 1. Proof. right. vm_compute. repeat split; discriminate. Qed.

(** 12345 of the first token fetch in the one pool what 12345 of the second token fetch in the other. *)
Example quote_case : pool_simulate_swap 10 1 12345 xW = Ok (mkSimSwap 24316 73 301 24690, xW)
  /\ pool_simulate_swap 10 2 12345 mW = Ok (mkSimSwap 24316 73 301 24690, mW).
Proof.
  assert (E : pool_simulate_swap 10 1 12345 xW = Ok (mkSimSwap 24316 73 301 24690, xW)) by (vm_compute; reflexivity).
  split; [exact E|]. refine (C251_quotes_do_not_see_the_order xH xW 10 xP 1 2 xH mW 10 mP 2 1 1000000 2000000 12345 _ _ _ xP_side mW_reach _ mP_side _ E);
    [apply world_reach; vm_compute; reflexivity|vm_compute; reflexivity..].
Qed.
Example swap_case : exists w1 w1',
  pool_swap (env_of [-4]) None 10 (-4) 1 12345 None None None None xW = Ok (24316, w1)
  /\ pool_swap (env_of [-2]) None 10 (-2) 2 12345 None None None None mW = Ok (24316, w1')
  /\ option_map (fun p => (p_ra p, p_rb p)) (fget 10 (w_pool w1)) = Some (1012345, 1975611)
  /\ option_map (fun p => (p_ra p, p_rb p)) (fget 10 (w_pool w1')) = Some (1975611, 1012345).
Proof. eexists _, _. split; [vm_compute; reflexivity|]. split; [vm_compute; reflexivity|]. split; vm_compute; reflexivity. Qed.
Example deposit_case : exists w1 w1',
  pool_provide (env_of [-2]) None 10 (-2) (Some 1000) None (Some 2000) None None None xW = Ok (tt, w1)
  /\ pool_provide (env_of [-2]) None 10 (-2) (Some 2000) None (Some 1000) None None None mW = Ok (tt, w1')
  /\ bal mW (p_ta mP) 10 = bal xW (p_tb xP) 10 /\ bal mW (p_tb mP) 10 = bal xW (p_ta xP) 10
  /\ option_map (fun p => (p_ra p, p_rb p, p_total p)) (fget 10 (w_pool w1)) = Some (1001000, 2002000, 1415627)
  /\ option_map (fun p => (p_ra p, p_rb p, p_total p)) (fget 10 (w_pool w1')) = Some (2002000, 1001000, 1415627).
Proof. eexists _, _. split; [vm_compute; reflexivity|]. split; [vm_compute; reflexivity|]. repeat split; vm_compute; reflexivity. Qed.
Example withdrawal_case : exists w1 w1',
  pool_withdraw (env_of [-2]) None 10 (-2) 12345 1 1 None xW = Ok ((8729, 17458), w1)
  /\ pool_withdraw (env_of [-2]) None 10 (-2) 12345 1 1 None mW = Ok ((17458, 8729), w1').
Proof. eexists _, _. split; vm_compute; reflexivity. Qed.

(** ** Stable pools with 10000000 and 10050000, and the reverse *)
Definition nW : World := world_of (ysetup 30 1000 ++ yfund 10000000 10050000).
Definition nW' : World := world_of (ysetup 30 1000 ++ yfund 10050000 10000000).
Definition nP : Stable := match fget 20 (w_stable nW) with Some p => p | None => yP 0 0 0 end.
Definition nP' : Stable := match fget 20 (w_stable nW') with Some p => p | None => yP 0 0 0 end.
Example nP_side : lside nP 1 10000000 10050000 2. Proof. left. vm_compute. auto. Qed.
Example nP'_side : lside nP' 2 10000000 10050000 1. Proof. right. vm_compute. repeat split; discriminate. Qed.
Example stable_case : stable_simulate_swap 20 1 12345 nW = Ok (mkSimSwap 12306 37 2 12345, nW)
  /\ stable_simulate_swap 20 2 12345 nW' = Ok (mkSimSwap 12306 37 2 12345, nW').
Proof.
  assert (E : stable_simulate_swap 20 1 12345 nW = Ok (mkSimSwap 12306 37 2 12345, nW)) by (vm_compute; reflexivity).
  split; [exact E|]. refine (C251_stable_quotes_do_not_see_the_order xH nW 20 nP 1 2 xH nW' 20 nP' 2 1 10000000 10050000 12345 _ _ _ nP_side _ _ nP'_side _ _ _ _ _ E);
    first [apply world_reach; vm_compute; reflexivity | vm_compute; reflexivity].
Qed.
Example stable_swap_case : exists w1 w1',
  stable_swap (env_of [-2]) None 20 (-2) 1 12345 None None None None nW = Ok (12306, w1)
  /\ stable_swap (env_of [-2]) None 20 (-2) 2 12345 None None None None nW' = Ok (12306, w1').
Proof. eexists _, _. split; vm_compute; reflexivity. Qed.
Example smirrored : smirror nP nP'. Proof. vm_compute. repeat split. Qed.
Example stable_deposit_case : exists w1 w1',
  stable_provide (env_of [-2]) None 20 (-2) 1000 3000 None None None nW = Ok (tt, w1)
  /\ stable_provide (env_of [-2]) None 20 (-2) 3000 1000 None None None nW' = Ok (tt, w1')
  /\ bal nW' (l_ta nP') 20 = bal nW (l_tb nP) 20 /\ bal nW' (l_tb nP') 20 = bal nW (l_ta nP) 20
  /\ option_map (fun p => (l_ra p, l_rb p)) (fget 20 (w_stable w1)) = Some (10001000, 10053000)
  /\ option_map (fun p => (l_ra p, l_rb p)) (fget 20 (w_stable w1')) = Some (10053000, 10001000)
  /\ option_map l_total (fget 20 (w_stable w1)) = option_map l_total (fget 20 (w_stable w1')).
Proof. eexists _, _. split; [vm_compute; reflexivity|]. split; [vm_compute; reflexivity|]. repeat split; vm_compute; reflexivity. Qed.
Example stable_withdrawal_case : exists a b w1 w1', a < b
  /\ stable_withdraw (env_of [-2]) None 20 (-2) 12345 1 1 None nW = Ok ((a, b), w1)
  /\ stable_withdraw (env_of [-2]) None 20 (-2) 12345 1 1 None nW' = Ok ((b, a), w1').
Proof.
  destruct (stable_withdraw (env_of [-2]) None 20 (-2) 12345 1 1 None nW) as [[[a b] w1]|] eqn:E; [|vm_compute in E; discriminate].
  vm_compute in E. inversion E. do 4 eexists. split; [|split; [reflexivity|vm_compute; reflexivity]]. reflexivity.
Qed.
