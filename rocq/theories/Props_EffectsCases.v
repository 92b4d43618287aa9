(** Concrete cases for Props_Effects and Props_Effects2 (C151 to C156). *)
From Coq Require Import ZArith List Bool Lia.
From Verif Require Import Base FMap Decimal Curve World Token TokenProofs Frame Stake Pool Stable Rewards Vest Factory Router System
  Script Props_Token Props_Pool Props_Stable Props_Vest Props_Stake SysFact Props_Factory Props_PoolCases Props_StableCases Props_StakeCases
  Props_VestCases Props_FactoryCases Props_CallsCases Props_Effects Props_Effects2.
Import ListNotations.
Open Scope Z_scope.

(** the ledger after a call signed by [sg] *)
Definition then_ (sg : list Addr) (k : Call) (w : World) : World := after (exec (env_of sg) k w).

(** an allowance of 100 until ledger 50, of which 30 are spent by a transfer and 20 by a burn *)
Definition aW : World := world_of (xsetup 30 1000 ++ [Do [-2] (CApprove 1 (-2) (-5) 100 50)]).
Example C151_example : reachable xH aW /\ allowance_entry aW 1 (-2) (-5) = Some (100, 50) /\
  (let k := CTransferFrom 1 (-5) (-2) (-6) 30 in
   works [-5] k aW = true /\ allowance_entry (then_ [-5] k aW) 1 (-2) (-5) = Some (70, 50)) /\
  (let k := CBurnFrom 1 (-5) (-2) 20 in
   works [-5] k aW = true /\ allowance_entry (then_ [-5] k aW) 1 (-2) (-5) = Some (80, 50)) /\
  (let k := CPoolProvide 10 (-2) (Some 1000000) None (Some 2000000) None None None in
   works [-2] k aW = true /\ allowance_entry (then_ [-2] k aW) 1 (-2) (-5) = Some (100, 50)) /\
  (let k := CSetAdmin 1 (-8) in
   works [-1] k aW = true /\ tadmin aW 1 = Some (-1) /\ tadmin (then_ [-1] k aW) 1 = Some (-8) /\ tadmin (then_ [-1] k aW) 2 = Some (-1)).
Proof. split; [apply world_reach; vm_compute; reflexivity|]. vm_compute. repeat split. Qed.

(** the supply of token 1 is 2 * 10^15 before each of these calls *)
Example C152_example : supply aW 1 = 2 * 10^15 /\ bal aW 1 (-2) = 10^15 /\
  (let w' := then_ [-5] (CTransferFrom 1 (-5) (-2) (-6) 30) aW in
   bal w' 1 (-2) = 10^15 - 30 /\ bal w' 1 (-6) = 30 /\ supply w' 1 = 2 * 10^15 /\ supply w' 2 = 2 * 10^15) /\
  (let w' := then_ [-5] (CBurnFrom 1 (-5) (-2) 20) aW in bal w' 1 (-2) = 10^15 - 20 /\ supply w' 1 = 2 * 10^15 - 20) /\
  (let w' := then_ [-1] (CMint 1 (-2) 5) aW in bal w' 1 (-2) = 10^15 + 5 /\ supply w' 1 = 2 * 10^15 + 5) /\
  (let w' := then_ [-2] (CTransfer 1 (-2) (-2) 7) aW in bal w' 1 (-2) = 10^15 /\ supply w' 1 = 2 * 10^15).
Proof. vm_compute. repeat split. Qed.

(** 10000 of 1414213 shares; a later deposit of which 1000 and 2000 are taken; a stable withdrawal *)
Example C153_withdrawal_example : exists w',
  pool_withdraw (env_of [-2]) None 10 (-2) 10000 1 1 None xW = Ok ((7071, 14142), w') /\
  pool_at w' 10 (mkPool 1 2 xshare (xH 10 SEmpty) 30 (-3) 500 1000 500 100 (-1) 1404213 992929 1985858) /\
  supply w' xshare = 1404213 /\ bal w' 1 10 = 992929 /\ bal w' 2 10 = 1985858.
Proof. exists (after (pool_withdraw (env_of [-2]) None 10 (-2) 10000 1 1 None xW)). vm_compute. repeat split. Qed.
Example C153_deposit_example : exists w',
  pool_provide (env_of [-4]) None 10 (-4) (Some 1000) (Some 900) (Some 2005) (Some 1900) None (Some 5) xW = Ok (tt, w') /\
  pool_at w' 10 (mkPool 1 2 xshare (xH 10 SEmpty) 30 (-3) 500 1000 500 100 (-1) 1415627 1001000 2002000) /\
  bal w' xshare (-4) = 1414 /\ supply w' xshare = 1415627 /\ bal w' 2 (-4) = 10^15 - 2000.
Proof.
  exists (after (pool_provide (env_of [-4]) None 10 (-4) (Some 1000) (Some 900) (Some 2005) (Some 1900) None (Some 5) xW)).
  vm_compute. repeat split.
Qed.
Example C153_stable_withdrawal_example : exists w',
  stable_withdraw (env_of [-2]) None 20 (-2) 9999000 1 1 None yW = Ok ((4999749, 4999749), w') /\
  stable_at w' 20 (yP 10000000 5000251 5000251) /\ supply w' yshare = 10000000 /\ bal w' yshare (-2) = 10000000.
Proof. exists (after (stable_withdraw (env_of [-2]) None 20 (-2) 9999000 1 1 None yW)). vm_compute. repeat split. Qed.

(** one more stake of 50 for the user -2, who has one of 600 *)
Definition eday : Z := 1000 + 30 * day.
Example C154_bond_example : stake_at (world_of s1) 20 sS1 /\ exists w', stake_bond (env_of [-2]) None 20 (-2) 50 (world_of s1) = Ok (tt, w') /\
  stake_at w' 20 (sS (Some (mkBonding [mkStakeE 600 1000; mkStakeE 50 eday] 0 650)) (Some (mkBonding [mkStakeE 400 1000] 0 400)) None 1050
    (fset eday 1000 fempty) (fset eday 1000 fempty) fempty) /\
  bal w' 1 (-2) = 9350 /\ bal w' 1 20 = 1050.
Proof. split; [exact s1_stake|]. exists (after (stake_bond (env_of [-2]) None 20 (-2) 50 (world_of s1))). vm_compute. repeat split. Qed.
(** the stake of 50 is taken out, the 600 and the 70 stay in order *)
Definition e2 : list Act := s1 ++ [Do [-2] (CBond 20 (-2) 50); Wait (eday + 5) 3; Do [-2] (CBond 20 (-2) 70)].
Example C154_unbond_example : reachable xH (world_of e2) /\
  exists w', stake_unbond (env_of [-2]) None 20 (-2) 50 eday (world_of e2) = Ok (tt, w') /\
  stake_at w' 20 (sS (Some (mkBonding [mkStakeE 600 1000; mkStakeE 70 (eday + 5)] 0 670)) (Some (mkBonding [mkStakeE 400 1000] 0 400)) None 1070
    (fset eday 1000 fempty) (fset eday 1000 fempty) fempty) /\
  bal w' 1 (-2) = 9330 /\ bal w' 1 20 = 1070.
Proof.
  split; [apply world_reach; vm_compute; reflexivity|].
  exists (after (stake_unbond (env_of [-2]) None 20 (-2) 50 eday (world_of e2))). vm_compute. repeat split.
Qed.
Example C154_distribute_example : exists w', stake_distribute (env_of [-1]) None 20 (-1) 77 2 (world_of e2) = Ok (tt, w') /\
  stake_at w' 20 (sS (Some (mkBonding [mkStakeE 600 1000; mkStakeE 50 eday; mkStakeE 70 (eday + 5)] 0 720))
    (Some (mkBonding [mkStakeE 400 1000] 0 400)) None 1120
    (fset eday 1000 (fset (eday + 5) 1120 fempty)) (fset eday 1000 (fset (eday + 5) 77 fempty)) fempty) /\
  bal w' 2 20 = 1077 /\ bal w' 2 (-1) = 10^21 - 1077.
Proof. exists (after (stake_distribute (env_of [-1]) None 20 (-1) 77 2 (world_of e2))). vm_compute. repeat split. Qed.
(** the user -2 gets a share of the 1000 distributed *)
Example C154_withdraw_rewards_example : exists w' n, stake_withdraw_rewards (env_of [-5]) 20 (-2) (world_of s1) = Ok (tt, w') /\
  0 < n /\ stake_query_rewards 20 (-2) (world_of s1) = Ok ([(2, n); (1, 0)], world_of s1) /\
  bal w' 2 (-2) = n /\ bal w' 2 20 = 1000 - n /\ bal w' 1 20 = 1000 /\
  stake_at w' 20 (sS (Some (mkBonding [mkStakeE 600 1000] eday 600)) (Some (mkBonding [mkStakeE 400 1000] 0 400)) None 1000
    (fset eday 1000 fempty) (fset eday 1000 fempty) fempty).
Proof.
  exists (after (stake_withdraw_rewards (env_of [-5]) 20 (-2) (world_of s1))),
    (bal (after (stake_withdraw_rewards (env_of [-5]) 20 (-2) (world_of s1))) 2 (-2)).
  vm_compute. repeat split.
Qed.

(** the user -5 holds an entry with 750 left at time 125; at time 150 half of the 1000 are locked *)
Definition e3 : World := world_of (v2 ++ [Wait 150 3]).
Example C155_claim_example : reachable xH e3 /\ vest_at e3 30 (vV 750 600 600) /\
  exists w', vest_claim (env_of [-5]) None 30 (-5) 0 e3 = Ok (tt, w') /\ vest_at w' 30 (vV 500 600 600) /\
  bal w' 1 (-5) = 500 /\ bal w' 1 30 = 1700.
Proof.
  split; [apply world_reach; vm_compute; reflexivity|]. split; [vm_compute; reflexivity|].
  exists (after (vest_claim (env_of [-5]) None 30 (-5) 0 e3)). vm_compute. repeat split.
Qed.
Example C155_creation_example : exists w',
  vest_create (env_of [-1]) None 30 [(-5, vpl); (-8, vlin)] (world_of v1) = Ok (tt, w') /\
  entry_at w' 30 (-5) 1 (mkVInfo 600 (-5) vpl) /\ entry_at w' 30 (-8) 0 (mkVInfo 1000 (-8) vlin) /\
  entry_at w' 30 (-5) 0 (mkVInfo 1000 (-5) vlin) /\ bal w' 1 (-1) = 3400 - 1600 /\ bal w' 1 30 = 1600 + 1600.
Proof.
  exists (after (vest_create (env_of [-1]) None 30 [(-5, vpl); (-8, vlin)] (world_of v1))).
  split; [vm_compute; reflexivity|].
  split; [eexists _, _; split; [vm_compute; reflexivity|]; split; vm_compute; reflexivity|].
  split; [eexists _, _; split; [vm_compute; reflexivity|]; split; vm_compute; reflexivity|].
  split; [eexists _, _; split; [vm_compute; reflexivity|]; split; vm_compute; reflexivity|].
  vm_compute. repeat split.
Qed.
Example C155_mint_example : exists w', vest_mint (env_of [-6]) None 30 (-6) 120 e3 = Ok (tt, w') /\
  vest_at w' 30 (mkVest (-1) 1 10 (Some (-6, 380)) (v_ent (vV 750 600 600))) /\ bal w' 1 30 = 2070 /\ supply w' 1 = 5120.
Proof. exists (after (vest_mint (env_of [-6]) None 30 (-6) 120 e3)). vm_compute. repeat split. Qed.

(** both kinds of creation by the whitelisted account -5 *)
Definition e4 : World := world_of (fsetup [-5]).
Example C156_example : reachable xH e4 /\ (exists f, fact_at e4 20 f /\ f_lps f = []) /\
  (exists w', fact_create (env_of [-5]) None 20 (-5) (finit 1 2) Xyk None 100 1000 e4 = Ok (fp1, w') /\
     fget fp1 (w_code w') = Some KPool /\ pool_tokens w' fp1 = Some (1, 2)) /\
  (exists w', fact_create (env_of [-5]) None 20 (-5) (finit 2 3) StableT (Some 10) 100 1000 e4 = Ok (fp2, w') /\
     fget fp2 (w_code w') = Some KStable /\ tdec e4 2 = Some 7).
Proof.
  split; [apply world_reach; vm_compute; reflexivity|].
  split; [eexists; split; vm_compute; reflexivity|].
  split; [exists (after (fact_create (env_of [-5]) None 20 (-5) (finit 1 2) Xyk None 100 1000 e4))|
          exists (after (fact_create (env_of [-5]) None 20 (-5) (finit 2 3) StableT (Some 10) 100 1000 e4))]; vm_compute; repeat split.
Qed.
