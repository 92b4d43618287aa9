(** C239, C240: every code named in the theorems of Props_Errors and Props_ErrorsStable is reported in some reachable state,
    with few exceptions noted below; the LowLiquidity code of the stable pool is reported for one size of deposit only. *)
From Coq Require Import ZArith List Bool Lia.
From Coq Require Import ZifyBool.
From Verif Require Import Base FMap Decimal DecimalProofs Curve World Token TokenProofs Frame Stake Pool PoolProofs
  Stable StableProofs Rewards Vest Factory Router System SysFrame SysInv SysPool SysStable SysSupply Script ErrProofs
  Props_Token Props_Pool Props_PoolCases Props_Stable Props_StableCases Props_Errors Props_ErrorsStable.
Import ListNotations.
Open Scope Z_scope.

Definition code_of {A} (r : res (A * World)) : option Z := match r with Err (EContract n) => Some n | _ => None end.
Definition xcode (k : Call) (w : World) : option Z := code_of (exec (env_of [-4]) k w).
Definition xlate : World := world_of (xsetup 30 1000 ++ xfund 1000000 2000000 ++ [Wait 50 50]).
Definition xempty : World := world_of (xsetup 30 1000).
Example xempty_reach : reachable xH xempty. Proof. apply world_reach; vm_compute; reflexivity. Qed.

Example C239_swap_example :
  xcode (CPoolSwap 10 (-4) 1 1000 None None (Some 49) None) xlate = Some 22 /\
  xcode (CPoolSwap 10 (-4) 1 1000 None None None (Some 29)) xW = Some 24 /\
  xcode (CPoolSwap 10 (-4) 1 1000 None (Some 1001) None None) xW = Some 19 /\
  xcode (CPoolSwap 10 (-4) 3 1000 None None None None) xW = Some 16 /\
  xcode (CPoolSwap 10 (-4) 1 1000 (Some 2000) None None None) xW = Some 21 /\
  xcode (CPoolSwap 10 (-4) 1 200000 None None None None) xW = Some 1 /\
  xcode (CPoolSwap 10 (-4) 1 (10 ^ 38) None None None None) xW = Some 23.
Proof. vm_compute. repeat split. Qed.
Example C239_deposit_example :
  xcode (CPoolProvide 10 (-4) (Some 10) None (Some 20) None None (Some 49)) xlate = Some 22 /\
  xcode (CPoolProvide 10 (-4) (Some 10) None (Some 20) None (Some 501) None) xW = Some 2 /\
  xcode (CPoolProvide 10 (-4) (Some 10) None None None None None) xW = Some 3 /\
  xcode (CPoolProvide 10 (-4) (Some 1000) None (Some 1000) None None None) xempty = Some 13 /\
  xcode (CPoolProvide 10 (-4) (Some 10) (Some 11) (Some 20) None None None) xW = Some 7 /\
  xcode (CPoolProvide 10 (-4) (Some 10) None (Some 20) (Some 21) None None) xW = Some 8 /\
  xcode (CPoolProvide 10 (-4) (Some 1000) None (Some 3000) None None None) xW = Some 9 /\
  xcode (CPoolProvide 10 (-4) (Some 1000) (Some 900) (Some 1600) None None None) xW = Some 10 /\
  xcode (CPoolProvide 10 (-4) (Some 1000) None (Some 1600) None None None) xW = Some 11 /\
  xcode (CPoolProvide 10 (-4) (Some 1000) None (Some 2010) (Some 2005) None None) xW = Some 12.
Proof. vm_compute. repeat split. Qed.
Example C239_withdraw_example :
  code_of (exec (env_of [-2]) (CPoolWithdraw 10 (-2) 1000 1 1 (Some 49)) xlate) = Some 22 /\
  code_of (exec (env_of [-2]) (CPoolWithdraw 10 (-2) 1000 800 1 None) xW) = Some 4.
Proof. vm_compute. repeat split. Qed.
Definition xbare : World := world_of [Do [] (CDeployTok 1 (-1) 7); Do [] (CDeployTok 2 (-1) 7); Do [] (CDeploy 10 KPool); Do [] (CDeploy 20 KStable)].
Example xbare_reach : reachable xH xbare. Proof. apply world_reach; vm_compute; reflexivity. Qed.
Example C239_other_example :
  xcode (CPoolInit 10 (xinit 30 1000) (-9) 7 100 1000) xW = Some 17 /\
  xcode (CPoolInit 10 (xinit 30 1000) (-9) 7 100 29) xbare = Some 25 /\
  xcode (CPoolInit 10 (mkPoolInit (-1) 30 (-3) 500 100 1000 500 2 1 10 5 (-1) 10) (-9) 7 100 1000) xbare = Some 18 /\
  xcode (CPoolInit 10 (mkPoolInit (-1) 30 (-3) 500 100 1000 500 1 2 0 5 (-1) 10) (-9) 7 100 1000) xbare = Some 2 /\
  xcode (CPoolInit 10 (mkPoolInit (-1) 30 (-3) 500 100 1000 500 1 2 10 0 (-1) 10) (-9) 7 100 1000) xbare = Some 3 /\
  xcode (CPoolInit 10 (mkPoolInit (-1) 30 (-3) 500 100 1000 500 1 2 10 5 (-1) 0) (-9) 7 100 1000) xbare = Some 12.
Proof. vm_compute. repeat split. Qed.

Definition ylate : World := world_of (ysetup 30 1000 ++ yfund (10^7) (10^7) ++ [Wait 50 50]).
Definition yempty : World := world_of (ysetup 30 1000).
Example yempty_reach : reachable xH yempty. Proof. apply world_reach; vm_compute; reflexivity. Qed.
Example yempty_pool : stable_at yempty 20 (yP 0 0 0). Proof. vm_compute. reflexivity. Qed.
Example C240_swap_example :
  xcode (CStableSwap 20 (-4) 1 1000 None None (Some 49) None) ylate = Some 19 /\
  xcode (CStableSwap 20 (-4) 1 1000 None None None (Some 29)) yW = Some 23 /\
  xcode (CStableSwap 20 (-4) 3 1000 None None None None) yW = Some 12 /\
  xcode (CStableSwap 20 (-4) 1 1000 None (Some 1001) None None) yW = Some 9 /\
  xcode (CStableSwap 20 (-4) 1 1000 (Some 1000) None None None) yW = Some 15 /\
  xcode (CStableSwap 20 (-4) 1 (10 ^ 8) None None None None) yW = Some 1.
Proof. vm_compute. repeat split. Qed.
Example C240_deposit_example :
  xcode (CStableProvide 20 (-4) 1000 1000 None (Some 49) None) ylate = Some 19 /\
  xcode (CStableProvide 20 (-4) 1000 1000 (Some 501) None None) yW = Some 2 /\
  xcode (CStableProvide 20 (-4) 500 500 None None None) yempty = Some 10 /\
  xcode (CStableProvide 20 (-4) 1000 1000 None None (Some 2001)) yW = Some 21.
Proof. vm_compute. repeat split. Qed.
Example C240_withdraw_example :
  code_of (exec (env_of [-2]) (CStableWithdraw 20 (-2) 1000 1 1 (Some 49)) ylate) = Some 19 /\
  code_of (exec (env_of [-2]) (CStableWithdraw 20 (-2) 1000 800 1 None) yW) = Some 3.
Proof. vm_compute. repeat split. Qed.
Example C240_other_example :
  xcode (CStableConfig 20 (-4) None None None None None) yW = Some 11 /\
  xcode (CStableInit 20 (xinit 30 1000) (-9) 6 1000) yW = Some 7 /\
  xcode (CStableInit 20 (xinit 30 1000) (-9) 6 29) xbare = Some 22 /\
  xcode (CStableInit 20 (mkPoolInit (-1) 30 (-3) 500 100 1000 500 2 1 10 5 (-1) 10) (-9) 6 1000) xbare = Some 8 /\
  xcode (CStableInit 20 (xinit 30 1000) (-9) 0 1000) xbare = Some 18.
Proof. vm_compute. repeat split. Qed.
