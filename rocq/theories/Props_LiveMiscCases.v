(** Concrete cases for Props_LiveMisc (C149, C150). *)
From Coq Require Import ZArith List Bool Lia.
From Verif Require Import Base FMap Decimal Curve World Token TokenProofs Frame Stake Pool Stable Rewards Vest Factory Router System
  Script Props_Vest Props_Stable Props_StableCases Props_VestCases Props_RouterCases Props_CallsCases Props_LiveMisc.
Import ListNotations.
Open Scope Z_scope.

(** the trader holds 500000 of token 1 and nothing of its output token 3 *)
Example C149_trader_example :
  works [-6] (CTraderTransfer 30 (-6) (-8) 500000 (Some 1)) rW = true /\
  works [-6] (CTraderTransfer 30 (-6) (-8) 500001 (Some 1)) rW = false /\
  works [-6] (CTraderTransfer 30 (-6) (-8) (-1) (Some 1)) rW = false /\
  works [-6] (CTraderTransfer 30 (-6) (-8) 1 None) rW = false /\
  works [-6] (CTraderTransfer 30 (-6) (-8) 0 None) rW = true /\
  works [-6] (CTraderTransfer 30 (-6) (-8) 0 (Some 77)) rW = false /\
  works [-4] (CTraderTransfer 30 (-6) (-8) 1 (Some 1)) rW = false /\
  works [-4] (CTraderTransfer 30 (-4) (-8) 1 (Some 1)) rW = false.
Proof. vm_compute. repeat split. Qed.

(** -1 has 3400 tokens left after the creation of two vestings of 1000 and 600 *)
Example C149_burn_example : reachable xH (world_of v1) /\ vest_at (world_of v1) 30 (mkVest (-1) 1 10 (Some (-6, 500))
    (fset (-5) (fset 0 (mkVInfo 1000 (-5) vlin) fempty) (fset (-7) (fset 0 (mkVInfo 600 (-7) vpl) fempty) fempty))) /\
  bal (world_of v1) 1 (-1) = 3400 /\
  works [-1] (CVestBurn 30 (-1) 3400) (world_of v1) = true /\ works [-1] (CVestBurn 30 (-1) 3401) (world_of v1) = false /\
  works [-1] (CVestBurn 30 (-1) 0) (world_of v1) = false /\ works [-5] (CVestBurn 30 (-1) 1) (world_of v1) = false /\
  works [-1] (CVestBurn 30 (-1) U128_MAX) (world_of v1) = false /\ works [-1] (CVestBurn 30 30 1) (world_of v1) = false.
Proof. split; [apply world_reach; vm_compute; reflexivity|]. vm_compute. repeat split. Qed.

(** a later deposit: 999950 shares, as in [C29_C77_example]; and a first one: 19999000 shares *)
Example C150_example :
  works [-4] (CStableProvide 20 (-4) 1000000 1 None (Some 7) (Some 999950)) yW = true /\
  works [-4] (CStableProvide 20 (-4) 1000000 1 None (Some 7) (Some 999951)) yW = false /\
  works [-4] (CStableProvide 20 (-4) 1000000 0 None None None) yW = false /\
  works [-2] (CStableProvide 20 (-4) 1000000 1 None None None) yW = false /\
  works [-4] (CStableProvide 20 (-4) 1000000 1 (Some 500) None None) yW = true /\
  works [-4] (CStableProvide 20 (-4) 1000000 1 (Some 501) None None) yW = false /\
  works [-4] (CStableProvide 20 (-4) (10^15 + 1) 1 None None None) yW = false /\
  works [-2] (CStableProvide 20 (-2) (10^7) (10^7) None None (Some 19999000)) (world_of (ysetup 30 1000)) = true /\
  works [-2] (CStableProvide 20 (-2) (10^7) (10^7) None None (Some 19999001)) (world_of (ysetup 30 1000)) = false /\
  works [-2] (CStableProvide 20 (-2) 500 500 None None None) (world_of (ysetup 30 1000)) = false /\
  works [-2] (CStableProvide 20 (-2) 501 501 None None None) (world_of (ysetup 30 1000)) = true.
Proof. vm_compute. repeat split. Qed.
Example C150_values : let p := yP 19999000 (10^7) (10^7) in exists D0 D1,
  value_D p (10^7) (10^7) D0 /\ value_D p (10^7 + 1000000) (10^7 + 1) D1 /\
  l_total p * ((D1 - D0) * 10^18 / D0) / 10^18 = 999950.
Proof. exists (2 * 10^18), 2100000099999999999. vm_compute. repeat split. Qed.
