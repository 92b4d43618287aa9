(** A concrete case of C252: swaps before and after somebody else's large swap. *)
From Coq Require Import ZArith List Bool Lia.
From Verif Require Import Base FMap Decimal Curve World Token TokenProofs Frame Stake Pool Stable Rewards Vest Factory Router System
  SysSupply SysStake Script Props_Token Props_Stable Props_PoolCases Props_StableCases Props_Around.
Import ListNotations.
Open Scope Z_scope.

Definition aW : World := world_of (ysetup 30 1000 ++ yfund 10000000 10050000).
Definition aP (w : World) : Stable := match fget 20 (w_stable w) with Some p => p | None => yP 0 0 0 end.
Definition a1 : World := after (stable_swap (env_of [-2]) None 20 (-2) 1 100000 None None None None aW).
Definition a2 : World := after (stable_swap (env_of [-4]) None 20 (-4) 1 500000 None None None None a1).
Definition a3 : World := after (stable_swap (env_of [-2]) None 20 (-2) 2 99621 None None None None a2).

(** 100000 are swapped just before somebody else's 500000, and back just after: 96118 return, 588 are commissions. *)
Example C252_example : reachable xH aW /\ trades xH (-2) aW 100000 2 588 a3 96118.
Proof.
  split; [apply world_reach; vm_compute; reflexivity|].
  apply (tr_swap xH (-2) aW (env_of [-2]) 20 (aP aW) 1 100000 None None None None 99621 (mkSimSwap 99621 299 80 100000) a1 100000 1 289 a3 96118);
    [reflexivity|vm_compute; reflexivity|vm_compute; reflexivity|vm_compute; discriminate|lia|vm_compute; reflexivity|vm_compute; reflexivity|].
  change (100000 - 100000 + 99621) with 99621.
  apply (tr_others xH (-2) a1 [Tx (env_of [-4]) (CStableSwap 20 (-4) 1 500000 None None None None)] a2).
  { econstructor; [|constructor]. apply st_tx; [reflexivity|]. vm_compute. reflexivity. }
  apply (tr_swap xH (-2) a2 (env_of [-2]) 20 (aP a2) 2 99621 None None None None 96118 (mkSimSwap 96118 289 3214 99621) a3 99621 0 0 a3 96118);
    [reflexivity|vm_compute; reflexivity|vm_compute; reflexivity|vm_compute; discriminate|lia|vm_compute; reflexivity|vm_compute; reflexivity|].
  change (99621 - 99621 + 96118) with 96118. apply tr_end.
Qed.
