(** A concrete case of C250: a circle over three stable pools. *)
From Coq Require Import ZArith List Bool Lia.
From Verif Require Import Base FMap Decimal DecimalProofs Curve World Token TokenProofs Frame Stake Pool PoolProofs
  Stable StableProofs Rewards Vest Factory Router System SysFrame SysInv SysPool SysStable SysSupply SysVest SysStake Script Runs
  Props_Token Props_Pool Props_Stable Props_Vest Props_Stake SysFact Props_Factory Props_PoolCases Props_FactoryCases Props_Router Props_RouterCases
  Props_Foreign2 Props_RouteStable.
Import ListNotations.
Open Scope Z_scope.

(** three stable pools with uneven reserves, the circle 1 -> 2 -> 3 -> 1 sells the scarcer token each time *)
Definition fq (a b : Addr) : Addr := xH 20 (SPair a b).
Definition ring : list Act := fsetup [-5] ++
  [ Do [-5] (CCreate 20 (-5) (finit 1 2) StableT (Some 10) 100 1000);
    Do [-5] (CCreate 20 (-5) (finit 2 3) StableT (Some 10) 100 1000);
    Do [-5] (CCreate 20 (-5) (finit 1 3) StableT (Some 10) 100 1000);
    Do [-2] (CStableProvide (fq 1 2) (-2) 10000000 10050000 None None None);
    Do [-2] (CStableProvide (fq 2 3) (-2) 10000000 10050000 None None None);
    Do [-2] (CStableProvide (fq 1 3) (-2) 10050000 10000000 None None None) ].
Definition gW : World := world_of ring.
Definition rring : list SwapOp := [mkOp 2 1 None; mkOp 3 2 None; mkOp 1 3 None].
(** 100000 come back as 98956: less than the bound, 100006 - 3 * 296 = 99118 *)
Example C250_example : exists w', reachable xH gW /\ fget rhop (w_hop gW) = Some (mkHop (-1) 20) /\
  hop_swap (env_of [-4]) None rhop (-4) rring None 100000 None None gW = Ok (98956, w') /\
  Forall2 (fun o p => fact_pool_by_pair 20 (o_offer o) (o_ask o) gW = Ok (p, gW)) rring [fq 1 2; fq 2 3; fq 1 3] /\
  (forall q, In q [fq 1 2; fq 2 3; fq 1 3] -> exists s, stable_at gW q s /\ l_preca s = l_precb s /\ l_preca s <= 8 /\ 30 <= l_fee s) /\
  (98956 - 2 * 3) * 30 / 10000 = 296.
Proof.
  exists (after (hop_swap (env_of [-4]) None rhop (-4) rring None 100000 None None gW)).
  split; [apply world_reach; vm_compute; reflexivity|]. split; [vm_compute; reflexivity|]. split; [vm_compute; reflexivity|].
  split; [repeat constructor; vm_compute; reflexivity|]. split; [|reflexivity].
  intros q I. exists (match fget q (w_stable gW) with Some s => s | None => lP0 end).
  destruct I as [<-|[<-|[<-|[]]]]; (split; [vm_compute; reflexivity|]); (split; [vm_compute; reflexivity|]); split; vm_compute; discriminate.
Qed.
