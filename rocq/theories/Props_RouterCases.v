(** Properties of the router, the trader and third-party safety: concrete cases for the theorems of
    Props_Router and the refuted claims (C68, C99). *)
From Coq Require Import ZArith List Bool Lia.
From Coq Require Import ZifyBool.
From Verif Require Import Base FMap Decimal DecimalProofs Curve World Token TokenProofs Frame Stake Pool PoolProofs
  Stable StableProofs Rewards Vest Factory Router System SysFrame SysInv SysPool SysStable SysSupply SysVest SysStake Script Runs
  Props_Token Props_Pool Props_Stable Props_Vest Props_Stake SysFact Props_Factory Props_PoolCases Props_FactoryCases Props_Router.
Import ListNotations.
Open Scope Z_scope.

(** the factory world with both pools funded; a trader at 30 holds 500000 of token 1, and account -4
    lets -7 spend 5000 of token 1 *)
Definition rhop : Addr := xH 20 (SOne (-1)).
Definition racts (a b : Z) : list Act := fsetup [-5] ++ fpools ++ ffund 1000000 2000000 ++
  [ Do [-2] (CStableProvide fp2 (-2) a b None None None);
    Do [] (CDeploy 30 KTrader); Do [-6] (CTraderInit 30 (-6) 1 2 3); Do [-4] (CTransfer 1 (-4) 30 500000);
    Do [-4] (CApprove 1 (-4) (-7) 5000 50) ].
Definition rW : World := world_of (racts 10000000 10000000).
Example rW_reach : reachable xH rW. Proof. apply world_reach; vm_compute; reflexivity. Qed.
Example rW_hop : fget rhop (w_hop rW) = Some (mkHop (-1) 20). Proof. vm_compute. reflexivity. Qed.
Definition rops : list SwapOp := [mkOp 2 1 (Some 19000); mkOp 3 2 (Some 19600)].

(** 10000 of token 1 for 19681 of token 3, through a constant-product and a stable pool *)
Example C66_C67_example : exists w',
  hop_swap (env_of [-4]) None rhop (-4) rops None 10000 None None rW = Ok (19681, w') /\
  hop_simulate rhop rops 10000 rW = Ok ((19681, [59; 59], [198; 3]), rW) /\
  bal w' 1 (-4) = bal rW 1 (-4) - 10000 /\ bal w' 2 (-4) = bal rW 2 (-4) /\ bal w' 3 (-4) = bal rW 3 (-4) + 19681 /\
  fact_pool_by_pair 20 1 2 rW = Ok (fp1, rW) /\ fact_pool_by_pair 20 2 3 rW = Ok (fp2, rW) /\
  fee_recipient rW fp1 = Some (-3) /\ fee_recipient rW fp2 = Some (-3).
Proof.
  exists (after (hop_swap (env_of [-4]) None rhop (-4) rops None 10000 None None rW)).
  split; [vm_compute; reflexivity|]. split; [vm_compute; reflexivity|]. split; [vm_compute; reflexivity|].
  split; [vm_compute; reflexivity|]. split; [vm_compute; reflexivity|]. split; [vm_compute; reflexivity|].
  split; [vm_compute; reflexivity|]. split; vm_compute; reflexivity.
Qed.
Example C66_rejections : hop_swap (env_of [-4]) None rhop (-4) [mkOp 2 1 None; mkOp 2 3 None] None 10000 None None rW = Err (EContract 3) /\
  hop_swap (env_of [-4]) None rhop (-4) [] None 10000 None None rW = Err (EContract 2) /\
  hop_swap (env_of [-4]) None rhop (-4) [mkOp 2 1 None; mkOp 3 2 (Some 19682)] None 10000 None None rW <> Err (EContract 3).
Proof. split; [vm_compute; reflexivity|]. split; [vm_compute; reflexivity|]. vm_compute. discriminate. Qed.

(** ** C68 fails: a path that comes back to a pool is quoted with the pool's state before its first visit *)
Theorem C68_repeated_pool_refuted : exists w w' a r cs ss,
  reachable xH w /\ hop_simulate rhop [mkOp 2 1 None; mkOp 1 2 None] 10000 w = Ok ((a, cs, ss), w) /\
  hop_swap (env_of [-4]) None rhop (-4) [mkOp 2 1 None; mkOp 1 2 None] None 10000 None None w = Ok (r, w') /\
  a = 9747 /\ r = 9942.
Proof.
  exists rW, (after (hop_swap (env_of [-4]) None rhop (-4) [mkOp 2 1 None; mkOp 1 2 None] None 10000 None None rW)), 9747, 9942, [59; 29], [198; 95].
  split; [exact rW_reach|]. split; [vm_compute; reflexivity|]. split; [vm_compute; reflexivity|]. split; reflexivity.
Qed.
Print Assumptions C68_repeated_pool_refuted.

(** ** C69, C70: the trader's admin can move its tokens out, but not trade them: the pool's transfer of
    the offered tokens is not authorised by the trader. *)
Example C69_example : exists w', trader_transfer (env_of [-6]) None 30 (-6) (-8) 100 (Some 1) rW = Ok (tt, w') /\
  bal rW 1 30 = 500000 /\ bal w' 1 30 = 499900 /\ bal w' 1 (-8) = 100 /\
  trader_transfer (env_of [-4]) None 30 (-6) (-8) 100 (Some 1) rW = Err EAuth /\
  trader_transfer (env_of [-4]) None 30 (-4) (-8) 100 (Some 1) rW = Err (EContract 6).
Proof.
  exists (after (trader_transfer (env_of [-6]) None 30 (-6) (-8) 100 (Some 1) rW)).
  split; [vm_compute; reflexivity|]. split; [vm_compute; reflexivity|]. split; [vm_compute; reflexivity|].
  split; [vm_compute; reflexivity|]. split; vm_compute; reflexivity.
Qed.
(** every condition on the arguments is met and the funds are there, yet *)
Example C70_example : trader_trade (env_of [-6]) None 30 (-6) 1 fp1 (Some 10000) None None None None rW = Err EAuth.
Proof. vm_compute. reflexivity. Qed.

(** ** C71 *)
Example C71_example : exists w', exec (env_of [-7]) (CTransferFrom 1 (-7) (-4) (-8) 3000) rW = Ok (tt, w') /\
  live_allowance rW 1 (-4) (-7) = 5000 /\ bal w' 1 (-4) = bal rW 1 (-4) - 3000 /\ live_allowance w' 1 (-4) (-7) = 2000 /\
  live_allowance rW 2 (-4) (-7) = 0.
Proof.
  exists (after (exec (env_of [-7]) (CTransferFrom 1 (-7) (-4) (-8) 3000) rW)).
  split; [vm_compute; reflexivity|]. split; [vm_compute; reflexivity|]. split; [vm_compute; reflexivity|].
  split; vm_compute; reflexivity.
Qed.
(** a silent account: -2 has no open approval, and the others keep trading *)
Example C71_silent_example : exists w' l, run xH rW l w' /\ (forall e k, In (Tx e k) l -> ~ In (-2) (e_auth e)) /\
  (forall s, live_allowance rW 2 (-2) s <= 0) /\ length l = 2%nat.
Proof.
  pose (acts := [Do [-4] (CHopSwap rhop (-4) rops None 10000 None None); Do [-7] (CTransferFrom 1 (-7) (-4) (-8) 3000)]).
  exists (match play acts rW with Some w => w | None => w_empty end), (map event_of acts). split; [|split; [|split; [|reflexivity]]].
  - apply play_run. vm_compute. reflexivity.
  - simpl. intros e k [E|[E|[]]]; inversion E; subst; simpl; intuition discriminate.
  - intros s. replace (live_allowance rW 2 (-2) s) with 0; [lia|]. vm_compute. reflexivity.
Qed.

(** ** C99 fails: the router passes the asked asset to the stable pool's simulate_reverse_swap, which reads
    it as the offered one.  In this pool 12103 of token 2 are quoted for 10000 of token 3, but fetch only
    9810; the quote for the other direction, 12296, is the one that fetches 10000. *)
Definition rW2 : World := world_of (racts 11000000 10000000).
Theorem C99_reverse_quote_direction_refuted : exists w cs ss r s,
  reachable xH w /\ hop_reverse rhop [mkOp 3 2 None] 10000 w = Ok ((12103, cs, ss), w) /\
  stable_simulate_swap fp2 2 12103 w = Ok (r, w) /\ ss_ask r = 9810 /\
  hop_reverse rhop [mkOp 2 3 None] 10000 w = Ok ((12296, cs, [s]), w).
Proof.
  exists rW2, [30], [2103], (mkSimSwap 9810 29 2264 12103), 2296. split; [apply world_reach; vm_compute; reflexivity|].
  split; [vm_compute; reflexivity|]. split; [vm_compute; reflexivity|]. split; vm_compute; reflexivity.
Qed.
Print Assumptions C99_reverse_quote_direction_refuted.
