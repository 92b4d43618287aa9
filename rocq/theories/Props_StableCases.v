(** Stable pool: concrete cases for the theorems of Props_Stable and the refuted claims
    (C32, C34, C76, C78, C79, C83, C84). *)
From Coq Require Import ZArith List Bool Lia.
From Coq Require Import ZifyBool.
From Verif Require Import Base FMap Decimal DecimalProofs Curve World Token TokenProofs Frame Stake Pool PoolProofs
  Stable StableProofs NewtonProofs Rewards Vest Factory Router System SysFrame SysInv SysPool SysStable SysSupply Script
  Props_Token Props_Pool Props_PoolCases Props_Stable.
Import ListNotations.
Open Scope Z_scope.

(** two 7-decimal tokens, funded accounts -2 and -4, a stable pool at address 20 with amplification 6 *)
Definition ysetup (fee spread : Z) : list Act :=
  [ Do [] (CDeployTok 1 (-1) 7); Do [] (CDeployTok 2 (-1) 7);
    Do [-1] (CMint 1 (-2) (10^15)); Do [-1] (CMint 2 (-2) (10^15));
    Do [-1] (CMint 1 (-4) (10^15)); Do [-1] (CMint 2 (-4) (10^15));
    Do [] (CDeploy 20 KStable); Do [] (CStableInit 20 (xinit fee spread) (-9) 6 1000) ].
Definition yfund (a b : Z) : list Act := [Do [-2] (CStableProvide 20 (-2) a b None None None)].
Definition yshare : Addr := xH 20 (SPair 1 2).
Definition yP (total a b : Z) : Stable :=
  mkStable 1 2 yshare (xH 20 SEmpty) 30 (-3) 500 100 1000 (-1) 600 0 600 0 7 7 7 total a b.
(** one token on each side *)
Definition yW : World := world_of (ysetup 30 1000 ++ yfund (10^7) (10^7)).
Example yW_reach : reachable xH yW.
Proof. apply world_reach; vm_compute; reflexivity. Qed.
Example yW_pool : stable_at yW 20 (yP 19999000 (10^7) (10^7)). Proof. vm_compute. reflexivity. Qed.

Example C27_example : bal yW 1 20 = 10^7 /\ bal yW 2 20 = 10^7. Proof. vm_compute. auto. Qed.
Example C28_example : holders yW yshare [-2] /\ total_of yW yshare [-2] = 19999000 /\
  run_if (no_direct_burn yshare) xH w_empty (map event_of (ysetup 30 1000 ++ yfund (10^7) (10^7))) yW.
Proof.
  split; [apply holders_check; vm_compute; reflexivity|]. split; [vm_compute; reflexivity|].
  apply run_if_all; [|apply play_run; vm_compute; reflexivity]. repeat constructor.
Qed.
Example C29_C77_example : exists w',
  stable_provide (env_of [-4]) None 20 (-4) 1000000 1 None (Some 7) (Some 999000) yW = Ok (tt, w') /\
  stable_at w' 20 (yP 20998950 11000000 10000001) /\ bal w' yshare (-4) = 999950.
Proof. eexists. vm_compute. repeat split. Qed.
Example C30_C74_C75_C76_example : exists w',
  stable_swap (env_of [-4]) None 20 (-4) 1 1000000 (Some 980000) (Some 500) (Some 9) (Some 30) yW = Ok (982858, w') /\
  stable_at w' 20 (yP 19999000 11000000 9014185) /\ bal w' 2 (-3) = 2957 /\ bal w' 2 (-4) = 10^15 + 982858.
Proof. eexists. vm_compute. repeat split. Qed.
(** the last premise of C75 holds in this pool *)
Example C75_premise : let s := scaled (10^7 + 10^7) 7 in let q := 4 * scaled (10^7) 7 * scaled (10^7) 7 in
  (s + 1) ^ 3 <= (600 / 100 * (2 * 10 ^ 18) - 1) * q.
Proof. vm_compute. discriminate. Qed.
Example C31_example : stable_simulate_swap 20 1 1000000 yW = Ok (mkSimSwap 982858 2957 14185 1000000, yW).
Proof. vm_compute. reflexivity. Qed.
Example C33_C82_example : compute_d 600 (2 * 10^18) (10^18) = Ok (3 * 10^18 - 1) /\
  calc_y 600 (11 * 10^17) (10^18) (10^18) 7 = Ok 9014185.
Proof. vm_compute. auto. Qed.
Example C80_C81_example : exists w',
  stable_withdraw (env_of [-2]) None 20 (-2) 1000000 499000 499000 None yW = Ok ((500025, 500025), w') /\
  stable_query_share 20 1000000 yW = Ok ((500025, 500025), yW).
Proof. eexists. vm_compute. auto. Qed.

(** C32: update_config compares its sender argument with the admin but asks for no authorisation: a
    transaction signed by account -7 alone makes -7 the admin and fee recipient of a pool owned by -1. *)
Theorem C32_only_admin_changes_settings_refuted : exists w w' p p',
  reachable xH w /\ stable_at w 20 p /\ l_admin p = -1 /\
  exec (env_of [-7]) (CStableConfig 20 (-1) (Some (-7)) (Some 10000) (Some (-7)) None None) w = Ok (tt, w') /\
  stable_at w' 20 p' /\ l_admin p' = -7 /\ l_fee p' = 10000 /\ l_feerec p' = -7 /\ ~ signs (env_of [-7]) (-1) = true.
Proof.
  exists yW, (after (exec (env_of [-7]) (CStableConfig 20 (-1) (Some (-7)) (Some 10000) (Some (-7)) None None) yW)),
    (yP 19999000 (10^7) (10^7)),
    (mkStable 1 2 yshare (xH 20 SEmpty) 10000 (-7) 500 100 1000 (-7) 600 0 600 0 7 7 7 19999000 (10^7) (10^7)).
  split; [apply yW_reach|]. split; [apply yW_pool|]. vm_compute. repeat split. discriminate.
Qed.
Print Assumptions C32_only_admin_changes_settings_refuted.

(** C34: the minimum liquidity is subtracted from the first depositor's shares but minted to nobody, so a
    funded pool can be emptied of shares again. *)
Theorem C34_minimum_liquidity_locked_refuted : exists w w1 p p1 a b,
  reachable xH w /\ stable_at w 20 p /\ 0 < l_total p /\ bal w (l_share p) 20 = 0 /\
  stable_withdraw (env_of [-2]) None 20 (-2) (l_total p) 1 1 None w = Ok ((a, b), w1) /\
  stable_at w1 20 p1 /\ l_total p1 = 0 /\ l_ra p1 = 0 /\ l_rb p1 = 0.
Proof.
  exists yW, (after (stable_withdraw (env_of [-2]) None 20 (-2) 19999000 1 1 None yW)),
    (yP 19999000 (10^7) (10^7)), (yP 0 0 0), (10^7), (10^7).
  split; [apply yW_reach|]. split; [apply yW_pool|]. vm_compute. repeat split.
Qed.
Print Assumptions C34_minimum_liquidity_locked_refuted.

(** C76: in a pool of nine tokens on each side every swap fails. *)
Definition yBig : World := world_of (ysetup 30 1000 ++ yfund (9 * 10^7) (9 * 10^7)).
Theorem C76_any_funded_pool_can_be_swapped_refuted : exists w p,
  reachable xH w /\ stable_at w 20 p /\ l_ra p = 9 * 10^7 /\ l_rb p = 9 * 10^7 /\ l_preca p = 7 /\ l_precb p = 7 /\
  forall e c u offer amt mi ms dl mf ret w', c <> Some 20 ->
    stable_swap e c 20 u offer amt mi ms dl mf w = Ok (ret, w') -> False.
Proof.
  assert (R : reachable xH yBig) by (apply world_reach; vm_compute; reflexivity).
  assert (P : stable_at yBig 20 (yP 179999000 (9 * 10^7) (9 * 10^7))) by (vm_compute; reflexivity).
  exists yBig, (yP 179999000 (9 * 10^7) (9 * 10^7)).
  split; [exact R|]. split; [exact P|]. do 4 (split; [reflexivity|]).
  intros e c u offer amt mi ms dl mf ret w' N X.
  destruct (C76_swaps_need_small_pools _ _ _ _ _ _ _ _ _ _ _ _ _ _ _ R N P X) as [D [V [B _]]].
  unfold value_D in V.
  assert (E : @Ok Z D = Ok (18 * 10^18)) by (etransitivity; [symmetry; exact V|vm_compute; reflexivity]).
  assert (D = 18 * 10^18) by congruence. lia.
Qed.
Print Assumptions C76_any_funded_pool_can_be_swapped_refuted.

(** C78: after a tiny first deposit and a donation that a one-unit deposit turns into reserves, a
    deposit of two tokens on each side mints nothing. *)
Definition yInfl : World := world_of (ysetup 30 1000 ++ yfund 501 501 ++
  [ Do [-2] (CTransfer 1 (-2) 20 (5 * 10^7)); Do [-2] (CTransfer 2 (-2) 20 (5 * 10^7));
    Do [-2] (CStableProvide 20 (-2) 1 1 None None None) ]).
Theorem C78_stable_deposits_mint_shares_refuted : exists w w' p p',
  reachable xH w /\ stable_at w 20 p /\ l_total p = 2 /\
  stable_provide (env_of [-4]) None 20 (-4) (2 * 10^7) (2 * 10^7) None None None w = Ok (tt, w') /\
  stable_at w' 20 p' /\ l_total p' = 2 /\ bal w' (l_share p) (-4) = 0 /\
  bal w' 1 (-4) = bal w 1 (-4) - 2 * 10^7 /\ bal w' 2 (-4) = bal w 2 (-4) - 2 * 10^7 /\
  bal w' (l_share p) (-2) = 2.
Proof.
  exists yInfl, (after (stable_provide (env_of [-4]) None 20 (-4) (2 * 10^7) (2 * 10^7) None None None yInfl)),
    (yP 2 50000502 50000502), (yP 2 70000502 70000502).
  split; [apply world_reach; vm_compute; reflexivity|]. vm_compute. repeat split.
Qed.
Print Assumptions C78_stable_deposits_mint_shares_refuted.

(** C79: a one-sided deposit followed by a withdrawal exchanges the tokens at par without a fee, where
    swapping the same amount costs more than 0.9 per cent. *)
Theorem C79_no_free_exchange_refuted : exists w w1 w2 r,
  reachable xH w /\
  stable_provide (env_of [-4]) None 20 (-4) 1000000 1 None None None w = Ok (tt, w1) /\
  stable_withdraw (env_of [-4]) None 20 (-4) (bal w1 yshare (-4)) 1 1 None w1 = Ok ((523809, 476190), w2) /\
  bal w2 1 (-4) = bal w 1 (-4) - 476191 /\ bal w2 2 (-4) = bal w 2 (-4) + 476189 /\ bal w2 yshare (-4) = 0 /\
  stable_simulate_swap 20 1 476191 w = Ok (r, w) /\ ss_ask r = 471551.
Proof.
  exists yW, (after (stable_provide (env_of [-4]) None 20 (-4) 1000000 1 None None None yW)),
    (after (stable_withdraw (env_of [-4]) None 20 (-4) 999950 1 1 None
       (after (stable_provide (env_of [-4]) None 20 (-4) 1000000 1 None None None yW)))),
    (mkSimSwap 471551 1418 3222 476191).
  split; [apply yW_reach|]. vm_compute. repeat split.
Qed.
Print Assumptions C79_no_free_exchange_refuted.

(** C83: the reverse quote is not always sufficient. *)
Definition yTwo : World := world_of (ysetup 30 1000 ++ yfund (2 * 10^7) (10^7)).
Theorem C83_stable_reverse_quote_sufficient_refuted : exists w r s,
  reachable xH w /\ stable_simulate_reverse 20 2 16610 w = Ok (r, w) /\
  stable_simulate_swap 20 2 (sr_offer r) w = Ok (s, w) /\ ss_ask s = 16609.
Proof.
  exists yTwo, (mkSimReverse 260135 49 243525), (mkSimSwap 16609 49 243477 260135).
  split; [apply world_reach; vm_compute; reflexivity|]. vm_compute. repeat split.
Qed.
Print Assumptions C83_stable_reverse_quote_sufficient_refuted.

(** C84: with reserves of two tokens and one token, selling 250464 units of the scarcer token
    returns 5862 units: D is computed with an amplification 10^18 times too large, so it is the sum of the
    reserves and exceeds the value that calc_y (which uses the true amplification) can reproduce. *)
Theorem C84_scarce_token_near_par_refuted : exists w r,
  reachable xH w /\ stable_at w 20 (yP 29998999 (2 * 10^7) (10^7)) /\
  stable_simulate_swap 20 2 250464 w = Ok (r, w) /\ ss_ask r = 5862.
Proof.
  exists yTwo, (mkSimSwap 5862 17 244585 250464).
  split; [apply world_reach; vm_compute; reflexivity|]. vm_compute. repeat split.
Qed.
Print Assumptions C84_scarce_token_near_par_refuted.
