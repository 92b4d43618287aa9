(** Concrete cases for Props_Live, Props_LiveTok and Props_LiveStable, and the refuted liveness claims (C122, C123, C129). *)
From Coq Require Import ZArith List Bool Lia.
From Coq Require Import ZifyBool.
From Verif Require Import Base FMap Decimal DecimalProofs Curve World Token TokenProofs Frame Stake Pool PoolProofs
  Stable StableProofs Rewards Vest Factory Router System SysFrame SysInv SysPool SysStable SysSupply
  SysVest SysStake SysRewards Script Runs Props_Token Props_Pool Props_Stable Props_Vest Props_Stake
  Props_PoolCases Props_StableCases Props_StakeCases Props_Live Props_LiveTok Props_LiveStable.
Import ListNotations.
Open Scope Z_scope.

(** ** C120: both sides of the equivalence hold for an ordinary withdrawal *)
Example C120_example : let ratio := 10000 * 10^18 / p_total xP in
  signs (env_of [-2]) (-2) = true /\ w_now xW <= 5 /\ 0 < 10000 <= bal xW (p_share xP) (-2) /\
  p_ra xP * ratio / 10^18 = 7071 /\ p_rb xP * ratio / 10^18 = 14142 /\
  exists w', pool_withdraw (env_of [-2]) None 10 (-2) 10000 7071 14142 (Some 5) xW = Ok ((7071, 14142), w').
Proof. vm_compute. repeat split; try discriminate. eexists. reflexivity. Qed.
(** one unit more is refused *)
Example C120_example_fails :
  forall r w', pool_withdraw (env_of [-2]) None 10 (-2) 10000 7072 14142 (Some 5) xW <> Ok (r, w').
Proof. intros r w'. vm_compute. discriminate. Qed.

(** ** C121 *)
Example C121_example : side xP 1 1000000 2000000 2 /\
  exists w', pool_swap (env_of [-4]) None 10 (-4) 1 1000 (Some 1994) (Some 10) (Some 9) (Some 30) xW = Ok (1994, w').
Proof. split; [left; repeat split|]. eexists. vm_compute. reflexivity. Qed.
Example C121_example_fails :
  forall r w', pool_swap (env_of [-4]) None 10 (-4) 1 1000 (Some 1994) (Some 5) (Some 9) (Some 30) xW <> Ok (r, w').
Proof. intros r w'. vm_compute. discriminate. Qed.

(** ** C122: a holder of 999 of 4000 shares, worth 999000 of token A, can redeem none of them *)
Definition dustW : World := world_of (xsetup 30 1000 ++ xfund 4000000 4 ++ [Do [-2] (CTransfer xshare (-2) (-5) 999)]).
Definition dustP : Pool := mkPool 1 2 xshare (xH 10 SEmpty) 30 (-3) 500 1000 500 100 (-1) 4000 4000000 4.
Theorem C122_small_holder_stuck_refuted : reachable xH dustW /\ pool_at dustW 10 dustP /\
  bal dustW xshare (-5) = 999 /\ p_total dustP = 4000 /\ p_ra dustP = 4000000 /\
  forall e s m1 m2 dl r w', pool_withdraw e None 10 (-5) s m1 m2 dl dustW <> Ok (r, w').
Proof.
  assert (R : reachable xH dustW) by (apply world_reach; vm_compute; reflexivity).
  assert (Hp : pool_at dustW 10 dustP) by (vm_compute; reflexivity).
  assert (B : bal dustW xshare (-5) = 999) by (vm_compute; reflexivity).
  split; [exact R|]. split; [exact Hp|]. split; [exact B|]. split; [reflexivity|]. split; [reflexivity|].
  intros e s m1 m2 dl r w' X.
  pose proof (proj1 (C120_withdrawal_succeeds_iff xH dustW e 10 dustP (-5) s m1 m2 dl R Hp)) as I.
  destruct (I ltac:(eauto)) as [_ [_ [L [_ [Lb _]]]]]. change (p_share dustP) with xshare in L. rewrite B in L.
  change (p_rb dustP) with 4 in Lb. change (p_total dustP) with 4000 in Lb.
  change (10^18) with 1000000000000000000 in Lb. clear - L Lb.
  assert (s * 1000000000000000000 / 4000 <= 999 * 250000000000000) by (apply Z.div_le_upper_bound; lia).
  assert (4 * (s * 1000000000000000000 / 4000) / 1000000000000000000 < 1) by (apply Z.div_lt_upper_bound; lia).
  lia.
Qed.
Print Assumptions C122_small_holder_stuck_refuted.

(** a pool of a token with 18 decimals and one with 6: a million of each (the 18-decimals token is 1) *)
Definition bsetup : list Act :=
  [ Do [] (CDeployTok 1 (-1) 18); Do [] (CDeployTok 2 (-1) 6);
    Do [-1] (CMint 1 (-2) (10^24)); Do [-1] (CMint 2 (-2) (10^12));
    Do [-1] (CMint 2 (-4) (10^12));
    Do [] (CDeploy 10 KPool); Do [] (CPoolInit 10 (xinit 30 1000) (-9) 7 100 1000) ].
Definition bigW : World := world_of (bsetup ++ xfund (10^24) (10^12)).
Definition bigP : Pool := mkPool 1 2 xshare (xH 10 SEmpty) 30 (-3) 500 1000 500 100 (-1) (10^18) (10^24) (10^12).
Example bigW_reach : reachable xH bigW. Proof. apply world_reach. vm_compute. reflexivity. Qed.
Example bigW_pool : pool_at bigW 10 bigP. Proof. vm_compute. reflexivity. Qed.

(** the provider cannot take out more than 0.018% of the pool in one withdrawal *)
Theorem C122_large_holder_stuck_refuted : bal bigW xshare (-2) = 10^18 - 1000 /\
  forall e s m1 m2 dl r w', 18 * 10^13 <= s -> pool_withdraw e None 10 (-2) s m1 m2 dl bigW <> Ok (r, w').
Proof.
  split; [vm_compute; reflexivity|]. intros e s m1 m2 dl r w' L X.
  pose proof (proj1 (C120_withdrawal_succeeds_iff xH bigW e 10 bigP (-2) s m1 m2 dl bigW_reach bigW_pool)) as I.
  destruct (I ltac:(eauto)) as [_ [_ [_ [_ [_ [_ [Lb _]]]]]]].
  change (p_ra bigP) with (10^24) in Lb. change (p_total bigP) with (10^18) in Lb. clear - L Lb.
  rewrite Z.div_mul in Lb by lia. unfold I128_MAX in Lb. lia.
Qed.
Print Assumptions C122_large_holder_stuck_refuted.

(** ** C123: 2% of the reserve, spread 2%, limit 10%: refused whatever the caller passes *)
Theorem C123_swap_within_limit_refuted : side bigP 2 (10^12) (10^24) 1 /\
  let amt := 2 * 10^10 in
  let gross := 10^24 - 10^12 * 10^24 / (10^12 + amt) in
  amt <= bal bigW 2 (-4) /\ p_maxspread bigP = 1000 /\
  0 < (amt * 10^24 / 10^12 - gross) * 10000 <= 201 * gross /\
  forall e mi ms dl mf r w', pool_swap e None 10 (-4) 2 amt mi ms dl mf bigW <> Ok (r, w').
Proof.
  assert (Sd : side bigP 2 (10^12) (10^24) 1) by (right; repeat split; discriminate).
  split; [exact Sd|]. cbv zeta. split; [vm_compute; discriminate|]. split; [reflexivity|].
  split; [vm_compute; split; [reflexivity|discriminate]|].
  intros e mi ms dl mf r w' X.
  pose proof (proj1 (C121_swap_succeeds_iff xH bigW e 10 bigP (-4) 2 (2 * 10^10) mi ms dl mf (10^12) (10^24) 1 bigW_reach bigW_pool Sd)) as I.
  destruct (I ltac:(eauto)) as [_ [_ [_ [_ [_ [_ [_ [_ [_ [L _]]]]]]]]]].
  vm_compute in L. apply L. reflexivity.
Qed.
Print Assumptions C123_swap_within_limit_refuted.

(** ** C124 *)
Example C124_example :
  (exists w', pool_provide (env_of [-4]) None 10 (-4) (Some 1000) (Some 990) (Some 1990) None (Some 60) (Some 9) xW = Ok (tt, w') /\
     bal w' 1 (-4) = 10^15 - 995 /\ bal w' 2 (-4) = 10^15 - 1990).
Proof. eexists. split; [vm_compute; reflexivity|]. vm_compute. auto. Qed.
(** 2000 of B call for 1000 of A: offering 990 misses the ratio by 1.01%, over the default tolerance of 1% *)
Example C124_example_fails :
  forall r w', pool_provide (env_of [-4]) None 10 (-4) (Some 990) None (Some 2000) None None None xW <> Ok (r, w').
Proof. intros r w'. vm_compute. discriminate. Qed.
Definition zW : World := world_of (xsetup 30 1000).
Definition zP : Pool := mkPool 1 2 xshare (xH 10 SEmpty) 30 (-3) 500 1000 500 100 (-1) 0 0 0.
Example C124_first_example : reachable xH zW /\ pool_at zW 10 zP /\
  (exists w', pool_provide (env_of [-4]) None 10 (-4) (Some 1001) None (Some 1001) None None None zW = Ok (tt, w') /\ bal w' xshare (-4) = 1) /\
  (forall r w', pool_provide (env_of [-4]) None 10 (-4) (Some 1001) None (Some 1000) None None None zW <> Ok (r, w')).
Proof.
  split; [apply world_reach; vm_compute; reflexivity|]. split; [vm_compute; reflexivity|]. split.
  - eexists. split; vm_compute; reflexivity.
  - intros r w'. vm_compute. discriminate.
Qed.

(** ** C129: two tokens with 18 decimals, ten of each in the pool: nobody can add eight of each, whatever they hold *)
Definition wsetup : list Act :=
  [ Do [] (CDeployTok 1 (-1) 18); Do [] (CDeployTok 2 (-1) 18);
    Do [-1] (CMint 1 (-2) (10^19)); Do [-1] (CMint 2 (-2) (10^19));
    Do [-1] (CMint 1 (-4) (10^20)); Do [-1] (CMint 2 (-4) (10^20));
    Do [] (CDeploy 10 KPool); Do [] (CPoolInit 10 (xinit 30 1000) (-9) 7 100 1000) ].
Definition tenW : World := world_of (wsetup ++ xfund (10^19) (10^19)).
Definition tenP : Pool := mkPool 1 2 xshare (xH 10 SEmpty) 30 (-3) 500 1000 500 100 (-1) (10^19) (10^19) (10^19).
Theorem C129_deposit_capacity_refuted : reachable xH tenW /\ pool_at tenW 10 tenP /\
  bal tenW 1 (-4) = 10^20 /\ bal tenW 2 (-4) = 10^20 /\
  forall e u a mina b minb custom dl r w', 8 * 10^18 <= a -> 8 * 10^18 <= b ->
    pool_provide e None 10 u (Some a) mina (Some b) minb custom dl tenW <> Ok (r, w').
Proof.
  assert (R : reachable xH tenW) by (apply world_reach; vm_compute; reflexivity).
  assert (Hp : pool_at tenW 10 tenP) by (vm_compute; reflexivity).
  assert (B1 : bal tenW 1 10 = 10^19) by (vm_compute; reflexivity).
  split; [exact R|]. split; [exact Hp|]. split; [vm_compute; reflexivity|]. split; [vm_compute; reflexivity|].
  intros e u a mina b minb custom dl [] w' La Lb X.
  assert (Nt : p_total tenP <> 0) by discriminate.
  pose proof (proj1 (C124_deposit_succeeds_iff xH tenW e 10 tenP u a mina b minb custom dl R Hp Nt)) as I. cbv zeta in I.
  destruct (I ltac:(eauto)) as [_ [_ [_ [_ [_ [_ [_ [_ [_ [_ [_ [_ [_ [_ [_ [_ [_ [F _]]]]]]]]]]]]]]]]]].
  change (p_ta tenP) with 1 in F. rewrite B1 in F. change (p_ra tenP) with (10^19) in F. change (p_rb tenP) with (10^19) in F.
  change (p_total tenP) with (10^19) in F. rewrite Z.div_mul in F by lia. clear - F La Lb. unfold I128_MAX in F. lia.
Qed.
Print Assumptions C129_deposit_capacity_refuted.

(** ** C125 *)
Example C125_example : let w := world_of (xsetup 30 1000 ++ [Do [-2] (CApprove 1 (-2) (-4) 700 50)]) in
  live_allowance w 1 (-2) (-4) = 700 /\
  (exists w', tok_transfer (env_of [-2]) None 1 (-2) (-4) (10^15) w = Ok (tt, w')) /\
  (forall r w', tok_transfer (env_of [-2]) None 1 (-2) (-4) (10^15 + 1) w <> Ok (r, w')) /\
  (exists w', tok_transfer_from (env_of [-4]) None 1 (-4) (-2) (-5) 700 w = Ok (tt, w')) /\
  (forall r w', tok_transfer_from (env_of [-4]) None 1 (-4) (-2) (-5) 701 w <> Ok (r, w')) /\
  (exists w', tok_mint (env_of [-1]) None 1 (-2) (I128_MAX - 10^15) w = Ok (tt, w')) /\
  (forall r w', tok_mint (env_of [-1]) None 1 (-2) (I128_MAX - 10^15 + 1) w <> Ok (r, w')).
Proof.
  cbv zeta. split; [vm_compute; reflexivity|].
  split; [eexists; vm_compute; reflexivity|]. split; [intros r w'; vm_compute; discriminate|].
  split; [eexists; vm_compute; reflexivity|]. split; [intros r w'; vm_compute; discriminate|].
  split; [eexists; vm_compute; reflexivity|]. intros r w'; vm_compute; discriminate.
Qed.

(** ** C126 *)
Example C126_example :
  (exists w', stake_bond (env_of [-4]) None 20 (-4) 10 (world_of s1) = Ok (tt, w')) /\
  (forall r w', stake_bond (env_of [-4]) None 20 (-4) 9 (world_of s1) <> Ok (r, w')) /\
  (exists w', stake_unbond (env_of [-2]) None 20 (-2) 600 1000 (world_of s1) = Ok (tt, w')) /\
  (forall r w', stake_unbond (env_of [-2]) None 20 (-2) 599 1000 (world_of s1) <> Ok (r, w')) /\
  (exists w', stake_distribute (env_of [-1]) None 20 (-1) 500 2 (world_of s1) = Ok (tt, w')) /\
  (forall r w', stake_distribute (env_of [-2]) None 20 (-2) 500 2 (world_of s1) <> Ok (r, w')).
Proof.
  split; [eexists; vm_compute; reflexivity|]. split; [intros r w'; vm_compute; discriminate|].
  split; [eexists; vm_compute; reflexivity|]. split; [intros r w'; vm_compute; discriminate|].
  split; [eexists; vm_compute; reflexivity|]. intros r w'; vm_compute; discriminate.
Qed.

(** ** C127, C128 *)
Example C127_example :
  (exists w', stable_withdraw (env_of [-2]) None 20 (-2) 1999900 1000000 1000000 (Some 9) yW = Ok ((1000000, 1000000), w')) /\
  (forall r w', stable_withdraw (env_of [-2]) None 20 (-2) 1999900 1000000 1000001 (Some 9) yW <> Ok (r, w')).
Proof. split; [eexists; vm_compute; reflexivity|]. intros r w'; vm_compute; discriminate. Qed.
Example C128_example : lside (yP 19999000 (10^7) (10^7)) 1 (10^7) (10^7) 2 /\
  stable_simulate_swap 20 1 1000000 yW = Ok (mkSimSwap 982858 2957 14185 1000000, yW) /\
  (exists w', stable_swap (env_of [-4]) None 20 (-4) 1 1000000 (Some 982858) (Some 144) (Some 9) (Some 30) yW = Ok (982858, w')) /\
  (forall r w', stable_swap (env_of [-4]) None 20 (-4) 1 1000000 (Some 982858) (Some 143) (Some 9) (Some 30) yW <> Ok (r, w')).
Proof.
  split; [left; repeat split|]. split; [vm_compute; reflexivity|].
  split; [eexists; vm_compute; reflexivity|]. intros r w'; vm_compute; discriminate.
Qed.
