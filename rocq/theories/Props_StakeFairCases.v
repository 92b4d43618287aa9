(** Concrete cases of C244. *)
From Coq Require Import ZArith List Bool Lia Permutation.
From Coq Require Import ZifyBool.
From Verif Require Import Base FMap Decimal Curve World Token TokenProofs Frame Stake Pool Stable Rewards Vest Factory Router System
  SysSupply SysStake Script Props_Token Props_Pool Props_Vest Props_Stake Props_StakeCases Props_StakeFair.
Import ListNotations.
Open Scope Z_scope.

(** -2 stakes 601 where -3 and -4 stake 400 and 201 at the same times, in two parts each; 1003 and, ten days
    later, 777 units are distributed *)
Definition sf : list Act := ssetup ++
  [Wait 1000 1; Do [-2] (CBond 20 (-2) 500); Do [-3] (CBond 20 (-3) 300); Do [-4] (CBond 20 (-4) 200);
   Wait (1000 + 7 * day) 2; Do [-2] (CBond 20 (-2) 101); Do [-3] (CBond 20 (-3) 50); Do [-3] (CBond 20 (-3) 51);
   Wait (1000 + 30 * day) 3; Do [-1] (CDistribute 20 (-1) 1003 2);
   Wait (1000 + 40 * day) 4; Do [-1] (CDistribute 20 (-1) 777 2)].
Definition sfS : Stake := match fget 20 (w_stake (world_of sf)) with Some s => s | None => sS1 end.
Example sf_reach : reachable xH (world_of sf). Proof. apply world_reach. vm_compute. reflexivity. Qed.
Example sf_stake : stake_at (world_of sf) 20 sfS. Proof. vm_compute. reflexivity. Qed.
Example sf_parts : stakes_of sfS (-2) = [mkStakeE 500 1000; mkStakeE 101 (1000 + 7 * day)] /\
  stakes_of sfS (-3) = [mkStakeE 300 1000; mkStakeE 50 (1000 + 7 * day); mkStakeE 51 (1000 + 7 * day)] /\ stakes_of sfS (-4) = [mkStakeE 200 1000].
Proof. vm_compute. auto. Qed.
Lemma sf_at ts : at_time ts (all_stakes sfS [(-3, 318); (-4, 168)]) = at_time ts (stakes_of sfS (-2)).
Proof.
  destruct sf_parts as [P2 [P3 P4]]. unfold all_stakes. cbn [flat_map fst]. rewrite P2, P3, P4. unfold at_time. cbn [app sum_of k_ts k_amt].
  destruct (1000 =? ts), (1000 + 7 * day =? ts); reflexivity.
Qed.

Lemma sf_claims : claimable (world_of sf) 20 (-2) 2 490 /\ claimable (world_of sf) 20 (-3) 2 318 /\ claimable (world_of sf) 20 (-4) 2 168.
Proof. repeat split; (eexists; split; [vm_compute; reflexivity|simpl; auto]). Qed.
(** -2 can claim 490 for the same stakes for which -3 and -4 can claim 318 and 168, and more than -4 *)
Example C244_example : claimable (world_of sf) 20 (-2) 2 490 /\
  Forall (fun a => claimable (world_of sf) 20 (fst a) 2 (snd a) /\ last_claim sfS (-2) = last_claim sfS (fst a)) [(-3, 318); (-4, 168)] /\
  NoDup (map k_ts (stakes_of sfS (-2))) /\
  (forall ts, at_time ts (all_stakes sfS [(-3, 318); (-4, 168)]) = at_time ts (stakes_of sfS (-2))) /\
  Permutation (stakes_of sfS (-2)) ([mkStakeE 500 1000] ++ [mkStakeE 101 (1000 + 7 * day)]) /\
  Forall2 (fun a b => k_amt a <= k_amt b /\ k_ts b <= k_ts a) (stakes_of sfS (-4)) [mkStakeE 500 1000].
Proof.
  destruct sf_claims as [C2 [C3 C4]]. destruct sf_parts as [P2 [P3 P4]]. split; [exact C2|]. split.
  { constructor; [split; [exact C3|vm_compute; reflexivity]|]. constructor; [split; [exact C4|vm_compute; reflexivity]|constructor]. }
  split; [rewrite P2; repeat constructor; simpl; unfold day; intuition lia|]. split; [exact sf_at|].
  split; [rewrite P2; apply Permutation_refl|]. rewrite P4. repeat constructor; simpl; lia.
Qed.
