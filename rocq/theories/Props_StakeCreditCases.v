(** Concrete cases of C254, and C255: a second distribution in the same second. *)
From Coq Require Import ZArith List Bool Lia Permutation.
From Coq Require Import ZifyBool.
From Verif Require Import Base FMap Decimal Curve World Token TokenProofs Frame Stake Pool Stable Rewards Vest Factory Router System
  SysSupply SysStake Script Props_Token Props_Pool Props_Vest Props_Stake Props_StakeCases Props_StakeFair Props_StakeTiming
  Props_StakeTimingCases Props_StakeCredit.
Import ListNotations.
Open Scope Z_scope.

(** after the distribution of [st1], -4 unbonds, -3 claims and bonds more, and 777 units are distributed ten days later *)
Definition sk2 : list Act :=
  [Do [-4] (CUnbond 20 (-4) 200 1000); Do [-3] (CWithdrawRewards 20 (-3)); Do [-3] (CBond 20 (-3) 4000);
   Wait (1000 + 40 * day) 4; Do [-1] (CDistribute 20 (-1) 777 2)].
Example C254_example : reachable xH (world_of st1) /\ stake_at (world_of st1) 20 stS /\ claimable (world_of st1) 20 (-2) 2 208 /\
  run_if (apart 20 (-2) (-2) (w_now (world_of st1))) xH (world_of st1) (map event_of sk2) (world_of (st1 ++ sk2)) /\
  claimable (world_of (st1 ++ sk2)) 20 (-2) 2 259.
Proof.
  split; [apply world_reach; vm_compute; reflexivity|]. split; [vm_compute; reflexivity|].
  split; [eexists; split; [vm_compute; reflexivity|simpl; auto]|].
  split; [|eexists; split; [vm_compute; reflexivity|simpl; auto]].
  apply (play_if_run (okb_apart 20 (-2) (-2) (w_now (world_of st1)))); [apply okb_apart_ok|vm_compute; reflexivity].
Qed.

(** C255: without the condition on the second of the distribution this fails, also when nothing more of the reward token
    itself is distributed: the total stake of a second is recorded once for all reward tokens. -2 can claim 208 of token 2;
    -4 bonds 9000 more and one unit of token 1 is distributed in the same second, and most of the 208 is gone. *)
Definition other_only (c u rt : Z) (w : World) (k : Call) : Prop :=
  match k with
  | CBond c' x _ | CUnbond c' x _ _ | CWithdrawRewards c' x => c' = c -> x <> u
  | CDistribute c' _ _ t => c' = c -> t <> rt
  | _ => True
  end.
Definition okb_other (c u rt : Z) (w : World) (k : Call) : bool :=
  match k with
  | CBond c' x _ | CUnbond c' x _ _ | CWithdrawRewards c' x => negb (c' =? c) || negb (x =? u)
  | CDistribute c' _ _ t => negb (c' =? c) || negb (t =? rt)
  | _ => true
  end.
Lemma okb_other_ok c u rt w k : okb_other c u rt w k = true -> other_only c u rt w k.
Proof. destruct k; simpl; auto; intros B E; subst; rewrite Z.eqb_refl in B; simpl in B; lia. Qed.
Definition sk3 : list Act := [Do [-4] (CBond 20 (-4) 9000); Do [-1] (CDistribute 20 (-1) 1 1)].
Theorem C255_credited_rewards_stay_in_the_same_second_refuted :
  ~ (forall H w c s u rt p l w' y, reachable H w -> stake_at w c s -> claimable w c u rt p ->
       run_if (other_only c u rt) H w l w' -> claimable w' c u rt y -> p <= y).
Proof.
  intros T.
  assert (Q : 208 <= 24); [|lia].
  apply (T xH (world_of st1) 20 stS (-2) 2 208 (map event_of sk3) (world_of (st1 ++ sk3)) 24).
  - apply world_reach. vm_compute. reflexivity.
  - vm_compute. reflexivity.
  - eexists. split; [vm_compute; reflexivity|simpl; auto].
  - apply (play_if_run (okb_other 20 (-2) 2)); [apply okb_other_ok|vm_compute; reflexivity].
  - eexists. split; [vm_compute; reflexivity|simpl; auto].
Qed.
Print Assumptions C255_credited_rewards_stay_in_the_same_second_refuted.
