(** Concrete cases of C245, and C246: a claim in the second of a distribution. *)
From Coq Require Import ZArith List Bool Lia Permutation.
From Coq Require Import ZifyBool.
From Verif Require Import Base FMap Decimal Curve World Token TokenProofs Frame Stake Pool Stable Rewards Vest Factory Router System
  SysSupply SysStake Script Props_Token Props_Pool Props_Vest Props_Stake Props_StakeCases Props_StakeFair Props_StakeTiming.
Import ListNotations.
Open Scope Z_scope.

(** -2 and -3 stake alike, -4 differently; 1003 units are distributed after thirty days *)
Definition st1 : list Act := ssetup ++
  [Wait 1000 1; Do [-2] (CBond 20 (-2) 500); Do [-3] (CBond 20 (-3) 500); Do [-4] (CBond 20 (-4) 200);
   Wait (1000 + 30 * day) 2; Do [-1] (CDistribute 20 (-1) 1003 2)].
(** -2 claims; -4 unbonds, and after forty days 777 units are distributed *)
Definition st2 : list Act := [Do [-4] (CUnbond 20 (-4) 200 1000); Wait (1000 + 40 * day) 4; Do [-1] (CDistribute 20 (-1) 777 2); Do [-4] (CWithdrawRewards 20 (-4))].
Definition stc : list Act := st1 ++ [Do [] (CWithdrawRewards 20 (-2))].
Definition stS : Stake := match fget 20 (w_stake (world_of st1)) with Some s => s | None => sS1 end.
Definition okb_apart (c u v t : Z) (w : World) (k : Call) : bool :=
  match k with
  | CBond c' x _ | CUnbond c' x _ _ | CWithdrawRewards c' x => negb (c' =? c) || (negb (x =? u) && negb (x =? v))
  | CDistribute c' _ _ _ => negb (c' =? c) || negb (w_now w =? t)
  | _ => true
  end.
Lemma okb_apart_ok c u v t w k : okb_apart c u v t w k = true -> apart c u v t w k.
Proof. destruct k; simpl; auto; intros B E; subst; rewrite Z.eqb_refl in B; simpl in B; lia. Qed.

Example C245_example : reachable xH (world_of st1) /\ stake_at (world_of st1) 20 stS /\
  stakes_of stS (-3) = stakes_of stS (-2) /\ last_claim stS (-3) = last_claim stS (-2) /\
  claimable (world_of st1) 20 (-2) 2 208 /\ exec (env_of []) (CWithdrawRewards 20 (-2)) (world_of st1) = Ok (tt, world_of stc) /\
  run_if (apart 20 (-2) (-3) (w_now (world_of st1))) xH (world_of stc) (map event_of st2) (world_of (stc ++ st2)) /\
  claimable (world_of (stc ++ st2)) 20 (-2) 2 258 /\ claimable (world_of (stc ++ st2)) 20 (-3) 2 466.
Proof.
  split; [apply world_reach; vm_compute; reflexivity|]. split; [vm_compute; reflexivity|]. split; [vm_compute; reflexivity|].
  split; [vm_compute; reflexivity|]. split; [eexists; split; [vm_compute; reflexivity|simpl; auto]|]. split; [vm_compute; reflexivity|].
  split; [|split; (eexists; split; [vm_compute; reflexivity|simpl; auto])].
  apply (play_if_run (okb_apart 20 (-2) (-3) (w_now (world_of st1)))); [apply okb_apart_ok|vm_compute; reflexivity].
Qed.

(** C246: without the condition on the second of the claim this fails: -2 asks for rewards while there are none (anybody
    may ask for them), 1003 units are distributed in the same second, and -2 never gets the part of them
    that -3 gets for the same stake. *)
Definition untouched (c u v : Z) (w : World) (k : Call) : Prop :=
  match k with CBond c' x _ | CUnbond c' x _ _ | CWithdrawRewards c' x => c' = c -> x <> u /\ x <> v | _ => True end.
Definition sq1 : list Act := ssetup ++
  [Wait 1000 1; Do [-2] (CBond 20 (-2) 500); Do [-3] (CBond 20 (-3) 500); Wait (1000 + 30 * day) 2].
Definition sqc : list Act := sq1 ++ [Do [-7] (CWithdrawRewards 20 (-2))].
Definition sq2 : list Act := [Do [-1] (CDistribute 20 (-1) 1003 2)].
Definition sqS : Stake := match fget 20 (w_stake (world_of sq1)) with Some s => s | None => sS1 end.
Definition okb_un (c u v : Z) (w : World) (k : Call) : bool :=
  match k with
  | CBond c' x _ | CUnbond c' x _ _ | CWithdrawRewards c' x => negb (c' =? c) || (negb (x =? u) && negb (x =? v))
  | _ => true
  end.
Lemma okb_un_ok c u v w k : okb_un c u v w k = true -> untouched c u v w k.
Proof. destruct k; simpl; auto; intros B E; subst; rewrite Z.eqb_refl in B; simpl in B; lia. Qed.
Theorem C246_claim_in_the_second_of_a_distribution_refuted :
  ~ (forall H w e c s u v rt p w1 l w2 y z, reachable H w -> stake_at w c s -> u <> v ->
       stakes_of s v = stakes_of s u -> last_claim s v = last_claim s u ->
       claimable w c u rt p -> exec e (CWithdrawRewards c u) w = Ok (tt, w1) -> e_hash e = H ->
       run_if (untouched c u v) H w1 l w2 -> claimable w2 c u rt y -> claimable w2 c v rt z -> z <= p + y).
Proof.
  intros A.
  assert (Q : 250 <= 0 + 0).
  { apply (A xH (world_of sq1) (env_of [-7]) 20 sqS (-2) (-3) 2 0 (world_of sqc) (map event_of sq2) (world_of (sqc ++ sq2)) 0 250).
    - apply world_reach. vm_compute. reflexivity.
    - vm_compute. reflexivity.
    - lia.
    - vm_compute. reflexivity.
    - vm_compute. reflexivity.
    - eexists; split; [vm_compute; reflexivity|simpl; auto].
    - vm_compute. reflexivity.
    - reflexivity.
    - apply (play_if_run (okb_un 20 (-2) (-3))); [apply okb_un_ok|vm_compute; reflexivity].
    - eexists; split; [vm_compute; reflexivity|simpl; auto].
    - eexists; split; [vm_compute; reflexivity|simpl; auto]. }
  lia.
Qed.
Print Assumptions C246_claim_in_the_second_of_a_distribution_refuted.
