(** Concrete cases of C256, and C257: a bond just before a distribution. *)
From Coq Require Import ZArith List Bool Lia.
From Verif Require Import Base FMap Decimal Curve World Token TokenProofs Frame Stake Pool Stable Rewards Vest Factory Router System
  SysSupply SysStake Script Props_Token Props_Pool Props_Vest Props_Stake Props_StakeCases Props_StakeFair Props_StakeLate.
Import ListNotations.
Open Scope Z_scope.

(** -2 and -3 stake for thirty days; -4 bonds nine times as much half a day before 1003 units are distributed *)
Definition sl1 : list Act := ssetup ++
  [Wait 1000 1; Do [-2] (CBond 20 (-2) 500); Do [-3] (CBond 20 (-3) 500); Wait (1000 + 30 * day) 2].
Definition slB : list Act := [Do [-4] (CBond 20 (-4) 9000)].
Definition slD : list Act := [Do [-1] (CDistribute 20 (-1) 1003 2)].
Definition sl2 : list Act := sl1 ++ slB ++ [Wait (1000 + 30 * day + 43200) 3] ++ slD.
Definition slS : Stake := match fget 20 (w_stake (world_of sl2)) with Some s => s | None => sS1 end.
Example C256_example : reachable xH (world_of sl2) /\ stake_at (world_of sl2) 20 slS /\ claimable (world_of sl2) 20 (-4) 2 0 /\
  (forall k, In k (stakes_of slS (-4)) -> w_now (world_of sl2) - k_ts k < 86400) /\ map k_amt (stakes_of slS (-4)) = [9000] /\
  claimable (world_of sl2) 20 (-2) 2 25.
Proof.
  split; [apply world_reach; vm_compute; reflexivity|]. split; [vm_compute; reflexivity|].
  split; [eexists; split; [vm_compute; reflexivity|simpl; auto]|]. split; [|split; [vm_compute; reflexivity|]].
  - assert (F : forallb (fun k => w_now (world_of sl2) - k_ts k <? 86400) (stakes_of slS (-4)) = true) by (vm_compute; reflexivity).
    rewrite forallb_forall in F. intros k I. apply Z.ltb_lt, F, I.
  - eexists; split; [vm_compute; reflexivity|simpl; auto].
Qed.

(** C257: such a bond takes from the others all the same, since it counts in the total the distribution is divided by:
    -2 can claim 250 of the 1003 units, or 25 if -4 has bonded 9000 in the same second, though -4 can claim nothing. *)
Theorem C257_who_earns_nothing_takes_nothing_refuted :
  ~ (forall H w eb ed c u v n m amt rt w1 w2 w3 x y, reachable H w -> u <> v ->
       exec ed (CDistribute c m amt rt) w = Ok (tt, w1) -> claimable w1 c u rt x ->
       exec eb (CBond c v n) w = Ok (tt, w2) -> exec ed (CDistribute c m amt rt) w2 = Ok (tt, w3) ->
       claimable w3 c v rt 0 -> claimable w3 c u rt y -> x <= y).
Proof.
  intros T.
  assert (Q : 250 <= 25); [|lia].
  apply (T xH (world_of sl1) (env_of [-4]) (env_of [-1]) 20 (-2) (-4) 9000 (-1) 1003 2
    (world_of (sl1 ++ slD)) (world_of (sl1 ++ slB)) (world_of (sl1 ++ slB ++ slD)) 250 25).
  - apply world_reach. vm_compute. reflexivity.
  - discriminate.
  - vm_compute. reflexivity.
  - eexists. split; [vm_compute; reflexivity|simpl; auto].
  - vm_compute. reflexivity.
  - vm_compute. reflexivity.
  - eexists. split; [vm_compute; reflexivity|simpl; auto].
  - eexists. split; [vm_compute; reflexivity|simpl; auto].
Qed.
Print Assumptions C257_who_earns_nothing_takes_nothing_refuted.
