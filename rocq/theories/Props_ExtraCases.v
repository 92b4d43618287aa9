(** Concrete cases of C130-C132 and the properties that fail: C133, C134. *)
From Coq Require Import ZArith List Bool Lia.
From Coq Require Import ZifyBool.
From Verif Require Import Base FMap Decimal Curve World Token TokenProofs Stake Pool Stable Rewards Vest Factory Router System
  SysVest Script Extra Props_Token Props_Pool Props_PoolCases Props_Vest Props_VestCases Props_Extra.
Import ListNotations.
Open Scope Z_scope.

Example C130_example : reachable xH (world_of v2) /\ vest_at (world_of v2) 30 (vV 750 600 600) /\
  vest_query_all 30 (-5) (world_of v2) = Ok ([mkVInfo 750 (-5) vlin; mkVInfo 600 (-5) vpl], world_of v2).
Proof. split; [exact v2_reach|]. split; vm_compute; reflexivity. Qed.

(** a deposit of 10000 : 20150 into reserves 1000000 : 2000000 is 0.75% off, 10000 : 20250 is 1.25% off *)
Example C131_example : assert_slippage_tolerance None 10000 20150 1000000 2000000 (dec_bps 500) = Ok tt /\
  assert_slippage_tolerance None 10000 20250 1000000 2000000 (dec_bps 500) = Err (EContract 20) /\
  assert_slippage_tolerance (Some 200) 10000 20250 1000000 2000000 (dec_bps 500) = Ok tt /\
  assert_slippage_tolerance (Some 600) 10000 20000 1000000 2000000 (dec_bps 500) = Err (EContract 20).
Proof. vm_compute. auto. Qed.
Example C131_example_hyps : 20150 * 1000000 * 10 ^ 18 <= I128_MAX /\ 10000 * 2000000 * 10 ^ 18 <= I128_MAX /\ vbps 200 = true.
Proof. vm_compute. repeat split; discriminate. Qed.

(** Exactly proportional deposits are not always accepted: with 7-decimals tokens, adding 10000 of
    each to 1000000 of each overflows. *)
Theorem C134_proportional_deposits_accepted_refuted :
  ~ (forall tol d r mx, 0 < d <= I128_MAX -> 0 < r <= I128_MAX -> vbps tol = true -> dec_bps tol <= mx ->
       assert_slippage_tolerance (Some tol) d d r r mx = Ok tt).
Proof.
  intros A. specialize (A 100 (10 ^ 11) (10 ^ 13) (dec_bps 500)).
  assert (Q : assert_slippage_tolerance (Some 100) (10 ^ 11) (10 ^ 11) (10 ^ 13) (10 ^ 13) (dec_bps 500) = Err EArith)
    by (vm_compute; reflexivity).
  rewrite Q in A. discriminate A; try (vm_compute; repeat split; discriminate); reflexivity.
Qed.
Print Assumptions C134_proportional_deposits_accepted_refuted.

Example C132_example : pool_split_deposit 10 1000000 2000000 10000 1 xW = Ok ((5312, 10537), xW) /\
  pool_split_deposit 10 1000000 2000000 400 1 xW = Ok ((400, 0), xW).
Proof. vm_compute. auto. Qed.

(** The result of the split is not always near the pool's proportion.  [off_by_one_percent o a]: the
    quote [a] and what is left of the deposit miss the proportion [ra : rb] by more than 1%. *)
Definition off_by_one_percent (ra rb deposit o a : Z) : Prop :=
  100 * a * ra < 99 * rb * (deposit - o) \/ 101 * rb * (deposit - o) < 100 * a * ra.
Theorem C133_split_matches_ratio_refuted :
  ~ (forall H w self p deposit o a w', reachable H w -> pool_at w self p -> 500 < deposit ->
       pool_split_deposit self (p_ra p) (p_rb p) deposit (p_ta p) w = Ok ((o, a), w') ->
       ~ off_by_one_percent (p_ra p) (p_rb p) deposit o a).
Proof.
  (* an ordinary pool: the search ends with the last amount tried, here 12% off *)
  intros A. apply (A xH xW 10 xP 10000 5312 10537 xW).
  - exact xW_reach.
  - exact xW_pool.
  - lia.
  - vm_compute. reflexivity.
  - right. vm_compute. reflexivity.
Qed.
Print Assumptions C133_split_matches_ratio_refuted.

(** the tolerance of 0.01 is absolute: in a pool with ratio 0.0001 the first amount tried is taken,
    33% off the pool's proportion *)
Definition xW2 : World := world_of (xsetup 30 1000 ++ xfund 1000000000 100000).
Example C133_absolute_tolerance :
  pool_split_deposit 10 1000000000 100000 1000000000 1 xW2 = Ok ((500000000, 33234), xW2) /\
  off_by_one_percent 1000000000 100000 1000000000 500000000 33234.
Proof. split; [vm_compute; reflexivity|]. left. vm_compute. reflexivity. Qed.
