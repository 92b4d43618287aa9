(** Concrete cases for Props_StableHistory (C160). *)
From Coq Require Import ZArith List Bool Lia.
From Verif Require Import Base FMap Decimal Curve World Token TokenProofs Frame Stake Pool Stable Rewards Vest Factory Router System SysSupply
  Script Props_Token Props_Pool Props_PoolCases Props_Stable Props_StableCases Props_Stake Props_StakeCases Props_Guards Props_StableHistory.
Import ListNotations.
Open Scope Z_scope.

(** a swap, a deposit, a swap back and a withdrawal *)
Definition kacts : list Act :=
  [ Do [-4] (CStableSwap 20 (-4) 1 1000000 None None None None);
    Do [-4] (CStableProvide 20 (-4) 500000 500000 None None None);
    Wait 5000 7;
    Do [-4] (CStableSwap 20 (-4) 2 900000 None None None None);
    Do [-2] (CStableWithdraw 20 (-2) 7000000 1 1 None) ].
Definition kW : World := match play kacts yW with Some w => w | None => w_empty end.
Definition kP : Stable := yP 13998241 7066449 6942500.
Definition even_b (p : Stable) : bool :=
  (scaled (l_ra p + l_rb p) (l_preca p) + 1) ^ 3 <=?
    (l_namp p / 100 * (2 * 10 ^ 18) - 1) * (4 * scaled (l_ra p) (l_preca p) * scaled (l_rb p) (l_preca p)).
Definition s_okb (c m : Z) (w : World) (_ : Call) : bool :=
  match fget c (w_stable w) with Some q => (m <=? l_total q) && even_b q | None => false end.
Lemma s_okb_ok c m w k : s_okb c m w k = true -> s_ok c m w k.
Proof.
  unfold s_okb, s_ok, stable_at, even_b, even_enough. intros B q E. rewrite E in B. rewrite andb_true_iff, !Z.leb_le in B. tauto.
Qed.
Example C160_example : reachable xH yW /\ stable_at yW 20 (yP 19999000 (10^7) (10^7)) /\
  run_if (s_ok 20 (10^6)) xH yW (map event_of kacts) kW /\ stable_at kW 20 kP /\ 10^6 <= l_total kP /\
  s_count (s_swaps 20) (map event_of kacts) = 2 /\ s_count (s_deposits 20) (map event_of kacts) = 1.
Proof.
  split; [apply yW_reach|]. split; [apply yW_pool|]. split.
  { apply (play_if_run (s_okb 20 (10^6))); [exact (s_okb_ok 20 (10^6))|]. vm_compute. reflexivity. }
  vm_compute. repeat split; discriminate.
Qed.
(** one million forth and what it bought back: 979909 return, the reserves hold 14186 more, 5905 are fees *)
Definition kacts2 : list Act :=
  [ Do [-4] (CStableSwap 20 (-4) 1 1000000 None None None None); Wait 5000 7; Do [-4] (CStableSwap 20 (-4) 2 982858 None None None None) ].
Definition kW2 : World := match play kacts2 yW with Some w => w | None => w_empty end.
Example C160_trading_example : run_if (fun _ k => ~ s_moves 20 k) xH yW (map event_of kacts2) kW2 /\
  stable_at kW2 20 (yP 19999000 10017143 9997043).
Proof.
  split; [apply run_if_all; [repeat constructor; simpl; auto|apply play_run; vm_compute; reflexivity]|].
  vm_compute. reflexivity.
Qed.
Example C160_round_trip_example :
  let w1 := after (stable_swap (env_of [-4]) None 20 (-4) 1 1000000 None None None None yW) in
  let w2 := after (stable_swap (env_of [-4]) None 20 (-4) 2 982858 None None None None w1) in
  stable_swap (env_of [-4]) None 20 (-4) 1 1000000 None None None None yW = Ok (982858, w1) /\
  stable_swap (env_of [-4]) None 20 (-4) 2 982858 None None None None w1 = Ok (979909, w2).
Proof. vm_compute. repeat split. Qed.
