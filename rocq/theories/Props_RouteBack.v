(** Routes that return to the token they started from through the same pair: C248. *)
From Coq Require Import ZArith List Bool Lia.
From Coq Require Import ZifyBool.
From Verif Require Import Base FMap Decimal DecimalProofs Curve World Token TokenProofs Frame Stake Pool PoolProofs
  Stable StableProofs Rewards Vest Factory Router System SysFrame SysInv SysPool SysStable SysSupply SysVest SysStake Script Runs
  Props_Token Props_Pool Props_Stable Props_Vest Props_Stake SysFact Props_Factory SysAllow Props_Router Props_StableHistory.
Import ListNotations.
Open Scope Z_scope.

(** the pair query does not depend on the order of the tokens *)
Lemma query_sym H w f g a b p : reachable H w -> fact_at w f g -> fact_pool_by_pair f a b w = Ok (p, w) -> fact_pool_by_pair f b a w = Ok (p, w).
Proof.
  intros R E Q. apply (pair_query_spec _ _ _ _ _ _ _ R E) in Q. apply (pair_query_spec _ _ _ _ _ _ _ R E). tauto.
Qed.
Lemma query_fact H w f a b p : reachable H w -> fact_pool_by_pair f a b w = Ok (p, w) -> exists g, fact_at w f g.
Proof.
  intros R Q. unfold fact_pool_by_pair in Q. apply mbind_ok in Q. destruct Q as [z1 [w1 [Q1 Q]]]. apply enter_ok in Q1. destruct Q1 as [_ ->].
  apply mbind_ok in Q. destruct Q as [g [w1 [Q1 Q]]]. apply get_fact_ok in Q1. destruct Q1 as [Q1 _]. exists g. exact Q1.
Qed.

(** ** C248 *)
(** a route from A to B and back runs through one pool *)
Lemma there_and_back H w e h d u o1 o2 ms amt dl mf r w' : reachable H w -> e_hash e = H -> fget h (w_hop w) = Some d ->
  hop_swap e None h u [o1; o2] ms amt dl mf w = Ok (r, w') -> o_ask o2 = o_offer o1 ->
  exists p y w1, fact_pool_by_pair (h_fact d) (o_offer o1) (o_ask o1) w = Ok (p, w) /\ u < 0 /\
    direct_swap e p u o1 amt ms dl mf w y w1 /\ direct_swap e p u o2 y ms dl mf w1 r w' /\ o_offer o2 = o_ask o1.
Proof.
  intros R Eh Hd X Ba. apply (C66_multihop_is_its_swaps _ _ _ _ _ _ _ _ _ _ _ _ _ R Hd) in X. destruct X as [_ [C [U [_ [ps L]]]]].
  pose proof (legs_pools _ _ _ _ _ _ _ Eh _ _ _ _ _ _ R L) as F.
  assert (Ch : o_ask o1 = o_offer o2) by (apply (C O); reflexivity).
  inversion L as [|a1 a2 p ps0 a4 y a6 a7 w1 a9 Q1 D1 L']; subst. inversion L' as [|b1 b2 p2 ps1 b4 y2 b6 b7 w2 b9 Q2 D2 L'']; subst.
  inversion L''; subst. inversion F as [|c1 c2 c3 c4 F1 F2]; subst. inversion F2 as [|c5 c6 c7 c8 F3 F4]; subst.
  destruct (query_fact _ _ _ _ _ _ R F1) as [g Eg]. rewrite <- Ch, Ba in F3.
  pose proof (query_sym _ _ _ _ _ _ _ R Eg F1) as F1'. rewrite F1' in F3. inversion F3; subst p2.
  exists p, y, w1. auto.
Qed.

(** Through a constant-product pool it returns at most what went in plus what one unit of the other token was
    worth (rounded up), and no more than what went in when the first commission is large enough. *)
Theorem C248_route_there_and_back H w e h d u o1 o2 ms amt dl mf r w' q p x y : reachable H w -> e_hash e = H -> fget h (w_hop w) = Some d ->
  hop_swap e None h u [o1; o2] ms amt dl mf w = Ok (r, w') -> o_ask o2 = o_offer o1 ->
  fact_pool_by_pair (h_fact d) (o_offer o1) (o_ask o1) w = Ok (q, w) -> pool_at w q p -> side p (o_offer o1) x y (o_ask o1) ->
  r <= amt + (x + amt - 1 + (y - 1)) / y /\
  exists z fee w1, direct_swap e q u o1 amt ms dl mf w z w1 /\ fee = (z + fee) * p_fee p / 10000 /\
    (amt - 1 <= (fee - 1) * x -> r <= amt).
Proof.
  intros R Eh Hd X Ba Q Hp Sd. destruct (there_and_back _ _ _ _ _ _ _ _ _ _ _ _ _ _ R Eh Hd X Ba) as [q' [z [w1 [Q' [U [D1 [D2 Ch]]]]]]].
  rewrite Q in Q'. inversion Q'; subst q'. clear Q'. pose proof (reach_good _ _ R) as G. pose proof (gd_cpool _ G _ _ Hp) as Cq.
  assert (Nu : u <> q) by (pose proof (gd_pos _ G _ _ Cq); lia). pose proof D1 as D0.
  destruct D1 as [D1|D1].
  2:{ unfold stable_swap in D1. apply mbind_ok in D1. destruct D1 as [z1 [w3 [E1 _]]]. apply enter_ok in E1. destruct E1 as [E1 _]. congruence. }
  assert (X1 : exec e (CPoolSwap q u (o_offer o1) amt (o_min o1) ms dl mf) w = Ok (tt, w1)) by (simpl; unfold drop, mbind; rewrite D1; reflexivity).
  destruct (exec_framec _ _ _ _ X1 G) as [_ [XT _]]. pose proof (ex_code _ _ XT _ _ Cq) as Cq1.
  destruct D2 as [D2|D2].
  2:{ unfold stable_swap in D2. apply mbind_ok in D2. destruct D2 as [z1 [w3 [E1 _]]]. apply enter_ok in E1. destruct E1 as [E1 _]. congruence. }
  rewrite Ch in D2.
  destruct (C20_round_trip _ _ _ _ _ _ _ _ _ _ _ _ _ _ w1 _ _ _ _ _ _ _ _ _ _ _ _ _ R Nu Nu Hp Sd D1 eq_refl D2) as [B [p1 [fee [_ [_ [F K]]]]]].
  split; [exact B|]. exists z, fee, w1. auto.
Qed.
Print Assumptions C248_route_there_and_back.

(** Through a stable pool of tokens with the same number of decimals (at most eight), it returns at most what went in
    less both commissions plus four units. *)
Theorem C248_stable_route_there_and_back H w e h d u o1 o2 ms amt dl mf r w' q p : reachable H w -> e_hash e = H -> fget h (w_hop w) = Some d ->
  hop_swap e None h u [o1; o2] ms amt dl mf w = Ok (r, w') -> o_ask o2 = o_offer o1 ->
  fact_pool_by_pair (h_fact d) (o_offer o1) (o_ask o1) w = Ok (q, w) -> stable_at w q p -> l_preca p = l_precb p -> l_preca p <= 8 ->
  exists z f1 f2 w1, direct_swap e q u o1 amt ms dl mf w z w1 /\ f1 = (z + f1) * l_fee p / 10000 /\ f2 = (r + f2) * l_fee p / 10000 /\
    r <= amt - f1 - f2 + 4.
Proof.
  intros R Eh Hd X Ba Q Hp Pq P8. destruct (there_and_back _ _ _ _ _ _ _ _ _ _ _ _ _ _ R Eh Hd X Ba) as [q' [z [w1 [Q' [U [D1 [D2 Ch]]]]]]].
  rewrite Q in Q'. inversion Q'; subst q'. clear Q'. pose proof (reach_good _ _ R) as G. pose proof (gd_cstable _ G _ _ Hp) as Cq.
  pose proof D1 as D0. destruct D1 as [D1|D1].
  { unfold pool_swap in D1. apply mbind_ok in D1. destruct D1 as [z1 [w3 [E1 _]]]. apply enter_ok in E1. destruct E1 as [E1 _]. congruence. }
  assert (X1 : exec e (CStableSwap q u (o_offer o1) amt (o_min o1) ms dl mf) w = Ok (tt, w1)) by (simpl; unfold drop, mbind; rewrite D1; reflexivity).
  destruct (exec_framec _ _ _ _ X1 G) as [_ [XT _]]. pose proof (ex_code _ _ XT _ _ Cq) as Cq1.
  destruct D2 as [D2|D2].
  { unfold pool_swap in D2. apply mbind_ok in D2. destruct D2 as [z1 [w3 [E1 _]]]. apply enter_ok in E1. destruct E1 as [E1 _]. congruence. }
  destruct (C160_stable_round_trip _ _ _ _ _ _ _ _ _ _ _ _ _ _ _ _ _ _ _ _ _ _ R Hp Pq P8 Eh D1 D2) as [f1 [f2 [F1 [F2 B]]]].
  exists z, f1, f2, w1. auto.
Qed.
Print Assumptions C248_stable_route_there_and_back.

(** ** Concrete cases are in Props_RouteBackCases. *)
