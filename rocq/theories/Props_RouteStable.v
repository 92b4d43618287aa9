(** Routes over stable pools: C250. *)
From Coq Require Import ZArith List Bool Lia.
From Coq Require Import ZifyBool.
From Verif Require Import Base FMap Decimal DecimalProofs Curve World Token TokenProofs Frame Stake Pool PoolProofs
  Stable StableProofs Rewards Vest Factory Router System SysFrame SysInv SysPool SysStable SysSupply SysVest SysStake Script Runs
  Props_Token Props_Pool Props_Stable Props_Vest Props_Stake SysFact Props_Factory SysAllow Props_Router Props_StableHistory.
Import ListNotations.
Open Scope Z_scope.

(** a stable pool of two tokens with equally many decimals, at most eight, and a commission of at least [f] basis points *)
Definition at_par (w : World) (f : Z) (q : Addr) : Prop :=
  exists s, stable_at w q s /\ l_preca s = l_precb s /\ l_preca s <= 8 /\ f <= l_fee s.

Lemma par_leg H w e fa q u o x ms dl mf y w1 f : reachable H w -> e_hash e = H -> 0 <= f ->
  fact_pool_by_pair fa (o_offer o) (o_ask o) w = Ok (q, w) -> direct_swap e q u o x ms dl mf w y w1 -> at_par w f q ->
  reachable H w1 /\ (forall q', at_par w f q' -> at_par w1 f q') /\
  exists fee k, 0 <= fee /\ f <= k /\ fee = (y + fee) * k / 10000 /\ y + fee <= x + 2.
Proof.
  intros R Eh F0 Q D [s [Hs [Pe [P8 Fs]]]]. destruct (leg_facts _ _ _ _ _ _ _ _ _ _ _ _ _ R Eh Q D) as [R1 F]. split; [exact R1|].
  destruct D as [D|D].
  { exfalso. unfold pool_swap in D. apply mbind_ok in D. destruct D as [z1 [v1 [D1 _]]]. apply enter_ok in D1. destruct D1 as [D1 _].
    pose proof (gd_cstable _ (reach_good _ _ R) _ _ Hs). congruence. }
  destruct (s_swap_on _ _ _ _ _ _ _ _ _ _ _ _ _ _ R Hs Pe P8 D) as [s1 [E1 [[A1 [A2 [A3 [A4 A5]]]] [_ [_ [Ef [fee [G1 [G2 [G3 _]]]]]]]]]].
  split; [|exists fee, (l_fee s); auto].
  intros q' [s' [Hs' [Pe' [P8' Fs']]]]. destruct (Z.eq_dec q' q) as [->|Nq].
  - exists s1. unfold stable_at in *. rewrite Hs in Hs'. inversion Hs'; subst s'. split; [exact E1|]. split; [congruence|]. split; [lia|]. lia.
  - exists s'. split; [unfold stable_at; rewrite (proj2 (lg_other _ _ _ _ _ _ _ _ _ F _ Nq)); exact Hs'|]. auto.
Qed.

Lemma par_legs H e fa u ms dl mf f N r w' : e_hash e = H -> 0 <= f -> forall ops ps x w, reachable H w ->
  Legs e fa u ms dl mf ops ps x w r w' -> (forall q, In q ps -> at_par w f q) -> Z.of_nat (length ops) <= N ->
  r + Z.of_nat (length ops) * Z.max 0 ((r - 2 * N) * f / 10000) <= x + 2 * Z.of_nat (length ops).
Proof.
  intros Eh F0. induction ops as [|o ops IH]; intros ps x w R L Pp Ln; inversion L as [|o0 ops0 q ps0 x0 y z w0 w1 w2 Q D L']; subst.
  - simpl length. change (Z.of_nat 0) with 0. lia.
  - destruct (par_leg _ _ _ _ _ _ _ _ _ _ _ _ _ _ R eq_refl F0 Q D (Pp _ (or_introl eq_refl))) as [R1 [Kp [fee [k [G0 [Gk [G1 G2]]]]]]].
    rewrite (Nat2Z.inj_succ (length ops) : Z.of_nat (length (o :: ops)) = _) in *.
    specialize (IH _ _ _ R1 L' ltac:(intros q' I; apply Kp, Pp; right; exact I) ltac:(lia)).
    set (n := Z.of_nat (length ops)) in *. set (c := Z.max 0 ((r - 2 * N) * f / 10000)) in *.
    assert (Pn : 0 <= n) by (unfold n; lia). assert (Pc : 0 <= c) by (unfold c; lia).
    assert (0 <= n * c) by (apply Z.mul_nonneg_nonneg; lia).
    assert (Cf : c <= fee).
    { unfold c. apply Z.max_lub; [lia|]. destruct (Z_le_gt_dec ((r - 2 * N) * f) 0) as [L0|L0].
      - transitivity 0; [|lia]. change 0 with (0 / 10000). apply Z.div_le_mono; lia.
      - assert (0 < r - 2 * N) by nia. rewrite G1. apply Z.div_le_mono; [lia|]. apply Z.mul_le_mono_nonneg; lia. }
    lia.
Qed.

(** ** C250 *)
(** A route of n legs over stable pools at par, whether it runs in a circle or not, returns at most what was put in plus two
    units per leg, less on every leg at least the commission on what comes out in the end (less 2n). *)
Theorem C250_routes_over_stable_pools_do_not_beat_par H w e h d u ops ps ms amt dl mf r w' f :
  reachable H w -> e_hash e = H -> fget h (w_hop w) = Some d -> 0 <= f ->
  hop_swap e None h u ops ms amt dl mf w = Ok (r, w') ->
  Forall2 (fun o p => fact_pool_by_pair (h_fact d) (o_offer o) (o_ask o) w = Ok (p, w)) ops ps ->
  (forall q, In q ps -> exists s, stable_at w q s /\ l_preca s = l_precb s /\ l_preca s <= 8 /\ f <= l_fee s) ->
  let n := Z.of_nat (length ops) in
  r <= amt + 2 * n /\ r + n * ((r - 2 * n) * f / 10000) <= amt + 2 * n.
Proof.
  intros R Eh Hd F0 X Fp Pp n. apply (C66_multihop_is_its_swaps _ _ _ _ _ _ _ _ _ _ _ _ _ R Hd) in X. destruct X as [_ [_ [_ [_ [qs L]]]]].
  pose proof (legs_pools _ _ _ _ _ _ _ Eh _ _ _ _ _ _ R L) as Fq.
  assert (qs = ps).
  { clear - Fp Fq. revert qs Fq. induction Fp as [|o p ops ps Q _ IH]; intros qs Fq; inversion Fq as [|o1 q ops1 qs1 Q1 Fq1]; subst; [reflexivity|].
    f_equal; [congruence|apply IH; auto]. }
  subst qs. pose proof (par_legs _ _ _ _ _ _ _ f n _ _ Eh F0 _ _ _ _ R L Pp ltac:(unfold n; lia)) as B. fold n in B.
  assert (Pn : 0 <= n) by (unfold n; lia).
  assert (0 <= n * Z.max 0 ((r - 2 * n) * f / 10000)) by (apply Z.mul_nonneg_nonneg; lia).
  split; [lia|]. transitivity (r + n * Z.max 0 ((r - 2 * n) * f / 10000)); [|exact B].
  apply Z.add_le_mono_l, Z.mul_le_mono_nonneg_l; lia.
Qed.
Print Assumptions C250_routes_over_stable_pools_do_not_beat_par.

(** ** Concrete cases are in Props_RouteStableCases. *)
