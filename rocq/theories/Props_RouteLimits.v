(** What the limits given with a route guarantee: C262. *)
From Coq Require Import ZArith List Bool Lia.
From Coq Require Import ZifyBool.
From Verif Require Import Base FMap Decimal DecimalProofs Curve World Token TokenProofs Frame Stake Pool PoolProofs
  Stable StableProofs Rewards Vest Factory Router System SysFrame SysInv SysPool SysStable SysSupply SysVest SysStake Script Runs
  Props_Token Props_Pool Props_Stable Props_Vest Props_Stake SysFact Props_Factory SysAllow Props_Router Props_StableHistory
  Props_PoolCases Props_FactoryCases Props_RouterCases Props_Foreign2 Props_RouteStable Props_RouteStableCases Props_Limits.
Import ListNotations.
Open Scope Z_scope.

Definition a_stable (w : World) (q : Addr) : Prop := exists s, stable_at w q s.

Lemma limit_leg H w e fa q u o x s dl f y w1 : reachable H w -> e_hash e = H ->
  fact_pool_by_pair fa (o_offer o) (o_ask o) w = Ok (q, w) -> direct_swap e q u o x (Some s) dl (Some f) w y w1 -> a_stable w q ->
  reachable H w1 /\ (forall q', a_stable w q' -> a_stable w1 q') /\ 0 <= y /\ 0 <= s /\
  x * 10^18 * (10000 - f) <= y * 10000 * (10^18 + s * 10^14 + 1).
Proof.
  intros R Eh Q D [p Hp]. destruct (leg_facts _ _ _ _ _ _ _ _ _ _ _ _ _ R Eh Q D) as [R1 F]. split; [exact R1|].
  destruct D as [D|D].
  { exfalso. unfold pool_swap in D. apply mbind_ok in D. destruct D as [z1 [v1 [D1 _]]]. apply enter_ok in D1. destruct D1 as [D1 _].
    pose proof (gd_cstable _ (reach_good _ _ R) _ _ Hp). congruence. }
  assert (Nc : None <> Some q) by discriminate.
  destruct (C30_stable_swap _ _ _ _ _ _ _ _ _ _ _ _ _ _ R Nc D)
    as [p0 [p' [x1 [y1 [g [fe [b [B [B' [_ [_ [Eg [Ef [Pa [Pg [Pr [Pf [_ [_ [_ [_ [_ [_ [_ [_ [Lf [Ls Lm]]]]]]]]]]]]]]]]]]]]]]]]]]].
  cbv zeta in Lm. specialize (Lf _ eq_refl). specialize (Ls _ eq_refl).
  split; [|split; [lia|split; [lia|eapply (limits_pay g y fe (l_fee p0) x s f); try eassumption; lia]]].
  intros q' [s' Hs']. destruct (Z.eq_dec q' q) as [->|Nq]; [exists p'; exact B'|].
  exists s'. unfold stable_at. rewrite (proj2 (lg_other _ _ _ _ _ _ _ _ _ F _ Nq)). exact Hs'.
Qed.

Lemma limit_legs H e fa u s dl f r w' : e_hash e = H -> f <= 10000 -> forall ops ps x w, reachable H w ->
  Legs e fa u (Some s) dl (Some f) ops ps x w r w' -> (forall q, In q ps -> a_stable w q) ->
  x * (10^18 * (10000 - f)) ^ Z.of_nat (length ops) <= r * (10000 * (10^18 + s * 10^14 + 1)) ^ Z.of_nat (length ops).
Proof.
  intros Eh F1. induction ops as [|o ops IH]; intros ps x w R L Pp; inversion L as [|o0 ops0 q ps0 x0 y z w0 w1 w2 Q D L']; subst.
  - simpl length. change (Z.of_nat 0) with 0. rewrite !Z.pow_0_r. lia.
  - destruct (limit_leg _ _ _ _ _ _ _ _ _ _ _ _ _ R eq_refl Q D (Pp _ (or_introl eq_refl))) as [R1 [Kp [Py [Ps G]]]].
    specialize (IH _ _ _ R1 L' ltac:(intros q' I; apply Kp, Pp; right; exact I)).
    rewrite (Nat2Z.inj_succ (length ops) : Z.of_nat (length (o :: ops)) = _). rewrite !Z.pow_succ_r by lia.
    set (n := Z.of_nat (length ops)) in *. set (a := 10 ^ 18 * (10000 - f)) in *. set (b := 10000 * (10 ^ 18 + s * 10 ^ 14 + 1)) in *.
    assert (Pa : 0 <= a) by (unfold a; lia). assert (Pb : 0 < b) by (unfold b; lia).
    assert (Gx : x * a <= y * b) by (unfold a, b; lia).
    assert (0 <= a ^ n) by (apply Z.pow_nonneg; exact Pa).
    apply Z.le_trans with (y * b * a ^ n); [rewrite Z.mul_assoc; apply Z.mul_le_mono_nonneg_r; assumption|].
    replace (y * b * a ^ n) with (y * a ^ n * b) by ring. replace (r * (b * b ^ n)) with (r * b ^ n * b) by ring.
    apply Z.mul_le_mono_nonneg_r; [lia|exact IH].
Qed.

(** ** C262 *)
(** A route of n legs over stable pools, with a spread limit of [s] and a commission limit of [f] (in hundredths of a
    percent), returns at least the n-th power of (1 - f) / (1 + s) of what was put in, whatever the pools' settings are. *)
Theorem C262_limits_of_a_route_bound_the_loss H w e h d u ops ps s amt dl f r w' :
  reachable H w -> e_hash e = H -> fget h (w_hop w) = Some d -> f <= 10000 ->
  hop_swap e None h u ops (Some s) amt dl (Some f) w = Ok (r, w') ->
  Forall2 (fun o p => fact_pool_by_pair (h_fact d) (o_offer o) (o_ask o) w = Ok (p, w)) ops ps ->
  (forall q, In q ps -> exists p, stable_at w q p) ->
  let n := Z.of_nat (length ops) in
  amt * (10^18 * (10000 - f)) ^ n <= r * (10000 * (10^18 + s * 10^14 + 1)) ^ n.
Proof.
  intros R Eh Hd F0 X Fp Pp n. apply (C66_multihop_is_its_swaps _ _ _ _ _ _ _ _ _ _ _ _ _ R Hd) in X. destruct X as [_ [_ [_ [_ [qs L]]]]].
  pose proof (legs_pools _ _ _ _ _ _ _ Eh _ _ _ _ _ _ R L) as Fq.
  assert (qs = ps).
  { clear - Fp Fq. revert qs Fq. induction Fp as [|o p ops ps Q _ IH]; intros qs Fq; inversion Fq as [|o1 q ops1 qs1 Q1 Fq1]; subst; [reflexivity|].
    f_equal; [congruence|apply IH; auto]. }
  subst qs. exact (limit_legs _ _ _ _ _ _ _ _ _ Eh F0 _ _ _ _ R L Pp).
Qed.
Print Assumptions C262_limits_of_a_route_bound_the_loss.

(** the circle of C250 with limits of one percent and of 30 hundredths of a percent *)
Example C262_example : exists w', reachable xH gW /\ fget rhop (w_hop gW) = Some (mkHop (-1) 20) /\
  hop_swap (env_of [-4]) None rhop (-4) rring (Some 100) 100000 None (Some 30) gW = Ok (98956, w') /\
  Forall2 (fun o p => fact_pool_by_pair 20 (o_offer o) (o_ask o) gW = Ok (p, gW)) rring [fq 1 2; fq 2 3; fq 1 3] /\
  (forall q, In q [fq 1 2; fq 2 3; fq 1 3] -> exists s, stable_at gW q s) /\
  96188 * (10000 * (10^18 + 100 * 10^14 + 1)) ^ 3 <= 100000 * (10^18 * (10000 - 30)) ^ 3.
Proof.
  exists (after (hop_swap (env_of [-4]) None rhop (-4) rring (Some 100) 100000 None (Some 30) gW)).
  split; [apply world_reach; vm_compute; reflexivity|]. split; [vm_compute; reflexivity|]. split; [vm_compute; reflexivity|].
  split; [repeat constructor; vm_compute; reflexivity|]. split; [|vm_compute; discriminate].
  intros q I. exists (match fget q (w_stable gW) with Some s => s | None => lP0 end).
  destruct I as [<-|[<-|[<-|[]]]]; vm_compute; reflexivity.
Qed.
