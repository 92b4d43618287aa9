(** Stable pools of tokens with different decimals (C142). *)
From Coq Require Import ZArith List Bool Lia.
From Coq Require Import ZifyBool.
From Verif Require Import Base FMap Decimal DecimalProofs Curve World Token TokenProofs Frame Stake Pool PoolProofs
  Stable StableProofs NewtonProofs Rewards Vest Factory Router System SysFrame SysInv SysPool SysStable SysSupply Script
  Props_Token Props_Pool Props_PoolCases Props_Stable Props_StableCases.
Import ListNotations.
Open Scope Z_scope.

(** the reserves [x] and [y] of tokens with [px] and [py] decimals are not too far apart *)
Definition near (amp x px y py : Z) : Prop :=
  (scaled x px + scaled y py + 1) ^ 3 <= (amp / 100 * (2 * 10 ^ 18) - 1) * (4 * scaled x px * scaled y py).

Lemma pow_split p q : 0 <= p <= q -> q <= 18 -> 10 ^ (18 - p) = 10 ^ (q - p) * 10 ^ (18 - q).
Proof. intros A B. rewrite <- Z.pow_add_r by lia. f_equal. lia. Qed.
Lemma pow10_nine k : 0 < k -> 10 <= 10 ^ k.
Proof. intros K. change 10 with (10 ^ 1) at 1. apply Z.pow_le_mono_r; lia. Qed.

(** A successful swap in a pool whose tokens have different decimals offers, in bare units, more than the
    gross output plus nine times (or more, by the difference of the decimals) the reserve of the token
    with fewer decimals. *)
Theorem C142_swaps_need_huge_offers H w e c self u offer amt mi ms dl mf ret w' p x y buy px py :
  reachable H w -> c <> Some self -> stable_at w self p -> lside p offer x y buy ->
  tdec w offer = Some px -> tdec w buy = Some py -> near (l_namp p) x px y py ->
  stable_swap e c self u offer amt mi ms dl mf w = Ok (ret, w') ->
  exists p' gross, stable_at w' self p' /\ lside p' offer (x + amt) (y - gross) buy /\ 0 < gross <= y /\ ret <= gross /\
    (px < py -> (10 ^ (py - px) - 1) * x - 2 <= amt - gross) /\
    (py < px -> (10 ^ (px - py) - 1) * y - 2 <= amt - gross).
Proof.
  intros R N Hp Sd Dx Dy Nr X.
  destruct (swap_curve _ _ _ _ _ _ _ _ _ _ _ _ _ _ _ R N Hp X) as [p' [x0 [y0 [g [f [buy0 [D [X0 [Z0 [F K]]]]]]]]]].
  cbv zeta in K. destruct K as [HD [EX [EZ [D0 [PX [PZ [_ Hc]]]]]]].
  pose proof (reach_stable _ _ R _ _ Hp) as I.
  destruct (li_dec _ _ _ I) as [D1 [D2 [Pr [Pa Pb]]]]. destruct (li_amp _ _ _ I) as [_ [_ Am]].
  assert (Sm : D <= X0 + Z0) by (apply (above_sum (l_namp p)); auto; lia).
  assert (E0 : x0 = x /\ y0 = y /\ buy0 = buy).
  { destruct (lside_eq _ _ _ _ _ (lf_side F)) as [-> [-> ->]]. destruct (lside_eq _ _ _ _ _ Sd) as [-> [-> ->]]. auto. }
  destruct E0 as [-> [-> ->]].
  assert (Epx : (if offer =? l_ta p then l_preca p else l_precb p) = px /\ (if offer =? l_ta p then l_precb p else l_preca p) = py).
  { destruct Sd as [[Eo [Eb _]]|[Eo [Ne [Eb _]]]].
    - subst offer buy. rewrite Z.eqb_refl. rewrite D1 in Dx. rewrite D2 in Dy. split; congruence.
    - destruct (Z.eqb_spec offer (l_ta p)); [congruence|]. subst offer buy. split; congruence. }
  destruct Epx as [Ea Eb]. rewrite Ea, Eb in HD.
  assert (Rg : 0 <= px <= 18 /\ 0 <= py <= 18 /\ l_prec p = Z.max px py).
  { destruct (offer =? l_ta p); lia. }
  destruct Rg as [Rx [Ry Rp]].
  pose proof (lf_pos F) as Po. pose proof (lf_gross F) as Gr.
  exists p', g. split; [apply (lf_after F)|]. split; [apply (lf_side' F)|]. split; [lia|]. split; [lia|].
  apply compute_d_ok in HD; [|apply scaled_nonneg; lia|apply scaled_nonneg; lia].
  destruct HD as [[_ [Z1 _]]|[Qa [Qb [_ [_ [_ [[J1 J2] _]]]]]]].
  { exfalso. unfold scaled in Z1. assert (0 < 10 ^ (18 - py)) by (apply Z.pow_pos_nonneg; lia). nia. }
  unfold near in Nr.
  assert (S1 : scaled x px + scaled y py <= D + 1).
  { eapply near_sum; [|exact J1|exact J2|exact Nr]. apply Z.mul_pos_pos; [|exact Qb]. lia. }
  assert (Fp : 0 < 10 ^ (18 - l_prec p)) by (apply Z.pow_pos_nonneg; lia).
  assert (S2 : scaled x px + scaled y py <= (x + amt + (y - g + 1)) * 10 ^ (18 - l_prec p) + 1) by (subst X0 Z0; unfold scaled in *; lia).
  clear - S2 Rx Ry Rp Po Fp. unfold scaled in S2. split; intros L.
  - assert (Mx : l_prec p = py) by lia. rewrite Mx in *.
    rewrite (pow_split px py) in S2 by lia. pose proof (pow10_nine (py - px) ltac:(lia)) as T.
    revert S2 Fp T. generalize (10 ^ (py - px)) (10 ^ (18 - py)). intros k P S2 Fp T.
    assert (Z1 : (k * x + y - (x + amt + (y - g + 1))) * P <= 1) by lia. nia.
  - assert (Mx : l_prec p = px) by lia. rewrite Mx in *.
    rewrite (pow_split py px) in S2 by lia. pose proof (pow10_nine (px - py) ltac:(lia)) as T.
    revert S2 Fp T. generalize (10 ^ (px - py)) (10 ^ (18 - px)). intros k P S2 Fp T.
    assert (Z1 : (x + k * y - (x + amt + (y - g + 1))) * P <= 1) by lia. nia.
Qed.
Print Assumptions C142_swaps_need_huge_offers.

(** The spread limit then forbids every swap for the token with fewer decimals, and every swap the other
    way unless the reserve asked for is much larger than the other one. *)
Theorem C142_no_swap_passes_the_spread_limit H w e c self u offer amt mi ms dl mf ret w' p x y buy px py :
  reachable H w -> c <> Some self -> stable_at w self p -> lside p offer x y buy ->
  tdec w offer = Some px -> tdec w buy = Some py -> near (l_namp p) x px y py ->
  stable_swap e c self u offer amt mi ms dl mf w = Ok (ret, w') ->
  px <= py /\
  let limit := match ms with Some s => s | None => l_maxspread p end in
  (px < py -> ((10 ^ (py - px) - 1) * x - 2) * 10 ^ 18 < (limit * 10 ^ 14 + 1) * y).
Proof.
  intros R N Hp Sd Dx Dy Nr X.
  destruct (C142_swaps_need_huge_offers _ _ _ _ _ _ _ _ _ _ _ _ _ _ _ _ _ _ _ _ R N Hp Sd Dx Dy Nr X)
    as [p' [g [Hp' [Sd' [Gg [_ [A B]]]]]]].
  destruct (lswap_facts _ _ _ _ _ _ _ _ _ _ _ _ _ _ R N X) as [p0 [p1 [x1 [y1 [g1 [f [buy1 F]]]]]]].
  pose proof (lf_before F) as Q. unfold stable_at in *. rewrite Hp in Q. inversion Q; subst p0.
  pose proof (lf_after F) as Q2. unfold stable_at in Q2. rewrite Hp' in Q2. inversion Q2; subst p1.
  assert (E1 : x1 = x /\ y1 = y).
  { destruct (lside_eq _ _ _ _ _ (lf_side F)) as [-> [-> _]]. destruct (lside_eq _ _ _ _ _ Sd) as [-> [-> _]]. auto. }
  destruct E1 as [-> ->].
  assert (Eg : g1 = g).
  { destruct (lside_eq _ _ _ _ _ (lf_side' F)) as [_ [E1 _]]. destruct (lside_eq _ _ _ _ _ Sd') as [_ [E2 _]]. lia. }
  subst g1. pose proof (lf_limit F) as Lm. pose proof (lf_ms F) as Ms.
  pose proof (li_bps _ _ _ (reach_stable _ _ R _ _ Hp)) as Bp. unfold vbps in Bp.
  assert (Lr : 0 <= opt_or ms (l_maxspread p) <= 10000).
  { destruct ms as [s|]; cbn [opt_or]; [pose proof (Ms s eq_refl); lia|lia]. }
  assert (El : opt_or ms (l_maxspread p) = match ms with Some s => s | None => l_maxspread p end) by (destruct ms; reflexivity).
  rewrite El in *. revert Lr Lm. generalize (match ms with Some s => s | None => l_maxspread p end). intros lim Lr Lm.
  split.
  - destruct (Z_le_gt_dec px py) as [|G]; [auto|exfalso].
    assert (Lt : py < px) by lia. specialize (B Lt). pose proof (pow10_nine (px - py) ltac:(lia)) as T.
    revert B T. generalize (10 ^ (px - py)). intros k B T.
    assert (9 * y - 2 <= amt - g) by nia. nia.
  - cbv zeta. intros L. specialize (A L). revert A. generalize (10 ^ (py - px)). intros k A. nia.
Qed.
Print Assumptions C142_no_swap_passes_the_spread_limit.

(** tokens of 6 and 7 decimals, spread limit 50% *)
Definition dsetup : list Act :=
  [ Do [] (CDeployTok 1 (-1) 6); Do [] (CDeployTok 2 (-1) 7);
    Do [-1] (CMint 1 (-2) (10^15)); Do [-1] (CMint 2 (-2) (10^15));
    Do [-1] (CMint 1 (-4) (10^15)); Do [-1] (CMint 2 (-4) (10^15));
    Do [] (CDeploy 20 KStable); Do [] (CStableInit 20 (xinit 30 5000) (-9) 6 1000) ].
Definition dP (t a b : Z) : Stable := mkStable 1 2 yshare (xH 20 SEmpty) 30 (-3) 500 100 5000 (-1) 600 0 600 0 7 6 7 t a b.
(** one token of each *)
Definition dW : World := world_of (dsetup ++ yfund (10^6) (10^7)).
Definition dP1 : Stable := dP 19999000 (10^6) (10^7).
Example dW_reach : reachable xH dW. Proof. apply world_reach; vm_compute; reflexivity. Qed.
Example dW_pool : stable_at dW 20 dP1. Proof. vm_compute. reflexivity. Qed.
Example C142_example : near (l_namp dP1) (10^6) 6 (10^7) 7 /\ near (l_namp dP1) (10^7) 7 (10^6) 6 /\
  tdec dW 1 = Some 6 /\ tdec dW 2 = Some 7 /\ lside dP1 1 (10^6) (10^7) 2 /\ lside dP1 2 (10^7) (10^6) 1.
Proof.
  unfold near. split; [vm_compute; discriminate|]. split; [vm_compute; discriminate|].
  split; [reflexivity|]. split; [reflexivity|]. unfold lside. cbn. split; [left; auto|right; repeat split; discriminate].
Qed.
(** a swap that does go through needs a lopsided pool and a large offer: 6 tokens for 0.51 *)
Definition dW2 : World := world_of (dsetup ++ yfund (10^5) (10^7)).
Example C142_example_swap : reachable xH dW2 /\ near 600 (10^5) 6 (10^7) 7 /\
  exists r, stable_swap (env_of [-4]) None 20 (-4) 1 (6 * 10^6) None None None None dW2 = Ok (5075443, r).
Proof.
  split; [apply world_reach; vm_compute; reflexivity|]. split; [vm_compute; discriminate|].
  exists (after (stable_swap (env_of [-4]) None 20 (-4) 1 (6 * 10^6) None None None None dW2)). vm_compute. reflexivity.
Qed.

(** "A pool with equal value on both sides serves small swaps whatever the decimals": no swap at all
    succeeds, of whatever amount, in either direction, with any arguments. *)
Theorem C142_decimals_handled_refuted : exists w p, reachable xH w /\ stable_at w 20 p /\
  tdec w (l_ta p) = Some 6 /\ l_ra p = 10^6 /\ tdec w (l_tb p) = Some 7 /\ l_rb p = 10^7 /\ l_maxspread p = 5000 /\
  forall e c u offer amt mi ms dl mf ret w', c <> Some 20 -> stable_swap e c 20 u offer amt mi ms dl mf w <> Ok (ret, w').
Proof.
  exists dW, dP1. split; [apply dW_reach|]. split; [apply dW_pool|].
  split; [reflexivity|]. split; [reflexivity|]. split; [reflexivity|]. split; [reflexivity|]. split; [reflexivity|].
  intros e c u offer amt mi ms dl mf ret w' N X.
  destruct C142_example as [Na [Nb [D1 [D2 [S1 S2]]]]].
  destruct (lswap_facts _ _ _ _ _ _ _ _ _ _ _ _ _ _ dW_reach N X) as [p0 [p1 [x1 [y1 [g1 [f [buy1 F]]]]]]].
  pose proof (lf_before F) as Q. unfold stable_at in Q. pose proof dW_pool as Q0. unfold stable_at in Q0. rewrite Q0 in Q. injection Q as Q. subst p0. clear Q0.
  pose proof (lf_ms F) as Ms.
  destruct (lf_side F) as [[-> _]|[-> _]].
  - destruct (C142_no_swap_passes_the_spread_limit _ _ _ _ _ _ _ _ _ _ _ _ _ _ _ _ _ _ _ _ dW_reach N dW_pool S1 D1 D2 Na X) as [_ L].
    cbv zeta in L. specialize (L ltac:(lia)).
    destruct ms as [s|]; [specialize (Ms s eq_refl); change (l_maxspread dP1) with 5000 in Ms|change (l_maxspread dP1) with 5000 in L]; lia.
  - destruct (C142_no_swap_passes_the_spread_limit _ _ _ _ _ _ _ _ _ _ _ _ _ _ _ _ _ _ _ _ dW_reach N dW_pool S2 D2 D1 Nb X) as [L _]. lia.
Qed.
Print Assumptions C142_decimals_handled_refuted.
