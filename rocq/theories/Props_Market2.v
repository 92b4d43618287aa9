(** C231-C233: more in, more out for routes and stable pools. *)
From Coq Require Import ZArith List Bool Lia.
From Coq Require Import ZifyBool.
From Verif Require Import Base FMap Decimal DecimalProofs Curve World Token TokenProofs Frame Stake Pool PoolProofs
  Stable StableProofs NewtonProofs Rewards Vest Factory Router System SysFrame SysInv SysPool SysStable SysSupply Script
  Props_Token Props_Pool Props_PoolCases Props_Stable Props_StableCases Props_Factory Props_FactoryCases Props_Router Props_RouterCases Props_Market.
Import ListNotations.
Open Scope Z_scope.

(** ** C231: routes over different constant-product pools *)
Lemma legs_mono H e1 e2 f u1 u2 ms1 ms2 dl1 dl2 mf1 mf2 : e_hash e1 = H -> e_hash e2 = H ->
  forall ops ps x1 w1 r1 w1' x2 w2 r2 w2', reachable H w1 -> reachable H w2 ->
  (forall p, In p ps -> fget p (w_pool w2) = fget p (w_pool w1)) -> (forall p, In p ps -> exists s, pool_at w1 p s) -> NoDup ps ->
  Legs e1 f u1 ms1 dl1 mf1 ops ps x1 w1 r1 w1' -> Legs e2 f u2 ms2 dl2 mf2 ops ps x2 w2 r2 w2' -> x1 <= x2 -> r1 <= r2.
Proof.
  intros Eh1 Eh2. induction ops as [|o ops IH]; intros ps x1 w1 r1 w1' x2 w2 r2 w2' R1 R2 Es Ep Nd L1 L2 Le.
  { inversion L1; subst. inversion L2; subst. exact Le. }
  inversion L1 as [|o1 ops1 p ps1 x1' y1 z1 v1 v1' v1'' Q1 D1 L1']; subst.
  inversion L2 as [|o2 ops2 p2 ps2 x2' y2 z2 v2 v2' v2'' Q2 D2 L2']; subst.
  inversion Nd as [|? ? Np Nd']; subst.
  destruct (leg_facts _ _ _ _ _ _ _ _ _ _ _ _ _ R1 eq_refl Q1 D1) as [R1' F1].
  destruct (leg_facts _ _ _ _ _ _ _ _ _ _ _ _ _ R2 (eq_sym Eh2) Q2 D2) as [R2' F2] || destruct (leg_facts _ _ _ _ _ _ _ _ _ _ _ _ _ R2 Eh2 Q2 D2) as [R2' F2].
  destruct (Ep p (or_introl eq_refl)) as [s Hs]. pose proof (Es p (or_introl eq_refl)) as Es0.
  pose proof (gd_cpool _ (reach_good _ _ R1) _ _ Hs) as C1.
  assert (Hs2 : pool_at w2 p s) by (unfold pool_at in *; congruence).
  pose proof (gd_cpool _ (reach_good _ _ R2) _ _ Hs2) as C2.
  destruct D1 as [D1|D1]; [|apply stable_swap_ok in D1; destruct D1 as [D1 _]; congruence].
  destruct D2 as [D2|D2]; [|apply stable_swap_ok in D2; destruct D2 as [D2 _]; congruence].
  assert (N1 : u1 <> p) by (eapply C14_sender_is_not_the_pool; [exact R1| |exact D1]; discriminate).
  assert (N2 : u2 <> p) by (eapply C14_sender_is_not_the_pool; [exact R2| |exact D2]; discriminate).
  assert (Ly : y1 <= y2) by (eapply C226_more_in_more_out; [exact R1|exact N1|exact N2|exact Es0|exact D1|exact D2|exact Le]).
  eapply IH; [exact R1'|exact R2'| | |exact Nd'|exact L1'|exact L2'|exact Ly].
  - intros q Iq. assert (q <> p) by congruence.
    destruct (lg_other _ _ _ _ _ _ _ _ _ F1 q) as [A1 _]; [auto|]. destruct (lg_other _ _ _ _ _ _ _ _ _ F2 q) as [A2 _]; [auto|].
    rewrite A1, A2. apply Es. right. auto.
  - intros q Iq. assert (q <> p) by congruence.
    destruct (lg_other _ _ _ _ _ _ _ _ _ F1 q) as [A1 _]; [auto|]. unfold pool_at in *. rewrite A1. apply Ep. right. auto.
Qed.

Theorem C231_more_in_more_out_on_routes H w h d ops ps e1 u1 ms1 a1 dl1 mf1 r1 w1 e2 u2 ms2 a2 dl2 mf2 r2 w2 :
  reachable H w -> e_hash e1 = H -> e_hash e2 = H -> fget h (w_hop w) = Some d ->
  (* the pools of the route: different ones, all constant-product *)
  Forall2 (fun o p => fact_pool_by_pair (h_fact d) (o_offer o) (o_ask o) w = Ok (p, w)) ops ps -> NoDup ps ->
  (forall p, In p ps -> exists s, pool_at w p s) ->
  hop_swap e1 None h u1 ops ms1 a1 dl1 mf1 w = Ok (r1, w1) -> hop_swap e2 None h u2 ops ms2 a2 dl2 mf2 w = Ok (r2, w2) ->
  a1 <= a2 -> r1 <= r2.
Proof.
  intros R Eh1 Eh2 Hd Fp Nd Ep X1 X2 Le.
  apply (C66_multihop_is_its_swaps _ _ _ _ _ _ _ _ _ _ _ _ _ R Hd) in X1. destruct X1 as [_ [_ [_ [_ [q1 L1]]]]].
  apply (C66_multihop_is_its_swaps _ _ _ _ _ _ _ _ _ _ _ _ _ R Hd) in X2. destruct X2 as [_ [_ [_ [_ [q2 L2]]]]].
  pose proof (legs_pools _ _ _ _ _ _ _ Eh1 _ _ _ _ _ _ R L1) as F1. pose proof (legs_pools _ _ _ _ _ _ _ Eh2 _ _ _ _ _ _ R L2) as F2.
  assert (U : forall l l1 l2, Forall2 (fun o p => fact_pool_by_pair (h_fact d) (o_offer o) (o_ask o) w = Ok (p, w)) l l1 ->
     Forall2 (fun o p => fact_pool_by_pair (h_fact d) (o_offer o) (o_ask o) w = Ok (p, w)) l l2 -> l1 = l2).
  { induction l as [|o l IHl]; intros l1 l2 A B; inversion A; subst; inversion B; subst; [reflexivity|]. f_equal; [congruence|auto]. }
  assert (q1 = ps) by (eapply U; eauto). assert (q2 = ps) by (eapply U; eauto). subst q1 q2.
  eapply (legs_mono H e1 e2); [exact Eh1|exact Eh2|exact R|exact R|auto|exact Ep|exact Nd|exact L1|exact L2|exact Le].
Qed.
Print Assumptions C231_more_in_more_out_on_routes.

(** ** C232: stable pools *)
(** two solutions of the iteration with the same D, the second one for a larger balance *)
Lemma y_close D amp X1 X2 y1 y2 z2 T : 0 < amp -> 0 <= D -> 0 < X1 <= X2 -> 0 <= y1 -> 0 <= y2 -> 0 < T ->
  let g := D * 100 / (2 * amp) in
  D ^ 3 * 100 / (8 * amp * X1) < (y1 + 1) ^ 2 + (X1 + g - D) * (y1 + 1) ->
  y2 = (z2 ^ 2 + D ^ 3 * 100 / (8 * amp * X2)) / (2 * z2 + (X2 + g) - D) -> 0 < 2 * z2 + (X2 + g) - D -> Z.abs (y2 - z2) <= T ->
  y2 - (y1 + 1) < T /\ (y1 + 1 < y2 -> (y2 - (y1 + 1)) * y2 < T * T).
Proof.
  intros Pa PD PX P1 P2 PT g C1 E2 W2 A2.
  assert (Lc : D ^ 3 * 100 / (8 * amp * X2) <= D ^ 3 * 100 / (8 * amp * X1)).
  { apply Z.div_le_compat_l; [apply Z.mul_nonneg_nonneg; [apply Z.pow_nonneg|]; lia|].
    split; [apply Z.mul_pos_pos; lia|]. apply Z.mul_le_mono_nonneg_l; lia. }
  assert (Pc : 0 <= D ^ 3 * 100 / (8 * amp * X2)).
  { apply Z.div_pos; [apply Z.mul_nonneg_nonneg; [apply Z.pow_nonneg|]; lia|apply Z.mul_pos_pos; lia]. }
  revert C1 E2 W2 Lc Pc. generalize (D ^ 3 * 100 / (8 * amp * X2)) (D ^ 3 * 100 / (8 * amp * X1)) g. clear g. intros c2 c1 g C1 E2 W2 Lc Pc.
  assert (K : y2 * (2 * z2 + (X2 + g) - D) <= z2 ^ 2 + c2).
  { rewrite E2, Z.mul_comm. apply Z.mul_div_le. exact W2. }
  assert (Q : (y2 - z2) * (y2 - z2) <= T * T).
  { replace ((y2 - z2) * (y2 - z2)) with (Z.abs (y2 - z2) * Z.abs (y2 - z2)) by (rewrite <- Z.abs_mul; apply Z.abs_eq, Z.square_nonneg).
    apply Z.mul_le_mono_nonneg; lia. }
  assert (K2 : y2 * y2 + (X2 + g - D) * y2 - c2 <= T * T) by lia.
  assert (C2 : c2 < (y1 + 1) * (y1 + 1) + (X2 + g - D) * (y1 + 1)).
  { assert ((X1 + g - D) * (y1 + 1) <= (X2 + g - D) * (y1 + 1)) by (apply Z.mul_le_mono_nonneg_r; lia). lia. }
  clear C1 E2 K Q Lc A2 W2. revert K2 C2. generalize (X2 + g - D). intros s K2 C2.
  assert (Sp : y1 + 1 < y2 -> (y2 - (y1 + 1)) * y2 < T * T).
  { intros L. assert (E : (y2 - (y1 + 1)) * (y2 + (y1 + 1 + s)) < T * T) by lia.
    assert (S0 : 0 < y1 + 1 + s).
    { assert (0 < (y1 + 1) * (y1 + 1 + s)) by lia. destruct (Z.lt_ge_cases 0 (y1 + 1 + s)); [assumption|].
      assert ((y1 + 1) * (y1 + 1 + s) <= (y1 + 1) * 0) by (apply Z.mul_le_mono_nonneg_l; lia). lia. }
    assert (0 <= (y2 - (y1 + 1)) * (y1 + 1 + s)) by (apply Z.mul_nonneg_nonneg; lia). lia. }
  split; [|exact Sp]. destruct (Z.lt_ge_cases (y2 - (y1 + 1)) T) as [|G]; [assumption|exfalso].
  specialize (Sp ltac:(lia)). assert (T * T <= (y2 - (y1 + 1)) * y2) by (apply Z.mul_le_mono_nonneg; lia). lia.
Qed.

Lemma lside_fun p offer x y buy x' y' buy' : lside p offer x y buy -> lside p offer x' y' buy' -> x = x' /\ y = y' /\ buy = buy'.
Proof. unfold lside. intros A B. intuition congruence. Qed.

(** two swaps of ledgers with the same pool record *)
Theorem C232_stable_more_in_hardly_less_out H w1 e1 c1 u1 a1 mi1 ms1 dl1 mf1 r1 w1' w2 e2 c2 u2 a2 mi2 ms2 dl2 mf2 r2 w2' self offer p :
  reachable H w1 -> reachable H w2 -> c1 <> Some self -> c2 <> Some self -> stable_at w1 self p -> stable_at w2 self p ->
  stable_swap e1 c1 self u1 offer a1 mi1 ms1 dl1 mf1 w1 = Ok (r1, w1') ->
  stable_swap e2 c2 self u2 offer a2 mi2 ms2 dl2 mf2 w2 = Ok (r2, w2') ->
  a1 <= a2 ->
  exists p2 x2 y2 buy, stable_at w2' self p2 /\ lside p2 offer x2 y2 buy /\
  let unit := 10 ^ (18 - l_prec p) in
  (r1 - r2 - 1) * unit <= 10 ^ 12 /\
  (* one unit at most if the swap leaves enough of the bought token *)
  (10 ^ 24 <= y2 * unit * (unit - 1) -> r1 <= r2 + 1).
Proof.
  intros R1 R2 N1 N2 Hp1 Hp2 X1 X2 Le. pose proof (reach_stable _ _ R1 _ _ Hp1) as I.
  destruct (lswap_facts _ _ _ _ _ _ _ _ _ _ _ _ _ _ R1 N1 X1) as [q1 [p1 [x [y [g1 [f1 [b1 F1]]]]]]].
  destruct (lswap_facts _ _ _ _ _ _ _ _ _ _ _ _ _ _ R2 N2 X2) as [q2 [p2 [x2 [y2 [g2 [f2 [b2 F2]]]]]]].
  pose proof (lf_before F1) as B1. pose proof (lf_before F2) as B2. unfold stable_at in *.
  rewrite Hp1 in B1. injection B1 as B1. subst q1. rewrite Hp2 in B2. injection B2 as B2. subst q2.
  destruct (lside_fun _ _ _ _ _ _ _ _ (lf_side F1) (lf_side F2)) as [<- [<- <-]].
  exists p2, (x + a2), (y - g2), b1. split; [apply (lf_after F2)|]. split; [apply (lf_side' F2)|]. cbv zeta.
  destruct (li_dec _ _ _ I) as [_ [_ [Pr [Pa Pb]]]]. destruct (li_amp _ _ _ I) as [_ [_ Am]].
  pose proof (lf_pos F1) as Po1. pose proof (lf_pos F2) as Po2.
  destruct (lf_nums F1) as [sp1 SN1]. destruct (sm_in _ _ _ _ _ _ _ _ _ _ _ _ SN1) as [s1 [sx [sy [E1 [Ex [Ey Ec1]]]]]].
  destruct (lf_nums F2) as [sp2 SN2]. destruct (sm_in _ _ _ _ _ _ _ _ _ _ _ _ SN2) as [s2 [sx' [sy' [E2 [Ex' [Ey' Ec2]]]]]].
  rewrite Ex in Ex'. injection Ex' as <-. rewrite Ey in Ey'. injection Ey' as <-.
  apply scale_ok in E1; [|lia]. apply scale_ok in E2; [|lia].
  apply scale_ok in Ex; [|unfold l_pof; destruct (offer =? l_ta p); lia].
  apply scale_ok in Ey; [|unfold l_pot; destruct (offer =? l_ta p); lia].
  assert (Nx : 0 <= sx) by (subst sx; apply scaled_nonneg; lia). assert (Ny : 0 <= sy) by (subst sy; apply scaled_nonneg; lia).
  apply calc_y_ok in Ec1; auto. destruct Ec1 as [D [ys1 [z1 [HD [_ [Pn1 [_ [Py1 [Er1 [_ [_ [_ [_ Hc1]]]]]]]]]]]]].
  apply calc_y_ok in Ec2; auto. destruct Ec2 as [D' [ys2 [z2 [HD' [_ [Pn2 [_ [Py2 [Er2 [_ [Ey2 [W2 [A2 _]]]]]]]]]]]]].
  rewrite HD in HD'. injection HD' as <-.
  assert (D0 : 0 <= D).
  { apply compute_d_ok in HD; auto. destruct HD as [[_ [_ ->]]|[_ [_ [_ [_ [_ [[J _] _]]]]]]]; lia. }
  assert (Pw : 0 < 10 ^ (18 - l_prec p)) by (apply Z.pow_pos_nonneg; lia).
  destruct (y_close D (l_namp p) s1 s2 ys1 ys2 z2 (10 ^ 12)) as [K1 K2]; auto; try lia.
  { subst s1 s2. unfold scaled. split; [lia|]. apply Z.mul_le_mono_nonneg_r; lia. }
  assert (Fr : 0 <= l_fee p <= 10000) by (pose proof (li_bps _ _ _ I) as Q; unfold vbps in Q; lia).
  assert (Nt : forall k, 0 <= k -> g1 <= g2 + k -> r1 <= r2 + k).
  { intros k Pk Lg. pose proof (net_le (l_fee p) _ _ Fr Lg) as Q.
    assert (g2 * l_fee p / 10000 <= (g2 + k) * l_fee p / 10000) by (apply Z.div_le_mono; [lia|]; apply Z.mul_le_mono_nonneg_r; lia).
    pose proof (lf_gross F1). pose proof (lf_gross F2). pose proof (lf_fee F1). pose proof (lf_fee F2). lia. }
  revert Er1 Er2 Pw. generalize (10 ^ (18 - l_prec p)). intros P Er1 Er2 Pw.
  pose proof (Z.mul_div_le ys2 P Pw) as V2. pose proof (Z.mul_succ_div_gt ys1 P Pw) as V1. rewrite <- Er1 in V1. rewrite <- Er2 in V2.
  split.
  - destruct (Z.le_gt_cases g1 (g2 + 1)) as [L|L].
    + assert (r1 <= r2 + 1) by (apply Nt; lia). assert ((r1 - r2 - 1) * P <= 0 * P) by (apply Z.mul_le_mono_nonneg_r; lia). lia.
    + assert (Lr : r1 <= r2 + (g1 - g2)) by (apply Nt; lia).
      assert ((r1 - r2 - 1) * P <= (g1 - g2 - 1) * P) by (apply Z.mul_le_mono_nonneg_r; lia). lia.
  - intros Big. apply Nt; [lia|]. destruct (Z.le_gt_cases g1 (g2 + 1)) as [L|L]; [assumption|exfalso].
    assert (G : P * 1 <= P * (g1 - g2 - 1)) by (apply Z.mul_le_mono_nonneg_l; lia).
    assert (Lt : P <= ys2 - ys1) by lia.
    assert (M : 10 ^ 12 * 10 ^ 12 = 10 ^ 24) by reflexivity. rewrite M in K2.
    destruct (Z.le_gt_cases P 1) as [P1|P1]; [assert (P = 1) by lia; subst P; lia|].
    specialize (K2 ltac:(lia)).
    assert (S1 : (P - 1) * ys2 <= (ys2 - (ys1 + 1)) * ys2) by (apply Z.mul_le_mono_nonneg_r; lia).
    assert (S2 : (y - g2) * P * (P - 1) <= ys2 * (P - 1)) by (apply Z.mul_le_mono_nonneg_r; lia). lia.
Qed.
Print Assumptions C232_stable_more_in_hardly_less_out.

(** ** C233: exactly more in, more out is false for a stable pool: its iteration stops at 10^12 (ten units
    of a 7-decimal token).  Reserves 137 and 1660; offering 3020 instead of 3019 brings one unit less. *)
Definition mkS : World := world_of (ysetup 30 10000 ++ yfund 137 1660).
Theorem C233_stable_more_in_more_out_refuted : exists w w1 w2,
  reachable xH w /\
  stable_swap (env_of [-4]) None 20 (-4) 1 3019 None None None None w = Ok (1632, w1) /\
  stable_swap (env_of [-4]) None 20 (-4) 1 3020 None None None None w = Ok (1631, w2).
Proof.
  exists mkS, (after (stable_swap (env_of [-4]) None 20 (-4) 1 3019 None None None None mkS)),
    (after (stable_swap (env_of [-4]) None 20 (-4) 1 3020 None None None None mkS)).
  split; [apply world_reach; vm_compute; reflexivity|]. split; vm_compute; reflexivity.
Qed.
Print Assumptions C233_stable_more_in_more_out_refuted.

(** ** Cases *)
(** two constant-product pools in a row: 10000 of token 1 bring 19589 of token 3, 20000 bring 38605 *)
Definition mkRacts : list Act := fsetup [-5] ++
  [ Do [-5] (CCreate 20 (-5) (finit 1 2) Xyk None 100 1000); Do [-5] (CCreate 20 (-5) (finit 2 3) Xyk None 100 1000) ] ++
  ffund 1000000 2000000 ++ [Do [-2] (CPoolProvide fp2 (-2) (Some 4000000) None (Some 4000000) None None None)].
Definition mkR : World := world_of mkRacts.
Definition mkops : list SwapOp := [mkOp 2 1 None; mkOp 3 2 None].
Definition hop_out (w : World) (amt : Z) : option Z :=
  match hop_swap (env_of [-4]) None rhop (-4) mkops None amt None None w with Ok (r, _) => Some r | Err _ => None end.
Definition is_pool (w : World) (p : Addr) : bool := match fget p (w_pool w) with Some _ => true | None => false end.
Example C231_example : reachable xH mkR /\ fget rhop (w_hop mkR) = Some (mkHop (-1) 20) /\
  fact_pool_by_pair 20 1 2 mkR = Ok (fp1, mkR) /\ fact_pool_by_pair 20 2 3 mkR = Ok (fp2, mkR) /\
  is_pool mkR fp1 = true /\ is_pool mkR fp2 = true /\ (fp1 =? fp2) = false /\
  hop_out mkR 10000 = Some 19589 /\ hop_out mkR 20000 = Some 38605.
Proof.
  split; [apply world_reach; vm_compute; reflexivity|]. do 7 (split; [vm_compute; reflexivity|]). vm_compute; reflexivity.
Qed.
(** a stable pool of one token on each side: the condition of C232 for one unit holds *)
Example C232_example :
  (exists w1 w2, stable_swap (env_of [-4]) None 20 (-4) 1 1000000 None None None None yW = Ok (982858, w1) /\
     stable_swap (env_of [-4]) None 20 (-4) 1 1000001 None None None None yW = Ok (982859, w2)) /\
  10 ^ 24 <= 9014184 * 10 ^ (18 - 7) * (10 ^ (18 - 7) - 1).
Proof. split; [eexists _, _; split; vm_compute; reflexivity|]. vm_compute. discriminate. Qed.
