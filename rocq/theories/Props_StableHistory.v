(** Trading in a stable pool over a whole history (C160). *)
From Coq Require Import ZArith List Bool Lia.
From Coq Require Import ZifyBool.
From Verif Require Import Base FMap Decimal DecimalProofs Curve World Token TokenProofs Frame Stake Pool PoolProofs
  Stable StableProofs NewtonProofs Rewards Vest Factory Router System SysFrame SysInv SysPool SysStable SysSupply
  SysVest SysStake SysRewards Script Runs Props_Token Props_Pool Props_Stable Props_Vest Props_Stake Props_Rewards SysFact Props_Factory Props_Upgrade
  Props_Router Props_Guards Props_LiveMisc Props_Effects2.
Import ListNotations.
Open Scope Z_scope.

(** how many operations of a call cost the pool at [c] a rounding error: swaps, legs of routes, deposits *)
Definition s_swaps (c : Addr) (k : Call) : Z :=
  match k with
  | CStableSwap p _ _ _ _ _ _ _ => if p =? c then 1 else 0
  | CHopSwap _ _ ops _ _ _ _ => Z.of_nat (length ops)
  | _ => 0
  end.
Definition s_deposits (c : Addr) (k : Call) : Z :=
  match k with CStableProvide p _ _ _ _ _ _ => if p =? c then 1 else 0 | _ => 0 end.
Fixpoint s_count (f : Call -> Z) (l : list Event) : Z :=
  match l with
  | [] => 0
  | Tx _ k :: l => f k + s_count f l
  | Tick _ _ :: l => s_count f l
  end.

(** the part of the pool's record that trading and liquidity never change *)
Definition same_kind (p p' : Stable) : Prop :=
  l_ta p' = l_ta p /\ l_tb p' = l_tb p /\ l_preca p' = l_preca p /\ l_precb p' = l_precb p /\ l_namp p' = l_namp p.

(** D is within one token unit of the sum of the reserves, for tokens with up to eight decimals and in a pool small
    enough to be swapped *)
Lemma D_near_q P x y : 0 <= P -> 1 <= x -> 1 <= y -> 2 * P * ((x + y) * P) <= 4 * (x * P) * (y * P).
Proof.
  intros LP X1 Y1. assert (x + y <= 2 * (x * y)) by nia. assert (0 <= 2 * (P * P)) by nia.
  assert (2 * (P * P) * (x + y) <= 2 * (P * P) * (2 * (x * y))) by (apply Z.mul_le_mono_nonneg_l; lia). lia.
Qed.
Lemma D_near_sum l P x y D M : 2 * 10^18 <= l -> 10^10 <= P -> 1 <= x -> 1 <= y -> 0 < D <= (x + y) * P ->
  above l ((x + y) * P) (4 * (x * P) * (y * P)) D -> D + 1 <= M -> M <= 10504 * 10^15 + 1 ->
  (x + y) * P <= D + P.
Proof.
  unfold above. intros Ll LP X1 Y1 J1 J2 LM M1.
  destruct (Z_le_gt_dec ((x + y) * P) (D + P)) as [|Gt]; [auto|exfalso].
  set (s := (x + y) * P) in *. set (q := 4 * (x * P) * (y * P)) in *.
  assert (Q : 2 * P * s <= q).
  { apply D_near_q; lia. }
  assert (Ps : 0 < s) by lia. assert (Pq : 0 < q). { assert (0 < 2 * P * s) by (apply Z.mul_pos_pos; lia). lia. }
  assert (A : (l - 1) * q * P < (D + 1) ^ 3).
  { assert ((l - 1) * q * P <= (l - 1) * q * (s - D - 1)) by (apply Z.mul_le_mono_nonneg_l; [apply Z.mul_nonneg_nonneg; lia|lia]).
    assert (0 < s * q) by (apply Z.mul_pos_pos; lia). lia. }
  assert (B : (D + 1) ^ 3 <= s * (M * M)).
  { replace ((D + 1) ^ 3) with ((D + 1) * ((D + 1) * (D + 1))) by ring.
    apply Z.mul_le_mono_nonneg; [lia|lia|apply Z.mul_nonneg_nonneg; lia|apply Z.mul_le_mono_nonneg; lia]. }
  assert (C : (l - 1) * (2 * P * s) * P <= (l - 1) * q * P).
  { apply Z.mul_le_mono_nonneg_r; [lia|]. apply Z.mul_le_mono_nonneg_l; lia. }
  assert (K : s * ((l - 1) * (2 * P * P)) < s * (M * M)) by lia.
  apply Z.mul_lt_mono_pos_l in K; [|lia].
  assert (M * M <= (10504 * 10^15 + 1) * (10504 * 10^15 + 1)) by (apply Z.mul_le_mono_nonneg; lia).
  assert ((2 * 10^18 - 1) * (2 * 10^10 * 10^10) <= (l - 1) * (2 * P * P)).
  { apply Z.mul_le_mono_nonneg; try lia. }
  lia.
Qed.

(** one swap: at most two units leave beyond what comes in, whoever calls *)
Lemma s_swap_on H w e c u o x mi ms dl mf y w' p : reachable H w -> stable_at w c p -> l_preca p = l_precb p -> l_preca p <= 8 ->
  stable_swap e None c u o x mi ms dl mf w = Ok (y, w') ->
  exists p', stable_at w' c p' /\ same_kind p p' /\ l_total p' = l_total p /\ l_ra p + l_rb p <= l_ra p' + l_rb p' + 2 /\
    l_fee p' = l_fee p /\
    (exists fee, 0 <= fee /\ y + fee <= x + 2 /\ fee = (y + fee) * l_fee p / 10000 /\
       l_ra p' + l_rb p' = l_ra p + l_rb p + x - y - fee).
Proof.
  intros R Hp Eq P8 X. assert (Nn : None <> Some c) by discriminate.
  destruct (swap_curve _ _ _ _ _ _ _ _ _ _ _ _ _ _ _ R Nn Hp X) as [p' [a [b [g [f [buy [D [X0 [Z0 [F K]]]]]]]]]].
  cbv zeta in K. destruct K as [HD [EX [EZ [D0 [PX [PZ [Ov Hc]]]]]]].
  pose proof (reach_stable _ _ R _ _ Hp) as I.
  destruct (li_dec _ _ _ I) as [_ [_ [Pr [Pa _]]]]. destruct (li_amp _ _ _ I) as [_ [_ Am]].
  assert (Pr' : l_prec p = l_preca p) by lia. rewrite Pr' in *.
  assert (HD2 : compute_d (l_namp p) (scaled a (l_preca p)) (scaled b (l_preca p)) = Ok D).
  { rewrite <- Eq in HD. destruct (o =? l_ta p); exact HD. }
  assert (Sm : D <= X0 + Z0) by (apply (above_sum (l_namp p)); auto; lia).
  assert (Fp : 10^10 <= 10 ^ (18 - l_preca p)) by (apply Z.pow_le_mono_r; lia).
  unfold scaled in *. pose proof (lf_pos F) as Po. pose proof (lf_gross F) as Gr. pose proof (lf_fee F) as Fe.
  exists p'. split; [apply (lf_after F)|]. pose proof (lf_same F) as S.
  split. { unfold same_kind. rewrite S. simpl. auto. } split; [rewrite S; reflexivity|].
  revert HD2 EX EZ Fp. generalize (10 ^ (18 - l_preca p)). intros P HD2 EX EZ Fp.
  assert (L : g <= x + 2).
  { apply compute_d_ok in HD2; [|apply Z.mul_nonneg_nonneg; lia|apply Z.mul_nonneg_nonneg; lia].
    destruct HD2 as [[_ [E0 _]]|[Qa [Qb [_ [_ [_ [[J1 J2] _]]]]]]].
    { exfalso. apply Z.mul_eq_0 in E0. lia. }
    replace (a * P + b * P) with ((a + b) * P) in * by ring.
    assert (1 <= l_namp p / 100) by (apply Z.div_le_lower_bound; lia).
    assert (A1 : 1 <= a). { destruct (Z_le_gt_dec 1 a); [auto|]. assert (a = 0) by lia. subst a. lia. } assert (B1 : 1 <= b) by lia.
    assert (N1 : (a + b) * P <= D + P).
    { pose proof (cube_bound _ D0 Ov) as Cb.
      apply (D_near_sum (l_namp p / 100 * (2 * 10 ^ 18)) P a b D (10504 * 10^15)); auto; lia. }
    assert (g <= x + 1 + 1); [|lia]. apply (par_units a b x g P D 1); lia. }
  pose proof (lf_side F) as S1. pose proof (lf_side' F) as S2.
  assert (Ea : l_ta p' = l_ta p) by (rewrite S; reflexivity).
  assert (Sum : l_ra p' + l_rb p' = l_ra p + l_rb p + x - g).
  { destruct S1 as [[A1 [A2 [A3 A4]]]|[A1 [A1' [A2 [A3 A4]]]]]; destruct S2 as [[B1 [B2 [B3 B4]]]|[B1 [B1' [B2 [B3 B4]]]]]; try congruence; lia. }
  split; [lia|]. split; [rewrite S; reflexivity|]. exists f. rewrite <- Gr. split; [lia|]. split; [lia|]. split; [exact Fe|]. lia.
Qed.

(** The value of a share as the sum of the reserves per share, in multiples of 1/m. *)
Definition s_kept (m n : Z) (p p' : Stable) : Prop :=
  (l_ra p + l_rb p) * l_total p' * m <= (l_ra p' + l_rb p') * l_total p * m + n * l_total p * l_total p'.
Lemma s_kept_trans m n n' p q r : 0 < l_total q -> 0 <= l_total p -> 0 <= l_total r ->
  s_kept m n p q -> s_kept m n' q r -> s_kept m (n + n') p r.
Proof.
  unfold s_kept. intros Q P R A B.
  set (k0 := l_ra p + l_rb p) in *. set (k1 := l_ra q + l_rb q) in *. set (k2 := l_ra r + l_rb r) in *.
  set (t0 := l_total p) in *. set (t1 := l_total q) in *. set (t2 := l_total r) in *.
  apply (Z.mul_le_mono_nonneg_r _ _ t2 R) in A. apply (Z.mul_le_mono_nonneg_r _ _ t0 P) in B.
  apply (Zmult_le_reg_r _ _ t1); [lia|]. lia.
Qed.
Lemma s_kept_more m n n' p p' : 0 <= l_total p -> 0 <= l_total p' -> n <= n' -> s_kept m n p p' -> s_kept m n' p p'.
Proof.
  unfold s_kept. intros A B L H. assert (n * (l_total p * l_total p') <= n' * (l_total p * l_total p')) by (apply Z.mul_le_mono_nonneg_r; [apply Z.mul_nonneg_nonneg; lia|lia]).
  lia.
Qed.
Lemma s_kept_swap m p p' : 0 < m <= l_total p -> l_total p' = l_total p -> l_ra p + l_rb p <= l_ra p' + l_rb p' + 2 -> s_kept m 2 p p'.
Proof.
  unfold s_kept. intros T E L. rewrite E. set (t := l_total p) in *.
  assert ((l_ra p + l_rb p) * (t * m) <= (l_ra p' + l_rb p' + 2) * (t * m)) by (apply Z.mul_le_mono_nonneg_r; [apply Z.mul_nonneg_nonneg; lia|lia]).
  assert (t * m <= t * t) by (apply Z.mul_le_mono_nonneg_l; lia). lia.
Qed.
Lemma s_kept_same m p p' : 0 <= m -> l_ra p * l_total p' <= l_ra p' * l_total p -> l_rb p * l_total p' <= l_rb p' * l_total p -> s_kept m 0 p p'.
Proof.
  unfold s_kept. intros M A B.
  assert ((l_ra p * l_total p' + l_rb p * l_total p') * m <= (l_ra p' * l_total p + l_rb p' * l_total p) * m) by (apply Z.mul_le_mono_nonneg_r; lia). lia.
Qed.

(** the reserves are not so far apart that D leaves their sum (see C82) *)
Definition even_enough (p : Stable) : Prop :=
  (scaled (l_ra p + l_rb p) (l_preca p) + 1) ^ 3 <=
    (l_namp p / 100 * (2 * 10 ^ 18) - 1) * (4 * scaled (l_ra p) (l_preca p) * scaled (l_rb p) (l_preca p)).

Lemma deposit_units m P s0 s1 T T' D0 D1 minted : 0 < m <= T -> 1 <= P -> T' = T + minted -> 0 <= minted -> minted * D0 <= T * (D1 - D0) ->
  s0 * P <= D0 + 1 -> D1 <= s1 * P -> s0 * T' * m <= s1 * T * m + 1 * T * T'.
Proof.
  intros M P1 E N A B C. assert (K : T' * D0 <= T * D1) by (subst T'; lia).
  assert (T' * (s0 * P) <= T' * (D0 + 1)) by (apply Z.mul_le_mono_nonneg_l; lia).
  assert (T * D1 <= T * (s1 * P)) by (apply Z.mul_le_mono_nonneg_l; lia).
  assert (K2 : (s0 * T' - s1 * T) * P <= T') by lia.
  destruct (Z_le_gt_dec (s0 * T' - s1 * T) 0) as [L|L].
  - assert ((s0 * T' - s1 * T) * m <= 0) by nia. assert (0 <= T * T') by (apply Z.mul_nonneg_nonneg; lia). lia.
  - assert (s0 * T' - s1 * T <= T') by nia.
    assert ((s0 * T' - s1 * T) * m <= T' * T) by (apply Z.mul_le_mono_nonneg; lia). lia.
Qed.

Lemma s_deposit_on H w e c u da db cu dl mi w' p m : reachable H w -> stable_at w c p -> l_preca p = l_precb p ->
  exec e (CStableProvide c u da db cu dl mi) w = Ok (tt, w') ->
  exists p', stable_at w' c p' /\ same_kind p p' /\ 0 <= l_total p' /\ (0 < m <= l_total p -> even_enough p -> s_kept m 1 p p').
Proof.
  intros R Hp Eq X. assert (Nn : None <> Some c) by discriminate. pose proof (reach_stable _ _ R _ _ Hp) as I.
  destruct (C150_stable_deposit_effect _ _ _ _ _ R Hp _ _ _ _ _ _ _ X) as [mt [_ [E _]]].
  simpl exec in X. destruct (C29_stable_deposit _ _ _ _ _ _ _ _ _ _ _ _ _ R Nn Hp X) as [D1 [mt' [p' [E' [V1 [Nm [_ [_ [Sh [Tt [_ [Pa [Pb [_ [Ra [Rb _]]]]]]]]]]]]]]]].
  unfold stable_at in *. rewrite E in E'. inversion E' as [Q]. exists p'. rewrite Q in E. split; [exact E|].
  split. { rewrite <- Q. unfold same_kind. simpl. auto. }
  pose proof (li_tot _ _ _ I) as Lt. split; [lia|]. intros M Ev. rewrite Q in *.
  destruct (Sh ltac:(lia)) as [D0 [V0 [B0 [L0 _]]]].
  pose proof (li_ra _ _ _ I) as Ia. pose proof (li_rb _ _ _ I) as Ib. destruct (li_dec _ _ _ I) as [_ [_ [Pr [Pp _]]]].
  assert (Fp : 1 <= 10 ^ (18 - l_preca p)) by (assert (0 < 10 ^ (18 - l_preca p)) by (apply Z.pow_pos_nonneg; lia); lia).
  unfold value_D, scaled, even_enough in *. rewrite <- Eq in V0, V1. unfold scaled in Ev.
  revert V0 V1 Ev Fp. generalize (10 ^ (18 - l_preca p)). intros P V0 V1 Ev Fp.
  apply compute_d_ok in V0; [|apply Z.mul_nonneg_nonneg; lia|apply Z.mul_nonneg_nonneg; lia].
  apply compute_d_ok in V1; [|apply Z.mul_nonneg_nonneg; lia|apply Z.mul_nonneg_nonneg; lia].
  destruct V0 as [[_ [_ Z0]]|[Qa [Qb [_ [_ [_ [[J1 J2] _]]]]]]]; [lia|].
  assert (U1 : D1 <= (l_ra p' + l_rb p') * P).
  { assert ((l_ra p + da) * P + (l_rb p + db) * P <= (l_ra p' + l_rb p') * P).
    { rewrite <- Z.mul_add_distr_r. apply Z.mul_le_mono_nonneg_r; lia. }
    destruct V1 as [[_ [_ Z0]]|[_ [_ [_ [_ [_ [[K1 _] _]]]]]]]; lia. }
  replace (l_ra p * P + l_rb p * P) with ((l_ra p + l_rb p) * P) in * by ring.
  assert (Qp : 0 < 4 * (l_ra p * P) * (l_rb p * P)) by (apply Z.mul_pos_pos; [|exact Qb]; lia).
  assert (S1 : (l_ra p + l_rb p) * P <= D0 + 1) by (eapply near_sum; eauto).
  unfold s_kept. eapply (deposit_units m P); eauto.
Qed.

Lemma s_withdraw_on H w e c u s ma mb dl w' p m : reachable H w -> stable_at w c p -> 0 <= m ->
  exec e (CStableWithdraw c u s ma mb dl) w = Ok (tt, w') ->
  exists p', stable_at w' c p' /\ same_kind p p' /\ s_kept m 0 p p'.
Proof.
  intros R Hp M X. assert (Nn : None <> Some c) by discriminate. simpl in X. apply drop_ok in X. destruct X as [[a b] X].
  destruct (C153_stable_withdrawal_effect _ _ _ _ _ _ _ _ _ _ _ _ _ R Hp X) as [_ [_ [[p' [E [_ [_ [_ S]]]]] _]]].
  destruct (C80_stable_withdrawal _ _ _ _ _ _ _ _ _ _ _ _ _ _ R Nn Hp X) as [q [E' C]]. cbv zeta in C.
  destruct C as [_ [_ [_ [_ [_ [_ [_ [_ [_ [_ [_ [K1 [K2 _]]]]]]]]]]]]].
  unfold stable_at in *. rewrite E in E'. inversion E'; subst q. exists p'. split; [exact E|].
  split; [unfold same_kind; rewrite S; simpl; auto|]. apply s_kept_same; auto.
Qed.

(** every other call *)
Definition s_moves (c : Addr) (k : Call) : Prop :=
  match k with CStableProvide q _ _ _ _ _ _ | CStableWithdraw q _ _ _ _ _ => q = c | _ => False end.
Definition s_may_swap (c : Addr) (k : Call) : Prop :=
  match k with
  | CStableSwap p _ _ _ _ _ _ _ => p = c
  | CHopSwap _ _ _ _ _ _ _ | CTrade _ _ _ _ _ _ _ _ _ => True
  | _ => False
  end.
Lemma s_idle H w e k w' c p : reachable H w -> stable_at w c p -> exec e k w = Ok (tt, w') -> ~ s_may_swap c k -> ~ s_moves c k ->
  exists p', stable_at w' c p' /\ same_kind p p' /\ l_total p' = l_total p /\ l_ra p' = l_ra p /\ l_rb p' = l_rb p.
Proof.
  intros R Hp X NS NL. pose proof (reach_good _ _ R) as G. pose proof (gd_cstable _ G _ _ Hp) as Hc.
  destruct (exec_framec _ _ _ _ X G) as [G' [X' [_ [_ U]]]]. unfold same_kind.
  destruct (exists_dec_acts k c KStable) as [[T|[T _]]|N].
  2:{ exfalso. apply NS. destruct k; simpl in *; try discriminate T; auto. }
  2:{ exists p. split; [unfold stable_at; rewrite (ut_stable _ _ _ (U _ _ Hc N)); exact Hp|auto 10]. }
  pose proof (exec_tkind _ _ _ _ _ X T) as TK. rewrite Hc in TK.
  destruct k; simpl in T, TK; inversion T; try discriminate TK; subst; simpl in X;
      try (apply drop_ok in X; destruct X as [r X]); try (exfalso; apply NS; reflexivity); try (exfalso; apply NL; reflexivity).
  - apply stable_initialize_ok in X. destruct X as [_ [Np _]]. unfold stable_at in Hp. congruence.
  - unfold stable_update_config in X. rstep X. winv.
    match goal with K : fget c (w_stable w) = Some ?q |- _ => unfold stable_at in Hp; rewrite Hp in K; inversion K; subst q end.
    eexists. split; [unfold stable_at; simpl; rewrite fget_set_same; reflexivity|auto 10].
  - unfold stable_upgrade in X. rstep X. winv. exists p. split; [exact Hp|auto 10].
Qed.

(** the legs of a route *)
Lemma s_legs c H e f u ms dl mf : e_hash e = H -> forall ops ps x w r w', reachable H w -> Legs e f u ms dl mf ops ps x w r w' ->
  forall p, stable_at w c p -> l_preca p = l_precb p -> l_preca p <= 8 ->
  exists p', stable_at w' c p' /\ same_kind p p' /\ l_total p' = l_total p /\
    l_ra p + l_rb p <= l_ra p' + l_rb p' + 2 * Z.of_nat (length ops).
Proof.
  intros Eh. induction ops as [|o ops IH]; intros ps x w r w' R L p Hp Eq P8;
    inversion L as [|o0 ops0 q ps0 x0 y z w0 w1 w2 Q D L']; subst.
  - exists p. split; [exact Hp|]. unfold same_kind. split; [auto 10|]. simpl. split; [auto|lia].
  - destruct (leg_facts _ _ _ _ _ _ _ _ _ _ _ _ _ R eq_refl Q D) as [R1 F].
    assert (S : exists p1, stable_at w1 c p1 /\ same_kind p p1 /\ l_total p1 = l_total p /\ l_ra p + l_rb p <= l_ra p1 + l_rb p1 + 2).
    { destruct (Z.eq_dec c q) as [<-|Nq].
      - destruct D as [D|D].
        + exfalso. unfold pool_swap in D. apply mbind_ok in D. destruct D as [z1 [v1 [D1 _]]]. apply enter_ok in D1. destruct D1 as [D1 _].
          pose proof (gd_cstable _ (reach_good _ _ R) _ _ Hp). congruence.
        + destruct (s_swap_on _ _ _ _ _ _ _ _ _ _ _ _ _ _ R Hp Eq P8 D) as [p1 [E [S [T [K _]]]]]. eauto 10.
      - exists p. split; [unfold stable_at; rewrite (proj2 (lg_other _ _ _ _ _ _ _ _ _ F _ Nq)); exact Hp|]. unfold same_kind. split; [auto 10|]. split; [auto|lia]. }
    destruct S as [p1 [E1 [S1 [T1 K1]]]]. pose proof S1 as S1'. destruct S1' as [A1 [A2 [A3 [A4 A5]]]].
    destruct (IH _ _ _ _ _ R1 L' p1 E1 ltac:(congruence) ltac:(lia)) as [p' [E [[B1 [B2 [B3 [B4 B5]]]] [T K]]]].
    exists p'. split; [exact E|]. split; [unfold same_kind; repeat split; congruence|]. split; [congruence|].
    simpl length. lia.
Qed.

Lemma s_trade H w e k w' c p : reachable H w -> e_hash e = H -> exec e k w = Ok (tt, w') -> stable_at w c p ->
  l_preca p = l_precb p -> l_preca p <= 8 -> s_may_swap c k ->
  exists p', stable_at w' c p' /\ same_kind p p' /\ l_total p' = l_total p /\ l_ra p + l_rb p <= l_ra p' + l_rb p' + 2 * s_swaps c k.
Proof.
  intros R Eh X Hp Eq P8 MS. destruct k; simpl in MS; try contradiction.
  - subst. simpl in X. apply drop_ok in X. destruct X as [y X].
    destruct (s_swap_on _ _ _ _ _ _ _ _ _ _ _ _ _ _ R Hp Eq P8 X) as [p1 [E [S [T [K _]]]]].
    exists p1. simpl. rewrite Z.eqb_refl. repeat (split; [auto|]). lia.
  - simpl in X. apply drop_ok in X. destruct X as [y X].
    assert (Hh : exists d, fget h (w_hop w) = Some d). { unfold hop_swap in X. rstep X. winv. eauto. }
    destruct Hh as [d Hh]. apply (C66_multihop_is_its_swaps _ _ _ _ _ _ _ _ _ _ _ _ _ R Hh) in X. destruct X as [_ [_ [_ [_ [ps L]]]]].
    exact (s_legs c H e _ _ _ _ _ Eh _ _ _ _ _ _ R L p Hp Eq P8).
  - exfalso. simpl in X. apply drop_ok in X. destruct X as [y X]. eapply C70_trade_never_succeeds; eauto.
Qed.

Lemma s_one_tx H w e k w' c p m : reachable H w -> e_hash e = H -> exec e k w = Ok (tt, w') -> stable_at w c p ->
  l_preca p = l_precb p -> l_preca p <= 8 -> 0 < m <= l_total p -> (s_deposits c k = 1 -> even_enough p) ->
  exists p', stable_at w' c p' /\ same_kind p p' /\ s_kept m (2 * s_swaps c k + s_deposits c k) p p'.
Proof.
  intros R Eh X Hp Eq P8 M Ev.
  assert (Cs : s_may_swap c k \/ (exists u da db cu dl mi, k = CStableProvide c u da db cu dl mi) \/
     (exists u s ma mb dl, k = CStableWithdraw c u s ma mb dl) \/ (~ s_may_swap c k /\ ~ s_moves c k)).
  { destruct k; try (right; right; right; simpl; tauto); try (left; exact I).
    - destruct (Z.eq_dec p0 c) as [->|N]; [right; left; eauto 10|right; right; right; simpl; tauto].
    - destruct (Z.eq_dec p0 c) as [->|N]; [left; reflexivity|right; right; right; simpl; tauto].
    - destruct (Z.eq_dec p0 c) as [->|N]; [right; right; left; eauto 10|right; right; right; simpl; tauto]. }
  assert (R' : reachable H w') by (eapply reach_tx; eauto).
  destruct Cs as [MS|[[u [da [db [cu [dl [mi ->]]]]]]|[[u [s [ma [mb [dl ->]]]]]|[NS NM]]]].
  - destruct (s_trade _ _ _ _ _ _ _ R Eh X Hp Eq P8 MS) as [p' [E [S [T K]]]]. exists p'. split; [exact E|]. split; [exact S|].
    assert (Sd : s_deposits c k = 0) by (destruct k; simpl in MS |- *; try contradiction; reflexivity). rewrite Sd.
    unfold s_kept. rewrite T. set (t := l_total p) in *. set (n := s_swaps c k) in *.
    assert (Pn : 0 <= n). { unfold n. destruct k; simpl; try lia. destruct (_ =? _); lia. }
    assert ((l_ra p + l_rb p) * (t * m) <= (l_ra p' + l_rb p' + 2 * n) * (t * m)) by (apply Z.mul_le_mono_nonneg_r; [apply Z.mul_nonneg_nonneg; lia|lia]).
    assert (2 * n * (t * m) <= 2 * n * (t * t)). { apply Z.mul_le_mono_nonneg_l; [lia|]. apply Z.mul_le_mono_nonneg_l; lia. } lia.
  - destruct (s_deposit_on _ _ _ _ _ _ _ _ _ _ _ _ m R Hp Eq X) as [p' [E [S [_ K]]]]. exists p'. split; [exact E|]. split; [exact S|].
    simpl in *. rewrite Z.eqb_refl in *. apply K; auto.
  - destruct (s_withdraw_on _ _ _ _ _ _ _ _ _ _ _ m R Hp ltac:(lia) X) as [p' [E [S K]]]. exists p'. auto.
  - destruct (s_idle _ _ _ _ _ _ _ R Hp X NS NM) as [p' [E [S [T [A B]]]]]. exists p'. split; [exact E|]. split; [exact S|].
    assert (Z1 : s_swaps c k = 0 /\ s_deposits c k = 0).
    { destruct k; simpl in *; try tauto; destruct (Z.eqb_spec p0 c); tauto. }
    destruct Z1 as [-> ->]. apply s_kept_same; [lia|rewrite T, A; lia|rewrite T, B; lia].
Qed.

(** ** C160 *)
(** Over any history in which at least [m] shares exist and deposits meet reserves that are not extremely uneven, each swap
    (leg of a route) lowers the sum of the reserves per share by at most 2/m and each deposit by at most 1/m; nothing else
    lowers it. *)
Definition s_ok (c : Addr) (m : Z) (v : World) (k : Call) : Prop :=
  forall q, stable_at v c q -> m <= l_total q /\ (s_deposits c k = 1 -> even_enough q).
Lemma s_ok_start c m H w l w' p p' : run_if (s_ok c m) H w l w' -> stable_at w c p -> stable_at w' c p' -> m <= l_total p' -> m <= l_total p.
Proof.
  induction 1 as [w|w e k w1 l w2 St Ok1 Rn IH|w n s w1 l w2 St Rn IH]; intros A B L.
  - unfold stable_at in *. rewrite A in B. inversion B; subst. exact L.
  - apply Ok1. exact A.
  - inversion St; subst. apply IH; auto.
Qed.
Theorem C160_stable_value_over_history H w l w' c p p' m : reachable H w -> stable_at w c p ->
  l_preca p = l_precb p -> l_preca p <= 8 -> 0 < m -> run_if (s_ok c m) H w l w' -> stable_at w' c p' -> m <= l_total p' ->
  (l_ra p + l_rb p) * l_total p' * m <=
    (l_ra p' + l_rb p') * l_total p * m + (2 * s_count (s_swaps c) l + s_count (s_deposits c) l) * l_total p * l_total p'.
Proof.
  intros R Hp Eq P8 M Rn Hp' M'. change (s_kept m (2 * s_count (s_swaps c) l + s_count (s_deposits c) l) p p'). revert p R Hp Eq P8.
  induction Rn as [w|w e k w1 l w2 St Ok1 Rn IH|w n s w1 l w2 St Rn IH]; intros p R Hp Eq P8.
  - unfold stable_at in *. rewrite Hp in Hp'. inversion Hp'; subst p'. apply s_kept_same; lia.
  - assert (R1 : reachable H w1) by (eapply reach_run; [exact R|econstructor; [exact St|constructor]]).
    inversion St as [e0 k0 w0 Eh X|]; subst. destruct (Ok1 _ Hp) as [Mp Ev].
    destruct (s_one_tx _ _ _ _ _ _ _ m R eq_refl X Hp Eq P8 ltac:(lia) Ev) as [q [Eq' [[A1 [A2 [A3 [A4 A5]]]] V]]].
    pose proof (s_ok_start _ _ _ _ _ _ _ _ Rn Eq' Hp' M') as Mq.
    simpl s_count. replace (2 * (s_swaps c k + s_count (s_swaps c) l) + (s_deposits c k + s_count (s_deposits c) l))
      with ((2 * s_swaps c k + s_deposits c k) + (2 * s_count (s_swaps c) l + s_count (s_deposits c) l)) by ring.
    eapply s_kept_trans; [| | |exact V|apply (IH Hp' q R1 Eq'); congruence]; lia.
  - assert (R1 : reachable H w1) by (eapply reach_run; [exact R|econstructor; [exact St|constructor]]).
    inversion St; subst. simpl. eapply IH; eauto.
Qed.
Print Assumptions C160_stable_value_over_history.

(** Without deposits and withdrawals no sequence of swaps, by whomever, takes more units out than it puts in, apart from two
    units per swap. *)
Theorem C160_stable_trading_never_profits H w l w' c p p' : reachable H w -> stable_at w c p ->
  l_preca p = l_precb p -> l_preca p <= 8 -> run_if (fun _ k => ~ s_moves c k) H w l w' -> stable_at w' c p' ->
  l_total p' = l_total p /\ l_ra p + l_rb p <= l_ra p' + l_rb p' + 2 * s_count (s_swaps c) l.
Proof.
  intros R Hp Eq P8 Rn Hp'. revert p R Hp Eq P8.
  induction Rn as [w|w e k w1 l w2 St Ok1 Rn IH|w n s w1 l w2 St Rn IH]; intros p R Hp Eq P8.
  - unfold stable_at in *. rewrite Hp in Hp'. inversion Hp'; subst p'. simpl. lia.
  - assert (R1 : reachable H w1) by (eapply reach_run; [exact R|econstructor; [exact St|constructor]]).
    inversion St as [e0 k0 w0 Eh X|]; subst.
    assert (Q : exists q, stable_at w1 c q /\ same_kind p q /\ l_total q = l_total p /\ l_ra p + l_rb p <= l_ra q + l_rb q + 2 * s_swaps c k).
    { assert (Dc : s_may_swap c k \/ ~ s_may_swap c k).
      { destruct k; simpl; try tauto. destruct (Z.eq_dec p0 c); tauto. }
      destruct Dc as [Dc|Dc]; [exact (s_trade _ _ _ _ _ _ _ R eq_refl X Hp Eq P8 Dc)|].
      destruct (s_idle _ _ _ _ _ _ _ R Hp X Dc Ok1) as [q [E [S [T [A B]]]]]. exists q. repeat (split; [auto|]).
      assert (0 <= s_swaps c k) by (destruct k; simpl; try lia; destruct (_ =? _); lia). lia. }
    destruct Q as [q [E [[A1 [A2 [A3 [A4 A5]]]] [T K]]]].
    destruct (IH Hp' q R1 E ltac:(congruence) ltac:(lia)) as [T' K']. simpl s_count. split; [congruence|lia].
  - assert (R1 : reachable H w1) by (eapply reach_run; [exact R|econstructor; [exact St|constructor]]).
    inversion St; subst. simpl. eapply IH; eauto.
Qed.
Print Assumptions C160_stable_trading_never_profits.

(** Swapping forth and straight back returns at most the amount put in, less both fees, plus four units of rounding. *)
Theorem C160_stable_round_trip H w e c u o b x mi ms dl mf y w1 e' mi' ms' dl' mf' z w2 p : reachable H w -> stable_at w c p ->
  l_preca p = l_precb p -> l_preca p <= 8 -> e_hash e = H ->
  stable_swap e None c u o x mi ms dl mf w = Ok (y, w1) ->
  stable_swap e' None c u b y mi' ms' dl' mf' w1 = Ok (z, w2) ->
  exists f1 f2, f1 = (y + f1) * l_fee p / 10000 /\ f2 = (z + f2) * l_fee p / 10000 /\ z <= x - f1 - f2 + 4.
Proof.
  intros R Hp Eq P8 Eh X1 X2.
  destruct (s_swap_on _ _ _ _ _ _ _ _ _ _ _ _ _ _ R Hp Eq P8 X1) as [p1 [E1 [[A1 [A2 [A3 [A4 A5]]]] [T1 [K1 [A6 [f1 [F1 [G1 [H1 S1]]]]]]]]]].
  assert (R1 : reachable H w1).
  { apply (reach_tx H w e (CStableSwap c u o x mi ms dl mf) w1 R Eh). simpl. unfold drop, mbind. rewrite X1. reflexivity. }
  destruct (s_swap_on _ _ _ _ _ _ _ _ _ _ _ _ _ _ R1 E1 ltac:(congruence) ltac:(lia) X2) as [p2 [E2 [_ [T2 [K2 [_ [f2 [F2 [G2 [H2 S2]]]]]]]]]].
  exists f1, f2. split; [exact H1|]. split; [rewrite <- A6; exact H2|]. lia.
Qed.
Print Assumptions C160_stable_round_trip.
