(** The two Newton iterations of the stable pool. *)
From Coq Require Import ZArith List Bool Lia Psatz.
From Coq Require Import ZifyBool.
From Verif Require Import Base FMap Decimal DecimalProofs World Token TokenProofs Frame Stake Pool PoolProofs Stable StableProofs.
Import ListNotations.
Open Scope Z_scope.

(** one rounded Newton step for D: [l] leverage, [s] sum, [q] four times the product *)
Definition d_next (l s q d : Z) : Z :=
  let p := d ^ 3 / q in ((l * s + 2 * p) * d) / ((l - 1) * d + 3 * p).
(** one rounded Newton step for y *)
Definition y_next (c b d y : Z) : Z := (y ^ 2 + c) / (2 * y + b - d).

(** [d + 1] is above the root of (l-1) x + x^3/q = l s *)
Definition above (l s q d : Z) : Prop := l * s * q < (l - 1) * (d + 1) * q + (d + 1) ^ 3.

Lemma abs_diff_abs a b : abs_diff a b = Z.abs (a - b).
Proof. unfold abs_diff. destruct (Z.ltb_spec a b); lia. Qed.

Lemma next_pos l s q d : 1 <= l -> 2 <= s -> 4 <= q -> 0 < d -> (l - 1) * d + 3 * (d ^ 3 / q) <> 0 -> 0 < d_next l s q d.
Proof.
  intros Ll Ls Lq Ld Nz. unfold d_next. cbv zeta.
  assert (P0 : 0 <= d ^ 3 / q) by (apply Z.div_pos; nia).
  assert (P1 : d = 1 -> d ^ 3 / q = 0) by (intros ->; apply Z.div_small; lia).
  remember (d ^ 3 / q) as p. clear Heqp.
  apply Z.div_str_pos. split; [nia|]. destruct (Z.eq_dec d 1) as [->|]; [rewrite P1 by auto; nia|]. nia.
Qed.

Lemma next_above l s q d : 6 <= l -> 4 <= q -> 0 < d <= s -> (l - 1) * d + 3 * (d ^ 3 / q) <> 0 ->
  above l s q (d_next l s q d).
Proof.
  intros Ll Lq [Ld Ls] Nz. unfold above, d_next. cbv zeta.
  pose proof (div_floor (d ^ 3) q ltac:(lia)) as [F1 F2].
  assert (P0 : 0 <= d ^ 3 / q) by (apply Z.div_pos; nia).
  remember (d ^ 3 / q) as p. clear Heqp.
  pose proof (div_floor ((l * s + 2 * p) * d) ((l - 1) * d + 3 * p) ltac:(nia)) as [_ G].
  remember ((l * s + 2 * p) * d / ((l - 1) * d + 3 * p) + 1) as z. 
  replace ((l * s + 2 * p) * d / ((l - 1) * d + 3 * p)) with (z - 1) in * by lia. clear Heqz.
  replace (z - 1 + 1) with z in * by lia.
  assert (D0 : 0 < (l - 1) * d + 3 * p) by nia.
  assert (Z3 : 2 * d <= 3 * z).
  { destruct (Z_le_gt_dec (2 * d) (3 * z)); auto. exfalso.
    assert (3 * ((l * s + 2 * p) * d) < 2 * d * ((l - 1) * d + 3 * p)) by nia.
    assert (3 * (l * s + 2 * p) < 2 * ((l - 1) * d + 3 * p)) by nia. nia. }
  (* d * (goal difference) *)
  assert (K : 0 < d * ((l - 1) * z * q + z ^ 3 - l * s * q)); [|nia].
  set (r := d ^ 3 - q * p) in *.
  assert (R0 : 0 <= r) by (unfold r; lia).
  assert (E : d * ((l - 1) * z * q + z ^ 3 - l * s * q) =
     q * (z * ((l - 1) * d + 3 * p) - (l * s + 2 * p) * d) + d * (z - d) ^ 2 * (z + 2 * d) + r * (3 * z - 2 * d)).
  { unfold r. ring. }
  rewrite E. 
  assert (0 < z) by lia.
  assert (0 <= d * (z - d) ^ 2 * (z + 2 * d)) by (apply Z.mul_nonneg_nonneg; [apply Z.mul_nonneg_nonneg; [lia|nia]|lia]).
  assert (0 <= r * (3 * z - 2 * d)) by (apply Z.mul_nonneg_nonneg; lia).
  assert (0 < q * (z * ((l - 1) * d + 3 * p) - (l * s + 2 * p) * d)) by (apply Z.mul_pos_pos; lia).
  lia.
Qed.

Lemma sum_above l s q : 1 <= l -> 0 < q <= s * s -> 0 < s -> above l s q s.
Proof. intros. unfold above. nia. Qed.

Lemma next_le l s q d : 6 <= l -> 4 <= q <= s * s -> 0 < d <= s -> above l s q d -> d_next l s q d <= s.
Proof.
  intros Ll [Lq Lqs] [Ld Ls] A. unfold above in A. unfold d_next. cbv zeta.
  pose proof (div_floor (d ^ 3) q ltac:(lia)) as [F1 F2].
  assert (P0 : 0 <= d ^ 3 / q) by (apply Z.div_pos; nia).
  remember (d ^ 3 / q) as p. clear Heqp.
  assert (D0 : 0 < (l - 1) * d + 3 * p) by nia.
  cut ((l * s + 2 * p) * d / ((l - 1) * d + 3 * p) < s + 1); [lia|].
  apply Z.div_lt_upper_bound; [lia|].
  destruct (Z_le_gt_dec d p) as [C|C]; [nia|].
  (* p < d, so d^2 < q *)
  assert (Q1 : d * d < q).
  { destruct (Z_lt_le_dec (d * d) q); auto. exfalso. assert (d ^ 3 < q * d) by nia. assert (d ^ 3 = d * (d * d)) by ring. nia. }
  assert (Q2 : q < (d + 1) * (d + 1)).
  { destruct (Z_lt_le_dec q ((d + 1) * (d + 1))) as [|B]; auto. exfalso.
    assert ((d + 1) ^ 3 <= (d + 1) * q) by nia.
    assert (l * s * q < l * (d + 1) * q) by nia. assert (l * s < l * (d + 1)) by nia. assert (s < d + 1) by nia. nia. }
  assert (Q3 : d - p <= 2).
  { destruct (Z_le_gt_dec (d - p) 2); auto. exfalso.
    assert (d ^ 3 < (d * d + 2 * d + 1) * (d - 2)) by nia. 
    assert (d ^ 3 = d * d * d) by ring. nia. }
  assert (Q4 : s - 1 <= d).
  { destruct (Z_le_gt_dec (s - 1) d); auto. exfalso.
    assert (E : (d + 1) ^ 3 = (d + 1) * (d * d) + (d + 1) * (2 * d + 1)) by ring.
    assert (l * (d + 2) * q <= l * s * q) by nia.
    assert (l * q < (d + 1) ^ 3 - (d + 1) * q) by nia.
    assert ((d + 1) ^ 3 - (d + 1) * q <= (d + 1) * (2 * d)) by nia. nia. }
  nia.
Qed.

Definition DInv (l s q d : Z) : Prop := 0 < d <= s /\ above l s q d.

Lemma d_loop_ok f : forall d l s q r, d_loop f d l s q = Ok r ->
  6 <= l -> 2 <= s -> 4 <= q <= s * s -> DInv l s q d ->
  DInv l s q r /\ exists d0, DInv l s q d0 /\ r = d_next l s q d0 /\ Z.abs (r - d0) <= 10 ^ 12.
Proof.
  induction f as [|f IH]; intros d l s q r H Ll Ls Lq J; [discriminate|].
  unfold d_loop in H; fold d_loop in H. unfold cube_w, calculate_step in H.
  apply rbind_ok in H. destruct H as [d3 [H3 H]]. apply chk_ok in H3. destruct H3 as [-> _].
  apply rbind_ok in H. destruct H as [dp [Hp H]]. rstep Hp.
  apply rbind_ok in H. destruct H as [d' [Hd H]]. rstep Hd.
  assert (E : (l * s + d ^ 3 / q * N_COINS) * d / (d * (l - 1) + d ^ 3 / q * 3) = d_next l s q d).
  { unfold d_next, N_COINS. rewrite (Z.mul_comm d (l - 1)), (Z.mul_comm (d ^ 3 / q) 3), (Z.mul_comm (d ^ 3 / q) 2). reflexivity. }
  rewrite E in H. clear E.
  assert (Nz : (l - 1) * d + 3 * (d ^ 3 / q) <> 0) by lia.
  destruct J as [Jd Ja].
  assert (J' : DInv l s q (d_next l s q d)).
  { split; [split|].
    - apply next_pos; lia.
    - apply next_le; auto.
    - apply next_above; auto; lia. }
  rewrite abs_diff_abs in H.
  match type of H with (if ?b then _ else _) = _ => destruct b eqn:Eb end.
  - inversion H; subst r. split; [exact J'|]. exists d. split; [split; assumption|]. split; [reflexivity|]. unfold TOL in Eb. lia.
  - eapply IH; eauto.
Qed.

Lemma compute_d_ok amp a b D : 0 <= a -> 0 <= b -> compute_d amp a b = Ok D ->
  (a = 0 /\ b = 0 /\ D = 0) \/
  (0 < a /\ 0 < b /\ 100 <= amp /\ 4 * a * b < 2 ^ 128 /\ a + b < 2 ^ 128 /\
   let l := (amp / 100) * (2 * 10 ^ 18) in
   DInv l (a + b) (4 * a * b) D /\
   exists d, DInv l (a + b) (4 * a * b) d /\ D = d_next l (a + b) (4 * a * b) d /\ Z.abs (D - d) <= 10 ^ 12).
Proof.
  intros Pa Pb H. unfold compute_d in H.
  apply rbind_ok in H. destruct H as [l [Hl H]]. apply rbind_ok in H. destruct H as [a2 [Ha H]].
  apply rbind_ok in H. destruct H as [b2 [Hb H]]. apply rbind_ok in H. destruct H as [s [Hs H]].
  rstep Ha. rstep Hb. rstep Hs.
  destruct (Z.eqb_spec (a + b) 0); [left; inversion H; lia|]. right.
  apply rbind_ok in H. destruct H as [q [Hq H]]. rstep Hq. 
  replace (a * N_COINS * (b * N_COINS)) with (4 * a * b) in * by (unfold N_COINS; ring).
  assert (Hl' : l = amp / 100 * (2 * 10 ^ 18) /\ 0 <= l).
  { apply mul_u_ok in Hl. destruct Hl as [-> Hl]. split; [reflexivity|lia]. }
  destruct Hl' as [El Pl].
  destruct (Z.eq_dec (4 * a * b) 0) as [Q0|Q0].
  { exfalso. rewrite Q0 in H. unfold d_loop in H; fold d_loop in H. unfold cube_w in H.
    apply rbind_ok in H. destruct H as [? [_ H]]. apply rbind_ok in H. destruct H as [? [H _]]. discriminate. }
  assert (PPa : 0 < a) by nia. assert (PPb : 0 < b) by nia.
  destruct (Z_lt_le_dec amp 100) as [A1|A1].
  { exfalso. assert (Ez : l = 0). { assert (amp / 100 <= 0) by (apply Z.lt_succ_r; apply Z.div_lt_upper_bound; lia). lia. }
    subst l. rewrite Ez in H. unfold d_loop in H; fold d_loop in H. unfold calculate_step in H.
    apply rbind_ok in H. destruct H as [? [_ H]]. apply rbind_ok in H. destruct H as [? [_ H]].
    apply rbind_ok in H. destruct H as [? [H _]]. rstep H. lia. }
  assert (1 <= amp / 100) by (apply Z.div_le_lower_bound; lia).
  unfold U128_MAX in *.
  split; [assumption|]. split; [assumption|]. split; [assumption|]. split; [lia|]. split; [lia|].
  rewrite <- El. cbv zeta.
  assert (L6 : 6 <= l) by lia. assert (S2 : 2 <= a + b) by lia.
  assert (Q4 : 4 <= 4 * a * b <= (a + b) * (a + b)) by (pose proof (Z.square_nonneg (a - b)); pose proof (Z.mul_pos_pos a b PPa PPb); lia).
  apply d_loop_ok in H; [exact H|exact L6|exact S2|exact Q4|].
  split; [lia|]. apply sum_above; lia.
Qed.

Lemma y_loop_ok f : forall y b c d r, y_loop f y b c d = Ok r ->
  exists y0, r = y_next c b d y0 /\ 0 < 2 * y0 + b - d /\ Z.abs (r - y0) <= 10 ^ 12.
Proof.
  induction f; intros y b c d r H; [discriminate|].
  unfold y_loop in H; fold y_loop in H. unfold square_w in H.
  apply rbind_ok in H. destruct H as [y2 [H2 H]]. apply chk_ok in H2. destruct H2 as [-> _].
  rstep H.
  match goal with R : (if ?b then _ else _) = Ok r |- _ => rename R into H end.
  replace ((y ^ 2 + c) / (y * N_COINS + b - d)) with (y_next c b d y) in H.
  2:{ unfold y_next, N_COINS. rewrite (Z.mul_comm y 2). reflexivity. }
  rewrite abs_diff_abs in H. unfold N_COINS in *.
  match type of H with (if ?b then _ else _) = _ => destruct b eqn:Eb end; [|eapply IHf; eauto].
  inversion H; subst. exists y. split; [reflexivity|]. unfold TOL in Eb. split; lia.
Qed.

(** a rounded Newton step never ends below the curve: the value plus one is above the root *)
Lemma y_next_above c b d y : 0 < 2 * y + b - d ->
  let z := y_next c b d y + 1 in c < z ^ 2 + (b - d) * z.
Proof.
  intros W. cbv zeta. unfold y_next.
  pose proof (div_floor (y ^ 2 + c) (2 * y + b - d) W) as [_ F].
  remember ((y ^ 2 + c) / (2 * y + b - d)) as Y. pose proof (Z.square_nonneg (Y + 1 - y)). rewrite Z.pow_2_r in *. lia.
Qed.

Lemma calc_y_ok amp new a b target r : 0 <= a -> 0 <= b -> calc_y amp new a b target = Ok r ->
  exists D y y0, compute_d amp a b = Ok D /\ target <= 18 /\ 0 < new /\ 0 < amp /\ 0 <= y /\ r = y / 10 ^ (18 - target) /\
    let bb := new + D * 100 / (2 * amp) in
    let c := (D ^ 3 * 100) / (8 * amp * new) in
    D ^ 3 * 10 ^ 20 < 2 ^ 256 /\
    y = y_next c bb D y0 /\ 0 < 2 * y0 + bb - D /\ Z.abs (y - y0) <= 10 ^ 12 /\
    c < (y + 1) ^ 2 + (bb - D) * (y + 1).
Proof.
  intros Pa Pb H. unfold calc_y in H.
  apply rbind_ok in H. destruct H as [D [HD H]].
  apply rbind_ok in H. destruct H as [l1 [H1 H]]. rstep H1.
  apply rbind_ok in H. destruct H as [lev [H2 H]]. rstep H2.
  apply rbind_ok in H. destruct H as [ap [H3 H]]. rstep H3.
  apply rbind_ok in H. destruct H as [d3 [H4 H]]. unfold cube_w in H4. apply chk_ok in H4. destruct H4 as [-> H4].
  apply rbind_ok in H. destruct H as [num [H5 H]]. rstep H5.
  apply rbind_ok in H. destruct H as [n4 [H6 H]]. rstep H6.
  apply rbind_ok in H. destruct H as [den [H7 H]]. rstep H7.
  apply rbind_ok in H. destruct H as [c [H8 H]]. apply div_w_ok in H8. destruct H8 as [N8 Ec].
  apply rbind_ok in H. destruct H as [dm [H9 H]]. apply mul_w_ok in H9. destruct H9 as [E9 H9].
  apply rbind_ok in H. destruct H as [dq [H10 H]]. apply div_w_ok in H10. destruct H10 as [N10 Eq].
  apply rbind_ok in H. destruct H as [bb [H11 H]]. apply add_w_ok in H11. destruct H11 as [Eb H11].
  apply rbind_ok in H. destruct H as [y [H12 H]].
  apply rbind_ok in H. destruct H as [f [H13 H]].
  apply rbind_ok in H. destruct H as [u [H14 H]].
  apply pow10_u_ok in H13. destruct H13 as [T0 [-> _]].
  unfold w2u in H14. destruct (y <=? U128_MAX); [|discriminate]. inversion H14; subst u.
  apply div_u_ok in H. destruct H as [Nf Er].
  pose proof (y_loop_nonneg _ _ _ _ _ _ H12) as Y0.
  apply y_loop_ok in H12. destruct H12 as [y0 [Ey [W Ab]]].
  assert (Pos : 0 < DEC) by reflexivity.
  unfold N_COINS in *.
  assert (PA : 0 < amp).
  { destruct (Z.eq_dec amp 0) as [->|]; [rewrite !Z.mul_0_l in N10; congruence|]. clear - H1 n Pos.
    destruct (Z_lt_le_dec 0 amp); auto. exfalso. nia. }
  assert (PN : 0 < new).
  { destruct (Z.eq_dec new 0) as [->|]; [rewrite !Z.mul_0_l in N8; congruence|]. lia. }
  exists D, y, y0. split; [exact HD|]. split; [unfold DECIMAL_PRECISION in T0; lia|].
  split; [exact PN|]. split; [exact PA|]. split; [exact Y0|]. split; [exact Er|]. cbv zeta.
  assert (E1 : D * 100 / (2 * amp) = dq).
  { rewrite Eq, E9. replace (D * (AMP_PRECISION * DEC)) with (D * 100 * DEC) by (unfold AMP_PRECISION; ring).
    replace (amp * DEC * 2) with (2 * amp * DEC) by ring. symmetry. apply Z.div_mul_cancel_r; lia. }
  assert (E2 : D ^ 3 * 100 / (8 * amp * new) = c).
  { rewrite Ec. replace (D ^ 3 * (AMP_PRECISION * DEC)) with (D ^ 3 * 100 * DEC) by (unfold AMP_PRECISION; ring).
    replace (new * 4 * (amp * DEC * 2)) with (8 * amp * new * DEC) by ring. symmetry. apply Z.div_mul_cancel_r; [|lia].
    clear - PA PN. nia. }
  rewrite E1, E2, <- Eb.
  split.
  { unfold U256_MAX in H5. change (AMP_PRECISION * DEC) with (10 ^ 20) in H5. lia. }
  split; [exact Ey|]. split; [exact W|]. split; [exact Ab|].
  subst y. apply y_next_above. exact W.
Qed.
