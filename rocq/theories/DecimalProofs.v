(** Facts about Decimal.v *)
From Coq Require Import ZArith List Bool Lia.
From Coq Require Import ZifyBool.
From Verif Require Import Base Decimal.
Import ListNotations.
Open Scope Z_scope.

Lemma quot_nonneg_div a b : 0 <= a -> 0 < b -> Z.quot a b = a / b.
Proof. intros. apply Z.quot_div_nonneg; lia. Qed.

Lemma div_floor a b : 0 < b -> b * (a / b) <= a < b * (a / b + 1).
Proof.
  intros Hb. pose proof (Z.div_mod a b ltac:(lia)). pose proof (Z.mod_pos_bound a b Hb). nia.
Qed.

Lemma dec_from_ratio_ok n d r :
  dec_from_ratio n d = Ok r ->
  d <> 0 /\ I128_MIN <= n * DEC <= I128_MAX /\ r = Z.quot (n * DEC) d.
Proof.
  unfold dec_from_ratio. destruct (Z.eqb_spec d 0); intros H; [discriminate|].
  rstep H. auto.
Qed.

Lemma dec_from_ratio_pos n d r :
  dec_from_ratio n d = Ok r -> 0 <= n -> 0 < d ->
  0 <= r /\ r = (n * DEC) / d /\ d * r <= n * DEC < d * (r + 1).
Proof.
  intros H Hn Hd. apply dec_from_ratio_ok in H as [? [? ->]].
  assert (0 <= n * DEC) by (unfold DEC in *; lia).
  rewrite quot_nonneg_div by lia.
  pose proof (div_floor (n * DEC) d Hd).
  assert (0 <= n * DEC / d) by (apply Z.div_pos; lia).
  auto.
Qed.

Lemma dec_mul_ok a b r :
  dec_mul a b = Ok r -> I128_MIN <= a * b <= I128_MAX /\ r = Z.quot (a * b) DEC.
Proof. unfold dec_mul. intros H. rstep H. auto. Qed.

Lemma i_mul_dec_ok x d r : i_mul_dec x d = Ok r -> r = Z.quot (x * d) DEC.
Proof.
  unfold i_mul_dec. destruct (Z.eqb_spec x 0).
  - subst. intros H; inversion H. reflexivity.
  - destruct (Z.eqb_spec d 0); simpl; intros H.
    + subst. inversion H. rewrite Z.mul_0_r. reflexivity.
    + rstep H. auto.
Qed.

Lemma i_mul_dec_pos x d r :
  i_mul_dec x d = Ok r -> 0 <= x -> 0 <= d ->
  0 <= r /\ r = (x * d) / DEC /\ DEC * r <= x * d < DEC * (r + 1).
Proof.
  intros H Hx Hd. apply i_mul_dec_ok in H. subst.
  assert (0 <= x * d) by nia.
  rewrite quot_nonneg_div by (unfold DEC in *; lia).
  pose proof (div_floor (x * d) DEC ltac:(unfold DEC; lia)).
  assert (0 <= x * d / DEC) by (apply Z.div_pos; unfold DEC in *; lia).
  auto.
Qed.

(** Truncation toward zero, stated without [Z.quot]: [r] is the truncation of [p/q]. *)
Definition trunc_of (p q r : Z) : Prop :=
  q <> 0 /\ Z.abs r * Z.abs q <= Z.abs p < (Z.abs r + 1) * Z.abs q /\
  (r <> 0 -> (0 < r <-> 0 < p * q)).

Lemma quot_trunc p q : q <> 0 -> trunc_of p q (Z.quot p q).
Proof.
  intros Hq. unfold trunc_of. split; auto.
  assert (E : Z.abs (Z.quot p q) = Z.abs p / Z.abs q).
  { rewrite <- Z.quot_abs by auto. apply Z.quot_div_nonneg; lia. }
  split.
  - rewrite E. pose proof (div_floor (Z.abs p) (Z.abs q) ltac:(lia)). nia.
  - intros Hne.
    destruct (Z.lt_trichotomy p 0) as [Hp|[Hp|Hp]], (Z.lt_trichotomy q 0) as [Hq0|[Hq0|Hq0]];
      try lia.
    + assert (Z.quot p q = Z.quot (-p) (-q)) as EE by (rewrite Z.quot_opp_opp; lia).
      assert (0 <= Z.quot (-p) (-q)) by (apply Z.quot_pos; lia). nia.
    + assert (Z.quot p q = - Z.quot (-p) q) as EE by (rewrite Z.quot_opp_l; lia).
      assert (0 <= Z.quot (-p) q) by (apply Z.quot_pos; lia). nia.
    + subst. rewrite Z.quot_0_l in Hne by lia. lia.
    + subst. rewrite Z.quot_0_l in Hne by lia. lia.
    + assert (Z.quot p q = - Z.quot p (-q)) as EE by (rewrite Z.quot_opp_r; lia).
      assert (0 <= Z.quot p (-q)) by (apply Z.quot_pos; lia). nia.
    + assert (0 <= Z.quot p q) by (apply Z.quot_pos; lia). nia.
Qed.

Lemma trunc_unique p q r1 r2 : trunc_of p q r1 -> trunc_of p q r2 -> r1 = r2.
Proof.
  intros [Hq [A1 B1]] [_ [A2 B2]].
  assert (Z.abs r1 = Z.abs r2) by nia.
  destruct (Z.eq_dec r1 0); [lia|]. destruct (Z.eq_dec r2 0); [lia|].
  specialize (B1 n). specialize (B2 n0). lia.
Qed.

(** ** Text round trip *)
Definition all_digits (s : list Z) : Prop := Forall (fun c => is_digit c = true) s.

Lemma parse_digits_app acc s t :
  all_digits s ->
  parse_digits acc (s ++ t) =
  match parse_digits acc s with Some v => parse_digits v t | None => None end.
Proof.
  revert acc. induction s as [|c s IH]; simpl; intros acc H; auto.
  inversion H; subst. rewrite H2. apply IH; auto.
Qed.

Lemma parse_digits_total acc s : all_digits s ->
  exists v, parse_digits acc s = Some v.
Proof.
  revert acc. induction s as [|c s IH]; simpl; intros acc H; eauto.
  inversion H; subst. rewrite H2. apply IH; auto.
Qed.

Lemma parse_digits_shift acc s v :
  all_digits s -> parse_digits 0 s = Some v ->
  parse_digits acc s = Some (acc * 10 ^ Z.of_nat (length s) + v).
Proof.
  intros H. revert acc v. induction H as [|c s Hc Hs IH]; intros acc v E.
  - simpl in *. inversion E. f_equal. lia.
  - cbn [parse_digits] in *. rewrite Hc in *.
    destruct (parse_digits_total 0 s Hs) as [u Hu].
    rewrite (IH _ _ Hu) in E. rewrite (IH _ _ Hu). inversion E; subst.
    f_equal. simpl length. rewrite Nat2Z.inj_succ, Z.pow_succ_r by lia. ring.
Qed.

Lemma parse_digits_bound s v : all_digits s -> parse_digits 0 s = Some v ->
  0 <= v < 10 ^ Z.of_nat (length s).
Proof.
  intros H. revert v. induction H as [|c s Hc Hs IH]; intros v E.
  - simpl in *. inversion E. lia.
  - cbn [parse_digits] in E. rewrite Hc in E.
    destruct (parse_digits_total 0 s Hs) as [u Hu].
    rewrite (parse_digits_shift _ _ _ Hs Hu) in E. inversion E; subst.
    specialize (IH _ Hu). simpl length. rewrite Nat2Z.inj_succ, Z.pow_succ_r by lia.
    unfold is_digit in Hc. nia.
Qed.

Lemma digit_code d : 0 <= d < 10 -> is_digit (48 + d) = true.
Proof. unfold is_digit. lia. Qed.

Lemma digits_aux_spec f : forall n acc, (0 < f)%nat -> 0 <= n < 10 ^ Z.of_nat f ->
  exists ds, digits_aux f n acc = ds ++ acc /\ all_digits ds /\ ds <> [] /\
    parse_digits 0 ds = Some n /\ (length ds <= f)%nat.
Proof.
  induction f as [|f IH]; intros n acc Hf Hn; [lia|].
  cbn [digits_aux]. destruct (Z.ltb_spec n 10).
  - exists [48 + n]. split; [reflexivity|]. split; [|split; [discriminate|split]].
    + constructor; [apply digit_code; lia | constructor].
    + cbn [parse_digits]. rewrite digit_code by lia. f_equal. lia.
    + simpl. lia.
  - destruct f as [|f].
    { change (10 ^ Z.of_nat 1) with 10 in Hn. lia. }
    destruct (IH (n / 10) ((48 + n mod 10) :: acc)) as [ds [E [D [NE [P L]]]]]; [lia| |].
    { rewrite Nat2Z.inj_succ, Z.pow_succ_r in Hn by lia.
      split; [apply Z.div_pos; lia|]. apply Z.div_lt_upper_bound; lia. }
    exists (ds ++ [48 + n mod 10]). rewrite E, <- app_assoc. split; [reflexivity|].
    pose proof (Z.mod_pos_bound n 10 ltac:(lia)).
    split; [|split; [|split]].
    + apply Forall_app. split; auto. constructor; [apply digit_code; lia | constructor].
    + intros C. apply app_eq_nil in C as [_ C]. discriminate.
    + rewrite parse_digits_app by auto. rewrite P. cbn [parse_digits].
      rewrite digit_code by lia. f_equal. pose proof (Z.div_mod n 10). lia.
    + rewrite app_length. simpl. lia.
Qed.

(** a number below 10^k prints with at most k digits *)
Lemma digits_aux_len f : forall n acc k, (0 < k)%nat -> 0 <= n < 10 ^ Z.of_nat k ->
  (length (digits_aux f n acc) <= k + length acc)%nat.
Proof.
  induction f as [|f IH]; intros n acc k Hk Hn; simpl; [lia|].
  destruct (Z.ltb_spec n 10); simpl; [lia|].
  destruct k as [|k]; [lia|].
  destruct k as [|k].
  { change (10 ^ Z.of_nat 1) with 10 in Hn. lia. }
  specialize (IH (n / 10) ((48 + n mod 10) :: acc) (S k)). simpl length in IH.
  assert (0 <= n / 10 < 10 ^ Z.of_nat (S k)).
  { rewrite (Nat2Z.inj_succ (S k)), Z.pow_succ_r in Hn by lia.
    split; [apply Z.div_pos; lia|]. apply Z.div_lt_upper_bound; lia. }
  specialize (IH ltac:(lia) H0). lia.
Qed.

Arguments digits_aux : simpl never.
Arguments show_nat : simpl never.

Lemma show_nat_spec n : 0 <= n <= I128_MAX ->
  all_digits (show_nat n) /\ show_nat n <> [] /\ parse_digits 0 (show_nat n) = Some n.
Proof.
  intros H. unfold show_nat.
  destruct (digits_aux_spec 40 n [] ltac:(lia)) as [ds [E [D [NE [P _]]]]].
  { unfold I128_MAX in H. change (10 ^ Z.of_nat 40) with
      10000000000000000000000000000000000000000. lia. }
  rewrite E, app_nil_r. auto.
Qed.

Lemma parse_unsigned_nonempty s : s <> [] -> parse_unsigned s = parse_digits 0 s.
Proof. destruct s; [congruence|reflexivity]. Qed.

Lemma parse_i128_digits s v :
  all_digits s -> s <> [] -> parse_digits 0 s = Some v -> v <= I128_MAX ->
  parse_i128 s = Some v.
Proof.
  intros D NE P B. unfold parse_i128.
  pose proof (parse_digits_bound _ _ D P) as Bd.
  destruct s as [|c s]; [congruence|].
  inversion D; subst. assert (Hc : is_digit c = true) by auto.
  unfold is_digit in Hc. unfold c_minus, c_plus.
  destruct (Z.eqb_spec c 45); [lia|]. destruct (Z.eqb_spec c 43); [lia|].
  rewrite parse_unsigned_nonempty by discriminate. rewrite P.
  assert (in_i128 v = true) as ->; auto. apply in_i128_iff. unfold I128_MIN. lia.
Qed.

Lemma split_dot_nodot cur s : Forall (fun c => c <> c_dot) s ->
  split_dot cur s = [rev cur ++ s].
Proof.
  intros H. revert cur. induction H as [|c s Hc Hs IH]; intros cur; simpl.
  - now rewrite app_nil_r.
  - destruct (Z.eqb_spec c c_dot); [congruence|]. rewrite IH. simpl. now rewrite <- app_assoc.
Qed.

Lemma split_dot_dot cur s t : Forall (fun c => c <> c_dot) s ->
  split_dot cur (s ++ c_dot :: t) = (rev cur ++ s) :: split_dot [] t.
Proof.
  intros H. revert cur. induction H as [|c s Hc Hs IH]; intros cur; simpl app.
  - simpl. now rewrite app_nil_r.
  - simpl split_dot. destruct (Z.eqb_spec c c_dot); [congruence|].
    rewrite IH. simpl. now rewrite <- app_assoc.
Qed.

Lemma digits_nodot s : all_digits s -> Forall (fun c => c <> c_dot) s.
Proof.
  intros H. eapply Forall_impl; [|exact H]. intros c Hc. unfold is_digit in Hc.
  unfold c_dot. lia.
Qed.

Lemma repeat_zero_parse k s :
  parse_digits 0 (repeat c_zero k ++ s) = parse_digits 0 s.
Proof. induction k; simpl; auto. Qed.

Lemma pad18_spec s v : all_digits s -> s <> [] -> parse_digits 0 s = Some v ->
  (length s <= 18)%nat ->
  all_digits (pad18 s) /\ length (pad18 s) = 18%nat /\ parse_digits 0 (pad18 s) = Some v.
Proof.
  intros D NE P L. unfold pad18. split; [|split].
  - apply Forall_app; split; auto. apply Forall_forall. intros c Hc.
    apply repeat_spec in Hc. subst. reflexivity.
  - rewrite app_length, repeat_length. lia.
  - rewrite repeat_zero_parse. exact P.
Qed.

Lemma drop_zeros_decomp s : exists k, s = repeat c_zero k ++ drop_zeros s /\
  (forall c tl, drop_zeros s = c :: tl -> c <> c_zero).
Proof.
  induction s as [|c s IH]; simpl.
  - exists 0%nat. split; auto. discriminate.
  - destruct (Z.eqb_spec c c_zero).
    + destruct IH as [k [E N]]. exists (S k). simpl. split; [congruence|auto].
    + exists 0%nat. split; auto. intros c' tl E. inversion E; subst; auto.
Qed.

Lemma rev_repeat {A} (c : A) k : rev (repeat c k) = repeat c k.
Proof.
  induction k; simpl; auto. rewrite IHk.
  clear. induction k; simpl; auto. congruence.
Qed.

Lemma trim_zeros_decomp s : exists k, s = trim_zeros s ++ repeat c_zero k.
Proof.
  unfold trim_zeros. destruct (drop_zeros_decomp (rev s)) as [k [E _]].
  exists k. apply (f_equal (@rev Z)) in E.
  rewrite rev_involutive, rev_app_distr, rev_repeat in E. exact E.
Qed.

Lemma parse_zeros_tail s k v : all_digits s -> parse_digits 0 s = Some v ->
  parse_digits 0 (s ++ repeat c_zero k) = Some (v * 10 ^ Z.of_nat k).
Proof.
  intros D P. rewrite parse_digits_app by auto. rewrite P.
  assert (Z0 : all_digits (repeat c_zero k)).
  { apply Forall_forall. intros c Hc. apply repeat_spec in Hc. subst. reflexivity. }
  assert (P0 : parse_digits 0 (repeat c_zero k) = Some 0).
  { clear. induction k; simpl; auto. }
  rewrite (parse_digits_shift v _ _ Z0 P0). rewrite repeat_length. f_equal. lia.
Qed.

Lemma show_int_nonneg n : 0 <= n -> show_int n = show_nat n.
Proof. intros H. unfold show_int. apply Z.ltb_ge in H. now rewrite H. Qed.

Theorem dec_roundtrip_nonneg v : 0 <= v <= I128_MAX -> dec_parse (dec_show v) = Ok v.
Proof.
  intros H. unfold dec_show.
  assert (HD : 0 < DEC) by (unfold DEC; lia).
  rewrite Z.quot_div_nonneg, Z.rem_mod_nonneg by lia.
  pose proof (Z.div_mod v DEC ltac:(lia)) as DM.
  pose proof (Z.mod_pos_bound v DEC HD) as MB.
  assert (DP : 0 <= v / DEC) by (apply Z.div_pos; lia).
  assert (DB : v / DEC <= I128_MAX) by nia.
  remember (v / DEC) as q eqn:Eq0. remember (v mod DEC) as r eqn:Er0. clear Eq0 Er0.
  destruct (show_nat_spec q ltac:(lia)) as [D [NE P]].
  assert (SI : show_int q = show_nat q) by (apply show_int_nonneg; lia).
  rewrite SI.
  assert (Q : parse_i128 (show_nat q) = Some q) by (apply parse_i128_digits; auto).
  assert (QM : mul_i q DEC = Ok (q * DEC)).
  { apply mul_i_intro. unfold I128_MIN. nia. }
  destruct (Z.eqb_spec r 0) as [R0|R0].
  - unfold dec_parse. rewrite split_dot_nodot by (apply digits_nodot; auto).
    cbn [rev app]. rewrite Q. unfold of_option, rbind. rewrite QM. f_equal. lia.
  - assert (RL : r < DEC) by lia.
    destruct (show_nat_spec r ltac:(unfold DEC, I128_MAX in *; lia)) as [Dr [NEr Pr]].
    assert (SIr : show_int r = show_nat r) by (apply show_int_nonneg; lia).
    rewrite SIr.
    assert (Lr : (length (show_nat r) <= 18)%nat).
    { unfold show_nat. pose proof (digits_aux_len 40 r [] 18 ltac:(lia)) as X.
      cbn [length] in X. rewrite Nat.add_0_r in X. apply X.
      change (10 ^ Z.of_nat 18) with DEC. lia. }
    destruct (pad18_spec _ _ Dr NEr Pr Lr) as [Dp [Lp Pp]].
    set (p := pad18 (show_nat r)) in *.
    destruct (trim_zeros_decomp p) as [k Ek].
    set (t := trim_zeros p) in *.
    assert (Dt : all_digits t).
    { rewrite Ek in Dp. apply Forall_app in Dp. tauto. }
    destruct (parse_digits_total 0 t Dt) as [u Pu].
    assert (U : r = u * 10 ^ Z.of_nat k).
    { pose proof (parse_zeros_tail t k u Dt Pu) as X. rewrite <- Ek in X. congruence. }
    assert (Lk : (length t + k = 18)%nat).
    { rewrite Ek, app_length, repeat_length in Lp. lia. }
    assert (NEt : t <> []).
    { intros C. rewrite C in Pu. simpl in Pu. inversion Pu; subst. lia. }
    assert (Ub : 0 <= u <= r).
    { pose proof (parse_digits_bound _ _ Dt Pu).
      assert (0 < 10 ^ Z.of_nat k) by (apply Z.pow_pos_nonneg; lia). nia. }
    assert (T : parse_i128 t = Some u)
      by (apply parse_i128_digits; auto; unfold DEC, I128_MAX in *; lia).
    unfold dec_parse.
    rewrite split_dot_dot by (apply digits_nodot; auto).
    rewrite split_dot_nodot by (apply digits_nodot; auto).
    cbn [rev app]. rewrite Q. unfold of_option, rbind, guard. rewrite QM, T.
    replace (18 - Z.of_nat (length t)) with (Z.of_nat k) by lia.
    destruct (Z.leb_spec 0 (Z.of_nat k)); [|lia].
    rewrite mul_i_intro by (rewrite <- U; unfold I128_MIN, I128_MAX, DEC in *; lia).
    rewrite <- U. rewrite add_i_intro by (unfold I128_MIN; lia). f_equal. lia.
Qed.
