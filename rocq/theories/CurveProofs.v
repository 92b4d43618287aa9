(** Facts about Curve.v *)
From Coq Require Import ZArith List Bool Lia Permutation Sorting.Sorted.
From Coq Require Import ZifyBool.
From Verif Require Import Base Curve DecimalProofs.
Import ListNotations.
Open Scope Z_scope.

(** Values that fit the Rust types. *)
Definition wf_step (s : step) : Prop := 0 <= fst s <= U64_MAX /\ 0 <= snd s <= U128_MAX.
Definition wf_curve (c : curve) : Prop :=
  match c with
  | Constant y => 0 <= y <= U128_MAX
  | SatLin a b d e => wf_step (a, b) /\ wf_step (d, e)
  | PieceLin s => Forall wf_step s
  end.

(** ** Interpolation *)

(** Rounding of one interpolation step, without division: [v] is the value at
    [x] of the line through the two points, rounded toward the first value. *)
Definition rounded (a b d e x v : Z) : Prop :=
  let w := d - a in
  let n := b * w + (e - b) * (x - a) in
  (b < e -> n - w < w * v <= n) /\ (e <= b -> n <= w * v < n + w).

Lemma interpolate_ok a b d e x v :
  wf_step (a, b) -> wf_step (d, e) -> a < d -> a <= x <= d ->
  interpolate a b d e x = Ok v ->
  rounded a b d e x v /\ Z.min b e <= v <= Z.max b e.
Proof.
  unfold wf_step, interpolate, rounded; simpl. intros [A B] [D E] AD X.
  intros H; destruct (Z.ltb_spec b e) as [BE|BE]; rstep H.
  - pose proof (div_floor ((e - b) * (x - a)) (d - a) ltac:(lia)) as F.
    set (q := (e - b) * (x - a) / (d - a)) in *.
    assert (0 <= q) by (apply Z.div_pos; nia).
    assert (q <= e - b) by (apply Z.div_le_upper_bound; nia).
    split; [split; intros; nia | lia].
  - pose proof (div_floor ((b - e) * (x - a)) (d - a) ltac:(lia)) as F.
    set (q := (b - e) * (x - a) / (d - a)) in *.
    assert (0 <= q) by (apply Z.div_pos; nia).
    assert (q <= b - e) by (apply Z.div_le_upper_bound; nia).
    split; [split; intros; nia | lia].
Qed.

Lemma interpolate_start a b d e :
  wf_step (a, b) -> wf_step (d, e) -> a < d -> interpolate a b d e a = Ok b.
Proof.
  unfold wf_step, interpolate; simpl. intros [A B] [D E] AD.
  assert (S1 : sub_64 a a = Ok 0).
  { unfold sub_64, chk. rewrite Z.sub_diag. reflexivity. }
  assert (S2 : sub_64 d a = Ok (d - a)).
  { unfold sub_64, chk. assert (in_u64 (d - a) = true) as -> by (apply in_u64_iff; lia). auto. }
  destruct (Z.ltb_spec b e); rewrite S1; unfold rbind; rewrite mul_u_intro by lia;
    rewrite S2; rewrite Z.mul_0_r; unfold div_u; destruct (Z.eqb_spec (d - a) 0); try lia;
    rewrite Z.div_0_l by lia.
  - rewrite add_u_intro by lia. f_equal; lia.
  - rewrite sub_u_intro by lia. f_equal; lia.
Qed.

Lemma interpolate_end a b d e v :
  wf_step (a, b) -> wf_step (d, e) -> a < d -> interpolate a b d e d = Ok v -> v = e.
Proof.
  intros A D AD H. apply interpolate_ok in H; auto; try lia.
  unfold rounded in H. destruct H as [[H1 H2] _].
  destruct (Z.lt_ge_cases b e); [specialize (H1 H)|specialize (H2 H)]; nia.
Qed.

(** Interpolation is defined exactly when the product fits in u128. *)
Lemma interpolate_defined a b d e x :
  wf_step (a, b) -> wf_step (d, e) -> a < d -> a <= x <= d ->
  Z.abs (e - b) * (x - a) <= U128_MAX ->
  exists v, interpolate a b d e x = Ok v.
Proof.
  unfold wf_step, interpolate; simpl. intros [A B] [D E] AD X P.
  assert (S1 : sub_64 x a = Ok (x - a)).
  { unfold sub_64, chk. assert (in_u64 (x - a) = true) as -> by (apply in_u64_iff; lia). auto. }
  assert (S2 : sub_64 d a = Ok (d - a)).
  { unfold sub_64, chk. assert (in_u64 (d - a) = true) as -> by (apply in_u64_iff; lia). auto. }
  destruct (Z.ltb_spec b e); rewrite S1; unfold rbind; rewrite mul_u_intro by nia;
    rewrite S2; unfold div_u; destruct (Z.eqb_spec (d - a) 0); try lia.
  - assert (0 <= (e - b) * (x - a) / (d - a)) by (apply Z.div_pos; nia).
    assert ((e - b) * (x - a) / (d - a) <= e - b) by (apply Z.div_le_upper_bound; nia).
    rewrite add_u_intro by lia. eauto.
  - assert (0 <= (b - e) * (x - a) / (d - a)) by (apply Z.div_pos; nia).
    assert ((b - e) * (x - a) / (d - a) <= b - e) by (apply Z.div_le_upper_bound; nia).
    rewrite sub_u_intro by lia. eauto.
Qed.

Lemma interpolate_mono_dec a b d e x1 x2 v1 v2 :
  wf_step (a, b) -> wf_step (d, e) -> a < d -> e <= b -> a <= x1 <= x2 -> x2 <= d ->
  interpolate a b d e x1 = Ok v1 -> interpolate a b d e x2 = Ok v2 -> v2 <= v1.
Proof.
  intros A D AD EB X1 X2 H1 H2.
  apply interpolate_ok in H1 as [[_ R1] _]; auto; try lia.
  apply interpolate_ok in H2 as [[_ R2] _]; auto; try lia.
  specialize (R1 EB). specialize (R2 EB).
  assert ((e - b) * (x2 - a) <= (e - b) * (x1 - a)) by nia.
  assert ((d - a) * v2 < (d - a) * (v1 + 1)) by lia. nia.
Qed.

Lemma interpolate_mono_inc a b d e x1 x2 v1 v2 :
  wf_step (a, b) -> wf_step (d, e) -> a < d -> b <= e -> a <= x1 <= x2 -> x2 <= d ->
  interpolate a b d e x1 = Ok v1 -> interpolate a b d e x2 = Ok v2 -> v1 <= v2.
Proof.
  intros A D AD EB X1 X2 H1 H2.
  apply interpolate_ok in H1 as [[R1 R1'] B1]; auto; try lia.
  apply interpolate_ok in H2 as [[R2 R2'] B2]; auto; try lia.
  destruct (Z.eq_dec b e); [subst; lia|].
  specialize (R1 ltac:(lia)). specialize (R2 ltac:(lia)).
  assert ((e - b) * (x1 - a) <= (e - b) * (x2 - a)) by nia.
  assert ((d - a) * v1 < (d - a) * (v2 + 1)) by lia. nia.
Qed.

(** ** Piecewise linear curves *)
Fixpoint times_from (t : Z) (s : list step) : Prop :=
  match s with [] => True | p :: tl => t < fst p /\ times_from (fst p) tl end.

Lemma times_increasing_iff t s : times_increasing t s = true <-> times_from t s.
Proof.
  revert t. induction s as [|[u v] tl IH]; simpl; intros t; [tauto|].
  destruct (Z.ltb_spec t u); rewrite ?IH; split; try tauto; try lia; discriminate.
Qed.

Lemma times_from_weaken t t' s : t' <= t -> times_from t s -> times_from t' s.
Proof. destruct s; simpl; intuition lia. Qed.

Lemma last_cons {A} (p f : A) tl : last (p :: tl) f = last tl p.
Proof.
  revert p f. induction tl as [|q tl IH]; intros; auto.
  change (last (p :: q :: tl) f) with (last (q :: tl) f). rewrite !IH. auto.
Qed.

Lemma times_from_last f s : times_from (fst f) s -> fst f <= fst (last s f).
Proof.
  revert f. induction s as [|p tl IH]; intros f H; [simpl; lia|].
  destruct H as [H1 H2].
  rewrite last_cons. specialize (IH p H2). lia.
Qed.

(** Past the last time the search loop returns the last value. *)
Lemma pl_loop_past prev rest x :
  times_from (fst prev) rest -> fst (last rest prev) <= x ->
  pl_loop prev rest x = Ok (snd (last rest prev)).
Proof.
  revert prev. induction rest as [|n tl IH]; intros prev H L; [reflexivity|].
  destruct H as [H1 H2]. rewrite last_cons in *. simpl.
  pose proof (times_from_last _ _ H2).
  destruct (Z.ltb_spec x (fst n)); [lia|]. auto.
Qed.

Lemma pl_value_loop f rest x :
  Forall wf_step (f :: rest) -> times_from (fst f) rest -> fst f <= x ->
  pl_value (f :: rest) x = pl_loop f rest x.
Proof.
  intros W H X. unfold pl_value. rewrite last_cons.
  destruct (Z.leb_spec x (fst f)).
  - assert (x = fst f) by lia. subst. destruct rest as [|n tl]; [reflexivity|].
    simpl. destruct H as [H1 H2]. destruct (Z.ltb_spec (fst f) (fst n)); [|lia].
    inversion W as [|? ? W1 W2]; subst. inversion W2; subst.
    destruct f, n; simpl in *. symmetry. apply interpolate_start; auto.
  - destruct (Z.leb_spec (fst (last rest f)) x); auto.
    symmetry. now apply pl_loop_past.
Qed.

Lemma pl_value_before f rest x : x <= fst f -> pl_value (f :: rest) x = Ok (snd f).
Proof. intros H. unfold pl_value. destruct (Z.leb_spec x (fst f)); [auto|lia]. Qed.

(** Values along the steps *)
Fixpoint vals_dec (v : Z) (s : list step) : Prop :=
  match s with [] => True | p :: tl => snd p <= v /\ vals_dec (snd p) tl end.
Fixpoint vals_inc (v : Z) (s : list step) : Prop :=
  match s with [] => True | p :: tl => v <= snd p /\ vals_inc (snd p) tl end.

Lemma classify_loop_not v s : classify_loop v ShNot s = ShNot.
Proof. revert v. induction s as [|[u w] tl IH]; simpl; auto. Qed.

Lemma classify_loop_inc v s : classify_loop v ShInc s = ShNot \/ classify_loop v ShInc s = ShInc.
Proof.
  revert v. induction s as [|[u w] tl IH]; simpl; intros v; auto.
  destruct (w ?= v); auto. left. apply classify_loop_not.
Qed.

Lemma classify_loop_dec v s :
  classify_loop v ShDec s = ShNot \/ classify_loop v ShDec s = ShDec.
Proof.
  revert v. induction s as [|[u w] tl IH]; simpl; intros v; auto.
  destruct (w ?= v); auto. left. apply classify_loop_not.
Qed.

Lemma classify_dec_vals s : forall v sh, (sh = ShDec \/ sh = ShConst) ->
  classify_loop v sh s <> ShNot -> classify_loop v sh s <> ShInc -> vals_dec v s.
Proof.
  induction s as [|[u w] tl IH]; simpl; intros v sh Hsh N I; auto.
  destruct Hsh; subst; destruct (Z.compare_spec w v); subst;
    try (rewrite classify_loop_not in N; congruence);
    try (split; [lia|]; eapply IH; [|exact N|exact I]; auto; fail).
  all: exfalso; match goal with H : classify_loop ?w ShInc ?tl <> _ |- _ => destruct (classify_loop_inc w tl); congruence end.
Qed.

Lemma classify_inc_vals s : forall v sh, (sh = ShInc \/ sh = ShConst) ->
  classify_loop v sh s <> ShNot -> classify_loop v sh s <> ShDec -> vals_inc v s.
Proof.
  induction s as [|[u w] tl IH]; simpl; intros v sh Hsh N I; auto.
  destruct Hsh; subst; destruct (Z.compare_spec w v); subst;
    try (rewrite classify_loop_not in N; congruence);
    try (split; [lia|]; eapply IH; [|exact N|exact I]; auto; fail).
  all: exfalso; match goal with H : classify_loop ?w ShDec ?tl <> _ |- _ => destruct (classify_loop_dec w tl); congruence end.
Qed.

Lemma vals_dec_classify s : forall v sh, (sh = ShDec \/ sh = ShConst) ->
  vals_dec v s -> classify_loop v sh s = ShDec \/ classify_loop v sh s = ShConst.
Proof.
  induction s as [|[u w] tl IH]; simpl; intros v sh Hsh H; [tauto|].
  destruct H as [H1 H2]. simpl in *.
  destruct Hsh; subst; destruct (Z.compare_spec w v); subst; try lia; eapply IH; eauto.
Qed.

Lemma pl_loop_bounds_dec prev rest x v :
  Forall wf_step (prev :: rest) -> times_from (fst prev) rest -> vals_dec (snd prev) rest ->
  fst prev <= x -> pl_loop prev rest x = Ok v -> snd (last rest prev) <= v <= snd prev.
Proof.
  revert prev. induction rest as [|n tl IH]; intros prev W T D X H; simpl in H.
  - inversion H; subst. simpl. lia.
  - destruct T as [T1 T2], D as [D1 D2]. rewrite last_cons.
    inversion W as [|? ? W1 W2]; subst. inversion W2 as [|? ? W3 W4]; subst.
    assert (L : snd (last tl n) <= snd n).
    { clear - D2. revert n D2. induction tl as [|m tl IH]; intros n D; [simpl; lia|].
      destruct D as [D1 D2]. rewrite last_cons. specialize (IH m D2). lia. }
    destruct (Z.ltb_spec x (fst n)).
    + destruct prev as [a b], n as [d e]; simpl in *.
      apply interpolate_ok in H; auto; try lia.
    + specialize (IH n W2 T2 D2 ltac:(lia) H). lia.
Qed.

Lemma pl_loop_mono_dec prev rest x1 x2 v1 v2 :
  Forall wf_step (prev :: rest) -> times_from (fst prev) rest -> vals_dec (snd prev) rest ->
  fst prev <= x1 <= x2 -> pl_loop prev rest x1 = Ok v1 -> pl_loop prev rest x2 = Ok v2 -> v2 <= v1.
Proof.
  revert prev. induction rest as [|n tl IH]; intros prev W T D X H1 H2; simpl in H1, H2.
  - congruence || (inversion H1; inversion H2; subst; lia).
  - destruct T as [T1 T2], D as [D1 D2].
    inversion W as [|? ? W1 W2]; subst. inversion W2 as [|? ? W3 W4]; subst.
    destruct (Z.ltb_spec x1 (fst n)), (Z.ltb_spec x2 (fst n)); try lia.
    + destruct prev as [a b], n as [d e]; simpl in *.
      apply (interpolate_mono_dec a b d e x1 x2); auto; lia.
    + pose proof (pl_loop_bounds_dec n tl x2 v2 W2 T2 D2 ltac:(lia) H2).
      destruct prev as [a b], n as [d e]; simpl in *.
      apply interpolate_ok in H1; auto; try lia.
    + apply (IH n W2 T2 D2); auto; lia.
Qed.

Lemma pl_loop_bounds_inc prev rest x v :
  Forall wf_step (prev :: rest) -> times_from (fst prev) rest -> vals_inc (snd prev) rest ->
  fst prev <= x -> pl_loop prev rest x = Ok v -> snd prev <= v.
Proof.
  revert prev. induction rest as [|n tl IH]; intros prev W T D X H; simpl in H.
  - inversion H; subst. simpl. lia.
  - destruct T as [T1 T2], D as [D1 D2].
    inversion W as [|? ? W1 W2]; subst. inversion W2 as [|? ? W3 W4]; subst.
    destruct (Z.ltb_spec x (fst n)).
    + destruct prev as [a b], n as [d e]; simpl in *.
      apply interpolate_ok in H; auto; try lia.
    + specialize (IH n W2 T2 D2 ltac:(lia) H). lia.
Qed.

Lemma pl_loop_mono_inc prev rest x1 x2 v1 v2 :
  Forall wf_step (prev :: rest) -> times_from (fst prev) rest -> vals_inc (snd prev) rest ->
  fst prev <= x1 <= x2 -> pl_loop prev rest x1 = Ok v1 -> pl_loop prev rest x2 = Ok v2 -> v1 <= v2.
Proof.
  revert prev. induction rest as [|n tl IH]; intros prev W T D X H1 H2; simpl in H1, H2.
  - congruence || (inversion H1; inversion H2; subst; lia).
  - destruct T as [T1 T2], D as [D1 D2].
    inversion W as [|? ? W1 W2]; subst. inversion W2 as [|? ? W3 W4]; subst.
    destruct (Z.ltb_spec x1 (fst n)), (Z.ltb_spec x2 (fst n)); try lia.
    + destruct prev as [a b], n as [d e]; simpl in *.
      apply (interpolate_mono_inc a b d e x1 x2); auto; lia.
    + pose proof (pl_loop_bounds_inc n tl x2 v2 W2 T2 D2 ltac:(lia) H2).
      destruct prev as [a b], n as [d e]; simpl in *.
      apply interpolate_ok in H1; auto; try lia.
    + apply (IH n W2 T2 D2); auto; lia.
Qed.

Lemma pl_validate_none s : pl_validate s = None ->
  exists f rest, s = f :: rest /\ 0 < fst f /\ times_from (fst f) rest.
Proof.
  unfold pl_validate. destruct s as [|f rest]; [discriminate|].
  destruct (times_increasing 0 (f :: rest)) eqn:E; [|discriminate].
  intros _. exists f, rest. split; auto.
  apply times_increasing_iff in E. exact E.
Qed.

Theorem validate_dec_monotone c x1 x2 v1 v2 :
  wf_curve c -> validate_dec c = None -> 0 <= x1 <= x2 ->
  cvalue c x1 = Ok v1 -> cvalue c x2 = Ok v2 -> v2 <= v1.
Proof.
  destruct c as [y|a b d e|s]; simpl; intros W V X H1 H2.
  - inversion H1; inversion H2; lia.
  - unfold sl_validate in V. destruct W as [W1 W2].
    destruct (Z.leb_spec d a); [discriminate|]. destruct (Z.ltb_spec b e); [discriminate|].
    unfold sl_value in *.
    destruct (Z.ltb_spec x1 a), (Z.ltb_spec x2 a), (Z.ltb_spec d x1), (Z.ltb_spec d x2); try lia;
      try (inversion H1; inversion H2; subst; lia).
    + inversion H1; subst. apply interpolate_ok in H2; auto; lia.
    + inversion H2; subst. apply interpolate_ok in H1; auto; lia.
    + apply (interpolate_mono_dec a b d e x1 x2); auto; lia.
  - destruct (pl_validate s) eqn:PV; [discriminate|].
    apply pl_validate_none in PV as [f [rest [-> [F T]]]].
    assert (D : vals_dec (snd f) rest).
    { destruct f as [t v]. simpl in V |- *.
      eapply classify_dec_vals with (sh := ShConst); auto;
        intros C; rewrite C in V; discriminate. }
    destruct (Z.le_gt_cases x1 (fst f)).
    + rewrite pl_value_before in H1 by auto. inversion H1; subst.
      destruct (Z.le_gt_cases x2 (fst f)).
      * rewrite pl_value_before in H2 by auto. inversion H2; lia.
      * rewrite pl_value_loop in H2 by (auto; lia).
        pose proof (pl_loop_bounds_dec f rest x2 v2 W T D ltac:(lia) H2). lia.
    + rewrite pl_value_loop in H1, H2 by (auto; lia).
      eapply pl_loop_mono_dec with (x1 := x1) (x2 := x2); eauto. lia.
Qed.

Theorem validate_inc_monotone c x1 x2 v1 v2 :
  wf_curve c -> validate_inc c = None -> 0 <= x1 <= x2 ->
  cvalue c x1 = Ok v1 -> cvalue c x2 = Ok v2 -> v1 <= v2.
Proof.
  destruct c as [y|a b d e|s]; simpl; intros W V X H1 H2.
  - inversion H1; inversion H2; lia.
  - unfold sl_validate in V. destruct W as [W1 W2].
    destruct (Z.leb_spec d a); [discriminate|]. destruct (Z.ltb_spec e b); [discriminate|].
    unfold sl_value in *.
    destruct (Z.ltb_spec x1 a), (Z.ltb_spec x2 a), (Z.ltb_spec d x1), (Z.ltb_spec d x2); try lia;
      try (inversion H1; inversion H2; subst; lia).
    + inversion H1; subst. apply interpolate_ok in H2; auto; lia.
    + inversion H2; subst. apply interpolate_ok in H1; auto; lia.
    + apply (interpolate_mono_inc a b d e x1 x2); auto; lia.
  - destruct (pl_validate s) eqn:PV; [discriminate|].
    apply pl_validate_none in PV as [f [rest [-> [F T]]]].
    assert (D : vals_inc (snd f) rest).
    { destruct f as [t v]. simpl in V |- *.
      eapply classify_inc_vals with (sh := ShConst); auto;
        intros C; rewrite C in V; discriminate. }
    destruct (Z.le_gt_cases x1 (fst f)).
    + rewrite pl_value_before in H1 by auto. inversion H1; subst.
      destruct (Z.le_gt_cases x2 (fst f)).
      * rewrite pl_value_before in H2 by auto. inversion H2; lia.
      * rewrite pl_value_loop in H2 by (auto; lia).
        pose proof (pl_loop_bounds_inc f rest x2 v2 W T D ltac:(lia) H2). lia.
    + rewrite pl_value_loop in H1, H2 by (auto; lia).
      eapply pl_loop_mono_inc with (x1 := x1) (x2 := x2); eauto. lia.
Qed.

(** ** Range *)
Definition range_step (acc : Z * Z) (st : step) : Z * Z :=
  (Z.min (fst acc) (snd st), Z.max (snd acc) (snd st)).

Lemma fold_range_bounds s : forall acc,
  fst (fold_left range_step s acc) <= fst acc /\ snd acc <= snd (fold_left range_step s acc) /\
  forall p, In p s ->
    fst (fold_left range_step s acc) <= snd p <= snd (fold_left range_step s acc).
Proof.
  induction s as [|p s IH]; simpl; intros acc.
  - split; [lia|]. split; [lia|]. tauto.
  - destruct (IH (range_step acc p)) as [A [B C]]. 
    change (fst (range_step acc p)) with (Z.min (fst acc) (snd p)) in A.
    change (snd (range_step acc p)) with (Z.max (snd acc) (snd p)) in B.
    split; [lia|]. split; [lia|].
    intros q [->|I]; [lia|auto].
Qed.

Lemma pl_range_bounds s p : In p s -> fst (pl_range s) <= snd p <= snd (pl_range s).
Proof. intros I. apply (fold_range_bounds s (U128_MAX, 0)); auto. Qed.

Lemma pl_loop_between prev rest x v lo hi :
  Forall wf_step (prev :: rest) -> times_from (fst prev) rest ->
  (forall p, In p (prev :: rest) -> lo <= snd p <= hi) ->
  fst prev <= x -> pl_loop prev rest x = Ok v -> lo <= v <= hi.
Proof.
  revert prev. induction rest as [|n tl IH]; intros prev W T B X H; simpl in H.
  - inversion H; subst. apply B. simpl; auto.
  - destruct T as [T1 T2].
    inversion W as [|? ? W1 W2]; subst. inversion W2 as [|? ? W3 W4]; subst.
    destruct (Z.ltb_spec x (fst n)).
    + pose proof (B prev ltac:(simpl; auto)). pose proof (B n ltac:(simpl; auto)).
      destruct prev as [a b], n as [d e]; simpl in *.
      apply interpolate_ok in H; auto; lia.
    + apply (IH n W2 T2); auto; try lia. intros; apply B; right; auto.
Qed.

Theorem value_in_range c x v :
  wf_curve c -> cvalidate c = None -> 0 <= x -> cvalue c x = Ok v ->
  fst (crange c) <= v <= snd (crange c).
Proof.
  destruct c as [y|a b d e|s]; simpl; intros W V X H.
  - inversion H; lia.
  - unfold sl_validate in V. destruct (Z.leb_spec d a); [discriminate|]. destruct W.
    unfold sl_value in H. destruct (Z.ltb_spec b e); simpl;
    destruct (Z.ltb_spec x a); try (inversion H; subst; lia);
    destruct (Z.ltb_spec d x); try (inversion H; subst; lia);
    apply interpolate_ok in H; auto; lia.
  - apply pl_validate_none in V as [f [rest [-> [F T]]]].
    destruct (Z.le_gt_cases x (fst f)).
    + rewrite pl_value_before in H by auto. inversion H; subst. apply pl_range_bounds. simpl; auto.
    + rewrite pl_value_loop in H by (auto; lia).
      eapply pl_loop_between; eauto; [|lia]. intros. apply pl_range_bounds. auto.
Qed.

(** ** Definedness: a valid curve whose segments fit never panics. *)
Fixpoint segs_fit (prev : step) (rest : list step) : Prop :=
  match rest with
  | [] => True
  | n :: tl => Z.abs (snd n - snd prev) * (fst n - fst prev) <= U128_MAX /\ segs_fit n tl
  end.
Definition curve_fits (c : curve) : Prop :=
  match c with
  | Constant _ => True
  | SatLin a b d e => Z.abs (e - b) * (d - a) <= U128_MAX
  | PieceLin s => match s with [] => False | f :: rest => segs_fit f rest end
  end.

Lemma pl_loop_defined prev rest x :
  Forall wf_step (prev :: rest) -> times_from (fst prev) rest -> segs_fit prev rest ->
  fst prev <= x -> exists v, pl_loop prev rest x = Ok v.
Proof.
  revert prev. induction rest as [|n tl IH]; intros prev W T S X; simpl; eauto.
  destruct T as [T1 T2], S as [S1 S2].
  inversion W as [|? ? W1 W2]; subst. inversion W2 as [|? ? W3 W4]; subst.
  destruct (Z.ltb_spec x (fst n)).
  - destruct prev as [a b], n as [d e]; simpl in *.
    apply interpolate_defined; auto; nia.
  - apply IH; auto.
Qed.

Theorem value_defined c x :
  wf_curve c -> cvalidate c = None -> curve_fits c -> 0 <= x ->
  exists v, cvalue c x = Ok v.
Proof.
  destruct c as [y|a b d e|s]; simpl; intros W V S X; eauto.
  - unfold sl_validate in V. destruct (Z.leb_spec d a); [discriminate|]. destruct W.
    unfold sl_value. destruct (Z.ltb_spec x a); eauto. destruct (Z.ltb_spec d x); eauto.
    apply interpolate_defined; auto; nia.
  - apply pl_validate_none in V as [f [rest [-> [F T]]]].
    destruct (Z.le_gt_cases x (fst f)).
    + rewrite pl_value_before by auto. eauto.
    + rewrite pl_value_loop by (auto; lia). apply pl_loop_defined; auto; lia.
Qed.

Theorem value_wf c x v :
  wf_curve c -> cvalidate c = None -> 0 <= x -> cvalue c x = Ok v -> 0 <= v <= U128_MAX.
Proof.
  intros W V X H. pose proof (value_in_range _ _ _ W V X H) as R.
  destruct c as [y|a b d e|s]; simpl in *.
  - lia.
  - unfold wf_step in W. simpl in W. destruct (b <? e); simpl in R; lia.
  - assert (0 <= fst (pl_range s) /\ snd (pl_range s) <= U128_MAX); [|lia].
    unfold pl_range. change (fun acc st => (Z.min (fst acc) (snd st), Z.max (snd acc) (snd st)))
      with range_step.
    assert (Gen : forall acc, 0 <= fst acc -> snd acc <= U128_MAX ->
      0 <= fst (fold_left range_step s acc) /\ snd (fold_left range_step s acc) <= U128_MAX).
    { clear - W. induction W as [|p s Wp Ws IH]; simpl; intros acc A B; auto.
      unfold wf_step in Wp. apply IH; unfold range_step; simpl; lia. }
    apply Gen; simpl; unfold U128_MAX; lia.
Qed.
