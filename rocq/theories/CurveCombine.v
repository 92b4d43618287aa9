(** Facts about [combine] of Curve.v *)
From Coq Require Import ZArith List Bool Lia Permutation.
From Coq Require Import ZifyBool.
From Verif Require Import Base Curve DecimalProofs CurveProofs.
Import ListNotations.
Open Scope Z_scope.

(** ** The bubble sort sorts *)
Lemma bubble_pass_spec n : forall front back, length front = S n ->
  exists f' m, bubble_pass n (front ++ back) = f' ++ m :: back /\
    Permutation (f' ++ [m]) front /\ length f' = n /\ (forall y, In y f' -> y <= m).
Proof.
  induction n as [|n IH]; intros front back L.
  - destruct front as [|a [|b tl]]; try discriminate.
    exists [], a. simpl. repeat split; auto. tauto.
  - destruct front as [|a [|b tl]]; try discriminate.
    simpl. destruct (Z.ltb_spec b a).
    + destruct (IH (a :: tl) back) as [f' [m [E [P [Lf M]]]]]; [simpl in *; lia|].
      simpl app in E. rewrite E. exists (b :: f'), m. simpl. repeat split; auto.
      * etransitivity; [apply perm_skip, P|]. apply perm_swap.
      * intros y [<-|I]; auto.
        assert (In a (f' ++ [m])).
        { eapply Permutation_in; [symmetry; exact P|]. simpl; auto. }
        apply in_app_iff in H0 as [I|[->|[]]]; [specialize (M _ I)|]; lia.
    + destruct (IH (b :: tl) back) as [f' [m [E [P [Lf M]]]]]; [simpl in *; lia|].
      simpl app in E. rewrite E. exists (a :: f'), m. simpl. repeat split; auto.
      intros y [<-|I]; auto.
      assert (In b (f' ++ [m])).
      { eapply Permutation_in; [symmetry; exact P|]. simpl; auto. }
      apply in_app_iff in H0 as [I|[->|[]]]; [specialize (M _ I)|]; lia.
Qed.

Fixpoint sorted_from (lo : option Z) (l : list Z) : Prop :=
  match l with
  | [] => True
  | t :: tl => match lo with Some u => u <= t | None => True end /\ sorted_from (Some t) tl
  end.

Lemma sorted_from_none l x : (forall y, In y l -> x <= y) -> sorted_from None l ->
  sorted_from (Some x) l.
Proof. destruct l; simpl; intuition. Qed.

Lemma bubble_loop_spec len : forall k l front back,
  (k <= len)%nat -> l = front ++ back -> length front = k -> (length back + k = len)%nat ->
  sorted_from None back -> (forall y z, In y front -> In z back -> y <= z) ->
  let r := fold_left (fun acc i => bubble_pass (len - 1 - i) acc) (seq (len - k) k) l in
  sorted_from None r /\ Permutation r l.
Proof.
  induction k as [|k IH]; intros l front back K E Lf Lb So M.
  - destruct front; [|discriminate]. subst. simpl. auto.
  - cbn [seq fold_left].
    replace (len - 1 - (len - S k))%nat with k by lia.
    destruct (bubble_pass_spec k front back Lf) as [f' [m [Eb [P [Lf' Mx]]]]].
    rewrite E, Eb.
    replace (S (len - S k)) with (len - k)%nat by lia.
    destruct (IH (f' ++ m :: back) f' (m :: back)) as [A B]; auto; try (simpl; lia).
    + cbn [sorted_from]. split; auto. apply sorted_from_none; auto.
      intros y I. apply M; auto. eapply Permutation_in; [exact P|]. apply in_app_iff; simpl; auto.
    + intros y z Iy [<-|Iz]; auto. apply M; auto.
      eapply Permutation_in; [exact P|]. apply in_app_iff; auto.
    + split; auto. etransitivity; [exact B|].
      change (m :: back) with ([m] ++ back). rewrite app_assoc.
      apply Permutation_app_tail. exact P.
Qed.

Lemma bubble_sort_spec l : sorted_from None (bubble_sort l) /\ Permutation (bubble_sort l) l.
Proof.
  unfold bubble_sort.
  pose proof (bubble_loop_spec (length l) (length l) l l []) as H.
  rewrite Nat.sub_diag in H. apply H; simpl; auto.
  - now rewrite app_nil_r.
  - tauto.
Qed.

(** ** Deduplication gives strictly increasing times *)
Fixpoint strict_from (lo : option Z) (l : list Z) : Prop :=
  match l with
  | [] => True
  | t :: tl => match lo with Some u => u < t | None => True end /\ strict_from (Some t) tl
  end.

Lemma dedup_strict l : forall lo, sorted_from lo l -> strict_from lo (dedup_adj lo l).
Proof.
  induction l as [|t tl IH]; simpl; intros lo S; auto.
  destruct S as [S1 S2]. destruct lo as [u|].
  - destruct (Z.eqb_spec t u).
    + subst. apply IH; auto.
    + simpl. split; [lia|]. apply IH; auto.
  - simpl. split; auto.
Qed.

Lemma dedup_in l : forall lo t, In t (dedup_adj lo l) \/ lo = Some t <-> In t l \/ lo = Some t.
Proof.
  induction l as [|a tl IH]; simpl; intros lo t; [tauto|].
  destruct lo as [u|].
  - destruct (Z.eqb_spec a u).
    + subst. rewrite IH. split; intuition congruence.
    + simpl. pose proof (IH (Some a) t) as H. split; intuition congruence.
  - simpl. pose proof (IH (Some a) t) as H. split; intuition congruence.
Qed.

Lemma dedup_in_none l t : In t (dedup_adj None l) <-> In t l.
Proof. pose proof (dedup_in l None t). intuition congruence. Qed.

Lemma dedup_length l lo : (length (dedup_adj lo l) <= length l)%nat.
Proof.
  revert lo. induction l as [|a tl IH]; simpl; intros lo; auto.
  destruct lo as [u|]; [destruct (a =? u)|]; simpl.
  - specialize (IH (Some u)). lia.
  - specialize (IH (Some a)). lia.
  - specialize (IH (Some a)). lia.
Qed.

Definition comb_times (p q : list step) : list Z :=
  dedup_adj None (bubble_sort (map fst p ++ map fst q)).

Lemma comb_times_strict p q : strict_from None (comb_times p q).
Proof. apply dedup_strict, bubble_sort_spec. Qed.

Lemma comb_times_in p q t : In t (comb_times p q) <-> In t (map fst p) \/ In t (map fst q).
Proof.
  unfold comb_times. rewrite dedup_in_none.
  rewrite <- in_app_iff. destruct (bubble_sort_spec (map fst p ++ map fst q)) as [_ P].
  split; apply Permutation_in; [|symmetry]; exact P.
Qed.

Lemma comb_times_length p q : (length (comb_times p q) <= length p + length q)%nat.
Proof.
  unfold comb_times. etransitivity; [apply dedup_length|].
  destruct (bubble_sort_spec (map fst p ++ map fst q)) as [_ P].
  rewrite (Permutation_length P), app_length, !map_length. auto.
Qed.

Lemma combine_at_ok p q ts r : combine_at p q ts = Ok r ->
  map fst r = ts /\
  forall t v, In (t, v) r -> exists a b, pl_value p t = Ok a /\ pl_value q t = Ok b /\
    v = a + b /\ 0 <= v <= U128_MAX.
Proof.
  revert r. induction ts as [|t tl IH]; simpl; intros r H.
  - inversion H; subst. simpl. split; auto. tauto.
  - rstep H. destruct (IH _ R2) as [A B]. simpl. split; [congruence|].
    intros t' v' [E|I]; auto. inversion E; subst. eauto 6.
Qed.

Lemma strict_times_from r : forall lo, strict_from (Some lo) (map fst r) <-> times_from lo r.
Proof. induction r as [|p r IH]; simpl; intros lo; [tauto|]. now rewrite IH. Qed.

(** Piecewise curves as the code builds them: non-empty, increasing times. *)
Definition pl_good (s : list step) : Prop :=
  match s with [] => False | f :: rest => Forall wf_step s /\ times_from (fst f) rest end.

Lemma pl_good_validate s : Forall wf_step s -> pl_validate s = None -> pl_good s.
Proof. intros W V. apply pl_validate_none in V as [f [r [-> [_ T]]]]. split; auto. Qed.

Lemma pl_combine_good p q r :
  pl_good p -> pl_good q -> pl_combine p q = Ok r ->
  pl_good r /\ map fst r = comb_times p q.
Proof.
  intros Gp Gq H. unfold pl_combine in H.
  fold (comb_times p q) in H. apply combine_at_ok in H as [T V].
  split; auto. unfold pl_good.
  assert (NE : r <> []).
  { intros ->. simpl in T. destruct p as [|f tl]; [destruct Gp|].
    assert (In (fst f) (comb_times (f :: tl) q)) by (apply comb_times_in; simpl; auto).
    rewrite <- T in H. destruct H. }
  assert (W : Forall wf_step r).
  { apply Forall_forall. intros [t v] I. unfold wf_step; simpl.
    destruct (V t v I) as [a [b [_ [_ [-> B]]]]]. split; auto.
    assert (In t (map fst r)) by (apply in_map_iff; exists (t, a + b); auto).
    rewrite T in H. apply comb_times_in in H.
    assert (Wall : forall s, pl_good s -> In t (map fst s) -> 0 <= t <= U64_MAX).
    { intros s G J. destruct s as [|f tl]; [destruct G|]. destruct G as [Ws _].
      apply in_map_iff in J as [[t' v'] [<- J]]. rewrite Forall_forall in Ws.
      apply Ws in J. apply J. }
    destruct H; eauto. }
  pose proof (comb_times_strict p q) as S. rewrite <- T in S.
  destruct r as [|f rest]; [congruence|]. split; auto.
  apply strict_times_from. simpl in S. tauto.
Qed.

(** ** Value at a step time *)
Lemma pl_loop_at prev rest t v :
  Forall wf_step (prev :: rest) -> times_from (fst prev) rest ->
  In (t, v) (prev :: rest) -> pl_loop prev rest t = Ok v.
Proof.
  revert prev. induction rest as [|n tl IH]; intros prev W T I.
  - destruct I as [->|[]]. reflexivity.
  - destruct T as [T1 T2].
    inversion W as [|? ? W1 W2]; subst. inversion W2 as [|? ? W3 W4]; subst. simpl.
    destruct I as [E|I].
    + subst prev. simpl in *. destruct (Z.ltb_spec t (fst n)); [|lia].
      destruct n. simpl in *. apply interpolate_start; auto.
    + assert (fst n <= t).
      { clear - T2 I. destruct I as [->|I]; [simpl; lia|].
        revert n T2 I. induction tl as [|m tl IH]; intros n T I; [destruct I|].
        destruct T as [T1 T2]. destruct I as [->|I]; [simpl in *; lia|].
        specialize (IH m T2 I). lia. }
      destruct (Z.ltb_spec t (fst n)); [lia|]. auto.
Qed.

Lemma times_from_in f rest p : times_from (fst f) rest -> In p (f :: rest) -> fst f <= fst p.
Proof.
  intros T [->|I]; [lia|]. revert f T I. induction rest as [|m tl IH]; intros f T I; [destruct I|].
  destruct T as [T1 T2]. destruct I as [->|I]; [lia|]. specialize (IH m T2 I). lia.
Qed.

Lemma pl_value_at s t v : pl_good s -> In (t, v) s -> pl_value s t = Ok v.
Proof.
  destruct s as [|f rest]; [intros []|]. intros [W T] I.
  rewrite pl_value_loop; auto.
  - now apply pl_loop_at.
  - apply (times_from_in f rest (t, v)); auto.
Qed.

Theorem pl_combine_at_steps p q r t :
  pl_good p -> pl_good q -> pl_combine p q = Ok r ->
  In t (map fst p) \/ In t (map fst q) ->
  exists a b, pl_value p t = Ok a /\ pl_value q t = Ok b /\ pl_value r t = Ok (a + b).
Proof.
  intros Gp Gq H I. destruct (pl_combine_good _ _ _ Gp Gq H) as [Gr T].
  apply comb_times_in in I. rewrite <- T in I. apply in_map_iff in I as [[t' v] [E I]].
  simpl in E. subst t'.
  unfold pl_combine in H. apply combine_at_ok in H as [_ V].
  destruct (V _ _ I) as [a [b [A [B [-> _]]]]]. exists a, b. repeat split; auto.
  apply pl_value_at; auto.
Qed.

(** ** Between step times *)
(** On an interval without inner step times, a curve is the rounding of one
    affine function n(x)/W, always in the same direction. *)
Definition approx (W al be : Z) (up : bool) (x v : Z) : Prop :=
  if up then al * x + be <= W * v < al * x + be + W
  else al * x + be - W < W * v <= al * x + be.

Definition pieceP (f : Z -> res Z) (t0 t1 : Z) : Prop :=
  exists W al be up, 0 < W /\
    forall x v, t0 <= x <= t1 -> f x = Ok v -> approx W al be up x v.

Lemma piece_const f t0 t1 c : (forall x v, t0 <= x <= t1 -> f x = Ok v -> v = c) -> pieceP f t0 t1.
Proof.
  intros H. exists 1, 0, c, true. split; [lia|]. intros x v X E. unfold approx.
  rewrite (H x v X E). lia.
Qed.

Lemma rounded_approx a b d e : a < d ->
  exists al be up, forall x v, rounded a b d e x v -> approx (d - a) al be up x v.
Proof.
  intros AD. destruct (Z.lt_ge_cases b e).
  - exists (e - b), (b * (d - a) - (e - b) * a), false. unfold rounded, approx. intros x v [R _].
    specialize (R H). lia.
  - exists (e - b), (b * (d - a) - (e - b) * a), true. unfold rounded, approx. intros x v [_ R].
    specialize (R H). lia.
Qed.

Lemma pl_loop_piece rest : forall prev t0 t1,
  Forall wf_step (prev :: rest) -> times_from (fst prev) rest ->
  fst prev <= t0 < t1 -> (forall p, In p rest -> ~ (t0 < fst p < t1)) ->
  pieceP (pl_loop prev rest) t0 t1.
Proof.
  induction rest as [|n tl IH]; intros prev t0 t1 W T X N.
  - apply (piece_const _ _ _ (snd prev)). simpl. intros ? ? _ E. inversion E; auto.
  - destruct T as [T1 T2].
    inversion W as [|? ? W1 W2]; subst. inversion W2 as [|? ? W3 W4]; subst.
    destruct (Z.le_gt_cases (fst n) t0).
    + destruct (IH n t0 t1 W2 T2 ltac:(lia)) as [k [al [be [up [K A]]]]].
      { intros p I. apply N. right; auto. }
      exists k, al, be, up. split; auto. intros x v Xx E. simpl in E.
      destruct (Z.ltb_spec x (fst n)); [lia|]. auto.
    + assert (t1 <= fst n).
      { destruct (Z.le_gt_cases t1 (fst n)); auto. exfalso. apply (N n); [left; auto|lia]. }
      destruct prev as [a b], n as [d e]. simpl in *.
      destruct (rounded_approx a b d e T1) as [al [be [up A]]].
      exists (d - a), al, be, up. split; [lia|]. intros x v Xx E. apply A.
      destruct (Z.ltb_spec x d).
      * apply interpolate_ok in E; auto; try lia. tauto.
      * assert (x = d) by lia. subst x.
        assert (E2 : pl_loop (d, e) tl d = Ok e) by (apply pl_loop_at; simpl; auto).
        rewrite E2 in E. inversion E; subst. unfold rounded. split; intros; nia.
Qed.

Lemma pl_value_piece s t0 t1 : pl_good s -> t0 < t1 ->
  (forall p, In p s -> ~ (t0 < fst p < t1)) -> pieceP (pl_value s) t0 t1.
Proof.
  destruct s as [|f rest]; [intros []|]. intros [W T] L N.
  destruct (Z.le_gt_cases (fst f) t0).
  - destruct (pl_loop_piece rest f t0 t1 W T ltac:(lia)) as [k [al [be [up [K A]]]]].
    { intros p I. apply N. right; auto. }
    exists k, al, be, up. split; auto. intros x v X E.
    rewrite pl_value_loop in E by (auto; lia). auto.
  - assert (t1 <= fst f).
    { destruct (Z.le_gt_cases t1 (fst f)); auto. exfalso. apply (N f); [left; auto|lia]. }
    apply (piece_const _ _ _ (snd f)). intros x v X E.
    rewrite pl_value_before in E by lia. inversion E; auto.
Qed.

(** The segment of [s] containing [x]. *)
Lemma pl_loop_segment rest : forall prev x v,
  Forall wf_step (prev :: rest) -> times_from (fst prev) rest -> fst prev <= x ->
  pl_loop prev rest x = Ok v ->
  (exists l1 p n l2, prev :: rest = l1 ++ p :: n :: l2 /\ fst p <= x < fst n /\
      interpolate (fst p) (snd p) (fst n) (snd n) x = Ok v) \/
  (fst (last rest prev) <= x /\ v = snd (last rest prev)).
Proof.
  induction rest as [|n tl IH]; intros prev x v W T X E; simpl in E.
  - right. simpl. inversion E; auto.
  - destruct T as [T1 T2].
    inversion W as [|? ? W1 W2]; subst.
    destruct (Z.ltb_spec x (fst n)).
    + left. exists [], prev, n, tl. auto.
    + destruct (IH n x v W2 T2 ltac:(lia) E) as [[l1 [p [m [l2 [A B]]]]]|B].
      * left. exists (prev :: l1), p, m, l2. simpl. rewrite A. auto.
      * right. now rewrite last_cons.
Qed.

Lemma affine_err k e0 e1 ex d w :
  0 < k -> 0 <= d <= w -> (0 <= e0 < k /\ 0 <= e1 < k /\ 0 <= ex < k) \/
  (- k < e0 <= 0 /\ - k < e1 <= 0 /\ - k < ex <= 0) ->
  Z.abs ((w - d) * e0 + d * e1 - w * ex) <= w * (k - 1).
Proof.
  intros K D [[A [B C]]|[A [B C]]].
  - assert (0 <= (w - d) * e0 <= (w - d) * (k - 1)) by nia.
    assert (0 <= d * e1 <= d * (k - 1)) by nia.
    assert (0 <= w * ex <= w * (k - 1)) by nia. nia.
  - assert (- ((w - d) * (k - 1)) <= (w - d) * e0 <= 0) by nia.
    assert (- (d * (k - 1)) <= d * e1 <= 0) by nia.
    assert (- (w * (k - 1)) <= w * ex <= 0) by nia. nia.
Qed.

Lemma approx_err W al be up x v : approx W al be up x v ->
  exists e, W * v = al * x + be + e /\ if up then 0 <= e < W else - W < e <= 0.
Proof.
  intros A. exists (W * v - (al * x + be)). split; [lia|]. destruct up; simpl in A; lia.
Qed.

Lemma combine_close Wp Wq w d P Q v A B r :
  0 < Wp -> 0 < Wq -> 0 < w ->
  Wp * Wq * w * (v - (P + Q)) = Wq * A + Wp * B + Wp * Wq * r ->
  Z.abs A <= w * (Wp - 1) -> Z.abs B <= w * (Wq - 1) -> Z.abs r <= w - 1 -> 0 <= d ->
  Z.abs (v - (P + Q)) <= 2.
Proof.
  intros HP HQ Hw E HA HB Hr _.
  set (D := v - (P + Q)) in *.
  assert (Z.abs (Wq * A) <= Wq * (w * (Wp - 1))) by (rewrite Z.abs_mul, Z.abs_eq by lia; nia).
  assert (Z.abs (Wp * B) <= Wp * (w * (Wq - 1))) by (rewrite Z.abs_mul, Z.abs_eq by lia; nia).
  assert (0 < Wp * Wq) by nia.
  assert (Z.abs (Wp * Wq * r) <= Wp * Wq * (w - 1)) by (rewrite Z.abs_mul, (Z.abs_eq (Wp * Wq)) by lia; nia).
  assert (0 < Wp * Wq * w) by nia.
  assert (Z.abs (Wp * Wq * w * D) < 3 * (Wp * Wq * w)).
  { rewrite E. assert (0 < Wq * w) by nia. assert (0 < Wp * w) by nia. lia. }
  rewrite Z.abs_mul, (Z.abs_eq (Wp * Wq * w)) in H4 by lia. nia.
Qed.

Lemma times_from_after l1 : forall f rest p n l2 q,
  times_from (fst f) rest -> f :: rest = l1 ++ p :: n :: l2 -> In q (f :: rest) ->
  fst q <= fst p \/ fst n <= fst q.
Proof.
  induction l1 as [|a l1 IH]; intros f rest p n l2 q T E I.
  - simpl in E. inversion E; subst. destruct T as [T1 T2].
    destruct I as [->|I]; [left; lia|]. right. eapply times_from_in; eauto.
  - simpl in E. injection E as E1 E2. destruct rest as [|g rest]; [destruct l1; discriminate|].
    destruct T as [T1 T2]. destruct I as [<-|I].
    + left. assert (In p (g :: rest)) by (rewrite E2; apply in_app_iff; simpl; auto).
      pose proof (times_from_in g rest p T2 H). lia.
    + eapply IH; eauto.
Qed.

Theorem pl_combine_close p q r x v a b :
  pl_good p -> pl_good q -> pl_combine p q = Ok r -> 
  pl_value p x = Ok a -> pl_value q x = Ok b -> pl_value r x = Ok v ->
  Z.abs (v - (a + b)) <= 2.
Proof.
  intros Gp Gq H Ha Hb Hv.
  destruct (pl_combine_good _ _ _ Gp Gq H) as [Gr T].
  assert (AT : forall s, In s r -> exists a b, pl_value p (fst s) = Ok a /\
      pl_value q (fst s) = Ok b /\ snd s = a + b).
  { intros [t u] I. unfold pl_combine in H. apply combine_at_ok in H as [_ V].
    destruct (V _ _ I) as [a' [b' [A [B [-> _]]]]]. simpl. eauto. }
  assert (TI : forall s, In s p \/ In s q -> In (fst s) (map fst r)).
  { intros s I. rewrite T. apply comb_times_in. destruct I; [left|right]; now apply in_map. }
  destruct r as [|f rest]; [destruct Gr|]. destruct Gr as [Wr Tr].
  assert (LE : forall s, In s p \/ In s q -> fst f <= fst s).
  { intros s I. apply TI in I. apply in_map_iff in I as [u [<- I]].
    eapply times_from_in; eauto. }
  assert (Wx : forall s x0, pl_good s -> (forall u, In u s -> x0 <= fst u) ->
     exists k, forall y, y <= x0 -> pl_value s y = Ok k).
  { intros s x0 G L. destruct s as [|g tl]; [destruct G|]. exists (snd g). intros y Y.
    apply pl_value_before. specialize (L g (or_introl eq_refl)). lia. }
  destruct (Z.le_gt_cases x (fst f)) as [XF|XF].
  - (* before the first step *)
    rewrite pl_value_before in Hv by auto. inversion Hv; subst v.
    destruct (AT f ltac:(left; auto)) as [a' [b' [A [B E]]]].
    destruct (Wx p (fst f) Gp) as [ka Ka]; [intros; apply LE; auto|].
    destruct (Wx q (fst f) Gq) as [kb Kb]; [intros; apply LE; auto|].
    rewrite Ka in Ha, A by lia. rewrite Kb in Hb, B by lia.
    inversion Ha; inversion Hb; inversion A; inversion B; subst. lia.
  - rewrite pl_value_loop in Hv by (auto; lia).
    destruct (pl_loop_segment rest f x v Wr Tr ltac:(lia) Hv)
      as [[l1 [s0 [s1 [l2 [E [X I]]]]]]|[X E]].
    + (* inside a segment of the combined curve *)
      assert (I0 : In s0 (f :: rest)) by (rewrite E; apply in_app_iff; simpl; auto).
      assert (I1 : In s1 (f :: rest)) by (rewrite E; apply in_app_iff; simpl; auto).
      destruct (AT _ I0) as [a0 [b0 [A0 [B0 E0]]]].
      destruct (AT _ I1) as [a1 [b1 [A1 [B1 E1]]]].
      assert (NIN : forall u, In u p \/ In u q -> ~ (fst s0 < fst u < fst s1)).
      { intros u Iu C. apply TI in Iu. apply in_map_iff in Iu as [z [Ez Iz]].
        destruct (times_from_after _ _ _ _ _ _ _ Tr E Iz); lia. }
      assert (LT : fst s0 < fst s1) by lia.
      destruct (pl_value_piece p (fst s0) (fst s1) Gp LT) as [Wp [alp [bep [upp [HWp PP]]]]];
        [intros; apply NIN; auto|].
      destruct (pl_value_piece q (fst s0) (fst s1) Gq LT) as [Wq [alq [beq [upq [HWq PQ]]]]];
        [intros; apply NIN; auto|].
      destruct (approx_err _ _ _ _ _ _ (PP (fst s0) a0 ltac:(lia) A0)) as [ep0 [P0 Q0]].
      destruct (approx_err _ _ _ _ _ _ (PP (fst s1) a1 ltac:(lia) A1)) as [ep1 [P1 Q1]].
      destruct (approx_err _ _ _ _ _ _ (PP x a ltac:(lia) Ha)) as [epx [Px Qx]].
      destruct (approx_err _ _ _ _ _ _ (PQ (fst s0) b0 ltac:(lia) B0)) as [eq0 [R0 S0]].
      destruct (approx_err _ _ _ _ _ _ (PQ (fst s1) b1 ltac:(lia) B1)) as [eq1 [R1 S1]].
      destruct (approx_err _ _ _ _ _ _ (PQ x b ltac:(lia) Hb)) as [eqx [Rx Sx]].
      assert (W0 : wf_step s0) by (rewrite Forall_forall in Wr; auto).
      assert (W1 : wf_step s1) by (rewrite Forall_forall in Wr; auto).
      destruct s0 as [t0 y0], s1 as [t1 y1]. simpl in *. subst y0 y1.
      apply interpolate_ok in I as [RD _]; auto; try lia.
      set (w := t1 - t0) in *. set (d := x - t0).
      assert (RR : exists rr, w * v = (w - d) * (a0 + b0) + d * (a1 + b1) + rr /\
                   Z.abs rr <= w - 1).
      { unfold rounded in RD. destruct RD as [D1 D2].
        exists (w * v - ((w - d) * (a0 + b0) + d * (a1 + b1))). split; [lia|].
        fold w in D1, D2. fold d in D1, D2.
        replace ((a0 + b0) * w + (a1 + b1 - (a0 + b0)) * d)
          with ((w - d) * (a0 + b0) + d * (a1 + b1)) in D1, D2 by ring.
        destruct (Z.lt_ge_cases (a0 + b0) (a1 + b1)) as [C|C];
          [specialize (D1 C)|specialize (D2 C)]; lia. }
      destruct RR as [rr [RV RB]].
      assert (ID : Wp * Wq * w * (v - (a + b)) =
        Wq * ((w - d) * ep0 + d * ep1 - w * epx) + Wp * ((w - d) * eq0 + d * eq1 - w * eqx)
        + Wp * Wq * rr).
      { assert (K1 : Wp * ((w - d) * a0 + d * a1) =
                     w * (alp * x + bep) + ((w - d) * ep0 + d * ep1)).
        { replace (Wp * ((w - d) * a0 + d * a1)) with ((w - d) * (Wp * a0) + d * (Wp * a1)) by ring.
          rewrite P0, P1. unfold w, d. ring. }
        assert (K2 : Wq * ((w - d) * b0 + d * b1) =
                     w * (alq * x + beq) + ((w - d) * eq0 + d * eq1)).
        { replace (Wq * ((w - d) * b0 + d * b1)) with ((w - d) * (Wq * b0) + d * (Wq * b1)) by ring.
          rewrite R0, R1. unfold w, d. ring. }
        replace (Wp * Wq * w * (v - (a + b))) with
          (Wp * Wq * (w * v) - w * Wq * (Wp * a) - w * Wp * (Wq * b)) by ring.
        rewrite RV, Px, Rx.
        replace (Wp * Wq * ((w - d) * (a0 + b0) + d * (a1 + b1) + rr)) with
          (Wq * (Wp * ((w - d) * a0 + d * a1)) + Wp * (Wq * ((w - d) * b0 + d * b1)) + Wp * Wq * rr)
          by ring.
        rewrite K1, K2. ring. }
      apply (combine_close Wp Wq w d a b v
               ((w - d) * ep0 + d * ep1 - w * epx) ((w - d) * eq0 + d * eq1 - w * eqx) rr);
        auto; try (unfold w, d; lia).
      * apply affine_err; auto; [unfold w, d; lia|]. destruct upp; auto.
      * apply affine_err; auto; [unfold w, d; lia|]. destruct upq; auto.
    + (* after the last step *)
      assert (IL : In (last rest f) (f :: rest)).
      { clear. revert f. induction rest as [|g tl IH]; intros f; [simpl; auto|].
        rewrite last_cons. right. apply IH. }
      destruct (AT _ IL) as [a' [b' [A [B E']]]].
      assert (GE : forall s, pl_good s -> (forall u, In u s -> fst u <= fst (last rest f)) ->
        forall y, fst (last rest f) <= y -> pl_value s y = pl_value s (fst (last rest f))).
      { intros s G L y Y. destruct s as [|g tl]; [destruct G|]. destruct G as [Ws Ts].
        assert (Il : In (last tl g) (g :: tl)).
        { clear. revert g. induction tl as [|h tl IH]; intros g; [simpl; auto|].
          rewrite last_cons. right. apply IH. }
        pose proof (L _ Il). pose proof (L g (or_introl eq_refl)).
        rewrite !pl_value_loop by (auto; lia). rewrite !pl_loop_past by (auto; lia). auto. }
      assert (MX : forall u, In u p \/ In u q -> fst u <= fst (last rest f)).
      { intros u Iu. apply TI in Iu. apply in_map_iff in Iu as [z [<- Iz]].
        clear - Tr Iz. revert f Tr Iz. induction rest as [|g tl IH]; intros f T I.
        - destruct I as [->|[]]. simpl. lia.
        - destruct T as [T1 T2]. rewrite last_cons. destruct I as [->|I]; [|apply IH; auto].
          pose proof (times_from_last _ _ T2). lia. }
      rewrite (GE p Gp) in Ha by (auto; intros; apply MX; auto).
      rewrite (GE q Gq) in Hb by (auto; intros; apply MX; auto).
      rewrite A in Ha. rewrite B in Hb. inversion Ha; inversion Hb; subst. lia.
Qed.

(** ** Lifting to curves *)
Definition good_curve (c : curve) : Prop := wf_curve c /\ cvalidate c = None.

(** The step list of a non-constant curve *)
Definition steps_of (c : curve) : list step :=
  match c with Constant _ => [] | SatLin a b d e => from_sat a b d e | PieceLin s => s end.

Lemma good_steps c : good_curve c -> (forall y, c <> Constant y) -> pl_good (steps_of c).
Proof.
  destruct c as [y|a b d e|s]; simpl; intros [W V] N.
  - exfalso. eapply N; eauto.
  - simpl in V. unfold sl_validate in V. destruct (Z.leb_spec d a); [discriminate|].
    destruct W as [W1 W2]. split; [apply Forall_cons; auto|]. simpl. auto.
  - apply pl_good_validate; auto.
Qed.

(** A saturating-linear curve and its two-step form agree wherever the former is defined. *)
Lemma from_sat_value a b d e x v :
  wf_step (a, b) -> wf_step (d, e) -> a < d ->
  sl_value a b d e x = Ok v -> pl_value (from_sat a b d e) x = Ok v.
Proof.
  intros W1 W2 L. unfold from_sat, pl_value, sl_value. simpl.
  destruct (Z.leb_spec x a), (Z.ltb_spec x a), (Z.leb_spec d x), (Z.ltb_spec d x), (Z.ltb_spec x d);
    try lia; auto; intros HH.
  - assert (x = a) by lia. subst. rewrite interpolate_start in HH; auto.
  - assert (x = d) by lia. subst. apply interpolate_end in HH; auto. congruence.
Qed.

Lemma steps_value c x v : good_curve c -> (forall y, c <> Constant y) ->
  cvalue c x = Ok v -> pl_value (steps_of c) x = Ok v.
Proof.
  destruct c as [y|a b d e|s]; simpl; intros [W V] N H; auto.
  - exfalso. eapply N; eauto.
  - simpl in V. unfold sl_validate in V. destruct (Z.leb_spec d a); [discriminate|].
    destruct W. apply from_sat_value; auto.
Qed.

Lemma shift_steps_ok k s s' : shift_steps k s = Ok s' ->
  s' = map (fun p => (fst p, k + snd p)) s /\ Forall (fun p => 0 <= k + snd p <= U128_MAX) s.
Proof.
  revert s'. induction s as [|[t v] tl IH]; simpl; intros s' H.
  - inversion H; subst; auto.
  - rstep H. match goal with R : shift_steps _ _ = Ok _ |- _ => destruct (IH _ R) as [-> F] end. auto.
Qed.

Lemma interpolate_shift a b d e x v k :
  wf_step (a, b) -> wf_step (d, e) -> 0 <= k + b <= U128_MAX -> 0 <= k + e <= U128_MAX ->
  a < d -> a <= x <= d ->
  interpolate a b d e x = Ok v -> interpolate a (k + b) d (k + e) x = Ok (k + v).
Proof.
  intros W1 W2 B1 B2 AD X H. pose proof (interpolate_ok _ _ _ _ _ _ W1 W2 AD X H) as [_ BB].
  unfold interpolate in *.
  destruct (Z.ltb_spec b e), (Z.ltb_spec (k + b) (k + e)); try lia.
  - replace (k + e - (k + b)) with (e - b) by lia.
    destruct (sub_64 x a); unfold rbind in *; [|discriminate].
    destruct (mul_u (e - b) a0); [|discriminate]. destruct (sub_64 d a); [|discriminate].
    destruct (div_u a1 a2); [|discriminate].
    apply add_u_ok in H as [-> _]. rewrite add_u_intro by lia. f_equal; lia.
  - replace (k + b - (k + e)) with (b - e) by lia.
    destruct (sub_64 x a); unfold rbind in *; [|discriminate].
    destruct (mul_u (b - e) a0); [|discriminate]. destruct (sub_64 d a); [|discriminate].
    destruct (div_u a1 a2); [|discriminate].
    apply sub_u_ok in H as [-> _]. rewrite sub_u_intro by lia. f_equal; lia.
Qed.

Lemma last_map {A B} (g : A -> B) s d : last (map g s) (g d) = g (last s d).
Proof.
  revert d. induction s as [|a s IH]; intros d; auto.
  rewrite last_cons. cbn [map]. rewrite last_cons. apply IH.
Qed.

Lemma pl_loop_shift k rest : forall prev x v,
  Forall wf_step (prev :: rest) -> Forall (fun p => 0 <= k + snd p <= U128_MAX) (prev :: rest) ->
  times_from (fst prev) rest -> fst prev <= x ->
  pl_loop prev rest x = Ok v ->
  pl_loop (fst prev, k + snd prev) (map (fun p => (fst p, k + snd p)) rest) x = Ok (k + v).
Proof.
  induction rest as [|n tl IH]; intros prev x v W F T X H; simpl in *.
  - inversion H; subst; auto.
  - destruct T as [T1 T2].
    inversion W as [|? ? W1 W2]; subst. inversion W2 as [|? ? W3 W4]; subst.
    inversion F as [|? ? F1 F2]; subst. inversion F2 as [|? ? F3 F4]; subst.
    destruct (Z.ltb_spec x (fst n)).
    + destruct prev, n; simpl in *. apply interpolate_shift; auto; lia.
    + apply (IH n x v); auto.
Qed.

Lemma combine_const_value c k c' x v :
  good_curve c -> 0 <= k <= U128_MAX -> combine_const c k = Ok c' -> 0 <= x ->
  cvalue c x = Ok v -> cvalue c' x = Ok (k + v).
Proof.
  intros [W V] K H X E. destruct c as [y|a b d e|s]; simpl in *.
  - rstep H. simpl. inversion E; subst; auto.
  - rstep H. simpl. destruct W as [W1 W2].
    unfold sl_validate in V. destruct (Z.leb_spec d a); [discriminate|].
    unfold sl_value in *. rewrite (Z.add_comm b k), (Z.add_comm e k) in *.
    destruct (x <? a) eqn:E1; [inversion E; subst; auto|].
    destruct (d <? x) eqn:E2; [inversion E; subst; auto|].
    unfold wf_step in *; simpl in *. apply interpolate_shift; unfold wf_step; simpl; auto; lia.
  - rstep H. apply shift_steps_ok in R as [-> F]. simpl.
    apply pl_validate_none in V as [f [rest [-> [F0 T]]]].
    destruct (Z.le_gt_cases x (fst f)).
    + rewrite pl_value_before in E by auto. inversion E; subst. cbn [map].
      rewrite pl_value_before; auto.
    + rewrite pl_value_loop in E by (auto; lia).
      cbn [map]. rewrite pl_value_loop; simpl; [| | |lia].
      * apply pl_loop_shift; auto; lia.
      * change ((fst f, k + snd f) :: map (fun p => (fst p, k + snd p)) rest)
          with (map (fun p => (fst p, k + snd p)) (f :: rest)).
        apply Forall_forall. intros p I. apply in_map_iff in I as [q [<- I]].
        rewrite Forall_forall in W, F. specialize (W _ I). specialize (F _ I).
        unfold wf_step in *; simpl in *. lia.
      * clear - T. revert f T. induction rest as [|g tl IH]; intros f T; simpl in *; auto.
        destruct T; split; auto.
Qed.

Theorem combine_close_all c d r x v a b :
  good_curve c -> good_curve d -> combine c d = Ok r -> 0 <= x ->
  cvalue c x = Ok a -> cvalue d x = Ok b -> cvalue r x = Ok v ->
  Z.abs (v - (a + b)) <= 2.
Proof.
  intros Gc Gd H X A B V.
  destruct c as [y|a1 b1 d1 e1|s1].
  - simpl in H, A. inversion A; subst.
    rewrite (combine_const_value _ _ _ _ _ Gd (proj1 Gc) H X B) in V. inversion V; lia.
  - destruct d as [y|a2 b2 d2 e2|s2]; cbn [combine] in H.
    + simpl in B. inversion B; subst.
      rewrite (combine_const_value _ _ _ _ _ Gc (proj1 Gd) H X A) in V. inversion V; lia.
    + rstep H. cbn [cvalue] in V.
      eapply pl_combine_close with (p := steps_of (SatLin a1 b1 d1 e1)) (q := steps_of (SatLin a2 b2 d2 e2));
        eauto using good_steps, steps_value; try (apply good_steps; auto; discriminate);
        apply steps_value; auto; discriminate.
    + rstep H. cbn [cvalue] in V.
      eapply pl_combine_close with (p := steps_of (SatLin a1 b1 d1 e1)) (q := steps_of (PieceLin s2));
        eauto using good_steps, steps_value; try (apply good_steps; auto; discriminate);
        apply steps_value; auto; discriminate.
  - destruct d as [y|a2 b2 d2 e2|s2]; cbn [combine] in H.
    + simpl in B. inversion B; subst.
      rewrite (combine_const_value _ _ _ _ _ Gc (proj1 Gd) H X A) in V. inversion V; lia.
    + rstep H. cbn [cvalue] in V. replace (a + b) with (b + a) by lia.
      eapply pl_combine_close with (p := steps_of (SatLin a2 b2 d2 e2)) (q := steps_of (PieceLin s1));
        eauto using good_steps, steps_value; try (apply good_steps; auto; discriminate);
        apply steps_value; auto; discriminate.
    + rstep H. cbn [cvalue] in V.
      eapply pl_combine_close with (p := steps_of (PieceLin s1)) (q := steps_of (PieceLin s2));
        eauto using good_steps, steps_value; try (apply good_steps; auto; discriminate);
        apply steps_value; auto; discriminate.
Qed.

(** ** Size *)
Theorem combine_size c d r : combine c d = Ok r -> csize r <= csize c + csize d.
Proof.
  assert (CC : forall c k r, combine_const c k = Ok r -> csize r = csize c).
  { intros c0 k r0 H. destruct c0; simpl in H; rstep H; auto.
    match goal with R : shift_steps _ _ = Ok _ |- _ => apply shift_steps_ok in R as [-> _] end.
    simpl. now rewrite map_length. }
  assert (PC : forall p q s, pl_combine p q = Ok s ->
             Z.of_nat (length s) <= Z.of_nat (length p) + Z.of_nat (length q)).
  { intros p q s H. unfold pl_combine in H. apply combine_at_ok in H as [T _].
    apply (f_equal (@length Z)) in T. rewrite map_length in T.
    pose proof (comb_times_length p q) as L. unfold comb_times in L. unfold step in *. lia. }
  destruct c as [y|a1 b1 d1 e1|s1], d as [y2|a2 b2 d2 e2|s2]; cbn [combine]; intros H;
    try (apply CC in H; cbn [csize] in *; lia);
    rstep H; match goal with R : pl_combine _ _ = Ok _ |- _ => apply PC in R end; cbn [csize from_sat length] in *; unfold step in *; lia.
Qed.

(** ** Sums of decreasing curves are decreasing *)
Lemma vals_dec_of_values r :
  match r with [] => True | f :: rest =>
    times_from (fst f) rest ->
    (forall p q, In p r -> In q r -> fst p < fst q -> snd q <= snd p) -> vals_dec (snd f) rest
  end.
Proof.
  destruct r as [|f rest]; auto. revert f. induction rest as [|g tl IH]; intros f T M; simpl; auto.
  destruct T as [T1 T2]. split.
  - apply M; simpl; auto.
  - apply IH; auto. intros p q Ip Iq. apply M; right; auto.
Qed.

Lemma good_dec_mono c x1 x2 v1 v2 : good_curve c -> validate_dec c = None ->
  (forall y, c <> Constant y) ->
  x1 <= x2 -> pl_value (steps_of c) x1 = Ok v1 -> pl_value (steps_of c) x2 = Ok v2 -> v2 <= v1.
Proof.
  intros G V N X H1 H2. pose proof (good_steps c G N) as GS.
  assert (VD : match steps_of c with [] => False | f :: rest => vals_dec (snd f) rest end).
  { destruct c as [y|a b d e|s]; simpl in *.
    - eapply N; eauto.
    - destruct (sl_validate a d); [discriminate|].
      destruct (Z.ltb_spec b e); [discriminate|]. auto.
    - destruct (pl_validate s); [discriminate|].
      destruct s as [|[t v] rest]; [exact GS|]. simpl in *.
      eapply classify_dec_vals with (sh := ShConst); auto; intros C; rewrite C in V; discriminate. }
  destruct (steps_of c) as [|f rest]; [destruct GS|]. destruct GS as [W T].
  destruct (Z.le_gt_cases x1 (fst f)).
  - rewrite pl_value_before in H1 by auto. inversion H1; subst.
    destruct (Z.le_gt_cases x2 (fst f)).
    + rewrite pl_value_before in H2 by auto. inversion H2; lia.
    + rewrite pl_value_loop in H2 by (auto; lia).
      pose proof (pl_loop_bounds_dec f rest x2 v2 W T VD ltac:(lia) H2). lia.
  - rewrite pl_value_loop in H1, H2 by (auto; lia).
    eapply pl_loop_mono_dec with (x1 := x1) (x2 := x2); eauto. lia.
Qed.

Lemma pl_combine_dec c d s : good_curve c -> good_curve d ->
  validate_dec c = None -> validate_dec d = None ->
  (forall y, c <> Constant y) -> (forall y, d <> Constant y) ->
  pl_combine (steps_of c) (steps_of d) = Ok s ->
  pl_good s /\ match s with [] => False | f :: rest => vals_dec (snd f) rest end.
Proof.
  intros Gc Gd Vc Vd Nc Nd H.
  destruct (pl_combine_good _ _ _ (good_steps c Gc Nc) (good_steps d Gd Nd) H) as [Gs T].
  split; auto.
  unfold pl_combine in H. apply combine_at_ok in H as [_ V].
  destruct s as [|f rest]; [destruct Gs|]. destruct Gs as [W Tf].
  apply (vals_dec_of_values (f :: rest)); auto.
  intros [t1 v1] [t2 v2] I1 I2 L. simpl in *.
  destruct (V _ _ I1) as [a1 [b1 [A1 [B1 [-> _]]]]].
  destruct (V _ _ I2) as [a2 [b2 [A2 [B2 [-> _]]]]].
  pose proof (good_dec_mono c t1 t2 a1 a2 Gc Vc Nc ltac:(lia) A1 A2).
  pose proof (good_dec_mono d t1 t2 b1 b2 Gd Vd Nd ltac:(lia) B1 B2). lia.
Qed.

Lemma combine_comm_case c d r : combine c d = Ok r ->
  (exists y k, (c = Constant y /\ k = d \/ d = Constant y /\ k = c) /\ combine_const k y = Ok r) \/
  ((forall y, c <> Constant y) /\ (forall y, d <> Constant y) /\
   exists s, r = PieceLin s /\
    (pl_combine (steps_of c) (steps_of d) = Ok s \/ pl_combine (steps_of d) (steps_of c) = Ok s)).
Proof.
  destruct c as [y|a1 b1 d1 e1|s1], d as [y2|a2 b2 d2 e2|s2]; cbn [combine]; intros H;
    try (left; do 2 eexists; split; [|exact H]; auto; fail);
    right; (split; [discriminate|]); (split; [discriminate|]); rstep H; eauto.
Qed.

Theorem combine_decreasing c d r x1 x2 v1 v2 :
  good_curve c -> good_curve d -> validate_dec c = None -> validate_dec d = None ->
  combine c d = Ok r -> 0 <= x1 <= x2 -> cvalue r x1 = Ok v1 -> cvalue r x2 = Ok v2 -> v2 <= v1.
Proof.
  intros Gc Gd Vc Vd H X H1 H2.
  assert (CC : forall k y, good_curve k -> validate_dec k = None -> 0 <= y <= U128_MAX ->
            combine_const k y = Ok r -> v2 <= v1).
  { intros k y G V Y C.
    assert (wf_curve r /\ validate_dec r = None) as [Wr Vr].
    { destruct G as [W _]. destruct k as [z|a b d0 e|s]; simpl in *.
      - rstep C. simpl. auto.
      - rstep C. simpl. unfold wf_step in *; simpl in *.
        destruct (sl_validate a d0); [discriminate|].
        destruct (Z.ltb_spec b e); [discriminate|]. destruct (Z.ltb_spec (b + y) (e + y)); [lia|].
        split; auto; lia.
      - rstep C. match goal with R : shift_steps _ _ = Ok _ |- _ =>
          apply shift_steps_ok in R as [-> F] end. simpl.
        split.
        + apply Forall_forall. intros p I. apply in_map_iff in I as [q [<- I]].
          rewrite Forall_forall in W, F. specialize (W _ I). specialize (F _ I).
          unfold wf_step in *; simpl in *. lia.
        + assert (PV : pl_validate (map (fun p => (fst p, y + snd p)) s) = pl_validate s).
          { destruct s as [|f tl]; auto. unfold pl_validate. cbn [map].
            assert (TI : forall l t, times_increasing t (map (fun p => (fst p, y + snd p)) l)
                       = times_increasing t l).
            { induction l as [|[u v] l IH]; simpl; intros t; auto. destruct (t <? u); auto. }
            change ((fst f, y + snd f) :: map (fun p => (fst p, y + snd p)) tl)
              with (map (fun p => (fst p, y + snd p)) (f :: tl)).
            now rewrite TI. }
          rewrite PV. destruct (pl_validate s); [discriminate|].
          assert (CL : classify (map (fun p => (fst p, y + snd p)) s) = classify s).
          { destruct s as [|[t v] tl]; auto. simpl.
            assert (forall l w sh, classify_loop (y + w) sh (map (fun p => (fst p, y + snd p)) l)
                       = classify_loop w sh l).
            { induction l as [|[u q] l IH]; simpl; intros w sh; auto.
              assert ((y + q ?= y + w) = (q ?= w)) as ->.
              { rewrite Z.add_compare_mono_l. reflexivity. }
              apply IH. }
            auto. }
          rewrite CL. exact V. }
    apply (validate_dec_monotone r x1 x2); auto. }
  destruct (combine_comm_case _ _ _ H) as [[y [k [E C]]]|[Nc [Nd [s [-> P]]]]].
  - destruct E as [[-> ->]|[-> ->]].
    + apply (CC d y); auto. apply Gc.
    + apply (CC c y); auto. apply Gd.
  - assert (Q : pl_good s /\ match s with [] => False | f :: rest => vals_dec (snd f) rest end).
    { destruct P as [P|P]; [apply (pl_combine_dec c d s)|apply (pl_combine_dec d c s)]; auto. }
    destruct Q as [GS VD]. simpl in H1, H2.
    destruct s as [|f rest]; [destruct GS|]. destruct GS as [W T].
    destruct (Z.le_gt_cases x1 (fst f)).
    + rewrite pl_value_before in H1 by auto. inversion H1; subst.
      destruct (Z.le_gt_cases x2 (fst f)).
      * rewrite pl_value_before in H2 by auto. inversion H2; lia.
      * rewrite pl_value_loop in H2 by (auto; lia).
        pose proof (pl_loop_bounds_dec f rest x2 v2 W T VD ltac:(lia) H2). lia.
    + rewrite pl_value_loop in H1, H2 by (auto; lia).
      eapply pl_loop_mono_dec with (x1 := x1) (x2 := x2); eauto. lia.
Qed.

(** Sum at step times, for curves of every kind. *)
Definition step_times (c : curve) : list Z :=
  match c with Constant _ => [] | SatLin a _ d _ => [a; d] | PieceLin s => map fst s end.

Theorem combine_at_steps c d r t :
  good_curve c -> good_curve d -> combine c d = Ok r -> 0 <= t ->
  In t (step_times c) \/ In t (step_times d) ->
  forall a b, cvalue c t = Ok a -> cvalue d t = Ok b -> cvalue r t = Ok (a + b).
Proof.
  intros Gc Gd H X I a b A B.
  destruct (combine_comm_case _ _ _ H) as [[y [k [E C]]]|[Nc [Nd [s [-> P]]]]].
  - destruct E as [[-> ->]|[-> ->]].
    + simpl in A. inversion A; subst. apply (combine_const_value d); auto. apply Gc.
    + simpl in B. inversion B; subst. rewrite Z.add_comm. apply (combine_const_value c); auto. apply Gd.
  - assert (ST : forall k, In t (step_times k) -> (forall y, k <> Constant y) -> In t (map fst (steps_of k))).
    { intros k J N. destruct k; simpl in *; auto. }
    pose proof (steps_value _ _ _ Gc Nc A) as A'. pose proof (steps_value _ _ _ Gd Nd B) as B'.
    pose proof (good_steps c Gc Nc) as G1. pose proof (good_steps d Gd Nd) as G2.
    destruct P as [P|P].
    + destruct (pl_combine_at_steps _ _ _ t G1 G2 P) as [a' [b' [Q1 [Q2 Q3]]]].
      { destruct I; [left|right]; auto. }
      rewrite A' in Q1. rewrite B' in Q2. inversion Q1; inversion Q2; subst. exact Q3.
    + destruct (pl_combine_at_steps _ _ _ t G2 G1 P) as [a' [b' [Q1 [Q2 Q3]]]].
      { destruct I; [right|left]; auto. }
      rewrite B' in Q1. rewrite A' in Q2. inversion Q1; inversion Q2; subst.
      rewrite Z.add_comm. exact Q3.
Qed.
