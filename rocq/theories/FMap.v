(** Finite maps with [Z] keys as key-ordered association lists.

    Stands for Soroban storage (keyed entries) and for the host [Map], which is
    iterated in key order.  [get] and [set] follow the same traversal, so the
    algebraic lemmas below hold for every list, sorted or not. *)
From Coq Require Import ZArith List Bool Lia.
Import ListNotations.
Open Scope Z_scope.

Section FMap.
  Context {V : Type}.

  Definition fmap := list (Z * V).

  Definition fempty : fmap := [].

  Fixpoint fget (k : Z) (m : fmap) : option V :=
    match m with
    | [] => None
    | (k', v) :: tl =>
        if k <? k' then None else if k =? k' then Some v else fget k tl
    end.

  Fixpoint fset (k : Z) (v : V) (m : fmap) : fmap :=
    match m with
    | [] => [(k, v)]
    | (k', v') :: tl =>
        if k <? k' then (k, v) :: m
        else if k =? k' then (k, v) :: tl
        else (k', v') :: fset k v tl
    end.

  Definition fgetd (d : V) (k : Z) (m : fmap) : V :=
    match fget k m with Some v => v | None => d end.

  Definition fmem (k : Z) (m : fmap) : bool :=
    match fget k m with Some _ => true | None => false end.

  Definition fkeys (m : fmap) : list Z := map fst m.

  Fixpoint fsum (f : V -> Z) (m : fmap) : Z :=
    match m with [] => 0 | (_, v) :: tl => f v + fsum f tl end.

  Lemma fget_empty k : fget k fempty = None.
  Proof. reflexivity. Qed.

  Lemma fget_set_same k v m : fget k (fset k v m) = Some v.
  Proof.
    induction m as [|[k' v'] tl IH]; simpl.
    - rewrite Z.ltb_irrefl, Z.eqb_refl. auto.
    - destruct (Z.ltb_spec k k'); simpl.
      + rewrite Z.ltb_irrefl, Z.eqb_refl. auto.
      + destruct (Z.eqb_spec k k'); simpl.
        * rewrite Z.ltb_irrefl, Z.eqb_refl. auto.
        * destruct (Z.ltb_spec k k'); [lia|]. destruct (Z.eqb_spec k k'); [lia|]. auto.
  Qed.

  Lemma fget_set_other k k2 v m : k2 <> k -> fget k2 (fset k v m) = fget k2 m.
  Proof.
    intros N. induction m as [|[k' v'] tl IH]; simpl.
    - destruct (Z.ltb_spec k2 k); auto. destruct (Z.eqb_spec k2 k); [lia|auto].
    - destruct (Z.ltb_spec k k'); simpl.
      + destruct (Z.ltb_spec k2 k), (Z.ltb_spec k2 k'), (Z.eqb_spec k2 k), (Z.eqb_spec k2 k');
          try lia; auto.
      + destruct (Z.eqb_spec k k'); simpl.
        * subst. destruct (Z.ltb_spec k2 k'); auto. destruct (Z.eqb_spec k2 k'); [lia|auto].
        * destruct (Z.ltb_spec k2 k'); auto. destruct (Z.eqb_spec k2 k'); auto.
  Qed.

  Lemma fget_set k k2 v m : fget k2 (fset k v m) = if k2 =? k then Some v else fget k2 m.
  Proof.
    destruct (Z.eqb_spec k2 k); [subst; apply fget_set_same | now apply fget_set_other].
  Qed.

  Lemma fgetd_set_same d k v m : fgetd d k (fset k v m) = v.
  Proof. unfold fgetd. now rewrite fget_set_same. Qed.
  Lemma fgetd_set_other d k k2 v m : k2 <> k -> fgetd d k2 (fset k v m) = fgetd d k2 m.
  Proof. intros. unfold fgetd. now rewrite fget_set_other. Qed.
  Lemma fgetd_set d k k2 v m : fgetd d k2 (fset k v m) = if k2 =? k then v else fgetd d k2 m.
  Proof. unfold fgetd. rewrite fget_set. destruct (k2 =? k); auto. Qed.

  Lemma fmem_set k k2 v m : fmem k2 (fset k v m) = (k2 =? k) || fmem k2 m.
  Proof. unfold fmem. rewrite fget_set. destruct (k2 =? k); auto. Qed.

  Lemma fsum_set f k v m :
    fsum f (fset k v m) = fsum f m - match fget k m with Some u => f u | None => 0 end + f v.
  Proof.
    induction m as [|[k' v'] tl IH]; simpl; [lia|].
    destruct (Z.ltb_spec k k'); simpl; [lia|].
    destruct (Z.eqb_spec k k'); simpl; [lia|].
    rewrite IH. lia.
  Qed.

  Lemma fget_in k v m : fget k m = Some v -> In (k, v) m.
  Proof.
    induction m as [|[k' v'] tl IH]; simpl; [discriminate|].
    destruct (k <? k'); [discriminate|].
    destruct (Z.eqb_spec k k'); intros H.
    - inversion H; subst; auto.
    - auto.
  Qed.

  Lemma fset_in k v m k2 v2 : In (k2, v2) (fset k v m) -> (k2, v2) = (k, v) \/ In (k2, v2) m.
  Proof.
    induction m as [|[k' v'] tl IH]; simpl.
    - intros [H|[]]; auto.
    - destruct (k <? k'); simpl.
      + intros [H|H]; auto.
      + destruct (Z.eqb_spec k k'); simpl.
        * intros [H|H]; auto.
        * intros [H|H]; auto. destruct (IH H); auto.
  Qed.

  Lemma fsum_nonneg f m : (forall k v, In (k, v) m -> 0 <= f v) -> 0 <= fsum f m.
  Proof.
    induction m as [|[k v] tl IH]; simpl; intros H; [lia|].
    specialize (IH (fun k' v' I => H k' v' (or_intror I))).
    specialize (H k v (or_introl eq_refl)). lia.
  Qed.

  Lemma fsum_ge_get f k v m :
    (forall k v, In (k, v) m -> 0 <= f v) -> fget k m = Some v -> f v <= fsum f m.
  Proof.
    induction m as [|[k' v'] tl IH]; simpl; intros H G; [discriminate|].
    assert (0 <= fsum f tl) by (apply fsum_nonneg; intros; eapply H; right; eauto).
    assert (0 <= f v') by (eapply H; left; eauto).
    destruct (k <? k'); [discriminate|].
    destruct (k =? k').
    - inversion G; subst; lia.
    - enough (f v <= fsum f tl) by lia. apply IH; auto. intros; eapply H; right; eauto.
  Qed.

  Lemma fsum_ext f g m : (forall k v, In (k, v) m -> f v = g v) -> fsum f m = fsum g m.
  Proof.
    induction m as [|[k v] tl IH]; simpl; intros H; auto.
    rewrite (H k v) by auto. f_equal. apply IH. intros; eapply H; right; eauto.
  Qed.

  Lemma fsum_le f g m : (forall k v, In (k, v) m -> f v <= g v) -> fsum f m <= fsum g m.
  Proof.
    induction m as [|[k v] tl IH]; simpl; intros H; [lia|].
    specialize (H k v) as H1. specialize (H1 (or_introl eq_refl)).
    enough (fsum f tl <= fsum g tl) by lia. apply IH; intros; eapply H; right; eauto.
  Qed.

  Lemma fsum_add f g m : fsum (fun v => f v + g v) m = fsum f m + fsum g m.
  Proof. induction m as [|[k v] tl IH]; simpl; [auto | rewrite IH; lia]. Qed.
  Lemma fsum_scale f c m : fsum (fun v => c * f v) m = c * fsum f m.
  Proof. induction m as [|[k v] tl IH]; simpl; [lia | rewrite IH; lia]. Qed.
  Lemma fsum_zero m : fsum (fun _ => 0) m = 0.
  Proof. induction m as [|[k v] tl IH]; simpl; auto. Qed.

  (** Key order *)
  Fixpoint fsorted_from (lo : option Z) (m : fmap) : Prop :=
    match m with
    | [] => True
    | (k, _) :: tl => (match lo with Some l => l < k | None => True end) /\ fsorted_from (Some k) tl
    end.
  Definition fsorted (m : fmap) : Prop := fsorted_from None m.

  Lemma fsorted_from_set lo k v m :
    match lo with Some l => l < k | None => True end ->
    fsorted_from lo m -> fsorted_from lo (fset k v m).
  Proof.
    revert lo. induction m as [|[k' v'] tl IH]; simpl; intros lo L H; auto.
    destruct H as [H1 H2].
    destruct (Z.ltb_spec k k'); simpl; [auto|].
    destruct (Z.eqb_spec k k'); simpl.
    - subst; auto.
    - split; auto. apply IH; auto. simpl. lia.
  Qed.

  Lemma fsorted_set k v m : fsorted m -> fsorted (fset k v m).
  Proof. apply fsorted_from_set. exact I. Qed.

  Lemma fsorted_from_in lo m k v :
    fsorted_from lo m -> In (k, v) m -> match lo with Some l => l < k | None => True end.
  Proof.
    revert lo. induction m as [|[k' v'] tl IH]; simpl; intros lo H; [tauto|].
    destruct H as [H1 H2]. intros [E|I].
    - inversion E; subst; auto.
    - specialize (IH _ H2 I). simpl in IH. destruct lo; auto. lia.
  Qed.

  Lemma fsorted_get_in lo m k v : fsorted_from lo m -> In (k, v) m -> fget k m = Some v.
  Proof.
    revert lo. induction m as [|[k' v'] tl IH]; simpl; intros lo H; [tauto|].
    destruct H as [H1 H2]. intros [E|I].
    - inversion E; subst. rewrite Z.ltb_irrefl, Z.eqb_refl. auto.
    - pose proof (fsorted_from_in _ _ _ _ H2 I) as L. simpl in L.
      destruct (Z.ltb_spec k k'); [lia|]. destruct (Z.eqb_spec k k'); [lia|]. eauto.
  Qed.

  (** Summing the entries of an ordered map = summing lookups over any duplicate-free list
      of keys that covers the nonzero ones. *)
  Lemma fsorted_from_none lo m k : fsorted_from (Some lo) m -> k <= lo -> fget k m = None.
  Proof.
    destruct m as [|[k' v'] tl]; simpl; auto. intros [H _] L. destruct (Z.ltb_spec k k'); [auto|lia].
  Qed.
End FMap.
Arguments fmap : clear implicits.

(** Tactic: decide lookups through updates. *)
Lemma fget_map {V W} (g : V -> W) k (m : fmap V) :
  fget k (map (fun p => (fst p, g (snd p))) m) = option_map g (fget k m).
Proof.
  induction m as [|[k' v'] tl IH]; simpl; auto.
  destruct (k <? k'); auto. destruct (k =? k'); auto.
Qed.

Fixpoint zsum (f : Z -> Z) (l : list Z) : Z := match l with [] => 0 | a :: tl => f a + zsum f tl end.
Lemma zsum_ext f g l : (forall a, In a l -> f a = g a) -> zsum f l = zsum g l.
Proof. induction l; simpl; intros H; auto. rewrite (H a), IHl; auto. Qed.
Lemma zsum_plus f g l : zsum (fun a => f a + g a) l = zsum f l + zsum g l.
Proof. induction l; simpl; lia. Qed.
Lemma zsum_zero l : zsum (fun _ => 0) l = 0.
Proof. induction l; simpl; lia. Qed.
Lemma zsum_app f l1 l2 : zsum f (l1 ++ l2) = zsum f l1 + zsum f l2.
Proof. induction l1; simpl; lia. Qed.
Lemma zsum_le f g l : (forall a, In a l -> f a <= g a) -> zsum f l <= zsum g l.
Proof. induction l; simpl; intros H; [lia|]. specialize (IHl (fun a I => H a (or_intror I))). specialize (H a (or_introl eq_refl)). lia. Qed.
Lemma zsum_single f k x l : NoDup l -> In k l -> (forall a, f a = if a =? k then x else 0) -> zsum f l = x.
Proof.
  intros N I F. induction N; simpl in *; [tauto|].
  destruct I as [->|I].
  - rewrite F, Z.eqb_refl. rewrite (zsum_ext f (fun _ => 0)), zsum_zero; [lia|].
    intros a Ia. rewrite F. destruct (Z.eqb_spec a k); subst; tauto.
  - rewrite F, IHN by auto. destruct (Z.eqb_spec x0 k); subst; [tauto|lia].
Qed.

Lemma fsum_cover (m : fmap Z) l : forall lo, fsorted_from lo m -> NoDup l ->
  (forall a, fgetd 0 a m <> 0 -> In a l) -> fsum (fun x => x) m = zsum (fun a => fgetd 0 a m) l.
Proof.
  induction m as [|[k v] tl IH]; simpl; intros lo Hs N C.
  - rewrite (zsum_ext _ (fun _ => 0)), zsum_zero; auto.
  - destruct Hs as [H1 H2].
    assert (E : forall a, fgetd 0 a ((k, v) :: tl) = (if a =? k then v else 0) + fgetd 0 a tl).
    { intros a. unfold fgetd; simpl. destruct (Z.ltb_spec a k).
      - rewrite (fsorted_from_none k tl a) by (auto; lia). destruct (Z.eqb_spec a k); lia.
      - destruct (Z.eqb_spec a k); [|lia]. subst. rewrite (fsorted_from_none k tl k) by (auto; lia). lia. }
    rewrite (zsum_ext _ _ l (fun a _ => E a)), zsum_plus.
    rewrite <- (IH (Some k)); auto.
    + f_equal. destruct (Z.eq_dec v 0) as [->|Nv].
      * rewrite (zsum_ext _ (fun _ => 0)), zsum_zero; auto. intros a _. destruct (a =? k); auto.
      * symmetry. eapply zsum_single; eauto. apply C. rewrite E, Z.eqb_refl.
        unfold fgetd. rewrite (fsorted_from_none k tl k) by (auto; lia). lia.
    + intros a Ha. apply C. rewrite E. destruct (Z.eqb_spec a k); [|lia].
      subst. exfalso. apply Ha. unfold fgetd. rewrite (fsorted_from_none k tl k) by (auto; lia). auto.
Qed.
