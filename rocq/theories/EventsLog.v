(** Relating what a transaction did to the events it published. *)
From Coq Require Import ZArith List Bool String Lia.
From Coq Require Import ZifyBool.
From Verif Require Import Base FMap Decimal Curve World Token Stake Pool Stable Rewards Vest Factory Router System
  TokenProofs Frame Events EventsErase.
Import ListNotations.
Open Scope Z_scope.

(** ** What [lexec] does, [exec] does, and the other way round *)
Lemma lexec_exec e k w w' L : lexec e k (w, []) = Ok (tt, (w', L)) -> exec e k w = Ok (tt, w').
Proof.
  intros H. pose proof (lexec_erases e k w []) as E.
  destruct (exec e k w) as [[u w1]|x].
  - destruct E as [l' E]. rewrite H in E. inversion E. now destruct u.
  - rewrite H in E. discriminate.
Qed.

Lemma exec_lexec e k w w' : exec e k w = Ok (tt, w') -> exists L, lexec e k (w, []) = Ok (tt, (w', L)).
Proof.
  intros H. pose proof (lexec_erases e k w []) as E. rewrite H in E.
  destruct E as [l' E]. exists l'. exact E.
Qed.

Lemma lrun_run H w l w' L : lrun H w l w' L -> run H w l w'.
Proof.
  induction 1.
  - constructor.
  - econstructor; [|eassumption]. constructor; auto. eapply lexec_exec; eassumption.
  - econstructor; [|eassumption]. constructor; auto.
Qed.

Lemma run_lrun H w l w' : run H w l w' -> exists L, lrun H w l w' L.
Proof.
  induction 1 as [w|w ev w1 l w2 T R [L IH]].
  - exists []. constructor.
  - inversion T; subst.
    + destruct (exec_lexec _ _ _ _ H1) as [L1 E]. exists (L1 ++ L). econstructor; eauto.
    + exists L. constructor; auto.
Qed.

Lemma lrun_fun H w l w1 L1 : lrun H w l w1 L1 -> forall w2 L2, lrun H w l w2 L2 -> w1 = w2 /\ L1 = L2.
Proof.
  induction 1 as [w|w e k wa La l wb Lb E X R IH|w n s l wb L N S R IH]; intros w3 L3 R3.
  - inversion R3; subst; auto.
  - inversion R3; subst.
    match goal with B : lexec e k (w, []) = _ |- _ => rewrite X in B; inversion B; subst end.
    match goal with A : lrun _ _ l _ _ |- _ => destruct (IH _ _ A) as [-> ->]; auto end.
  - inversion R3; subst. eapply IH; eauto.
Qed.

Lemma lrun_app H w l1 w1 L1 l2 w2 L2 :
  lrun H w l1 w1 L1 -> lrun H w1 l2 w2 L2 -> lrun H w (l1 ++ l2) w2 (L1 ++ L2).
Proof.
  induction 1; intros R; simpl; auto.
  - rewrite <- app_assoc. econstructor; eauto.
  - constructor; auto.
Qed.

(** ** Rules *)
Definition logs {A} (Q : World -> World -> Log -> Prop) (m : LST A) : Prop :=
  forall w l a w' l', m (w, l) = Ok (a, (w', l')) -> exists d, l' = l ++ d /\ Q w w' d.

Record LogRel (Q : World -> World -> Log -> Prop) : Prop := {
  lq_refl : forall w, Q w w [];
  lq_trans : forall w1 w2 w3 d1 d2, Q w1 w2 d1 -> Q w2 w3 d2 -> Q w1 w3 (d1 ++ d2) }.

Section Rules.
  Context (Q : World -> World -> Log -> Prop) (RQ : LogRel Q).

  Lemma lg_bind {A B} (m : LST A) (k : A -> LST B) :
    logs Q m -> (forall a, logs Q (k a)) -> logs Q (mbind m k).
  Proof.
    intros E F w l b w' l' H. apply mbind_ok in H. destruct H as [a [[w1 l1] [M K]]].
    destruct (E _ _ _ _ _ M) as [d1 [-> Q1]]. destruct (F _ _ _ _ _ _ K) as [d2 [-> Q2]].
    exists (d1 ++ d2). split; [now rewrite app_assoc | eapply lq_trans; eauto].
  Qed.
  Lemma lg_ret {A} (a : A) : logs Q (mret a).
  Proof. intros w l b w' l' H. inversion H; subst. exists []. split; [now rewrite app_nil_r | now apply lq_refl]. Qed.
  Lemma lg_fail {A} x : @logs A Q (mfail x).
  Proof. intros w l b w' l' H. discriminate. Qed.
  Lemma lg_mlift {A} (r : res A) : logs Q (mlift r).
  Proof.
    intros w l b w' l' H. unfold mlift in H. destruct r; inversion H; subst.
    exists []. split; [now rewrite app_nil_r | now apply lq_refl].
  Qed.
  Lemma lg_mguard b x : logs Q (mguard b x).
  Proof.
    intros w l u w' l' H. unfold mguard in H. destruct b; inversion H; subst.
    exists []. split; [now rewrite app_nil_r | now apply lq_refl].
  Qed.
  Lemma lg_emit c v : (forall w, Q w w [(c, v)]) -> logs Q (emit c v).
  Proof. intros E w l u w' l' H. inversion H; subst. exists [(c, v)]. auto. Qed.
  Lemma lg_lf {A} (m : ST World A) : safe (fun w w' => Q w w' []) m -> logs Q (lf m).
  Proof.
    intros E w l a w' l' H. unfold lf in H. simpl in H. destruct (m w) as [[b w1]|] eqn:M; inversion H; subst.
    exists []. split; [now rewrite app_nil_r | eapply E; eauto].
  Qed.
  Lemma lg_exec e k w w' L : logs Q (lexec e k) -> lexec e k (w, []) = Ok (tt, (w', L)) -> Q w w' L.
  Proof. intros E H. destruct (E _ _ _ _ _ H) as [d [-> X]]. exact X. Qed.
End Rules.

(** inversion of [lf] and [emit] inside a computation *)
Lemma lf_ok {A} (m : ST World A) w l a s : lf m (w, l) = Ok (a, s) -> exists w', m w = Ok (a, w') /\ s = (w', l).
Proof. unfold lf. simpl. destruct (m w) as [[b w1]|]; intros H; inversion H; eauto. Qed.
Lemma emit_ok c v w l a s : emit c v (w, l) = Ok (a, s) -> s = (w, l ++ [(c, v)]).
Proof. unfold emit. simpl. intros H; inversion H; auto. Qed.

Ltac lg RQ leaf :=
  repeat first
  [ solve [leaf]
  | apply (lg_bind _ RQ); [|intro]
  | apply (lg_ret _ RQ) | apply (lg_fail _) | apply (lg_mlift _ RQ) | apply (lg_mguard _ RQ)
  | match goal with
    | |- logs _ (let '(_, _) := ?p in _) => destruct p
    | |- logs _ (if ?b then _ else _) => destruct b
    | |- logs _ (match ?o with _ => _ end) => destruct o
    end
  | progress cbv beta zeta ].
