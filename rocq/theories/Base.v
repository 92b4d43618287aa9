(** Result and state monads, error values, checked machine arithmetic.

    Rust integers are modelled by [Z]; the release profile of /repo/Cargo.toml
    sets [overflow-checks = true] and [panic = "abort"], so every operation that
    leaves its type panics.  A panic is the value [Err _]. *)
From Coq Require Import ZArith List Bool Lia.
From Coq Require Import ZifyBool.
Import ListNotations.
Open Scope Z_scope.

(** ** Errors *)
(** [EContract c]: [panic_with_error!] with numeric code [c];
    [EArith]: overflow, underflow, division by zero, failing cast;
    [EPanic]: [panic!], [assert!], [unwrap]/[expect] on None/Err;
    [EAuth]: failing [require_auth];  [EHost]: host error such as calling a
    contract that does not exist or deploying at an address in use. *)
Inductive err : Type :=
| EContract (code : Z)
| EArith
| EPanic
| EAuth
| EHost.

Inductive res (A : Type) : Type :=
| Ok (a : A)
| Err (e : err).
Arguments Ok {A} a.
Arguments Err {A} e.

Definition rbind {A B} (m : res A) (k : A -> res B) : res B :=
  match m with Ok a => k a | Err e => Err e end.

Notation "'let?' x ':=' m 'in' k" := (rbind m (fun x => k))
  (at level 200, x pattern, m at level 100, k at level 200, right associativity).

Definition guard (b : bool) (e : err) : res unit := if b then Ok tt else Err e.
Notation "'assert?' b 'or' e 'in' k" := (rbind (guard b e) (fun _ => k))
  (at level 200, b at level 100, e at level 99, k at level 200, right associativity).

Definition of_option {A} (o : option A) (e : err) : res A :=
  match o with Some a => Ok a | None => Err e end.

Definition is_ok {A} (r : res A) : bool := match r with Ok _ => true | Err _ => false end.

(** ** State monad over a ledger [S] *)
Definition ST (S A : Type) : Type := S -> res (A * S).

Definition mret {S A} (a : A) : ST S A := fun s => Ok (a, s).
Definition mfail {S A} (e : err) : ST S A := fun _ => Err e.
Definition mbind {S A B} (m : ST S A) (k : A -> ST S B) : ST S B :=
  fun s => match m s with Ok (a, s') => k a s' | Err e => Err e end.
Definition mlift {S A} (r : res A) : ST S A :=
  fun s => match r with Ok a => Ok (a, s) | Err e => Err e end.
Definition mguard {S} (b : bool) (e : err) : ST S unit :=
  fun s => if b then Ok (tt, s) else Err e.
Definition mget {S} : ST S S := fun s => Ok (s, s).
Definition mgets {S A} (f : S -> A) : ST S A := fun s => Ok (f s, s).
Definition mmod {S} (f : S -> S) : ST S unit := fun s => Ok (tt, f s).
Definition mwhen {S} (b : bool) (m : ST S unit) : ST S unit :=
  if b then m else mret tt.

Notation "x <- m ;; k" := (mbind m (fun x => k))
  (at level 61, m at next level, right associativity).
Notation "' p <- m ;; k" := (mbind m (fun x => let p := x in k))
  (at level 61, p pattern, m at next level, right associativity).
Notation "m ;; k" := (mbind m (fun _ => k)) (at level 61, right associativity).

(** ** Ranges of the Rust integer types *)
Definition I128_MIN : Z := -170141183460469231731687303715884105728.
Definition I128_MAX : Z := 170141183460469231731687303715884105727.
Definition U128_MAX : Z := 340282366920938463463374607431768211455.
Definition U64_MAX : Z := 18446744073709551615.
Definition U32_MAX : Z := 4294967295.
Definition I64_MIN : Z := -9223372036854775808.
Definition I64_MAX : Z := 9223372036854775807.
Definition U256_MAX : Z :=
  115792089237316195423570985008687907853269984665640564039457584007913129639935.

Definition in_i128 (x : Z) : bool := (I128_MIN <=? x) && (x <=? I128_MAX).
Definition in_u128 (x : Z) : bool := (0 <=? x) && (x <=? U128_MAX).
Definition in_u64 (x : Z) : bool := (0 <=? x) && (x <=? U64_MAX).
Definition in_u32 (x : Z) : bool := (0 <=? x) && (x <=? U32_MAX).
Definition in_u256 (x : Z) : bool := (0 <=? x) && (x <=? U256_MAX).
Definition in_i64 (x : Z) : bool := (I64_MIN <=? x) && (x <=? I64_MAX).

Definition chk (inr : Z -> bool) (x : Z) : res Z := if inr x then Ok x else Err EArith.

(** [i128]: [/] and [%] truncate toward zero. *)
Definition add_i (a b : Z) : res Z := chk in_i128 (a + b).
Definition sub_i (a b : Z) : res Z := chk in_i128 (a - b).
Definition mul_i (a b : Z) : res Z := chk in_i128 (a * b).
Definition div_i (a b : Z) : res Z :=
  if b =? 0 then Err EArith else chk in_i128 (Z.quot a b).

(** [u128] *)
Definition add_u (a b : Z) : res Z := chk in_u128 (a + b).
Definition sub_u (a b : Z) : res Z := chk in_u128 (a - b).
Definition mul_u (a b : Z) : res Z := chk in_u128 (a * b).
Definition div_u (a b : Z) : res Z := if b =? 0 then Err EArith else Ok (a / b).

(** [u64] *)
Definition add_64 (a b : Z) : res Z := chk in_u64 (a + b).
Definition sub_64 (a b : Z) : res Z := chk in_u64 (a - b).
Definition mul_64 (a b : Z) : res Z := chk in_u64 (a * b).

(** Soroban [U256] host arithmetic (panics on over/underflow, division by 0). *)
Definition add_w (a b : Z) : res Z := chk in_u256 (a + b).
Definition sub_w (a b : Z) : res Z := chk in_u256 (a - b).
Definition mul_w (a b : Z) : res Z := chk in_u256 (a * b).
Definition div_w (a b : Z) : res Z := if b =? 0 then Err EArith else Ok (a / b).

(** Casts used by the code: [convert_i128_to_u128], [convert_u128_to_i128]
    (packages/phoenix/src/utils.rs:55-69). *)
Definition i2u (x : Z) : res Z := if x <? 0 then Err EPanic else Ok x.
Definition u2i (x : Z) : res Z := if I128_MAX <? x then Err EPanic else Ok x.

(** ** Inversion lemmas *)
Lemma rbind_ok {A B} (m : res A) (k : A -> res B) b :
  rbind m k = Ok b -> exists a, m = Ok a /\ k a = Ok b.
Proof. destruct m; simpl; intros H; [eauto | discriminate]. Qed.

Lemma guard_ok b e u : guard b e = Ok u -> b = true.
Proof. destruct b; simpl; [auto | discriminate]. Qed.

Lemma of_option_ok {A} (o : option A) e a : of_option o e = Ok a -> o = Some a.
Proof. destruct o; simpl; intros H; inversion H; auto. Qed.

Lemma mbind_ok {S A B} (m : ST S A) (k : A -> ST S B) s r :
  mbind m k s = Ok r -> exists a s1, m s = Ok (a, s1) /\ k a s1 = Ok r.
Proof. unfold mbind. destruct (m s) as [[a s1]|]; intros H; [eauto | discriminate]. Qed.

Lemma mret_ok {S A} (a : A) (s : S) r : mret a s = Ok r -> r = (a, s).
Proof. unfold mret. intros H; inversion H; auto. Qed.

Lemma mlift_ok {S A} (m : res A) (s : S) r : mlift m s = Ok r -> exists a, m = Ok a /\ r = (a, s).
Proof. unfold mlift. destruct m; intros H; inversion H; eauto. Qed.

Lemma mguard_ok {S} b e (s : S) r : mguard b e s = Ok r -> b = true /\ r = (tt, s).
Proof. unfold mguard. destruct b; intros H; inversion H; auto. Qed.

Lemma mget_ok {S} (s : S) r : mget s = Ok r -> r = (s, s).
Proof. unfold mget. intros H; inversion H; auto. Qed.

Lemma mgets_ok {S A} (f : S -> A) (s : S) r : mgets f s = Ok r -> r = (f s, s).
Proof. unfold mgets. intros H; inversion H; auto. Qed.

Lemma mmod_ok {S} (f : S -> S) (s : S) r : mmod f s = Ok r -> r = (tt, f s).
Proof. unfold mmod. intros H; inversion H; auto. Qed.

Lemma mfail_ok {S A} e (s : S) (r : A * S) : mfail e s = Ok r -> False.
Proof. discriminate. Qed.

Lemma chk_ok f x y : chk f x = Ok y -> y = x /\ f x = true.
Proof. unfold chk. destruct (f x) eqn:E; intros H; inversion H; auto. Qed.

Lemma in_i128_iff x : in_i128 x = true <-> I128_MIN <= x <= I128_MAX.
Proof. unfold in_i128. rewrite andb_true_iff, !Z.leb_le. tauto. Qed.
Lemma in_u128_iff x : in_u128 x = true <-> 0 <= x <= U128_MAX.
Proof. unfold in_u128. rewrite andb_true_iff, !Z.leb_le. tauto. Qed.
Lemma in_u64_iff x : in_u64 x = true <-> 0 <= x <= U64_MAX.
Proof. unfold in_u64. rewrite andb_true_iff, !Z.leb_le. tauto. Qed.
Lemma in_u32_iff x : in_u32 x = true <-> 0 <= x <= U32_MAX.
Proof. unfold in_u32. rewrite andb_true_iff, !Z.leb_le. tauto. Qed.
Lemma in_u256_iff x : in_u256 x = true <-> 0 <= x <= U256_MAX.
Proof. unfold in_u256. rewrite andb_true_iff, !Z.leb_le. tauto. Qed.

Lemma add_i_ok a b c : add_i a b = Ok c -> c = a + b /\ I128_MIN <= a + b <= I128_MAX.
Proof. intros H. apply chk_ok in H. rewrite in_i128_iff in H. tauto. Qed.
Lemma sub_i_ok a b c : sub_i a b = Ok c -> c = a - b /\ I128_MIN <= a - b <= I128_MAX.
Proof. intros H. apply chk_ok in H. rewrite in_i128_iff in H. tauto. Qed.
Lemma mul_i_ok a b c : mul_i a b = Ok c -> c = a * b /\ I128_MIN <= a * b <= I128_MAX.
Proof. intros H. apply chk_ok in H. rewrite in_i128_iff in H. tauto. Qed.
Lemma div_i_ok a b c : div_i a b = Ok c -> b <> 0 /\ c = Z.quot a b.
Proof.
  unfold div_i. destruct (Z.eqb_spec b 0); intros H; [discriminate|].
  apply chk_ok in H. tauto.
Qed.
Lemma add_u_ok a b c : add_u a b = Ok c -> c = a + b /\ 0 <= a + b <= U128_MAX.
Proof. intros H. apply chk_ok in H. rewrite in_u128_iff in H. tauto. Qed.
Lemma sub_u_ok a b c : sub_u a b = Ok c -> c = a - b /\ 0 <= a - b <= U128_MAX.
Proof. intros H. apply chk_ok in H. rewrite in_u128_iff in H. tauto. Qed.
Lemma mul_u_ok a b c : mul_u a b = Ok c -> c = a * b /\ 0 <= a * b <= U128_MAX.
Proof. intros H. apply chk_ok in H. rewrite in_u128_iff in H. tauto. Qed.
Lemma div_u_ok a b c : div_u a b = Ok c -> b <> 0 /\ c = a / b.
Proof.
  unfold div_u. destruct (Z.eqb_spec b 0); intros H; inversion H. auto.
Qed.
Lemma add_64_ok a b c : add_64 a b = Ok c -> c = a + b /\ 0 <= a + b <= U64_MAX.
Proof. intros H. apply chk_ok in H. rewrite in_u64_iff in H. tauto. Qed.
Lemma sub_64_ok a b c : sub_64 a b = Ok c -> c = a - b /\ 0 <= a - b <= U64_MAX.
Proof. intros H. apply chk_ok in H. rewrite in_u64_iff in H. tauto. Qed.
Lemma mul_64_ok a b c : mul_64 a b = Ok c -> c = a * b /\ 0 <= a * b <= U64_MAX.
Proof. intros H. apply chk_ok in H. rewrite in_u64_iff in H. tauto. Qed.
Lemma add_w_ok a b c : add_w a b = Ok c -> c = a + b /\ 0 <= a + b <= U256_MAX.
Proof. intros H. apply chk_ok in H. rewrite in_u256_iff in H. tauto. Qed.
Lemma sub_w_ok a b c : sub_w a b = Ok c -> c = a - b /\ 0 <= a - b <= U256_MAX.
Proof. intros H. apply chk_ok in H. rewrite in_u256_iff in H. tauto. Qed.
Lemma mul_w_ok a b c : mul_w a b = Ok c -> c = a * b /\ 0 <= a * b <= U256_MAX.
Proof. intros H. apply chk_ok in H. rewrite in_u256_iff in H. tauto. Qed.
Lemma div_w_ok a b c : div_w a b = Ok c -> b <> 0 /\ c = a / b.
Proof.
  unfold div_w. destruct (Z.eqb_spec b 0); intros H; inversion H. auto.
Qed.
Lemma i2u_ok a c : i2u a = Ok c -> c = a /\ 0 <= a.
Proof. unfold i2u. destruct (Z.ltb_spec a 0); intros E; inversion E; subst; auto. Qed.
Lemma u2i_ok a c : u2i a = Ok c -> c = a /\ a <= I128_MAX.
Proof. unfold u2i. destruct (Z.ltb_spec I128_MAX a); intros E; inversion E; subst; auto. Qed.

(** Introduction forms *)
Lemma add_i_intro a b : I128_MIN <= a + b <= I128_MAX -> add_i a b = Ok (a + b).
Proof. intros H. unfold add_i, chk. apply in_i128_iff in H. now rewrite H. Qed.
Lemma sub_i_intro a b : I128_MIN <= a - b <= I128_MAX -> sub_i a b = Ok (a - b).
Proof. intros H. unfold sub_i, chk. apply in_i128_iff in H. now rewrite H. Qed.
Lemma mul_i_intro a b : I128_MIN <= a * b <= I128_MAX -> mul_i a b = Ok (a * b).
Proof. intros H. unfold mul_i, chk. apply in_i128_iff in H. now rewrite H. Qed.
Lemma add_u_intro a b : 0 <= a + b <= U128_MAX -> add_u a b = Ok (a + b).
Proof. intros H. unfold add_u, chk. apply in_u128_iff in H. now rewrite H. Qed.
Lemma sub_u_intro a b : 0 <= a - b <= U128_MAX -> sub_u a b = Ok (a - b).
Proof. intros H. unfold sub_u, chk. apply in_u128_iff in H. now rewrite H. Qed.
Lemma mul_u_intro a b : 0 <= a * b <= U128_MAX -> mul_u a b = Ok (a * b).
Proof. intros H. unfold mul_u, chk. apply in_u128_iff in H. now rewrite H. Qed.

(** Opaque to [simpl] so that proofs see the operations, not their guts. *)
Arguments rbind : simpl never.
Arguments guard : simpl never.
Arguments mbind : simpl never.
Arguments mret : simpl never.
Arguments mlift : simpl never.
Arguments mguard : simpl never.
Arguments mget : simpl never.
Arguments mgets : simpl never.
Arguments mmod : simpl never.
Arguments chk : simpl never.
Arguments add_i : simpl never.
Arguments sub_i : simpl never.
Arguments mul_i : simpl never.
Arguments div_i : simpl never.
Arguments add_u : simpl never.
Arguments sub_u : simpl never.
Arguments mul_u : simpl never.
Arguments div_u : simpl never.
Arguments add_64 : simpl never.
Arguments sub_64 : simpl never.
Arguments mul_64 : simpl never.
Arguments add_w : simpl never.
Arguments sub_w : simpl never.
Arguments mul_w : simpl never.
Arguments div_w : simpl never.
Arguments i2u : simpl never.
Arguments u2i : simpl never.

(** [rstep H]: peel one layer off a hypothesis [H : _ = Ok _]. *)
Ltac rstep H :=
  lazymatch type of H with
  | rbind _ _ = Ok _ =>
      let a := fresh "x" in let H1 := fresh "R" in let H2 := fresh "R" in
      apply rbind_ok in H; destruct H as [a [H1 H2]]; cbv beta in H2;
      try rstep H1; try rstep H2
  | mbind _ _ _ = Ok _ =>
      let a := fresh "x" in let s := fresh "w" in
      let H1 := fresh "R" in let H2 := fresh "R" in
      apply mbind_ok in H; destruct H as [a [s [H1 H2]]]; cbv beta in H2;
      try rstep H1; try rstep H2
  | mret _ _ = Ok _ => apply mret_ok in H; try (inversion H; subst; clear H)
  | mlift _ _ = Ok _ =>
      let a := fresh "x" in let H1 := fresh "R" in let H2 := fresh "E" in
      apply mlift_ok in H; destruct H as [a [H1 H2]]; inversion H2; subst; clear H2;
      try rstep H1
  | mguard _ _ _ = Ok _ =>
      let H1 := fresh "G" in let H2 := fresh "E" in
      apply mguard_ok in H; destruct H as [H1 H2]; inversion H2; subst; clear H2
  | mget _ = Ok _ => apply mget_ok in H; inversion H; subst; clear H
  | mgets _ _ = Ok _ => apply mgets_ok in H; inversion H; subst; clear H
  | mmod _ _ = Ok _ => apply mmod_ok in H; inversion H; subst; clear H
  | mfail _ _ = Ok _ => exfalso; exact (mfail_ok _ _ _ H)
  | guard _ _ = Ok _ => apply guard_ok in H
  | of_option _ _ = Ok _ => apply of_option_ok in H
  | add_i _ _ = Ok _ => apply add_i_ok in H; destruct H as [? H]; subst
  | sub_i _ _ = Ok _ => apply sub_i_ok in H; destruct H as [? H]; subst
  | mul_i _ _ = Ok _ => apply mul_i_ok in H; destruct H as [? H]; subst
  | div_i _ _ = Ok _ => apply div_i_ok in H; destruct H as [H ?]; subst
  | add_u _ _ = Ok _ => apply add_u_ok in H; destruct H as [? H]; subst
  | sub_u _ _ = Ok _ => apply sub_u_ok in H; destruct H as [? H]; subst
  | mul_u _ _ = Ok _ => apply mul_u_ok in H; destruct H as [? H]; subst
  | div_u _ _ = Ok _ => apply div_u_ok in H; destruct H as [H ?]; subst
  | add_64 _ _ = Ok _ => apply add_64_ok in H; destruct H as [? H]; subst
  | sub_64 _ _ = Ok _ => apply sub_64_ok in H; destruct H as [? H]; subst
  | mul_64 _ _ = Ok _ => apply mul_64_ok in H; destruct H as [? H]; subst
  | add_w _ _ = Ok _ => apply add_w_ok in H; destruct H as [? H]; subst
  | sub_w _ _ = Ok _ => apply sub_w_ok in H; destruct H as [? H]; subst
  | mul_w _ _ = Ok _ => apply mul_w_ok in H; destruct H as [? H]; subst
  | div_w _ _ = Ok _ => apply div_w_ok in H; destruct H as [H ?]; subst
  | i2u _ = Ok _ => apply i2u_ok in H; destruct H as [? H]; subst
  | u2i _ = Ok _ => apply u2i_ok in H; destruct H as [? H]; subst
  | Err _ = Ok _ => discriminate H
  | Ok _ = Ok _ => inversion H; subst; clear H
  end.

Ltac destr_pair :=
  repeat match goal with
  | H : (_, _) = (_, _) |- _ => inversion H; subst; clear H
  end.
