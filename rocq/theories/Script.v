(** Running concrete scripts of transactions, for examples and refutations. *)
From Coq Require Import ZArith List Bool Lia.
From Coq Require Import ZifyBool.
From Verif Require Import Base FMap Decimal Curve World Token Stake Pool Stable Rewards Vest Factory Router System.
Import ListNotations.
Open Scope Z_scope.

(** an address derivation without collisions on the small addresses used in scripts *)
Definition xH : Addr -> Salt -> Addr := fun a s =>
  match s with
  | SPair x y => 1000000 * a + 1000 * x + y + 500
  | SEmpty => 1000000 * a + 400
  | SOne x => 1000000 * a + 300 - x
  end.
Definition env_of (l : list Addr) : Env := mkEnv l xH.

(** [Do signers call] or [Wait now seq] *)
Inductive Act := Do (sg : list Addr) (k : Call) | Wait (n s : Z).
Definition event_of (a : Act) : Event := match a with Do l k => Tx (env_of l) k | Wait n s => Tick n s end.

Definition play1 (a : Act) (w : World) : option World :=
  match a with
  | Do l k => match exec (env_of l) k w with Ok (_, w') => Some w' | Err _ => None end
  | Wait n s => if (w_now w <=? n) && (n <=? U64_MAX) && (w_seq w <=? s) && (s <=? U32_MAX)
                then Some (set_time w n s) else None
  end.
Fixpoint play (l : list Act) (w : World) : option World :=
  match l with [] => Some w | a :: tl => match play1 a w with Some w' => play tl w' | None => None end end.

Lemma play_run l : forall w w', play l w = Some w' -> run xH w (map event_of l) w'.
Proof.
  induction l as [|a l IH]; simpl; intros w w' H; [inversion H; constructor|].
  destruct (play1 a w) as [w1|] eqn:E; [|discriminate].
  econstructor; [|apply IH; exact H].
  destruct a as [sg k|n s]; simpl in *.
  - destruct (exec (env_of sg) k w) as [[[] w2]|] eqn:X; [|discriminate]. inversion E; subst.
    constructor; [reflexivity|exact X].
  - destruct (_ && _) eqn:B in E; [|discriminate]. inversion E; subst. constructor; lia.
Qed.

Lemma play_reach l w : play l w_empty = Some w -> reachable xH w.
Proof. intros H. exists (map event_of l). apply play_run; auto. Qed.

Definition world_of (l : list Act) : World := match play l w_empty with Some w => w | None => w_empty end.

Definition plays (l : list Act) : bool := match play l w_empty with Some _ => true | None => false end.
Lemma world_reach l : plays l = true -> reachable xH (world_of l).
Proof.
  unfold plays, world_of. intros H. destruct (play l w_empty) eqn:E; [|discriminate]. eapply play_reach; eauto.
Qed.

(** the ledger after a successful call *)
Definition after {A} (r : res (A * World)) : World := match r with Ok (_, w) => w | Err _ => w_empty end.
