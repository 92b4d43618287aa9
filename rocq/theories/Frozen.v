(** Holders that a token refuses.

    The issuer of a Stellar asset may freeze a holder (set_authorized), and an account without a
    trustline cannot hold the asset at all.  In both cases the asset contract fails whenever that
    holder is a party of a transfer, mint or burn, whatever the amount.  This is host code, not code
    of /repo; contracts/token (the share tokens) has no such function.  No contract of /repo catches a
    failing call, so one refused movement fails the transaction.

    Which movements a transaction makes is what the log of Events.v records: every token movement
    publishes one event of the token contract. *)
From Coq Require Import ZArith List Bool String.
From Verif Require Import Base FMap World System Events.
Import ListNotations.
Open Scope Z_scope.

(** [B t x]: token [t] refuses holder [x] *)
Definition Refusals := Addr -> Addr -> bool.
Definition moves_ok (B : Refusals) (x : Addr * Ev) : bool :=
  let (t, v) := x in
  match v with
  | TTransfer from to _ => negb (B t from) && negb (B t to)
  | TMint _ to _ => negb (B t to)
  | TBurn from _ => negb (B t from)
  | _ => true
  end.
(** the transaction [k] leads from [w] to [w'] and no token refuses a party *)
Definition passes (B : Refusals) (e : Env) (k : Call) (w w' : World) : Prop :=
  exists L, lexec e k (w, []) = Ok (tt, (w', L)) /\ forallb (moves_ok B) L = true.
