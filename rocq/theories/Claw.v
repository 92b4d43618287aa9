(** Runs in which the issuer of a regulated asset takes tokens back.

    The contracts of /repo accept any token with the standard interface as pool, reward, vesting or
    bonded asset; the repository's own tests trade Stellar asset contracts
    (contracts/pool/src/tests/setup.rs:12-17, contracts/pool_stable/src/tests/setup.rs:12-17,
    contracts/stake_rewards/src/tests/setup.rs:10-15).  Such a contract has, beside the functions
    of contracts/token, the host's clawback(from, amount).  It is host code, not code of /repo:
    this file states what the rest of the development assumes about it. *)
From Coq Require Import ZArith List Bool.
From Verif Require Import Base FMap World Token System.
Import ListNotations.
Open Scope Z_scope.

(** clawback(from, amount) of an asset whose issuer is an account: needs the issuer's signature,
    fails above the holder's balance, and destroys the tokens.  The share tokens of the pools are
    contracts/token contracts administered by a pool, not by an account, and have no clawback.
    Simplification: every asset issued by an account is taken to have clawback enabled. *)
Definition tok_clawback (e : Env) (t from amt : Z) : ST World unit :=
  k <- get_tok t ;;
  mguard (t_admin k <? 0) EHost ;;
  require_auth e None (t_admin k) ;;
  mguard (nonneg amt) EPanic ;;
  upd_tok t (fun k => let? k1 := tk_spend from amt k in Ok (tk_log_burn amt k1)).

(** Runs of ordinary events (System.v) and clawbacks. *)
Inductive CEvent :=
| Plain (ev : Event)
| Clawback (e : Env) (t from amt : Z).

Inductive cstep (H : Addr -> Salt -> Addr) (w : World) : CEvent -> World -> Prop :=
| cs_plain ev w' : step H w ev w' -> cstep H w (Plain ev) w'
| cs_claw e t from amt w' : e_hash e = H -> tok_clawback e t from amt w = Ok (tt, w') ->
    cstep H w (Clawback e t from amt) w'.

Inductive crun (H : Addr -> Salt -> Addr) : World -> list CEvent -> World -> Prop :=
| cr_nil w : crun H w [] w
| cr_cons w ev w1 l w2 : cstep H w ev w1 -> crun H w1 l w2 -> crun H w (ev :: l) w2.

(** how much of token [t] the events of [l] took from [c] *)
Definition taken (ev : CEvent) (t c : Addr) : Z :=
  match ev with
  | Plain _ => 0
  | Clawback _ t' from amt => if (t =? t') && (c =? from) then amt else 0
  end.
Fixpoint clawed (l : list CEvent) (t c : Addr) : Z :=
  match l with [] => 0 | ev :: tl => taken ev t c + clawed tl t c end.
