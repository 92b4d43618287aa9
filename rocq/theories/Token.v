(** contracts/token/src: the SEP-41 token used for pool assets and LP shares. *)
From Coq Require Import ZArith List Bool Lia.
From Verif Require Import Base FMap World.
Import ListNotations.
Open Scope Z_scope.

(** ** On one token's storage *)

(** balance.rs:4-14 read_balance *)
Definition tk_balance (a : Addr) (k : Token) : Z := fgetd 0 a (t_bal k).

(** balance.rs:16-22 write_balance *)
Definition tk_write_balance (a : Addr) (x : Z) (k : Token) : Token :=
  mkToken (t_admin k) (t_dec k) (fset a x (t_bal k)) (t_allow k) (t_minted k) (t_burned k).

(** balance.rs:24-27 receive_balance *)
Definition tk_receive (a : Addr) (x : Z) (k : Token) : res Token :=
  let? b := add_i (tk_balance a k) x in Ok (tk_write_balance a b k).

(** balance.rs:29-35 spend_balance *)
Definition tk_spend (a : Addr) (x : Z) (k : Token) : res Token :=
  let b := tk_balance a k in
  assert? negb (b <? x) or EPanic in
  let? b' := sub_i b x in Ok (tk_write_balance a b' k).

(** allowance.rs:4-21 read_allowance: (amount, expiration), 0 if missing or expired.
    Simplification: temporary storage entries never disappear on their own; an entry
    that outlived its TTL is past its expiration ledger and reads as 0 anyway. *)
Definition tk_allow_entry (from spender : Addr) (k : Token) : option (Z * Z) :=
  match fget from (t_allow k) with Some m => fget spender m | None => None end.
Definition tk_read_allowance (seq : Z) (from spender : Addr) (k : Token) : Z * Z :=
  match tk_allow_entry from spender k with
  | Some (amt, ex) => if ex <? seq then (0, ex) else (amt, ex)
  | None => (0, 0)
  end.

(** allowance.rs:23-49 write_allowance *)
Definition tk_write_allowance (seq : Z) (from spender : Addr) (amt ex : Z) (k : Token) : res Token :=
  assert? negb ((0 <? amt) && (ex <? seq)) or EPanic in
  let m := match fget from (t_allow k) with Some m => m | None => fempty end in
  Ok (mkToken (t_admin k) (t_dec k) (t_bal k) (fset from (fset spender (amt, ex) m) (t_allow k))
              (t_minted k) (t_burned k)).

(** allowance.rs:51-66 spend_allowance *)
Definition tk_spend_allowance (seq : Z) (from spender : Addr) (amt : Z) (k : Token) : res Token :=
  let '(a, ex) := tk_read_allowance seq from spender k in
  assert? negb (a <? amt) or EPanic in
  if 0 <? amt then
    let? a' := sub_i a amt in tk_write_allowance seq from spender a' ex k
  else Ok k.

Definition tk_log_mint (x : Z) (k : Token) : Token :=
  mkToken (t_admin k) (t_dec k) (t_bal k) (t_allow k) (t_minted k + x) (t_burned k).
Definition tk_log_burn (x : Z) (k : Token) : Token :=
  mkToken (t_admin k) (t_dec k) (t_bal k) (t_allow k) (t_minted k) (t_burned k + x).
Definition tk_set_admin (a : Addr) (k : Token) : Token :=
  mkToken a (t_dec k) (t_bal k) (t_allow k) (t_minted k) (t_burned k).

(** contract.rs:15-19 check_nonnegative_amount *)
Definition nonneg (x : Z) : bool := negb (x <? 0).

(** ** Entry points (token contract at address [t], invoked by [c]) *)

Definition upd_tok (t : Addr) (f : Token -> res Token) : ST World unit :=
  k <- get_tok t ;; k' <- mlift (f k) ;; put_tok t k'.

(** contract.rs:26-39 __constructor (runs at deployment) *)
Definition tok_deploy (t admin dec : Z) : ST World unit :=
  deploy t KTok ;;
  mguard ((0 <=? dec) && negb (18 <? dec)) EPanic ;;
  put_tok t (mkToken admin dec fempty fempty 0 0).

(** contract.rs:41-52 mint *)
Definition tok_mint (e : Env) (c : option Addr) (t to amt : Z) : ST World unit :=
  mguard (nonneg amt) EPanic ;;
  k <- get_tok t ;;
  require_auth e c (t_admin k) ;;
  upd_tok t (fun k => let? k1 := tk_receive to amt k in Ok (tk_log_mint amt k1)).

(** contract.rs:54-64 set_admin *)
Definition tok_set_admin (e : Env) (c : option Addr) (t new : Z) : ST World unit :=
  k <- get_tok t ;;
  require_auth e c (t_admin k) ;;
  upd_tok t (fun k => Ok (tk_set_admin new k)).

(** contract.rs:75-80 allowance *)
Definition tok_allowance (t from spender : Z) : ST World Z :=
  w <- mget ;; k <- get_tok t ;; mret (fst (tk_read_allowance (w_seq w) from spender k)).

(** contract.rs:82-95 approve *)
Definition tok_approve (e : Env) (c : option Addr) (t from spender amt ex : Z) : ST World unit :=
  require_auth e c from ;;
  mguard (nonneg amt) EPanic ;;
  w <- mget ;;
  upd_tok t (tk_write_allowance (w_seq w) from spender amt ex).

(** contract.rs:97-102 balance *)
Definition tok_balance (t a : Z) : ST World Z :=
  k <- get_tok t ;; mret (tk_balance a k).

(** contract.rs:104-116 transfer *)
Definition tok_transfer (e : Env) (c : option Addr) (t from to amt : Z) : ST World unit :=
  require_auth e c from ;;
  mguard (nonneg amt) EPanic ;;
  upd_tok t (fun k => let? k1 := tk_spend from amt k in tk_receive to amt k1).

(** contract.rs:118-131 transfer_from *)
Definition tok_transfer_from (e : Env) (c : option Addr) (t spender from to amt : Z) : ST World unit :=
  require_auth e c spender ;;
  mguard (nonneg amt) EPanic ;;
  w <- mget ;;
  upd_tok t (fun k =>
    let? k0 := tk_spend_allowance (w_seq w) from spender amt k in
    let? k1 := tk_spend from amt k0 in tk_receive to amt k1).

(** contract.rs:133-144 burn *)
Definition tok_burn (e : Env) (c : option Addr) (t from amt : Z) : ST World unit :=
  require_auth e c from ;;
  mguard (nonneg amt) EPanic ;;
  upd_tok t (fun k => let? k1 := tk_spend from amt k in Ok (tk_log_burn amt k1)).

(** contract.rs:146-158 burn_from *)
Definition tok_burn_from (e : Env) (c : option Addr) (t spender from amt : Z) : ST World unit :=
  require_auth e c spender ;;
  mguard (nonneg amt) EPanic ;;
  w <- mget ;;
  upd_tok t (fun k =>
    let? k0 := tk_spend_allowance (w_seq w) from spender amt k in
    let? k1 := tk_spend from amt k0 in Ok (tk_log_burn amt k1)).

(** contract.rs:160-162 decimals *)
Definition tok_decimals (t : Z) : ST World Z := k <- get_tok t ;; mret (t_dec k).

Arguments upd_tok : simpl never.
Arguments tok_deploy : simpl never.
Arguments tok_mint : simpl never.
Arguments tok_set_admin : simpl never.
Arguments tok_allowance : simpl never.
Arguments tok_approve : simpl never.
Arguments tok_balance : simpl never.
Arguments tok_transfer : simpl never.
Arguments tok_transfer_from : simpl never.
Arguments tok_burn : simpl never.
Arguments tok_burn_from : simpl never.
Arguments tok_decimals : simpl never.
