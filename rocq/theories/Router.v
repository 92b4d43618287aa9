(** contracts/multihop/src (swap router) and contracts/trader/src. *)
From Coq Require Import ZArith List Bool.
From Verif Require Import Base FMap Decimal World Token Stake Pool Stable Factory.
Import ListNotations.
Open Scope Z_scope.

(** ** Pool calls by symbol *)
(** The pool_type argument only selects the client; both clients send the same
    function symbol, the same arguments and decode the same result, so the code that
    runs is determined by the address alone (multihop/contract.rs:114-141). *)
Definition any_swap (e : Env) (c : option Addr) (pool sender offer amt : Z)
    (ask_min max_spread dl max_fee : option Z) : ST World Z :=
  w <- mget ;;
  match fget pool (w_code w) with
  | Some KPool => pool_swap e c pool sender offer amt ask_min max_spread dl max_fee
  | Some KStable => stable_swap e c pool sender offer amt ask_min max_spread dl max_fee
  | _ => mfail EHost
  end.
Definition any_simulate (pool offer amt : Z) : ST World SimSwap :=
  w <- mget ;;
  match fget pool (w_code w) with
  | Some KPool => pool_simulate_swap pool offer amt
  | Some KStable => stable_simulate_swap pool offer amt
  | _ => mfail EHost
  end.
(** The constant-product pool reads the asset argument as the asked asset
    (pool/contract.rs:706), the stable pool as the offered asset
    (pool_stable/contract.rs:736). *)
Definition any_reverse (pool asset amt : Z) : ST World SimReverse :=
  w <- mget ;;
  match fget pool (w_code w) with
  | Some KPool => pool_simulate_reverse pool asset amt
  | Some KStable => stable_simulate_reverse pool asset amt
  | _ => mfail EHost
  end.

(** ** Multihop *)
(** multihop/storage.rs:6-12 *)
Record SwapOp := mkOp { o_ask : Addr; o_offer : Addr; o_min : option Z }.

(** utils.rs:5-12 verify_swap, 14-24 verify_reverse_swap *)
Fixpoint chained (l : list SwapOp) : bool :=
  match l with
  | a :: ((b :: _) as tl) => (o_ask a =? o_offer b) && chained tl
  | _ => true
  end.
Fixpoint rev_chained (l : list SwapOp) : bool :=
  match l with
  | a :: ((b :: _) as tl) => (o_offer a =? o_ask b) && rev_chained tl
  | _ => true
  end.

(** contract.rs:110-142 *)
Fixpoint hop_swaps (e : Env) (self fact rcpt : Addr) (ops : list SwapOp) (amt : Z)
    (max_spread dl max_fee : option Z) : ST World Z :=
  match ops with
  | [] => mret amt
  | o :: tl =>
      p <- fact_pool_by_pair fact (o_offer o) (o_ask o) ;;
      r <- any_swap e (Some self) p rcpt (o_offer o) amt (o_min o) max_spread dl max_fee ;;
      hop_swaps e self fact rcpt tl r max_spread dl max_fee
  end.

(** contract.rs:81-143 swap (returns nothing; the last amount is returned here only to
    state theorems, no code depends on it) *)
Definition hop_swap (e : Env) (c : option Addr) (self rcpt : Addr) (ops : list SwapOp)
    (max_spread : option Z) (amt : Z) (dl max_fee : option Z) : ST World Z :=
  enter self KHop ;;
  mguard (negb (match ops with [] => true | _ => false end)) (EContract 2) ;;
  mguard (chained ops) (EContract 3) ;;
  require_auth e c rcpt ;;
  h <- get_hop self ;;
  hop_swaps e self (h_fact h) rcpt ops amt max_spread dl max_fee.

(** contract.rs:171-214: (amount, commissions, spreads); [symbol] reads the token *)
Fixpoint hop_sims (fact : Addr) (ops : list SwapOp) (amt : Z) : ST World (Z * list Z * list Z) :=
  match ops with
  | [] => mret (amt, [], [])
  | o :: tl =>
      p <- fact_pool_by_pair fact (o_offer o) (o_ask o) ;;
      r <- any_simulate p (o_offer o) amt ;;
      tok_decimals (o_offer o) ;;
      ' (a, cs, ss) <- hop_sims fact tl (ss_ask r) ;;
      mret (a, ss_comm r :: cs, ss_spread r :: ss)
  end.

(** contract.rs:145-215 simulate_swap *)
Definition hop_simulate (self : Addr) (ops : list SwapOp) (amt : Z) : ST World (Z * list Z * list Z) :=
  enter self KHop ;;
  mguard (negb (match ops with [] => true | _ => false end)) (EContract 2) ;;
  mguard (chained ops) (EContract 3) ;;
  h <- get_hop self ;;
  hop_sims (h_fact h) ops amt.

(** contract.rs:243-285 *)
Fixpoint hop_revs (fact : Addr) (ops : list SwapOp) (amt : Z) : ST World (Z * list Z * list Z) :=
  match ops with
  | [] => mret (amt, [], [])
  | o :: tl =>
      p <- fact_pool_by_pair fact (o_offer o) (o_ask o) ;;
      r <- any_reverse p (o_ask o) amt ;;
      tok_decimals (o_ask o) ;;
      ' (a, cs, ss) <- hop_revs fact tl (sr_offer r) ;;
      mret (a, sr_comm r :: cs, sr_spread r :: ss)
  end.

(** contract.rs:217-287 simulate_reverse_swap *)
Definition hop_reverse (self : Addr) (ops : list SwapOp) (amt : Z) : ST World (Z * list Z * list Z) :=
  enter self KHop ;;
  mguard (negb (match ops with [] => true | _ => false end)) (EContract 2) ;;
  mguard (rev_chained ops) (EContract 3) ;;
  h <- get_hop self ;;
  hop_revs (h_fact h) ops amt.

(** contract.rs:293-298 update *)
Definition hop_update (e : Env) (c : option Addr) (self hash : Z) : ST World unit :=
  enter self KHop ;;
  h <- get_hop self ;;
  require_auth e c (h_admin h) ;;
  put_wasm self hash.

(** ** Trader *)
(** trader/contract.rs:68-100 initialize *)
Definition trader_initialize (e : Env) (c : option Addr) (self admin ta tb out : Addr) : ST World unit :=
  enter self KTrader ;;
  require_auth e c admin ;;
  w <- mget ;;
  mguard (negb (fmem self (w_trader w))) (EContract 10) ;;
  put_trader self (mkTrader admin ta tb out).

(** trader/contract.rs:103-171 trade_token *)
Definition trader_trade (e : Env) (c : option Addr) (self sender tok pool : Addr)
    (amount max_spread dl ask_min max_fee : option Z) : ST World Z :=
  enter self KTrader ;;
  require_auth e c sender ;;
  d <- get_trader self ;;
  mguard (sender =? d_admin d) (EContract 6) ;;
  mguard (match max_spread with Some s => negb ((s <? 0) || (10000 <? s)) | None => true end) (EContract 8) ;;
  mguard ((tok =? d_ta d) || (tok =? d_tb d)) (EContract 7) ;;
  amt <- (match amount with Some a => mret a | None => tok_balance tok sender end) ;;
  any_swap e (Some self) pool self tok amt ask_min max_spread dl max_fee.

(** trader/contract.rs:173-199 transfer *)
Definition trader_transfer (e : Env) (c : option Addr) (self sender rcpt amt : Z) (tok : option Addr) : ST World unit :=
  enter self KTrader ;;
  require_auth e c sender ;;
  d <- get_trader self ;;
  mguard (sender =? d_admin d) (EContract 6) ;;
  tok_transfer e (Some self) (match tok with Some t => t | None => d_out d end) self rcpt amt.

(** trader/contract.rs:201-269: reads *)
Definition trader_query (self : Addr) : ST World Trader := enter self KTrader ;; get_trader self.

Arguments any_swap : simpl never.
Arguments any_simulate : simpl never.
Arguments any_reverse : simpl never.
Arguments hop_swap : simpl never.
Arguments hop_simulate : simpl never.
Arguments hop_reverse : simpl never.
Arguments hop_update : simpl never.
Arguments trader_initialize : simpl never.
Arguments trader_trade : simpl never.
Arguments trader_transfer : simpl never.
