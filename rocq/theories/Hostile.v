(** Pools with tokens that are written to harm them: the functions of Pool.v and Stable.v with every call to
    one of the two tokens left open, [transfer] as well as [balance] and [decimals].  Such a call may answer what it
    likes and may change the ledger, as the token contract can call other contracts before it returns.  The
    share token is the repository's token, as the pool deploys it itself.  Withdrawals call nothing but
    [transfer] and are [pool_withdraw_with] and [stable_withdraw_with] of Foreign.v.  No proofs in this file. *)
From Coq Require Import ZArith List Bool.
From Verif Require Import Base FMap Decimal Curve World Token Stake Pool Stable Foreign.
Import ListNotations.
Open Scope Z_scope.

(** the arguments of [tok_balance]: token, holder *)
Definition Balance : Type := Addr -> Addr -> ST World Z.
Definition Decimals : Type := Addr -> ST World Z.

(** contracts/pool/src/contract.rs:788-962 do_swap, as in Pool.v *)
Definition do_swap_host (tr : Transfer) (bq : Balance) (e : Env) (self sender offer amt : Z) (ask_min max_spread max_fee : option Z) : ST World Z :=
  p <- get_pool self ;;
  mguard (match max_fee with Some f => negb (f <? p_fee p) | None => true end) (EContract 24) ;;
  mguard (match max_spread with Some s => (0 <=? s) && (s <=? p_maxspread p) | None => true end) (EContract 19) ;;
  let ms := dec_bps (match max_spread with Some s => s | None => p_maxspread p end) in
  mguard ((offer =? p_ta p) || (offer =? p_tb p)) (EContract 16) ;;
  let is_a := offer =? p_ta p in
  let '(rs, rb) := if is_a then (p_ra p, p_rb p) else (p_rb p, p_ra p) in
  r <- mlift (compute_swap rs rb amt (dec_bps (p_fee p)) 0) ;;
  mguard (match ask_min with Some m => negb (cs_ret r <? m) | None => true end) (EContract 21) ;;
  t1 <- mlift (add_i (cs_ret r) (cs_comm r)) ;;
  tot <- mlift (add_i t1 (cs_ref r)) ;;
  mlift (assert_max_spread ms tot (cs_spread r)) ;;
  let '(sell, buy) := if is_a then (p_ta p, p_tb p) else (p_tb p, p_ta p) in
  before <- bq sell self ;;
  tr e (Some self) sell sender self amt ;;
  after <- bq sell self ;;
  recv <- mlift (sub_i after before) ;;
  tr e (Some self) buy self sender (cs_ret r) ;;
  tr e (Some self) buy self (p_feerec p) (cs_comm r) ;;
  ns <- mlift (add_i rs recv) ;;
  n1 <- mlift (sub_i rb (cs_comm r)) ;;
  n2 <- mlift (sub_i n1 (cs_ref r)) ;;
  nb <- mlift (sub_i n2 (cs_ret r)) ;;
  put_pool self (if is_a then set_p_res p ns nb else set_p_res p nb ns) ;;
  mret (cs_ret r).

(** contract.rs:411-448 swap *)
Definition pool_swap_host (tr : Transfer) (bq : Balance) (e : Env) (c : option Addr) (self sender offer amt : Z)
    (ask_min max_spread dl max_fee : option Z) : ST World Z :=
  enter self KPool ;;
  check_deadline 22 dl ;;
  mguard (vpos (Some amt)) EPanic ;;
  require_auth e c sender ;;
  do_swap_host tr bq e self sender offer amt ask_min max_spread max_fee.

(** contract.rs:268-408 provide_liquidity *)
Definition pool_provide_host (tr : Transfer) (bq : Balance) (e : Env) (c : option Addr) (self sender : Addr)
    (da mina db minb custom dl : option Z) : ST World unit :=
  enter self KPool ;;
  check_deadline 22 dl ;;
  mguard (vpos da && vpos mina && vpos db && vpos minb) EPanic ;;
  require_auth e c sender ;;
  p <- get_pool self ;;
  mguard (match custom with Some s => negb (p_maxslip p <? s) | None => true end) (EContract 2) ;;
  ' (a, b) <- mlift (match da, db with
                    | Some x, Some y =>
                        if (0 <? x) && (0 <? y) then
                          deposit_amounts x mina y minb (p_ra p) (p_rb p)
                            (dec_bps (match custom with Some s => s | None => p_defslip p end))
                        else Err (EContract 3)
                    | _, _ => Err (EContract 3)
                    end) ;;
  ia <- bq (p_ta p) self ;;
  ib <- bq (p_tb p) self ;;
  tr e (Some self) (p_ta p) sender self a ;;
  tr e (Some self) (p_tb p) sender self b ;;
  fa <- bq (p_ta p) self ;;
  fb <- bq (p_tb p) self ;;
  mlift (sub_i fa ia) ;;
  mlift (sub_i fb ib) ;;
  n <- new_share_total e self a b fa fb p ;;
  d <- mlift (sub_i n (p_total p)) ;;
  mint_shares e self sender d ;;
  p' <- get_pool self ;;
  put_pool self (set_p_res p' fa fb).

(** contracts/pool_stable/src/contract.rs:832-978 do_swap, as in Stable.v *)
Definition stable_do_swap_host (tr : Transfer) (bq : Balance) (e : Env) (self sender offer amt : Z) (ask_min max_spread max_fee : option Z) : ST World Z :=
  p <- get_stable self ;;
  mguard (match max_fee with Some f => negb (f <? l_fee p) | None => true end) (EContract 23) ;;
  mguard ((offer =? l_ta p) || (offer =? l_tb p)) (EContract 12) ;;
  mguard (match max_spread with Some s => (0 <=? s) && (s <=? l_maxspread p) | None => true end) (EContract 9) ;;
  let ms := dec_bps (match max_spread with Some s => s | None => l_maxspread p end) in
  let is_a := offer =? l_ta p in
  let '(rs, rb) := if is_a then (l_ra p, l_rb p) else (l_rb p, l_ra p) in
  let '(ps, pb) := if is_a then (l_preca p, l_precb p) else (l_precb p, l_preca p) in
  t <- now ;;
  us <- mlift (i2u rs) ;;
  ub <- mlift (i2u rb) ;;
  ux <- mlift (i2u amt) ;;
  amp <- mlift (amp_of p t) ;;
  ' (ret, spread, comm) <- mlift (stable_compute_swap amp (l_prec p) us ps ub pb ux (dec_bps (l_fee p))) ;;
  mguard (match ask_min with Some m => negb (ret <? m) | None => true end) (EContract 15) ;;
  tot <- mlift (add_i ret comm) ;;
  mlift (assert_max_spread ms tot spread) ;;
  let '(sell, buy) := if is_a then (l_ta p, l_tb p) else (l_tb p, l_ta p) in
  before <- bq sell self ;;
  tr e (Some self) sell sender self amt ;;
  after <- bq sell self ;;
  recv <- mlift (sub_i after before) ;;
  tr e (Some self) buy self sender ret ;;
  tr e (Some self) buy self (l_feerec p) comm ;;
  ns <- mlift (add_i rs recv) ;;
  n1 <- mlift (sub_i rb comm) ;;
  nb <- mlift (sub_i n1 ret) ;;
  put_stable self (if is_a then set_l_res p ns nb else set_l_res p nb ns) ;;
  mret ret.

(** pool_stable/src/contract.rs:437-473 swap *)
Definition stable_swap_host (tr : Transfer) (bq : Balance) (e : Env) (c : option Addr) (self sender offer amt : Z)
    (ask_min max_spread dl max_fee : option Z) : ST World Z :=
  enter self KStable ;;
  check_deadline 19 dl ;;
  mguard (vpos (Some amt)) EPanic ;;
  require_auth e c sender ;;
  stable_do_swap_host tr bq e self sender offer amt ask_min max_spread max_fee.

(** pool_stable/src/contract.rs:275-434 provide_liquidity *)
Definition stable_provide_host (tr : Transfer) (bq : Balance) (dq : Decimals) (e : Env) (c : option Addr) (self sender da db : Z)
    (custom dl min_shares : option Z) : ST World unit :=
  enter self KStable ;;
  check_deadline 19 dl ;;
  mguard (vpos (Some da) && vpos (Some db)) EPanic ;;
  require_auth e c sender ;;
  p <- get_stable self ;;
  mguard (negb (l_maxslip p <? match custom with Some s => s | None => l_defslip p end)) (EContract 2) ;;
  t <- now ;;
  amp <- mlift (amp_of p t) ;;
  deca <- dq (l_ta p) ;;
  decb <- dq (l_tb p) ;;
  ba0 <- bq (l_ta p) self ;;
  bb0 <- bq (l_tb p) self ;;
  tr e (Some self) (l_ta p) sender self da ;;
  tr e (Some self) (l_tb p) sender self db ;;
  ba1 <- bq (l_ta p) self ;;
  bb1 <- bq (l_tb p) self ;;
  ra <- mlift (sub_i ba1 ba0) ;;
  rb <- mlift (sub_i bb1 bb0) ;;
  na <- mlift (add_i ra (l_ra p)) ;;
  nb <- mlift (add_i rb (l_rb p)) ;;
  ua <- mlift (i2u na) ;;
  ub <- mlift (i2u nb) ;;
  newd <- mlift (invariant_of amp ua ub deca decb) ;;
  s <- mlift (stable_shares p amp newd deca decb) ;;
  mguard (match min_shares with Some m => negb (s <? m) | None => true end) (EContract 21) ;;
  ba <- bq (l_ta p) self ;;
  bb <- bq (l_tb p) self ;;
  si <- mlift (u2i s) ;;
  stable_mint_shares e self sender si ;;
  p' <- get_stable self ;;
  put_stable self (set_l_res p' ba bb).
