(** The contracts with tokens other than the repository's: the functions of Pool.v, Stable.v, Vest.v and
    Stake.v with the [transfer] of the pool, vesting or reward tokens left open.  The share token is the repository's token, as the pool
    deploys it itself.  Simplification: a foreign token keeps its balances in the ledger [w_tok] and
    [balance] reports them; only [transfer] may behave differently.  No proofs in this file. *)
From Coq Require Import ZArith List Bool.
From Verif Require Import Base FMap Decimal Curve World Token Stake Pool Stable Vest.
Import ListNotations.
Open Scope Z_scope.

(** the arguments of [tok_transfer]: caller, token, from, to, amount *)
Definition Transfer : Type := Env -> option Addr -> Addr -> Addr -> Addr -> Z -> ST World unit.

(** A token that charges a fee on transfer: of each transfer of [amt] units of token [t] the receiver
    hands [tax t amt] on to [sink].  Not in the repository; contract.rs:885-897 reads balances before and
    after a transfer in order to support such tokens. *)
Definition taxed (tax : Addr -> Z -> Z) (sink : Addr) : Transfer := fun e c t from to amt =>
  tok_transfer e c t from to amt ;;
  tok_transfer e (Some to) t to sink (tax t amt).

(** contracts/pool/src/contract.rs:788-962 do_swap, as in Pool.v *)
Definition do_swap_with (tr : Transfer) (e : Env) (self sender offer amt : Z) (ask_min max_spread max_fee : option Z) : ST World Z :=
  p <- get_pool self ;;
  mguard (match max_fee with Some f => negb (f <? p_fee p) | None => true end) (EContract 24) ;;
  mguard (match max_spread with Some s => (0 <=? s) && (s <=? p_maxspread p) | None => true end) (EContract 19) ;;
  let ms := dec_bps (match max_spread with Some s => s | None => p_maxspread p end) in
  mguard ((offer =? p_ta p) || (offer =? p_tb p)) (EContract 16) ;;
  let is_a := offer =? p_ta p in
  let '(rs, rb) := if is_a then (p_ra p, p_rb p) else (p_rb p, p_ra p) in
  r <- mlift (compute_swap rs rb amt (dec_bps (p_fee p)) 0) ;;
  mguard (match ask_min with Some m => negb (cs_ret r <? m) | None => true end) (EContract 21) ;;
  t1 <- mlift (add_i (cs_ret r) (cs_comm r)) ;;
  tot <- mlift (add_i t1 (cs_ref r)) ;;
  mlift (assert_max_spread ms tot (cs_spread r)) ;;
  let '(sell, buy) := if is_a then (p_ta p, p_tb p) else (p_tb p, p_ta p) in
  before <- tok_balance sell self ;;
  tr e (Some self) sell sender self amt ;;
  after <- tok_balance sell self ;;
  recv <- mlift (sub_i after before) ;;
  tr e (Some self) buy self sender (cs_ret r) ;;
  tr e (Some self) buy self (p_feerec p) (cs_comm r) ;;
  ns <- mlift (add_i rs recv) ;;
  n1 <- mlift (sub_i rb (cs_comm r)) ;;
  n2 <- mlift (sub_i n1 (cs_ref r)) ;;
  nb <- mlift (sub_i n2 (cs_ret r)) ;;
  put_pool self (if is_a then set_p_res p ns nb else set_p_res p nb ns) ;;
  mret (cs_ret r).

(** contract.rs:411-448 swap *)
Definition pool_swap_with (tr : Transfer) (e : Env) (c : option Addr) (self sender offer amt : Z)
    (ask_min max_spread dl max_fee : option Z) : ST World Z :=
  enter self KPool ;;
  check_deadline 22 dl ;;
  mguard (vpos (Some amt)) EPanic ;;
  require_auth e c sender ;;
  do_swap_with tr e self sender offer amt ask_min max_spread max_fee.

(** contract.rs:268-408 provide_liquidity *)
Definition pool_provide_with (tr : Transfer) (e : Env) (c : option Addr) (self sender : Addr)
    (da mina db minb custom dl : option Z) : ST World unit :=
  enter self KPool ;;
  check_deadline 22 dl ;;
  mguard (vpos da && vpos mina && vpos db && vpos minb) EPanic ;;
  require_auth e c sender ;;
  p <- get_pool self ;;
  mguard (match custom with Some s => negb (p_maxslip p <? s) | None => true end) (EContract 2) ;;
  ' (a, b) <- mlift (match da, db with
                    | Some x, Some y =>
                        if (0 <? x) && (0 <? y) then
                          deposit_amounts x mina y minb (p_ra p) (p_rb p)
                            (dec_bps (match custom with Some s => s | None => p_defslip p end))
                        else Err (EContract 3)
                    | _, _ => Err (EContract 3)
                    end) ;;
  ia <- tok_balance (p_ta p) self ;;
  ib <- tok_balance (p_tb p) self ;;
  tr e (Some self) (p_ta p) sender self a ;;
  tr e (Some self) (p_tb p) sender self b ;;
  fa <- tok_balance (p_ta p) self ;;
  fb <- tok_balance (p_tb p) self ;;
  mlift (sub_i fa ia) ;;
  mlift (sub_i fb ib) ;;
  n <- new_share_total e self a b fa fb p ;;
  d <- mlift (sub_i n (p_total p)) ;;
  mint_shares e self sender d ;;
  p' <- get_pool self ;;
  put_pool self (set_p_res p' fa fb).

(** contract.rs:450-537 withdraw_liquidity *)
Definition pool_withdraw_with (tr : Transfer) (e : Env) (c : option Addr) (self sender share mina minb : Z) (dl : option Z) : ST World (Z * Z) :=
  enter self KPool ;;
  check_deadline 22 dl ;;
  mguard (vpos (Some share) && vpos (Some mina) && vpos (Some minb)) EPanic ;;
  require_auth e c sender ;;
  p <- get_pool self ;;
  tok_transfer e (Some self) (p_share p) sender self share ;;
  mguard (negb (p_total p =? 0)) (EContract 13) ;;
  ratio <- mlift (dec_from_ratio share (p_total p)) ;;
  a <- mlift (i_mul_dec (p_ra p) ratio) ;;
  b <- mlift (i_mul_dec (p_rb p) ratio) ;;
  mguard (negb ((a <? mina) || (b <? minb))) (EContract 4) ;;
  burn_shares e self share ;;
  tr e (Some self) (p_ta p) self sender a ;;
  tr e (Some self) (p_tb p) self sender b ;;
  na <- mlift (sub_i (p_ra p) a) ;;
  nb <- mlift (sub_i (p_rb p) b) ;;
  p' <- get_pool self ;;
  put_pool self (set_p_res p' na nb) ;;
  mret (a, b).

(** contracts/pool_stable/src/contract.rs:832-978 do_swap, as in Stable.v *)
Definition stable_do_swap_with (tr : Transfer) (e : Env) (self sender offer amt : Z) (ask_min max_spread max_fee : option Z) : ST World Z :=
  p <- get_stable self ;;
  mguard (match max_fee with Some f => negb (f <? l_fee p) | None => true end) (EContract 23) ;;
  mguard ((offer =? l_ta p) || (offer =? l_tb p)) (EContract 12) ;;
  mguard (match max_spread with Some s => (0 <=? s) && (s <=? l_maxspread p) | None => true end) (EContract 9) ;;
  let ms := dec_bps (match max_spread with Some s => s | None => l_maxspread p end) in
  let is_a := offer =? l_ta p in
  let '(rs, rb) := if is_a then (l_ra p, l_rb p) else (l_rb p, l_ra p) in
  let '(ps, pb) := if is_a then (l_preca p, l_precb p) else (l_precb p, l_preca p) in
  t <- now ;;
  us <- mlift (i2u rs) ;;
  ub <- mlift (i2u rb) ;;
  ux <- mlift (i2u amt) ;;
  amp <- mlift (amp_of p t) ;;
  ' (ret, spread, comm) <- mlift (stable_compute_swap amp (l_prec p) us ps ub pb ux (dec_bps (l_fee p))) ;;
  mguard (match ask_min with Some m => negb (ret <? m) | None => true end) (EContract 15) ;;
  tot <- mlift (add_i ret comm) ;;
  mlift (assert_max_spread ms tot spread) ;;
  let '(sell, buy) := if is_a then (l_ta p, l_tb p) else (l_tb p, l_ta p) in
  before <- tok_balance sell self ;;
  tr e (Some self) sell sender self amt ;;
  after <- tok_balance sell self ;;
  recv <- mlift (sub_i after before) ;;
  tr e (Some self) buy self sender ret ;;
  tr e (Some self) buy self (l_feerec p) comm ;;
  ns <- mlift (add_i rs recv) ;;
  n1 <- mlift (sub_i rb comm) ;;
  nb <- mlift (sub_i n1 ret) ;;
  put_stable self (if is_a then set_l_res p ns nb else set_l_res p nb ns) ;;
  mret ret.

(** pool_stable/src/contract.rs:437-473 swap *)
Definition stable_swap_with (tr : Transfer) (e : Env) (c : option Addr) (self sender offer amt : Z)
    (ask_min max_spread dl max_fee : option Z) : ST World Z :=
  enter self KStable ;;
  check_deadline 19 dl ;;
  mguard (vpos (Some amt)) EPanic ;;
  require_auth e c sender ;;
  stable_do_swap_with tr e self sender offer amt ask_min max_spread max_fee.

(** pool_stable/src/contract.rs:275-434 provide_liquidity *)
Definition stable_provide_with (tr : Transfer) (e : Env) (c : option Addr) (self sender da db : Z)
    (custom dl min_shares : option Z) : ST World unit :=
  enter self KStable ;;
  check_deadline 19 dl ;;
  mguard (vpos (Some da) && vpos (Some db)) EPanic ;;
  require_auth e c sender ;;
  p <- get_stable self ;;
  mguard (negb (l_maxslip p <? match custom with Some s => s | None => l_defslip p end)) (EContract 2) ;;
  t <- now ;;
  amp <- mlift (amp_of p t) ;;
  deca <- tok_decimals (l_ta p) ;;
  decb <- tok_decimals (l_tb p) ;;
  ba0 <- tok_balance (l_ta p) self ;;
  bb0 <- tok_balance (l_tb p) self ;;
  tr e (Some self) (l_ta p) sender self da ;;
  tr e (Some self) (l_tb p) sender self db ;;
  ba1 <- tok_balance (l_ta p) self ;;
  bb1 <- tok_balance (l_tb p) self ;;
  ra <- mlift (sub_i ba1 ba0) ;;
  rb <- mlift (sub_i bb1 bb0) ;;
  na <- mlift (add_i ra (l_ra p)) ;;
  nb <- mlift (add_i rb (l_rb p)) ;;
  ua <- mlift (i2u na) ;;
  ub <- mlift (i2u nb) ;;
  newd <- mlift (invariant_of amp ua ub deca decb) ;;
  s <- mlift (stable_shares p amp newd deca decb) ;;
  mguard (match min_shares with Some m => negb (s <? m) | None => true end) (EContract 21) ;;
  ba <- tok_balance (l_ta p) self ;;
  bb <- tok_balance (l_tb p) self ;;
  si <- mlift (u2i s) ;;
  stable_mint_shares e self sender si ;;
  p' <- get_stable self ;;
  put_stable self (set_l_res p' ba bb).

(** pool_stable/src/contract.rs:475-562 withdraw_liquidity *)
Definition stable_withdraw_with (tr : Transfer) (e : Env) (c : option Addr) (self sender share mina minb : Z) (dl : option Z) : ST World (Z * Z) :=
  enter self KStable ;;
  check_deadline 19 dl ;;
  mguard (vpos (Some share) && vpos (Some mina) && vpos (Some minb)) EPanic ;;
  require_auth e c sender ;;
  p <- get_stable self ;;
  tok_transfer e (Some self) (l_share p) sender self share ;;
  mguard (negb (l_total p =? 0)) (EContract 5) ;;
  ratio <- mlift (dec_from_ratio share (l_total p)) ;;
  a <- mlift (i_mul_dec (l_ra p) ratio) ;;
  b <- mlift (i_mul_dec (l_rb p) ratio) ;;
  mguard (negb ((a <? mina) || (b <? minb))) (EContract 3) ;;
  stable_burn_shares e self share ;;
  tr e (Some self) (l_ta p) self sender a ;;
  tr e (Some self) (l_tb p) self sender b ;;
  na <- mlift (sub_i (l_ra p) a) ;;
  nb <- mlift (sub_i (l_rb p) b) ;;
  p' <- get_stable self ;;
  put_stable self (set_l_res p' na nb) ;;
  mret (a, b).

(** contracts/vesting/src/contract.rs:151-214 create_vesting_schedules, as in Vest.v *)
Definition vest_create_with (tr : Transfer) (e : Env) (c : option Addr) (self : Addr) (l : list (Addr * curve)) : ST World unit :=
  enter self KVest ;;
  mguard (forallb (fun x => typed_curve (snd x)) l) EHost ;;
  v <- get_vest self ;;
  require_auth e c (v_admin v) ;;
  mguard (negb (match l with [] => true | _ => false end)) (EContract 7) ;;
  mguard (no_dup (map fst l)) (EContract 19) ;;
  ' (v', tot) <- mlift (create_all v l 0) ;;
  bal <- tok_balance (v_token v) (v_admin v) ;;
  ti <- mlift (u2i tot) ;;
  mguard (negb (bal <? ti)) (EContract 25) ;;
  put_vest self v' ;;
  tr e (Some self) (v_token v) (v_admin v) self ti.

(** vesting/src/contract.rs:216-265 claim *)
Definition vest_claim_with (tr : Transfer) (e : Env) (c : option Addr) (self sender i : Addr) : ST World unit :=
  enter self KVest ;;
  require_auth e c sender ;;
  v <- get_vest self ;;
  t <- now ;;
  av <- mlift (available v t sender i) ;;
  mguard (negb (av <=? 0)) (EContract 14) ;;
  x <- mlift (v_get v sender i) ;;
  locked <- mlift (cvalue (vi_sched x) t) ;;
  mguard (negb (vi_bal x <? locked)) (EContract 26) ;;
  ua <- mlift (i2u av) ;;
  mguard (negb (vi_bal x - locked <? ua)) (EContract 11) ;;
  nb <- mlift (sub_u (vi_bal x) ua) ;;
  put_vest self (v_put v sender i (mkVInfo nb (vi_rcpt x) (vi_sched x))) ;;
  tr e (Some self) (v_token v) self sender av.

(** contracts/stake/src/contract.rs:220-260 distribute_rewards, as in Stake.v *)
Definition stake_distribute_with (tr : Transfer) (e : Env) (c : option Addr) (self sender amt token : Z) : ST World unit :=
  enter self KStake ;;
  require_auth e c sender ;;
  s <- get_stake self ;;
  mguard ((sender =? s_manager s) || (sender =? s_owner s)) (EContract 5) ;;
  mguard (zmem token (s_dists s)) (EContract 13) ;;
  t <- now ;;
  h <- mlift (of_option (fget token (s_rh s)) EPanic) ;;
  put_stake self (set_s_hist s (fset t (as_u128 (s_total s)) (s_tsh s))
                               (fset token (fset t (as_u128 amt) h) (s_rh s))) ;;
  tr e (Some self) token sender self amt.
