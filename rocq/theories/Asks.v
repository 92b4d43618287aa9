(** Demanded signatures: every entry point of System.v once more, with the authorisations it
    demands ([Address::require_auth]) recorded in order.  The host binds a signature to the
    contract, function and arguments of the frame that demands it, so a demand is recorded
    with the call whose frame makes it; a demand met because the address is the direct
    invoker of the frame needs no signature and is not recorded.  That the functions below
    otherwise do exactly what the model of the other files does, and that exactly the
    recorded signatures are needed, is proved in AsksErase.v. *)
From Coq Require Import ZArith List Bool.
From Verif Require Import Base FMap Decimal Curve World Token Stake Pool Stable Rewards Vest Factory Router System.
Import ListNotations.
Open Scope list_scope.
Open Scope Z_scope.

(** One demand: whose signature, the contract that invoked the frame ([None]: the frame is
    the root call of the transaction), and the call of the frame. *)
Record Ask := mkAsk { k_who : Addr; k_from : option Addr; k_call : Call }.

(** The ledger together with the demands of the transaction so far. *)
Notation AW := (World * list Ask)%type.
Definition AST (A : Type) : Type := ST AW A.

(** code that demands nothing *)
Definition af {A} (m : ST World A) : AST A := fun s =>
  match m (fst s) with Ok (a, w) => Ok (a, (w, snd s)) | Err x => Err x end.
Definition invoker (c : option Addr) (a : Addr) : bool := match c with Some x => x =? a | None => false end.
Definition note (c : option Addr) (a : Addr) (k : Call) : AST unit := fun s =>
  Ok (tt, (fst s, snd s ++ if invoker c a then [] else [mkAsk a c k])).
(** [a.require_auth()] in a frame of call [k] invoked by [c] *)
Definition ask (e : Env) (c : option Addr) (a : Addr) (k : Call) : AST unit :=
  af (require_auth e c a) ;; note c a k.

(** ** token/src/contract.rs:41-158; the constructor demands nothing *)
Definition a_mint (e : Env) (c : option Addr) (t to amt : Z) : AST unit :=
  mguard (nonneg amt) EPanic ;;
  k <- af (get_tok t) ;;
  ask e c (t_admin k) (CMint t to amt) ;;
  af (upd_tok t (fun k => let? k1 := tk_receive to amt k in Ok (tk_log_mint amt k1))).
Definition a_set_admin (e : Env) (c : option Addr) (t new : Z) : AST unit :=
  k <- af (get_tok t) ;;
  ask e c (t_admin k) (CSetAdmin t new) ;;
  af (upd_tok t (fun k => Ok (tk_set_admin new k))).
Definition a_approve (e : Env) (c : option Addr) (t from sp amt ex : Z) : AST unit :=
  ask e c from (CApprove t from sp amt ex) ;;
  mguard (nonneg amt) EPanic ;;
  w <- af mget ;;
  af (upd_tok t (tk_write_allowance (w_seq w) from sp amt ex)).
Definition a_transfer (e : Env) (c : option Addr) (t from to amt : Z) : AST unit :=
  ask e c from (CTransfer t from to amt) ;;
  mguard (nonneg amt) EPanic ;;
  af (upd_tok t (fun k => let? k1 := tk_spend from amt k in tk_receive to amt k1)).
Definition a_transfer_from (e : Env) (c : option Addr) (t sp from to amt : Z) : AST unit :=
  ask e c sp (CTransferFrom t sp from to amt) ;;
  mguard (nonneg amt) EPanic ;;
  w <- af mget ;;
  af (upd_tok t (fun k =>
    let? k0 := tk_spend_allowance (w_seq w) from sp amt k in
    let? k1 := tk_spend from amt k0 in tk_receive to amt k1)).
Definition a_burn (e : Env) (c : option Addr) (t from amt : Z) : AST unit :=
  ask e c from (CBurn t from amt) ;;
  mguard (nonneg amt) EPanic ;;
  af (upd_tok t (fun k => let? k1 := tk_spend from amt k in Ok (tk_log_burn amt k1))).
Definition a_burn_from (e : Env) (c : option Addr) (t sp from amt : Z) : AST unit :=
  ask e c sp (CBurnFrom t sp from amt) ;;
  mguard (nonneg amt) EPanic ;;
  w <- af mget ;;
  af (upd_tok t (fun k =>
    let? k0 := tk_spend_allowance (w_seq w) from sp amt k in
    let? k1 := tk_spend from amt k0 in Ok (tk_log_burn amt k1))).

(** ** stake/src/contract.rs *)
(** 139-174 bond *)
Definition a_stake_bond (e : Env) (c : option Addr) (self sender tokens : Z) : AST unit :=
  af (enter self KStake) ;;
  ask e c sender (CBond self sender tokens) ;;
  s <- af (get_stake self) ;;
  mguard (negb (tokens <? s_minbond s)) (EContract 4) ;;
  a_transfer e (Some self) (s_lp s) sender self tokens ;;
  t <- af now ;;
  let b := s_user s sender in
  tot <- mlift (add_i (b_total b) tokens) ;;
  let b' := mkBonding (b_stakes b ++ [mkStakeE tokens t]) (b_last b) tot in
  all <- mlift (add_i (s_total s) tokens) ;;
  af (put_stake self (set_s_total (set_s_users s (fset sender b' (s_users s))) all)).

(** 176-199 unbond *)
Definition a_stake_unbond (e : Env) (c : option Addr) (self sender amt ts : Z) : AST unit :=
  af (enter self KStake) ;;
  ask e c sender (CUnbond self sender amt ts) ;;
  s <- af (get_stake self) ;;
  let b := s_user s sender in
  l <- mlift (remove_stake (b_stakes b) amt ts) ;;
  tot <- mlift (sub_i (b_total b) amt) ;;
  a_transfer e (Some self) (s_lp s) self sender amt ;;
  all <- mlift (sub_i (s_total s) amt) ;;
  af (put_stake self (set_s_total (set_s_users s (fset sender (mkBonding l (b_last b) tot) (s_users s))) all)).

(** 201-218 create_distribution_flow *)
Definition a_stake_create_flow (e : Env) (c : option Addr) (self sender asset : Z) : AST unit :=
  af (enter self KStake) ;;
  ask e c sender (CFlow self sender asset) ;;
  s <- af (get_stake self) ;;
  mguard ((sender =? s_manager s) || (sender =? s_owner s)) (EContract 5) ;;
  mguard (negb (zmem asset (s_dists s))) (EContract 10) ;;
  af (put_stake self (set_s_dists s (s_dists s ++ [asset]) (fset asset fempty (s_rh s)))).

(** 220-260 distribute_rewards *)
Definition a_stake_distribute (e : Env) (c : option Addr) (self sender amt token : Z) : AST unit :=
  af (enter self KStake) ;;
  ask e c sender (CDistribute self sender amt token) ;;
  s <- af (get_stake self) ;;
  mguard ((sender =? s_manager s) || (sender =? s_owner s)) (EContract 5) ;;
  mguard (zmem token (s_dists s)) (EContract 13) ;;
  t <- af now ;;
  h <- mlift (of_option (fget token (s_rh s)) EPanic) ;;
  af (put_stake self (set_s_hist s (fset t (as_u128 (s_total s)) (s_tsh s))
                               (fset token (fset t (as_u128 amt) h) (s_rh s)))) ;;
  a_transfer e (Some self) token sender self amt.

(** 262-284 withdraw_rewards: demands nothing but its own transfers *)
Fixpoint a_pay_rewards (e : Env) (self sender : Addr) (s : Stake) (t : Z) (b : Bonding)
    (assets : list Addr) : AST unit :=
  match assets with
  | [] => mret tt
  | a :: tl =>
      p <- mlift (pending_rewards s t a b) ;;
      a_transfer e (Some self) a self sender p ;;
      a_pay_rewards e self sender s t b tl
  end.
Definition a_stake_withdraw_rewards (e : Env) (self sender : Addr) : AST unit :=
  af (enter self KStake) ;;
  s <- af (get_stake self) ;;
  t <- af now ;;
  let b := s_user s sender in
  a_pay_rewards e self sender s t b (s_dists s) ;;
  af (put_stake self (set_s_users s (fset sender (mkBonding (b_stakes b) t (b_total b)) (s_users s)))).

(** ** pool/src/contract.rs *)
(** storage.rs:252-266 *)
Definition a_mint_shares (e : Env) (self to amt : Z) : AST unit :=
  p <- af (get_pool self) ;;
  a_mint e (Some self) (p_share p) to amt ;;
  t <- mlift (add_i (p_total p) amt) ;;
  af (put_pool self (set_p_total p t)).
Definition a_burn_shares (e : Env) (self amt : Z) : AST unit :=
  p <- af (get_pool self) ;;
  a_burn e (Some self) (p_share p) self amt ;;
  t <- mlift (sub_i (p_total p) amt) ;;
  af (put_pool self (set_p_total p t)).

(** 346-372 *)
Definition a_new_share_total (e : Env) (self a b bala balb : Z) (p : Pool) : AST Z :=
  if (0 <? p_ra p) && (0 <? p_rb p) then
    m1 <- mlift (mul_i bala (p_total p)) ;;
    sa <- mlift (div_i m1 (p_ra p)) ;;
    m2 <- mlift (mul_i balb (p_total p)) ;;
    sb <- mlift (div_i m2 (p_rb p)) ;;
    mret (Z.min sa sb)
  else
    m <- mlift (mul_i a b) ;;
    mguard (negb (m <? 0)) EPanic ;;
    let s := Z.sqrt m in
    mguard (negb (s <=? MINIMUM_LIQUIDITY_AMOUNT)) (EContract 13) ;;
    a_mint_shares e self self MINIMUM_LIQUIDITY_AMOUNT ;;
    mlift (sub_i s MINIMUM_LIQUIDITY_AMOUNT).

(** 268-408 provide_liquidity *)
Definition a_pool_provide (e : Env) (c : option Addr) (self sender : Addr)
    (da mina db minb custom dl : option Z) : AST unit :=
  af (enter self KPool) ;;
  af (check_deadline 22 dl) ;;
  mguard (vpos da && vpos mina && vpos db && vpos minb) EPanic ;;
  ask e c sender (CPoolProvide self sender da mina db minb custom dl) ;;
  p <- af (get_pool self) ;;
  mguard (match custom with Some s => negb (p_maxslip p <? s) | None => true end) (EContract 2) ;;
  ' (a, b) <- mlift (match da, db with
                    | Some x, Some y =>
                        if (0 <? x) && (0 <? y) then
                          deposit_amounts x mina y minb (p_ra p) (p_rb p)
                            (dec_bps (match custom with Some s => s | None => p_defslip p end))
                        else Err (EContract 3)
                    | _, _ => Err (EContract 3)
                    end) ;;
  ia <- af (tok_balance (p_ta p) self) ;;
  ib <- af (tok_balance (p_tb p) self) ;;
  a_transfer e (Some self) (p_ta p) sender self a ;;
  a_transfer e (Some self) (p_tb p) sender self b ;;
  fa <- af (tok_balance (p_ta p) self) ;;
  fb <- af (tok_balance (p_tb p) self) ;;
  ga <- mlift (sub_i fa ia) ;;
  gb <- mlift (sub_i fb ib) ;;
  n <- a_new_share_total e self a b fa fb p ;;
  d <- mlift (sub_i n (p_total p)) ;;
  a_mint_shares e self sender d ;;
  p' <- af (get_pool self) ;;
  af (put_pool self (set_p_res p' fa fb)).

(** 788-962 do_swap *)
Definition a_do_swap (e : Env) (self sender offer amt : Z) (ask_min max_spread max_fee : option Z) : AST Z :=
  p <- af (get_pool self) ;;
  mguard (match max_fee with Some f => negb (f <? p_fee p) | None => true end) (EContract 24) ;;
  mguard (match max_spread with Some s => (0 <=? s) && (s <=? p_maxspread p) | None => true end) (EContract 19) ;;
  let ms := dec_bps (match max_spread with Some s => s | None => p_maxspread p end) in
  mguard ((offer =? p_ta p) || (offer =? p_tb p)) (EContract 16) ;;
  let is_a := offer =? p_ta p in
  let '(rs, rb) := if is_a then (p_ra p, p_rb p) else (p_rb p, p_ra p) in
  r <- mlift (compute_swap rs rb amt (dec_bps (p_fee p)) 0) ;;
  mguard (match ask_min with Some m => negb (cs_ret r <? m) | None => true end) (EContract 21) ;;
  t1 <- mlift (add_i (cs_ret r) (cs_comm r)) ;;
  tot <- mlift (add_i t1 (cs_ref r)) ;;
  mlift (assert_max_spread ms tot (cs_spread r)) ;;
  let '(sell, buy) := if is_a then (p_ta p, p_tb p) else (p_tb p, p_ta p) in
  before <- af (tok_balance sell self) ;;
  a_transfer e (Some self) sell sender self amt ;;
  after <- af (tok_balance sell self) ;;
  recv <- mlift (sub_i after before) ;;
  a_transfer e (Some self) buy self sender (cs_ret r) ;;
  a_transfer e (Some self) buy self (p_feerec p) (cs_comm r) ;;
  ns <- mlift (add_i rs recv) ;;
  n1 <- mlift (sub_i rb (cs_comm r)) ;;
  n2 <- mlift (sub_i n1 (cs_ref r)) ;;
  nb <- mlift (sub_i n2 (cs_ret r)) ;;
  af (put_pool self (if is_a then set_p_res p ns nb else set_p_res p nb ns)) ;;
  mret (cs_ret r).

(** 411-448 swap *)
Definition a_pool_swap (e : Env) (c : option Addr) (self sender offer amt : Z)
    (ask_min max_spread dl max_fee : option Z) : AST Z :=
  af (enter self KPool) ;;
  af (check_deadline 22 dl) ;;
  mguard (vpos (Some amt)) EPanic ;;
  ask e c sender (CPoolSwap self sender offer amt ask_min max_spread dl max_fee) ;;
  a_do_swap e self sender offer amt ask_min max_spread max_fee.

(** 450-537 withdraw_liquidity *)
Definition a_pool_withdraw (e : Env) (c : option Addr) (self sender share mina minb : Z) (dl : option Z) : AST (Z * Z) :=
  af (enter self KPool) ;;
  af (check_deadline 22 dl) ;;
  mguard (vpos (Some share) && vpos (Some mina) && vpos (Some minb)) EPanic ;;
  ask e c sender (CPoolWithdraw self sender share mina minb dl) ;;
  p <- af (get_pool self) ;;
  a_transfer e (Some self) (p_share p) sender self share ;;
  mguard (negb (p_total p =? 0)) (EContract 13) ;;
  ratio <- mlift (dec_from_ratio share (p_total p)) ;;
  a <- mlift (i_mul_dec (p_ra p) ratio) ;;
  b <- mlift (i_mul_dec (p_rb p) ratio) ;;
  mguard (negb ((a <? mina) || (b <? minb))) (EContract 4) ;;
  a_burn_shares e self share ;;
  a_transfer e (Some self) (p_ta p) self sender a ;;
  a_transfer e (Some self) (p_tb p) self sender b ;;
  na <- mlift (sub_i (p_ra p) a) ;;
  nb <- mlift (sub_i (p_rb p) b) ;;
  p' <- af (get_pool self) ;;
  af (put_pool self (set_p_res p' na nb)) ;;
  mret (a, b).

(** ** pool_stable/src/contract.rs *)
(** storage.rs:279-293 *)
Definition a_stable_mint_shares (e : Env) (self to amt : Z) : AST unit :=
  p <- af (get_stable self) ;;
  a_mint e (Some self) (l_share p) to amt ;;
  t <- mlift (add_i (l_total p) amt) ;;
  af (put_stable self (set_l_total p t)).
Definition a_stable_burn_shares (e : Env) (self amt : Z) : AST unit :=
  p <- af (get_stable self) ;;
  a_burn e (Some self) (l_share p) self amt ;;
  t <- mlift (sub_i (l_total p) amt) ;;
  af (put_stable self (set_l_total p t)).

(** 275-434 provide_liquidity *)
Definition a_stable_provide (e : Env) (c : option Addr) (self sender da db : Z)
    (custom dl min_shares : option Z) : AST unit :=
  af (enter self KStable) ;;
  af (check_deadline 19 dl) ;;
  mguard (vpos (Some da) && vpos (Some db)) EPanic ;;
  ask e c sender (CStableProvide self sender da db custom dl min_shares) ;;
  p <- af (get_stable self) ;;
  mguard (negb (l_maxslip p <? match custom with Some s => s | None => l_defslip p end)) (EContract 2) ;;
  t <- af now ;;
  amp <- mlift (amp_of p t) ;;
  deca <- af (tok_decimals (l_ta p)) ;;
  decb <- af (tok_decimals (l_tb p)) ;;
  ba0 <- af (tok_balance (l_ta p) self) ;;
  bb0 <- af (tok_balance (l_tb p) self) ;;
  a_transfer e (Some self) (l_ta p) sender self da ;;
  a_transfer e (Some self) (l_tb p) sender self db ;;
  ba1 <- af (tok_balance (l_ta p) self) ;;
  bb1 <- af (tok_balance (l_tb p) self) ;;
  ra <- mlift (sub_i ba1 ba0) ;;
  rb <- mlift (sub_i bb1 bb0) ;;
  na <- mlift (add_i ra (l_ra p)) ;;
  nb <- mlift (add_i rb (l_rb p)) ;;
  ua <- mlift (i2u na) ;;
  ub <- mlift (i2u nb) ;;
  newd <- mlift (invariant_of amp ua ub deca decb) ;;
  s <- mlift (stable_shares p amp newd deca decb) ;;
  mguard (match min_shares with Some m => negb (s <? m) | None => true end) (EContract 21) ;;
  ba <- af (tok_balance (l_ta p) self) ;;
  bb <- af (tok_balance (l_tb p) self) ;;
  si <- mlift (u2i s) ;;
  a_stable_mint_shares e self sender si ;;
  p' <- af (get_stable self) ;;
  af (put_stable self (set_l_res p' ba bb)).

(** 832-978 do_swap *)
Definition a_stable_do_swap (e : Env) (self sender offer amt : Z) (ask_min max_spread max_fee : option Z) : AST Z :=
  p <- af (get_stable self) ;;
  mguard (match max_fee with Some f => negb (f <? l_fee p) | None => true end) (EContract 23) ;;
  mguard ((offer =? l_ta p) || (offer =? l_tb p)) (EContract 12) ;;
  mguard (match max_spread with Some s => (0 <=? s) && (s <=? l_maxspread p) | None => true end) (EContract 9) ;;
  let ms := dec_bps (match max_spread with Some s => s | None => l_maxspread p end) in
  let is_a := offer =? l_ta p in
  let '(rs, rb) := if is_a then (l_ra p, l_rb p) else (l_rb p, l_ra p) in
  let '(ps, pb) := if is_a then (l_preca p, l_precb p) else (l_precb p, l_preca p) in
  t <- af now ;;
  us <- mlift (i2u rs) ;;
  ub <- mlift (i2u rb) ;;
  ux <- mlift (i2u amt) ;;
  amp <- mlift (amp_of p t) ;;
  ' (ret, spread, comm) <- mlift (stable_compute_swap amp (l_prec p) us ps ub pb ux (dec_bps (l_fee p))) ;;
  mguard (match ask_min with Some m => negb (ret <? m) | None => true end) (EContract 15) ;;
  tot <- mlift (add_i ret comm) ;;
  mlift (assert_max_spread ms tot spread) ;;
  let '(sell, buy) := if is_a then (l_ta p, l_tb p) else (l_tb p, l_ta p) in
  before <- af (tok_balance sell self) ;;
  a_transfer e (Some self) sell sender self amt ;;
  after <- af (tok_balance sell self) ;;
  recv <- mlift (sub_i after before) ;;
  a_transfer e (Some self) buy self sender ret ;;
  a_transfer e (Some self) buy self (l_feerec p) comm ;;
  ns <- mlift (add_i rs recv) ;;
  n1 <- mlift (sub_i rb comm) ;;
  nb <- mlift (sub_i n1 ret) ;;
  af (put_stable self (if is_a then set_l_res p ns nb else set_l_res p nb ns)) ;;
  mret ret.

(** 437-473 swap *)
Definition a_stable_swap (e : Env) (c : option Addr) (self sender offer amt : Z)
    (ask_min max_spread dl max_fee : option Z) : AST Z :=
  af (enter self KStable) ;;
  af (check_deadline 19 dl) ;;
  mguard (vpos (Some amt)) EPanic ;;
  ask e c sender (CStableSwap self sender offer amt ask_min max_spread dl max_fee) ;;
  a_stable_do_swap e self sender offer amt ask_min max_spread max_fee.

(** 475-562 withdraw_liquidity *)
Definition a_stable_withdraw (e : Env) (c : option Addr) (self sender share mina minb : Z) (dl : option Z) : AST (Z * Z) :=
  af (enter self KStable) ;;
  af (check_deadline 19 dl) ;;
  mguard (vpos (Some share) && vpos (Some mina) && vpos (Some minb)) EPanic ;;
  ask e c sender (CStableWithdraw self sender share mina minb dl) ;;
  p <- af (get_stable self) ;;
  a_transfer e (Some self) (l_share p) sender self share ;;
  mguard (negb (l_total p =? 0)) (EContract 5) ;;
  ratio <- mlift (dec_from_ratio share (l_total p)) ;;
  a <- mlift (i_mul_dec (l_ra p) ratio) ;;
  b <- mlift (i_mul_dec (l_rb p) ratio) ;;
  mguard (negb ((a <? mina) || (b <? minb))) (EContract 3) ;;
  a_stable_burn_shares e self share ;;
  a_transfer e (Some self) (l_ta p) self sender a ;;
  a_transfer e (Some self) (l_tb p) self sender b ;;
  na <- mlift (sub_i (l_ra p) a) ;;
  nb <- mlift (sub_i (l_rb p) b) ;;
  p' <- af (get_stable self) ;;
  af (put_stable self (set_l_res p' na nb)) ;;
  mret (a, b).

(** ** stake_rewards/src/contract.rs *)
(** 136-156, 158-186 *)
Definition a_rewards_add_user (e : Env) (c : option Addr) (self user : Addr) (b : Bonding) : AST unit :=
  af (enter self KRewards) ;;
  r <- af (get_rewards self) ;;
  ask e c (r_staking r) (CRewAddUser self user b) ;;
  p <- mlift (calc_power r (b_total b)) ;;
  r' <- mlift (update_rewards r user 0 p) ;;
  af (put_rewards self r').
Definition a_rewards_bond (e : Env) (c : option Addr) (self sender : Addr) (b : Bonding) : AST unit :=
  af (enter self KRewards) ;;
  r <- af (get_rewards self) ;;
  ask e c (r_staking r) (CRewBond self sender b) ;;
  k <- mlift (match rev (b_stakes b) with k :: _ => Ok k | [] => Err EPanic end) ;;
  p0 <- mlift (calc_power r (b_total b)) ;;
  t <- mlift (add_i (b_total b) (k_amt k)) ;;
  p1 <- mlift (calc_power r t) ;;
  r' <- mlift (update_rewards r sender p0 p1) ;;
  af (put_rewards self r').

(** 290-334 withdraw_rewards; [fr] is the call of the frame, as calculate_unbond runs this in its own frame *)
Definition a_rewards_withdraw (fr : Call) (e : Env) (c : option Addr) (self sender : Addr) (b : Bonding) : AST unit :=
  af (enter self KRewards) ;;
  r <- af (get_rewards self) ;;
  ask e c (r_staking r) fr ;;
  t <- af now ;;
  amt <- mlift (reward_now r t sender b) ;;
  if amt =? 0 then mret tt
  else
    let '(corr, wd) := r_adj_of r sender in
    wd' <- mlift (add_u wd (as_u128 amt)) ;;
    wt <- mlift (sub_u (r_wdr r) (as_u128 amt)) ;;
    af (put_rewards self (set_r_adj (set_r_dist r (r_spp r) (r_left r) (r_dist r) wt) sender (corr, wd'))) ;;
    a_transfer e (Some self) (r_token r) self sender amt.

(** 188-225 calculate_unbond *)
Definition a_rewards_unbond (e : Env) (c : option Addr) (self sender : Addr) (b : Bonding) (removed : Z) : AST unit :=
  af (enter self KRewards) ;;
  ask e c sender (CRewUnbond self sender b removed) ;;
  r <- af (get_rewards self) ;;
  ask e c (r_staking r) (CRewUnbond self sender b removed) ;;
  found <- af (rewards_query self sender b) ;;
  (if found =? 0 then mret tt else a_rewards_withdraw (CRewUnbond self sender b removed) e c self sender b) ;;
  r1 <- af (get_rewards self) ;;
  p0 <- mlift (calc_power r1 (b_total b)) ;;
  t <- mlift (sub_i (b_total b) removed) ;;
  p1 <- mlift (calc_power r1 t) ;;
  r2 <- mlift (update_rewards r1 sender p0 p1) ;;
  af (put_rewards self r2).

(** 227-288 distribute_rewards *)
Definition a_rewards_distribute (e : Env) (c : option Addr) (self total_staked : Z) : AST unit :=
  af (enter self KRewards) ;;
  r <- af (get_rewards self) ;;
  ask e c (r_staking r) (CRewDistribute self total_staked) ;;
  pi <- mlift (calc_power r total_staked) ;;
  power <- mlift (i2u pi) ;;
  if power =? 0 then mret tt
  else
    bal <- af (tok_balance (r_token r) self) ;;
    u <- mlift (i2u bal) ;;
    t <- af now ;;
    locked <- mlift (cvalue (r_curve r) t) ;;
    a1 <- mlift (sub_u u (r_wdr r)) ;;
    amount <- mlift (sub_u a1 locked) ;;
    if amount =? 0 then mret tt
    else
      points <- mlift (add_u (shl_u128 amount SHARES_SHIFT) (r_left r)) ;;
      spp <- mlift (add_u (r_spp r) (points / power)) ;;
      dist <- mlift (add_u (r_dist r) amount) ;;
      wdr <- mlift (add_u (r_wdr r) amount) ;;
      af (put_rewards self (set_r_dist r spp (as_u64 (points mod power)) dist wdr)).

(** 336-428 fund_distribution *)
Definition a_rewards_fund (e : Env) (c : option Addr) (self start duration amount : Z) : AST unit :=
  af (enter self KRewards) ;;
  r <- af (get_rewards self) ;;
  ask e c (r_admin r) (CRewFund self start duration amount) ;;
  ask e c (r_staking r) (CRewFund self start duration amount) ;;
  t <- af now ;;
  mguard (negb (start <? t)) (EContract 9) ;;
  mguard (negb (amount <? r_minreward r)) (EContract 6) ;;
  a_transfer e (Some self) (r_token r) (r_admin r) self amount ;;
  fin <- mlift (add_64 t duration) ;;
  ua <- mlift (i2u amount) ;;
  let nc := SatLin start ua fin 0 in
  let '(mn, mx) := crange nc in
  mguard (negb (negb (mn =? 0) || (ua <? mx))) (EContract 7) ;;
  c' <- mlift (match cend (r_curve r) with
              | Some x => if x <? t then Ok nc else
                  let? k := combine (r_curve r) nc in
                  match validate_complexity k (r_maxc r) with None => Ok k | Some _ => Err (EContract 12) end
              | None =>
                  let? k := combine (r_curve r) nc in
                  match validate_complexity k (r_maxc r) with None => Ok k | Some _ => Err (EContract 12) end
              end) ;;
  af (put_rewards self (set_r_curve r c')).

(** ** vesting/src/contract.rs *)
(** 151-214 create_vesting_schedules *)
Definition a_vest_create (e : Env) (c : option Addr) (self : Addr) (l : list (Addr * curve)) : AST unit :=
  af (enter self KVest) ;;
  mguard (forallb (fun x => typed_curve (snd x)) l) EHost ;;
  v <- af (get_vest self) ;;
  ask e c (v_admin v) (CVestCreate self l) ;;
  mguard (negb (match l with [] => true | _ => false end)) (EContract 7) ;;
  mguard (no_dup (map fst l)) (EContract 19) ;;
  ' (v', tot) <- mlift (create_all v l 0) ;;
  bal <- af (tok_balance (v_token v) (v_admin v)) ;;
  ti <- mlift (u2i tot) ;;
  mguard (negb (bal <? ti)) (EContract 25) ;;
  af (put_vest self v') ;;
  a_transfer e (Some self) (v_token v) (v_admin v) self ti.

(** 216-265 claim *)
Definition a_vest_claim (e : Env) (c : option Addr) (self sender i : Addr) : AST unit :=
  af (enter self KVest) ;;
  ask e c sender (CVestClaim self sender i) ;;
  v <- af (get_vest self) ;;
  t <- af now ;;
  av <- mlift (available v t sender i) ;;
  mguard (negb (av <=? 0)) (EContract 14) ;;
  x <- mlift (v_get v sender i) ;;
  locked <- mlift (cvalue (vi_sched x) t) ;;
  mguard (negb (vi_bal x <? locked)) (EContract 26) ;;
  ua <- mlift (i2u av) ;;
  mguard (negb (vi_bal x - locked <? ua)) (EContract 11) ;;
  nb <- mlift (sub_u (vi_bal x) ua) ;;
  af (put_vest self (v_put v sender i (mkVInfo nb (vi_rcpt x) (vi_sched x)))) ;;
  a_transfer e (Some self) (v_token v) self sender av.

(** 268-285 burn *)
Definition a_vest_burn (e : Env) (c : option Addr) (self sender amt : Z) : AST unit :=
  af (enter self KVest) ;;
  ask e c sender (CVestBurn self sender amt) ;;
  mguard (negb (amt =? 0)) (EContract 16) ;;
  v <- af (get_vest self) ;;
  a_burn e (Some self) (v_token v) sender (wrap_i128 amt).

(** 288-340 mint *)
Definition a_vest_mint (e : Env) (c : option Addr) (self sender amt : Z) : AST unit :=
  af (enter self KVest) ;;
  ask e c sender (CVestMint self sender amt) ;;
  mguard (negb (amt <=? 0)) (EContract 17) ;;
  v <- af (get_vest self) ;;
  m <- mlift (of_option (v_minter v) (EContract 3)) ;;
  mguard (sender =? fst m) (EContract 13) ;;
  ua <- mlift (i2u amt) ;;
  mguard (negb (snd m <? ua)) (EContract 12) ;;
  a_mint e (Some self) (v_token v) self amt ;;
  af (put_vest self (set_v_minter v (Some (fst m, snd m - ua)))).

(** 343-376, 379-410 *)
Definition a_vest_update_minter (e : Env) (c : option Addr) (self sender new : Addr) : AST unit :=
  af (enter self KVest) ;;
  ask e c sender (CVestMinter self sender new) ;;
  v <- af (get_vest self) ;;
  mguard (match v_minter v with Some m => sender =? fst m | None => sender =? v_admin v end) (EContract 13) ;;
  af (put_vest self (set_v_minter v (Some (new, match v_minter v with Some m => snd m | None => 0 end)))).
Definition a_vest_update_capacity (e : Env) (c : option Addr) (self sender cap : Z) : AST unit :=
  af (enter self KVest) ;;
  ask e c sender (CVestCapacity self sender cap) ;;
  v <- af (get_vest self) ;;
  mguard (sender =? v_admin v) (EContract 13) ;;
  m <- mlift (of_option (v_minter v) (EContract 3)) ;;
  af (put_vest self (set_v_minter v (Some (fst m, cap)))).

(** ** factory/src/contract.rs and multihop/src/contract.rs *)
(** 141-235 create_liquidity_pool *)
Definition a_fact_create (e : Env) (c : option Addr) (self sender : Addr) (i : PoolInit) (ty : PoolType)
    (amp : option Z) (defslip maxfee : Z) : AST Addr :=
  af (enter self KFact) ;;
  ask e c sender (CCreate self sender i ty amp defslip maxfee) ;;
  mguard (match ty, amp with StableT, None => false | _, _ => true end) EPanic ;;
  f <- af (get_fact self) ;;
  mguard (zmem sender (f_white f)) (EContract 3) ;;
  mguard (negb (i_tb i <=? i_ta i)) (EContract 5) ;;
  mguard (negb (i_minbond i <=? 0)) (EContract 6) ;;
  mguard (negb (i_minreward i <=? 0)) (EContract 7) ;;
  let p := e_hash e self (SPair (i_ta i) (i_tb i)) in
  af (deploy p (match ty with Xyk => KPool | StableT => KStable end)) ;;
  mguard (vbps (i_fee i) && vbps (i_maxslip i) && vbps (i_maxspread i) && vbps (i_maxref i)
          && vbps defslip && vbps maxfee) EPanic ;;
  (match ty with
   | Xyk => af (pool_initialize e p i self (f_lpdec f) defslip maxfee)
   | StableT => af (stable_initialize e p i self (match amp with Some a => a | None => 0 end) maxfee)
   end) ;;
  af (put_fact self (set_f_reg f (f_lps f ++ [p]) (pair_set f (i_ta i) (i_tb i) p))) ;;
  mret p.

Definition a_any_swap (e : Env) (c : option Addr) (pool sender offer amt : Z)
    (ask_min max_spread dl max_fee : option Z) : AST Z :=
  w <- af mget ;;
  match fget pool (w_code w) with
  | Some KPool => a_pool_swap e c pool sender offer amt ask_min max_spread dl max_fee
  | Some KStable => a_stable_swap e c pool sender offer amt ask_min max_spread dl max_fee
  | _ => mfail EHost
  end.

(** multihop 81-143 swap *)
Fixpoint a_hop_swaps (e : Env) (self fact rcpt : Addr) (ops : list SwapOp) (amt : Z)
    (max_spread dl max_fee : option Z) : AST Z :=
  match ops with
  | [] => mret amt
  | o :: tl =>
      p <- af (fact_pool_by_pair fact (o_offer o) (o_ask o)) ;;
      r <- a_any_swap e (Some self) p rcpt (o_offer o) amt (o_min o) max_spread dl max_fee ;;
      a_hop_swaps e self fact rcpt tl r max_spread dl max_fee
  end.
Definition a_hop_swap (e : Env) (c : option Addr) (self rcpt : Addr) (ops : list SwapOp)
    (max_spread : option Z) (amt : Z) (dl max_fee : option Z) : AST Z :=
  af (enter self KHop) ;;
  mguard (negb (match ops with [] => true | _ => false end)) (EContract 2) ;;
  mguard (chained ops) (EContract 3) ;;
  ask e c rcpt (CHopSwap self rcpt ops max_spread amt dl max_fee) ;;
  h <- af (get_hop self) ;;
  a_hop_swaps e self (h_fact h) rcpt ops amt max_spread dl max_fee.

(** ** trader/src/contract.rs *)
(** 68-100 initialize *)
Definition a_trader_initialize (e : Env) (c : option Addr) (self admin ta tb out : Addr) : AST unit :=
  af (enter self KTrader) ;;
  ask e c admin (CTraderInit self admin ta tb out) ;;
  w <- af mget ;;
  mguard (negb (fmem self (w_trader w))) (EContract 10) ;;
  af (put_trader self (mkTrader admin ta tb out)).

(** 103-171 trade_token *)
Definition a_trader_trade (e : Env) (c : option Addr) (self sender tok pool : Addr)
    (amount max_spread dl ask_min max_fee : option Z) : AST Z :=
  af (enter self KTrader) ;;
  ask e c sender (CTrade self sender tok pool amount max_spread dl ask_min max_fee) ;;
  d <- af (get_trader self) ;;
  mguard (sender =? d_admin d) (EContract 6) ;;
  mguard (match max_spread with Some s => negb ((s <? 0) || (10000 <? s)) | None => true end) (EContract 8) ;;
  mguard ((tok =? d_ta d) || (tok =? d_tb d)) (EContract 7) ;;
  amt <- af (match amount with Some a => mret a | None => tok_balance tok sender end) ;;
  a_any_swap e (Some self) pool self tok amt ask_min max_spread dl max_fee.

(** 173-199 transfer *)
Definition a_trader_transfer (e : Env) (c : option Addr) (self sender rcpt amt : Z) (tok : option Addr) : AST unit :=
  af (enter self KTrader) ;;
  ask e c sender (CTraderTransfer self sender rcpt amt tok) ;;
  d <- af (get_trader self) ;;
  mguard (sender =? d_admin d) (EContract 6) ;;
  a_transfer e (Some self) (match tok with Some t => t | None => d_out d end) self rcpt amt.

(** ** Settings and code replacement: pool 540-589 and 780-785, pool_stable 605-610 and
    824-829, stake 389-393, stake_rewards 540-545, vesting 472-478, factory 237-303 and
    497-503, multihop 293-298 *)
Definition a_pool_update_config (e : Env) (c : option Addr) (self : Addr)
    (admin fee feerec maxslip maxspread maxref : option Z) : AST unit :=
  af (enter self KPool) ;;
  p <- af (get_pool self) ;;
  ask e c (p_admin p) (CPoolConfig self admin fee feerec maxslip maxspread maxref) ;;
  mguard (vbps_o fee && vbps_o maxslip && vbps_o maxspread && vbps_o maxref) EPanic ;;
  af (put_pool self (mkPool (p_ta p) (p_tb p) (p_share p) (p_stake p)
    (opt_or fee (p_fee p)) (opt_or feerec (p_feerec p)) (opt_or maxslip (p_maxslip p))
    (opt_or maxspread (p_maxspread p)) (opt_or maxref (p_maxref p)) (p_defslip p)
    (opt_or admin (p_admin p)) (p_total p) (p_ra p) (p_rb p))).
Definition a_pool_update (e : Env) (c : option Addr) (self hash : Z) : AST unit :=
  af (enter self KPool) ;;
  p <- af (get_pool self) ;;
  ask e c (p_admin p) (CPoolUpdate self hash) ;;
  af (put_wasm self hash).
Definition a_pool_upgrade (e : Env) (c : option Addr) (self hash defslip : Z) : AST unit :=
  af (enter self KPool) ;;
  p <- af (get_pool self) ;;
  ask e c (p_admin p) (CPoolUpgrade self hash defslip) ;;
  af (put_wasm self hash) ;;
  af (put_pool self (mkPool (p_ta p) (p_tb p) (p_share p) (p_stake p) (p_fee p) (p_feerec p) (p_maxslip p)
    (p_maxspread p) (p_maxref p) defslip (p_admin p) (p_total p) (p_ra p) (p_rb p))).
Definition a_stable_upgrade (e : Env) (c : option Addr) (self hash : Z) : AST unit :=
  af (enter self KStable) ;;
  p <- af (get_stable self) ;;
  ask e c (l_admin p) (CStableUpgrade self hash) ;;
  af (put_wasm self hash).
Definition a_stake_update (e : Env) (c : option Addr) (self hash : Z) : AST unit :=
  af (enter self KStake) ;;
  s <- af (get_stake self) ;;
  ask e c (s_admin s) (CStakeUpdate self hash) ;;
  af (put_wasm self hash).
Definition a_rewards_update (e : Env) (c : option Addr) (self hash : Z) : AST unit :=
  af (enter self KRewards) ;;
  r <- af (get_rewards self) ;;
  ask e c (r_admin r) (CRewUpdate self hash) ;;
  af (put_wasm self hash).
Definition a_vest_update (e : Env) (c : option Addr) (self hash : Z) : AST unit :=
  af (enter self KVest) ;;
  v <- af (get_vest self) ;;
  ask e c (v_admin v) (CVestUpdate self hash) ;;
  af (put_wasm self hash).
Definition a_fact_update_whitelist (e : Env) (c : option Addr) (self sender : Addr) (add rm : list Addr) : AST unit :=
  af (enter self KFact) ;;
  ask e c sender (CWhitelist self sender add rm) ;;
  f <- af (get_fact self) ;;
  mguard (f_admin f =? sender) (EContract 3) ;;
  af (put_fact self (set_f_white f (wl_remove (wl_add (f_white f) add) rm))).
Definition a_fact_update_hashes (e : Env) (c : option Addr) (self : Addr) (lph stakeh tokh : option Z) : AST unit :=
  af (enter self KFact) ;;
  f <- af (get_fact self) ;;
  ask e c (f_admin f) (CHashes self lph stakeh tokh) ;;
  af (put_fact self (set_f_hashes f (opt_or lph (f_lphash f)) (opt_or stakeh (f_stakehash f))
                                (opt_or tokh (f_tokhash f)) (f_stabhash f))).
Definition a_fact_update (e : Env) (c : option Addr) (self hash stabh : Z) : AST unit :=
  af (enter self KFact) ;;
  f <- af (get_fact self) ;;
  ask e c (f_admin f) (CFactUpdate self hash stabh) ;;
  af (put_wasm self hash) ;;
  af (put_fact self (set_f_hashes f (f_lphash f) (f_stakehash f) (f_tokhash f) stabh)).
Definition a_hop_update (e : Env) (c : option Addr) (self hash : Z) : AST unit :=
  af (enter self KHop) ;;
  h <- af (get_hop self) ;;
  ask e c (h_admin h) (CHopUpdate self hash) ;;
  af (put_wasm self hash).

(** ** One transaction with the signatures it demands.  The calls passed to [af] demand none:
    account-level deployments, the initialisers (except the trader's), and the stable pool's
    update_config, which compares an argument with the admin but demands no signature. *)
Definition a_drop {A} (m : AST A) : AST unit := m ;; mret tt.

Definition aexec (e : Env) (k : Call) : AST unit :=
  match k with
  | CMint t to amt => a_mint e None t to amt
  | CSetAdmin t a => a_set_admin e None t a
  | CApprove t f s amt ex => a_approve e None t f s amt ex
  | CTransfer t f to amt => a_transfer e None t f to amt
  | CTransferFrom t s f to amt => a_transfer_from e None t s f to amt
  | CBurn t f amt => a_burn e None t f amt
  | CBurnFrom t s f amt => a_burn_from e None t s f amt
  | CPoolProvide p u da ma db mb cu dl => a_pool_provide e None p u da ma db mb cu dl
  | CPoolSwap p u o a mi ms dl mf => a_drop (a_pool_swap e None p u o a mi ms dl mf)
  | CPoolWithdraw p u s a b dl => a_drop (a_pool_withdraw e None p u s a b dl)
  | CStableProvide p u da db cu dl ms => a_stable_provide e None p u da db cu dl ms
  | CStableSwap p u o a mi ms dl mf => a_drop (a_stable_swap e None p u o a mi ms dl mf)
  | CStableWithdraw p u s a b dl => a_drop (a_stable_withdraw e None p u s a b dl)
  | CBond k u a => a_stake_bond e None k u a
  | CUnbond k u a t => a_stake_unbond e None k u a t
  | CFlow k u a => a_stake_create_flow e None k u a
  | CDistribute k u a t => a_stake_distribute e None k u a t
  | CWithdrawRewards k u => a_stake_withdraw_rewards e k u
  | CRewAddUser r u b => a_rewards_add_user e None r u b
  | CRewBond r u b => a_rewards_bond e None r u b
  | CRewUnbond r u b x => a_rewards_unbond e None r u b x
  | CRewDistribute r t => a_rewards_distribute e None r t
  | CRewWithdraw r u b => a_rewards_withdraw k e None r u b
  | CRewFund r s d a => a_rewards_fund e None r s d a
  | CVestCreate v l => a_vest_create e None v l
  | CVestClaim v u i => a_vest_claim e None v u i
  | CVestBurn v u a => a_vest_burn e None v u a
  | CVestMint v u a => a_vest_mint e None v u a
  | CVestMinter v u n => a_vest_update_minter e None v u n
  | CVestCapacity v u n => a_vest_update_capacity e None v u n
  | CCreate f u i ty amp ds mf => a_drop (a_fact_create e None f u i ty amp ds mf)
  | CHopSwap h u ops ms a dl mf => a_drop (a_hop_swap e None h u ops ms a dl mf)
  | CTraderInit d a x y o => a_trader_initialize e None d a x y o
  | CTrade d u t p a ms dl mi mf => a_drop (a_trader_trade e None d u t p a ms dl mi mf)
  | CTraderTransfer d u r a t => a_trader_transfer e None d u r a t
  | CPoolConfig p a1 a2 a3 a4 a5 a6 => a_pool_update_config e None p a1 a2 a3 a4 a5 a6
  | CPoolUpdate p h => a_pool_update e None p h
  | CPoolUpgrade p h d => a_pool_upgrade e None p h d
  | CStableUpgrade p h => a_stable_upgrade e None p h
  | CStakeUpdate k h => a_stake_update e None k h
  | CRewUpdate r h => a_rewards_update e None r h
  | CVestUpdate v h => a_vest_update e None v h
  | CWhitelist f u a r => a_fact_update_whitelist e None f u a r
  | CHashes f a b c => a_fact_update_hashes e None f a b c
  | CFactUpdate f h s => a_fact_update e None f h s
  | CHopUpdate h x => a_hop_update e None h x
  | CDeploy _ _ | CDeployTok _ _ _ | CPoolInit _ _ _ _ _ _ | CStableInit _ _ _ _ _
  | CStakeInit _ _ _ _ _ _ _ _ | CRewInit _ _ _ _ _ _ _ | CVestInit _ _ _ _ _
  | CFactInit _ _ _ _ _ _ _ _ | CHopInit _ _ _ | CStableConfig _ _ _ _ _ _ _ => af (exec e k)
  end.

Arguments af : simpl never.
Arguments note : simpl never.
Arguments ask : simpl never.
