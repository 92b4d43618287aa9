(** Published events: every entry point of System.v once more, with the events it publishes
    ([env.events().publish(..)]) recorded in order.  Only this file mentions events; that
    the functions below otherwise do exactly what the model of the other files does is
    proved in EventsErase.v. *)
From Coq Require Import ZArith List Bool String.
From Verif Require Import Base FMap Decimal Curve World Token Stake Pool Stable Rewards Vest Factory Router System.
Import ListNotations.
Open Scope string_scope.
Open Scope list_scope.
Open Scope Z_scope.

(** The token events are those of soroban_token_sdk (topics, then data); [Pub] is
    [publish((topic1, topic2), data)].  Addresses and integers are [VZ], a pair of
    addresses [VPair]; [VNone] is the unit value.  The trader's name is omitted. *)
Inductive Val := VZ (x : Z) | VPair (x y : Z) | VNone.
Inductive Ev :=
| TMint (admin to amt : Z)
| TSetAdmin (admin new : Z)
| TApprove (from sp amt ex : Z)
| TTransfer (from to amt : Z)
| TBurn (from amt : Z)
| Pub (topic key : string) (v : Val).

(** The ledger together with the events of the transaction so far, each with the
    contract that published it. *)
Notation Log := (list (Addr * Ev)).
Notation LW := (World * list (Addr * Ev))%type.
Definition LST (A : Type) : Type := ST LW A.

(** code that publishes nothing *)
Definition lf {A} (m : ST World A) : LST A := fun s =>
  match m (fst s) with Ok (a, w) => Ok (a, (w, snd s)) | Err x => Err x end.
Definition emit (c : Addr) (v : Ev) : LST unit := fun s => Ok (tt, (fst s, snd s ++ [(c, v)])).
Definition pub (c : Addr) (topic key : string) (x : Z) : LST unit := emit c (Pub topic key (VZ x)).

(** ** token/src/contract.rs: events at 51, 63, 92-94, 115, 130, 143, 157; the
    constructor publishes nothing *)
Definition l_mint (e : Env) (c : option Addr) (t to amt : Z) : LST unit :=
  mguard (nonneg amt) EPanic ;;
  k <- lf (get_tok t) ;;
  lf (require_auth e c (t_admin k)) ;;
  lf (upd_tok t (fun k => let? k1 := tk_receive to amt k in Ok (tk_log_mint amt k1))) ;;
  emit t (TMint (t_admin k) to amt).
Definition l_set_admin (e : Env) (c : option Addr) (t new : Z) : LST unit :=
  k <- lf (get_tok t) ;;
  lf (require_auth e c (t_admin k)) ;;
  lf (upd_tok t (fun k => Ok (tk_set_admin new k))) ;;
  emit t (TSetAdmin (t_admin k) new).
Definition l_approve (e : Env) (c : option Addr) (t from sp amt ex : Z) : LST unit :=
  lf (tok_approve e c t from sp amt ex) ;; emit t (TApprove from sp amt ex).
Definition l_transfer (e : Env) (c : option Addr) (t from to amt : Z) : LST unit :=
  lf (tok_transfer e c t from to amt) ;; emit t (TTransfer from to amt).
Definition l_transfer_from (e : Env) (c : option Addr) (t sp from to amt : Z) : LST unit :=
  lf (tok_transfer_from e c t sp from to amt) ;; emit t (TTransfer from to amt).
Definition l_burn (e : Env) (c : option Addr) (t from amt : Z) : LST unit :=
  lf (tok_burn e c t from amt) ;; emit t (TBurn from amt).
Definition l_burn_from (e : Env) (c : option Addr) (t sp from amt : Z) : LST unit :=
  lf (tok_burn_from e c t sp from amt) ;; emit t (TBurn from amt).

(** ** stake/src/contract.rs *)
(** 81-137 initialize; the event (121-122) precedes the writes *)
Definition l_stake_initialize (self admin lp minbond minreward manager owner maxc : Z) : LST unit :=
  lf (stake_initialize self admin lp minbond minreward manager owner maxc) ;;
  pub self "initialize" "LP Share token staking contract" lp.

(** 139-174 bond *)
Definition l_stake_bond (e : Env) (c : option Addr) (self sender tokens : Z) : LST unit :=
  lf (enter self KStake) ;;
  lf (require_auth e c sender) ;;
  s <- lf (get_stake self) ;;
  mguard (negb (tokens <? s_minbond s)) (EContract 4) ;;
  l_transfer e (Some self) (s_lp s) sender self tokens ;;
  t <- lf now ;;
  let b := s_user s sender in
  tot <- mlift (add_i (b_total b) tokens) ;;
  let b' := mkBonding (b_stakes b ++ [mkStakeE tokens t]) (b_last b) tot in
  all <- mlift (add_i (s_total s) tokens) ;;
  lf (put_stake self (set_s_total (set_s_users s (fset sender b' (s_users s))) all)) ;;
  pub self "bond" "user" sender ;;
  pub self "bond" "token" (s_lp s) ;;
  pub self "bond" "amount" tokens.

(** 176-199 unbond *)
Definition l_stake_unbond (e : Env) (c : option Addr) (self sender amt ts : Z) : LST unit :=
  lf (enter self KStake) ;;
  lf (require_auth e c sender) ;;
  s <- lf (get_stake self) ;;
  let b := s_user s sender in
  l <- mlift (remove_stake (b_stakes b) amt ts) ;;
  tot <- mlift (sub_i (b_total b) amt) ;;
  l_transfer e (Some self) (s_lp s) self sender amt ;;
  all <- mlift (sub_i (s_total s) amt) ;;
  lf (put_stake self (set_s_total (set_s_users s (fset sender (mkBonding l (b_last b) tot) (s_users s))) all)) ;;
  pub self "unbond" "user" sender ;;
  pub self "unbond" "token" (s_lp s) ;;
  pub self "unbond" "amount" amt.

(** 201-218 create_distribution_flow *)
Definition l_stake_create_flow (e : Env) (c : option Addr) (self sender asset : Z) : LST unit :=
  lf (stake_create_flow e c self sender asset) ;;
  pub self "create_distribution_flow" "asset" asset.

(** 220-260 distribute_rewards: the amount is not published *)
Definition l_stake_distribute (e : Env) (c : option Addr) (self sender amt token : Z) : LST unit :=
  lf (enter self KStake) ;;
  lf (require_auth e c sender) ;;
  s <- lf (get_stake self) ;;
  mguard ((sender =? s_manager s) || (sender =? s_owner s)) (EContract 5) ;;
  mguard (zmem token (s_dists s)) (EContract 13) ;;
  t <- lf now ;;
  h <- mlift (of_option (fget token (s_rh s)) EPanic) ;;
  lf (put_stake self (set_s_hist s (fset t (as_u128 (s_total s)) (s_tsh s))
                               (fset token (fset t (as_u128 amt) h) (s_rh s)))) ;;
  l_transfer e (Some self) token sender self amt ;;
  pub self "distribute_rewards" "asset" token.

(** 262-284 withdraw_rewards: every reward asset is published, no amount is *)
Fixpoint l_pay_rewards (e : Env) (self sender : Addr) (s : Stake) (t : Z) (b : Bonding)
    (assets : list Addr) : LST unit :=
  match assets with
  | [] => mret tt
  | a :: tl =>
      p <- mlift (pending_rewards s t a b) ;;
      pub self "withdraw_rewards" "reward_token" a ;;
      l_transfer e (Some self) a self sender p ;;
      l_pay_rewards e self sender s t b tl
  end.
Definition l_stake_withdraw_rewards (e : Env) (self sender : Addr) : LST unit :=
  lf (enter self KStake) ;;
  pub self "withdraw_rewards" "user" sender ;;
  s <- lf (get_stake self) ;;
  t <- lf now ;;
  let b := s_user s sender in
  l_pay_rewards e self sender s t b (s_dists s) ;;
  lf (put_stake self (set_s_users s (fset sender (mkBonding (b_stakes b) t (b_total b)) (s_users s)))).

(** ** pool/src/contract.rs *)
Definition l_deploy_stake_of (e : Env) (self admin share minbond minreward manager owner maxc : Z) : LST Addr :=
  let k := e_hash e self SEmpty in
  lf (deploy k KStake) ;;
  l_stake_initialize k admin share minbond minreward manager owner maxc ;;
  mret k.

(** 151-265 initialize *)
Definition l_pool_initialize (e : Env) (self : Addr) (i : PoolInit) (factory dec defslip maxfee : Z) : LST unit :=
  lf (enter self KPool) ;;
  w <- lf mget ;;
  mguard (negb (fmem self (w_pool w))) (EContract 17) ;;
  mguard (vbps (i_fee i) && vbps (i_maxslip i) && vbps (i_maxspread i) && vbps (i_maxref i)
          && vbps defslip && vbps maxfee) EPanic ;;
  mguard (negb (maxfee <? i_fee i)) (EContract 25) ;;
  mguard (negb (i_tb i <=? i_ta i)) (EContract 18) ;;
  share <- lf (deploy_share e self (i_ta i) (i_tb i) dec) ;;
  stk <- l_deploy_stake_of e self (i_admin i) share (i_minbond i) (i_minreward i) (i_manager i) factory (i_maxc i) ;;
  lf (put_pool self (mkPool (i_ta i) (i_tb i) share stk (i_fee i) (i_feerec i) (i_maxslip i) (i_maxspread i)
                        (i_maxref i) defslip (i_admin i) 0 0 0)) ;;
  pub self "initialize" "XYK LP token_a" (i_ta i) ;;
  pub self "initialize" "XYK LP token_b" (i_tb i).

(** storage.rs:252-266 *)
Definition l_mint_shares (e : Env) (self to amt : Z) : LST unit :=
  p <- lf (get_pool self) ;;
  l_mint e (Some self) (p_share p) to amt ;;
  t <- mlift (add_i (p_total p) amt) ;;
  lf (put_pool self (set_p_total p t)).
Definition l_burn_shares (e : Env) (self amt : Z) : LST unit :=
  p <- lf (get_pool self) ;;
  l_burn e (Some self) (p_share p) self amt ;;
  t <- mlift (sub_i (p_total p) amt) ;;
  lf (put_pool self (set_p_total p t)).

(** 346-372 *)
Definition l_new_share_total (e : Env) (self a b bala balb : Z) (p : Pool) : LST Z :=
  if (0 <? p_ra p) && (0 <? p_rb p) then
    m1 <- mlift (mul_i bala (p_total p)) ;;
    sa <- mlift (div_i m1 (p_ra p)) ;;
    m2 <- mlift (mul_i balb (p_total p)) ;;
    sb <- mlift (div_i m2 (p_rb p)) ;;
    mret (Z.min sa sb)
  else
    m <- mlift (mul_i a b) ;;
    mguard (negb (m <? 0)) EPanic ;;
    let s := Z.sqrt m in
    mguard (negb (s <=? MINIMUM_LIQUIDITY_AMOUNT)) (EContract 13) ;;
    l_mint_shares e self self MINIMUM_LIQUIDITY_AMOUNT ;;
    mlift (sub_i s MINIMUM_LIQUIDITY_AMOUNT).

Definition pub_provide (self sender ta a tb b : Z) : LST unit :=
  pub self "provide_liquidity" "sender" sender ;;
  pub self "provide_liquidity" "token_a" ta ;;
  pub self "provide_liquidity" "token_a-amount" a ;;
  pub self "provide_liquidity" "token_b" tb ;;
  pub self "provide_liquidity" "token_b-amount" b.

(** 268-408 provide_liquidity; events 398-407 *)
Definition l_pool_provide (e : Env) (c : option Addr) (self sender : Addr)
    (da mina db minb custom dl : option Z) : LST unit :=
  lf (enter self KPool) ;;
  lf (check_deadline 22 dl) ;;
  mguard (vpos da && vpos mina && vpos db && vpos minb) EPanic ;;
  lf (require_auth e c sender) ;;
  p <- lf (get_pool self) ;;
  mguard (match custom with Some s => negb (p_maxslip p <? s) | None => true end) (EContract 2) ;;
  ' (a, b) <- mlift (match da, db with
                    | Some x, Some y =>
                        if (0 <? x) && (0 <? y) then
                          deposit_amounts x mina y minb (p_ra p) (p_rb p)
                            (dec_bps (match custom with Some s => s | None => p_defslip p end))
                        else Err (EContract 3)
                    | _, _ => Err (EContract 3)
                    end) ;;
  ia <- lf (tok_balance (p_ta p) self) ;;
  ib <- lf (tok_balance (p_tb p) self) ;;
  l_transfer e (Some self) (p_ta p) sender self a ;;
  l_transfer e (Some self) (p_tb p) sender self b ;;
  fa <- lf (tok_balance (p_ta p) self) ;;
  fb <- lf (tok_balance (p_tb p) self) ;;
  ga <- mlift (sub_i fa ia) ;;
  gb <- mlift (sub_i fb ib) ;;
  n <- l_new_share_total e self a b fa fb p ;;
  d <- mlift (sub_i n (p_total p)) ;;
  l_mint_shares e self sender d ;;
  p' <- lf (get_pool self) ;;
  lf (put_pool self (set_p_res p' fa fb)) ;;
  pub_provide self sender (p_ta p) ga (p_tb p) gb.

(** 788-962 do_swap; events 947-960.  The commission is not published. *)
Definition l_do_swap (e : Env) (self sender offer amt : Z) (ask_min max_spread max_fee : option Z) : LST Z :=
  p <- lf (get_pool self) ;;
  mguard (match max_fee with Some f => negb (f <? p_fee p) | None => true end) (EContract 24) ;;
  mguard (match max_spread with Some s => (0 <=? s) && (s <=? p_maxspread p) | None => true end) (EContract 19) ;;
  let ms := dec_bps (match max_spread with Some s => s | None => p_maxspread p end) in
  mguard ((offer =? p_ta p) || (offer =? p_tb p)) (EContract 16) ;;
  let is_a := offer =? p_ta p in
  let '(rs, rb) := if is_a then (p_ra p, p_rb p) else (p_rb p, p_ra p) in
  r <- mlift (compute_swap rs rb amt (dec_bps (p_fee p)) 0) ;;
  mguard (match ask_min with Some m => negb (cs_ret r <? m) | None => true end) (EContract 21) ;;
  t1 <- mlift (add_i (cs_ret r) (cs_comm r)) ;;
  tot <- mlift (add_i t1 (cs_ref r)) ;;
  mlift (assert_max_spread ms tot (cs_spread r)) ;;
  let '(sell, buy) := if is_a then (p_ta p, p_tb p) else (p_tb p, p_ta p) in
  before <- lf (tok_balance sell self) ;;
  l_transfer e (Some self) sell sender self amt ;;
  after <- lf (tok_balance sell self) ;;
  recv <- mlift (sub_i after before) ;;
  l_transfer e (Some self) buy self sender (cs_ret r) ;;
  l_transfer e (Some self) buy self (p_feerec p) (cs_comm r) ;;
  ns <- mlift (add_i rs recv) ;;
  n1 <- mlift (sub_i rb (cs_comm r)) ;;
  n2 <- mlift (sub_i n1 (cs_ref r)) ;;
  nb <- mlift (sub_i n2 (cs_ret r)) ;;
  lf (put_pool self (if is_a then set_p_res p ns nb else set_p_res p nb ns)) ;;
  pub self "swap" "sender" sender ;;
  pub self "swap" "sell_token" sell ;;
  pub self "swap" "offer_amount" amt ;;
  pub self "swap" "actual received amount" recv ;;
  pub self "swap" "buy_token" buy ;;
  pub self "swap" "return_amount" (cs_ret r) ;;
  pub self "swap" "spread_amount" (cs_spread r) ;;
  pub self "swap" "referral_fee_amount" (cs_ref r) ;;
  mret (cs_ret r).

(** 411-448 swap *)
Definition l_pool_swap (e : Env) (c : option Addr) (self sender offer amt : Z)
    (ask_min max_spread dl max_fee : option Z) : LST Z :=
  lf (enter self KPool) ;;
  lf (check_deadline 22 dl) ;;
  mguard (vpos (Some amt)) EPanic ;;
  lf (require_auth e c sender) ;;
  l_do_swap e self sender offer amt ask_min max_spread max_fee.

Definition pub_withdraw (self sender share a b : Z) : LST unit :=
  pub self "withdraw_liquidity" "sender" sender ;;
  pub self "withdraw_liquidity" "shares_amount" share ;;
  pub self "withdraw_liquidity" "return_amount_a" a ;;
  pub self "withdraw_liquidity" "return_amount_b" b.

(** 450-537 withdraw_liquidity; events 527-534 *)
Definition l_pool_withdraw (e : Env) (c : option Addr) (self sender share mina minb : Z) (dl : option Z) : LST (Z * Z) :=
  lf (enter self KPool) ;;
  lf (check_deadline 22 dl) ;;
  mguard (vpos (Some share) && vpos (Some mina) && vpos (Some minb)) EPanic ;;
  lf (require_auth e c sender) ;;
  p <- lf (get_pool self) ;;
  l_transfer e (Some self) (p_share p) sender self share ;;
  mguard (negb (p_total p =? 0)) (EContract 13) ;;
  ratio <- mlift (dec_from_ratio share (p_total p)) ;;
  a <- mlift (i_mul_dec (p_ra p) ratio) ;;
  b <- mlift (i_mul_dec (p_rb p) ratio) ;;
  mguard (negb ((a <? mina) || (b <? minb))) (EContract 4) ;;
  l_burn_shares e self share ;;
  l_transfer e (Some self) (p_ta p) self sender a ;;
  l_transfer e (Some self) (p_tb p) self sender b ;;
  na <- mlift (sub_i (p_ra p) a) ;;
  nb <- mlift (sub_i (p_rb p) b) ;;
  p' <- lf (get_pool self) ;;
  lf (put_pool self (set_p_res p' na nb)) ;;
  pub_withdraw self sender share a b ;;
  mret (a, b).

(** ** pool_stable/src/contract.rs *)
(** 150-273 initialize; events 269-272, with the topics of the constant-product pool *)
Definition l_stable_initialize (e : Env) (self : Addr) (i : PoolInit) (factory amp maxfee : Z) : LST unit :=
  lf (enter self KStable) ;;
  w <- lf mget ;;
  mguard (negb (fmem self (w_stable w))) (EContract 7) ;;
  mguard (vbps (i_fee i) && vbps (i_maxslip i) && vbps (i_maxspread i) && vbps (i_defslip i) && vbps maxfee) EPanic ;;
  mguard (negb (maxfee <? i_fee i)) (EContract 22) ;;
  mguard (negb (i_tb i <=? i_ta i)) (EContract 8) ;;
  pa <- lf (tok_decimals (i_ta i)) ;;
  pb <- lf (tok_decimals (i_tb i)) ;;
  let prec := if pb <? pa then pa else pb in
  share <- lf (deploy_share e self (i_ta i) (i_tb i) prec) ;;
  stk <- l_deploy_stake_of e self (i_admin i) share (i_minbond i) (i_minreward i) (i_manager i) factory (i_maxc i) ;;
  t <- lf now ;;
  mguard (negb ((amp =? 0) || (MAX_AMP <? amp))) (EContract 18) ;;
  a <- mlift (mul_64 amp AMP_PRECISION) ;;
  lf (put_stable self (mkStable (i_ta i) (i_tb i) share stk (i_fee i) (i_feerec i) (i_maxslip i) (i_defslip i)
    (i_maxspread i) (i_admin i) a t a t prec pa pb 0 0 0)) ;;
  pub self "initialize" "XYK LP token_a" (i_ta i) ;;
  pub self "initialize" "XYK LP token_b" (i_tb i).

(** storage.rs:279-293 *)
Definition l_stable_mint_shares (e : Env) (self to amt : Z) : LST unit :=
  p <- lf (get_stable self) ;;
  l_mint e (Some self) (l_share p) to amt ;;
  t <- mlift (add_i (l_total p) amt) ;;
  lf (put_stable self (set_l_total p t)).
Definition l_stable_burn_shares (e : Env) (self amt : Z) : LST unit :=
  p <- lf (get_stable self) ;;
  l_burn e (Some self) (l_share p) self amt ;;
  t <- mlift (sub_i (l_total p) amt) ;;
  lf (put_stable self (set_l_total p t)).

(** 275-434 provide_liquidity; events 424-433 *)
Definition l_stable_provide (e : Env) (c : option Addr) (self sender da db : Z)
    (custom dl min_shares : option Z) : LST unit :=
  lf (enter self KStable) ;;
  lf (check_deadline 19 dl) ;;
  mguard (vpos (Some da) && vpos (Some db)) EPanic ;;
  lf (require_auth e c sender) ;;
  p <- lf (get_stable self) ;;
  mguard (negb (l_maxslip p <? match custom with Some s => s | None => l_defslip p end)) (EContract 2) ;;
  t <- lf now ;;
  amp <- mlift (amp_of p t) ;;
  deca <- lf (tok_decimals (l_ta p)) ;;
  decb <- lf (tok_decimals (l_tb p)) ;;
  ba0 <- lf (tok_balance (l_ta p) self) ;;
  bb0 <- lf (tok_balance (l_tb p) self) ;;
  l_transfer e (Some self) (l_ta p) sender self da ;;
  l_transfer e (Some self) (l_tb p) sender self db ;;
  ba1 <- lf (tok_balance (l_ta p) self) ;;
  bb1 <- lf (tok_balance (l_tb p) self) ;;
  ra <- mlift (sub_i ba1 ba0) ;;
  rb <- mlift (sub_i bb1 bb0) ;;
  na <- mlift (add_i ra (l_ra p)) ;;
  nb <- mlift (add_i rb (l_rb p)) ;;
  ua <- mlift (i2u na) ;;
  ub <- mlift (i2u nb) ;;
  newd <- mlift (invariant_of amp ua ub deca decb) ;;
  s <- mlift (stable_shares p amp newd deca decb) ;;
  mguard (match min_shares with Some m => negb (s <? m) | None => true end) (EContract 21) ;;
  ba <- lf (tok_balance (l_ta p) self) ;;
  bb <- lf (tok_balance (l_tb p) self) ;;
  si <- mlift (u2i s) ;;
  l_stable_mint_shares e self sender si ;;
  p' <- lf (get_stable self) ;;
  lf (put_stable self (set_l_res p' ba bb)) ;;
  pub_provide self sender (l_ta p) ra (l_tb p) rb.

(** 832-978 do_swap; events 968-975 *)
Definition l_stable_do_swap (e : Env) (self sender offer amt : Z) (ask_min max_spread max_fee : option Z) : LST Z :=
  p <- lf (get_stable self) ;;
  mguard (match max_fee with Some f => negb (f <? l_fee p) | None => true end) (EContract 23) ;;
  mguard ((offer =? l_ta p) || (offer =? l_tb p)) (EContract 12) ;;
  mguard (match max_spread with Some s => (0 <=? s) && (s <=? l_maxspread p) | None => true end) (EContract 9) ;;
  let ms := dec_bps (match max_spread with Some s => s | None => l_maxspread p end) in
  let is_a := offer =? l_ta p in
  let '(rs, rb) := if is_a then (l_ra p, l_rb p) else (l_rb p, l_ra p) in
  let '(ps, pb) := if is_a then (l_preca p, l_precb p) else (l_precb p, l_preca p) in
  t <- lf now ;;
  us <- mlift (i2u rs) ;;
  ub <- mlift (i2u rb) ;;
  ux <- mlift (i2u amt) ;;
  amp <- mlift (amp_of p t) ;;
  ' (ret, spread, comm) <- mlift (stable_compute_swap amp (l_prec p) us ps ub pb ux (dec_bps (l_fee p))) ;;
  mguard (match ask_min with Some m => negb (ret <? m) | None => true end) (EContract 15) ;;
  tot <- mlift (add_i ret comm) ;;
  mlift (assert_max_spread ms tot spread) ;;
  let '(sell, buy) := if is_a then (l_ta p, l_tb p) else (l_tb p, l_ta p) in
  before <- lf (tok_balance sell self) ;;
  l_transfer e (Some self) sell sender self amt ;;
  after <- lf (tok_balance sell self) ;;
  recv <- mlift (sub_i after before) ;;
  l_transfer e (Some self) buy self sender ret ;;
  l_transfer e (Some self) buy self (l_feerec p) comm ;;
  ns <- mlift (add_i rs recv) ;;
  n1 <- mlift (sub_i rb comm) ;;
  nb <- mlift (sub_i n1 ret) ;;
  lf (put_stable self (if is_a then set_l_res p ns nb else set_l_res p nb ns)) ;;
  pub self "swap" "sender" sender ;;
  pub self "swap" "sell_token" sell ;;
  pub self "swap" "offer_amount" amt ;;
  pub self "swap" "buy_token" buy ;;
  pub self "swap" "return_amount" ret ;;
  pub self "swap" "spread_amount" spread ;;
  mret ret.

(** 437-473 swap *)
Definition l_stable_swap (e : Env) (c : option Addr) (self sender offer amt : Z)
    (ask_min max_spread dl max_fee : option Z) : LST Z :=
  lf (enter self KStable) ;;
  lf (check_deadline 19 dl) ;;
  mguard (vpos (Some amt)) EPanic ;;
  lf (require_auth e c sender) ;;
  l_stable_do_swap e self sender offer amt ask_min max_spread max_fee.

(** 475-562 withdraw_liquidity; events 552-559 *)
Definition l_stable_withdraw (e : Env) (c : option Addr) (self sender share mina minb : Z) (dl : option Z) : LST (Z * Z) :=
  lf (enter self KStable) ;;
  lf (check_deadline 19 dl) ;;
  mguard (vpos (Some share) && vpos (Some mina) && vpos (Some minb)) EPanic ;;
  lf (require_auth e c sender) ;;
  p <- lf (get_stable self) ;;
  l_transfer e (Some self) (l_share p) sender self share ;;
  mguard (negb (l_total p =? 0)) (EContract 5) ;;
  ratio <- mlift (dec_from_ratio share (l_total p)) ;;
  a <- mlift (i_mul_dec (l_ra p) ratio) ;;
  b <- mlift (i_mul_dec (l_rb p) ratio) ;;
  mguard (negb ((a <? mina) || (b <? minb))) (EContract 3) ;;
  l_stable_burn_shares e self share ;;
  l_transfer e (Some self) (l_ta p) self sender a ;;
  l_transfer e (Some self) (l_tb p) self sender b ;;
  na <- mlift (sub_i (l_ra p) a) ;;
  nb <- mlift (sub_i (l_rb p) b) ;;
  p' <- lf (get_stable self) ;;
  lf (put_stable self (set_l_res p' na nb)) ;;
  pub_withdraw self sender share a b ;;
  mret (a, b).

(** ** stake_rewards/src/contract.rs *)
(** 84-134 initialize *)
Definition l_rewards_initialize (self admin staking token maxc minreward minbond : Z) : LST unit :=
  lf (rewards_initialize self admin staking token maxc minreward minbond) ;;
  emit self (Pub "initialize" "StakingRewards rewards distribution contract" VNone) ;;
  pub self "create_distribution_flow" "asset" token.

(** 136-156, 158-186 *)
Definition l_rewards_add_user (e : Env) (c : option Addr) (self user : Addr) (b : Bonding) : LST unit :=
  lf (rewards_add_user e c self user b) ;; pub self "stake_rewards" "add_user" user.
Definition l_rewards_bond (e : Env) (c : option Addr) (self sender : Addr) (b : Bonding) : LST unit :=
  lf (rewards_bond e c self sender b) ;; pub self "calculate_bond" "user" sender.

(** 290-334 withdraw_rewards; the first event comes before everything else *)
Definition l_rewards_withdraw (e : Env) (c : option Addr) (self sender : Addr) (b : Bonding) : LST unit :=
  lf (enter self KRewards) ;;
  pub self "withdraw_rewards" "user" sender ;;
  r <- lf (get_rewards self) ;;
  lf (require_auth e c (r_staking r)) ;;
  t <- lf now ;;
  amt <- mlift (reward_now r t sender b) ;;
  if amt =? 0 then mret tt
  else
    let '(corr, wd) := r_adj_of r sender in
    wd' <- mlift (add_u wd (as_u128 amt)) ;;
    wt <- mlift (sub_u (r_wdr r) (as_u128 amt)) ;;
    lf (put_rewards self (set_r_adj (set_r_dist r (r_spp r) (r_left r) (r_dist r) wt) sender (corr, wd'))) ;;
    l_transfer e (Some self) (r_token r) self sender amt ;;
    pub self "withdraw_rewards" "reward_token" (r_token r) ;;
    pub self "withdraw_rewards" "reward_amount" amt.

(** 188-225 calculate_unbond *)
Definition l_rewards_unbond (e : Env) (c : option Addr) (self sender : Addr) (b : Bonding) (removed : Z) : LST unit :=
  lf (enter self KRewards) ;;
  lf (require_auth e c sender) ;;
  r <- lf (get_rewards self) ;;
  lf (require_auth e c (r_staking r)) ;;
  found <- lf (rewards_query self sender b) ;;
  (if found =? 0 then mret tt else l_rewards_withdraw e c self sender b) ;;
  r1 <- lf (get_rewards self) ;;
  p0 <- mlift (calc_power r1 (b_total b)) ;;
  t <- mlift (sub_i (b_total b) removed) ;;
  p1 <- mlift (calc_power r1 t) ;;
  r2 <- mlift (update_rewards r1 sender p0 p1) ;;
  lf (put_rewards self r2) ;;
  pub self "calculate_unbond" "user" sender.

(** 227-288 distribute_rewards: the two early returns publish nothing *)
Definition l_rewards_distribute (e : Env) (c : option Addr) (self total_staked : Z) : LST unit :=
  lf (enter self KRewards) ;;
  r <- lf (get_rewards self) ;;
  lf (require_auth e c (r_staking r)) ;;
  pi <- mlift (calc_power r total_staked) ;;
  power <- mlift (i2u pi) ;;
  if power =? 0 then mret tt
  else
    bal <- lf (tok_balance (r_token r) self) ;;
    u <- mlift (i2u bal) ;;
    t <- lf now ;;
    locked <- mlift (cvalue (r_curve r) t) ;;
    a1 <- mlift (sub_u u (r_wdr r)) ;;
    amount <- mlift (sub_u a1 locked) ;;
    if amount =? 0 then mret tt
    else
      points <- mlift (add_u (shl_u128 amount SHARES_SHIFT) (r_left r)) ;;
      spp <- mlift (add_u (r_spp r) (points / power)) ;;
      dist <- mlift (add_u (r_dist r) amount) ;;
      wdr <- mlift (add_u (r_wdr r) amount) ;;
      lf (put_rewards self (set_r_dist r spp (as_u64 (points mod power)) dist wdr)) ;;
      pub self "distribute_rewards" "asset" (r_token r) ;;
      pub self "distribute_rewards" "amount" amount.

(** 336-428 fund_distribution *)
Definition l_rewards_fund (e : Env) (c : option Addr) (self start duration amount : Z) : LST unit :=
  lf (enter self KRewards) ;;
  r <- lf (get_rewards self) ;;
  lf (require_auth e c (r_admin r)) ;;
  lf (require_auth e c (r_staking r)) ;;
  t <- lf now ;;
  mguard (negb (start <? t)) (EContract 9) ;;
  mguard (negb (amount <? r_minreward r)) (EContract 6) ;;
  l_transfer e (Some self) (r_token r) (r_admin r) self amount ;;
  fin <- mlift (add_64 t duration) ;;
  ua <- mlift (i2u amount) ;;
  let nc := SatLin start ua fin 0 in
  let '(mn, mx) := crange nc in
  mguard (negb (negb (mn =? 0) || (ua <? mx))) (EContract 7) ;;
  c' <- mlift (match cend (r_curve r) with
              | Some x => if x <? t then Ok nc else
                  let? k := combine (r_curve r) nc in
                  match validate_complexity k (r_maxc r) with None => Ok k | Some _ => Err (EContract 12) end
              | None =>
                  let? k := combine (r_curve r) nc in
                  match validate_complexity k (r_maxc r) with None => Ok k | Some _ => Err (EContract 12) end
              end) ;;
  lf (put_rewards self (set_r_curve r c')) ;;
  pub self "fund_reward_distribution" "asset" (r_token r) ;;
  pub self "fund_reward_distribution" "amount" amount ;;
  pub self "fund_reward_distribution" "start_time" start ;;
  pub self "fund_reward_distribution" "end_time" fin.

(** ** vesting/src/contract.rs *)
(** 82-149 initialize and initialize_with_minter *)
Definition l_vest_initialize (self admin token maxc : Z) (minter : option (Addr * Z)) : LST unit :=
  lf (vest_initialize self admin token maxc minter) ;;
  pub self "Initialize" "Vesting contract with admin: " admin.

(** 151-214 create_vesting_schedules: publishes nothing itself *)
Definition l_vest_create (e : Env) (c : option Addr) (self : Addr) (l : list (Addr * curve)) : LST unit :=
  lf (enter self KVest) ;;
  mguard (forallb (fun x => typed_curve (snd x)) l) EHost ;;
  v <- lf (get_vest self) ;;
  lf (require_auth e c (v_admin v)) ;;
  mguard (negb (match l with [] => true | _ => false end)) (EContract 7) ;;
  mguard (no_dup (map fst l)) (EContract 19) ;;
  ' (v', tot) <- mlift (create_all v l 0) ;;
  bal <- lf (tok_balance (v_token v) (v_admin v)) ;;
  ti <- mlift (u2i tot) ;;
  mguard (negb (bal <? ti)) (EContract 25) ;;
  lf (put_vest self v') ;;
  l_transfer e (Some self) (v_token v) (v_admin v) self ti.

(** 216-265 claim: the amount is published, neither the recipient nor the index *)
Definition l_vest_claim (e : Env) (c : option Addr) (self sender i : Addr) : LST unit :=
  lf (enter self KVest) ;;
  lf (require_auth e c sender) ;;
  v <- lf (get_vest self) ;;
  t <- lf now ;;
  av <- mlift (available v t sender i) ;;
  mguard (negb (av <=? 0)) (EContract 14) ;;
  x <- mlift (v_get v sender i) ;;
  locked <- mlift (cvalue (vi_sched x) t) ;;
  mguard (negb (vi_bal x <? locked)) (EContract 26) ;;
  ua <- mlift (i2u av) ;;
  mguard (negb (vi_bal x - locked <? ua)) (EContract 11) ;;
  nb <- mlift (sub_u (vi_bal x) ua) ;;
  lf (put_vest self (v_put v sender i (mkVInfo nb (vi_rcpt x) (vi_sched x)))) ;;
  l_transfer e (Some self) (v_token v) self sender av ;;
  pub self "Claim" "Claimed tokens: " av.

(** 268-285 burn: publishes the u128 argument *)
Definition l_vest_burn (e : Env) (c : option Addr) (self sender amt : Z) : LST unit :=
  lf (enter self KVest) ;;
  lf (require_auth e c sender) ;;
  mguard (negb (amt =? 0)) (EContract 16) ;;
  v <- lf (get_vest self) ;;
  l_burn e (Some self) (v_token v) sender (wrap_i128 amt) ;;
  pub self "Burn" "Burned from: " sender ;;
  pub self "Burn" "Burned tokens: " amt.

(** 288-340 mint *)
Definition l_vest_mint (e : Env) (c : option Addr) (self sender amt : Z) : LST unit :=
  lf (enter self KVest) ;;
  lf (require_auth e c sender) ;;
  mguard (negb (amt <=? 0)) (EContract 17) ;;
  v <- lf (get_vest self) ;;
  m <- mlift (of_option (v_minter v) (EContract 3)) ;;
  mguard (sender =? fst m) (EContract 13) ;;
  ua <- mlift (i2u amt) ;;
  mguard (negb (snd m <? ua)) (EContract 12) ;;
  l_mint e (Some self) (v_token v) self amt ;;
  lf (put_vest self (set_v_minter v (Some (fst m, snd m - ua)))) ;;
  pub self "Mint" "sender: " sender ;;
  pub self "Mint" "Minted tokens: " amt.

(** 343-376, 379-410 *)
Definition l_vest_update_minter (e : Env) (c : option Addr) (self sender new : Addr) : LST unit :=
  lf (vest_update_minter e c self sender new) ;;
  pub self "Update minter" "Updated minter to: " new.
Definition l_vest_update_capacity (e : Env) (c : option Addr) (self sender cap : Z) : LST unit :=
  lf (vest_update_capacity e c self sender cap) ;;
  pub self "Update minter capacity" "Updated minter capacity to: " cap.

(** ** factory/src/contract.rs and multihop/src/contract.rs *)
(** multihop 61-78 *)
Definition l_hop_initialize (self admin factory : Addr) : LST unit :=
  lf (hop_initialize self admin factory) ;;
  pub self "initialize" "Multihop factory with admin: " admin.

(** 91-138 initialize *)
Definition l_fact_initialize (e : Env) (self admin lph stabh stakeh tokh : Z) (white : list Addr) (lpdec : Z) : LST unit :=
  lf (enter self KFact) ;;
  w <- lf mget ;;
  mguard (negb (fmem self (w_fact w))) (EContract 1) ;;
  mguard (negb (match white with [] => true | _ => false end)) (EContract 2) ;;
  let h := e_hash e self (SOne admin) in
  lf (deploy h KHop) ;;
  l_hop_initialize h admin self ;;
  lf (put_fact self (mkFact admin h lph stakeh tokh stabh white lpdec [] fempty)) ;;
  pub self "initialize" "LP factory contract" admin.

(** 141-235 create_liquidity_pool *)
Definition l_fact_create (e : Env) (c : option Addr) (self sender : Addr) (i : PoolInit) (ty : PoolType)
    (amp : option Z) (defslip maxfee : Z) : LST Addr :=
  lf (enter self KFact) ;;
  lf (require_auth e c sender) ;;
  mguard (match ty, amp with StableT, None => false | _, _ => true end) EPanic ;;
  f <- lf (get_fact self) ;;
  mguard (zmem sender (f_white f)) (EContract 3) ;;
  mguard (negb (i_tb i <=? i_ta i)) (EContract 5) ;;
  mguard (negb (i_minbond i <=? 0)) (EContract 6) ;;
  mguard (negb (i_minreward i <=? 0)) (EContract 7) ;;
  let p := e_hash e self (SPair (i_ta i) (i_tb i)) in
  lf (deploy p (match ty with Xyk => KPool | StableT => KStable end)) ;;
  mguard (vbps (i_fee i) && vbps (i_maxslip i) && vbps (i_maxspread i) && vbps (i_maxref i)
          && vbps defslip && vbps maxfee) EPanic ;;
  (match ty with
   | Xyk => l_pool_initialize e p i self (f_lpdec f) defslip maxfee
   | StableT => l_stable_initialize e p i self (match amp with Some a => a | None => 0 end) maxfee
   end) ;;
  lf (put_fact self (set_f_reg f (f_lps f ++ [p]) (pair_set f (i_ta i) (i_tb i) p))) ;;
  pub self "create" "liquidity_pool" p ;;
  mret p.

Definition l_any_swap (e : Env) (c : option Addr) (pool sender offer amt : Z)
    (ask_min max_spread dl max_fee : option Z) : LST Z :=
  w <- lf mget ;;
  match fget pool (w_code w) with
  | Some KPool => l_pool_swap e c pool sender offer amt ask_min max_spread dl max_fee
  | Some KStable => l_stable_swap e c pool sender offer amt ask_min max_spread dl max_fee
  | _ => mfail EHost
  end.

(** multihop 81-143 swap: publishes nothing itself *)
Fixpoint l_hop_swaps (e : Env) (self fact rcpt : Addr) (ops : list SwapOp) (amt : Z)
    (max_spread dl max_fee : option Z) : LST Z :=
  match ops with
  | [] => mret amt
  | o :: tl =>
      p <- lf (fact_pool_by_pair fact (o_offer o) (o_ask o)) ;;
      r <- l_any_swap e (Some self) p rcpt (o_offer o) amt (o_min o) max_spread dl max_fee ;;
      l_hop_swaps e self fact rcpt tl r max_spread dl max_fee
  end.
Definition l_hop_swap (e : Env) (c : option Addr) (self rcpt : Addr) (ops : list SwapOp)
    (max_spread : option Z) (amt : Z) (dl max_fee : option Z) : LST Z :=
  lf (enter self KHop) ;;
  mguard (negb (match ops with [] => true | _ => false end)) (EContract 2) ;;
  mguard (chained ops) (EContract 3) ;;
  lf (require_auth e c rcpt) ;;
  h <- lf (get_hop self) ;;
  l_hop_swaps e self (h_fact h) rcpt ops amt max_spread dl max_fee.

(** ** trader/src/contract.rs *)
(** 68-100 initialize *)
Definition l_trader_initialize (e : Env) (c : option Addr) (self admin ta tb out : Addr) : LST unit :=
  lf (trader_initialize e c self admin ta tb out) ;;
  pub self "Trader: Initialize" "admin: " admin ;;
  emit self (Pub "Trader: Initialize" "contract name: " VNone) ;;
  emit self (Pub "Trader: Initialize" "pairs: " (VPair ta tb)) ;;
  pub self "Trader: Initialize" "PHO token: " out.

(** 103-171 trade_token *)
Definition l_trader_trade (e : Env) (c : option Addr) (self sender tok pool : Addr)
    (amount max_spread dl ask_min max_fee : option Z) : LST Z :=
  lf (enter self KTrader) ;;
  lf (require_auth e c sender) ;;
  d <- lf (get_trader self) ;;
  mguard (sender =? d_admin d) (EContract 6) ;;
  mguard (match max_spread with Some s => negb ((s <? 0) || (10000 <? s)) | None => true end) (EContract 8) ;;
  mguard ((tok =? d_ta d) || (tok =? d_tb d)) (EContract 7) ;;
  amt <- lf (match amount with Some a => mret a | None => tok_balance tok sender end) ;;
  r <- l_any_swap e (Some self) pool self tok amt ask_min max_spread dl max_fee ;;
  pub self "Trader: Trade Token" "user: " sender ;;
  pub self "Trader: Trade Token" "offer asset: " tok ;;
  pub self "Trader: Trade Token" "amount received: " r ;;
  mret r.

(** 173-199 transfer: publishes nothing itself *)
Definition l_trader_transfer (e : Env) (c : option Addr) (self sender rcpt amt : Z) (tok : option Addr) : LST unit :=
  lf (enter self KTrader) ;;
  lf (require_auth e c sender) ;;
  d <- lf (get_trader self) ;;
  mguard (sender =? d_admin d) (EContract 6) ;;
  l_transfer e (Some self) (match tok with Some t => t | None => d_out d end) self rcpt amt.

(** ** One transaction with its events.  The calls passed to [lf] publish nothing. *)
Definition l_drop {A} (m : LST A) : LST unit := m ;; mret tt.

Definition lexec (e : Env) (k : Call) : LST unit :=
  match k with
  | CMint t to amt => l_mint e None t to amt
  | CSetAdmin t a => l_set_admin e None t a
  | CApprove t f s amt ex => l_approve e None t f s amt ex
  | CTransfer t f to amt => l_transfer e None t f to amt
  | CTransferFrom t s f to amt => l_transfer_from e None t s f to amt
  | CBurn t f amt => l_burn e None t f amt
  | CBurnFrom t s f amt => l_burn_from e None t s f amt
  | CPoolInit p i f d s m => l_pool_initialize e p i f d s m
  | CPoolProvide p u da ma db mb cu dl => l_pool_provide e None p u da ma db mb cu dl
  | CPoolSwap p u o a mi ms dl mf => l_drop (l_pool_swap e None p u o a mi ms dl mf)
  | CPoolWithdraw p u s a b dl => l_drop (l_pool_withdraw e None p u s a b dl)
  | CStableInit p i f a m => l_stable_initialize e p i f a m
  | CStableProvide p u da db cu dl ms => l_stable_provide e None p u da db cu dl ms
  | CStableSwap p u o a mi ms dl mf => l_drop (l_stable_swap e None p u o a mi ms dl mf)
  | CStableWithdraw p u s a b dl => l_drop (l_stable_withdraw e None p u s a b dl)
  | CStakeInit k a l mb mr m o mc => l_stake_initialize k a l mb mr m o mc
  | CBond k u a => l_stake_bond e None k u a
  | CUnbond k u a t => l_stake_unbond e None k u a t
  | CFlow k u a => l_stake_create_flow e None k u a
  | CDistribute k u a t => l_stake_distribute e None k u a t
  | CWithdrawRewards k u => l_stake_withdraw_rewards e k u
  | CRewInit r a s t mc mr mb => l_rewards_initialize r a s t mc mr mb
  | CRewAddUser r u b => l_rewards_add_user e None r u b
  | CRewBond r u b => l_rewards_bond e None r u b
  | CRewUnbond r u b x => l_rewards_unbond e None r u b x
  | CRewDistribute r t => l_rewards_distribute e None r t
  | CRewWithdraw r u b => l_rewards_withdraw e None r u b
  | CRewFund r s d a => l_rewards_fund e None r s d a
  | CVestInit v a t mc m => l_vest_initialize v a t mc m
  | CVestCreate v l => l_vest_create e None v l
  | CVestClaim v u i => l_vest_claim e None v u i
  | CVestBurn v u a => l_vest_burn e None v u a
  | CVestMint v u a => l_vest_mint e None v u a
  | CVestMinter v u n => l_vest_update_minter e None v u n
  | CVestCapacity v u n => l_vest_update_capacity e None v u n
  | CFactInit f a lp sb sk tk wl d => l_fact_initialize e f a lp sb sk tk wl d
  | CCreate f u i ty amp ds mf => l_drop (l_fact_create e None f u i ty amp ds mf)
  | CHopInit h a f => l_hop_initialize h a f
  | CHopSwap h u ops ms a dl mf => l_drop (l_hop_swap e None h u ops ms a dl mf)
  | CTraderInit d a x y o => l_trader_initialize e None d a x y o
  | CTrade d u t p a ms dl mi mf => l_drop (l_trader_trade e None d u t p a ms dl mi mf)
  | CTraderTransfer d u r a t => l_trader_transfer e None d u r a t
  (* account-level deployments and setting changes: no events *)
  | CDeploy _ _ | CDeployTok _ _ _
  | CPoolConfig _ _ _ _ _ _ _ | CPoolUpdate _ _ | CPoolUpgrade _ _ _
  | CStableConfig _ _ _ _ _ _ _ | CStableUpgrade _ _
  | CStakeUpdate _ _ | CRewUpdate _ _ | CVestUpdate _ _
  | CWhitelist _ _ _ _ | CHashes _ _ _ _ | CFactUpdate _ _ _ | CHopUpdate _ _ => lf (exec e k)
  end.

(** A run with the events it published. *)
Inductive lrun (H : Addr -> Salt -> Addr) : World -> list Event -> World -> Log -> Prop :=
| lr_nil w : lrun H w [] w []
| lr_tx w e k w1 L1 l w2 L2 :
    e_hash e = H -> lexec e k (w, []) = Ok (tt, (w1, L1)) -> lrun H w1 l w2 L2 ->
    lrun H w (Tx e k :: l) w2 (L1 ++ L2)
| lr_tick w n s l w2 L :
    w_now w <= n <= U64_MAX -> w_seq w <= s <= U32_MAX -> lrun H (set_time w n s) l w2 L ->
    lrun H w (Tick n s :: l) w2 L.

Arguments lf : simpl never.
Arguments emit : simpl never.
