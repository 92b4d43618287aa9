(** Storage accesses: every entry point of System.v once more, with the ledger entries it reads,
    writes and extends recorded in order.  The host archives a persistent or instance entry whose
    time to live has run out, and a transaction that touches an archived entry fails until the
    entry is restored; contracts keep entries alive by extending them.  That the functions below
    otherwise do exactly what the model of the other files does is proved in TouchErase.v; the
    host's treatment of the record is Life.v.

    Simplifications.  A call takes effect as a whole or not at all and lasts one ledger, so the
    record keeps which entries are read, written and extended, but may list together the
    accesses of one function to its own entries.  Writing to the contract's instance storage
    goes to the one instance entry and is not recorded (the entry exists, and a write leaves its
    lifetime).  Allowances are temporary entries, modelled by their expiration in Token.v.  The
    entries of the uploaded wasm code are not modelled.  Read-only queries are no transactions. *)
From Coq Require Import ZArith List Bool.
From Verif Require Import Base FMap Decimal Curve World Token Stake Pool Stable Rewards Vest Factory Router System.
Import ListNotations.
Open Scope list_scope.
Open Scope Z_scope.

(** packages/phoenix/src/ttl.rs:2-8, contracts/token/src/storage_types.rs:3-8:
    [TP] = PERSISTENT (BALANCE) thresholds, [TI] = INSTANCE thresholds. *)
Definition DAY_IN_LEDGERS := 17280.
Inductive Ttl := TP | TI.
Definition bump_of (t : Ttl) : Z := match t with TP => 30 * DAY_IN_LEDGERS | TI => 7 * DAY_IN_LEDGERS end.
Definition threshold_of (t : Ttl) : Z := bump_of t - DAY_IN_LEDGERS.

(** The entries of a contract: [YInst] its instance entry, the others its persistent entries:
    pool/storage.rs:12-32, stake/storage.rs:13-66,110-120 and distribution.rs:11-14,
    stake_rewards/storage.rs:6-19,50-56 and distribution.rs:26-40, vesting/storage.rs:18-24,97-102,
    factory/storage.rs:6-32, multihop/storage.rs:5-12, trader/storage.rs:10-17,
    token/storage_types.rs:25-30. *)
Inductive Key :=
| YInst | YInit | YConfig | YAdmin
| YTotal | YResA | YResB | YSlip                                       (* pool *)
| YStaked | YTotHist | YDists | YHist (asset : Addr) | YUser (u : Addr) (* stake *)
| YCurve | YDistr | YAdj (u : Addr)                                    (* stake_rewards *)
| YVest (u : Addr) (i : Z)                                             (* vesting *)
| YLps | YStab | YPair (a b : Addr)                                    (* factory *)
| YName | YTPair | YTOut                                               (* trader *)
| YBal (u : Addr).                                                     (* token *)

(** [Look]: storage().get; [Has]: storage().has; [Put]: storage().set; [Bump]: extend_ttl;
    [Peek]: get and, if the entry exists, extend_ttl with [TP]. *)
Inductive Act := Look | Has | Put | Bump (t : Ttl) | Peek.
Record Touch := mkT { x_at : Addr; x_key : Key; x_act : Act }.

(** The ledger together with the accesses of the transaction so far. *)
Notation TW := (World * list Touch)%type.
Definition TST (A : Type) : Type := ST TW A.

Definition tf {A} (m : ST World A) : TST A := fun s =>
  match m (fst s) with Ok (a, w) => Ok (a, (w, snd s)) | Err x => Err x end.
Definition tnote (l : list Touch) : TST unit := fun s => Ok (tt, (fst s, snd s ++ l)).

(** env.storage().instance().extend_ttl(INSTANCE_LIFETIME_THRESHOLD, INSTANCE_BUMP_AMOUNT) *)
Definition come (c : Addr) : TST unit := tnote [mkT c YInst Look; mkT c YInst (Bump TI)].
(** the instance is loaded to run the contract, and not extended *)
Definition seen (c : Addr) : TST unit := tnote [mkT c YInst Look].
(** the instance extended with PERSISTENT_LIFETIME_THRESHOLD, PERSISTENT_BUMP_AMOUNT *)
Definition instP (c : Addr) : TST unit := tnote [mkT c YInst Look; mkT c YInst (Bump TP)].
(** get and extend / get only / set and extend / set only / get, and extend if there *)
Definition got_notes c ks := flat_map (fun k => [mkT c k Look; mkT c k (Bump TP)]) ks.
Definition got (c : Addr) (ks : list Key) : TST unit := tnote (got_notes c ks).
Definition looks (c : Addr) (ks : list Key) : TST unit := tnote (map (fun k => mkT c k Look) ks).
Definition wrote_notes c ks := flat_map (fun k => [mkT c k Put; mkT c k (Bump TP)]) ks.
Definition wrote (c : Addr) (ks : list Key) : TST unit := tnote (wrote_notes c ks).
Definition puts (c : Addr) (ks : list Key) : TST unit := tnote (map (fun k => mkT c k Put) ks).
Definition peek (c : Addr) (ks : list Key) : TST unit := tnote (map (fun k => mkT c k Peek) ks).

(** deployment writes the instance entry of the new contract *)
Definition z_deploy (a : Addr) (k : kind) : TST unit := tf (deploy a k) ;; tnote [mkT a YInst Put].

(** reading and writing entries of the contract at [a] *)
Definition z_get_pool a ks : TST Pool := x <- tf (get_pool a) ;; got a ks ;; mret x.
Definition z_put_pool a x ks : TST unit := tf (put_pool a x) ;; wrote a ks.
Definition z_put_stable a x ks : TST unit := tf (put_stable a x) ;; wrote a ks.
Definition z_get_stake a ks : TST Stake := x <- tf (get_stake a) ;; got a ks ;; mret x.
Definition z_put_stake a x ks : TST unit := tf (put_stake a x) ;; wrote a ks.
Definition z_get_rewards a ks ls : TST Rewards := x <- tf (get_rewards a) ;; got a ks ;; looks a ls ;; mret x.
Definition z_put_rewards a x ks ps : TST unit := tf (put_rewards a x) ;; wrote a ks ;; puts a ps.
Definition z_get_vest a ks : TST Vest := x <- tf (get_vest a) ;; got a ks ;; mret x.
Definition z_put_vest a x ks : TST unit := tf (put_vest a x) ;; wrote a ks.
Definition z_get_fact a ks : TST Fact := x <- tf (get_fact a) ;; got a ks ;; mret x.
Definition z_put_fact a x ks : TST unit := tf (put_fact a x) ;; wrote a ks.
Definition z_put_hop a x ks : TST unit := tf (put_hop a x) ;; wrote a ks.
Definition z_get_trader a ks : TST Trader := x <- tf (get_trader a) ;; got a ks ;; mret x.
Definition z_put_trader a x ks : TST unit := tf (put_trader a x) ;; wrote a ks.

(** ** token/src/contract.rs:26-162, balance.rs:4-35: the admin and the metadata are in the
    instance entry; read_balance and write_balance extend the balance entry; every entry point
    but the constructor and decimals extends the instance. *)
Definition z_tok_deploy (t admin dec : Z) : TST unit :=
  z_deploy t KTok ;;
  mguard ((0 <=? dec) && negb (18 <? dec)) EPanic ;;
  tf (put_tok t (mkToken admin dec fempty fempty 0 0)).
(** the balances of [us] are read, then written *)
Definition z_upd_tok (t : Addr) (f : Token -> res Token) (us : list Addr) : TST unit :=
  tf (upd_tok t f) ;;
  come t ;;
  tnote (flat_map (fun u => [mkT t (YBal u) Peek; mkT t (YBal u) Put; mkT t (YBal u) (Bump TP)]) us).
Definition z_mint (e : Env) (c : option Addr) (t to amt : Z) : TST unit :=
  mguard (nonneg amt) EPanic ;;
  k <- tf (get_tok t) ;;
  tf (require_auth e c (t_admin k)) ;;
  z_upd_tok t (fun k => let? k1 := tk_receive to amt k in Ok (tk_log_mint amt k1)) [to].
Definition z_set_admin (e : Env) (c : option Addr) (t new : Z) : TST unit :=
  k <- tf (get_tok t) ;;
  tf (require_auth e c (t_admin k)) ;;
  z_upd_tok t (fun k => Ok (tk_set_admin new k)) [].
Definition z_approve (e : Env) (c : option Addr) (t from sp amt ex : Z) : TST unit :=
  tf (require_auth e c from) ;;
  mguard (nonneg amt) EPanic ;;
  w <- tf mget ;;
  z_upd_tok t (tk_write_allowance (w_seq w) from sp amt ex) [].
Definition z_transfer (e : Env) (c : option Addr) (t from to amt : Z) : TST unit :=
  tf (require_auth e c from) ;;
  mguard (nonneg amt) EPanic ;;
  z_upd_tok t (fun k => let? k1 := tk_spend from amt k in tk_receive to amt k1) [from; to].
Definition z_transfer_from (e : Env) (c : option Addr) (t sp from to amt : Z) : TST unit :=
  tf (require_auth e c sp) ;;
  mguard (nonneg amt) EPanic ;;
  w <- tf mget ;;
  z_upd_tok t (fun k =>
    let? k0 := tk_spend_allowance (w_seq w) from sp amt k in
    let? k1 := tk_spend from amt k0 in tk_receive to amt k1) [from; to].
Definition z_burn (e : Env) (c : option Addr) (t from amt : Z) : TST unit :=
  tf (require_auth e c from) ;;
  mguard (nonneg amt) EPanic ;;
  z_upd_tok t (fun k => let? k1 := tk_spend from amt k in Ok (tk_log_burn amt k1)) [from].
Definition z_burn_from (e : Env) (c : option Addr) (t sp from amt : Z) : TST unit :=
  tf (require_auth e c sp) ;;
  mguard (nonneg amt) EPanic ;;
  w <- tf mget ;;
  z_upd_tok t (fun k =>
    let? k0 := tk_spend_allowance (w_seq w) from sp amt k in
    let? k1 := tk_spend from amt k0 in Ok (tk_log_burn amt k1)) [from].
Definition z_balance (t a : Z) : TST Z :=
  b <- tf (tok_balance t a) ;;
  come t ;;
  tnote [mkT t (YBal a) Peek] ;;
  mret b.
(** metadata is in the instance entry, which is read and not extended *)
Definition z_decimals (t : Z) : TST Z :=
  d <- tf (tok_decimals t) ;;
  seen t ;;
  mret d.

(** ** stake/src/contract.rs, storage.rs:70-230, distribution.rs:16-66.  The initialised flag is
    in the instance entry. *)
(** 81-137 initialize *)
Definition z_stake_initialize (self admin lp minbond minreward manager owner maxc : Z) : TST unit :=
  tf (enter self KStake) ;;
  w <- tf mget ;;
  mguard (negb (fmem self (w_stake w))) (EContract 1) ;;
  mguard (negb (minbond <=? 0)) (EContract 2) ;;
  mguard (negb (minreward <=? 0)) (EContract 3) ;;
  mguard (negb (maxc =? 0)) (EContract 12) ;;
  instP self ;;
  z_put_stake self (mkStake lp minbond minreward manager owner maxc admin 0 fempty fempty [] fempty)
    [YConfig; YAdmin; YStaked; YTotHist].
(** 139-174 bond *)
Definition z_stake_bond (e : Env) (c : option Addr) (self sender tokens : Z) : TST unit :=
  tf (enter self KStake) ;;
  come self ;;
  tf (require_auth e c sender) ;;
  s <- z_get_stake self [YConfig; YStaked] ;;
  peek self [YUser sender] ;;
  mguard (negb (tokens <? s_minbond s)) (EContract 4) ;;
  z_transfer e (Some self) (s_lp s) sender self tokens ;;
  t <- tf now ;;
  let b := s_user s sender in
  tot <- mlift (add_i (b_total b) tokens) ;;
  let b' := mkBonding (b_stakes b ++ [mkStakeE tokens t]) (b_last b) tot in
  all <- mlift (add_i (s_total s) tokens) ;;
  z_put_stake self (set_s_total (set_s_users s (fset sender b' (s_users s))) all) [YUser sender; YStaked].

(** 176-199 unbond *)
Definition z_stake_unbond (e : Env) (c : option Addr) (self sender amt ts : Z) : TST unit :=
  tf (enter self KStake) ;;
  come self ;;
  tf (require_auth e c sender) ;;
  s <- z_get_stake self [YConfig; YStaked] ;;
  peek self [YUser sender] ;;
  let b := s_user s sender in
  l <- mlift (remove_stake (b_stakes b) amt ts) ;;
  tot <- mlift (sub_i (b_total b) amt) ;;
  z_transfer e (Some self) (s_lp s) self sender amt ;;
  all <- mlift (sub_i (s_total s) amt) ;;
  z_put_stake self (set_s_total (set_s_users s (fset sender (mkBonding l (b_last b) tot) (s_users s))) all) [YUser sender; YStaked].

(** 201-218 create_distribution_flow *)
Definition z_stake_create_flow (e : Env) (c : option Addr) (self sender asset : Z) : TST unit :=
  tf (enter self KStake) ;;
  come self ;;
  tf (require_auth e c sender) ;;
  s <- z_get_stake self [YConfig] ;;
  peek self [YDists] ;;
  mguard ((sender =? s_manager s) || (sender =? s_owner s)) (EContract 5) ;;
  mguard (negb (zmem asset (s_dists s))) (EContract 10) ;;
  z_put_stake self (set_s_dists s (s_dists s ++ [asset]) (fset asset fempty (s_rh s))) [YDists; YHist asset].

(** 220-260 distribute_rewards *)
Definition z_stake_distribute (e : Env) (c : option Addr) (self sender amt token : Z) : TST unit :=
  tf (enter self KStake) ;;
  come self ;;
  tf (require_auth e c sender) ;;
  s <- z_get_stake self [YConfig; YStaked; YTotHist] ;;
  peek self [YDists] ;;
  mguard ((sender =? s_manager s) || (sender =? s_owner s)) (EContract 5) ;;
  mguard (zmem token (s_dists s)) (EContract 13) ;;
  t <- tf now ;;
  h <- mlift (of_option (fget token (s_rh s)) EPanic) ;;
  tnote [mkT self (YHist token) Look] ;;
  z_put_stake self (set_s_hist s (fset t (as_u128 (s_total s)) (s_tsh s))
                               (fset token (fset t (as_u128 amt) h) (s_rh s))) [YTotHist; YHist token] ;;
  z_transfer e (Some self) token sender self amt.

(** 262-284 withdraw_rewards: demands nothing but its own transfers *)
Fixpoint z_pay_rewards (e : Env) (self sender : Addr) (s : Stake) (t : Z) (b : Bonding)
    (assets : list Addr) : TST unit :=
  match assets with
  | [] => mret tt
  | a :: tl =>
      p <- mlift (pending_rewards s t a b) ;;
      got self [YHist a; YTotHist] ;;
      z_transfer e (Some self) a self sender p ;;
      z_pay_rewards e self sender s t b tl
  end.
Definition z_stake_withdraw_rewards (e : Env) (self sender : Addr) : TST unit :=
  tf (enter self KStake) ;;
  come self ;;
  s <- z_get_stake self [] ;;
  peek self [YUser sender; YDists] ;;
  t <- tf now ;;
  let b := s_user s sender in
  z_pay_rewards e self sender s t b (s_dists s) ;;
  z_put_stake self (set_s_users s (fset sender (mkBonding (b_stakes b) t (b_total b)) (s_users s))) [YUser sender].

(** ** pool/src/contract.rs, storage.rs:50-330 *)
Definition z_deploy_share (e : Env) (self ta tb dec : Z) : TST Addr :=
  let t := e_hash e self (SPair ta tb) in
  mguard (negb (t =? ta) && negb (t =? tb)) EHost ;;
  z_tok_deploy t self dec ;;
  mret t.
Definition z_deploy_stake_of (e : Env) (self admin share minbond minreward manager owner maxc : Z) : TST Addr :=
  let k := e_hash e self SEmpty in
  z_deploy k KStake ;;
  z_stake_initialize k admin share minbond minreward manager owner maxc ;;
  mret k.
(** 146-266 initialize: reads and sets the flag; the instance is not extended *)
Definition z_pool_initialize (e : Env) (self : Addr) (i : PoolInit) (factory dec defslip maxfee : Z) : TST unit :=
  tf (enter self KPool) ;;
  seen self ;;
  tnote [mkT self YInit Look] ;;
  w <- tf mget ;;
  mguard (negb (fmem self (w_pool w))) (EContract 17) ;;
  mguard (vbps (i_fee i) && vbps (i_maxslip i) && vbps (i_maxspread i) && vbps (i_maxref i)
          && vbps defslip && vbps maxfee) EPanic ;;
  mguard (negb (maxfee <? i_fee i)) (EContract 25) ;;
  mguard (negb (i_tb i <=? i_ta i)) (EContract 18) ;;
  share <- z_deploy_share e self (i_ta i) (i_tb i) dec ;;
  stk <- z_deploy_stake_of e self (i_admin i) share (i_minbond i) (i_minreward i) (i_manager i) factory (i_maxc i) ;;
  z_put_pool self (mkPool (i_ta i) (i_tb i) share stk (i_fee i) (i_feerec i) (i_maxslip i) (i_maxspread i)
                        (i_maxref i) defslip (i_admin i) 0 0 0)
    [YInit; YConfig; YSlip; YAdmin; YTotal; YResA; YResB].
(** storage.rs:252-266 *)
Definition z_mint_shares (e : Env) (self to amt : Z) : TST unit :=
  p <- z_get_pool self [YTotal] ;;
  z_mint e (Some self) (p_share p) to amt ;;
  t <- mlift (add_i (p_total p) amt) ;;
  z_put_pool self (set_p_total p t) [YTotal].
Definition z_burn_shares (e : Env) (self amt : Z) : TST unit :=
  p <- z_get_pool self [YTotal] ;;
  z_burn e (Some self) (p_share p) self amt ;;
  t <- mlift (sub_i (p_total p) amt) ;;
  z_put_pool self (set_p_total p t) [YTotal].

(** 346-372 *)
Definition z_new_share_total (e : Env) (self a b bala balb : Z) (p : Pool) : TST Z :=
  if (0 <? p_ra p) && (0 <? p_rb p) then
    m1 <- mlift (mul_i bala (p_total p)) ;;
    sa <- mlift (div_i m1 (p_ra p)) ;;
    m2 <- mlift (mul_i balb (p_total p)) ;;
    sb <- mlift (div_i m2 (p_rb p)) ;;
    mret (Z.min sa sb)
  else
    m <- mlift (mul_i a b) ;;
    mguard (negb (m <? 0)) EPanic ;;
    let s := Z.sqrt m in
    mguard (negb (s <=? MINIMUM_LIQUIDITY_AMOUNT)) (EContract 13) ;;
    z_mint_shares e self self MINIMUM_LIQUIDITY_AMOUNT ;;
    mlift (sub_i s MINIMUM_LIQUIDITY_AMOUNT).

(** 268-408 provide_liquidity *)
Definition z_pool_provide (e : Env) (c : option Addr) (self sender : Addr)
    (da mina db minb custom dl : option Z) : TST unit :=
  tf (enter self KPool) ;;
  come self ;;
  tf (check_deadline 22 dl) ;;
  mguard (vpos da && vpos mina && vpos db && vpos minb) EPanic ;;
  tf (require_auth e c sender) ;;
  p <- z_get_pool self [YConfig; YResA; YResB; YSlip; YTotal] ;;
  mguard (match custom with Some s => negb (p_maxslip p <? s) | None => true end) (EContract 2) ;;
  ' (a, b) <- mlift (match da, db with
                    | Some x, Some y =>
                        if (0 <? x) && (0 <? y) then
                          deposit_amounts x mina y minb (p_ra p) (p_rb p)
                            (dec_bps (match custom with Some s => s | None => p_defslip p end))
                        else Err (EContract 3)
                    | _, _ => Err (EContract 3)
                    end) ;;
  ia <- z_balance (p_ta p) self ;;
  ib <- z_balance (p_tb p) self ;;
  z_transfer e (Some self) (p_ta p) sender self a ;;
  z_transfer e (Some self) (p_tb p) sender self b ;;
  fa <- z_balance (p_ta p) self ;;
  fb <- z_balance (p_tb p) self ;;
  ga <- mlift (sub_i fa ia) ;;
  gb <- mlift (sub_i fb ib) ;;
  n <- z_new_share_total e self a b fa fb p ;;
  d <- mlift (sub_i n (p_total p)) ;;
  z_mint_shares e self sender d ;;
  p' <- tf (get_pool self) ;;
  z_put_pool self (set_p_res p' fa fb) [YResA; YResB].

(** 788-962 do_swap *)
Definition z_do_swap (e : Env) (self sender offer amt : Z) (ask_min max_spread max_fee : option Z) : TST Z :=
  p <- z_get_pool self [YConfig; YResA; YResB] ;;
  mguard (match max_fee with Some f => negb (f <? p_fee p) | None => true end) (EContract 24) ;;
  mguard (match max_spread with Some s => (0 <=? s) && (s <=? p_maxspread p) | None => true end) (EContract 19) ;;
  let ms := dec_bps (match max_spread with Some s => s | None => p_maxspread p end) in
  mguard ((offer =? p_ta p) || (offer =? p_tb p)) (EContract 16) ;;
  let is_a := offer =? p_ta p in
  let '(rs, rb) := if is_a then (p_ra p, p_rb p) else (p_rb p, p_ra p) in
  r <- mlift (compute_swap rs rb amt (dec_bps (p_fee p)) 0) ;;
  mguard (match ask_min with Some m => negb (cs_ret r <? m) | None => true end) (EContract 21) ;;
  t1 <- mlift (add_i (cs_ret r) (cs_comm r)) ;;
  tot <- mlift (add_i t1 (cs_ref r)) ;;
  mlift (assert_max_spread ms tot (cs_spread r)) ;;
  let '(sell, buy) := if is_a then (p_ta p, p_tb p) else (p_tb p, p_ta p) in
  before <- z_balance sell self ;;
  z_transfer e (Some self) sell sender self amt ;;
  after <- z_balance sell self ;;
  recv <- mlift (sub_i after before) ;;
  z_transfer e (Some self) buy self sender (cs_ret r) ;;
  z_transfer e (Some self) buy self (p_feerec p) (cs_comm r) ;;
  ns <- mlift (add_i rs recv) ;;
  n1 <- mlift (sub_i rb (cs_comm r)) ;;
  n2 <- mlift (sub_i n1 (cs_ref r)) ;;
  nb <- mlift (sub_i n2 (cs_ret r)) ;;
  z_put_pool self (if is_a then set_p_res p ns nb else set_p_res p nb ns) [YResA; YResB] ;;
  mret (cs_ret r).

(** 411-448 swap *)
Definition z_pool_swap (e : Env) (c : option Addr) (self sender offer amt : Z)
    (ask_min max_spread dl max_fee : option Z) : TST Z :=
  tf (enter self KPool) ;;
  come self ;;
  tf (check_deadline 22 dl) ;;
  mguard (vpos (Some amt)) EPanic ;;
  tf (require_auth e c sender) ;;
  z_do_swap e self sender offer amt ask_min max_spread max_fee.

(** 450-537 withdraw_liquidity *)
Definition z_pool_withdraw (e : Env) (c : option Addr) (self sender share mina minb : Z) (dl : option Z) : TST (Z * Z) :=
  tf (enter self KPool) ;;
  come self ;;
  tf (check_deadline 22 dl) ;;
  mguard (vpos (Some share) && vpos (Some mina) && vpos (Some minb)) EPanic ;;
  tf (require_auth e c sender) ;;
  p <- z_get_pool self [YConfig; YResA; YResB; YTotal] ;;
  z_transfer e (Some self) (p_share p) sender self share ;;
  mguard (negb (p_total p =? 0)) (EContract 13) ;;
  ratio <- mlift (dec_from_ratio share (p_total p)) ;;
  a <- mlift (i_mul_dec (p_ra p) ratio) ;;
  b <- mlift (i_mul_dec (p_rb p) ratio) ;;
  mguard (negb ((a <? mina) || (b <? minb))) (EContract 4) ;;
  z_burn_shares e self share ;;
  z_transfer e (Some self) (p_ta p) self sender a ;;
  z_transfer e (Some self) (p_tb p) self sender b ;;
  na <- mlift (sub_i (p_ra p) a) ;;
  nb <- mlift (sub_i (p_rb p) b) ;;
  p' <- tf (get_pool self) ;;
  z_put_pool self (set_p_res p' na nb) [YResA; YResB] ;;
  mret (a, b).

(** ** pool_stable/src/contract.rs, storage.rs:70-360.  Everything but the initialised flag is in
    the instance entry; get_config, get_amp, get_precisions, get_admin and get_pool_balance_b
    extend it like persistent entries, the others like instances. *)
(** 146-273 initialize *)
Definition z_stable_initialize (e : Env) (self : Addr) (i : PoolInit) (factory amp maxfee : Z) : TST unit :=
  tf (enter self KStable) ;;
  instP self ;;
  tnote [mkT self YInit Look] ;;
  w <- tf mget ;;
  mguard (negb (fmem self (w_stable w))) (EContract 7) ;;
  mguard (vbps (i_fee i) && vbps (i_maxslip i) && vbps (i_maxspread i) && vbps (i_defslip i) && vbps maxfee) EPanic ;;
  mguard (negb (maxfee <? i_fee i)) (EContract 22) ;;
  mguard (negb (i_tb i <=? i_ta i)) (EContract 8) ;;
  pa <- z_decimals (i_ta i) ;;
  pb <- z_decimals (i_tb i) ;;
  let prec := if pb <? pa then pa else pb in
  share <- z_deploy_share e self (i_ta i) (i_tb i) prec ;;
  stk <- z_deploy_stake_of e self (i_admin i) share (i_minbond i) (i_minreward i) (i_manager i) factory (i_maxc i) ;;
  t <- tf now ;;
  mguard (negb ((amp =? 0) || (MAX_AMP <? amp))) (EContract 18) ;;
  a <- mlift (mul_64 amp AMP_PRECISION) ;;
  z_put_stable self (mkStable (i_ta i) (i_tb i) share stk (i_fee i) (i_feerec i) (i_maxslip i) (i_defslip i)
    (i_maxspread i) (i_admin i) a t a t prec pa pb 0 0 0) [YInit].
(** storage.rs:279-293 *)
Definition z_stable_mint_shares (e : Env) (self to amt : Z) : TST unit :=
  p <- tf (get_stable self) ;;
  z_mint e (Some self) (l_share p) to amt ;;
  t <- mlift (add_i (l_total p) amt) ;;
  z_put_stable self (set_l_total p t) [].
Definition z_stable_burn_shares (e : Env) (self amt : Z) : TST unit :=
  p <- tf (get_stable self) ;;
  z_burn e (Some self) (l_share p) self amt ;;
  t <- mlift (sub_i (l_total p) amt) ;;
  z_put_stable self (set_l_total p t) [].

(** 275-434 provide_liquidity *)
Definition z_stable_provide (e : Env) (c : option Addr) (self sender da db : Z)
    (custom dl min_shares : option Z) : TST unit :=
  tf (enter self KStable) ;;
  come self ;;
  instP self ;;
  tf (check_deadline 19 dl) ;;
  mguard (vpos (Some da) && vpos (Some db)) EPanic ;;
  tf (require_auth e c sender) ;;
  p <- tf (get_stable self) ;;
  mguard (negb (l_maxslip p <? match custom with Some s => s | None => l_defslip p end)) (EContract 2) ;;
  t <- tf now ;;
  amp <- mlift (amp_of p t) ;;
  deca <- z_decimals (l_ta p) ;;
  decb <- z_decimals (l_tb p) ;;
  ba0 <- z_balance (l_ta p) self ;;
  bb0 <- z_balance (l_tb p) self ;;
  z_transfer e (Some self) (l_ta p) sender self da ;;
  z_transfer e (Some self) (l_tb p) sender self db ;;
  ba1 <- z_balance (l_ta p) self ;;
  bb1 <- z_balance (l_tb p) self ;;
  ra <- mlift (sub_i ba1 ba0) ;;
  rb <- mlift (sub_i bb1 bb0) ;;
  na <- mlift (add_i ra (l_ra p)) ;;
  nb <- mlift (add_i rb (l_rb p)) ;;
  ua <- mlift (i2u na) ;;
  ub <- mlift (i2u nb) ;;
  newd <- mlift (invariant_of amp ua ub deca decb) ;;
  s <- mlift (stable_shares p amp newd deca decb) ;;
  mguard (match min_shares with Some m => negb (s <? m) | None => true end) (EContract 21) ;;
  ba <- z_balance (l_ta p) self ;;
  bb <- z_balance (l_tb p) self ;;
  si <- mlift (u2i s) ;;
  z_stable_mint_shares e self sender si ;;
  p' <- tf (get_stable self) ;;
  z_put_stable self (set_l_res p' ba bb) [].

(** 832-978 do_swap *)
Definition z_stable_do_swap (e : Env) (self sender offer amt : Z) (ask_min max_spread max_fee : option Z) : TST Z :=
  p <- tf (get_stable self) ;;
  mguard (match max_fee with Some f => negb (f <? l_fee p) | None => true end) (EContract 23) ;;
  mguard ((offer =? l_ta p) || (offer =? l_tb p)) (EContract 12) ;;
  mguard (match max_spread with Some s => (0 <=? s) && (s <=? l_maxspread p) | None => true end) (EContract 9) ;;
  let ms := dec_bps (match max_spread with Some s => s | None => l_maxspread p end) in
  let is_a := offer =? l_ta p in
  let '(rs, rb) := if is_a then (l_ra p, l_rb p) else (l_rb p, l_ra p) in
  let '(ps, pb) := if is_a then (l_preca p, l_precb p) else (l_precb p, l_preca p) in
  t <- tf now ;;
  us <- mlift (i2u rs) ;;
  ub <- mlift (i2u rb) ;;
  ux <- mlift (i2u amt) ;;
  amp <- mlift (amp_of p t) ;;
  ' (ret, spread, comm) <- mlift (stable_compute_swap amp (l_prec p) us ps ub pb ux (dec_bps (l_fee p))) ;;
  mguard (match ask_min with Some m => negb (ret <? m) | None => true end) (EContract 15) ;;
  tot <- mlift (add_i ret comm) ;;
  mlift (assert_max_spread ms tot spread) ;;
  let '(sell, buy) := if is_a then (l_ta p, l_tb p) else (l_tb p, l_ta p) in
  before <- z_balance sell self ;;
  z_transfer e (Some self) sell sender self amt ;;
  after <- z_balance sell self ;;
  recv <- mlift (sub_i after before) ;;
  z_transfer e (Some self) buy self sender ret ;;
  z_transfer e (Some self) buy self (l_feerec p) comm ;;
  ns <- mlift (add_i rs recv) ;;
  n1 <- mlift (sub_i rb comm) ;;
  nb <- mlift (sub_i n1 ret) ;;
  z_put_stable self (if is_a then set_l_res p ns nb else set_l_res p nb ns) [] ;;
  mret ret.

(** 437-473 swap *)
Definition z_stable_swap (e : Env) (c : option Addr) (self sender offer amt : Z)
    (ask_min max_spread dl max_fee : option Z) : TST Z :=
  tf (enter self KStable) ;;
  come self ;;
  instP self ;;
  tf (check_deadline 19 dl) ;;
  mguard (vpos (Some amt)) EPanic ;;
  tf (require_auth e c sender) ;;
  z_stable_do_swap e self sender offer amt ask_min max_spread max_fee.

(** 475-562 withdraw_liquidity *)
Definition z_stable_withdraw (e : Env) (c : option Addr) (self sender share mina minb : Z) (dl : option Z) : TST (Z * Z) :=
  tf (enter self KStable) ;;
  come self ;;
  instP self ;;
  tf (check_deadline 19 dl) ;;
  mguard (vpos (Some share) && vpos (Some mina) && vpos (Some minb)) EPanic ;;
  tf (require_auth e c sender) ;;
  p <- tf (get_stable self) ;;
  z_transfer e (Some self) (l_share p) sender self share ;;
  mguard (negb (l_total p =? 0)) (EContract 5) ;;
  ratio <- mlift (dec_from_ratio share (l_total p)) ;;
  a <- mlift (i_mul_dec (l_ra p) ratio) ;;
  b <- mlift (i_mul_dec (l_rb p) ratio) ;;
  mguard (negb ((a <? mina) || (b <? minb))) (EContract 3) ;;
  z_stable_burn_shares e self share ;;
  z_transfer e (Some self) (l_ta p) self sender a ;;
  z_transfer e (Some self) (l_tb p) self sender b ;;
  na <- mlift (sub_i (l_ra p) a) ;;
  nb <- mlift (sub_i (l_rb p) b) ;;
  p' <- tf (get_stable self) ;;
  z_put_stable self (set_l_res p' na nb) [] ;;
  mret (a, b).

(** ** stake_rewards/src/contract.rs, storage.rs:20-95, distribution.rs:42-163.  The reward curve,
    the distribution and the withdraw adjustments are persistent entries that the contract never
    extends. *)
(** 83-134 initialize: the instance is not extended *)
Definition z_rewards_initialize (self admin staking token maxc minreward minbond : Z) : TST unit :=
  tf (enter self KRewards) ;;
  seen self ;;
  tnote [mkT self YInit Look] ;;
  w <- tf mget ;;
  mguard (negb (fmem self (w_rewards w))) (EContract 1) ;;
  z_put_rewards self (mkRewards staking token maxc minreward minbond admin 1 0 0 0 (Constant 0) fempty)
    [YInit; YConfig; YAdmin] [YDistr; YCurve].
(** distribution.rs:85-118 update_rewards *)
Definition z_update_rewards (self : Addr) (r : Rewards) (u : Addr) (p0 p1 : Z) : TST unit :=
  r' <- mlift (update_rewards r u p0 p1) ;;
  looks self (if p0 =? p1 then [] else [YAdj u]) ;;
  z_put_rewards self r' [] (if p0 =? p1 then [] else [YAdj u]).
(** 136-156, 158-186 *)
Definition z_rewards_add_user (e : Env) (c : option Addr) (self user : Addr) (b : Bonding) : TST unit :=
  tf (enter self KRewards) ;;
  come self ;;
  r <- z_get_rewards self [YConfig] [YDistr] ;;
  tf (require_auth e c (r_staking r)) ;;
  p <- mlift (calc_power r (b_total b)) ;;
  z_update_rewards self r user 0 p.
Definition z_rewards_bond (e : Env) (c : option Addr) (self sender : Addr) (b : Bonding) : TST unit :=
  tf (enter self KRewards) ;;
  come self ;;
  r <- z_get_rewards self [YConfig] [YDistr] ;;
  tf (require_auth e c (r_staking r)) ;;
  k <- mlift (match rev (b_stakes b) with k :: _ => Ok k | [] => Err EPanic end) ;;
  p0 <- mlift (calc_power r (b_total b)) ;;
  t <- mlift (add_i (b_total b) (k_amt k)) ;;
  p1 <- mlift (calc_power r t) ;;
  z_update_rewards self r sender p0 p1.

(** 290-334 withdraw_rewards *)
Definition z_rewards_withdraw (e : Env) (c : option Addr) (self sender : Addr) (b : Bonding) : TST unit :=
  tf (enter self KRewards) ;;
  come self ;;
  r <- z_get_rewards self [YConfig] [YDistr] ;;
  looks self [YAdj sender] ;;
  tf (require_auth e c (r_staking r)) ;;
  t <- tf now ;;
  amt <- mlift (reward_now r t sender b) ;;
  if amt =? 0 then mret tt
  else
    let '(corr, wd) := r_adj_of r sender in
    wd' <- mlift (add_u wd (as_u128 amt)) ;;
    wt <- mlift (sub_u (r_wdr r) (as_u128 amt)) ;;
    z_put_rewards self (set_r_adj (set_r_dist r (r_spp r) (r_left r) (r_dist r) wt) sender (corr, wd')) [] [YDistr; YAdj sender] ;;
    z_transfer e (Some self) (r_token r) self sender amt.

(** 188-225 calculate_unbond *)
Definition z_rewards_unbond (e : Env) (c : option Addr) (self sender : Addr) (b : Bonding) (removed : Z) : TST unit :=
  tf (enter self KRewards) ;;
  come self ;;
  tf (require_auth e c sender) ;;
  r <- z_get_rewards self [YConfig] [YDistr] ;;
  tf (require_auth e c (r_staking r)) ;;
  looks self [YAdj sender] ;;
  found <- tf (rewards_query self sender b) ;;
  (if found =? 0 then mret tt else z_rewards_withdraw e c self sender b) ;;
  r1 <- tf (get_rewards self) ;;
  p0 <- mlift (calc_power r1 (b_total b)) ;;
  t <- mlift (sub_i (b_total b) removed) ;;
  p1 <- mlift (calc_power r1 t) ;;
  z_update_rewards self r1 sender p0 p1.

(** 227-288 distribute_rewards *)
Definition z_rewards_distribute (e : Env) (c : option Addr) (self total_staked : Z) : TST unit :=
  tf (enter self KRewards) ;;
  come self ;;
  r <- z_get_rewards self [YConfig] [] ;;
  tf (require_auth e c (r_staking r)) ;;
  pi <- mlift (calc_power r total_staked) ;;
  power <- mlift (i2u pi) ;;
  if power =? 0 then mret tt
  else
    looks self [YDistr; YCurve] ;;
    bal <- z_balance (r_token r) self ;;
    u <- mlift (i2u bal) ;;
    t <- tf now ;;
    locked <- mlift (cvalue (r_curve r) t) ;;
    a1 <- mlift (sub_u u (r_wdr r)) ;;
    amount <- mlift (sub_u a1 locked) ;;
    if amount =? 0 then mret tt
    else
      points <- mlift (add_u (shl_u128 amount SHARES_SHIFT) (r_left r)) ;;
      spp <- mlift (add_u (r_spp r) (points / power)) ;;
      dist <- mlift (add_u (r_dist r) amount) ;;
      wdr <- mlift (add_u (r_wdr r) amount) ;;
      z_put_rewards self (set_r_dist r spp (as_u64 (points mod power)) dist wdr) [] [YDistr].

(** 336-428 fund_distribution *)
Definition z_rewards_fund (e : Env) (c : option Addr) (self start duration amount : Z) : TST unit :=
  tf (enter self KRewards) ;;
  come self ;;
  r <- z_get_rewards self [YConfig; YAdmin] [YCurve] ;;
  tf (require_auth e c (r_admin r)) ;;
  tf (require_auth e c (r_staking r)) ;;
  t <- tf now ;;
  mguard (negb (start <? t)) (EContract 9) ;;
  mguard (negb (amount <? r_minreward r)) (EContract 6) ;;
  z_transfer e (Some self) (r_token r) (r_admin r) self amount ;;
  fin <- mlift (add_64 t duration) ;;
  ua <- mlift (i2u amount) ;;
  let nc := SatLin start ua fin 0 in
  let '(mn, mx) := crange nc in
  mguard (negb (negb (mn =? 0) || (ua <? mx))) (EContract 7) ;;
  c' <- mlift (match cend (r_curve r) with
              | Some x => if x <? t then Ok nc else
                  let? k := combine (r_curve r) nc in
                  match validate_complexity k (r_maxc r) with None => Ok k | Some _ => Err (EContract 12) end
              | None =>
                  let? k := combine (r_curve r) nc in
                  match validate_complexity k (r_maxc r) with None => Ok k | Some _ => Err (EContract 12) end
              end) ;;
  z_put_rewards self (set_r_curve r c') [] [YCurve].

(** ** vesting/src/contract.rs, storage.rs:72-269.  The token info, the minter, the complexity
    and the initialised flag are in the instance entry, which is extended like a persistent one. *)
(** 84-149 initialize *)
Definition z_vest_initialize (self admin token maxc : Z) (minter : option (Addr * Z)) : TST unit :=
  tf (enter self KVest) ;;
  w <- tf mget ;;
  mguard (negb (fmem self (w_vest w))) (EContract 31) ;;
  instP self ;;
  z_put_vest self (mkVest admin token maxc minter fempty) [YAdmin].
(** storage.rs:106-127 save_vesting, for every recipient: [has] on the indices from 0 up to the
    first free one, which is then written *)
Fixpoint indices (n : nat) (i : Z) : list Z := match n with O => [] | S m => i :: indices m (i + 1) end.
Definition free_index (v : Vest) (u : Addr) : Z := first_free (S (length (v_entries v u))) 0 (v_entries v u).
Definition saved (v : Vest) (u : Addr) (c : curve) : Vest :=
  save_vesting u (mkVInfo (match validate_schedule c with Ok amt => amt | Err _ => 0 end) u c) v.
Fixpoint asked (v : Vest) (l : list (Addr * curve)) : list Key :=
  match l with
  | [] => []
  | (u, c) :: tl =>
      map (YVest u) (indices (S (Z.to_nat (free_index v u))) 0) ++
      asked (saved v u c) tl
  end.
Fixpoint created (v : Vest) (l : list (Addr * curve)) : list Key :=
  match l with
  | [] => []
  | (u, c) :: tl => YVest u (free_index v u) :: created (saved v u c) tl
  end.
(** 151-214 create_vesting_schedules *)
Definition z_vest_create (e : Env) (c : option Addr) (self : Addr) (l : list (Addr * curve)) : TST unit :=
  tf (enter self KVest) ;;
  come self ;;
  instP self ;;
  mguard (forallb (fun x => typed_curve (snd x)) l) EHost ;;
  v <- z_get_vest self [YAdmin] ;;
  tf (require_auth e c (v_admin v)) ;;
  mguard (negb (match l with [] => true | _ => false end)) (EContract 7) ;;
  mguard (no_dup (map fst l)) (EContract 19) ;;
  ' (v', tot) <- mlift (create_all v l 0) ;;
  bal <- z_balance (v_token v) (v_admin v) ;;
  ti <- mlift (u2i tot) ;;
  mguard (negb (bal <? ti)) (EContract 25) ;;
  tnote (map (fun k => mkT self k Has) (asked v l)) ;;
  z_put_vest self v' (created v l) ;;
  z_transfer e (Some self) (v_token v) (v_admin v) self ti.

(** 216-265 claim *)
Definition z_vest_claim (e : Env) (c : option Addr) (self sender i : Addr) : TST unit :=
  tf (enter self KVest) ;;
  come self ;;
  instP self ;;
  tf (require_auth e c sender) ;;
  v <- tf (get_vest self) ;;
  t <- tf now ;;
  av <- mlift (available v t sender i) ;;
  mguard (negb (av <=? 0)) (EContract 14) ;;
  x <- mlift (v_get v sender i) ;;
  locked <- mlift (cvalue (vi_sched x) t) ;;
  mguard (negb (vi_bal x <? locked)) (EContract 26) ;;
  ua <- mlift (i2u av) ;;
  mguard (negb (vi_bal x - locked <? ua)) (EContract 11) ;;
  nb <- mlift (sub_u (vi_bal x) ua) ;;
  got self [YVest sender i] ;;
  z_put_vest self (v_put v sender i (mkVInfo nb (vi_rcpt x) (vi_sched x))) [YVest sender i] ;;
  z_transfer e (Some self) (v_token v) self sender av.

(** 268-285 burn *)
Definition z_vest_burn (e : Env) (c : option Addr) (self sender amt : Z) : TST unit :=
  tf (enter self KVest) ;;
  come self ;;
  instP self ;;
  tf (require_auth e c sender) ;;
  mguard (negb (amt =? 0)) (EContract 16) ;;
  v <- tf (get_vest self) ;;
  z_burn e (Some self) (v_token v) sender (wrap_i128 amt).

(** 288-340 mint *)
Definition z_vest_mint (e : Env) (c : option Addr) (self sender amt : Z) : TST unit :=
  tf (enter self KVest) ;;
  come self ;;
  instP self ;;
  tf (require_auth e c sender) ;;
  mguard (negb (amt <=? 0)) (EContract 17) ;;
  v <- tf (get_vest self) ;;
  m <- mlift (of_option (v_minter v) (EContract 3)) ;;
  mguard (sender =? fst m) (EContract 13) ;;
  ua <- mlift (i2u amt) ;;
  mguard (negb (snd m <? ua)) (EContract 12) ;;
  z_mint e (Some self) (v_token v) self amt ;;
  z_put_vest self (set_v_minter v (Some (fst m, snd m - ua))) [].

(** 343-376, 379-410 *)
Definition z_vest_update_minter (e : Env) (c : option Addr) (self sender new : Addr) : TST unit :=
  tf (enter self KVest) ;;
  come self ;;
  instP self ;;
  tf (require_auth e c sender) ;;
  v <- z_get_vest self [] ;;
  (match v_minter v with Some _ => mret tt | None => got self [YAdmin] end) ;;
  mguard (match v_minter v with Some m => sender =? fst m | None => sender =? v_admin v end) (EContract 13) ;;
  z_put_vest self (set_v_minter v (Some (new, match v_minter v with Some m => snd m | None => 0 end))) [].
Definition z_vest_update_capacity (e : Env) (c : option Addr) (self sender cap : Z) : TST unit :=
  tf (enter self KVest) ;;
  come self ;;
  instP self ;;
  tf (require_auth e c sender) ;;
  v <- z_get_vest self [YAdmin] ;;
  mguard (sender =? v_admin v) (EContract 13) ;;
  m <- mlift (of_option (v_minter v) (EContract 3)) ;;
  z_put_vest self (set_v_minter v (Some (fst m, cap))) [].

(** ** factory/src/contract.rs, storage.rs:47-223 and multihop/src/contract.rs, storage.rs:70-128 *)
(** multihop 61-78 initialize; admin and factory are in the instance entry *)
Definition z_hop_initialize (self admin factory : Addr) : TST unit :=
  tf (enter self KHop) ;;
  instP self ;;
  tnote [mkT self YInit Look] ;;
  w <- tf mget ;;
  mguard (negb (fmem self (w_hop w))) (EContract 1) ;;
  z_put_hop self (mkHop admin factory) [YInit].
(** factory 91-138 initialize: the instance is not extended *)
Definition z_fact_initialize (e : Env) (self admin lph stabh stakeh tokh : Z) (white : list Addr) (lpdec : Z) : TST unit :=
  tf (enter self KFact) ;;
  seen self ;;
  tnote [mkT self YInit Look] ;;
  w <- tf mget ;;
  mguard (negb (fmem self (w_fact w))) (EContract 1) ;;
  mguard (negb (match white with [] => true | _ => false end)) (EContract 2) ;;
  let h := e_hash e self (SOne admin) in
  z_deploy h KHop ;;
  z_hop_initialize h admin self ;;
  z_put_fact self (mkFact admin h lph stakeh tokh stabh white lpdec [] fempty) [YInit; YConfig; YStab; YLps].
(** 141-235 create_liquidity_pool *)
Definition z_fact_create (e : Env) (c : option Addr) (self sender : Addr) (i : PoolInit) (ty : PoolType)
    (amp : option Z) (defslip maxfee : Z) : TST Addr :=
  tf (enter self KFact) ;;
  come self ;;
  tf (require_auth e c sender) ;;
  mguard (match ty, amp with StableT, None => false | _, _ => true end) EPanic ;;
  f <- z_get_fact self (match ty with Xyk => [YConfig; YLps] | StableT => [YConfig; YStab; YLps] end) ;;
  mguard (zmem sender (f_white f)) (EContract 3) ;;
  mguard (negb (i_tb i <=? i_ta i)) (EContract 5) ;;
  mguard (negb (i_minbond i <=? 0)) (EContract 6) ;;
  mguard (negb (i_minreward i <=? 0)) (EContract 7) ;;
  let p := e_hash e self (SPair (i_ta i) (i_tb i)) in
  z_deploy p (match ty with Xyk => KPool | StableT => KStable end) ;;
  mguard (vbps (i_fee i) && vbps (i_maxslip i) && vbps (i_maxspread i) && vbps (i_maxref i)
          && vbps defslip && vbps maxfee) EPanic ;;
  (match ty with
   | Xyk => z_pool_initialize e p i self (f_lpdec f) defslip maxfee
   | StableT => z_stable_initialize e p i self (match amp with Some a => a | None => 0 end) maxfee
   end) ;;
  z_put_fact self (set_f_reg f (f_lps f ++ [p]) (pair_set f (i_ta i) (i_tb i) p)) [YLps; YPair (i_ta i) (i_tb i)] ;;
  mret p.

(** 343-404 query_for_pool_by_token_pair *)
Definition z_fact_pool_by_pair (self a b : Addr) : TST Addr :=
  tf (enter self KFact) ;;
  come self ;;
  f <- tf (get_fact self) ;;
  peek self [YPair a b] ;;
  match pair_get f a b with
  | Some p => mret p
  | None =>
      peek self [YPair b a] ;;
      match pair_get f b a with
      | Some p => mret p
      | None => mfail (EContract 4)
      end
  end.
Definition z_any_swap (e : Env) (c : option Addr) (pool sender offer amt : Z)
    (ask_min max_spread dl max_fee : option Z) : TST Z :=
  w <- tf mget ;;
  match fget pool (w_code w) with
  | Some KPool => z_pool_swap e c pool sender offer amt ask_min max_spread dl max_fee
  | Some KStable => z_stable_swap e c pool sender offer amt ask_min max_spread dl max_fee
  | _ => mfail EHost
  end.

(** multihop 81-143 swap *)
Fixpoint z_hop_swaps (e : Env) (self fact rcpt : Addr) (ops : list SwapOp) (amt : Z)
    (max_spread dl max_fee : option Z) : TST Z :=
  match ops with
  | [] => mret amt
  | o :: tl =>
      p <- z_fact_pool_by_pair fact (o_offer o) (o_ask o) ;;
      r <- z_any_swap e (Some self) p rcpt (o_offer o) amt (o_min o) max_spread dl max_fee ;;
      z_hop_swaps e self fact rcpt tl r max_spread dl max_fee
  end.
Definition z_hop_swap (e : Env) (c : option Addr) (self rcpt : Addr) (ops : list SwapOp)
    (max_spread : option Z) (amt : Z) (dl max_fee : option Z) : TST Z :=
  tf (enter self KHop) ;;
  come self ;;
  instP self ;;
  mguard (negb (match ops with [] => true | _ => false end)) (EContract 2) ;;
  mguard (chained ops) (EContract 3) ;;
  tf (require_auth e c rcpt) ;;
  h <- tf (get_hop self) ;;
  z_hop_swaps e self (h_fact h) rcpt ops amt max_spread dl max_fee.

(** ** trader/src/contract.rs, storage.rs:52-179 *)
(** 68-100 initialize: the instance is not extended *)
Definition z_trader_initialize (e : Env) (c : option Addr) (self admin ta tb out : Addr) : TST unit :=
  tf (enter self KTrader) ;;
  seen self ;;
  tnote [mkT self YInit Look] ;;
  tf (require_auth e c admin) ;;
  w <- tf mget ;;
  mguard (negb (fmem self (w_trader w))) (EContract 10) ;;
  z_put_trader self (mkTrader admin ta tb out) [YAdmin; YName; YTPair; YTOut; YInit].

(** 103-171 trade_token *)
Definition z_trader_trade (e : Env) (c : option Addr) (self sender tok pool : Addr)
    (amount max_spread dl ask_min max_fee : option Z) : TST Z :=
  tf (enter self KTrader) ;;
  come self ;;
  tf (require_auth e c sender) ;;
  d <- z_get_trader self [YAdmin; YTPair] ;;
  mguard (sender =? d_admin d) (EContract 6) ;;
  mguard (match max_spread with Some s => negb ((s <? 0) || (10000 <? s)) | None => true end) (EContract 8) ;;
  mguard ((tok =? d_ta d) || (tok =? d_tb d)) (EContract 7) ;;
  amt <- (match amount with Some a => mret a | None => z_balance tok sender end) ;;
  z_any_swap e (Some self) pool self tok amt ask_min max_spread dl max_fee.

(** 173-199 transfer *)
Definition z_trader_transfer (e : Env) (c : option Addr) (self sender rcpt amt : Z) (tok : option Addr) : TST unit :=
  tf (enter self KTrader) ;;
  come self ;;
  tf (require_auth e c sender) ;;
  d <- z_get_trader self (match tok with Some _ => [YAdmin] | None => [YAdmin; YTOut] end) ;;
  mguard (sender =? d_admin d) (EContract 6) ;;
  z_transfer e (Some self) (match tok with Some t => t | None => d_out d end) self rcpt amt.

(** ** Settings and code replacement: pool 540-589 and 780-785, pool_stable 564-610 and
    824-829, stake 389-393, stake_rewards 540-545, vesting 472-478, factory 237-303 and
    497-503, multihop 293-298 *)
Definition z_pool_update_config (e : Env) (c : option Addr) (self : Addr)
    (admin fee feerec maxslip maxspread maxref : option Z) : TST unit :=
  tf (enter self KPool) ;;
  come self ;;
  p <- z_get_pool self [YAdmin; YConfig] ;;
  tf (require_auth e c (p_admin p)) ;;
  mguard (vbps_o fee && vbps_o maxslip && vbps_o maxspread && vbps_o maxref) EPanic ;;
  z_put_pool self (mkPool (p_ta p) (p_tb p) (p_share p) (p_stake p)
    (opt_or fee (p_fee p)) (opt_or feerec (p_feerec p)) (opt_or maxslip (p_maxslip p))
    (opt_or maxspread (p_maxspread p)) (opt_or maxref (p_maxref p)) (p_defslip p)
    (opt_or admin (p_admin p)) (p_total p) (p_ra p) (p_rb p))
    (match admin with Some _ => [YAdmin; YConfig] | None => [YConfig] end).
Definition z_pool_update (e : Env) (c : option Addr) (self hash : Z) : TST unit :=
  tf (enter self KPool) ;;
  seen self ;;
  p <- z_get_pool self [YAdmin] ;;
  tf (require_auth e c (p_admin p)) ;;
  tf (put_wasm self hash).
Definition z_pool_upgrade (e : Env) (c : option Addr) (self hash defslip : Z) : TST unit :=
  tf (enter self KPool) ;;
  seen self ;;
  p <- z_get_pool self [YAdmin] ;;
  tf (require_auth e c (p_admin p)) ;;
  tf (put_wasm self hash) ;;
  z_put_pool self (mkPool (p_ta p) (p_tb p) (p_share p) (p_stake p) (p_fee p) (p_feerec p) (p_maxslip p)
    (p_maxspread p) (p_maxref p) defslip (p_admin p) (p_total p) (p_ra p) (p_rb p)) [YSlip].
Definition z_stable_upgrade (e : Env) (c : option Addr) (self hash : Z) : TST unit :=
  tf (enter self KStable) ;;
  instP self ;;
  p <- tf (get_stable self) ;;
  tf (require_auth e c (l_admin p)) ;;
  tf (put_wasm self hash).
Definition z_stake_update (e : Env) (c : option Addr) (self hash : Z) : TST unit :=
  tf (enter self KStake) ;;
  seen self ;;
  s <- z_get_stake self [YAdmin] ;;
  tf (require_auth e c (s_admin s)) ;;
  tf (put_wasm self hash).
Definition z_rewards_update (e : Env) (c : option Addr) (self hash : Z) : TST unit :=
  tf (enter self KRewards) ;;
  seen self ;;
  r <- z_get_rewards self [YAdmin] [] ;;
  tf (require_auth e c (r_admin r)) ;;
  tf (put_wasm self hash).
Definition z_vest_update (e : Env) (c : option Addr) (self hash : Z) : TST unit :=
  tf (enter self KVest) ;;
  seen self ;;
  v <- z_get_vest self [YAdmin] ;;
  tf (require_auth e c (v_admin v)) ;;
  tf (put_wasm self hash).
Definition z_fact_update_whitelist (e : Env) (c : option Addr) (self sender : Addr) (add rm : list Addr) : TST unit :=
  tf (enter self KFact) ;;
  come self ;;
  tf (require_auth e c sender) ;;
  f <- z_get_fact self [YConfig] ;;
  mguard (f_admin f =? sender) (EContract 3) ;;
  z_put_fact self (set_f_white f (wl_remove (wl_add (f_white f) add) rm)) [YConfig].
Definition z_fact_update_hashes (e : Env) (c : option Addr) (self : Addr) (lph stakeh tokh : option Z) : TST unit :=
  tf (enter self KFact) ;;
  come self ;;
  f <- z_get_fact self [YConfig] ;;
  tf (require_auth e c (f_admin f)) ;;
  z_put_fact self (set_f_hashes f (opt_or lph (f_lphash f)) (opt_or stakeh (f_stakehash f))
                                (opt_or tokh (f_tokhash f)) (f_stabhash f)) [YConfig].
Definition z_fact_update (e : Env) (c : option Addr) (self hash stabh : Z) : TST unit :=
  tf (enter self KFact) ;;
  seen self ;;
  f <- z_get_fact self [YConfig] ;;
  tf (require_auth e c (f_admin f)) ;;
  tf (put_wasm self hash) ;;
  z_put_fact self (set_f_hashes f (f_lphash f) (f_stakehash f) (f_tokhash f) stabh) [YStab].
Definition z_hop_update (e : Env) (c : option Addr) (self hash : Z) : TST unit :=
  tf (enter self KHop) ;;
  instP self ;;
  h <- tf (get_hop self) ;;
  tf (require_auth e c (h_admin h)) ;;
  tf (put_wasm self hash).
Definition z_stable_update_config (self sender : Addr)
    (admin fee feerec maxslip maxspread : option Z) : TST unit :=
  tf (stable_update_config self sender admin fee feerec maxslip maxspread) ;;
  come self ;;
  instP self.

(** ** One transaction with the accesses it makes *)
Definition z_drop {A} (m : TST A) : TST unit := m ;; mret tt.

Definition zexec (e : Env) (k : Call) : TST unit :=
  match k with
  | CDeploy a KTok => mfail EHost     (* tokens are deployed with their constructor *)
  | CDeploy a k => z_deploy a k
  | CDeployTok t a d => z_tok_deploy t a d
  | CMint t to amt => z_mint e None t to amt
  | CSetAdmin t a => z_set_admin e None t a
  | CApprove t f s amt ex => z_approve e None t f s amt ex
  | CTransfer t f to amt => z_transfer e None t f to amt
  | CTransferFrom t s f to amt => z_transfer_from e None t s f to amt
  | CBurn t f amt => z_burn e None t f amt
  | CBurnFrom t s f amt => z_burn_from e None t s f amt
  | CPoolInit p i f d s m => z_pool_initialize e p i f d s m
  | CPoolProvide p u da ma db mb cu dl => z_pool_provide e None p u da ma db mb cu dl
  | CPoolSwap p u o a mi ms dl mf => z_drop (z_pool_swap e None p u o a mi ms dl mf)
  | CPoolWithdraw p u s a b dl => z_drop (z_pool_withdraw e None p u s a b dl)
  | CPoolConfig p a1 a2 a3 a4 a5 a6 => z_pool_update_config e None p a1 a2 a3 a4 a5 a6
  | CPoolUpdate p h => z_pool_update e None p h
  | CPoolUpgrade p h d => z_pool_upgrade e None p h d
  | CStableInit p i f a m => z_stable_initialize e p i f a m
  | CStableProvide p u da db cu dl ms => z_stable_provide e None p u da db cu dl ms
  | CStableSwap p u o a mi ms dl mf => z_drop (z_stable_swap e None p u o a mi ms dl mf)
  | CStableWithdraw p u s a b dl => z_drop (z_stable_withdraw e None p u s a b dl)
  | CStableConfig p u a1 a2 a3 a4 a5 => z_stable_update_config p u a1 a2 a3 a4 a5
  | CStableUpgrade p h => z_stable_upgrade e None p h
  | CStakeInit k a l mb mr m o mc => z_stake_initialize k a l mb mr m o mc
  | CBond k u a => z_stake_bond e None k u a
  | CUnbond k u a t => z_stake_unbond e None k u a t
  | CFlow k u a => z_stake_create_flow e None k u a
  | CDistribute k u a t => z_stake_distribute e None k u a t
  | CWithdrawRewards k u => z_stake_withdraw_rewards e k u
  | CStakeUpdate k h => z_stake_update e None k h
  | CRewInit r a s t mc mr mb => z_rewards_initialize r a s t mc mr mb
  | CRewAddUser r u b => z_rewards_add_user e None r u b
  | CRewBond r u b => z_rewards_bond e None r u b
  | CRewUnbond r u b x => z_rewards_unbond e None r u b x
  | CRewDistribute r t => z_rewards_distribute e None r t
  | CRewWithdraw r u b => z_rewards_withdraw e None r u b
  | CRewFund r s d a => z_rewards_fund e None r s d a
  | CRewUpdate r h => z_rewards_update e None r h
  | CVestInit v a t mc m => z_vest_initialize v a t mc m
  | CVestCreate v l => z_vest_create e None v l
  | CVestClaim v u i => z_vest_claim e None v u i
  | CVestBurn v u a => z_vest_burn e None v u a
  | CVestMint v u a => z_vest_mint e None v u a
  | CVestMinter v u n => z_vest_update_minter e None v u n
  | CVestCapacity v u n => z_vest_update_capacity e None v u n
  | CVestUpdate v h => z_vest_update e None v h
  | CFactInit f a lp sb sk tk wl d => z_fact_initialize e f a lp sb sk tk wl d
  | CCreate f u i ty amp ds mf => z_drop (z_fact_create e None f u i ty amp ds mf)
  | CWhitelist f u a r => z_fact_update_whitelist e None f u a r
  | CHashes f a b c => z_fact_update_hashes e None f a b c
  | CFactUpdate f h s => z_fact_update e None f h s
  | CHopInit h a f => z_hop_initialize h a f
  | CHopSwap h u ops ms a dl mf => z_drop (z_hop_swap e None h u ops ms a dl mf)
  | CHopUpdate h x => z_hop_update e None h x
  | CTraderInit d a x y o => z_trader_initialize e None d a x y o
  | CTrade d u t p a ms dl mi mf => z_drop (z_trader_trade e None d u t p a ms dl mi mf)
  | CTraderTransfer d u r a t => z_trader_transfer e None d u r a t
  end.

Arguments tf : simpl never.
Arguments tnote : simpl never.
