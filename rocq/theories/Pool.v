(** contracts/pool/src: the constant-product liquidity pool. *)
From Coq Require Import ZArith List Bool.
From Verif Require Import Base FMap Decimal World Token Stake.
Import ListNotations.
Open Scope Z_scope.

Definition set_p_total (p : Pool) (t : Z) : Pool :=
  mkPool (p_ta p) (p_tb p) (p_share p) (p_stake p) (p_fee p) (p_feerec p) (p_maxslip p) (p_maxspread p)
         (p_maxref p) (p_defslip p) (p_admin p) t (p_ra p) (p_rb p).
Definition set_p_res (p : Pool) (a b : Z) : Pool :=
  mkPool (p_ta p) (p_tb p) (p_share p) (p_stake p) (p_fee p) (p_feerec p) (p_maxslip p) (p_maxspread p)
         (p_maxref p) (p_defslip p) (p_admin p) (p_total p) a b.

(** packages/phoenix/src/utils.rs:71-103 LiquidityPoolInitInfo, flattened *)
Record PoolInit := mkPoolInit {
  i_admin : Addr; i_fee : Z; i_feerec : Addr; i_maxslip : Z; i_defslip : Z; i_maxspread : Z;
  i_maxref : Z; i_ta : Addr; i_tb : Addr; i_minbond : Z; i_minreward : Z; i_manager : Addr;
  i_maxc : Z }.

Definition MINIMUM_LIQUIDITY_AMOUNT : Z := 1000.

(** storage.rs:187-219 deploy_token_contract / deploy_stake_contract: addresses are
    a hash of deployer and salt.  The salt of the share token is the hash of the two
    asset addresses, so an asset that is itself the future share token would be a
    fixed point of sha256; such a deployment fails in the model. *)
Definition deploy_share (e : Env) (self ta tb dec : Z) : ST World Addr :=
  let t := e_hash e self (SPair ta tb) in
  mguard (negb (t =? ta) && negb (t =? tb)) EHost ;;
  tok_deploy t self dec ;;
  mret t.

Definition deploy_stake_of (e : Env) (self admin share minbond minreward manager owner maxc : Z) : ST World Addr :=
  let k := e_hash e self SEmpty in
  deploy k KStake ;;
  stake_initialize k admin share minbond minreward manager owner maxc ;;
  mret k.

(** contract.rs:151-265 initialize (no authorisation).  The wasm hashes select the
    deployed code; the factory and the tests pass the token and stake contracts of
    this repository, which is what is deployed here. Name and symbol are omitted. *)
Definition pool_initialize (e : Env) (self : Addr) (i : PoolInit) (factory dec defslip maxfee : Z) : ST World unit :=
  enter self KPool ;;
  w <- mget ;;
  mguard (negb (fmem self (w_pool w))) (EContract 17) ;;
  mguard (vbps (i_fee i) && vbps (i_maxslip i) && vbps (i_maxspread i) && vbps (i_maxref i)
          && vbps defslip && vbps maxfee) EPanic ;;
  mguard (negb (maxfee <? i_fee i)) (EContract 25) ;;
  mguard (negb (i_tb i <=? i_ta i)) (EContract 18) ;;
  share <- deploy_share e self (i_ta i) (i_tb i) dec ;;
  stk <- deploy_stake_of e self (i_admin i) share (i_minbond i) (i_minreward i) (i_manager i) factory (i_maxc i) ;;
  put_pool self (mkPool (i_ta i) (i_tb i) share stk (i_fee i) (i_feerec i) (i_maxslip i) (i_maxspread i)
                        (i_maxref i) defslip (i_admin i) 0 0 0).

(** storage.rs:333-375 / 377-407: one side of get_deposit_amounts *)
Definition dep_side (desired other res_this res_other : Z) (mn : option Z) (slip cbig cless : Z) : res Z :=
  let? m := mul_i other res_this in
  let? a := div_i m res_other in
  let? a' :=
    (if desired <? a then
       let? r := dec_from_ratio a desired in
       let? d := dec_sub r dec_one in
       if d <=? slip then Ok desired else Err (EContract cbig)
     else Ok a) in
  assert? (match mn with Some m => negb (a' <? m) | None => true end) or EContract cless in
  Ok a'.

(** storage.rs:317-437 get_deposit_amounts *)
Definition deposit_amounts (da : Z) (mina : option Z) (db : Z) (minb : option Z) (ra rb slip : Z) : res (Z * Z) :=
  assert? negb ((da <=? 0) || (db <=? 0)) or EContract 14 in
  assert? (match mina, minb with Some a, Some b => negb ((a <? 0) || (b <? 0)) | _, _ => true end)
    or EContract 15 in
  if (ra =? 0) && (rb =? 0) then Ok (da, db)
  else
    assert? (match mina with Some a => negb (da <? a) | None => true end) or EContract 7 in
    assert? (match minb with Some b => negb (db <? b) | None => true end) or EContract 8 in
    let? a := dep_side da db ra rb mina slip 9 10 in
    let? b := dep_side db da rb ra minb slip 11 12 in
    Ok (a, b).

(** storage.rs:252-258 mint_shares *)
Definition mint_shares (e : Env) (self to amt : Z) : ST World unit :=
  p <- get_pool self ;;
  tok_mint e (Some self) (p_share p) to amt ;;
  t <- mlift (add_i (p_total p) amt) ;;
  put_pool self (set_p_total p t).

(** storage.rs:260-266 burn_shares *)
Definition burn_shares (e : Env) (self amt : Z) : ST World unit :=
  p <- get_pool self ;;
  tok_burn e (Some self) (p_share p) self amt ;;
  t <- mlift (sub_i (p_total p) amt) ;;
  put_pool self (set_p_total p t).

(** contract.rs:346-372: the share total after the deposit (for an empty pool this
    also mints the 1000 locked shares) *)
Definition new_share_total (e : Env) (self a b bala balb : Z) (p : Pool) : ST World Z :=
  if (0 <? p_ra p) && (0 <? p_rb p) then
    m1 <- mlift (mul_i bala (p_total p)) ;;
    sa <- mlift (div_i m1 (p_ra p)) ;;
    m2 <- mlift (mul_i balb (p_total p)) ;;
    sb <- mlift (div_i m2 (p_rb p)) ;;
    mret (Z.min sa sb)
  else
    m <- mlift (mul_i a b) ;;
    mguard (negb (m <? 0)) EPanic ;;
    let s := Z.sqrt m in
    mguard (negb (s <=? MINIMUM_LIQUIDITY_AMOUNT)) (EContract 13) ;;
    mint_shares e self self MINIMUM_LIQUIDITY_AMOUNT ;;
    mlift (sub_i s MINIMUM_LIQUIDITY_AMOUNT).

(** contract.rs:268-408 provide_liquidity.  [custom] is the optional slippage in bps. *)
Definition pool_provide (e : Env) (c : option Addr) (self sender : Addr)
    (da mina db minb custom dl : option Z) : ST World unit :=
  enter self KPool ;;
  check_deadline 22 dl ;;
  mguard (vpos da && vpos mina && vpos db && vpos minb) EPanic ;;
  require_auth e c sender ;;
  p <- get_pool self ;;
  mguard (match custom with Some s => negb (p_maxslip p <? s) | None => true end) (EContract 2) ;;
  ' (a, b) <- mlift (match da, db with
                    | Some x, Some y =>
                        if (0 <? x) && (0 <? y) then
                          deposit_amounts x mina y minb (p_ra p) (p_rb p)
                            (dec_bps (match custom with Some s => s | None => p_defslip p end))
                        else Err (EContract 3)
                    | _, _ => Err (EContract 3)
                    end) ;;
  ia <- tok_balance (p_ta p) self ;;
  ib <- tok_balance (p_tb p) self ;;
  tok_transfer e (Some self) (p_ta p) sender self a ;;
  tok_transfer e (Some self) (p_tb p) sender self b ;;
  fa <- tok_balance (p_ta p) self ;;
  fb <- tok_balance (p_tb p) self ;;
  mlift (sub_i fa ia) ;;
  mlift (sub_i fb ib) ;;
  n <- new_share_total e self a b fa fb p ;;
  d <- mlift (sub_i n (p_total p)) ;;
  mint_shares e self sender d ;;
  p' <- get_pool self ;;
  put_pool self (set_p_res p' fa fb).

(** ** Swaps *)
Record Computed := mkComputed { cs_ret : Z; cs_spread : Z; cs_comm : Z; cs_ref : Z }.

(** contract.rs:1228-1236 u256_to_i128 *)
Definition w2i (x : Z) : res Z := if x <=? I128_MAX then Ok x else Err (EContract 23).

(** contract.rs:1139-1191 compute_swap *)
Definition compute_swap (x y dx rate ref_bps : Z) : res Computed :=
  let? x := i2u x in
  let? y := i2u y in
  let? dx := i2u dx in
  let? rate := i2u rate in
  let? cp := mul_w x y in
  let? s := add_w x dx in
  let? q := div_w cp s in
  let? gross := sub_w y q in
  let? m := mul_w dx y in
  let? spot := div_w m x in
  let? spread := sub_w spot gross in
  let? cm := mul_w gross rate in
  let? comm := div_w cm DEC in
  let? ret := sub_w gross comm in
  let? refr := i2u (dec_bps ref_bps) in
  let? rm := mul_w ret refr in
  let? rf := div_w rm DEC in
  let? ret2 := sub_w ret rf in
  let? r1 := w2i ret2 in
  let? r2 := w2i spread in
  let? r3 := w2i comm in
  let? r4 := w2i rf in
  Ok (mkComputed r1 r2 r3 r4).

(** contract.rs:1115-1123 assert_max_spread *)
Definition assert_max_spread (max_spread total_return spread : Z) : res unit :=
  let? r := dec_from_ratio spread total_return in
  guard (negb (max_spread <? r)) (EContract 1).

(** contract.rs:788-962 do_swap *)
Definition do_swap (e : Env) (self sender offer amt : Z) (ask_min max_spread max_fee : option Z) : ST World Z :=
  p <- get_pool self ;;
  mguard (match max_fee with Some f => negb (f <? p_fee p) | None => true end) (EContract 24) ;;
  mguard (match max_spread with Some s => (0 <=? s) && (s <=? p_maxspread p) | None => true end) (EContract 19) ;;
  let ms := dec_bps (match max_spread with Some s => s | None => p_maxspread p end) in
  mguard ((offer =? p_ta p) || (offer =? p_tb p)) (EContract 16) ;;
  let is_a := offer =? p_ta p in
  let '(rs, rb) := if is_a then (p_ra p, p_rb p) else (p_rb p, p_ra p) in
  r <- mlift (compute_swap rs rb amt (dec_bps (p_fee p)) 0) ;;
  mguard (match ask_min with Some m => negb (cs_ret r <? m) | None => true end) (EContract 21) ;;
  t1 <- mlift (add_i (cs_ret r) (cs_comm r)) ;;
  tot <- mlift (add_i t1 (cs_ref r)) ;;
  mlift (assert_max_spread ms tot (cs_spread r)) ;;
  let '(sell, buy) := if is_a then (p_ta p, p_tb p) else (p_tb p, p_ta p) in
  before <- tok_balance sell self ;;
  tok_transfer e (Some self) sell sender self amt ;;
  after <- tok_balance sell self ;;
  recv <- mlift (sub_i after before) ;;
  tok_transfer e (Some self) buy self sender (cs_ret r) ;;
  tok_transfer e (Some self) buy self (p_feerec p) (cs_comm r) ;;
  ns <- mlift (add_i rs recv) ;;
  n1 <- mlift (sub_i rb (cs_comm r)) ;;
  n2 <- mlift (sub_i n1 (cs_ref r)) ;;
  nb <- mlift (sub_i n2 (cs_ret r)) ;;
  put_pool self (if is_a then set_p_res p ns nb else set_p_res p nb ns) ;;
  mret (cs_ret r).

(** contract.rs:411-448 swap *)
Definition pool_swap (e : Env) (c : option Addr) (self sender offer amt : Z)
    (ask_min max_spread dl max_fee : option Z) : ST World Z :=
  enter self KPool ;;
  check_deadline 22 dl ;;
  mguard (vpos (Some amt)) EPanic ;;
  require_auth e c sender ;;
  do_swap e self sender offer amt ask_min max_spread max_fee.

(** contract.rs:450-537 withdraw_liquidity *)
Definition pool_withdraw (e : Env) (c : option Addr) (self sender share mina minb : Z) (dl : option Z) : ST World (Z * Z) :=
  enter self KPool ;;
  check_deadline 22 dl ;;
  mguard (vpos (Some share) && vpos (Some mina) && vpos (Some minb)) EPanic ;;
  require_auth e c sender ;;
  p <- get_pool self ;;
  tok_transfer e (Some self) (p_share p) sender self share ;;
  mguard (negb (p_total p =? 0)) (EContract 13) ;;
  ratio <- mlift (dec_from_ratio share (p_total p)) ;;
  a <- mlift (i_mul_dec (p_ra p) ratio) ;;
  b <- mlift (i_mul_dec (p_rb p) ratio) ;;
  mguard (negb ((a <? mina) || (b <? minb))) (EContract 4) ;;
  burn_shares e self share ;;
  tok_transfer e (Some self) (p_ta p) self sender a ;;
  tok_transfer e (Some self) (p_tb p) self sender b ;;
  na <- mlift (sub_i (p_ra p) a) ;;
  nb <- mlift (sub_i (p_rb p) b) ;;
  p' <- get_pool self ;;
  put_pool self (set_p_res p' na nb) ;;
  mret (a, b).

Definition opt_or (o : option Z) (d : Z) : Z := match o with Some x => x | None => d end.
Definition vbps_o (o : option Z) : bool := match o with Some x => vbps x | None => true end.

(** contract.rs:540-581 update_config *)
Definition pool_update_config (e : Env) (c : option Addr) (self : Addr)
    (admin fee feerec maxslip maxspread maxref : option Z) : ST World unit :=
  enter self KPool ;;
  p <- get_pool self ;;
  require_auth e c (p_admin p) ;;
  mguard (vbps_o fee && vbps_o maxslip && vbps_o maxspread && vbps_o maxref) EPanic ;;
  put_pool self (mkPool (p_ta p) (p_tb p) (p_share p) (p_stake p)
    (opt_or fee (p_fee p)) (opt_or feerec (p_feerec p)) (opt_or maxslip (p_maxslip p))
    (opt_or maxspread (p_maxspread p)) (opt_or maxref (p_maxref p)) (p_defslip p)
    (opt_or admin (p_admin p)) (p_total p) (p_ra p) (p_rb p)).

(** contract.rs:780-785 update *)
Definition pool_update (e : Env) (c : option Addr) (self hash : Z) : ST World unit :=
  enter self KPool ;;
  p <- get_pool self ;;
  require_auth e c (p_admin p) ;;
  put_wasm self hash.

(** contract.rs:583-589 upgrade *)
Definition pool_upgrade (e : Env) (c : option Addr) (self hash defslip : Z) : ST World unit :=
  enter self KPool ;;
  p <- get_pool self ;;
  require_auth e c (p_admin p) ;;
  put_wasm self hash ;;
  put_pool self (mkPool (p_ta p) (p_tb p) (p_share p) (p_stake p) (p_fee p) (p_feerec p) (p_maxslip p)
    (p_maxspread p) (p_maxref p) defslip (p_admin p) (p_total p) (p_ra p) (p_rb p)).

(** ** Queries *)
Record SimSwap := mkSimSwap { ss_ask : Z; ss_comm : Z; ss_spread : Z; ss_total : Z }.
Record SimReverse := mkSimReverse { sr_offer : Z; sr_comm : Z; sr_spread : Z }.

(** contract.rs:668-704 simulate_swap *)
Definition pool_simulate_swap (self offer amt : Z) : ST World SimSwap :=
  enter self KPool ;;
  p <- get_pool self ;;
  mguard ((offer =? p_ta p) || (offer =? p_tb p)) (EContract 16) ;;
  let '(rs, rb) := if offer =? p_ta p then (p_ra p, p_rb p) else (p_rb p, p_ra p) in
  r <- mlift (compute_swap rs rb amt (dec_bps (p_fee p)) 0) ;;
  t1 <- mlift (add_i (cs_ret r) (cs_comm r)) ;;
  tot <- mlift (add_i t1 (cs_spread r)) ;;
  mret (mkSimSwap (cs_ret r) (cs_comm r) (cs_spread r) tot).

(** contract.rs:1199-1226 compute_offer_amount: (offer, spread, commission) *)
Definition compute_offer_amount (x y ask rate : Z) : res (Z * Z * Z) :=
  let? cp := mul_i x y in
  let? om := dec_sub dec_one rate in
  let? inv := dec_div dec_one om in
  let? g := i_mul_dec ask inv in
  let? den := sub_i y g in
  let? q := div_i cp den in
  let? offer := sub_i q x in
  let? m := mul_i offer y in
  let? sp := div_i m x in
  let? spread := sub_i sp g in
  let? comm := i_mul_dec g rate in
  Ok (offer, spread, comm).

(** contract.rs:706-739 simulate_reverse_swap *)
Definition pool_simulate_reverse (self ask amt : Z) : ST World SimReverse :=
  enter self KPool ;;
  p <- get_pool self ;;
  mguard ((ask =? p_tb p) || (ask =? p_ta p)) (EContract 16) ;;
  let '(rs, rb) := if ask =? p_tb p then (p_ra p, p_rb p) else (p_rb p, p_ra p) in
  ' (o, s, cm) <- mlift (compute_offer_amount rs rb amt (dec_bps (p_fee p))) ;;
  mret (mkSimReverse o cm s).

(** contract.rs:741-767 query_share *)
Definition pool_query_share (self amt : Z) : ST World (Z * Z) :=
  enter self KPool ;;
  p <- get_pool self ;;
  ratio <- mlift (if p_total p =? 0 then Ok dec_zero else dec_from_ratio amt (p_total p)) ;;
  a <- mlift (i_mul_dec (p_ra p) ratio) ;;
  b <- mlift (i_mul_dec (p_rb p) ratio) ;;
  mret (a, b).

(** contract.rs:615-635 query_pool_info, 593-613 query_config and the address queries,
    769-774 query_total_issued_lp: plain reads *)
Definition pool_query (self : Addr) : ST World Pool := enter self KPool ;; get_pool self.

Arguments pool_initialize : simpl never.
Arguments pool_provide : simpl never.
Arguments pool_swap : simpl never.
Arguments do_swap : simpl never.
Arguments pool_withdraw : simpl never.
Arguments pool_update_config : simpl never.
Arguments pool_update : simpl never.
Arguments pool_upgrade : simpl never.
Arguments mint_shares : simpl never.
Arguments burn_shares : simpl never.
Arguments new_share_total : simpl never.
Arguments compute_swap : simpl never.
Arguments compute_offer_amount : simpl never.
Arguments dep_side : simpl never.
Arguments deposit_amounts : simpl never.
