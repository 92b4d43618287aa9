(** contracts/pool_stable/src: the amplified (stable-swap) liquidity pool. *)
From Coq Require Import ZArith List Bool.
From Verif Require Import Base FMap Decimal World Token Stake Pool.
Import ListNotations.
Open Scope Z_scope.

(** contract.rs:28 MAX_AMP; lib.rs:23 DECIMAL_PRECISION; math.rs:10-21 *)
Definition MAX_AMP : Z := 1000000.
Definition DECIMAL_PRECISION : Z := 18.
Definition AMP_PRECISION : Z := 100.
Definition N_COINS : Z := 2.
Definition N_COINS_PRECISION : Z := 2000000000000000000.
Definition TOL : Z := 1000000000000.

Definition set_l_total (p : Stable) (t : Z) : Stable :=
  mkStable (l_ta p) (l_tb p) (l_share p) (l_stake p) (l_fee p) (l_feerec p) (l_maxslip p) (l_defslip p)
    (l_maxspread p) (l_admin p) (l_iamp p) (l_iampt p) (l_namp p) (l_nampt p) (l_prec p) (l_preca p)
    (l_precb p) t (l_ra p) (l_rb p).
Definition set_l_res (p : Stable) (a b : Z) : Stable :=
  mkStable (l_ta p) (l_tb p) (l_share p) (l_stake p) (l_fee p) (l_feerec p) (l_maxslip p) (l_defslip p)
    (l_maxspread p) (l_admin p) (l_iamp p) (l_iampt p) (l_namp p) (l_nampt p) (l_prec p) (l_preca p)
    (l_precb p) (l_total p) a b.

(** [10u128.pow(n)] where [n] is the result of a checked u32 subtraction *)
Definition pow10_u (n : Z) : res Z :=
  if n <? 0 then Err EArith else chk in_u128 (10 ^ n).

(** math.rs:23-35 scale_value *)
Definition scale_value (x dec target : Z) : res Z :=
  if dec <? target then let? f := pow10_u (target - dec) in mul_u x f
  else let? f := pow10_u (dec - target) in div_u x f.

(** math.rs:37-43 abs_diff *)
Definition abs_diff (a b : Z) : Z := if a <? b then b - a else a - b.

(** math.rs:46-68 compute_current_amp.  The u64 results of the casts are in range. *)
Definition current_amp (t iamp iampt namp nampt : Z) : res Z :=
  if t <? nampt then
    let el := Z.max 0 (t - iampt) in
    let range := Z.max 0 (nampt - iampt) in
    if iamp <? namp then
      let? m := mul_u (namp - iamp) el in
      let? q := div_u m range in add_u iamp q
    else
      let? m := mul_u (iamp - namp) el in
      let? q := div_u m range in sub_u iamp q
  else Ok namp.

(** U256::pow *)
Definition cube_w (x : Z) : res Z := chk in_u256 (x ^ 3).
Definition square_w (x : Z) : res Z := chk in_u256 (x ^ 2).

(** math.rs:115-138 calculate_step *)
Definition calculate_step (d lev sum dprod : Z) : res Z :=
  let? lm := mul_w lev sum in
  let? dm := mul_w dprod N_COINS in
  let? s := add_w lm dm in
  let? lval := mul_w s d in
  let? l1 := sub_w lev 1 in
  let? lsub := mul_w d l1 in
  let? n3 := mul_w dprod 3 in
  let? rval := add_w lsub n3 in
  div_w lval rval.

(** math.rs:90-107: the Newton loop, [fuel] = ITERATIONS *)
Fixpoint d_loop (fuel : nat) (d lev sum prod : Z) : res Z :=
  match fuel with
  | O => Err (EContract 13)
  | S f =>
      let? d3 := cube_w d in
      let? dp := div_w d3 prod in
      let? d' := calculate_step d lev sum dp in
      if abs_diff d' d <=? TOL then Ok d' else d_loop f d' lev sum prod
  end.

(** math.rs:75-108 compute_d.  The u128 product of line 91-94 is computed in every
    round with the same value. *)
Definition compute_d (amp a b : Z) : res Z :=
  let? lev := mul_u (amp / AMP_PRECISION) N_COINS_PRECISION in
  let? a2 := mul_u a N_COINS in
  let? b2 := mul_u b N_COINS in
  let? sum := add_u a b in
  if sum =? 0 then Ok 0
  else
    let? prod := mul_u a2 b2 in
    d_loop 64 sum lev sum prod.

(** [U256::to_u128().expect] *)
Definition w2u (x : Z) : res Z := if x <=? U128_MAX then Ok x else Err EPanic.

(** math.rs:168-185 *)
Fixpoint y_loop (fuel : nat) (y b c d : Z) : res Z :=
  match fuel with
  | O => Err (EContract 14)
  | S f =>
      let? y2 := square_w y in
      let? num := add_w y2 c in
      let? yn := mul_w y N_COINS in
      let? yb := add_w yn b in
      let? den := sub_w yb d in
      let? y' := div_w num den in
      if abs_diff y' y <=? TOL then Ok y' else y_loop f y' b c d
  end.

(** math.rs:147-186 calc_y *)
Definition calc_y (amp new a b target : Z) : res Z :=
  let? d := compute_d amp a b in
  let? l1 := mul_u amp DEC in
  let? lev := mul_u l1 N_COINS in
  let? ap := mul_u AMP_PRECISION DEC in
  let? d3 := cube_w d in
  let? num := mul_w d3 ap in
  let? n4 := mul_w new 4 in
  let? den := mul_w n4 lev in
  let? c := div_w num den in
  let? dm := mul_w d ap in
  let? dq := div_w dm lev in
  let? bb := add_w new dq in
  let? y := y_loop 64 d bb c d in
  let? f := pow10_u (DECIMAL_PRECISION - target) in
  let? u := w2u y in
  div_u u f.

(** contract.rs:146-273 initialize (no authorisation); storage.rs:112-141
    save_greatest_precision.  Name, symbol and the ignored decimal argument are omitted. *)
Definition stable_initialize (e : Env) (self : Addr) (i : PoolInit) (factory amp maxfee : Z) : ST World unit :=
  enter self KStable ;;
  w <- mget ;;
  mguard (negb (fmem self (w_stable w))) (EContract 7) ;;
  mguard (vbps (i_fee i) && vbps (i_maxslip i) && vbps (i_maxspread i) && vbps (i_defslip i) && vbps maxfee) EPanic ;;
  mguard (negb (maxfee <? i_fee i)) (EContract 22) ;;
  mguard (negb (i_tb i <=? i_ta i)) (EContract 8) ;;
  pa <- tok_decimals (i_ta i) ;;
  pb <- tok_decimals (i_tb i) ;;
  let prec := if pb <? pa then pa else pb in
  share <- deploy_share e self (i_ta i) (i_tb i) prec ;;
  stk <- deploy_stake_of e self (i_admin i) share (i_minbond i) (i_minreward i) (i_manager i) factory (i_maxc i) ;;
  t <- now ;;
  mguard (negb ((amp =? 0) || (MAX_AMP <? amp))) (EContract 18) ;;
  a <- mlift (mul_64 amp AMP_PRECISION) ;;
  put_stable self (mkStable (i_ta i) (i_tb i) share stk (i_fee i) (i_feerec i) (i_maxslip i) (i_defslip i)
    (i_maxspread i) (i_admin i) a t a t prec pa pb 0 0 0).

(** storage.rs:279-293 mint_shares / burn_shares *)
Definition stable_mint_shares (e : Env) (self to amt : Z) : ST World unit :=
  p <- get_stable self ;;
  tok_mint e (Some self) (l_share p) to amt ;;
  t <- mlift (add_i (l_total p) amt) ;;
  put_stable self (set_l_total p t).
Definition stable_burn_shares (e : Env) (self amt : Z) : ST World unit :=
  p <- get_stable self ;;
  tok_burn e (Some self) (l_share p) self amt ;;
  t <- mlift (sub_i (l_total p) amt) ;;
  put_stable self (set_l_total p t).

Definition amp_of (p : Stable) (t : Z) : res Z := current_amp t (l_iamp p) (l_iampt p) (l_namp p) (l_nampt p).

(** contract.rs:345-352,372-389: compute_d of the scaled amounts *)
Definition invariant_of (amp a b da db : Z) : res Z :=
  let? x := scale_value a da DECIMAL_PRECISION in
  let? y := scale_value b db DECIMAL_PRECISION in
  compute_d amp x y.

(** contract.rs:354-403: the shares to mint *)
Definition stable_shares (p : Stable) (amp newd da db : Z) : res Z :=
  if l_total p =? 0 then
    let? f := pow10_u (DECIMAL_PRECISION - l_prec p) in
    let? u := w2u newd in
    let? q := div_u u f in
    let? s := sub_u q MINIMUM_LIQUIDITY_AMOUNT in
    assert? negb (s =? 0) or EContract 10 in
    Ok s
  else
    let? oa := i2u (l_ra p) in
    let? ob := i2u (l_rb p) in
    let? d0 := invariant_of amp oa ob da db in
    let? u0 := w2u d0 in
    let? u1 := w2u newd in
    let? df := sub_u u1 u0 in
    let? delta := u2i df in
    let? init := u2i u0 in
    let? r := dec_div delta init in
    let? s := i_mul_dec (l_total p) r in
    i2u s.

(** contract.rs:275-434 provide_liquidity *)
Definition stable_provide (e : Env) (c : option Addr) (self sender da db : Z)
    (custom dl min_shares : option Z) : ST World unit :=
  enter self KStable ;;
  check_deadline 19 dl ;;
  mguard (vpos (Some da) && vpos (Some db)) EPanic ;;
  require_auth e c sender ;;
  p <- get_stable self ;;
  mguard (negb (l_maxslip p <? match custom with Some s => s | None => l_defslip p end)) (EContract 2) ;;
  t <- now ;;
  amp <- mlift (amp_of p t) ;;
  deca <- tok_decimals (l_ta p) ;;
  decb <- tok_decimals (l_tb p) ;;
  ba0 <- tok_balance (l_ta p) self ;;
  bb0 <- tok_balance (l_tb p) self ;;
  tok_transfer e (Some self) (l_ta p) sender self da ;;
  tok_transfer e (Some self) (l_tb p) sender self db ;;
  ba1 <- tok_balance (l_ta p) self ;;
  bb1 <- tok_balance (l_tb p) self ;;
  ra <- mlift (sub_i ba1 ba0) ;;
  rb <- mlift (sub_i bb1 bb0) ;;
  na <- mlift (add_i ra (l_ra p)) ;;
  nb <- mlift (add_i rb (l_rb p)) ;;
  ua <- mlift (i2u na) ;;
  ub <- mlift (i2u nb) ;;
  newd <- mlift (invariant_of amp ua ub deca decb) ;;
  s <- mlift (stable_shares p amp newd deca decb) ;;
  mguard (match min_shares with Some m => negb (s <? m) | None => true end) (EContract 21) ;;
  ba <- tok_balance (l_ta p) self ;;
  bb <- tok_balance (l_tb p) self ;;
  si <- mlift (u2i s) ;;
  stable_mint_shares e self sender si ;;
  p' <- get_stable self ;;
  put_stable self (set_l_res p' ba bb).

(** contract.rs:1008-1051 compute_swap: (return, spread, commission) *)
Definition stable_compute_swap (amp prec x px y py dx rate : Z) : res (Z * Z * Z) :=
  let? s := add_u x dx in
  let? sn := scale_value s prec DECIMAL_PRECISION in
  let? sx := scale_value x px DECIMAL_PRECISION in
  let? sy := scale_value y py DECIMAL_PRECISION in
  let? ny := calc_y amp sn sx sy prec in
  let? ret := sub_u y ny in
  let? spread := (if ret <? dx then u2i (dx - ret) else Ok 0) in
  let? r := u2i ret in
  let? comm := i_mul_dec r rate in
  let? net := sub_i r comm in
  Ok (net, spread, comm).

(** contract.rs:832-978 do_swap *)
Definition stable_do_swap (e : Env) (self sender offer amt : Z) (ask_min max_spread max_fee : option Z) : ST World Z :=
  p <- get_stable self ;;
  mguard (match max_fee with Some f => negb (f <? l_fee p) | None => true end) (EContract 23) ;;
  mguard ((offer =? l_ta p) || (offer =? l_tb p)) (EContract 12) ;;
  mguard (match max_spread with Some s => (0 <=? s) && (s <=? l_maxspread p) | None => true end) (EContract 9) ;;
  let ms := dec_bps (match max_spread with Some s => s | None => l_maxspread p end) in
  let is_a := offer =? l_ta p in
  let '(rs, rb) := if is_a then (l_ra p, l_rb p) else (l_rb p, l_ra p) in
  let '(ps, pb) := if is_a then (l_preca p, l_precb p) else (l_precb p, l_preca p) in
  t <- now ;;
  us <- mlift (i2u rs) ;;
  ub <- mlift (i2u rb) ;;
  ux <- mlift (i2u amt) ;;
  amp <- mlift (amp_of p t) ;;
  ' (ret, spread, comm) <- mlift (stable_compute_swap amp (l_prec p) us ps ub pb ux (dec_bps (l_fee p))) ;;
  mguard (match ask_min with Some m => negb (ret <? m) | None => true end) (EContract 15) ;;
  tot <- mlift (add_i ret comm) ;;
  mlift (assert_max_spread ms tot spread) ;;
  let '(sell, buy) := if is_a then (l_ta p, l_tb p) else (l_tb p, l_ta p) in
  before <- tok_balance sell self ;;
  tok_transfer e (Some self) sell sender self amt ;;
  after <- tok_balance sell self ;;
  recv <- mlift (sub_i after before) ;;
  tok_transfer e (Some self) buy self sender ret ;;
  tok_transfer e (Some self) buy self (l_feerec p) comm ;;
  ns <- mlift (add_i rs recv) ;;
  n1 <- mlift (sub_i rb comm) ;;
  nb <- mlift (sub_i n1 ret) ;;
  put_stable self (if is_a then set_l_res p ns nb else set_l_res p nb ns) ;;
  mret ret.

(** contract.rs:437-473 swap *)
Definition stable_swap (e : Env) (c : option Addr) (self sender offer amt : Z)
    (ask_min max_spread dl max_fee : option Z) : ST World Z :=
  enter self KStable ;;
  check_deadline 19 dl ;;
  mguard (vpos (Some amt)) EPanic ;;
  require_auth e c sender ;;
  stable_do_swap e self sender offer amt ask_min max_spread max_fee.

(** contract.rs:475-562 withdraw_liquidity *)
Definition stable_withdraw (e : Env) (c : option Addr) (self sender share mina minb : Z) (dl : option Z) : ST World (Z * Z) :=
  enter self KStable ;;
  check_deadline 19 dl ;;
  mguard (vpos (Some share) && vpos (Some mina) && vpos (Some minb)) EPanic ;;
  require_auth e c sender ;;
  p <- get_stable self ;;
  tok_transfer e (Some self) (l_share p) sender self share ;;
  mguard (negb (l_total p =? 0)) (EContract 5) ;;
  ratio <- mlift (dec_from_ratio share (l_total p)) ;;
  a <- mlift (i_mul_dec (l_ra p) ratio) ;;
  b <- mlift (i_mul_dec (l_rb p) ratio) ;;
  mguard (negb ((a <? mina) || (b <? minb))) (EContract 3) ;;
  stable_burn_shares e self share ;;
  tok_transfer e (Some self) (l_ta p) self sender a ;;
  tok_transfer e (Some self) (l_tb p) self sender b ;;
  na <- mlift (sub_i (l_ra p) a) ;;
  nb <- mlift (sub_i (l_rb p) b) ;;
  p' <- get_stable self ;;
  put_stable self (set_l_res p' na nb) ;;
  mret (a, b).

(** contract.rs:564-603 update_config: compares [sender] with the admin, but asks
    for nobody's authorisation *)
Definition stable_update_config (self sender : Addr)
    (admin fee feerec maxslip maxspread : option Z) : ST World unit :=
  enter self KStable ;;
  p <- get_stable self ;;
  mguard (sender =? l_admin p) (EContract 11) ;;
  mguard (vbps_o fee && vbps_o maxslip && vbps_o maxspread) EPanic ;;
  put_stable self (mkStable (l_ta p) (l_tb p) (l_share p) (l_stake p)
    (opt_or fee (l_fee p)) (opt_or feerec (l_feerec p)) (opt_or maxslip (l_maxslip p)) (l_defslip p)
    (opt_or maxspread (l_maxspread p)) (opt_or admin (l_admin p))
    (l_iamp p) (l_iampt p) (l_namp p) (l_nampt p) (l_prec p) (l_preca p) (l_precb p)
    (l_total p) (l_ra p) (l_rb p)).

(** contract.rs:605-610 upgrade and 824-829 update: the same code twice *)
Definition stable_upgrade (e : Env) (c : option Addr) (self hash : Z) : ST World unit :=
  enter self KStable ;;
  p <- get_stable self ;;
  require_auth e c (l_admin p) ;;
  put_wasm self hash.

(** contract.rs:687-734 simulate_swap *)
Definition stable_simulate_swap (self offer amt : Z) : ST World SimSwap :=
  enter self KStable ;;
  p <- get_stable self ;;
  mguard ((offer =? l_ta p) || (offer =? l_tb p)) (EContract 6) ;;
  let '(rs, rb) := if offer =? l_ta p then (l_ra p, l_rb p) else (l_rb p, l_ra p) in
  let '(ps, pb) := if offer =? l_ta p then (l_preca p, l_precb p) else (l_precb p, l_preca p) in
  t <- now ;;
  us <- mlift (i2u rs) ;;
  ub <- mlift (i2u rb) ;;
  ux <- mlift (i2u amt) ;;
  amp <- mlift (amp_of p t) ;;
  ' (ret, spread, comm) <- mlift (stable_compute_swap amp (l_prec p) us ps ub pb ux (dec_bps (l_fee p))) ;;
  t1 <- mlift (add_i ret comm) ;;
  tot <- mlift (add_i t1 spread) ;;
  mret (mkSimSwap ret comm spread tot).

(** contract.rs:1059-1111 compute_offer_amount: (offer, spread, commission) *)
Definition stable_offer_amount (amp prec x px y py ask rate : Z) : res (Z * Z * Z) :=
  let? om := dec_sub dec_one rate in
  let? inv := dec_div dec_one om in
  let? ai := u2i ask in
  let? before := i_mul_dec ai inv in
  let? ub := i2u before in
  let? ly := sub_u y ub in
  let? sn := scale_value ly prec DECIMAL_PRECISION in
  let? sx := scale_value x px DECIMAL_PRECISION in
  let? sy := scale_value y py DECIMAL_PRECISION in
  let? nx := calc_y amp sn sx sy prec in
  let? offer := sub_u nx x in
  let spread := if ask <? offer then offer - ask else 0 in
  let? comm := i_mul_dec before rate in
  let? o := u2i offer in
  let? s := u2i spread in
  Ok (o, s, comm).

(** contract.rs:736-783 simulate_reverse_swap: [offer] is the sold asset *)
Definition stable_simulate_reverse (self offer ask : Z) : ST World SimReverse :=
  enter self KStable ;;
  p <- get_stable self ;;
  mguard ((offer =? l_ta p) || (offer =? l_tb p)) (EContract 6) ;;
  let '(rs, rb) := if offer =? l_ta p then (l_ra p, l_rb p) else (l_rb p, l_ra p) in
  let '(ps, pb) := if offer =? l_ta p then (l_preca p, l_precb p) else (l_precb p, l_preca p) in
  t <- now ;;
  us <- mlift (i2u rs) ;;
  ub <- mlift (i2u rb) ;;
  ua <- mlift (i2u ask) ;;
  amp <- mlift (amp_of p t) ;;
  ' (o, s, cm) <- mlift (stable_offer_amount amp (l_prec p) us ps ub pb ua (dec_bps (l_fee p))) ;;
  mret (mkSimReverse o cm s).

(** contract.rs:785-811 query_share *)
Definition stable_query_share (self amt : Z) : ST World (Z * Z) :=
  enter self KStable ;;
  p <- get_stable self ;;
  ratio <- mlift (if l_total p =? 0 then Ok dec_zero else dec_from_ratio amt (l_total p)) ;;
  a <- mlift (i_mul_dec (l_ra p) ratio) ;;
  b <- mlift (i_mul_dec (l_rb p) ratio) ;;
  mret (a, b).

(** contract.rs:614-685,813-818: plain reads *)
Definition stable_query (self : Addr) : ST World Stable := enter self KStable ;; get_stable self.

Arguments stable_initialize : simpl never.
Arguments stable_provide : simpl never.
Arguments stable_swap : simpl never.
Arguments stable_do_swap : simpl never.
Arguments stable_withdraw : simpl never.
Arguments stable_update_config : simpl never.
Arguments stable_upgrade : simpl never.
Arguments stable_mint_shares : simpl never.
Arguments stable_burn_shares : simpl never.
Arguments stable_compute_swap : simpl never.
Arguments stable_offer_amount : simpl never.
Arguments stable_shares : simpl never.
Arguments invariant_of : simpl never.
Arguments compute_d : simpl never.
Arguments calc_y : simpl never.
Arguments d_loop : simpl never.
Arguments y_loop : simpl never.
Arguments amp_of : simpl never.
