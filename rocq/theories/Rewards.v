(** contracts/stake_rewards/src: points-per-share reward distribution.  The staking
    contract is an address that authorises the calls; the stakes it knows are call
    arguments.  (The stake contract of this repository never calls this contract.) *)
From Coq Require Import ZArith List Bool.
From Verif Require Import Base FMap Decimal Curve World Token Stake.
Import ListNotations.
Open Scope Z_scope.

(** distribution.rs:21, lib.rs:8 *)
Definition SHARES_SHIFT : Z := 32.
Definition TOKEN_PER_POWER : Z := 1000.

(** Rust shifts: [<<] on u128 drops the high bits, [>>] on i128 rounds down. *)
Definition shl_u128 (x n : Z) : Z := (x * 2 ^ n) mod (U128_MAX + 1).
Definition shr_i128 (x n : Z) : Z := x / 2 ^ n.
Definition as_u64 (x : Z) : Z := x mod (U64_MAX + 1).

Definition set_r_dist (r : Rewards) (spp left dist wdr : Z) : Rewards :=
  mkRewards (r_staking r) (r_token r) (r_maxc r) (r_minreward r) (r_minbond r) (r_admin r)
            spp left dist wdr (r_curve r) (r_adj r).
Definition set_r_adj (r : Rewards) (u : Addr) (a : Z * Z) : Rewards :=
  mkRewards (r_staking r) (r_token r) (r_maxc r) (r_minreward r) (r_minbond r) (r_admin r)
            (r_spp r) (r_left r) (r_dist r) (r_wdr r) (r_curve r) (fset u a (r_adj r)).
Definition set_r_curve (r : Rewards) (c : curve) : Rewards :=
  mkRewards (r_staking r) (r_token r) (r_maxc r) (r_minreward r) (r_minbond r) (r_admin r)
            (r_spp r) (r_left r) (r_dist r) (r_wdr r) c (r_adj r).

(** distribution.rs:150-164 get_withdraw_adjustment: (shares_correction, withdrawn_rewards) *)
Definition r_adj_of (r : Rewards) (u : Addr) : Z * Z := fgetd (0, 0) u (r_adj r).

(** contract.rs:83-134 initialize (no authorisation) *)
Definition rewards_initialize (self admin staking token maxc minreward minbond : Z) : ST World unit :=
  enter self KRewards ;;
  w <- mget ;;
  mguard (negb (fmem self (w_rewards w))) (EContract 1) ;;
  put_rewards self (mkRewards staking token maxc minreward minbond admin 1 0 0 0 (Constant 0) fempty).

(** distribution.rs:232-243 calc_power with multiplier one and 1000 tokens per power *)
Definition calc_power (r : Rewards) (stakes : Z) : res Z :=
  if stakes <? r_minbond r then Ok 0
  else let? m := i_mul_dec stakes dec_one in div_i m TOKEN_PER_POWER.

(** distribution.rs:85-118 update_rewards, apply_points_correction *)
Definition update_rewards (r : Rewards) (u : Addr) (oldp newp : Z) : res Rewards :=
  if oldp =? newp then Ok r
  else
    let? diff := sub_i newp oldp in
    let '(corr, wd) := r_adj_of r u in
    let? spp := u2i (r_spp r) in
    let? m := mul_i spp diff in
    let? corr' := sub_i corr m in
    Ok (set_r_adj r u (corr', wd)).

(** contract.rs:136-156 add_user *)
Definition rewards_add_user (e : Env) (c : option Addr) (self user : Addr) (b : Bonding) : ST World unit :=
  enter self KRewards ;;
  r <- get_rewards self ;;
  require_auth e c (r_staking r) ;;
  p <- mlift (calc_power r (b_total b)) ;;
  r' <- mlift (update_rewards r user 0 p) ;;
  put_rewards self r'.

(** contract.rs:158-186 calculate_bond *)
Definition rewards_bond (e : Env) (c : option Addr) (self sender : Addr) (b : Bonding) : ST World unit :=
  enter self KRewards ;;
  r <- get_rewards self ;;
  require_auth e c (r_staking r) ;;
  k <- mlift (match rev (b_stakes b) with k :: _ => Ok k | [] => Err EPanic end) ;;
  p0 <- mlift (calc_power r (b_total b)) ;;
  t <- mlift (add_i (b_total b) (k_amt k)) ;;
  p1 <- mlift (calc_power r t) ;;
  r' <- mlift (update_rewards r sender p0 p1) ;;
  put_rewards self r'.

(** distribution.rs:166-184 withdrawable_rewards *)
Definition withdrawable (r : Rewards) (total_staked : Z) (adj : Z * Z) : res Z :=
  let? p := calc_power r total_staked in
  let? spp := u2i (r_spp r) in
  let? pts := mul_i spp p in
  let? pts' := add_i pts (fst adj) in
  let? a := i2u (shr_i128 pts' SHARES_SHIFT) in
  sub_u a (snd adj).

(** distribution.rs:249-280 calc_withdraw_power: the loop over the stakes *)
Fixpoint weigh (t : Z) (l : list StakeE) (ws tw : Z) : res (Z * Z) :=
  match l with
  | [] => Ok (ws, tw)
  | k :: tl =>
      let? age := sub_64 t (k_ts k) in
      let days := age / SECONDS_PER_DAY in
      let power := if days <? 60 then days else 60 in
      let? s := i2u (k_amt k) in
      let? m := mul_u power s in
      let? ws' := add_u ws m in
      let? m2 := mul_u 60 s in
      let? tw' := add_u tw m2 in
      weigh t tl ws' tw'
  end.
Definition withdraw_power (t : Z) (l : list StakeE) : res Z :=
  let? (ws, tw) := weigh t l 0 0 in
  if 0 <? tw then
    let? a := u2i ws in
    let? b := u2i tw in dec_from_ratio a b
  else Ok dec_zero.

(** contract.rs:305-314, 499-510: the amount that would be paid to [u] now *)
Definition reward_now (r : Rewards) (t : Z) (u : Addr) (b : Bonding) : res Z :=
  let? a := withdrawable r (b_total b) (r_adj_of r u) in
  let? m := withdraw_power t (b_stakes b) in
  let? ai := u2i a in
  i_mul_dec ai m.

(** contract.rs:290-334 withdraw_rewards *)
Definition rewards_withdraw (e : Env) (c : option Addr) (self sender : Addr) (b : Bonding) : ST World unit :=
  enter self KRewards ;;
  r <- get_rewards self ;;
  require_auth e c (r_staking r) ;;
  t <- now ;;
  amt <- mlift (reward_now r t sender b) ;;
  if amt =? 0 then mret tt
  else
    let '(corr, wd) := r_adj_of r sender in
    wd' <- mlift (add_u wd (as_u128 amt)) ;;
    wt <- mlift (sub_u (r_wdr r) (as_u128 amt)) ;;
    put_rewards self (set_r_adj (set_r_dist r (r_spp r) (r_left r) (r_dist r) wt) sender (corr, wd')) ;;
    tok_transfer e (Some self) (r_token r) self sender amt.

(** contract.rs:483-516 query_withdrawable_reward *)
Definition rewards_query (self user : Addr) (b : Bonding) : ST World Z :=
  enter self KRewards ;;
  r <- get_rewards self ;;
  t <- now ;;
  amt <- mlift (reward_now r t user b) ;;
  mlift (i2u amt).

(** contract.rs:188-225 calculate_unbond.  Repeated authorisation of the staking
    contract inside the nested withdraw_rewards succeeds (it is the invoker). *)
Definition rewards_unbond (e : Env) (c : option Addr) (self sender : Addr) (b : Bonding) (removed : Z) : ST World unit :=
  enter self KRewards ;;
  require_auth e c sender ;;
  r <- get_rewards self ;;
  require_auth e c (r_staking r) ;;
  found <- rewards_query self sender b ;;
  (if found =? 0 then mret tt else rewards_withdraw e c self sender b) ;;
  r1 <- get_rewards self ;;
  p0 <- mlift (calc_power r1 (b_total b)) ;;
  t <- mlift (sub_i (b_total b) removed) ;;
  p1 <- mlift (calc_power r1 t) ;;
  r2 <- mlift (update_rewards r1 sender p0 p1) ;;
  put_rewards self r2.

(** contract.rs:227-288 distribute_rewards *)
Definition rewards_distribute (e : Env) (c : option Addr) (self total_staked : Z) : ST World unit :=
  enter self KRewards ;;
  r <- get_rewards self ;;
  require_auth e c (r_staking r) ;;
  pi <- mlift (calc_power r total_staked) ;;
  power <- mlift (i2u pi) ;;
  if power =? 0 then mret tt
  else
    bal <- tok_balance (r_token r) self ;;
    u <- mlift (i2u bal) ;;
    t <- now ;;
    locked <- mlift (cvalue (r_curve r) t) ;;
    a1 <- mlift (sub_u u (r_wdr r)) ;;
    amount <- mlift (sub_u a1 locked) ;;
    if amount =? 0 then mret tt
    else
      points <- mlift (add_u (shl_u128 amount SHARES_SHIFT) (r_left r)) ;;
      spp <- mlift (add_u (r_spp r) (points / power)) ;;
      dist <- mlift (add_u (r_dist r) amount) ;;
      wdr <- mlift (add_u (r_wdr r) amount) ;;
      put_rewards self (set_r_dist r spp (as_u64 (points mod power)) dist wdr).

(** contract.rs:336-428 fund_distribution *)
Definition rewards_fund (e : Env) (c : option Addr) (self start duration amount : Z) : ST World unit :=
  enter self KRewards ;;
  r <- get_rewards self ;;
  require_auth e c (r_admin r) ;;
  require_auth e c (r_staking r) ;;
  t <- now ;;
  mguard (negb (start <? t)) (EContract 9) ;;
  mguard (negb (amount <? r_minreward r)) (EContract 6) ;;
  tok_transfer e (Some self) (r_token r) (r_admin r) self amount ;;
  fin <- mlift (add_64 t duration) ;;
  ua <- mlift (i2u amount) ;;
  let nc := SatLin start ua fin 0 in
  let '(mn, mx) := crange nc in
  mguard (negb (negb (mn =? 0) || (ua <? mx))) (EContract 7) ;;
  c' <- mlift (match cend (r_curve r) with
              | Some x => if x <? t then Ok nc else
                  let? k := combine (r_curve r) nc in
                  match validate_complexity k (r_maxc r) with None => Ok k | Some _ => Err (EContract 12) end
              | None =>
                  let? k := combine (r_curve r) nc in
                  match validate_complexity k (r_maxc r) with None => Ok k | Some _ => Err (EContract 12) end
              end) ;;
  put_rewards self (set_r_curve r c').

(** contract.rs:540-545 update *)
Definition rewards_update (e : Env) (c : option Addr) (self hash : Z) : ST World unit :=
  enter self KRewards ;;
  r <- get_rewards self ;;
  require_auth e c (r_admin r) ;;
  put_wasm self hash.

(** contract.rs:518-524 query_distributed_reward, 526-534 query_undistributed_reward (for
    the reward token; any other asset panics) *)
Definition rewards_undistributed (self : Addr) : ST World Z :=
  enter self KRewards ;;
  r <- get_rewards self ;;
  bal <- tok_balance (r_token r) self ;;
  u <- mlift (i2u bal) ;;
  mlift (sub_u u (r_wdr r)).

(** distribution.rs:186-230 calculate_annualized_payout, as a raw decimal *)
Definition SECONDS_PER_YEAR : Z := 31536000.
Definition annualized_payout (k : curve) (t : Z) : res Z :=
  match cend k with
  | None => Ok 0
  | Some lst =>
      if lst <=? t then Ok 0
      else if SECONDS_PER_YEAR <=? lst - t then
        let? a := cvalue k t in
        let? t1 := add_64 t SECONDS_PER_YEAR in
        let? b := cvalue k t1 in
        let? d := sub_u a b in
        let? i := u2i d in dec_from_atomics i 0
      else
        let? a := cvalue k t in
        let? m := mul_u a SECONDS_PER_YEAR in
        let? i := u2i m in dec_from_ratio i (lst - t)
  end.

(** contract.rs:448-481 query_annualized_reward, as a raw decimal *)
Definition rewards_annualized (self total_staked : Z) : ST World Z :=
  enter self KRewards ;;
  r <- get_rewards self ;;
  t <- now ;;
  p <- mlift (calc_power r total_staked) ;;
  if p =? 0 then mret 0
  else
    a <- mlift (annualized_payout (r_curve r) t) ;;
    pu <- mlift (i2u p) ;;
    m <- mlift (mul_u pu (r_spp r)) ;;
    mi <- mlift (u2i m) ;;
    mlift (dec_div_i a mi).

Arguments rewards_initialize : simpl never.
Arguments rewards_add_user : simpl never.
Arguments rewards_bond : simpl never.
Arguments rewards_update : simpl never.
Arguments rewards_unbond : simpl never.
Arguments rewards_withdraw : simpl never.
Arguments rewards_query : simpl never.
Arguments rewards_distribute : simpl never.
Arguments rewards_fund : simpl never.
Arguments calc_power : simpl never.
Arguments update_rewards : simpl never.
Arguments withdrawable : simpl never.
Arguments withdraw_power : simpl never.
Arguments reward_now : simpl never.
Arguments shl_u128 : simpl never.
Arguments shr_i128 : simpl never.
Arguments as_u64 : simpl never.
