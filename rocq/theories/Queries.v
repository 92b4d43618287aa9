(** The read-only entry points of all contracts, with the ledger entries they read and extend
    (recorded as in Touch.v).  They are called off-chain, by other contracts, or in a transaction
    of their own; in the last case the extensions of lifetimes take effect.  That the recorded
    functions answer what the query functions of the other model files answer is proved in
    QueriesErase.v.

    Simplifications: string metadata (name, symbol of a token, name of a trader) is left out of
    the answers, but reading it is recorded; configurations are answered as the list of their
    address and number fields; a query of a staking or vesting contract that was never
    initialised fails here, where some of the code would answer with an empty record.
    No proofs in this file. *)
From Coq Require Import ZArith List Bool.
From Verif Require Import Base FMap Decimal Curve World Token Stake Pool Stable Rewards Vest Factory Router Extra Touch.
Import ListNotations.
Open Scope list_scope.
Open Scope Z_scope.

Inductive Query :=
(* token *)
| QBalance (t u : Addr) | QAllowance (t from sp : Addr) | QDecimals (t : Addr)
(* constant-product pool *)
| QPoolConfig (p : Addr) | QPoolShareToken (p : Addr) | QPoolStake (p : Addr) | QPoolInfo (p : Addr)
| QPoolRow (p : Addr) | QPoolSim (p offer amt : Z) | QPoolRev (p ask amt : Z) | QPoolShare (p amt : Z) | QPoolTotal (p : Addr)
(* stable pool *)
| QStabConfig (p : Addr) | QStabShareToken (p : Addr) | QStabStake (p : Addr) | QStabInfo (p : Addr)
| QStabRow (p : Addr) | QStabSim (p offer amt : Z) | QStabRev (p offer amt : Z) | QStabShare (p amt : Z) | QStabTotal (p : Addr)
(* stake *)
| QStakeConfig (k : Addr) | QStakeAdmin (k : Addr) | QStaked (k u : Addr) | QTotalStaked (k : Addr) | QRewards (k u : Addr)
(* stake_rewards *)
| QRewConfig (r : Addr) | QRewAdmin (r : Addr) | QAnnual (r total : Z) | QWithdrawable (r u : Addr) (b : Bonding)
| QDistributed (r a : Addr) | QUndistributed (r a : Addr)
(* vesting *)
| QVestBalance (v u : Addr) | QVestInfo (v u i : Addr) | QVestAll (v u : Addr) | QVestToken (v : Addr) | QVestMinter (v : Addr)
| QVestHeld (v : Addr) | QVestClaimable (v u i : Addr)
(* factory *)
| QPools (f : Addr) | QDetails (f p : Addr) | QAllDetails (f : Addr) | QPairPool (f a b : Addr) | QFactAdmin (f : Addr)
| QFactConfig (f : Addr) | QPortfolio (f u : Addr) (staking : bool)
(* multihop *)
| QRoute (h : Addr) (ops : list SwapOp) (amt : Z) | QRouteRev (h : Addr) (ops : list SwapOp) (amt : Z)
(* trader *)
| QTraderBalances (d : Addr) | QTraderPair (d : Addr) | QTraderAdmin (d : Addr) | QTraderName (d : Addr) | QTraderOut (d : Addr).

Inductive Answer :=
| AInt (x : Z) | AInts (l : list Z) | APairs (l : list (Z * Z)) | ASim (x : SimSwap) | ARev (x : SimReverse)
| AShare (a b : Z) | ARow (p : Addr) (i : PoolInfo) | ARows (l : list (Addr * PoolInfo)) | AStaked (b : Bonding)
| AVest (x : VInfo) | AVests (l : list VInfo) | ARoute (x : Z * list Z * list Z)
| AFolio (x : list ((Addr * Z) * (Addr * Z)) * list (Addr * list StakeE)).

(** ** token/src/contract.rs:75-80 allowance (a temporary entry), 98-103 balance, 152-162 *)
Definition z_allowance (t from sp : Addr) : TST Z :=
  a <- tf (tok_allowance t from sp) ;;
  come t ;;
  mret a.

(** ** pool/src/contract.rs:593-774: every query extends the instance and reads the given entries *)
Definition z_pool_query (p : Addr) (ks : list Key) : TST Pool :=
  tf (enter p KPool) ;;
  come p ;;
  z_get_pool p ks.
(** 616-666 query_pool_info, query_pool_info_for_factory *)
Definition z_pool_info (p : Addr) : TST PoolInfo :=
  x <- z_pool_query p [YConfig; YResA; YResB; YTotal] ;;
  mret (mkPoolInfo (p_ta x) (p_ra x) (p_tb x) (p_rb x) (p_share x) (p_total x) (p_stake x) (p_fee x)).
(** 668-704 simulate_swap *)
Definition z_pool_simulate (self offer amt : Z) : TST SimSwap :=
  p <- z_pool_query self [YConfig; YResA; YResB] ;;
  mguard ((offer =? p_ta p) || (offer =? p_tb p)) (EContract 16) ;;
  let '(rs, rb) := if offer =? p_ta p then (p_ra p, p_rb p) else (p_rb p, p_ra p) in
  r <- mlift (compute_swap rs rb amt (dec_bps (p_fee p)) 0) ;;
  t1 <- mlift (add_i (cs_ret r) (cs_comm r)) ;;
  tot <- mlift (add_i t1 (cs_spread r)) ;;
  mret (mkSimSwap (cs_ret r) (cs_comm r) (cs_spread r) tot).
(** 706-739 simulate_reverse_swap *)
Definition z_pool_reverse (self ask amt : Z) : TST SimReverse :=
  p <- z_pool_query self [YConfig; YResA; YResB] ;;
  mguard ((ask =? p_tb p) || (ask =? p_ta p)) (EContract 16) ;;
  let '(rs, rb) := if ask =? p_tb p then (p_ra p, p_rb p) else (p_rb p, p_ra p) in
  ' (o, s, cm) <- mlift (compute_offer_amount rs rb amt (dec_bps (p_fee p))) ;;
  mret (mkSimReverse o cm s).
(** 741-767 query_share *)
Definition z_pool_share (self amt : Z) : TST (Z * Z) :=
  p <- z_pool_query self [YConfig; YResA; YResB; YTotal] ;;
  ratio <- mlift (if p_total p =? 0 then Ok dec_zero else dec_from_ratio amt (p_total p)) ;;
  a <- mlift (i_mul_dec (p_ra p) ratio) ;;
  b <- mlift (i_mul_dec (p_rb p) ratio) ;;
  mret (a, b).

(** ** pool_stable/src/contract.rs:614-818: everything is in the instance entry, which get_config,
    get_pool_balance_b, get_amp and get_precisions extend like a persistent one *)
Definition z_stable_query (p : Addr) : TST Stable :=
  tf (enter p KStable) ;;
  come p ;;
  instP p ;;
  tf (get_stable p).
(** 637-685 *)
Definition z_stable_info (p : Addr) : TST PoolInfo :=
  x <- z_stable_query p ;;
  mret (mkPoolInfo (l_ta x) (l_ra x) (l_tb x) (l_rb x) (l_share x) (l_total x) (l_stake x) (l_fee x)).
(** 687-734 simulate_swap *)
Definition z_stable_simulate (self offer amt : Z) : TST SimSwap :=
  p <- z_stable_query self ;;
  mguard ((offer =? l_ta p) || (offer =? l_tb p)) (EContract 6) ;;
  let '(rs, rb) := if offer =? l_ta p then (l_ra p, l_rb p) else (l_rb p, l_ra p) in
  let '(ps, pb) := if offer =? l_ta p then (l_preca p, l_precb p) else (l_precb p, l_preca p) in
  t <- tf now ;;
  us <- mlift (i2u rs) ;;
  ub <- mlift (i2u rb) ;;
  ux <- mlift (i2u amt) ;;
  amp <- mlift (amp_of p t) ;;
  ' (ret, spread, comm) <- mlift (stable_compute_swap amp (l_prec p) us ps ub pb ux (dec_bps (l_fee p))) ;;
  t1 <- mlift (add_i ret comm) ;;
  tot <- mlift (add_i t1 spread) ;;
  mret (mkSimSwap ret comm spread tot).
(** 736-783 simulate_reverse_swap *)
Definition z_stable_reverse (self offer ask : Z) : TST SimReverse :=
  p <- z_stable_query self ;;
  mguard ((offer =? l_ta p) || (offer =? l_tb p)) (EContract 6) ;;
  let '(rs, rb) := if offer =? l_ta p then (l_ra p, l_rb p) else (l_rb p, l_ra p) in
  let '(ps, pb) := if offer =? l_ta p then (l_preca p, l_precb p) else (l_precb p, l_preca p) in
  t <- tf now ;;
  us <- mlift (i2u rs) ;;
  ub <- mlift (i2u rb) ;;
  ua <- mlift (i2u ask) ;;
  amp <- mlift (amp_of p t) ;;
  ' (o, s, cm) <- mlift (stable_offer_amount amp (l_prec p) us ps ub pb ua (dec_bps (l_fee p))) ;;
  mret (mkSimReverse o cm s).
(** 785-811 query_share *)
Definition z_stable_share (self amt : Z) : TST (Z * Z) :=
  p <- z_stable_query self ;;
  ratio <- mlift (if l_total p =? 0 then Ok dec_zero else dec_from_ratio amt (l_total p)) ;;
  a <- mlift (i_mul_dec (l_ra p) ratio) ;;
  b <- mlift (i_mul_dec (l_rb p) ratio) ;;
  mret (a, b).
(** 813-818 query_total_issued_lp: the instance is only extended like an instance *)
Definition z_stable_total (p : Addr) : TST Z :=
  tf (enter p KStable) ;;
  come p ;;
  x <- tf (get_stable p) ;;
  mret (l_total x).

(** ** stake/src/contract.rs:288-361, storage.rs:70-143, distribution.rs:16-66: stakes and flows
    are extended if they exist *)
Definition z_stake_query (k : Addr) (ks pk : list Key) : TST Stake :=
  tf (enter k KStake) ;;
  come k ;;
  s <- z_get_stake k ks ;;
  peek k pk ;;
  mret s.
(** 304-314 query_staked *)
Definition z_staked (k u : Addr) : TST Bonding :=
  s <- z_stake_query k [] [YUser u] ;;
  mret (s_user s u).
(** 344-361 query_withdrawable_rewards *)
Fixpoint z_query_pending (self : Addr) (s : Stake) (t : Z) (b : Bonding) (assets : list Addr) : TST (list (Addr * Z)) :=
  match assets with
  | [] => mret []
  | a :: tl =>
      p <- mlift (pending_rewards s t a b) ;;
      got self [YHist a; YTotHist] ;;
      r <- z_query_pending self s t b tl ;;
      mret ((a, as_u128 p) :: r)
  end.
Definition z_stake_rewards (k u : Addr) : TST (list (Addr * Z)) :=
  s <- z_stake_query k [] [YUser u; YDists] ;;
  t <- tf now ;;
  z_query_pending k s t (s_user s u) (s_dists s).

(** ** stake_rewards/src/contract.rs:432-534: the books are read and not extended *)
Definition z_rewards_query (r : Addr) (ks ls : list Key) : TST Rewards :=
  tf (enter r KRewards) ;;
  come r ;;
  z_get_rewards r ks ls.
(** 448-481 query_annualized_reward *)
Definition z_annualized (self total_staked : Z) : TST Z :=
  r <- z_rewards_query self [YConfig] [] ;;
  t <- tf now ;;
  p <- mlift (calc_power r total_staked) ;;
  if p =? 0 then mret 0
  else
    looks self [YDistr; YCurve] ;;
    a <- mlift (annualized_payout (r_curve r) t) ;;
    pu <- mlift (i2u p) ;;
    m <- mlift (mul_u pu (r_spp r)) ;;
    mi <- mlift (u2i m) ;;
    mlift (dec_div_i a mi).
(** 483-516 query_withdrawable_reward *)
Definition z_withdrawable (self user : Addr) (b : Bonding) : TST Z :=
  r <- z_rewards_query self [YConfig] [YDistr] ;;
  looks self [YAdj user] ;;
  t <- tf now ;;
  amt <- mlift (reward_now r t user b) ;;
  mlift (i2u amt).
(** 518-524, 526-534: the distribution of the asset is looked up under the asset's address, and
    there is one for the reward token only *)
Definition z_distributed (self a : Addr) : TST Z :=
  r <- z_rewards_query self [] [YDistr] ;;
  mguard (a =? r_token r) EPanic ;;
  mret (r_dist r).
Definition z_undistributed (self a : Addr) : TST Z :=
  r <- z_rewards_query self [] [YDistr] ;;
  mguard (a =? r_token r) EPanic ;;
  bal <- z_balance a self ;;
  u <- mlift (i2u bal) ;;
  mlift (sub_u u (r_wdr r)).

(** ** vesting/src/contract.rs:412-470, storage.rs:143-185 *)
Definition z_vest_query (v : Addr) (ks : list Key) : TST Vest :=
  tf (enter v KVest) ;;
  come v ;;
  z_get_vest v ks.
(** 412-417 query_balance, 453-459 query_vesting_contract_balance: get_token_info extends the
    instance like a persistent entry *)
Definition z_vest_balance (v u : Addr) : TST Z :=
  x <- z_vest_query v [] ;;
  instP v ;;
  z_balance (v_token x) u.
(** 419-424 query_vesting_info *)
Definition z_vest_info (v u i : Addr) : TST VInfo :=
  x <- z_vest_query v [] ;;
  y <- mlift (v_get x u i) ;;
  got v [YVest u i] ;;
  mret y.
(** 426-431, storage.rs:161-185 *)
Fixpoint z_all_from (fuel : nat) (c u i : Z) (m : fmap VInfo) : TST (list VInfo) :=
  match fuel with
  | O => mret []
  | S f =>
      peek c [YVest u i] ;;
      match fget i m with
      | Some x => r <- z_all_from f c u (i + 1) m ;; mret (x :: r)
      | None => mret []
      end
  end.
Definition z_vest_all (v u : Addr) : TST (list VInfo) :=
  x <- z_vest_query v [] ;;
  z_all_from (S (length (v_entries x u))) v u 0 (v_entries x u).
(** 461-470 query_available_to_claim *)
Definition z_vest_claimable (v u i : Addr) : TST Z :=
  x <- z_vest_query v [] ;;
  t <- tf now ;;
  a <- mlift (available x t u i) ;;
  got v [YVest u i] ;;
  mret a.

(** ** factory/src/contract.rs:305-491 *)
Definition z_fact_query (f : Addr) (ks : list Key) : TST Fact :=
  tf (enter f KFact) ;;
  come f ;;
  z_get_fact f ks.
Definition z_any_info (p : Addr) : TST PoolInfo :=
  w <- tf mget ;;
  match fget p (w_code w) with
  | Some KPool => z_pool_info p
  | Some KStable => z_stable_info p
  | _ => mfail EHost
  end.
Definition z_any_share (p amt : Addr) : TST (Z * Z) :=
  w <- tf mget ;;
  match fget p (w_code w) with
  | Some KPool => z_pool_share p amt
  | Some KStable => z_stable_share p amt
  | _ => mfail EHost
  end.
(** 312-322 query_pool_details *)
Definition z_details (f p : Addr) : TST PoolInfo :=
  tf (enter f KFact) ;;
  come f ;;
  z_any_info p.
(** 324-341 query_all_pools_details; the address in a row is the answering pool's own *)
Fixpoint z_rows (l : list Addr) : TST (list (Addr * PoolInfo)) :=
  match l with
  | [] => mret []
  | p :: tl => i <- z_any_info p ;; r <- z_rows tl ;; mret ((p, i) :: r)
  end.
Definition z_all_details (f : Addr) : TST (list (Addr * PoolInfo)) :=
  x <- z_fact_query f [YLps] ;;
  z_rows (f_lps x).
(** 420-491 query_user_portfolio: the stakes are read once more for the second list *)
Fixpoint z_portfolio (l : list Addr) (u : Addr) (staking : bool)
  : TST (list ((Addr * Z) * (Addr * Z)) * list (Addr * list StakeE)) :=
  match l with
  | [] => mret ([], [])
  | p :: tl =>
      i <- z_any_info p ;;
      bal <- z_balance (q_share i) u ;;
      b <- z_staked (q_stake i) u ;;
      st <- mlift (sum_stakes (b_stakes b) 0) ;;
      tot <- mlift (add_i bal st) ;;
      ' (xa, xb) <- z_any_share p tot ;;
      ' (lps, sts) <- z_portfolio tl u staking ;;
      mret ((if 0 <? tot then ((q_ta i, xa), (q_tb i, xb)) :: lps else lps),
            (if staking && negb (match b_stakes b with [] => true | _ => false end)
             then (q_stake i, b_stakes b) :: sts else sts))
  end.
Definition z_folio (f u : Addr) (staking : bool) :=
  x <- z_fact_query f [YLps] ;;
  z_portfolio (f_lps x) u staking.

(** ** multihop/src/contract.rs:145-287 *)
Definition z_any_simulate (pool offer amt : Z) : TST SimSwap :=
  w <- tf mget ;;
  match fget pool (w_code w) with
  | Some KPool => z_pool_simulate pool offer amt
  | Some KStable => z_stable_simulate pool offer amt
  | _ => mfail EHost
  end.
Definition z_any_reverse (pool asset amt : Z) : TST SimReverse :=
  w <- tf mget ;;
  match fget pool (w_code w) with
  | Some KPool => z_pool_reverse pool asset amt
  | Some KStable => z_stable_reverse pool asset amt
  | _ => mfail EHost
  end.
Fixpoint z_hop_sims (fact : Addr) (ops : list SwapOp) (amt : Z) : TST (Z * list Z * list Z) :=
  match ops with
  | [] => mret (amt, [], [])
  | o :: tl =>
      p <- z_fact_pool_by_pair fact (o_offer o) (o_ask o) ;;
      r <- z_any_simulate p (o_offer o) amt ;;
      z_decimals (o_offer o) ;;
      ' (a, cs, ss) <- z_hop_sims fact tl (ss_ask r) ;;
      mret (a, ss_comm r :: cs, ss_spread r :: ss)
  end.
Fixpoint z_hop_revs (fact : Addr) (ops : list SwapOp) (amt : Z) : TST (Z * list Z * list Z) :=
  match ops with
  | [] => mret (amt, [], [])
  | o :: tl =>
      p <- z_fact_pool_by_pair fact (o_offer o) (o_ask o) ;;
      r <- z_any_reverse p (o_ask o) amt ;;
      z_decimals (o_ask o) ;;
      ' (a, cs, ss) <- z_hop_revs fact tl (sr_offer r) ;;
      mret (a, sr_comm r :: cs, sr_spread r :: ss)
  end.
(** 145-215 simulate_swap, 217-287 simulate_reverse_swap; get_factory extends the instance like a
    persistent entry *)
Definition z_hop_simulate (self : Addr) (ops : list SwapOp) (amt : Z) : TST (Z * list Z * list Z) :=
  tf (enter self KHop) ;;
  come self ;;
  instP self ;;
  mguard (negb (match ops with [] => true | _ => false end)) (EContract 2) ;;
  mguard (chained ops) (EContract 3) ;;
  h <- tf (get_hop self) ;;
  z_hop_sims (h_fact h) ops amt.
Definition z_hop_reverse (self : Addr) (ops : list SwapOp) (amt : Z) : TST (Z * list Z * list Z) :=
  tf (enter self KHop) ;;
  come self ;;
  instP self ;;
  mguard (negb (match ops with [] => true | _ => false end)) (EContract 2) ;;
  mguard (rev_chained ops) (EContract 3) ;;
  h <- tf (get_hop self) ;;
  z_hop_revs (h_fact h) ops amt.

(** ** trader/src/contract.rs:201-269 *)
Definition z_trader_query (d : Addr) (ks : list Key) : TST Trader :=
  tf (enter d KTrader) ;;
  come d ;;
  z_get_trader d ks.
(** the balance and the symbol of a token *)
Definition z_asset (t u : Addr) : TST Z :=
  b <- z_balance t u ;;
  z_decimals t ;;
  mret b.
(** 201-233 query_balances: (output token, token a, token b) *)
Definition z_trader_balances (d : Addr) : TST (list Z) :=
  x <- z_trader_query d [YTOut; YTPair] ;;
  o <- z_asset (d_out x) d ;;
  a <- z_asset (d_ta x) d ;;
  b <- z_asset (d_tb x) d ;;
  mret [o; a; b].
(** 256-269 query_output_token_info *)
Definition z_trader_out (d : Addr) : TST (list Z) :=
  x <- z_trader_query d [YTOut] ;;
  n <- z_decimals (d_out x) ;;
  mret [d_out x; n].

(** ** All queries *)
Definition amap {A B} (f : A -> B) (m : TST A) : TST B := x <- m ;; mret (f x).
Definition zanswer (q : Query) : TST Answer :=
  match q with
  | QBalance t u => amap AInt (z_balance t u)
  | QAllowance t f s => amap AInt (z_allowance t f s)
  | QDecimals t => amap AInt (z_decimals t)
  | QPoolConfig p => amap (fun x => AInts [p_ta x; p_tb x; p_share x; p_stake x; p_fee x; p_feerec x; p_maxslip x; p_maxspread x; p_maxref x])
                          (z_pool_query p [YConfig])
  | QPoolShareToken p => amap (fun x => AInt (p_share x)) (z_pool_query p [YConfig])
  | QPoolStake p => amap (fun x => AInt (p_stake x)) (z_pool_query p [YConfig])
  | QPoolInfo p => amap (ARow p) (z_pool_info p)
  | QPoolRow p => amap (ARow p) (z_pool_info p)
  | QPoolSim p o a => amap ASim (z_pool_simulate p o a)
  | QPoolRev p o a => amap ARev (z_pool_reverse p o a)
  | QPoolShare p a => amap (fun x => AShare (fst x) (snd x)) (z_pool_share p a)
  | QPoolTotal p => amap (fun x => AInt (p_total x)) (z_pool_query p [YTotal])
  | QStabConfig p => amap (fun x => AInts [l_ta x; l_tb x; l_share x; l_stake x; l_fee x; l_feerec x; l_maxslip x; l_defslip x; l_maxspread x])
                          (z_stable_query p)
  | QStabShareToken p => amap (fun x => AInt (l_share x)) (z_stable_query p)
  | QStabStake p => amap (fun x => AInt (l_stake x)) (z_stable_query p)
  | QStabInfo p => amap (ARow p) (z_stable_info p)
  | QStabRow p => amap (ARow p) (z_stable_info p)
  | QStabSim p o a => amap ASim (z_stable_simulate p o a)
  | QStabRev p o a => amap ARev (z_stable_reverse p o a)
  | QStabShare p a => amap (fun x => AShare (fst x) (snd x)) (z_stable_share p a)
  | QStabTotal p => amap AInt (z_stable_total p)
  | QStakeConfig k => amap (fun s => AInts [s_lp s; s_minbond s; s_minreward s; s_manager s; s_owner s; s_maxc s]) (z_stake_query k [YConfig] [])
  | QStakeAdmin k => amap (fun s => AInt (s_admin s)) (z_stake_query k [YAdmin] [])
  | QStaked k u => amap AStaked (z_staked k u)
  | QTotalStaked k => amap (fun s => AInt (s_total s)) (z_stake_query k [YStaked] [])
  | QRewards k u => amap APairs (z_stake_rewards k u)
  | QRewConfig r => amap (fun x => AInts [r_staking x; r_token x; r_maxc x; r_minreward x; r_minbond x]) (z_rewards_query r [YConfig] [])
  | QRewAdmin r => amap (fun x => AInt (r_admin x)) (z_rewards_query r [YAdmin] [])
  | QAnnual r n => amap AInt (z_annualized r n)
  | QWithdrawable r u b => amap AInt (z_withdrawable r u b)
  | QDistributed r a => amap AInt (z_distributed r a)
  | QUndistributed r a => amap AInt (z_undistributed r a)
  | QVestBalance v u => amap AInt (z_vest_balance v u)
  | QVestInfo v u i => amap AVest (z_vest_info v u i)
  | QVestAll v u => amap AVests (z_vest_all v u)
  | QVestToken v => amap (fun x => AInt (v_token x)) (x <- z_vest_query v [] ;; instP v ;; mret x)
  | QVestMinter v => amap (fun m => AInts [fst m; snd m])
                          (x <- z_vest_query v [] ;; mlift (of_option (v_minter x) (EContract 3)))
  | QVestHeld v => amap AInt (z_vest_balance v v)
  | QVestClaimable v u i => amap AInt (z_vest_claimable v u i)
  | QPools f => amap (fun x => AInts (f_lps x)) (z_fact_query f [YLps])
  | QDetails f p => amap (ARow p) (z_details f p)
  | QAllDetails f => amap ARows (z_all_details f)
  | QPairPool f a b => amap AInt (z_fact_pool_by_pair f a b)
  | QFactAdmin f => amap (fun x => AInt (f_admin x)) (z_fact_query f [YConfig])
  | QFactConfig f => amap (fun x => AInts (f_admin x :: f_hop x :: f_lphash x :: f_stakehash x :: f_tokhash x :: f_lpdec x :: f_white x))
                          (z_fact_query f [YConfig])
  | QPortfolio f u b => amap AFolio (z_folio f u b)
  | QRoute h ops a => amap ARoute (z_hop_simulate h ops a)
  | QRouteRev h ops a => amap ARoute (z_hop_reverse h ops a)
  | QTraderBalances d => amap AInts (z_trader_balances d)
  | QTraderPair d => amap (fun x => AInts [d_ta x; d_tb x]) (z_trader_query d [YTPair])
  | QTraderAdmin d => amap (fun x => AInt (d_admin x)) (z_trader_query d [YAdmin])
  | QTraderName d => amap (fun x => AInt 0) (z_trader_query d [YName])
  | QTraderOut d => amap AInts (z_trader_out d)
  end.

(** the answer and the record of accesses in ledger [w] *)
Definition answer (q : Query) (w : World) : res Answer :=
  match zanswer q (w, []) with Ok (a, _) => Ok a | Err x => Err x end.
Definition reads (q : Query) (w : World) : list Touch :=
  match zanswer q (w, []) with Ok (_, (_, D)) => D | Err _ => [] end.
