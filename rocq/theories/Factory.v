(** contracts/factory/src: creates pools and keeps the registry of pools. *)
From Coq Require Import ZArith List Bool.
From Verif Require Import Base FMap Decimal World Token Stake Pool Stable.
Import ListNotations.
Open Scope Z_scope.

(** contracts/multihop/src/contract.rs:61-78 initialize (no authorisation) *)
Definition hop_initialize (self admin factory : Addr) : ST World unit :=
  enter self KHop ;;
  w <- mget ;;
  mguard (negb (fmem self (w_hop w))) (EContract 1) ;;
  put_hop self (mkHop admin factory).

(** contract.rs:91-138 initialize (no authorisation); utils.rs:19-38
    deploy_and_initialize_multihop_contract: the multihop hash deploys the multihop
    contract of this repository. *)
Definition fact_initialize (e : Env) (self admin lph stabh stakeh tokh : Z) (white : list Addr) (lpdec : Z) : ST World unit :=
  enter self KFact ;;
  w <- mget ;;
  mguard (negb (fmem self (w_fact w))) (EContract 1) ;;
  mguard (negb (match white with [] => true | _ => false end)) (EContract 2) ;;
  let h := e_hash e self (SOne admin) in
  deploy h KHop ;;
  hop_initialize h admin self ;;
  put_fact self (mkFact admin h lph stakeh tokh stabh white lpdec [] fempty).

Definition set_f_reg (f : Fact) (lps : list Addr) (pairs : fmap (fmap Addr)) : Fact :=
  mkFact (f_admin f) (f_hop f) (f_lphash f) (f_stakehash f) (f_tokhash f) (f_stabhash f)
         (f_white f) (f_lpdec f) lps pairs.
Definition set_f_white (f : Fact) (l : list Addr) : Fact :=
  mkFact (f_admin f) (f_hop f) (f_lphash f) (f_stakehash f) (f_tokhash f) (f_stabhash f)
         l (f_lpdec f) (f_lps f) (f_pairs f).
Definition set_f_hashes (f : Fact) (lph stakeh tokh stabh : Z) : Fact :=
  mkFact (f_admin f) (f_hop f) lph stakeh tokh stabh
         (f_white f) (f_lpdec f) (f_lps f) (f_pairs f).

(** storage.rs:185-206 *)
Definition pair_get (f : Fact) (a b : Addr) : option Addr := fget b (fgetd fempty a (f_pairs f)).
Definition pair_set (f : Fact) (a b p : Addr) : fmap (fmap Addr) :=
  fset a (fset b p (fgetd fempty a (f_pairs f))) (f_pairs f).

Inductive PoolType := Xyk | StableT.

(** contract.rs:141-235 create_liquidity_pool; utils.rs:3-17; 506-544 validate_token_info,
    validate_pool_info.  The stored wasm hash of a pool type deploys the pool
    contract of that type of this repository. *)
Definition fact_create (e : Env) (c : option Addr) (self sender : Addr) (i : PoolInit) (ty : PoolType)
    (amp : option Z) (defslip maxfee : Z) : ST World Addr :=
  enter self KFact ;;
  require_auth e c sender ;;
  mguard (match ty, amp with StableT, None => false | _, _ => true end) EPanic ;;
  f <- get_fact self ;;
  mguard (zmem sender (f_white f)) (EContract 3) ;;
  mguard (negb (i_tb i <=? i_ta i)) (EContract 5) ;;
  mguard (negb (i_minbond i <=? 0)) (EContract 6) ;;
  mguard (negb (i_minreward i <=? 0)) (EContract 7) ;;
  let p := e_hash e self (SPair (i_ta i) (i_tb i)) in
  deploy p (match ty with Xyk => KPool | StableT => KStable end) ;;
  mguard (vbps (i_fee i) && vbps (i_maxslip i) && vbps (i_maxspread i) && vbps (i_maxref i)
          && vbps defslip && vbps maxfee) EPanic ;;
  (match ty with
   | Xyk => pool_initialize e p i self (f_lpdec f) defslip maxfee
   | StableT => stable_initialize e p i self (match amp with Some a => a | None => 0 end) maxfee
   end) ;;
  put_fact self (set_f_reg f (f_lps f ++ [p]) (pair_set f (i_ta i) (i_tb i) p)) ;;
  mret p.

(** contract.rs:260-270: add, then remove the first occurrence *)
Fixpoint wl_add (l add : list Addr) : list Addr :=
  match add with
  | [] => l
  | a :: tl => wl_add (if zmem a l then l else l ++ [a]) tl
  end.
Fixpoint remove_first (a : Addr) (l : list Addr) : list Addr :=
  match l with [] => [] | x :: tl => if x =? a then tl else x :: remove_first a tl end.
Fixpoint wl_remove (l rm : list Addr) : list Addr :=
  match rm with [] => l | a :: tl => wl_remove (remove_first a l) tl end.

(** contract.rs:237-279 update_whitelisted_accounts *)
Definition fact_update_whitelist (e : Env) (c : option Addr) (self sender : Addr) (add rm : list Addr) : ST World unit :=
  enter self KFact ;;
  require_auth e c sender ;;
  f <- get_fact self ;;
  mguard (f_admin f =? sender) (EContract 3) ;;
  put_fact self (set_f_white f (wl_remove (wl_add (f_white f) add) rm)).

(** contract.rs:281-303 update_wasm_hashes *)
Definition fact_update_hashes (e : Env) (c : option Addr) (self : Addr) (lph stakeh tokh : option Z) : ST World unit :=
  enter self KFact ;;
  f <- get_fact self ;;
  require_auth e c (f_admin f) ;;
  put_fact self (set_f_hashes f (opt_or lph (f_lphash f)) (opt_or stakeh (f_stakehash f))
                                (opt_or tokh (f_tokhash f)) (f_stabhash f)).

(** contract.rs:497-503 update: replaces the code and the stable hash *)
Definition fact_update (e : Env) (c : option Addr) (self hash stabh : Z) : ST World unit :=
  enter self KFact ;;
  f <- get_fact self ;;
  require_auth e c (f_admin f) ;;
  put_wasm self hash ;;
  put_fact self (set_f_hashes f (f_lphash f) (f_stakehash f) (f_tokhash f) stabh).

(** contract.rs:343-404 query_for_pool_by_token_pair *)
Definition fact_pool_by_pair (self a b : Addr) : ST World Addr :=
  enter self KFact ;;
  f <- get_fact self ;;
  match pair_get f a b with
  | Some p => mret p
  | None => match pair_get f b a with
            | Some p => mret p
            | None => mfail (EContract 4)
            end
  end.

(** contract.rs:305-310 query_pools, 406-418 get_admin/get_config: plain reads *)
Definition fact_query (self : Addr) : ST World Fact := enter self KFact ;; get_fact self.

(** ** Pool calls by symbol: a client of one pool type also works on the other *)
(** query_pool_info_for_factory of either pool type (pool/contract.rs:639-668,
    pool_stable/contract.rs:658-685) *)
Record PoolInfo := mkPoolInfo { q_ta : Addr; q_ra : Z; q_tb : Addr; q_rb : Z; q_share : Addr; q_total : Z;
                                q_stake : Addr; q_fee : Z }.
Definition any_pool_info (p : Addr) : ST World PoolInfo :=
  w <- mget ;;
  match fget p (w_code w) with
  | Some KPool => x <- pool_query p ;;
      mret (mkPoolInfo (p_ta x) (p_ra x) (p_tb x) (p_rb x) (p_share x) (p_total x) (p_stake x) (p_fee x))
  | Some KStable => x <- stable_query p ;;
      mret (mkPoolInfo (l_ta x) (l_ra x) (l_tb x) (l_rb x) (l_share x) (l_total x) (l_stake x) (l_fee x))
  | _ => mfail EHost
  end.
Definition any_query_share (p amt : Addr) : ST World (Z * Z) :=
  w <- mget ;;
  match fget p (w_code w) with
  | Some KPool => pool_query_share p amt
  | Some KStable => stable_query_share p amt
  | _ => mfail EHost
  end.

(** contract.rs:312-341 query_pool_details, query_all_pools_details *)
Fixpoint pools_details (l : list Addr) : ST World (list PoolInfo) :=
  match l with
  | [] => mret []
  | p :: tl => i <- any_pool_info p ;; r <- pools_details tl ;; mret (i :: r)
  end.
Definition fact_all_details (self : Addr) : ST World (list PoolInfo) :=
  enter self KFact ;; f <- get_fact self ;; pools_details (f_lps f).

(** contract.rs:449-450 [iter().map().sum()]: i128 additions from 0 *)
Fixpoint sum_stakes (l : list StakeE) (acc : Z) : res Z :=
  match l with [] => Ok acc | k :: tl => let? a := add_i acc (k_amt k) in sum_stakes tl a end.

(** contract.rs:420-491 query_user_portfolio: ((token_a, amount), (token_b, amount)) per pool,
    and (stake contract, stakes) per pool *)
Fixpoint portfolio (l : list Addr) (u : Addr) (staking : bool)
  : ST World (list ((Addr * Z) * (Addr * Z)) * list (Addr * list StakeE)) :=
  match l with
  | [] => mret ([], [])
  | p :: tl =>
      i <- any_pool_info p ;;
      bal <- tok_balance (q_share i) u ;;
      b <- stake_query_staked (q_stake i) u ;;
      st <- mlift (sum_stakes (b_stakes b) 0) ;;
      tot <- mlift (add_i bal st) ;;
      ' (xa, xb) <- any_query_share p tot ;;
      ' (lps, sts) <- portfolio tl u staking ;;
      mret ((if 0 <? tot then ((q_ta i, xa), (q_tb i, xb)) :: lps else lps),
            (if staking && negb (match b_stakes b with [] => true | _ => false end)
             then (q_stake i, b_stakes b) :: sts else sts))
  end.
Definition fact_portfolio (self u : Addr) (staking : bool) :=
  enter self KFact ;; f <- get_fact self ;; portfolio (f_lps f) u staking.

Arguments hop_initialize : simpl never.
Arguments fact_initialize : simpl never.
Arguments fact_create : simpl never.
Arguments fact_update_whitelist : simpl never.
Arguments fact_update_hashes : simpl never.
Arguments fact_update : simpl never.
Arguments fact_pool_by_pair : simpl never.
Arguments any_pool_info : simpl never.
Arguments any_query_share : simpl never.
