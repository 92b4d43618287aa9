(** The ledger: stored state of every contract kind, deployed code, time;
    authorisation and deployment rules of the host. *)
From Coq Require Import ZArith List Bool Lia.
From Verif Require Import Base FMap Curve.
Import ListNotations.
Open Scope Z_scope.

(** Addresses.  Negative: an account or a foreign smart wallet, which can sign.
    Non-negative: a contract of this repository, which never signs.  The order
    used by [token_a < token_b] puts accounts before contracts like the host. *)
Definition Addr := Z.

(** ** Stored state per contract kind *)

(** contracts/token/src/{storage_types,balance,allowance,admin,metadata}.rs.
    [t_bal]: DataKey::Balance; [t_allow from spender = (amount, expiration_ledger)]:
    DataKey::Allowance.  [t_minted]/[t_burned] are the running totals of the amounts
    in the published mint/burn events (contract.rs:51,143,157); the code never
    reads them. Name and symbol are omitted. *)
Record Token := mkToken {
  t_admin : Addr;
  t_dec : Z;
  t_bal : fmap Z;
  t_allow : fmap (fmap (Z * Z));
  t_minted : Z;
  t_burned : Z }.

(** contracts/pool/src/storage.rs:12-18,34-60: Config (pool_type is constant),
    DEFAULT_SLIPPAGE_BPS, Admin, TotalShares, ReserveA, ReserveB. *)
Record Pool := mkPool {
  p_ta : Addr; p_tb : Addr; p_share : Addr; p_stake : Addr;
  p_fee : Z; p_feerec : Addr;
  p_maxslip : Z; p_maxspread : Z; p_maxref : Z;
  p_defslip : Z;
  p_admin : Addr;
  p_total : Z; p_ra : Z; p_rb : Z }.

(** contracts/pool_stable/src/storage.rs:12-57,111-165. *)
Record Stable := mkStable {
  l_ta : Addr; l_tb : Addr; l_share : Addr; l_stake : Addr;
  l_fee : Z; l_feerec : Addr;
  l_maxslip : Z; l_defslip : Z; l_maxspread : Z;
  l_admin : Addr;
  l_iamp : Z; l_iampt : Z; l_namp : Z; l_nampt : Z;
  l_prec : Z; l_preca : Z; l_precb : Z;
  l_total : Z; l_ra : Z; l_rb : Z }.

(** contracts/stake/src/storage.rs:8-66, distribution.rs:11-14.  [reward_debt] is
    always 0 and never read; omitted. *)
Record StakeE := mkStakeE { k_amt : Z; k_ts : Z }.
Record Bonding := mkBonding { b_stakes : list StakeE; b_last : Z; b_total : Z }.
Record Stake := mkStake {
  s_lp : Addr; s_minbond : Z; s_minreward : Z; s_manager : Addr; s_owner : Addr;
  s_maxc : Z; s_admin : Addr;
  s_total : Z;
  s_users : fmap Bonding;
  s_tsh : fmap Z;              (* TotalStakedHistory *)
  s_dists : list Addr;         (* Distributions *)
  s_rh : fmap (fmap Z) }.      (* RewardHistory(token) *)

(** contracts/stake_rewards/src/storage.rs:6-19, distribution.rs:36-66,120-130.
    The bonus fields of Distribution are always 0 and never read; omitted. *)
Record Rewards := mkRewards {
  r_staking : Addr; r_token : Addr; r_maxc : Z; r_minreward : Z; r_minbond : Z;
  r_admin : Addr;
  r_spp : Z; r_left : Z; r_dist : Z; r_wdr : Z;
  r_curve : curve;
  r_adj : fmap (Z * Z) }.      (* user -> (shares_correction, withdrawn_rewards) *)

(** contracts/vesting/src/storage.rs:18-66,97-102. *)
Record VInfo := mkVInfo { vi_bal : Z; vi_rcpt : Addr; vi_sched : curve }.
Record Vest := mkVest {
  v_admin : Addr; v_token : Addr; v_maxc : Z;
  v_minter : option (Addr * Z);
  v_ent : fmap (fmap VInfo) }. (* VestingInfoKey {recipient, index} *)

(** contracts/factory/src/storage.rs:6-45,118-178.  The wasm hashes are opaque numbers. *)
Record Fact := mkFact {
  f_admin : Addr; f_hop : Addr;
  f_lphash : Z; f_stakehash : Z; f_tokhash : Z; f_stabhash : Z;
  f_white : list Addr; f_lpdec : Z;
  f_lps : list Addr;
  f_pairs : fmap (fmap Addr) }.

(** contracts/multihop/src/storage.rs:22-27 *)
Record Hop := mkHop { h_admin : Addr; h_fact : Addr }.

(** contracts/trader/src/storage.rs:10-17 (ContractId, MaxSpread unused; omitted) *)
Record Trader := mkTrader { d_admin : Addr; d_ta : Addr; d_tb : Addr; d_out : Addr }.

Inductive kind := KTok | KPool | KStable | KStake | KRewards | KVest | KFact | KHop | KTrader.

Definition kind_eqb (a b : kind) : bool :=
  match a, b with
  | KTok, KTok | KPool, KPool | KStable, KStable | KStake, KStake | KRewards, KRewards
  | KVest, KVest | KFact, KFact | KHop, KHop | KTrader, KTrader => true
  | _, _ => false
  end.

(** Presence in a kind map = the contract is initialised; presence in [w_code] = deployed. *)
Record World := mkWorld {
  w_code : fmap kind;
  w_tok : fmap Token;
  w_pool : fmap Pool;
  w_stable : fmap Stable;
  w_stake : fmap Stake;
  w_rewards : fmap Rewards;
  w_vest : fmap Vest;
  w_fact : fmap Fact;
  w_hop : fmap Hop;
  w_trader : fmap Trader;
  w_wasm : fmap Z;  (* the code last installed by a contract over itself; only recorded *)
  w_now : Z;     (* ledger timestamp *)
  w_seq : Z }.   (* ledger sequence number *)

Definition w_empty : World := mkWorld [] [] [] [] [] [] [] [] [] [] [] 0 0.

Definition set_code w m := mkWorld m (w_tok w) (w_pool w) (w_stable w) (w_stake w) (w_rewards w) (w_vest w) (w_fact w) (w_hop w) (w_trader w) (w_wasm w) (w_now w) (w_seq w).
Definition set_tok w m := mkWorld (w_code w) m (w_pool w) (w_stable w) (w_stake w) (w_rewards w) (w_vest w) (w_fact w) (w_hop w) (w_trader w) (w_wasm w) (w_now w) (w_seq w).
Definition set_pool w m := mkWorld (w_code w) (w_tok w) m (w_stable w) (w_stake w) (w_rewards w) (w_vest w) (w_fact w) (w_hop w) (w_trader w) (w_wasm w) (w_now w) (w_seq w).
Definition set_stable w m := mkWorld (w_code w) (w_tok w) (w_pool w) m (w_stake w) (w_rewards w) (w_vest w) (w_fact w) (w_hop w) (w_trader w) (w_wasm w) (w_now w) (w_seq w).
Definition set_stake w m := mkWorld (w_code w) (w_tok w) (w_pool w) (w_stable w) m (w_rewards w) (w_vest w) (w_fact w) (w_hop w) (w_trader w) (w_wasm w) (w_now w) (w_seq w).
Definition set_rewards w m := mkWorld (w_code w) (w_tok w) (w_pool w) (w_stable w) (w_stake w) m (w_vest w) (w_fact w) (w_hop w) (w_trader w) (w_wasm w) (w_now w) (w_seq w).
Definition set_vest w m := mkWorld (w_code w) (w_tok w) (w_pool w) (w_stable w) (w_stake w) (w_rewards w) m (w_fact w) (w_hop w) (w_trader w) (w_wasm w) (w_now w) (w_seq w).
Definition set_fact w m := mkWorld (w_code w) (w_tok w) (w_pool w) (w_stable w) (w_stake w) (w_rewards w) (w_vest w) m (w_hop w) (w_trader w) (w_wasm w) (w_now w) (w_seq w).
Definition set_hop w m := mkWorld (w_code w) (w_tok w) (w_pool w) (w_stable w) (w_stake w) (w_rewards w) (w_vest w) (w_fact w) m (w_trader w) (w_wasm w) (w_now w) (w_seq w).
Definition set_trader w m := mkWorld (w_code w) (w_tok w) (w_pool w) (w_stable w) (w_stake w) (w_rewards w) (w_vest w) (w_fact w) (w_hop w) m (w_wasm w) (w_now w) (w_seq w).
Definition set_wasm w m := mkWorld (w_code w) (w_tok w) (w_pool w) (w_stable w) (w_stake w) (w_rewards w) (w_vest w) (w_fact w) (w_hop w) (w_trader w) m (w_now w) (w_seq w).
Definition set_time w n s := mkWorld (w_code w) (w_tok w) (w_pool w) (w_stable w) (w_stake w) (w_rewards w) (w_vest w) (w_fact w) (w_hop w) (w_trader w) (w_wasm w) n s.

Definition put_tok a (x : Token) : ST World unit := mmod (fun w => set_tok w (fset a x (w_tok w))).
Definition put_pool a (x : Pool) : ST World unit := mmod (fun w => set_pool w (fset a x (w_pool w))).
Definition put_stable a (x : Stable) : ST World unit := mmod (fun w => set_stable w (fset a x (w_stable w))).
Definition put_stake a (x : Stake) : ST World unit := mmod (fun w => set_stake w (fset a x (w_stake w))).
Definition put_rewards a (x : Rewards) : ST World unit := mmod (fun w => set_rewards w (fset a x (w_rewards w))).
Definition put_vest a (x : Vest) : ST World unit := mmod (fun w => set_vest w (fset a x (w_vest w))).
Definition put_fact a (x : Fact) : ST World unit := mmod (fun w => set_fact w (fset a x (w_fact w))).
Definition put_hop a (x : Hop) : ST World unit := mmod (fun w => set_hop w (fset a x (w_hop w))).
Definition put_trader a (x : Trader) : ST World unit := mmod (fun w => set_trader w (fset a x (w_trader w))).

(** [env.deployer().update_current_contract_wasm(hash)], called by contract [a].  The new
    code takes effect after the call.  Simplification: the model records the replacement
    and goes on running the code of this repository. *)
Definition put_wasm a (h : Z) : ST World unit := mmod (fun w => set_wasm w (fset a h (w_wasm w))).

(** Reading a contract's storage: calling an address without that code is a host
    error; reading the storage of an uninitialised contract panics ([unwrap]). Both
    fail, the distinction is not modelled. *)
Definition get_tok (a : Addr) : ST World Token := fun w =>
  match fget a (w_tok w) with Some x => Ok (x, w) | None => Err EHost end.
Definition get_pool (a : Addr) : ST World Pool := fun w =>
  match fget a (w_pool w) with Some x => Ok (x, w) | None => Err EHost end.
Definition get_stable (a : Addr) : ST World Stable := fun w =>
  match fget a (w_stable w) with Some x => Ok (x, w) | None => Err EHost end.
Definition get_stake (a : Addr) : ST World Stake := fun w =>
  match fget a (w_stake w) with Some x => Ok (x, w) | None => Err EHost end.
Definition get_rewards (a : Addr) : ST World Rewards := fun w =>
  match fget a (w_rewards w) with Some x => Ok (x, w) | None => Err EHost end.
Definition get_vest (a : Addr) : ST World Vest := fun w =>
  match fget a (w_vest w) with Some x => Ok (x, w) | None => Err EHost end.
Definition get_fact (a : Addr) : ST World Fact := fun w =>
  match fget a (w_fact w) with Some x => Ok (x, w) | None => Err EHost end.
Definition get_hop (a : Addr) : ST World Hop := fun w =>
  match fget a (w_hop w) with Some x => Ok (x, w) | None => Err EHost end.
Definition get_trader (a : Addr) : ST World Trader := fun w =>
  match fget a (w_trader w) with Some x => Ok (x, w) | None => Err EHost end.

(** ** Environment of a transaction *)
(** Salts: sha256 of the XDR of the listed addresses
    (pool/storage.rs:197-215, factory/utils.rs:3-27). *)
Inductive Salt := SPair (a b : Addr) | SEmpty | SOne (a : Addr).

Record Env := mkEnv {
  e_auth : list Addr;                  (* addresses that signed the transaction *)
  e_hash : Addr -> Salt -> Addr }.     (* address of a contract deployed by a contract *)

(** Only accounts and foreign wallets sign. *)
Definition signs (e : Env) (a : Addr) : bool := (a <? 0) && existsb (Z.eqb a) (e_auth e).

(** [Address::require_auth]: the address signed, or it is the direct invoker. *)
Definition authed (e : Env) (caller : option Addr) (a : Addr) : bool :=
  signs e a || match caller with Some c => c =? a | None => false end.
Definition require_auth (e : Env) (caller : option Addr) (a : Addr) : ST World unit :=
  mguard (authed e caller a) EAuth.

(** Deployment at address [a]; fails if the address is in use. *)
Definition deploy (a : Addr) (k : kind) : ST World unit :=
  w <- mget ;;
  mguard ((0 <=? a) && negb (fmem a (w_code w))) EHost ;;
  mmod (fun w => set_code w (fset a k (w_code w))).

Definition is_code (a : Addr) (k : kind) (w : World) : bool :=
  match fget a (w_code w) with Some k' => kind_eqb k k' | None => false end.

(** Invoking contract [self] runs its code: the host checks that code of the expected
    kind is deployed there. *)
Definition enter (self : Addr) (k : kind) : ST World unit :=
  w <- mget ;; mguard (is_code self k w) EHost.

Definition now : ST World Z := mgets w_now.

(** [if let Some(d) = deadline { if timestamp > d { panic 22 } }] *)
Definition check_deadline (code : Z) (dl : option Z) : ST World unit :=
  t <- now ;;
  mguard (match dl with Some d => negb (d <? t) | None => true end) (EContract code).

(** validate_int_parameters! (packages/phoenix/src/utils.rs:5-19) *)
Definition vpos (o : option Z) : bool := match o with Some v => negb (v <=? 0) | None => true end.
(** validate_bps! (packages/phoenix/src/utils.rs:22-34) *)
Definition vbps (x : Z) : bool := (0 <=? x) && (x <=? 10000).

Arguments get_tok : simpl never.
Arguments get_pool : simpl never.
Arguments get_stable : simpl never.
Arguments get_stake : simpl never.
Arguments get_rewards : simpl never.
Arguments get_vest : simpl never.
Arguments get_fact : simpl never.
Arguments get_hop : simpl never.
Arguments get_trader : simpl never.
Arguments put_tok : simpl never.
Arguments put_pool : simpl never.
Arguments put_stable : simpl never.
Arguments put_stake : simpl never.
Arguments put_rewards : simpl never.
Arguments put_vest : simpl never.
Arguments put_fact : simpl never.
Arguments put_hop : simpl never.
Arguments put_trader : simpl never.
Arguments require_auth : simpl never.
Arguments deploy : simpl never.
Arguments check_deadline : simpl never.
Arguments now : simpl never.
Arguments enter : simpl never.
