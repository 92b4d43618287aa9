(** The whole protocol as a transition system: every state-changing entry point of every
    contract can be called by anybody with any arguments at any time, in any order. *)
From Coq Require Import ZArith List Bool.
From Verif Require Import Base FMap Decimal Curve World Token Stake Pool Stable Rewards Vest Factory Router.
Import ListNotations.
Open Scope Z_scope.

Inductive Call :=
(* account-level deployments: any code at any free address *)
| CDeploy (a : Addr) (k : kind)
| CDeployTok (t admin dec : Z)
(* token *)
| CMint (t to amt : Z)
| CSetAdmin (t a : Z)
| CApprove (t from sp amt ex : Z)
| CTransfer (t from to amt : Z)
| CTransferFrom (t sp from to amt : Z)
| CBurn (t from amt : Z)
| CBurnFrom (t sp from amt : Z)
(* constant-product pool *)
| CPoolInit (p : Addr) (i : PoolInit) (factory dec defslip maxfee : Z)
| CPoolProvide (p u : Addr) (da mina db minb custom dl : option Z)
| CPoolSwap (p u offer amt : Z) (mi ms dl mf : option Z)
| CPoolWithdraw (p u share mina minb : Z) (dl : option Z)
| CPoolConfig (p : Addr) (admin fee feerec maxslip maxspread maxref : option Z)
| CPoolUpdate (p hash : Z)
| CPoolUpgrade (p hash defslip : Z)
(* stable pool *)
| CStableInit (p : Addr) (i : PoolInit) (factory amp maxfee : Z)
| CStableProvide (p u da db : Z) (custom dl mins : option Z)
| CStableSwap (p u offer amt : Z) (mi ms dl mf : option Z)
| CStableWithdraw (p u share mina minb : Z) (dl : option Z)
| CStableConfig (p u : Addr) (admin fee feerec maxslip maxspread : option Z)
| CStableUpgrade (p hash : Z)
(* staking *)
| CStakeInit (k admin lp minbond minreward manager owner maxc : Z)
| CBond (k u amt : Z)
| CUnbond (k u amt ts : Z)
| CFlow (k u asset : Z)
| CDistribute (k u amt token : Z)
| CWithdrawRewards (k u : Addr)
| CStakeUpdate (k hash : Z)
(* stake rewards *)
| CRewInit (r admin staking token maxc minreward minbond : Z)
| CRewAddUser (r u : Addr) (b : Bonding)
| CRewBond (r u : Addr) (b : Bonding)
| CRewUnbond (r u : Addr) (b : Bonding) (removed : Z)
| CRewDistribute (r total : Z)
| CRewWithdraw (r u : Addr) (b : Bonding)
| CRewFund (r start duration amount : Z)
| CRewUpdate (r hash : Z)
(* vesting *)
| CVestInit (v admin token maxc : Z) (m : option (Addr * Z))
| CVestCreate (v : Addr) (l : list (Addr * curve))
| CVestClaim (v u i : Z)
| CVestBurn (v u amt : Z)
| CVestMint (v u amt : Z)
| CVestMinter (v u new : Addr)
| CVestCapacity (v u cap : Z)
| CVestUpdate (v hash : Z)
(* factory *)
| CFactInit (f admin lph stabh stakeh tokh : Z) (white : list Addr) (lpdec : Z)
| CCreate (f u : Addr) (i : PoolInit) (ty : PoolType) (amp : option Z) (defslip maxfee : Z)
| CWhitelist (f u : Addr) (add rm : list Addr)
| CHashes (f : Addr) (lph stakeh tokh : option Z)
| CFactUpdate (f hash stabh : Z)
(* multihop *)
| CHopInit (h admin factory : Addr)
| CHopSwap (h u : Addr) (ops : list SwapOp) (ms : option Z) (amt : Z) (dl mf : option Z)
| CHopUpdate (h hash : Z)
(* trader *)
| CTraderInit (d admin ta tb out : Addr)
| CTrade (d u tok pool : Addr) (amount ms dl mi mf : option Z)
| CTraderTransfer (d u rcpt amt : Z) (tok : option Addr).

Definition drop {A} (m : ST World A) : ST World unit := m ;; mret tt.

(** One transaction: the root call, with the signers in [e] and no calling contract. *)
Definition exec (e : Env) (k : Call) : ST World unit :=
  match k with
  | CDeploy a KTok => mfail EHost     (* tokens are deployed with their constructor *)
  | CDeploy a k => deploy a k
  | CDeployTok t a d => tok_deploy t a d
  | CMint t to amt => tok_mint e None t to amt
  | CSetAdmin t a => tok_set_admin e None t a
  | CApprove t f s amt ex => tok_approve e None t f s amt ex
  | CTransfer t f to amt => tok_transfer e None t f to amt
  | CTransferFrom t s f to amt => tok_transfer_from e None t s f to amt
  | CBurn t f amt => tok_burn e None t f amt
  | CBurnFrom t s f amt => tok_burn_from e None t s f amt
  | CPoolInit p i f d s m => pool_initialize e p i f d s m
  | CPoolProvide p u da ma db mb cu dl => pool_provide e None p u da ma db mb cu dl
  | CPoolSwap p u o a mi ms dl mf => drop (pool_swap e None p u o a mi ms dl mf)
  | CPoolWithdraw p u s a b dl => drop (pool_withdraw e None p u s a b dl)
  | CPoolConfig p a1 a2 a3 a4 a5 a6 => pool_update_config e None p a1 a2 a3 a4 a5 a6
  | CPoolUpdate p h => pool_update e None p h
  | CPoolUpgrade p h d => pool_upgrade e None p h d
  | CStableInit p i f a m => stable_initialize e p i f a m
  | CStableProvide p u da db cu dl ms => stable_provide e None p u da db cu dl ms
  | CStableSwap p u o a mi ms dl mf => drop (stable_swap e None p u o a mi ms dl mf)
  | CStableWithdraw p u s a b dl => drop (stable_withdraw e None p u s a b dl)
  | CStableConfig p u a1 a2 a3 a4 a5 => stable_update_config p u a1 a2 a3 a4 a5
  | CStableUpgrade p h => stable_upgrade e None p h
  | CStakeInit k a l mb mr m o mc => stake_initialize k a l mb mr m o mc
  | CBond k u a => stake_bond e None k u a
  | CUnbond k u a t => stake_unbond e None k u a t
  | CFlow k u a => stake_create_flow e None k u a
  | CDistribute k u a t => stake_distribute e None k u a t
  | CWithdrawRewards k u => stake_withdraw_rewards e k u
  | CStakeUpdate k h => stake_update e None k h
  | CRewInit r a s t mc mr mb => rewards_initialize r a s t mc mr mb
  | CRewAddUser r u b => rewards_add_user e None r u b
  | CRewBond r u b => rewards_bond e None r u b
  | CRewUnbond r u b x => rewards_unbond e None r u b x
  | CRewDistribute r t => rewards_distribute e None r t
  | CRewWithdraw r u b => rewards_withdraw e None r u b
  | CRewFund r s d a => rewards_fund e None r s d a
  | CRewUpdate r h => rewards_update e None r h
  | CVestInit v a t mc m => vest_initialize v a t mc m
  | CVestCreate v l => vest_create e None v l
  | CVestClaim v u i => vest_claim e None v u i
  | CVestBurn v u a => vest_burn e None v u a
  | CVestMint v u a => vest_mint e None v u a
  | CVestMinter v u n => vest_update_minter e None v u n
  | CVestCapacity v u n => vest_update_capacity e None v u n
  | CVestUpdate v h => vest_update e None v h
  | CFactInit f a lp sb sk tk wl d => fact_initialize e f a lp sb sk tk wl d
  | CCreate f u i ty amp ds mf => drop (fact_create e None f u i ty amp ds mf)
  | CWhitelist f u a r => fact_update_whitelist e None f u a r
  | CHashes f a b c => fact_update_hashes e None f a b c
  | CFactUpdate f h s => fact_update e None f h s
  | CHopInit h a f => hop_initialize h a f
  | CHopSwap h u ops ms a dl mf => drop (hop_swap e None h u ops ms a dl mf)
  | CHopUpdate h x => hop_update e None h x
  | CTraderInit d a x y o => trader_initialize e None d a x y o
  | CTrade d u t p a ms dl mi mf => drop (trader_trade e None d u t p a ms dl mi mf)
  | CTraderTransfer d u r a t => trader_transfer e None d u r a t
  end.

(** Runs, as lists of successful transactions (failed ones leave no trace) and clock
    advances.  The address derivation [H] of the host is the same throughout. *)
Inductive Event := Tx (e : Env) (k : Call) | Tick (now seq : Z).

Inductive step (H : Addr -> Salt -> Addr) (w : World) : Event -> World -> Prop :=
| st_tx e k w' : e_hash e = H -> exec e k w = Ok (tt, w') -> step H w (Tx e k) w'
| st_tick n s : w_now w <= n <= U64_MAX -> w_seq w <= s <= U32_MAX -> step H w (Tick n s) (set_time w n s).

Inductive run (H : Addr -> Salt -> Addr) : World -> list Event -> World -> Prop :=
| run_nil w : run H w [] w
| run_cons w ev w1 l w2 : step H w ev w1 -> run H w1 l w2 -> run H w (ev :: l) w2.

Definition reachable (H : Addr -> Salt -> Addr) (w : World) : Prop := exists l, run H w_empty l w.
