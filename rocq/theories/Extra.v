(** Code outside the entry points of System.v: two helpers of the pool that no entry
    point calls (marked [#[allow(dead_code)]]), and the listing query of the vesting
    contract.  No proofs in this file. *)
From Coq Require Import ZArith List Bool.
From Verif Require Import Base FMap Decimal World Token Pool Vest.
Import ListNotations.
Open Scope Z_scope.

(** packages/phoenix/src/utils.rs:36-39 is_approx_ratio *)
Definition is_approx_ratio (a b tol : Z) : res bool :=
  let? d := dec_sub a b in
  let? x := dec_abs d in
  Ok (x <=? tol).

(** pool/contract.rs:1011-1048: one round per unit of fuel.  The loop keeps
    0 <= low < high and halves high - low, so 128 rounds always suffice (proved:
    more fuel gives the same result). *)
Fixpoint split_loop (fuel : nat) (self offer : Addr) (is_a : bool) (target deposit low high fo fa : Z)
  : ST World (Z * Z) :=
  match fuel with
  | O => mfail EHost
  | S f =>
      wd <- mlift (sub_i high low) ;;
      if 500 <? wd then
        s <- mlift (add_i low high) ;;
        mid <- mlift (div_i s 2) ;;
        q <- pool_simulate_swap self offer mid ;;
        rest <- mlift (sub_i deposit mid) ;;
        ratio <- mlift (if is_a then dec_from_ratio (ss_ask q) rest else dec_from_ratio rest (ss_ask q)) ;;
        near <- mlift (is_approx_ratio ratio target (dec_percent 1)) ;;
        if near then mret (mid, ss_ask q)
        else if (if target <? ratio then is_a else negb is_a)
             then split_loop f self offer is_a target deposit low mid mid (ss_ask q)
             else split_loop f self offer is_a target deposit mid high mid (ss_ask q)
      else mret (fo, fa)
  end.

(** pool/contract.rs:975-1050 split_deposit_based_on_pool_ratio (the config argument
    is the stored configuration) *)
Definition pool_split_deposit (self : Addr) (ra rb deposit : Z) (offer : Addr) : ST World (Z * Z) :=
  enter self KPool ;;
  p <- get_pool self ;;
  mguard ((offer =? p_ta p) || (offer =? p_tb p)) (EContract 16) ;;
  mguard (negb ((ra <=? 0) || (rb <=? 0) || (deposit <=? 0))) (EContract 5) ;;
  target <- mlift (dec_from_ratio rb ra) ;;
  split_loop 128 self offer (offer =? p_ta p) target deposit 0 deposit deposit 0.

(** pool/contract.rs:1065-1105 assert_slippage_tolerance, deposits [d0 d1], reserves
    [r0 r1]; [||] evaluates its second argument only if the first is false *)
Definition assert_slippage_tolerance (tol : option Z) (d0 d1 r0 r1 mx : Z) : res unit :=
  let s := match tol with Some t => dec_bps t | None => dec_percent 1 end in
  assert? negb (mx <? s) or EContract 20 in
  let? om := dec_sub dec_one s in
  let? a := mul_i d0 r1 in
  let? x := i_mul_dec a om in
  let? b := mul_i d1 r0 in
  let? y := i_mul_dec b dec_one in
  assert? negb (y <? x) or EContract 20 in
  let? x' := i_mul_dec b om in
  let? y' := i_mul_dec a dec_one in
  assert? negb (y' <? x') or EContract 20 in
  Ok tt.

(** vesting/storage.rs:161-185 get_all_vestings: indexes from 0 to the first missing one *)
Fixpoint all_from (fuel : nat) (i : Z) (m : fmap VInfo) : list VInfo :=
  match fuel with
  | O => []
  | S f => match fget i m with Some x => x :: all_from f (i + 1) m | None => [] end
  end.

(** vesting/contract.rs:426-431 query_all_vesting_info; at most [length m] indexes are
    taken, so the fuel is never exhausted *)
Definition vest_query_all (self u : Addr) : ST World (list VInfo) :=
  enter self KVest ;;
  v <- get_vest self ;;
  mret (all_from (S (length (v_entries v u))) 0 (v_entries v u)).
