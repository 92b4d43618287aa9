(** packages/decimal/src/decimal256.rs: fixed-point decimals, 18 places, over the host's U256.
    A [Decimal256] is its raw value; no proofs in this file.  No contract of the repository uses it. *)
From Coq Require Import ZArith List Bool.
From Verif Require Import Base Decimal.
Import ListNotations.
Open Scope Z_scope.

(** decimal256.rs:26-54 new, raw, one, zero, max *)
Definition d256_new (v : Z) : Z := v.
Definition d256_one : Z := DEC.
Definition d256_zero : Z := 0.
Definition d256_max : Z := U256_MAX.

(** decimal256.rs:56-66 percent, permille, bps; the argument is a u64, so the products fit in u128 *)
Definition d256_percent (x : Z) : Z := x * 10000000000000000.
Definition d256_permille (x : Z) : Z := x * 1000000000000000.
Definition d256_bps (x : Z) : Z := x * 100000000000000.

(** decimal256.rs:84-86 atomics: [U256::to_u128] *)
Definition d256_atomics (v : Z) : option Z := if v <=? U128_MAX then Some v else None.

(** [U256::pow] with base 10; the exponent is a non-negative i32 *)
Definition pow10_w (n : Z) : res Z := chk in_u256 (10 ^ n).

(** decimal256.rs:89-105 from_atomics *)
Definition d256_from_atomics (atomics places : Z) : res Z :=
  if places <? 18 then let? f := pow10_w (18 - places) in mul_w atomics f
  else if places =? 18 then Ok atomics
  else let? f := pow10_w (places - 18) in div_w atomics f.

(** decimal256.rs:142-147, 166-182 from_ratio, checked_from_ratio *)
Definition d256_from_ratio (n d : Z) : res Z :=
  if d =? 0 then Err EPanic
  else let? p := mul_w n DEC in div_w p d.

(** decimal256.rs:149-155 to_u128_with_precision; 10u128.pow of a negative exponent cast to u32 overflows *)
Definition d256_to_u128 (v precision : Z) : res Z :=
  let? a := of_option (d256_atomics v) EPanic in
  if 18 <? precision then Err EArith
  else let? d := chk in_u128 (10 ^ (18 - precision)) in div_u a d.

(** decimal256.rs:157-164 multiply_ratio *)
Definition d256_multiply_ratio (v n d : Z) : res Z := let? p := mul_w v n in d256_from_ratio p d.

(** decimal256.rs:184-191 abs_diff: both operands must fit in u128 *)
Definition d256_abs_diff (a b : Z) : res Z :=
  let? x := of_option (d256_atomics a) EPanic in
  let? y := of_option (d256_atomics b) EPanic in
  Ok (Z.abs (x - y)).

(** decimal256.rs:193-195 div_by_u256; 198-212 Add, Sub *)
Definition d256_div_by (v rhs : Z) : res Z := div_w v rhs.
Definition d256_add (a b : Z) : res Z := add_w a b.
Definition d256_sub (a b : Z) : res Z := sub_w a b.

(** decimal256.rs:215-221 mul, 224-229 div *)
Definition d256_mul (a b : Z) : res Z := let? p := mul_w a b in div_w p DEC.
Definition d256_div (a b : Z) : res Z := d256_from_ratio a b.

(** decimal256.rs:132-140 inv *)
Definition d256_inv (v : Z) : option Z := if v =? 0 then None else Some (DEC_SQ / v).

(** decimal256.rs:107-130 pow (square and multiply); [n] is a u32, see [dec_pow] *)
Fixpoint d256_pow_loop (fuel : nat) (x y n : Z) : res Z :=
  match fuel with
  | O => d256_mul x y
  | S f =>
      if 1 <? n then
        if n mod 2 =? 0 then
          let? x2 := d256_mul x x in d256_pow_loop f x2 y (n / 2)
        else
          let? y2 := d256_mul x y in
          let? x2 := d256_mul x x in d256_pow_loop f x2 y2 ((n - 1) / 2)
      else d256_mul x y
  end.
Definition d256_pow (x n : Z) : res Z :=
  if n =? 0 then Ok d256_one else d256_pow_loop 33 x d256_one n.
