(** packages/decimal/src/decimal.rs: fixed-point decimals, 18 places, over i128.
    A [Decimal] is its raw [i128]; no proofs in this file. *)
From Coq Require Import ZArith List Bool.
From Verif Require Import Base.
Import ListNotations.
Open Scope Z_scope.

(** decimal.rs:26 DECIMAL_FRACTIONAL, :27 DECIMAL_FRACTIONAL_SQUARED *)
Definition DEC : Z := 1000000000000000000.
Definition DEC_SQ : Z := 1000000000000000000000000000000000000.

(** decimal.rs:45-55 *)
Definition dec_one : Z := DEC.
Definition dec_zero : Z := 0.

(** decimal.rs:58-70 percent, permille, bps (the argument is an i64, so the
    product always fits in i128). *)
Definition dec_percent (x : Z) : Z := x * 10000000000000000.
Definition dec_permille (x : Z) : Z := x * 1000000000000000.
Definition dec_bps (x : Z) : Z := x * 100000000000000.

(** i128::pow with base 10, as used by [from_atomics] and
    [to_i128_with_precision]; the exponent is a non-negative i32. *)
Definition pow10_i (n : Z) : res Z := chk in_i128 (10 ^ n).

(** decimal.rs:143-159 *)
Definition dec_from_atomics (atomics places : Z) : res Z :=
  if places <? 18 then let? f := pow10_i (18 - places) in mul_i atomics f
  else if places =? 18 then Ok atomics
  else let? f := pow10_i (places - 18) in div_i atomics f.

(** decimal.rs:205-210, 225-251 from_ratio / checked_from_ratio *)
Definition dec_from_ratio (n d : Z) : res Z :=
  if d =? 0 then Err EPanic
  else let? p := mul_i n DEC in div_i p d.

(** decimal.rs:212-218; the exponent 18 - precision is cast to u32, a negative
    one becomes huge and the power overflows. *)
Definition dec_to_i128 (v precision : Z) : res Z :=
  if 18 <? precision then Err EArith
  else let? d := pow10_i (18 - precision) in div_i v d.

(** decimal.rs:220-222 multiply_ratio (private, called by no code but a test) *)
Definition dec_multiply_ratio (v n d : Z) : res Z := let? p := mul_i v n in dec_from_ratio p d.

(** decimal.rs:253-259 abs; 265-267 abs_diff (u128 difference cast to i128, which
    wraps: [as] does not panic). *)
Definition dec_abs (v : Z) : res Z := if v <? 0 then chk in_i128 (- v) else Ok v.
Definition wrap_i128 (x : Z) : Z :=
  if x <=? I128_MAX then x else x - (U128_MAX + 1).
Definition dec_abs_diff (a b : Z) : Z := wrap_i128 (Z.abs (a - b)).

(** decimal.rs:270-283 Add, Sub *)
Definition dec_add (a b : Z) : res Z := add_i a b.
Definition dec_sub (a b : Z) : res Z := sub_i a b.

(** decimal.rs:285-310 Mul *)
Definition dec_mul (a b : Z) : res Z := let? p := mul_i a b in div_i p DEC.

(** decimal.rs:312-321 Div *)
Definition dec_div (a b : Z) : res Z := dec_from_ratio a b.

(** decimal.rs:331-337 Div<i128> *)
Definition dec_div_i (a b : Z) : res Z := div_i a b.

(** decimal.rs:339-350 Mul<Decimal> for i128 (and 323-329 Mul<i128> for Decimal) *)
Definition i_mul_dec (x d : Z) : res Z :=
  if (x =? 0) || (d =? 0) then Ok 0
  else let? p := mul_i x d in div_i p DEC.

(** decimal.rs:193-202 inv *)
Definition dec_inv (v : Z) : option Z := if v =? 0 then None else Some (Z.quot DEC_SQ v).

(** decimal.rs:162-188 pow (square and multiply); [n] is a u32, 32 rounds halve
    it to 1, so the fuel is never exhausted. *)
Fixpoint dec_pow_loop (fuel : nat) (x y n : Z) : res Z :=
  match fuel with
  | O => dec_mul x y
  | S f =>
      if 1 <? n then
        if n mod 2 =? 0 then
          let? x2 := dec_mul x x in dec_pow_loop f x2 y (n / 2)
        else
          let? y2 := dec_mul x y in
          let? x2 := dec_mul x x in dec_pow_loop f x2 y2 ((n - 1) / 2)
      else dec_mul x y
  end.
Definition dec_pow (x n : Z) : res Z :=
  if n =? 0 then Ok dec_one else dec_pow_loop 33 x dec_one n.

(** ** Text (ASCII codes) *)
Definition c_dot : Z := 46.
Definition c_minus : Z := 45.
Definition c_plus : Z := 43.
Definition c_zero : Z := 48.

Definition is_digit (c : Z) : bool := (48 <=? c) && (c <=? 57).

(** Decimal digits of a non-negative integer (core::fmt for integers). *)
Fixpoint digits_aux (fuel : nat) (n : Z) (acc : list Z) : list Z :=
  match fuel with
  | O => acc
  | S f => if n <? 10 then (48 + n) :: acc
           else digits_aux f (n / 10) ((48 + n mod 10) :: acc)
  end.
Definition show_nat (n : Z) : list Z := digits_aux 40 n [].
Definition show_int (n : Z) : list Z :=
  if n <? 0 then c_minus :: show_nat (- n) else show_nat n.

(** [i128::from_str]: optional sign, at least one digit, digits only, range check. *)
Fixpoint parse_digits (acc : Z) (s : list Z) : option Z :=
  match s with
  | [] => Some acc
  | c :: tl => if is_digit c then parse_digits (acc * 10 + (c - 48)) tl else None
  end.
Definition parse_unsigned (s : list Z) : option Z :=
  match s with [] => None | _ => parse_digits 0 s end.
Definition parse_i128 (s : list Z) : option Z :=
  let r := match s with
           | c :: tl => if c =? c_minus then option_map Z.opp (parse_unsigned tl)
                        else if c =? c_plus then parse_unsigned tl
                        else parse_unsigned s
           | [] => None
           end in
  match r with Some v => if in_i128 v then Some v else None | None => None end.

(** [str::split('.')] *)
Fixpoint split_dot (cur : list Z) (s : list Z) : list (list Z) :=
  match s with
  | [] => [rev cur]
  | c :: tl => if c =? c_dot then rev cur :: split_dot [] tl else split_dot (c :: cur) tl
  end.

(** decimal.rs:352-374 FromStr *)
Definition dec_parse (s : list Z) : res Z :=
  match split_dot [] s with
  | [w] =>
      let? whole := of_option (parse_i128 w) EPanic in
      mul_i whole DEC
  | [w; f] =>
      let? whole := of_option (parse_i128 w) EPanic in
      let? a := mul_i whole DEC in
      let? frac := of_option (parse_i128 f) EPanic in
      let e := 18 - Z.of_nat (length f) in
      assert? (0 <=? e) or EPanic in
      let? t := mul_i frac (10 ^ e) in
      add_i a t
  | w :: f :: _ => Err EPanic
  | [] => Err EPanic
  end.

(** [{:0>18}]: pad on the left with '0' to at least 18 characters. *)
Definition pad18 (s : list Z) : list Z := repeat c_zero (18 - length s) ++ s.

(** [trim_end_matches('0')] *)
Fixpoint drop_zeros (s : list Z) : list Z :=
  match s with c :: tl => if c =? c_zero then drop_zeros tl else s | [] => [] end.
Definition trim_zeros (s : list Z) : list Z := rev (drop_zeros (rev s)).

(** decimal.rs:376-395 Display *)
Definition dec_show (v : Z) : list Z :=
  let whole := Z.quot v DEC in
  let frac := Z.rem v DEC in
  if frac =? 0 then show_int whole
  else show_int whole ++ c_dot :: trim_zeros (pad18 (show_int frac)).
