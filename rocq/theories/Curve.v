(** packages/curve/src/lib.rs.  No proofs in this file.
    Times are u64, values u128, both modelled by [Z] with checked arithmetic. *)
From Coq Require Import ZArith List Bool.
From Verif Require Import Base.
Import ListNotations.
Open Scope Z_scope.

(** lib.rs:284-296 Step (time, value) and PiecewiseLinear; :204-217 SaturatingLinear;
    :40-52 Curve *)
Definition step : Type := Z * Z.
Inductive curve : Type :=
| Constant (y : Z)
| SatLin (min_x min_y max_x max_y : Z)
| PieceLin (steps : list step).

(** lib.rs:12-38 *)
Inductive curve_err : Type :=
| NotMonotonic | MonotonicIncreasing | MonotonicDecreasing
| PointsOutOfOrder | MissingSteps | TooComplex.

(** lib.rs:271-277 *)
Definition interpolate (min_x min_y max_x max_y x : Z) : res Z :=
  if min_y <? max_y then
    let? dx := sub_64 x min_x in
    let? p := mul_u (max_y - min_y) dx in
    let? w := sub_64 max_x min_x in
    let? q := div_u p w in
    add_u min_y q
  else
    let? dx := sub_64 x min_x in
    let? p := mul_u (min_y - max_y) dx in
    let? w := sub_64 max_x min_x in
    let? q := div_u p w in
    sub_u min_y q.

(** lib.rs:221-227 *)
Definition sl_value (min_x min_y max_x max_y x : Z) : res Z :=
  if x <? min_x then Ok min_y
  else if max_x <? x then Ok max_y
  else interpolate min_x min_y max_x max_y x.

(** lib.rs:322-330 the search loop *)
Fixpoint pl_loop (prev : step) (rest : list step) (x : Z) : res Z :=
  match rest with
  | [] => Ok (snd prev)
  | next :: tl =>
      if x <? fst next then interpolate (fst prev) (snd prev) (fst next) (snd next) x
      else pl_loop next tl x
  end.

(** lib.rs:300-331 *)
Definition pl_value (steps : list step) (x : Z) : res Z :=
  match steps with
  | [] => Err EPanic
  | first :: rest =>
      let lst := last steps first in
      if x <=? fst first then Ok (snd first)
      else if fst lst <=? x then Ok (snd lst)
      else pl_loop first rest x
  end.

(** lib.rs:73-79 *)
Definition cvalue (c : curve) (x : Z) : res Z :=
  match c with
  | Constant y => Ok y
  | SatLin a b d e => sl_value a b d e x
  | PieceLin s => pl_value s x
  end.

(** lib.rs:82-88 *)
Definition csize (c : curve) : Z :=
  match c with
  | Constant _ => 1
  | SatLin _ _ _ _ => 2
  | PieceLin s => Z.of_nat (length s)
  end.

(** Validation results: [None] is [Ok(())]. *)
(** lib.rs:231-236 *)
Definition sl_validate (min_x max_x : Z) : option curve_err :=
  if max_x <=? min_x then Some PointsOutOfOrder else None.

(** lib.rs:335-348 *)
Fixpoint times_increasing (acc : Z) (s : list step) : bool :=
  match s with
  | [] => true
  | (t, _) :: tl => if acc <? t then times_increasing t tl else false
  end.
Definition pl_validate (s : list step) : option curve_err :=
  match s with
  | [] => Some MissingSteps
  | _ => if times_increasing 0 s then None else Some PointsOutOfOrder
  end.

(** lib.rs:92-98 *)
Definition cvalidate (c : curve) : option curve_err :=
  match c with
  | Constant _ => None
  | SatLin a _ d _ => sl_validate a d
  | PieceLin s => pl_validate s
  end.

(** lib.rs:481-486 Shape, 371-392 classify_curve *)
Inductive shape : Type := ShConst | ShInc | ShDec | ShNot.
Fixpoint classify_loop (lastv : Z) (sh : shape) (s : list step) : shape :=
  match s with
  | [] => sh
  | (_, v) :: tl =>
      let sh' := match sh, v ?= lastv with
                 | ShNot, _ => ShNot
                 | ShDec, Gt => ShNot
                 | ShDec, _ => ShDec
                 | ShInc, Lt => ShNot
                 | ShInc, _ => ShInc
                 | ShConst, Gt => ShInc
                 | ShConst, Lt => ShDec
                 | ShConst, Eq => ShConst
                 end in
      classify_loop v sh' tl
  end.
Definition classify (s : list step) : shape :=
  match s with [] => ShConst | (_, v) :: tl => classify_loop v ShConst tl end.

(** lib.rs:101-116, 239-254, 351-368 *)
Definition validate_inc (c : curve) : option curve_err :=
  match c with
  | Constant _ => None
  | SatLin a b d e =>
      match sl_validate a d with
      | Some er => Some er
      | None => if e <? b then Some MonotonicDecreasing else None
      end
  | PieceLin s =>
      match pl_validate s with
      | Some er => Some er
      | None => match classify s with
                | ShNot => Some NotMonotonic
                | ShDec => Some MonotonicDecreasing
                | _ => None
                end
      end
  end.
Definition validate_dec (c : curve) : option curve_err :=
  match c with
  | Constant _ => None
  | SatLin a b d e =>
      match sl_validate a d with
      | Some er => Some er
      | None => if b <? e then Some MonotonicIncreasing else None
      end
  | PieceLin s =>
      match pl_validate s with
      | Some er => Some er
      | None => match classify s with
                | ShNot => Some NotMonotonic
                | ShInc => Some MonotonicIncreasing
                | _ => None
                end
      end
  end.

(** lib.rs:119-125 *)
Definition validate_complexity (c : curve) (mx : Z) : option curve_err :=
  if csize c <=? mx then None else Some TooComplex.

(** lib.rs:128-134, 257-263, 395-404 *)
Definition pl_range (s : list step) : Z * Z :=
  fold_left (fun acc st => (Z.min (fst acc) (snd st), Z.max (snd acc) (snd st))) s (U128_MAX, 0).
Definition crange (c : curve) : Z * Z :=
  match c with
  | Constant y => (y, y)
  | SatLin _ b _ e => if b <? e then (b, e) else (e, b)
  | PieceLin s => pl_range s
  end.

(** lib.rs:137-159 combine_const *)
Fixpoint shift_steps (k : Z) (s : list step) : res (list step) :=
  match s with
  | [] => Ok []
  | (t, v) :: tl =>
      let? v' := add_u k v in
      let? tl' := shift_steps k tl in
      Ok ((t, v') :: tl')
  end.
Definition combine_const (c : curve) (k : Z) : res curve :=
  match c with
  | Constant y => let? y' := add_u k y in Ok (Constant y')
  | SatLin a b d e =>
      let? b' := add_u b k in
      let? e' := add_u e k in
      Ok (SatLin a b' d e')
  | PieceLin s => let? s' := shift_steps k s in Ok (PieceLin s')
  end.

(** lib.rs:413-424 bubble sort: pass [i] compares positions 0 .. len-2-i *)
Fixpoint bubble_pass (n : nat) (l : list Z) : list Z :=
  match n, l with
  | S n', a :: b :: tl =>
      if b <? a then b :: bubble_pass n' (a :: tl) else a :: bubble_pass n' (b :: tl)
  | _, _ => l
  end.
Definition bubble_sort (l : list Z) : list Z :=
  fold_left (fun acc i => bubble_pass (length l - 1 - i) acc) (seq 0 (length l)) l.

(** lib.rs:426-435 *)
Fixpoint dedup_adj (lst : option Z) (l : list Z) : list Z :=
  match l with
  | [] => []
  | t :: tl =>
      let same := match lst with Some u => t =? u | None => false end in
      if same then dedup_adj lst tl else t :: dedup_adj (Some t) tl
  end.

(** lib.rs:437-445 *)
Fixpoint combine_at (p q : list step) (ts : list Z) : res (list step) :=
  match ts with
  | [] => Ok []
  | t :: tl =>
      let? a := pl_value p t in
      let? b := pl_value q t in
      let? v := add_u a b in
      let? r := combine_at p q tl in
      Ok ((t, v) :: r)
  end.

(** lib.rs:407-450 *)
Definition pl_combine (p q : list step) : res (list step) :=
  combine_at p q (dedup_adj None (bubble_sort (map fst p ++ map fst q))).

(** lib.rs:465-479 *)
Definition from_sat (min_x min_y max_x max_y : Z) : list step := [(min_x, min_y); (max_x, max_y)].

(** lib.rs:162-185; the or-pattern binds the first alternative first *)
Definition combine (c d : curve) : res curve :=
  match c, d with
  | Constant y, k => combine_const k y
  | k, Constant y => combine_const k y
  | SatLin a b e f, SatLin a' b' e' f' =>
      let? s := pl_combine (from_sat a b e f) (from_sat a' b' e' f') in Ok (PieceLin s)
  | SatLin a b e f, PieceLin p => let? s := pl_combine (from_sat a b e f) p in Ok (PieceLin s)
  | PieceLin p, SatLin a b e f => let? s := pl_combine (from_sat a b e f) p in Ok (PieceLin s)
  | PieceLin p, PieceLin q => let? s := pl_combine p q in Ok (PieceLin s)
  end.

(** lib.rs:187-193, 452-454 *)
Definition cend (c : curve) : option Z :=
  match c with
  | Constant _ => None
  | SatLin _ _ d _ => Some d
  | PieceLin s => match s with [] => None | f :: _ => Some (fst (last s f)) end
  end.

(** lib.rs:456-462 *)
Definition pl_end_value (s : list step) : option Z :=
  match s with [] => None | f :: _ => Some (snd (last s f)) end.
Definition pl_first_value (s : list step) : option Z :=
  match s with [] => None | f :: _ => Some (snd f) end.
