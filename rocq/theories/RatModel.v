(** Model of the rounding of rationals in math/big.go: RatToInt64, RatToInt64Floor,
    Int64MulRat. A rational is a pair of numerator and positive denominator without common
    divisor. A finite float64 is the integer F that stands for F / 2^1074 (see RatSpec.v). *)
From Coq Require Import ZArith Bool.
From Verif Require Import RatSpec.
Open Scope Z_scope.

Record rat := Rat { r_num : Z; r_den : Z }.

(** (big.Rat).Float64 (standard library): the nearest float64, ties to even; None is an
    infinity. [e] is the scale at which the result has 53 bits, or 0 for small numbers. *)
Definition round_abs (n d : Z) : Z :=
  let a := n * unit64 in
  let e := Z.max 0 (Z.log2 (a / d) - 52) in
  let b := d * 2 ^ e in
  let q := a / b in
  let r := a mod b in
  let m := if (2 * r <? b) then q else if (b <? 2 * r) then q + 1 else if Z.even q then q else q + 1 in
  m * 2 ^ e.
Definition max64 : Z := (2 ^ 53 - 1) * 2 ^ 2045.
Definition Float64 (r : rat) : option Z :=
  let f := round_abs (Z.abs (r_num r)) (r_den r) in
  if max64 <? f then None else Some (Z.sgn (r_num r) * f).
(** float64(x) of an int64: its result is finite. *)
Definition float_of_int (x : Z) : Z := Z.sgn x * round_abs (Z.abs x) 1.

Section conv.
(** int64(f) where f does not fit: Go leaves the result to the implementation. *)
Context (conv : Z -> Z).
(** int64(f): towards zero *)
Definition int_of_float (f : Z) : Z :=
  let x := Z.quot f unit64 in
  if (- 2 ^ 63 <=? x) && (x <? 2 ^ 63) then x else conv f.

(* big.go:408-418; float64(math.MaxInt64) is 2^63 *)
Definition RatToInt64 (r : rat) : Z * bool :=
  match Float64 r with
  | None => (0, true)
  | Some f =>
      if (2 ^ 63 * unit64 <? f) || (f <? - 2 ^ 63 * unit64) then (0, true)
      else let x := int_of_float f in
           if float_of_int x <? f then (x + 1, false) else (x, false)
  end.
(* big.go:421-427 *)
Definition RatToInt64Floor (r : rat) : Z * bool :=
  match Float64 r with
  | None => (0, true)
  | Some f =>
      if (2 ^ 63 * unit64 <? f) || (f <? - 2 ^ 63 * unit64) then (0, true)
      else (int_of_float f, false)
  end.
(** (big.Rat).Mul of r and an integer (standard library): in lowest terms *)
Definition rat_mul_int (r : rat) (i : Z) : rat :=
  let g := Z.gcd (r_num r * i) (r_den r) in Rat (r_num r * i / g) (r_den r / g).
(* big.go:350-354 *)
Definition Int64MulRat (i : Z) (r : rat) : Z := fst (RatToInt64 (rat_mul_int r i)).
End conv.
