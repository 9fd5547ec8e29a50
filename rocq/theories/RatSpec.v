(** Binary64 numbers, without reference to the code. A finite binary64 number is a multiple of
    2^-1074; here it is given by the integer F that stands for F / 2^1074. *)
From Coq Require Import ZArith.
Open Scope Z_scope.

Definition unit64 : Z := 2 ^ 1074.
(** The finite binary64 numbers: at most 53 bits, scaled by 2^e. *)
Definition is64 (F : Z) : Prop := exists m e, F = m * 2 ^ e /\ Z.abs m < 2 ^ 53 /\ 0 <= e <= 2045.
(** F is not farther from n/d than any other binary64 number; |F/2^1074 - n/d| is compared
    multiplied by d * 2^1074. *)
Definition nearest (n d F : Z) : Prop :=
  is64 F /\ forall G, is64 G -> Z.abs (F * d - n * unit64) <= Z.abs (G * d - n * unit64).
(** x is the smallest integer not below n/d, or the largest not above. *)
Definition ceil_of (n d x : Z) : Prop := (x - 1) * d < n <= x * d.
Definition floor_of (n d x : Z) : Prop := x * d <= n < (x + 1) * d.
