(** Models of version.go, gaspool.go, math/integer.go and the integer part of
    math/big.go. A uint64 is an [N] below 2^64 and Go's wrapping arithmetic is
    written out; a *big.Int is a [Z]. *)
From Verif Require Export Base.

(* ------------------------------------------------------ uint64 arithmetic *)
(* Go spec, "Integer overflow": unsigned results are taken modulo 2^64 *)
Definition u64_add (x y : N) : N := (x + y) mod two64.
Definition u64_sub (x y : N) : N := (x + (two64 - y mod two64)) mod two64.
Definition u64_mul (x y : N) : N := (x * y) mod two64.
Definition MaxUint64 : N := 18446744073709551615.

(* math/integer.go:84-86 *)
Definition SafeSub (x y : N) : N * bool := (u64_sub x y, x <? y).
(* math/integer.go:89-91 *)
Definition SafeAdd (x y : N) : N * bool := (u64_add x y, u64_sub MaxUint64 x <? y).
(* math/integer.go:94-99 *)
Definition SafeMul (x y : N) : N * bool :=
  if (x =? 0) || (y =? 0) then (0, false)
  else (u64_mul x y, MaxUint64 / x <? y).

(* ------------------------------------------------------------ version.go *)
(* version.go:10-12 *)
Definition Major (v : N) : N := v / 1000000.
(* version.go:14-17 *)
Definition Minor (v : N) : N := u64_sub v (u64_mul (v / 1000000) 1000000) / 1000.
(* version.go:19-22 *)
Definition Patch (v : N) : N := u64_sub v (u64_mul (v / 1000) 1000).
(* version.go:24-29; None is the error *)
Definition NewNodeVersion (major minor patch : N) : option N :=
  if (999 <? minor) || (999 <? patch) || (999 <? major) then None
  else Some (u64_add (u64_add patch (u64_mul minor 1000)) (u64_mul major 1000000)).

(* ------------------------------------------------------------ gaspool.go *)
Inductive gres := GOk | GErr | GPanic.
(* gaspool.go:16-22: new pool and outcome; a panic leaves the pool as it was *)
Definition AddGas (gp amount : N) : N * gres :=
  if u64_sub MaxUint64 amount <? gp then (gp, GPanic) else (u64_add gp amount, GOk).
(* gaspool.go:26-32 *)
Definition SubGas (gp amount : N) : N * gres :=
  if gp <? amount then (gp, GErr) else (u64_sub gp amount, GOk).

Inductive gop := GAdd (a : N) | GSub (a : N).
Definition gop_amount (o : gop) : N := match o with GAdd a | GSub a => a end.
Definition gstep (gp : N) (o : gop) : N * gres :=
  match o with GAdd a => AddGas gp a | GSub a => SubGas gp a end.
(** A caller that recovers from the panic of AddGas and goes on. *)
Fixpoint grun (gp : N) (os : list gop) : N * list gres :=
  match os with
  | [] => (gp, [])
  | o :: os' => let '(gp', r) := gstep gp o in
                let '(gp'', rs) := grun gp' os' in (gp'', r :: rs)
  end.

(* ------------------------------------------------------------ math/big.go *)
(* big.Int.BitLen: bit length of the absolute value *)
Definition bit_len (z : Z) : N := N.size (Z.abs_N z).
(* big.Int.Bytes: minimal big-endian bytes of the absolute value *)
Definition big_bytes (z : Z) : list N := be_bytes (Z.abs_N z).

(** big.Int.Bits: the absolute value as little-endian machine words without
    leading zero words; [wb] is the number of bytes of a word (wordBytes,
    math/big.go:44-46: 8 or 4 depending on the platform). *)
Fixpoint words_f (fuel : nat) (wb : nat) (n : N) : list N :=
  match fuel with
  | O => []
  | S f => if n =? 0 then []
           else n mod 256 ^ N.of_nat wb :: words_f f wb (n / 256 ^ N.of_nat wb)
  end.
Definition words (wb : nat) (z : Z) : list N :=
  words_f (N.to_nat (bit_len z)) wb (Z.abs_N z).

(* math/big.go:168-175; the loop returns the first set bit below BitLen *)
Fixpoint first_bit_f (fuel : nat) (i : N) (z : Z) : N :=
  match fuel with
  | O => bit_len z
  | S f => if Z.testbit z (Z.of_N i) then i else first_bit_f f (i + 1) z
  end.
Definition FirstBitSet (z : Z) : N := first_bit_f (N.to_nat (bit_len z)) 0 z.

(* math/big.go:218-227 ReadBits: inner loop over the bytes of one word; [i] is the
   number of buffer positions not yet written, [acc] what has been written after
   them *)
Fixpoint read_word (j : nat) (d : N) (i : nat) (acc : list N) : nat * list N :=
  match j, i with
  | S j', S i' => read_word j' (N.shiftr d 8) i' (d mod 256 :: acc)
  | _, _ => (i, acc)
  end.
Fixpoint read_words (wb : nat) (ws : list N) (i : nat) (acc : list N) : nat * list N :=
  match ws with
  | [] => (i, acc)
  | d :: ws' => let '(i', acc') := read_word wb d i acc in read_words wb ws' i' acc'
  end.
(* math/big.go:218-227 on a buffer whose initial content is [buf] *)
Definition ReadBits (wb : nat) (z : Z) (buf : list N) : list N :=
  let '(i, acc) := read_words wb (words wb z) (length buf) [] in take i buf ++ acc.

(* math/big.go:179-186; n is a Go int: a negative length takes the first branch *)
Definition PaddedBigBytes (wb : nat) (z : Z) (n : Z) : list N :=
  if (n <=? Z.of_N (bit_len z / 8))%Z then big_bytes z
  else ReadBits wb z (replicate (Z.to_nat n) 0).

(* math/big.go:191-203; n >= 0 *)
Definition bigEndianByteAt (wb : nat) (z : Z) (n : nat) : N :=
  match words wb z !! (n / wb)%nat with
  | None => 0
  | Some w => N.shiftr w (8 * N.of_nat (n mod wb)) mod 256
  end.
(* math/big.go:207-212; n is not negative *)
Definition Byte (wb : nat) (z : Z) (padlength n : nat) : N :=
  if (padlength <=? n)%nat then 0 else bigEndianByteAt wb z (padlength - 1 - n).

Definition tt255 : Z := 2 ^ 255.
Definition tt256 : Z := 2 ^ 256.
Definition tt256m1 : Z := 2 ^ 256 - 1.
(* math/big.go:230-232; big.Int.And works on the infinite two's complement form *)
Definition U256 (x : Z) : Z := Z.land x tt256m1.
(* math/big.go:236-238 *)
Definition U256Bytes (wb : nat) (x : Z) : list N := PaddedBigBytes wb (U256 x) 32.
(* math/big.go:247-252 *)
Definition S256 (x : Z) : Z := if (x <? tt255)%Z then x else (x - tt256)%Z.

(* math/big.go:259-272: one word of the exponent, bit by bit; result and base *)
Fixpoint exp_word (i : nat) (word : N) (result base : Z) : Z * Z :=
  match i with
  | O => (result, base)
  | S i' =>
      let result := if N.land word 1 =? 1 then U256 (result * base)%Z else result in
      exp_word i' (N.shiftr word 1) result (U256 (base * base)%Z)
  end.
Fixpoint exp_words (wb : nat) (ws : list N) (result base : Z) : Z * Z :=
  match ws with
  | [] => (result, base)
  | w :: ws' => let '(r, b) := exp_word (8 * wb) w result base in exp_words wb ws' r b
  end.
(** The result, and the value the caller's [base] object has afterwards (it is
    multiplied in place). *)
Definition Exp (wb : nat) (base exponent : Z) : Z * Z := exp_words wb (words wb exponent) 1 base.

(* math/big.go:149-152 and 155-165; a negative exponent makes big.Int.Exp return 1 *)
Definition BigPow (a b : Z) : Z := if (b <=? 0)%Z then 1%Z else (a ^ b)%Z.
Definition BigMax (x y : Z) : Z := if (x <? y)%Z then y else x.
Definition BigMin (x y : Z) : Z := if (y <? x)%Z then y else x.
