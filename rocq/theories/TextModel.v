(** Model of the text forms of numbers in package math (integer.go, big.go). Strings are
    byte strings. strconv.ParseUint, (big.Int).SetString and fmt's %#x and %d (standard
    library) are modelled here as they are documented. *)
From Verif Require Import Base.
From stdpp Require Import list.
Open Scope N_scope.

(** The value of a digit character in the bases up to 36; 255 if it is none. *)
Definition char_val (c : N) : N :=
  if (48 <=? c) && (c <=? 57) then c - 48
  else if (97 <=? c) && (c <=? 122) then c - 97 + 10
  else if (65 <=? c) && (c <=? 90) then c - 65 + 10
  else 255.
(** strconv.ParseUint(s, base, 64) for the bases 10 and 16; None = error. The values that
    come with an error are left out. *)
Definition cutoff (base : N) : N := (two64 - 1) / base + 1.
Fixpoint uint_loop (base n : N) (s : list N) : option N :=
  match s with
  | [] => Some n
  | c :: r =>
      if base <=? char_val c then None
      else if cutoff base <=? n then None                 (* n*base overflows *)
      else let n1 := (n * base + char_val c) mod two64 in
           if n1 <? n * base then None                     (* n+d overflows *)
           else uint_loop base n1 r
  end.
Definition ParseUint (s : list N) (base : N) : option N :=
  match s with [] => None | _ => uint_loop base 0 s end.
(** (big.Int).SetString(s, base) for the bases 10 and 16: a sign, at least one digit, and
    nothing after the digits. *)
Fixpoint scan_digits (base acc : N) (count : nat) (s : list N) : N * nat * list N :=
  match s with
  | [] => (acc, count, [])
  | c :: r => if base <=? char_val c then (acc, count, s) else scan_digits base (acc * base + char_val c) (S count) r
  end.
Definition SetString (s : list N) (base : N) : option Z :=
  let '(neg, r) := match s with 45 :: r => (true, r) | 43 :: r => (false, r) | _ => (false, s) end in
  match scan_digits base 0 0 r with
  | (n, S _, []) => Some (if neg then - Z.of_N n else Z.of_N n)%Z
  | _ => None
  end.
(** fmt's digits of a number: from the last one. The fuel is its bit length. *)
Definition digit_char (d : N) : N := if d <? 10 then 48 + d else 87 + d.
Fixpoint fmt_loop (fuel : nat) (base n : N) (acc : list N) : list N :=
  match fuel with
  | O => acc
  | S f => if n =? 0 then acc else fmt_loop f base (n / base) (digit_char (n mod base) :: acc)
  end.
Definition fmt_digits (base n : N) : list N :=
  if n =? 0 then [48] else fmt_loop (N.to_nat (N.size n)) base n [].
Definition fmt_sign (z : Z) : list N := if (z <? 0)%Z then [45] else [].
(** fmt.Sprintf("%#x", x): sign, 0x, digits *)
Definition fmt_hex (z : Z) : list N := fmt_sign z ++ [48; 120] ++ fmt_digits 16 (Z.abs_N z).
(** fmt.Sprintf("%#d", x), (big.Int).String *)
Definition fmt_dec (z : Z) : list N := fmt_sign z ++ fmt_digits 10 (Z.abs_N z).

Definition prefix0x (s : list N) : bool :=
  match s with a :: b :: _ => (a =? 48) && ((b =? 120) || (b =? 88)) | _ => false end.
(* integer.go:60-70 *)
Definition ParseUint64 (s : list N) : option N :=
  match s with
  | [] => Some 0
  | _ => if prefix0x s then ParseUint (drop 2 s) 16 else ParseUint s 10
  end.
(* integer.go:44-51 HexOrDecimal64.UnmarshalText: the new value; None = error *)
Definition HexOrDecimal64_Unmarshal (s : list N) : option N := ParseUint64 s.
(* integer.go:54-56 HexOrDecimal64.MarshalText *)
Definition HexOrDecimal64_Marshal (n : N) : list N := fmt_hex (Z.of_N n).

(* big.go:119-134 *)
Definition ParseBig256 (s : list N) : option Z :=
  match s with
  | [] => Some 0%Z
  | _ => match (if prefix0x s then SetString (drop 2 s) 16 else SetString s 10) with
         | Some z => if 256 <? N.size (Z.abs_N z) then None else Some z
         | None => None
         end
  end.
(* big.go:137-143 MustParseBig256, integer.go:73-79 MustParseUint64: None = panic *)
Definition MustParseBig256 (s : list N) : option Z := ParseBig256 s.
Definition MustParseUint64 (s : list N) : option N := ParseUint64 s.
(* big.go:66-73 and 95-102: UnmarshalText of HexOrDecimal256 and Decimal256 *)
Definition HexOrDecimal256_Unmarshal (s : list N) : option Z := ParseBig256 s.
Definition Decimal256_Unmarshal (s : list N) : option Z := ParseBig256 s.
(* big.go:76-81; None is the nil pointer *)
Definition HexOrDecimal256_Marshal (x : option Z) : list N :=
  match x with None => [48; 120; 48] | Some z => fmt_hex z end.
(* big.go:105-107, 110-115; None is the nil pointer *)
Definition Decimal256_Marshal (x : option Z) : list N :=
  match x with None => [48] | Some z => fmt_dec z end.

(* big.go:288-296: the zeros at the end *)
Fixpoint lead_zeros (s : list N) : nat :=
  match s with 48 :: r => S (lead_zeros r) | _ => O end.
(* big.go:274-319 *)
Definition BigStringForPrint (s : list N) : list N :=
  if (length s <=? 5)%nat then s
  else
    let '(neg, ss) := match s with 45 :: r => (true, r) | 43 :: r => (false, r) | _ => (false, s) end in
    let l := length ss in
    let zeros := lead_zeros (reverse ss) in
    let exp := 101 :: fmt_dec (Z.of_nat l - 1) in
    let sign := if neg : bool then [45] else [] in
    if (1 <? l - zeros)%nat then sign ++ take 1 ss ++ [46] ++ drop 1 (take (l - zeros) ss) ++ exp
    else if (l - zeros =? 1)%nat then sign ++ take 1 ss ++ exp
    else [48].
(* big.go:321-327; None is the nil pointer *)
Definition BigIntForPrint (x : option Z) : list N :=
  match x with None => [] | Some z => BigStringForPrint (fmt_dec z) end.
(* big.go:329-339 *)
Definition BigForPrint (x : option Z) : list N :=
  match x with
  | None => []
  | Some z => let s := fmt_dec z in let ss := BigStringForPrint s in
              if bool_decide (s = ss) then s else s ++ [32; 40] ++ ss ++ [41]
  end.
