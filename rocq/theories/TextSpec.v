(** Numbers written as text, without reference to the code. *)
From Verif Require Import Base.
From stdpp Require Import list.
Open Scope N_scope.

(** The value of a digit character. *)
Definition digit_of (base c : N) : option N :=
  let d := if (48 <=? c) && (c <=? 57) then Some (c - 48)
           else if (97 <=? c) && (c <=? 122) then Some (c - 87)
           else if (65 <=? c) && (c <=? 90) then Some (c - 55) else None in
  match d with Some d => if d <? base then Some d else None | None => None end.
(** Digits in positional notation: the digit before n others counts base^n times. *)
Fixpoint places (base : N) (s : list N) : option N :=
  match s with
  | [] => Some 0
  | c :: r => match digit_of base c, places base r with
              | Some d, Some v => Some (d * base ^ lenN r + v)
              | _, _ => None end
  end.
Definition numeral (base : N) (s : list N) : option N :=
  match s with [] => None | _ => places base s end.
Definition signed (base : N) (s : list N) : option Z :=
  match s with
  | 45 :: r => option_map (fun n => (- Z.of_N n)%Z) (numeral base r)
  | 43 :: r => option_map Z.of_N (numeral base r)
  | _ => option_map Z.of_N (numeral base s)
  end.
(** Nothing is zero, after 0x or 0X the rest is hexadecimal, other text is decimal. *)
Definition hex_or_dec {A} (zero : A) (num : N -> list N -> option A) (s : list N) : option A :=
  match s with
  | [] => Some zero
  | 48 :: 120 :: r | 48 :: 88 :: r => num 16 r
  | _ => num 10 s
  end.

(** The text before the first [c] and the text after it. *)
Fixpoint cut (c : N) (s : list N) : list N * option (list N) :=
  match s with
  | [] => ([], None)
  | x :: r => if x =? c then ([], Some r) else let '(a, b) := cut c r in (x :: a, b)
  end.
(** Decimal notation with an exponent: [-]digits[.digits]e digits, or digits alone. *)
Definition sci_abs (s : list N) : option N :=
  match cut 101 s with
  | (m, None) => numeral 10 m
  | (m, Some e) =>
      let '(a, f) := cut 46 m in
      let f := default [] f in
      match numeral 10 (a ++ f), numeral 10 e with
      | Some n, Some k => if lenN f <=? k then Some (n * 10 ^ (k - lenN f)) else None
      | _, _ => None
      end
  end.
Definition sci_value (s : list N) : option Z :=
  match s with
  | 45 :: r => option_map (fun n => (- Z.of_N n)%Z) (sci_abs r)
  | 43 :: r => option_map Z.of_N (sci_abs r)
  | _ => option_map Z.of_N (sci_abs s)
  end.
