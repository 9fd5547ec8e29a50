(** Fixed-size byte values, without reference to the code. *)
From Verif Require Import Base RlpSpec.
Open Scope N_scope.

Definition fixed (n : nat) (a : list N) : Prop := length a = n /\ is_bytes a.
(** The text of an address after an optional 0x or 0X *)
Definition unprefixed (s : list N) : list N :=
  match s with 48 :: 120 :: r | 48 :: 88 :: r => r | _ => s end.
(** Order: nil comes first, then the values as big-endian numbers. *)
Definition rank (p : option (list N)) : Z := match p with None => -1 | Some a => Z.of_N (be_num a) end.
(** The hash without its first twelve bytes: what an address keeps of it. *)
Definition tail20 (H : list N -> list N) (x : list N) : list N := drop 12 (H x).
(** What is hashed for a contract created with a nonce, with a salt. *)
Definition create_input (a : list N) (nonce : N) : list N := rlp (Lst [Str a; Str (be_bytes nonce)]).
Definition create2_input (a salt code : list N) : list N := [0xff] ++ a ++ salt ++ code.
