(** Independent specification of RLP (Ethereum yellow paper, appendix B),
    written without reference to the implementation. *)
From Verif Require Export Base.

(** RLP values: byte strings and lists of values. *)
Inductive item :=
| Str (bs : list N)
| Lst (xs : list item).

Fixpoint item_ok (v : item) : Prop :=
  match v with
  | Str bs => is_bytes bs
  | Lst xs => (fix all (l : list item) : Prop :=
                 match l with [] => True | x :: l' => item_ok x /\ all l' end) xs
  end.

(** Header of a payload of length [n]: one byte if n < 56, otherwise the
    tag plus the minimal big-endian length. *)
Definition rlp_head (small large n : N) : list N :=
  if n <? 56 then [small + n]
  else (large + lenN (be_bytes n)) :: be_bytes n.

Fixpoint rlp (v : item) : list N :=
  match v with
  | Str bs =>
      match bs with
      | [b] => if b <? 128 then [b] else rlp_head 0x80 0xB7 1 ++ [b]
      | _ => rlp_head 0x80 0xB7 (lenN bs) ++ bs
      end
  | Lst xs =>
      let payload :=
        (fix cat (l : list item) : list N :=
           match l with [] => [] | x :: l' => rlp x ++ cat l' end) xs in
      rlp_head 0xC0 0xF7 (lenN payload) ++ payload
  end.

(** Concatenation of the encodings of a list of values. *)
Fixpoint rlps (l : list item) : list N :=
  match l with [] => [] | x :: l' => rlp x ++ rlps l' end.

Definition items_ok (l : list item) : Prop := Forall item_ok l.

(** RLP of a non-negative integer: the string of its minimal bytes. *)
Definition rlp_nat (n : N) : list N := rlp (Str (be_bytes n)).
