(** What iteration over a map means, without reference to the trie. *)
From Verif Require Import Base.
From stdpp Require Import gmap sorting.
Open Scope N_scope.

(** Lexicographic order of byte strings (Go bytes.Compare < 0). *)
Fixpoint bytes_lt (a b : list N) : Prop :=
  match a, b with
  | _, [] => False
  | [], _ :: _ => True
  | x :: a', y :: b' => x < y \/ (x = y /\ bytes_lt a' b')
  end.

(** [l] lists the entries of [m], each once, by increasing key. *)
Definition in_key_order {V} (l : list (list N * V)) (m : gmap (list N) V) : Prop :=
  StronglySorted bytes_lt (map fst l) /\ forall k v, (k, v) ∈ l <-> m !! k = Some v.

(** The longest first part of [l] accepted by [cb], and the entry it stops at. *)
Fixpoint upto {A} (cb : A -> bool) (l : list A) : list A :=
  match l with [] => [] | x :: l' => if cb x then x :: upto cb l' else [x] end.
