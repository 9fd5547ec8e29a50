(** A RevertableHistoryTree used by several threads (trie/revertable.go:352-504): every method
    takes h.lock in its first line and releases it with defer. Used with LockModel.v.

    The body of a method is the function of RevHistModel.v. It runs in two micro-steps, as in
    TrieConcModel.v: it reads the trees and the database, and later writes them. A panic leaves
    the method through the deferred Unlock: the answer None, with the trees as they were
    (simplification: the theorems show that it does not happen). The inner history trees have
    mutexes of their own which nobody else takes. RRestart is no method but a new object; in
    histories of one object it does not occur. *)
From Verif Require Import LockModel HistModel RevHistSpec RevHistModel.
From Verif Require Import HistSpec.

Section model.
Context (E : henv).
Inductive rhlocal := RRead (c : rhcall) | RWrite (r : rhtree) (a : hobs).
Definition rh_kind (c : rhcall) : lkind := Excl.                   (* h.lock is a sync.Mutex, revertable.go:338 *)
Definition rh_next (ch : nat) (r : rhtree) (l : rhlocal) : option (rhtree * (rhlocal + option hobs)) :=
  match l with
  | RRead c => match rhstep E r c with Some (r', a) => Some (r, inl (RWrite r' a)) | None => Some (r, inr None) end
  | RWrite r' a => Some (r', inr (Some a))
  end.
End model.
