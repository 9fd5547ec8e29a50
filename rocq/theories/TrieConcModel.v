(** A Trie (or a SyncTrie around one) used by several threads: the methods that take
    t.lock in their first line and release it with defer. Used with LockModel.v.

    The body of a method is the function of TrieModel.v. It runs in two micro-steps: it
    reads the trie and the database, and later writes the new nodes, the counter and the
    database (simplification: all reads first, all writes last; what matters is that
    another method that came in between would be overwritten). A panic leaves the method
    through the deferred Unlock: the answer None, with the trie as it was (simplification:
    the theorems show that it does not happen).

    SyncTrie (synctrie.go:21-97) takes its own mutex around the same calls, so a trie that
    is reached through a SyncTrie only is the same object with one mutex more, which the
    inner one never has to wait for.

    Left out: IsDirty, GetProof, GetExistenceProof, String (also inside the mutex: the
    theorem on any object with a mutex, C72_any_mutex, is about them), Clone, Rebase and
    Inherit (inside the mutex, they make another trie); Count and IsEmpty (one read of a
    field, without the mutex). *)
From Verif Require Import LockModel TrieModel.

Inductive gcall (V : Type) :=
| GGet (k : list N) | GPut (k : list N) (v : V) | GPutValue (k : list N) (v : V) | GDelete (k : list N)
| GHash | GCommit | GCommitAndHash.
Arguments GGet {V}. Arguments GPut {V}. Arguments GPutValue {V}. Arguments GDelete {V}.
Arguments GHash {V}. Arguments GCommit {V}. Arguments GCommitAndHash {V}.

Section model.
Context {V : Type} (E : env V).
Notation trie := (@trie V).
Definition tstore : Type := store * trie.

(* one method alone; None = panic *)
Definition top_body (s : tstore) (o : gcall V) : option (tstore * tobs V) :=
  let '(st, t) := s in
  match o with
  | GGet k => let '(t', v) := Get E st t k in Some (st, t', OVal v)                       (* trie.go:252-257 *)
  | GPut k v | GPutValue k v =>                                                          (* trie.go:333-345; synctrie.go:44-56 *)
      match Put E st t k (Some v) with Some (t', c) => Some (st, t', OChanged c) | None => None end
  | GDelete k =>                                                                         (* trie.go:455-459 *)
      match Delete E st t k with Some (t', c, old) => Some (st, t', ODeleted c old) | None => None end
  | GHash => let '(t', h) := HashValue E t in Some (st, t', OHash h)                      (* trie.go:232-237 *)
  | GCommit => let '(st', t', ok) := Commit E st t in Some (st', t', if ok then ODone else OFail)   (* trie.go:639-644 *)
  | GCommitAndHash =>                                                                    (* trie.go:239-250 *)
      let '(st', t', ok) := Commit E st t in
      if ok then let '(t2, h) := HashValue E t' in Some (st', t2, OHash h) else Some (st', t', OFail)
  end.

Inductive toplocal := Read (o : gcall V) | Write (s : tstore) (a : tobs V).
Definition top_kind (o : gcall V) : lkind := Excl.                 (* t.lock is a sync.Mutex, trie.go:95 *)
Definition top_next (ch : nat) (s : tstore) (l : toplocal) : option (tstore * (toplocal + option (tobs V))) :=
  match l with
  | Read o => match top_body s o with Some (s', a) => Some (s, inl (Write s' a)) | None => Some (s, inr None) end
  | Write s' a => Some (s', inr (Some a))
  end.
Definition new_store_trie : tstore := (Store ∅ ∅ [], NewTrie None).

(* trie.go:646-660 Collapse: takes no lock. Its two accesses, the test and the collapse,
   with whatever other threads do to the trie in between *)
Definition Collapse_between (t : trie) (others : trie -> trie) : trie :=
  let t' := others t in
  if canCollapse E (t_root t) then Trie (collapse E (t_root t')).2 (t_count t') (t_gen t') else t'.
End model.
