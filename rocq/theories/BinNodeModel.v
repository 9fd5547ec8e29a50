(** Model of trie/binarytree.go: the hash of a node with two children. *)
From Verif Require Import Base MerkleModel.
Global Open Scope N_scope.

Section binnode.
Context (H : list N -> list N).
(* types.go:75-78 NilHashSlice *)
Definition nil_hash : list N := H [].
(* trie/binarytree.go:27-32: the hash of the nil slice for a nil child *)
Definition child_or_nil (c : option (list N)) : list N := match c with None => nil_hash | Some b => b end.
(* trie/binarytree.go:19-37 BinaryNode.HashValue; None = nil. It has no error *)
Definition BinaryNode_HashValue (n : option (option (list N) * option (list N))) : list N :=
  match n with
  | None => nil_hash
  | Some (l, r) => hash_pair H (child_or_nil l) (child_or_nil r)
  end.
End binnode.
