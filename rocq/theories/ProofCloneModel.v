(** Clones of proof chains (trie/proof.go, hash.go, trie/node.go) in the memory of
    ChainCloneModel.v. A pointer is a slice of the array that holds the fields of what it points
    to; a big.Int has a sign and a slice of digits. *)
From Verif Require Import Base ChainCloneModel.
From stdpp Require Import gmap.
Global Open Scope N_scope.

(** a value: copied by assignment *)
Definition keep (h : heap) (c : cell) : heap * cell := (h, c).
(** nil for nil; otherwise a new object or array with what [f] makes of the elements *)
Definition renew (f : heap -> list cell -> heap * list cell) (h : heap) (c : cell) : heap * cell :=
  match c with
  | CRef (Some s) => let '(h1, l) := f h (elems h (Some s)) in let '(h2, s') := make_copy h1 l in (h2, CRef s')
  | c => (h, c)
  end.
(** a loop over the elements of a slice *)
Fixpoint each (f : heap -> cell -> heap * cell) (h : heap) (l : list cell) : heap * list cell :=
  match l with
  | [] => (h, [])
  | c :: r => let '(h1, c') := f h c in let '(h2, r') := each f h1 r in (h2, c' :: r')
  end.
(** the fields of a struct, one after the other *)
Fixpoint fields (fs : list (heap -> cell -> heap * cell)) (h : heap) (l : list cell) : heap * list cell :=
  match fs, l with
  | f :: fs, c :: r => let '(h1, c') := f h c in let '(h2, r') := fields fs h1 r in (h2, c' :: r')
  | _, _ => (h, [])
  end.

(* trie/node.go:72-79 KeyPart.Clone; hash.go:110-117 MoreTimes.Clone (hash.go:39-42: two numbers);
   hash.go:297-301 the copy of Hashs; basic.go:1387-1392 Hash.Clone *)
Definition copy_plain := renew (each keep).
(* math/big.go:356-361 CopyBigInt; Int.Set copies the sign and the digits *)
Definition CopyBigInt := renew (fields [keep; copy_plain]).
(* hash.go:293-307 MerkleProofs.Clone: Hashs, Paths, Repeats *)
Definition MerkleProofs_Clone := renew (fields [copy_plain; CopyBigInt; copy_plain]).
(* trie/proof.go:225-235 NodeProof.Clone: PType, Header, ValueHash, ChildProofs; trie/node.go:103-107,
   133-139: of Header NT, KeyString and ChildrenFlag, an array of bytes *)
Definition NodeProof_Clone := renew (fields [keep; keep; copy_plain; keep; copy_plain; MerkleProofs_Clone]).
(* trie/proof.go:620-629 ProofChain.Clone *)
Definition ProofChain_Clone := renew (each NodeProof_Clone).
