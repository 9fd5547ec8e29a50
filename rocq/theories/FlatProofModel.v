(** Model of comparing and flattening proof chains (trie/proof.go, hash.go). *)
From Verif Require Import Base MerkleSpec MerkleModel TrieSpec TrieModel TrieProofModel FixedModel.

(* hash.go:90-92 MoreTime.Equal *)
Definition mt_Equal (m o : moretime) : bool := (mt_index m =? mt_index o)%Z && (mt_times m =? mt_times o)%Z.
(* hash.go:149-153: the loop; the lengths are equal *)
Fixpoint mts_loop (ms os : list moretime) : bool :=
  match ms, os with
  | m :: ms', o :: os' => if mt_Equal m o then mts_loop ms' os' else false
  | _, _ => true
  end.
(* hash.go:139-155 MoreTimes.Equal; None is a nil slice *)
Definition MoreTimes_Equal (ms os : option (list moretime)) : bool :=
  if negb (length (default [] ms) =? length (default [] os))%nat then false
  else match ms, os with
       | None, None => true
       | None, Some _ | Some _, None => false
       | Some ms, Some os => mts_loop ms os
       end.
(* the proofs of the model do not tell a nil Repeats from an empty one; it is taken as nil,
   which it is unless it was read from JSON *)
Definition repeats_slice (ms : list moretime) : option (list moretime) := match ms with [] => None | _ => Some ms end.

(* math/big.go:429-440 CompareBigInt = 0 *)
Definition CompareBigInt0 (a b : option N) : bool :=
  match a, b with
  | None, None => true
  | Some x, Some y => x =? y
  | _, _ => false
  end.
(* hash.go:272-292 MerkleProofs.Equal on possibly nil proofs; equal pointers point to equal values *)
Definition MerkleProofs_Equal (p o : option mproofs) : bool :=
  match p, o with
  | None, None => true
  | Some p, Some o =>
      if negb (length (mp_hashs p) =? length (mp_hashs o))%nat then false
      else if negb (hashs_loop (mp_hashs p) (mp_hashs o)) then false
      else if negb (CompareBigInt0 (mp_paths p) (mp_paths o)) then false
      else MoreTimes_Equal (repeats_slice (mp_repeats p)) (repeats_slice (mp_repeats o))
  | _, _ => false
  end.
(* node.go:129-131 NodeHeader.Equal *)
Definition NodeHeader_Equal (h o : nodeheader) : bool :=
  (nh_nt h =? nh_nt o) && bool_decide (nh_key h = nh_key o) && bool_decide (nh_flag h = nh_flag o).
(* proof.go:212-224 NodeProof.Equal on non-nil proofs *)
Definition NodeProof_Equal (n o : nodeproof) : bool :=
  (np_type n =? np_type o) && NodeHeader_Equal (np_header n) (np_header o)
  && Equal (np_vhash n) (np_vhash o) && MerkleProofs_Equal (np_child n) (np_child o).
(* proof.go:608-618 ProofChain.Equal *)
Fixpoint chain_loop (c o : list nodeproof) : bool :=
  match c, o with
  | x :: c', y :: o' => if NodeProof_Equal x y then chain_loop c' o' else false
  | _, _ => true
  end.
Definition ProofChain_Equal (c o : list nodeproof) : bool :=
  if negb (length c =? length o)%nat then false else chain_loop c o.

Section model.
Context {V : Type} (E : env V).
(* proof.go:730-737: the callback of ToMerkles, over the items; None = error *)
Fixpoint merkles_loop (mp : mproofs) (its : list (list N * bool)) : option mproofs :=
  match its with
  | [] => Some mp
  | (val, order) :: r =>
      if negb (length val =? 32)%nat then None
      else match mp_append mp (bytes_to_hash val) order with
           | None => None
           | Some mp' => merkles_loop mp' r
           end
  end.
(* proof.go:726-742 ToMerkles; outer None = error, inner None = nil *)
Definition ToMerkles (c : list nodeproof) : option (option mproofs) :=
  match c with
  | [] => Some None
  | _ => match chain_items E c with
         | None => None
         | Some its => match merkles_loop mp_new its with None => None | Some mp => Some (Some mp) end
         end
  end.
End model.
