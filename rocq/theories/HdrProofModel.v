(** Model of the header property and header summary proofs of trie/proof.go. *)
From Verif Require Import Base MerkleSpec MerkleModel TrieSpec TrieModel TrieProofModel FixedModel.

(* proof.go:151-171 IsProofHeaderProperty: the index, None = (0, false) *)
Definition HeaderPropertyIndex (p : N) : option N :=
  if p =? 0x20 then Some 12
  else if p =? 0x21 then Some 1
  else if p =? 0x23 then Some 13
  else if p =? 0x24 then Some 16
  else if p =? 0x25 then Some 17
  else if p =? 0x26 then Some 20
  else if (0x30 <=? p) && (p <? 0xa0) then Some (p - 0x30)
  else None.

(* node.go NodeHeader{}: the zero value; Iterate ignores the header of these proofs *)
Definition zero_header : nodeheader := NH 0 [] [0; 0].

(* proof.go:250-255 NewMerkleOnlyProof; None = panic *)
Definition NewMerkleOnlyProof (ptype : N) (proofs : option mproofs) : option nodeproof :=
  if IsProofMerkleOnly ptype then Some (NewNodeProof ptype zero_header None proofs) else None.
(* proof.go:257-262 NewHeaderPropertyProof; None = panic *)
Definition NewHeaderPropertyProof (ptype : N) (indexHash : option (list N)) (proofs : option mproofs) : option nodeproof :=
  match HeaderPropertyIndex ptype with
  | None => None
  | Some _ => Some (NewNodeProof ptype zero_header indexHash proofs)
  end.
(* proof.go:264-266 NewHdsSummaryProof *)
Definition NewHdsSummaryProof (summary : option (list N)) (proofs : option mproofs) : nodeproof :=
  NewNodeProof ProofHdsSummary zero_header summary proofs.

Section model.
Context (H : list N -> list N).

(* hash.go:1049-1053 HeaderIndexHash *)
Definition HeaderIndexHash (buf : list N) (index : N) : list N := H (HeaderIndexInput buf index).

(* proof.go:559-576 IsHeaderOf; a nil receiver is None; byte(i) *)
Definition IsHeaderOf (n : option nodeproof) (chain height : N) : bool :=
  match n with
  | None => false
  | Some n =>
      match np_vhash n with
      | None => false
      | Some vh =>
          match HeaderPropertyIndex (np_type n) with
          | None => false
          | Some i => bool_decide (HeaderIndexHash (ToHeaderPosHashBuffer chain height) (i mod 256) = vh)
          end
      end
  end.

(* proof.go:578-591 IsHeaderPropertyOf; headerIndex is an int *)
Definition IsHeaderPropertyOf (n : option nodeproof) (chain height : N) (headerIndex : Z) : bool :=
  match n with
  | None => false
  | Some n =>
      match np_vhash n with
      | None => false
      | Some vh =>
          match HeaderPropertyIndex (np_type n) with
          | None => false
          | Some idx =>
              if negb (Z.of_N idx =? headerIndex)%Z then false
              else bool_decide (H (take 12 (ToHeaderPosHashBuffer chain height)) = vh)
          end
      end
  end.

(* proof.go:593-603 IsHdsSummaryOf *)
Definition IsHdsSummaryOf (n : option nodeproof) (chain height : N) : bool :=
  match n with
  | None => false
  | Some n =>
      if negb (IsProofHdsSummary (np_type n)) then false
      else match np_vhash n with
           | None => false
           | Some vh => bool_decide (H (take 12 (ToHeaderPosHashBuffer chain height)) = vh)
           end
  end.
End model.
