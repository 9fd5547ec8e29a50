(** Checking a history proof (trie/proof.go). *)
From Verif Require Import Base MerkleSpec MerkleModel TrieModel TrieProofModel HistModel.
Open Scope N_scope.

Section model.
Context (E : henv).
(* proof.go:768-791 ProofChain.HistoryProof over Merkle-only proofs, the ones GetProof of the
   history tree gives (historytree.go:436-470). Outer None: error or panic; inner None: the
   nil result. basic.go:135 NilHeight is 2^64-1; hob nil and empty are the same. *)
Definition history_proof (c : list nodeproof) (height : N) (hob : list N) : option (option (list N)) :=
  let nilheight := height =? two64 - 1 in
  if bool_decide (c = []) then None
  else if nilheight && bool_decide (hob = []) then None
  else if (if nilheight then true
           else match chain_bigkey c 0 0 with None => false | Some (key, _) => key =? height end)
       then if bool_decide (hob = []) then Some None
            else match chain_proof E c (bytes_to_hash hob) with None => None | Some r => Some (Some r) end
       else None.
End model.
