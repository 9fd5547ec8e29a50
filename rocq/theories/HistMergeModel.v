(** MergeProof: the proof of a further key merged into a history tree
    (trie/historytree.go). *)
From Verif Require Import Base MerkleSpec MerkleModel TrieSpec TrieModel TrieProofModel HistSpec HistModel HistRestoreModel.
From stdpp Require Import gmap.
Open Scope N_scope.

Section model.
Context (E : henv).

(* historytree.go:516-522, 533-557: the nodes on the path that exist after locateNode are merged
   with their four items, the others are made from them, from the leaf up. [n] is the node at
   the start of [prefix], None if there is none; false = error. *)
Fixpoint merge_path (st : hstore) (n : option hnode) (prefix value : list N) (items : list (list N)) : option hnode * bool :=
  match prefix with
  | [] => (n, false)
  | x :: rest =>
      let last := bool_decide (rest = []) in
      let c := match n with Some m => if last then None else child m x | None => None end in
      let '(c', ok) := if last then (None, true) else merge_path st c rest value items in
      let n1 := match n, c, c' with Some m, Some _, Some c1 => Some (set_child m x c1) | _, _, _ => n end in
      if negb ok then (n1, false)
      else
        let its := take 4 (drop (4 * length rest) items) in
        let v := if last then value else [] in
        match n1 with
        | None => match node_by_items E st x v c' its with Some m => (Some m, true) | None => (None, false) end
        | Some m => let '(m', ok') := merge_items E st m x v c' its in (Some m', ok')
        end
  end.

(* historytree.go:473-558 MergeProof; proof.go:744-757 ToItems makes a hash of each item.
   [proofs] is None for a nil chain. None = panic (BigKey of a proof without Merkle proofs);
   false = error. *)
Definition merge_proof (st : hstore) (t : htree) (key : N) (value : list N) (proofs : option (list nodeproof)) : option (htree * bool) :=
  match proofs, ht_root t with
  | Some c, Some _ =>
      if negb (length value =? 32)%nat then Some (t, false)
      else match chain_bigkey c 0 0 with
      | None => None
      | Some (pk, _) =>
          if negb (pk =? key) then Some (t, false)
          else
            let '(t1, root) := hash_value E t in
            match root, chain_proof E c (bytes_to_hash value), ht_root t1 with
            | Some root, Some proofRoot, Some n =>
                if negb (bool_decide (root = proofRoot)) then Some (t1, false)
                else
                  let '(n1, r) := locate E st n (heightToPrefix key) in
                  let t2 := HTree (ht_exp t1) (Some n1) in
                  match r with
                  | None => Some (t2, false)
                  | Some (Some (_, lv)) => Some (t2, bool_decide (default [] lv = value))
                  | Some None =>
                      match chain_items c with
                      | None => Some (t2, false)
                      | Some its =>
                          if (length its <? 64)%nat then Some (t2, false)
                          else let '(n2, ok) := merge_path st (Some n1) (heightToPrefix key) value (map (fun it => bytes_to_hash it.1) its) in
                               Some (HTree (ht_exp t1) n2, ok)
                      end
                  end
            | _, _, _ => Some (t1, false)
            end
      end
  | _, _ => Some (t, false)
  end.
End model.
