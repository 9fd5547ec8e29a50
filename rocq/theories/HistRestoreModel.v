(** RestoreTreeFromProofs: a history tree built from the proof of one key
    (trie/historytree.go). *)
From Verif Require Import Base MerkleSpec MerkleModel TrieSpec TrieModel TrieProofModel HistSpec HistModel.
From stdpp Require Import gmap.
Open Scope N_scope.

Section model.
Context (E : henv).
Local Notation H := (hH E).
Local Notation nilhash := (nilhash H).

(* historytree.go:1097-1117 putValue; false = error *)
Definition put_value (st : hstore) (n : hnode) (prefix h : list N) : hnode * bool :=
  let '(n, ok) := expand_if E st n in
  if negb ok then (n, false)
  else if (4 <=? length prefix)%nat then (n, false)
  else if negb (forallb (fun b => b <=? 1) prefix) then (n, false)
  else (with_br n (<[prefix := h]> (hn_br n)), true).

(* historytree.go:1206: the last bit reversed *)
Definition flip_last (bs : list N) : list N :=
  match reverse bs with [] => [] | b :: r => reverse ((1 - N.land b 1) :: r) end.

(* historytree.go:1209-1227: the hash [h] of the sibling slot, at i = 0 *)
Definition merge_slot (st : hstore) (n : hnode) (bs h : list N) : hnode * bool :=
  let p := to_byte bs in
  if hn_leaf n then (with_lv n (<[N.to_nat p := Some h]> (hn_lv n)), true)
  else match child n p with
       | None => (set_child n p (from_hash h), true)
       | Some c => let '(c', ok) := put_value st c [] h in (set_child n p c', ok)
       end.
(* historytree.go:1201-1235: the loop over the items; [bs] are the bits left *)
Fixpoint merge_loop (st : hstore) (n : hnode) (bs : list N) (i : nat) (items : list (list N)) : hnode * bool :=
  match items with
  | [] => (n, true)
  | h :: rest =>
      let '(n, ok) := if bool_decide (h = nilhash) then (n, true)
                      else if (i =? 0)%nat then merge_slot st n (flip_last bs) h
                      else put_value st n (flip_last bs) h in
      if negb ok then (n, false)
      else merge_loop st n (take (length bs - 1) bs) (S i) rest
  end.
(* historytree.go:1184-1236 _mergeHashItems of an index of 0..15; false = error *)
Definition merge_items (st : hstore) (n : hnode) (index : N) (value : list N) (ch : option hnode)
  (items : list (list N)) : hnode * bool :=
  if negb (length items =? 4)%nat then (n, false)
  else
    let n := if hn_leaf n then with_lv n (<[N.to_nat index := Some value]> (hn_lv n))
             else with_ch n (<[N.to_nat index := ch]> (hn_ch n)) in
    let '(n, ok) := merge_loop st n (to_binary index 4) 0 items in
    (if ok then with_dirty n true else n, ok).
(* historytree.go:605-621 _newNodeByHashItems; None = error *)
Definition node_by_items (st : hstore) (index : N) (value : list N) (ch : option hnode)
  (items : list (list N)) : option hnode :=
  if (16 <=? index) || (negb (length value =? 32)%nat && negb (is_some ch)) || negb (length items =? 4)%nat then None
  else let '(n, ok) := merge_items st (with_leaf NewTreeNode (length value =? 32)%nat) index value ch items in
       if ok then Some n else None.

(* historytree.go:126-140: the nodes from the leaf up; [prefix] has the nibbles of the key
   from the last one *)
Fixpoint restore_nodes (st : hstore) (prefix : list N) (value : list N) (ch : option hnode) (items : list (list N))
  : option hnode :=
  match prefix with
  | [] => ch
  | x :: rest =>
      match node_by_items st x value ch (take 4 items) with
      | None => None
      | Some n => restore_nodes st rest [] (Some n) (drop 4 items)
      end
  end.
(* historytree.go:107-148 RestoreTreeFromProofs; proof.go:744-757 ToItems makes a hash of
   each item. None = error *)
Definition restore_tree (st : hstore) (key : N) (value : list N) (proofs : list nodeproof) : option htree :=
  if negb (length value =? 32)%nat then None
  else match chain_items proofs with
       | None => None
       | Some items =>
           if (length items <? 64)%nat then None
           else match restore_nodes st (reverse (heightToPrefix key)) value None (map (fun it => bytes_to_hash it.1) items) with
                | None => None
                | Some n => Some (HTree ((key + 1) mod two64) (Some n))
                end
       end.
End model.
