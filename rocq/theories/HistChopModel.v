(** Model of HistoryTree.Chop (trie/historytree.go:1694-1805), on the trees of HistModel.v. *)
From Verif Require Import Base MerkleSpec MerkleModel TrieSpec TrieModel HistSpec HistModel.
From stdpp Require Import gmap.
Open Scope N_scope.

Section model.
Context (E : henv).

(* historytree.go:653-668 TreeNode.copy; outer None = error, inner None = nil *)
Definition copy_node (n : hnode) : hnode * option (option hnode) :=
  let '(n', r) := hash_prefix E n [] in
  (n', match r with
       | None => None
       | Some (None, _, _) => Some None
       | Some (Some root, _, _) => Some (Some (HNode false (hn_leaf n') {[ [] := root ]} no_ch no_lv))
       end).
(* historytree.go:1717-1725: the copies of these children; None = error *)
Fixpoint copy_children (l : list (option hnode)) : list (option hnode) * option (list (option hnode)) :=
  match l with
  | [] => ([], Some [])
  | None :: r => let '(r', cs) := copy_children r in (None :: r', option_map (cons None) cs)
  | Some c :: r =>
      let '(c', o) := copy_node c in
      match o with
      | None => (Some c' :: r, None)
      | Some o => let '(r', cs) := copy_children r in (Some c' :: r', option_map (cons o) cs)
      end
  end.

(* historytree.go:1731-1742 with indexingChanged = false: the keys of the map choped *)
Fixpoint chop_indexes (fuel : nat) (i : N) : list N :=
  match fuel with
  | O => []
  | S f => if i <? 16 then i :: chop_indexes f (i + 2) else []
  end.
Definition choped (index : N) : list (list N) :=
  flat_map (fun i => let p := to_binary i 4 in [take 3 p; take 2 p; take 1 p; take 0 p]) (chop_indexes 8 (index + 1)).

(* historytree.go:1695-1751 _chop of a node that is not nil, with indexingChanged = false, for
   an index of 0..15: the node, and the new node and changed; None = error *)
Definition chop_node (n : hnode) (index : N) : hnode * option (hnode * bool) :=
  let i := N.to_nat index in
  let br := filter (fun pr : list N * list N => pr.1 ∉ choped index) (hn_br n) in
  let brs := negb (bool_decide (br = hn_br n)) in
  if hn_leaf n then
    match leafv n index with
    | None => (n, None)
    | Some _ => (n, Some (HNode false true br no_ch (take (S i) (hn_lv n) ++ replicate (15 - i) None),
                          is_some (leafv n (index + 1)) || brs))
    end
  else
    match child n index with
    | None => (n, None)
    | Some _ =>
        let '(l, r) := copy_children (take (S i) (hn_ch n)) in
        let n' := with_ch n (l ++ drop (S i) (hn_ch n)) in
        match r with
        | None => (n', None)
        | Some cs => (n', Some (HNode false false br (cs ++ replicate (15 - i) None) no_lv,
                                is_some (child n (index + 1)) || brs))
        end
    end.

(* historytree.go:1762-1799: the loop along the prefix, and the loop that then deletes, in
   every node above a changed one, the branches on the path. A leaf node above the last
   nibble, which no tree has, is an error here. *)
Fixpoint chop_path (st : hstore) (n : hnode) (prefix : list N) : hnode * option (hnode * bool) :=
  match prefix with
  | [] => (n, None)
  | x :: rest =>
      let '(n, ok) := expand_if E st n in
      if negb ok then (n, None)
      else
        let '(n1, r) := chop_node n x in
        match r with
        | None => (n1, None)
        | Some (m, changed) =>
            if bool_decide (rest = []) then (n1, Some (m, changed))
            else if hn_leaf n1 then (n1, None)
            else match child n1 x with
                 | None => (n1, None)
                 | Some c =>
                     let '(c', r') := chop_path st c rest in
                     let n2 := set_child n1 x c' in
                     match r' with
                     | None => (n2, None)
                     | Some (mc, below) =>
                         let m1 := set_child m x mc in
                         (n2, Some (if below then clear_ancestors m1 (to_binary x 4) else m1, changed || below))
                     end
                 end
        end
  end.

(* historytree.go:1753-1806 Chop: the tree, and the new tree on the same database; None = error *)
Definition chop (st : hstore) (t : htree) (key : N) : htree * option htree :=
  match ht_root t with
  | None => (t, None)
  | Some n =>
      let '(n', r) := chop_path st n (heightToPrefix key) in
      (HTree (ht_exp t) (Some n'),
       match r with None => None | Some (m, _) => Some (HTree ((key + 1) mod two64) (Some m)) end)
  end.

(** Chop of tree [j] of a family at [key]: the new tree joins the family. *)
Definition hmchop (p : hpool) (j : nat) (key : N) : hpool * hobs :=
  match hp_trees p !! j with
  | None => (p, HvOk)
  | Some t =>
      let '(t', r) := chop (hp_store p) t key in
      match r with
      | Some t2 => (HPool (hp_store p) (<[j := t']> (hp_trees p) ++ [t2]) (hp_roots p), HvOk)
      | None => (hp_set p j t', HvErr)
      end
  end.
End model.
