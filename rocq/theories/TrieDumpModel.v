(** Model of Trie.Dump (trie/trie.go:965-1045), which copies the nodes and values
    of a trie into another database.

    Both adapters of the trie are taken to be database adapters (the others make
    Dump return an error or copy no values); rebasing keeps their key prefixes, so
    the destination is again a map of nodes and a map of values. The walk is the
    node iterator of trie/iterator.go without selector, on the trie itself. The
    model does not return the walked trie, only what Dump writes, calls back and
    returns. *)
From Verif Require Import Base MerkleSpec TrieSpec TrieModel TrieIterModel.

Section model.
Context {V : Type} (E : env V).
Local Notation node := (node V).
Local Notation trie := (@trie V).

(* hash.go:1014-1017 InvalidHash; types.go:67-78 EmptyHash, NilHash *)
Definition InvalidHash (h : option (list N)) : bool :=
  match h with
  | None => true
  | Some h => negb (hash_len h) || bool_decide (h = replicate 32 0) ||
              bool_decide (h = nilhash (eH E)) || bool_decide (h = EmptyNodeHash E)
  end.

(* iterator.go:147-203 depthFirstNextStep without selector, the stack not empty:
   inl = the walk has ended, inr = the frames and the child they lead to *)
Definition node_step (st : store) (gen : N) (f : N * node) (stack : list (N * node))
  : node + ((N * node) * list (N * node) * node) :=
  let '(index, n) := f in
  let '(n, cur) := if 16 <=? index then (n, None)
                   else let n := it_expand E st gen n in (n, n_child n index) in
  match match cur with Some c => option_map (pair c) (first_from (n_ch c) 0 0) | None => None end with
  | Some (c, (i, cc)) => inr ((i, c), (index, n) :: stack, cc)
  | None => breadth E st gen (index, n) stack
  end.

(* trie.go:993-1044, the body of the loop for node [n] reached by [prefix]: the
   node (expanded), the destination, the calls of valueCallback and whether there
   was no error. A missing key is loaded as nil without error (ldb.go:79-87).
   [cb]: valueCallback is not nil *)
Definition dump_visit (st : store) (gen : N) (cb : bool) (prefix : list N) (n : node) (dst : store)
  : node * store * list (list N * list N) * bool :=
  if InvalidHash (n_hash n) then (n, dst, [], true)
  else
    let h := default [] (n_hash n) in
    let nb := default [] (st_nodes st !! h) in
    let '(ok, dst1) := match nb with [] => (true, dst) | _ => save_node dst h nb end in
    if ok then
      match expandNode E st gen n with
      | None => (n, dst1, [], false)
      | Some n1 =>
          let vh := default [] (n_vh n1) in
          if hash_len vh then
            let vb := default [] (st_vals st !! vh) in
            let '(ok, dst2) := match vb with [] => (true, dst1) | _ => save_val dst1 vh vb end in
            if ok then
              if cb then
                let p := prefix ++ n_pre n1 in
                let c0 := match p with [] => [([], vb)] | _ => [] end in
                if Nat.odd (length p) then (n1, dst2, c0, false)
                else (n1, dst2, c0 ++ [(prefixToKeystring p, vb)], true)
              else (n1, dst2, [], true)
            else (n1, dst2, [], false)
          else (n1, dst1, [], true)
      end
    else (n, dst1, [], false).

(* trie.go:987-1044 the loop after a node was handled; None = out of fuel *)
Fixpoint dump_loop (fuel : nat) (st : store) (gen : N) (cb : bool) (f : N * node) (stack : list (N * node)) (dst : store)
  : option (store * list (list N * list N) * bool) :=
  match fuel with
  | O => None
  | S fuel =>
      match node_step st gen f stack with
      | inl _ => Some (dst, [], true)
      | inr ((i, n), stack, c) =>
          let '(c, dst, cs, ok) := dump_visit st gen cb (trace_prefix (rev ((i, n) :: stack))) c dst in
          if ok then
            match dump_loop fuel st gen cb (i, put_child n i (Some c)) stack dst with
            | None => None
            | Some (dst, cs', ok) => Some (dst, cs ++ cs', ok)
            end
          else Some (dst, cs, false)
      end
  end.

(* trie.go:965-1045 Dump: the destination, the calls of valueCallback and whether
   there was no error *)
Definition Dump (fuel : nat) (st : store) (t : trie) (cb : bool) (dst : store)
  : option (store * list (list N * list N) * bool) :=
  if isEmpty E (t_root t) then Some (dst, [], true)
  else if n_dirty (t_root t) then Some (dst, [], false)
  else
    let '(root, dst, cs, ok) := dump_visit st (t_gen t) cb [] (t_root t) dst in
    if ok then
      match dump_loop fuel st (t_gen t) cb (17, root) [] dst with
      | None => None
      | Some (dst, cs', ok) => Some (dst, cs ++ cs', ok)
      end
    else Some (dst, cs, false).

(* trie.go:180-202 Rebase: the database and the trie after the commit, and the new
   trie, which is to be read from the other database; None = error *)
Definition Rebase (st : store) (t : trie) : option (store * trie * trie) :=
  let '(st', t1, ok) := Commit E st t in
  if ok then
    let '(t2, h) := HashValue E t1 in
    Some (st', t2, Trie (new_node (Some h) 0) 0 0)
  else None.
End model.
