(** Model of trie/historytree.go: HistoryTree and TreeNode with their caches,
    dirty flags, collapsed nodes and database.

    A node has one parent, so the tree is a value and an in-place change is the
    replacement of the sub-tree; every function returns the changed node. An error
    is [None] in the result (next to the node, which may have changed); an index
    panic and a nil dereference are also [None] where they could occur. External
    code is a record [henv]: the system hash and the rtl codec of the two stored
    forms. The lock is in HistLockModel.v. Missing database keys load as empty
    (ldb.go:79-87, memdb.go:82-90); database errors are not modelled. *)
From Verif Require Import Base MerkleSpec MerkleModel TrieSpec TrieModel TrieProofModel.
From Verif Require Import HistSpec.
From stdpp Require Import gmap.
Open Scope N_scope.

Notation slots := (list (option (list N))).
Notation branches := (gmap (list N) (list N)).
Notation hstore := (gmap (list N) (list N)).

Record henv := HEnv {
  hH : list N -> list N;
  harr : slots -> list N;                            (* rtl.Encode of [16][]byte *)
  harr_dec : list N -> option slots;
  hsn : bool * branches * slots -> list N;           (* rtl.Encode of *serialNode *)
  hsn_dec : list N -> option (bool * branches * slots);
}.

(** What is assumed of the external code: hashes have 32 bytes and the codec
    decodes what it encoded, for 16 slots each nil or of 32 bytes and a non-empty
    map of hashes. *)
Definition slots_ok (a : slots) : Prop :=
  length a = 16%nat /\ Forall (fun o => match o with Some v => length v = 32%nat | None => True end) a.
Record henv_ok (E : henv) : Prop := HEnvOk {
  hok_H : forall x, length (hH E x) = 32%nat;
  hok_arr : forall a, slots_ok a -> harr_dec E (harr E a) = Some a;
  hok_sn : forall l b a, b <> ∅ -> map_Forall (fun _ v => length v = 32%nat) b -> slots_ok a ->
             hsn_dec E (hsn E (l, b, a)) = Some (l, b, a);
}.

(* historytree.go:587-593 TreeNode. Branchs: a nil value is never stored *)
Inductive hnode := HNode {
  hn_dirty : bool; hn_leaf : bool; hn_br : branches;
  hn_ch : list (option hnode); hn_lv : slots }.

Definition no_ch : list (option hnode) := replicate 16 None.
Definition no_lv : slots := replicate 16 None.
(* historytree.go:595-599 NewTreeNode *)
Definition NewTreeNode : hnode := HNode false false ∅ no_ch no_lv.

Definition with_dirty (n : hnode) (d : bool) := HNode d (hn_leaf n) (hn_br n) (hn_ch n) (hn_lv n).
Definition with_leaf (n : hnode) (l : bool) := HNode (hn_dirty n) l (hn_br n) (hn_ch n) (hn_lv n).
Definition with_br (n : hnode) (b : branches) := HNode (hn_dirty n) (hn_leaf n) b (hn_ch n) (hn_lv n).
Definition with_ch (n : hnode) (c : list (option hnode)) := HNode (hn_dirty n) (hn_leaf n) (hn_br n) c (hn_lv n).
Definition with_lv (n : hnode) (l : slots) := HNode (hn_dirty n) (hn_leaf n) (hn_br n) (hn_ch n) l.
Definition child (n : hnode) (i : N) : option hnode := mjoin (hn_ch n !! N.to_nat i).
Definition leafv (n : hnode) (i : N) : option (list N) := mjoin (hn_lv n !! N.to_nat i).
Definition set_child (n : hnode) (i : N) (c : hnode) : hnode := with_ch n (<[N.to_nat i := Some c]> (hn_ch n)).

(* historytree.go:620-630 ToBinary(b, length) for 1 <= length <= 8 *)
Fixpoint to_binary (b : N) (len : nat) : list N :=
  match len with O => [] | S l => to_binary (N.shiftr b 1) l ++ [N.land b 1] end.
(* historytree.go:634-648 ToByte for at most 8 bits *)
Fixpoint to_byte_loop (bs : list N) (b : N) : N :=
  match bs with
  | [] => b
  | x :: r => to_byte_loop r (if x =? 1 then N.lor b (N.shiftl 1 (lenN r)) else b)
  end.
Definition to_byte (bs : list N) : N := to_byte_loop bs 0.

(* historytree.go:668-675 Reset *)
Definition reset (n : hnode) : hnode := HNode false (hn_leaf n) ∅ no_ch no_lv.

(* historytree.go:677-684, 735-742 hasChild, hasLeaf *)
Definition has_child (n : hnode) : bool := existsb is_some (hn_ch n).
Definition has_leaf (n : hnode) : bool := existsb is_some (hn_lv n).

(* historytree.go:686-707, 744-764 checkChildren, checkLeafs: (has, missing, last) *)
Fixpoint check_slots {A} (l : list (option A)) (i : Z) (alreadyNil has missing : bool) (lst : Z) : bool * bool * Z :=
  match l with
  | [] => (has, missing, lst)
  | Some _ :: r => check_slots r (i + 1)%Z alreadyNil true (if alreadyNil then true else missing) i
  | None :: r => check_slots r (i + 1)%Z true has missing lst
  end.

(* historytree.go:709-733, 766-774 rightmostChild, rightmostLeaf: index and element *)
Fixpoint rightmost {A} (l : list (option A)) (i : N) (chk : bool) (cur : option (N * A)) : option (N * A) :=
  match l with
  | [] => cur
  | Some x :: r => rightmost r (i + 1) true (Some (i, x))
  | None :: r => if chk then cur else rightmost r (i + 1) chk cur
  end.

(* historytree.go:786-801 isCollapsed *)
Definition collapsed (n : hnode) : bool :=
  (size (hn_br n) =? 1)%nat && is_some (hn_br n !! []) &&
  (if hn_leaf n then negb (has_leaf n) else negb (has_child n)).

(* binary.BigEndian.PutUint64 and Uint64; historytree.go:149-164 *)
Definition heightToPrefix (key : N) : list N := keyToPrefix (be_fixed 8 key).
Definition prefixToHeight (prefix : list N) : option N :=
  if negb (length prefix =? 16)%nat then None
  else Some (be_num (prefixToKey prefix)).

Section model.
Context (E : henv).
Local Notation H := (hH E).
Local Notation nilhash := (nilhash H).

(* historytree.go:1321-1406 HashAtPrefix; at a prefix of length 4 it is LeafHash
   (1408-1421), which for an inner node is HashAtPrefix(nil) of the child. Result:
   hash (nil = None), leftIsNil, rightIsNil; None = error. [fuel] bounds the
   recursion: 5 prefix lengths for each of the 16 levels of nodes. *)
Fixpoint hash_at (fuel : nat) (n : hnode) (p : list N) : hnode * option (option (list N) * bool * bool) :=
  match fuel with
  | O => (n, None)
  | S f =>
      if (4 <? length p)%nat then (n, None)
      else if (length p =? 4)%nat then
        let i := to_byte p in
        if hn_leaf n then (n, Some (leafv n i, false, false))
        else match child n i with
             | None => (n, Some (None, false, false))
             | Some c => let '(c', r) := hash_at f c [] in
                         (set_child n i c', match r with Some (h, _, _) => Some (h, false, false) | None => None end)
             end
      else match hn_br n !! p with
      | Some r => (n, Some (Some r, false, false))
      | None =>
          let '(n1, rl) := hash_at f n (p ++ [0]) in
          match rl with
          | None => (n1, None)
          | Some (lh, lln, lrn) =>
              if lln && negb lrn then (n1, None) else
              let '(n2, rr) := hash_at f n1 (p ++ [1]) in
              match rr with
              | None => (n2, None)
              | Some (rh, rln, rrn) =>
                  if rln && negb rrn then (n2, None)
                  else if lrn && is_some rh
                  then ((if lln then n2 else with_br n2 (delete (p ++ [0]) (hn_br n2))), None)
                  else match lh, rh with
                       | None, None => (n2, Some (None, true, true))
                       | None, Some _ => (n2, None)
                       | Some l, _ =>
                           let h := hash_pair H l (default nilhash rh) in
                           (with_br n2 (<[p := h]> (hn_br n2)), Some (Some h, false, negb (is_some rh)))
                       end
              end
          end
      end
  end.
Definition hash_fuel : nat := 81.
Definition hash_prefix (n : hnode) (p : list N) := hash_at hash_fuel n p.
(* historytree.go:1408-1421 LeafHash for an index of 0..15 *)
Definition leaf_hash (n : hnode) (i : N) : hnode * option (option (list N)) :=
  if hn_leaf n then (n, Some (leafv n i))
  else match child n i with
       | None => (n, Some None)
       | Some c => let '(c', r) := hash_prefix c [] in
                   (set_child n i c', match r with Some (h, _, _) => Some h | None => None end)
       end.

(* ------------------------------------------------------------ persistence *)
(* the children read from their hashes: historytree.go:910-915, 1700-1708; putValue
   on a new node just sets Branchs[""] (1079-1097) *)
Definition from_hash (h : list N) : hnode := with_br NewTreeNode {[ [] := h ]}.
Definition load_slots (n : hnode) (a : slots) : hnode :=
  if hn_leaf n then with_lv n a
  else with_ch n (map (option_map from_hash) a).

(* historytree.go:1020-1067 readFull *)
Definition read_full (st : hstore) (n : hnode) (root : list N) : hnode * bool :=
  let n := reset n in
  if bool_decide (root = []) || bool_decide (root = nilhash) then (n, true)
  else match st !! root with
       | None | Some [] => (n, true)
       | Some (c :: rest) =>
           if c =? 1 then
             let n := with_leaf n true in
             match harr_dec E rest with None => (n, false) | Some a => (load_slots n a, true) end
           else if c =? 0 then
             let n := with_leaf n false in
             match harr_dec E rest with None => (n, false) | Some a => (load_slots n a, true) end
           else if c =? 0xff then
             match hsn_dec E rest with
             | None => (n, false)
             | Some (l, b, a) => (load_slots (with_br (with_leaf n l) b) a, true)
             end
           else (n, false)
       end.

(* historytree.go:807-818 expand *)
Definition expand (st : hstore) (n : hnode) : hnode * bool :=
  if negb (collapsed n) then (n, false)
  else match hn_br n !! [] with
       | None | Some [] => (n, false)
       | Some root => read_full st n root
       end.
Definition expand_if (st : hstore) (n : hnode) : hnode * bool :=
  if collapsed n then expand st n else (n, true).

(* historytree.go:888-897, 1609-1620: the hashes of the children in order; None = error *)
Fixpoint child_hashes (l : list (option hnode)) : list (option hnode) * option slots :=
  match l with
  | [] => ([], Some [])
  | None :: r => let '(r', hs) := child_hashes r in (None :: r', option_map (cons None) hs)
  | Some c :: r =>
      let '(c', h) := hash_prefix c [] in
      match h with
      | None => (Some c' :: r, None)
      | Some (o, _, _) => let '(r', hs) := child_hashes r in (Some c' :: r', option_map (cons o) hs)
      end
  end.
Definition node_slots (n : hnode) : hnode * option slots :=
  if hn_leaf n then (n, Some (hn_lv n))
  else let '(c, s) := child_hashes (hn_ch n) in (with_ch n c, s).

(* historytree.go:927-945 saveEntireNode, 952-1018 saveFull; false = error *)
Definition save_full (st : hstore) (n : hnode) : hstore * hnode * bool :=
  if negb (hn_dirty n) then (st, n, true)
  else
    let '(n1, r) := hash_prefix n [] in
    match r with
    | None => (st, n1, false)
    | Some (None, _, _) => (st, n1, true)
    | Some (Some root, _, _) =>
        let '(has, missing, lst) :=
          if hn_leaf n1 then check_slots (hn_lv n1) 0 false false false (-1)
          else check_slots (hn_ch n1) 0 false false false (-1) in
        let '(n2, a) := node_slots n1 in
        match a with
        | None => (st, n2, false)
        | Some a =>
            let content :=
              if negb has || missing || (lst <? 15)%Z
              then 0xff :: hsn E (hn_leaf n2, hn_br n2, a)
              else (if hn_leaf n2 then 1 else 0) :: harr E a in
            (<[root := content]> st, with_dirty n2 false, true)
        end
    end.

(* historytree.go:842-864 commitNode; [fuel] = number of inner node levels. The loop
   over the children is [commit_list] *)
Fixpoint commit_list (cm : hstore -> hnode -> hstore * hnode * bool) (st : hstore) (l : list (option hnode))
  : hstore * list (option hnode) * bool :=
  match l with
  | [] => (st, [], true)
  | None :: r => let '(st1, r', ok) := commit_list cm st r in (st1, None :: r', ok)
  | Some x :: r =>
      if hn_dirty x then
        let '(st1, x', ok) := cm st x in
        if ok then let '(st2, r', ok') := commit_list cm st1 r in (st2, Some x' :: r', ok')
        else (st1, Some x' :: r, false)
      else let '(st1, r', ok) := commit_list cm st r in (st1, Some x :: r', ok)
  end.
Fixpoint commit (fuel : nat) (st : hstore) (n : hnode) : hstore * hnode * bool :=
  if negb (hn_dirty n) then (st, n, true)
  else if hn_leaf n then
    let '(st1, n1, ok) := save_full st n in (st1, if ok then with_dirty n1 false else n1, ok)
  else match fuel with
  | O => (st, n, false)
  | S f =>
      let '(st1, c, ok) := commit_list (commit f) st (hn_ch n) in
      let n1 := with_ch n c in
      if negb ok then (st1, n1, false)
      else let '(st2, n2, ok2) := save_full st1 n1 in (st2, if ok2 then with_dirty n2 false else n2, ok2)
  end.

(* historytree.go:820-840 collapse; a nil hash is lh out of Branchs *)
Definition collapse (st : hstore) (n : hnode) : hstore * hnode * bool :=
  if collapsed n then (st, n, true)
  else
    let '(st1, n1, ok) := if hn_dirty n then save_full st n else (st, n, true) in
    if negb ok then (st1, n1, false)
    else if hn_dirty n1 then (st1, n1, true)
    else let '(n2, r) := hash_prefix n1 [] in
         match r with
         | None => (st1, n2, false)
         | Some (o, _, _) => (st1, with_br (reset n2) (match o with Some h => {[ [] := h ]} | None => ∅ end), true)
         end.

(* ------------------------------------------------------------ walking *)
(* historytree.go:1070-1089 clearAncestors of the 4 bits of an index *)
Definition clear_ancestors (n : hnode) (bits : list N) : hnode :=
  with_br n (delete (take 0 bits) (delete (take 1 bits) (delete (take 2 bits) (delete (take 3 bits) (hn_br n))))).

(* historytree.go:1145-1170 putLeaf(index, value, false) for an index of 0..15 *)
Definition put_leaf (n : hnode) (i : N) (v : list N) : option hnode :=
  if collapsed n then None
  else if negb (hn_leaf n) then None
  else if bool_decide (v = []) then None
  else Some (with_dirty (clear_ancestors (with_lv n (<[N.to_nat i := Some v]> (hn_lv n))) (to_binary i 4)) true).

(* historytree.go:1248-1313 traceDescendant from offset: [prefix] is the rest of
   prefixString; [app] the value to append, None to get. Result (changed, value,
   exist), None = error *)
Fixpoint trace (st : hstore) (n : hnode) (prefix : list N) (app : option (list N))
  : hnode * option (bool * option (list N) * bool) :=
  match prefix with
  | [] => (n, Some (false, None, false))
  | x :: rest =>
      let '(n, ok) := expand_if st n in
      if negb ok then (n, None)
      else if bool_decide (rest = []) && negb (hn_leaf n) then (n, None)
      else if negb (bool_decide (rest = [])) && hn_leaf n then (n, None)
      else if hn_leaf n then
        match app with
        | Some v => match put_leaf n x v with
                    | None => (n, None)
                    | Some n' => (n', Some (true, leafv n' x, true)) end
        | None => (n, Some (false, leafv n x, is_some (leafv n x)))
        end
      else match child n x with
      | Some c =>
          let '(c', r) := trace st c rest app in
          let n1 := set_child n x c' in
          match r with
          | Some (true, v, e) => (with_dirty (clear_ancestors n1 (to_binary x 4)) true, Some (true, v, e))
          | r => (n1, r)
          end
      | None =>
          match app with
          | None => (n, Some (false, None, false))
          | Some _ =>
              let '(c', r) := trace st (with_leaf NewTreeNode (length rest =? 1)%nat) rest app in
              match r with
              | None => (n, None)
              | Some (_, v, e) =>
                  (with_dirty (clear_ancestors (set_child n x c') (to_binary x 4)) true, Some (true, v, e))
              end
          end
      end
  end.

(* historytree.go:228-284 locateNode of a non-nil start. None = error, Some None = does
   not exist, Some (Some (index, value)) = exists *)
Fixpoint locate (st : hstore) (n : hnode) (prefix : list N) : hnode * option (option (N * option (list N))) :=
  match prefix with
  | [] => (n, None)
  | x :: rest =>
      if 16 <=? x then (n, None) else
      let '(n, ok) := expand_if st n in
      if negb ok then (n, None)
      else if hn_leaf n then
        if negb (bool_decide (rest = [])) then (n, None)
        else match leafv n x with
             | None => (n, Some None)
             | Some v => (n, Some (Some (x, Some v))) end
      else if bool_decide (rest = []) then
        (n, Some (match child n x with Some _ => Some (x, None) | None => None end))
      else match child n x with
           | None => (n, Some None)
           | Some c => let '(c', r) := locate st c rest in (set_child n x c', r)
           end
  end.

(* historytree.go:193-241 findRightmost from a non-nil root; [fuel] = 16 *)
Fixpoint find_rightmost (fuel : nat) (st : hstore) (n : hnode) (chk : bool) : hnode * option (list N) :=
  match fuel with
  | O => (n, None)
  | S f =>
      let '(n, ok) := expand_if st n in
      if negb ok then (n, None)
      else if hn_leaf n then
        (n, match rightmost (hn_lv n) 0 chk None with Some (i, _) => Some [i] | None => None end)
      else match rightmost (hn_ch n) 0 chk None with
           | None => (n, None)
           | Some (i, c) => let '(c', r) := find_rightmost f st c chk in
                            (set_child n i c', option_map (cons i) r)
           end
  end.

(* ------------------------------------------------------------ proofs *)
(* historytree.go:1427-1513 appendToProof. The loop over the layers 2-4: [i] counts
   2, 1, 0 as 3, 2, 1 *)
Fixpoint proof_layers (i : nat) (n : hnode) (bits : list N) (mp : mproofs) : hnode * option mproofs :=
  match i with
  | O => (n, Some mp)
  | S i' =>
      if default 0 (bits !! i') =? 0 then
        let '(n1, r) := hash_prefix n (take i' bits ++ [1]) in
        match r with
        | None => (n1, None)
        | Some (rh, _, _) =>
            match mp_append mp (bytes_to_hash (default nilhash rh)) false with
            | None => (n1, None)
            | Some mp' => proof_layers i' n1 bits mp' end
        end
      else
        let '(n1, r) := hash_prefix n (take i' bits ++ [0]) in
        match r with
        | None => (n1, None)
        | Some (lh, lln, lrn) =>
            match lh with
            | None => (n1, None)
            | Some l =>
                if lln || lrn then (n1, None)
                else match mp_append mp (bytes_to_hash l) true with
                     | None => (n1, None)
                     | Some mp' => proof_layers i' n1 bits mp' end
            end
        end
  end.
Definition append_proof (n : hnode) (mp : mproofs) (index : N) : hnode * option mproofs :=
  if (if hn_leaf n then negb (is_some (leafv n index)) else negb (is_some (child n index))) then (n, None)
  else
    let bits := to_binary index 4 in
    if index mod 2 =? 0 then
      let '(n1, l) := leaf_hash n index in
      match l with None => (n1, None) | Some _ =>
      let '(n2, r) := leaf_hash n1 (index + 1) in
      match r with None => (n2, None) | Some rh =>
      match mp_append mp (bytes_to_hash (default nilhash rh)) false with
      | None => (n2, None)
      | Some mp' => proof_layers 3 n2 bits mp' end end end
    else
      let '(n1, l) := leaf_hash n (index - 1) in
      match l with None | Some None => (n1, None) | Some (Some lh) =>
      let '(n2, r) := leaf_hash n1 index in
      match r with None => (n2, None) | Some _ =>
      match mp_append mp (bytes_to_hash lh) true with
      | None => (n2, None)
      | Some mp' => proof_layers 3 n2 bits mp' end end end.

(* historytree.go:458-465: the loop of GetProof over the traced nodes, lowest first *)
Fixpoint proof_path (n : hnode) (prefix : list N) (mp : mproofs) : hnode * option mproofs :=
  match prefix with
  | [] => (n, None)
  | [i] => append_proof n mp i
  | i :: rest =>
      match child n i with
      | None => (n, None)
      | Some c =>
          let '(c', r) := proof_path c rest mp in
          let n1 := set_child n i c' in
          match r with None => (n1, None) | Some mp' => append_proof n1 mp' i end
      end
  end.

(* ------------------------------------------------------------ HistoryTree *)
(* historytree.go:41-46 *)
Record htree := HTree { ht_exp : N; ht_root : option hnode }.

(* historytree.go:71-103 _newHistoryTree *)
Definition open_tree (st : hstore) (root : list N) (chk : bool) : option htree :=
  if negb (length root =? 32)%nat || bool_decide (root = nilhash) then Some (HTree 0 None)
  else let '(n, r) := find_rightmost 16 st (from_hash root) chk in
       match r with
       | None => None
       | Some prefix =>
           if negb (length prefix =? 16)%nat then None
           else match prefixToHeight prefix with
                | None => None
                | Some h => Some (HTree ((h + 1) mod two64) (Some n)) end
       end.

(* historytree.go:317-330, 1305-1319 HashValue; None = error *)
Definition hash_value (t : htree) : htree * option (list N) :=
  match ht_root t with
  | None => (t, Some nilhash)
  | Some n => let '(n', r) := hash_prefix n [] in
              (HTree (ht_exp t) (Some n'),
               match r with None => None | Some (o, _, _) => Some (default nilhash o) end)
  end.

(* historytree.go:381-412 Append; false = error *)
Definition append (st : hstore) (t : htree) (key : N) (value : list N) : htree * bool :=
  if negb (key =? ht_exp t) then (t, false)
  else if bool_decide (value = []) then (t, false)
  else
    let cur := default NewTreeNode (ht_root t) in
    let '(n, r) := trace st cur (heightToPrefix key) (Some value) in
    match r with
    | None => (HTree (ht_exp t) (Some n), false)
    | Some (changed, _, _) => (HTree (if changed then (ht_exp t + 1) mod two64 else ht_exp t) (Some n), true)
    end.

(* historytree.go:422-434 Get *)
Definition get_tree (st : hstore) (t : htree) (key : N) : htree * option (list N) :=
  match ht_root t with
  | None => (t, None)
  | Some n => let '(n', r) := trace st n (heightToPrefix key) None in
              (HTree (ht_exp t) (Some n'),
               match r with Some (_, v, true) => v | _ => None end)
  end.

(* proof.go:204-235 NewMerkleOnlyProof *)
Definition merkle_only (mp : mproofs) : nodeproof := NP ProofMerkleOnly (NH 0 [] [0; 0]) None (Some mp).

(* historytree.go:436-470 GetProof *)
Definition get_proof (st : hstore) (t : htree) (key : N) : htree * option (list N * list nodeproof) :=
  match ht_root t with
  | None => (t, None)
  | Some n =>
      let prefix := heightToPrefix key in
      let '(n1, r) := locate st n prefix in
      match r with
      | Some (Some (_, v)) =>
          let '(n2, mp) := proof_path n1 prefix mp_new in
          (HTree (ht_exp t) (Some n2),
           match mp with Some mp => Some (default [] v, [merkle_only mp]) | None => None end)
      | _ => (HTree (ht_exp t) (Some n1), None)
      end
  end.

(* proof.go:759-766 ProofChain.BigKey; None = panic *)
Fixpoint chain_bigkey (c : list nodeproof) (key : N) (pos : Z) : option (N * Z) :=
  match c with
  | [] => Some (key, pos)
  | p :: r => match np_child p with
              | None => None
              | Some mp => match mp_bigkey mp key pos with
                           | None => None
                           | Some (key', pos') => chain_bigkey r key' pos' end
              end
  end.
(* hash.go:412-425, proof.go:694-710: ProofChain.Iterate over Merkle-only proofs, and Proof *)
Fixpoint chain_items (c : list nodeproof) : option (list (list N * bool)) :=
  match c with
  | [] => Some []
  | p :: r => match (if IsProofMerkleOnly (np_type p) then mpo_items (np_child p) else None), chain_items r with
              | Some a, Some b => Some (a ++ b)
              | _, _ => None end
  end.
Definition chain_proof (c : list nodeproof) (h : list N) : option (list N) :=
  match chain_items c with
  | None => None
  | Some its => Some (foldl (fun acc '(v, order) => hash_pair_order H order v acc) h its)
  end.

(* historytree.go:567-578 Commit *)
Definition commit_tree (st : hstore) (t : htree) : hstore * htree * bool :=
  match ht_root t with
  | None => (st, t, true)
  | Some n => let '(st', n', ok) := commit 16 st n in (st', HTree (ht_exp t) (Some n'), ok)
  end.

(* historytree.go:303-315 Clone: errors of Commit and HashValue are dropped; None = nil *)
Definition clone (st : hstore) (t : htree) : hstore * htree * option htree :=
  let '(st1, t1, _) := commit_tree st t in
  let '(t2, r) := hash_value t1 in
  (st1, t2, open_tree st1 (default [] r) false).

(* historytree.go:348-352: the number of nibbles up to the last that is not 0 *)
Fixpoint last_nonzero (prefix : list N) : nat :=
  match prefix with
  | [] => O
  | x :: r => match last_nonzero r with
              | O => if x =? 0 then O else 1%nat
              | S k => S (S k) end
  end.
(* historytree.go:353-379: the child before the located one is collapsed. Walks the
   (expanded) path to the parent; None = panic *)
Fixpoint collapse_at (st : hstore) (n : hnode) (prefix : list N) : option (hstore * hnode) :=
  match prefix with
  | [] => Some (st, n)
  | [i] => if (i =? 0) || hn_leaf n then Some (st, n)
           else match child n (i - 1) with
                | None => None
                | Some c => if hn_dirty c then Some (st, n)
                            else let '(st', c', _) := collapse st c in Some (st', set_child n (i - 1) c') end
  | i :: rest => match child n i with
                 | None => Some (st, n)
                 | Some c => match collapse_at st c rest with
                             | None => None
                             | Some (st', c') => Some (st', set_child n i c') end
                 end
  end.
(* historytree.go:343-379 CollapseBefore; its error is not observed. None = panic *)
Definition collapse_before (st : hstore) (t : htree) (key : N) : option (hstore * htree) :=
  let prefix := heightToPrefix key in
  let pos := last_nonzero prefix in
  if (pos =? 16)%nat || (pos =? 0)%nat then Some (st, t)
  else match ht_root t with
       | None => Some (st, t)
       | Some n =>
           let '(n1, r) := locate st n (take pos prefix) in
           match r with
           | Some (Some _) => match collapse_at st n1 (take pos prefix) with
                              | None => None
                              | Some (st', n2) => Some (st', HTree (ht_exp t) (Some n2)) end
           | _ => Some (st, HTree (ht_exp t) (Some n1))
           end
       end.

(* ------------------------------------------------------------ a family of trees *)
Record hpool := HPool { hp_store : hstore; hp_trees : list htree; hp_roots : list (list N) }.
Definition hp_set (p : hpool) (j : nat) (t : htree) : hpool :=
  HPool (hp_store p) (<[j := t]> (hp_trees p)) (hp_roots p).
(** One call; None = panic. *)
Definition hmstep (p : hpool) (jo : nat * hcall) : option (hpool * hobs) :=
  let '(j, o) := jo in
  let st := hp_store p in
  match hp_trees p !! j with
  | None => Some (p, HvOk)
  | Some t =>
      match o with
      | HAppend k v => let '(t', ok) := append st t k v in
                       Some (hp_set p j t', if ok then HvOk else HvErr)
      | HGet k => let '(t', v) := get_tree st t k in Some (hp_set p j t', HvVal v)
      | HExpecting => Some (p, HvNum (ht_exp t))
      | HHash => let '(t', h) := hash_value t in
                 Some (hp_set p j t', match h with Some h => HvHash h | None => HvErr end)
      | HProof k =>
          let '(t', r) := get_proof st t k in
          Some (hp_set p j t',
                HvProof (match r with
                         | None => None
                         | Some (v, c) => Some (v, chain_proof c (bytes_to_hash v), option_map fst (chain_bigkey c 0 0))
                         end))
      | HCommit =>   (* 332-343 CommitAndHash *)
          let '(st', t1, ok) := commit_tree st t in
          if ok then
            let '(t2, h) := hash_value t1 in
            match h with
            | Some h => Some (HPool st' (<[j := t2]> (hp_trees p)) (hp_roots p ++ [h]), HvHash h)
            | None => Some (HPool st' (<[j := t2]> (hp_trees p)) (hp_roots p), HvErr) end
          else Some (HPool st' (<[j := t1]> (hp_trees p)) (hp_roots p), HvErr)
      | HCollapse k => match collapse_before st t k with
                       | None => None
                       | Some (st', t') => Some (HPool st' (<[j := t']> (hp_trees p)) (hp_roots p), HvOk) end
      | HClone =>
          let '(st', t1, t2) := clone st t in
          match t2 with
          | Some t2 => Some (HPool st' (<[j := t1]> (hp_trees p) ++ [t2]) (hp_roots p), HvOk)
          | None => Some (HPool st' (<[j := t1]> (hp_trees p)) (hp_roots p), HvErr) end
      | HOpen i chk =>
          match hp_roots p !! i with
          | Some h => match open_tree st h chk with
                      | Some t' => Some (HPool st (hp_trees p ++ [t']) (hp_roots p), HvOk)
                      | None => Some (p, HvErr) end
          | None => Some (p, HvOk) end
      end
  end.
Fixpoint hmrun (ops : list (nat * hcall)) (p : hpool) : option (hpool * list hobs) :=
  match ops with
  | [] => Some (p, [])
  | o :: ops' => match hmstep p o with
                 | None => None
                 | Some (p1, b) => match hmrun ops' p1 with
                                   | None => None
                                   | Some (p2, bs) => Some (p2, b :: bs) end
                 end
  end.
Definition hpool0 : hpool := HPool ∅ [HTree 0 None] [].

End model.
