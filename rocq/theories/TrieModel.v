(** Model of trie/utils.go, trie/node.go, trie/trie.go (the Merkle radix trie)
    with its caches, dirty flags, collapsed nodes and database.

    Pointers: every node has exactly one parent, so the tree is a value and an
    in-place update of a node is the replacement of the sub-tree. [interface{}]
    values are [option V] (nil = None). External code is a record of functions
    [env]: the system hash (hash.go:723), the rtl codec for byte slices
    (github.com/stephenfire/go-rtl), the value codec and the value hasher given
    to NewTrie. rtl.Encode of a type with a Serialization method is that method. *)
From Verif Require Export TrieSpec MerkleModel.

Record env (V : Type) := Env {
  eH : list N -> list N;
  ertl : list N -> list N;
  ertl_dec : list N -> option (list N * list N);
  evenc : V -> list N;
  evdec : list N -> option V;
  evhash : V -> list N;
}.
Arguments eH {V}. Arguments ertl {V}. Arguments ertl_dec {V}.
Arguments evenc {V}. Arguments evdec {V}. Arguments evhash {V}.

(** What is assumed of the external code: hashes have 32 bytes (node.go:247-249
    demands it of the value hasher), the codecs decode what they encoded, and the
    rtl encoding of a short byte string has at most 12 bytes of overhead. *)
Record env_ok {V} (E : env V) : Prop := EnvOk {
  ok_H : forall x, length (eH E x) = 32%nat;
  ok_rtl : forall b rest, ertl_dec E (ertl E b ++ rest) = Some (b, rest);
  ok_rtl_len : forall b, (length b <= 48)%nat -> (length (ertl E b) <= 60)%nat;
  ok_vdec : forall v, evdec E (evenc E v) = Some v;
  ok_vhash : forall v, length (evhash E v) = 32%nat;
}.

(* ------------------------------------------------------------ trie/utils.go *)

(* utils.go:26-34 *)
Fixpoint matchPrefix (sub of : list N) : nat :=
  match sub, of with
  | a :: sub', b :: of' => if a =? b then S (matchPrefix sub' of') else O
  | _, _ => O
  end.

(* utils.go:36-50: the loop r[i] = (p[2i]&0xF)<<4 | (p[2i+1]&0xF), bytes; nil = [] *)
Fixpoint keystring_loop (p : list N) : list N :=
  match p with
  | a :: b :: p' =>
      N.lor ((N.shiftl (N.land a 0xF) 4) mod 256) (N.land b 0xF) :: keystring_loop p'
  | _ => []
  end.
Definition prefixToKeystring (prefix : list N) : list N :=
  keystring_loop (if Nat.odd (length prefix) then drop 1 prefix else prefix).

(* node.go:41-59 NodeType *)
Definition nt_HasPrefix (t : N) : bool := 0 <? N.land t 0x80.
Definition nt_PrefixOddLength (t : N) : bool := 0 <? N.land t 0x10.
Definition nt_FirstPrefix (t : N) : N := N.land t 0x0F.
Definition nt_HasChildren (t : N) : bool := 0 <? N.land t 0x40.
Definition nt_HasValue (t : N) : bool := 0 <? N.land t 0x20.

(* utils.go:52-76 *)
Fixpoint split_bytes_nib (e : list N) : list N :=
  match e with [] => [] | b :: e' => N.shiftr b 4 :: N.land b 0x0F :: split_bytes_nib e' end.
Definition keystringToPrefix (nt : N) (encoded : list N) : list N :=
  if negb (nt_HasPrefix nt) then []
  else (if nt_PrefixOddLength nt then [nt_FirstPrefix nt] else []) ++ split_bytes_nib encoded.

(* utils.go:78-88 *)
Definition keyToPrefix (key : list N) : list N := split_bytes_nib key.

(* utils.go:91-107 *)
Fixpoint prefixToKey_loop (p : list N) : list N :=
  match p with
  | a :: b :: p' =>
      N.lor ((N.shiftl (N.lor ((N.shiftl 0 4) mod 256) (N.land a 0xF)) 4) mod 256) (N.land b 0xF)
      :: prefixToKey_loop p'
  | [a] => [N.lor ((N.shiftl 0 4) mod 256) (N.land a 0xF)]
  | [] => []
  end.
Definition prefixToKey (prefix : list N) : list N :=
  match prefix with
  | a :: p => if Nat.odd (length prefix) then N.land a 0xF :: prefixToKey_loop p
              else prefixToKey_loop prefix
  | [] => []
  end.

(* utils.go:109-119; 16 = invalid *)
Definition hexbyteToValuebyte (h : N) : N :=
  if (48 <=? h) && (h <=? 57) then h - 48
  else if (97 <=? h) && (h <=? 102) then h - 97 + 10
  else if (65 <=? h) && (h <=? 70) then h - 65 + 10
  else 16.
(* utils.go:121-127 *)
Definition hexbyte_array : list N := [48;49;50;51;52;53;54;55;56;57;65;66;67;68;69;70].
Definition valuebyteToHexbyte (v : N) : N := nth (N.to_nat (N.land v 0xF)) hexbyte_array 0.
(* utils.go:129-151 *)
Definition prefixToHexstring (p : list N) : list N := map valuebyteToHexbyte p.
Definition hexstringToPrefix (s : list N) : list N := map hexbyteToValuebyte s.

(* ------------------------------------------------------------- NodeHeader *)

(* node.go:127-131 *)
Record nodeheader := NH { nh_nt : N; nh_key : list N; nh_flag : list N }.
Global Instance nodeheader_eq_dec : EqDecision nodeheader.
Proof. solve_decision. Defined.

(* node.go:513-530 ntype *)
Definition ntype (pre : list N) (haschildren hasvalue : bool) : N :=
  let b := 0 in
  let b := match pre with
           | [] => b
           | x :: _ => let b := N.lor b 0x80 in
                       if N.land (lenN pre) 1 =? 1
                       then N.lor (N.lor b 0x10) (N.land x 0x0F) else b
           end in
  let b := if haschildren then N.lor b 0x40 else b in
  if hasvalue then N.lor b 0x20 else b.

(* node.go:151-157: ChildrenFlag[i/8] |= 1 << (i%8) for i = 0..15 *)
Fixpoint flag_loop (i : N) (pres : list bool) (flag : list N) : list N :=
  match pres with
  | [] => flag
  | p :: r =>
      flag_loop (i + 1) r
        (if p then alter (fun f => N.lor f (N.shiftl 1 (i mod 8))) (N.to_nat (i / 8)) flag else flag)
  end.

(* node.go:145-160 newNodeHeader *)
Definition newNodeHeader (pre : list N) (pres : list bool) (hasvalue : bool) : nodeheader :=
  let nt := ntype pre (existsb id pres) hasvalue in
  NH nt (if nt_HasPrefix nt then prefixToKeystring pre else [])
     (if nt_HasChildren nt then flag_loop 0 pres [0; 0] else [0; 0]).

(* node.go:186-188 HasChild *)
Definition nh_HasChild (h : nodeheader) (index : N) : bool :=
  nt_HasChildren (nh_nt h) &&
  (0 <? N.land (nth (N.to_nat (index / 8)) (nh_flag h) 0) (N.shiftl 1 (index mod 8) mod 256)).
(* node.go:182-184 KeyToPrefix *)
Definition nh_KeyToPrefix (h : nodeheader) : list N := keystringToPrefix (nh_nt h) (nh_key h).

Section codec.
Context {V : Type} (E : env V).

(* node.go:198-215 NodeHeader.Serialization *)
Definition nh_ser (h : nodeheader) : list N :=
  nh_nt h ::
  (if nt_HasPrefix (nh_nt h) then ertl E (nh_key h) else []) ++
  (if nt_HasChildren (nh_nt h) then nh_flag h else []).
(* node.go:194-196 NodeHeader.HashValue *)
Definition nh_hash (h : nodeheader) : list N := eH E (nh_ser h).

(* io.ReadFull of n bytes from an in-memory buffer *)
Definition read_n (n : nat) (b : list N) : option (list N * list N) :=
  if (n <=? length b)%nat then Some (take n b, drop n b) else None.

(* node.go:217-237 NodeHeader.Deserialization into a zero header *)
Definition nh_deser (b : list N) : option (nodeheader * list N) :=
  match read_n 1 b with
  | Some ([nt], r) =>
      match (if nt_HasPrefix nt then ertl_dec E r else Some ([], r)) with
      | None => None
      | Some (k, r) =>
          if nt_HasChildren nt
          then match read_n 2 r with
               | Some (f, r) => Some (NH nt k f, r)
               | None => None
               end
          else Some (NH nt k [0; 0], r)
      end
  | _ => None
  end.
End codec.

(* ------------------------------------------------------------------- node *)

(* node.go:251-266; the headerhash cache (node.go:259) is never read by
   computeHash and is left out; valuestream nil = []; hash and valuehash keep
   the difference between nil and a slice *)
Inductive node (V : Type) := Node
  (pre : list N) (ch : list (option (node V))) (v : option V)
  (dirty : bool) (hash : option (list N)) (vh : option (list N)) (vs : list N) (gen : N).
Arguments Node {V}.

Section fields.
Context {V : Type}.
Implicit Types n : node V.
Definition n_pre n := let 'Node a _ _ _ _ _ _ _ := n in a.
Definition n_ch n := let 'Node _ a _ _ _ _ _ _ := n in a.
Definition n_val n := let 'Node _ _ a _ _ _ _ _ := n in a.
Definition n_dirty n := let 'Node _ _ _ a _ _ _ _ := n in a.
Definition n_hash n := let 'Node _ _ _ _ a _ _ _ := n in a.
Definition n_vh n := let 'Node _ _ _ _ _ a _ _ := n in a.
Definition n_vs n := let 'Node _ _ _ _ _ _ a _ := n in a.
Definition n_gen n := let 'Node _ _ _ _ _ _ _ a := n in a.

Definition is_some {A} (o : option A) : bool := match o with Some _ => true | None => false end.
(* node.go:345-364 *)
Definition hasPrefix n : bool := match n_pre n with [] => false | _ => true end.
Definition hasChildren n : bool := existsb is_some (n_ch n).
Definition hasValue n : bool := is_some (n_val n).
(* Node.children[i] *)
Definition n_child n (i : N) : option (node V) := nth (N.to_nat i) (n_ch n) None.

(* node.go:366-389 prefixChanged / childChanged *)
Definition childChanged n : node V :=
  let 'Node p c v _ _ vh vs g := n in Node p c v true None vh vs g.
(* node.go:375-381 valueChanged *)
Definition valueChanged n : node V :=
  let 'Node p c v _ _ _ _ g := n in Node p c v true None None [] g.
Definition set_gen n (g : N) : node V :=
  let 'Node p c v d h vh vs _ := n in Node p c v d h vh vs g.
Definition put_child n (i : N) (c : option (node V)) : node V :=
  let 'Node p ch v d h vh vs g := n in Node p (<[N.to_nat i := c]> ch) v d h vh vs g.
Definition put_prefix n (p : list N) : node V :=
  let 'Node _ ch v d h vh vs g := n in Node p ch v d h vh vs g.
Definition put_value n (v : option V) : node V :=
  let 'Node p ch _ d h vh vs g := n in Node p ch v d h vh vs g.

(* node.go:403-418 setPrefix *)
Definition setPrefix n (p : list N) : node V :=
  if bool_decide (n_pre n = p) then n else childChanged (put_prefix n p).
(* node.go:420-429 chopPrefixHead; None = error; a nil prefix is left alone *)
Definition chopPrefixHead n (l : nat) : option (node V) :=
  if (length (n_pre n) <? l)%nat then None
  else match n_pre n with
       | [] => Some n
       | _ => Some (childChanged (put_prefix n (drop l (n_pre n))))
       end.
(* node.go:444-462 setValue: changed, old value, countdelta, node *)
Definition setValue n (newv : option V) : bool * option V * Z * node V :=
  match n_val n, newv with
  | None, None => (false, None, 0%Z, n)
  | Some o, Some _ => (true, Some o, 0%Z, valueChanged (put_value n newv))
  | None, Some _ => (true, None, 1%Z, valueChanged (put_value n newv))
  | Some o, None => (true, Some o, (-1)%Z, valueChanged (put_value n newv))
  end.
(* node.go:468-474 setChild *)
Definition setChild n (i : N) (c : option (node V)) : node V := childChanged (put_child n i c).

(* trie.go NewNodeWithFuncs (node.go:272-285) *)
Definition new_node (hash : option (list N)) (gen : N) : node V :=
  Node [] (replicate 16 None) None false hash None [] gen.
End fields.

(* ------------------------------------------------------------- database *)

(* db.DataAdapter for nodes and for values (trie.go:84-85): two maps (adapters
   with different key prefixes). [st_faults] is the schedule of write failures:
   the head says whether the next Save fails; no entry = success. *)
Record store := Store {
  st_nodes : gmap (list N) (list N);
  st_vals : gmap (list N) (list N);
  st_faults : list bool;
}.
Definition save_node (st : store) (h b : list N) : bool * store :=
  match st_faults st with
  | true :: f => (false, Store (st_nodes st) (st_vals st) f)
  | fs => (true, Store (<[h := b]> (st_nodes st)) (st_vals st) (drop 1 fs))
  end.
Definition save_val (st : store) (h b : list N) : bool * store :=
  match st_faults st with
  | true :: f => (false, Store (st_nodes st) (st_vals st) f)
  | fs => (true, Store (st_nodes st) (<[h := b]> (st_vals st)) (drop 1 fs))
  end.

Section model.
Context {V : Type} (E : env V).
Local Notation node := (node V).

(* ---------------------------------------------------------- hashing *)

(* node.go:566-592 valueHash when the node has a value [v]: hash and stream *)
Definition valueHash (n : node) (v : V) : list N * list N :=
  match n_vh n, n_vs n with
  | Some h, _ :: _ => (h, n_vs n)
  | _, _ => (evhash E v, evenc E v)
  end.

Definition hash_len (h : list N) : bool := (32 <=? length h)%nat.

(* node.go:341-343 isValueCollapsed *)
Definition isValueCollapsed (n : node) : bool :=
  match n_vh n with Some h => hash_len h && negb (hasValue n) | None => false end.

(* proof.go:50-86 MakeProof without proof: header, value hash, child hashes.
   MerkleHashComplete does not fail on non-empty lists without a proof target,
   a failure would be the empty hash *)
Definition node_hash_of (hd : nodeheader) (vhash : option (list N)) (chs : list (list N)) : list N :=
  let left := hash_pair (eH E) (nh_hash E hd) (default (nilhash (eH E)) vhash) in
  if nt_HasChildren (nh_nt hd)
  then hash_pair (eH E) left
         (match merkle_hash_complete (eH E) chs (-1) None with Some (r, _) => r | None => [] end)
  else left.

Definition present_n (ch : list (option node)) : list bool := map is_some ch.
Definition header_of (n : node) : nodeheader :=
  newNodeHeader (n_pre n) (present_n (n_ch n)) (hasValue n).

(* node.go:858-868: the value hash used by computeHash *)
Definition compute_vhash (n : node) : option (list N) :=
  if isValueCollapsed n then option_map bytes_to_hash (n_vh n)
  else match n_val n with
       | Some v => Some (bytes_to_hash (valueHash n v).1)
       | None => None
       end.
(* caches filled by valueHash (node.go:586-588) *)
Definition cache_value (n : node) : node :=
  match n_val n with
  | Some v => let '(h, s) := valueHash n v in
              let 'Node p c v d hh _ _ g := n in Node p c v d hh (Some h) s g
  | None => n
  end.

(* node.go:532-542 HashValue and 842-904 computeHash(0, nil) *)
Fixpoint node_hash (n : node) : node * list N :=
  match n with
  | Node pre ch v d h vh vs g =>
      match h with
      | Some x => (n, x)
      | None =>
          let chh := map (option_map node_hash) ch in
          let n1 := cache_value (Node pre (map (option_map fst) chh) v d h vh vs g) in
          let r := node_hash_of (header_of n) (compute_vhash n) (somes (map (option_map snd) chh)) in
          (let 'Node p c v d _ vh vs g := n1 in Node p c v d (Some r) vh vs g, r)
      end
  end.

(* trie.go:49-52: hash of the root of an empty trie *)
Definition EmptyNodeHash : list N := (node_hash (new_node None 1)).2.

(* node.go:324-326 isEmptyNodeHash *)
Definition isEmptyNodeHash (h : option (list N)) : bool :=
  match h with
  | None => true
  | Some h => negb (hash_len h) || bool_decide (h = EmptyNodeHash)
  end.
(* node.go:309-314 isEmpty *)
Definition isEmpty (n : node) : bool :=
  negb (hasPrefix n) && negb (hasChildren n) && negb (hasValue n) &&
  isEmptyNodeHash (n_hash n) && match n_vh n with Some (_ :: _) => false | _ => true end.
(* node.go:328-335 isCollapsed *)
Definition isCollapsed (n : node) : bool :=
  if isEmptyNodeHash (n_hash n) then false
  else negb (hasChildren n) && negb (hasValue n) &&
       match n_vh n with Some (_ :: _) => false | _ => true end.
(* node.go:320-322 inErrorStatus *)
Definition inErrorStatus (n : node) : bool :=
  hasPrefix n && negb (isEmptyNodeHash (n_hash n)) && negb (hasChildren n) &&
  negb (hasValue n) && negb (isValueCollapsed n).

(* ------------------------------------------------------ serialization *)

(* node.go:598-651 Serialization: header, child hashes, value hash *)
Definition node_ser (hd : nodeheader) (chs : list (list N)) (vhash : option (list N)) : list N :=
  nh_ser E hd ++ concat chs ++ default [] vhash.

(* node.go:667-681: the children of a deserialized node; absent ones are nil *)
Fixpoint read_children (hd : nodeheader) (is : list N) (gen : N) (b : list N)
  : option (list (option node) * list N) :=
  match is with
  | [] => Some ([], b)
  | i :: is' =>
      if nh_HasChild hd i
      then match read_n 32 b with
           | None => None
           | Some (h, b') =>
               match read_children hd is' gen b' with
               | Some (r, b'') => Some (Some (new_node (Some h) gen) :: r, b'')
               | None => None
               end
           end
      else match read_children hd is' gen b with
           | Some (r, b'') => Some (None :: r, b'')
           | None => None
           end
  end.

(* node.go:653-697 Deserialization into an existing node; on an error the code
   may leave the node half filled, here it is unchanged (None) *)
Definition node_deser (n : node) (b : list N) : option node :=
  match nh_deser E b with
  | None => None
  | Some (hd, b) =>
      let 'Node _ ch v d h vh vs g := n in
      match (if nt_HasChildren (nh_nt hd) then read_children hd nibs g b else Some (ch, b)) with
      | None => None
      | Some (ch', b) =>
          if nt_HasValue (nh_nt hd)
          then match read_n 32 b with
               | Some (x, _) => Some (Node (nh_KeyToPrefix hd) ch' v d h (Some x) vs g)
               | None => None
               end
          else Some (Node (nh_KeyToPrefix hd) ch' v d h vh vs g)
      end
  end.

(* node.go:476-505 expandValue (CheckNodeValueHash only logs) *)
Definition expandValue (st : store) (n : node) : option node :=
  match n_vh n with
  | Some h =>
      if hash_len h
      then match st_vals st !! h with
           | None => None
           | Some b => match evdec E b with Some v => Some (put_value n (Some v)) | None => None end
           end
      else Some n
  | None => Some n
  end.

(* trie.go:575-618 expandNode and expandNodeValue. expandNodeValue calls
   expandNode again if the loaded node still looks collapsed: with the data
   unchanged this would not terminate, the model says error *)
Definition expandNode (st : store) (gen : N) (n : node) : option node :=
  if negb (isCollapsed n) then Some n
  else
    let n := set_gen n gen in
    match n_hash n with
    | None => Some n
    | Some h =>
        match st_nodes st !! h with
        | None => None
        | Some b =>
            match node_deser n b with
            | None => None
            | Some n1 =>
                let n2 := if inErrorStatus n1
                          then let 'Node p c v d _ vh vs g := n1 in
                               Node p c v d (Some EmptyNodeHash) vh vs g
                          else n1 in
                if isCollapsed n2 then None
                else if isValueCollapsed n2 then expandValue st n2 else Some n2
            end
        end
    end.
(* trie.go:474-491 fullExpand *)
Definition fullExpand (st : store) (gen : N) (n : node) : option node :=
  match expandNode st gen n with
  | None => None
  | Some n' => if isValueCollapsed n' then expandValue st n' else Some n'
  end.

(* ---------------------------------------------------------------- get *)

(* trie.go:264-322 get; suffix = prefixString[offset:]. Returns the (expanded)
   node, the value found (None = not found) and the child indices visited (the
   trace). [fuel] bounds the recursion: each step consumes part of the suffix. *)
Fixpoint get (fuel : nat) (st : store) (gen : N) (n : node) (suffix : list N)
  : node * option V * list N :=
  match fuel with
  | O => (n, None, [])
  | S fuel' =>
      match fullExpand st gen n with
      | None => (n, None, [])
      | Some n =>
          match suffix with
          | [] => (n, n_val n, [])
          | _ =>
              if isEmpty n then (n, None, [])
              else
                let m := matchPrefix (n_pre n) suffix in
                if (length (n_pre n) - m =? 0)%nat then
                  match drop m suffix with
                  | [] => (n, n_val n, [])
                  | i :: rest =>
                      match n_child n i with
                      | None => (n, None, [])
                      | Some c =>
                          match (if isCollapsed c then expandNode st gen c else Some c) with
                          | None => (n, None, [])
                          | Some c =>
                              let '(c', r, tr) := get fuel' st gen c rest in
                              (put_child n i (Some c'), r, i :: tr)
                          end
                      end
                  end
                else (n, None, [])
          end
      end
  end.

(* ------------------------------------------------------------- insert *)

(* trie.go:142-157 createNode without attaching it *)
Definition createNode (n : node) (p : list N) : node :=
  let r := new_node None (n_gen n) in
  match p with [] => r | _ => setPrefix r p end.

(* trie.go:355-442 insert; returns changed, the node that replaces the start
   node (the start node itself unless needReplace) and the count change;
   None = panic *)
Fixpoint insert (fuel : nat) (st : store) (gen : N) (n : node) (suffix : list N) (value : option V)
  : option (bool * node * Z) :=
  match fuel with
  | O => None
  | S fuel' =>
      match fullExpand st gen n with
      | None => Some (false, n, 0%Z)
      | Some n =>
          let n := set_gen n gen in
          match suffix with
          | [] => let '(c, _, d, n') := setValue n value in Some (c, n', d)
          | _ =>
              if isEmpty n then
                let '(_, _, d, n') := setValue (setPrefix n suffix) value in
                Some (true, set_gen n' gen, d)
              else
                let m := matchPrefix (n_pre n) suffix in
                if (length (n_pre n) - m =? 0)%nat then
                  match drop m suffix with
                  | [] => let '(c, _, d, n') := setValue n value in Some (c, n', d)
                  | i :: rest =>
                      match n_child n i with
                      | None =>
                          let '(_, _, d, vn) := setValue (createNode n rest) value in
                          Some (true, setChild n i (Some vn), d)
                      | Some c =>
                          match fullExpand st gen c with
                          | None => Some (false, n, 0%Z)
                          | Some c =>
                              match insert fuel' st gen c rest value with
                              | None => None
                              | Some (nch, c', d) =>
                                  let n' := put_child n i (Some c') in
                                  Some (nch, if nch then childChanged n' else n', d)
                              end
                          end
                      end
                  end
                else
                  let newNode := createNode n (take m suffix) in
                  match n_pre n !! m, chopPrefixHead n (m + 1) with
                  | Some x, Some n' =>
                      let newNode := setChild newNode x (Some n') in
                      match drop m suffix with
                      | [] => let '(_, _, d, nn) := setValue newNode value in Some (true, nn, d)
                      | i :: rest =>
                          let '(_, _, d, vn) := setValue (createNode newNode rest) value in
                          Some (true, setChild newNode i (Some vn), d)
                      end
                  | _, _ => None
                  end
          end
      end
  end.

(* ------------------------------------------------------------- delete *)

(* node.go:927-940: index of the only child *)
Fixpoint only_child (i : N) (ch : list (option node)) : option N :=
  match ch with
  | [] => None
  | None :: r => only_child (i + 1) r
  | Some _ :: r => if existsb is_some r then None else Some i
  end.

(* node.go:958-966: n.children[i] = childnode.children[i] for the non-nil ones *)
Fixpoint merge_children (a b : list (option node)) : list (option node) :=
  match a, b with
  | x :: a', y :: b' => (match y with Some _ => y | None => x end) :: merge_children a' b'
  | _, _ => a
  end.

(* node.go:921-977 mergeTheLastChild; None = panic *)
Definition mergeTheLastChild (st : store) (gen : N) (n : node) : option (bool * node) :=
  if hasValue n then Some (false, n)
  else match only_child 0 (n_ch n) with
       | None => Some (false, n)
       | Some i =>
           match n_child n i with
           | None => Some (false, n)
           | Some c =>
               match fullExpand st gen c with
               | None => None
               | Some c =>
                   let n1 := put_child n i None in
                   let n2 := childChanged (put_prefix n1 ((n_pre n1 ++ [i]) ++ n_pre c)) in
                   let n3 := let 'Node p ch v d h vh vs g := n2 in
                             Node p (merge_children ch (n_ch c)) v d h vh vs g in
                   let n4 := if hasChildren c then childChanged n3 else n3 in
                   let n5 := if hasValue c then valueChanged (put_value n4 (n_val c)) else n4 in
                   Some (true, n5)
               end
           end
       end.

(* trie.go:461-472 removeValue *)
Definition removeValue (st : store) (gen : N) (n : node) : option (bool * bool * option V * node * Z) :=
  let '(c, o, d, n1) := setValue n None in
  if negb (hasChildren n1) then Some (c, true, o, n1, d)
  else match mergeTheLastChild st gen n1 with
       | None => None
       | Some (m, n2) => Some (c || m, false, o, n2, d)
       end.

(* trie.go:493-559 delete: changed, shouldRemove, old value, node, count change *)
Fixpoint delete (fuel : nat) (st : store) (gen : N) (n : node) (suffix : list N)
  : option (bool * bool * option V * node * Z) :=
  match fuel with
  | O => None
  | S fuel' =>
      match fullExpand st gen n with
      | None => Some (false, false, None, n, 0%Z)
      | Some n =>
          if isEmpty n then Some (false, false, None, n, 0%Z)
          else
            let n := set_gen n gen in
            match suffix with
            | [] => removeValue st gen n
            | _ =>
                let m := matchPrefix (n_pre n) suffix in
                if (length (n_pre n) - m =? 0)%nat then
                  match drop m suffix with
                  | [] => removeValue st gen n
                  | i :: rest =>
                      match n_child n i with
                      | None => Some (false, false, None, n, 0%Z)
                      | Some c =>
                          match delete fuel' st gen c rest with
                          | None => None
                          | Some (nch, nrm, o, c', d) =>
                              let n1 := put_child n i (Some c') in
                              let n2 := if nch
                                        then let n2 := childChanged n1 in
                                             if nrm then setChild n2 i None else n2
                                        else n1 in
                              if negb (hasChildren n2) && negb (hasValue n2)
                              then Some (nch, true, o, n2, d)
                              else match mergeTheLastChild st gen n2 with
                                   | None => None
                                   | Some (_, n3) => Some (nch, false, o, n3, d)
                                   end
                          end
                      end
                  end
                else Some (false, false, None, n, 0%Z)
            end
      end
  end.

(* ------------------------------------------------------ commit, collapse *)

(* node.go:703-719 collapse: false = ErrAlreadyDone *)
Definition collapse (n : node) : bool * node :=
  if isCollapsed n then (false, n)
  else let '(Node p ch v d h _ _ g, _) := node_hash n in
       (true, Node p (map (fun _ => None) ch) None d h None [] g).
(* node.go:721-735 collapseValue *)
Definition collapseValue (n : node) : node :=
  if isValueCollapsed n then n
  else let h := match n_val n with Some v => Some (valueHash n v).1 | None => None end in
       let 'Node p ch _ d hh _ _ g := n in Node p ch None d hh h [] g.

(* node.go:906-919 canCollapse, shouldCollapse, shouldCollapseValue *)
Definition canCollapse (n : node) : bool :=
  negb (n_dirty n) && negb (bool_decide (n_hash n = Some EmptyNodeHash)) && negb (isCollapsed n).
Definition sub_u64 (a b : N) : N := (a + two64 - b) mod two64.
Definition maxGenSize : N := 100.
Definition maxValLength : N := 4096.
Definition shouldCollapse (n : node) (gen : N) : bool :=
  (maxGenSize <? sub_u64 gen (n_gen n)) && canCollapse n.
Definition shouldCollapseValue (n : node) : bool :=
  negb (n_dirty n) && negb (isValueCollapsed n) && (maxValLength <? lenN (n_vs n)).

(* trie.go:693-728 saveOneNode: true = saved *)
Definition saveOneNode (st : store) (n : node) : store * node * bool :=
  let n1 := cache_value n in
  let '(ok, st1) := match n_val n1, n_vh n1 with
                    | Some _, Some vh => if hash_len vh then save_val st vh (n_vs n1) else (true, st)
                    | _, _ => (true, st)
                    end in
  if ok then
    let chs := somes (map (option_map (fun c => (node_hash c).2)) (n_ch n1)) in
    let ser := node_ser (header_of n1) chs (match n_val n1 with Some v => Some (valueHash n1 v).1 | None => None end) in
    let '(Node p ch v d hh vh vs g, h) := node_hash n1 in
    let '(ok, st2) := save_node st1 h ser in
    if ok then (st2, Node p ch v false hh vh vs g, true)
    else (st2, Node p ch v d hh vh vs g, false)
  else (st1, n1, false).

(* trie.go:667-691 iterateSave: errors of the children are ignored *)
Fixpoint iterateSave (gen : N) (n : node) (st : store) {struct n} : store * node * bool :=
  match n with
  | Node pre ch v d h vh vs g =>
      let '(st1, ch1) :=
        (fix go (l : list (option node)) (st : store) : store * list (option node) :=
           match l with
           | [] => (st, [])
           | None :: r => let '(st', r') := go r st in (st', None :: r')
           | Some c :: r => let '(st1, c', _) := iterateSave gen c st in
                            let '(st2, r') := go r st1 in (st2, Some c' :: r')
           end) ch st in
      let n1 := Node pre ch1 v d h vh vs g in
      if d then saveOneNode st1 n1
      else if shouldCollapse n1 gen then (st1, (collapse n1).2, true)
      else if shouldCollapseValue n1 then (st1, collapseValue n1, true)
      else (st1, n1, true)
  end.

(* ---------------------------------------------------------------- Trie *)

(* trie.go:82-91 *)
Record trie := Trie { t_root : node; t_count : Z; t_gen : N }.

(* trie.go:102-124 NewTrie* (hash nil = None) *)
Definition NewTrie (hash : option (list N)) : trie := Trie (new_node hash 1) 0 1.

(* trie.go:256-261 Get *)
Definition Get (st : store) (t : trie) (key : list N) : trie * option V :=
  let p := keyToPrefix key in
  let '(r, v, _) := get (S (length p)) st (t_gen t) (t_root t) p in
  (Trie r (t_count t) (t_gen t), v).

(* trie.go:324-346 Put: None = panic *)
Definition Put (st : store) (t : trie) (key : list N) (value : option V) : option (trie * bool) :=
  let p := keyToPrefix key in
  match insert (S (length p)) st (t_gen t) (t_root t) p value with
  | None => None
  | Some (c, r, d) => Some (Trie r (t_count t + d) (t_gen t), c)
  end.

(* trie.go:444-459 Delete: None = panic *)
Definition Delete (st : store) (t : trie) (key : list N) : option (trie * bool * option V) :=
  let p := keyToPrefix key in
  match delete (S (length p)) st (t_gen t) (t_root t) p with
  | None => None
  | Some (c, rm, o, r, d) =>
      Some (Trie (if rm then setPrefix r [] else r) (t_count t + d) (t_gen t), c, o)
  end.

(* trie.go:220-238 HashValue *)
Definition HashValue (t : trie) : trie * list N :=
  let '(r, h) := node_hash (t_root t) in (Trie r (t_count t) (t_gen t), h).

(* trie.go:631-644 Commit: true = no error *)
Definition Commit (st : store) (t : trie) : store * trie * bool :=
  let '(st', r, ok) := iterateSave (t_gen t) (t_root t) st in
  (st', Trie r (t_count t) (if ok then (t_gen t + 1) mod two64 else t_gen t), ok).

(* trie.go:646-660 Collapse *)
Definition Collapse (t : trie) : trie :=
  if canCollapse (t_root t) then Trie (collapse (t_root t)).2 (t_count t) (t_gen t) else t.

(* trie.go:162-178 Clone: commits (errors ignored) and opens the root hash *)
Definition Clone (st : store) (t : trie) : store * trie * trie :=
  let '(st', t1, _) := Commit st t in
  let '(t2, h) := HashValue t1 in
  (st', t2, Trie (new_node (Some h) (t_gen t2)) 0 (t_gen t2)).

(* trie.go:204-218 Inherit (CopyBytes(nil) = nil) *)
Definition Inherit (t : trie) (root : option (list N)) : trie :=
  Trie (new_node root 0) 0 0.

(* trie.go:228-230 IsEmpty, 624-629 IsDirty, 224-226 Count *)
Definition IsEmpty (t : trie) : bool := isEmpty (t_root t).
Definition IsDirty (t : trie) : bool := n_dirty (t_root t).
Definition Count (t : trie) : Z := t_count t.

(* Several tries over one database. A step is one call on trie [j]; None =
   panic. TCommit also remembers the root hash (HashValue after Commit), which
   TOpen / TInherit pass to NewTrie / Inherit. *)
Record mpool := MPool { mp_store : store; mp_tries : list trie; mp_roots : list (list N) }.
Definition mp_set (p : mpool) (j : nat) (t : trie) : mpool :=
  MPool (mp_store p) (<[j := t]> (mp_tries p)) (mp_roots p).
Definition mstep (p : mpool) (jo : nat * tcall V) : option (mpool * tobs V) :=
  let '(j, o) := jo in
  let st := mp_store p in
  match mp_tries p !! j with
  | None => Some (p, ODone)
  | Some t =>
      match o with
      | TPut k v => match Put st t k (Some v) with
                    | None => None
                    | Some (t', c) => Some (mp_set p j t', OChanged c) end
      | TDel k => match Delete st t k with
                  | None => None
                  | Some (t', c, old) => Some (mp_set p j t', ODeleted c old) end
      | TGet k => let '(t', v) := Get st t k in Some (mp_set p j t', OVal v)
      | THash => let '(t', h) := HashValue t in Some (mp_set p j t', OHash h)
      | TCommit =>
          let '(st', t1, ok) := Commit st t in
          if ok then let '(t2, h) := HashValue t1 in
                     Some (MPool st' (<[j := t2]> (mp_tries p)) (mp_roots p ++ [h]), ODone)
          else Some (MPool st' (<[j := t1]> (mp_tries p)) (mp_roots p), OFail)
      | TCollapse => Some (mp_set p j (Collapse t), ODone)
      | TCount => Some (p, OCount (Count t))
      | TIsEmpty => Some (p, OBool (IsEmpty t))
      | TClone => let '(st', t1, t2) := Clone st t in
                  Some (MPool st' (<[j := t1]> (mp_tries p) ++ [t2]) (mp_roots p), ODone)
      | TOpen i => match mp_roots p !! i with
                   | Some h => Some (MPool st (mp_tries p ++ [NewTrie (Some h)]) (mp_roots p), ODone)
                   | None => Some (p, ODone) end
      | TInherit i => match mp_roots p !! i with
                      | Some h => Some (MPool st (mp_tries p ++ [Inherit t (Some h)]) (mp_roots p), ODone)
                      | None => Some (p, ODone) end
      end
  end.
Fixpoint mrun (ops : list (nat * tcall V)) (p : mpool) : option (mpool * list (tobs V)) :=
  match ops with
  | [] => Some (p, [])
  | o :: ops' => match mstep p o with
                 | None => None
                 | Some (p1, ob) => match mrun ops' p1 with
                                    | None => None
                                    | Some (p2, obs) => Some (p2, ob :: obs) end
                 end
  end.
Definition mpool0 : mpool := MPool (Store ∅ ∅ []) [NewTrie None] [].

End model.
