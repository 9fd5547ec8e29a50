(** Model of trie/combinedtrie.go (SmallCombinedTrie). The tries are those of
    TrieModel; a *Trie is the number of a trie in the pool. *)
From Verif Require Import Base MerkleModel BasicModel TrieSpec TrieModel CombinedSpec.
From stdpp Require Import gmap sorting.
Open Scope N_scope.

(* Go string comparison a <= b, sort.StringSlice.Less is a < b *)
Fixpoint str_leb (a b : list N) : bool :=
  match a, b with
  | [], _ => true
  | _ :: _, [] => false
  | x :: a', y :: b' => (x <? y) || ((x =? y) && str_leb a' b')
  end.
(* sort.StringSlice.Sort: two sorted permutations of the same strings are equal, so
   any sorting function will do *)
Definition sort_strings (l : list (list N)) : list (list N) := merge_sort (fun a b => Is_true (str_leb a b)) l.
(* sort.SearchStrings *)
Definition search_strings (l : list (list N)) (k : list N) : nat :=
  sort_search (length l) (fun i => str_leb k (nth i l [])).

Section model.
Context {V : Type} (E : env V).
Local Notation trie := (@trie V).

(* combinedtrie.go:30-37; the lock is not modelled. Sub-tries are not nil. *)
Record ctrie := CTrie { c_keys : list (list N); c_map : gmap (list N) nat }.
(* combinedtrie.go:72-78 *)
Definition NewCombinedTrie : ctrie := CTrie [] ∅.
(* combinedtrie.go:80-83 *)
Definition addKey (keys : list (list N)) (k : list N) : list (list N) := sort_strings (keys ++ [k]).
(* combinedtrie.go:85-91; None = index out of range *)
Definition deleteKey (keys : list (list N)) (k : list N) : option (list (list N)) :=
  let i := search_strings keys k in
  match keys !! i with
  | None => None
  | Some k' => if decide (k = k') then Some (take i keys ++ drop (S i) keys) else Some keys
  end.
(* combinedtrie.go:140-151 *)
Definition c_Get (c : ctrie) (k : list N) : option nat := c_map c !! k.
(* combinedtrie.go:153-171; the value is a *Trie *)
Definition c_Put (c : ctrie) (k : list N) (t : nat) : ctrie :=
  CTrie (match c_map c !! k with Some _ => c_keys c | None => addKey (c_keys c) k end) (<[k := t]> (c_map c)).
(* combinedtrie.go:177-191; None = panic *)
Definition c_Delete (c : ctrie) (k : list N) : option (ctrie * bool * option nat) :=
  match c_map c !! k with
  | Some t => match deleteKey (c_keys c) k with
              | Some ks => Some (CTrie ks (delete k (c_map c)), true, Some t)
              | None => None end
  | None => Some (c, false, None)
  end.
(* combinedtrie.go:97-108 and 227-236: the hashes of the sub-tries by key; hashing
   caches in the sub-tries; keys without entry are skipped *)
Fixpoint hash_list (m : gmap (list N) nat) (ks : list (list N)) (ts : list trie) : list trie * list (list N * list N) :=
  match ks with
  | [] => (ts, [])
  | k :: ks' =>
      match m !! k with
      | Some j => match ts !! j with
                  | Some t => let '(t', h) := HashValue E t in
                              let '(ts', hs) := hash_list m ks' (<[j := t']> ts) in (ts', (k, h) :: hs)
                  | None => hash_list m ks' ts end
      | None => hash_list m ks' ts
      end
  end.
(* combinedtrie.go:93-124; outer None = panic *)
Definition computeHash (c : ctrie) (ts : list trie) (index : Z) (proofs : option mproofs)
  : option (list trie * list N * option mproofs) :=
  match c_keys c with
  | [] => Some (ts, nilhash (eH E), proofs)
  | _ => let '(ts', hs) := hash_list (c_map c) (c_keys c) ts in
         match merkle_hash_complete (eH E) (map snd hs) index proofs with
         | Some (h, p) => Some (ts', h, p)
         | None => None end
  end.
(* combinedtrie.go:193-202; the order of the map does not matter *)
Definition c_IsDirty (c : ctrie) (ts : list trie) : bool :=
  existsb (fun kj => match ts !! kj.2 with Some t => IsDirty t | None => false end) (map_to_list (c_map c)).
(* combinedtrie.go:204-213: commit the dirty sub-tries, in the order [ks] of the map *)
Fixpoint commit_list (m : gmap (list N) nat) (ks : list (list N)) (st : store) (ts : list trie) : store * list trie * bool :=
  match ks with
  | [] => (st, ts, true)
  | k :: ks' =>
      match m !! k with
      | Some j => match ts !! j with
                  | Some t => if IsDirty t
                              then let '(st', t', ok) := Commit E st t in
                                   if ok then commit_list m ks' st' (<[j := t']> ts) else (st', <[j := t']> ts, false)
                              else commit_list m ks' st ts
                  | None => commit_list m ks' st ts end
      | None => commit_list m ks' st ts
      end
  end.

(* the heap: tries and their database, the combined trie, its adapter, and an iterator
   (combinedtrie.go:39-43) *)
Record cstate := CState {
  cs_pool : mpool (V:=V); cs_c : ctrie; cs_adapter : gmap (list N) (list N); cs_it : option (list (list N) * Z) }.
Definition set_tries (p : mpool (V:=V)) (ts : list trie) : mpool (V:=V) := MPool (mp_store p) ts (mp_roots p).

(* combinedtrie.go:204-246 Commit, saveRoot with an adapter; [iter] is the order in
   which the map is ranged over; rtl.Encode of a string is that of its bytes; the
   bool is false on error; None = panic *)
Definition c_Commit (iter : list (list N) -> list (list N)) (s : cstate) : option (cstate * bool) :=
  let c := cs_c s in let p := cs_pool s in
  let '(st, ts, ok) := commit_list (c_map c) (iter (map fst (map_to_list (c_map c)))) (mp_store p) (mp_tries p) in
  if negb ok then Some (CState (MPool st ts (mp_roots p)) c (cs_adapter s) (cs_it s), false)
  else
    let '(ts, hs) := hash_list (c_map c) (c_keys c) ts in
    let buf := concat (map (fun kh => ertl E kh.1 ++ ertl E kh.2) hs) in
    match computeHash c ts 0 None with
    | None => None
    | Some (ts, h, _) => Some (CState (MPool st ts (mp_roots p)) c (<[h := buf]> (cs_adapter s)) (cs_it s), true)
    end.
(* combinedtrie.go:249-299: the loop of loadRoot; [fuel] bounds the entries; None = error *)
Fixpoint load_loop (fuel : nat) (buf : list N) (c : ctrie) (p : mpool (V:=V)) : option (ctrie * mpool (V:=V)) :=
  match buf with
  | [] => Some (CTrie (sort_strings (c_keys c)) (c_map c), p)
  | _ =>
    match fuel with
    | O => None
    | S f =>
      match ertl_dec E buf with
      | None => None
      | Some (k, r) =>
        match ertl_dec E r with
        | None => None
        | Some (h, r') =>
            let t := NewTrie (Some h) in
            match c_map c !! k with
            | Some _ => load_loop f r' c p
            | None => load_loop f r' (CTrie (c_keys c ++ [k]) (<[k := length (mp_tries p)]> (c_map c)))
                        (MPool (mp_store p) (mp_tries p ++ [t]) (mp_roots p))
            end
        end
      end
    end
  end.
(* combinedtrie.go:249-310 InitTrie, loadRoot for a non-nil root hash; false = error
   (no such entry: Load fails or returns nothing) *)
Definition c_Init (s : cstate) (h : list N) : cstate * bool :=
  match cs_adapter s !! h with
  | None => (s, false)
  | Some buf => match buf with
    | [] => (s, false)
    | _ => match load_loop (length buf) buf (cs_c s) (cs_pool s) with
           | None => (s, false)
           | Some (c, p) => (CState p c (cs_adapter s) (cs_it s), true)
           end
    end
  end.
(* combinedtrie.go:313-356 GetProof: the position of the key in the sorted keys; the
   chain returned has one element, made of the Merkle proof; None = panic, Some None = not found *)
Definition c_GetProof (c : ctrie) (ts : list trie) (k : list N) : option (list trie * option (option nat * mproofs)) :=
  match list_find (fun k' => k' = k) (c_keys c) with
  | None => Some (ts, None)
  | Some (i, _) => match computeHash c ts (Z.of_nat i) (Some mp_new) with
                   | None => None
                   | Some (ts', _, Some p) => Some (ts', Some (c_map c !! k, p))
                   | Some (ts', _, None) => Some (ts', None)
                   end
  end.
(* combinedtrie.go:45-58 Next; [fuel] bounds the loop *)
Fixpoint c_Next (fuel : nat) (m : gmap (list N) nat) (keys : list (list N)) (pos : Z) : option (Z * bool) :=
  if (pos <? Z.of_nat (length keys) - 1)%Z then
    match fuel with
    | O => None
    | S f => let pos := (pos + 1)%Z in
             if (pos <? 0)%Z then c_Next f m keys (-1)
             else match m !! nth (Z.to_nat pos) keys [] with
                  | Some _ => Some (pos, true)
                  | None => c_Next f m keys pos end
    end
  else Some (pos, false).
(* combinedtrie.go:60-70 Current *)
Definition c_Current (m : gmap (list N) nat) (keys : list (list N)) (pos : Z) : option (list N * nat) :=
  if (pos <? 0)%Z || (Z.of_nat (length keys) <=? pos)%Z then None
  else let k := nth (Z.to_nat pos) keys [] in
       match m !! k with Some j => Some (k, j) | None => None end.

(* one call; None = panic *)
Definition cstep (iter : list (list N) -> list (list N)) (s : cstate) (x : ccall V) : option (cstate * cobs V) :=
  let c := cs_c s in let p := cs_pool s in
  let with_c c' := CState p c' (cs_adapter s) (cs_it s) in
  let with_tries ts := CState (set_tries p ts) c (cs_adapter s) (cs_it s) in
  match x with
  | CSub j o => match mstep E p (j, o) with
                | Some (p', ob) => Some (CState p' c (cs_adapter s) (cs_it s), BSub ob)
                | None => None end
  | CPut k j => match mp_tries p !! j with
                | Some _ => Some (with_c (c_Put c k j), BBool true)
                | None => Some (s, BBool false) end
  | CDel k => match c_Delete c k with
              | Some (c', b, o) => Some (with_c c', BDeleted b o)
              | None => None end
  | CGet k => Some (s, BTrie (c_Get c k))
  | CKeys => Some (s, BKeys (c_keys c))
  | CHash => match computeHash c (mp_tries p) 0 None with
             | Some (ts, h, _) => Some (with_tries ts, BHash h)
             | None => None end
  | CProof k => match c_GetProof c (mp_tries p) k with
                | None => None
                | Some (ts, Some (Some j, pr)) =>
                    Some (with_tries ts, BProof (Some (j, match ts !! j with Some t => mp_proof (eH E) pr (HashValue E t).2 | None => None end)))
                | Some (ts, _) => Some (with_tries ts, BProof None)
                end
  | CCommit => match c_Commit iter s with
               | Some (s', ok) => Some (s', if ok then BDone else BErr)
               | None => None end
  | CNew => Some (with_c NewCombinedTrie, BDone)
  | CInit h => let '(s', ok) := c_Init s h in Some (s', if ok then BDone else BErr)
  | CIter => Some (CState p c (cs_adapter s) (Some (c_keys c, (-1)%Z)), BDone)
  | CNext => match cs_it s with
             | Some (ks, pos) => match c_Next (length ks) (c_map c) ks pos with
                                 | Some (pos', b) => Some (CState p c (cs_adapter s) (Some (ks, pos')), BBool b)
                                 | None => None end
             | None => Some (s, BDone) end
  | CCur => match cs_it s with
            | Some (ks, pos) => Some (s, BEntry (c_Current (c_map c) ks pos))
            | None => Some (s, BDone) end
  end.
(* [iter n] is the order of the map in the call with n calls after it *)
Fixpoint crun (iter : nat -> list (list N) -> list (list N)) (cs : list (ccall V)) (s : cstate) : option (cstate * list (cobs V)) :=
  match cs with
  | [] => Some (s, [])
  | c :: cs' => match cstep (iter (length cs')) s c with
                | None => None
                | Some (s1, o) => match crun iter cs' s1 with Some (s2, os) => Some (s2, o :: os) | None => None end
                end
  end.
Definition cstate0 : cstate := CState mpool0 NewCombinedTrie ∅ None.
End model.
