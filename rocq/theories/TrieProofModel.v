(** Model of the proofs of trie/proof.go and of GetProof / GetExistenceProof of
    trie/trie.go. An error is [None]; a nil NodeProof inside a chain (an error in
    the code) is not modelled: chains are lists of proofs. *)
From Verif Require Import Base MerkleSpec MerkleModel TrieSpec TrieModel.

(* proof.go:88-111 ProofType *)
Definition ProofValue : N := 0x10.
Definition ProofHdsSummary : N := 0x11.
Definition ProofExistence : N := 0xFE.
Definition ProofMerkleOnly : N := 0xFF.

(* proof.go:131-149 *)
Definition IsProofChild (p : N) : bool := p <=? 15.
Definition IsProofValue (p : N) : bool := p =? ProofValue.
Definition IsProofHdsSummary (p : N) : bool := p =? ProofHdsSummary.
Definition IsProofExistence (p : N) : bool := p =? ProofExistence.
Definition IsProofMerkleOnly (p : N) : bool := p =? ProofMerkleOnly.
(* proof.go:151-171; only whether it is one *)
Definition IsProofHeaderProperty (p : N) : bool :=
  (p =? 0x20) || (p =? 0x21) || (p =? 0x23) || (p =? 0x24) || (p =? 0x25) || (p =? 0x26)
  || ((0x30 <=? p) && (p <? 0xa0)).

(* proof.go:205-211 NodeProof *)
Record nodeproof := NP {
  np_type : N;
  np_header : nodeheader;
  np_vhash : option (list N);
  np_child : option mproofs;
}.

(* proof.go:237-248 NewNodeProof *)
Definition NewNodeProof (ptype : N) (hd : nodeheader) (vh : option (list N)) (cp : option mproofs) : nodeproof :=
  NP ptype hd (if IsProofValue ptype then None else vh) cp.

Section model.
Context {V : Type} (E : env V).
Local Notation node := (node V).
Local Notation H := (eH E).
Local Notation trie := (@trie V).

(* proof.go:50-86 MakeProof(true, ptype, index): node hash and proof; None = error or panic *)
Definition MakeProof (hd : nodeheader) (vhash : option (list N)) (chs : list (list N)) (ptype : N) (index : Z)
  : option (list N * nodeproof) :=
  let left := hash_pair H (nh_hash E hd) (default (nilhash H) vhash) in
  if nt_HasChildren (nh_nt hd)
  then match merkle_hash_complete H chs index (Some mp_new) with
       | Some (rgt, cp) => Some (hash_pair H left rgt, NewNodeProof ptype hd vhash cp)
       | None => None
       end
  else Some (left, NewNodeProof ptype hd vhash None).

(* node.go:871-889: the position of child [ptype] among the present children, -1
   if there is none; [j] is the index of the head of [pres], [k] len(hashList) *)
Fixpoint proofNum (pres : list bool) (j : N) (k : Z) (ptype : N) : Z :=
  match pres with
  | [] => (-1)%Z
  | true :: r => if ptype =? j then k else proofNum r (j + 1) (k + 1) ptype
  | false :: r => proofNum r (j + 1) k ptype
  end.

(* node.go:831-904 GetProof = computeHash(ptype, proofs). The hashes of the
   children and of the value are cached, the node's own hash is not. *)
Definition node_proof (n : node) (ptype : N) : option (node * nodeproof) :=
  if IsProofChild ptype || IsProofValue ptype || IsProofExistence ptype then
    let chh := map (option_map (node_hash E)) (n_ch n) in
    let 'Node pre ch v d h vh vs g := n in
    let n1 := cache_value E (Node pre (map (option_map fst) chh) v d h vh vs g) in
    match MakeProof (header_of n) (compute_vhash E n) (somes (map (option_map snd) chh)) ptype
                    (proofNum (present_n ch) 0 0 ptype) with
    | Some (_, p) => Some (n1, p)
    | None => None
    end
  else None.

(* trie.go:821-853 / 862-891: the loops from the last traced node up to the root.
   [trace] lists the child positions below [n]; the last node gets [lastp]. *)
Fixpoint proof_walk (st : store) (gen : N) (n : node) (trace : list N) (lastp : N)
  : option (node * list nodeproof) :=
  match trace with
  | [] =>
      match (if isCollapsed E n then expandNode E st gen n else Some n) with
      | None => None
      | Some n => match node_proof n lastp with Some (n', p) => Some (n', [p]) | None => None end
      end
  | i :: tr =>
      match n_child n i with
      | None => None
      | Some c =>
          match proof_walk st gen c tr lastp with
          | None => None
          | Some (c', ps) =>
              let n := put_child n i (Some c') in
              match (if isCollapsed E n then expandNode E st gen n else Some n) with
              | None => None
              | Some n => match node_proof n i with Some (n', p) => Some (n', ps ++ [p]) | None => None end
              end
          end
      end
  end.

(* trie.go:821-860 GetProof: new trie, value and chain; None = not found (ok = false) *)
Definition GetProof (st : store) (t : trie) (key : list N) : trie * option (V * list nodeproof) :=
  let prefix := keyToPrefix key in
  let '(root, v, tr) := get E (S (length prefix)) st (t_gen t) (t_root t) prefix in
  match v with
  | None => (Trie root (t_count t) (t_gen t), None)
  | Some x =>
      match proof_walk st (t_gen t) root tr ProofValue with
      | Some (root', ps) => (Trie root' (t_count t) (t_gen t), Some (x, ps))
      | None => (Trie root (t_count t) (t_gen t), None)
      end
  end.

(* trie.go:862-898 GetExistenceProof: new trie, exist flag and chain; None = error *)
Definition GetExistenceProof (st : store) (t : trie) (key : list N) : trie * option (bool * list nodeproof) :=
  let prefix := keyToPrefix key in
  let '(root, v, tr) := get E (S (length prefix)) st (t_gen t) (t_root t) prefix in
  match proof_walk st (t_gen t) root tr ProofExistence with
  | Some (root', ps) => (Trie root' (t_count t) (t_gen t), Some (is_some v, ps))
  | None => (Trie root (t_count t) (t_gen t), None)
  end.

(* ------------------------------------------------------------ verification *)

(* hash.go:396-410 MerkleProofs.Iterate on a possibly nil receiver *)
Definition mpo_items (p : option mproofs) : option (list (list N * bool)) :=
  match p with None => Some [] | Some p => mp_items p end.

(* proof.go:316-407 NodeProof.Iterate: the sequence of callback arguments *)
Definition np_items (p : nodeproof) : option (list (list N * bool)) :=
  if IsProofMerkleOnly (np_type p) then mpo_items (np_child p)
  else if IsProofChild (np_type p) then
    match mpo_items (np_child p) with
    | Some its => Some (its ++ [(hash_pair H (nh_hash E (np_header p)) (default (nilhash H) (np_vhash p)), true)])
    | None => None
    end
  else if IsProofValue (np_type p) then
    match np_child p with
    | None => Some [(nh_hash E (np_header p), true)]
    | Some cp => match mp_hashs cp with
                 | [] => Some [(nh_hash E (np_header p), true)]
                 | [h] => Some [(nh_hash E (np_header p), true); (h, false)]
                 | _ => None
                 end
    end
  else if IsProofHdsSummary (np_type p) then
    match np_vhash p with
    | None => None
    | Some vh => match mpo_items (np_child p) with Some its => Some ((vh, true) :: its) | None => None end
    end
  else if IsProofHeaderProperty (np_type p) then
    match np_vhash p, np_child p with
    | Some vh, Some cp => match mp_hashs cp with
                          | [] => None
                          | _ => match mp_items cp with Some its => Some ((vh, true) :: its) | None => None end
                          end
    | _, _ => None
    end
  else None.

Definition fold_items (h : list N) (its : list (list N * bool)) : list N :=
  foldl (fun acc '(v, order) => hash_pair_order H order v acc) h its.

(* proof.go:421-436 NodeProof.Proof *)
Definition np_proof (p : nodeproof) (h : list N) : option (list N) :=
  match np_items p with Some its => Some (fold_items h its) | None => None end.

(* proof.go:717-724 ProofChain.Iterate *)
Fixpoint chain_items (c : list nodeproof) : option (list (list N * bool)) :=
  match c with
  | [] => Some []
  | p :: c' => match np_items p, chain_items c' with Some a, Some b => Some (a ++ b) | _, _ => None end
  end.
(* proof.go:699-715 ProofChain.Proof *)
Definition chain_proof (c : list nodeproof) (h : list N) : option (list N) :=
  match chain_items c with Some its => Some (fold_items h its) | None => None end.
(* proof.go:830-836 VerifyProofChain *)
Definition VerifyProofChain (h : list N) (c : list nodeproof) (expected : list N) : bool :=
  match chain_proof c h with Some r => bool_decide (r = expected) | None => false end.

(* proof.go:449-532 ExistenceMatch: matched, value hash, rest of the key; None = error *)
Definition ExistenceMatch (p : nodeproof) (keyprefix : list N) : option (bool * option (list N) * list N) :=
  if IsProofChild (np_type p) || IsProofValue (np_type p) || IsProofExistence (np_type p) then
    let nodePrefix := nh_KeyToPrefix (np_header p) in
    let here :=
      if IsProofValue (np_type p) then None
      else match np_vhash p with None => None | Some vh => Some (true, Some vh, []) end in
    let below (k : list N) (k0 : N) (k' : list N) :=
      if nh_HasChild (np_header p) k0
      then if IsProofChild (np_type p) && (np_type p =? k0) then Some (true, None, k') else None
      else Some (false, None, k) in
    match keyprefix with
    | [] => match nodePrefix with [] => here | _ => Some (false, None, []) end
    | k0 :: k' =>
        match nodePrefix with
        | [] => below keyprefix k0 k'
        | _ =>
            let m := matchPrefix nodePrefix keyprefix in
            if (m =? 0)%nat then Some (false, None, keyprefix)
            else if negb (length nodePrefix - m =? 0)%nat then Some (false, None, drop m keyprefix)
            else match drop m keyprefix with
                 | [] => here
                 | k0 :: k' => below (k0 :: k') k0 k'
                 end
        end
    end
  else None.

(* proof.go:534-557 NodeProof.ExistenceHash *)
Definition np_ExistenceHash (p : nodeproof) : option (list N) :=
  if IsProofExistence (np_type p) then
    let left := hash_pair H (nh_hash E (np_header p)) (default (nilhash H) (np_vhash p)) in
    match np_child p with
    | None => Some left
    | Some cp => match mp_hashs cp with
                 | [] => Some left
                 | [h] => Some (hash_pair H left h)
                 | _ => None
                 end
    end
  else None.

(* proof.go:636-654 Exist; the chain is read from its last element down: [c] is
   the reversed chain. None = error, Some None = does not exist *)
Fixpoint exist_loop (c : list nodeproof) (keyprefix : list N) : option (option (list N)) :=
  match c with
  | [] => Some None
  | p :: c' =>
      match ExistenceMatch p keyprefix with
      | None => None
      | Some (matched, vh, suffix) =>
          if matched
          then match vh with Some h => Some (Some h) | None => exist_loop c' suffix end
          else Some None
      end
  end.
Definition Exist (c : list nodeproof) (keyprefix : list N) : option (option (list N)) :=
  exist_loop (rev c) keyprefix.
(* proof.go:657-667 IsExist *)
Definition IsExist (c : list nodeproof) (key : list N) : option bool :=
  match key with
  | [] => None
  | _ => match Exist c (keyToPrefix key) with
         | Some h => Some (is_some h)
         | None => None
         end
  end.

(* proof.go:671-696 ProofChain.ExistenceHash *)
Fixpoint proof_up (c : list nodeproof) (h : list N) : option (list N) :=
  match c with
  | [] => Some h
  | p :: c' => match np_proof p (bytes_to_hash h) with Some h' => proof_up c' h' | None => None end
  end.
Definition ExistenceHash (c : list nodeproof) : option (list N) :=
  match c with
  | [] => None
  | p :: c' => match np_ExistenceHash p with Some h => proof_up c' h | None => None end
  end.

End model.
