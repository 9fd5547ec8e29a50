(** Model of trie/revertable.go (RevertableTrie). *)
From Verif Require Import Base MerkleModel TrieSpec TrieModel RevertSpec.

Section model.
Context {V : Type} (E : env V).
Local Notation trie := (@trie V).

(* revertable.go:26-31; the mutex is not modelled (every method holds it);
   [rt_store] is the database of the tries *)
Record rtrie := RTrie { rt_store : store; rt_origin : option trie; rt_live : option trie; rt_chk : list (list N) }.

(* revertable.go:90-102 checkLiveLocked; false = ErrNil *)
Definition checkLive (r : rtrie) : rtrie * bool :=
  match rt_live r with
  | Some _ => (r, true)
  | None => match rt_origin r with
            | None => (r, false)
            | Some t => let '(st, t1, c) := Clone E (rt_store r) t in (RTrie st (Some c) (Some t1) (rt_chk r), true)
            end
  end.
Definition set_live (r : rtrie) (t : trie) : rtrie := RTrie (rt_store r) (rt_origin r) (Some t) (rt_chk r).
Definition set_origin (r : rtrie) (t : trie) : rtrie := RTrie (rt_store r) (Some t) (rt_live r) (rt_chk r).

(* revertable.go:33-45 Copy *)
Definition rt_Copy (r : rtrie) : rtrie * rtrie :=
  match rt_origin r with
  | None => (r, RTrie (rt_store r) None None [])
  | Some t => let '(st, t1, c) := Clone E (rt_store r) t in
              (RTrie st (Some t1) (rt_live r) (rt_chk r), RTrie st (Some c) None [])
  end.
(* revertable.go:77-87 SetTo(newTrie), newTrie not nil *)
Definition rt_SetTo (r : rtrie) (t : trie) : rtrie := RTrie (rt_store r) (Some t) None (rt_chk r).

(* revertable.go:104-112 HashValue: nil = [] *)
Definition rt_HashValue (r : rtrie) : rtrie * list N :=
  match rt_origin r with
  | None => (r, [])
  | Some t => let '(t', h) := HashValue E t in (set_origin r t', h)
  end.
(* revertable.go:121-143 Get, GetLive *)
Definition rt_Get (r : rtrie) (k : list N) : rtrie * option V :=
  match rt_origin r with
  | None => (r, None)
  | Some t => let '(t', v) := Get E (rt_store r) t k in (set_origin r t', v)
  end.
Definition rt_GetLive (r : rtrie) (k : list N) : rtrie * option V :=
  match rt_live r with
  | Some t => let '(t', v) := Get E (rt_store r) t k in (set_live r t', v)
  | None => rt_Get r k
  end.
(* revertable.go:145-156 putLocked, Put; None = panic *)
Definition rt_Put (r : rtrie) (k : list N) (v : V) : option (rtrie * bool) :=
  let '(r, ok) := checkLive r in
  match ok, rt_live r with
  | true, Some t => match Put E (rt_store r) t k (Some v) with
                    | Some (t', c) => Some (set_live r t', c)
                    | None => None end
  | _, _ => Some (r, false)
  end.
(* revertable.go:168-176 Delete; None = panic *)
Definition rt_Delete (r : rtrie) (k : list N) : option (rtrie * bool * option V) :=
  let '(r, ok) := checkLive r in
  match ok, rt_live r with
  | true, Some t => match Delete E (rt_store r) t k with
                    | Some (t', c, old) => Some (set_live r t', c, old)
                    | None => None end
  | _, _ => Some (r, false, None)
  end.
(* revertable.go:178-190 IsDirty *)
Definition rt_IsDirty (r : rtrie) : bool := is_some (rt_live r).
(* revertable.go:192-198 _prepareCommit *)
Definition prepareCommit (r : rtrie) : rtrie :=
  RTrie (rt_store r) (match rt_live r with Some t => Some t | None => rt_origin r end) None [].
(* revertable.go:200-205 Commit; None = panic (nil Origin), false = error *)
Definition rt_Commit (r : rtrie) : option (rtrie * bool) :=
  let r := prepareCommit r in
  match rt_origin r with
  | None => None
  | Some t => let '(st, t', ok) := Commit E (rt_store r) t in Some (RTrie st (Some t') (rt_live r) (rt_chk r), ok)
  end.
(* revertable.go:114-119 CommitAndHash; Trie.CommitAndHash (trie.go:239-250): Commit, then
   HashValue if there was no error; None = panic, inner None = error *)
Definition rt_CommitAndHash (r : rtrie) : option (rtrie * option (list N)) :=
  match rt_Commit r with
  | None => None
  | Some (r, false) => Some (r, None)
  | Some (r, true) => let '(r, h) := rt_HashValue r in Some (r, Some h)
  end.
(* revertable.go:246-254 PreHashValue; None = panic *)
Definition rt_PreHashValue (r : rtrie) : option (rtrie * list N) :=
  match rt_live r with
  | None => match rt_origin r with None => None | Some _ => Some (rt_HashValue r) end
  | Some t => let '(t', h) := HashValue E t in Some (set_live r t', h)
  end.
(* revertable.go:256-274 preCommitLocked, PreCommit; None = error *)
Definition preCommit (r : rtrie) : rtrie * option (list N) :=
  match rt_live r with
  | None => let '(r, h) := rt_HashValue r in (r, Some h)
  | Some t => let '(st, t1, ok) := Commit E (rt_store r) t in
              if ok then let '(t2, h) := HashValue E t1 in (RTrie st (rt_origin r) (Some t2) (rt_chk r), Some h)
              else (RTrie st (rt_origin r) (Some t1) (rt_chk r), None)
  end.
(* revertable.go:276-284 Rollback *)
Definition rt_Rollback (r : rtrie) : rtrie := RTrie (rt_store r) (rt_origin r) None [].
(* revertable.go:286-301 CheckPoint *)
Definition rt_CheckPoint (r : rtrie) : rtrie * option (Z * list N) :=
  match preCommit r with
  | (r, None) => (r, None)
  | (r, Some h) => let chk := rt_chk r ++ [bytes_to_hash h] in
                   (RTrie (rt_store r) (rt_origin r) (rt_live r) chk, Some ((Z.of_nat (length chk) - 1)%Z, h))
  end.
(* revertable.go:303-325 RevertTo; false = error. Inherit on a nil trie is nil
   (trie.go:204-207) *)
Definition rt_RevertTo (r : rtrie) (checkPoint : Z) (root : list N) : rtrie * bool :=
  if (checkPoint <? 0)%Z || (lenN root =? 0) then (r, false)
  else if (Z.of_nat (length (rt_chk r)) <=? checkPoint)%Z then (r, false)
  else
    let h := bytes_to_hash root in
    if negb (bool_decide (h = nth (Z.to_nat checkPoint) (rt_chk r) [])) then (r, false)
    else
      let chk := take (Z.to_nat checkPoint) (rt_chk r) in
      match chk with
      | [] => (RTrie (rt_store r) (rt_origin r) None [], true)
      | _ => (RTrie (rt_store r) (rt_origin r) (option_map (fun t => Inherit t (Some root)) (rt_live r)) chk, true)
      end.

(* one call; None = panic *)
Definition rstep (r : rtrie) (c : rcall V) : option (rtrie * robs V) :=
  match c with
  | RPut k v => match rt_Put r k v with Some (r, b) => Some (r, VChanged b) | None => None end
  | RDel k => match rt_Delete r k with Some (r, b, o) => Some (r, VDeleted b o) | None => None end
  | RGet k => let '(r, v) := rt_Get r k in Some (r, VVal v)
  | RGetLive k => let '(r, v) := rt_GetLive r k in Some (r, VVal v)
  | RHash => let '(r, h) := rt_HashValue r in Some (r, VHash h)
  | RPreHash => match rt_PreHashValue r with Some (r, h) => Some (r, VHash h) | None => None end
  | RPreCommit => match preCommit r with (r, Some h) => Some (r, VHash h) | (r, None) => Some (r, VErr) end
  | RIsDirty => Some (r, VBool (rt_IsDirty r))
  | RCheck => match rt_CheckPoint r with (r, Some (i, h)) => Some (r, VCheck i h) | (r, None) => Some (r, VErr) end
  | RRevert i h => let '(r, ok) := rt_RevertTo r i h in Some (r, if ok then VDone else VErr)
  | RRollback => Some (rt_Rollback r, VDone)
  | RCommit => match rt_Commit r with Some (r, ok) => Some (r, if ok then VDone else VErr) | None => None end
  | RCommitHash => match rt_CommitAndHash r with
                   | Some (r, Some h) => Some (r, VHash h) | Some (r, None) => Some (r, VErr) | None => None end
  | RCopy => Some ((rt_Copy r).2, VDone)
  end.
Fixpoint rrun (cs : list (rcall V)) (r : rtrie) : option (rtrie * list (robs V)) :=
  match cs with
  | [] => Some (r, [])
  | c :: cs => match rstep r c with
               | None => None
               | Some (r, o) => match rrun cs r with None => None | Some (r, os) => Some (r, o :: os) end
               end
  end.
(* a RevertableTrie over a new trie and an empty database *)
Definition rtrie0 : rtrie := RTrie (Store ∅ ∅ []) (Some (NewTrie None)) None [].
End model.
