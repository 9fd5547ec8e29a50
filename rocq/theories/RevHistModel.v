(** Model of trie/revertable.go RevertableHistoryTree: a committed and a working history
    tree over one database. Has (which waits for itself, see HistLockProps.v), MergeProof,
    Rebase and String are left out; the lock makes calls atomic (DbConcProps.v, HistLockProps.v). *)
From Verif Require Import Base MerkleSpec MerkleModel TrieSpec TrieModel TrieProofModel.
From Verif Require Import HistSpec HistModel RevHistSpec.
From stdpp Require Import gmap.
Open Scope N_scope.

(* trie/revertable.go:334-339; chkpts is never filled. The database is shared *)
Record rhtree := RHTree { rh_store : hstore; rh_origin : option htree; rh_live : option htree;
  rh_roots : list (list N) (** the roots handed out so far *) }.

Section model.
Context (E : henv).

(* revertable.go:341-350 _checkLive; None = error, the tree to work on else. Origin is the
   clone, which is nil if cloning fails *)
Definition check_live (r : rhtree) : option (rhtree * htree) :=
  match rh_live r with
  | Some l => Some (r, l)
  | None => match rh_origin r with
            | None => None
            | Some o => let '(st', o1, o2) := clone E (rh_store r) o in
                        Some (RHTree st' o2 (Some o1) (rh_roots r), o1)
            end
  end.
(* revertable.go:438-444 _prepareCommit *)
Definition prepare_commit (r : rhtree) : rhtree :=
  match rh_live r with
  | Some l => RHTree (rh_store r) (Some l) None (rh_roots r)
  | None => r
  end.
Definition with_live (r : rhtree) (l : htree) := RHTree (rh_store r) (rh_origin r) (Some l) (rh_roots r).
Definition with_origin (r : rhtree) (o : htree) := RHTree (rh_store r) (Some o) (rh_live r) (rh_roots r).
Definition with_store (r : rhtree) (st : hstore) := RHTree st (rh_origin r) (rh_live r) (rh_roots r).
Definition handed (r : rhtree) (h : list N) := RHTree (rh_store r) (rh_origin r) (rh_live r) (rh_roots r ++ [h]).

(** One call; None = panic (a nil tree is locked). *)
Definition rhstep (r : rhtree) (c : rhcall) : option (rhtree * hobs) :=
  let st := rh_store r in
  match c with
  | RAppend k v =>              (* 352-359 *)
      match check_live r with
      | None => Some (r, HvErr)
      | Some (r1, l) => let '(l', ok) := append E (rh_store r1) l k v in
                        Some (with_live r1 l', if ok then HvOk else HvErr)
      end
  | RExpecting =>               (* 361-368 *)
      Some (r, HvNum (match rh_origin r with None => two64 - 1 | Some o => ht_exp o end))
  | RHash =>                    (* 370-377; nil is the empty hash *)
      match rh_origin r with
      | None => Some (r, HvHash [])
      | Some o => let '(o', h) := hash_value E o in
                  Some (with_origin r o', match h with Some h => HvHash h | None => HvErr end)
      end
  | RCommitHash =>              (* 379-384 *)
      let r1 := prepare_commit r in
      match rh_origin r1 with
      | None => None
      | Some o =>
          let '(st', o1, ok) := commit_tree E st o in
          let r2 := with_origin (with_store r1 st') o1 in
          if ok then
            let '(o2, h) := hash_value E o1 in
            match h with
            | Some h => Some (handed (with_origin r2 o2) h, HvHash h)
            | None => Some (with_origin r2 o2, HvErr) end
          else Some (r2, HvErr)
      end
  | RPreHash =>                 (* 386-397 *)
      match rh_live r with
      | Some l => let '(l', h) := hash_value E l in
                  Some (with_live r l', match h with Some h => HvHash h | None => HvErr end)
      | None =>
          match rh_origin r with
          | None => Some (r, HvHash [])
          | Some o => let '(o', h) := hash_value E o in
                      Some (with_origin r o', match h with Some h => HvHash h | None => HvErr end)
          end
      end
  | RPreCommit =>               (* 399-417 *)
      match rh_live r with
      | Some l =>
          let '(st', l1, ok) := commit_tree E st l in
          let r1 := with_live (with_store r st') l1 in
          if ok then
            let '(l2, h) := hash_value E l1 in
            match h with
            | Some h => Some (handed (with_live r1 l2) h, HvHash h)
            | None => Some (with_live r1 l2, HvErr) end
          else Some (r1, HvErr)
      | None =>
          match rh_origin r with
          | None => Some (r, HvHash [])
          | Some o => let '(o', h) := hash_value E o in
                      match h with
                      | Some h => Some (handed (with_origin r o') h, HvHash h)
                      | None => Some (with_origin r o', HvErr) end
          end
      end
  | RPreCollapse k =>           (* 419-427 *)
      match rh_live r with
      | None => Some (r, HvOk)
      | Some l => match collapse_before E st l k with
                  | None => None
                  | Some (st', l') => Some (with_live (with_store r st') l', HvOk) end
      end
  | RCollapse k =>              (* 429-436 *)
      match rh_origin r with
      | None => Some (r, HvOk)
      | Some o => match collapse_before E st o k with
                  | None => None
                  | Some (st', o') => Some (with_origin (with_store r st') o', HvOk) end
      end
  | RCommit =>                  (* 446-451 *)
      let r1 := prepare_commit r in
      match rh_origin r1 with
      | None => None
      | Some o => let '(st', o1, ok) := commit_tree E st o in
                  Some (with_origin (with_store r1 st') o1, if ok then HvOk else HvErr)
      end
  | RGet k =>                   (* 459-463 *)
      match rh_origin r with
      | None => None
      | Some o => let '(o', v) := get_tree E st o k in Some (with_origin r o', HvVal v)
      end
  | RProof k =>                 (* 465-469; a nil tree has no proof *)
      match rh_origin r with
      | None => Some (r, HvProof None)
      | Some o =>
          let '(o', p) := get_proof E st o k in
          Some (with_origin r o',
                HvProof (match p with
                         | None => None
                         | Some (v, c) => Some (v, chain_proof E c (bytes_to_hash v), option_map fst (chain_bigkey c 0 0))
                         end))
      end
  | RRollback =>                (* 496-504 *)
      Some (RHTree st (rh_origin r) None (rh_roots r), HvOk)
  | RRestart i =>               (* a new RevertableHistoryTree on the i-th root handed out *)
      match rh_roots r !! i with
      | None => Some (r, HvOk)
      | Some h => match open_tree E st h true with
                  | Some o => Some (RHTree st (Some o) None (rh_roots r), HvOk)
                  | None => Some (r, HvErr) end
      end
  end.
Fixpoint rhrun (cs : list rhcall) (r : rhtree) : option (rhtree * list hobs) :=
  match cs with
  | [] => Some (r, [])
  | c :: cs' => match rhstep r c with
                | None => None
                | Some (r1, b) => match rhrun cs' r1 with
                                  | None => None
                                  | Some (r2, bs) => Some (r2, b :: bs) end
                end
  end.
(** On a new database, with an empty history tree *)
Definition rhtree0 : rhtree := RHTree ∅ (Some (HTree 0 None)) None [].
End model.
