(** What a revertable history is: a committed list of values and, between the first append
    and the next commit or rollback, a working list. *)
From Verif Require Import Base MerkleSpec HistSpec.
From stdpp Require Import gmap.
Open Scope N_scope.

Inductive rhcall :=
| RAppend (k : N) (v : list N) | RExpecting | RHash | RCommitHash | RPreHash | RPreCommit
| RPreCollapse (k : N) | RCollapse (k : N) | RCommit | RGet (k : N) | RProof (k : N) | RRollback
| RRestart (i : nat).
(** rs_saved: the lists whose root was handed out by CommitAndHash or PreCommit *)
Record rlogs := RLogs { rs_done : list (list N); rs_work : option (list (list N)); rs_saved : list (list (list N)) }.

Section run.
Context (root : list (list N) -> list N).
Definition working (s : rlogs) : list (list N) := match rs_work s with Some w => w | None => rs_done s end.
Definition rstep (s : rlogs) (c : rhcall) : rlogs * hobs :=
  match c with
  | RAppend k v =>
      if (k =? lenN (working s)) && negb (bool_decide (v = []))
      then (RLogs (rs_done s) (Some (working s ++ [v])) (rs_saved s), HvOk)
      else (RLogs (rs_done s) (Some (working s)) (rs_saved s), HvErr)
  | RExpecting => (s, HvNum (lenN (rs_done s)))
  | RHash => (s, HvHash (root (rs_done s)))
  | RCommitHash => (RLogs (working s) None (rs_saved s ++ [working s]), HvHash (root (working s)))
  | RPreHash => (s, HvHash (root (working s)))
  | RPreCommit => (RLogs (rs_done s) (rs_work s) (rs_saved s ++ [working s]), HvHash (root (working s)))
  | RPreCollapse _ | RCollapse _ => (s, HvOk)
  | RCommit => (RLogs (working s) None (rs_saved s), HvOk)
  | RGet k => (s, HvVal (hget (rs_done s) k))
  | RProof k => (s, HvProof (match hget (rs_done s) k with
                             | Some v => Some (v, Some (root (rs_done s)), Some k)
                             | None => None end))
  | RRollback => (RLogs (rs_done s) None (rs_saved s), HvOk)
  | RRestart i => match rs_saved s !! i with
                  | Some vs => (RLogs vs None (rs_saved s), HvOk)
                  | None => (s, HvOk) end
  end.
Fixpoint rrun (cs : list rhcall) (s : rlogs) : rlogs * list hobs :=
  match cs with
  | [] => (s, [])
  | c :: cs' => let '(s1, b) := rstep s c in let '(s2, bs) := rrun cs' s1 in (s2, b :: bs)
  end.
(** Every working list on the way *)
Fixpoint rvisited (cs : list rhcall) (s : rlogs) : list (list (list N)) :=
  working s :: match cs with [] => [] | c :: cs' => rvisited cs' (rstep s c).1 end.
Definition rlogs0 : rlogs := RLogs [] None [].
Definition rcall_key (c : rhcall) : N :=
  match c with RAppend k _ | RGet k | RProof k | RCollapse k | RPreCollapse k => k | _ => 0 end.
End run.
