(** What a map with checkpoints is, without reference to the code. *)
From Verif Require Import Base TrieSpec.
From stdpp Require Import gmap.
Open Scope N_scope.

(** Calls on a RevertableTrie. RCopy goes on with the result of Copy. *)
Inductive rcall (V : Type) :=
| RPut (k : list N) (v : V) | RDel (k : list N) | RGet (k : list N) | RGetLive (k : list N)
| RHash | RPreHash | RPreCommit | RIsDirty
| RCheck | RRevert (i : Z) (root : list N) | RRollback | RCommit | RCommitHash | RCopy.
Arguments RPut {V}. Arguments RDel {V}. Arguments RGet {V}. Arguments RGetLive {V}. Arguments RHash {V}.
Arguments RPreHash {V}. Arguments RPreCommit {V}. Arguments RIsDirty {V}. Arguments RCheck {V}. Arguments RRevert {V}.
Arguments RRollback {V}. Arguments RCommit {V}. Arguments RCommitHash {V}. Arguments RCopy {V}.

Inductive robs (V : Type) :=
| VChanged (b : bool) | VDeleted (b : bool) (old : option V) | VVal (o : option V) | VHash (h : list N)
| VBool (b : bool) | VCheck (i : Z) (h : list N) | VErr | VDone.
Arguments VChanged {V}. Arguments VDeleted {V}. Arguments VVal {V}. Arguments VHash {V}. Arguments VBool {V}.
Arguments VCheck {V}. Arguments VErr {V}. Arguments VDone {V}.

(** Committed contents; contents with the uncommitted changes, if there are any;
    the contents at the checkpoints, oldest first. *)
Record rmap (V : Type) := RMap { a_origin : gmap (list N) V; a_live : option (gmap (list N) V); a_chk : list (gmap (list N) V) }.
Arguments RMap {V}. Arguments a_origin {V}. Arguments a_live {V}. Arguments a_chk {V}.

Section spec.
Context {V : Type} (root : gmap (list N) V -> list N).
Implicit Types s : rmap V.
Definition current s : gmap (list N) V := default (a_origin s) (a_live s).
Definition astep s (c : rcall V) : rmap V * robs V :=
  match c with
  | RPut k v => (RMap (a_origin s) (Some (<[k := v]> (current s))) (a_chk s), VChanged true)
  | RDel k => (RMap (a_origin s) (Some (delete k (current s))) (a_chk s),
               VDeleted (bool_decide (is_Some (current s !! k))) (current s !! k))
  | RGet k => (s, VVal (a_origin s !! k))
  | RGetLive k => (s, VVal (current s !! k))
  | RHash => (s, VHash (root (a_origin s)))
  | RPreHash | RPreCommit => (s, VHash (root (current s)))
  | RIsDirty => (s, VBool (bool_decide (is_Some (a_live s))))
  | RCheck => (RMap (a_origin s) (a_live s) (a_chk s ++ [current s]),
               VCheck (Z.of_nat (length (a_chk s))) (root (current s)))
  | RRevert i h =>
      if (i <? 0)%Z || bool_decide (h = []) then (s, VErr)
      else match a_chk s !! Z.to_nat i with
           | None => (s, VErr)
           | Some m =>
               if decide (h = root m)
               then (RMap (a_origin s) (if (i =? 0)%Z then None else match a_live s with Some _ => Some m | None => None end)
                       (take (Z.to_nat i) (a_chk s)), VDone)
               else (s, VErr)
           end
  | RRollback => (RMap (a_origin s) None [], VDone)
  | RCommit => (RMap (current s) None [], VDone)
  | RCommitHash => (RMap (current s) None [], VHash (root (current s)))
  | RCopy => (RMap (a_origin s) None [], VDone)
  end.
Fixpoint arun (cs : list (rcall V)) s : rmap V * list (robs V) :=
  match cs with
  | [] => (s, [])
  | c :: cs => let '(s1, o) := astep s c in let '(s2, os) := arun cs s1 in (s2, o :: os)
  end.
Definition amaps s : list (gmap (list N) V) := a_origin s :: current s :: a_chk s.
Fixpoint avisited (cs : list (rcall V)) s : list (gmap (list N) V) :=
  amaps s ++ match cs with [] => [] | c :: cs => avisited cs (astep s c).1 end.
Definition amap0 : rmap V := RMap ∅ None [].
Definition rcall_keys (c : rcall V) : list (list N) :=
  match c with RPut k _ | RDel k | RGet k | RGetLive k => [k] | _ => [] end.
Definition rcall_vals (c : rcall V) : list V := match c with RPut _ v => [v] | _ => [] end.

(** Calls that leave checkpoint number [i] in place. *)
Definition keeps_checkpoint (i : Z) (c : rcall V) : Prop :=
  match c with
  | RRollback | RCommit | RCommitHash | RCopy => False
  | RRevert i' _ => (i < i')%Z
  | _ => True
  end.
End spec.
