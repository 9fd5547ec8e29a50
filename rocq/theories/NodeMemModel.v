(** The list of data nodes of a chain in memory (chaininfo.go:788-825, 874-876): slices,
    append and sort of AttrMemModel.v, with node ids as elements. *)
From Verif Require Import Base CombinedModel ChainInfoModel AttrMemModel.
From stdpp Require Import gmap.
Global Open Scope N_scope.

(* chaininfo.go:788-803 AddDataNode; [o] is the field Datas *)
Definition AddNodeMem (spare : nat -> nat) (h : mem) (o : option sl) (node : list N) : mem * option sl * bool :=
  if (len o =? 0)%nat then (append1 spare h o node, true)
  else let k := search_strings (contents h o) node in
       if bool_decide (contents h o !! k = Some node) then (h, o, false)
       else let '(h, o) := append1 spare h o node in (sort_at h o, o, true).
(* chaininfo.go:805-821 RemoveDataNode: make, and two copies into the new array *)
Definition RemoveNodeMem (h : mem) (o : option sl) (node : list N) : mem * option sl * bool :=
  if (len o =? 0)%nat then (h, o, true)
  else let k := search_strings (contents h o) node in
       if bool_decide (contents h o !! k = Some node)
       then let a := fresh (dom h) in
            (<[a := cut k (contents h o)]> h, Some (Sl a 0 (len o - 1) (len o - 1)), true)
       else (h, o, false).
(** The calls of ChainInfoModel.v. GetDataNodes (chaininfo.go:823-825) answers the slice itself:
    the third component. *)
Definition mem_step (spare : nat -> nat) (h : mem) (o : option sl) (c : dnop) : mem * option sl * dnres :=
  match c with
  | DNAdd x => let '(h, o, b) := AddNodeMem spare h o x in (h, o, DNBool b)
  | DNRemove x => let '(h, o, b) := RemoveNodeMem h o x in (h, o, DNBool b)
  | DNHas x => (h, o, DNBool (HasDataNode (contents h o) x))
  | DNIndex x => (h, o, DNPos (Index (contents h o) x))
  | DNList => (h, o, DNIds (contents h o))
  | DNSort => (sort_at h o, o, DNUnit)
  end.
Fixpoint mem_run (spare : nat -> nat) (h : mem) (o : option sl) (cs : list dnop) : mem * option sl * list dnres :=
  match cs with
  | [] => (h, o, [])
  | c :: r => let '(h, o, x) := mem_step spare h o c in let '(h, o, xs) := mem_run spare h o r in (h, o, x :: xs)
  end.
