(** What Chop of a history tree is to do: the new tree has the values up to the key. *)
From Verif Require Import Base HistSpec.
From stdpp Require Import gmap.
Open Scope N_scope.

(** Chop of the list [j] at [k]: a new list. Nothing else changes. A key that is not there
    is an error. *)
Definition hchop (s : hlogs) (j : nat) (k : N) : hlogs * hobs :=
  match hl_logs s !! j with
  | None => (s, HvOk)
  | Some vs =>
      if k <? lenN vs then (HLogs (hl_logs s ++ [take (N.to_nat k + 1) vs]) (hl_saved s), HvOk)
      else (s, HvErr)
  end.
(** Calls that neither write to the database nor give up what is in memory. *)
Definition light_call (o : hcall) : bool :=
  match o with HAppend _ _ | HGet _ | HExpecting | HHash | HProof _ => true | _ => false end.
(** The calls after the Chop: the new tree (the last one of the family) is only read and
    appended to, or nothing was cut off, or the first call is an append to the new tree.
    The other trees may be used as usual. *)
Definition after_chop (s : hlogs) (j : nat) (k : N) (post : list (nat * hcall)) : Prop :=
  let n := length (hl_logs s) in
  match hl_logs s !! j with
  | None => True
  | Some vs =>
      k < lenN vs ->
      Forall (fun jo => jo.1 = n -> light_call jo.2 = true) post \/ lenN vs = k + 1 \/
      exists v rest, post = (n, HAppend (k + 1) v) :: rest /\ v <> []
  end.
