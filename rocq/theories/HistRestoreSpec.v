(** What a history tree restored from the proof of one key is to do. *)
From Verif Require Import Base HistSpec.
From stdpp Require Import gmap.
Open Scope N_scope.

(** Calls that a tree restored from the proof of its last key [k] answers: appends, and
    reading from [k] on. *)
Definition tail_call (k : N) (o : hcall) : bool :=
  match o with HAppend _ _ | HExpecting | HHash => true | HGet i => k <=? i | _ => false end.
(** Calls that a tree restored from the proof of any key [k] answers. *)
Definition key_call (k : N) (o : hcall) : bool :=
  match o with HHash => true | HGet i => i =? k | _ => false end.
