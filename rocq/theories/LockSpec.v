(** What it means that a concurrently used object behaves like one operation at a time.

    A history records, in the order in which they happen, when a thread calls an operation
    and when the call returns with an answer. A history is linearizable when a moment can
    be chosen for each operation, after its call and before its return, such that the
    operations, taken one after the other in the order of those moments, answer as the
    sequential object answers. Nothing here mentions locks or the code. *)
From stdpp Require Import list.

Inductive event (Op A : Type) := EInv (i : nat) (o : Op) | ERet (i : nat) (a : A).
Arguments EInv {Op A} i o. Arguments ERet {Op A} i a.

(** a history with the chosen moments *)
Inductive mark (Op A : Type) := HInv (i : nat) (o : Op) | HLin (i : nat) (o : Op) (a : A) | HRet (i : nat) (a : A).
Arguments HInv {Op A} i o. Arguments HLin {Op A} i o a. Arguments HRet {Op A} i a.

Section spec.
  Context {Op A M : Type}.
  (** the sequential object: in state m operation o may answer a and leave m' *)
  Context (sp : M -> Op -> M -> A -> Prop).

  Definition seen (x : mark Op A) : list (event Op A) :=
    match x with HInv i o => [EInv i o] | HLin _ _ _ => [] | HRet i a => [ERet i a] end.
  Definition chosen (x : mark Op A) : list (Op * A) :=
    match x with HLin _ o a => [(o, a)] | _ => [] end.

  (** one thread: call, then moment of the same operation, then return of the same answer *)
  Inductive tstate := TIdle | TCalled (o : Op) | TDone (a : A).
  Inductive tmove (i : nat) : tstate -> mark Op A -> tstate -> Prop :=
  | tm_inv o : tmove i TIdle (HInv i o) (TCalled o)
  | tm_lin o a : tmove i (TCalled o) (HLin i o a) (TDone a)
  | tm_ret a : tmove i (TDone a) (HRet i a) TIdle
  | tm_other t x : match x with HInv j _ => j | HLin j _ _ => j | HRet j _ => j end <> i -> tmove i t x t.
  Inductive truns (i : nat) : tstate -> list (mark Op A) -> tstate -> Prop :=
  | tr_nil t : truns i t [] t
  | tr_cons t x t' h t'' : tmove i t x t' -> truns i t' h t'' -> truns i t (x :: h) t''.

  (** a sequential run *)
  Inductive sruns : M -> list (Op * A) -> M -> Prop :=
  | sr_nil m : sruns m [] m
  | sr_cons m o a m' l m'' : sp m o m' a -> sruns m' l m'' -> sruns m ((o, a) :: l) m''.

  Definition linearizable (m : M) (h : list (event Op A)) : Prop :=
    exists g, concat (map seen g) = h /\ (forall i, exists t, truns i TIdle g t)
              /\ exists m', sruns m (concat (map chosen g)) m'.
End spec.
