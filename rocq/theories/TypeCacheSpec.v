(** What users of package rlp rely on in its cache of types: which types are supported, and
    what a finished entry of the cache is. *)
From stdpp Require Import prelude.

(** A type (together with the tags of the field it is found in) is a number. A type has a
    decoder and a writer. *)
Inductive side := Dec | Wri.

Section types.
  (** [need s k]: the types whose decoders (writers) the decoder (writer) of type k calls:
      the element type of a pointer, slice or array, the types of the fields of a struct,
      none for a plain type. [None]: there is no decoder (writer) for such a type, whatever
      it is made of (a channel, a struct with a bad tag). Types may be recursive. *)
  Context (need : side -> nat -> option (list nat)).

  (** A type is supported unless a type without a decoder (writer) is found in it. *)
  Inductive unsupported (s : side) : nat -> Prop :=
  | Uns_here k : need s k = None -> unsupported s k
  | Uns_in k ks k' : need s k = Some ks -> k' ∈ ks -> unsupported s k' -> unsupported s k.

  Definition part_of (k' k : nat) : Prop := exists s ks, need s k = Some ks /\ k' ∈ ks.
  (** No type is a part of itself, here or further down. *)
  Definition not_recursive (k : nat) : Prop := Acc part_of k.

  (** The type at the end of a way down: the index of the part to go to, again and again. *)
  Fixpoint type_at (s : side) (k : nat) (p : list nat) : option nat :=
    match p with
    | [] => Some k
    | i :: p => match need s k with
                | Some ks => match ks !! i with Some k' => type_at s k' p | None => None end
                | None => None
                end
    end.
End types.

(** Half of an entry: not made yet, refused, or a function that calls the functions of
    other entries. An entry is addressed by its place. *)
Inductive fn := HNil | HErr | HFun (ls : list nat).
Record info := Info { i_dec : fn; i_wri : fn }.
Definition half_of (s : side) (i : info) : fn := match s with Dec => i_dec i | Wri => i_wri i end.

(** The entry at the end of a way down. *)
Fixpoint follow (heap : list info) (s : side) (l : nat) (p : list nat) : option nat :=
  match p with
  | [] => Some l
  | i :: p => match heap !! l with
              | Some e => match half_of s e with
                          | HFun ls => match ls !! i with Some l' => follow heap s l' p | None => None end
                          | _ => None
                          end
              | None => None
              end
  end.
