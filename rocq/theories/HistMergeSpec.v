(** What a history tree restored from the proof of one key, into which proofs of other keys
    are merged, is to do. *)
From Verif Require Import Base MerkleSpec HistSpec.
From stdpp Require Import gmap.
Open Scope N_scope.

(** The position that the directions of a path from the leaf up lead to. *)
Fixpoint path_key (its : list (list N * bool)) : N :=
  match its with [] => 0 | (_, left_sibling) :: r => (if left_sibling : bool then 1 else 0) + 2 * path_key r end.
(** The siblings [its] show that value number [key] of the list with root [root] is [value]. *)
Definition shows (H : list N -> list N) (root : list N) (key : N) (value : list N) (its : list (list N * bool)) : bool :=
  (length value =? 32)%nat && (path_key its =? key) && bool_decide (climb H value its = root).

(** Keys are in blocks of 16; the blocks are in pairs. *)
Definition paired_blocks (a b : N) : Prop := a / 32 = b / 32 /\ a / 16 <> b / 16.

(** Calls. [P] is the type of proofs. *)
Inductive mcall (P : Type) : Type :=
| MMerge (key : N) (value : list N) (proof : P)
| MGet (key : N)
| MHash.
Arguments MMerge {P} key value proof. Arguments MGet {P} key. Arguments MHash {P}.
Inductive mobs : Type := MTaken (b : bool) | MValue (v : option (list N)) | MRootIs (h : list N).

Section spec.
Context (H : list N -> list N) (vs : list (list N)) {P : Type} (siblings : P -> list (list N * bool)).
(** A tree of the list [vs] that knows some keys. *)
Definition mspec_step (known : list N) (o : mcall P) : list N * mobs :=
  match o with
  | MMerge key value p => let b := shows H (hist_root H vs) key value (siblings p) in (if b then key :: known else known, MTaken b)
  | MGet key => (known, MValue (vs !! N.to_nat key))
  | MHash => (known, MRootIs (hist_root H vs))
  end.
Fixpoint mspec_run (known : list N) (calls : list (mcall P)) : list mobs :=
  match calls with
  | [] => []
  | o :: r => let '(known', b) := mspec_step known o in b :: mspec_run known' r
  end.
(** Only known keys are read; no key offered is in the other half of a pair of blocks with a
    known one. [ok] is asked of each proof that is offered. *)
Fixpoint mcalls_ok (ok : N -> list N -> P -> Prop) (known : list N) (calls : list (mcall P)) : Prop :=
  match calls with
  | [] => True
  | o :: r => match o with
              | MMerge key value p => key < two64 /\ ok key value p /\ Forall (fun k => ~ paired_blocks key k) known
              | MGet key => key ∈ known
              | MHash => True end /\
              mcalls_ok ok (mspec_step known o).1 r
  end.
End spec.
