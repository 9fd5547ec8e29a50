(** How values seen by generated code differ from those seen by reflection. *)
From Verif Require Import RlpTypeModel RlpTypeSpec.

(** Optional fields with empty slices replaced by nil slices. *)
Fixpoint nil_opt (t : rty) (v : rval) {struct t} : rval :=
  match t, v with
  | RSlice t, VList vs => VList (map (nil_opt t) vs)
  | RStruct fs, VList vs => VList (nil_opts fs vs)
  | (RPtr t | RNilPtr _ t), VPtr v => VPtr (nil_opt t v)
  | _, _ => v
  end
with nil_opts (fs : rfields) (vs : list rval) {struct fs} : list rval :=
  match fs, vs with
  | FCons FOpt t fs, v :: vs =>
      match t, v with
      | RBytes, VStr [] => VNil
      | RSlice _, VList [] => VNil
      | _, _ => nil_opt t v
      end :: nil_opts fs vs
  | FCons _ t fs, v :: vs => nil_opt t v :: nil_opts fs vs
  | _, _ => vs
  end.

(** All empty slices (other than slices of bytes) replaced by nil slices. *)
Fixpoint nil_slices (t : rty) (v : rval) {struct t} : rval :=
  match t, v with
  | RSlice _, VList [] => VNil
  | RSlice t, VList vs => VList (map (nil_slices t) vs)
  | RStruct fs, VList vs => VList (nil_slicess fs vs)
  | (RPtr t | RNilPtr _ t), VPtr v => VPtr (nil_slices t v)
  | _, _ => v
  end
with nil_slicess (fs : rfields) (vs : list rval) {struct fs} : list rval :=
  match fs, vs with
  | FCons _ t fs, v :: vs => nil_slices t v :: nil_slicess fs vs
  | _, _ => vs
  end.

(** No pointer fields with a nil tag. *)
Fixpoint no_nil_tag (t : rty) : bool :=
  match t with
  | RSlice t | RArr _ t | RPtr t => no_nil_tag t
  | RNilPtr _ _ => false
  | RStruct fs => no_nil_tags fs
  | _ => true
  end
with no_nil_tags (fs : rfields) : bool :=
  match fs with FNil => true | FCons _ t fs => no_nil_tag t && no_nil_tags fs end.

(** Every pointer field with a nil tag points to something. *)
Fixpoint no_nils (t : rty) (v : rval) {struct t} : Prop :=
  match t, v with
  | (RSlice t | RArr _ t), VList vs => Forall (no_nils t) vs
  | RStruct fs, VList vs => no_nilss fs vs
  | RNilPtr _ _, VNil => False
  | (RPtr t | RNilPtr _ t), VPtr v => no_nils t v
  | _, _ => True
  end
with no_nilss (fs : rfields) (vs : list rval) {struct fs} : Prop :=
  match fs, vs with
  | FCons _ t fs, v :: vs => no_nils t v /\ no_nilss fs vs
  | _, _ => True
  end.
