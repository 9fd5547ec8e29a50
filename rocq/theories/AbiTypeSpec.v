(** ABI types as the specification writes them: a scalar or a tuple with array dimensions. *)
From Coq Require Import NArith ZArith Lia Zify.
From stdpp Require Import list.
From Verif Require Import Base AbiModel AbiSelModel AbiSelSpec AbiTypeModel.
Global Open Scope N_scope.

Inductive scal := NInt (bits : N) | NUint (bits : N) | NBool | NAddress | NString | NBytes | NFixed (size : N) | NFunction.
Inductive nty :=
| Scal (s : scal) (dims : list (option N))
| Tup (names : list (list N)) (fields : list nty) (dims : list (option N)).

(** decimal numbers without leading zeros *)
Definition num (n : N) : list N := digits_of (N.to_uint n).
(** "[]" and "[n]" *)
Definition dim (d : option N) : list N := [91] ++ match d with None => [] | Some n => num n end ++ [93].
Definition dims_text (ds : list (option N)) : list N := concat (map dim ds).
Definition scal_text (s : scal) : list N :=
  match s with
  | NInt n => s_int ++ num n | NUint n => s_uint ++ num n | NBool => s_bool | NAddress => s_address
  | NString => s_string | NBytes => s_bytes | NFixed n => s_bytes ++ num n | NFunction => s_function
  end.
(** The canonical text of a type in a signature, and the type text of a JSON description. *)
Fixpoint sig (t : nty) : list N :=
  match t with
  | Scal s ds => scal_text s ++ dims_text ds
  | Tup _ fs ds => [40] ++ join (map sig fs) ++ [41] ++ dims_text ds
  end.
Definition type_text (t : nty) : list N :=
  match t with Scal s ds => scal_text s ++ dims_text ds | Tup _ _ ds => s_tuple ++ dims_text ds end.

(** The type without names and text. *)
Definition scal_plain (s : scal) : aty :=
  match s with
  | NInt n => TInt n | NUint n => TUint n | NBool => TBool | NAddress => TAddress
  | NString => TString | NBytes => TBytes | NFixed n => TFixedBytes (N.to_nat n) | NFunction => TFunction
  end.
Definition add_dim (a : aty) (d : option N) : aty :=
  match d with None => TSlice a | Some n => TArray a (N.to_nat n) end.
Fixpoint plain (t : nty) : aty :=
  match t with
  | Scal s ds => fold_left add_dim ds (scal_plain s)
  | Tup _ fs ds => fold_left add_dim ds (TTuple (map plain fs))
  end.

(** How a type is described in JSON: the components, with any internal types. *)
Inductive spelled : nty -> list amarsh -> Prop :=
| sp_scal s ds cs : spelled (Scal s ds) cs
| sp_tup names fs ds cs : spelled_fields names fs cs -> spelled (Tup names fs ds) cs
with spelled_fields : list (list N) -> list nty -> list amarsh -> Prop :=
| sp_nil : spelled_fields [] [] []
| sp_cons n f i c names fs cs : spelled f c -> spelled_fields names fs cs ->
    spelled_fields (n :: names) (f :: fs) (AM n (type_text f) i c :: cs).

(** Field names: letters, digits and underscores; a letter before any digit. *)
Definition field_name (n : list N) : Prop :=
  exists us c r, n = us ++ c :: r /\ Forall (fun x => x = 95) us /\ letter c /\
    Forall (fun x => letter x \/ digit x \/ x = 95) r.

Section wf.
  Context (reflectable : aty -> bool).
  Definition scal_ok (s : scal) : Prop :=
    match s with NInt n | NUint n => n < 2 ^ 63 | NFixed n => 1 <= n < 2 ^ 63 | _ => True end.
  Definition dim_ok (d : option N) : Prop := match d with Some n => n < 2 ^ 63 | None => True end.
  (** Sizes fit an int; the components of tuples have Go types. *)
  Inductive type_ok : nty -> Prop :=
  | ok_scal s ds : scal_ok s -> Forall dim_ok ds -> type_ok (Scal s ds)
  | ok_tup names fs ds : Forall field_name names -> Forall type_ok fs ->
      Forall (fun f => reflectable (plain f) = true) fs -> Forall dim_ok ds -> type_ok (Tup names fs ds).
End wf.

(** An exported Go field name for a component name: the parts between underscores joined,
    each with its first letter in upper case, possibly with a number. *)
Definition capital (n : list N) : list N :=
  match n with c :: r => (if (97 <=? c) && (c <=? 122) then c - 32 else c) :: r | [] => [] end.
Definition go_name (n f : list N) : Prop :=
  exists parts, n = concat (map (fun p => p ++ [95]) (removelast parts)) ++ default [] (last parts) /\
    Forall (Forall (fun c => c <> 95)) parts /\
    (f = concat (map capital parts) \/ exists k, f = concat (map capital parts) ++ decimal k).
Definition exported (f : list N) : Prop :=
  exists c r, f = c :: r /\ 65 <= c <= 90 /\ Forall (fun x => letter x \/ digit x) r.

(** The Type made for a type: kind and sizes, text, and for tuples the names. *)
Fixpoint core (ty : typ) : typ :=
  match T ty, Elem ty with
  | SliceTy, Some e => core e
  | ArrayTy, Some e => core e
  | _, _ => ty
  end.
Inductive names_kept : nty -> typ -> Prop :=
| nk_scal s ds ty : names_kept (Scal s ds) ty
| nk_tup names fs ds ty :
    TupleRawNames (core ty) = names ->
    NoDup (TupleFields (core ty)) ->
    Forall exported (TupleFields (core ty)) ->
    Forall2 go_name names (TupleFields (core ty)) ->
    Forall2 names_kept fs (TupleElems (core ty)) ->
    names_kept (Tup names fs ds) ty.

(** Types a textual selector can express, and the same type with the field names name0,
    name1, ... it gets there. *)
Inductive selectable : nty -> Prop :=
| sel_scal s ds : selectable (Scal s ds)
| sel_tup names fs ds : fs <> [] -> Forall selectable fs -> ds = [] \/ ds = [None] -> selectable (Tup names fs ds).
