(** What pairing arguments with the fields of a struct means. *)
From Coq Require Import NArith ZArith Lia Zify.
From stdpp Require Import list gmap.
From Verif Require Import Base AbiModel AbiTypeModel AbiFieldModel.

(** A Go struct type: field names are distinct and not empty. *)
Definition go_struct (st : list sfield) : Prop := NoDup (map sf_name st) /\ Forall (fun x => sf_name x <> []) st.
Definition field (st : list sfield) (f : list N) : Prop := exists x, x ∈ st /\ sf_name x = f.
(** The name does not begin with a lower case letter or a byte that is not ASCII. *)
Definition public (f : list N) : Prop := exists c r, f = c :: r /\ c < 128 /\ ~ (97 <= c <= 122).
(** The field f, seen from outside its package, has the tag abi:"t". *)
Definition tagged (st : list sfield) (f t : list N) : Prop := exists x, x ∈ st /\ sf_name x = f /\ sf_tag x = Some t /\ public f.
Definition untagged (st : list sfield) (a : list N) : Prop := forall f, ~ tagged st f a.
(** The field the argument is named after *)
Definition own (st : list sfield) (a f : list N) : Prop := untagged st a /\ f = ToCamelCase a /\ field st f.

(** The conditions under which tags are accepted: they are not empty, each is the name of
    exactly one argument, and no two are equal. *)
Definition tags_ok (st : list sfield) (args : list (list N)) : Prop :=
  (forall f t, tagged st f t -> t <> [] /\ exists l r, args = l ++ t :: r /\ t ∉ l /\ t ∉ r) /\
  (forall f g t, tagged st f t -> tagged st g t -> f = g).
(** The condition on the argument a that comes after the arguments [before]. *)
Definition arg_ok (st : list sfield) (before : list (list N)) (a : list N) : Prop :=
  ToCamelCase a <> [] /\
  (forall f, tagged st f a -> f <> ToCamelCase a -> field st (ToCamelCase a) ->
    (exists t, tagged st (ToCamelCase a) t) \/ exists b, b ∈ before /\ untagged st b /\ ToCamelCase b = ToCamelCase a) /\
  (untagged st a ->
    (forall t, ~ tagged st (ToCamelCase a) t) /\
    (forall b, b ∈ before -> untagged st b -> ToCamelCase b = ToCamelCase a -> b = a /\ field st (ToCamelCase a))).
Definition args_ok (st : list sfield) (args : list (list N)) : Prop :=
  forall i a, args !! i = Some a -> arg_ok st (take i args) a.
