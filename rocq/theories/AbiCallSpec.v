(** Specification for the ABI built from JSON entries (C78): names of overloaded entries, and
    what each kind of entry contributes. *)
From Coq Require Import NArith ZArith Lia Zify.
From stdpp Require Import list gmap.
From Verif Require Import Base AbiModel AbiSelModel AbiTypeModel AbiCallModel.
Global Open Scope N_scope.

(** The name an entry gets, given the names in use: its own when that is free, otherwise its
    own followed by the smallest number that makes it free. *)
Definition fresh_name (used : list (list N)) (raw n : list N) : Prop :=
  n ∉ used /\ (raw ∉ used -> n = raw) /\
  (raw ∈ used -> exists k, n = raw ++ decimal k /\ forall j, (j < k)%nat -> raw ++ decimal j ∈ used).
(** Names are given in the order of the entries. *)
Inductive names_for (used : list (list N)) : list (list N) -> list (list N) -> Prop :=
| nf_nil : names_for used [] []
| nf_cons raw n raws names : fresh_name used raw n -> names_for (n :: used) raws names ->
    names_for used (raw :: raws) (n :: names).

(** What is read from one entry: everything as it stands, with the types that NewType makes. *)
Definition arg_of (uvalid : list N -> bool) (reflectable : aty -> bool) (x : amarsh * bool) (a : argument) : Prop :=
  let '(AM n t i cs, ix) := x in a_name a = n /\ NewType uvalid reflectable t i cs = Ok (a_typ a) /\ a_indexed a = ix.
Definition args_of uvalid reflectable (o : option (list (amarsh * bool))) (o' : arguments) : Prop :=
  match o, o' with
  | None, None => True
  | Some l, Some l' => Forall2 (arg_of uvalid reflectable) l l'
  | _, _ => False
  end.
Definition field_of uvalid reflectable (e : entry) (f : field) : Prop :=
  f_type f = e_type e /\ f_name f = e_name e /\ args_of uvalid reflectable (e_inputs e) (f_in f) /\
  args_of uvalid reflectable (e_outputs e) (f_out f) /\ f_mut f = e_mut e /\ f_const f = e_const e /\
  f_payable f = e_payable e /\ f_anon f = e_anon e.

Definition of_kind (k : list N) (fs : list field) : list field := filter (fun f => f_type f = k) fs.
Definition known_kinds : list (list N) := [k_constructor; k_function; k_fallback; k_receive; k_event; k_error].

(** The text name(type,...,type). *)
Definition is_signature (name : list N) (args : list argument) (s : list N) : Prop :=
  s = name ++ [40] ++ join_comma (map (fun a => stringKind (a_typ a)) args) ++ [41].
(** Arguments of events and errors without a name are called arg0, arg1, ... by position. *)
Definition same_arguments (o o' : arguments) : Prop :=
  (o = None <-> o' = None) /\
  length (items o) = length (items o') /\
  forall i a, items o !! i = Some a -> exists a', items o' !! i = Some a' /\
    a_typ a' = a_typ a /\ a_indexed a' = a_indexed a /\
    (a_name a <> [] -> a_name a' = a_name a) /\ (a_name a = [] -> a_name a' = k_arg ++ decimal i).

Section spec.
  Context (H : list N -> list N).
  Definition method_of (n : list N) (f : field) (m : method) : Prop :=
    m_name m = n /\ m_raw m = f_name f /\ m_type m = FFunction /\ m_mut m = f_mut f /\ m_const m = f_const f /\
    m_payable m = f_payable f /\ m_in m = f_in f /\ m_out m = f_out f /\
    is_signature (f_name f) (items (f_in f)) (m_sig m) /\ m_id m = take 4 (H (m_sig m)).
  Definition event_of (n : list N) (f : field) (e : event) : Prop :=
    ev_name e = n /\ ev_raw e = f_name f /\ ev_anon e = f_anon f /\ same_arguments (f_in f) (ev_in e) /\
    is_signature (f_name f) (items (f_in f)) (ev_sig e) /\ ev_id e = H (ev_sig e).
  Definition error_of (f : field) (e : cerror) : Prop :=
    er_name e = f_name f /\ same_arguments (f_in f) (er_in e) /\
    is_signature (f_name f) (items (f_in f)) (er_sig e) /\ er_id e = H (er_sig e).
  (** Constructor, fallback and receive: nothing to call by name. *)
  Definition special_of (ty : ftype) (ins : arguments) (f : field) (m : method) : Prop :=
    m_type m = ty /\ m_in m = ins /\ m_out m = None /\ m_mut m = f_mut f /\ m_const m = f_const f /\
    m_payable m = f_payable f /\ m_id m = [].

End spec.
