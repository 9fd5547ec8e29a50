(** What a method selector is: an identifier and a list of argument types. *)
From Coq Require Import NArith ZArith Lia Zify.
From stdpp Require Import list.
From Verif Require Import Base AbiModel AbiSelModel.
Global Open Scope N_scope.

Definition letter (c : N) : Prop := 97 <= c <= 122 \/ 65 <= c <= 90.
Definition digit (c : N) : Prop := 48 <= c <= 57.
Definition mark (c : N) : Prop := c = 36 \/ c = 95.          (* $ and _ *)

Definition identifier (s : list N) : Prop :=
  exists c s', s = c :: s' /\ (letter c \/ mark c) /\ Forall (fun c => letter c \/ digit c \/ mark c) s'.
Definition type_word (s : list N) : Prop :=
  exists c s', s = c :: s' /\ letter c /\ Forall (fun c => letter c \/ digit c) s'.

(** A type: a word with array dimensions, or a tuple, possibly a list of tuples. *)
Inductive sty :=
| SElem (base : list N) (dims : list (list N))
| STup (fields : list sty) (many : bool).
Inductive well_formed : sty -> Prop :=
| wf_elem base dims : type_word base -> Forall (Forall digit) dims -> well_formed (SElem base dims)
| wf_tup fields many : fields <> [] -> Forall well_formed fields -> well_formed (STup fields many).

Definition brackets (dims : list (list N)) : list N := concat (map (fun d => [91] ++ d ++ [93]) dims).

(** The text of a type and of a signature, separated by commas. *)
Fixpoint join (l : list (list N)) : list N :=
  match l with [] => [] | [s] => s | s :: l' => s ++ [44] ++ join l' end.
Fixpoint show (t : sty) : list N :=
  match t with
  | SElem base dims => base ++ brackets dims
  | STup fields many => [40] ++ join (map show fields) ++ [41] ++ (if many then [91; 93] else [])
  end.
Definition show_selector (name : list N) (args : list sty) : list N :=
  name ++ [40] ++ join (map show args) ++ [41].

(** What ParseSelector reports for argument number i: its generated name, the type text
    ("tuple" or "tuple[]" for tuples) and, for tuples, the fields numbered from 0. *)
Fixpoint described (i : nat) (t : sty) : arg :=
  let name := str_name ++ decimal i in
  match t with
  | SElem base dims => Arg name (base ++ brackets dims) []
  | STup fields many =>
      Arg name (if many then str_tuple ++ str_brackets else str_tuple)
        ((fix go (i : nat) (l : list sty) := match l with [] => [] | t :: l' => described i t :: go (S i) l' end) 0%nat fields)
  end.
Fixpoint described_from (i : nat) (l : list sty) : list arg :=
  match l with [] => [] | t :: l' => described i t :: described_from (S i) l' end.

(** The texts the parser really accepts: like [show], but between two types any byte is a
    separator that is not ')' and cannot continue the type before it. *)
Definition separates (t : sty) (c : N) : Prop :=
  c <> 41 /\
  match t with
  | SElem base [] => ~ letter c /\ ~ digit c /\ c <> 91
  | SElem base _ => c <> 91
  | STup _ _ => True
  end.
Inductive written : sty -> list N -> Prop :=
| w_elem base dims : type_word base -> Forall (Forall digit) dims -> written (SElem base dims) (base ++ brackets dims)
| w_tup fields many s : written_list fields s ->
    written (STup fields many) ([40] ++ s ++ [41] ++ (if many then [91; 93] else []))
with written_list : list sty -> list N -> Prop :=
| w_one t s : written t s -> written_list [t] s
| w_cons t s c l s' : written t s -> separates t c -> written_list l s' -> written_list (t :: l) (s ++ c :: s').
Scheme written_mind := Minimality for written Sort Prop
  with written_list_mind := Minimality for written_list Sort Prop.
Combined Scheme written_ind2 from written_mind, written_list_mind.
