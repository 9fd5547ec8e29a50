(** Model of abi/reflect.go mapArgNamesToStructFields and of its uses: copying values into a
    struct (abi/argument.go copyTuple, abi/thinkium.go copyTupleEvent) and taking the values
    of a tuple out of one (abi/type.go pack). Names and tags are byte lists. *)
From Coq Require Import NArith ZArith Lia Zify.
From stdpp Require Import list gmap.
From Verif Require Import Base AbiModel AbiTypeModel.
Global Open Scope N_scope.

(** A field of a struct type: its name and its tag `abi:"..."`. Fields of embedded structs,
    which FieldByName also finds, are left out. *)
Record sfield := SField { sf_name : list N; sf_tag : option (list N) }.
(** reflect.Value.FieldByName(name).IsValid() *)
Definition has_field (st : list sfield) (name : list N) : bool := existsb (fun f => bool_decide (sf_name f = name)) st.
(** structFieldName[:1] != strings.ToUpper(structFieldName[:1]), reflect.go:190 *)
Definition is_private (name : list N) : bool :=
  match name with [] => true | c :: _ => negb (bool_decide ([c] = upper1 c)) end.

(** abi2struct and struct2abi; a missing key reads as the empty string *)
Notation names := (gmap (list N) (list N)).
Definition get (m : names) (k : list N) : list N := default [] (m !! k).

(* abi/reflect.go:203-215: the arguments equal to the tag *)
Fixpoint tag_loop (tag fname : list N) (args : list (list N)) (a2s s2a : names) (found : bool) : option (names * names * bool) :=
  match args with
  | [] => Some (a2s, s2a, found)
  | arg :: r =>
      if bool_decide (arg = tag) then
        if negb (bool_decide (get a2s arg = [])) then None
        else tag_loop tag fname r (<[arg := fname]> a2s) (<[fname := arg]> s2a) true
      else tag_loop tag fname r a2s s2a found
  end.
(* abi/reflect.go:186-220 *)
Fixpoint first_round (args : list (list N)) (st : list sfield) (a2s s2a : names) : option (names * names) :=
  match st with
  | [] => Some (a2s, s2a)
  | f :: r =>
      if is_private (sf_name f) then first_round args r a2s s2a
      else match sf_tag f with
           | None => first_round args r a2s s2a
           | Some [] => None
           | Some tag =>
               match tag_loop tag (sf_name f) args a2s s2a false with
               | Some (a2s', s2a', true) => first_round args r a2s' s2a'
               | _ => None
               end
           end
  end.
(* abi/reflect.go:223-258 *)
Fixpoint second_round (st : list sfield) (args : list (list N)) (a2s s2a : names) : option names :=
  match args with
  | [] => Some a2s
  | arg :: r =>
      let fname := ToCamelCase arg in
      if bool_decide (fname = []) then None
      else if negb (bool_decide (get a2s arg = [])) then
        if negb (bool_decide (get a2s arg = fname)) && bool_decide (get s2a fname = []) && has_field st fname then None
        else second_round st r a2s s2a
      else if negb (bool_decide (get s2a fname = [])) then None
      else if has_field st fname then second_round st r (<[arg := fname]> a2s) (<[fname := arg]> s2a)
      else second_round st r a2s (<[fname := arg]> s2a)
  end.
(* abi/reflect.go:179-259 *)
Definition mapArgNamesToStructFields (args : list (list N)) (st : list sfield) : option names :=
  match first_round args st ∅ ∅ with
  | Some (a2s, s2a) => second_round st args a2s s2a
  | None => None
  end.

(** A struct value: the value of every field. *)
Notation svalue := (list N -> val).
Definition put (sv : svalue) (f : list N) (v : val) : svalue := fun g => if bool_decide (g = f) then v else sv g.

Section copy.
  (** set(field, value) stores the value when its type is assignable to that of the field.
      Its conversions of slices, arrays and structs, and what is in the struct after an
      error, are left out. *)
  Context (assignable : list N -> val -> bool).
  (* abi/argument.go:168-176, abi/thinkium.go:51-59; reading past the values panics *)
  Fixpoint copy_loop (st : list sfield) (m : names) (args : list (list N)) (vs : list val) (sv : svalue) : res svalue :=
    match args with
    | [] => Ok sv
    | arg :: r =>
        let f := get m arg in
        if negb (has_field st f) then Err
        else match vs with
             | [] => Panic
             | v :: vs' => if assignable f v then copy_loop st m r vs' (put sv f v) else Err
             end
    end.
  (* abi/argument.go:154-177 with the non-indexed arguments, abi/thinkium.go:38-60 with all *)
  Definition copyTuple (st : list sfield) (args : list (list N)) (vs : list val) (sv : svalue) : res svalue :=
    match mapArgNamesToStructFields args st with
    | None => Err
    | Some m => copy_loop st m args vs sv
    end.
End copy.

(* abi/type.go:314-327: the field values a tuple with these component names is packed from *)
Fixpoint field_values (st : list sfield) (m : names) (raws : list (list N)) (sv : svalue) : res (list val) :=
  match raws with
  | [] => Ok []
  | raw :: r =>
      if negb (has_field st (get m raw)) then Err
      else rbind (field_values st m r sv) (fun vs => Ok (sv (get m raw) :: vs))
  end.
Definition tuple_values (st : list sfield) (raws : list (list N)) (sv : svalue) : res (list val) :=
  match mapArgNamesToStructFields raws st with
  | None => Err
  | Some m => field_values st m raws sv
  end.
(** The struct NewType makes for a tuple, type.go:185-190: fields with a json tag only. *)
Definition tuple_struct (ty : typ) : list sfield := map (fun f => SField f None) (TupleFields ty).
