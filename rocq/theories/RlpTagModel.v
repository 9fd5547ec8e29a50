(** Model of rlp/internal/rlpstruct/rlpstruct.go: which fields of a struct are
    encoded, and with which tags.

    The value of the "rlp" key of a struct tag (reflect.StructTag.Get) is given as
    bytes. TrimSpace is modelled for ASCII white space; a tag with other Unicode
    white space is outside of the model. The text of errors is left out. *)
From Verif Require Import Base.

(** rlpstruct.go:39-45 Type: the kinds by their numbers in package reflect. Only the
    type of a field, its element and the element of that are looked at, so a finite
    unfolding stands for a recursive type. *)
Inductive typ :=
| TBasic (kind : N) (is_encoder : bool)
| TPtr (e : typ)
| TSlice (e : typ)
| TArray (e : typ).

(** rlpstruct.go:30-36 Field. *)
Record field := Field { f_name : list N; f_index : nat; f_exported : bool; f_type : typ; f_tag : list N }.
(** rlpstruct.go:66-82 Tags. *)
Record tags := Tags { t_nilkind : N; t_nilok : bool; t_optional : bool; t_tail : bool; t_ignored : bool }.
(** rlpstruct.go:85-100 TagError. *)
Inductive tagerr := NotPointer | AlsoTail | NotLast | AlsoOptional | NotSlice | Unknown | MustBeOptional.

(* rlpstruct.go:203-205 isUint: reflect.Uint = 7 to reflect.Uintptr = 12 *)
Definition isUint (k : N) : bool := (7 <=? k) && (k <=? 12).
(* rlpstruct.go:207-209 isByte: reflect.Uint8 = 8 *)
Definition isByte (t : typ) : bool := match t with TBasic 8 enc => negb enc | _ => false end.
(* rlpstruct.go:211-213 isByteArray *)
Definition isByteArray (t : typ) : bool := match t with TSlice e | TArray e => isByte e | _ => false end.
(* rlpstruct.go:49-63 DefaultNilValue: reflect.String = 24, reflect.Bool = 1;
   NilKindString = 0x80, NilKindList = 0xC0 *)
Definition DefaultNilValue (t : typ) : N :=
  if match t with TBasic k _ => isUint k || (k =? 24) || (k =? 1) | _ => false end || isByteArray t
  then 0x80 else 0xC0.

(* strings.Split(s, ",") *)
Fixpoint Split (s : list N) : list (list N) :=
  match s with
  | [] => [[]]
  | c :: s' => if c =? 44 then [] :: Split s'
               else match Split s' with w :: ws => (c :: w) :: ws | [] => [[c]] end
  end.
(* strings.TrimSpace *)
Definition isSpace (c : N) : bool := (c =? 32) || ((9 <=? c) && (c <=? 13)).
Fixpoint trimLeft (s : list N) : list N :=
  match s with c :: s' => if isSpace c then trimLeft s' else s | [] => [] end.
Definition TrimSpace (s : list N) : list N := rev (trimLeft (rev (trimLeft s))).

Definition s_ignore : list N := [45]. (* - *)
Definition s_nil : list N := [110; 105; 108].
Definition s_nilString : list N := [110; 105; 108; 83; 116; 114; 105; 110; 103].
Definition s_nilList : list N := [110; 105; 108; 76; 105; 115; 116].
Definition s_optional : list N := [111; 112; 116; 105; 111; 110; 97; 108].
Definition s_tail : list N := [116; 97; 105; 108].

(* rlpstruct.go:151-189 the loop body of parseTag *)
Definition tag_word (f : field) (lastPublic : nat) (ts : tags) (w : list N) : tagerr + tags :=
  let '(Tags nk nilok opt tail ign) := ts in
  if bool_decide (w = []) then inr ts
  else if bool_decide (w = s_ignore) then inr (Tags nk nilok opt tail true)
  else if bool_decide (w = s_nil) || bool_decide (w = s_nilString) || bool_decide (w = s_nilList) then
    match f_type f with
    | TPtr e =>
        let nk := if bool_decide (w = s_nil) then DefaultNilValue e
                  else if bool_decide (w = s_nilString) then 0x80 else 0xC0 in
        inr (Tags nk true opt tail ign)
    | _ => inl NotPointer
    end
  else if bool_decide (w = s_optional) then
    if tail then inl AlsoTail else inr (Tags nk nilok true tail ign)
  else if bool_decide (w = s_tail) then
    if negb (f_index f =? lastPublic)%nat then inl NotLast
    else if opt then inl AlsoOptional
    else match f_type f with TSlice _ => inr (Tags nk nilok opt true ign) | _ => inl NotSlice end
  else inl Unknown.
Fixpoint tag_words (f : field) (lastPublic : nat) (ts : tags) (ws : list (list N)) : tagerr + tags :=
  match ws with
  | [] => inr ts
  | w :: ws => match tag_word f lastPublic ts (TrimSpace w) with
               | inl e => inl e
               | inr ts => tag_words f lastPublic ts ws
               end
  end.
(* rlpstruct.go:147-191 parseTag *)
Definition parseTag (f : field) (lastPublic : nat) : tagerr + tags :=
  tag_words f lastPublic (Tags 0 false false false false) (Split (f_tag f)).

(* rlpstruct.go:193-201 lastPublicField *)
Definition lastPublicField (fs : list field) : nat :=
  fold_left (fun last f => if f_exported f then f_index f else last) fs 0%nat.

(* rlpstruct.go:107-123 ProcessFields, the exported fields and their tags *)
Fixpoint gather (lastPublic : nat) (fs : list field) : tagerr + list (field * tags) :=
  match fs with
  | [] => inr []
  | f :: fs =>
      if negb (f_exported f) then gather lastPublic fs
      else match parseTag f lastPublic with
           | inl e => inl e
           | inr ts => match gather lastPublic fs with
                       | inl e => inl e
                       | inr r => inr (if t_ignored ts then r else (f, ts) :: r)
                       end
           end
  end.
(* rlpstruct.go:125-144 ProcessFields, optional field consistency *)
Fixpoint consistent (anyOptional : bool) (r : list (field * tags)) : bool :=
  match r with
  | [] => true
  | (_, ts) :: r => if t_optional ts || t_tail ts then consistent true r
                    else if anyOptional then false else consistent anyOptional r
  end.
(* rlpstruct.go:104-145 ProcessFields *)
Definition ProcessFields (fs : list field) : tagerr + list (field * tags) :=
  match gather (lastPublicField fs) fs with
  | inl e => inl e
  | inr r => if consistent false r then inr r else inl MustBeOptional
  end.
