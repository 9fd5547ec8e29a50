(** Model of abi/type.go NewType (the parser of type strings), abi/argument.go ToCamelCase
    and the signatures of abi/method.go, event.go and error.go. Strings are byte lists. *)
From Coq Require Import NArith ZArith Lia Zify.
From stdpp Require Import list.
From Verif Require Import Base AbiModel AbiSelModel.
Global Open Scope N_scope.

(* abi/type.go:33-47; HashTy and FixedPointTy are never made *)
Inductive tkind := IntTy | UintTy | BoolTy | StringTy | SliceTy | ArrayTy | TupleTy | AddressTy | FixedBytesTy | BytesTy | FunctionTy.
Global Instance tkind_eq_dec : EqDecision tkind. Proof. solve_decision. Defined.
(* abi/type.go:50-62; TupleType, a reflect.Type, is the list of the field names of the struct;
   the types of its fields are those of TupleElems *)
Inductive typ := Typ {
  T : tkind; Size : N; stringKind : list N; Elem : option typ;
  TupleRawName : list N; TupleElems : list typ; TupleRawNames : list (list N); TupleFields : list (list N) }.
(* abi/argument.go:38-44 without Indexed, which NewType does not see *)
Inductive amarsh := AM (name type internal : list N) (components : list amarsh).

(** The type of AbiModel.v this Type stands for. *)
Fixpoint erase (t : typ) : option aty :=
  match T t with
  | IntTy => Some (TInt (Size t))
  | UintTy => Some (TUint (Size t))
  | BoolTy => Some TBool
  | StringTy => Some TString
  | BytesTy => Some TBytes
  | AddressTy => Some TAddress
  | FunctionTy => Some TFunction
  | FixedBytesTy => Some (TFixedBytes (N.to_nat (Size t)))
  | SliceTy => match Elem t with Some e => option_map TSlice (erase e) | None => None end
  | ArrayTy => match Elem t with Some e => option_map (fun a => TArray a (N.to_nat (Size t))) (erase e) | None => None end
  | TupleTy => option_map TTuple ((fix go (l : list typ) : option (list aty) :=
      match l with
      | [] => Some []
      | x :: r => match erase x, go r with Some a, Some b => Some (a :: b) | _, _ => None end
      end) (TupleElems t))
  end.

(** strings.Count and strings.LastIndex of one byte *)
Definition count (c : N) (s : list N) : nat := length (List.filter (N.eqb c) s).
Fixpoint last_index (c : N) (s : list N) : option nat :=
  match s with
  | [] => None
  | x :: r => match last_index c r with Some i => Some (S i) | None => if x =? c then Some O else None end
  end.
(** the longest prefix of bytes that satisfy p, and the rest *)
Fixpoint span (p : N -> bool) (s : list N) : list N * list N :=
  match s with
  | [] => ([], [])
  | c :: r => if p c then let '(a, b) := span p r in (c :: a, b) else ([], s)
  end.
(** regexp "[0-9]+", FindAllString: the runs of digits. Fuel: the length of the string. *)
Fixpoint digit_runs (fuel : nat) (s : list N) : list (list N) :=
  match fuel with
  | O => []
  | S f =>
      match s with
      | [] => []
      | c :: r => if isDigit c then let '(a, b) := span isDigit s in a :: digit_runs f b else digit_runs f r
      end
  end.
(** strconv.Atoi of a string of digits, possibly followed by others: None is the error *)
Fixpoint dec_value (acc : N) (s : list N) : N :=
  match s with [] => acc | c :: r => dec_value (10 * acc + (c - 48)) r end.
Definition Atoi (s : list N) : option N :=
  if forallb isDigit s && negb (bool_decide (s = [])) then
    let n := dec_value 0 s in if n <? 2 ^ 63 then Some n else None
  else None.
(** The first match of typeRegex (type.go:66): the groups 0, 1, 2 and 3. *)
Definition type_match (s : list N) : option (list N * list N * list N * list N) :=
  let '(_, s) := span (fun c => negb (isAlpha c)) s in
  match span isAlpha s with
  | ([], _) => None
  | (g1, s1) =>
      let '(g3, s2) := span isDigit s1 in
      match g3 with
      | [] => Some (g1, g1, [], [])
      | _ =>
          let g2 := match s2 with
                    | 120 :: s3 => match span isDigit s3 with ([], _) => g3 | (g5, _) => g3 ++ [120] ++ g5 end
                    | _ => g3
                    end in
          Some (g1 ++ g2, g1, g2, g3)
      end
  end.

(** strings.ToUpper of one byte: a byte that is not ASCII is not valid UTF-8 by itself and
    becomes the replacement character *)
Definition upper1 (c : N) : list N :=
  if (97 <=? c) && (c <=? 122) then [c - 32] else if c <? 128 then [c] else [239; 191; 189].
(* abi/argument.go:276-284: the parts between underscores, each with its first byte in upper
   case, without the underscores; [first] says that a part begins *)
Fixpoint camel (first : bool) (s : list N) : list N :=
  match s with
  | [] => []
  | c :: r => if c =? 95 then camel true r else (if first then upper1 c else [c]) ++ camel false r
  end.
Definition ToCamelCase (s : list N) : list N := camel true s.

(** strings.Join(l, ",") *)
Fixpoint join_comma (l : list (list N)) : list N :=
  match l with [] => [] | [s] => s | s :: r => s ++ [44] ++ join_comma r end.

Definition s_uint : list N := [117; 105; 110; 116].
Definition s_int : list N := [105; 110; 116].
Definition s_bool : list N := [98; 111; 111; 108].
Definition s_address : list N := [97; 100; 100; 114; 101; 115; 115].
Definition s_string : list N := [115; 116; 114; 105; 110; 103].
Definition s_bytes : list N := [98; 121; 116; 101; 115].
Definition s_tuple : list N := [116; 117; 112; 108; 101].
Definition s_function : list N := [102; 117; 110; 99; 116; 105; 111; 110].
Definition s_struct : list N := [115; 116; 114; 117; 99; 116; 32].

Section parse.
  (** isValidFieldName on names with bytes that are not ASCII (unicode tables) *)
  Context (uvalid : list N -> bool).
  (** GetType returns: reflect.ArrayOf and StructOf panic on types larger than the address
      space; this depends on the types only *)
  Context (reflectable : aty -> bool).

  (* abi/type.go:400-423 *)
  Definition isValidFieldName (s : list N) : bool :=
    if forallb (fun c => c <? 128) s then
      match s with
      | [] => false
      | c :: _ => (isAlpha c || (c =? 95)) && forallb (fun c => isAlpha c || (c =? 95) || isDigit c) s
      end
    else uvalid s.

  (** the cases of type.go:136-160 and 211-214 that only fix a kind and a size *)
  Definition scalar (t : list N) (k : tkind) (size : N) : typ := Typ k size t None [] [] [] [].

  Section tuple.
    Context (rec : amarsh -> res typ).
    (* abi/type.go:170-199: the types, the raw names and the field names of the components *)
    Fixpoint tuple_loop (used : list (list N)) (comps : list amarsh) : res (list typ * list (list N) * list (list N)) :=
      match comps with
      | [] => Ok ([], [], [])
      | c :: r =>
          let 'AM cname _ _ _ := c in
          rbind (rec c) (fun cType =>
            let name := ToCamelCase cname in
            if bool_decide (name = []) then Err
            else
              match ResolveNameConflict (length used) name (fun s => bool_decide (s ∈ used)) with
              | None => Panic
              | Some fieldName =>
                  if negb (isValidFieldName fieldName) then Err
                  else
                    match erase cType with
                    | None => Panic
                    | Some a =>
                        if negb (reflectable a) then Panic
                        else rbind (tuple_loop (fieldName :: used) r) (fun '(ts, ns, fs) =>
                          Ok (cType :: ts, cname :: ns, fieldName :: fs))
                    end
              end)
      end.
  End tuple.

  (* abi/type.go:70-223; fuel bounds the depth of the recursion *)
  Fixpoint new_type (fuel : nat) (t internal : list N) (comps : list amarsh) : res typ :=
    match fuel with
    | O => Panic
    | S f =>
        if negb (count 91 t =? count 93 t)%nat then Err
        else if negb (count 91 t =? 0)%nat then
          let subInternal := match last_index 91 internal with Some i => take i internal | None => internal end in
          match last_index 91 t with
          | None => Panic
          | Some i =>
              rbind (new_type f (take i t) subInternal comps) (fun emb =>
                let sliced := drop i t in
                match digit_runs (length sliced) sliced with
                | [] => Ok (Typ SliceTy 0 (stringKind emb ++ sliced) (Some emb) [] [] [] [])
                | [d] =>
                    match Atoi d with
                    | Some n => Ok (Typ ArrayTy n (stringKind emb ++ sliced) (Some emb) [] [] [] [])
                    | None => Err
                    end
                | _ => Err
                end)
          end
        else
          match type_match t with
          | None => Err
          | Some (g0, g1, g2, g3) =>
              rbind (match g3 with
                     | [] => if bool_decide (g0 = s_uint) || bool_decide (g0 = s_int) then Err else Ok 0
                     | _ => match Atoi g2 with Some n => Ok n | None => Err end
                     end) (fun varSize =>
                if bool_decide (g1 = s_int) then Ok (scalar t IntTy varSize)
                else if bool_decide (g1 = s_uint) then Ok (scalar t UintTy varSize)
                else if bool_decide (g1 = s_bool) then Ok (scalar t BoolTy 0)
                else if bool_decide (g1 = s_address) then Ok (scalar t AddressTy 20)
                else if bool_decide (g1 = s_string) then Ok (scalar t StringTy 0)
                else if bool_decide (g1 = s_bytes) then
                  Ok (if varSize =? 0 then scalar t BytesTy 0 else scalar t FixedBytesTy varSize)
                else if bool_decide (g1 = s_tuple) then
                  rbind (tuple_loop (fun '(AM _ ct ci cc) => new_type f ct ci cc) [] comps) (fun '(ts, ns, fs) =>
                    Ok (Typ TupleTy 0 ([40] ++ join_comma (map stringKind ts) ++ [41]) None
                          (if bool_decide (take 7 internal = s_struct)
                           then List.filter (fun c => negb (c =? 46)) (drop 7 internal) else [])
                          ts ns fs))
                else if bool_decide (g1 = s_function) then Ok (scalar t FunctionTy 24)
                else Err)
          end
    end.
End parse.

(** Enough fuel: one for every byte of a type string and for every component. *)
Fixpoint am_weight (c : amarsh) : nat :=
  let 'AM _ t _ cs := c in S (length t + list_sum (map am_weight cs)).
Definition NewType (uvalid : list N -> bool) (reflectable : aty -> bool) (t internal : list N) (comps : list amarsh) : res typ :=
  new_type uvalid reflectable (S (length t + list_sum (map am_weight comps))) t internal comps.

(* abi/argument.go:47-62, the arguments of one method: names and types *)
Fixpoint NewArguments (uvalid : list N -> bool) (reflectable : aty -> bool) (l : list amarsh) : res (list (list N * typ)) :=
  match l with
  | [] => Ok []
  | AM n t i cs :: r =>
      rbind (NewType uvalid reflectable t i cs) (fun ty =>
        rbind (NewArguments uvalid reflectable r) (fun rest => Ok ((n, ty) :: rest)))
  end.
(** fmt.Sprintf("%v(%v)", rawName, strings.Join(types, ",")): abi/method.go:116, event.go:81, error.go:66 *)
Definition signature (rawName : list N) (args : list (list N * typ)) : list N :=
  rawName ++ [40] ++ join_comma (map (fun a => stringKind a.2) args) ++ [41].

(** The ArgumentMarshaling of a parsed selector (selector_parser.go:122-145): the internal
    type is the type *)
Fixpoint to_marsh (a : arg) : amarsh :=
  let 'Arg n t cs := a in AM n t t (map to_marsh cs).
