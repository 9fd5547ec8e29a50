(** Model of abi/selector_parser.go (the parser of textual method selectors) and of
    abi/utils.go ResolveNameConflict. Strings are byte lists. *)
From Coq Require Import NArith ZArith Lia Zify Decimal.
From stdpp Require Import list.
From Verif Require Import Base AbiModel.
Global Open Scope N_scope.

(* abi/selector_parser.go:29-39 *)
Definition isDigit (c : N) : bool := (48 <=? c) && (c <=? 57).
Definition isAlpha (c : N) : bool := ((97 <=? c) && (c <=? 122)) || ((65 <=? c) && (c <=? 90)).
Definition isIdentifierSymbol (c : N) : bool := (c =? 36) || (c =? 95).

(* the scanning loop of abi/selector_parser.go:50-56 *)
Fixpoint token_rest (isIdent : bool) (s : list N) : list N * list N :=
  match s with
  | [] => ([], [])
  | c :: s' =>
      if isAlpha c || isDigit c || (isIdent && isIdentifierSymbol c)
      then let '(a, b) := token_rest isIdent s' in (c :: a, b)
      else ([], s)
  end.
(* abi/selector_parser.go:41-58 *)
Definition parseToken (s : list N) (isIdent : bool) : res (list N * list N) :=
  match s with
  | [] => Err
  | c :: s' =>
      if isAlpha c || (isIdent && isIdentifierSymbol c)
      then let '(a, b) := token_rest isIdent s' in Ok (c :: a, b)
      else Err
  end.

(* abi/selector_parser.go:70-82: the two nested loops as one scan; [inside] says that a
   '[' is open *)
Fixpoint arrays (inside : bool) (parsedType rest : list N) : res (list N * list N) :=
  if inside then
    match rest with
    | [] => Err
    | c :: rest' =>
        if isDigit c then arrays true (parsedType ++ [c]) rest'
        else if c =? 93 then arrays false (parsedType ++ [c]) rest'
        else Err
    end
  else
    match rest with
    | [] => Ok (parsedType, [])
    | c :: rest' => if c =? 91 then arrays true (parsedType ++ [c]) rest' else Ok (parsedType, rest)
    end.
(* abi/selector_parser.go:64-84 *)
Definition parseElementaryType (s : list N) : res (list N * list N) :=
  rbind (parseToken s false) (fun '(parsedType, rest) => arrays false parsedType rest).

(* the interface{} values of the parser: a string or a []interface{} *)
Inductive parsed := PStr (s : list N) | PList (l : list parsed).

(* abi/selector_parser.go:111-120 parseType and 90-108 of parseCompositeType: [parseArgs] is
   the part after the opening parenthesis (and after each separator), the loop written as
   recursion. The fuel bounds the nesting; running out is Panic, which C44_total excludes. *)
Fixpoint parseType (fuel : nat) (s : list N) : res (parsed * list N) :=
  match fuel with
  | O => Panic
  | S f =>
      match s with
      | [] => Err
      | c :: s' =>
          if c =? 40 then rbind (parseArgs f s') (fun '(l, r) => Ok (PList l, r))
          else rbind (parseElementaryType s) (fun '(t, r) => Ok (PStr t, r))
      end
  end
with parseArgs (fuel : nat) (s : list N) : res (list parsed * list N) :=
  match fuel with
  | O => Panic
  | S f =>
      rbind (parseType f s) (fun '(p, rest) =>
        match rest with
        | [] => Err
        | c :: rest' =>
            if c =? 41 then
              match rest' with
              | c1 :: c2 :: r => if (c1 =? 91) && (c2 =? 93) then Ok ([p; PStr [91; 93]], r) else Ok ([p], rest')
              | _ => Ok ([p], rest')
              end
            else rbind (parseArgs f rest') (fun '(l, r) => Ok (p :: l, r))
        end)
  end.

(* abi/selector_parser.go:86-89: on the empty string the error message itself indexes
   unescapedSelector[0] and panics *)
Definition parseCompositeType (s : list N) : res (list parsed * list N) :=
  match s with
  | [] => Panic
  | c :: s' => if c =? 40 then parseArgs (2 * length s + 2) s' else Err
  end.

(* the %d verb of fmt.Sprintf on a non-negative number *)
Fixpoint digits_of (d : Decimal.uint) : list N :=
  match d with
  | Nil => [] | D0 d => 48 :: digits_of d | D1 d => 49 :: digits_of d | D2 d => 50 :: digits_of d
  | D3 d => 51 :: digits_of d | D4 d => 52 :: digits_of d | D5 d => 53 :: digits_of d
  | D6 d => 54 :: digits_of d | D7 d => 55 :: digits_of d | D8 d => 56 :: digits_of d
  | D9 d => 57 :: digits_of d
  end.
Definition decimal (n : nat) : list N := digits_of (Nat.to_uint n).

(* abi/argument.go ArgumentMarshaling: Name, Type and Components; InternalType is always the
   same string as Type and Indexed is false *)
Inductive arg := Arg (name type : list N) (components : list arg).
Definition arg_type (a : arg) : list N := let 'Arg _ t _ := a in t.

Definition str_name : list N := [110; 97; 109; 101].
Definition str_tuple : list N := [116; 117; 112; 108; 101].
Definition str_brackets : list N := [91; 93].

(* abi/selector_parser.go:122-145: assemble one argument and the loop over a list *)
Fixpoint assembleArg (i : nat) (p : parsed) {struct p} : arg :=
  let name := str_name ++ decimal i in
  match p with
  | PStr s => Arg name s []
  | PList components =>
      let subArgs := (fix go (i : nat) (l : list parsed) : list arg :=
        match l with [] => [] | p :: l' => assembleArg i p :: go (S i) l' end) 0%nat components in
      match last subArgs with
      | Some a => if decide (arg_type a = str_brackets)
                  then Arg name (str_tuple ++ str_brackets) (removelast subArgs)
                  else Arg name str_tuple subArgs
      | None => Arg name str_tuple subArgs
      end
  end.
Fixpoint assembleArgs (i : nat) (l : list parsed) : list arg :=
  match l with [] => [] | p :: l' => assembleArg i p :: assembleArgs (S i) l' end.

(* abi/selector_parser.go:151-176; the "function" Type field of the result is a constant *)
Definition ParseSelector (s : list N) : res (list N * list arg) :=
  rbind (parseToken s true) (fun '(name, rest) =>
    rbind (match rest with
           | c1 :: c2 :: rest' => if (c1 =? 40) && (c2 =? 41) then Ok ([], rest') else parseCompositeType rest
           | _ => parseCompositeType rest
           end) (fun '(args, rest') =>
      match rest' with
      | [] => Ok (name, assembleArgs 0 args)
      | _ => Err
      end)).

(* abi/utils.go:33-41: the loop, with the names in use as a predicate; fuel stands for the
   number of iterations, None for not having stopped yet *)
Fixpoint resolve_loop (fuel idx : nat) (rawName : list N) (used : list N -> bool) : option (list N) :=
  match fuel with
  | O => None
  | S f => let name := rawName ++ decimal idx in
           if used name then resolve_loop f (S idx) rawName used else Some name
  end.
Definition ResolveNameConflict (fuel : nat) (rawName : list N) (used : list N -> bool) : option (list N) :=
  if used rawName then resolve_loop fuel 0 rawName used else Some rawName.
