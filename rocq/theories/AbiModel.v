(** Model of the contract ABI codec: abi/type.go, abi/pack.go, abi/unpack.go and
    the packing half of abi/argument.go.

    What is simplified:
    - Go's [int] is [Z]: overflow of sizes (a type declared with more than 2^57
      elements) is not modelled. Array sizes are not negative, as abi/type.go:86
      only reads digits.
    - A Go value is a [val]; the reflection kind of a number is part of it. Nil
      pointers, and pointers to values other than big.Int, are left out.
    - A struct is the list of its fields in the order of the tuple's components:
      the pairing by name of abi/reflect.go:179-259 is in AbiFieldModel.v, where
      C79_generated shows that it is by position when camel case names differ.
    - The kinds HashTy and FixedPointTy are left out: abi/type.go NewType never
      produces them.
    - [wb] is the number of bytes of a machine word, used by the big integer
      padding helpers. *)
From Verif Require Export BytesModel.
Global Open Scope N_scope.

(** Outcome of a call: a value, an error, or a run-time panic (here only slice
    bounds out of range). *)
Inductive res (A : Type) := Ok (a : A) | Err | Panic.
Arguments Ok {A} a. Arguments Err {A}. Arguments Panic {A}.
Definition rbind {A B} (x : res A) (f : A -> res B) : res B :=
  match x with Ok a => f a | Err => Err | Panic => Panic end.

(* abi/type.go:32-62: Type; a type is its T, Elem, Size and TupleElems *)
Inductive aty :=
| TInt (size : N) | TUint (size : N) | TBool | TString | TBytes
| TAddress | TFixedBytes (size : nat) | TFunction
| TSlice (e : aty) | TArray (e : aty) (size : nat) | TTuple (ts : list aty).

(** Reflection kinds of numbers: uint8..uint64, int8..int64, *big.Int. *)
Inductive nkind := KU8 | KU16 | KU32 | KU64 | KI8 | KI16 | KI32 | KI64 | KBig.
Global Instance nkind_eq_dec : EqDecision nkind.
Proof. solve_decision. Defined.

(** Go values: a number of some kind, a bool, a string, a []byte, a [n]byte, a
    slice or array of values, a struct. *)
Inductive val :=
| VNum (k : nkind) (z : Z) | VBool (b : bool) | VString (s : list N) | VBytes (s : list N)
| VArr (s : list N) | VList (l : list val) | VTuple (l : list val).

(* abi/reflect.go:61-85 *)
Definition reflectIntType (unsigned : bool) (size : N) : nkind :=
  if unsigned && (size =? 8) then KU8
  else if unsigned && (size =? 16) then KU16
  else if unsigned && (size =? 32) then KU32
  else if unsigned && (size =? 64) then KU64
  else if size =? 8 then KI8
  else if size =? 16 then KI16
  else if size =? 32 then KI32
  else if size =? 64 then KI64
  else KBig.

(* abi/type.go:350-352 *)
Definition requiresLengthPrefix (t : aty) : bool :=
  match t with TString | TBytes | TSlice _ => true | _ => false end.

(* abi/type.go:361-371 *)
Fixpoint isDynamicType (t : aty) : bool :=
  match t with
  | TTuple ts => existsb isDynamicType ts
  | TString | TBytes | TSlice _ => true
  | TArray e _ => isDynamicType e
  | _ => false
  end.

Definition is_array (t : aty) : bool := match t with TArray _ _ => true | _ => false end.
Definition is_tuple (t : aty) : bool := match t with TTuple _ => true | _ => false end.

(* abi/type.go:381-396 *)
Fixpoint getTypeSize (t : aty) : Z :=
  match t with
  | TArray e size =>
      if isDynamicType e then 32%Z
      else if is_array e || is_tuple e then (Z.of_nat size * getTypeSize e)%Z
      else (Z.of_nat size * 32)%Z
  | TTuple ts =>
      if existsb isDynamicType ts then 32%Z
      else fold_right (fun e total => (getTypeSize e + total)%Z) 0%Z ts
  | _ => 32%Z
  end.

(* abi/pack.go:74-85; every kind goes through U256Bytes *)
Definition packNum (wb : nat) (z : Z) : list N := U256Bytes wb z.

(* abi/pack.go:31-34; / on int truncates, the length is not negative *)
Definition packBytesSlice (wb : nat) (bytes : list N) (l : Z) : list N :=
  packNum wb l ++ RightPadBytes bytes ((l + 31) / 32 * 32)%Z.

(* abi/error_handling.go:63-76 typeCheck and abi/pack.go:38-71 packElement, for
   the types that are neither slice, array nor tuple. typeCheck compares the
   reflection kinds, and the length only for fixed bytes: an address or function
   value may be a byte array of any length. *)
Definition packElement (wb : nat) (t : aty) (v : val) : res (list N) :=
  match t, v with
  | TInt size, VNum k z =>
      if decide (k = reflectIntType false size) then Ok (packNum wb z) else Err
  | TUint size, VNum k z =>
      if decide (k = reflectIntType true size) then Ok (packNum wb z) else Err
  | TString, VString s => Ok (packBytesSlice wb s (Z.of_nat (length s)))
  | TAddress, VArr s => Ok (LeftPadBytes s 32)
  | TBool, VBool b => Ok (if b then PaddedBigBytes wb 1 32 else PaddedBigBytes wb 0 32)
  | TBytes, VBytes s => Ok (packBytesSlice wb s (Z.of_nat (length s)))
  | TFixedBytes size, VArr s =>
      if (length s =? size)%nat then Ok (RightPadBytes s 32) else Err
  | TFunction, VArr s => Ok (RightPadBytes s 32)
  | _, _ => Err
  end.

(** The loops of abi/type.go pack; [f] packs an element. They return what is
    appended to ret and to tail. *)
Section PackLoops.
  Context (wb : nat).
  (* abi/type.go:290-302: [f] = t.Elem.pack, [offsetReq] = the element is dynamic *)
  Section Elems.
    Context (f : val -> res (list N)) (offsetReq : bool).
    Fixpoint pack_elems (vs : list val) (offset : Z) : res (list N * list N) :=
      match vs with
      | [] => Ok ([], [])
      | v :: vs' =>
          rbind (f v) (fun x =>
            if offsetReq then
              rbind (pack_elems vs' (offset + Z.of_nat (length x))%Z) (fun '(ret, tail) =>
                Ok (packNum wb offset ++ ret, x ++ tail))
            else rbind (pack_elems vs' offset) (fun '(ret, tail) => Ok (x ++ ret, tail)))
      end.
  End Elems.
  (* abi/type.go:324-340 and abi/argument.go:249-268; a missing field is the error
     of line 327, a wrong number of arguments that of argument.go:236 *)
  Section Fields.
    Context (f : aty -> val -> res (list N)).
    Fixpoint pack_fields (ts : list aty) (vs : list val) (offset : Z) : res (list N * list N) :=
      match ts, vs with
      | [], [] => Ok ([], [])
      | t :: ts', v :: vs' =>
          rbind (f t v) (fun x =>
            if isDynamicType t then
              rbind (pack_fields ts' vs' (offset + Z.of_nat (length x))%Z) (fun '(ret, tail) =>
                Ok (packNum wb offset ++ ret, x ++ tail))
            else rbind (pack_fields ts' vs' offset) (fun '(ret, tail) => Ok (x ++ ret, tail)))
      | _, _ => Err
      end.
  End Fields.
End PackLoops.

(** abi/type.go:319-322 and abi/argument.go:244-247: size of the head. *)
Definition head_size (ts : list aty) : Z :=
  fold_right (fun e total => (getTypeSize e + total)%Z) 0%Z ts.

(* abi/type.go:267-346 *)
Fixpoint pack (wb : nat) (t : aty) (v : val) {struct t} : res (list N) :=
  match t with
  | TSlice e =>
      match v with
      | VList vs =>
          let offset := if isDynamicType e then (getTypeSize e * Z.of_nat (length vs))%Z else 0%Z in
          rbind (pack_elems wb (pack wb e) (isDynamicType e) vs offset) (fun '(ret, tail) =>
            Ok (packNum wb (Z.of_nat (length vs)) ++ ret ++ tail))
      | _ => Err
      end
  | TArray e size =>
      match v with
      | VList vs =>
          if (length vs =? size)%nat then
            let offset := if isDynamicType e then (getTypeSize e * Z.of_nat (length vs))%Z else 0%Z in
            rbind (pack_elems wb (pack wb e) (isDynamicType e) vs offset) (fun '(ret, tail) =>
              Ok (ret ++ tail))
          else Err
      | _ => Err
      end
  | TTuple ts =>
      match v with
      | VTuple vs =>
          rbind (pack_fields wb (pack wb) ts vs (head_size ts)) (fun '(ret, tail) => Ok (ret ++ tail))
      | _ => Err
      end
  | _ => packElement wb t v
  end.

(* abi/argument.go:233-273; the arguments' types *)
Definition Pack (wb : nat) (ts : list aty) (args : list val) : res (list N) :=
  if (length args =? length ts)%nat then
    rbind (pack_fields wb (pack wb) ts args (head_size ts)) (fun '(ret, tail) => Ok (ret ++ tail))
  else Err.

(* ------------------------------------------------------------ unpacking *)

Definition zlen {A} (l : list A) : Z := Z.of_nat (length l).
(** b[lo:hi] and b[lo:]; panics when the bounds are out of range. *)
Definition sl (b : list N) (lo hi : Z) : res (list N) :=
  if ((0 <=? lo) && (lo <=? hi) && (hi <=? zlen b))%Z
  then Ok (take (Z.to_nat (hi - lo)) (drop (Z.to_nat lo) b)) else Panic.
Definition sl_from (b : list N) (lo : Z) : res (list N) := sl b lo (zlen b).

Notation num_of b := (Z.of_N (be_num b)).
(** Conversion of an unsigned [w]-bit number to the signed type of that width. *)
Definition to_signed (w : N) (z : Z) : Z :=
  if (z <? 2 ^ (Z.of_N w - 1))%Z then z else (z - 2 ^ Z.of_N w)%Z.

(* abi/unpack.go:37-75 *)
Definition ReadInteger (unsigned : bool) (size : N) (b : list N) : res val :=
  let last k := sl b (zlen b - k)%Z (zlen b) in
  if unsigned then
    if size =? 8 then rbind (last 1%Z) (fun w => Ok (VNum KU8 (num_of w)))
    else if size =? 16 then rbind (last 2%Z) (fun w => Ok (VNum KU16 (num_of w)))
    else if size =? 32 then rbind (last 4%Z) (fun w => Ok (VNum KU32 (num_of w)))
    else if size =? 64 then rbind (last 8%Z) (fun w => Ok (VNum KU64 (num_of w)))
    else Ok (VNum KBig (num_of b))
  else
    if size =? 8 then rbind (last 1%Z) (fun w => Ok (VNum KI8 (to_signed 8 (num_of w))))
    else if size =? 16 then rbind (last 2%Z) (fun w => Ok (VNum KI16 (to_signed 16 (num_of w))))
    else if size =? 32 then rbind (last 4%Z) (fun w => Ok (VNum KI32 (to_signed 32 (num_of w))))
    else if size =? 64 then rbind (last 8%Z) (fun w => Ok (VNum KI64 (to_signed 64 (num_of w))))
    else
      let ret := num_of b in
      if Z.testbit ret 255 then Ok (VNum KBig (- ((tt256m1 + - ret) + 1))%Z)
      else Ok (VNum KBig ret).

(* abi/unpack.go:78-92 *)
Definition readBool (word : list N) : res val :=
  rbind (sl word 0 31) (fun hi =>
    if existsb (fun b => negb (b =? 0)) hi then Err
    else match word !! 31%nat with
         | None => Panic
         | Some b => if b =? 0 then Ok (VBool false) else if b =? 1 then Ok (VBool true) else Err
         end).

(* abi/unpack.go:97-107 *)
Definition readFunctionType (word : list N) : res val :=
  rbind (sl word 24 32) (fun garbage =>
    if be_num garbage =? 0 then rbind (sl word 0 24) (fun x => Ok (VArr x)) else Err).

(* abi/unpack.go:110-119 *)
Definition ReadFixedBytes (size : nat) (word : list N) : res val :=
  rbind (sl word 0 (Z.of_nat size)) (fun x => Ok (VArr x)).

(* basic.go BytesToAddress / Address.SetBytes *)
Definition BytesToAddress (b : list N) : list N :=
  let b := if (20 <? length b)%nat then drop (length b - 20) b else b in
  buf_put (20 - length b) b (replicate 20 0).

(* abi/unpack.go:257-284 *)
Definition lengthPrefixPointsTo (index : Z) (output : list N) : res (Z * Z) :=
  rbind (sl output index (index + 32)%Z) (fun w =>
    let bigOffsetEnd := (num_of w + 32)%Z in
    let outputLength := zlen output in
    if (outputLength <? bigOffsetEnd)%Z then Err
    else if (2 ^ 63 <=? bigOffsetEnd)%Z then Err
    else
      let offsetEnd := bigOffsetEnd in
      rbind (sl output (offsetEnd - 32)%Z offsetEnd) (fun lw =>
        let lengthBig := num_of lw in
        let totalSize := (bigOffsetEnd + lengthBig)%Z in
        if (2 ^ 63 <=? totalSize)%Z then Err
        else if (outputLength <? totalSize)%Z then Err
        else Ok (bigOffsetEnd, lengthBig))).

(* abi/unpack.go:287-298 *)
Definition tuplePointsTo (index : Z) (output : list N) : res Z :=
  rbind (sl output index (index + 32)%Z) (fun w =>
    let offset := num_of w in
    if (zlen output <? offset)%Z then Err
    else if (2 ^ 63 <=? offset)%Z then Err
    else Ok offset).

(** The loops of abi/unpack.go; [f] decodes an element (toGoType). *)
Section UnpackLoops.
  (* abi/unpack.go:147-155: [n] elements left, the next one at [i] *)
  Section ForEach.
    Context (f : Z -> list N -> res val) (elemSize : Z) (output : list N).
    Fixpoint each_loop (n : nat) (i : Z) : res (list val) :=
      match n with
      | O => Ok []
      | S n' =>
          rbind (f i output) (fun v =>
            rbind (each_loop n' (i + elemSize)%Z) (fun vs => Ok (v :: vs)))
      end.
  End ForEach.
  (* abi/unpack.go:122-159; the type is a slice or array with elements of size
     [elemSize] decoded by [f] *)
  Definition forEachUnpack (f : Z -> list N -> res val) (elemSize : Z) (output : list N)
      (start size : Z) : res val :=
    if (size <? 0)%Z then Err
    else if (zlen output <? start + 32 * size)%Z then Err
    else rbind (each_loop f elemSize output (Z.to_nat size) start) (fun vs => Ok (VList vs)).
  (* abi/unpack.go:164-187 and abi/argument.go:199-222 *)
  Section Fields.
    Context (f : aty -> Z -> list N -> res val) (output : list N).
    Fixpoint fields_loop (ts : list aty) (index virtualArgs : Z) : res (list val) :=
      match ts with
      | [] => Ok []
      | t :: ts' =>
          let virtualArgs' :=
            if is_array t && negb (isDynamicType t) then (virtualArgs + (getTypeSize t / 32 - 1))%Z
            else if is_tuple t && negb (isDynamicType t) then (virtualArgs + (getTypeSize t / 32 - 1))%Z
            else virtualArgs in
          rbind (f t ((index + virtualArgs) * 32)%Z output) (fun v =>
            rbind (fields_loop ts' (index + 1)%Z virtualArgs') (fun vs => Ok (v :: vs)))
      end.
  End Fields.
End UnpackLoops.

(* abi/unpack.go:193-254, with forTupleUnpack (161-189) as the tuple case *)
Fixpoint toGoType (t : aty) (index : Z) (output : list N) {struct t} : res val :=
  if (zlen output <? index + 32)%Z then Err
  else
    let word := sl output index (index + 32)%Z in
    match t with
    | TTuple ts =>
        rbind word (fun _ =>
          if existsb isDynamicType ts then
            rbind (tuplePointsTo index output) (fun begin =>
              rbind (sl_from output begin) (fun out =>
                rbind (fields_loop toGoType out ts 0 0) (fun vs => Ok (VTuple vs))))
          else
            rbind (sl_from output index) (fun out =>
              rbind (fields_loop toGoType out ts 0 0) (fun vs => Ok (VTuple vs))))
    | TSlice e =>
        rbind (lengthPrefixPointsTo index output) (fun '(begin, len) =>
          rbind (sl_from output begin) (fun out =>
            forEachUnpack (toGoType e) (getTypeSize e) out 0 len))
    | TArray e size =>
        rbind word (fun w =>
          if isDynamicType e then
            rbind (sl w (zlen w - 8)%Z (zlen w)) (fun o =>
              let offset := num_of o in
              if (zlen output <? offset)%Z then Err
              else rbind (sl_from output offset) (fun out =>
                     forEachUnpack (toGoType e) (getTypeSize e) out 0 (Z.of_nat size)))
          else
            rbind (sl_from output index) (fun out =>
              forEachUnpack (toGoType e) (getTypeSize e) out 0 (Z.of_nat size)))
    | TString =>
        rbind (lengthPrefixPointsTo index output) (fun '(begin, len) =>
          rbind (sl output begin (begin + len)%Z) (fun s => Ok (VString s)))
    | TBytes =>
        rbind (lengthPrefixPointsTo index output) (fun '(begin, len) =>
          rbind (sl output begin (begin + len)%Z) (fun s => Ok (VBytes s)))
    | TInt size => rbind word (ReadInteger false size)
    | TUint size => rbind word (ReadInteger true size)
    | TBool => rbind word readBool
    | TAddress => rbind word (fun w => Ok (VArr (BytesToAddress w)))
    | TFixedBytes size => rbind word (ReadFixedBytes size)
    | TFunction => rbind word readFunctionType
    end.

(* abi/argument.go:195-224; the types of the non-indexed arguments *)
Definition UnpackValues (ts : list aty) (data : list N) : res (list val) :=
  fields_loop toGoType data ts 0 0.

(* abi/argument.go:80-88 *)
Definition Unpack (ts : list aty) (data : list N) : res (list val) :=
  match data with
  | [] => match ts with [] => Ok [] | _ => Err end
  | _ => UnpackValues ts data
  end.
