(** What typed RLP means, without buffers and streams: which RLP item a Go value
    stands for, and which Go value a decoder of a given type must read from an item. *)
From Verif Require Import RlpTypeModel.

(** The number written as a byte string: minimal big-endian bytes. *)
Definition num_item (z : Z) : item := Str (be_bytes (Z.to_N z)).
Definition nil_item (k : nilkind) : item := match k with NKString => Str [] | NKList => Lst [] end.

Definition below (bits : N) (z : Z) : bool := ((0 <=? z) && (z <? 2 ^ Z.of_N bits))%Z.

(** The item of a value. [None]: the value does not have the type, or it holds a
    negative number. Optional fields at the end are dropped when they and everything
    after them are zero. The elements of a tail field are elements of the struct's list. *)
Fixpoint to_item (t : rty) (v : rval) {struct t} : option item :=
  match t, v with
  | RUint bits, VNum z => if below bits z then Some (num_item z) else None
  | RBool, VBool x => Some (Str (if x then [1] else []))
  | RBig, VNum z | RBigPtr, VPtr (VNum z) => if (z <? 0)%Z then None else Some (num_item z)
  | RU256, VNum z | RU256Ptr, VPtr (VNum z) => if below 256 z then Some (num_item z) else None
  | (RBigPtr | RU256Ptr), VNil => Some (Str [])
  | (RString | RBytes), VStr s => Some (Str s)
  | RBytes, VNil => Some (Str [])
  | RByteArr n, VStr s => if (length s =? n)%nat then Some (Str s) else None
  | RSlice _, VNil => Some (Lst [])
  | RSlice t, VList vs => Lst <$> mapM (to_item t) vs
  | RArr n t, VList vs => if (length vs =? n)%nat then Lst <$> mapM (to_item t) vs else None
  | RStruct fs, VList vs => if (length vs =? num_fields fs)%nat then Lst <$> to_items fs vs else None
  | RPtr t, VNil => Some (nil_item (default_nil t))
  | RNilPtr k _, VNil => Some (nil_item k)
  | (RPtr t | RNilPtr _ t), VPtr v => to_item t v
  | RIface, VNil => Some (Lst [])
  | RIface, VItem x => Some x
  | _, _ => None
  end
with to_items (fs : rfields) (vs : list rval) {struct fs} : option (list item) :=
  match fs, vs with
  | FCons FPlain t fs', v :: vs' =>
      match to_item t v, to_items fs' vs' with Some x, Some xs => Some (x :: xs) | _, _ => None end
  | FCons FOpt t fs', v :: vs' =>
      if are_zero fs vs then Some []
      else match to_item t v, to_items fs' vs' with Some x, Some xs => Some (x :: xs) | _, _ => None end
  | FCons FTail t fs', v :: vs' =>
      match match v with VNil => Some [] | VList ws => mapM (to_item t) ws | _ => None end, to_items fs' vs' with
      | Some xs, Some ys => Some (xs ++ ys)
      | _, _ => None
      end
  | _, _ => Some []
  end.

(** The number a byte string stands for: no leading zero. *)
Definition num_of (s : list N) : option N := match s with 0 :: _ => None | _ => Some (be_num s) end.

(** What a decoder of type [t] reads from an item: the item must have exactly the
    shape of the type; missing optional fields are zero; an empty string or list is
    nil for a pointer with a nil tag of that kind, and an error for the other kind. *)
Fixpoint of_item (t : rty) (x : item) {struct t} : option rval :=
  match t, x with
  | RUint bits, Str s =>
      match num_of s with Some n => if n <? 2 ^ bits then Some (VNum (Z.of_N n)) else None | None => None end
  | RBool, Str [] => Some (VBool false)
  | RBool, Str [1] => Some (VBool true)
  | RBig, Str s => (fun n => VNum (Z.of_N n)) <$> num_of s
  | RBigPtr, Str s => (fun n => VPtr (VNum (Z.of_N n))) <$> num_of s
  | RU256, Str s =>
      match num_of s with Some n => if n <? 2 ^ 256 then Some (VNum (Z.of_N n)) else None | None => None end
  | RU256Ptr, Str s =>
      match num_of s with Some n => if n <? 2 ^ 256 then Some (VPtr (VNum (Z.of_N n))) else None | None => None end
  | (RString | RBytes), Str s => Some (VStr s)
  | RByteArr n, Str s => if (length s =? n)%nat then Some (VStr s) else None
  | RSlice t, Lst xs => VList <$> mapM (of_item t) xs
  | RArr n t, Lst xs => if (length xs =? n)%nat then VList <$> mapM (of_item t) xs else None
  | RStruct fs, Lst xs => VList <$> of_items fs xs
  | RPtr t, x => VPtr <$> of_item t x
  | RNilPtr NKString _, Str [] => Some VNil
  | RNilPtr NKList _, Str [] => None
  | RNilPtr NKList _, Lst [] => Some VNil
  | RNilPtr NKString _, Lst [] => None
  | RNilPtr _ t, x => VPtr <$> of_item t x
  | RIface, x => Some (VItem x)
  | _, _ => None
  end
with of_items (fs : rfields) (xs : list item) {struct fs} : option (list rval) :=
  match fs, xs with
  | FNil, [] => Some []
  | FNil, _ :: _ => None
  | FCons FTail t fs', xs =>
      match mapM (of_item t) xs, of_items fs' [] with Some vs, Some ws => Some (VList vs :: ws) | _, _ => None end
  | FCons FOpt t fs', [] => Some (zero_fields fs)
  | FCons FPlain t fs', [] => None
  | FCons _ t fs', x :: xs' =>
      match of_item t x, of_items fs' xs' with Some v, Some vs => Some (v :: vs) | _, _ => None end
  end.

(** Types that Go can have and that rlp accepts. []uint8 is [RBytes], not a slice of
    [RUint 8]; big.Int by value is left out of optional fields (see [is_zero]). *)
Definition is_uint8 (t : rty) : bool := match t with RUint 8 => true | _ => false end.
Fixpoint no_big (t : rty) : bool :=
  match t with
  | RBig => false
  | RArr _ t => no_big t
  | RStruct fs => no_bigs fs
  | _ => true
  end
with no_bigs (fs : rfields) : bool :=
  match fs with FNil => true | FCons FTail _ fs => no_bigs fs | FCons _ t fs => no_big t && no_bigs fs end.
Fixpoint wf_ty (t : rty) : bool :=
  match t with
  | RUint bits => (bits =? 8) || (bits =? 16) || (bits =? 32) || (bits =? 64)
  | RSlice t | RArr _ t => negb (is_uint8 t) && wf_ty t
  | RPtr t | RNilPtr _ t => wf_ty t
  | RStruct fs => tags_ok false fs && wf_fields fs
  | _ => true
  end
with wf_fields (fs : rfields) : bool :=
  match fs with
  | FNil => true
  | FCons FPlain t fs => wf_ty t && wf_fields fs
  | FCons FOpt t fs => no_big t && wf_ty t && wf_fields fs
  | FCons FTail t fs => negb (is_uint8 t) && wf_ty t && wf_fields fs
  end.

(** No optional fields anywhere. *)
Fixpoint no_optional (t : rty) : bool :=
  match t with
  | RSlice t | RArr _ t | RPtr t | RNilPtr _ t => no_optional t
  | RStruct fs => no_optionals fs
  | _ => true
  end
with no_optionals (fs : rfields) : bool :=
  match fs with FNil => true | FCons FOpt _ _ => false | FCons _ t fs => no_optional t && no_optionals fs end.

(** No optional fields below a pointer with a nil tag. *)
Fixpoint nil_exact (t : rty) : bool :=
  match t with
  | RSlice t | RArr _ t | RPtr t => nil_exact t
  | RNilPtr _ t => no_optional t
  | RStruct fs => nil_exacts fs
  | _ => true
  end
with nil_exacts (fs : rfields) : bool :=
  match fs with FNil => true | FCons _ t fs => nil_exact t && nil_exacts fs end.

(** Values that come back: of the type, without nil pointers and interfaces (except
    below a nil tag, or in optional fields that are not written), and without
    pointers below a nil tag to values written as an empty string or list. *)
Fixpoint clean (t : rty) (v : rval) {struct t} : Prop :=
  match t, v with
  | RUint bits, VNum z => below bits z = true
  | RBool, VBool _ => True
  | RBig, VNum z | RBigPtr, VPtr (VNum z) => (0 <= z)%Z
  | RU256, VNum z | RU256Ptr, VPtr (VNum z) => below 256 z = true
  | (RString | RBytes), VStr s => is_bytes s
  | RBytes, VNil => True
  | RByteArr n, VStr s => length s = n /\ is_bytes s
  | RSlice _, VNil => True
  | RSlice t, VList vs => Forall (clean t) vs
  | RArr n t, VList vs => length vs = n /\ Forall (clean t) vs
  | RStruct fs, VList vs => length vs = num_fields fs /\ clean_fields fs vs
  | RPtr t, VPtr v => clean t v
  | RNilPtr _ _, VNil => True
  | RNilPtr _ t, VPtr v => clean t v /\ to_item t v <> Some (Str []) /\ to_item t v <> Some (Lst [])
  | RIface, VItem x => item_ok x
  | _, _ => False
  end
with clean_fields (fs : rfields) (vs : list rval) {struct fs} : Prop :=
  match fs, vs with
  | FCons FPlain t fs', v :: vs' => clean t v /\ clean_fields fs' vs'
  | FCons FOpt t fs', v :: vs' => vs = zero_fields fs \/ (clean t v /\ clean_fields fs' vs')
  | FCons FTail t fs', v :: vs' => (v = VNil \/ exists ws, v = VList ws /\ Forall (clean t) ws) /\ clean_fields fs' vs'
  | _, _ => True
  end.

(** Nil slices replaced by empty ones. *)
Fixpoint fill (t : rty) (v : rval) {struct t} : rval :=
  match t, v with
  | RBytes, VNil => VStr []
  | RSlice _, VNil => VList []
  | (RSlice t | RArr _ t), VList vs => VList (map (fill t) vs)
  | RStruct fs, VList vs => VList (fills fs vs)
  | (RPtr t | RNilPtr _ t), VPtr v => VPtr (fill t v)
  | _, _ => v
  end
with fills (fs : rfields) (vs : list rval) {struct fs} : list rval :=
  match fs, vs with
  | FCons FTail t fs, v :: vs =>
      match v with VNil => VList [] | VList ws => VList (map (fill t) ws) | _ => v end :: fills fs vs
  | FCons _ t fs, v :: vs => fill t v :: fills fs vs
  | _, _ => vs
  end.
