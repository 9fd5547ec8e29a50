(** Model of the typed half of package rlp: the writers and decoders that
    encode.go makeWriter and decode.go makeDecoder build for a Go type.

    A Go type is an [rty], a Go value an [rval]. What is simplified:
    - a value whose shape does not fit the type cannot occur in Go; here writing it
      is an error;
    - types with their own EncodeRLP/DecodeRLP methods and rlp.RawValue are left out
      (Raw is modelled in RlpModel.v);
    - a recursive Go type is the infinite unfolding of a finite description; here it
      is any finite unfolding, which is enough for any given value or input;
    - struct fields are in order, unexported and ignored ("-") fields are left out;
    - decoding starts from a zero value: reuse of memory that the destination already
      points to is not modelled;
    - error texts and contexts are left out: decodeError values without a fixed
      error are [EWrongSize]. wrapStreamError (decode.go:122-141) never turns an
      error into EOL or EOL into another error, so only the identity of EOL matters;
    - the type cache is left out. *)
From Verif Require Export RlpModel.

(** internal/rlpstruct/rlpstruct.go:56-62. *)
Inductive nilkind := NKString | NKList.

(** Tags of a struct field: none, "optional", "tail" (rlpstruct.go:64-83). *)
Inductive ftag := FPlain | FOpt | FTail.

(** Types, one constructor per case of decode.go:156-187 and encode.go:139-174.
    [RNilPtr] is a pointer field with one of the tags nil, nilString, nilList;
    [RPtr] a pointer without. A field tagged tail is given with the type of the
    elements of its slice. *)
Inductive rty :=
| RUint (bits : N) | RBool | RBig | RBigPtr | RU256 | RU256Ptr
| RString | RBytes | RByteArr (n : nat)
| RSlice (t : rty) | RArr (n : nat) (t : rty)
| RStruct (fs : rfields)
| RPtr (t : rty) | RNilPtr (k : nilkind) (t : rty)
| RIface
with rfields := FNil | FCons (g : ftag) (t : rty) (fs : rfields).

(** Values. [VNil] is a nil pointer, slice or interface; [VList] the elements of a
    slice or array and the fields of a struct; [VItem] an interface{} that holds a
    []byte or a []interface{} of such. *)
Inductive rval :=
| VNil | VBool (b : bool) | VNum (z : Z) | VStr (bs : list N) | VList (vs : list rval)
| VPtr (v : rval) | VItem (x : item).

(** reflect.Value.IsZero, for the types of struct fields. A big.Int that was
    computed to be 0 may differ from the zero value; big.Int by value in optional
    fields is left out by [wf_ty]. *)
Fixpoint is_zero (t : rty) (v : rval) {struct t} : bool :=
  match t, v with
  | (RUint _ | RBig | RU256), VNum z => (z =? 0)%Z
  | RBool, VBool b => negb b
  | RString, VStr bs => match bs with [] => true | _ => false end
  | RByteArr _, VStr bs => forallb (fun b => b =? 0) bs
  | RArr _ t, VList vs => forallb (is_zero t) vs
  | RStruct fs, VList vs => are_zero fs vs
  | (RBigPtr | RU256Ptr | RBytes | RSlice _ | RPtr _ | RNilPtr _ _ | RIface), VNil => true
  | _, _ => false
  end
with are_zero (fs : rfields) (vs : list rval) {struct fs} : bool :=
  match fs, vs with
  | FCons FTail _ fs, v :: vs => match v with VNil => true | _ => false end && are_zero fs vs
  | FCons _ t fs, v :: vs => is_zero t v && are_zero fs vs
  | _, _ => true
  end.

(** reflect.Zero. *)
Fixpoint zero_ty (t : rty) : rval :=
  match t with
  | RUint _ | RBig | RU256 => VNum 0
  | RBool => VBool false
  | RString => VStr []
  | RByteArr n => VStr (replicate n 0)
  | RArr n t => VList (replicate n (zero_ty t))
  | RStruct fs => VList (zero_fields fs)
  | RBigPtr | RU256Ptr | RBytes | RSlice _ | RPtr _ | RNilPtr _ _ | RIface => VNil
  end
with zero_fields (fs : rfields) : list rval :=
  match fs with
  | FNil => []
  | FCons FTail _ fs => VNil :: zero_fields fs
  | FCons _ t fs => zero_ty t :: zero_fields fs
  end.

(** rlpstruct.go:48-54 DefaultNilValue. *)
Definition default_nil (t : rty) : nilkind :=
  match t with
  | RUint _ | RString | RBool | RBytes | RByteArr _ => NKString
  | _ => NKList
  end.

(* ------------------------------------------------------------------ *)
(** ** encode.go: writers *)

(** encbuffer.go:176-192 writeUint256. *)
Definition writeUint256 (b : encbuf) (z : N) : encbuf :=
  let bitlen := N.size z in
  if bitlen <=? 64 then writeUint64 b z
  else
    let nBytes := byte_of ((bitlen + 7) / 8) in
    let buf := 0 :: be_fixed 32 z in
    let at_ := (32 - N.to_nat nBytes)%nat in
    eb_append b (drop at_ (<[at_ := byte_of (0x80 + nBytes)]> buf)).

(** encode.go:276-286 writeString. *)
Definition writeString (b : encbuf) (s : list N) : encbuf :=
  match s with
  | [x] => if x <=? 0x7F then eb_append b [x] else eb_append (encodeStringHeader b 1) s
  | _ => eb_append (encodeStringHeader b (lenN s)) s
  end.

(** encode.go:235-274 makeByteArrayWriter. *)
Definition writeByteArray (b : encbuf) (n : nat) (s : list N) : encbuf :=
  match n with
  | O => eb_append b [0x80]
  | S O => match s with
           | x :: _ => if x <=? 0x7F then eb_append b [x] else eb_append b [0x81; x]
           | [] => b
           end
  | _ => eb_append (encodeStringHeader b (lenN s)) s
  end.

(** encode.go:404 and 206, 221: the encoding of nil. *)
Definition nil_code (k : nilkind) : N := match k with NKString => 0x80 | NKList => 0xC0 end.

(** The loop over the elements, encode.go:318-323 and 337-341. *)
Fixpoint w_elems (w : rval -> encbuf -> option encbuf) (vs : list rval) (b : encbuf) : option encbuf :=
  match vs with
  | [] => Some b
  | v :: vs => match w v b with Some b' => w_elems w vs b' | None => None end
  end.

(** encode.go:330-345, slices and arrays. *)
Definition w_list (w : rval -> encbuf -> option encbuf) (vs : list rval) (b : encbuf) : option encbuf :=
  match vs with
  | [] => Some (eb_append b [0xC0])
  | _ => let '(b1, off) := eb_list b in
         match w_elems w vs b1 with Some b2 => Some (eb_listEnd b2 off) | None => None end
  end.

(** typecache.go:153-161 firstOptionalField. *)
Fixpoint first_opt (fs : rfields) : nat :=
  match fs with
  | FNil => 0
  | FCons FOpt _ _ => 0
  | FCons _ _ fs => S (first_opt fs)
  end.
Fixpoint num_fields (fs : rfields) : nat :=
  match fs with FNil => 0 | FCons _ _ fs => S (num_fields fs) end.

(** IsZero of every field. *)
Fixpoint zero_flags (fs : rfields) (vs : list rval) : list bool :=
  match fs, vs with
  | FCons FTail _ fs, v :: vs => (match v with VNil => true | _ => false end) :: zero_flags fs vs
  | FCons _ t fs, v :: vs => is_zero t v :: zero_flags fs vs
  | _, _ => []
  end.
(** encode.go:376-381; [k] is lastField + 1. *)
Fixpoint last_loop (first k : nat) (zs : list bool) : nat :=
  match k with
  | O => O
  | S k' => if (first <=? k')%nat && default false (zs !! k') then last_loop first k' zs else k
  end.

(** encode.go:139-174 makeWriter: the writer of a type; [None] is an error.
    [w_fields] writes the first [n] fields (encode.go:363-368, 383-387). *)
Fixpoint w_ty (t : rty) (v : rval) (b : encbuf) {struct t} : option encbuf :=
  match t, v with
  | RUint bits, VNum z => if ((0 <=? z) && (z <? 2 ^ Z.of_N bits))%Z then Some (writeUint64 b (Z.to_N z)) else None
  | RBool, VBool x => Some (writeBool b x)
  | RBig, VNum z => if (z <? 0)%Z then None else Some (writeBigInt b (Z.to_N z))
  | RBigPtr, VNil => Some (eb_append b [0x80])
  | RBigPtr, VPtr (VNum z) => if (z <? 0)%Z then None else Some (writeBigInt b (Z.to_N z))
  | RU256, VNum z => if ((0 <=? z) && (z <? 2 ^ 256))%Z then Some (writeUint256 b (Z.to_N z)) else None
  | RU256Ptr, VNil => Some (eb_append b [0x80])
  | RU256Ptr, VPtr (VNum z) => if ((0 <=? z) && (z <? 2 ^ 256))%Z then Some (writeUint256 b (Z.to_N z)) else None
  | RString, VStr s => Some (writeString b s)
  | RBytes, VNil => Some (writeBytes b [])
  | RBytes, VStr s => Some (writeBytes b s)
  | RByteArr n, VStr s => if (length s =? n)%nat then Some (writeByteArray b n s) else None
  | RSlice _, VNil => Some (eb_append b [0xC0])
  | RSlice t, VList vs => w_list (w_ty t) vs b
  | RArr n t, VList vs => if (length vs =? n)%nat then w_list (w_ty t) vs b else None
  | RStruct fs, VList vs =>
      if (length vs =? num_fields fs)%nat then
        let n := if (first_opt fs =? num_fields fs)%nat then num_fields fs
                 else last_loop (first_opt fs) (num_fields fs) (zero_flags fs vs) in
        let '(b1, lh) := eb_list b in
        match w_fields fs n vs b1 with Some b2 => Some (eb_listEnd b2 lh) | None => None end
      else None
  | RPtr t, VNil => Some (eb_append b [nil_code (default_nil t)])
  | RNilPtr k _, VNil => Some (eb_append b [nil_code k])
  | (RPtr t | RNilPtr _ t), VPtr v => w_ty t v b
  | RIface, VNil => Some (eb_append b [0xC0])
  | RIface, VItem x => Some (write_item x b)
  | _, _ => None
  end
with w_fields (fs : rfields) (n : nat) (vs : list rval) (b : encbuf) {struct fs} : option encbuf :=
  match n, fs, vs with
  | O, _, _ => Some b
  | S n, FCons FTail t fs, v :: vs =>
      match match v with VNil => Some b | VList ws => w_elems (w_ty t) ws b | _ => None end with
      | Some b' => w_fields fs n vs b'
      | None => None
      end
  | S n, FCons _ t fs, v :: vs =>
      match w_ty t v b with Some b' => w_fields fs n vs b' | None => None end
  | _, _, _ => Some b
  end.

(** encode.go:77-85 EncodeToBytes. *)
Definition EncodeToBytes (t : rty) (v : rval) : option (list N) :=
  option_map makeBytes (w_ty t v eb_empty).

(* ------------------------------------------------------------------ *)
(** ** decode.go: decoders *)

(** decode.go:341-368 decodeSliceElems. [fuel] bounds the number of rounds; every
    element takes at least one byte, so the length of the input is enough. *)
Fixpoint d_elems (d : stream -> (rerr + rval) * stream) (fuel : nat) (s : stream) : (rerr + list rval) * stream :=
  match fuel with
  | O => (inl EOutOfFuel, s)
  | S f =>
      match d s with
      | (inl EEOL, s') => (inr [], s')
      | (inl e, s') => (inl e, s')
      | (inr v, s') =>
          match d_elems d f s' with
          | (inl e, s'') => (inl e, s'')
          | (inr vs, s'') => (inr (v :: vs), s'')
          end
      end
  end.

(** ListEnd with a result. *)
Definition d_end (vs : list rval) (s : stream) : (rerr + rval) * stream :=
  match st_ListEnd s with (Some e, s') => (inl e, s') | (None, s') => (inr (VList vs), s') end.

(** decode.go:326-339 decodeListSlice. *)
Definition d_slice (fuel : nat) (d : stream -> (rerr + rval) * stream) (s : stream) : (rerr + rval) * stream :=
  match st_List s with
  | (inl e, s1) => (inl e, s1)
  | (inr size, s1) =>
      if size =? 0 then d_end [] s1
      else match d_elems d fuel s1 with
           | (inl e, s2) => (inl e, s2)
           | (inr vs, s2) => d_end vs s2
           end
  end.

(** decode.go:374-387, the loop of decodeListArray. *)
Fixpoint d_array (d : stream -> (rerr + rval) * stream) (n : nat) (s : stream) : (rerr + list rval) * stream :=
  match n with
  | O => (inr [], s)
  | S n =>
      match d s with
      | (inl EEOL, s') => (inl EWrongSize, s')
      | (inl e, s') => (inl e, s')
      | (inr v, s') =>
          match d_array d n s' with
          | (inl e, s'') => (inl e, s'')
          | (inr vs, s'') => (inr (v :: vs), s'')
          end
      end
  end.

(** decode.go:400-433 decodeByteArray. *)
Definition d_bytearray (n : nat) (s : stream) : (rerr + rval) * stream :=
  match Kind s with
  | (inl e, s') => (inl e, s')
  | (inr (KByte, _), s') =>
      if (n =? 0)%nat then (inl EWrongSize, s')
      else if (1 <? n)%nat then (inl EWrongSize, s')
      else (inr (VStr [st_byteval s']), set_kind s' None)
  | (inr (KString, size), s') =>
      if N.of_nat n <? size then (inl EWrongSize, s')
      else if size <? N.of_nat n then (inl EWrongSize, s')
      else match readFull s' (N.of_nat n) with
           | (inl e, s'') => (inl e, s'')
           | (inr b, s'') =>
               if (size =? 1) && match b with x :: _ => x <? 128 | [] => false end
               then (inl ECanonSize, s'') else (inr (VStr b), s'')
           end
  | (inr (KList, _), s') => (inl EExpectedString, s')
  end.

Definition d_map {A B} (f : A -> B) (r : (rerr + A) * stream) : (rerr + B) * stream :=
  match r with (inl e, s) => (inl e, s) | (inr v, s) => (inr (f v), s) end.

(** decode.go:156-187 makeDecoder: the decoder of a type. Structs: 435-469; pointers:
    480-501; pointers with a nil tag: 508-545. [fuel] bounds the loops over list
    elements and the recursion of interface values. *)
Fixpoint d_ty (fuel : nat) (t : rty) (s : stream) {struct t} : (rerr + rval) * stream :=
  match t with
  | RUint bits => d_map (fun n => VNum (Z.of_N n)) (st_uint s bits)
  | RBool => d_map VBool (st_Bool s)
  | RBig => d_map (fun n => VNum (Z.of_N n)) (st_BigInt s)
  | RBigPtr => d_map (fun n => VPtr (VNum (Z.of_N n))) (st_BigInt s)
  | RU256 => d_map (fun n => VNum (Z.of_N n)) (st_Uint256 s)
  | RU256Ptr => d_map (fun n => VPtr (VNum (Z.of_N n))) (st_Uint256 s)
  | RString | RBytes => d_map VStr (st_Bytes s)
  | RByteArr n => d_bytearray n s
  | RSlice t => d_slice fuel (d_ty fuel t) s
  | RArr n t =>
      match st_List s with
      | (inl e, s1) => (inl e, s1)
      | (inr _, s1) =>
          match d_array (d_ty fuel t) n s1 with
          | (inl e, s2) => (inl e, s2)
          | (inr vs, s2) => d_end vs s2
          end
      end
  | RStruct fs =>
      match st_List s with
      | (inl e, s1) => (inl e, s1)
      | (inr _, s1) =>
          match d_fields fuel fs s1 with
          | (inl e, s2) => (inl e, s2)
          | (inr vs, s2) => d_end vs s2
          end
      end
  | RPtr t => d_map VPtr (d_ty fuel t s)
  | RNilPtr nk t =>
      match Kind s with
      | (inl e, s1) => (inl e, s1)
      | (inr (KString, 0), s1) =>
          match nk with NKString => (inr VNil, set_kind s1 None) | NKList => (inl EWrongSize, s1) end
      | (inr (KList, 0), s1) =>
          match nk with NKList => (inr VNil, set_kind s1 None) | NKString => (inl EWrongSize, s1) end
      | (inr _, s1) => d_map VPtr (d_ty fuel t s1)
      end
  | RIface => d_map VItem (dec_iface fuel s)
  end
with d_fields (fuel : nat) (fs : rfields) (s : stream) {struct fs} : (rerr + list rval) * stream :=
  match fs with
  | FNil => (inr [], s)
  | FCons FTail t fs' =>
      match d_elems (d_ty fuel t) fuel s with
      | (inl e, s1) => (inl e, s1)
      | (inr vs, s1) => d_map (cons (VList vs)) (d_fields fuel fs' s1)
      end
  | FCons g t fs' =>
      match d_ty fuel t s with
      | (inl EEOL, s1) =>
          match g with FOpt => (inr (zero_fields fs), s1) | _ => (inl EWrongSize, s1) end
      | (inl e, s1) => (inl e, s1)
      | (inr v, s1) => d_map (cons v) (d_fields fuel fs' s1)
      end
  end.

(** decode.go:94-107 DecodeBytes. *)
Definition DecodeBytes (t : rty) (b : list N) : rerr + rval := 
  decode_bytes_with (d_ty (2 * length b + 2) t) b.

(** rlpstruct.go:125-144: the order of tags that ProcessFields accepts. *)
Fixpoint tags_ok (any_optional : bool) (fs : rfields) : bool :=
  match fs with
  | FNil => true
  | FCons FPlain _ fs => negb any_optional && tags_ok any_optional fs
  | FCons FOpt _ fs => tags_ok true fs
  | FCons FTail _ FNil => true
  | FCons FTail _ _ => false (* rlpstruct.go:177: tail must be on the last field *)
  end.
