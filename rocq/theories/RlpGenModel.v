(** Model of the code that rlp/rlpgen writes: the EncodeRLP and DecodeRLP methods of
    a type, as the statements that genWrite and genDecode print do on an encoder
    buffer and on a stream (RlpModel.v).

    Go types and values are those of RlpTypeModel.v. What is simplified:
    - types with their own EncodeRLP and DecodeRLP methods and rlp.RawValue are left out;
    - makeStructOp keeps plain and optional fields in two lists; as ProcessFields lets
      no plain field come behind an optional one (C93), one pass in order does the same;
    - the text that is printed (names of variables, conversions, imports) and whether it
      compiles are left out, but see [gen_w] and [gen_d]. *)
From Verif Require Export RlpTypeModel.

(* ------------------------------------------------------------------ *)
(** ** Types for which code is generated *)

(** Struct and array types that Go can compare; the check of an optional field prints
    a comparison (types.go:84-85). *)
Fixpoint comparable (t : rty) : bool :=
  match t with
  | RBytes | RSlice _ | RBig => false
  | RArr _ t => comparable t
  | RStruct fs => comparables fs
  | _ => true
  end
with comparables (fs : rfields) : bool :=
  match fs with FNil => true | FCons FTail _ _ => false | FCons _ t fs => comparable t && comparables fs end.

(** gen.go:674-730 makeOp, 495-537 makeStructOp, 539-544 checkUnsupportedTags, 636-642 makeSliceOp: types
    for which a writer is generated that compiles. *)
Fixpoint gen_w (t : rty) : bool :=
  match t with
  | RArr _ _ | RIface => false
  | RSlice t | RPtr t | RNilPtr _ t => gen_w t
  | RStruct fs => gen_ws fs
  | _ => true
  end
with gen_ws (fs : rfields) : bool :=
  match fs with
  | FNil => true
  | FCons FPlain t fs => gen_w t && gen_ws fs
  | FCons FOpt t fs =>
      match t with RBytes | RSlice _ => true | _ => comparable t end && gen_w t && gen_ws fs
  | FCons FTail _ _ => false
  end.

(** Types for which the generated decoder compiles: for strings it calls dec.String
    (gen.go:234-258), which rlp.Stream does not have. *)
Fixpoint gen_d (t : rty) : bool :=
  match t with
  | RArr _ _ | RIface | RString => false
  | RSlice t | RPtr t | RNilPtr _ t => gen_d t
  | RStruct fs => gen_ds fs
  | _ => true
  end
with gen_ds (fs : rfields) : bool :=
  match fs with FNil => true | FCons FTail _ _ => false | FCons _ t fs => gen_d t && gen_ds fs end.

(* ------------------------------------------------------------------ *)
(** ** The generated writer *)

(** types.go:65-93 nonZeroCheck. *)
Definition nonZeroCheck (t : rty) (v : rval) : bool :=
  match t, v with
  | RBytes, (VNil | VStr []) => false
  | RSlice _, (VNil | VList []) => false
  | _, _ => negb (is_zero t v)
  end.

(** The condition gen.go:559-584 writeOptionalFields: this or a later optional field is not zero. *)
Fixpoint cond (fs : rfields) (vs : list rval) : bool :=
  match fs, vs with
  | FCons FOpt t fs, v :: vs => nonZeroCheck t v || cond fs vs
  | FCons _ _ fs, _ :: vs => cond fs vs
  | _, _ => false
  end.

(** genWrite: basicOp gen.go:227-232, byteArrayOp 273-275, bigIntOp 293-317, uint256Op
    338-359, ptrOp 425-448, structOp 546-584, sliceOp 644-658. [None]: the method
    returns an error. *)
Fixpoint g_w (t : rty) (v : rval) (b : encbuf) {struct t} : option encbuf :=
  match t, v with
  | RUint bits, VNum z => if ((0 <=? z) && (z <? 2 ^ Z.of_N bits))%Z then Some (writeUint64 b (Z.to_N z)) else None
  | RBool, VBool x => Some (writeBool b x)
  | RString, VStr s => Some (writeBytes b s)
  | RBytes, VNil => Some (writeBytes b [])
  | RBytes, VStr s => Some (writeBytes b s)
  | RByteArr n, VStr s => if (length s =? n)%nat then Some (writeBytes b s) else None
  | RBig, VNum z => if (z <? 0)%Z then None else Some (writeBigInt b (Z.to_N z))
  | RBigPtr, VNil => Some (eb_append b [0x80])
  | RBigPtr, VPtr (VNum z) => if (z <? 0)%Z then None else Some (writeBigInt b (Z.to_N z))
  | RU256, VNum z => if ((0 <=? z) && (z <? 2 ^ 256))%Z then Some (writeUint256 b (Z.to_N z)) else None
  | RU256Ptr, VNil => Some (eb_append b [0x80])
  | RU256Ptr, VPtr (VNum z) => if ((0 <=? z) && (z <? 2 ^ 256))%Z then Some (writeUint256 b (Z.to_N z)) else None
  | RPtr t, VNil => Some (eb_append b [nil_code (default_nil t)])
  | RNilPtr k _, VNil => Some (eb_append b [nil_code k])
  | (RPtr t | RNilPtr _ t), VPtr v => g_w t v b
  | RStruct fs, VList vs =>
      if (length vs =? num_fields fs)%nat then
        let '(b1, m) := eb_list b in
        match g_wfields fs vs b1 with Some b2 => Some (eb_listEnd b2 m) | None => None end
      else None
  | RSlice t, VNil => let '(b1, m) := eb_list b in Some (eb_listEnd b1 m)
  | RSlice t, VList vs =>
      let '(b1, m) := eb_list b in
      match w_elems (g_w t) vs b1 with Some b2 => Some (eb_listEnd b2 m) | None => None end
  | _, _ => None
  end
with g_wfields (fs : rfields) (vs : list rval) (b : encbuf) {struct fs} : option encbuf :=
  match fs, vs with
  | FCons FPlain t fs', v :: vs' =>
      match g_w t v b with Some b' => g_wfields fs' vs' b' | None => None end
  | FCons FOpt t fs', v :: vs' =>
      match (if cond fs vs then g_w t v b else Some b) with
      | Some b' => g_wfields fs' vs' b'
      | None => None
      end
  | _, _ => Some b
  end.

(** gen.go:748-760 generateEncoder, with an encoder buffer of its own. *)
Definition g_EncodeRLP (t : rty) (v : rval) : option (list N) := option_map makeBytes (g_w t v eb_empty).

(* ------------------------------------------------------------------ *)
(** ** The generated decoder *)

(** rlp/decode.go:660-687 ReadBytes of [n] bytes. *)
Definition st_ReadBytes (n : nat) (s : stream) : (rerr + list N) * stream :=
  match Kind s with
  | (inl e, s') => (inl e, s')
  | (inr (KByte, _), s') =>
      if negb (n =? 1)%nat then (inl EWrongSize, s') else (inr [st_byteval s'], set_kind s' None)
  | (inr (KString, size), s') =>
      if negb (N.of_nat n =? size) then (inl EWrongSize, s')
      else match readFull s' (N.of_nat n) with
           | (inl e, s'') => (inl e, s'')
           | (inr b, s'') =>
               if (size =? 1) && match b with x :: _ => x <? 128 | [] => false end
               then (inl ECanonSize, s'') else (inr b, s'')
           end
  | (inr (KList, _), s') => (inl EExpectedString, s')
  end.
(** rlp/decode.go:834-837 MoreDataInList, listLimit. *)
Definition MoreDataInList (s : stream) : bool := match st_stack s with l :: _ => 0 <? l | [] => false end.

(** gen.go:660-672, the loop of the decoder of a slice. *)
Fixpoint g_elems (d : stream -> (rerr + rval) * stream) (fuel : nat) (s : stream) : (rerr + list rval) * stream :=
  match fuel with
  | O => (inl EOutOfFuel, s)
  | S f =>
      if MoreDataInList s then
        match d s with
        | (inl e, s') => (inl e, s')
        | (inr v, s') => d_map (cons v) (g_elems d f s')
        end
      else (inr [], s)
  end.
(** A slice variable that nothing was appended to is nil. *)
Definition slice_of (vs : list rval) : rval := match vs with [] => VNil | _ => VList vs end.
(** ListEnd with a result. *)
Definition g_end (v : rval) (s : stream) : (rerr + rval) * stream :=
  match st_ListEnd s with (Some e, s') => (inl e, s') | (None, s') => (inr v, s') end.

(** genDecode: basicOp gen.go:234-258, byteArrayOp 277-286, bigIntOp 319-331, uint256Op
    361-373, ptrOp 450-485, structOp 586-634, sliceOp 660-672. *)
Fixpoint g_d (fuel : nat) (t : rty) (s : stream) {struct t} : (rerr + rval) * stream :=
  match t with
  | RUint bits => d_map (fun n => VNum (Z.of_N n)) (st_uint s bits)
  | RBool => d_map VBool (st_Bool s)
  | RBytes => d_map VStr (st_Bytes s)
  | RByteArr n => d_map VStr (st_ReadBytes n s)
  | RBig => d_map (fun n => VNum (Z.of_N n)) (st_BigInt s)
  | RBigPtr => d_map (fun n => VPtr (VNum (Z.of_N n))) (st_BigInt s)
  | RU256 => d_map (fun n => VNum (Z.of_N n)) (st_Uint256 s)
  | RU256Ptr => d_map (fun n => VPtr (VNum (Z.of_N n))) (st_Uint256 s)
  | RSlice t =>
      match st_List s with
      | (inl e, s1) => (inl e, s1)
      | (inr _, s1) =>
          match g_elems (g_d fuel t) fuel s1 with
          | (inl e, s2) => (inl e, s2)
          | (inr vs, s2) => g_end (slice_of vs) s2
          end
      end
  | RStruct fs =>
      match st_List s with
      | (inl e, s1) => (inl e, s1)
      | (inr _, s1) =>
          match g_dfields fuel fs s1 with
          | (inl e, s2) => (inl e, s2)
          | (inr vs, s2) => g_end (VList vs) s2
          end
      end
  | RPtr t => d_map VPtr (g_d fuel t s)
  | RNilPtr nk t =>
      match Kind s with
      | (inl e, s1) => (inl e, s1)
      | (inr (k, size), s1) =>
          if negb (size =? 0) ||
             negb (match k, nk with KList, NKList => true | KString, NKString => true | _, _ => false end)
          then d_map VPtr (g_d fuel t s1)
          else (inr VNil, s1) (* the value is not taken off the stream *)
      end
  | RString | RArr _ _ | RIface => (inl EWrongSize, s) (* no code *)
  end
with g_dfields (fuel : nat) (fs : rfields) (s : stream) {struct fs} : (rerr + list rval) * stream :=
  match fs with
  | FNil => (inr [], s)
  | FCons FPlain t fs' =>
      match g_d fuel t s with
      | (inl e, s1) => (inl e, s1)
      | (inr v, s1) => d_map (cons v) (g_dfields fuel fs' s1)
      end
  | FCons FOpt t fs' =>
      if MoreDataInList s then
        match g_d fuel t s with
        | (inl e, s1) => (inl e, s1)
        | (inr v, s1) => d_map (cons v) (g_dfields fuel fs' s1)
        end
      else (inr (zero_fields fs), s)
  | FCons FTail _ _ => (inl EWrongSize, s) (* no code *)
  end.

(** rlp.DecodeBytes (decode.go:94-107) of a type with a generated DecodeRLP method (gen.go:733-745). *)
Definition g_DecodeBytes (t : rty) (b : list N) : rerr + rval :=
  decode_bytes_with (g_d (2 * length b + 2) t) b.
