(** Model of package rlp: encode.go, encbuffer.go, raw.go, decode.go, iterator.go. *)
From Verif Require Export Base RlpSpec.

(** Error values returned by the package (decode.go:33-58). *)
Inductive rerr :=
| EEOL | EExpectedString | EExpectedList | ECanonInt | ECanonSize | EElemTooLarge
| EValueTooLarge | EMoreThanOneValue | ENotInList | ENotAtEOL | EUintOverflow
| EUnexpectedEOF | EEOF | EInvalidBool | EWrongSize | EUint256Large
| EOutOfFuel (* model only: recursion bound exhausted; proved unreachable *).

(** Go [byte(x)] conversion. *)
Definition byte_of (x : N) : N := x mod 256.

(** encode.go:431-486 putint: the bytes written. *)
Definition putint (i : N) : list N :=
  if i <? 2 ^ 8 then [byte_of i]
  else if i <? 2 ^ 16 then [byte_of (N.shiftr i 8); byte_of i]
  else if i <? 2 ^ 24 then [byte_of (N.shiftr i 16); byte_of (N.shiftr i 8); byte_of i]
  else if i <? 2 ^ 32 then
    [byte_of (N.shiftr i 24); byte_of (N.shiftr i 16); byte_of (N.shiftr i 8); byte_of i]
  else if i <? 2 ^ 40 then
    [byte_of (N.shiftr i 32); byte_of (N.shiftr i 24); byte_of (N.shiftr i 16);
     byte_of (N.shiftr i 8); byte_of i]
  else if i <? 2 ^ 48 then
    [byte_of (N.shiftr i 40); byte_of (N.shiftr i 32); byte_of (N.shiftr i 24);
     byte_of (N.shiftr i 16); byte_of (N.shiftr i 8); byte_of i]
  else if i <? 2 ^ 56 then
    [byte_of (N.shiftr i 48); byte_of (N.shiftr i 40); byte_of (N.shiftr i 32);
     byte_of (N.shiftr i 24); byte_of (N.shiftr i 16); byte_of (N.shiftr i 8); byte_of i]
  else
    [byte_of (N.shiftr i 56); byte_of (N.shiftr i 48); byte_of (N.shiftr i 40);
     byte_of (N.shiftr i 32); byte_of (N.shiftr i 24); byte_of (N.shiftr i 16);
     byte_of (N.shiftr i 8); byte_of i].

(** encode.go:489-495 intsize. The Go loop is unbounded; a uint64 becomes 0
    after at most 8 shifts, so 8 rounds of fuel are exact for i < 2^64. *)
Fixpoint intsize_loop (fuel : nat) (i size : N) : N :=
  match fuel with
  | O => size
  | S f => let i' := N.shiftr i 8 in if i' =? 0 then size else intsize_loop f i' (size + 1)
  end.
Definition intsize (i : N) : N := intsize_loop 8 i 1.

(** encode.go:117-122 headsize. *)
Definition headsize (size : N) : N := if size <? 56 then 1 else 1 + intsize size.

(** encode.go:126-134 puthead: the bytes written (the int result is their number). *)
Definition puthead (smalltag largetag size : N) : list N :=
  if size <? 56 then [smalltag + size]
  else let d := putint size in (largetag + lenN d) :: d.

(* ------------------------------------------------------------------ *)
(** ** encbuffer.go *)

(** encbuffer.go:29-34, encode.go:104-107. Go ints are unbounded naturals here:
    a Go buffer cannot reach 2^63 bytes. *)
Record encbuf := EncBuf { eb_str : list N; eb_heads : list (N * N); eb_lhsize : N }.

(** encbuffer.go:47-51 reset. *)
Definition eb_empty : encbuf := EncBuf [] [] 0.

(** encbuffer.go:54-56 size. *)
Definition eb_size (b : encbuf) : N := lenN (eb_str b) + eb_lhsize b.

Definition eb_append (b : encbuf) (bs : list N) : encbuf :=
  EncBuf (eb_str b ++ bs) (eb_heads b) (eb_lhsize b).

(** encbuffer.go:218-226 encodeStringHeader. *)
Definition encodeStringHeader (b : encbuf) (size : N) : encbuf :=
  if size <? 56 then eb_append b [0x80 + byte_of size]
  else let d := putint size in eb_append b ((0xB7 + lenN d) :: d).

(** encbuffer.go:121-132 writeUint64. *)
Definition writeUint64 (b : encbuf) (i : N) : encbuf :=
  if i =? 0 then eb_append b [0x80]
  else if i <? 128 then eb_append b [byte_of i]
  else let d := putint i in eb_append b ((0x80 + lenN d) :: d).

(** encbuffer.go:113-119 writeBool. *)
Definition writeBool (b : encbuf) (x : bool) : encbuf :=
  if x then eb_append b [0x01] else eb_append b [0x80].

(** encbuffer.go:134-142 writeBytes. *)
Definition writeBytes (b : encbuf) (bs : list N) : encbuf :=
  match bs with
  | [x] => if x <=? 0x7F then eb_append b [x]
           else eb_append (encodeStringHeader b (lenN bs)) bs
  | _ => eb_append (encodeStringHeader b (lenN bs)) bs
  end.

(** encbuffer.go:152-173 writeBigInt (callers reject negative numbers,
    encode.go:192-212). The little-endian word loop fills exactly the last
    [length] bytes; it is modelled by the fixed-width big-endian bytes. *)
Definition writeBigInt (b : encbuf) (i : N) : encbuf :=
  let bitlen := N.size i in
  if bitlen <=? 64 then writeUint64 b i
  else
    let len := N.shiftr (N.ldiff (bitlen + 7) 7) 3 in
    let b1 := encodeStringHeader b len in
    eb_append b1 (be_fixed (N.to_nat len) i).

(** encbuffer.go:194-197 list; result: buffer and index of the new header. *)
Definition eb_list (b : encbuf) : encbuf * nat :=
  (EncBuf (eb_str b) (eb_heads b ++ [(lenN (eb_str b), eb_lhsize b)]) (eb_lhsize b),
   length (eb_heads b)).

(** encbuffer.go:199-207 listEnd. *)
Definition eb_listEnd (b : encbuf) (index : nat) : encbuf :=
  match eb_heads b !! index with
  | None => b (* Go would panic: index out of range; indices come from eb_list *)
  | Some (off, sz0) =>
      let sz := eb_size b - off - sz0 in
      EncBuf (eb_str b) (<[index := (off, sz)]> (eb_heads b))
             (if sz <? 56 then eb_lhsize b + 1 else eb_lhsize b + (1 + intsize sz))
  end.

(** encode.go:286-300 writeInterface, 302-343 makeSliceWriter, 230-233
    writeBytes: writing a dynamic value built from []byte and []interface{}. *)
Fixpoint write_item (v : item) (b : encbuf) : encbuf :=
  match v with
  | Str bs => writeBytes b bs
  | Lst xs =>
      match xs with
      | [] => eb_append b [0xC0]
      | _ =>
          let '(b1, idx) := eb_list b in
          let b2 := (fix go (l : list item) (b : encbuf) : encbuf :=
                       match l with [] => b | x :: l' => go l' (write_item x b) end) xs b1 in
          eb_listEnd b2 idx
      end
  end.

(** encbuffer.go:65-79 copyTo, as the sequence of bytes written. *)
Fixpoint copy_out (str : list N) (strpos : N) (heads : list (N * N)) : list N :=
  match heads with
  | [] => drop (N.to_nat strpos) str
  | (off, sz) :: hs =>
      take (N.to_nat (off - strpos)) (drop (N.to_nat strpos) str)
        ++ puthead 0xC0 0xF7 sz
        ++ copy_out str (strpos + N.min (off - strpos) (lenN (drop (N.to_nat strpos) str))) hs
  end.

(** encbuffer.go:59-63 makeBytes: a buffer of [size()] zero bytes overwritten by copyTo. *)
Definition makeBytes (b : encbuf) : list N :=
  let out := copy_out (eb_str b) 0 (eb_heads b) in
  take (N.to_nat (eb_size b)) (out ++ replicate (N.to_nat (eb_size b) - length out) 0).

(** encode.go:77-85 EncodeToBytes on a dynamic value. *)
Definition encode_to_bytes (v : item) : list N := makeBytes (write_item v eb_empty).

(** encbuffer.go:230-293 encReader. [er_piece = None] is the nil piece. *)
Record encreader := EncReader
  { er_buf : option encbuf; er_lhpos : nat; er_strpos : N; er_piece : option (list N) }.

(** encbuffer.go:262-293 next: the piece and the updated reader. *)
Definition er_next (r : encreader) : option (list N) * encreader :=
  match er_buf r with
  | None => (None, r)
  | Some b =>
      match er_piece r with
      | Some p => (Some p, r)
      | None =>
          match eb_heads b !! er_lhpos r with
          | Some (off, sz) =>
              if 0 <? off - er_strpos r
              then (Some (take (N.to_nat (off - er_strpos r)) (drop (N.to_nat (er_strpos r)) (eb_str b))),
                    EncReader (er_buf r) (er_lhpos r) (er_strpos r + (off - er_strpos r)) (er_piece r))
              else (Some (puthead 0xC0 0xF7 sz),
                    EncReader (er_buf r) (S (er_lhpos r)) (er_strpos r) (er_piece r))
          | None =>
              if er_strpos r <? lenN (eb_str b)
              then (Some (drop (N.to_nat (er_strpos r)) (eb_str b)),
                    EncReader (er_buf r) (er_lhpos r) (lenN (eb_str b)) (er_piece r))
              else (None, r)
          end
      end
  end.

(** encbuffer.go:237-258 Read into a buffer of [room] free bytes; result: bytes
    read, whether io.EOF was returned, new reader. *)
Fixpoint er_read (fuel : nat) (r : encreader) (room : nat) : list N * bool * encreader :=
  match fuel with
  | O => ([], false, r)
  | S f =>
      match er_next r with
      | (None, r') => ([], true, EncReader None (er_lhpos r') (er_strpos r') None)
      | (Some p, r') =>
          let nn := Nat.min room (length p) in
          if (nn <? length p)%nat
          then (take nn p, false, EncReader (er_buf r') (er_lhpos r') (er_strpos r') (Some (drop nn p)))
          else
            let '(bs, eof, r'') :=
              er_read f (EncReader (er_buf r') (er_lhpos r') (er_strpos r') None) (room - nn) in
            (p ++ bs, eof, r'')
      end
  end.

(** encode.go:92-102 EncodeToReader. *)
Definition encode_to_reader (v : item) : N * encreader :=
  let b := write_item v eb_empty in (eb_size b, EncReader (Some b) 0 0 None).

(** Enough rounds for any single Read: at most two pieces per list header plus
    the pending piece, the tail and the final nil. *)
Definition er_fuel (r : encreader) : nat :=
  match er_buf r with None => 1%nat | Some b => (2 * length (eb_heads b) + 4)%nat end.

(** A consumer calling Read with the given buffer sizes until io.EOF. *)
Fixpoint er_reads (r : encreader) (rooms : list nat) : list N * bool :=
  match rooms with
  | [] => ([], false)
  | n :: ns =>
      let '(bs, eof, r') := er_read (er_fuel r) r n in
      if eof then (bs, true) else let '(bs', e) := er_reads r' ns in (bs ++ bs', e)
  end.

(* ------------------------------------------------------------------ *)
(** ** raw.go *)

Inductive kind := KByte | KString | KList.

(** raw.go:194-223 readSize. For slen in 1..8 the switch assembles the first
    slen bytes big-endian; no call uses another slen. *)
Definition readSize (b : list N) (slen : N) : rerr + N :=
  if lenN b <? slen then inl EUnexpectedEOF
  else
    let s := be_num (take (N.to_nat slen) b) in
    if (s <? 56) || (match b with x :: _ => x =? 0 | [] => false end)
    then inl ECanonSize else inr s.

(** raw.go:153-192 readKind: kind, tag size, content size. *)
Definition readKind (buf : list N) : rerr + (kind * N * N) :=
  match buf with
  | [] => inl EUnexpectedEOF
  | b :: rest =>
      let r :=
        if b <? 0x80 then inr (KByte, 0, 1)
        else if b <? 0xB8 then
          if (b - 0x80 =? 1) && (match rest with x :: _ => x <? 128 | [] => false end)
          then inl ECanonSize else inr (KString, 1, b - 0x80)
        else if b <? 0xC0 then
          match readSize rest (b - 0xB7) with
          | inl e => inl e | inr cs => inr (KString, b - 0xB7 + 1, cs) end
        else if b <? 0xF8 then inr (KList, 1, b - 0xC0)
        else
          match readSize rest (b - 0xF7) with
          | inl e => inl e | inr cs => inr (KList, b - 0xF7 + 1, cs) end in
      match r with
      | inl e => inl e
      | inr (k, ts, cs) =>
          if lenN buf - ts <? cs then inl EValueTooLarge else inr (k, ts, cs)
      end
  end.

Definition subslice (l : list N) (from to : N) : list N :=
  take (N.to_nat (to - from)) (drop (N.to_nat from) l).

(** raw.go:80-86 Split: kind, content, rest. *)
Definition Split (b : list N) : rerr + (kind * list N * list N) :=
  match readKind b with
  | inl e => inl e
  | inr (k, ts, cs) => inr (k, subslice b ts (ts + cs), drop (N.to_nat (ts + cs)) b)
  end.

(** raw.go:90-99 SplitString. *)
Definition SplitString (b : list N) : rerr + (list N * list N) :=
  match Split b with
  | inl e => inl e
  | inr (KList, _, _) => inl EExpectedString
  | inr (_, c, r) => inr (c, r)
  end.

(** raw.go:129-138 SplitList. *)
Definition SplitList (b : list N) : rerr + (list N * list N) :=
  match Split b with
  | inl e => inl e
  | inr (KList, c, r) => inr (c, r)
  | inr (_, _, _) => inl EExpectedList
  end.

(** raw.go:103-125 SplitUint64. *)
Definition SplitUint64 (b : list N) : rerr + (N * list N) :=
  match SplitString b with
  | inl e => inl e
  | inr (content, rest) =>
      match content with
      | [] => inr (0, rest)
      | [c] => if c =? 0 then inl ECanonInt else inr (c, rest)
      | _ =>
          if 8 <? lenN content then inl EUintOverflow
          else match readSize content (lenN content) with
               | inl _ => inl ECanonInt
               | inr x => inr (x, rest)
               end
      end
  end.

(** raw.go:141-151 CountValues; fuel = length of the input, every round
    consumes at least one byte (proved). *)
Fixpoint count_values (fuel : nat) (b : list N) (i : N) : rerr + N :=
  match b with
  | [] => inr i
  | _ =>
      match fuel with
      | O => inl EOutOfFuel
      | S f =>
          match readKind b with
          | inl e => inl e
          | inr (_, ts, cs) => count_values f (drop (N.to_nat (ts + cs)) b) (i + 1)
          end
      end
  end.
Definition CountValues (b : list N) : rerr + N := count_values (length b) b 0.

(** raw.go:32-45 StringSize, 48-61 BytesSize (same code on string / []byte). *)
Definition BytesSize (b : list N) : N :=
  match b with
  | [] => 1
  | [x] => if x <=? 0x7f then 1 else 2
  | _ => headsize (lenN b) + lenN b
  end.

(** raw.go:65-67 ListSize. *)
Definition ListSize (contentSize : N) : N := headsize contentSize + contentSize.

(** raw.go:71-76 IntSize. *)
Definition IntSize (x : N) : N := if x <? 0x80 then 1 else 1 + intsize x.

(** raw.go:226-294 AppendUint64. *)
Definition AppendUint64 (b : list N) (i : N) : list N :=
  if i =? 0 then b ++ [0x80]
  else if i <? 128 then b ++ [byte_of i]
  else if i <? 2 ^ 8 then b ++ [0x81; byte_of i]
  else if i <? 2 ^ 16 then b ++ [0x82; byte_of (N.shiftr i 8); byte_of i]
  else if i <? 2 ^ 24 then b ++ [0x83; byte_of (N.shiftr i 16); byte_of (N.shiftr i 8); byte_of i]
  else if i <? 2 ^ 32 then
    b ++ [0x84; byte_of (N.shiftr i 24); byte_of (N.shiftr i 16); byte_of (N.shiftr i 8); byte_of i]
  else if i <? 2 ^ 40 then
    b ++ [0x85; byte_of (N.shiftr i 32); byte_of (N.shiftr i 24); byte_of (N.shiftr i 16);
          byte_of (N.shiftr i 8); byte_of i]
  else if i <? 2 ^ 48 then
    b ++ [0x86; byte_of (N.shiftr i 40); byte_of (N.shiftr i 32); byte_of (N.shiftr i 24);
          byte_of (N.shiftr i 16); byte_of (N.shiftr i 8); byte_of i]
  else if i <? 2 ^ 56 then
    b ++ [0x87; byte_of (N.shiftr i 48); byte_of (N.shiftr i 40); byte_of (N.shiftr i 32);
          byte_of (N.shiftr i 24); byte_of (N.shiftr i 16); byte_of (N.shiftr i 8); byte_of i]
  else
    b ++ [0x88; byte_of (N.shiftr i 56); byte_of (N.shiftr i 48); byte_of (N.shiftr i 40);
          byte_of (N.shiftr i 32); byte_of (N.shiftr i 24); byte_of (N.shiftr i 16);
          byte_of (N.shiftr i 8); byte_of i].

(* ------------------------------------------------------------------ *)
(** ** iterator.go *)

Record listiter := ListIter { it_data : list N; it_next : list N; it_err : option rerr }.

(** iterator.go:27-39 NewListIterator. *)
Definition NewListIterator (data : list N) : rerr + listiter :=
  match readKind data with
  | inl e => inl e
  | inr (KList, t, c) => inr (ListIter (subslice data t (t + c)) [] None)
  | inr _ => inl EExpectedList
  end.

(** iterator.go:42-51 Next. On a readKind error Go gets t = c = 0. *)
Definition it_Next (it : listiter) : bool * listiter :=
  match it_data it with
  | [] => (false, it)
  | d =>
      match readKind d with
      | inl e => (true, ListIter (drop 0 d) (take 0 d) (Some e))
      | inr (_, t, c) =>
          (true, ListIter (drop (N.to_nat (t + c)) d) (take (N.to_nat (t + c)) d) None)
      end
  end.

(** The canonical consumer loop [for it.Next() { use(it.Value()) }], [n] rounds
    at most; [None] = still not finished after [n] rounds. *)
Fixpoint it_collect (n : nat) (it : listiter) : option (list (list N)) :=
  match n with
  | O => None
  | S n' =>
      match it_Next it with
      | (false, _) => Some []
      | (true, it') =>
          match it_collect n' it' with
          | None => None
          | Some vs => Some (it_next it' :: vs)
          end
      end
  end.

(* ------------------------------------------------------------------ *)
(** ** decode.go: Stream *)

(** decode.go:586-597. [st_in] is the unread part of the underlying reader;
    [st_kind = None] is kind = -1; the list-size stack has its top first.
    uintbuf is scratch space and is not modelled. *)
Record stream := Stream
  { st_in : list N; st_rem : N; st_size : N; st_kerr : option rerr;
    st_stack : list N; st_kind : option kind; st_byteval : N; st_limited : bool }.

(** decode.go:964-998 Reset with a bytes.Reader: the limit is always the
    length (explicit, or discovered when it is 0). *)
Definition st_new (b : list N) : stream := Stream b (lenN b) 0 None [] None 0 true.

(** Reset with a reader whose length is unknown and inputLimit = 0. *)
Definition st_unlimited (b : list N) : stream := Stream b 0 0 None [] None 0 false.

Definition set_kind (s : stream) (k : option kind) : stream :=
  Stream (st_in s) (st_rem s) (st_size s) (st_kerr s) (st_stack s) k (st_byteval s) (st_limited s).
Definition set_stack (s : stream) (st : list N) : stream :=
  Stream (st_in s) (st_rem s) (st_size s) (st_kerr s) st (st_kind s) (st_byteval s) (st_limited s).
Definition set_in (s : stream) (i : list N) : stream :=
  Stream i (st_rem s) (st_size s) (st_kerr s) (st_stack s) (st_kind s) (st_byteval s) (st_limited s).
Definition set_rem (s : stream) (r : N) : stream :=
  Stream (st_in s) r (st_size s) (st_kerr s) (st_stack s) (st_kind s) (st_byteval s) (st_limited s).
Definition set_byteval (s : stream) (b : N) : stream :=
  Stream (st_in s) (st_rem s) (st_size s) (st_kerr s) (st_stack s) (st_kind s) b (st_limited s).
Definition set_ahead (s : stream) (k : option kind) (sz : N) (e : option rerr) : stream :=
  Stream (st_in s) (st_rem s) sz e (st_stack s) k (st_byteval s) (st_limited s).

(** uint64 subtraction. *)
Definition sub64 (a b : N) : N := (a + (two64 - b mod two64)) mod two64.

(** decode.go:1160-1176 willRead. *)
Definition willRead (s : stream) (n : N) : option rerr * stream :=
  let s0 := set_kind s None in
  match st_stack s0 with
  | limit :: st =>
      if limit <? n then (Some EElemTooLarge, s0)
      else
        let s1 := set_stack s0 (sub64 limit n :: st) in
        if st_limited s1 then
          if st_rem s1 <? n then (Some EValueTooLarge, s1)
          else (None, set_rem s1 (st_rem s1 - n))
        else (None, s1)
  | [] =>
      if st_limited s0 then
        if st_rem s0 <? n then (Some EValueTooLarge, s0)
        else (None, set_rem s0 (st_rem s0 - n))
      else (None, s0)
  end.

(** decode.go:1147-1156 readByte. *)
Definition readByte (s : stream) : (rerr + N) * stream :=
  match willRead s 1 with
  | (Some e, s') => (inl e, s')
  | (None, s') =>
      match st_in s' with
      | [] => (inl EUnexpectedEOF, s')
      | b :: r => (inr b, set_in s' r)
      end
  end.

(** decode.go:1125-1144 readFull of [n] bytes. *)
Definition readFull (s : stream) (n : N) : (rerr + list N) * stream :=
  match willRead s n with
  | (Some e, s') => (inl e, s')
  | (None, s') =>
      if lenN (st_in s') <? n then (inl EUnexpectedEOF, set_in s' [])
      else (inr (take (N.to_nat n) (st_in s')), set_in s' (drop (N.to_nat n) (st_in s')))
  end.

(** decode.go:1098-1122 readUint. *)
Definition readUint (s : stream) (size : N) : (rerr + N) * stream :=
  if size =? 0 then (inr 0, set_kind s None)
  else if size =? 1 then readByte s
  else
    match readFull s size with
    | (inl e, s') => (inl e, s')
    | (inr bs, s') =>
        if (match bs with x :: _ => x =? 0 | [] => false end) then (inl ECanonSize, s')
        else (inr (be_num bs), s')
    end.

(** decode.go:1038-1096 readKind: (kind, size, error) and the new stream. *)
Definition st_readKind (s : stream) : (kind * N * option rerr) * stream :=
  match readByte s with
  | (inl e, s') =>
      let e' := match st_stack s' with
                | [] => match e with EUnexpectedEOF => EEOF | EValueTooLarge => EEOF | _ => e end
                | _ => e
                end in
      ((KByte, 0, Some e'), s')
  | (inr b, s') =>
      let s0 := set_byteval s' 0 in
      if b <? 0x80 then ((KByte, 0, None), set_byteval s0 b)
      else if b <? 0xB8 then ((KString, b - 0x80, None), s0)
      else if b <? 0xC0 then
        match readUint s0 (b - 0xB7) with
        | (inl e, s1) => ((KString, 0, Some e), s1)
        | (inr sz, s1) => ((KString, sz, if sz <? 56 then Some ECanonSize else None), s1)
        end
      else if b <? 0xF8 then ((KList, b - 0xC0, None), s0)
      else
        match readUint s0 (b - 0xF7) with
        | (inl e, s1) => ((KList, 0, Some e), s1)
        | (inr sz, s1) => ((KList, sz, if sz <? 56 then Some ECanonSize else None), s1)
        end
  end.

(** decode.go:1011-1036 Kind. Note that [listLimit] is read before the header. *)
Definition Kind (s : stream) : (rerr + (kind * N)) * stream :=
  match st_kind s with
  | Some k => (match st_kerr s with Some e => inl e | None => inr (k, st_size s) end, s)
  | None =>
      match st_stack s with
      | 0 :: _ => (inl EEOL, s)
      | st =>
          let '((k, sz, e), s') := st_readKind s in
          let e' :=
            match e with
            | Some e => Some e
            | None =>
                match st with
                | limit :: _ =>
                    if limit <? sz then Some EElemTooLarge
                    else if st_limited s' && (st_rem s' <? sz) then Some EValueTooLarge else None
                | [] => if st_limited s' && (st_rem s' <? sz) then Some EValueTooLarge else None
                end
            end in
          (match e' with Some e => inl e | None => inr (k, sz) end, set_ahead s' (Some k) sz e')
      end
  end.

(** decode.go:635-656 Bytes. *)
Definition st_Bytes (s : stream) : (rerr + list N) * stream :=
  match Kind s with
  | (inl e, s') => (inl e, s')
  | (inr (KByte, _), s') => (inr [st_byteval s'], set_kind s' None)
  | (inr (KString, size), s') =>
      match readFull s' size with
      | (inl e, s'') => (inl e, s'')
      | (inr b, s'') =>
          match b with
          | [x] => if x <? 128 then (inl ECanonSize, s'') else (inr b, s'')
          | _ => (inr b, s'')
          end
      end
  | (inr (KList, _), s') => (inl EExpectedString, s')
  end.

(** decode.go:690-712 Raw. *)
Definition st_Raw (s : stream) : (rerr + list N) * stream :=
  match Kind s with
  | (inl e, s') => (inl e, s')
  | (inr (KByte, _), s') => (inr [st_byteval s'], set_kind s' None)
  | (inr (k, size), s') =>
      match readFull s' size with
      | (inl e, s'') => (inl e, s'')
      | (inr c, s'') =>
          (inr (match k with
                | KString => puthead 0x80 0xB7 size
                | _ => puthead 0xC0 0xF7 size end ++ c), s'')
      end
  end.

(** decode.go:742-773 uint. *)
Definition st_uint (s : stream) (maxbits : N) : (rerr + N) * stream :=
  match Kind s with
  | (inl e, s') => (inl e, s')
  | (inr (KByte, _), s') =>
      if st_byteval s' =? 0 then (inl ECanonInt, s') else (inr (st_byteval s'), set_kind s' None)
  | (inr (KString, size), s') =>
      if maxbits / 8 <? size then (inl EUintOverflow, s')
      else
        match readUint s' (byte_of size) with
        | (inl ECanonSize, s'') => (inl ECanonInt, s'')
        | (inl e, s'') => (inl e, s'')
        | (inr v, s'') => if (0 <? size) && (v <? 128) then (inl ECanonSize, s'') else (inr v, s'')
        end
  | (inr (KList, _), s') => (inl EExpectedString, s')
  end.

(** decode.go:778-791 Bool. *)
Definition st_Bool (s : stream) : (rerr + bool) * stream :=
  match st_uint s 8 with
  | (inl e, s') => (inl e, s')
  | (inr 0, s') => (inr false, s')
  | (inr 1, s') => (inr true, s')
  | (inr _, s') => (inl EInvalidBool, s')
  end.

(** decode.go:796-815 List. *)
Definition st_List (s : stream) : (rerr + N) * stream :=
  match Kind s with
  | (inl e, s') => (inl e, s')
  | (inr (KList, size), s') =>
      let stack := match st_stack s' with
                   | limit :: st => size :: sub64 limit size :: st
                   | [] => [size]
                   end in
      (inr size, Stream (st_in s') (st_rem s') 0 (st_kerr s') stack None (st_byteval s') (st_limited s'))
  | (inr _, s') => (inl EExpectedList, s')
  end.

(** decode.go:819-830 ListEnd. *)
Definition st_ListEnd (s : stream) : option rerr * stream :=
  match st_stack s with
  | [] => (Some ENotInList, s)
  | limit :: st =>
      if 0 <? limit then (Some ENotAtEOL, s)
      else (None, Stream (st_in s) (st_rem s) 0 (st_kerr s) st None (st_byteval s) (st_limited s))
  end.

(** decode.go:848-889 decodeBigInt. *)
Definition st_BigInt (s : stream) : (rerr + N) * stream :=
  let fin (buffer : list N) (s : stream) : (rerr + N) * stream :=
    if (match buffer with x :: _ => x =? 0 | [] => false end) then (inl ECanonInt, s)
    else (inr (be_num buffer), s) in
  match Kind s with
  | (inl e, s') => (inl e, s')
  | (inr (KList, _), s') => (inl EExpectedString, s')
  | (inr (KByte, _), s') => fin [st_byteval s'] (set_kind s' None)
  | (inr (KString, size), s') =>
      if size =? 0 then fin [] (set_kind s' None)
      else if size <=? 32 then
        match readFull s' size with
        | (inl e, s'') => (inl e, s'')
        | (inr b, s'') =>
            match b with
            | [x] => if x <? 128 then (inl ECanonSize, s'') else fin b s''
            | _ => fin b s''
            end
        end
      else
        match readFull s' size with
        | (inl e, s'') => (inl e, s'')
        | (inr b, s'') => fin b s''
        end
  end.

(** decode.go:892-928 ReadUint256. *)
Definition st_Uint256 (s : stream) : (rerr + N) * stream :=
  let fin (buffer : list N) (s : stream) : (rerr + N) * stream :=
    if (match buffer with x :: _ => x =? 0 | [] => false end) then (inl ECanonInt, s)
    else (inr (be_num buffer), s) in
  match Kind s with
  | (inl e, s') => (inl e, s')
  | (inr (KList, _), s') => (inl EExpectedString, s')
  | (inr (KByte, _), s') => fin [st_byteval s'] (set_kind s' None)
  | (inr (KString, size), s') =>
      if size =? 0 then fin [] (set_kind s' None)
      else if size <=? 32 then
        match readFull s' size with
        | (inl e, s'') => (inl e, s'')
        | (inr b, s'') =>
            match b with
            | [x] => if x <? 128 then (inl ECanonSize, s'') else fin b s''
            | _ => fin b s''
            end
        end
      else (inl EUint256Large, s')
  end.

(** decode.go:517-541 decodeInterface, 297-310 decodeListSlice,
    312-339 decodeSliceElems. Recursion on explicit fuel. *)
Fixpoint dec_iface (f : nat) (s : stream) : (rerr + item) * stream :=
  match f with
  | O => (inl EOutOfFuel, s)
  | S f' =>
      match Kind s with
      | (inl e, s1) => (inl e, s1)
      | (inr (KList, _), s1) =>
          match st_List s1 with
          | (inl e, s2) => (inl e, s2)
          | (inr size, s2) =>
              if size =? 0 then
                match st_ListEnd s2 with
                | (Some e, s3) => (inl e, s3)
                | (None, s3) => (inr (Lst []), s3)
                end
              else
                match dec_elems f' s2 with
                | (inl e, s3) => (inl e, s3)
                | (inr xs, s3) =>
                    match st_ListEnd s3 with
                    | (Some e, s4) => (inl e, s4)
                    | (None, s4) => (inr (Lst xs), s4)
                    end
                end
          end
      | (inr _, s1) =>
          match st_Bytes s1 with
          | (inl e, s2) => (inl e, s2)
          | (inr b, s2) => (inr (Str b), s2)
          end
      end
  end
with dec_elems (f : nat) (s : stream) : (rerr + list item) * stream :=
  match f with
  | O => (inl EOutOfFuel, s)
  | S f' =>
      match dec_iface f' s with
      | (inl EEOL, s1) => (inr [], s1)
      | (inl e, s1) => (inl e, s1)
      | (inr x, s1) =>
          match dec_elems f' s1 with
          | (inl e, s2) => (inl e, s2)
          | (inr xs, s2) => (inr (x :: xs), s2)
          end
      end
  end.

(** decode.go:94-107 DecodeBytes into an interface{}. *)
Definition decode_bytes (b : list N) : rerr + item :=
  match dec_iface (2 * length b + 2) (st_new b) with
  | (inl e, _) => inl e
  | (inr v, s) => match st_in s with [] => inr v | _ => inl EMoreThanOneValue end
  end.

(** DecodeBytes into *uint64 / *big.Int / *bool: decode.go:94-107 with
    decodeUint (209-217), decodeBigInt (231-243), decodeBool (219-226). *)
Definition decode_bytes_with {A} (dec : stream -> (rerr + A) * stream) (b : list N) : rerr + A :=
  match dec (st_new b) with
  | (inl e, _) => inl e
  | (inr v, s) => match st_in s with [] => inr v | _ => inl EMoreThanOneValue end
  end.
Definition decode_uint64 (b : list N) : rerr + N := decode_bytes_with (fun s => st_uint s 64) b.
Definition decode_bigint (b : list N) : rerr + N := decode_bytes_with st_BigInt b.
