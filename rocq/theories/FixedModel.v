(** Model of the fixed-size byte values of basic.go: addresses (20 bytes), seeds (20), hashes
    (32) and node ids (64); conversions from bytes, numbers and text, comparison, the forms for
    RLP, and the addresses of contracts and public keys. A pointer that may be nil is an option. *)
From Verif Require Import Base RlpSpec RlpModel HexModel BytesModel.
Open Scope N_scope.

(* basic.go:406-411, 1281-1286, 1465-1471, 1659-1666: NodeID, Address, Hash and
   Seed.SetBytes; [old] is the value before, of length [n] *)
Definition set_bytes (n : nat) (old b : list N) : list N :=
  let b := if (n <? length b)%nat then drop (length b - n) b else b in
  buf_put (n - length b) b old.
(* basic.go:328-338 BytesToNodeID, 1553-1562 BytesToAddress, 1594-1604 BytesToHash,
   1624-1633 BytesToSeed, 281-289 ParseNodeIDBytes *)
Definition BytesTo (n : nat) (b : list N) : list N := set_bytes n (replicate n 0) b.
(* basic.go:1354-1358 NewHash: copy from the left *)
Definition NewHash (b : list N) : list N := buf_put 0 (take 32 b) (replicate 32 0).

(* basic.go:1244, 1417 Big; big.Int.SetBytes *)
Definition Big (a : list N) : Z := Z.of_N (be_num a).
(* basic.go:1577 BigToAddress, 1608 BigToHash; big.Int.Bytes is that of the absolute value *)
Definition BigTo (n : nat) (z : Z) : list N := BytesTo n (be_bytes (Z.abs_N z)).
(* basic.go:1581 HexToAddress, 1612 HexToHash *)
Definition HexTo (n : nat) (s : list N) : list N := BytesTo n (FromHex s).
(* basic.go:1247 Address.Hash *)
Definition AddressHash (a : list N) : list N := BytesTo 32 a.

Section hash.
Context (H : list N -> list N).    (* the system hash function, 32 bytes *)
(* basic.go:1250-1271 Address.Hex: the loop body for one character *)
Definition hex_case (hash : list N) (i : nat) (c : N) : N :=
  let hb := nth (i / 2) hash 0 in
  let hb := if (i mod 2 =? 0)%nat then N.shiftr hb 4 else N.land hb 0xf in
  if (57 <? c) && (7 <? hb) then c - 32 else c.
Definition AddressHex (a : list N) : list N :=
  let u := hex_encode a in
  let hash := H u in
  48 :: 120 :: imap (hex_case hash) u.
(* basic.go:1309-1321 AddressFromPubSlice *)
Definition AddressFromPubSlice (pub : list N) : option (list N) :=
  match pub with
  | [] => None
  | x :: r => if x =? 4 then Some (buf_put 0 (take 20 (drop 12 (H r))) (replicate 20 0)) else None
  end.
(* basic.go:1536-1544 CreateAddress. An Address is encoded as a byte string, a uint64 as its
   shortest big-endian bytes (RlpTypeModel.v) *)
Definition CreateAddress (b : list N) (nonce : N) : list N :=
  BytesTo 20 (drop 12 (H (encode_to_bytes (Lst [Str b; Str (be_bytes nonce)])))).
(* basic.go:1546-1549 CreateAddress2; Hash256s hashes its arguments end to end *)
Definition CreateAddress2 (b salt inithash : list N) : list N :=
  BytesTo 20 (drop 12 (H ([0xff] ++ b ++ salt ++ inithash))).
End hash.

(* basic.go:1341-1343 Address.String, 389-391 NodeID.InfoString *)
Definition AddressString (a : list N) : list N := hex_encode a.
Definition NodeIDInfo (a : list N) : list N := hex_encode a.
(* basic.go:1420 Hash.Hex *)
Definition HashHex (h : list N) : list N := Encode h.
(* basic.go:413-419, 1289-1296, 1448-1461: MarshalText and UnmarshalText of NodeID, Address
   and Hash. hexutil/json.go:58-63 Bytes.MarshalText *)
Definition MarshalText (a : list N) : list N := Encode a.
Definition UnmarshalText (n : nat) (s : list N) : hres (list N) := UnmarshalFixed true s n.
(* basic.go:1585-1590 *)
Definition IsHexAddress (s : list N) : bool :=
  let s := if has0xPrefix s then drop 2 s else s in
  (length s =? 2 * 20)%nat && IsHex s.
(* basic.go:291-297; hex.DecodeString *)
Definition ParseNodeID (s : list N) : option (list N) :=
  match hex_decode s with (b, None) => Some (BytesTo 64 b) | (_, Some _) => None end.
(* basic.go:444-460; the outer option is a nil slice *)
Fixpoint parse_strings (ss : list (list N)) : option (list (list N)) :=
  match ss with
  | [] => Some []
  | s :: r => match ParseNodeID s with
              | None => None
              | Some x => match parse_strings r with None => None | Some l => Some (x :: l) end
              end
  end.
Definition StringsToNodeIDs (ss : option (list (list N))) : option (option (list (list N))) :=
  match ss with
  | None => Some None
  | Some ss => match parse_strings ss with None => None | Some l => Some (Some l) end
  end.
(* basic.go:340-350 *)
Fixpoint ids_loop (fuel p : nat) (s : list N) : list (list N) :=
  match fuel with
  | O => []
  | S f => if (p <? length s)%nat then BytesTo 64 (take 64 (drop p s)) :: ids_loop f (p + 64) s else []
  end.
Definition ParseBytesToNodeIds (s : list N) : option (list (list N)) :=
  if negb (length s mod 64 =? 0)%nat then None else Some (ids_loop (length s) 0 s).
(* basic.go:352-363 *)
Fixpoint idbs_loop (fuel p : nat) (s : list N) : list (list N) :=
  match fuel with
  | O => []
  | S f => if (p <? length s)%nat then buf_put 0 (take 64 (drop p s)) (replicate 64 0) :: idbs_loop f (p + 64) s else []
  end.
Definition ParseBytesToNodeIdBytes (s : list N) : option (list (list N)) :=
  if negb (length s mod 64 =? 0)%nat then None else Some (idbs_loop (length s) 0 s).
(* basic.go:365-374; nil and an empty slice are identified *)
Fixpoint pack_loop (i : nat) (ids : list (list N)) (bs : list N) : list N :=
  match ids with
  | [] => bs
  | x :: r => pack_loop (S i) r (buf_put (i * 64) x bs)
  end.
Definition PackNodeIdsToBytes (ids : list (list N)) : list N :=
  match ids with [] => [] | _ => pack_loop 0 ids (replicate (length ids * 64) 0) end.

(** bytes.Compare *)
Fixpoint bytes_compare (a b : list N) : Z :=
  match a, b with
  | [], [] => 0%Z
  | [], _ :: _ => (-1)%Z
  | _ :: _, [] => 1%Z
  | x :: a', y :: b' => if x <? y then (-1)%Z else if y <? x then 1%Z else bytes_compare a' b'
  end.
(* basic.go:421-432 NodeID.Compare, 1227-1238 Address.Cmp (two equal pointers hold equal values) *)
Definition Cmp (a b : option (list N)) : Z :=
  match a, b with
  | None, None => 0%Z
  | None, Some _ => (-1)%Z
  | Some _, None => 1%Z
  | Some x, Some y => bytes_compare x y
  end.
(* basic.go:1531-1533 *)
Definition HashLess (a b : list N) : bool := (bytes_compare a b <? 0)%Z.
(* basic.go:1217-1225 Address.Equal, 1492-1500 Hash.Equal, 1675-1683 Seed.Equal *)
Definition Equal (a b : option (list N)) : bool :=
  match a, b with
  | None, None => true
  | Some x, Some y => bool_decide (x = y)
  | _, _ => false
  end.
(* basic.go:1482-1490 *)
Definition SliceEqual (h : option (list N)) (val : list N) : bool :=
  match h with None => (length val =? 0)%nat | Some h => bool_decide (h = val) end.
(* basic.go:1185-1203 Address.ForRLP and FromRLP, 1394-1411 those of Hash *)
Definition ForRLP (n : nat) (p : option (list N)) : list N :=
  match p with None => replicate n 0 | Some a => a end.
Definition FromRLP (n : nat) (p : option (list N)) : option (list N) :=
  match p with None => None | Some a => if bool_decide (a = replicate n 0) then None else Some a end.
(* basic.go:1513-1529; None is a nil slice *)
Fixpoint hashs_loop (a b : list (list N)) : bool :=
  match a, b with
  | x :: a', y :: b' => if bool_decide (x = y) then hashs_loop a' b' else false
  | _, _ => true
  end.
Definition HashsEquals (a b : option (list (list N))) : bool :=
  match a, b with
  | None, None => true
  | Some a, Some b => if negb (length a =? length b)%nat then false else hashs_loop a b
  | _, _ => false
  end.

(* hash.go:1040-1047; chaininfo.go ChainID.Bytes and basic.go:950-954 Height.Bytes are
   big-endian *)
Definition ToHeaderPosHashBuffer (id height : N) : list N :=
  buf_put 4 (be_fixed 8 height) (buf_put 0 (be_fixed 4 id) (replicate 13 0)).
(* hash.go:1049-1053: what is hashed *)
Definition HeaderIndexInput (buf : list N) (index : N) : list N := <[12%nat := index]> buf.
Section nilhash.
Context (nilhash : list N).        (* NilHashSlice, types.go:66 *)
(* hash.go:1007-1012 *)
Definition IsNilHash (bs : list N) : bool := (length bs =? 0)%nat || bool_decide (bs = nilhash).
(* hash.go:1019-1028 *)
Definition HashSliceEquals (h1 h2 : list N) : bool :=
  let nh1 := IsNilHash h1 in
  let nh2 := IsNilHash h2 in
  if nh1 && nh2 then true else if nh1 || nh2 then false else bool_decide (h1 = h2).
(* hash.go:1030-1038 *)
Definition HashEquals (h1 h2 : option (list N)) : bool :=
  let n1 := match h1 with None => true | Some h => bool_decide (h = nilhash) end in
  let n2 := match h2 with None => true | Some h => bool_decide (h = nilhash) end in
  if n1 && n2 then true else if Equal h1 h2 then true else false.
End nilhash.
(* hash.go:751-754: hash.Hash.Sum appends the hash of what was written to its argument, and
   nothing was written; [R] is the hash function *)
Definition HashRipemd160 (R : list N -> list N) (data : list N) : list N := data ++ R [].
