(** Model of package hexutil (hexutil.go, json.go) and of the hex helpers of bytes.go.
    Strings are byte strings. encoding/hex and strconv (standard library) are modelled
    here as they are documented: hex.Decode, hex.Encode, strconv.AppendUint and
    strconv.ParseUint in base 16, fmt's %#x of a big.Int. *)
From Verif Require Export NumModel.
Global Open Scope N_scope.

(* hexutil.go:42-52 *)
Inductive herr := ErrEmptyString | ErrSyntax | ErrMissingPrefix | ErrOddLength | ErrEmptyNumber
                | ErrLeadingZero | ErrUint64Range | ErrUintRange | ErrBig256Range | ErrNonString | ErrLen.
Inductive hres (A : Type) := HOk (a : A) | HErr (e : herr).
Arguments HOk {A} a. Arguments HErr {A} e.

(* hexutil.go:211-222; None is badNibble *)
Definition decodeNibble (c : N) : option N :=
  if (48 <=? c) && (c <=? 57) then Some (c - 48)
  else if (65 <=? c) && (c <=? 70) then Some (c - 65 + 10)
  else if (97 <=? c) && (c <=? 102) then Some (c - 97 + 10)
  else None.

(** The digit table of encoding/hex and strconv: "0123456789abcdef". *)
Definition nib_char (n : N) : N := if n <? 10 then 48 + n else 87 + n.
(** hex.Encode *)
Fixpoint hex_encode (b : list N) : list N :=
  match b with
  | [] => []
  | x :: r => nib_char (x / 16) :: nib_char (x mod 16) :: hex_encode r
  end.
(** hex.Decode: the bytes decoded before the error, and the error. *)
Fixpoint hex_decode (s : list N) : list N * option herr :=
  match s with
  | [] => ([], None)
  | [c] => ([], match decodeNibble c with None => Some ErrSyntax | Some _ => Some ErrOddLength end)
  | c :: d :: r =>
      match decodeNibble c, decodeNibble d with
      | Some a, Some b => let '(l, e) := hex_decode r in (a * 16 + b :: l, e)
      | _, _ => ([], Some ErrSyntax)
      end
  end.

(* hexutil.go:188-190, json.go:276-278, bytes.go:161-163 *)
Definition has0xPrefix (s : list N) : bool :=
  match s with
  | a :: b :: _ => (a =? 48) && ((b =? 120) || (b =? 88))
  | _ => false
  end.

(* hexutil.go:60-72. The bytes returned beside an error are left out. *)
Definition Decode (s : list N) : hres (list N) :=
  match s with
  | [] => HErr ErrEmptyString
  | _ => if negb (has0xPrefix s) then HErr ErrMissingPrefix
         else match hex_decode (drop 2 s) with (b, None) => HOk b | (_, Some e) => HErr e end
  end.
(* hexutil.go:84-89 *)
Definition Encode (b : list N) : list N := 48 :: 120 :: hex_encode b.

(* hexutil.go:192-207 *)
Definition checkNumber (s : list N) : hres (list N) :=
  match s with
  | [] => HErr ErrEmptyString
  | _ => if negb (has0xPrefix s) then HErr ErrMissingPrefix
         else match drop 2 s with
              | [] => HErr ErrEmptyNumber
              | c :: r => if (1 <? length (c :: r))%nat && (c =? 48) then HErr ErrLeadingZero else HOk (c :: r)
              end
  end.

(** strconv.ParseUint(raw, 16, 64): the loop over the digits. *)
Fixpoint parse_loop (n : N) (s : list N) : hres N :=
  match s with
  | [] => HOk n
  | c :: r =>
      match decodeNibble c with
      | None => HErr ErrSyntax
      | Some d =>
          if 2 ^ 60 <=? n then HErr ErrUint64Range          (* n*16 overflows *)
          else if two64 <=? n * 16 + d then HErr ErrUint64Range
          else parse_loop (n * 16 + d) r
      end
  end.
(* hexutil.go:92-102 *)
Definition DecodeUint64 (s : list N) : hres N :=
  match checkNumber s with HErr e => HErr e | HOk raw => parse_loop 0 raw end.

(** strconv.AppendUint(_, n, 16) and fmt's %x: minimal digits. *)
Fixpoint digits_f (fuel : nat) (n : N) (acc : list N) : list N :=
  match fuel with
  | O => acc
  | S f => if n =? 0 then acc else digits_f f (n / 16) (nib_char (n mod 16) :: acc)
  end.
Definition hex_digits (n : N) : list N := if n =? 0 then [48] else digits_f (N.to_nat (N.size n)) n [].
(* hexutil.go:115-119, json.go:197-202 *)
Definition EncodeUint64 (n : N) : list N := 48 :: 120 :: hex_digits n.
(* hexutil.go:180-186; %#x prints a sign before 0x *)
Definition EncodeBig (z : Z) : list N :=
  if bit_len z =? 0 then [48; 120; 48]
  else (if (z <? 0)%Z then [45] else []) ++ 48 :: 120 :: hex_digits (Z.abs_N z).

(** The nibble loop of one word, hexutil.go:155-162. The word is [nibs] nibbles wide;
    at most that many are read, so nothing is lost. *)
Fixpoint word_loop (w : N) (s : list N) : option N :=
  match s with
  | [] => Some w
  | c :: r => match decodeNibble c with None => None | Some d => word_loop (w * 16 + d) r end
  end.
(* hexutil.go:149-164: words from the least significant *)
Fixpoint words_loop (nibs : nat) (k : nat) (e : nat) (raw : list N) : option (list N) :=
  match k with
  | O => Some []
  | S k' =>
      let st := (e - nibs)%nat in
      match word_loop 0 (take (e - st) (drop st raw)) with
      | None => None
      | Some w => match words_loop nibs k' st raw with None => None | Some ws => Some (w :: ws) end
      end
  end.
(** big.Int.SetBits *)
Fixpoint words_num (nibs : nat) (ws : list N) : N :=
  match ws with [] => 0 | w :: r => w + 16 ^ N.of_nat nibs * words_num nibs r end.
(* hexutil.go:141-167, json.go:155-184 *)
Definition decode_big_raw (nibs : nat) (raw : list N) : hres N :=
  if (64 <? length raw)%nat then HErr ErrBig256Range
  else match words_loop nibs (length raw / nibs + 1) (length raw) raw with
       | None => HErr ErrSyntax
       | Some ws => HOk (words_num nibs ws)
       end.
Definition DecodeBig (nibs : nat) (s : list N) : hres N :=
  match checkNumber s with HErr e => HErr e | HOk raw => decode_big_raw nibs raw end.

(* json.go:272-274 *)
Definition isString (s : list N) : bool :=
  (2 <=? length s)%nat && (nth 0 s 0 =? 34) && (nth (length s - 1) s 0 =? 34).
Definition unquote (s : list N) : list N := take (length s - 2) (drop 1 s).
(* json.go:280-293 *)
Definition checkText (s : list N) (wantPrefix : bool) : hres (list N) :=
  match s with
  | [] => HOk []
  | _ =>
      if has0xPrefix s
      then if negb (length (drop 2 s) mod 2 =? 0)%nat then HErr ErrOddLength else HOk (drop 2 s)
      else if wantPrefix then HErr ErrMissingPrefix
      else if negb (length s mod 2 =? 0)%nat then HErr ErrOddLength else HOk s
  end.
(* json.go:295-310 *)
Definition checkNumberText (s : list N) : hres (list N) :=
  match s with [] => HOk [] | _ => checkNumber s end.
(* json.go:58-71 *)
Definition Bytes_UnmarshalText (s : list N) : hres (list N) :=
  match checkText s true with
  | HErr e => HErr e
  | HOk raw => match hex_decode raw with (b, None) => HOk b | (_, Some e) => HErr e end
  end.
(* json.go:92-110 and 115-132; [n] is the length of the destination, which keeps its
   contents on error *)
Definition UnmarshalFixed (wantPrefix : bool) (s : list N) (n : nat) : hres (list N) :=
  match checkText s wantPrefix with
  | HErr e => HErr e
  | HOk raw =>
      if negb (length raw / 2 =? n)%nat then HErr ErrLen
      else if negb (forallb (fun c => match decodeNibble c with Some _ => true | None => false end) raw) then HErr ErrSyntax
      else HOk (hex_decode raw).1
  end.
(* json.go:155-184 *)
Definition Big_UnmarshalText (nibs : nat) (s : list N) : hres N :=
  match checkNumberText s with HErr e => HErr e | HOk raw => decode_big_raw nibs raw end.
(* json.go:213-233 *)
Fixpoint u64_loop (dec : N) (s : list N) : hres N :=
  match s with
  | [] => HOk dec
  | c :: r => match decodeNibble c with
              | None => HErr ErrSyntax
              | Some d => u64_loop (u64_add (u64_mul dec 16) d) r
              end
  end.
Definition Uint64_UnmarshalText (s : list N) : hres N :=
  match checkNumberText s with
  | HErr e => HErr e
  | HOk raw => if (16 <? length raw)%nat then HErr ErrUint64Range else u64_loop 0 raw
  end.
(* json.go:50-55, 145-150, 205-210: quotes, then UnmarshalText *)
Definition UnmarshalJSON {A} (f : list N -> hres A) (s : list N) : hres A :=
  if negb (isString s) then HErr ErrNonString else f (unquote s).

(* bytes.go:166-168 *)
Definition IsHexCharacter (c : N) : bool :=
  ((48 <=? c) && (c <=? 57)) || ((97 <=? c) && (c <=? 102)) || ((65 <=? c) && (c <=? 70)).
(* bytes.go:171-181 *)
Definition IsHex (s : list N) : bool := (length s mod 2 =? 0)%nat && forallb IsHexCharacter s.
(* bytes.go:188-191 *)
Definition Hex2Bytes (s : list N) : list N := (hex_decode s).1.
(* bytes.go:134-144 *)
Definition FromHex (s : list N) : list N :=
  let s := if has0xPrefix s then drop 2 s else s in
  let s := if (length s mod 2 =? 1)%nat then 48 :: s else s in
  Hex2Bytes s.
