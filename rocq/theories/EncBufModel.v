(** Model of the incremental encoder of package rlp (encbuffer.go:295-424) and of the pool
    that all encoders take their buffers from (encbuffer.go:37-45).

    [encbuf], makeBytes, list, listEnd and encReader.Read are those of RlpModel.v. What is
    simplified: a writing method is any function on the buffer; the destination of Flush
    takes everything (the case of a destination that fails is [writeTo] below, on its own);
    sync.Pool hands out any buffer that was given back and not taken since, or a new one,
    and may forget buffers at any time. One operation is one step: the buffer is not shared
    state, only the pool is. Encode and EncodeToBytes (encode.go:61-88) are
    NewEncoderBuffer, a write, ToBytes or writeTo, and Flush. *)
From Coq Require Import NArith Lia.
From Verif Require Export RlpTypeModel.
From stdpp Require Import gmap.
Local Open Scope N_scope.

(* ------------------------------------------------------------------ *)
(** ** writeTo *)

(** A destination that takes [room] bytes and then fails (never if None): bytes taken, what
    is left of the room, whether there was no error. *)
Definition sink (room : option N) (p : list N) : list N * option N * bool :=
  match room with
  | None => (p, None, true)
  | Some r => if lenN p <=? r then (p, Some (r - lenN p), true) else (take (N.to_nat r) p, Some 0, false)
  end.

(** encbuffer.go:82-104 writeTo: what is written and whether there was no error. *)
Fixpoint writeTo_loop (str : list N) (strpos : N) (heads : list (N * N)) (room : option N) : list N * bool :=
  match heads with
  | [] => if strpos <? lenN str
          then let '(w, _, ok) := sink room (drop (N.to_nat strpos) str) in (w, ok)
          else ([], true)
  | (off, sz) :: hs =>
      let '(w1, room1, ok1, pos1) :=
        if 0 <? off - strpos
        then let '(w, r, ok) := sink room (take (N.to_nat (off - strpos)) (drop (N.to_nat strpos) str)) in
             (w, r, ok, strpos + lenN w)
        else ([], room, true, strpos) in
      if negb ok1 then (w1, false)
      else let '(w2, room2, ok2) := sink room1 (puthead 0xC0 0xF7 sz) in
           if negb ok2 then (w1 ++ w2, false)
           else let '(w3, ok3) := writeTo_loop str pos1 hs room2 in (w1 ++ w2 ++ w3, ok3)
  end.
Definition writeTo (b : encbuf) (room : option N) : list N * bool :=
  writeTo_loop (eb_str b) 0 (eb_heads b) room.

(** encbuffer.go:371-376 AppendToBytes: [size()] zero bytes behind dst, overwritten by
    copyTo. *)
Definition AppendToBytes (b : encbuf) (dst : list N) : list N := dst ++ makeBytes b.

(* ------------------------------------------------------------------ *)
(** ** What is written with the methods of an EncoderBuffer *)

(** A value that is written with one call, and a list with what is written between List and
    ListEnd. *)
Inductive doc :=
| DBytes (bs : list N)     (* WriteBytes, WriteString *)
| DUint (n : N)            (* WriteUint64 *)
| DBig (z : Z)             (* WriteBigInt: the sign is ignored *)
| DU256 (n : N)            (* WriteUint256 *)
| DBool (b : bool)         (* WriteBool *)
| DRaw (bs : list N)       (* Write *)
| DList (ds : list doc).

(** encbuffer.go:378-424, called for a value; List returns the index that ListEnd gets. *)
Fixpoint write_doc (d : doc) (b : encbuf) : encbuf :=
  match d with
  | DBytes bs => writeBytes b bs
  | DUint n => writeUint64 b n
  | DBig z => writeBigInt b (Z.abs_N z)
  | DU256 n => writeUint256 b n
  | DBool x => writeBool b x
  | DRaw bs => eb_append b bs
  | DList ds =>
      let '(b1, idx) := eb_list b in
      eb_listEnd ((fix go (l : list doc) (b : encbuf) : encbuf :=
                     match l with [] => b | d :: l' => go l' (write_doc d b) end) ds b1) idx
  end.
Fixpoint write_docs (ds : list doc) (b : encbuf) : encbuf :=
  match ds with [] => b | d :: r => write_docs r (write_doc d b) end.

(* ------------------------------------------------------------------ *)
(** ** Buffers, the pool, and goroutines *)

(** The destination of an EncoderBuffer: nil, a writer, or an EncoderBuffer that was
    flushed before it was given to Reset: writing to it panics. *)
Inductive dst := DstNil | DstWriter | DstDead.
(** encbuffer.go:312-317 *)
Record ebuf := EB { e_buf : option nat; e_dst : dst; e_own : bool }.
Definition eb_zero : ebuf := EB None DstNil false.
(** encbuffer.go:230-235 encReader; the buffer is a pointer here. *)
Record rdr := Rdr { d_buf : option nat; d_lhpos : nat; d_strpos : N; d_piece : option (list N) }.

(** The variables of one goroutine. *)
Record loc := Loc { vars : list ebuf; rdrs : list rdr }.
(** Memory: the buffers by address, the pool, the first address that was never used. *)
Record mem := Mem { bufs : gmap nat encbuf; pool : list nat; nextid : nat }.

(** The argument of NewEncoderBuffer and Reset: nil, a writer, another EncoderBuffer. *)
Inductive dest := ToNil | ToWriter | ToVar (j : nat).

Inductive op :=
| ONew (d : dest)                                (* w := NewEncoderBuffer(d) *)
| OReset (j : nat) (d : dest)                    (* w.Reset(d) *)
| OCopy (j : nat)                                (* v := w *)
| OWrite (j : nat) (f : encbuf -> encbuf * nat)  (* a writing method, with its answer *)
| OToBytes (j : nat)
| OFlush (j : nat)
| OReader (f : encbuf -> encbuf)                 (* EncodeToReader *)
| ORead (r n : nat).                             (* Read into n bytes *)

Inductive out := OutNone | OutPanic | OutNum (n : nat) | OutBytes (bs : list N) | OutRead (bs : list N) (eof : bool).

Fixpoint remove_one (g : nat) (l : list nat) : list nat :=
  match l with [] => [] | x :: r => if decide (x = g) then r else x :: remove_one g r end.

(** sync.Pool.Get: [ch] is the buffer of the pool that is handed out, None a new one. *)
Definition pool_get (m : mem) (ch : option nat) : option (mem * nat) :=
  match ch with
  | None => Some (Mem (<[nextid m := eb_empty]> (bufs m)) (pool m) (S (nextid m)), nextid m)
  | Some g => if decide (g ∈ pool m) then Some (Mem (bufs m) (remove_one g (pool m)) (nextid m), g) else None
  end.
Definition pool_put (m : mem) (g : nat) : mem := Mem (bufs m) (g :: pool m) (nextid m).
Definition set_buf (m : mem) (g : nat) (b : encbuf) : mem := Mem (<[g := b]> (bufs m)) (pool m) (nextid m).
Definition buf_at (m : mem) (g : nat) : encbuf := default eb_empty (bufs m !! g).

(** encbuffer.go:47-51 reset: what is in the slices is cut off. *)
Definition reset_buf (b : encbuf) : encbuf := EncBuf (take 0 (eb_str b)) (take 0 (eb_heads b)) 0.

(** encbuffer.go:295-306 encBufferFromWriter, with the destination it leaves otherwise. *)
Definition outer_of (l : loc) (d : dest) : option (option nat * dst) :=
  match d with
  | ToNil => Some (None, DstNil)
  | ToWriter => Some (None, DstWriter)
  | ToVar j => match vars l !! j with
               | Some w => Some (e_buf w, match e_buf w with None => DstDead | Some _ => DstNil end)
               | None => None
               end
  end.

(** encbuffer.go:327-348 Reset of [w]: memory, the new value of w, whether it panics. *)
Definition reset_var (m : mem) (l : loc) (w : ebuf) (d : dest) (ch : option nat) : option (mem * ebuf * bool) :=
  match e_buf w, e_own w with
  | Some _, false => Some (m, w, true)
  | _, _ =>
      match outer_of l d with
      | None => None
      | Some (Some g, _) => Some (m, EB (Some g) DstNil false, false)
      | Some (None, dd) =>
          match e_buf w with
          | Some g => Some (set_buf m g (reset_buf (buf_at m g)), EB (Some g) dd (e_own w), false)
          | None => match pool_get m ch with
                    | Some (m', g) => Some (set_buf m' g (reset_buf (buf_at m' g)), EB (Some g) dd true, false)
                    | None => None
                    end
          end
      end
  end.

(** One operation of a goroutine. None: no such variable, or [ch] is no buffer of the pool. *)
Definition step_op (m : mem) (l : loc) (o : op) (ch : option nat) : option (mem * loc * out) :=
  match o with
  | ONew d =>                                                  (* encbuffer.go:320-324 *)
      match reset_var m l eb_zero d ch with
      | Some (m', w, _) => Some (m', Loc (vars l ++ [w]) (rdrs l), OutNone)
      | None => None
      end
  | OReset j d =>
      match vars l !! j with
      | Some w => match reset_var m l w d ch with
                  | Some (m', w', p) => Some (m', Loc (<[j := w']> (vars l)) (rdrs l), if p then OutPanic else OutNone)
                  | None => None
                  end
      | None => None
      end
  | OCopy j =>
      match vars l !! j with
      | Some w => Some (m, Loc (vars l ++ [w]) (rdrs l), OutNone)
      | None => None
      end
  | OWrite j f =>                                              (* encbuffer.go:378-424 *)
      match vars l !! j with
      | Some w => match e_buf w with
                  | Some g => let '(b, n) := f (buf_at m g) in Some (set_buf m g b, l, OutNum n)
                  | None => Some (m, l, OutPanic)
                  end
      | None => None
      end
  | OToBytes j =>                                              (* encbuffer.go:366-368 *)
      match vars l !! j with
      | Some w => match e_buf w with
                  | Some g => Some (m, l, OutBytes (makeBytes (buf_at m g)))
                  | None => Some (m, l, OutPanic)
                  end
      | None => None
      end
  | OFlush j =>                                                (* encbuffer.go:352-363 *)
      match vars l !! j with
      | Some w =>
          let done_ (o : out) :=
            let m' := match e_buf w with Some g => if e_own w then pool_put m g else m | None => m end in
            Some (m', Loc (<[j := eb_zero]> (vars l)) (rdrs l), o) in
          match e_dst w, e_buf w with
          | DstNil, _ => done_ OutNone
          | _, None => Some (m, l, OutPanic)
          | DstWriter, Some g => done_ (OutBytes (fst (writeTo (buf_at m g) None)))
          | DstDead, Some g =>
              match fst (writeTo (buf_at m g) None) with [] => done_ OutNone | _ => Some (m, l, OutPanic) end
          end
      | None => None
      end
  | OReader f =>                                               (* encode.go:90-102, encbuffer.go:41-45 *)
      match pool_get m ch with
      | Some (m', g) =>
          let b := f (reset_buf (buf_at m' g)) in
          Some (set_buf m' g b, Loc (vars l) (rdrs l ++ [Rdr (Some g) 0 0 None]), OutNum (N.to_nat (eb_size b)))
      | None => None
      end
  | ORead r n =>                                               (* encbuffer.go:237-258 *)
      match rdrs l !! r with
      | Some d =>
          let er := EncReader (buf_at m <$> d_buf d) (d_lhpos d) (d_strpos d) (d_piece d) in
          let '(bs, eof, er') := er_read (er_fuel er) er n in
          let left := if eof then None else d_buf d in
          let m' := match d_buf d with Some g => if eof then pool_put m g else m | None => m end in
          Some (m', Loc (vars l) (<[r := Rdr left (er_lhpos er') (er_strpos er') (er_piece er')]> (rdrs l)), OutRead bs eof)
      | None => None
      end
  end.

(** All goroutines; [outs] are their answers, newest last. *)
Record conf := Conf { cm : mem; locs : list loc; outs : list (list out) }.
Definition mem0 : mem := Mem ∅ [] 0.
Definition loc0 : loc := Loc [] [].
Definition initial (n : nat) : conf := Conf mem0 (replicate n loc0) (replicate n []).

(** A step of goroutine i, or the pool forgets a buffer. *)
Inductive label := LOp (i : nat) (o : op) (ch : option nat) | LForget (g : nat).

Definition step (c : conf) (b : label) : option conf :=
  match b with
  | LOp i o ch =>
      match locs c !! i, outs c !! i with
      | Some l, Some os =>
          match step_op (cm c) l o ch with
          | Some (m', l', x) => Some (Conf m' (<[i := l']> (locs c)) (<[i := os ++ [x]]> (outs c)))
          | None => None
          end
      | _, _ => None
      end
  | LForget g => Some (Conf (Mem (bufs (cm c)) (remove_one g (pool (cm c))) (nextid (cm c))) (locs c) (outs c))
  end.
Fixpoint exec (c : conf) (sch : list label) : option conf :=
  match sch with
  | [] => Some c
  | b :: r => match step c b with Some c' => exec c' r | None => None end
  end.
