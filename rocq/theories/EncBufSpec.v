(** What users of the incremental encoder rely on. *)
From Coq Require Import NArith Lia.
From Verif Require Export RlpSpec EncBufModel.
From stdpp Require Import gmap.
Local Open Scope N_scope.

(** The bytes of what is written: RLP of every value, raw bytes as they are, a list as the
    header for the length of what is between List and ListEnd. *)
Fixpoint enc_doc (d : doc) : list N :=
  match d with
  | DBytes bs => rlp (Str bs)
  | DUint n | DU256 n => rlp_nat n
  | DBig z => rlp_nat (Z.abs_N z)
  | DBool b => if b then [1] else [0x80]
  | DRaw bs => bs
  | DList ds =>
      let payload := (fix cat (l : list doc) : list N :=
                        match l with [] => [] | d :: l' => enc_doc d ++ cat l' end) ds in
      rlp_head 0xC0 0xF7 (lenN payload) ++ payload
  end.
Fixpoint enc_docs (ds : list doc) : list N :=
  match ds with [] => [] | d :: r => enc_doc d ++ enc_docs r end.

(** The types of the arguments. *)
Fixpoint doc_ok (d : doc) : Prop :=
  match d with
  | DUint n => n < 2 ^ 64
  | DU256 n => n < 2 ^ 256
  | DList ds => (fix all (l : list doc) : Prop := match l with [] => True | d :: l' => doc_ok d /\ all l' end) ds
  | _ => True
  end.

(** ** Goroutines that use buffers as they should *)

(** What goroutine i does in a schedule. *)
Fixpoint ops_of (i : nat) (sch : list label) : list op :=
  match sch with
  | [] => []
  | LOp j o _ :: r => if decide (i = j) then o :: ops_of i r else ops_of i r
  | LForget _ :: r => ops_of i r
  end.

(** The buffers an operation works on. *)
Definition var_buf (l : loc) (j : nat) : list nat :=
  match vars l !! j with Some w => option_list (e_buf w) | None => [] end.
Definition touches (l : loc) (o : op) : list nat :=
  match o with
  | OWrite j _ | OToBytes j => var_buf l j
  | OFlush j => match vars l !! j with
                | Some w => match e_dst w, e_own w with DstNil, false => [] | _, _ => option_list (e_buf w) end
                | None => []
                end
  | OReset j _ => match vars l !! j with Some w => if e_own w then option_list (e_buf w) else [] | None => [] end
  | ORead r _ => match rdrs l !! r with Some d => option_list (d_buf d) | None => [] end
  | _ => []
  end.

(** A goroutine alone with buffers that are never used twice. Its program is fit to run
    only if it never works on a buffer that it gave back: through a copy of an
    EncoderBuffer that was flushed, or one that was made from it. [None]: it does. *)
Definition alone_step (a : mem * loc * list out) (o : op) : option (mem * loc * list out) :=
  let '(m, l, os) := a in
  if existsb (fun g => bool_decide (g ∈ pool m)) (touches l o) then None
  else match step_op m l o None with
       | Some (m', l', x) => Some (m', l', os ++ [x])
       | None => None
       end.
Fixpoint alone_run (a : mem * loc * list out) (ops : list op) : option (mem * loc * list out) :=
  match ops with
  | [] => Some a
  | o :: r => match alone_step a o with Some a' => alone_run a' r | None => None end
  end.
Definition alone (ops : list op) : option (list out) :=
  match alone_run (mem0, loc0, []) ops with Some (_, _, os) => Some os | None => None end.

(** Values only, no raw bytes: the tree of strings and lists that was written. *)
Fixpoint no_raw (d : doc) : Prop :=
  match d with
  | DRaw _ => False
  | DList ds => (fix all (l : list doc) : Prop := match l with [] => True | d :: l' => no_raw d /\ all l' end) ds
  | _ => True
  end.
Fixpoint item_of (d : doc) : item :=
  match d with
  | DBytes bs | DRaw bs => Str bs
  | DUint n | DU256 n => Str (be_bytes n)
  | DBig z => Str (be_bytes (Z.abs_N z))
  | DBool b => Str (if b then [1] else [])
  | DList ds => Lst (map item_of ds)
  end.

(** The writes of a list of documents, as an operation. *)
Definition wr (ds : list doc) : encbuf -> encbuf * nat := fun b => (write_docs ds b, 0%nat).
