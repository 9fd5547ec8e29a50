(** Model of package db: types.go, memdb.go, ldb.go, readonly.go, cacheddb.go,
    adapters.go.

    A database object is a tree: wrappers hold the database they wrap. Two wrappers
    over one database are modelled by moving the state of the wrapped database from one
    to the other between operations. Byte slices are immutable values, nil is [None];
    the code copies slices in MemDB.Put and MemDB.Get, a memBatch does not copy, so a
    caller that changes a slice between Put on a batch and the commit is outside the
    model. Locks: every method of temporaryDB and cachedDB holds the lock of the object
    from entry to exit; this file has one operation at a time, DbConcModel.v has the locks
    and the threads.

    External: sync.Map (a map), goleveldb (a map until it is closed, then every call
    returns an error; nil keys and values are stored as empty ones; Get returns a fresh
    non-nil slice), golang-lru (see BasicModel.v, here with byte string keys).

    Left out: KeyDatabase (adapters.go:178-210) cannot be constructed outside the
    package and nothing in the package constructs it; the cache statistics counters;
    file paths. *)
From Verif Require Export Base.
From stdpp Require Export gmap.
Global Open Scope N_scope.

Notation bkey := (list N).
Notation dmap := (gmap (list N) (list N)).
(** a Go byte slice: nil or bytes *)
Definition slice := option (list N).
(** string(s), and the contents of s *)
Definition str (s : slice) : list N := default [] s.

(* common.ErrNil; types.go:21-24; leveldb.ErrClosed; ldb.go:102; types.go:49 ErrAlreadyStopped *)
Inductive derr := ENil | EReadOnly | EClosed | EBatchType | EAlreadyStopped | ENotFound | EUser (e : N).
Inductive dres (A : Type) := DOk (a : A) | DErr (e : derr) | DPanic.
Arguments DOk {A} a. Arguments DErr {A} e. Arguments DPanic {A}.

(* types.go:26-35: copies prefix, then key, into a fresh slice *)
Definition PrefixKey (prefix key : slice) : slice := Some (str prefix ++ str key).
(* types.go:37-53 *)
Definition PrefixKey2 (p1 p2 key : slice) : slice := Some (str p1 ++ str p2 ++ str key).

(* memdb.go:31-37 batcher *)
Inductive cmd := CPut (k v : slice) | CDel (k : slice).

(** golang-lru with byte string keys: most recently used first *)
Definition cache := list (bkey * slice).
Fixpoint c_find (k : bkey) (l : cache) : option slice :=
  match l with
  | [] => None
  | (k', v) :: r => if decide (k = k') then Some v else c_find k r
  end.
Fixpoint c_remove (k : bkey) (l : cache) : cache :=
  match l with
  | [] => []
  | (k', v) :: r => if decide (k = k') then r else (k', v) :: c_remove k r
  end.
(** Get moves a found entry to the front *)
Definition c_touch (k : bkey) (l : cache) : cache :=
  match c_find k l with Some v => (k, v) :: c_remove k l | None => l end.
(** Add of a key that is present replaces the value and moves it to the front; of a
    key that is absent, evicts the oldest entry if there are too many *)
Definition c_add (cap : nat) (k : bkey) (v : slice) (l : cache) : cache :=
  match c_find k l with
  | Some _ => (k, v) :: c_remove k l
  | None => take cap ((k, v) :: l)
  end.

Inductive db :=
| Mem (m : dmap)                                             (* memdb.go:24 *)
| Ldb (closed : bool) (m : dmap)                             (* ldb.go:25 *)
| RO (d : db)                                                (* readonly.go:5 *)
| Tmp (read : db) (mem : dmap) (deleted : gset bkey)         (* readonly.go:45 *)
| Cached (cap : nat) (base : db) (c : cache)                 (* cacheddb.go:49 *)
| Pref (database : db) (keyPrefix : slice).                  (* adapters.go:71 *)

(** memBatch, ldbBatch, cachedBatch, KeyBatch and the nil interface. *)
Inductive batch :=
| MemB (cmds : list cmd)                                     (* memdb.go:27 *)
| LdbB (cmds : list cmd)                                     (* ldb.go:108; size is the length *)
| CacheB (b : batch) (keys : list bkey)                      (* cacheddb.go:26; the map as a list *)
| KeyB (b : batch) (prefix : slice)                          (* adapters.go:46, keyConvFunc = (prefix).key *)
| NilB.                                                      (* readonly.go:35 *)

(* memdb.go:44-46 *)
Definition NewMemDB : db := Mem ∅.
(* ldb.go:32-49, of an empty directory *)
Definition NewLDB : db := Ldb false ∅.
(* readonly.go:9-16 *)
Definition ReadOnly (d : db) : db := match d with RO _ => d | _ => RO d end.
(* readonly.go:52-63 *)
Definition Temporary (d : db) : db := match d with Tmp _ _ _ => d | _ => Tmp d ∅ ∅ end.
(* cacheddb.go:63-81, over the leveldb database d *)
Definition NewCachedDB (d : db) (cacheSize : Z) : db :=
  if (cacheSize <=? 0)%Z then d else Cached (Z.to_nat cacheSize) d [].
(* adapters.go:76-85 *)
Definition NewKeyPrefixedDataAdapter (d : db) (keyPrefix : slice) : db :=
  Pref d (match str keyPrefix with [] => None | l => Some l end).
(* adapters.go:98-103; CopyBytes keeps nil *)
Definition Rebase (d nd : db) : option db :=
  match d with Pref _ p => Some (Pref nd p) | _ => None end.
(* adapters.go:105-110 *)
Definition pkey (prefix key : slice) : slice :=
  match prefix with None => key | Some _ => PrefixKey prefix key end.

(* ------------------------------------------------------------- operations *)
(* memdb.go:61-71 *)
Definition mem_put (m : dmap) (k v : slice) : dmap * dres unit :=
  match k, v with
  | Some k, Some v => (<[k := v]> m, DOk tt)
  | _, _ => (m, DErr ENil)
  end.
(* readonly.go:65-72 *)
Definition tmp_put (m : dmap) (del : gset bkey) (k v : slice) : dmap * gset bkey * dres unit :=
  match mem_put m k v with
  | (m', DOk _) => (m', del ∖ {[str k]}, DOk tt)
  | (m', r) => (m', del, r)
  end.
(* readonly.go:112-116 *)
Definition tmp_delete (m : dmap) (del : gset bkey) (k : slice) : dmap * gset bkey :=
  (base.delete (str k) m, {[str k]} ∪ del).

(* memdb.go:61; ldb.go:71; readonly.go:18, 74; cacheddb.go:83-92; adapters.go:116, 132 *)
Fixpoint Put (d : db) (k v : slice) : db * dres unit :=
  match d with
  | Mem m => let '(m', r) := mem_put m k v in (Mem m', r)
  | Ldb true m => (Ldb true m, DErr EClosed)
  | Ldb false m => (Ldb false (<[str k := str v]> m), DOk tt)
  | RO d => (RO d, DErr EReadOnly)
  | Tmp rd m del => let '(m', del', r) := tmp_put m del k v in (Tmp rd m' del', r)
  | Cached cap b c =>
      let '(b', r) := Put b k v in
      match r with DOk _ => (Cached cap b' (c_remove (str k) c), DOk tt) | _ => (Cached cap b' c, r) end
  | Pref b p => let '(b', r) := Put b (pkey p k) v in (Pref b' p, r)
  end.

(* memdb.go:73-80; ldb.go:75; readonly.go:21, 80-92; cacheddb.go:94-104; adapters.go:136 *)
Fixpoint Has (d : db) (k : slice) : db * dres bool :=
  match d with
  | Mem m => (Mem m, DOk (match m !! str k with Some _ => true | None => false end))
  | Ldb true m => (Ldb true m, DErr EClosed)
  | Ldb false m => (Ldb false m, DOk (match m !! str k with Some _ => true | None => false end))
  | RO d => let '(d', r) := Has d k in (RO d', r)
  | Tmp rd m del =>
      if decide (str k ∈ del) then (Tmp rd m del, DOk false)
      else match m !! str k with
           | Some _ => (Tmp rd m del, DOk true)
           | None => let '(rd', r) := Has rd k in (Tmp rd' m del, r)
           end
  | Cached cap b c =>
      match c_find (str k) c with
      | Some _ => (Cached cap b (c_touch (str k) c), DOk true)
      | None => let '(b', r) := Has b k in (Cached cap b' c, r)
      end
  | Pref b p => let '(b', r) := Has b (pkey p k) in (Pref b' p, r)
  end.

(* memdb.go:82-93; ldb.go:79-87; readonly.go:25, 94-110; cacheddb.go:106-122;
   adapters.go:112, 140 *)
Fixpoint Get (d : db) (k : slice) : db * dres slice :=
  match d with
  | Mem m => (Mem m, DOk (m !! str k))
  | Ldb true m => (Ldb true m, DErr EClosed)
  | Ldb false m => (Ldb false m, DOk (m !! str k))
  | RO d => let '(d', r) := Get d k in (RO d', r)
  | Tmp rd m del =>
      if decide (str k ∈ del) then (Tmp rd m del, DOk None)
      else match m !! str k with
           | Some v => (Tmp rd m del, DOk (Some v))
           | None => let '(rd', r) := Get rd k in (Tmp rd' m del, r)
           end
  | Cached cap b c =>
      match c_find (str k) c with
      | Some v => (Cached cap b (c_touch (str k) c), DOk v)
      | None => let '(b', r) := Get b k in
                match r with
                | DOk v => (Cached cap b' (c_add cap (str k) v c), DOk v)
                | _ => (Cached cap b' c, r)
                end
      end
  | Pref b p => let '(b', r) := Get b (pkey p k) in (Pref b' p, r)
  end.

(* memdb.go:95-99; ldb.go:89; readonly.go:29, 118-122; cacheddb.go:124-130;
   adapters.go:144 *)
Fixpoint Delete (d : db) (k : slice) : db * dres unit :=
  match d with
  | Mem m => (Mem (base.delete (str k) m), DOk tt)
  | Ldb true m => (Ldb true m, DErr EClosed)
  | Ldb false m => (Ldb false (base.delete (str k) m), DOk tt)
  | RO d => (RO d, DErr EReadOnly)
  | Tmp rd m del => let '(m', del') := tmp_delete m del k in (Tmp rd m' del', DOk tt)
  | Cached cap b c => let '(b', r) := Delete b k in (Cached cap b' (c_remove (str k) c), r)
  | Pref b p => let '(b', r) := Delete b (pkey p k) in (Pref b' p, r)
  end.

(* memdb.go:101; ldb.go:93; readonly.go:33, 124; cacheddb.go:132; adapters.go:120 *)
Fixpoint NewBatch (d : db) : batch :=
  match d with
  | Mem _ => MemB []
  | Ldb _ _ => LdbB []
  | RO _ => NilB
  | Tmp _ _ _ => MemB []
  | Cached _ b _ => CacheB (NewBatch b) []
  | Pref b p => KeyB (NewBatch b) p
  end.

(** Put or Delete on a batch: memdb.go:125-133; ldb.go:113-123; cacheddb.go:31-45;
    adapters.go:51-65. None: a method call on a nil interface panics. *)
Definition cmd_key (c : cmd) : slice := match c with CPut k _ => k | CDel k => k end.
Definition cmd_conv (p : slice) (c : cmd) : cmd :=
  match c with CPut k v => CPut (pkey p k) v | CDel k => CDel (pkey p k) end.
Fixpoint batch_add (b : batch) (c : cmd) : option batch :=
  match b with
  | MemB cs => Some (MemB (cs ++ [c]))
  | LdbB cs => Some (LdbB (cs ++ [c]))
  | CacheB b ks => match batch_add b c with
                   | Some b' => Some (CacheB b' (str (cmd_key c) :: ks))
                   | None => None
                   end
  | KeyB b p => match batch_add b (cmd_conv p c) with
                | Some b' => Some (KeyB b' p)
                | None => None
                end
  | NilB => None
  end.
(* memdb.go:135; ldb.go:125; cacheddb.go:47; adapters.go:67. None: nil interface *)
Fixpoint batch_size (b : batch) : option nat :=
  match b with
  | MemB cs | LdbB cs => Some (length cs)
  | CacheB b _ | KeyB b _ => batch_size b
  | NilB => None
  end.

(* memdb.go:110-117: the errors of Put are ignored *)
Definition mem_cmd (m : dmap) (c : cmd) : dmap :=
  match c with CPut k v => (mem_put m k v).1 | CDel k => base.delete (str k) m end.
(* goleveldb: the records of a batch are applied in order *)
Definition ldb_cmd (m : dmap) (c : cmd) : dmap :=
  match c with CPut k v => <[str k := str v]> m | CDel k => base.delete (str k) m end.
(* readonly.go:135-142 *)
Definition tmp_cmd (s : dmap * gset bkey) (c : cmd) : dmap * gset bkey :=
  match c with
  | CPut k v => (tmp_put s.1 s.2 k v).1
  | CDel k => tmp_delete s.1 s.2 k
  end.

(* memdb.go:105-119; ldb.go:99-106 (the error of Write is dropped); readonly.go:37,
   128-144; cacheddb.go:141-152; adapters.go:124, 148 *)
Fixpoint Batch (d : db) (b : batch) : db * dres unit :=
  match d with
  | Mem m => match b with
             | MemB cs => (Mem (foldl mem_cmd m cs), DOk tt)
             | _ => (Mem m, DPanic)
             end
  | Ldb closed m => match b with
                    | LdbB cs => (Ldb closed (if closed then m else foldl ldb_cmd m cs), DOk tt)
                    | _ => (Ldb closed m, DErr EBatchType)
                    end
  | RO d => (RO d, DErr EReadOnly)
  | Tmp rd m del => match b with
                    | MemB cs => let '(m', del') := foldl tmp_cmd (m, del) cs in (Tmp rd m' del', DOk tt)
                    | _ => (Tmp rd m del, DPanic)
                    end
  | Cached cap bs c =>
      let '(c', b') := match b with
                       | CacheB b' ks => (foldl (fun c k => c_remove k c) c ks, b')
                       | _ => (c, b)
                       end in
      let '(bs', r) := Batch bs b' in (Cached cap bs' c', r)
  | Pref bs p => let '(bs', r) := Batch bs b in (Pref bs' p, r)
  end.

(* memdb.go:121; ldb.go:59-65 under AbstractService.Close; readonly.go:41, 146;
   cacheddb.go:154; adapters.go:152 *)
Fixpoint Close (d : db) : db * dres unit :=
  match d with
  | Mem m => (Mem m, DOk tt)
  | Ldb true m => (Ldb true m, DErr EAlreadyStopped)
  | Ldb false m => (Ldb true m, DOk tt)
  | RO d => (RO d, DErr EReadOnly)
  | Tmp rd m del => (Tmp rd m del, DOk tt)
  | Cached cap b c => let '(b', r) := Close b in (Cached cap b' c, r)
  | Pref b p => (Pref b p, DOk tt)
  end.

(* cacheddb.go:160-177: (the cached database over the new one, the old one); lru.New
   does not fail for the positive size the cache was made with *)
Definition Replace (d nd : db) : option (db * db) :=
  match d with Cached cap b c => Some (Cached cap nd [], b) | _ => None end.

(* types.go:75-84 *)
Definition GetNilError (d : db) (k : slice) : db * dres slice :=
  let '(d', r) := Get d k in
  (d', match r with
       | DOk v => match str v with [] => DErr ENotFound | _ => DOk v end
       | _ => r
       end).

(** Put/Delete commands on a batch, in order. *)
Fixpoint batch_adds (b : batch) (cs : list cmd) : option batch :=
  match cs with
  | [] => Some b
  | c :: cs' => match batch_add b c with Some b' => batch_adds b' cs' | None => None end
  end.

(* types.go:86-111. The callback of index i: the commands it issues on the writer, the
   ok result and the error. Result: the database, the count, and the outcome. *)
Section batch_write.
  Context (threshold : Z) (length_ : nat) (write : nat -> list cmd * bool * option N).
  Fixpoint bw_loop (fuel i : nat) (d : db) (b : batch) (index count : nat) : db * nat * dres unit :=
    match fuel with
    | O => (d, count, DOk tt)
    | S fuel' =>
        let b := if (index =? 0)%nat then NewBatch d else b in
        let '(cs, ok, err) := write i in
        match batch_adds b cs with
        | None => (d, count, DPanic)
        | Some b =>
            match err with
            | Some e => (d, count, DErr (EUser e))
            | None =>
                if negb ok then bw_loop fuel' (S i) d b index count
                else
                  let index := S index in
                  if (Z.of_nat index =? threshold)%Z || (i =? length_ - 1)%nat then
                    let '(d', r) := Batch d b in
                    match r with
                    | DOk _ => bw_loop fuel' (S i) d' b 0 (count + index)
                    | _ => (d', count, r)
                    end
                  else bw_loop fuel' (S i) d b index count
            end
        end
    end.
  Definition BatchWrite (d : db) : db * nat * dres unit := bw_loop length_ 0 d NilB 0 0.
End batch_write.

(* --------------------------------------------------------------- histories *)
Inductive op := OPut (k v : slice) | OGet (k : slice) | OHas (k : slice) | ODel (k : slice)
              | OBatch (cs : list cmd).     (* NewBatch, the commands, then Batch *)
Inductive out := RUnit (r : dres unit) | RVal (r : dres slice) | RBool (r : dres bool).
Definition step (d : db) (o : op) : db * out :=
  match o with
  | OPut k v => let '(d', r) := Put d k v in (d', RUnit r)
  | OGet k => let '(d', r) := Get d k in (d', RVal r)
  | OHas k => let '(d', r) := Has d k in (d', RBool r)
  | ODel k => let '(d', r) := Delete d k in (d', RUnit r)
  | OBatch cs => match batch_adds (NewBatch d) cs with
                 | None => (d, RUnit DPanic)
                 | Some b => let '(d', r) := Batch d b in (d', RUnit r)
                 end
  end.
Fixpoint run (d : db) (os : list op) : db * list out :=
  match os with
  | [] => (d, [])
  | o :: os' => let '(d1, r) := step d o in let '(d2, rs) := run d1 os' in (d2, r :: rs)
  end.
