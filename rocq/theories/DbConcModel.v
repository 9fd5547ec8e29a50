(** The methods of cachedDB, temporaryDB and MemDB as seen by other threads: one micro-step
    is one access to a component that is safe for concurrent use. Used with LockModel.v.

    cachedDB: golang-lru has its own mutex, so Get, Add and Remove of the cache are one
    step each. The database below (any database of DbModel.v) is used by nobody else; a
    call of it is one step (goleveldb, MemDB and temporaryDB calls are atomic, and the
    calls that are not, MemDB.Batch and the wrappers' calls, run inside the exclusive lock
    or change nothing that a reader looks at). Left out: the statistics counters (plain
    fields under Lock, atomic adds under RLock; nothing reads them), NewBatch, Close,
    Replace (each holds Lock and makes its changes inside).

    temporaryDB: [deleted] is a plain Go map, [mem] is a MemDB; the database below is not
    written by anyone while the temporary database is used. *)
From stdpp Require Import gmap.
From Verif Require Import LockModel DbModel.

(* Lock or RLock: cacheddb.go:84, 95, 107, 125, 142; readonly.go:75, 81, 95, 119, 129 *)
Definition db_kind (o : op) : lkind :=
  match o with OGet _ | OHas _ => Shared | _ => Excl end.

(* --------------------------------------------------------------- cachedDB *)
Inductive clocal :=
| CGet0 (k : slice) | CGet1 (k : slice) | CGet2 (k : slice) (v : slice)
| CHas0 (k : slice) | CHas1 (k : slice)
| CPut0 (k v : slice) | CPut1 (k : slice)
| CDel0 (k : slice) | CDel1 (k : slice)
| CBat (ks : list bkey) (cs : list cmd).

(** cachedBatch.keys after the commands (cacheddb.go:31-45): a Go map, so no duplicates *)
Definition batch_keys (cs : list cmd) : list bkey := remove_dups (map (fun c => str (cmd_key c)) cs).
Definition c_start (o : op) : clocal :=
  match o with
  | OGet k => CGet0 k | OHas k => CHas0 k | OPut k v => CPut0 k v | ODel k => CDel0 k
  | OBatch cs => CBat (batch_keys cs) cs
  end.

Definition c_next (cap : nat) (ch : nat) (s : db * cache) (l : clocal) : option ((db * cache) * (clocal + out)) :=
  let '(b, c) := s in
  match l with
  (* cacheddb.go:109-114 *)
  | CGet0 k => match c_find (str k) c with
               | Some v => Some ((b, c_touch (str k) c), inr (RVal (DOk v)))
               | None => Some ((b, c), inl (CGet1 k))
               end
  (* cacheddb.go:116-119 *)
  | CGet1 k => let '(b', r) := Get b k in
               match r with
               | DOk v => Some ((b', c), inl (CGet2 k v))
               | r => Some ((b', c), inr (RVal r))
               end
  (* cacheddb.go:120-121 *)
  | CGet2 k v => Some ((b, c_add cap (str k) v c), inr (RVal (DOk v)))
  (* cacheddb.go:97-101 *)
  | CHas0 k => match c_find (str k) c with
               | Some _ => Some ((b, c_touch (str k) c), inr (RBool (DOk true)))
               | None => Some ((b, c), inl (CHas1 k))
               end
  (* cacheddb.go:103 *)
  | CHas1 k => let '(b', r) := Has b k in Some ((b', c), inr (RBool r))
  (* cacheddb.go:87-89 *)
  | CPut0 k v => let '(b', r) := Put b k v in
                 match r with
                 | DOk _ => Some ((b', c), inl (CPut1 k))
                 | r => Some ((b', c), inr (RUnit r))
                 end
  (* cacheddb.go:90-91 *)
  | CPut1 k => Some ((b, c_remove (str k) c), inr (RUnit (DOk tt)))
  (* cacheddb.go:128 *)
  | CDel0 k => Some ((b, c_remove (str k) c), inl (CDel1 k))
  (* cacheddb.go:129 *)
  | CDel1 k => let '(b', r) := Delete b k in Some ((b', c), inr (RUnit r))
  (* cacheddb.go:146-148: range over the map, in any order *)
  | CBat (k :: ks) cs =>
      let all := k :: ks in
      match all !! ch with
      | Some x => Some ((b, c_remove x c), inl (CBat (take ch all ++ drop (S ch) all) cs))
      | None => None
      end
  (* cacheddb.go:149-151; the batch of the database below has the same commands
     (cacheddb.go:31-45) *)
  | CBat [] cs => match batch_adds (NewBatch b) cs with
                  | Some bt => let '(b', r) := Batch b bt in Some ((b', c), inr (RUnit r))
                  | None => Some ((b, c), inr (RUnit DPanic))
                  end
  end.

(* ------------------------------------------------------------ temporaryDB *)
Inductive tlocal :=
| TGet0 (k : slice) | TGet1 (k : slice) | TGet2 (k : slice)
| THas0 (k : slice) | THas1 (k : slice) | THas2 (k : slice)
| TPut0 (k v : slice) | TPut1 (k : slice)
| TDel0 (k : slice) | TDel1 (k : slice)
| TBat (cs : list cmd) | TBatPut1 (k : slice) (cs : list cmd) | TBatDel1 (k : slice) (cs : list cmd).

Definition t_start (o : op) : tlocal :=
  match o with
  | OGet k => TGet0 k | OHas k => THas0 k | OPut k v => TPut0 k v | ODel k => TDel0 k
  | OBatch cs => TBat cs
  end.

(** the database below, mem, deleted *)
Record tstate := TS { t_read : db; t_mem : dmap; t_del : gset bkey }.

Definition t_next (ch : nat) (s : tstate) (l : tlocal) : option (tstate * (tlocal + out)) :=
  match l with
  (* readonly.go:97-100 *)
  | TGet0 k => if decide (str k ∈ t_del s) then Some (s, inr (RVal (DOk None))) else Some (s, inl (TGet1 k))
  (* readonly.go:101-107 *)
  | TGet1 k => match t_mem s !! str k with
               | Some v => Some (s, inr (RVal (DOk (Some v))))
               | None => Some (s, inl (TGet2 k))
               end
  (* readonly.go:108 *)
  | TGet2 k => let '(d', r) := Get (t_read s) k in Some (TS d' (t_mem s) (t_del s), inr (RVal r))
  (* readonly.go:83-86 *)
  | THas0 k => if decide (str k ∈ t_del s) then Some (s, inr (RBool (DOk false))) else Some (s, inl (THas1 k))
  (* readonly.go:87-90 *)
  | THas1 k => match t_mem s !! str k with
               | Some v => Some (s, inr (RBool (DOk true)))
               | None => Some (s, inl (THas2 k))
               end
  (* readonly.go:91 *)
  | THas2 k => let '(d', r) := Has (t_read s) k in Some (TS d' (t_mem s) (t_del s), inr (RBool r))
  (* readonly.go:66 *)
  | TPut0 k v => let '(m', r) := mem_put (t_mem s) k v in
                 match r with
                 | DOk _ => Some (TS (t_read s) m' (t_del s), inl (TPut1 k))
                 | r => Some (TS (t_read s) m' (t_del s), inr (RUnit r))
                 end
  (* readonly.go:67-68 *)
  | TPut1 k => Some (TS (t_read s) (t_mem s) (t_del s ∖ {[str k]}), inr (RUnit (DOk tt)))
  (* readonly.go:113 *)
  | TDel0 k => Some (TS (t_read s) (t_mem s) ({[str k]} ∪ t_del s), inl (TDel1 k))
  (* readonly.go:114-115 *)
  | TDel1 k => Some (TS (t_read s) (base.delete (str k) (t_mem s)) (t_del s), inr (RUnit (DOk tt)))
  (* readonly.go:135-143 *)
  | TBat [] => Some (s, inr (RUnit (DOk tt)))
  | TBat (CPut k v :: cs) =>
      let '(m', r) := mem_put (t_mem s) k v in
      match r with
      | DOk _ => Some (TS (t_read s) m' (t_del s), inl (TBatPut1 k cs))
      | _ => Some (TS (t_read s) m' (t_del s), inl (TBat cs))
      end
  | TBat (CDel k :: cs) => Some (TS (t_read s) (t_mem s) ({[str k]} ∪ t_del s), inl (TBatDel1 k cs))
  | TBatPut1 k cs => Some (TS (t_read s) (t_mem s) (t_del s ∖ {[str k]}), inl (TBat cs))
  | TBatDel1 k cs => Some (TS (t_read s) (base.delete (str k) (t_mem s)) (t_del s), inl (TBat cs))
  end.

(* ------------------------------------------------------------------ MemDB *)
(** no lock: sync.Map operations are atomic (memdb.go:61-99); Batch is a loop of them
    (memdb.go:105-119) *)
Inductive mlocal := MOp (o : op) | MBat (cs : list cmd).
Definition m_kind (o : op) : lkind := Shared.
Definition m_start (o : op) : mlocal := match o with OBatch cs => MBat cs | _ => MOp o end.
Definition m_next (ch : nat) (m : dmap) (l : mlocal) : option (dmap * (mlocal + out)) :=
  match l with
  | MOp o => let '(d', r) := step (Mem m) o in
             match d' with Mem m' => Some (m', inr r) | _ => None end
  | MBat [] => Some (m, inr (RUnit (DOk tt)))
  | MBat (c :: cs) => Some (mem_cmd m c, inl (MBat cs))
  end.
