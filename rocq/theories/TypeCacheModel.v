(** Model of rlp/typecache.go: the cache of decoders and writers that all goroutines use.

    A reader loads the current map (an atomic.Value) without a lock. A type that is not in
    it is generated under a mutex, in a copy of the map that is stored when it is done.
    Goroutines run in any order, one access to shared memory at a time; a panic may end a
    generation at any point (the mutex is unlocked by defer). What is simplified:
    - what makeDecoder and makeWriter look up for a type is the parameter [need];
    - an entry holds, for its decoder and its writer, nil, an error, or a closure over the
      entries that were looked up; reading decoderErr or writerErr of an entry that is not
      made yet gives nil;
    - memory is sequentially consistent. Go guarantees that what was written before
      atomic.Value's Store is seen after the Load. *)
From Verif Require Export TypeCacheSpec.
From stdpp Require Import gmap.

Section cache.
  Context (need : side -> nat -> option (list nat)).

  (** A call of makeDecoder or makeWriter inside typeinfo.generate (typecache.go:182-185):
      the type, its entry, what is still to be looked up and what was found. *)
  Record frame := Frame { f_key : nat; f_loc : nat; f_side : side; f_todo : list nat; f_got : list nat }.

  (** A goroutine. *)
  Inductive tstate :=
  | TIdle
  | TLook (k : nat)                              (* info, before line 75 *)
  | TLock (k : nat)                              (* generate, before line 84 *)
  | TCheck (k : nat)                             (* holds the mutex, before line 87 *)
  | TGen (k l : nat) (fs : list frame)           (* lines 99-102; l: the entry of k *)
  | TUnlock (k l : nat)                          (* before the deferred Unlock *)
  | TDone (k l : nat).                           (* has the entry and uses it *)

  (** typecache.go:49-55; [heap] holds the entries (line 115). *)
  Record conf := Conf {
    cur : gmap nat nat;
    next : gmap nat nat;
    heap : list info;
    mu : option nat;
    thr : list tstate;
  }.
  (** typecache.go:57-61 *)
  Definition initial (n : nat) : conf := Conf ∅ ∅ [] None (replicate n TIdle).

  Definition frame_of (s : side) (k l : nat) : frame :=
    Frame k l s (default [] (need s k)) [].

  (** decoderErr != nil, writerErr != nil (decode.go:272, 410, 450, encode.go:304, 348, 397) *)
  Definition has_err (h : list info) (s : side) (l : nat) : bool :=
    match h !! l with
    | Some e => match half_of s e with HErr => true | _ => false end
    | None => false
    end.
  (** What makeDecoder (decode.go:156-187) or makeWriter (encode.go:139-174) returns after
      its look-ups. *)
  Definition made (h : list info) (s : side) (k : nat) (got : list nat) : fn :=
    match need s k with
    | None => HErr
    | Some _ => if existsb (has_err h s) got then HErr else HFun got
    end.
  Definition set_half (s : side) (x : fn) (e : info) : info :=
    match s with Dec => Info x (i_wri e) | Wri => Info (i_dec e) x end.

  (** typecache.go:107-119 infoWhileGenerating: the entry, and the new frame if it is not
      there yet. *)
  Definition infoWhileGenerating (nx : gmap nat nat) (h : list info) (k : nat)
    : gmap nat nat * list info * nat * list frame :=
    match nx !! k with
    | Some l => (nx, h, l, [])
    | None => let l := length h in
              (<[k := l]> nx, h ++ [Info HNil HNil], l, [frame_of Dec k l])
    end.

  (** One step of a generation, with [f] the innermost call. *)
  Definition gen_step (nx : gmap nat nat) (h : list info) (f : frame) (fs : list frame)
    : gmap nat nat * list info * list frame :=
    match f_todo f with
    | k :: r =>
        let '(nx', h', l, new) := infoWhileGenerating nx h k in
        (nx', h', new ++ Frame (f_key f) (f_loc f) (f_side f) r (f_got f ++ [l]) :: fs)
    | [] =>
        let h' := alter (set_half (f_side f) (made h (f_side f) (f_key f) (f_got f))) (f_loc f) h in
        match f_side f with
        | Dec => (nx, h', frame_of Wri (f_key f) (f_loc f) :: fs)
        | Wri => (nx, h', fs)
        end
    end.

  Inductive label := LCall (k : nat) | LGo | LPanic.

  Definition step (c : conf) (i : nat) (b : label) : option conf :=
    match thr c !! i, b with
    | Some TIdle, LCall k =>
        Some (Conf (cur c) (next c) (heap c) (mu c) (<[i := TLook k]> (thr c)))
    | Some (TLook k), LGo =>                                    (* typecache.go:73-81 info *)
        match cur c !! k with
        | Some l => Some (Conf (cur c) (next c) (heap c) (mu c) (<[i := TDone k l]> (thr c)))
        | None => Some (Conf (cur c) (next c) (heap c) (mu c) (<[i := TLock k]> (thr c)))
        end
    | Some (TLock k), LGo =>                                    (* typecache.go:84 *)
        match mu c with
        | None => Some (Conf (cur c) (next c) (heap c) (Some i) (<[i := TCheck k]> (thr c)))
        | Some _ => None
        end
    | Some (TCheck k), LGo =>                                   (* typecache.go:87-99 *)
        match cur c !! k with
        | Some l => Some (Conf (cur c) (next c) (heap c) (mu c) (<[i := TUnlock k l]> (thr c)))
        | None =>
            let '(nx, h, l, fs) := infoWhileGenerating (cur c) (heap c) k in
            Some (Conf (cur c) nx h (mu c) (<[i := TGen k l fs]> (thr c)))
        end
    | Some (TGen k l (f :: fs)), LGo =>
        let '(nx, h, fs') := gen_step (next c) (heap c) f fs in
        Some (Conf (cur c) nx h (mu c) (<[i := TGen k l fs']> (thr c)))
    | Some (TGen k l []), LGo =>                                (* typecache.go:102-104 *)
        Some (Conf (next c) ∅ (heap c) (mu c) (<[i := TUnlock k l]> (thr c)))
    | Some (TGen _ _ _), LPanic =>                              (* typecache.go:85 *)
        Some (Conf (cur c) (next c) (heap c) None (<[i := TIdle]> (thr c)))
    | Some (TUnlock k l), LGo =>                                (* typecache.go:85 *)
        Some (Conf (cur c) (next c) (heap c) None (<[i := TDone k l]> (thr c)))
    | Some (TDone _ _), LGo =>
        Some (Conf (cur c) (next c) (heap c) (mu c) (<[i := TIdle]> (thr c)))
    | _, _ => None
    end.

  Fixpoint exec (c : conf) (sch : list (nat * label)) : option conf :=
    match sch with
    | [] => Some c
    | (i, b) :: r => match step c i b with Some c' => exec c' r | None => None end
    end.
End cache.
