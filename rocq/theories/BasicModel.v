(** Models of basic.go (heights, epochs, node id sets), chaininfo.go (chain ids,
    chain structures), shardinfo.go, types.go (service status, LruMap) and
    log.WithField. uint64/uint32 values are [N] in range; wrap-around is written
    out where the code can wrap. *)
From Verif Require Export NumModel.
From stdpp Require Export gmap.
Global Open Scope N_scope.

(* ------------------------------------------------------ heights, basic.go *)
(* basic.go:133-136 *)
Definition NilEpoch : N := MaxUint64.
Definition NilEra : N := MaxUint64.
Definition NilHeight : N := MaxUint64.
Definition NilBlock : N := 4294967295.
(* consts.go:37-39: NilChainID = ReservedMaxChainID = 1 << 20 *)
Definition NilChainID : N := 1048576.
Definition MainChainID : N := 0.

(** Compare is written out identically for EraNum (basic.go:714-729), EpochNum
    (basic.go:803-818), Height (basic.go:933-948) and ChainID
    (chaininfo.go:484-499); they differ only in the nil value. *)
Definition nil_compare (nil e o : N) : Z :=
  if e =? o then 0%Z
  else if e =? nil then (-1)%Z
  else if o =? nil then 1%Z
  else if e <? o then (-1)%Z else 1%Z.
Definition EraNum_Compare := nil_compare NilEra.
Definition EpochNum_Compare := nil_compare NilEpoch.
Definition Height_Compare := nil_compare NilHeight.
Definition ChainID_Compare := nil_compare NilChainID.

(** Cmp on pointers: EraNum basic.go:731-742, EpochNum basic.go:820-831. None is the
    nil pointer; [same] says that both arguments are the same pointer. *)
Definition ptr_cmp (cmp : N -> N -> Z) (same : bool) (e o : option N) : Z :=
  if same then 0%Z else
  match e, o with
  | None, None => 0%Z          (* two nil pointers are equal pointers *)
  | None, Some _ => (-1)%Z
  | Some _, None => 1%Z
  | Some e, Some o => cmp e o
  end.

(** Diff: EpochNum basic.go:786-801, Height basic.go:916-931 *)
Definition nil_diff (nil e o : N) : N * Z :=
  if e =? o then (0, 0%Z)
  else if e =? nil then (u64_add o 1, (-1)%Z)
  else if o =? nil then (u64_add e 1, 1%Z)
  else if e <? o then (u64_sub o e, (-1)%Z)
  else (u64_sub e o, 1%Z).

(** BlocksInEpoch and EpochsInEra are package variables (consts.go:20-21), so they
    are parameters. *)
Section heights.
  Context (B EIE : N).

  (* basic.go:833-842 *)
  Definition FirstHeight (en : N) : N :=
    if en =? NilEpoch then NilHeight else
    let '(r, overflow) := SafeMul en B in
    if overflow then NilHeight else r.
  (* basic.go:844-857 *)
  Definition LastHeight (en : N) : N :=
    if en =? NilEpoch then NilHeight else
    let '(r, overflow) := SafeMul en B in
    if overflow then NilHeight else
    let '(r, overflow) := SafeAdd r (u64_sub B 1) in
    if overflow then NilHeight else r.
  (* basic.go:889-891 *)
  Definition BlockNum_IsValid (bn : N) : bool := bn <? B.
  (* basic.go:893-895 *)
  Definition BlockNum_IsFirstOfEpoch (bn : N) : bool := bn =? 0.
  (* basic.go:898-900 *)
  Definition BlockNum_IsLastOfEpoch (bn : N) : bool := BlockNum_IsValid bn && (u64_add bn 1 =? B).
  (* basic.go:963-968 *)
  Definition Height_EraNum (h : N) : N :=
    if h =? NilHeight then NilEra else h / u64_mul B EIE.
  (* basic.go:970-975 *)
  Definition Height_EpochNum (h : N) : N := if h =? NilHeight then NilEpoch else h / B.
  (* basic.go:977-982 *)
  Definition Height_UsefulEpoch (h : N) : N := if h =? NilHeight then 0 else h / B.
  (* basic.go:984-989; the conversion to uint32 truncates *)
  Definition Height_BlockNum (h : N) : N :=
    if h =? NilHeight then NilBlock else (h mod B) mod 4294967296.
  (* basic.go:991-996 *)
  Definition Height_UsefulBlock (h : N) : N :=
    if h =? NilHeight then 0 else (h mod B) mod 4294967296.
  (* basic.go:998-1000 *)
  Definition Height_IsFirstOfEpoch (h : N) : bool := negb (h =? NilHeight) && (h mod B =? 0).
  (* basic.go:1003-1007 *)
  Definition Height_IsLastOfEpoch (h : N) : bool :=
    negb (h =? NilHeight) && (u64_add h 1 mod B =? 0).
  (* basic.go:1009-1016 *)
  Definition Height_Split (h : N) : N * N :=
    if h =? NilHeight then (NilEpoch, NilBlock) else (h / B, (h mod B) mod 4294967296).
  (* basic.go:1039-1053 *)
  Definition ToHeight (epoch bn : N) : N :=
    if (epoch =? NilEpoch) || negb (BlockNum_IsValid bn) then NilHeight else
    let '(h1, overflow) := SafeMul epoch B in
    if overflow then NilHeight else
    let '(h2, overflow) := SafeAdd h1 bn in
    if overflow then NilHeight else h2.

  (* basic.go:264-271; a committee size of 0 divides by zero: None is the panic.
     CommID is an int and may be negative. *)
  Definition ShouldPropose (i commSize : Z) : option Z :=
    if (commSize =? 0)%Z then None else
    let quotient := Z.quot (Z.of_N B) commSize in
    let remainder := Z.rem (Z.of_N B) commSize in
    Some (if (i <? remainder)%Z then (quotient + 1)%Z else quotient).
End heights.

(* basic.go:1018-1027 *)
Definition RemoveRemainder (h n : N) : N :=
  if (n =? 0) || (n =? 1) then h
  else if h =? NilHeight then NilHeight
  else u64_mul (h / n) n.
(* basic.go:950-954 *)
Definition Height_Bytes (h : N) : list N := be_fixed 8 h.
(* basic.go:1029-1037 *)
Definition BytesToHeight (bs : list N) : N :=
  if (8 <=? length bs)%nat then be_num (drop (length bs - 8) bs)
  else be_num (replicate (8 - length bs) 0 ++ bs).
(* chaininfo.go:474-478 *)
Definition ChainID_Bytes (id : N) : list N := be_fixed 4 id.
(* chaininfo.go:501-510 *)
Definition BytesToChainID (bs : list N) : N :=
  let buf := if (4 <? length bs)%nat then drop (length bs - 4) bs
             else if (length bs <? 4)%nat then replicate (4 - length bs) 0 ++ bs
             else bs in
  be_num buf.

(* ------------------------------------------- LastBlockMap, basic.go:224-249 *)
Inductive lbop := LBSet (k v : N) | LBGet (k : N) | LBCAS (k v : N).
Inductive lbres := LBUnit | LBVal (o : option N) | LBBool (b : bool).
Definition lb_step (m : gmap N N) (o : lbop) : gmap N N * lbres :=
  match o with
  | LBSet k v => (<[k:=v]> m, LBUnit)
  | LBGet k => (m, LBVal (m !! k))
  | LBCAS k v =>
      match m !! k with
      | Some v' => if v <=? v' then (m, LBBool false) else (<[k:=v]> m, LBBool true)
      | None => (<[k:=v]> m, LBBool true)
      end
  end.
Fixpoint lb_run (m : gmap N N) (os : list lbop) : gmap N N * list lbres :=
  match os with
  | [] => (m, [])
  | o :: os' => let '(m', r) := lb_step m o in
                let '(m'', rs) := lb_run m' os' in (m'', r :: rs)
  end.

(* ------------------------------------------------ chain structures *)
(* consts.go:54-60 *)
Inductive chainmode := Root | Branch | Shard | UnknownMode.
Global Instance chainmode_eq_dec : EqDecision chainmode. Proof. solve_decision. Defined.
Record chainstruct := ChainStruct { cs_id : N; cs_parent : N; cs_mode : chainmode }.

(* chaininfo.go:585-605; [standalone] is the package variable StandAlone *)
Definition NewChainStruct (standalone : bool) (id parentId : N) : option chainstruct :=
  if id =? NilChainID then None
  else if parentId =? NilChainID then
    if id =? MainChainID then Some (ChainStruct id parentId Root)
    else if standalone then Some (ChainStruct id parentId Branch) else None
  else if parentId =? MainChainID then Some (ChainStruct id parentId Branch)
  else Some (ChainStruct id parentId Shard).

(* chaininfo.go:607-627; true is "no error" *)
Definition Validate (s : chainstruct) : bool :=
  match cs_mode s with
  | Root => negb (negb (cs_id s =? MainChainID) || negb (cs_parent s =? NilChainID))
  | Branch =>
      if (cs_id s =? MainChainID) || (cs_parent s =? NilChainID) then false
      else (cs_parent s =? MainChainID)
  | Shard =>
      if (cs_id s =? MainChainID) || (cs_parent s =? NilChainID) then false
      else negb (cs_parent s =? MainChainID)
  | UnknownMode => false
  end.

(* ------------------------------------------------ shards, shardinfo.go *)
(* chaininfo.go:542-544 Less; sort.Sort with a strict total order yields the unique
   sorted permutation, written here as insertion sort *)
Definition chain_less (a b : N) : bool := (ChainID_Compare a b <? 0)%Z.
Fixpoint chain_ins (a : N) (l : list N) : list N :=
  match l with
  | [] => [a]
  | b :: l' => if chain_less b a then b :: chain_ins a l' else a :: l
  end.
Definition chain_sort (l : list N) : list N := foldr chain_ins [] l.

Record accshards := AccShards { as_mask : N; as_parent : N; as_chains : list N }.

(* shardinfo.go:174-179: the loop that doubles length until it covers the shards;
   [fuel] iterations suffice when fuel >= number of shards *)
Fixpoint mask_loop (fuel : nat) (len bits n : N) : N :=
  match fuel with
  | O => bits
  | S f => if len <? n then mask_loop f (2 * len) (bits + 1) n else bits
  end.
(* shardinfo.go:161-190; None is the panic for more than 2^8 shards
   (MaxExponentOfShards = 8). Only the id of the parent ChainStruct matters. *)
Definition NewAccountShards (parent : N) (chains : list N) : option accshards :=
  match chains with
  | [] => Some (AccShards 0 parent [])
  | _ =>
      let cids := chain_sort chains in
      let bits := mask_loop (length cids) 1 0 (lenN cids) in
      if 8 <? bits then None else Some (AccShards bits parent cids)
  end.
(* shardinfo.go:192-209; rtl.Numeric.BytesToInt is the big-endian value *)
Definition as_index (s : accshards) (addr : list N) : N :=
  let byteSize := N.shiftr (as_mask s) 3 + 1 in
  let i := be_num (take (N.to_nat byteSize) addr) in
  let mask := N.land (as_mask s) 7 in
  if mask =? 0 then i else N.shiftr i (8 - mask).
(* shardinfo.go:211-218 *)
Definition as_shardTo (s : accshards) (addr : list N) : N :=
  match as_chains s with
  | [] => as_parent s
  | _ => nth (N.to_nat (as_index s addr mod lenN (as_chains s))) (as_chains s) 0
  end.
(* sort.Search: binary search for the smallest index in [i,j) at which f holds, with
   Go's midpoint int(uint(i+j) >> 1); [fuel] >= j - i iterations suffice *)
Fixpoint search_loop (fuel : nat) (f : nat -> bool) (i j : nat) : nat :=
  match fuel with
  | O => i
  | S fu => if (i <? j)%nat then
              let h := ((i + j) / 2)%nat in
              if f h then search_loop fu f i h else search_loop fu f (S h) j
            else i
  end.
Definition sort_search (n : nat) (f : nat -> bool) : nat := search_loop n f 0 n.
(* shardinfo.go:220-228 *)
Definition as_pos (s : accshards) (id : N) : Z :=
  let i := sort_search (length (as_chains s)) (fun j => id <=? nth j (as_chains s) 0) in
  match as_chains s !! i with
  | Some x => if x =? id then Z.of_nat i else (-1)%Z
  | None => (-1)%Z
  end.

Fixpoint dedup (seen : list N) (l : list N) : list N :=
  match l with
  | [] => []
  | x :: r => if existsb (N.eqb x) seen then dedup seen r else x :: dedup (x :: seen) r
  end.
(* shardinfo.go:242-278; [None] for shards is the nil slice; the result is the local
   id and the shards, None is a panic *)
Definition NewShardInfo (parent current : N) (shards : option (list N)) : option (N * accshards) :=
  match shards with
  | None =>
      if current =? NilChainID then s ← NewAccountShards parent []; Some (parent, s)
      else s ← NewAccountShards parent (if current =? parent then [] else [current]);
           Some (current, s)
  | Some l =>
      if current =? NilChainID then None else
      let sl := dedup [] l in
      let sl := if current =? parent then sl
                else if existsb (N.eqb current) sl then sl else sl ++ [current] in
      s ← NewAccountShards parent sl; Some (current, s)
  end.

(* ---------------------------------------- address shards, shardinfo.go:28-143 *)
Definition BytePos (p : N) : N := N.shiftr p 3.
Definition BitPos (p : N) : N := N.land p 7.
(* shardinfo.go:48-60; byte shifts drop the high bits *)
Definition Mask (p b : N) : N :=
  let bits := BitPos p in
  if bits =? 7 then b else if bits =? 0 then 0 else
  let sh := 7 - bits in (N.shiftl (N.shiftr b sh) sh) mod 256.
(* shardinfo.go:63-70 *)
Definition Bits_Bit (bs : list N) (index : N) : bool :=
  match bs !! N.to_nat (BytePos index) with
  | None => false
  | Some b => N.land (N.shiftr b (7 - BitPos index)) 1 =? 1
  end.
(* shardinfo.go:117-143 on a non-nil shard with non-negative Index *)
Fixpoint isin_loop (k : nat) (i : nat) (idx : N) (value addr : list N) : bool :=
  match k with
  | O => true
  | S k' =>
      match value !! i, addr !! i with
      | Some b, Some a =>
          (if (k' =? 0)%nat then Mask idx b =? Mask idx a else b =? a)
          && isin_loop k' (S i) idx value addr
      | _, _ => false
      end
  end.
Definition AddressShard_IsIn (idx : N) (value addr : list N) : bool :=
  let pos := N.to_nat (BytePos idx) in
  if (length addr <=? pos)%nat then false else isin_loop (S pos) 0 idx value addr.

(* ------------------------------------------------ service status, types.go *)
(* consts.go:86-92 *)
Inductive sstatus := SSCreated | SSInitialized | SSStarted | SSStopped.
Inductive serr := ErrAlreadyInitialized | ErrAlreadyStarted | ErrNeedInitialization
                | ErrNotStarted | ErrAlreadyStopped | ErrHook.
Inductive scall := CInit | CStart | CClose.
(* types.go:93-103 *)
Definition CheckInit (s : sstatus) : sstatus * option serr :=
  match s with
  | SSInitialized => (s, Some ErrAlreadyInitialized)
  | SSStarted => (s, Some ErrAlreadyStarted)
  | _ => (SSInitialized, None)
  end.
(* types.go:104-110 *)
Definition CheckStart (s : sstatus) : sstatus * option serr :=
  match s with SSInitialized => (SSStarted, None) | _ => (s, Some ErrNeedInitialization) end.
(* types.go:112-121 *)
Definition CheckStop (s : sstatus) : sstatus * option serr :=
  match s with
  | SSCreated | SSInitialized => (s, Some ErrNotStarted)
  | SSStopped => (s, Some ErrAlreadyStopped)
  | SSStarted => (SSStopped, None)
  end.
(** AbstractService.Init/Start/Close (types.go:157-200): one call under the service's
    mutex. [ok] is the outcome of the hook, should it run. The result is the new
    status, the hook that ran and the error returned. *)
Definition svc_call (s : sstatus) (c : scall) (ok : bool) : sstatus * option scall * option serr :=
  let '(s', e) := match c with CInit => CheckInit s | CStart => CheckStart s | CClose => CheckStop s end in
  match e with
  | Some e => (s', None, Some e)
  | None => (s', Some c, if ok then None else Some ErrHook)
  end.
Fixpoint svc_run (s : sstatus) (cs : list (scall * bool)) : sstatus * list scall * list (option serr) :=
  match cs with
  | [] => (s, [], [])
  | (c, ok) :: r =>
      let '(s1, h, e) := svc_call s c ok in
      let '(s2, hs, es) := svc_run s1 r in
      (s2, match h with Some h => h :: hs | None => hs end, e :: es)
  end.

(* ------------------------------------------------------ LruMap, types.go *)
(** The wrapped cache is github.com/hashicorp/golang-lru Cache (external): it keeps
    its entries in a list from most to least recently used; Add puts a new entry in
    front and drops the last one when there are more than [size]; Get moves the
    entry to the front; Contains does not change the order; Remove deletes. *)
Section lru.
  Context {V : Type}.
  Definition lru_state := list (N * V).
  Fixpoint lru_find (k : N) (l : lru_state) : option V :=
    match l with
    | [] => None
    | (k', v) :: r => if k =? k' then Some v else lru_find k r
    end.
  Fixpoint lru_drop (k : N) (l : lru_state) : lru_state :=
    match l with
    | [] => []
    | (k', v) :: r => if k =? k' then r else (k', v) :: lru_drop k r
    end.
  (* types.go:219-225 lru.New: the size must be positive (else NewLruMap panics) *)
  Inductive lru_op := LAdd (k : N) (v : V) | LGet (k : N) | LContains (k : N) | LRemove (k : N) | LClear.
  Inductive lru_res := LBool (b : bool) | LVal (v : option V) | LNone.
  (* types.go:227-253 *)
  Definition lru_step (cap : nat) (l : lru_state) (o : lru_op) : lru_state * lru_res :=
    match o with
    | LAdd k v => match lru_find k l with
                  | Some _ => (l, LBool false)
                  | None => (take cap ((k, v) :: l), LBool true)
                  end
    | LGet k => match lru_find k l with
                | Some v => ((k, v) :: lru_drop k l, LVal (Some v))
                | None => (l, LVal None)
                end
    | LContains k => (l, LBool (match lru_find k l with Some _ => true | None => false end))
    | LRemove k => (lru_drop k l, LNone)
    | LClear => ([], LNone)
    end.
  Fixpoint lru_run (cap : nat) (l : lru_state) (os : list lru_op) : lru_state * list lru_res :=
    match os with
    | [] => (l, [])
    | o :: os' => let '(l', r) := lru_step cap l o in
                  let '(l'', rs) := lru_run cap l' os' in (l'', r :: rs)
    end.
End lru.
Arguments lru_op : clear implicits.
Arguments lru_res : clear implicits.
Arguments lru_state : clear implicits.

(* --------------------------------------------------- log/log.go:193-207 *)
(** An argument of WithField: a string (a possible key) or another value. Every
    argument is also a possible value, so [A] is the type of arguments and [as_str]
    says whether one is a string. The result lists the fields written, in order
    (later ones win). *)
Fixpoint wf_loop {A} (as_str : A -> option (list N)) (fuel i half : nat) (vs : list A) : list (list N * A) :=
  match fuel with
  | O => []
  | S f =>
      if (i <? half)%nat then
        match vs !! i, vs !! S i with
        | Some k, Some v =>
            match as_str k with
            | Some s => (s, v) :: wf_loop as_str f (i + 2) half vs
            | None => wf_loop as_str f (i + 2) half vs
            end
        | _, _ => []   (* index out of range: does not happen, i + 1 < 2 * (l / 2) <= l *)
        end
      else []
  end.
Definition WithField {A} (as_str : A -> option (list N)) (vs : list A) : list (list N * A) :=
  if (length vs <=? 1)%nat then [] else wf_loop as_str (length vs) 0 (length vs / 2) vs.
