(** Model of the Merkle part of hash.go. [H] is the system hash (Keccak-256 of
    the concatenation of the arguments, hash.go:728-749), a parameter. Go [int]
    is Z (sizes are far below 2^63). *)
From Verif Require Export MerkleSpec.

(* basic.go:1462-1471 Hash.SetBytes on a zero Hash / BytesToHash: keep the last 32
   bytes, left pad with zeros. *)
Definition bytes_to_hash (b : list N) : list N :=
  let b := drop (length b - 32) b in replicate (32 - length b) 0 ++ b.

(* ---------------------------------------------------------- MoreTimes *)
(* hash.go:39-44 *)
Record moretime := MT { mt_index : Z; mt_times : Z }.
Global Instance moretime_eq_dec : EqDecision moretime.
Proof. solve_decision. Defined.

(* hash.go:86-88 MoreTime.IsValid *)
Definition mt_valid (m : moretime) : bool := (0 <=? mt_index m)%Z && (0 <? mt_times m)%Z.

(* hash.go:118-136 MoreTimes.IsValid; nil and empty are identified in the model,
   so the [len(ms)==0 -> false] case of a non-nil empty slice is not modelled *)
Fixpoint mts_valid_loop (last : Z) (ms : list moretime) : bool :=
  match ms with
  | [] => true
  | m :: r => mt_valid m && negb (mt_index m <=? last)%Z && mts_valid_loop (mt_index m) r
  end.
Definition mts_valid (ms : list moretime) : bool := mts_valid_loop 0 ms.

(* hash.go:157-168 MoreTimes.Find; sort.Search on an increasing list is the first
   position whose predicate holds: modelled as a linear search *)
Fixpoint mts_find (ms : list moretime) (index : Z) : option Z :=
  match ms with
  | [] => None
  | m :: r => if (index <=? mt_index m)%Z
              then if (mt_index m =? index)%Z then Some (mt_times m) else None
              else mts_find r index
  end.

(* hash.go:170-193 MoreTimes.Append *)
Definition mts_append (ms : list moretime) (index : Z) : list moretime :=
  if (index <? 0)%Z then ms else
  match last ms with
  | None => [MT index 1]
  | Some l =>
      if (mt_index l =? index)%Z
      then take (length ms - 1) ms ++ [MT (mt_index l) (mt_times l + 1)]
      else if (mt_index l <? index)%Z then ms ++ [MT index 1]
      else ms
  end.

(* hash.go:195-206 MoreTimes.Count *)
Definition mts_count (ms : list moretime) : Z :=
  foldl (fun c m => if (0 <? mt_times m)%Z then (c + mt_times m)%Z else c) 0%Z ms.

(* hash.go:94-103 MoreTime._border *)
Definition mt_border (m prev : moretime) (prevb : Z * Z) : Z * Z :=
  if negb (mt_valid prev) then (mt_index m, mt_index m + mt_times m)%Z
  else let s := (prevb.2 + mt_index m - mt_index prev)%Z in (s, s + mt_times m)%Z.

(* hash.go:73-81 fullBorder.compared *)
Definition border_compared (f : Z * Z) (i : Z) : Z :=
  if (i <? f.1)%Z then (-1)%Z
  else if (f.1 <=? i)%Z && (i <=? f.2)%Z then 0%Z else 1%Z.

(* hash.go:209-229 MoreTimes.GetHashsIndex *)
Fixpoint ghi_loop (ms : list moretime) (lastMt : moretime) (lastB : Z * Z) (i : Z) : Z :=
  match ms with
  | [] => (i - lastB.2 + mt_index lastMt)%Z
  | m :: r =>
      let b := mt_border m lastMt lastB in
      let c := border_compared b i in
      if (c <? 0)%Z then (i - lastB.2 + mt_index lastMt)%Z
      else if (c =? 0)%Z then mt_index m
      else ghi_loop r m b i
  end.
Definition get_hashs_index (ms : list moretime) (i : Z) : Z :=
  if bool_decide (ms = []) || (i <=? 0)%Z then i
  else ghi_loop ms (MT 0 0) (0, 0)%Z i.

(* ------------------------------------------------------- MerkleProofs *)
(* hash.go:254-264. Paths is a *big.Int that is never negative: option N, None = nil *)
Record mproofs := MP { mp_hashs : list (list N); mp_paths : option N; mp_repeats : list moretime }.

(* hash.go:266-270 NewMerkleProofs *)
Definition mp_new : mproofs := MP [] (Some 0) [].

(* hash.go:309-314 Len *)
Definition mp_len (p : mproofs) : Z := (Z.of_nat (length (mp_hashs p)) + mts_count (mp_repeats p))%Z.

(* math/big Int.SetBit for non-negative numbers *)
Definition set_bit (x : N) (i : Z) (b : bool) : N :=
  if b then N.setbit x (Z.to_N i) else N.clearbit x (Z.to_N i).

(* hash.go:316-329 BigKey; [None] on nil Paths is the nil dereference panic. The
   result is the new value of bigKey and the returned position. *)
Fixpoint bigkey_loop (n : nat) (paths : N) (key : N) (startAt i : Z) : N :=
  match n with
  | O => key
  | S n' => bigkey_loop n' paths (set_bit key (i + startAt) (N.testbit paths (Z.to_N i)))
                        startAt (i + 1)%Z
  end.
Definition mp_bigkey (p : mproofs) (key : N) (startAt : Z) : option (N * Z) :=
  if (startAt <? 0)%Z then Some (key, startAt) else
  match mp_hashs p with
  | [] => Some (key, startAt)
  | _ => match mp_paths p with
         | None => None
         | Some paths => let l := mp_len p in
             Some (bigkey_loop (Z.to_nat l) paths key startAt 0, (l + startAt)%Z)
         end
  end.

(* hash.go:333-347 Append; None = panic (nil Paths with order=true) *)
Definition mp_append (p : mproofs) (h : list N) (order : bool) : option mproofs :=
  let '(hs, reps) :=
    match last (mp_hashs p) with
    | Some h' => if decide (h' = h)
                 then (mp_hashs p, mts_append (mp_repeats p) (Z.of_nat (length (mp_hashs p)) - 1)%Z)
                 else (mp_hashs p ++ [h], mp_repeats p)
    | None => (mp_hashs p ++ [h], mp_repeats p)
    end in
  if order then
    match mp_paths p with
    | None => None
    | Some paths => Some (MP hs (Some (set_bit paths (Z.of_nat (length hs) + mts_count reps - 1)%Z true)) reps)
    end
  else Some (MP hs (mp_paths p) reps).

(* hash.go:351-360 Order *)
Definition mp_order (p : mproofs) (i : Z) : bool :=
  match mp_paths p with None => false | Some n => N.testbit n (Z.to_N i) end.

(* hash.go:362-394 _hashsIterate. The callback never fails in the callers modelled
   here, so the function is modelled as producing the list of its calls
   (value, startFullIndex, times); [None] = error *)
Fixpoint skip_moretimes (i : Z) (cursor : moretime) (it : list moretime)
  : option (moretime * list moretime) :=
  match it with
  | [] => Some (cursor, [])
  | n :: r => if (mt_index cursor <? i)%Z
              then if mt_valid n then skip_moretimes i n r else None
              else Some (cursor, it)
  end.
Fixpoint hashs_iterate (hs : list (list N)) (i full : Z) (cursor : moretime) (it : list moretime)
  : option (list (list N * Z * Z)) :=
  match hs with
  | [] => Some []
  | v :: r =>
      match skip_moretimes i cursor it with
      | None => None
      | Some (cursor', it') =>
          let times := if (mt_index cursor' =? i)%Z then (mt_times cursor' + 1)%Z else 1%Z in
          match hashs_iterate r (i + 1)%Z (full + times)%Z cursor' it' with
          | None => None
          | Some l => Some ((v, full, times) :: l)
          end
      end
  end.

(* hash.go:396-410 Iterate / hash.go:412-425 ToItems: the sequence of (hash, order)
   passed to the callback *)
Definition mp_items (p : mproofs) : option (list (list N * bool)) :=
  match hashs_iterate (mp_hashs p) 0 0 (MT (-1) 0) (mp_repeats p) with
  | None => None
  | Some l => Some (flat_map (fun '(v, full, times) =>
                map (fun i => (v, mp_order p (full + Z.of_nat i)%Z)) (seq 0 (Z.to_nat times))) l)
  end.

Section model.
Context (H : list N -> list N).

(* hash.go:990-997 HashPair, hash.go:999-1005 HashPairOrder *)
Definition hash_pair (a b : list N) : list N := H (a ++ b).
Definition hash_pair_order (order : bool) (a b : list N) : list N :=
  if order then H (a ++ b) else H (b ++ a).

(* hash.go:429-440 Proof: None = error *)
Definition mp_proof (p : mproofs) (h : list N) : option (list N) :=
  match mp_items p with
  | None => None
  | Some its => Some (foldl (fun acc '(v, order) => hash_pair_order order v acc) h its)
  end.

(* hash.go:444-460 Get: None = error (nil Paths panics, also None) *)
Definition mp_get (p : mproofs) (i : Z) : option (list N * bool) :=
  if (i <? 0)%Z then None else
  let index := get_hashs_index (mp_repeats p) i in
  if (index <? 0)%Z || (Z.of_nat (length (mp_hashs p)) <=? index)%Z then None
  else match mp_hashs p !! Z.to_nat index, mp_paths p with
       | Some h, Some n => Some (h, N.testbit n (Z.to_N i))
       | _, _ => None
       end.

(* hash.go:868-871 / 947-952: smallest power of two >= n, starting from 2; the number
   of doublings is bounded by n, which is the fuel. Result: exponent *)
Fixpoint find_depth (fuel : nat) (d max n : nat) : nat :=
  match fuel with
  | O => d
  | S f => if (max <? n)%nat then find_depth f (S d) (2 * max) n else d
  end.

(* one proof step of the loops: hash.go:901-907, 970-976 *)
Definition add_proof (proofs : option mproofs) (t : Z) (p1 p2 : nat) (ba bb : list N)
  : option (option mproofs) :=
  match proofs with
  | None => Some None
  | Some p =>
      if (0 <=? t)%Z then
        if (t =? Z.of_nat p1)%Z then
          match mp_append p (bytes_to_hash bb) false with Some p' => Some (Some p') | None => None end
        else if (t =? Z.of_nat p2)%Z then
          match mp_append p (bytes_to_hash ba) true with Some p' => Some (Some p') | None => None end
        else Some proofs
      else Some proofs
  end.

(* hash.go:886-908: the inner loop of MerkleHashComplete. [src = Some l] in the first
   layer (hashList is the argument), [None] afterwards, when hashList is the very
   array [b] that is being overwritten. *)
Fixpoint mhc_inner (n i : nat) (src : option (list (list N))) (b : list (list N))
    (t : Z) (proofs : option mproofs) : option (list (list N) * option mproofs) :=
  match n with
  | O => Some (b, proofs)
  | S n' =>
      let hv p := nth p (match src with Some l => l | None => b end) (nilhash H) in
      let p1 := (2 * i)%nat in
      let p2 := S p1 in
      let ba := hv p1 in
      let bb := hv p2 in
      match add_proof proofs t p1 p2 ba bb with
      | None => None
      | Some proofs' => mhc_inner n' (S i) src (<[i := hash_pair ba bb]> b) t proofs'
      end
  end.

(* hash.go:882-917: the layers; [d] layers left, max = 2^d before the shift *)
Fixpoint mhc_layers (d : nat) (src : option (list (list N))) (b : list (list N))
    (t : Z) (proofs : option mproofs) : option (list (list N) * Z * option mproofs) :=
  match d with
  | O => Some (b, t, proofs)
  | S d' =>
      match mhc_inner (2 ^ d') 0 src b t proofs with
      | None => None
      | Some (b', proofs') =>
          mhc_layers d' None b' (if (0 <=? t)%Z then (t / 2)%Z else t) proofs'
      end
  end.

(* hash.go:861-926 MerkleHashComplete; None = panic *)
Definition merkle_hash_complete (l : list (list N)) (t : Z) (proofs : option mproofs)
  : option (list N * option mproofs) :=
  match l with
  | [] => Some (nilhash H, proofs)
  | _ =>
      let d := find_depth (length l) 1 2 (length l) in
      let b := replicate (2 ^ (d - 1)) [] in
      match mhc_layers d (Some l) b t proofs with
      | None => None
      | Some (b', t', proofs') =>
          let root := nth 0 b' [] in
          match proofs' with
          | Some p => if (t' <? 0)%Z
                      then match mp_append p (bytes_to_hash root) false with
                           | Some p' => Some (root, Some p') | None => None end
                      else Some (root, proofs')
          | None => Some (root, None)
          end
      end
  end.

(* hash.go:807-859 MerkleHashCompleteOld: explicit padding, fresh array per layer *)
Fixpoint mho_inner (n i : nat) (src : list (list N)) (t : Z) (proofs : option mproofs)
  : option (list (list N) * option mproofs) :=
  match n with
  | O => Some ([], proofs)
  | S n' =>
      let p1 := (2 * i)%nat in
      let p2 := S p1 in
      let ba := nth p1 src [] in
      let bb := nth p2 src [] in
      match add_proof proofs t p1 p2 ba bb with
      | None => None
      | Some proofs' =>
          match mho_inner n' (S i) src t proofs' with
          | None => None
          | Some (b, proofs'') => Some (hash_pair ba bb :: b, proofs'')
          end
      end
  end.
Fixpoint mho_layers (d : nat) (src : list (list N)) (t : Z) (proofs : option mproofs)
  : option (list (list N) * Z * option mproofs) :=
  match d with
  | O => Some (src, t, proofs)
  | S d' =>
      match mho_inner (2 ^ d') 0 src t proofs with
      | None => None
      | Some (b, proofs') => mho_layers d' b (if (0 <=? t)%Z then (t / 2)%Z else t) proofs'
      end
  end.
Definition merkle_hash_complete_old (l : list (list N)) (t : Z) (proofs : option mproofs)
  : option (list N * option mproofs) :=
  match l with
  | [] => Some (nilhash H, proofs)
  | _ =>
      let d := find_depth (length l) 1 2 (length l) in
      match mho_layers d (l ++ replicate (2 ^ d - length l) (nilhash H)) t proofs with
      | None => None
      | Some (b', t', proofs') =>
          let root := nth 0 b' [] in
          match proofs' with
          | Some p => if (t' <? 0)%Z
                      then match mp_append p (bytes_to_hash root) false with
                           | Some p' => Some (root, Some p') | None => None end
                      else Some (root, proofs')
          | None => Some (root, None)
          end
      end
  end.

(* hash.go:959-981: one layer of MerkleHash over the first [len] entries of the
   array, overwritten in place. [n] = number of pairs = (len+1)/2. *)
Fixpoint mh_inner (n i len : nat) (b : list (list N)) (t : Z) (proofs : option mproofs)
  : option (list (list N) * option mproofs) :=
  match n with
  | O => Some (b, proofs)
  | S n' =>
      let j := S i in
      let right := if (j <? len)%nat then nth j b [] else nilhash H in
      let left := nth i b [] in
      match add_proof proofs t i j left right with
      | None => None
      | Some proofs' => mh_inner n' (i + 2) len (<[i / 2 := hash_pair left right]> b)%nat t proofs'
      end
  end.
Fixpoint mh_layers (d len : nat) (b : list (list N)) (t : Z) (proofs : option mproofs)
  : option (list (list N) * option mproofs) :=
  match d with
  | O => Some (b, proofs)
  | S d' =>
      match mh_inner ((len + 1) / 2) 0 len b t proofs with
      | None => None
      | Some (b', proofs') =>
          mh_layers d' ((len + 1) / 2) b' (if (0 <=? t)%Z then (t / 2)%Z else t) proofs'
      end
  end.
(* hash.go:939-988 MerkleHash *)
Definition merkle_hash (l : list (list N)) (t : Z) (proofs : option mproofs)
  : option (list N * option mproofs) :=
  match l with
  | [] => Some (nilhash H, proofs)
  | _ =>
      let d := find_depth (length l) 1 2 (length l) in
      match mh_layers d (length l) l t proofs with
      | None => None
      | Some (b', proofs') => Some (nth 0 b' [], proofs')
      end
  end.

(* hash.go:755-768 SlicesToHashs, 770-778 SlicesMerkleHash(Complete) *)
Definition slices_to_hashs (vs : list (list N)) : list (list N) :=
  map (fun v => match v with [] => nilhash H | _ => H v end) vs.
Definition slices_merkle_hash vs t proofs := merkle_hash (slices_to_hashs vs) t proofs.
Definition slices_merkle_hash_complete vs t proofs := merkle_hash_complete (slices_to_hashs vs) t proofs.
End model.

(* ------------------------------------------------------ serialization *)
(* An io.Reader that holds these chunks: Read returns at most the rest of the first
   chunk; a bytes.Buffer/bytes.Reader is a reader with one chunk. *)
Definition reader := list (list N).
Fixpoint rd_norm (r : reader) : reader :=
  match r with [] => [] | [] :: r' => rd_norm r' | c :: r' => c :: rd_norm r' end.

(* io.Reader.Read(buf) with len(buf)=n>0: bytes read (1..n) and rest, None = io.EOF *)
Definition rd_read (n : nat) (r : reader) : option (list N * reader) :=
  match rd_norm r with
  | [] => None
  | c :: r' => Some (take n c, rd_norm (drop n c :: r'))
  end.

(* io.ReadFull *)
Definition rd_full (n : nat) (r : reader) : option (list N * reader) :=
  (fix go (fuel n : nat) (r : reader) : option (list N * reader) :=
    match n, fuel with
    | O, _ => Some ([], r)
    | _, O => None
    | _, S f => match rd_read n r with
           | None => None
           | Some (b, r') => match go f (n - length b)%nat r' with
                             | None => None
                             | Some (b', r'') => Some (b ++ b', r'')
                             end
           end
    end) n n r.

Definition u16 (n : Z) : list N := be_fixed 2 (Z.to_N (n mod 65536)).

(* hash.go:462-481 writeArray: the bytes written *)
Definition write_array (a : list N) : list N := u16 (Z.of_nat (length a)) ++ a.

(* hash.go:483-498 readArray; a short Read leaves the tail of the zeroed buffer. The
   size buffer is a scratch buffer whose old contents survive a short read; here it is
   [old]. *)
Definition read_array (old : list N) (r : reader) : option (list N * reader) :=
  match rd_read 2 r with
  | None => None
  | Some (b, r1) =>
      let size := N.to_nat (be_num (b ++ drop (length b) old)) in
      if (size =? 0)%nat then Some ([], r1) else
      match rd_read size r1 with
      | None => None
      | Some (a, r2) => Some (a ++ replicate (size - length a) 0, r2)
      end
  end.

(* rtl flags (go-rtl): NilOrFalse = 0, NotNilOrTrue = 1, Version0 = 2; only the fact that
   they are different bytes matters *)
Definition fl_nil : N := 0.
Definition fl_notnil : N := 1.
Definition fl_version0 : N := 2.

(* hash.go:520-579 Serialization; [None] argument = nil pointer *)
Definition mp_serialize (p : option mproofs) : list N :=
  match p with
  | None => [fl_nil]
  | Some p =>
      [if bool_decide (mp_repeats p = []) then fl_notnil else fl_version0]
      ++ u16 (Z.of_nat (length (mp_hashs p))) ++ concat (mp_hashs p)
      ++ write_array (match mp_paths p with None => [] | Some n => be_bytes n end)
      ++ (if bool_decide (mp_repeats p = []) then []
          else u16 (Z.of_nat (length (mp_repeats p)))
               ++ flat_map (fun m => u16 (mt_index m) ++ u16 (mt_times m)) (mp_repeats p))
  end.

Fixpoint rd_hashes (n : nat) (r : reader) : option (list (list N) * reader) :=
  match n with
  | O => Some ([], r)
  | S n' => match rd_full 32 r with
            | None => None
            | Some (h, r1) => match rd_hashes n' r1 with
                              | None => None
                              | Some (hs, r2) => Some (h :: hs, r2)
                              end
            end
  end.
Fixpoint rd_moretimes (n : nat) (r : reader) : option (list moretime * reader) :=
  match n with
  | O => Some ([], r)
  | S n' => match rd_full 4 r with
            | None => None
            | Some (b, r1) =>
                match rd_moretimes n' r1 with
                | None => None
                | Some (ms, r2) =>
                    Some (MT (Z.of_N (be_num (take 2 b))) (Z.of_N (be_num (drop 2 b))) :: ms, r2)
                end
            end
  end.

(* hash.go:581-630 Deserialization: None = error, Some None = shouldBeNil *)
Definition mp_deserialize (r : reader) : option (option mproofs * reader) :=
  match rd_read 1 r with
  | None => None
  | Some (fl, r0) =>
      let flag := nth 0 fl 0 in
      if flag =? fl_nil then Some (None, r0) else
      match rd_full 2 r0 with
      | None => None
      | Some (sz, r1) =>
          match rd_hashes (N.to_nat (be_num sz)) r1 with
          | None => None
          | Some (hs, r2) =>
              match read_array sz r2 with
              | None => None
              | Some (arr, r3) =>
                  let paths := Some (be_num arr) in
                  if flag =? fl_version0 then
                    match rd_full 2 r3 with
                    | None => None
                    | Some (sz', r4) =>
                        match rd_moretimes (N.to_nat (be_num sz')) r4 with
                        | None => None
                        | Some (ms, r5) => Some (Some (MP hs paths ms), r5)
                        end
                    end
                  else Some (Some (MP hs paths []), r3)
              end
          end
      end
  end.

(* hash.go:272-292 MerkleProofs.Equal on non-nil proofs (Paths: math.CompareBigInt,
   which orders nil before every number) *)
Definition mp_equal (p o : mproofs) : bool :=
  bool_decide (mp_hashs p = mp_hashs o) && bool_decide (mp_paths p = mp_paths o)
  && bool_decide (mp_repeats p = mp_repeats o).
