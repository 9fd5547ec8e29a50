(** Model of the byte-string helpers of bytes.go:194-385. Nil and empty slices are
    identified where the code does not tell them apart. *)
From Verif Require Export NumModel.
From stdpp Require Export gmap.
Global Open Scope N_scope.

Inductive bres (A : Type) := BOk (a : A) | BErr | BPanic.
Arguments BOk {A} a. Arguments BErr {A}. Arguments BPanic {A}.

(** copy(buf[p:], src) for src that fits. *)
Definition buf_put (p : nat) (src buf : list N) : list N :=
  take p buf ++ src ++ drop (p + length src) buf.

(* bytes.go:208-217 *)
Definition RightPadBytes (s : list N) (l : Z) : list N :=
  if (l <=? Z.of_nat (length s))%Z then s else buf_put 0 s (replicate (Z.to_nat l) 0).
(* bytes.go:220-229 *)
Definition LeftPadBytes (s : list N) (l : Z) : list N :=
  if (l <=? Z.of_nat (length s))%Z then s
  else buf_put (Z.to_nat l - length s) s (replicate (Z.to_nat l) 0).

(* bytes.go:194-205, after hex decoding *)
Definition FixLength (h : list N) (flen : nat) : list N :=
  if (length h =? flen)%nat then h
  else if (flen <? length h)%nat then drop (length h - flen) h
  else buf_put (flen - length h) h (replicate flen 0).

(* bytes.go:232-242. Go's % and / truncate (Z.rem, Z.quot). *)
Fixpoint split_loop (fuel p size : nat) (bs : list N) : list (list N) :=
  match fuel with
  | O => []
  | S f => if (p <? length bs)%nat then take size (drop p bs) :: split_loop f (p + size) size bs else []
  end.
Definition SplitBytes (bs : list N) (size : Z) : bres (list (list N)) :=
  if (size =? 0)%Z then BPanic                                   (* division by zero *)
  else if negb (Z.rem (Z.of_nat (length bs)) size =? 0)%Z then BErr
  else if (Z.quot (Z.of_nat (length bs)) size <? 0)%Z then BPanic (* make with negative capacity *)
  else BOk (split_loop (length bs) 0 (Z.to_nat size) bs).

(* bytes.go:245-261 *)
Fixpoint concat_size (bss : list (list N)) : nat :=
  match bss with [] => 0 | b :: r => (length b + concat_size r)%nat end.
Fixpoint concat_loop (p : nat) (bss : list (list N)) (buf : list N) : list N :=
  match bss with
  | [] => buf
  | b :: r => if (length b <=? 0)%nat then concat_loop p r buf
              else concat_loop (p + length b) r (buf_put p b buf)
  end.
Definition ConcatenateBytes (bss : list (list N)) : list N :=
  concat_loop 0 bss (replicate (concat_size bss) 0).

(* bytes.go:263-283 *)
Fixpoint inter_loop (m : gset (list N)) (y : list (list N)) : list (list N) :=
  match y with
  | [] => []
  | b :: r => if decide (b ∈ m) then b :: inter_loop (m ∖ {[b]}) r else inter_loop m r
  end.
Definition BytesIntersection (a b : list (list N)) : list (list N) :=
  if (length a =? 0)%nat || (length b =? 0)%nat then []
  else let '(x, y) := if (length a <? length b)%nat then (b, a) else (a, b) in
       inter_loop (list_to_set x) y.
(* bytes.go:285-297; [iter] lists the keys of a Go map *)
Definition BytesIntersectionMap (iter : gset (list N) -> list (list N)) (a : gset (list N)) (b : list (list N)) : list (list N) :=
  iter (foldl (fun rm bs => if decide (bs ∈ a) then {[bs]} ∪ rm else rm) ∅ b).

(* bytes.go:310-323; None is the nil slice *)
Fixpoint bse_loop (a b : list (list N)) : bool :=
  match a, b with
  | x :: a', y :: b' => if decide (x = y) then bse_loop a' b' else false
  | _, _ => true
  end.
Definition BytesSliceEqual (a b : option (list (list N))) : bool :=
  match a, b with
  | None, None => true
  | _, _ => let a := default [] a in let b := default [] b in
            if negb (length a =? length b)%nat then false else bse_loop a b
  end.

(* bytes.go:329-351; bytes are N below 256, shifts of bytes drop the high bits *)
Definition shl8 (b k : N) : N := N.shiftl b k mod 256.
Definition ShiftBits (b0 b1 shifts : N) (len : option N) : N :=
  let shifts := N.land shifts 7 in
  let bitLength := match len with Some l => if (0 <? l) && (l <? 8) then l else 8 | None => 8 end in
  let r := if shifts =? 0 then b0
           else let r := N.shiftr b0 shifts in
                if 8 <? bitLength + shifts then N.lor r (shl8 b1 (8 - shifts)) else r in
  let offset := 8 - bitLength in
  if 0 <? offset then N.shiftr (shl8 r offset) offset else r.

(* bytes.go:354-385. The machine-integer overflow of size+from for sizes near 2^63 is
   not modelled. *)
Fixpoint sub_loop (fuel : nat) (i size from : nat) (bs rs : list N) : list N :=
  match fuel with
  | O => rs
  | S f =>
      if (i <? size)%nat then
        let p := (length bs - 1 - (i + from) / 8)%nat in
        let pr := (length rs - 1 - i / 8)%nat in
        let b1 := if (0 <? p)%nat then nth (p - 1) bs 0 else 0 in
        let v := if (8 <=? size - i)%nat then ShiftBits (nth p bs 0) b1 (N.of_nat (from mod 8)) None
                 else ShiftBits (nth p bs 0) b1 (N.of_nat (from mod 8)) (Some (N.of_nat (size - i))) in
        sub_loop f (i + 8) size from bs (<[pr := v]> rs)
      else rs
  end.
Definition SubBytes (bs : list N) (from size : Z) : bres (option (list N)) :=
  if ((from <? 0) || (size <=? 0))%Z then BErr
  else
    let from := Z.to_nat from in let size := Z.to_nat size in
    let bits := (length bs * 8)%nat in
    if (bits <=? from)%nat then BOk None
    else
      let size := if (bits <? size + from)%nat then (bits - from)%nat else size in
      BOk (Some (sub_loop size 0 size from bs (replicate ((size + 7) / 8) 0))).
