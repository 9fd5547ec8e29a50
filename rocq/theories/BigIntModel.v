(** Model of the BigInt wrapper (math/big.go:356-454, 455-667) over a memory of big.Int
    cells: methods work on pointers, some of them in place. *)
From Coq Require Import NArith ZArith Lia Zify.
From stdpp Require Import list.
From Verif Require Import Base NumModel HexModel.
Open Scope Z_scope.

(** The memory: one integer per allocated big.Int; a pointer is an index, or nil. *)
Notation memory := (list Z).
Notation ptr := (option nat).
(** The integer a valid pointer points to. *)
Definition rd (h : memory) (l : nat) : Z := default 0 (h !! l).
(** new(big.Int).Set(z) *)
Definition alloc (h : memory) (z : Z) : memory * ptr := (h ++ [z], Some (length h)).
Definition wr (h : memory) (l : nat) (z : Z) : memory := <[l := z]> h.

(* math/big.go:457-463; CopyBigInt (356-361) is the same on a pointer to big.Int *)
Definition NewBigInt (h : memory) (a : ptr) : memory * ptr :=
  match a with None => (h, None) | Some l => alloc h (rd h l) end.
(* math/big.go:465-470, 472-478 *)
Definition Sign (h : memory) (b : ptr) : Z := match b with None => 0 | Some l => Z.sgn (rd h l) end.
Definition Positive (h : memory) (b : ptr) : bool := 0 <? Sign h b.
Definition Negative (h : memory) (b : ptr) : bool := Sign h b <? 0.
(* math/big.go:480-482 *)
Definition Clone (h : memory) (b : ptr) : memory * ptr := NewBigInt h b.
(* math/big.go:484-493: the same cell, typed as big.Int *)
Definition Int (h : memory) (b : ptr) : ptr :=
  match b with None => None | Some l => if Z.sgn (rd h l) =? 0 then None else Some l end.
(* math/big.go:495-500; MustBigInt (363-368) is the same on a pointer to big.Int *)
Definition MustInt (h : memory) (b : ptr) : memory * ptr :=
  match b with None => alloc h 0 | Some l => (h, Some l) end.
(* math/big.go:502-516; AddBigInt (387-397) is the same on a pointer to big.Int *)
Definition AddInt (h : memory) (b a : ptr) : memory * ptr :=
  match a with
  | None => (h, b)
  | Some la => match b with
               | None => alloc h (rd h la)
               | Some lb => (wr h lb (rd h lb + rd h la), Some lb)
               end
  end.
(* math/big.go:518-534: the loop, then the method *)
Fixpoint add_ints (h : memory) (c : ptr) (is : list ptr) : memory * ptr :=
  match is with
  | [] => (h, c)
  | i :: r =>
      match i with
      | None => add_ints h c r
      | Some li =>
          if Z.sgn (rd h li) =? 0 then add_ints h c r
          else match c with
               | None => let '(h', c') := alloc h (rd h li) in add_ints h' c' r
               | Some lc => add_ints (wr h lc (rd h lc + rd h li)) (Some lc) r
               end
      end
  end.
Definition AddInts (h : memory) (b : ptr) (is : list ptr) : memory * ptr :=
  match is with [] => (h, b) | _ => add_ints h b is end.
(* math/big.go:536-552 *)
Definition SubInt (h : memory) (b a : ptr) : memory * ptr :=
  match a with
  | None => (h, b)
  | Some la =>
      let '(h1, lb) := match b with None => (h ++ [0], length h) | Some l => (h, l) end in
      (wr h1 lb (rd h1 lb - rd h1 la), Some lb)
  end.

(* math/big.go:429-440; equal pointers are equal *)
Definition CompareBigInt (h : memory) (a b : ptr) : Z :=
  if bool_decide (a = b) then 0
  else match a, b with
       | None, _ => -1
       | _, None => 1
       | Some la, Some lb => match rd h la ?= rd h lb with Lt => -1 | Eq => 0 | Gt => 1 end
       end.
(* math/big.go:621-623 *)
Definition IsZero (h : memory) (b : ptr) : bool := match b with None => true | _ => Sign h b =? 0 end.
(* math/big.go:625-637 Compare and CompareInt *)
Definition Compare (h : memory) (b o : ptr) : Z :=
  if IsZero h b && IsZero h o then 0 else CompareBigInt h b o.

(* math/big.go:556-568 *)
Definition SubIntNotLessZero (h : memory) (b s : ptr) : memory * ptr * ptr :=
  match s with
  | None => (h, b, None)
  | Some ls =>
      if Z.sgn (rd h ls) <=? 0 then (h, b, None)
      else match b with
           | None => (h, b, None)
           | Some _ =>
               if Sign h b <=? 0 then (h, b, None)
               else if 0 <? Compare h b s then
                 let '(h1, c) := Clone h b in
                 let '(h2, lft) := SubInt h1 c s in
                 let '(h3, act) := NewBigInt h2 s in (h3, lft, act)
               else let '(h1, act) := Clone h b in (h1, None, act)
           end
  end.
(* math/big.go:570-583 *)
Definition MulInt (h : memory) (b a : ptr) : memory * ptr :=
  match b, a with
  | None, _ | _, None => (h, None)
  | Some lb, Some la =>
      if Z.sgn (rd h la) =? 0 then (h, None) else (wr h lb (rd h lb * rd h la), Some lb)
  end.
(** big.Int.Div: Euclidean division *)
Definition euclid (x y : Z) : Z := if 0 <? y then x / y else - (x / - y).
(* math/big.go:585-598; None is the panic *)
Definition DivInt (h : memory) (b a : ptr) : option (memory * ptr) :=
  match a with
  | None => None
  | Some la =>
      if Z.sgn (rd h la) =? 0 then None
      else match b with
           | None => Some (h, None)
           | Some lb => Some (wr h lb (euclid (rd h lb) (rd h la)), Some lb)
           end
  end.
(* math/big.go:600-608 *)
Definition SetInt (h : memory) (b a : ptr) : memory * ptr :=
  match a with
  | None => (h, None)
  | Some la => match b with None => alloc h (rd h la) | Some lb => (wr h lb (rd h la), Some lb) end
  end.
(* math/big.go:610-619; the rational is nil or a numerator and a positive denominator in
   memory of its own *)
Definition MulRat (h : memory) (b : ptr) (r : option (Z * positive)) : memory * ptr :=
  match b, r with
  | None, _ | _, None => (h, None)
  | Some lb, Some (n, d) =>
      if Z.sgn n =? 0 then (h, None)
      else let h1 := wr h lb (rd h lb * n) in (wr h1 lb (euclid (rd h1 lb) (Zpos d)), Some lb)
  end.
(* math/big.go:639-644; MustPositiveInt (370-375) is the same on a pointer to big.Int *)
Definition MustPositive (h : memory) (b : ptr) : ptr := if Positive h b then b else None.
(* math/big.go:650-659; None is the panic of Bytes on a nil pointer *)
Definition HexString (h : memory) (b : ptr) : option (list N) :=
  match b with
  | None => None
  | Some l =>
      match big_bytes (rd h l) with
      | [] => Some [48%N]
      | bs => Some ((if Sign h b <? 0 then [45%N] else []) ++ hex_encode bs)
      end
  end.
(* math/big.go:661-667 *)
Definition ToUint64 (h : memory) (b : ptr) : N * bool :=
  match b with
  | None => (0%N, false)
  | Some l => if (Z.sgn (rd h l) <? 0) || (Z.of_N MaxUint64 <? rd h l) then (0%N, false) else (Z.to_N (rd h l), true)
  end.

(** A program over variables of pointer type to BigInt: each statement stores the result of a method
    in the variable it was called on, or a fresh value. *)
Inductive stmt :=
| SNew (i : nat) (z : Z)          (* x_i = NewBigInt(big.NewInt(z)) *)
| SNil (i : nat)                  (* x_i = nil *)
| SClone (i j : nat)              (* x_i = x_j.Clone() *)
| SSet (i j : nat)                (* x_i = x_i.SetInt of x_j as a big.Int *)
| SAdd (i j : nat) | SSub (i j : nat) | SMul (i j : nat) | SDiv (i j : nat)   (* x_i = x_i.Add(x_j) *)
| SAddInts (i : nat) (js : list nat)          (* x_i = x_i.AddInts(x_j...) *)
| SMulRat (i : nat) (r : option (Z * positive))
| SSubFloor (i j k : nat)         (* x_i, x_k = x_i.SubIntNotLessZero(x_j) *)
| SPositive (i : nat)             (* x_i = x_i.MustPositive() *)
| SSign (i : nat) | SIsZero (i : nat).        (* print *)

(** One statement: None is a panic; otherwise memory, variables and what is printed. *)
Definition bstep (h : memory) (xs : list ptr) (c : stmt) : option (memory * list ptr * option Z) :=
  let x i := default None (xs !! i) in
  let set i (r : memory * ptr) := Some (r.1, <[i := r.2]> xs, None) in
  match c with
  | SNew i z => let '(h1, p) := alloc h z in set i (NewBigInt h1 p)
  | SNil i => set i (h, None)
  | SClone i j => set i (Clone h (x j))
  | SSet i j => set i (SetInt h (x i) (x j))
  | SAdd i j => set i (AddInt h (x i) (x j))
  | SSub i j => set i (SubInt h (x i) (x j))
  | SMul i j => set i (MulInt h (x i) (x j))
  | SDiv i j => match DivInt h (x i) (x j) with Some r => set i r | None => None end
  | SAddInts i js => set i (AddInts h (x i) (map x js))
  | SMulRat i r => set i (MulRat h (x i) r)
  | SSubFloor i j k => let '(h', l, a) := SubIntNotLessZero h (x i) (x j) in Some (h', <[k := a]> (<[i := l]> xs), None)
  | SPositive i => set i (h, MustPositive h (x i))
  | SSign i => Some (h, xs, Some (Sign h (x i)))
  | SIsZero i => Some (h, xs, Some (if IsZero h (x i) then 1 else 0))
  end.
Fixpoint brun (h : memory) (xs : list ptr) (cs : list stmt) : option (memory * list ptr * list (option Z)) :=
  match cs with
  | [] => Some (h, xs, [])
  | c :: r => match bstep h xs c with
              | None => None
              | Some (h', xs', o) => match brun h' xs' r with None => None | Some (h2, xs2, os) => Some (h2, xs2, o :: os) end
              end
  end.
