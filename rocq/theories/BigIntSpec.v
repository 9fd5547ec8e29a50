(** What programs over BigInt variables compute: arithmetic on integers, without memory. *)
From Coq Require Import NArith ZArith Lia Zify.
From stdpp Require Import list.
From Verif Require Import Base BigIntModel.
Open Scope Z_scope.

(** [q] is the Euclidean quotient: the remainder is not negative and less than |y|. *)
Definition is_quotient (x y q : Z) : Prop := 0 <= x - q * y < Z.abs y.

(** One statement over integer variables, nil being 0. Panics: only division by zero. *)
Inductive int_step (v : list Z) : stmt -> option (list Z * option Z) -> Prop :=
| is_new i z : int_step v (SNew i z) (Some (<[i := z]> v, None))
| is_nil i : int_step v (SNil i) (Some (<[i := 0]> v, None))
| is_clone i j b : v !! j = Some b -> int_step v (SClone i j) (Some (<[i := b]> v, None))
| is_set i j b : v !! j = Some b -> int_step v (SSet i j) (Some (<[i := b]> v, None))
| is_add i j a b : v !! i = Some a -> v !! j = Some b -> int_step v (SAdd i j) (Some (<[i := a + b]> v, None))
| is_sub i j a b : v !! i = Some a -> v !! j = Some b -> int_step v (SSub i j) (Some (<[i := a - b]> v, None))
| is_mul i j a b : v !! i = Some a -> v !! j = Some b -> int_step v (SMul i j) (Some (<[i := a * b]> v, None))
| is_div i j a b q : v !! i = Some a -> v !! j = Some b -> b <> 0 -> is_quotient a b q ->
    int_step v (SDiv i j) (Some (<[i := q]> v, None))
| is_div0 i j : v !! j = Some 0 -> int_step v (SDiv i j) None
| is_addints i js a bs : v !! i = Some a -> mapM (fun j => v !! j) js = Some bs ->
    int_step v (SAddInts i js) (Some (<[i := a + foldr Z.add 0 bs]> v, None))
| is_mulrat i a n d q : v !! i = Some a -> is_quotient (a * n) (Zpos d) q ->
    int_step v (SMulRat i (Some (n, d))) (Some (<[i := q]> v, None))
| is_mulnil i a : v !! i = Some a -> int_step v (SMulRat i None) (Some (<[i := 0]> v, None))
| is_subfloor i j k a b l t : v !! i = Some a -> v !! j = Some b ->
    (** [t] is what is taken away: [b], but not more than [a], and nothing if one is not positive *)
    t = (if (0 <? a) && (0 <? b) then Z.min a b else 0) -> l = a - t ->
    int_step v (SSubFloor i j k) (Some (<[k := t]> (<[i := l]> v), None))
| is_positive i a : v !! i = Some a -> int_step v (SPositive i) (Some (<[i := Z.max a 0]> v, None))
| is_sign i a : v !! i = Some a -> int_step v (SSign i) (Some (v, Some (Z.sgn a)))
| is_zero i a : v !! i = Some a -> int_step v (SIsZero i) (Some (v, Some (if a =? 0 then 1 else 0))).

Inductive int_run : list Z -> list stmt -> option (list Z * list (option Z)) -> Prop :=
| ir_nil v : int_run v [] (Some (v, []))
| ir_panic v c cs : int_step v c None -> int_run v (c :: cs) None
| ir_later v c cs v' o : int_step v c (Some (v', o)) -> int_run v' cs None -> int_run v (c :: cs) None
| ir_cons v c cs v' o v2 os : int_step v c (Some (v', o)) -> int_run v' cs (Some (v2, os)) -> int_run v (c :: cs) (Some (v2, o :: os)).

(** Statements that only name existing variables; the two results of SubIntNotLessZero go to
    different ones and AddInts does not get its own receiver. *)
Definition proper (n : nat) (c : stmt) : Prop :=
  match c with
  | SNew i _ | SNil i | SMulRat i _ | SPositive i | SSign i | SIsZero i => (i < n)%nat
  | SClone i j | SSet i j | SAdd i j | SSub i j | SMul i j | SDiv i j => (i < n)%nat /\ (j < n)%nat
  | SAddInts i js => (i < n)%nat /\ Forall (fun j => (j < n)%nat /\ j <> i) js
  | SSubFloor i j k => (i < n)%nat /\ (j < n)%nat /\ (k < n)%nat /\ i <> k
  end.
(** The integers that variables stand for. *)
Definition value (h : memory) (p : ptr) : Z := match p with None => 0 | Some l => rd h l end.
(** Pointers into the memory. *)
Definition valid (h : memory) (p : ptr) : Prop := match p with None => True | Some l => (l < length h)%nat end.
(** The variables [xs] hold the integers [vs], no two of them the same cell. *)
Definition holds (h : memory) (xs : list ptr) (vs : list Z) : Prop :=
  length xs = length vs /\ Forall (valid h) xs /\ (forall i p, xs !! i = Some p -> vs !! i = Some (value h p)) /\
  (forall i j l, xs !! i = Some (Some l) -> xs !! j = Some (Some l) -> i = j).
(** What a call [op] does on memory [h] with receiver [b]: the result is the integer [z]; it is
    a pointer of the new memory; every cell but the receiver's is as before; the result is the receiver
    itself, nil, or a new cell. *)
Definition does (h : memory) (b : ptr) (r : memory * ptr) (z : Z) : Prop :=
  value r.1 r.2 = z /\ valid r.1 r.2 /\ (length h <= length r.1)%nat /\
  (forall l, (l < length h)%nat -> Some l <> b -> rd r.1 l = rd h l) /\
  (r.2 = b \/ r.2 = None \/ exists l, r.2 = Some l /\ (length h <= l)%nat).
