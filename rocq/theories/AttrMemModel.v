(** The attribute lists of a chain in memory: ChainAttrs.Add and ChainAttrs.FromMap
    (chaininfo.go) with the arrays they write to. An attribute is a string, that is a list of
    bytes; an array has a number; a slice is nil or has an array, an offset, a length and a
    capacity. *)
From Verif Require Import Base CombinedModel ChainInfoModel.
From stdpp Require Import gmap.
Global Open Scope N_scope.

Notation mem := (gmap nat (list (list N))).
Record sl := Sl { s_arr : nat; s_off : nat; s_len : nat; s_cap : nat }.

Definition array (h : mem) (s : sl) : list (list N) := default [] (h !! s_arr s).
Definition read (h : mem) (s : sl) : list (list N) := take (s_len s) (drop (s_off s) (array h s)).
Definition contents (h : mem) (o : option sl) : list (list N) := match o with None => [] | Some s => read h s end.
Definition len (o : option sl) : nat := match o with None => 0%nat | Some s => s_len s end.
Definition cap (o : option sl) : nat := match o with None => 0%nat | Some s => s_cap s end.

(** The built-in make([]T, 0, n) *)
Definition make0 (h : mem) (n : nat) : mem * option sl :=
  let a := fresh (dom h) in (<[a := replicate n []]> h, Some (Sl a 0 0 n)).
(** The built-in append of one element. [spare n] = what the runtime adds to the capacity of
    a new array for n elements *)
Definition append1 (spare : nat -> nat) (h : mem) (o : option sl) (x : list N) : mem * option sl :=
  let grow l := let a := fresh (dom h) in let e := spare (S (length l)) in
                (<[a := l ++ x :: replicate e []]> h, Some (Sl a 0 (S (length l)) (S (length l) + e))) in
  match o with
  | None => grow []
  | Some s => if (s_len s <? s_cap s)%nat
              then (<[s_arr s := <[(s_off s + s_len s)%nat := x]> (array h s)]> h, Some (Sl (s_arr s) (s_off s) (S (s_len s)) (s_cap s)))
              else grow (read h s)
  end.
(** sort.Sort with chaininfo.go:262-272 Len, Swap, Less: sorts in place *)
Definition sort_at (h : mem) (o : option sl) : mem :=
  match o with
  | None => h
  | Some s => <[s_arr s := take (s_off s) (array h s) ++ sort_strings (read h s) ++ drop (s_off s + s_len s) (array h s)]> h
  end.

(* chaininfo.go:294-303: the second loop of Add; [o] is what the receiver points to *)
Fixpoint add_loop (spare : nat -> nat) (h : mem) (o : option sl) (attrs : list (list N)) : mem * option sl :=
  match attrs with
  | [] => (h, o)
  | a :: r =>
      if (len o =? 0)%nat then let '(h, o) := append1 spare h o a in add_loop spare h o r
      else let '(h, o) := if Attrs_Contains (contents h o) a then (h, o) else append1 spare h o a in
           add_loop spare (sort_at h o) o r
  end.
(* chaininfo.go:284-305 Add on a receiver that is not nil; false is the error *)
Definition AddMem (spare : nat -> nat) (h : mem) (o : option sl) (attrs : list (list N)) : mem * option sl * bool :=
  if forallb Attr_IsValid attrs then (add_loop spare h o attrs, true) else (h, o, false).

(* chaininfo.go:326-335 ToMap *)
Definition ToMap (h : mem) (o : option sl) : gset (list N) := foldl (fun m x => {[x]} ∪ m) ∅ (contents h o).
(* chaininfo.go:347-349: the loop over the map, in the order [l] *)
Fixpoint append_loop (spare : nat -> nat) (h : mem) (o : option sl) (l : list (list N)) : mem * option sl :=
  match l with
  | [] => (h, o)
  | x :: r => let '(h, o) := append1 spare h o x in append_loop spare h o r
  end.
(* chaininfo.go:337-354 FromMap; [iter] is the order in which the map is ranged over *)
Definition FromMap (spare : nat -> nat) (iter : gset (list N) -> list (list N)) (h : mem) (o : option sl) (m : gset (list N)) : mem * option sl :=
  if (size m =? 0)%nat then (h, None)
  else let '(h, ret) := match o with
                        | Some s => if (size m <=? s_cap s)%nat then (h, Some (Sl (s_arr s) (s_off s) 0 (s_cap s))) else make0 h (size m)
                        | None => make0 h (size m)
                        end in
       let '(h, ret) := append_loop spare h ret (iter m) in
       (if (1 <? len ret)%nat then sort_at h ret else h, ret).
