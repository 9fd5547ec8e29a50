(** Model of NodeIDSet and of the set operations of NodeIDs (basic.go:475-682).
    Node ids are byte strings. The list of the code holds pointers to ids; the ids
    pointed to are taken not to be changed by the caller. Locks only serialise the
    calls and are left out. [None] is a panic. *)
From Verif Require Export BasicModel.
Global Open Scope N_scope.

(** bytes.Compare(a, b) < 0 *)
Fixpoint bytes_ltb (a b : list N) : bool :=
  match a, b with
  | [], [] => false
  | [], _ :: _ => true
  | _ :: _, [] => false
  | x :: a', y :: b' => if x =? y then bytes_ltb a' b' else x <? y
  end.

Record nset := NSet { ns_m : gmap (list N) nat; ns_l : list (list N) }.

Section nset.
  (** sort.Sort (external): which swaps it makes is a function of what Less tells it
      about the list. Its contract is [sort_ok] in SetProps.v. *)
  Context (srt : list (list N) -> list (nat * nat)).
  Context (zero_id : list N).   (* NodeID{} *)

  (* basic.go:610-616 *)
  Definition ns_Swap (s : nset) (i j : nat) : option nset :=
    match ns_l s !! i, ns_l s !! j with
    | Some a, Some b => Some (NSet (<[b := i]> (<[a := j]> (ns_m s))) (<[i := b]> (<[j := a]> (ns_l s))))
    | _, _ => None
    end.
  Fixpoint ns_swaps (s : nset) (w : list (nat * nat)) : option nset :=
    match w with
    | [] => Some s
    | (i, j) :: w' => match ns_Swap s i j with Some s' => ns_swaps s' w' | None => None end
    end.
  Definition ns_Sort (s : nset) : option nset := ns_swaps s (srt (ns_l s)).

  (* basic.go:586-595 *)
  Fixpoint ns_build (m : gmap (list N) nat) (l : list (list N)) (ids : list (list N)) : nset :=
    match ids with
    | [] => NSet m l
    | id :: r => match m !! id with
                 | Some _ => ns_build m l r
                 | None => ns_build (<[id := length l]> m) (l ++ [id]) r
                 end
    end.
  (* basic.go:579-602 *)
  Definition NewNodeIDSet (ids : list (list N)) : option nset :=
    match ids with
    | [] => Some (NSet ∅ [])
    | _ => ns_Sort (ns_build ∅ [] ids)
    end.

  Inductive nop := NPut (id : option (list N)) | NDelete (id : option (list N)) | NGet (i : Z)
                 | NGetIndex (id : option (list N)) | NLen | NList.
  Inductive nres := NBool (b : bool) | NUnit | NId (o : option (list N)) | NIdx (i : nat) (ok : bool)
                  | NNum (n : nat) | NIds (l : list (list N)).

  Definition ns_step (s : nset) (o : nop) : option (nset * nres) :=
    match o with
    | NPut None => Some (s, NBool false)
    | NPut (Some id) =>                                   (* basic.go:624-637 *)
        match ns_m s !! id with
        | Some _ => Some (s, NBool false)
        | None => Some (NSet (<[id := length (ns_l s)]> (ns_m s)) (ns_l s ++ [id]), NBool true)
        end
    | NDelete None => Some (s, NUnit)
    | NDelete (Some id) =>                                (* basic.go:639-652 *)
        match ns_m s !! id with
        | None => Some (s, NUnit)
        | Some i =>
            (* copy(l[i:], l[i+1:]) panics when i+1 > len(l) *)
            if (S i <=? length (ns_l s))%nat
            then Some (NSet (base.delete id (ns_m s)) (take i (ns_l s) ++ drop (S i) (ns_l s)), NUnit)
            else None
        end
    | NGet i =>                                           (* basic.go:654-659 *)
        Some (s, NId (if (i <? 0)%Z then None else ns_l s !! Z.to_nat i))
    | NGetIndex None => Some (s, NIdx 0 false)
    | NGetIndex (Some id) =>                              (* basic.go:661-669 *)
        Some (s, match ns_m s !! id with Some i => NIdx i true | None => NIdx 0 false end)
    | NLen => Some (s, NNum (length (ns_l s)))            (* basic.go:604-608 *)
    | NList =>                                            (* basic.go:671-682 *)
        match ns_l s with
        | [] => Some (s, NIds [])
        | l => (* make(NodeIDs, len(l)) is then appended to *)
            match ns_Sort s with
            | Some s' => Some (s', NIds (replicate (length l) zero_id ++ ns_l s'))
            | None => None
            end
        end
    end.
  Fixpoint ns_run (s : nset) (os : list nop) : option (nset * list nres) :=
    match os with
    | [] => Some (s, [])
    | o :: r => match ns_step s o with
                | None => None
                | Some (s1, x) => match ns_run s1 r with
                                  | None => None
                                  | Some (s2, xs) => Some (s2, x :: xs)
                                  end
                end
    end.

  (* ----------------------------------------------- NodeIDs, basic.go:475-573 *)
  (** [iter] lists the keys of a Go map, in the order of this run. *)
  Context (iter : gset (list N) -> list (list N)).
  (* basic.go:518-525 *)
  Fixpoint NodeIDs_Contains (ns : list (list N)) (id : list N) : bool :=
    match ns with
    | [] => false
    | x :: r => if decide (x = id) then true else NodeIDs_Contains r id
    end.
  (* basic.go:527-544 *)
  Definition NodeIDs_Union (ns os : list (list N)) : list (list N) :=
    iter (foldl (fun m x => {[x]} ∪ m) (foldl (fun m x => {[x]} ∪ m) ∅ ns) os).
  (* basic.go:546-565: nil when empty *)
  Definition NodeIDs_Remove (ns os : list (list N)) : list (list N) :=
    match ns with
    | [] => []
    | _ => iter (foldl (fun m x => m ∖ {[x]}) (foldl (fun m x => {[x]} ∪ m) ∅ ns) os)
    end.
  (* basic.go:483-496 *)
  Fixpoint ids_eq_loop (ns os : list (list N)) : bool :=
    match ns, os with
    | x :: ns', y :: os' => if decide (x = y) then ids_eq_loop ns' os' else false
    | _, _ => true
    end.
  Definition NodeIDs_Equal (ns os : list (list N)) : bool :=
    if (length ns =? 0)%nat && (length os =? 0)%nat then true
    else if negb (length ns =? length os)%nat then false
    else ids_eq_loop ns os.
End nset.
