(** Independent specification of the Merkle trees of hash.go. *)
From Verif Require Export Base.

Section spec.
Context (H : list N -> list N).

(** Hash of the empty string: the padding value ([NilHash]). *)
Definition nilhash : list N := H [].

(** Height of the tree over [n] leaves: the least d >= 1 with n <= 2^d. *)
Definition mdepth (n : nat) : nat := Nat.max 1 (Nat.log2_up n).

(** The perfect binary tree over [leaves] padded with [nilhash]: the value of
    node number [i] of level [d] (level 0 = leaves). *)
Fixpoint pnode (leaves : list (list N)) (d i : nat) : list N :=
  match d with
  | O => nth i leaves nilhash
  | S d' => H (pnode leaves d' (2 * i) ++ pnode leaves d' (2 * i + 1))
  end.
Definition proot (leaves : list (list N)) : list N :=
  match leaves with [] => nilhash | _ => pnode leaves (mdepth (length leaves)) 0 end.

(** The "one padding hash per layer" tree: level d has [lsize n d] real nodes
    and a real node without right neighbour is paired with [nilhash]. *)
Fixpoint lsize (n d : nat) : nat :=
  match d with O => n | S d' => (lsize n d' + 1) / 2 end%nat.
Fixpoint snode (leaves : list (list N)) (d i : nat) : list N :=
  match d with
  | O => nth i leaves nilhash
  | S d' => H (snode leaves d' (2 * i) ++
               (if (2 * i + 1 <? lsize (length leaves) d')%nat
                then snode leaves d' (2 * i + 1) else nilhash))
  end.
Definition sroot (leaves : list (list N)) : list N :=
  match leaves with [] => nilhash | _ => snode leaves (mdepth (length leaves)) 0 end.

(** Climbing from a value along a list of siblings; the flag says that the
    sibling is on the left. *)
Fixpoint climb (h : list N) (its : list (list N * bool)) : list N :=
  match its with
  | [] => h
  | (s, true) :: r => climb (H (s ++ h)) r
  | (s, false) :: r => climb (H (h ++ s)) r
  end.
Fixpoint climb_inputs (h : list N) (its : list (list N * bool)) : list (list N) :=
  match its with
  | [] => []
  | (s, true) :: r => (s ++ h) :: climb_inputs (H (s ++ h)) r
  | (s, false) :: r => (h ++ s) :: climb_inputs (H (h ++ s)) r
  end.

(** Every string that is hashed while computing the root of the padded tree of
    height [D] (the padding value itself is the hash of the empty string). *)
Definition ptree_inputs (leaves : list (list N)) (D : nat) : list (list N) :=
  flat_map (fun d => map (fun i => pnode leaves d (2 * i) ++ pnode leaves d (2 * i + 1))
                         (seq 0 (2 ^ (D - 1 - d)))) (seq 0 D).
Definition stree_inputs (leaves : list (list N)) (D : nat) : list (list N) :=
  flat_map (fun d => map (fun i => snode leaves d (2 * i) ++
               (if (2 * i + 1 <? lsize (length leaves) d)%nat
                then snode leaves d (2 * i + 1) else nilhash))
                         (seq 0 (lsize (length leaves) (S d)))) (seq 0 D).

(** The hash function has no collision among the strings of a given list. *)
Definition inj_on (inputs : list (list N)) : Prop :=
  forall x y, x ∈ inputs -> y ∈ inputs -> H x = H y -> x = y.

End spec.

(** Hash values are 32 bytes long. *)
Definition is_hash (h : list N) : Prop := length h = 32%nat /\ is_bytes h.

(** Direction bits of a leaf index, least significant first. *)
Definition dirs (d : nat) (t : N) : list bool := map (fun k => N.testbit t (N.of_nat k)) (seq 0 d).
