(** A concrete 32-byte "hash" used only in examples, to show that the
    hypotheses of the theorems about an arbitrary hash function can be met. *)
From Verif Require Export MerkleSpec.

Definition toyH (x : list N) : list N :=
  replicate 29 0 ++ be_fixed 3 (foldl (fun a b => (a * 7 + b + 1) mod 1048573) 1 x).

Lemma toyH_len x : length (toyH x) = 32%nat.
Proof. unfold toyH. rewrite app_length, replicate_length, be_fixed_length. done. Qed.

Definition inj_onb (H : list N -> list N) (l : list (list N)) : bool :=
  forallb (fun x => forallb (fun y => negb (bool_decide (H x = H y)) || bool_decide (x = y)) l) l.

Lemma inj_onb_spec H l : inj_onb H l = true -> inj_on H l.
Proof.
  unfold inj_onb, inj_on. rewrite forallb_forall. intros Hl x y Hx Hy He.
  apply elem_of_list_In in Hx, Hy. specialize (Hl x Hx). rewrite forallb_forall in Hl. specialize (Hl y Hy).
  apply orb_true_iff in Hl as [Hl|Hl]; [|by apply bool_decide_eq_true in Hl].
  apply negb_true_iff, bool_decide_eq_false in Hl. done.
Qed.

(** Five different 32-byte leaves; leaf 2 and leaf 3 are equal. *)
Definition toy_leaves : list (list N) :=
  [replicate 32 1; replicate 32 2; replicate 32 3; replicate 32 3; replicate 32 5].
