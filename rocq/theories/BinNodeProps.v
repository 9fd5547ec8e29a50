(** C102: the hash of a node with two children. *)
From Coq Require Import Lia.
From Verif Require Import Base MerkleSpec MerkleModel TrieProps BinNodeModel.
Global Open Scope N_scope.

(* ------------------------------------------------------------- specification *)
(** A child is nil or a hash; nil counts as the hash of nothing. *)
Definition child_ok (c : option (list N)) : Prop := match c with None => True | Some b => length b = 32%nat end.
Definition counts_as (H : list N -> list N) (c : option (list N)) : list N := match c with None => H [] | Some b => b end.
(** What is hashed for a node. *)
Definition node_input (H : list N -> list N) (n : option (option (list N) * option (list N))) : list N :=
  match n with None => [] | Some (l, r) => counts_as H l ++ counts_as H r end.

Lemma counts_len H c : (forall x, length (H x) = 32%nat) -> child_ok c -> length (counts_as H c) = 32%nat.
Proof. intros HL Hc. destruct c; [done|]. apply HL. Qed.
(** Without a collision two nodes have the same hash exactly if both are nil or both have
    children that count as the same, in the same order. *)
Theorem C102_binds : forall H l r l' r', (forall x, length (H x) = 32%nat) ->
  child_ok l -> child_ok r -> child_ok l' -> child_ok r' ->
  inj_on H [node_input H None; node_input H (Some (l, r)); node_input H (Some (l', r'))] ->
  (BinaryNode_HashValue H (Some (l, r)) = BinaryNode_HashValue H (Some (l', r')) <-> counts_as H l = counts_as H l' /\ counts_as H r = counts_as H r') /\
  BinaryNode_HashValue H (Some (l, r)) <> BinaryNode_HashValue H None.
Proof.
  intros H l r l' r' HL Hl Hr Hl' Hr' Hinj. cbn [BinaryNode_HashValue]. unfold hash_pair, nil_hash.
  change (child_or_nil H) with (counts_as H). cbn [node_input] in Hinj.
  assert (L1 := counts_len H l HL Hl). assert (L2 := counts_len H l' HL Hl').
  split; [split|].
  - intros E. apply Hinj in E; [|right; left|right; right; left].
    apply app_inj_1 in E; [done|congruence].
  - by intros [-> ->].
  - intros E. apply Hinj in E; [|right; left|left]. apply (f_equal length) in E. rewrite app_length, L1 in E. cbn in E. lia.
Qed.
Print Assumptions C102_binds.
(** A nil child and a child that is the hash of nothing cannot be told apart; nor can
    children that are not 32 bytes long, as nothing separates them. *)
Theorem C102_nil_child : forall H r, BinaryNode_HashValue H (Some (None, r)) = BinaryNode_HashValue H (Some (Some (H []), r)).
Proof. done. Qed.
Print Assumptions C102_nil_child.
Theorem C102_other_lengths_refuted : forall H,
  exists l r l' r', l <> l' /\ BinaryNode_HashValue H (Some (Some l, Some r)) = BinaryNode_HashValue H (Some (Some l', Some r')).
Proof. intros H. by exists [1; 2], [3], [1], [2; 3]. Qed.
Print Assumptions C102_other_lengths_refuted.

(* ------------------------------------------------------------------ examples *)
Example C102_ex : (forall x, length (idealH x) = 32%nat) /\ child_ok None /\ child_ok (Some (replicate 32 7)) /\
  inj_on idealH [node_input idealH None; node_input idealH (Some (None, Some (replicate 32 7))); node_input idealH (Some (Some (replicate 32 7), None))].
Proof. split; [done|]. split; [done|]. split; [done|]. apply idealH_inj. Qed.
