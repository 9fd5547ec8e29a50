(** What a map from keys to tries is, without reference to the code. *)
From Verif Require Import Base MerkleSpec TrieSpec TrieIterSpec.
From stdpp Require Import gmap sorting.
Open Scope N_scope.

(** Calls on a SmallCombinedTrie and on the tries it can hold; a trie is named by
    its number, as in TrieSpec. CNew goes on with NewCombinedTrie on the same
    database, CInit is InitTrie, CIter/CNext/CCur create and use an iterator.
    CProof calls GetProof and checks the proof returned against the hash of the
    trie found. *)
Inductive ccall (V : Type) :=
| CSub (j : nat) (o : tcall V)
| CPut (k : list N) (j : nat) | CDel (k : list N) | CGet (k : list N) | CKeys | CHash | CProof (k : list N)
| CCommit | CNew | CInit (h : list N) | CIter | CNext | CCur.
Arguments CSub {V}. Arguments CPut {V}. Arguments CDel {V}. Arguments CGet {V}. Arguments CKeys {V}. Arguments CHash {V}.
Arguments CProof {V}. Arguments CCommit {V}. Arguments CNew {V}. Arguments CInit {V}. Arguments CIter {V}. Arguments CNext {V}. Arguments CCur {V}.
Inductive cobs (V : Type) :=
| BSub (o : tobs V) | BBool (b : bool) | BDeleted (b : bool) (old : option nat) | BTrie (j : option nat)
| BKeys (ks : list (list N)) | BHash (h : list N) | BProof (o : option (nat * option (list N)))
| BEntry (o : option (list N * nat)) | BErr | BDone.
Arguments BSub {V}. Arguments BBool {V}. Arguments BDeleted {V}. Arguments BTrie {V}. Arguments BKeys {V}. Arguments BHash {V}.
Arguments BProof {V}. Arguments BEntry {V}. Arguments BErr {V}. Arguments BDone {V}.

(** The tries, the map from keys to tries, what was saved last under each root, and
    the iterator: the key it is at and the keys still to come. *)
Record cmap (V : Type) := CMap {
  b_pool : pool V;
  b_map : gmap (list N) nat;
  b_saved : gmap (list N) (list (list N * gmap (list N) V));
  b_it : option (option (list N) * list (list N));
}.
Arguments CMap {V}. Arguments b_pool {V}. Arguments b_map {V}. Arguments b_saved {V}. Arguments b_it {V}.

Definition bytes_le (a b : list N) : Prop := a = b \/ bytes_lt a b.
Global Instance bytes_lt_dec : RelDecision bytes_lt.
Proof.
  unfold RelDecision. fix IH 1. intros [|x a] [|y b]; cbn [bytes_lt]; [apply _|apply _|apply _|].
  specialize (IH a b). apply _.
Defined.
Global Instance bytes_le_dec : RelDecision bytes_le.
Proof. intros a b. unfold bytes_le. apply _. Defined.

(** The keys in increasing order. *)
Definition is_keys {A} (m : gmap (list N) A) (ks : list (list N)) : Prop :=
  StronglySorted bytes_lt ks /\ forall k, k ∈ ks <-> is_Some (m !! k).
(** They can be listed by sorting (theorem C22_sorted_keys). *)
Definition sorted_keys {A} (m : gmap (list N) A) : list (list N) := merge_sort bytes_le (map fst (map_to_list m)).

Section spec.
Context {V : Type} (H : list N -> list N) (root : gmap (list N) V -> list N).
Implicit Types s : cmap V.
Definition contents (p : pool V) (j : nat) : gmap (list N) V := match p_maps p !! j with Some (m, _) => m | None => ∅ end.
(** The entries with the contents of their tries, by increasing key. *)
Definition entries s : list (list N * gmap (list N) V) :=
  map (fun k => (k, contents (b_pool s) (default 0%nat (b_map s !! k)))) (sorted_keys (b_map s)).
Definition croot s : list N := proot H (map (fun e => root e.2) (entries s)).

(** The next key that is still in the map. *)
Fixpoint it_next (m : gmap (list N) nat) (cur : option (list N)) (ks : list (list N)) : option (list N) * list (list N) * bool :=
  match ks with
  | [] => (cur, [], false)
  | k :: ks' => match m !! k with Some _ => (Some k, ks', true) | None => it_next m (Some k) ks' end
  end.
(** The tries created by loading [l] into a map; keys that are there already stay. *)
Fixpoint load (l : list (list N * gmap (list N) V)) (p : pool V) (m : gmap (list N) nat) : pool V * gmap (list N) nat :=
  match l with
  | [] => (p, m)
  | (k, c) :: l' => match m !! k with
                    | Some _ => load l' p m
                    | None => load l' (p_add p c) (<[k := length (p_maps p)]> m)
                    end
  end.

(** One call. *)
Definition cspec s (c : ccall V) : cmap V * cobs V :=
  let with_map m := CMap (b_pool s) m (b_saved s) (b_it s) in
  let with_it it := CMap (b_pool s) (b_map s) (b_saved s) it in
  match c with
  | CSub j o => let '(p, ob) := pstep root (b_pool s) (j, o) in (CMap p (b_map s) (b_saved s) (b_it s), BSub ob)
  | CPut k j => match p_maps (b_pool s) !! j with
                | Some _ => (with_map (<[k := j]> (b_map s)), BBool true)
                | None => (s, BBool false) end
  | CDel k => (with_map (delete k (b_map s)), BDeleted (bool_decide (is_Some (b_map s !! k))) (b_map s !! k))
  | CGet k => (s, BTrie (b_map s !! k))
  | CKeys => (s, BKeys (sorted_keys (b_map s)))
  | CHash => (s, BHash (croot s))
  | CProof k => (s, BProof (match b_map s !! k with Some j => Some (j, Some (croot s)) | None => None end))
  | CCommit => (CMap (b_pool s) (b_map s) (<[croot s := entries s]> (b_saved s)) (b_it s), BDone)
  | CNew => (with_map ∅, BDone)
  | CInit h => match b_saved s !! h with
               | Some (e :: l) => let '(p, m) := load (e :: l) (b_pool s) (b_map s) in (CMap p m (b_saved s) (b_it s), BDone)
               | _ => (s, BErr) end
  | CIter => (with_it (Some (None, sorted_keys (b_map s))), BDone)
  | CNext => match b_it s with
             | Some (cur, l) => let '(cur', l', b) := it_next (b_map s) cur l in (with_it (Some (cur', l')), BBool b)
             | None => (s, BDone) end
  | CCur => match b_it s with
            | Some (Some k, _) => (s, BEntry (match b_map s !! k with Some j => Some (k, j) | None => None end))
            | Some (None, _) => (s, BEntry None)
            | None => (s, BDone) end
  end.
Fixpoint cruns (cs : list (ccall V)) s : cmap V * list (cobs V) :=
  match cs with
  | [] => (s, [])
  | c :: cs' => let '(s1, o) := cspec s c in let '(s2, os) := cruns cs' s1 in (s2, o :: os)
  end.
(** Every contents of a trie reached on the way. *)
Fixpoint cvisited (cs : list (ccall V)) s : list (gmap (list N) V) :=
  map fst (p_maps (b_pool s)) ++ match cs with [] => [] | c :: cs' => cvisited cs' (cspec s c).1 end.
Definition cmap0 : cmap V := CMap pool0 ∅ ∅ None.
Definition ccall_keys (c : ccall V) : list (list N) := match c with CSub _ o => tcall_keys o | _ => [] end.
Definition ccall_vals (c : ccall V) : list V := match c with CSub _ o => tcall_vals o | _ => [] end.
End spec.
