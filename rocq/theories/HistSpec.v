(** What a history tree is: a growing list of values with a Merkle root, without
    reference to the code. *)
From Verif Require Import Base MerkleSpec.
From stdpp Require Import gmap.
Open Scope N_scope.

Section spec.
Context (H : list N -> list N).

(** One layer of the binary tree: neighbours are hashed together, a last value
    without neighbour is hashed with the hash of the empty string. *)
Fixpoint layer (vs : list (list N)) : list (list N) :=
  match vs with
  | [] => []
  | [a] => [H (a ++ nilhash H)]
  | a :: b :: r => H (a ++ b) :: layer r
  end.
Fixpoint layers (k : nat) (vs : list (list N)) : list (list N) :=
  match k with O => vs | S k' => layer (layers k' vs) end.
(** The root: 64 layers above the values (keys have 64 bits). *)
Definition hist_root (vs : list (list N)) : list N :=
  match layers 64 vs with [] => nilhash H | r :: _ => r end.

(** The strings hashed on the way. *)
Fixpoint layer_inputs (vs : list (list N)) : list (list N) :=
  match vs with
  | [] => []
  | [a] => [a ++ nilhash H]
  | a :: b :: r => (a ++ b) :: layer_inputs r
  end.
Definition hist_inputs (vs : list (list N)) : list (list N) :=
  [] :: flat_map (fun k => layer_inputs (layers k vs)) (seq 0 64).

End spec.

(** Calls on a family of history trees over one database; each call names the
    tree. HClone and HOpen add a tree at the end; HOpen takes the number of a
    Commit and opens the root that Commit saved. *)
Inductive hcall :=
| HAppend (k : N) (v : list N) | HGet (k : N) | HExpecting | HHash | HProof (k : N)
| HCommit | HCollapse (k : N) | HClone | HOpen (i : nat) (chk : bool).
(** Answers. HvProof: the value, what the proof makes of it and the key the proof is for. *)
Inductive hobs :=
| HvOk | HvErr | HvVal (o : option (list N)) | HvNum (n : N) | HvHash (h : list N)
| HvProof (o : option (list N * option (list N) * option N)).

Record hlogs := HLogs { hl_logs : list (list (list N)); hl_saved : list (list (list N)) }.

Section run.
Context (root : list (list N) -> list N).
Definition hget (vs : list (list N)) (k : N) : option (list N) :=
  if k <? lenN vs then vs !! N.to_nat k else None.
Definition hstep (s : hlogs) (jo : nat * hcall) : hlogs * hobs :=
  let '(j, o) := jo in
  match hl_logs s !! j with
  | None => (s, HvOk)
  | Some vs =>
      match o with
      | HAppend k v =>
          if (k =? lenN vs) && negb (bool_decide (v = []))
          then (HLogs (<[j := vs ++ [v]]> (hl_logs s)) (hl_saved s), HvOk)
          else (s, HvErr)
      | HGet k => (s, HvVal (hget vs k))
      | HExpecting => (s, HvNum (lenN vs))
      | HHash => (s, HvHash (root vs))
      | HProof k => (s, HvProof (match hget vs k with
                                 | Some v => Some (v, Some (root vs), Some k)
                                 | None => None end))
      | HCommit => (HLogs (hl_logs s) (hl_saved s ++ [vs]), HvHash (root vs))
      | HCollapse _ => (s, HvOk)
      | HClone => (HLogs (hl_logs s ++ [vs]) (hl_saved s), HvOk)
      | HOpen i _ => match hl_saved s !! i with
                     | Some vs' => (HLogs (hl_logs s ++ [vs']) (hl_saved s), HvOk)
                     | None => (s, HvOk) end
      end
  end.
Fixpoint hrun (ops : list (nat * hcall)) (s : hlogs) : hlogs * list hobs :=
  match ops with
  | [] => (s, [])
  | o :: ops' => let '(s1, b) := hstep s o in let '(s2, bs) := hrun ops' s1 in (s2, b :: bs)
  end.
(** Every list reached on the way. *)
Fixpoint hvisited (ops : list (nat * hcall)) (s : hlogs) : list (list (list N)) :=
  hl_logs s ++ match ops with [] => [] | o :: ops' => hvisited ops' (hstep s o).1 end.
Definition hlogs0 : hlogs := HLogs [[]] [].
Definition hcall_key (o : hcall) : N :=
  match o with HAppend k _ | HGet k | HProof k | HCollapse k => k | _ => 0 end.
End run.
