(** C93: which fields of a struct package rlp encodes, and with which tags. *)
From Coq Require Import Sorted.
From Verif Require Import Base RlpTypeModel RlpTagModel RlpTagSpec RlpTagProofs.

(** A struct is accepted exactly if its tags are in order, and then the result is
    its exported fields that are not ignored, in the order of the struct, each with
    what its tag says. *)
Theorem C93_process_fields fs : indexed fs ->
  match ProcessFields fs with
  | inr r => struct_ok fs /\
      StronglySorted (fun a b => (f_index a < f_index b)%nat) (map fst r) /\
      (forall f, f ∈ map fst r <-> f ∈ fs /\ encoded f) /\
      (forall f ts, (f, ts) ∈ r -> tags_mean f ts)
  | inl _ => ~ struct_ok fs
  end.
Proof. apply process_spec. Qed.
Print Assumptions C93_process_fields.

(** The fields of an accepted struct come in the order that the theorems on
    encoding and decoding of structs suppose: plain fields, then optional ones, then
    at most one tail, behind all others. *)
Theorem C93_tags_ok fs r ty : indexed fs -> ProcessFields fs = inr r -> tags_ok false (to_rfields ty r) = true.
Proof. apply process_tags_ok. Qed.
Print Assumptions C93_tags_ok.

(** Names, types and tags of fields that are not exported do not matter. *)
Theorem C93_hidden fs fs' :
  Forall2 (fun f f' => f = f' \/ (f_exported f = false /\ f_exported f' = false)) fs fs' ->
  ProcessFields fs = ProcessFields fs'.
Proof. apply hidden_same. Qed.
Print Assumptions C93_hidden.

(** The nil value of a pointer tagged "nil" is the empty string for pointers to
    unsigned integers, strings, booleans and byte slices or arrays, the empty list
    otherwise. Kinds by their numbers in package reflect. *)
Theorem C93_default_nil t : DefaultNilValue t = 0x80 /\
    ((exists k enc, t = TBasic k enc /\ k ∈ [7; 8; 9; 10; 11; 12; 24; 1]) \/ t = TSlice (TBasic 8 false) \/ t = TArray (TBasic 8 false)) \/
  DefaultNilValue t = 0xC0 /\
    ~ ((exists k enc, t = TBasic k enc /\ k ∈ [7; 8; 9; 10; 11; 12; 24; 1]) \/ t = TSlice (TBasic 8 false) \/ t = TArray (TBasic 8 false)).
Proof.
  assert (HB : forall e, isByte e = true <-> e = TBasic 8 false).
  { intros e. destruct e as [k enc| | |]; cbn; try (split; [discriminate|discriminate]).
    split; [|by intros [= -> ->]]. destruct (decide (k = 8)) as [->|Hk]; [by destruct enc|].
    intros H. exfalso. destruct k as [|[[[[]|[]|]|[[]|[]|]|]|[[[]|[]|]|[[]|[]|]|]|]]; done. }
  destruct t as [k enc|e|e|e]; unfold DefaultNilValue; cbn [isByteArray].
  - rewrite orb_false_r. destruct (isUint k || (k =? 24) || (k =? 1)) eqn:E; [left|right]; (split; [done|]).
    + left. exists k, enc. split; [done|]. unfold isUint in E.
      rewrite !orb_true_iff, andb_true_iff, !N.leb_le, !N.eqb_eq in E.
      rewrite !elem_of_cons. lia.
    + intros [(k' & enc' & [= <- <-] & Hk)|[H|H]]; [|done|done]. unfold isUint in E.
      rewrite !orb_false_iff, andb_false_iff, !N.leb_gt, !N.eqb_neq in E.
      rewrite !elem_of_cons, elem_of_nil in Hk. lia.
  - right. split; [done|]. intros [(? & ? & H & _)|[H|H]]; done.
  - cbn [orb]. destruct (isByte e) eqn:E; [left|right]; (split; [done|]).
    + apply HB in E as ->. tauto.
    + intros [(? & ? & H & _)|[H|H]]; [done| |done]. injection H as ->. done.
  - cbn [orb]. destruct (isByte e) eqn:E; [left|right]; (split; [done|]).
    + apply HB in E as ->. tauto.
    + intros [(? & ? & H & _)|[H|H]]; [done|done|]. injection H as ->. done.
Qed.
Print Assumptions C93_default_nil.

(** struct { A *[]byte "nilList, nil"; b chan "junk"; C uint64 "-"; D uint64 "optional"; E []uint64 " tail" } *)
Definition ex_struct : list field :=
  [Field [65] 0 true (TPtr (TSlice (TBasic 8 false))) (s_nilList ++ [44; 32] ++ s_nil);
   Field [98] 1 false (TBasic 18 false) [106; 117; 110; 107];
   Field [67] 2 true (TBasic 11 false) s_ignore;
   Field [68] 3 true (TBasic 11 false) s_optional;
   Field [69] 4 true (TSlice (TBasic 11 false)) ([32] ++ s_tail)].
Lemma ex_indexed : indexed ex_struct.
Proof. intros [|[|[|[|[|i]]]]] f H; try (injection H as <-; done). apply lookup_lt_Some in H; cbn in H; lia. Qed.
Example C93_example : indexed ex_struct /\
  match ProcessFields ex_struct with
  | inr r => map (fun p => (f_name p.1, p.2)) r =
      [([65], Tags 0x80 true false false false); ([68], Tags 0 false true false false); ([69], Tags 0 false false true false)]
  | inl _ => False
  end.
Proof. split; [apply ex_indexed|]. vm_compute. reflexivity. Qed.
(** A plain field behind an optional one, and a word that is no tag. *)
Example C93_example_errors :
  ProcessFields [Field [65] 0 true (TBasic 11 false) s_optional; Field [66] 1 true (TBasic 11 false) []] = inl MustBeOptional /\
  ProcessFields [Field [65] 0 true (TBasic 11 false) [110; 105]] = inl Unknown.
Proof. split; vm_compute; reflexivity. Qed.

(** One would expect the rule "tail must be on the last field" to look at the fields
    that are encoded. It does not: an ignored field behind the tail is refused. *)
Theorem C93_tail_before_ignored_refuted :
  exists fs, indexed fs /\
    (forall f, f ∈ fs -> f_exported f = true) /\
    (exists f g, fs = [f; g] /\ encoded f /\ ~ encoded g /\ says f s_tail /\ (exists e, f_type f = TSlice e)) /\
    ProcessFields fs = inl NotLast.
Proof.
  set (f := Field [65] 0 true (TSlice (TBasic 11 false)) s_tail). set (g := Field [66] 1 true (TBasic 11 false) s_ignore).
  exists [f; g]. split; [|split; [|split]].
  - intros [|[|i]] h H; try (injection H as <-; done). apply lookup_lt_Some in H; cbn in H; lia.
  - intros h H. rewrite !elem_of_cons, elem_of_nil in H. destruct H as [->|[->|[]]]; done.
  - exists f, g. split; [done|]. split; [|split; [|split]].
    + apply keptb_spec. vm_compute. reflexivity.
    + rewrite <- keptb_spec. vm_compute. discriminate.
    + apply says_mem; [tauto|]. vm_compute. reflexivity.
    + by eexists.
  - vm_compute. reflexivity.
Qed.
Print Assumptions C93_tail_before_ignored_refuted.
