(** Property theorems for the Merkle functions of hash.go (C29 - C32, C62, C63).
    [H] is an arbitrary hash function with 32-byte results. *)
From Verif Require Import ToyHash MerkleSerProofs.

Definition all32 (l : list (list N)) : Prop := Forall (fun h => length h = 32%nat) l.

(* ------------------------------------------------------------------ C29 *)
Theorem C29_complete_proof_verifies :
  forall H leaves idx, (forall x, length (H x) = 32%nat) -> all32 leaves ->
  (idx < length leaves)%nat ->
  exists p, merkle_hash_complete H leaves (Z.of_nat idx) (Some mp_new) = Some (proot H leaves, Some p) /\
    mp_proof H p (nth idx leaves []) = Some (proot H leaves).
Proof.
  intros H leaves idx HL Hl Hi.
  assert (leaves <> []) as Hne by (destruct leaves; simpl in *; [lia|done]).
  pose proof (mdepth_bound (length leaves)).
  destruct (mhc_spec H leaves (Z.of_nat idx) (Some mp_new) [] HL Hl Hne) as (ps & Heq & Hn & Hr);
    [intros _; rewrite Nat2Z.id; lia|apply mp_rep_new|].
  destruct ps as [p|]; [|destruct Hn as [Hn _]; by specialize (Hn eq_refl)].
  exists p. split; [done|]. rewrite (mp_proof_spec H p _ _ Hr). f_equal.
  unfold zpath, final_item. destruct (Z.leb_spec 0 (Z.of_nat idx)); [|lia]. destruct (Z.ltb_spec (Z.of_nat idx) 0); [lia|].
  rewrite app_nil_r, Nat2Z.id, app_nil_l.
  replace (nth idx leaves []) with (pnode H leaves 0 idx) by (cbn [pnode]; apply nth_indep; done).
  rewrite (climb_path H (pnode H leaves) (fun _ _ => True)) by done.
  rewrite Nat.div_small by lia. destruct leaves; done.
Qed.
Print Assumptions C29_complete_proof_verifies.

Theorem C29_compact_proof_verifies :
  forall H leaves idx, (forall x, length (H x) = 32%nat) -> all32 leaves ->
  (idx < length leaves)%nat ->
  exists p, merkle_hash H leaves (Z.of_nat idx) (Some mp_new) = Some (sroot H leaves, Some p) /\
    mp_proof H p (nth idx leaves []) = Some (sroot H leaves).
Proof.
  intros H leaves idx HL Hl Hi.
  assert (leaves <> []) as Hne by (destruct leaves; simpl in *; [lia|done]).
  pose proof (mdepth_bound (length leaves)).
  destruct (mh_spec H leaves (Z.of_nat idx) (Some mp_new) [] HL Hl Hne) as (ps & Heq & Hn & Hr);
    [intros _; rewrite Nat2Z.id; lia|apply mp_rep_new|].
  destruct ps as [p|]; [|destruct Hn as [Hn _]; by specialize (Hn eq_refl)].
  exists p. split; [done|]. rewrite (mp_proof_spec H p _ _ Hr). f_equal.
  unfold zpath. destruct (Z.leb_spec 0 (Z.of_nat idx)); [|lia].
  rewrite Nat2Z.id, app_nil_l.
  replace (nth idx leaves []) with (snode' H leaves 0 idx).
  2:{ unfold snode'. cbn [lsize snode]. destruct (Nat.ltb_spec idx (length leaves)); [|lia]. apply nth_indep; done. }
  rewrite (climb_path H (snode' H leaves) (fun k i => i < lsize (length leaves) k)%nat).
  - rewrite Nat.div_small by lia. rewrite Nat.add_0_l. unfold snode'. rewrite lsize_top by lia.
    destruct leaves; [simpl in Hi; lia|done].
  - intros. by apply snode'_step.
  - intros k i Hk. cbn [lsize]. apply half_lt. destruct (odd_cases i) as [[_ ?]|[_ ?]]; lia.
  - done.
Qed.
Print Assumptions C29_compact_proof_verifies.

(** The root does not depend on whether a proof is requested, nor for which leaf. *)
Theorem C29_root_without_proof :
  forall H leaves, (forall x, length (H x) = 32%nat) -> all32 leaves ->
  (forall t, (-1 <= t < Z.of_nat (length leaves))%Z ->
     merkle_hash_complete H leaves t None = Some (proot H leaves, None)) /\
  (forall t, (-1 <= t < Z.of_nat (length leaves))%Z ->
     merkle_hash H leaves t None = Some (sroot H leaves, None)).
Proof.
  intros H leaves HL Hl. pose proof (mdepth_bound (length leaves)). split; intros t Ht.
  - destruct leaves as [|l ls] eqn:E; [done|]. rewrite <- E in *.
    destruct (mhc_spec H leaves t None [] HL Hl) as (ps & -> & [_ ->] & _); [by rewrite E|lia|done|done|done].
  - destruct leaves as [|l ls] eqn:E; [done|]. rewrite <- E in *.
    destruct (mh_spec H leaves t None [] HL Hl) as (ps & -> & [_ ->] & _); [by rewrite E|lia|done|done|done].
Qed.
Print Assumptions C29_root_without_proof.

(** The older implementation returns the same root and the same proofs, for
    all arguments, including out-of-range indices and malformed hashes. *)
Theorem C29_old_version_agrees :
  forall H leaves t ps, merkle_hash_complete_old H leaves t ps = merkle_hash_complete H leaves t ps.
Proof. exact mho_eq. Qed.
Print Assumptions C29_old_version_agrees.

Example C29_example : all32 toy_leaves /\ (2 < length toy_leaves)%nat /\
  match merkle_hash_complete toyH toy_leaves 2 (Some mp_new) with
  | Some (root, Some p) => mp_proof toyH p (replicate 32 3) = Some root
  | _ => False end.
Proof. split; [repeat constructor|]. split; [simpl; lia|]. vm_compute. reflexivity. Qed.

(* ------------------------------------------------------------------ C30 *)
(** [root_of f l r]: calling the function without proofs returns root r. *)
Theorem C30_complete_root_binds :
  forall H l1 l2 r, (forall x, length (H x) = 32%nat) -> all32 l1 -> all32 l2 ->
  length l1 = length l2 ->
  merkle_hash_complete H l1 (-1) None = Some (r, None) ->
  merkle_hash_complete H l2 (-1) None = Some (r, None) ->
  inj_on H (ptree_inputs H l1 (mdepth (length l1)) ++ ptree_inputs H l2 (mdepth (length l2))) ->
  l1 = l2.
Proof.
  intros H l1 l2 r HL F1 F2 Hlen E1 E2 Hinj.
  destruct (C29_root_without_proof H l1 HL F1) as [R1 _]. rewrite R1 in E1 by lia.
  destruct (C29_root_without_proof H l2 HL F2) as [R2 _]. rewrite R2 in E2 by lia.
  simplify_eq. by apply (proot_binds H HL).
Qed.
Print Assumptions C30_complete_root_binds.

Theorem C30_compact_root_binds :
  forall H l1 l2 r, (forall x, length (H x) = 32%nat) -> all32 l1 -> all32 l2 ->
  length l1 = length l2 ->
  merkle_hash H l1 (-1) None = Some (r, None) ->
  merkle_hash H l2 (-1) None = Some (r, None) ->
  inj_on H (stree_inputs H l1 (mdepth (length l1)) ++ stree_inputs H l2 (mdepth (length l2))) ->
  l1 = l2.
Proof.
  intros H l1 l2 r HL F1 F2 Hlen E1 E2 Hinj.
  destruct (C29_root_without_proof H l1 HL F1) as [_ R1]. rewrite R1 in E1 by lia.
  destruct (C29_root_without_proof H l2 HL F2) as [_ R2]. rewrite R2 in E2 by lia.
  simplify_eq. by apply (sroot_binds H HL).
Qed.
Print Assumptions C30_compact_root_binds.

(** Equal length is needed, whatever the hash function: a list and the same list
    with an explicit padding hash have the same root. *)
Theorem C30_length_independent_refuted :
  forall (H : list N -> list N) (a : list N), (forall x, length (H x) = 32%nat) -> length a = 32%nat ->
  exists l1 l2 r, l1 <> l2 /\ all32 l1 /\ all32 l2 /\
    merkle_hash_complete H l1 (-1) None = Some (r, None) /\
    merkle_hash_complete H l2 (-1) None = Some (r, None) /\
    merkle_hash H l1 (-1) None = Some (r, None) /\ merkle_hash H l2 (-1) None = Some (r, None).
Proof.
  intros H a HL Ha. exists [a], [a; H []], (H (a ++ H [])).
  split; [done|]. split; [by repeat constructor|]. split; [repeat constructor; auto|]. done.
Qed.
Print Assumptions C30_length_independent_refuted.

Example C30_example :
  let l1 := toy_leaves in let l2 := <[3%nat := replicate 32 4]> toy_leaves in
  all32 l1 /\ all32 l2 /\ length l1 = length l2 /\ l1 <> l2 /\
  inj_on toyH (ptree_inputs toyH l1 (mdepth (length l1)) ++ ptree_inputs toyH l2 (mdepth (length l2))) /\
  inj_on toyH (stree_inputs toyH l1 (mdepth (length l1)) ++ stree_inputs toyH l2 (mdepth (length l2))) /\
  proot toyH l1 <> proot toyH l2.
Proof.
  cbn zeta. split; [repeat constructor|]. split; [repeat constructor|]. split; [done|]. split; [done|].
  split; [apply inj_onb_spec; vm_compute; reflexivity|].
  split; [apply inj_onb_spec; vm_compute; reflexivity|].
  vm_compute. discriminate.
Qed.

(* ------------------------------------------------------------------ C31 *)
Theorem C31_serialization_round_trip :
  forall p rest, mp_fits p ->
    mp_deserialize [mp_serialize (Some p) ++ rest] = Some (Some p, rd_norm [rest]).
Proof. exact mp_deser_ser. Qed.
Print Assumptions C31_serialization_round_trip.

Theorem C31_nil_round_trip :
  forall rest, mp_deserialize [mp_serialize None ++ rest] = Some (None, rd_norm [rest]).
Proof. exact mp_deser_nil. Qed.
Print Assumptions C31_nil_round_trip.

(** A sequence of Append calls on a new proof object. *)
Fixpoint append_all (p : mproofs) (its : list (list N * bool)) : option mproofs :=
  match its with
  | [] => Some p
  | (h, o) :: r => match mp_append p h o with Some p' => append_all p' r | None => None end
  end.

Lemma append_all_rep its : forall p its0, mp_rep p its0 ->
  exists p', append_all p its = Some p' /\ mp_rep p' (its0 ++ its).
Proof.
  induction its as [|[h o] r IH]; intros p its0 Hp; cbn [append_all].
  - exists p. rewrite app_nil_r. done.
  - destruct (mp_rep_append p its0 h o Hp) as (p1 & -> & Hp1).
    destruct (IH p1 _ Hp1) as (p' & -> & Hp'). exists p'. split; [done|]. rewrite <- app_assoc in Hp'. done.
Qed.

Theorem C31_built_proofs_round_trip :
  forall its rest, lenN its < 65536 -> Forall (fun it => length it.1 = 32%nat) its ->
  exists p, append_all mp_new its = Some p /\
    mp_deserialize [mp_serialize (Some p) ++ rest] = Some (Some p, rd_norm [rest]).
Proof.
  intros its rest Hl Hi. destruct (append_all_rep its mp_new [] mp_rep_new) as (p & Hp & Hr).
  exists p. split; [done|]. apply mp_deser_ser. eapply mp_rep_fits; [exact Hr|done|done].
Qed.
Print Assumptions C31_built_proofs_round_trip.

Example C31_example :
  let its := [(replicate 32 7, true); (replicate 32 7, false); (replicate 32 9, true)] in
  exists p, append_all mp_new its = Some p /\ mp_repeats p = [MT 0 1] /\ mp_fits p.
Proof.
  eexists. split; [reflexivity|]. split; [reflexivity|].
  split; [repeat constructor|]. split; [vm_compute; reflexivity|].
  split; [eexists; split; [reflexivity|vm_compute; reflexivity]|]. split; [vm_compute; reflexivity|].
  repeat constructor; simpl; lia.
Qed.

(** The reader must deliver complete reads: Deserialization calls Read without
    io.ReadFull for the path bytes, so an [io.Reader] that returns fewer bytes
    (which the interface allows) silently yields a different proof. *)
Theorem C31_short_reads_refuted :
  exists p c1 c2 p', mp_fits p /\ c1 ++ c2 = mp_serialize (Some p) /\
    mp_deserialize [c1; c2] = Some (Some p', [[1]]) /\ mp_equal p p' = false.
Proof.
  exists (MP [replicate 32 7] (Some 257) []), (take 38 (mp_serialize (Some (MP [replicate 32 7] (Some 257) [])))), [1],
    (MP [replicate 32 7] (Some 256) []).
  split.
  { split; [repeat constructor|]. split; [vm_compute; reflexivity|].
    split; [eexists; split; [reflexivity|vm_compute; reflexivity]|]. split; [vm_compute; reflexivity|]. constructor. }
  split; [vm_compute; reflexivity|]. split; vm_compute; reflexivity.
Qed.
Print Assumptions C31_short_reads_refuted.

(** A proof cut off inside the path bytes is accepted as a different proof. *)
Theorem C31_truncation_detected_refuted :
  exists p p', mp_fits p /\
    mp_deserialize [take (length (mp_serialize (Some p)) - 1) (mp_serialize (Some p))] = Some (Some p', []) /\
    mp_equal p p' = false.
Proof.
  exists (MP [replicate 32 7] (Some 257) []), (MP [replicate 32 7] (Some 256) []).
  split.
  { split; [repeat constructor|]. split; [vm_compute; reflexivity|].
    split; [eexists; split; [reflexivity|vm_compute; reflexivity]|]. split; [vm_compute; reflexivity|]. constructor. }
  split; vm_compute; reflexivity.
Qed.
Print Assumptions C31_truncation_detected_refuted.

(* ------------------------------------------------------------------ C32 *)
Lemma rep_path_bigkey p its idx D s key node k :
  mp_rep p its -> its = path node k D idx -> (idx < 2 ^ D)%nat -> (0 < D)%nat -> (0 <= s)%Z ->
  exists key', mp_bigkey p key s = Some (key', (s + Z.of_nat D)%Z) /\
    forall j, N.testbit key' j =
      if (Z.to_N s <=? j) && (j <? Z.to_N s + N.of_nat D) then N.testbit (N.of_nat idx) (j - Z.to_N s) else N.testbit key j.
Proof.
  intros Hrep -> Hidx HD Hs. pose proof (mp_rep_len _ _ Hrep) as Hlen. rewrite path_length in Hlen.
  destruct (mp_rep_bits _ _ Hrep) as (n & Hp & Hb & Hbits). rewrite path_length in Hb, Hbits.
  unfold mp_bigkey. destruct (Z.ltb_spec s 0); [lia|].
  destruct (mp_hashs p) as [|h0 hs] eqn:Eh.
  { exfalso. destruct Hrep as (n' & _ & _ & _ & He). rewrite Eh in He. cbn [expand withord] in He.
    destruct D; [lia|]. done. }
  rewrite Hp, Hlen. eexists. split; [f_equal; f_equal; lia|]. intros j.
  rewrite bigkey_loop_spec by lia. rewrite Nat2Z.id.
  replace (Z.to_N (s + 0)) with (Z.to_N s) by lia.
  replace (Z.to_N (s + 0 + Z.of_nat D)) with (Z.to_N s + N.of_nat D) by lia.
  destruct (N.leb_spec (Z.to_N s) j), (N.ltb_spec j (Z.to_N s + N.of_nat D)); cbn [andb]; try done.
  destruct (Hbits (N.to_nat (j - Z.to_N s))) as [h Hh]; [lia|].
  pose proof (path_dirs node k D idx) as Hd.
  assert (map snd (path node k D idx) !! N.to_nat (j - Z.to_N s) = Some (N.testbit n (j - Z.to_N s))) as Hq.
  { rewrite list_lookup_fmap, Hh. simpl. do 2 f_equal. lia. }
  rewrite Hd in Hq. unfold dirs in Hq. rewrite list_lookup_fmap, lookup_seq_lt in Hq by lia. simpl in Hq.
  injection Hq as <-. f_equal. lia.
Qed.

Theorem C32_complete_bigkey :
  forall H leaves idx, (forall x, length (H x) = 32%nat) -> all32 leaves ->
  (idx < length leaves)%nat ->
  exists r p, merkle_hash_complete H leaves (Z.of_nat idx) (Some mp_new) = Some (r, Some p) /\
    mp_bigkey p 0 0 = Some (N.of_nat idx, Z.of_nat (mdepth (length leaves))) /\
    (forall i, (i < mdepth (length leaves))%nat -> mp_order p (Z.of_nat i) = N.testbit (N.of_nat idx) (N.of_nat i)) /\
    (forall key s, (0 <= s)%Z -> exists key', mp_bigkey p key s = Some (key', s + Z.of_nat (mdepth (length leaves)))%Z /\
       forall j, N.testbit key' j =
         if (Z.to_N s <=? j) && (j <? Z.to_N s + N.of_nat (mdepth (length leaves)))
         then N.testbit (N.of_nat idx) (j - Z.to_N s) else N.testbit key j).
Proof.
  intros H leaves idx HL Hl Hi.
  assert (leaves <> []) as Hne by (destruct leaves; simpl in *; [lia|done]).
  pose proof (mdepth_bound (length leaves)) as Hmb. pose proof (mdepth_pos (length leaves)) as Hmp.
  destruct (mhc_spec H leaves (Z.of_nat idx) (Some mp_new) [] HL Hl Hne) as (ps & Heq & Hn & Hr);
    [intros _; rewrite Nat2Z.id; lia|apply mp_rep_new|].
  destruct ps as [p|]; [|destruct Hn as [Hn _]; by specialize (Hn eq_refl)].
  unfold zpath, final_item in Hr. destruct (Z.leb_spec 0 (Z.of_nat idx)); [|lia]. destruct (Z.ltb_spec (Z.of_nat idx) 0); [lia|].
  rewrite app_nil_r, Nat2Z.id, app_nil_l in Hr.
  exists (proot H leaves), p. split; [done|].
  assert (forall key s, (0 <= s)%Z -> exists key', mp_bigkey p key s = Some (key', s + Z.of_nat (mdepth (length leaves)))%Z /\
       forall j, N.testbit key' j =
         if (Z.to_N s <=? j) && (j <? Z.to_N s + N.of_nat (mdepth (length leaves)))
         then N.testbit (N.of_nat idx) (j - Z.to_N s) else N.testbit key j) as Hall.
  { intros key s Hs. eapply rep_path_bigkey; [exact Hr|done|lia|done|done]. }
  split; [|split; [|done]].
  - destruct (Hall 0 0%Z ltac:(lia)) as (key' & -> & Hb). f_equal. f_equal. apply N.bits_inj. intros j.
    rewrite Hb. rewrite N.bits_0. change (Z.to_N 0) with 0. rewrite N.sub_0_r, N.add_0_l.
    destruct (N.leb_spec 0 j); [|lia]. cbn [andb]. destruct (N.ltb_spec j (N.of_nat (mdepth (length leaves)))); [done|].
    symmetry. apply (testbit_high _ _ (N.of_nat (mdepth (length leaves)))); [|done].
    assert (N.of_nat idx < N.of_nat (2 ^ mdepth (length leaves))) by lia.
    rewrite Nat2N.inj_pow in *. done.
  - intros i Hii. destruct (mp_rep_bits _ _ Hr) as (n & Hp & Hb & Hbits). rewrite path_length in Hbits.
    destruct (Hbits i Hii) as [h Hh]. unfold mp_order. rewrite Hp.
    replace (Z.to_N (Z.of_nat i)) with (N.of_nat i) by lia.
    pose proof (path_dirs (pnode H leaves) 0 (mdepth (length leaves)) idx) as Hd.
    assert (map snd (path (pnode H leaves) 0 (mdepth (length leaves)) idx) !! i = Some (N.testbit n (N.of_nat i))) as Hq.
    { rewrite list_lookup_fmap, Hh. done. }
    rewrite Hd in Hq. unfold dirs in Hq. rewrite list_lookup_fmap, lookup_seq_lt in Hq by lia. simpl in Hq.
    injection Hq as <-. done.
Qed.
Print Assumptions C32_complete_bigkey.

Theorem C32_compact_bigkey :
  forall H leaves idx, (forall x, length (H x) = 32%nat) -> all32 leaves ->
  (idx < length leaves)%nat ->
  exists r p, merkle_hash H leaves (Z.of_nat idx) (Some mp_new) = Some (r, Some p) /\
    mp_bigkey p 0 0 = Some (N.of_nat idx, Z.of_nat (mdepth (length leaves))).
Proof.
  intros H leaves idx HL Hl Hi.
  assert (leaves <> []) as Hne by (destruct leaves; simpl in *; [lia|done]).
  pose proof (mdepth_bound (length leaves)) as Hmb. pose proof (mdepth_pos (length leaves)) as Hmp.
  destruct (mh_spec H leaves (Z.of_nat idx) (Some mp_new) [] HL Hl Hne) as (ps & Heq & Hn & Hr);
    [intros _; rewrite Nat2Z.id; lia|apply mp_rep_new|].
  destruct ps as [p|]; [|destruct Hn as [Hn _]; by specialize (Hn eq_refl)].
  unfold zpath in Hr. destruct (Z.leb_spec 0 (Z.of_nat idx)); [|lia].
  rewrite Nat2Z.id, app_nil_l in Hr.
  exists (sroot H leaves), p. split; [done|].
  destruct (rep_path_bigkey p _ idx _ 0 0 _ _ Hr eq_refl) as (key' & -> & Hb); [lia|done|lia|].
  f_equal. f_equal. apply N.bits_inj. intros j.
    rewrite Hb. rewrite N.bits_0. change (Z.to_N 0) with 0. rewrite N.sub_0_r, N.add_0_l.
    destruct (N.leb_spec 0 j); [|lia]. cbn [andb]. destruct (N.ltb_spec j (N.of_nat (mdepth (length leaves)))); [done|].
    symmetry. apply (testbit_high _ _ (N.of_nat (mdepth (length leaves)))); [|done].
    assert (N.of_nat idx < N.of_nat (2 ^ mdepth (length leaves))) by lia.
    rewrite Nat2N.inj_pow in *. done.
Qed.
Print Assumptions C32_compact_bigkey.

Example C32_example :
  match merkle_hash_complete toyH toy_leaves 4 (Some mp_new) with
  | Some (_, Some p) => mp_bigkey p 0 0 = Some (4, 3%Z)
  | _ => False end.
Proof. vm_compute. reflexivity. Qed.

(* ------------------------------------------------------------------ C62 *)
(** Compression of repeated hashes is invisible: the proof object holds exactly
    the appended sequence. *)
Theorem C62_compression_lossless :
  forall its, exists p, append_all mp_new its = Some p /\
    mp_items p = Some its /\ mp_len p = Z.of_nat (length its) /\
    (forall i, (0 <= i)%Z -> mp_get p i = its !! Z.to_nat i).
Proof.
  intros its. destruct (append_all_rep its mp_new [] mp_rep_new) as (p & Hp & Hr).
  exists p. split; [done|]. split; [by apply mp_rep_items|]. split; [by apply mp_rep_len|].
  intros i Hi. by apply mp_rep_get.
Qed.
Print Assumptions C62_compression_lossless.

Example C62_example :
  append_all mp_new [([1], true); ([1], false); ([1], true); ([2], true); ([2], true); ([1], false)]
  = Some (MP [[1]; [2]; [1]] (Some 29) [MT 0 2; MT 1 1]).
Proof. vm_compute. reflexivity. Qed.

(** MoreTimes.IsValid rejects what Append builds when the first two siblings are equal. *)
Theorem C62_isvalid_accepts_built_refuted :
  exists p, append_all mp_new [([1], true); ([1], true)] = Some p /\
    mts_valid (mp_repeats p) = false /\ mp_items p = Some [([1], true); ([1], true)].
Proof. eexists. split; [reflexivity|]. split; reflexivity. Qed.
Print Assumptions C62_isvalid_accepts_built_refuted.

(* ------------------------------------------------------------------ C63 *)
(** A proof object holding any sequence of siblings that leads from [h] to the
    root along the direction bits of [idx] proves that [h] is leaf [idx]. *)
Theorem C63_complete_proof_sound :
  forall H leaves idx h its p, (forall x, length (H x) = 32%nat) -> all32 leaves ->
  (idx < length leaves)%nat -> length h = 32%nat ->
  append_all mp_new its = Some p -> Forall (fun it => length it.1 = 32%nat) its ->
  map snd its = dirs (mdepth (length leaves)) (N.of_nat idx) ->
  mp_proof H p h = Some (proot H leaves) ->
  inj_on H (ptree_inputs H leaves (mdepth (length leaves)) ++ climb_inputs H h its) ->
  leaves !! idx = Some h.
Proof.
  intros H leaves idx h its p HL Hl Hi Hh Hp Hits Hd Hpr Hinj.
  destruct (append_all_rep its mp_new [] mp_rep_new) as (p' & Hp' & Hr). rewrite Hp in Hp'. injection Hp' as <-.
  rewrite app_nil_l in Hr. rewrite (mp_proof_spec H p its h Hr) in Hpr. injection Hpr as Hpr.
  assert (length its = mdepth (length leaves)) as Hlen.
  { rewrite <- (map_length snd its), Hd. unfold dirs. rewrite map_length, seq_length. done. }
  pose proof (mdepth_bound (length leaves)).
  rewrite (proot_sound H HL leaves its h idx); try done; [|destruct leaves; simpl in *; [lia|done]|lia].
  rewrite nth_lookup. destruct (lookup_lt_is_Some_2 leaves idx Hi) as [x ->]. done.
Qed.
Print Assumptions C63_complete_proof_sound.

Theorem C63_compact_proof_sound :
  forall H leaves idx h its p, (forall x, length (H x) = 32%nat) -> all32 leaves ->
  (idx < length leaves)%nat -> length h = 32%nat ->
  append_all mp_new its = Some p -> Forall (fun it => length it.1 = 32%nat) its ->
  map snd its = dirs (mdepth (length leaves)) (N.of_nat idx) ->
  mp_proof H p h = Some (sroot H leaves) ->
  inj_on H (stree_inputs H leaves (mdepth (length leaves)) ++ climb_inputs H h its) ->
  leaves !! idx = Some h.
Proof.
  intros H leaves idx h its p HL Hl Hi Hh Hp Hits Hd Hpr Hinj.
  destruct (append_all_rep its mp_new [] mp_rep_new) as (p' & Hp' & Hr). rewrite Hp in Hp'. injection Hp' as <-.
  rewrite app_nil_l in Hr. rewrite (mp_proof_spec H p its h Hr) in Hpr. injection Hpr as Hpr.
  assert (length its = mdepth (length leaves)) as Hlen.
  { rewrite <- (map_length snd its), Hd. unfold dirs. rewrite map_length, seq_length. done. }
  rewrite (sroot_sound H HL leaves its h idx); try done.
  rewrite nth_lookup. destruct (lookup_lt_is_Some_2 leaves idx Hi) as [x ->]. done.
Qed.
Print Assumptions C63_compact_proof_sound.

Example C63_example :
  let h := replicate 32 3 in
  exists its p, append_all mp_new its = Some p /\ map snd its = dirs (mdepth 5) 2 /\
    mp_proof toyH p h = Some (proot toyH toy_leaves) /\
    inj_on toyH (ptree_inputs toyH toy_leaves (mdepth 5) ++ climb_inputs toyH h its).
Proof.
  exists (path (pnode toyH toy_leaves) 0 3 2). eexists. split; [vm_compute; reflexivity|].
  split; [vm_compute; reflexivity|]. split; [vm_compute; reflexivity|].
  apply inj_onb_spec. vm_compute. reflexivity.
Qed.
