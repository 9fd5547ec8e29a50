(** C95: proofs of the properties of a block header and of header summaries. *)
From Verif Require Import Base MerkleSpec MerkleModel MerkleProofs MerkleTreeProofs MerkleBindProofs TrieSpec TrieModel
  TrieProofModel TrieProofProofs TrieProofProps TrieProps FixedModel HdrProofSpec HdrProofModel HdrProofProofs.

(** What the three tests say of a proof: a header test accepts exactly the proofs of a header
    property that carry the hash of chain, height and property number; a summary test exactly
    the summary proofs that carry the hash of chain and height. *)
Theorem C95_tests : forall H np c h,
  (IsHeaderOf H (Some np) c h = true <->
     exists i, property_index (np_type np) i /\ np_vhash np = Some (H (header_key c h i))) /\
  (IsHdsSummaryOf H (Some np) c h = true <-> np_type np = 0x11 /\ np_vhash np = Some (H (pos_key c h))) /\
  (forall idx, IsHeaderPropertyOf H (Some np) c h idx = true <->
     exists i, property_index (np_type np) i /\ idx = Z.of_N i /\ np_vhash np = Some (H (pos_key c h))) /\
  (forall idx, IsHeaderOf H None c h = false /\ IsHdsSummaryOf H None c h = false /\ IsHeaderPropertyOf H None c h idx = false).
Proof.
  intros H np c h. split; [|split; [|split; [|done]]].
  - unfold IsHeaderOf, HeaderIndexHash. split.
    + destruct (np_vhash np) as [vh|]; [|done]. destruct (HeaderPropertyIndex _) as [i|] eqn:Hi; [|done].
      apply property_index_spec in Hi. rewrite N.mod_small by (by eapply property_index_byte).
      rewrite buffer_index. intros Hb. apply bool_decide_eq_true_1 in Hb. subst. by exists i.
    + intros (i&Hi&->). pose proof (property_index_byte _ _ Hi). apply property_index_spec in Hi. rewrite Hi.
      rewrite N.mod_small by done. rewrite buffer_index. by apply bool_decide_eq_true.
  - unfold IsHdsSummaryOf, IsProofHdsSummary, ProofHdsSummary. rewrite buffer_take. destruct (N.eqb_spec (np_type np) 0x11); cbn [negb].
    + destruct (np_vhash np) as [vh|]; [|split; [done|intros [_ ?]; done]]. rewrite bool_decide_eq_true. split; [by intros <-|intros [_ ?]; congruence].
    + split; [done|]. by intros [? _].
  - intros idx. unfold IsHeaderPropertyOf. rewrite buffer_take. split.
    + destruct (np_vhash np) as [vh|]; [|done]. destruct (HeaderPropertyIndex _) as [i|] eqn:Hi; [|done].
      apply property_index_spec in Hi. destruct (Z.eqb_spec (Z.of_N i) idx); cbn [negb]; [|done].
      intros Hb. apply bool_decide_eq_true_1 in Hb. subst. by exists i.
    + intros (i&Hi&->&->). apply property_index_spec in Hi. rewrite Hi. rewrite Z.eqb_refl. cbn [negb]. by apply bool_decide_eq_true.
Qed.
Print Assumptions C95_tests.

(** A proof is for one header only. *)
Theorem C95_unique : forall H np c h c' h', c < 2 ^ 32 -> c' < 2 ^ 32 -> h < 2 ^ 64 -> h' < 2 ^ 64 ->
  (forall i, property_index (np_type np) i -> inj_on H [header_key c h i; header_key c' h' i]) ->
  inj_on H [pos_key c h; pos_key c' h'] ->
  (IsHeaderOf H (Some np) c h = true -> IsHeaderOf H (Some np) c' h' = true -> c = c' /\ h = h') /\
  (IsHdsSummaryOf H (Some np) c h = true -> IsHdsSummaryOf H (Some np) c' h' = true -> c = c' /\ h = h').
Proof.
  intros H np c h c' h' Hc Hc' Hh Hh' Hi1 Hi2. split; intros H1 H2.
  - apply C95_tests in H1 as (i&Hi&Hv), H2 as (i'&Hi'&Hv'). rewrite Hv in Hv'. injection Hv' as Hv'.
    assert (i' = i) as -> by (apply property_index_spec in Hi, Hi'; congruence).
    apply (Hi1 i Hi) in Hv'; [|by left|right; by left]. apply header_key_inj in Hv' as (?&?&_); done.
  - apply C95_tests in H1 as (_&Hv), H2 as (_&Hv'). rewrite Hv in Hv'. injection Hv' as Hv'.
    apply Hi2 in Hv'; [|by left|right; by left]. by apply pos_key_inj in Hv'.
Qed.
Print Assumptions C95_unique.

Lemma header_entries_in c h props key v : (key, v) ∈ header_entries c h props ->
  exists i, key = header_key c h (N.of_nat i) /\ props !! i = Some v.
Proof.
  unfold header_entries. intros He. apply elem_of_lookup_imap in He as (i&p&He&Hp). injection He as -> ->. by exists i.
Qed.
Lemma header_entries_snd c h props e : e ∈ header_entries c h props -> e.2 ∈ props /\ length e.1 = 13%nat.
Proof.
  destruct e as [k v]. intros He. apply header_entries_in in He as (i&->&Hp). cbn [fst snd]. split; [by eapply elem_of_list_lookup_2|apply header_key_len].
Qed.
Lemma hds_entries_in l key v : (key, v) ∈ hds_entries l -> exists c h, key = pos_key c h /\ (c, h, v) ∈ l.
Proof. unfold hds_entries. intros He. apply elem_of_list_fmap in He as ([[c h] p]&He&Hp). injection He as -> ->. by exists c, h. Qed.

(** Soundness for header properties. The chain starts with a proof accepted for (c, h); it is
    verified for the hash v against the hash of the header (c0, h0) with the given properties.
    Then it is the same header and v is the property that the proof's type stands for, unless a
    property hash of the header is itself one of the hashes computed on the path (the chain then
    proves something about the preimage of that property). A chain with exactly one step per
    level of the tree excludes this. *)
Theorem C95_header_sound : forall V (E : env V) c0 h0 props np rest c h v its,
  env_ok E -> c0 < 2 ^ 32 -> c < 2 ^ 32 -> h0 < 2 ^ 64 -> h < 2 ^ 64 ->
  props <> [] -> Forall (fun p => length p = 32%nat) props -> length v = 32%nat -> chain_ok (np :: rest) ->
  chain_items E (np :: rest) = Some its ->
  (forall i, property_index (np_type np) i ->
     inj_on (eH E) (keyed_inputs (eH E) (header_entries c0 h0 props) ++ header_key c h i :: climb_inputs (eH E) v its)) ->
  IsHeaderOf (eH E) (Some np) c h = true ->
  VerifyProofChain E v (np :: rest) (header_hash (eH E) c0 h0 props) = true ->
  ((c = c0 /\ h = h0 /\ exists i, property_index (np_type np) i /\ props !! N.to_nat i = Some v) \/
   exists p x, p ∈ props /\ x ∈ climb_inputs (eH E) v its /\ p = eH E x) /\
  (length its = S (mdepth (length props)) ->
   c = c0 /\ h = h0 /\ exists i, property_index (np_type np) i /\ props !! N.to_nat i = Some v).
Proof.
  intros V E c0 h0 props np rest c h v its HE Hc0 Hc Hh0 Hh Hne Hp Hv Hok Hits Hinj Hof Hver.
  apply C95_tests in Hof as (i&Hi&Hvh). specialize (Hinj i Hi).
  assert (Ht : IsProofHdsSummary (np_type np) = true \/ exists i, property_index (np_type np) i) by (right; by exists i).
  destruct (verify_head E np rest v _ _ Hvh Ht Hver) as (its'&Hits'&Hcl). rewrite Hits in Hits'. injection Hits' as ->.
  pose proof (chain_items_len E HE _ _ Hok Hits) as Hlen. apply Forall_cons in Hlen as [_ Hlen].
  set (l := header_entries c0 h0 props) in *.
  assert (Hl : length l = length props) by (unfold l, header_entries; apply imap_length).
  assert (Hlne : l <> []) by (intros E0; rewrite E0 in Hl; destruct props; done).
  assert (Hk : Forall (fun e => length e.1 <> 0%nat /\ length e.1 <> 64%nat) l).
  { apply Forall_forall. intros e He. apply header_entries_snd in He as [_ He]. lia. }
  assert (Hp' : Forall (fun e => length e.2 = 32%nat) l).
  { apply Forall_forall. intros e He. apply header_entries_snd in He as [He _]. rewrite Forall_forall in Hp. by apply Hp. }
  assert (Hfin : (header_key c h i, v) ∈ l -> c = c0 /\ h = h0 /\ exists i, property_index (np_type np) i /\ props !! N.to_nat i = Some v).
  { intros He. apply header_entries_in in He as (j&Hj&Hpj). apply header_key_inj in Hj as (->&->&Hij); try done.
    split; [done|]. split; [done|]. exists i. split; [done|]. rewrite Hij, Nat2N.id. done. }
  pose proof (header_key_len c h i) as Hkl.
  split.
  - destruct (keyed_sound (eH E) (ok_H E HE) l Hlne Hk Hp' (header_key c h i) v its' Hv ltac:(lia) ltac:(lia) Hlen Hinj Hcl) as [He|(e&x&He&Hx&Hex)]; [left; by apply Hfin|].
    right. exists e.2, x. split; [by apply header_entries_snd in He as [? _]|done].
  - intros Hd. apply Hfin. apply (keyed_sound_exact (eH E) (ok_H E HE) l Hlne Hk Hp' (header_key c h i) v its'); try done.
    rewrite Hl. cbn [length] in Hd. lia.
Qed.
Print Assumptions C95_header_sound.

(** Soundness for summaries: the same, and v is the hash listed for (c, h). *)
Theorem C95_hds_sound : forall V (E : env V) (l : list (N * N * list N)) np rest c h v its,
  env_ok E -> c < 2 ^ 32 -> h < 2 ^ 64 -> l <> [] ->
  (forall c' h' p, (c', h', p) ∈ l -> c' < 2 ^ 32 /\ h' < 2 ^ 64 /\ length p = 32%nat) -> length v = 32%nat -> chain_ok (np :: rest) ->
  chain_items E (np :: rest) = Some its ->
  inj_on (eH E) (keyed_inputs (eH E) (hds_entries l) ++ pos_key c h :: climb_inputs (eH E) v its) ->
  IsHdsSummaryOf (eH E) (Some np) c h = true ->
  VerifyProofChain E v (np :: rest) (hds_root (eH E) l) = true ->
  ((c, h, v) ∈ l \/ exists c' h' p x, (c', h', p) ∈ l /\ x ∈ climb_inputs (eH E) v its /\ p = eH E x) /\
  (length its = S (mdepth (length l)) -> (c, h, v) ∈ l).
Proof.
  intros V E l0 np rest c h v its HE Hc Hh Hne Hp Hv Hok Hits Hinj Hof Hver.
  apply C95_tests in Hof as (Htt&Hvh).
  assert (Ht : IsProofHdsSummary (np_type np) = true \/ exists i, property_index (np_type np) i) by (left; by rewrite Htt).
  destruct (verify_head E np rest v _ _ Hvh Ht Hver) as (its'&Hits'&Hcl). rewrite Hits in Hits'. injection Hits' as ->.
  pose proof (chain_items_len E HE _ _ Hok Hits) as Hlen. apply Forall_cons in Hlen as [_ Hlen].
  set (l := hds_entries l0) in *.
  assert (Hl : length l = length l0) by (unfold l, hds_entries; apply map_length).
  assert (Hlne : l <> []) by (intros E0; rewrite E0 in Hl; destruct l0; done).
  assert (Hin : forall e, e ∈ l -> length e.1 = 12%nat /\ exists c' h', (c', h', e.2) ∈ l0 /\ e.1 = pos_key c' h').
  { intros [k p] He. apply hds_entries_in in He as (c'&h'&->&He). cbn [fst snd]. split; [apply pos_key_len|]. by exists c', h'. }
  assert (Hk : Forall (fun e => length e.1 <> 0%nat /\ length e.1 <> 64%nat) l).
  { apply Forall_forall. intros e He. destruct (Hin e He) as [Hl' _]. lia. }
  assert (Hp' : Forall (fun e => length e.2 = 32%nat) l).
  { apply Forall_forall. intros e He. destruct (Hin e He) as (_&c'&h'&He'&_). by apply Hp in He' as (_&_&?). }
  assert (Hfin : (pos_key c h, v) ∈ l -> (c, h, v) ∈ l0).
  { intros He. apply hds_entries_in in He as (c'&h'&Hj&He). destruct (Hp _ _ _ He) as (?&?&_). by apply pos_key_inj in Hj as (->&->). }
  pose proof (pos_key_len c h) as Hkl.
  split.
  - destruct (keyed_sound (eH E) (ok_H E HE) l Hlne Hk Hp' (pos_key c h) v its' Hv ltac:(lia) ltac:(lia) Hlen Hinj Hcl) as [He|(e&x&He&Hx&Hex)]; [left; by apply Hfin|].
    right. destruct (Hin e He) as (_&c'&h'&He'&_). by exists c', h', e.2, x.
  - intros Hd. apply Hfin. apply (keyed_sound_exact (eH E) (ok_H E HE) l Hlne Hk Hp' (pos_key c h) v its'); try done.
    rewrite Hl. cbn [length] in Hd. lia.
Qed.
Print Assumptions C95_hds_sound.

Lemma mp_rep_hashs p its : mp_rep p its -> its <> [] -> mp_hashs p <> [].
Proof. intros (n&_&_&_&He) Hne Hh. rewrite Hh in He. cbn in He. by subst. Qed.

Lemma keyed_complete {V} (E : env V) (HE : env_ok E) l i k v : l !! i = Some (k, v) ->
  exists p its, merkle_hash_complete (eH E) (map (keyed_leaf (eH E)) l) (Z.of_nat i) (Some mp_new) = Some (keyed_root (eH E) l, Some p) /\
    mp_items p = Some its /\ mp_hashs p <> [] /\ length its = mdepth (length l) /\
    climb (eH E) v ((eH E k, true) :: its) = keyed_root (eH E) l.
Proof.
  intros Hi. set (leaves := map (keyed_leaf (eH E)) l).
  assert (Hlt : (i < length leaves)%nat) by (unfold leaves; rewrite map_length; by eapply lookup_lt_Some).
  assert (Hl : Forall (fun x => length x = 32%nat) leaves) by (unfold leaves; apply Forall_map, Forall_forall; intros; apply (ok_H E HE)).
  assert (Hne : leaves <> []) by (destruct leaves; cbn in *; [lia|done]).
  pose proof (mdepth_bound (length leaves)). pose proof (mdepth_pos (length leaves)).
  destruct (mhc_spec (eH E) leaves (Z.of_nat i) (Some mp_new) [] (ok_H E HE) Hl Hne) as (ps&Heq&Hn&Hr);
    [intros _; rewrite Nat2Z.id; lia|apply mp_rep_new|].
  destruct ps as [p|]; [|destruct Hn as [Hn _]; by specialize (Hn eq_refl)].
  assert (Hlen : length (path (pnode (eH E) leaves) 0 (mdepth (length leaves)) i) = mdepth (length leaves)).
  { generalize 0%nat i. clear. induction (mdepth (length leaves)) as [|n IH]; intros a b; [done|]. cbn [path length]. by rewrite IH. }
  unfold zpath, final_item in Hr. destruct (Z.leb_spec 0 (Z.of_nat i)); [|lia]. destruct (Z.ltb_spec (Z.of_nat i) 0); [lia|].
  rewrite app_nil_r, Nat2Z.id, app_nil_l in Hr. cbn [proofs_rel] in Hr.
  eexists p, _. split; [exact Heq|]. split; [by apply mp_rep_items|]. split.
  { eapply mp_rep_hashs; [exact Hr|]. intros E0. rewrite E0 in Hlen. cbn in Hlen. lia. }
  split; [rewrite Hlen; unfold leaves; by rewrite map_length|]. cbn [climb].
  assert (Hnode : eH E (eH E k ++ v) = pnode (eH E) leaves 0 i).
  { cbn [pnode]. rewrite nth_lookup. unfold leaves. rewrite list_lookup_fmap, Hi. done. }
  rewrite Hnode, (climb_path (eH E) (pnode (eH E) leaves) (fun _ _ => True)) by done.
  rewrite Nat.div_small by lia. unfold keyed_root. fold leaves. destruct leaves; done.
Qed.

(** Completeness: the Merkle proof of property number i of a header, wrapped with a type that
    stands for i and the hash of the position, is accepted for that header and verifies, with
    one step per level; likewise for a summary. *)
Theorem C95_complete : forall V (E : env V), env_ok E ->
  (forall c h props t i v, property_index t i -> props !! N.to_nat i = Some v ->
     exists p np its,
       merkle_hash_complete (eH E) (map (keyed_leaf (eH E)) (header_entries c h props)) (Z.of_N i) (Some mp_new)
         = Some (header_hash (eH E) c h props, Some p) /\
       NewHeaderPropertyProof t (Some (HeaderIndexHash (eH E) (ToHeaderPosHashBuffer c h) i)) (Some p) = Some np /\
       np_type np = t /\ IsHeaderOf (eH E) (Some np) c h = true /\
       VerifyProofChain E v [np] (header_hash (eH E) c h props) = true /\
       chain_items E [np] = Some its /\ length its = S (mdepth (length props))) /\
  (forall l j c h v, l !! j = Some (c, h, v) ->
     exists p its,
       merkle_hash_complete (eH E) (map (keyed_leaf (eH E)) (hds_entries l)) (Z.of_nat j) (Some mp_new)
         = Some (hds_root (eH E) l, Some p) /\
       let np := NewHdsSummaryProof (Some (eH E (take 12 (ToHeaderPosHashBuffer c h)))) (Some p) in
       IsHdsSummaryOf (eH E) (Some np) c h = true /\ VerifyProofChain E v [np] (hds_root (eH E) l) = true /\
       chain_items E [np] = Some its /\ length its = S (mdepth (length l))).
Proof.
  intros V E HE. split.
  - intros c h props t i v Ht Hi.
    destruct (keyed_complete E HE (header_entries c h props) (N.to_nat i) (header_key c h i) v) as (p&its&Hm&Hits&Hne&Hlen&Hcl).
    { unfold header_entries. rewrite list_lookup_imap, Hi. cbn. by rewrite N2Nat.id. }
    rewrite N_nat_Z in Hm. unfold header_entries in Hlen. rewrite imap_length in Hlen.
    set (np := NP t zero_header (Some (eH E (header_key c h i))) (Some p)).
    destruct (property_index_types _ _ Ht) as (T1&T2&T3&T4).
    assert (Hnp : np_items E np = Some ((eH E (header_key c h i), true) :: its)).
    { unfold np_items. cbn [np_type np_vhash np_child np]. rewrite T1, T2, T3, T4.
      assert (IsProofHeaderProperty t = true) as -> by (apply property_index_bool; by exists i).
      destruct (mp_hashs p); [done|]. by rewrite Hits. }
    assert (Hch : chain_items E [np] = Some ((eH E (header_key c h i), true) :: its)).
    { cbn [chain_items]. rewrite Hnp. by rewrite app_nil_r. }
    exists p, np, ((eH E (header_key c h i), true) :: its). split; [exact Hm|].
    assert (Hpi := Ht). apply property_index_spec in Hpi.
    split; [|split; [done|]].
    { unfold NewHeaderPropertyProof, NewNodeProof, HeaderIndexHash. rewrite Hpi, buffer_index, T3. done. }
    split; [apply C95_tests; by exists i|].
    split; [|split; [done|cbn [length]; by rewrite Hlen]].
    unfold VerifyProofChain, chain_proof. rewrite Hch, fold_climb. apply bool_decide_eq_true. exact Hcl.
  - intros l j c h v Hj.
    destruct (keyed_complete E HE (hds_entries l) j (pos_key c h) v) as (p&its&Hm&Hits&Hne&Hlen&Hcl).
    { unfold hds_entries. by rewrite list_lookup_fmap, Hj. }
    unfold hds_entries in Hlen. rewrite map_length in Hlen.
    exists p, ((eH E (pos_key c h), true) :: its). split; [exact Hm|]. rewrite buffer_take. intros np.
    assert (Hch : chain_items E [np] = Some ((eH E (pos_key c h), true) :: its)).
    { unfold np, NewHdsSummaryProof, NewNodeProof. cbn. unfold np_items. cbn. rewrite Hits. by rewrite app_nil_r. }
    split; [by apply C95_tests|]. split; [|split; [done|cbn [length]; by rewrite Hlen]].
    unfold VerifyProofChain, chain_proof. rewrite Hch, fold_climb. apply bool_decide_eq_true. exact Hcl.
Qed.
Print Assumptions C95_complete.

(** The constructor refuses (panics on) exactly the types that stand for no property, and the
    plain constructor every type but the Merkle-only one. *)
Theorem C95_constructors : forall t vh mp,
  (NewHeaderPropertyProof t vh mp = None <-> ~ exists i, property_index t i) /\
  (NewMerkleOnlyProof t mp = None <-> t <> 0xff).
Proof.
  intros t vh mp. split.
  - unfold NewHeaderPropertyProof. destruct (HeaderPropertyIndex t) as [i|] eqn:Hi.
    + split; [done|]. intros Hn. exfalso. apply Hn. exists i. by apply property_index_spec.
    + split; [|done]. intros _ (i&Hi'). apply property_index_spec in Hi'. congruence.
  - unfold NewMerkleOnlyProof, IsProofMerkleOnly, ProofMerkleOnly. destruct (N.eqb_spec t 0xff); by split.
Qed.
Print Assumptions C95_constructors.

(** Finding: IsHeaderPropertyOf compares with the hash of chain and height only, so it rejects
    every proof that IsHeaderOf accepts, whatever header and property it is asked for. *)
Theorem C95_property_of_refuted : forall H np c h c' h' idx,
  (forall i, property_index (np_type np) i -> inj_on H [header_key c h i; pos_key c' h']) ->
  IsHeaderOf H (Some np) c h = true -> IsHeaderPropertyOf H (Some np) c' h' idx = false.
Proof.
  intros H np c h c' h' idx Hinj Hof. apply C95_tests in Hof as (i&Hi&Hv).
  destruct (IsHeaderPropertyOf H (Some np) c' h' idx) eqn:Hp; [|done]. exfalso.
  apply C95_tests in Hp as (j&_&_&Hv'). rewrite Hv in Hv'. injection Hv' as He.
  apply (Hinj i Hi) in He; [|by left|right; by left]. apply (f_equal length) in He. by rewrite header_key_len, pos_key_len in He.
Qed.
Print Assumptions C95_property_of_refuted.

Lemma mp_of its : exists p, mp_rep p its.
Proof.
  induction its as [|[h o] its [p Hp]] using rev_ind; [exists mp_new; apply mp_rep_new|].
  destruct (mp_rep_append p its h o Hp) as (p'&_&Hp'). by exists p'.
Qed.

(** Finding: nothing binds the length of the path, so the exception in C95_header_sound is real.
    For every hash and every header (c, h), property number i and hash v there is a header of
    another position whose hash is "proved" to be that of a header (c, h) with property v. *)
Theorem C95_path_length_refuted : forall V (E : env V) c h c0 h0 t i v, env_ok E ->
  property_index t i -> length v = 32%nat -> eH E (eH E (header_key c h i) ++ v) <> v ->
  exists props np, Forall (fun p => length p = 32%nat) props /\ v ∉ props /\
    IsHeaderOf (eH E) (Some np) c h = true /\ VerifyProofChain E v [np] (header_hash (eH E) c0 h0 props) = true.
Proof.
  intros V E c h c0 h0 t i v HE Ht Hv. set (w := eH E (eH E (header_key c h i) ++ v)). intros Hw.
  set (k0 := header_key c0 h0 0).
  destruct (keyed_complete E HE (header_entries c0 h0 [w]) 0 k0 w eq_refl) as (_&its&_&_&_&_&Hcl).
  destruct (mp_of ((eH E k0, true) :: its)) as (p&Hp).
  exists [w], (NP t zero_header (Some (eH E (header_key c h i))) (Some p)).
  split; [constructor; [apply (ok_H E HE)|constructor]|]. split; [rewrite elem_of_list_singleton; congruence|].
  split; [apply C95_tests; by exists i|].
  destruct (property_index_types _ _ Ht) as (T1&T2&T3&T4).
  unfold VerifyProofChain, chain_proof. cbn [chain_items]. unfold np_items. cbn [np_type np_vhash np_child]. rewrite T1, T2, T3, T4.
  assert (IsProofHeaderProperty t = true) as -> by (apply property_index_bool; by exists i).
  pose proof (mp_rep_hashs _ _ Hp ltac:(done)) as Hh. destruct (mp_hashs p); [done|]. rewrite (mp_rep_items _ _ Hp).
  rewrite fold_climb. apply bool_decide_eq_true. rewrite app_nil_r. exact Hcl.
Qed.
Print Assumptions C95_path_length_refuted.

(** A header with 21 properties, its state root proved, and a collision-free hash. *)
Example C95_example :
  let E := demo_env idealH in
  let props := map (fun k => replicate 32 (N.of_nat k)) (seq 1 21) in
  env_ok E /\ (forall l, inj_on (eH E) l) /\ Forall (fun p => length p = 32%nat) props /\
  property_index 0x23 13 /\ props !! 13%nat = Some (replicate 32 14) /\ chain_ok [NP 0x23 zero_header (Some (replicate 32 1)) None] /\
  property_index 0x3d 13 /\ mdepth (length props) = 5%nat.
Proof.
  intros E props. split; [by apply demo_env_ok|]. split; [apply idealH_inj|]. split; [by repeat constructor|]. split; [constructor|]. split; [done|].
  split; [|split; [by apply (pi_base 13)|done]]. intros p Hp. apply elem_of_list_singleton in Hp as ->. split; cbn; [by intros h [= <-]|done].
Qed.

(** All hypotheses of C95_header_sound at once: a header with two properties. *)
Example C95_sound_example :
  let E := demo_env idealH in
  let props := [replicate 32 1; replicate 32 2] in
  exists np its, IsHeaderOf (eH E) (Some np) 3 4 = true /\ chain_ok [np] /\ chain_items E [np] = Some its /\
    VerifyProofChain E (replicate 32 2) [np] (header_hash (eH E) 3 4 props) = true /\ np_type np = 0x31 /\ length its = 2%nat /\
    (forall l, inj_on (eH E) l).
Proof.
  intros E props.
  set (leaf0 := keyed_leaf (eH E) (header_key 3 4 0, replicate 32 1)).
  exists (NP 0x31 zero_header (Some (eH E (header_key 3 4 1))) (Some (MP [leaf0] (Some 1) []))).
  exists [(eH E (header_key 3 4 1), true); (leaf0, true)].
  split; [apply C95_tests; exists 1; split; [by apply (pi_base 1)|done]|].
  split. { intros p Hp. apply elem_of_list_singleton in Hp as ->. split; cbn; [intros h [= <-]; apply (ok_H E); by apply demo_env_ok|].
    intros q [= <-]. constructor; [apply (ok_H E); by apply demo_env_ok|constructor]. }
  split; [reflexivity|]. split; [|split; [done|split; [done|apply idealH_inj]]].
  unfold VerifyProofChain, chain_proof. apply bool_decide_eq_true. reflexivity.
Qed.
