(** Proofs about the proof chains of the trie. *)
From Verif Require Export TrieRunProofs TrieProofModel.

Section proofs.
Context {V : Type} (E : env V) (HE : env_ok E).
Implicit Types (rch : list (option (radix V))) (U : list N -> Prop) (r : radix V).
Local Notation H := (eH E).
Local Notation rhash := (rhash (eH E) (ertl E) (evhash E)).
Local Notation node := (node V).
Local Notation rep := (rep E).
Local Notation loaded := (loaded E).

(* ---------------------------------------------------------------- get *)

Inductive ploaded (st : store) : node -> radix V -> list N -> Prop :=
| pl_nil n r : loaded st n r -> ploaded st n r []
| pl_cons n pre rch x i c rc tr : loaded st n (Radix pre rch x) -> n_child n i = Some c ->
    rch !! N.to_nat i = Some (Some rc) -> ploaded st c rc tr -> ploaded st n (Radix pre rch x) (i :: tr).

Lemma ploaded_loaded st n r tr : ploaded st n r tr -> loaded st n r.
Proof. by destruct 1. Qed.

(** The way of a key through a tree. *)
Inductive tracer : radix V -> list N -> list N -> Prop :=
| tr_miss pre rch x s : strip pre s = None -> tracer (Radix pre rch x) s []
| tr_here pre rch x s : strip pre s = Some [] -> tracer (Radix pre rch x) s []
| tr_nochild pre rch x s i rest : strip pre s = Some (i :: rest) -> nth (N.to_nat i) rch None = None ->
    tracer (Radix pre rch x) s []
| tr_child pre rch x s i rest rc tr : strip pre s = Some (i :: rest) -> rch !! N.to_nat i = Some (Some rc) ->
    tracer rc rest tr -> tracer (Radix pre rch x) s (i :: tr).

Lemma get_path fuel : forall st gen n r suffix U,
  rep st n r -> wfr U r -> prefix_free U -> U suffix -> is_nibbles suffix -> (length suffix < fuel)%nat ->
  exists n' tr, get E fuel st gen n suffix = (n', rlook r suffix, tr) /\ ploaded st n' r tr /\ tracer r suffix tr.
Proof.
  induction fuel as [|fuel IH]; intros st gen n r suffix U Hrep Hw Hpf HU Hns Hf; [lia|].
  cbn [get]. destruct (fullExpand_spec E HE st gen n r Hrep) as (n1&->&Hl).
  pose proof (loaded_not_empty E HE _ _ _ Hl) as Hne.
  destruct (loaded_inv E _ _ _ Hl) as (pre&ch&x&d&h&vh&vs&g&rch&Hn1&->&Hlc&Hlr&Hnib&Hcont&Hpres&Hch&Hv).
  destruct suffix as [|s0 suf].
  { destruct (wfr_nil U pre rch x) as (->&_&_); [done..|]. exists n1, []. rewrite rlook_eq. cbn [strip]. subst n1. cbn.
    split; [done|]. split; [by constructor|]. by apply tr_here. }
  set (suffix := s0 :: suf) in *. rewrite Hne.
  assert (Hpre : n_pre n1 = pre) by by subst n1. rewrite Hpre. rewrite rlook_eq.
  destruct (strip pre suffix) as [s|] eqn:Hs.
  - pose proof Hs as Hs0. apply strip_Some in Hs.
    assert (Hmp : matchPrefix pre suffix = length pre) by (rewrite Hs; apply matchPrefix_app).
    assert (Hdr : drop (length pre) suffix = s) by (rewrite Hs; apply drop_app_len).
    rewrite Hmp, Nat.sub_diag. cbn [Nat.eqb]. rewrite Hdr.
    destruct s as [|i rest].
    { exists n1, []. subst n1. cbn. split; [done|]. split; [by constructor|by apply tr_here]. }
    assert (Hi16 : i < 16).
    { unfold is_nibbles in Hns. rewrite Hs in Hns. apply Forall_app in Hns as [_ Hns]. by inversion Hns. }
    assert (Hnc : n_child n1 i = nth (N.to_nat i) ch None) by by subst n1. rewrite Hnc.
    pose proof (present_lookup _ _ (N.to_nat i) Hpres) as Hpi.
    destruct (nth (N.to_nat i) ch None) as [c|] eqn:Hc, (nth (N.to_nat i) rch None) as [rc|] eqn:Hrc; try done.
    2:{ exists n1, []. split; [done|]. split; [by constructor|by eapply tr_nochild]. }
    apply nth_some_lookup in Hc, Hrc.
    destruct (wfr_child _ _ _ _ _ _ Hw Hrc) as [Hwc ->].
    assert (Hrepc : rep st c rc) by by eapply Hch.
    assert (Hexp : exists c1, (if isCollapsed E c then expandNode E st gen c else Some c) = Some c1 /\ rep st c1 rc).
    { destruct (isCollapsed E c); [by apply expandNode_spec|eauto]. }
    destruct Hexp as (c1&->&Hr1).
    destruct (IH st gen c1 rc rest (fun s => U (pre ++ i :: s))) as (c'&tr&->&Hr'&Htr); [done|done|by apply prefix_free_sub|by rewrite <- Hs| | |].
    { unfold is_nibbles in Hns. rewrite Hs in Hns. apply Forall_app in Hns as [_ Hns]. by inversion Hns. }
    { apply (f_equal length) in Hs. rewrite app_length in Hs. cbn [length] in Hs. lia. }
    do 2 eexists. split; [done|]. split; [|by eapply tr_child].
    econstructor; [|subst n1; unfold n_child; cbn [put_child n_ch]; apply nth_some_lookup, list_lookup_insert; lia|done|done].
    eapply put_child_same; [done|done|]. by eapply loaded_rep, ploaded_loaded.
  - pose proof Hs as Hs0. apply strip_None in Hs. destruct (Nat.eqb_spec (length pre - matchPrefix pre suffix) 0) as [He|_].
    + exfalso. apply matchPrefix_neq in Hs as [(y&p'&->&Hm)|(c&y&z&p'&s'&_&->&_&Hm)]; rewrite Hm in He; rewrite app_length in He; cbn in He; lia.
    + exists n1, []. split; [done|]. split; [by constructor|by apply tr_miss].
Qed.

(* ---------------------------------------------------------- one node proof *)

Lemma proofNum_none pres j k p : (forall i, pres !! i = Some true -> p <> j + N.of_nat i) -> proofNum pres j k p = (-1)%Z.
Proof.
  revert j k. induction pres as [|b pres IH]; intros j k Hp; [done|]. cbn [proofNum]. destruct b.
  - destruct (N.eqb_spec p j) as [->|_]; [exfalso; apply (Hp O); [done|lia]|]. apply IH. intros i Hi. specialize (Hp (S i) Hi). lia.
  - apply IH. intros i Hi. specialize (Hp (S i) Hi). lia.
Qed.
Lemma proofNum_some {A B} (f : A -> B) (ch : list (option A)) i c : ch !! i = Some (Some c) -> forall j k,
  exists q, proofNum (map is_some ch) j k (j + N.of_nat i) = (k + Z.of_nat q)%Z /\
    somes (map (option_map f) ch) !! q = Some (f c).
Proof.
  revert i. induction ch as [|o ch IH]; intros [|i] Hi j k; try done.
  - injection Hi as ->. cbn [map proofNum is_some]. rewrite N.add_0_r, N.eqb_refl. exists O. split; [lia|done].
  - cbn [map proofNum]. destruct o as [a|]; cbn [is_some].
    + destruct (N.eqb_spec (j + N.of_nat (S i)) j) as [?|_]; [lia|].
      destruct (IH i Hi (j + 1) (k + 1)%Z) as (q&Hq&Hs). replace (j + N.of_nat (S i)) with (j + 1 + N.of_nat i) by lia.
      exists (S q). split; [rewrite Hq; lia|done].
    + destruct (IH i Hi (j + 1) k) as (q&Hq&Hs). replace (j + N.of_nat (S i)) with (j + 1 + N.of_nat i) by lia.
      exists q. done.
Qed.

Definition hd_of pre rch (x : option V) : nodeheader := newNodeHeader pre (present rch) (bool_decide (is_Some x)).
Definition items_for (ptype : N) rch : list (list N * bool) :=
  let t := proofNum (present rch) 0 0 ptype in
  zpath (pnode H (chashes E rch)) 0 (mdepth (length (chashes E rch))) t ++ final_item t (proot H (chashes E rch)).
Definition np_for (ptype : N) (r : radix V) (p : nodeproof) : Prop :=
  let 'Radix pre rch x := r in
  exists cp, p = NewNodeProof ptype (hd_of pre rch x) (option_map (evhash E) x) cp /\
    match chashes E rch with [] => cp = None | _ => exists m, cp = Some m /\ mp_rep m (items_for ptype rch) end.

Lemma chashes_some rch i rc : rch !! i = Some (Some rc) -> exists q,
  proofNum (present rch) 0 0 (N.of_nat i) = Z.of_nat q /\ chashes E rch !! q = Some (rhash rc).
Proof.
  intros Hi. destruct (proofNum_some rhash rch i rc Hi 0 0%Z) as (q&Hq&Hs). exists q. split; [|done].
  rewrite N.add_0_l, Z.add_0_l in Hq. done.
Qed.

Lemma proofNum_bound pres p : forall j k, (0 <= k)%Z ->
  (-1 <= proofNum pres j k p < k + Z.of_nat (length (filter (.= true) pres)))%Z \/ proofNum pres j k p = (-1)%Z.
Proof.
  induction pres as [|b pres IH]; intros j k Hk; [by right|]. cbn [proofNum]. destruct b.
  - assert (Hf : filter (.= true) (true :: pres) = true :: filter (.= true) pres) by done. rewrite Hf. cbn [length].
    destruct (p =? j); [left; lia|]. destruct (IH (j + 1) (k + 1)%Z) as [?|?]; [lia|left; lia|by right].
  - assert (Hf : filter (.= true) (false :: pres) = filter (.= true) pres) by done. rewrite Hf.
    apply IH. lia.
Qed.

Lemma pow_mdepth n : (n <= 2 ^ mdepth n)%nat.
Proof.
  unfold mdepth. destruct (decide (n <= 1)%nat) as [Hn|Hn].
  - assert (2 ^ 1 <= 2 ^ Nat.max 1 (Nat.log2_up n))%nat by (apply Nat.pow_le_mono_r; lia). cbn in *. lia.
  - etrans; [apply (proj2 (Nat.log2_up_spec n ltac:(lia)))|]. apply Nat.pow_le_mono_r; lia.
Qed.

Lemma present_filter rch : length (filter (.= true) (present rch)) = length (chashes E rch).
Proof.
  unfold chashes, present. induction rch as [|[c|] rch IH]; [done| |]; cbn [map option_map somes].
  - change (filter (.= true) (true :: ?l)) with (true :: filter (.= true) l). cbn [length]. by rewrite IH.
  - done.
Qed.

Context (Q : radix V -> Prop) (Hcl : closed Q) (Hno : no_eh E Q).

Lemma MakeProof_spec pre rch x ptype : length rch = 16%nat -> is_nibbles pre ->
  exists h p, MakeProof E (hd_of pre rch x) (option_map (evhash E) x) (chashes E rch) ptype (proofNum (present rch) 0 0 ptype) = Some (h, p) /\
    np_for ptype (Radix pre rch x) p.
Proof.
  intros Hl Hn. unfold MakeProof, np_for.
  assert (Hnt : nt_HasChildren (nh_nt (hd_of pre rch x)) = existsb id (present rch)).
  { unfold hd_of, newNodeHeader. cbn [nh_nt]. rewrite ntype_spec by done. by destruct (type_byte_bits pre (present rch) (bool_decide (is_Some x)) Hn) as (_&_&_&->&_). }
  rewrite Hnt. destruct (existsb id (present rch)) eqn:Hp.
  - destruct (chashes E rch) as [|h0 hs] eqn:Hc; [apply chashes_nil in Hc; congruence|]. rewrite <- Hc.
    set (t := proofNum (present rch) 0 0 ptype).
    destruct (mhc_spec H (chashes E rch) t (Some mp_new) [] (ok_H E HE)) as (ps'&->&Hps&Hrel); [by apply chashes_len|by rewrite Hc| |apply mp_rep_new|].
    { intros Ht. destruct (proofNum_bound (present rch) ptype 0 0%Z ltac:(lia)) as [Hb|Hb]; [|unfold t in Ht; lia].
      fold t in Hb. rewrite present_filter in Hb. pose proof (pow_mdepth (length (chashes E rch))). lia. }
    do 2 eexists. split; [done|]. exists ps'. split; [done|].
    destruct ps' as [m|]; [|by destruct Hps as [Hps _]; specialize (Hps eq_refl)].
    exists m. split; [done|]. exact Hrel.
  - do 2 eexists. split; [done|]. exists None. split; [done|]. by rewrite (proj2 (chashes_nil E rch)) by done.
Qed.

Lemma node_proof_spec st n pre rch x ptype : loaded st n (Radix pre rch x) -> Q (Radix pre rch x) ->
  IsProofChild ptype || IsProofValue ptype || IsProofExistence ptype = true ->
  exists n' p, node_proof E n ptype = Some (n', p) /\ loaded st n' (Radix pre rch x) /\ np_for ptype (Radix pre rch x) p.
Proof.
  intros Hl HQ Hpt. inversion Hl as [pre' ch x' d h vh vs g rch' H1 H2 H3 H4 H5 H6 H7 H8 H9]; subst.
  unfold node_proof. rewrite Hpt. cbn [n_ch].
  set (chh := map (option_map (node_hash E)) ch).
  assert (Hi : forall i, match nth i ch None, nth i rch None with
               | Some c, Some rc => exists c', node_hash E c = (c', rhash rc) /\ rep st c' rc
               | None, None => True | _, _ => False end).
  { intros i. pose proof (present_lookup _ _ i H5) as Hpi.
    destruct (nth i ch None) as [c|] eqn:Hci, (nth i rch None) as [rc|] eqn:Hri; try done.
    apply nth_some_lookup in Hci, Hri. destruct (node_hash_spec E HE Q st c rc Hcl Hno) as (c'&?&?&_); [by eapply H6|by eapply Hcl|]. eauto. }
  assert (Hsnd : somes (map (option_map snd) chh) = chashes E rch).
  { unfold chashes, chh. rewrite map_map.
    transitivity (somes (map (option_map (fun c => snd (node_hash E c))) ch)).
    { f_equal. apply map_ext. by intros [c|]. }
    apply somes_ext; [by rewrite map_length, H1, H2|]. intros i.
    pose proof (map_nth (option_map rhash) rch None i) as Hmn. cbn [option_map] in Hmn. rewrite Hmn.
    specialize (Hi i). destruct (nth i ch None) as [c|], (nth i rch None) as [rc|]; try done.
    destruct Hi as (c'&Hh&_). cbn. by rewrite Hh. }
  set (ch1 := map (option_map fst) chh).
  assert (Hl1 : length ch1 = 16%nat) by (unfold ch1, chh; by rewrite !map_length).
  assert (Hp1 : present_n ch1 = present_n ch).
  { unfold present_n, ch1, chh. rewrite !map_map. apply map_ext. by intros [c|]. }
  assert (Hrep1 : forall i c rc, ch1 !! i = Some (Some c) -> rch !! i = Some (Some rc) -> rep st c rc).
  { intros i c rc Hc1 Hrc. specialize (Hi i). apply nth_some_lookup in Hrc. rewrite Hrc in Hi.
    destruct (nth i ch None) as [c0|] eqn:Hc0; [|done]. apply nth_some_lookup in Hc0.
    destruct Hi as (c'&Hh&Hr). unfold ch1, chh in Hc1. rewrite !list_lookup_fmap, Hc0 in Hc1. cbn in Hc1.
    rewrite Hh in Hc1. injection Hc1 as <-. done. }
  assert (Hvh : compute_vhash E (Node pre ch x d h vh vs g) = option_map (evhash E) x).
  { unfold compute_vhash. destruct x as [y|].
    - assert (isValueCollapsed (Node pre ch (Some y) d h vh vs g) = false) as ->.
      { unfold isValueCollapsed. cbn [n_vh]. destruct vh; [unfold hasValue; cbn; by rewrite andb_false_r|done]. }
      cbn [n_val]. erewrite valueHash_spec by exact H7. cbn. f_equal. apply bytes_to_hash_id. apply (ok_vhash E HE).
    - by inversion H7; subst. }
  assert (Hhd : header_of (Node pre ch x d h vh vs g) = hd_of pre rch x).
  { unfold header_of, hd_of, hasValue. cbn [n_pre n_ch n_val]. by rewrite H5, isSome_hv. }
  rewrite Hvh, Hhd, Hsnd, H5.
  destruct (MakeProof_spec pre rch x ptype H2 H3) as (h'&p&->&Hnp).
  assert (Hv1 : exists vh' vs', cache_value E (Node pre ch1 x d h vh vs g) = Node pre ch1 x d h vh' vs' g /\
             vrep E st d x vh' vs' x).
  { unfold cache_value. cbn [n_val]. destruct x as [y|].
    - erewrite valueHash_spec by exact H7. do 2 eexists. split; [done|]. constructor; by right.
    - exists vh, vs. done. }
  destruct Hv1 as (vh'&vs'&Hcv&Hv'). exists (Node pre ch1 x d h vh' vs' g), p. fold ch1. rewrite Hcv.
  split; [done|]. split; [|done]. constructor; try done. by rewrite Hp1.
Qed.

(* ------------------------------------------------------------- the chain *)

Inductive cok (lastp : N) : radix V -> list N -> list nodeproof -> Prop :=
| cok_nil r p : np_for lastp r p -> cok lastp r [] [p]
| cok_cons pre rch x i rc tr ps p : rch !! N.to_nat i = Some (Some rc) -> i < 16 ->
    cok lastp rc tr ps -> np_for i (Radix pre rch x) p -> cok lastp (Radix pre rch x) (i :: tr) (ps ++ [p]).

Lemma proof_walk_spec lastp st gen n r tr : lastp = ProofValue \/ lastp = ProofExistence ->
  ploaded st n r tr -> Q r ->
  exists n' ps, proof_walk E st gen n tr lastp = Some (n', ps) /\ loaded st n' r /\ cok lastp r tr ps.
Proof.
  intros Hlast. induction 1 as [n r Hl|n pre rch x i c rc tr Hl Hc Hrc Hp IH]; intros HQ; cbn [proof_walk].
  - rewrite (loaded_not_collapsed E HE _ _ _ Hl). destruct r as [pre rch x].
    destruct (node_proof_spec st n pre rch x lastp Hl HQ) as (n'&p&->&Hl'&Hnp); [by destruct Hlast as [->| ->]|].
    do 2 eexists. split; [done|]. split; [done|by constructor].
  - rewrite Hc. destruct IH as (c'&ps&->&Hl'&Hcok); [by eapply Hcl|].
    pose proof (put_child_same E st n pre rch x i c' rc Hl Hrc (loaded_rep _ _ _ _ Hl')) as Hl2.
    rewrite (loaded_not_collapsed E HE _ _ _ Hl2).
    assert (Hi : i < 16).
    { destruct (loaded_inv E _ _ _ Hl) as (?&?&?&?&?&?&?&?&?&_&He&_&Hlr&_). injection He as -> -> ->.
      apply lookup_lt_Some in Hrc. lia. }
    destruct (node_proof_spec st _ pre rch x i Hl2 HQ) as (n'&p&->&Hl''&Hnp).
    { unfold IsProofChild. destruct (N.leb_spec i 15); [done|lia]. }
    do 2 eexists. split; [done|]. split; [done|by econstructor].
Qed.

(* ---------------------------------------------------------- verification *)

Lemma fold_climb h its : fold_items E h its = climb H h its.
Proof.
  unfold fold_items. revert h. induction its as [|[v b] its IH]; intros h; [done|]. cbn [foldl climb].
  rewrite IH. by destruct b.
Qed.

Lemma climb_app h a b : climb H h (a ++ b) = climb H (climb H h a) b.
Proof. revert h. induction a as [|[v o] a IH]; intros h; [done|]. cbn [app climb]. by destruct o; rewrite IH. Qed.

Lemma hd_hash pre rch x : length rch = 16%nat -> is_nibbles pre ->
  hash_pair H (nh_hash E (hd_of pre rch x)) (default (nilhash H) (option_map (evhash E) x)) = H (lefti E pre rch x).
Proof.
  intros Hl Hn. unfold hash_pair, nh_hash, hd_of, lefti. rewrite newNodeHeader_ser; [|done|by unfold present; rewrite map_length].
  by destruct x.
Qed.

Lemma mp_rep_single m h : mp_rep m [(h, false)] -> mp_hashs m = [h].
Proof.
  intros (n&_&_&Hok&Hw). destruct (mp_hashs m) as [|a l] eqn:Hl.
  - done.
  - cbn [expand] in Hw. pose proof (rt_nonneg _ _ _ 0 Hok) as Hr.
    set (k := Z.to_nat (rt (mp_repeats m) 0 + 1)) in *.
    assert (Hk : exists k', k = S k') by (exists (Z.to_nat (rt (mp_repeats m) 0)); unfold k; lia).
    destruct Hk as [k' Hk]. rewrite Hk in Hw. cbn [replicate app withord] in Hw.
    destruct l as [|b l].
    + apply (f_equal (map fst)) in Hw. cbn in Hw. injection Hw as -> _. done.
    + exfalso. cbn [expand] in Hw. pose proof (rt_nonneg _ _ _ (0 + 1)%Z Hok) as Hr2.
      apply (f_equal length) in Hw. cbn [length] in Hw.
      assert (Hwl : forall (o : Z -> bool) j (q : list (list N)), length (withord o j q) = length q).
      { intros o j q. revert j. induction q as [|? q IHq]; intros j; [done|]. cbn [withord length]. by rewrite IHq. }
      rewrite Hwl, !app_length, !replicate_length in Hw. lia.
Qed.

Definition shape r : Prop := let 'Radix pre rch x := r in length rch = 16%nat /\ is_nibbles pre.

Lemma np_child_proof pre rch x i rc p : shape (Radix pre rch x) -> rch !! N.to_nat i = Some (Some rc) -> i < 16 ->
  np_for i (Radix pre rch x) p ->
  exists its, np_items E p = Some its /\ climb H (rhash rc) its = rhash (Radix pre rch x).
Proof.
  intros [Hl Hn] Hrc Hi (cp&->&Hcp).
  destruct (chashes_some rch (N.to_nat i) rc Hrc) as (q&Hq&Hcq). rewrite N2Nat.id in Hq.
  assert (Hqi : (q < length (chashes E rch))%nat) by (by eapply lookup_lt_Some).
  rewrite (rhash_eq E). destruct (chashes E rch) as [|h0 hs] eqn:Hc; [done|]. rewrite <- Hc in *.
  destruct Hcp as (m&->&Hrep).
  unfold np_items, NewNodeProof. cbn [np_type np_header np_vhash np_child].
  assert (IsProofMerkleOnly i = false) as -> by (unfold IsProofMerkleOnly, ProofMerkleOnly; destruct (N.eqb_spec i 0xFF); [lia|done]).
  assert (IsProofChild i = true) as -> by (unfold IsProofChild; destruct (N.leb_spec i 15); [done|lia]).
  assert (IsProofValue i = false) as -> by (unfold IsProofValue, ProofValue; destruct (N.eqb_spec i 0x10); [lia|done]).
  cbn [mpo_items]. rewrite (mp_rep_items _ _ Hrep).
  eexists. split; [done|]. rewrite climb_app, hd_hash by done. cbn [climb]. f_equal. f_equal.
  unfold items_for. rewrite Hq. unfold zpath, final_item.
  destruct (Z.leb_spec 0 (Z.of_nat q)) as [_|?]; [|lia]. destruct (Z.ltb_spec (Z.of_nat q) 0) as [?|_]; [lia|].
  rewrite app_nil_r, Nat2Z.id.
  assert (Hnode : pnode H (chashes E rch) 0 q = rhash rc) by (cbn [pnode]; by apply nth_lookup_Some).
  rewrite <- Hnode, (climb_path H (pnode H (chashes E rch)) (fun _ _ => True)) by done.
  pose proof (pow_mdepth (length (chashes E rch))). rewrite Nat.div_small by lia. cbn [Nat.add]. rewrite Hc. done.
Qed.

Lemma items_for_end ptype rch : 16 <= ptype -> length rch = 16%nat -> items_for ptype rch = [(proot H (chashes E rch), false)].
Proof.
  intros Hp Hl. unfold items_for. rewrite proofNum_none; [done|].
  intros i Hi. apply lookup_lt_Some in Hi. unfold present in Hi. rewrite map_length in Hi. lia.
Qed.

Lemma np_value_proof pre rch y p : shape (Radix pre rch (Some y)) -> np_for ProofValue (Radix pre rch (Some y)) p ->
  exists its, np_items E p = Some its /\ climb H (evhash E y) its = rhash (Radix pre rch (Some y)).
Proof.
  intros [Hl Hn] (cp&->&Hcp). rewrite (rhash_eq E).
  pose proof (hd_hash pre rch (Some y) Hl Hn) as Hh. unfold hash_pair in Hh. cbn [option_map default] in Hh. unfold id in Hh.
  unfold np_items, NewNodeProof. cbn [np_type np_header np_vhash np_child].
  change (IsProofMerkleOnly ProofValue) with false. change (IsProofChild ProofValue) with false.
  change (IsProofValue ProofValue) with true. cbv iota.
  destruct (chashes E rch) as [|h0 hs] eqn:Hc.
  - subst cp. eexists. split; [done|]. cbn [climb]. done.
  - rewrite <- Hc in *. destruct Hcp as (m&->&Hrep). rewrite items_for_end in Hrep by (done || (unfold ProofValue; lia)).
    rewrite (mp_rep_single _ _ Hrep). eexists. split; [done|]. cbn [climb]. cbn. by rewrite Hh.
Qed.

Lemma np_exist_hash r p : shape r -> np_for ProofExistence r p -> np_ExistenceHash E p = Some (rhash r).
Proof.
  destruct r as [pre rch x]. intros [Hl Hn] (cp&->&Hcp). rewrite (rhash_eq E).
  pose proof (hd_hash pre rch x Hl Hn) as Hh.
  unfold np_ExistenceHash, NewNodeProof. cbn [np_type np_header np_vhash np_child].
  change (IsProofExistence ProofExistence) with true. change (IsProofValue ProofExistence) with false. cbv iota.
  destruct (chashes E rch) as [|h0 hs] eqn:Hc.
  - subst cp. by rewrite Hh.
  - rewrite <- Hc in *. destruct Hcp as (m&->&Hrep). rewrite items_for_end in Hrep by (done || (unfold ProofExistence; lia)).
    rewrite (mp_rep_single _ _ Hrep), Hh. done.
Qed.

Lemma chain_items_app a b : chain_items E (a ++ b) =
  match chain_items E a, chain_items E b with Some x, Some y => Some (x ++ y) | _, _ => None end.
Proof.
  induction a as [|p a IH]; [cbn; by destruct (chain_items E b)|]. cbn [app chain_items]. rewrite IH.
  destruct (np_items E p); [|done]. destruct (chain_items E a); [|done]. destruct (chain_items E b); [|done]. by rewrite app_assoc.
Qed.

Definition rshape (r : radix V) : Prop := exists U, wfr U r.
Lemma rshape_shape r : rshape r -> shape r.
Proof. intros [U Hw]. destruct r as [pre rch x]. apply wfr_inv in Hw as [(?&_&->&_&?)|(_&?&?&_)]; done. Qed.
Lemma rshape_child pre rch x i rc : rshape (Radix pre rch x) -> rch !! N.to_nat i = Some (Some rc) -> rshape rc.
Proof. intros [U Hw] Hi. destruct (wfr_child _ _ _ _ _ _ Hw Hi) as [? _]. by eexists. Qed.

Lemma cok_value r tr s y : tracer r s tr -> forall ps, cok ProofValue r tr ps -> rshape r -> rlook r s = Some y ->
  exists its, chain_items E ps = Some its /\ climb H (evhash E y) its = rhash r.
Proof.
  intros Htr. revert y.
  induction Htr as [pre rch x s Hs|pre rch x s Hs|pre rch x s i rest Hs Hc|pre rch x s i rest rc tr Hs Hrc Htr IH]; intros y ps Hcok Hsh; rewrite rlook_eq, Hs.
  - done.
  - intros ->. inversion Hcok; subst.
    match goal with A : np_for _ _ _ |- _ => destruct (np_value_proof pre rch y p (rshape_shape _ Hsh) A) as (its&Hits&Hcl') end.
    exists its. cbn [chain_items]. rewrite Hits, app_nil_r. done.
  - by rewrite Hc.
  - rewrite (nth_lookup_Some _ _ None _ Hrc). intros Hlk. inversion Hcok as [|? ? ? ? rc' ? ps' p Hrc' Hi Hcok' Hnp]; subst.
    rewrite Hrc in Hrc'. injection Hrc' as <-.
    destruct (IH y ps' Hcok' (rshape_child _ _ _ _ _ Hsh Hrc) Hlk) as (its&Hits&Hc1).
    destruct (np_child_proof pre rch x i rc p (rshape_shape _ Hsh) Hrc Hi Hnp) as (its2&Hits2&Hc2).
    exists (its ++ its2). rewrite chain_items_app, Hits. cbn [chain_items]. rewrite Hits2, app_nil_r. split; [done|].
    by rewrite climb_app, Hc1.
Qed.

Lemma proof_up_app a b h : proof_up E (a ++ b) h = match proof_up E a h with Some h' => proof_up E b h' | None => None end.
Proof. revert h. induction a as [|p a IH]; intros h; [done|]. cbn [app proof_up]. destruct (np_proof E p (bytes_to_hash h)); [apply IH|done]. Qed.

Lemma cok_exist_hash r tr ps : cok ProofExistence r tr ps -> rshape r -> ExistenceHash E ps = Some (rhash r).
Proof.
  induction 1 as [r p Hnp|pre rch x i rc tr ps p Hrc Hi Hcok IH Hnp]; intros Hsh.
  - cbn [ExistenceHash proof_up]. by rewrite (np_exist_hash _ _ (rshape_shape _ Hsh) Hnp).
  - specialize (IH (rshape_child _ _ _ _ _ Hsh Hrc)). unfold ExistenceHash in *. destruct ps as [|p0 ps]; [done|]. cbn [app].
    destruct (np_ExistenceHash E p0) as [h|]; [|done]. rewrite proof_up_app, IH. cbn [proof_up].
    rewrite bytes_to_hash_id by by apply rhash_len.
    destruct (np_child_proof pre rch x i rc p (rshape_shape _ Hsh) Hrc Hi Hnp) as (its2&Hits2&Hc2).
    unfold np_proof. rewrite Hits2, fold_climb, Hc2. done.
Qed.

Lemma nh_facts pre rch x : length rch = 16%nat -> is_nibbles pre ->
  nh_KeyToPrefix (hd_of pre rch x) = pre /\
  (forall i, i < 16 -> nh_HasChild (hd_of pre rch x) i = is_some (nth (N.to_nat i) rch None)).
Proof.
  intros Hl Hn. destruct (nh_deser_ser E pre (present rch) (bool_decide (is_Some x)) [] HE Hn) as (hd&_&_&Hk&->&Hc);
    [unfold present; by rewrite map_length|].
  split; [done|]. intros i Hi. specialize (Hc (N.to_nat i) ltac:(lia)). rewrite N2Nat.id in Hc. unfold hd_of. rewrite Hc.
  unfold present. rewrite (map_nth (fun o : option (radix V) => match o with Some _ => true | None => false end) rch None). done.
Qed.

Lemma exist_end U pre rch x s p : wfr U (Radix pre rch x) -> prefix_free U -> U s -> is_nibbles s ->
  np_for ProofExistence (Radix pre rch x) p -> tracer (Radix pre rch x) s [] ->
  exist_loop [p] s = Some (option_map (evhash E) (rlook (Radix pre rch x) s)).
Proof.
  intros Hw Hpf HUs Hns (cp&->&_) Htr.
  destruct (rshape_shape (Radix pre rch x) (ex_intro _ U Hw)) as [Hl Hn].
  destruct (nh_facts pre rch x Hl Hn) as [Hkp Hhc].
  cbn [exist_loop]. unfold ExistenceMatch, NewNodeProof. cbn [np_type np_header np_vhash].
  change (IsProofExistence ProofExistence) with true. change (IsProofValue ProofExistence) with false.
  change (IsProofChild ProofExistence) with false. cbn [orb andb]. rewrite Hkp. rewrite rlook_eq.
  assert (Hhere : U pre -> strip pre s = Some [] -> exists y, x = Some y).
  { intros HU _. apply wfr_inv in Hw as [(y&->&_)|(->&Hl'&_&(i&_&_&(c&Hi)&_)&Hc)]; [eauto|].
    exfalso. destruct (wfr_inhabited _ _ (Hc i c Hi)) as (k&z&HUk&_&_).
    apply (f_equal length (x:=pre)) in HUk || idtac.
    assert (Heq : pre = pre ++ N.of_nat i :: k) by (apply Hpf; [done|done|by eexists]).
    apply (f_equal length) in Heq. rewrite app_length in Heq. cbn in Heq. lia. }
  destruct s as [|k0 k'].
  { destruct (wfr_nil U pre rch x) as (->&(y&->)&_); [done..|]. done. }
  destruct pre as [|p0 pre'] eqn:Hpre.
  { cbn [strip]. assert (Hk0 : k0 < 16) by (by inversion Hns). rewrite Hhc by done.
    inversion Htr as [? ? ? ? Hs|? ? ? ? Hs|? ? ? ? i rest Hs Hc|]; subst; try done.
    cbn [strip] in Hs. injection Hs as <- <-. by rewrite Hc. }
  rewrite <- Hpre in *. set (s := k0 :: k') in *.
  destruct (strip pre s) as [q|] eqn:Hs.
  - pose proof Hs as Hs0. apply strip_Some in Hs. rewrite Hs. rewrite matchPrefix_app, Nat.sub_diag, drop_app_len.
    destruct (Nat.eqb_spec (length pre) 0) as [Hz|_]; [rewrite Hpre in Hz; done|]. cbn [Nat.eqb negb].
    destruct q as [|i rest].
    + destruct Hhere as (y&->); [|done|done]. rewrite app_nil_r in Hs. by rewrite <- Hs.
    + assert (Hi16 : i < 16).
      { unfold is_nibbles in Hns. rewrite Hs in Hns. apply Forall_app in Hns as [_ Hns]. by inversion Hns. }
      rewrite Hhc by done. inversion Htr as [? ? ? ? Hs2|? ? ? ? Hs2|? ? ? ? i' rest' Hs2 Hc|]; subst; try congruence.
      rewrite Hs2 in Hs0. injection Hs0 as -> ->. by rewrite Hc.
  - destruct (matchPrefix pre s =? 0)%nat; [done|]. apply strip_None in Hs.
    destruct (Nat.eqb_spec (length pre - matchPrefix pre s) 0) as [He|_]; [|done].
    exfalso. apply matchPrefix_neq in Hs as [(y&p'&Hp&Hm)|(c&y&z&p'&s'&_&Hp&_&Hm)]; rewrite Hm, Hp in He; rewrite app_length in He; cbn in He; lia.
Qed.

Lemma exist_step pre rch x i rc rest s p tl : shape (Radix pre rch x) -> rch !! N.to_nat i = Some (Some rc) -> i < 16 ->
  strip pre s = Some (i :: rest) -> np_for i (Radix pre rch x) p ->
  exist_loop (p :: tl) s = exist_loop tl rest.
Proof.
  intros [Hl Hn] Hrc Hi Hs (cp&->&_). destruct (nh_facts pre rch x Hl Hn) as [Hkp Hhc].
  cbn [exist_loop]. unfold ExistenceMatch, NewNodeProof. cbn [np_type np_header np_vhash].
  assert (IsProofChild i = true) as -> by (unfold IsProofChild; destruct (N.leb_spec i 15); [done|lia]).
  assert (IsProofValue i = false) as -> by (unfold IsProofValue, ProofValue; destruct (N.eqb_spec i 0x10); [lia|done]).
  cbn [orb andb]. rewrite Hkp, N.eqb_refl || rewrite Hkp.
  assert (Hb : nh_HasChild (hd_of pre rch x) i = true) by (rewrite Hhc by done; by rewrite (nth_lookup_Some _ _ None _ Hrc)).
  apply strip_Some in Hs. subst s. destruct pre as [|p0 pre'] eqn:Hpre.
  { cbn [app]. rewrite Hb, N.eqb_refl. done. }
  rewrite <- Hpre in *. rewrite matchPrefix_app, Nat.sub_diag, drop_app_len.
  destruct (pre ++ i :: rest) as [|a l] eqn:Happ; [by destruct pre|].
  destruct (Nat.eqb_spec (length pre) 0) as [Hz|_]; [rewrite Hpre in Hz; done|]. cbn [Nat.eqb negb].
  rewrite Hb, N.eqb_refl. done.
Qed.

Lemma cok_exist r s tr : tracer r s tr -> forall U ps, cok ProofExistence r tr ps -> wfr U r -> prefix_free U -> U s -> is_nibbles s ->
  exist_loop (rev ps) s = Some (option_map (evhash E) (rlook r s)).
Proof.
  induction 1 as [pre rch x s Hs|pre rch x s Hs|pre rch x s i rest Hs Hc|pre rch x s i rest rc tr Hs Hrc Htr IH];
    intros U ps Hcok Hw Hpf HU Hns; inversion Hcok as [? ? Hnp|? ? ? ? rc' ? ps' p Hrc' Hi Hcok' Hnp]; subst.
  - cbn [rev app]. eapply exist_end; eauto. by apply tr_miss.
  - cbn [rev app]. eapply exist_end; eauto. by apply tr_here.
  - cbn [rev app]. eapply exist_end; eauto. by eapply tr_nochild.
  - rewrite Hrc in Hrc'. injection Hrc' as <-. rewrite rev_app_distr. cbn [rev app].
    rewrite (exist_step pre rch x i rc rest s p) by (done || by eapply rshape_shape; eexists).
    rewrite rlook_eq, Hs, (nth_lookup_Some _ _ None _ Hrc).
    destruct (wfr_child _ _ _ _ _ _ Hw Hrc) as [Hwc ->]. apply strip_Some in Hs.
    apply (IH (fun s => U (pre ++ i :: s))); [done|done|by apply prefix_free_sub|by rewrite <- Hs|].
    unfold is_nibbles in Hns. rewrite Hs in Hns. apply Forall_app in Hns as [_ Hns]. by inversion Hns.
Qed.

End proofs.

(* ------------------------------------------------- tries with given contents *)
Section contents.
Context {V : Type} (E : env V) (HE : env_ok E).
Local Notation root_of := (root_of (eH E) (ertl E) (evhash E)).
Local Notation root_inputs := (root_inputs (eH E) (ertl E) (evhash E)).
Local Notation trie := (@trie V).
Implicit Types (m : gmap (list N) V).
Context (K : list N -> Prop) (HK : prefix_free K).
Context (HKb : forall k, K k -> is_bytes k) (HKl : forall k, K k -> (length k <= 48)%nat).
Context (L : list (gmap (list N) V)) (HL : forall m, m ∈ L -> dom_in K m).
Context (Hinj : inj_on (eH E) (concat (map root_inputs (∅ :: L)))).
Context (vals : list V) (Hvals : forall m k x, m ∈ L -> m !! k = Some x -> x ∈ vals).
Context (Hvinj : forall x y, x ∈ vals -> y ∈ vals -> evhash E x = evhash E y -> x = y).

Lemma QL_ok : good E (QL L).
Proof. eapply (QL_good E HE K); eauto. Qed.

Lemma getproof_nrep st (t : trie) m k : nrep E st (t_root t) m -> m ∈ L -> K k ->
  exists t' r, GetProof E st t k = (t', r) /\ nrep E st (t_root t') m /\ t_count t' = t_count t /\ t_gen t' = t_gen t /\
    match m !! k with
    | Some y => exists c, r = Some (y, c) /\ chain_proof E c (evhash E y) = Some (root_of m)
    | None => r = None
    end.
Proof.
  intros Hr HmL HKk. pose proof (HL m HmL) as Hd. pose proof (HKb k HKk) as Hkb.
  unfold GetProof. rewrite keyToPrefix_nibbles by done.
  destruct Hr as [[-> He]|[Hm Hr]].
  - cbn [get]. rewrite (erep_expand E) by done. rewrite lookup_empty.
    destruct (erep_empty E (t_root t) He) as (Hem&_).
    assert (Hn : n_val (t_root t) = None) by by destruct He.
    exists (Trie (t_root t) (t_count t) (t_gen t)), None. rewrite Hem, Hn. split; [by destruct (nibbles k)|]. split; [by left|done].
  - destruct (radix_wfr K HK m Hd Hm) as [Hw Hlk].
    destruct (get_path E HE (S (length (nibbles k))) st (t_gen t) (t_root t) (radix_of m) (nibbles k) (nibU K)) as (n'&tr&->&Hpl&Htr);
      [done|done|by apply nibU_pf|by exists k|by apply nibbles_ok|lia|].
    rewrite Hlk. destruct (m !! k) as [y|] eqn:Hy.
    + destruct (proof_walk_spec E HE (QL L) (g_closed E _ QL_ok) (g_no E _ QL_ok) ProofValue st (t_gen t) n' (radix_of m) tr (or_introl eq_refl) Hpl)
        as (n2&ps&->&Hl2&Hcok); [by apply QL_root|].
      do 2 eexists. split; [done|]. cbn [t_root t_count t_gen]. split; [right; split; [done|by eapply loaded_rep]|].
      do 2 (split; [done|]). exists ps. split; [done|].
      destruct (cok_value E (radix_of m) tr (nibbles k) y Htr ps Hcok) as (its&Hits&Hcl); [by eexists|by rewrite Hlk|].
      unfold chain_proof. by rewrite Hits, fold_climb, Hcl.
    + do 2 eexists. split; [done|]. cbn [t_root t_count t_gen]. split; [|done].
      right. split; [done|]. by eapply loaded_rep, ploaded_loaded.
Qed.


Lemma erep_proof st gen n : erep E n -> exists n' p, proof_walk E st gen n [] ProofExistence = Some (n', [p]) /\ erep E n' /\
  np_for E ProofExistence empty_radix p.
Proof.
  intros He. destruct (erep_empty E n He) as (_&Hc&_). cbn [proof_walk]. rewrite Hc. destruct He as [d h g Hh].
  assert (Hnp : node_proof E (Node [] (replicate 16 None) None d h None [] g) ProofExistence =
    match MakeProof E (hd_of (V:=V) [] (replicate 16 None) None) (option_map (evhash E) None) (chashes E (replicate 16 None)) ProofExistence
      (proofNum (present (V:=V) (replicate 16 None)) 0 0 ProofExistence) with
    | Some (_, p) => Some (Node [] (replicate 16 None) None d h None [] g, p) | None => None end) by done.
  rewrite Hnp. destruct (MakeProof_spec E HE [] (replicate 16 None) None ProofExistence) as (h'&p&->&Hp); [done|constructor|].
  do 2 eexists. split; [done|]. split; [by constructor|done].
Qed.

Lemma existproof_nrep st (t : trie) m k : nrep E st (t_root t) m -> m ∈ L -> K k -> k <> [] ->
  exists t' c, GetExistenceProof E st t k = (t', Some (bool_decide (is_Some (m !! k)), c)) /\ nrep E st (t_root t') m /\
    t_count t' = t_count t /\ t_gen t' = t_gen t /\ ExistenceHash E c = Some (root_of m) /\
    Exist c (nibbles k) = Some (option_map (evhash E) (m !! k)).
Proof.
  intros Hr HmL HKk Hk0. pose proof (HL m HmL) as Hd. pose proof (HKb k HKk) as Hkb.
  unfold GetExistenceProof. rewrite keyToPrefix_nibbles by done.
  destruct Hr as [[-> He]|[Hm Hr]].
  - cbn [get]. rewrite (erep_expand E) by done. rewrite lookup_empty.
    destruct (erep_empty E (t_root t) He) as (Hem&_). rewrite Hem.
    destruct (nibbles k) as [|a s] eqn:Hnk; [destruct k; [done|by cbn in Hnk]|].
    destruct (erep_proof st (t_gen t) (t_root t) He) as (n'&p&->&He'&Hp).
    do 2 eexists. split; [rewrite bool_decide_eq_false_2 by (by intros [? ?]); done|]. cbn [t_root t_count t_gen].
    split; [by left|]. do 2 (split; [done|]). split.
    + cbn [ExistenceHash proof_up]. rewrite (np_exist_hash E empty_radix p); [|split; [done|constructor]|done].
      unfold TrieSpec.root_of. by rewrite radix_empty.
    + unfold Exist. cbn [rev app exist_loop]. destruct Hp as (cp&->&_). done.
  - destruct (radix_wfr K HK m Hd Hm) as [Hw Hlk].
    destruct (get_path E HE (S (length (nibbles k))) st (t_gen t) (t_root t) (radix_of m) (nibbles k) (nibU K)) as (n'&tr&->&Hpl&Htr);
      [done|done|by apply nibU_pf|by exists k|by apply nibbles_ok|lia|].
    destruct (proof_walk_spec E HE (QL L) (g_closed E _ QL_ok) (g_no E _ QL_ok) ProofExistence st (t_gen t) n' (radix_of m) tr (or_intror eq_refl) Hpl)
        as (n2&ps&->&Hl2&Hcok); [by apply QL_root|].
    do 2 eexists. split; [rewrite Hlk, isSome_hv; done|]. cbn [t_root t_count t_gen].
    split; [right; split; [done|by eapply loaded_rep]|]. do 2 (split; [done|]). split.
    + eapply cok_exist_hash; [done|done|by eexists].
    + unfold Exist. rewrite <- Hlk. eapply (cok_exist E HE); [done|done|done|by apply nibU_pf|by exists k|by apply nibbles_ok].
Qed.
End contents.

(* ------------------------------------------------------------- soundness *)
Section sound.
Context {V : Type} (E : env V) (HE : env_ok E).
Local Notation H := (eH E).
Local Notation rhash := (rhash (eH E) (ertl E) (evhash E)).
Local Notation rinputs := (rinputs (eH E) (ertl E) (evhash E)).

Definition part (r : radix V) (h : list N) : Prop :=
  (exists x, x ∈ [] :: rinputs r /\ h = H x) \/ exists w, w ∈ rvalues r /\ h = evhash E w.

Lemma part_child pre ch v i c h : ch !! i = Some (Some c) -> part c h -> part (Radix pre ch v) h.
Proof.
  intros Hi [(x&Hx&->)|(w&Hw&->)].
  - left. exists x. split; [|done]. apply elem_of_cons in Hx as [->|Hx]; [by left|right]. by eapply rinputs_child.
  - right. exists w. split; [|done]. by eapply rvalues_child.
Qed.

Lemma rhash_part r : part r (rhash r).
Proof.
  destruct r as [pre ch v]. left. rewrite (rhash_eq E), (rinputs_eq E). destruct (chashes E ch) as [|h0 hs] eqn:Hc.
  - exists (lefti E pre ch v). split; [set_solver|done].
  - exists (H (lefti E pre ch v) ++ proot H (h0 :: hs)). split; [set_solver|done].
Qed.

Lemma pnode_part leaves D d i : (d <= D)%nat -> (i < 2 ^ (D - d))%nat ->
  pnode H leaves d i ∈ leaves \/ (exists x, x ∈ [] :: ptree_inputs H leaves D /\ pnode H leaves d i = H x).
Proof.
  intros Hd Hi. destruct d as [|d]; cbn [pnode].
  - destruct (decide (i < length leaves)%nat) as [Hl|Hl].
    + left. apply elem_of_list_In. by apply nth_In.
    + right. exists []. split; [by left|]. rewrite nth_overflow by lia. done.
  - right. eexists. split; [|done]. right. apply ptree_inputs_in; [lia|]. by replace (D - 1 - d)%nat with (D - S d)%nat by lia.
Qed.

Lemma app_half (a b c d : list N) : length a = 32%nat -> length c = 32%nat -> a ++ b = c ++ d -> a = c /\ b = d.
Proof. intros Ha Hc He. apply app_inj_1 in He; [done|by rewrite Ha, Hc]. Qed.

Lemma inputs_part r : okr r -> forall x a b, x ∈ rinputs r -> x = a ++ b -> length a = 32%nat -> length b = 32%nat ->
  part r a /\ part r b.
Proof.
  induction 1 as [pre ch v Hl Hn Hlen Hne Hc IH]. intros x a b Hx -> Ha Hb. rewrite (rinputs_eq E), !elem_of_app in Hx.
  destruct Hx as [Hx|[Hx|Hx]].
  - apply elem_of_cons in Hx as [Hx|Hx]; [|apply elem_of_list_singleton in Hx].
    + pose proof (header_bytes_len E HE pre (present ch) (bool_decide (is_Some v)) Hlen) as Hh. rewrite <- Hx, app_length in Hh. lia.
    + unfold lefti in Hx. apply app_half in Hx as [-> ->]; [|done|apply (ok_H E HE)]. split.
      * left. eexists. split; [|done]. rewrite (rinputs_eq E). set_solver.
      * destruct v as [w|]; [right; exists w; split; [cbn [rvalues]; set_solver|done]|left; exists []; split; [by left|done]].
  - assert (Hin : forall y, y ∈ ptree_inputs H (chashes E ch) (mdepth (length (chashes E ch))) -> chashes E ch <> [] -> y ∈ rinputs (Radix pre ch v)).
    { intros y Hy Hne'. rewrite (rinputs_eq E). apply elem_of_app. right. apply elem_of_app. left.
      destruct (chashes E ch); [done|]. by right. }
    assert (Hleaf : forall h, h ∈ chashes E ch -> part (Radix pre ch v) h).
    { intros h Hh. unfold chashes in Hh. apply elem_somes in Hh as (i&Hi). rewrite list_lookup_fmap in Hi.
      destruct (ch !! i) as [[c|]|] eqn:Hci; try done. injection Hi as <-. eapply part_child; [done|apply rhash_part]. }
    destruct (chashes E ch) as [|h0 hs] eqn:Hcs; [by apply elem_of_nil in Hx|]. rewrite <- Hcs in *.
    set (D := mdepth (length (chashes E ch))) in *.
    assert (Hnode : forall d i, (d <= D)%nat -> (i < 2 ^ (D - d))%nat -> part (Radix pre ch v) (pnode H (chashes E ch) d i)).
    { intros d i Hd Hi. destruct (pnode_part (chashes E ch) D d i Hd Hi) as [?|(y&Hy&->)]; [by apply Hleaf|].
      left. exists y. split; [|done]. apply elem_of_cons in Hy as [->|Hy]; [by left|right]. apply Hin; [done|by rewrite Hcs]. }
    apply elem_of_cons in Hx as [Hx|Hx].
    + apply app_half in Hx as [-> ->]; [|done|apply (ok_H E HE)]. split.
      * left. exists (lefti E pre ch v). split; [|done]. rewrite (rinputs_eq E). set_solver.
      * rewrite Hcs. cbn [proot]. rewrite <- Hcs. apply Hnode; [done|]. rewrite Nat.sub_diag. cbn. lia.
    + unfold ptree_inputs in Hx. apply elem_of_list_In, in_flat_map in Hx as (d&Hd&Hx). apply in_seq in Hd.
      apply in_map_iff in Hx as (i&Hx&Hi). apply in_seq in Hi.
      assert (Hp2 : (2 ^ (D - d) = 2 * 2 ^ (D - 1 - d))%nat).
      { replace (D - d)%nat with (S (D - 1 - d)) by lia. cbn. lia. }
      symmetry in Hx. apply app_half in Hx as [-> ->]; [|done|].
      * fold D in Hd, Hi. rewrite !Nat.add_0_l in *. split; (apply Hnode; [lia|]); rewrite Hp2; lia.
      * apply (node_len H); [apply (ok_H E HE)|by apply chashes_len].
  - apply elem_of_list_In, in_concat in Hx as (l&Hl'&Hx). apply elem_of_list_In in Hl', Hx.
    apply elem_somes in Hl' as (i&Hi). rewrite list_lookup_fmap in Hi. destruct (ch !! i) as [[c|]|] eqn:Hci; try done. injection Hi as <-.
    destruct (IH i c Hci _ a b Hx eq_refl Ha Hb). split; by eapply part_child.
Qed.

Lemma inputs_part_empty : forall x a b, x ∈ rinputs empty_radix -> x = a ++ b -> length a = 32%nat -> length b = 32%nat ->
  part empty_radix a /\ part empty_radix b.
Proof.
  intros x a b Hx -> Ha Hb. unfold empty_radix in Hx. rewrite (rinputs_eq E) in Hx. cbn in Hx.
  apply elem_of_cons in Hx as [Hx|Hx]; [|apply elem_of_list_singleton in Hx].
  - apply (f_equal length) in Hx. rewrite app_length in Hx. cbn in Hx. lia.
  - unfold lefti in Hx. apply app_half in Hx as [-> ->]; [|done|apply (ok_H E HE)]. split; left.
    + eexists. split; [|done]. unfold empty_radix. rewrite (rinputs_eq E). set_solver.
    + exists []. split; [by left|done].
Qed.

Lemma climb_part r its : (forall x a b, x ∈ rinputs r -> x = a ++ b -> length a = 32%nat -> length b = 32%nat -> part r a /\ part r b) -> forall h, length h = 32%nat -> Forall (fun it => length it.1 = 32%nat) its ->
  inj_on H (([] :: rinputs r) ++ climb_inputs H h its) ->
  (forall x w, x ∈ climb_inputs H h its -> w ∈ rvalues r -> H x <> evhash E w) ->
  part r (climb H h its) -> part r h.
Proof.
  intros Hok. induction its as [|[s o] its IH]; intros h Hh Hits Hinj Hdis Hp; [done|].
  apply Forall_cons in Hits as [Hs Hits]. cbn [fst] in Hs.
  set (x := if o then s ++ h else h ++ s).
  assert (Hci : climb_inputs H h ((s, o) :: its) = x :: climb_inputs H (H x) its) by by destruct o.
  assert (Hcl : climb H h ((s, o) :: its) = climb H (H x) its) by by destruct o.
  rewrite Hci in Hinj, Hdis. rewrite Hcl in Hp.
  assert (Hpx : part r (H x)).
  { apply IH; [apply (ok_H E HE)|done| | |done].
    - eapply inj_on_sub; [|exact Hinj]. intros y. rewrite !elem_of_app. intros [?|?]; [by left|right; by right].
    - intros y w Hy. apply Hdis. by right. }
  destruct Hpx as [(y&Hy&He)|(w&Hw&He)].
  - assert (x = y) as <-.
    { apply Hinj; [apply elem_of_app; right; by left|apply elem_of_app; by left|done]. }
    apply elem_of_cons in Hy as [Hy|Hy].
    { exfalso. assert (Hlx : length x = 64%nat) by (unfold x; destruct o; rewrite app_length, Hs, Hh; done). by rewrite Hy in Hlx. }
    unfold x in Hy. destruct o.
    + by destruct (Hok _ s h Hy eq_refl Hs Hh).
    + by destruct (Hok _ h s Hy eq_refl Hh Hs).
  - exfalso. eapply Hdis; [by left|exact Hw|done].
Qed.

Lemma np_items_len p its : (forall v, np_vhash p = Some v -> length v = 32%nat) ->
  (forall c, np_child p = Some c -> Forall (fun h => length h = 32%nat) (mp_hashs c)) ->
  np_items E p = Some its -> Forall (fun it => length it.1 = 32%nat) its.
Proof.
  intros Hv Hc. 
  assert (Hmp : forall c l, np_child p = Some c -> mp_items c = Some l -> Forall (fun it : list N * bool => length it.1 = 32%nat) l).
  { intros c l Hpc. unfold mp_items. destruct (hashs_iterate _ _ _ _ _) as [l0|] eqn:Hit; [|done]. intros [= <-].
    assert (Hall : Forall (fun it : list N * Z * Z => length it.1.1 = 32%nat) l0).
    { specialize (Hc c Hpc). revert Hit. generalize (MT (-1) 0). generalize 0%Z at 2. generalize 0%Z. generalize (mp_repeats c).
      revert l0. induction Hc as [|h hs Hh Hhs IH]; intros l0 it i f cur; cbn [hashs_iterate]; [by intros [= <-]|].
      destruct (skip_moretimes i cur it) as [[cur' it']|]; [|done].
      destruct (hashs_iterate hs _ _ _ _) as [l'|] eqn:Hr; [|done]. intros [= <-]. constructor; [done|]. by eapply IH. }
    clear Hit. induction Hall as [|[[v0 f0] t0] l1 Hv0 _ IHl]; [constructor|]. cbn [flat_map]. apply Forall_app. split; [|done].
    apply Forall_forall. intros it Hit0. apply elem_of_list_fmap in Hit0 as (i&->&_). done. }
  assert (Hmpo : forall l, mpo_items (np_child p) = Some l -> Forall (fun it : list N * bool => length it.1 = 32%nat) l).
  { intros l. unfold mpo_items. destruct (np_child p) as [c|] eqn:Hpc; [by eapply Hmp|]. by intros [= <-]. }
  unfold np_items. destruct (IsProofMerkleOnly _); [apply Hmpo|]. destruct (IsProofChild _).
  { destruct (mpo_items (np_child p)) as [l|] eqn:Hl; [|done]. intros [= <-]. apply Forall_app. split; [by apply Hmpo|].
    constructor; [|constructor]. apply (ok_H E HE). }
  destruct (IsProofValue _).
  { destruct (np_child p) as [c|] eqn:Hpc.
    - specialize (Hc c eq_refl). destruct (mp_hashs c) as [|h [|h' l]]; intros [= <-]; repeat constructor; try apply (ok_H E HE).
      by inversion Hc.
    - intros [= <-]. repeat constructor. apply (ok_H E HE). }
  destruct (IsProofHdsSummary _).
  { destruct (np_vhash p) as [v|] eqn:Hpv; [|done]. destruct (mpo_items (np_child p)) as [l|] eqn:Hl; [|done]. intros [= <-].
    constructor; [by apply Hv|by apply Hmpo]. }
  destruct (IsProofHeaderProperty _); [|done].
  destruct (np_vhash p) as [v|] eqn:Hpv; [|done]. destruct (np_child p) as [c|] eqn:Hpc; [|done].
  destruct (mp_hashs c); [done|]. destruct (mp_items c) as [l'|] eqn:Hl; [|done]. intros [= <-].
  constructor; [by apply Hv|by eapply Hmp].
Qed.
End sound.
