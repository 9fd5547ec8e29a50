(** Commit and collapse on represented trees (no write failures). *)
From Verif Require Export TrieOpProofs.

Section commit.
Context {V : Type} (E : env V) (HE : env_ok E).
Implicit Types (rch : list (option (radix V))).
Local Notation rhash := (rhash (eH E) (ertl E) (evhash E)).
Local Notation node := (node V).
Local Notation rep := (rep E).
Local Notation EH := (EmptyNodeHash E).

(** A set of trees among which hashes do not collide. *)
Record good (Q : radix V -> Prop) : Prop := Good {
  g_closed : closed Q;
  g_no : no_eh E Q;
  g_inj : forall r r', Q r -> Q r' -> rhash r = rhash r' -> r = r';
  g_val : forall p c x p' c' y, Q (Radix p c (Some x)) -> Q (Radix p' c' (Some y)) -> evhash E x = evhash E y -> x = y;
}.
Context (Q : radix V -> Prop) (HQ : good Q).

(** The database only holds trees of [Q] under their own hash. *)
Record store_ok (st : store) : Prop := StoreOk {
  so_nodes : forall h b, st_nodes st !! h = Some b ->
    exists r, (Q r \/ r = empty_radix) /\ h = rhash r /\ b = rser E r;
  so_vals : forall h b, st_vals st !! h = Some b ->
    exists p c x, Q (Radix p c (Some x)) /\ h = evhash E x /\ b = evenc E x;
  so_faults : st_faults st = [];
}.

Lemma Qinj' r r' : (Q r \/ r = empty_radix) -> (Q r' \/ r' = empty_radix) -> rhash r = rhash r' -> r = r'.
Proof.
  intros [Hr| ->] [Hr'| ->] He.
  - by apply (g_inj Q HQ).
  - exfalso. apply (g_no Q HQ r Hr). by rewrite (EH_eq E).
  - exfalso. apply (g_no Q HQ r' Hr'). by rewrite (EH_eq E).
  - done.
Qed.

Lemma save_node_ok st r : store_ok st -> (Q r \/ r = empty_radix) ->
  exists st', save_node st (rhash r) (rser E r) = (true, st') /\ st_le st st' /\ store_ok st' /\
    st_nodes st' !! rhash r = Some (rser E r) /\ st_vals st' = st_vals st.
Proof.
  intros [Hn Hv Hf] Hr. unfold save_node. rewrite Hf. cbn [drop]. eexists. split; [done|]. split; [|split; [|split]].
  - split; [|done]. cbn [st_nodes]. destruct (st_nodes st !! rhash r) as [b|] eqn:Hb.
    + destruct (Hn _ _ Hb) as (r'&Hr'&He&->). apply Qinj' in He as <-; [|done..].
      by rewrite insert_id.
    + by apply insert_subseteq.
  - split; cbn [st_nodes st_vals st_faults]; [|done..].
    intros h b. destruct (decide (rhash r = h)) as [<-|Hne].
    + rewrite lookup_insert. intros [= <-]. eauto.
    + rewrite lookup_insert_ne by done. apply Hn.
  - cbn [st_nodes]. by rewrite lookup_insert.
  - done.
Qed.
Lemma save_val_ok st p c x : store_ok st -> Q (Radix p c (Some x)) ->
  exists st', save_val st (evhash E x) (evenc E x) = (true, st') /\ st_le st st' /\ store_ok st' /\
    st_vals st' !! evhash E x = Some (evenc E x).
Proof.
  intros [Hn Hv Hf] Hr. unfold save_val. rewrite Hf. cbn [drop]. eexists. split; [done|]. split; [|split].
  - split; [done|]. cbn [st_vals]. destruct (st_vals st !! evhash E x) as [b|] eqn:Hb.
    + destruct (Hv _ _ Hb) as (p'&c'&x'&Hr'&He&->). assert (x = x') as <- by (by eapply (g_val Q HQ)).
      by rewrite insert_id.
    + by apply insert_subseteq.
  - split; cbn [st_nodes st_vals st_faults]; [done| |done].
    intros h b. destruct (decide (evhash E x = h)) as [<-|Hne].
    + rewrite lookup_insert. intros [= <-]. eauto 6.
    + rewrite lookup_insert_ne by done. apply Hv.
  - cbn [st_vals]. by rewrite lookup_insert.
Qed.

Definition save_list (gen : N) := fix go (l : list (option node)) (st : store) : store * list (option node) :=
  match l with
  | [] => (st, [])
  | None :: r => let '(st', r') := go r st in (st', None :: r')
  | Some c :: r => let '(st1, c', _) := iterateSave E gen c st in
                   let '(st2, r') := go r st1 in (st2, Some c' :: r')
  end.
Lemma iterateSave_eq gen pre ch v d h vh vs g st :
  iterateSave E gen (Node pre ch v d h vh vs g) st =
  let '(st1, ch1) := save_list gen ch st in
  let n1 := Node pre ch1 v d h vh vs g in
  if d then saveOneNode E st1 n1
  else if shouldCollapse E n1 gen then (st1, (collapse E n1).2, true)
  else if shouldCollapseValue n1 then (st1, collapseValue E n1, true)
  else (st1, n1, true).
Proof. reflexivity. Qed.

Lemma save_list_nones gen k st : save_list gen (replicate k None) st = (st, replicate k None).
Proof. induction k as [|k IH]; [done|]. cbn [replicate]. cbn [save_list]. fold (save_list gen). by rewrite IH. Qed.

Definition saved st0 gen (n : node) (r : radix V) : Prop :=
  forall st1, st_le st0 st1 -> store_ok st1 -> Q r ->
  exists st2 n', iterateSave E gen n st1 = (st2, n', true) /\ st_le st1 st2 /\ store_ok st2 /\
    rep st2 n' r /\ stored E st2 r /\ n_dirty n' = false.

Lemma save_list_spec st0 gen : forall ch rch, present_n ch = present rch ->
  (forall i c rc, ch !! i = Some (Some c) -> rch !! i = Some (Some rc) -> saved st0 gen c rc) ->
  (forall i rc, rch !! i = Some (Some rc) -> Q rc) ->
  forall st1, st_le st0 st1 -> store_ok st1 ->
  exists st2 ch', save_list gen ch st1 = (st2, ch') /\ st_le st1 st2 /\ store_ok st2 /\
    present_n ch' = present rch /\ length ch' = length ch /\
    (forall i c rc, ch' !! i = Some (Some c) -> rch !! i = Some (Some rc) -> rep st2 c rc /\ stored E st2 rc).
Proof.
  induction ch as [|o ch IH]; intros [|ro rch] Hp Hs HQr st1 Hle Hok; try done.
  { exists st1, []. done. }
  assert (Hp' : present_n ch = present rch) by (unfold present_n, present in *; cbn in Hp; by injection Hp).
  assert (Ho : is_some o = is_some ro) by (unfold present_n, present in *; cbn in Hp; by injection Hp).
  assert (Hs' : forall i c rc, ch !! i = Some (Some c) -> rch !! i = Some (Some rc) -> saved st0 gen c rc)
    by (intros i c rc Hi Hri; by apply (Hs (S i))).
  assert (HQr' : forall i rc, rch !! i = Some (Some rc) -> Q rc) by (intros i rc Hi; by apply (HQr (S i))).
  cbn [save_list]. fold (save_list gen). destruct o as [c|], ro as [rc|]; try done.
  - destruct (Hs O c rc eq_refl eq_refl st1 Hle Hok (HQr O rc eq_refl)) as (st2&c'&->&Hle1&Hok1&Hr1&Hst1&_).
    destruct (IH rch Hp' Hs' HQr' st2) as (st3&ch'&->&Hle2&Hok2&Hp2&Hl2&Hc2); [by eapply st_le_trans|done|].
    exists st3, (Some c' :: ch'). split; [done|]. split; [by eapply st_le_trans|]. split; [done|].
    split; [unfold present_n, present in *; cbn; by rewrite Hp2|]. split; [cbn; by rewrite Hl2|].
    intros [|i] a ra Hi Hri.
    + cbn in Hi, Hri. injection Hi as <-. injection Hri as <-. split; [by eapply rep_mono|by eapply stored_mono].
    + by apply (Hc2 i).
  - destruct (IH rch Hp' Hs' HQr' st1 Hle Hok) as (st3&ch'&->&Hle2&Hok2&Hp2&Hl2&Hc2).
    exists st3, (None :: ch'). split; [done|]. split; [done|]. split; [done|].
    split; [unfold present_n, present in *; cbn; by rewrite Hp2|]. split; [cbn; by rewrite Hl2|].
    intros [|i] a ra Hi Hri; [done|]. by apply (Hc2 i).
Qed.

Lemma child_hashes st (ch : list (option node)) rch : length ch = length rch -> present_n ch = present rch ->
  (forall i c rc, ch !! i = Some (Some c) -> rch !! i = Some (Some rc) -> rep st c rc) ->
  (forall i rc, rch !! i = Some (Some rc) -> Q rc) ->
  somes (map (option_map (fun c => (node_hash E c).2)) ch) = chashes E rch.
Proof.
  intros Hl Hp Hc HQr. unfold chashes. apply somes_ext; [by rewrite map_length|]. intros i.
  pose proof (map_nth (option_map rhash) rch None i) as Hmn. cbn [option_map] in Hmn. rewrite Hmn.
  pose proof (present_lookup _ _ i Hp) as Hpi.
  destruct (nth i ch None) as [c|] eqn:Hci, (nth i rch None) as [rc|] eqn:Hri; try done.
  apply nth_some_lookup in Hci, Hri. cbn [option_map]. f_equal.
  destruct (node_hash_spec E HE Q st c rc (g_closed Q HQ) (g_no Q HQ)) as (c'&->&_); [by eapply Hc|by eapply HQr|]. done.
Qed.

Lemma saveOneNode_spec st pre ch x h vh vs g rch :
  store_ok st -> Q (Radix pre rch x) ->
  length ch = 16%nat -> length rch = 16%nat -> is_nibbles pre ->
  (is_Some x \/ exists i c, rch !! i = Some (Some c)) ->
  present_n ch = present rch ->
  (forall i c rc, ch !! i = Some (Some c) -> rch !! i = Some (Some rc) -> rep st c rc /\ stored E st rc) ->
  vrep E st true x vh vs x ->
  (h = None \/ h = Some (rhash (Radix pre rch x)) /\ rhash (Radix pre rch x) <> EH) ->
  exists st' n', saveOneNode E st (Node pre ch x true h vh vs g) = (st', n', true) /\ st_le st st' /\ store_ok st' /\
    rep st' n' (Radix pre rch x) /\ stored E st' (Radix pre rch x) /\ n_dirty n' = false.
Proof.
  intros Hok HQr Hl Hlr Hn Hcont Hp Hc Hv Hh.
  assert (HQc : forall i rc, rch !! i = Some (Some rc) -> Q rc) by (intros i rc Hi; by eapply (g_closed Q HQ)).
  assert (Hc1 : exists vh' vs', cache_value E (Node pre ch x true h vh vs g) = Node pre ch x true h vh' vs' g /\
     vrep E st true x vh' vs' x /\ (forall y, x = Some y -> vh' = Some (evhash E y) /\ vs' = evenc E y)).
  { unfold cache_value. cbn [n_val]. destruct x as [y|].
    - erewrite valueHash_spec by exact Hv. do 2 eexists. split; [done|]. split; [constructor; by right|]. intros y' [= <-]. done.
    - exists vh, vs. done. }
  destruct Hc1 as (vh'&vs'&Hcv&Hv'&Hvy).
  unfold saveOneNode. rewrite Hcv. cbn [n_val n_vh n_vs].
  assert (Hsv : exists st1, (match x, vh' with
                    | Some _, Some vh => if hash_len vh then save_val st vh vs' else (true, st)
                    | _, _ => (true, st) end) = (true, st1) /\ st_le st st1 /\ store_ok st1 /\
                    (forall y, x = Some y -> st_vals st1 !! evhash E y = Some (evenc E y))).
  { destruct x as [y|].
    - destruct (Hvy y eq_refl) as [-> ->]. rewrite hash_len_32 by apply (ok_vhash E HE).
      destruct (save_val_ok st pre rch y Hok HQr) as (st1&->&?&?&?). exists st1. split; [done|]. split; [done|]. split; [done|].
      by intros y' [= <-].
    - exists st. done. }
  destruct Hsv as (st1&->&Hle1&Hok1&Hvals).
  set (n1 := Node pre ch x true h vh' vs' g).
  assert (Hr1 : rep st1 n1 (Radix pre rch x)).
  { constructor; try done; [|by eapply vrep_mono]. intros i c rc Hi Hri. eapply rep_mono; [done|]. by eapply Hc. }
  destruct (node_hash_spec E HE Q st1 n1 (Radix pre rch x) (g_closed Q HQ) (g_no Q HQ) Hr1 HQr) as (n2&Hnh&Hr2&Hd2&Hh2&Hp2&Hv2&_).
  cbn [n_ch n1]. rewrite (child_hashes st ch rch); [|by rewrite Hl, Hlr|done|intros i c rc Hi Hri; by eapply Hc|done].
  assert (Hser : node_ser E (header_of n1) (chashes E rch) (match x with Some v => Some (valueHash E n1 v).1 | None => None end) = rser E (Radix pre rch x)).
  { unfold node_ser, header_of, n1. cbn [n_pre n_ch]. unfold hasValue. cbn [n_val]. rewrite Hp.
    rewrite newNodeHeader_ser; [|done|unfold present; by rewrite map_length].
    rewrite isSome_hv. cbn [rser]. do 2 f_equal. destruct x as [y|]; [|done].
    erewrite valueHash_spec by exact Hv'. done. }
  unfold n1 in Hser. cbn [n_val] in *. fold n1 in Hser. rewrite Hser.
  change (node_hash E (Node pre ch x true h vh' vs' g)) with (node_hash E n1). rewrite Hnh.
  destruct n2 as [p2 ch2 v2 d2 hh2 vh2 vs2 g2]. cbn [n_dirty n_hash n_pre n_val n1] in *. subst d2 hh2 p2 v2.
  destruct (save_node_ok st1 (Radix pre rch x) Hok1) as (st2&->&Hle2&Hok2&Hnode&Hvals2); [by left|].
  assert (Hstored : stored E st2 (Radix pre rch x)).
  { constructor; try done.
    - by apply (g_no Q HQ).
    - intros y Hy. rewrite Hvals2. by apply Hvals.
    - intros i c Hi. destruct (present_child_r _ _ _ _ Hp Hi) as (nc&Hnc). destruct (Hc _ _ _ Hnc Hi) as [_ Hs].
      eapply stored_mono; [exact Hle2|]. by eapply stored_mono. }
  eexists _, _. split; [done|]. split; [by eapply st_le_trans|]. split; [done|]. split; [|done].
  apply (rep_mono E _ st2) in Hr2; [|done].
  inversion Hr2; subst. constructor; try done.
  match goal with A : vrep _ _ true _ _ _ _ |- _ => inversion A; subst end; by constructor.
Qed.

Lemma canCollapse_coll st p r g : stored E st r ->
  isCollapsed E (Node p (replicate 16 (@None node)) (@None V) false (Some (rhash r)) None [] g) = true.
Proof.
  intros Hst. destruct r as [pre rch x]. destruct (stored_inv E _ _ _ _ Hst) as (_&Hne&_).
  unfold isCollapsed. cbn [n_hash]. rewrite isEmptyNodeHash_some; [done|by apply rhash_len|done].
Qed.

Theorem iterateSave_spec gen st n r : rep st n r -> saved st gen n r.
Proof.
  induction 1 as [p r g Hst|pre ch v d h vh vs g rch x H1 H2 H3 H4 H5 H6 IH H7 H8 H9]; intros st1 Hle Hok HQr.
  - rewrite iterateSave_eq, save_list_nones. cbn zeta.
    assert (Hs1 : stored E st1 r) by by eapply stored_mono.
    unfold shouldCollapse, canCollapse. rewrite (canCollapse_coll st1) by done. cbn [negb]. rewrite !andb_false_r.
    unfold shouldCollapseValue. cbn [n_vs]. rewrite andb_false_r.
    do 2 eexists. split; [done|]. split; [done|]. split; [done|]. split; [by constructor|]. done.
  - rewrite iterateSave_eq.
    destruct (save_list_spec st gen ch rch H5 IH) with (st1 := st1) as (st2&ch'&->&Hle2&Hok2&Hp2&Hl2&Hc2);
      [intros i rc Hi; by eapply (g_closed Q HQ)|done|done|].
    cbn zeta. rewrite H1 in Hl2.
    assert (Hle02 : st_le st st2) by by eapply st_le_trans.
    destruct d.
    + assert (x = v) as -> by (by inversion H7; subst).
      destruct (saveOneNode_spec st2 pre ch' v h vh vs g rch) as (st3&n'&->&?&?&?&?&?); try done.
      { by eapply vrep_mono. }
      do 2 eexists. split; [done|]. split; [by eapply st_le_trans|]. done.
    + destruct (H9 eq_refl) as [-> Hst]. assert (Hst2 : stored E st2 (Radix pre rch x)) by by eapply stored_mono.
      assert (Hrep2 : rep st2 (Node pre ch' v false (Some (rhash (Radix pre rch x))) vh vs g) (Radix pre rch x)).
      { constructor; try done. - intros i c rc Hi Hri. by eapply Hc2. - by eapply vrep_mono. }
      destruct (shouldCollapse E _ gen) eqn:Hsc.
      { do 2 eexists. split; [done|]. split; [done|]. split; [done|].
        unfold collapse. assert (isCollapsed E (Node pre ch' v false (Some (rhash (Radix pre rch x))) vh vs g) = false) as ->.
        { by eapply exp_not_collapsed. }
        cbn [node_hash snd]. assert (map (fun _ => None) ch' = replicate 16 (@None node)) as ->.
        { do 16 (destruct ch' as [|? ch']; [done|]). destruct ch'; done. }
        split; [by constructor|]. done. }
      destruct (shouldCollapseValue _) eqn:Hsv.
      { do 2 eexists. split; [done|]. split; [done|]. split; [done|].
        unfold shouldCollapseValue in Hsv. cbn [n_dirty n_vs negb andb] in Hsv. apply andb_prop in Hsv as [Hnc Hlen].
        apply negb_true_iff in Hnc. unfold collapseValue. rewrite Hnc. cbn [n_val].
        apply (vrep_mono E _ st2) in H7; [|done].
        inversion H7; subst; try (cbn in Hlen; done).
        rewrite (valueHash_spec E st2) by done. cbn [fst]. destruct (stored_inv E _ _ _ _ Hst2) as (_&_&Hvv&_).
        split; [|done]. inversion Hrep2; subst. constructor; try done. constructor; [done|by apply Hvv]. }
      do 2 eexists. split; [done|]. done.
Qed.

Lemma iterateSave_empty gen st n : erep E n -> store_ok st ->
  exists st' n', iterateSave E gen n st = (st', n', true) /\ st_le st st' /\ store_ok st' /\ erep E n' /\ n_dirty n' = false.
Proof.
  intros He Hok. destruct (erep_hash E n He) as (n'&Hnh&He'&Hd').
  destruct He as [d h g Hh]. rewrite iterateSave_eq, save_list_nones. cbn zeta.
  destruct d.
  - unfold saveOneNode. unfold cache_value. cbn [n_val n_vh n_ch].
    rewrite Hnh. destruct He' as [d' h' g' Hh']. cbn in Hd'. subst d'.
    assert (node_ser E (header_of (Node [] (replicate 16 None) None true h None [] g))
        (somes (map (option_map (fun c : node => (node_hash E c).2)) (replicate 16 None))) None = rser E empty_radix) as ->.
    { unfold node_ser, header_of. cbn [n_pre n_ch]. unfold hasValue. cbn [n_val].
      rewrite newNodeHeader_ser; [|constructor|done]. rewrite isSome_hv. done. }
    rewrite (EH_eq E). destruct (save_node_ok st empty_radix Hok) as (st'&->&?&?&_); [by right|].
    do 2 eexists. split; [done|]. split; [done|]. split; [done|]. split; [|done]. by constructor.
  - destruct (shouldCollapse E _ gen) eqn:Hsc.
    { do 2 eexists. split; [done|]. split; [done|]. split; [done|].
      unfold collapse. assert (isCollapsed E (Node [] (replicate 16 (@None node)) (@None V) false h None [] g) = false) as ->.
      { apply erep_empty. by constructor. }
      rewrite Hnh. destruct He' as [d' h' g' Hh']. cbn in Hd'. subst d'. cbn [snd]. split; [|done]. by constructor. }
    unfold shouldCollapseValue. cbn [n_vs]. rewrite andb_false_r.
    do 2 eexists. split; [done|]. split; [done|]. split; [done|]. split; [|done]. by constructor.
Qed.

(** Trie.Collapse on a represented node. *)
Lemma collapse_rep st n r : rep st n r -> canCollapse E n = true -> rep st (collapse E n).2 r.
Proof.
  intros Hr Hc. unfold canCollapse in Hc. apply andb_prop in Hc as [Hc Hnc]. apply andb_prop in Hc as [Hd _].
  apply negb_true_iff in Hnc, Hd. unfold collapse. rewrite Hnc.
  inversion Hr; subst; [done|]. cbn in Hd. subst d.
  match goal with A : false = false -> _ |- _ => destruct (A eq_refl) as [-> ?] end.
  cbn [node_hash snd]. assert (map (fun _ => None) ch = replicate 16 (@None node)) as ->.
  { do 16 (destruct ch as [|? ch]; [done|]). destruct ch; done. }
  by constructor.
Qed.
Lemma collapse_erep n : erep E n -> erep E (collapse E n).2.
Proof.
  intros He. destruct (erep_hash E n He) as (n'&Hnh&He'&Hd'). destruct (erep_empty E n He) as (_&Hc&_).
  unfold collapse. rewrite Hc, Hnh. destruct He' as [d' h' g' Hh']. cbn. by constructor.
Qed.

End commit.
