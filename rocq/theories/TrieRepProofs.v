(** The relation between the nodes of the model (with caches, dirty flags and
    collapsed parts) and pure radix trees; loading and hashing. *)
From Verif Require Export TrieHashProofs.

Section rep.
Context {V : Type} (E : env V) (HE : env_ok E).
Implicit Types (rch : list (option (radix V))).
Local Notation H := (eH E).
Local Notation rhash := (rhash (eH E) (ertl E) (evhash E)).
Local Notation hbytes := (header_bytes (ertl E)).
Local Notation node := (node V).
Local Notation EH := (EmptyNodeHash E).

(** The bytes stored for a tree. *)
Definition rser (r : radix V) : list N :=
  let 'Radix pre ch v := r in
  hbytes pre (present ch) (bool_decide (is_Some v)) ++ concat (chashes E ch) ++
  match v with Some x => evhash E x | None => [] end.

Inductive stored (st : store) : radix V -> Prop :=
| stored_node pre ch v :
    st_nodes st !! rhash (Radix pre ch v) = Some (rser (Radix pre ch v)) ->
    rhash (Radix pre ch v) <> EH ->
    (forall x, v = Some x -> st_vals st !! evhash E x = Some (evenc E x)) ->
    length ch = 16%nat -> is_nibbles pre ->
    (is_Some v \/ exists i c, ch !! i = Some (Some c)) ->
    (forall i c, ch !! i = Some (Some c) -> stored st c) ->
    stored st (Radix pre ch v).

Inductive vrep (st : store) (d : bool) : option V -> option (list N) -> list N -> option V -> Prop :=
| vr_none : vrep st d None None [] None
| vr_some y vh vs : (vh = None \/ vh = Some (evhash E y)) -> (vs = [] \/ vs = evenc E y) ->
    vrep st d (Some y) vh vs (Some y)
| vr_coll y : d = false -> st_vals st !! evhash E y = Some (evenc E y) ->
    vrep st d None (Some (evhash E y)) [] (Some y).

Inductive rep (st : store) : node -> radix V -> Prop :=
| rep_coll p r g : stored st r ->
    rep st (Node p (replicate 16 None) None false (Some (rhash r)) None [] g) r
| rep_exp pre ch v d h vh vs g rch x :
    length ch = 16%nat -> length rch = 16%nat -> is_nibbles pre ->
    (is_Some x \/ exists i c, rch !! i = Some (Some c)) ->
    present_n ch = present rch ->
    (forall i c rc, ch !! i = Some (Some c) -> rch !! i = Some (Some rc) -> rep st c rc) ->
    vrep st d v vh vs x ->
    (h = None \/ h = Some (rhash (Radix pre rch x)) /\ rhash (Radix pre rch x) <> EH) ->
    (d = false -> h = Some (rhash (Radix pre rch x)) /\ stored st (Radix pre rch x)) ->
    rep st (Node pre ch v d h vh vs g) (Radix pre rch x).

(** Loaded nodes: the content is in memory. *)
Inductive loaded (st : store) : node -> radix V -> Prop :=
| loaded_intro pre ch x d h vh vs g rch :
    length ch = 16%nat -> length rch = 16%nat -> is_nibbles pre ->
    (is_Some x \/ exists i c, rch !! i = Some (Some c)) ->
    present_n ch = present rch ->
    (forall i c rc, ch !! i = Some (Some c) -> rch !! i = Some (Some rc) -> rep st c rc) ->
    vrep st d x vh vs x ->
    (h = None \/ h = Some (rhash (Radix pre rch x)) /\ rhash (Radix pre rch x) <> EH) ->
    (d = false -> h = Some (rhash (Radix pre rch x)) /\ stored st (Radix pre rch x)) ->
    loaded st (Node pre ch x d h vh vs g) (Radix pre rch x).
Lemma loaded_rep st n r : loaded st n r -> rep st n r.
Proof. destruct 1. by constructor. Qed.

(** Nodes of an empty trie. *)
Inductive erep : node -> Prop :=
| erep_intro d h g : (h = None \/ h = Some EH) -> erep (Node [] (replicate 16 None) None d h None [] g).

(* ---------------------------------------------------------- small facts *)

Lemma existsb_present_n (ch : list (option node)) : existsb is_some ch = existsb id (present_n ch).
Proof. unfold present_n. induction ch as [|[c|] ch IH]; cbn; done. Qed.
Lemma existsb_present (ch : list (option (radix V))) : existsb id (present ch) = true <-> exists i c, ch !! i = Some (Some c).
Proof.
  unfold present. rewrite existsb_exists. split.
  - intros (b&Hb&Hid). destruct b; [|done]. apply elem_of_list_In in Hb. apply elem_of_list_lookup in Hb as [i Hi].
    rewrite list_lookup_fmap in Hi. destruct (ch !! i) as [[c|]|] eqn:Hc; try done. eauto.
  - intros (i&c&Hi). exists true. split; [|done]. apply elem_of_list_In, elem_of_list_lookup. exists i.
    by rewrite list_lookup_fmap, Hi.
Qed.
Lemma present_lookup (ch : list (option node)) (rch : list (option (radix V))) i :
  present_n ch = present rch -> is_some (nth i ch None) = is_some (nth i rch None).
Proof.
  unfold present_n, present. revert rch i. induction ch as [|o ch IH]; intros [|o' rch] i Hp; [by destruct i|done..|].
  cbn in Hp. injection Hp as Ho Hp. destruct i as [|i]; cbn; [by destruct o, o'|by apply IH].
Qed.
Lemma nth_some_lookup {A} (l : list (option A)) i c : nth i l None = Some c <-> l !! i = Some (Some c).
Proof.
  split.
  - intros Hn. destruct (l !! i) as [o|] eqn:Hi.
    + by rewrite (nth_lookup_Some _ _ None _ Hi) in Hn; subst.
    + apply lookup_ge_None in Hi. by rewrite nth_overflow in Hn.
  - intros Hi. by rewrite (nth_lookup_Some _ _ None _ Hi).
Qed.
Lemma present_child (ch : list (option node)) (rch : list (option (radix V))) i c : present_n ch = present rch -> ch !! i = Some (Some c) -> exists rc, rch !! i = Some (Some rc).
Proof.
  intros Hp Hi%nth_some_lookup. apply (present_lookup _ _ i) in Hp. rewrite Hi in Hp.
  destruct (nth i rch None) as [rc|] eqn:Hr; [|done]. exists rc. by apply nth_some_lookup.
Qed.
Lemma present_child_r (ch : list (option node)) (rch : list (option (radix V))) i rc : present_n ch = present rch -> rch !! i = Some (Some rc) -> exists c, ch !! i = Some (Some c).
Proof.
  intros Hp Hi%nth_some_lookup. apply (present_lookup _ _ i) in Hp. rewrite Hi in Hp.
  destruct (nth i ch None) as [c|] eqn:Hr; [|done]. exists c. by apply nth_some_lookup.
Qed.
Lemma present_n_repl : present_n (replicate 16 (@None node)) = present (replicate 16 (@None (radix V))).
Proof. done. Qed.
Lemma hash_len_32 (h : list N) : length h = 32%nat -> hash_len h = true.
Proof. unfold hash_len. intros ->. done. Qed.
Lemma rhash32 r : length (rhash r) = 32%nat. Proof. by apply rhash_len. Qed.

Lemma EH_eq : EH = rhash empty_radix.
Proof.
  unfold EmptyNodeHash, new_node. cbn [node_hash]. unfold cache_value, n_val. cbn [snd].
  unfold node_hash_of, header_of, nh_hash. cbn [n_pre n_ch n_val hasValue].
  assert (Hnt : nt_HasChildren (nh_nt (newNodeHeader [] (present_n (V:=V) (replicate 16 None)) false)) = false) by done.
  unfold hasValue. cbn [n_val is_some]. rewrite Hnt. unfold hash_pair, compute_vhash. cbn [isValueCollapsed n_vh n_val default].
  rewrite newNodeHeader_ser; [done|constructor|done].
Qed.
Lemma EH_len : length EH = 32%nat.
Proof. rewrite EH_eq. apply rhash32. Qed.

Lemma isEmptyNodeHash_some h : length h = 32%nat -> h <> EH -> isEmptyNodeHash E (Some h) = false.
Proof. intros Hl Hn. unfold isEmptyNodeHash. rewrite hash_len_32 by done. cbn. by apply bool_decide_eq_false. Qed.

Lemma stored_inv st pre ch v : stored st (Radix pre ch v) ->
    st_nodes st !! rhash (Radix pre ch v) = Some (rser (Radix pre ch v)) /\
    rhash (Radix pre ch v) <> EH /\
    (forall x, v = Some x -> st_vals st !! evhash E x = Some (evenc E x)) /\
    length ch = 16%nat /\ is_nibbles pre /\
    (is_Some v \/ exists i c, ch !! i = Some (Some c)) /\
    (forall i c, ch !! i = Some (Some c) -> stored st c).
Proof. inversion 1; subst. done. Qed.

(** Growing the database keeps everything. *)
Definition st_le (st st' : store) : Prop := st_nodes st ⊆ st_nodes st' /\ st_vals st ⊆ st_vals st'.
Lemma st_le_refl st : st_le st st. Proof. done. Qed.
Lemma st_le_trans a b c : st_le a b -> st_le b c -> st_le a c.
Proof. intros [? ?] [? ?]. split; by etrans. Qed.
Lemma stored_mono st st' r : st_le st st' -> stored st r -> stored st' r.
Proof.
  intros [Hn Hv]. induction 1 as [pre ch v H1 H2 H3 H4 H5 H6 H7 IH]. constructor; [|done| |done..].
  - by eapply lookup_weaken.
  - intros x Hx. eapply lookup_weaken; eauto.
Qed.
Lemma vrep_mono st st' d v vh vs x : st_le st st' -> vrep st d v vh vs x -> vrep st' d v vh vs x.
Proof. intros [Hn Hv]. destruct 1; constructor; try done. by eapply lookup_weaken. Qed.
Lemma rep_mono st st' n r : st_le st st' -> rep st n r -> rep st' n r.
Proof.
  intros Hle. induction 1 as [|pre ch v d h vh vs g rch x H1 H2 H3 H4 H5 H6 IH H7 H8 H9].
  - constructor. by eapply stored_mono.
  - constructor; try done.
    + by eapply vrep_mono.
    + intros Hd. destruct (H9 Hd). split; [done|]. by eapply stored_mono.
Qed.

Lemma rep_okshape st n pre rch x : rep st n (Radix pre rch x) ->
  length rch = 16%nat /\ is_nibbles pre /\ (is_Some x \/ exists i c, rch !! i = Some (Some c)).
Proof.
  inversion 1; subst; [|done]. match goal with Hs : stored _ _ |- _ => apply stored_inv in Hs as (?&?&?&?&?&?&?) end. done.
Qed.
Lemma rep_set_gen st n r g : rep st n r -> rep st (set_gen n g) r.
Proof. destruct 1; by constructor. Qed.
Lemma loaded_set_gen st n r g : loaded st n r -> loaded st (set_gen n g) r.
Proof. destruct 1; by constructor. Qed.

(* ---------------------------------------------------------------- loading *)

Lemma read_children_spec hd g (rch : list (option (radix V))) rest : forall is,
  length is = length rch ->
  (forall j i, is !! j = Some i -> nh_HasChild hd i = is_some (nth j rch None)) ->
  read_children hd is g (concat (chashes E rch) ++ rest) =
    Some (map (option_map (fun c => new_node (V:=V) (Some (rhash c)) g)) rch, rest).
Proof.
  induction rch as [|o rch IH]; intros [|i is] Hl Hc; try done. cbn [read_children].
  assert (Hh : nh_HasChild hd i = is_some o) by apply (Hc O i eq_refl).
  assert (IHis := IH is ltac:(cbn in Hl; lia) (fun j i' Hj => Hc (S j) i' Hj)).
  rewrite Hh. destruct o as [c|]; cbn [is_some].
  - unfold chashes. cbn [map option_map somes concat]. rewrite <- app_assoc.
    rewrite (read_n_app 32) by apply rhash32. fold (chashes E rch). rewrite IHis. done.
  - change (chashes E (None :: rch)) with (chashes E rch). rewrite IHis. done.
Qed.

Lemma hasChildren_exp pre (ch : list (option node)) v d h vh vs g (rch : list (option (radix V))) :
  present_n ch = present rch -> hasChildren (Node pre ch v d h vh vs g) = existsb id (present rch).
Proof. intros Hp. unfold hasChildren. cbn [n_ch]. rewrite existsb_present_n. by rewrite Hp. Qed.

Lemma vrep_vh st d v vh vs x : vrep st d v vh vs x -> is_some v = false -> is_some x = true ->
  exists y, x = Some y /\ vh = Some (evhash E y) /\ st_vals st !! evhash E y = Some (evenc E y).
Proof. destruct 1; try done. intros _ _. eauto. Qed.

Lemma evhash_cons y : exists a l, evhash E y = a :: l.
Proof. pose proof (ok_vhash E HE y). destruct (evhash E y); [done|]. eauto. Qed.

Lemma exp_not_collapsed st pre ch v d h vh vs g rch x :
  present_n ch = present rch -> vrep st d v vh vs x ->
  (is_Some x \/ exists i c, rch !! i = Some (Some c)) ->
  isCollapsed E (Node pre ch v d h vh vs g) = false.
Proof.
  intros Hp Hv Hne. unfold isCollapsed. destruct (isEmptyNodeHash E _); [done|].
  rewrite (hasChildren_exp _ _ _ _ _ _ _ _ rch) by done. unfold hasValue. cbn [n_val n_vh].
  destruct Hne as [[y ->]|Hch%existsb_present]; [|by rewrite Hch].
  inversion Hv; subst; [by rewrite andb_false_r|].
  destruct (evhash_cons y) as (a&l&->). by rewrite andb_false_r.
Qed.
Lemma exp_not_empty st pre ch v d h vh vs g rch x :
  present_n ch = present rch -> vrep st d v vh vs x ->
  (is_Some x \/ exists i c, rch !! i = Some (Some c)) ->
  isEmpty E (Node pre ch v d h vh vs g) = false.
Proof.
  intros Hp Hv Hne. unfold isEmpty.
  rewrite (hasChildren_exp _ _ _ _ _ _ _ _ rch) by done. unfold hasValue. cbn [n_val n_vh].
  destruct Hne as [[y ->]|Hch%existsb_present]; [|by rewrite Hch, andb_false_r].
  inversion Hv; subst; cbn [is_some negb]; [by rewrite andb_false_r|].
  destruct (evhash_cons y) as (a&l&->). by rewrite !andb_false_r.
Qed.
Lemma loaded_not_empty st n r : loaded st n r -> isEmpty E n = false.
Proof. destruct 1. by eapply exp_not_empty. Qed.
Lemma loaded_not_collapsed st n r : loaded st n r -> isCollapsed E n = false.
Proof. destruct 1. by eapply exp_not_collapsed. Qed.
Lemma loaded_not_vcollapsed st n r : loaded st n r -> isValueCollapsed n = false.
Proof.
  destruct 1 as [pre ch x d h vh vs g rch H1 H2 H3 H4 H5 H6 Hv H8 H9].
  unfold isValueCollapsed, hasValue. cbn [n_vh n_val]. inversion Hv; subst; [done|].
  cbn. destruct vh; [by rewrite andb_false_r|done].
Qed.

Lemma vcollapsed_load st pre ch d h g rch y :
  rep st (Node pre ch None d h (Some (evhash E y)) [] g) (Radix pre rch (Some y)) ->
  exists n', expandValue E st (Node pre ch None d h (Some (evhash E y)) [] g) = Some n' /\
    loaded st n' (Radix pre rch (Some y)).
Proof.
  inversion 1; subst. unfold expandValue. cbn [n_vh]. rewrite hash_len_32 by apply (ok_vhash E HE).
  match goal with Hv : vrep _ _ _ _ _ _ |- _ => inversion Hv; subst end.
  match goal with Hs : st_vals st !! evhash E y = _ |- _ => rewrite Hs end.
  rewrite (ok_vdec E HE). cbn [put_value]. eexists. split; [done|].
  constructor; try done. constructor; [by right|by left].
Qed.

Lemma node_deser_spec st p r g : stored st r ->
  exists n', node_deser E (Node p (replicate 16 None) None false (Some (rhash r)) None [] g) (rser r) = Some n' /\
    rep st n' r /\ n_hash n' = Some (rhash r) /\ isCollapsed E n' = false /\ inErrorStatus E n' = false /\
    n_dirty n' = false.
Proof.
  destruct r as [pre rch x]. intros Hst.
  destruct (stored_inv _ _ _ _ Hst) as (Hn&Hne&Hv&Hl&Hnib&Hcont&Hch).
  assert (Hlp : length (present rch) = 16%nat) by (unfold present; by rewrite map_length).
  destruct (nh_deser_ser E pre (present rch) (bool_decide (is_Some x))
     (concat (chashes E rch) ++ match x with Some x => evhash E x | None => [] end) HE Hnib Hlp)
     as (hd&Hd&Hnt&Hkp&_&Hhc).
  unfold node_deser. cbn [rser]. rewrite Hd.
  destruct (type_byte_bits pre (present rch) (bool_decide (is_Some x)) Hnib) as (_&_&_&HC&HV&_).
  rewrite Hnt, HC, HV, Hkp.
  set (ch' := map (option_map (fun c => new_node (V:=V) (Some (rhash c)) g)) rch).
  assert (Hr : (if existsb id (present rch) then
     read_children hd nibs g (concat (chashes E rch) ++ match x with Some x => evhash E x | None => [] end)
     else Some (replicate 16 None, concat (chashes E rch) ++ match x with Some x => evhash E x | None => [] end)) =
     Some (ch', match x with Some x => evhash E x | None => [] end)).
  { destruct (existsb id (present rch)) eqn:Hp.
    - apply read_children_spec; [by rewrite Hl|]. intros j i Hj.
      assert (j < 16)%nat as Hj16 by (by apply lookup_lt_Some in Hj).
      rewrite lookup_nibs in Hj by done. injection Hj as <-. rewrite Hhc by done.
      unfold present. rewrite <- (map_nth is_some rch None j). done.
    - assert (chashes E rch = []) as Hnil by by apply chashes_nil.
      rewrite Hnil. cbn [concat app]. f_equal. f_equal. unfold ch'.
      by rewrite (chashes_nil_repl E HE rch) by done. }
  rewrite Hr.
  assert (Hpres : present_n ch' = present rch).
  { unfold present_n, present, ch'. rewrite map_map. apply map_ext. by intros [c|]. }
  assert (Hl' : length ch' = 16%nat) by (unfold ch'; by rewrite map_length).
  assert (Hcrep : forall i c rc, ch' !! i = Some (Some c) -> rch !! i = Some (Some rc) -> rep st c rc).
  { intros i c rc Hi Hri. unfold ch' in Hi. rewrite list_lookup_fmap, Hri in Hi. cbn in Hi. injection Hi as <-.
    apply rep_coll. by eapply Hch. }
  assert (HEn : isEmptyNodeHash E (Some (rhash (Radix pre rch x))) = false)
    by (apply isEmptyNodeHash_some; [apply rhash32|done]).
  destruct x as [y|]; (case_bool_decide as Hsome; [|try (exfalso; apply Hsome; eauto; fail)]).
  - pose proof (read_n_app 32 (evhash E y) [] (ok_vhash E HE y)) as Hrd. rewrite app_nil_r in Hrd. rewrite Hrd.
    eexists. split; [done|].
    assert (Hvr : vrep st false None (Some (evhash E y)) [] (Some y)) by (constructor; [done|by apply Hv]).
    split; [|split; [done|split; [by eapply exp_not_collapsed|split]]]; [|unfold inErrorStatus|done].
    + econstructor; try done; by right.
    + unfold isValueCollapsed. cbn [n_vh]. rewrite hash_len_32 by apply (ok_vhash E HE).
      unfold hasValue. cbn [n_val is_some negb]. by rewrite andb_false_r.
  - by destruct Hsome.
  - eexists. split; [done|].
    split; [|split; [done|split; [eapply (exp_not_collapsed st _ _ _ false); [done|constructor|done]|split]]]; [|unfold inErrorStatus|done].
    + econstructor; try done; [constructor|by right].
    + destruct Hcont as [[? ?]|Hcont]; [done|]. apply existsb_present in Hcont.
      rewrite (hasChildren_exp _ _ _ _ _ _ _ _ rch) by done. rewrite Hcont. cbn. by rewrite andb_false_r.
Qed.

Lemma fullExpand_coll st gen n r : rep st n r -> isCollapsed E n = true ->
  exists n', expandNode E st gen n = Some n' /\ fullExpand E st gen n = Some n' /\ loaded st n' r /\ n_dirty n' = false.
Proof.
  intros Hrep Hcol.
  assert (Hc : forall p g, stored st r -> exists n', expandNode E st gen (Node p (replicate 16 None) None false (Some (rhash r)) None [] g) = Some n' /\
     fullExpand E st gen (Node p (replicate 16 None) None false (Some (rhash r)) None [] g) = Some n' /\ loaded st n' r /\ n_dirty n' = false).
  { intros p g Hst. destruct r as [pre rch x].
    destruct (stored_inv _ _ _ _ Hst) as (Hn&Hne&_).
    set (n0 := Node p (replicate 16 None) None false (Some (rhash (Radix pre rch x))) None [] g).
    assert (isCollapsed E n0 = true) as Hcol0.
    { unfold isCollapsed. cbn [n_hash n0]. rewrite isEmptyNodeHash_some; [done|apply rhash32|done]. }
    destruct (node_deser_spec st p (Radix pre rch x) gen Hst) as (n1&Hd&Hr1&Hh1&Hc1&He1&Hdi).
    assert (Hexp : exists n', expandNode E st gen n0 = Some n' /\ loaded st n' (Radix pre rch x) /\ n_dirty n' = false).
    { unfold expandNode. rewrite Hcol0. cbn [negb]. unfold n0 at 1 2. cbn [set_gen n_hash]. rewrite Hn, Hd, He1, Hc1.
      inversion Hr1; subst.
      - exfalso. unfold isCollapsed in Hc1. cbn [n_hash n_vh] in Hc1. rewrite isEmptyNodeHash_some in Hc1; [done|apply rhash32|done].
      - match goal with Hv : vrep _ _ _ _ _ _ |- _ => inversion Hv; subst end.
        + unfold isValueCollapsed. cbn [n_vh]. eexists. split; [done|]. split; [by constructor|done].
        + assert (isValueCollapsed (Node pre ch (Some y) d h vh vs g0) = false) as ->.
          { unfold isValueCollapsed. cbn [n_vh hasValue n_val is_some]. destruct vh; [unfold hasValue; cbn; by rewrite andb_false_r|done]. }
          eexists. split; [done|]. split; [by constructor|done].
        + assert (isValueCollapsed (Node pre ch (@None V) false h (Some (evhash E y)) [] g0) = true) as ->.
          { unfold isValueCollapsed. cbn [n_vh]. rewrite hash_len_32 by apply (ok_vhash E HE). done. }
          destruct (vcollapsed_load st pre ch false h g0 rch y Hr1) as (n'&Hn'&Hl'). exists n'. split; [done|]. split; [done|].
          unfold expandValue in Hn'. cbn [n_vh] in Hn'. rewrite hash_len_32 in Hn' by apply (ok_vhash E HE).
          destruct (st_vals st !! _); [|done]. destruct (evdec E _); [|done]. injection Hn' as <-. done. }
    destruct Hexp as (n'&Hx&Hl'&Hdn). exists n'. split; [done|]. split; [|done].
    unfold fullExpand. rewrite Hx. by rewrite (loaded_not_vcollapsed _ _ _ Hl'). }
  inversion Hrep; subst; [by apply Hc|].
  exfalso. rewrite (exp_not_collapsed st _ _ _ d _ _ vs _ rch x) in Hcol; done.
Qed.

Lemma fullExpand_spec st gen n r : rep st n r ->
  exists n', fullExpand E st gen n = Some n' /\ loaded st n' r.
Proof.
  intros Hrep. destruct (isCollapsed E n) eqn:Hcol.
  - destruct (fullExpand_coll st gen n r Hrep Hcol) as (n'&_&?&?&_). eauto.
  - unfold fullExpand, expandNode. rewrite Hcol. cbn [negb].
    inversion Hrep; subst.
    + exfalso. match goal with Hs : stored _ _ |- _ => destruct r as [pre rch x]; destruct (stored_inv _ _ _ _ Hs) as (_&Hne&_) end.
      unfold isCollapsed in Hcol. cbn [n_hash n_vh] in Hcol. rewrite isEmptyNodeHash_some in Hcol; [done|apply rhash32|done].
    + match goal with Hv : vrep _ _ _ _ _ _ |- _ => inversion Hv; subst end.
      * unfold isValueCollapsed. cbn [n_vh]. eexists. split; [done|]. by constructor.
      * assert (isValueCollapsed (Node pre ch (Some y) d h vh vs g) = false) as ->.
        { unfold isValueCollapsed. cbn [n_vh hasValue n_val is_some]. destruct vh; [unfold hasValue; cbn; by rewrite andb_false_r|done]. }
        eexists. split; [done|]. by constructor.
      * assert (isValueCollapsed (Node pre ch (@None V) false h (Some (evhash E y)) [] g) = true) as ->.
        { unfold isValueCollapsed. cbn [n_vh]. rewrite hash_len_32 by apply (ok_vhash E HE). done. }
        by apply vcollapsed_load.
Qed.
Lemma expandNode_spec st gen n r : rep st n r ->
  exists n', expandNode E st gen n = Some n' /\ rep st n' r.
Proof.
  intros Hrep. destruct (isCollapsed E n) eqn:Hcol.
  - destruct (fullExpand_coll st gen n r Hrep Hcol) as (n'&?&_&?%loaded_rep&_). eauto.
  - unfold expandNode. rewrite Hcol. cbn [negb]. eauto.
Qed.

Lemma erep_empty n : erep n -> isEmpty E n = true /\ isCollapsed E n = false /\ isValueCollapsed n = false.
Proof.
  destruct 1 as [d h g Hh]. unfold isEmpty, isCollapsed, isValueCollapsed, isEmptyNodeHash. cbn [n_hash n_vh].
  destruct Hh as [->| ->]; [done|]. rewrite bool_decide_eq_true_2 by done. by rewrite orb_true_r.
Qed.
Lemma erep_expand st gen n : erep n -> fullExpand E st gen n = Some n.
Proof.
  intros (He&Hc&Hv)%erep_empty. unfold fullExpand, expandNode. rewrite Hc. cbn. by rewrite Hv.
Qed.

(* ---------------------------------------------------------------- hashing *)

(** A closed set of trees with pairwise different hashes, all different from
    the hash of the empty node. *)
Definition closed (Q : radix V -> Prop) : Prop :=
  forall pre ch v i c, Q (Radix pre ch v) -> ch !! i = Some (Some c) -> Q c.
Definition no_eh (Q : radix V -> Prop) : Prop := forall r, Q r -> rhash r <> EH.

Lemma node_hash_of_spec pre rch x (vh : option (list N)) :
  length rch = 16%nat -> is_nibbles pre ->
  default (nilhash H) vh = match x with Some y => evhash E y | None => nilhash H end ->
  node_hash_of E (newNodeHeader pre (present rch) (bool_decide (is_Some x))) vh (chashes E rch) = rhash (Radix pre rch x).
Proof.
  intros Hl Hn Hv. rewrite (rhash_eq E). unfold node_hash_of, nh_hash.
  assert (Hlp : length (present rch) = 16%nat) by (unfold present; by rewrite map_length).
  rewrite newNodeHeader_ser by done.
  assert (Hnt : nt_HasChildren (nh_nt (newNodeHeader pre (present rch) (bool_decide (is_Some x)))) = existsb id (present rch)).
  { unfold newNodeHeader. cbn [nh_nt]. rewrite ntype_spec by done. by destruct (type_byte_bits pre (present rch) (bool_decide (is_Some x)) Hn) as (_&_&_&->&_). }
  rewrite Hnt, Hv. unfold hash_pair. fold (lefti E pre rch x).
  destruct (existsb id (present rch)) eqn:Hp.
  - destruct (chashes E rch) as [|h0 hs] eqn:Hc; [apply chashes_nil in Hc; congruence|]. rewrite <- Hc.
    destruct (mhc_spec H (chashes E rch) (-1) None [] (ok_H E HE)) as (ps'&->&_); [by apply chashes_len|by rewrite Hc|lia|constructor|].
    done.
  - by rewrite (proj2 (chashes_nil E rch)) by done.
Qed.

Lemma isSome_hv (x : option V) : is_some x = bool_decide (is_Some x).
Proof. destruct x; [by rewrite bool_decide_eq_true_2 by eauto|rewrite bool_decide_eq_false_2; [done|by intros [? ?]]]. Qed.

Lemma valueHash_spec st pre ch d h vh vs g y :
  vrep st d (Some y) vh vs (Some y) -> valueHash E (Node pre ch (Some y) d h vh vs g) y = (evhash E y, evenc E y).
Proof.
  unfold valueHash. cbn [n_vh n_vs]. inversion 1; subst.
  destruct vh as [h'|]; [|done]. destruct vs as [|a vs']; [done|].
  match goal with A : Some h' = None \/ _ |- _ => destruct A as [A|A]; [done|injection A as ->] end.
  match goal with A : _ :: _ = [] \/ _ |- _ => destruct A as [A|A]; [done|by rewrite <- A] end.
Qed.

Lemma somes_ext {A B} (f : A -> B) (l : list (option A)) (l' : list (option B)) :
  length l = length l' ->
  (forall i, option_map f (nth i l None) = nth i l' None) -> somes (map (option_map f) l) = somes l'.
Proof.
  revert l'. induction l as [|o l IH]; intros [|o' l'] Hl Hn; try done. cbn.
  pose proof (Hn O) as H0. cbn in H0. rewrite H0.
  rewrite (IH l'); [done|cbn in Hl; lia|]. intros i. apply (Hn (S i)).
Qed.

Lemma node_hash_spec (Q : radix V -> Prop) st n r : closed Q -> no_eh Q -> rep st n r -> Q r ->
  exists n', node_hash E n = (n', rhash r) /\ rep st n' r /\ n_dirty n' = n_dirty n /\ n_hash n' = Some (rhash r) /\
    n_pre n' = n_pre n /\ n_val n' = n_val n /\ present_n (n_ch n') = present_n (n_ch n) /\
    (isCollapsed E n = false -> isCollapsed E n' = false) /\ n_gen n' = n_gen n.
Proof.
  intros Hcl Hno. induction 1 as [p r g Hst|pre ch v d h vh vs g rch x H1 H2 H3 H4 H5 H6 IH H7 H8 H9]; intros HQ.
  - eexists. cbn [node_hash]. split; [done|]. split; [by constructor|]. done.
  - cbn [node_hash]. destruct h as [h|].
    + destruct H8 as [H8|[H8 Hne]]; [done|]. injection H8 as ->. eexists. split; [done|]. split; [|done].
      constructor; try done. by right.
    + destruct d; [|by destruct (H9 eq_refl)].
      set (chh := map (option_map (node_hash E)) ch).
      assert (Hi : forall i, match nth i ch None, nth i rch None with
                   | Some c, Some rc => exists c', node_hash E c = (c', rhash rc) /\ rep st c' rc
                   | None, None => True | _, _ => False end).
      { intros i. pose proof (present_lookup _ _ i H5) as Hpi.
        destruct (nth i ch None) as [c|] eqn:Hci, (nth i rch None) as [rc|] eqn:Hri; try done.
        apply nth_some_lookup in Hci, Hri. destruct (IH i c rc Hci Hri) as (c'&?&?&_); [by eapply Hcl|]. eauto. }
      assert (Hsnd : somes (map (option_map snd) chh) = chashes E rch).
      { unfold chashes, chh. rewrite map_map.
        transitivity (somes (map (option_map (fun c => snd (node_hash E c))) ch)).
        { f_equal. apply map_ext. by intros [c|]. }
        apply somes_ext; [by rewrite map_length, H1, H2|]. intros i.
        pose proof (map_nth (option_map rhash) rch None i) as Hmn. cbn [option_map] in Hmn. rewrite Hmn.
        specialize (Hi i). destruct (nth i ch None) as [c|], (nth i rch None) as [rc|]; try done.
        destruct Hi as (c'&Hh&_). cbn. by rewrite Hh. }
      set (ch1 := map (option_map fst) chh).
      assert (Hl1 : length ch1 = 16%nat) by (unfold ch1, chh; by rewrite !map_length).
      assert (Hp1 : present_n ch1 = present_n ch).
      { unfold present_n, ch1, chh. rewrite !map_map. apply map_ext. by intros [c|]. }
      assert (Hrep1 : forall i c rc, ch1 !! i = Some (Some c) -> rch !! i = Some (Some rc) -> rep st c rc).
      { intros i c rc Hc1 Hrc. specialize (Hi i). apply nth_some_lookup in Hrc. rewrite Hrc in Hi.
        destruct (nth i ch None) as [c0|] eqn:Hc0; [|done]. apply nth_some_lookup in Hc0.
        destruct Hi as (c'&Hh&Hr). unfold ch1, chh in Hc1. rewrite !list_lookup_fmap, Hc0 in Hc1. cbn in Hc1.
        rewrite Hh in Hc1. injection Hc1 as <-. done. }
      assert (Hxv : x = v) by (by inversion H7; subst). subst v.
      assert (Hhash : node_hash_of E (header_of (Node pre ch x true None vh vs g))
                (compute_vhash E (Node pre ch x true None vh vs g)) (somes (map (option_map snd) chh)) = rhash (Radix pre rch x)).
      { rewrite Hsnd. unfold header_of. cbn [n_pre n_ch hasValue n_val]. unfold hasValue. cbn [n_val]. rewrite H5, isSome_hv.
        apply node_hash_of_spec; [done..|]. unfold compute_vhash.
        destruct x as [y|].
        - assert (isValueCollapsed (Node pre ch (Some y) true None vh vs g) = false) as ->.
          { unfold isValueCollapsed. cbn [n_vh]. destruct vh; [unfold hasValue; cbn; by rewrite andb_false_r|done]. }
          cbn [n_val]. erewrite valueHash_spec by exact H7. cbn. apply bytes_to_hash_id. apply (ok_vhash E HE).
        - by inversion H7; subst. }
      rewrite Hhash. fold ch1.
      assert (Hv1 : exists vh' vs', cache_value E (Node pre ch1 x true None vh vs g) = Node pre ch1 x true None vh' vs' g /\
                 vrep st true x vh' vs' x).
      { unfold cache_value. cbn [n_val]. destruct x as [y|].
        - erewrite valueHash_spec by exact H7. do 2 eexists. split; [done|]. constructor; by right.
        - exists vh, vs. done. }
      destruct Hv1 as (vh'&vs'&->&Hv'). eexists. split; [done|].
      assert (rep st (Node pre ch1 x true (Some (rhash (Radix pre rch x))) vh' vs' g) (Radix pre rch x)) as Hrep'.
      { constructor; try done; [by rewrite Hp1|]. right. split; [done|]. by apply Hno. }
      split; [done|]. cbn [n_dirty n_hash n_pre n_val n_ch n_gen]. repeat (split; [done|]).
      split; [|done]. intros _. by eapply exp_not_collapsed; [rewrite Hp1|..].
Qed.

Lemma erep_hash n : erep n -> exists n', node_hash E n = (n', EH) /\ erep n' /\ n_dirty n' = n_dirty n.
Proof.
  destruct 1 as [d h g Hh]. cbn [node_hash]. destruct Hh as [->| ->].
  - eexists. split; [|split].
    + reflexivity.
    + cbn. constructor. by right.
    + done.
  - eexists. split; [done|]. split; [|done]. constructor. by right.
Qed.

End rep.
