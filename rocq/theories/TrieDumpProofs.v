(** Proofs about Dump. *)
From Verif Require Import TrieDumpModel TrieIterProofs TrieRunProofs.

Section dump.
Context {V : Type} (E : env V) (HE : env_ok E).
Local Notation node := (node V).
Local Notation rhash := (rhash (eH E) (ertl E) (evhash E)).
Local Notation rser := (rser E).
Implicit Types (st dst : store) (n c : node) (rch : list (option (radix V))).

(* ------------------------------------------------- nodes that were loaded *)

(** Nodes of a trie that was opened and only read: clean, with a hash, and the
    value is in memory just if its hash is. *)
Inductive dok : node -> Prop :=
| dok_intro p ch v h vh vs g : is_some v = is_some vh -> (forall i c, ch !! i = Some (Some c) -> dok c) ->
    dok (Node p ch v false (Some h) vh vs g).
Lemma dok_new h g : dok (new_node (Some h) g).
Proof. constructor; [done|]. intros i c Hi. apply lookup_replicate in Hi as [? _]. done. Qed.
Lemma dok_put n i c : dok n -> dok c -> dok (put_child n i (Some c)).
Proof.
  destruct 1 as [p ch v h vh vs g Hv Hc]. intros Hcc. constructor; [done|]. intros j c' Hj.
  apply list_lookup_insert_Some in Hj as [(_&[= ->]&_)|(_&Hj)]; eauto.
Qed.
Lemma dok_child n i c : dok n -> n_child n i = Some c -> dok c.
Proof. destruct 1 as [p ch v h vh vs g Hv Hc]. unfold n_child. cbn [n_ch]. intros Hi%nth_some_lookup. eauto. Qed.
Lemma read_children_dok hd g : forall is b ch b', read_children (V:=V) hd is g b = Some (ch, b') -> forall i c, ch !! i = Some (Some c) -> dok c.
Proof.
  induction is as [|k is IH]; intros b ch b'; cbn [read_children]; [by intros [= <- <-]|].
  destruct (nh_HasChild hd k).
  - destruct (read_n 32 b) as [[h b1]|]; [|done]. destruct (read_children hd is g b1) as [[r b2]|] eqn:Hr; [|done].
    intros [= <- <-] [|i] c Hi; cbn in Hi; [injection Hi as <-; apply dok_new|by eapply IH].
  - destruct (read_children hd is g b) as [[r b2]|] eqn:Hr; [|done].
    intros [= <- <-] [|i] c Hi; cbn in Hi; [done|by eapply IH].
Qed.
Lemma read_n_len k b x r : read_n k b = Some (x, r) -> length x = k.
Proof. unfold read_n. destruct (Nat.leb_spec k (length b)); [|done]. intros [= <- _]. rewrite take_length. lia. Qed.
Lemma dok_expandNode st gen n n' : dok n -> expandNode E st gen n = Some n' -> dok n'.
Proof.
  intros Hd. unfold expandNode. destruct (isCollapsed E n) eqn:Hcol; [|by intros [= <-]]. cbn [negb].
  destruct Hd as [p ch v h vh vs g Hv Hc].
  assert (v = None /\ forall i c, ch !! i <> Some (Some c)) as [-> Hch].
  { unfold isCollapsed, hasChildren, hasValue in Hcol. cbn [n_ch n_val n_hash] in Hcol. destruct (isEmptyNodeHash E _); [done|].
    apply andb_true_iff in Hcol as [Hcol _]. apply andb_true_iff in Hcol as [Hx Hy]. split; [by destruct v|].
    intros i c Hi. apply negb_true_iff in Hx. assert (existsb is_some ch = true); [|congruence].
    apply existsb_exists. exists (Some c). split; [|done]. apply elem_of_list_In. by eapply elem_of_list_lookup_2. }
  destruct vh; [done|]. clear Hv Hc. cbn [set_gen n_hash]. destruct (st_nodes st !! h) as [b|]; [|done].
  destruct (node_deser E _ b) as [n1|] eqn:Hde; [|done].
  assert (exists p1 ch1 vh1, n1 = Node p1 ch1 None false (Some h) vh1 vs gen /\ (forall x, vh1 = Some x -> length x = 32%nat) /\
    forall i c, ch1 !! i = Some (Some c) -> dok c) as (p1&ch1&vh1&->&Hl&Hch1).
  { revert Hde. unfold node_deser. destruct (nh_deser E b) as [[hd b1]|]; [|done].
    destruct (nt_HasChildren (nh_nt hd)).
    - destruct (read_children hd nibs gen b1) as [[ch' b2]|] eqn:Hr; [|done]. pose proof (read_children_dok _ _ _ _ _ _ Hr).
      destruct (nt_HasValue (nh_nt hd)); [destruct (read_n 32 b2) as [[x ?]|] eqn:Hx; [|done]|]; intros [= <-]; do 3 eexists; (split; [done|]);
        (split; [|done]); [intros ? [= <-]; by eapply read_n_len|done].
    - destruct (nt_HasValue (nh_nt hd)); [destruct (read_n 32 b1) as [[x ?]|] eqn:Hx; [|done]|]; intros [= <-]; do 3 eexists; (split; [done|]);
        (split; [|intros i c Hi; by destruct (Hch i c)]); [intros ? [= <-]; by eapply read_n_len|done]. }
  set (n2 := if inErrorStatus E _ then _ else _).
  assert (exists h2, n2 = Node p1 ch1 None false (Some h2) vh1 vs gen) as (h2&->) by (unfold n2; destruct (inErrorStatus E _); eauto).
  match goal with |- (if ?b then _ else _) = _ -> _ => destruct b; [done|] end. unfold isValueCollapsed, expandValue. cbn [n_vh].
  destruct vh1 as [x|]; [|intros [= <-]; by constructor]. rewrite hash_len_32 by auto. unfold hasValue. cbn [n_val is_some negb andb].
  destruct (st_vals st !! x); [|done]. destruct (evdec E _); [|done]. intros [= <-]. by constructor.
Qed.
Lemma dok_it_expand st gen n : dok n -> dok (it_expand E st gen n).
Proof. intros Hd. unfold it_expand. destruct (expandNode E st gen n) eqn:He; [by eapply dok_expandNode|done]. Qed.
Lemma dok_collapse n : dok n -> dok (collapse E n).2.
Proof.
  intros Hd. unfold collapse. destruct (isCollapsed E n); [done|]. destruct Hd as [p ch v h vh vs g Hv Hc].
  cbn [node_hash snd]. constructor; [done|]. intros i c Hi. rewrite list_lookup_fmap in Hi. by destruct (ch !! i).
Qed.
Lemma dok_first_from ch : forall j i k c, (forall q c, ch !! q = Some (Some c) -> dok c) -> first_from ch j i = Some (k, c) -> dok c.
Proof.
  induction ch as [|o ch IH]; intros j i k c Hc; [done|]. cbn [first_from].
  destruct (i <=? j); [destruct o as [c'|]|].
  - intros [= <- <-]. by apply (Hc O).
  - apply IH. intros q. apply (Hc (S q)).
  - apply IH. intros q. apply (Hc (S q)).
Qed.
Lemma dok_children n : dok n -> forall q c, n_ch n !! q = Some (Some c) -> dok c.
Proof. destruct 1. done. Qed.
Lemma dok_moveToNext st gen i n f o : dok n -> moveToNext E st gen (i, n) = (f, o) -> dok f.2 /\ forall c, o = Some c -> dok c.
Proof.
  intros Hd. unfold moveToNext. pose proof (dok_it_expand st gen n Hd) as Hd1. set (n1 := it_expand E st gen n) in *. clearbody n1.
  set (n2 := match n_child n1 i with Some c => _ | None => n1 end).
  assert (Hd2 : dok n2).
  { unfold n2. destruct (n_child n1 i) as [c|] eqn:Hc; [|done]. destruct (canCollapse E c); [|done].
    apply dok_put; [done|]. apply dok_collapse. by eapply dok_child. }
  clearbody n2.
  assert (Hgo : forall index j m, dok m -> match first_from (n_ch m) 0 j with Some (i, c) => ((i, m), Some c) | None => ((index, m), None) end = (f, o) ->
     dok f.2 /\ forall c, o = Some c -> dok c).
  { intros index j m Hm. destruct (first_from (n_ch m) 0 j) as [[k c]|] eqn:Hf; intros [= <- <-]; (split; [done|]); [|done].
    intros c' [= <-]. eapply dok_first_from; [|done]. by apply dok_children. }
  destruct (16 <? i); [by apply Hgo|]. destruct (i =? 16); by apply Hgo.
Qed.
Definition doks (l : list (N * node)) : Prop := Forall (fun f => dok f.2) l.
Lemma dok_breadth st gen : forall stack i n f' stack' c, dok n -> doks stack -> breadth E st gen (i, n) stack = inr (f', stack', c) ->
  doks (f' :: stack') /\ dok c.
Proof.
  induction stack as [|[pi pn] stack IH]; intros i n f' stack' c Hn Hs; cbn [breadth];
    destruct (moveToNext E st gen (i, n)) as [[j n'] o] eqn:Hm; destruct (dok_moveToNext _ _ _ _ _ _ Hn Hm) as [Hn' Ho];
    cbn [snd] in Hn'; destruct o as [c'|].
  - intros [= <- <- <-]. split; [by constructor|by apply Ho].
  - done.
  - intros [= <- <- <-]. split; [by constructor|by apply Ho].
  - apply IH; [|by apply (Forall_inv_tail Hs)]. apply dok_put; [by apply (Forall_inv Hs)|done].
Qed.
Lemma dok_step st gen i n stack f' stack' c : doks ((i, n) :: stack) -> node_step E st gen (i, n) stack = inr (f', stack', c) ->
  doks (f' :: stack') /\ dok c.
Proof.
  intros Hs. pose proof (Forall_inv Hs) as Hn. pose proof (Forall_inv_tail Hs) as Hst. cbn [snd] in Hn. unfold node_step.
  destruct (16 <=? i).
  - by apply dok_breadth.
  - cbv zeta. pose proof (dok_it_expand st gen n Hn) as Hn1. set (n1 := it_expand E st gen n) in *. clearbody n1.
    destruct (n_child n1 i) as [c1|] eqn:Hc1; [|by apply dok_breadth].
    destruct (first_from (n_ch c1) 0 0) as [[k cc]|] eqn:Hf; cbn [option_map]; [|by apply dok_breadth].
    intros [= <- <- <-]. pose proof (dok_child _ _ _ Hn1 Hc1) as Hd1. split.
    + constructor; [done|]. by constructor.
    + eapply dok_first_from; [|done]. by apply dok_children.
Qed.

(* --------------------------------------------------------------- one node *)

(** Entries of [dst'] are those of [dst] or of the source [st]. *)
Definition mixed st dst dst' : Prop :=
  (forall k, st_nodes dst' !! k = st_nodes dst !! k \/ is_Some (st_nodes st !! k) /\ st_nodes dst' !! k = st_nodes st !! k) /\
  (forall k, st_vals dst' !! k = st_vals dst !! k \/ is_Some (st_vals st !! k) /\ st_vals dst' !! k = st_vals st !! k).
Lemma mixed_refl st dst : mixed st dst dst. Proof. split; intros k; by left. Qed.
Lemma mixed_trans st (a b c : store) : mixed st a b -> mixed st b c -> mixed st a c.
Proof.
  intros [H1 H2] [H3 H4]. split; intros k.
  - destruct (H3 k) as [Hx|Hx]; [|by right]. rewrite Hx. apply H1.
  - destruct (H4 k) as [Hx|Hx]; [|by right]. rewrite Hx. apply H2.
Qed.
Definition has_node st dst (h : list N) : Prop := st_nodes dst !! h = st_nodes st !! h.
Lemma mixed_node st a b h : mixed st a b -> has_node st a h -> has_node st b h.
Proof. intros [H1 _] Ha. destruct (H1 h) as [Hx|[_ Hx]]; unfold has_node in *; congruence. Qed.
Lemma mixed_val st a b h : mixed st a b -> st_vals a !! h = st_vals st !! h -> st_vals b !! h = st_vals st !! h.
Proof. intros [_ H1] Ha. destruct (H1 h) as [Hx|[_ Hx]]; congruence. Qed.

Lemma save_node_spec st dst h b : st_nodes st !! h = Some b ->
  exists ok dst', save_node dst h b = (ok, dst') /\ mixed st dst dst' /\ st_faults dst' = drop 1 (st_faults dst) /\
    if ok then has_node st dst' h else exists f, st_faults dst = true :: f.
Proof.
  intros Hb. unfold save_node. destruct (st_faults dst) as [|[|] f] eqn:Hf; (do 2 eexists; split; [done|]); cbn [st_faults].
  - split; [|split; [done|]].
    + split; intros k; cbn [st_nodes st_vals]; [|by left]. destruct (decide (k = h)) as [->|Hk]; [right; rewrite lookup_insert, Hb; split; [eauto|done]|left; by rewrite lookup_insert_ne].
    + unfold has_node. cbn. by rewrite lookup_insert, Hb.
  - split; [split; intros k; by left|]. split; [done|]. eauto.
  - split; [|split; [done|]].
    + split; intros k; cbn [st_nodes st_vals]; [|by left]. destruct (decide (k = h)) as [->|Hk]; [right; rewrite lookup_insert, Hb; split; [eauto|done]|left; by rewrite lookup_insert_ne].
    + unfold has_node. cbn. by rewrite lookup_insert, Hb.
Qed.
Lemma save_val_spec st dst h b : st_vals st !! h = Some b ->
  exists ok dst', save_val dst h b = (ok, dst') /\ mixed st dst dst' /\ st_faults dst' = drop 1 (st_faults dst) /\
    if ok then st_vals dst' !! h = st_vals st !! h else exists f, st_faults dst = true :: f.
Proof.
  intros Hb. unfold save_val. destruct (st_faults dst) as [|[|] f] eqn:Hf; (do 2 eexists; split; [done|]); cbn [st_faults].
  - split; [|split; [done|]].
    + split; intros k; cbn [st_nodes st_vals]; [by left|]. destruct (decide (k = h)) as [->|Hk]; [right; rewrite lookup_insert, Hb; split; [eauto|done]|left; by rewrite lookup_insert_ne].
    + cbn. by rewrite lookup_insert, Hb.
  - split; [split; intros k; by left|]. split; [done|]. eauto.
  - split; [|split; [done|]].
    + split; intros k; cbn [st_nodes st_vals]; [by left|]. destruct (decide (k = h)) as [->|Hk]; [right; rewrite lookup_insert, Hb; split; [eauto|done]|left; by rewrite lookup_insert_ne].
    + cbn. by rewrite lookup_insert, Hb.
Qed.

(** What Dump needs to know about a tree: no node hash looks invalid and no value
    has an empty encoding. *)
Definition dumpable (r : radix V) : Prop :=
  (forall a, subr a r -> rhash a <> replicate 32 0 /\ rhash a <> nilhash (eH E)) /\
  (forall p ch x, subr (Radix p ch (Some x)) r -> evenc E x <> []).
Lemma dumpable_child p ch v i (c : radix V) : dumpable (Radix p ch v) -> ch !! i = Some (Some c) -> dumpable c.
Proof.
  intros [H1 H2] Hi. split.
  - intros a Ha. apply H1. by eapply subr_child.
  - intros p' ch' x Ha. eapply H2. by eapply subr_child.
Qed.

(** The callbacks for one value. *)
Definition calls_of (e : list N * V) : list (list N * list N) :=
  match e.1 with [] => [([], evenc E e.2); ([], evenc E e.2)] | _ => [(pack e.1, evenc E e.2)] end.
Definition calls (cb : bool) (l : list (list N * V)) : list (list N * list N) := if cb then flat_map calls_of l else [].
Lemma calls_app cb a b : calls cb (a ++ b) = calls cb a ++ calls cb b.
Proof. destruct cb; [apply flat_map_app|done]. Qed.

Definition this_entry (pre : list N) (r : radix V) : list (list N * V) :=
  match rval r with Some x => [(pre ++ rpre r, x)] | None => [] end.

Lemma rser_cons r : rser r <> [].
Proof. by destruct r. Qed.

(** A loaded clean node, as Dump leaves it. *)
Lemma dok_rep st n r : rep E st n r -> dok n -> n_dirty n = false /\ n_hash n = Some (rhash r) /\ stored E st r.
Proof.
  intros Hr Hd. inversion Hr; subst; [done|]. inversion Hd; subst. cbn [n_dirty n_hash].
  match goal with A : false = false -> _ |- _ => destruct (A eq_refl) end. done.
Qed.
Lemma dok_expand st gen n r : rep E st n r -> dok n -> exists n', expandNode E st gen n = Some n' /\ loaded E st n' r /\ dok n' /\
  n_vh n' = match rval r with Some y => Some (evhash E y) | None => None end /\ n_pre n' = rpre r.
Proof.
  intros Hr Hd.
  assert (exists n', expandNode E st gen n = Some n' /\ loaded E st n' r) as (n'&He&Hl).
  { destruct (isCollapsed E n) eqn:Hc.
    - destruct (fullExpand_coll E HE st gen n r Hr Hc) as (n'&?&_&?&_). eauto.
    - exists n. unfold expandNode. rewrite Hc. split; [done|]. inversion Hr; subst.
      + exfalso. match goal with Hs : stored _ _ _ |- _ => destruct r as [pre rch x]; destruct (stored_inv E _ _ _ _ Hs) as (_&Hne&_) end.
        unfold isCollapsed in Hc. cbn [n_hash n_vh] in Hc. rewrite (isEmptyNodeHash_some E) in Hc; [done|by apply rhash_len; apply HE|done].
      + match goal with Hv : vrep _ _ _ _ _ _ _ |- _ => inversion Hv; subst end; [by constructor; try done; constructor|by constructor|].
        inversion Hd; subst. done. }
  exists n'. split; [done|]. split; [done|]. pose proof (dok_expandNode _ _ _ _ Hd He) as Hd'. split; [done|].
  destruct Hl as [pre ch x d h vh vs g rch H1 H2 H3 H4 H5 H6 H7 H8 H9]. cbn [n_vh n_pre rval rpre]. split; [|done].
  inversion Hd'; subst. inversion H7; subst; [done|].
  match goal with A : vh = None \/ _ |- _ => destruct A as [Hx|Hx] end; [by subst|done].
Qed.

Lemma visit_spec st gen cb pre n dst r : rep E st n r -> dok n -> dumpable r ->
  Forall even_key (this_entry pre r) ->
  exists n' dst' cs ok, dump_visit E st gen cb pre n dst = (n', dst', cs, ok) /\ mixed st dst dst' /\
    (exists k, st_faults dst' = drop k (st_faults dst)) /\
    if ok then loaded E st n' r /\ dok n' /\ cs = calls cb (this_entry pre r) /\
      has_node st dst' (rhash r) /\ (forall y, rval r = Some y -> st_vals dst' !! evhash E y = st_vals st !! evhash E y)
    else true ∈ st_faults dst /\ cs = [].
Proof.
  intros Hr Hd Hdu Hev. destruct (dok_rep _ _ _ Hr Hd) as (Hdi&Hh&Hs).
  destruct (dok_expand st gen n r Hr Hd) as (n1&He&Hl1&Hd1&Hvh&Hpre).
  destruct r as [p rch x]. destruct (stored_inv E _ _ _ _ Hs) as (Hn&Hne&Hv&_). set (r := Radix p rch x) in *.
  destruct Hdu as [Hinv Henc]. destruct (Hinv r (subr_refl r)) as [Hz Hnil].
  assert (Hlen : length (rhash r) = 32%nat) by (by apply rhash_len; apply HE).
  unfold dump_visit. rewrite Hh. unfold InvalidHash.
  rewrite hash_len_32, !bool_decide_eq_false_2 by done. cbn [negb orb].
  cbv zeta. cbn [default]. unfold id. rewrite Hn. cbn [default]. unfold id.
  destruct (rser r) as [|b0 bs] eqn:Hser; [by apply rser_cons in Hser|]. rewrite <- Hser in *. clear b0 bs Hser.
  destruct (save_node_spec st dst (rhash r) (rser r) Hn) as (ok&dst1&->&Hm1&Hf1&Hok).
  destruct ok.
  2:{ exists n, dst1, [], false. split; [done|]. split; [done|]. split; [eauto|]. destruct Hok as (f&->). split; [by left|done]. }
  rewrite He, Hvh. destruct x as [y|]; cbn [rval r default]; unfold id.
  2:{ exists n1, dst1, [], true. split; [done|]. split; [done|]. split; [eauto|]. split; [done|]. split; [done|]. split; [by destruct cb|]. done. }
  rewrite hash_len_32 by apply (ok_vhash E HE). rewrite (Hv y eq_refl). cbn [default]. unfold id.
  assert (Hnev : evenc E y <> []) by (eapply Henc; apply subr_refl).
  destruct (evenc E y) as [|b0 bs] eqn:Henv; [done|]. rewrite <- Henv in *. clear b0 bs Henv.
  destruct (save_val_spec st dst1 (evhash E y) (evenc E y) (Hv y eq_refl)) as (ok&dst2&->&Hm2&Hf2&Hok2).
  assert (Hm : mixed st dst dst2) by by eapply mixed_trans.
  assert (Hfs : exists k, st_faults dst2 = drop k (st_faults dst)) by (exists 2%nat; by rewrite Hf2, Hf1, drop_drop).
  destruct ok.
  2:{ exists n1, dst2, [], false. split; [by destruct cb|]. split; [done|]. split; [done|]. split; [|done].
      destruct Hok2 as (f&Hx). rewrite Hf1 in Hx. destruct (st_faults dst) as [|b fs]; [done|]. cbn in Hx. rewrite drop_0 in Hx. rewrite Hx. right. by left. }
  unfold this_entry in *. cbn [rval rpre r] in *. apply Forall_inv in Hev as [Hnib Hodd]. cbn [fst] in Hnib, Hodd.
  assert (Hres : loaded E st n1 r /\ dok n1 /\ has_node st dst2 (rhash r) /\ forall y0, Some y = Some y0 -> st_vals dst2 !! evhash E y0 = st_vals st !! evhash E y0).
  { split; [done|]. split; [done|]. split; [by apply (mixed_node st dst1)|]. by intros ? [= <-]. }
  destruct Hres as (?&?&?&?).
  destruct cb; [|by exists n1, dst2, [], true].
  rewrite Hpre. cbn [rpre]. rewrite Hodd. do 4 eexists. split; [reflexivity|]. split; [done|]. split; [done|]. cbv iota.
  split; [done|]. split; [done|]. split; [|done]. cbn [calls flat_map]. rewrite app_nil_r. unfold calls_of. cbn [fst snd].
  rewrite prefixToKeystring_pack by done. by destruct (pre ++ p).
Qed.

(* ---------------------------------------------------------------- the walk *)

Lemma wkids_dumpable pre r W : dumpable r -> Forall (fun qc => dumpable qc.2) W -> Forall (fun qc => dumpable qc.2) (wkids pre r W).
Proof.
  destruct r as [p rch x]. intros Hr HW. unfold wkids. apply Forall_app. split; [|done].
  apply Forall_forall. intros [q c] Hq. apply elem_kids in Hq as (k&_&Hk&_). cbn [snd].
  by eapply dumpable_child.
Qed.

Lemma step_dstep st gen f stack : node_step E st gen f stack = dstep E st gen f stack.
Proof. done. Qed.

(** A tree is stored in [dst] if its own entries are and its children are. *)
Lemma stored_copy st dst pre p rch x W : stored E st (Radix p rch x) -> has_node st dst (rhash (Radix p rch x)) ->
  (forall y, x = Some y -> st_vals dst !! evhash E y = st_vals st !! evhash E y) ->
  Forall (fun qc => stored E dst qc.2) (wkids pre (Radix p rch x) W) -> stored E dst (Radix p rch x).
Proof.
  intros Hs Hn Hv HW. destruct (stored_inv E _ _ _ _ Hs) as (H1&H2&H3&H4&H5&H6&H7). constructor; try done.
  - unfold has_node in Hn. congruence.
  - intros y Hy. rewrite (Hv y Hy). auto.
  - intros i c Hi. unfold wkids in HW. rewrite Forall_forall in HW.
    apply (HW ((pre ++ p) ++ [0 + N.of_nat i], c)). apply elem_of_app. left. apply elem_kids. exists i. split; [lia|done].
Qed.

Lemma loop_spec sz : forall st gen cb i n stack pre r W dst,
  istate E st ((i, n) :: stack) pre r W -> doks ((i, n) :: stack) ->
  Forall (fun qc => dumpable qc.2) (wkids pre r W) -> Forall even_key (wents (wkids pre r W)) ->
  (wsize (wkids pre r W) <= sz)%nat ->
  forall fuel, (sz < fuel)%nat -> exists dst' cs ok, dump_loop E fuel st gen cb (i, n) stack dst = Some (dst', cs, ok) /\
    mixed st dst dst' /\
    if ok then cs = calls cb (wents (wkids pre r W)) /\ Forall (fun qc => stored E dst' qc.2) (wkids pre r W)
    else true ∈ st_faults dst /\ cs `prefix_of` calls cb (wents (wkids pre r W)).
Proof.
  induction sz as [|sz IH]; intros st gen cb i n stack pre r W dst Hst Hdk Hdu Hev Hsz [|fuel] Hf; try lia; cbn [dump_loop];
    rewrite step_dstep;
    pose proof (dstep_spec E HE st gen i n stack pre r W Hst) as Hd; pose proof (dok_step st gen i n stack) as Hk; rewrite step_dstep in Hk;
    destruct (dstep E st gen (i, n) stack) as [root|[[[i' n'] stack'] c]].
  - rewrite Hd. exists dst, [], true. split; [done|]. split; [apply mixed_refl|]. split; [by destruct cb|done].
  - exfalso. destruct Hd as (pre'&rc&W'&Hw&_). rewrite Hw, wsize_wkids in Hsz. lia.
  - rewrite Hd. exists dst, [], true. split; [done|]. split; [apply mixed_refl|]. split; [by destruct cb|done].
  - destruct (Hk _ _ _ Hdk eq_refl) as [Hdk' Hdc]. clear Hk.
    destruct Hd as (pre'&rc&W'&Hw&Hz&Hrep). rewrite Hw in Hdu, Hev, Hsz |- *. rewrite wsize_wkids in Hsz.
    rewrite wents_wkids in Hev |- *. fold (this_entry pre' rc) in Hev |- *.
    apply Forall_app in Hev as [Hev1 Hev2]. pose proof (Forall_inv Hdu) as Hdu1. cbn [snd] in Hdu1.
    pose proof (wkids_dumpable pre' rc W' Hdu1 (Forall_inv_tail Hdu)) as Hdu2.
    rewrite (zpos_prefix E _ _ _ _ _ Hz).
    destruct (visit_spec st gen cb pre' c dst rc Hrep Hdc Hdu1 Hev1) as (c'&dst1&cs1&ok1&->&Hm1&(k&Hf1)&Hok1).
    destruct ok1.
    2:{ destruct Hok1 as [? ->]. exists dst1, [], false. split; [done|]. split; [done|]. split; [done|]. apply prefix_nil. }
    destruct Hok1 as (Hl&Hdc'&->&Hhn&Hhv).
    assert (Hst' : istate E st ((i', put_child n' i' (Some c')) :: stack') pre' rc W').
    { exists i', (put_child n' i' (Some c')), stack'. split; [done|]. right. split; [eapply zpos_put; [done|by apply loaded_rep]|].
      exists c'. split; [by eapply child_put|done]. }
    assert (Hdk2 : doks ((i', put_child n' i' (Some c')) :: stack')).
    { constructor; [|by apply (Forall_inv_tail Hdk')]. cbn [snd]. apply dok_put; [by apply (Forall_inv Hdk')|done]. }
    destruct (IH st gen cb i' _ stack' pre' rc W' dst1 Hst' Hdk2 Hdu2 Hev2 ltac:(lia) fuel ltac:(lia)) as (dst2&cs2&ok2&->&Hm2&Hok2).
    do 3 eexists. split; [reflexivity|]. split; [by eapply mixed_trans|]. rewrite calls_app. destruct ok2.
    + destruct Hok2 as [-> HS]. split; [done|]. constructor; [|].
      * cbn [snd]. destruct rc as [p rch x]. eapply stored_copy; [by apply (dok_rep _ _ _ Hrep Hdc)|by eapply mixed_node| |exact HS].
        intros y Hy. eapply mixed_val; [done|]. by apply Hhv.
      * destruct rc as [p rch x]. unfold wkids in HS. by apply Forall_app in HS as [_ HS].
    + destruct Hok2 as [Hfa Hpr]. split; [|by apply prefix_app]. rewrite Hf1 in Hfa.
      rewrite <- (take_drop k (st_faults dst)). apply elem_of_app. by right.
Qed.

(** Dump of a clean trie that represents [r]. *)
Lemma dump_spec st t r cb dst : rep E st (t_root t) r -> dok (t_root t) -> dumpable r -> Forall even_key (rents r []) -> isEmpty E (t_root t) = false ->
  forall fuel, (rsize r < fuel)%nat -> exists dst' cs ok, Dump E fuel st t cb dst = Some (dst', cs, ok) /\ mixed st dst dst' /\
    if ok then cs = calls cb (rents r []) /\ stored E dst' r
    else true ∈ st_faults dst /\ cs `prefix_of` calls cb (rents r []).
Proof.
  intros Hr Hd Hdu Hev Hem fuel Hf. unfold Dump. rewrite Hem. destruct (dok_rep _ _ _ Hr Hd) as (->&_&Hs).
  pose proof (wents_wkids [] r []) as Hw. rewrite wents_cons in Hw. fold (this_entry [] r) in Hw.
  change (wents (V:=V) []) with (@nil (list N * V)) in Hw. rewrite app_nil_r in Hw. rewrite Hw in Hev |- *. apply Forall_app in Hev as [Hev1 Hev2].
  destruct (visit_spec st (t_gen t) cb [] (t_root t) dst r Hr Hd Hdu Hev1) as (c'&dst1&cs1&ok1&->&Hm1&(k&Hf1)&Hok1).
  destruct ok1.
  2:{ destruct Hok1 as [? ->]. exists dst1, [], false. split; [done|]. split; [done|]. split; [done|]. apply prefix_nil. }
  destruct Hok1 as (Hl&Hdc'&->&Hhn&Hhv).
  assert (Hst : istate E st [(17, c')] [] r []) by (exists 17, c', []; split; [done|]; by left).
  pose proof (wsize_wkids [] r []) as Hsz. change (wsize [([], r)]) with (rsize r + 0)%nat in Hsz.
  assert (Hdk : doks [(17, c')]) by (by constructor).
  destruct (loop_spec (wsize (wkids [] r [])) st (t_gen t) cb 17 c' [] [] r [] dst1 Hst Hdk (wkids_dumpable _ _ _ Hdu (Forall_nil_2 _)) Hev2 ltac:(lia) fuel ltac:(lia))
    as (dst2&cs2&ok2&->&Hm2&Hok2).
  do 3 eexists. split; [reflexivity|]. split; [by eapply mixed_trans|]. rewrite calls_app. destruct ok2.
  - destruct Hok2 as [-> HS]. split; [done|]. destruct r as [p rch x]. eapply stored_copy; [done|by eapply mixed_node| |exact HS].
    intros y Hy. eapply mixed_val; [done|]. by apply Hhv.
  - destruct Hok2 as [Hfa Hpr]. split; [|by apply prefix_app]. rewrite Hf1 in Hfa.
    rewrite <- (take_drop k (st_faults dst)). apply elem_of_app. by right.
Qed.
End dump.
