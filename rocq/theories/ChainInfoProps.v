(** C74, C75: the node lists of a chain. *)
From Coq Require Import NArith ZArith Lia Zify.
From stdpp Require Import gmap sorting.
From Coq Require DecimalN.
From Verif Require AbiSelProps.
From Verif Require Import CombinedProofs HexModel HexProps ChainInfoModel.
Open Scope N_scope.

(* ---------------------------------------------------------- specification *)
(** The members of a set of ids in ascending order. *)
Definition ascending (S : gset (list N)) (l : list (list N)) : Prop :=
  StronglySorted bytes_lt l /\ forall x, x ∈ l <-> x ∈ S.

(** The data nodes of a chain as a set: the set afterwards and the answer. *)
Inductive dnspec (S : gset (list N)) : dnop -> gset (list N) -> dnres -> Prop :=
| DSAdd x : dnspec S (DNAdd x) ({[x]} ∪ S) (DNBool (bool_decide (x ∉ S)))
| DSRemove x : dnspec S (DNRemove x) (S ∖ {[x]}) (DNBool (bool_decide (x ∈ S \/ S = ∅)))
| DSHas x : dnspec S (DNHas x) S (DNBool (bool_decide (x ∈ S)))
| DSIndex x i l : ascending S l ->
    (match l !! Z.to_nat i with Some y => (0 <= i)%Z /\ y = x | None => False end \/ i = (-1)%Z /\ x ∉ S) ->
    dnspec S (DNIndex x) S (DNPos i)
| DSList l : ascending S l -> dnspec S DNList S (DNIds l)
| DSSort : dnspec S DNSort S DNUnit.
Inductive dnspec_run : gset (list N) -> list dnop -> gset (list N) -> list dnres -> Prop :=
| DSNil S : dnspec_run S [] S []
| DSCons S o S1 r os S2 rs : dnspec S o S1 r -> dnspec_run S1 os S2 rs -> dnspec_run S (o :: os) S2 (r :: rs).

(** The boot nodes of a chain as a map from node ids to servers. *)
Inductive bnspec (m : gmap (list N) server) : bnop -> gmap (list N) server -> bnres -> Prop :=
| BSAdd id s : is_bytes id -> sv_id s = hex_encode id ->
    bnspec m (BNAdd s) (match m !! id with Some _ => m | None => <[id := s]> m end) (BNBool (bool_decide (m !! id = None)))
| BSRemove x : bnspec m (BNRemove x) (delete x m) (BNBool (bool_decide (is_Some (m !! x) \/ m = ∅)))
| BSList l ids : ascending (dom m) ids -> Forall2 (fun id s => m !! id = Some s) ids l -> bnspec m BNList m (BNServers l).
Inductive bnspec_run : gmap (list N) server -> list bnop -> gmap (list N) server -> list bnres -> Prop :=
| BSNil m : bnspec_run m [] m []
| BSCons m o m1 r os m2 rs : bnspec m o m1 r -> bnspec_run m1 os m2 rs -> bnspec_run m (o :: os) m2 (r :: rs).
(** A server is named by the lower-case hex string of its id, the form NodeID.String gives. *)
Definition named (o : bnop) : Prop :=
  match o with BNAdd s => exists id, is_bytes id /\ sv_id s = hex_encode id | BNRemove x => is_bytes x | BNList => True end.
(** What sort.Slice promises: the same servers, no name before a smaller one. *)
Definition slice_sort (srt : list server -> list server) : Prop :=
  forall l, srt l ≡ₚ l /\ StronglySorted bytes_le (map sv_id (srt l)).

(* ----------------------------------------------------------------- proofs *)
Lemma search_found l k : StronglySorted bytes_lt l -> k ∈ l -> l !! search_strings l k = Some k.
Proof.
  intros Hs Hin. apply elem_of_list_lookup in Hin as [q Hq].
  assert (Hql : (q < length l)%nat) by (by apply lookup_lt_Some in Hq).
  assert (Hnq : nth q l [] = k) by (by apply nth_lookup_Some).
  unfold search_strings, sort_search. set (f := fun i => str_leb k (nth i l [])).
  assert (Hf : forall i, (i < length l)%nat -> f i = true <-> (q <= i)%nat).
  { intros i Hi. unfold f. rewrite str_leb_spec. rewrite <- Hnq. split.
    - intros Hle. destruct (Nat.le_gt_cases q i) as [|Hlt]; [done|]. exfalso.
      pose proof (sorted_nth l i q Hs ltac:(lia)) as H1. destruct Hle as [Heq|H2].
      + rewrite Heq in H1. by eapply bytes_lt_irrefl.
      + by eapply bytes_lt_irrefl, bytes_lt_trans.
    - intros Hle. destruct (Nat.eq_dec q i) as [->|]; [by left|right]. apply sorted_nth; [done|lia]. }
  destruct (search_loop_mono f (length l) (length l) 0 (length l)) as (A1&A2&A3); [lia|lia|lia| |].
  { intros a b Hab Ha. apply Hf; [lia|]. apply Hf in Ha; lia. }
  cbv zeta in A1, A2, A3. set (r := search_loop _ _ _ _) in *.
  assert (r = q) as ->; [|done].
  destruct (Nat.lt_trichotomy r q) as [?|[?|?]]; [|done|].
  - assert (f r = true) as Hr by (apply A3; lia). apply Hf in Hr; lia.
  - assert (f q = false) as Hr by (apply A2; lia). assert (f q = true) by (apply Hf; lia). congruence.
Qed.
Lemma search_iff l k : StronglySorted bytes_lt l -> l !! search_strings l k = Some k <-> k ∈ l.
Proof. intros Hs. split; [apply elem_of_list_lookup_2|by apply search_found]. Qed.
Lemma sorted_cut {A} (R : A -> A -> Prop) i l : StronglySorted R l -> StronglySorted R (cut i l).
Proof.
  intros Hs. unfold cut. revert i. induction Hs as [|x l Hs IH Hx]; intros i; [destruct i; constructor|].
  destruct i as [|i]; cbn [take drop app]; [done|]. constructor; [apply IH|].
  rewrite Forall_forall in Hx |- *. intros y [Hy|Hy]%elem_of_app; apply Hx.
  - apply elem_of_take in Hy as (j&Hj&_). by eapply elem_of_list_lookup_2.
  - apply elem_of_list_lookup in Hy as [j Hj]. rewrite lookup_drop in Hj. by eapply elem_of_list_lookup_2.
Qed.
Lemma elem_cut {A} i (l : list A) x : NoDup l -> l !! i = Some x -> forall y, y ∈ cut i l <-> y ∈ l /\ y <> x.
Proof.
  intros Hd Hi y. pose proof (take_drop_middle l i x Hi) as Hl. unfold cut.
  rewrite <- Hl in Hd. rewrite <- Hl at 3. rewrite !elem_of_app, elem_of_cons.
  apply NoDup_app in Hd as (_&Hd1&[Hd2 _]%NoDup_cons). split.
  - intros [Hy|Hy]; (split; [tauto|]); intros ->; [apply (Hd1 _ Hy); by left|done].
  - intros [[?|[?|?]] ?]; tauto.
Qed.
Lemma sort_sorted l : NoDup l -> StronglySorted bytes_lt (sort_strings l).
Proof.
  intros Hd. rewrite sort_strings_eq. apply sorted_lt; [apply (StronglySorted_merge_sort bytes_le)|]. by rewrite merge_sort_Permutation.
Qed.
Lemma elem_sort l x : x ∈ sort_strings l <-> x ∈ l.
Proof. unfold sort_strings. by rewrite merge_sort_Permutation. Qed.
Lemma sort_id l : StronglySorted bytes_lt l -> sort_strings l = l.
Proof.
  intros Hs. rewrite sort_strings_eq. apply (StronglySorted_unique bytes_le); [apply (StronglySorted_merge_sort bytes_le)|by apply sorted_lt_le|].
  by rewrite merge_sort_Permutation.
Qed.
Lemma index_loop_spec l node : forall i, (0 <= i)%Z ->
  match list_find (fun x => node = x) l with
  | Some (j, _) => index_loop i l node = (i + Z.of_nat j)%Z
  | None => index_loop i l node = (-1)%Z end.
Proof.
  induction l as [|x l IH]; intros i Hi; cbn [list_find index_loop]; [done|].
  destruct (decide (node = x)) as [->|Hn].
  - rewrite bool_decide_true by done. lia.
  - rewrite bool_decide_false by done. specialize (IH (i + 1)%Z ltac:(lia)).
    destruct (list_find _ l) as [[j y]|]; cbn; rewrite IH; [lia|done].
Qed.

Lemma dn_step_ok S l o : ascending S l ->
  exists S', dnspec S o S' (dn_step l o).2 /\ ascending S' (dn_step l o).1.
Proof.
  intros Ha. pose proof Ha as [Hs He]. assert (Hd := sorted_lt_nodup _ Hs).
  destruct o as [x|x|x|x| |]; cbn [dn_step].
  - exists ({[x]} ∪ S). unfold AddDataNode. destruct l as [|y l'] eqn:El.
    { assert (S = ∅) as -> by (apply set_eq; intros z; rewrite <- He; set_solver). cbn. split.
      - rewrite <- (bool_decide_true (x ∉ (∅ : gset (list N)))) by set_solver. constructor.
      - split; [repeat constructor|]. intros z. set_solver. }
    rewrite <- El in *. destruct (decide (x ∈ l)) as [Hin|Hn].
    + rewrite bool_decide_true by (by apply search_iff). cbn. assert (x ∈ S) by (by apply He). split.
      * rewrite <- (bool_decide_false (x ∉ S)) by set_solver. constructor.
      * split; [done|]. intros z. rewrite He. set_solver.
    + rewrite bool_decide_false by (by rewrite search_iff). cbn. assert (x ∉ S) by (by rewrite <- He). split.
      * rewrite <- (bool_decide_true (x ∉ S)) by done. constructor.
      * split.
        -- apply sort_sorted. apply NoDup_app. split; [done|]. split; [|apply NoDup_singleton]. set_solver.
        -- intros z. rewrite elem_sort, elem_of_app, He. set_solver.
  - exists (S ∖ {[x]}). unfold RemoveDataNode. destruct l as [|y l'] eqn:El.
    { assert (S = ∅) as -> by (apply set_eq; intros z; rewrite <- He; set_solver). cbn. split.
      - rewrite <- (bool_decide_true (x ∈ (∅ : gset (list N)) \/ (∅ : gset (list N)) = ∅)) by set_solver. constructor.
      - split; [done|]. intros z. set_solver. }
    rewrite <- El in *. assert (S <> ∅). { intros ->. assert (y ∈ l) as Hy by (rewrite El; by left). apply He in Hy. set_solver. }
    destruct (decide (x ∈ l)) as [Hin|Hn].
    + rewrite bool_decide_true by (by apply search_iff). cbn. assert (x ∈ S) by (by apply He). split.
      * rewrite <- (bool_decide_true (x ∈ S \/ S = ∅)) by (by left). constructor.
      * split; [by apply sorted_cut|]. intros z. rewrite (elem_cut _ _ x); [|done|by apply search_iff]. rewrite He. set_solver.
    + rewrite bool_decide_false by (by rewrite search_iff). cbn. assert (x ∉ S) by (by rewrite <- He). split.
      * rewrite <- (bool_decide_false (x ∈ S \/ S = ∅)) by tauto. constructor.
      * split; [done|]. intros z. rewrite He. set_solver.
  - exists S. split; [|done]. cbn. unfold HasDataNode.
    replace (match l with [] => false | _ :: _ => _ end) with (bool_decide (x ∈ S)); [constructor|].
    destruct l as [|y l'] eqn:El; [apply bool_decide_false; rewrite <- He; set_solver|]. rewrite <- El in *.
    apply bool_decide_ext. by rewrite search_iff, He.
  - exists S. split; [|done]. cbn. apply (DSIndex S x _ l Ha). unfold Index.
    pose proof (index_loop_spec l x 0 ltac:(lia)) as Hi. destruct (list_find _ l) as [[j y]|] eqn:Ef.
    + left. rewrite Hi. apply list_find_Some in Ef as (Hj&->&_). rewrite Z.add_0_l, Nat2Z.id, Hj. split; [lia|done].
    + right. split; [done|]. rewrite <- He. intros Hin. apply list_find_None in Ef. rewrite Forall_forall in Ef. by eapply Ef.
  - exists S. split; [|done]. by constructor.
  - exists S. cbn. rewrite sort_id by done. split; [constructor|done].
Qed.

(** Data nodes: from the empty list or any list in ascending order, every history of calls
    answers as the set of data nodes would. *)
Theorem C74_data_nodes : forall S l os, ascending S l ->
  exists S', dnspec_run S os S' (dn_run l os).2 /\ ascending S' (dn_run l os).1.
Proof.
  intros S l os. revert S l. induction os as [|o os IH]; intros S l Ha.
  { exists S. split; [constructor|done]. }
  destruct (dn_step_ok S l o Ha) as (S1&H1&Ha1). cbn [dn_run]. destruct (dn_step l o) as [l1 x].
  destruct (IH S1 l1 Ha1) as (S2&H2&Ha2). destruct (dn_run l1 os) as [l2 xs]. exists S2. split; [by econstructor|done].
Qed.
Print Assumptions C74_data_nodes.
Theorem C74_data_nodes_fresh : forall os, exists S, dnspec_run ∅ os S (dn_run [] os).2 /\ ascending S (dn_run [] os).1.
Proof. intros os. apply C74_data_nodes. split; [constructor|set_solver]. Qed.
Print Assumptions C74_data_nodes_fresh.
(** Any list without duplicates is put in order by Sort. *)
Theorem C74_sort : forall l, NoDup l -> ascending (list_to_set l) (dn_step l DNSort).1.
Proof. intros l Hd. split; [by apply sort_sorted|]. intros x. cbn. by rewrite elem_sort, elem_of_list_to_set. Qed.
Print Assumptions C74_sort.

Example C74_data_nodes_ex :
  dn_run [] [DNAdd [5; 1]; DNAdd [3; 9]; DNAdd [5; 1]; DNHas [3; 9]; DNIndex [5; 1]; DNRemove [7; 7]; DNRemove [3; 9]; DNList]
  = ([[5; 1]], [DNBool true; DNBool true; DNBool false; DNBool true; DNPos 1; DNBool false; DNBool true; DNIds [[5; 1]]]).
Proof. vm_compute. reflexivity. Qed.

(** Without the order, as after decoding a description that lists the nodes otherwise, a
    member is not found, is added a second time and cannot be removed. *)
Definition id64 (x : N) : list N := replicate 64 x.
Theorem C74_unsorted_refuted :
  exists l x, NoDup l /\ Forall (fun i => length i = 64%nat /\ is_bytes i) l /\ x ∈ l /\
    HasDataNode l x = false /\ (RemoveDataNode l x).2 = false /\ (AddDataNode l x).2 = true /\ ~ NoDup (AddDataNode l x).1.
Proof.
  exists [id64 3; id64 2; id64 1], (id64 3).
  split; [apply (bool_decide_eq_true_1 _); vm_compute; reflexivity|].
  split; [repeat constructor; try lia|].
  split; [left|]. split; [vm_compute; reflexivity|]. split; [vm_compute; reflexivity|]. split; [vm_compute; reflexivity|].
  apply (bool_decide_eq_false_1 _). vm_compute. reflexivity.
Qed.
Print Assumptions C74_unsorted_refuted.

(* ------------------------------------------------------------- boot nodes *)
Lemma nib_char_lt a b : a < 16 -> b < 16 -> nib_char a < nib_char b <-> a < b.
Proof. unfold nib_char. intros. destruct (N.ltb_spec a 10), (N.ltb_spec b 10); lia. Qed.
Lemma hex_encode_lt a : forall b, is_bytes a -> is_bytes b -> bytes_lt (hex_encode a) (hex_encode b) <-> bytes_lt a b.
Proof.
  induction a as [|x a IH]; intros [|y b] Ha Hb; cbn [hex_encode bytes_lt]; [done|done|done|].
  apply Forall_cons in Ha as [Hx Ha]. apply Forall_cons in Hb as [Hy Hb].
  assert (x < 256 /\ y < 256) as [Hx' Hy'] by (split; [exact Hx|exact Hy]).
  pose proof (N.div_mod x 16 ltac:(lia)). pose proof (N.div_mod y 16 ltac:(lia)).
  pose proof (N.mod_lt x 16 ltac:(lia)). pose proof (N.mod_lt y 16 ltac:(lia)).
  assert (x / 16 < 16) by (apply N.div_lt_upper_bound; lia). assert (y / 16 < 16) by (apply N.div_lt_upper_bound; lia).
  rewrite !nib_char_lt, IH by done.
  set (qx := x / 16) in *. set (qy := y / 16) in *. set (rx := x mod 16) in *. set (ry := y mod 16) in *. clearbody qx qy rx ry.
  split.
  - intros [?|[E%nib_char_inj [?|[E'%nib_char_inj ?]]]]; try done; [left; lia|left; lia|]. right. split; [lia|done].
  - intros [?|[E ?]].
    + destruct (N.lt_trichotomy qx qy) as [?|[->|?]]; [by left|right; split; [done|left; lia]|lia].
    + right. assert (qx = qy) as -> by lia. split; [done|]. right. split; [f_equal; lia|done].
Qed.
Lemma hex_roundtrip b : is_bytes b -> hex_decode (hex_encode b) = (b, None).
Proof.
  induction b as [|x b IH]; intros Hb; cbn [hex_encode hex_decode]; [done|].
  apply Forall_cons in Hb as [Hx Hb]. assert (x < 256) by exact Hx.
  assert (Hn : forall d, d < 16 -> decodeNibble (nib_char d) = Some d).
  { intros d Hd. apply decodeNibble_spec. split; [done|by apply lower_nib]. }
  rewrite !Hn, (IH Hb); [|apply N.mod_lt; lia|apply N.div_lt_upper_bound; lia].
  do 2 f_equal. pose proof (N.div_mod x 16 ltac:(lia)). lia.
Qed.

(** the list holds the servers of the map, by ascending name *)
Definition brel (m : gmap (list N) server) (l : list server) : Prop :=
  exists ids, ascending (dom m) ids /\ Forall is_bytes ids /\
    Forall2 (fun id s => m !! id = Some s /\ sv_id s = hex_encode id) ids l.
Lemma brel_names (ids : list (list N)) (l : list server) (m : gmap (list N) server) : Forall2 (fun id s => m !! id = Some s /\ sv_id s = hex_encode id) ids l -> map sv_id l = map hex_encode ids.
Proof. induction 1 as [|id s ids l [_ E] _ IH]; cbn; [done|]. by rewrite E, IH. Qed.
Lemma brel_decoded (ids : list (list N)) (l : list server) (m : gmap (list N) server) : Forall is_bytes ids ->
  Forall2 (fun id s => m !! id = Some s /\ sv_id s = hex_encode id) ids l -> map decoded l = ids.
Proof.
  intros Hb. induction 1 as [|id s ids l [_ E] _ IH]; cbn; [done|]. apply Forall_cons in Hb as [Hi Hb].
  unfold decoded at 1. rewrite E, hex_roundtrip by done. cbn. by rewrite IH.
Qed.
Lemma sorted_enc ids : Forall is_bytes ids -> StronglySorted bytes_lt ids -> StronglySorted bytes_lt (map hex_encode ids).
Proof.
  intros Hb Hs. induction Hs as [|x l Hs IH Hx]; cbn; constructor; apply Forall_cons in Hb as [Hi Hb]; [by apply IH|].
  apply Forall_fmap. rewrite Forall_forall in Hx, Hb |- *. intros y Hy. cbn. apply hex_encode_lt; auto.
Qed.
Lemma sorted_dec ids : Forall is_bytes ids -> StronglySorted bytes_lt (map hex_encode ids) -> StronglySorted bytes_lt ids.
Proof.
  intros Hb. induction ids as [|x l IH]; cbn; intros Hs; constructor; apply Forall_cons in Hb as [Hi Hb]; inversion Hs as [|? ? Hs' Hx]; subst; [by apply IH|].
  rewrite Forall_fmap in Hx. rewrite Forall_forall in Hx, Hb |- *. intros y Hy. apply hex_encode_lt; auto. by apply Hx.
Qed.
Lemma enc_inj a b : is_bytes a -> is_bytes b -> hex_encode a = hex_encode b -> a = b.
Proof. intros Ha Hb E. apply hex_roundtrip in Ha, Hb. rewrite E in Ha. congruence. Qed.
Lemma elem_enc ids id : Forall is_bytes ids -> is_bytes id -> hex_encode id ∈ map hex_encode ids <-> id ∈ ids.
Proof.
  intros Hb Hi. rewrite elem_of_list_fmap. split; [|intros ?; by exists id]. intros (y&E&Hy). rewrite Forall_forall in Hb.
  by rewrite (enc_inj id y) by auto.
Qed.
Lemma brel_nil m : brel m [] -> m = ∅.
Proof.
  intros (ids&[Hs He]&Hb&Hf). apply Forall2_nil_inv_r in Hf as ->. apply dom_empty_iff_L, set_eq. intros x. rewrite <- He. set_solver.
Qed.

Lemma bn_step_ok srt m l o : slice_sort srt -> brel m l -> named o ->
  exists m', bnspec m o m' (bn_step srt l o).2 /\ brel m' (bn_step srt l o).1.
Proof.
  intros Hsrt Hr Ho. pose proof Hr as (ids&[Hs He]&Hb&Hf). assert (Hd := sorted_lt_nodup _ Hs).
  destruct o as [s|x|]; cbn [bn_step named] in *.
  - destruct Ho as (id&Hid&En). exists (match m !! id with Some _ => m | None => <[id := s]> m end). unfold AddBootNode.
    destruct l as [|y l'] eqn:El.
    { apply brel_nil in Hr as ->. cbn. split.
      - rewrite <- (bool_decide_true ((∅ : gmap (list N) server) !! id = None)) by done. by constructor.
      - rewrite lookup_empty. exists [id]. split; [|split; [by constructor|]].
        + split; [repeat constructor|]. intros z. rewrite dom_insert. set_solver.
        + repeat constructor; [apply lookup_insert|done]. }
    rewrite <- El in *. pose proof (brel_names _ _ _ Hf) as Hn. rewrite Hn.
    assert (Hdec : (map hex_encode ids !! search_strings (map hex_encode ids) (sv_id s) = Some (sv_id s)) <-> is_Some (m !! id)).
    { rewrite search_iff by (by apply sorted_enc). rewrite En, elem_enc, He, elem_of_dom by done. done. }
    destruct (m !! id) as [s0|] eqn:Em.
    + rewrite bool_decide_true by (apply Hdec; eauto). cbn. split; [|done].
      rewrite <- (bool_decide_false (m !! id = None)) by congruence. 
      pose proof (BSAdd m id s Hid En) as HB. rewrite Em in HB. rewrite Em. exact HB.
    + rewrite bool_decide_false by (rewrite Hdec; by intros [? ?]). cbn. split.
      { pose proof (BSAdd m id s Hid En) as HB. rewrite Em in HB. exact HB. }
      destruct (Hsrt (l ++ [s])) as [Hp Hso]. set (l2 := srt (l ++ [s])) in *. clearbody l2.
      (* the ids of the sorted list *)
      assert (Hf' : Forall2 (fun id0 s0 => <[id := s]> m !! id0 = Some s0 /\ sv_id s0 = hex_encode id0) (ids ++ [id]) (l ++ [s])).
      { apply Forall2_app.
        - eapply Forall2_impl; [exact Hf|]. intros i t [Hi Ht]. split; [|done]. rewrite lookup_insert_ne; [done|congruence].
        - repeat constructor; [apply lookup_insert|done]. }
      assert (Hall : forall t, t ∈ l2 -> exists i, is_bytes i /\ <[id := s]> m !! i = Some t /\ sv_id t = hex_encode i).
      { intros t Ht. rewrite Hp in Ht. apply elem_of_list_lookup in Ht as [q Hq].
        destruct (Forall2_lookup_r _ _ _ _ _ Hf' Hq) as (i&Hi&Hi2&Hi3). exists i. split; [|done].
        apply elem_of_list_lookup_2 in Hi. apply elem_of_app in Hi as [Hi|Hi%elem_of_list_singleton]; [|by subst].
        rewrite Forall_forall in Hb. by apply Hb. }
      exists (map decoded l2).
      assert (Hb2 : Forall is_bytes (map decoded l2)).
      { apply Forall_fmap, Forall_forall. intros t Ht. destruct (Hall t Ht) as (i&Hi&_&E). cbn. unfold decoded. by rewrite E, hex_roundtrip. }
      assert (Hf2 : Forall2 (fun id0 s0 => <[id := s]> m !! id0 = Some s0 /\ sv_id s0 = hex_encode id0) (map decoded l2) l2).
      { apply Forall2_fmap_l. apply Forall_Forall2_diag. apply Forall_forall. intros t Ht. destruct (Hall t Ht) as (i&Hi&E1&E2).
        cbn. unfold decoded. rewrite E2, hex_roundtrip by done. cbn. by rewrite E1. }
      assert (Hperm : map decoded l2 ≡ₚ ids ++ [id]).
      { rewrite Hp, map_app. rewrite (brel_decoded ids l m Hb Hf). cbn. unfold decoded. by rewrite En, hex_roundtrip. }
      split; [|by split].
      assert (Hnd : NoDup (ids ++ [id])).
      { apply NoDup_app. split; [done|]. split; [|apply NoDup_singleton]. intros i Hi ->%elem_of_list_singleton.
        apply He, elem_of_dom in Hi as [? ?]. congruence. }
      split.
      * apply sorted_dec; [done|]. rewrite <- (brel_names _ _ _ Hf2). apply sorted_lt; [done|].
        rewrite (brel_names _ _ _ Hf2). apply NoDup_fmap_2_strong.
        -- intros a b Ha Hb' E. rewrite Forall_forall in Hb2. eapply enc_inj; eauto.
        -- by rewrite Hperm.
      * intros i. rewrite Hperm, elem_of_app, He, elem_of_list_singleton, dom_insert_L. set_solver.
  - exists (delete x m). unfold RemoveBootNode. destruct l as [|y l'] eqn:El.
    { apply brel_nil in Hr as ->. cbn. split.
      - rewrite <- (bool_decide_true (is_Some ((∅ : gmap (list N) server) !! x) \/ (∅ : gmap (list N) server) = ∅)) by (by right). constructor.
      - exists []. rewrite delete_empty. split; [|by split]. split; [constructor|]. set_solver. }
    rewrite <- El in *. rewrite (brel_decoded ids l m Hb Hf).
    assert (m <> ∅).
    { intros ->. rewrite El in Hf. destruct ids as [|i ids']; [by inversion Hf|]. inversion Hf as [|? ? ? ? [Hi _] _]; subst. by rewrite lookup_empty in Hi. }
    destruct (decide (x ∈ ids)) as [Hin|Hn].
    + rewrite bool_decide_true by (by apply search_iff). cbn. apply He in Hin as Hm. apply elem_of_dom in Hm. split.
      { rewrite <- (bool_decide_true (is_Some (m !! x) \/ m = ∅)) by (by left). constructor. }
      set (i := search_strings ids x). assert (Hi : ids !! i = Some x) by (by apply search_found).
      exists (cut i ids). split; [|split].
      * split; [by apply sorted_cut|]. intros z. rewrite (elem_cut _ _ x) by done. rewrite He, dom_delete_L. set_solver.
      * apply Forall_app. split; [by apply Forall_take|by apply Forall_drop].
      * assert (Hc : forall z, z ∈ cut i ids -> z <> x). { intros z Hz. by apply (elem_cut _ _ x) in Hz as [? ?]. }
        assert (Hf2 : Forall2 (fun id0 s0 => m !! id0 = Some s0 /\ sv_id s0 = hex_encode id0) (cut i ids) (cut i l)).
        { unfold cut. apply Forall2_app; [by apply Forall2_take|by apply Forall2_drop]. }
        apply Forall2_same_length_lookup_2; [by eapply Forall2_length|].
        intros q a b Ha Hb'. destruct (Forall2_lookup_lr _ _ _ _ _ _ Hf2 Ha Hb') as [H1 H2]. split; [|done].
        rewrite lookup_delete_ne; [done|]. apply not_eq_sym, Hc. by eapply elem_of_list_lookup_2.
    + rewrite bool_decide_false by (by rewrite search_iff). cbn.
      assert (m !! x = None) as Hx. { apply not_elem_of_dom. by rewrite <- He. } split.
      { rewrite <- (bool_decide_false (is_Some (m !! x) \/ m = ∅)); [constructor|]. rewrite Hx. intros [[? ?]|?]; done. }
      by rewrite delete_notin.
  - exists m. cbn. split; [|done]. apply (BSList m l ids); [done|]. eapply Forall2_impl; [exact Hf|]. by intros ? ? [? _].
Qed.

(** Boot nodes named by lower-case hex strings: every history of calls answers as a map from
    node ids to servers would, first entry wins; the list is in ascending order of the ids. *)
Theorem C75_boot_nodes : forall srt os, slice_sort srt -> Forall named os ->
  exists m, bnspec_run ∅ os m (bn_run srt [] os).2 /\ bnspec m BNList m (BNServers (bn_run srt [] os).1).
Proof.
  intros srt os Hsrt. assert (Hg : forall m l, brel m l -> Forall named os ->
    exists m', bnspec_run m os m' (bn_run srt l os).2 /\ brel m' (bn_run srt l os).1).
  { induction os as [|o os IH]; intros m l Hr Hn; [exists m; split; [constructor|done]|].
    apply Forall_cons in Hn as [Ho Hn]. destruct (bn_step_ok srt m l o Hsrt Hr Ho) as (m1&H1&Hr1). cbn [bn_run].
    destruct (bn_step srt l o) as [l1 x]. destruct (IH m1 l1 Hr1 Hn) as (m2&H2&Hr2). destruct (bn_run srt l1 os) as [l2 xs].
    exists m2. split; [by econstructor|done]. }
  intros Hn. destruct (Hg ∅ []) as (m&H1&ids&Ha&Hb&Hf); [|done|].
  { exists []. split; [|by split]. split; [constructor|set_solver]. }
  exists m. split; [done|]. apply (BSList m _ ids); [done|]. eapply Forall2_impl; [exact Hf|]. by intros ? ? [? _].
Qed.
Print Assumptions C75_boot_nodes.

(** A sorter as promised: insertion sort by name. *)
Fixpoint name_ins (s : server) (l : list server) : list server :=
  match l with [] => [s] | t :: r => if str_leb (sv_id s) (sv_id t) then s :: l else t :: name_ins s r end.
Definition name_sort (l : list server) : list server := foldr name_ins [] l.
Lemma name_ins_perm s l : name_ins s l ≡ₚ s :: l.
Proof. induction l as [|t l IH]; cbn; [done|]. destruct (str_leb _ _); [done|]. rewrite IH. constructor. Qed.
Theorem C75_sorter_exists : slice_sort name_sort.
Proof.
  intros l. induction l as [|s l [IHp IHs]]; [split; [done|constructor]|]. cbn. split.
  - rewrite name_ins_perm. by constructor.
  - fold (name_sort l). generalize dependent (name_sort l). intros l' _. induction l' as [|t l' IH]; cbn; intros Hs; [repeat constructor|].
    destruct (str_leb (sv_id s) (sv_id t)) eqn:E; cbn.
    + constructor; [done|]. constructor; [by apply str_leb_spec|]. inversion Hs as [|? ? ? Ht]; subst. eapply Forall_impl; [exact Ht|].
      intros z Hz. etrans; [by apply str_leb_spec|done].
    + inversion Hs as [|? ? Hs' Ht]; subst. constructor; [by apply IH|].
      assert (Hst : bytes_le (sv_id t) (sv_id s)). { destruct (bytes_le_total (sv_id t) (sv_id s)) as [|H]; [done|]. apply str_leb_spec in H. congruence. }
      apply Forall_fmap, Forall_forall. intros z Hz. rewrite name_ins_perm in Hz. apply elem_of_cons in Hz as [->|Hz]; [done|].
      rewrite Forall_fmap, Forall_forall in Ht. by apply Ht.
Qed.
Print Assumptions C75_sorter_exists.
Definition sv (name : list N) : server := Server 1 name [49] 1 2 3 4 5 6.
Example C75_boot_nodes_ex :
  bn_run name_sort [] [BNAdd (sv (hex_encode [200; 7])); BNAdd (sv (hex_encode [10; 7])); BNAdd (sv (hex_encode [200; 7])); BNRemove [3; 3]; BNRemove [10; 7]; BNList]
  = ([sv (hex_encode [200; 7])], [BNBool true; BNBool true; BNBool false; BNBool false; BNBool true; BNServers [sv (hex_encode [200; 7])]]) /\
  Forall named [BNAdd (sv (hex_encode [200; 7])); BNRemove [3; 3]].
Proof. split; [vm_compute; reflexivity|]. repeat constructor; try lia. exists [200; 7]. split; [repeat constructor; lia|done]. Qed.

(** With upper-case letters in a name, one node is listed twice; and a node that is listed
    cannot be removed. *)
Definition up (s : list N) : list N := map (fun c => if 97 <=? c then c - 32 else c) s.
Theorem C75_case_refuted : forall srt, slice_sort srt ->
  exists s1 s2 s3, decoded s1 = id64 187 /\ decoded s2 = id64 187 /\ decoded s3 = id64 204 /\
    (bn_run srt [] [BNAdd s1; BNAdd s2]).2 = [BNBool true; BNBool true] /\
    (bn_run srt [] [BNAdd s1; BNAdd s3; BNRemove (id64 204)]).2 = [BNBool true; BNBool true; BNBool false].
Proof.
  intros srt Hsrt.
  set (a := sv (hex_encode (id64 187))). set (b := sv (up (hex_encode (id64 187)))). set (c := sv (up (hex_encode (id64 204)))).
  exists a, b, c. split; [vm_compute; reflexivity|]. split; [vm_compute; reflexivity|]. split; [vm_compute; reflexivity|].
  split.
  - cbn [bn_run bn_step AddBootNode]. rewrite bool_decide_false by (apply (bool_decide_eq_false_1 _); vm_compute; reflexivity). done.
  - cbn [bn_run bn_step AddBootNode]. rewrite bool_decide_false by (apply (bool_decide_eq_false_1 _); vm_compute; reflexivity).
    assert (srt ([a] ++ [c]) = [c; a]) as ->.
    { destruct (Hsrt ([a] ++ [c])) as [Hp Hs]. set (l := srt _) in *. clearbody l.
      assert (l = [a; c] \/ l = [c; a]) as [->|?]; [|exfalso|done].
      { apply Permutation_length_2_inv. by rewrite Hp. }
      cbn [map] in Hs. inversion Hs as [|? ? _ Hx]; subst. apply Forall_cons in Hx as [Hx _]. apply str_leb_spec in Hx. by vm_compute in Hx. }
    vm_compute. reflexivity.
Qed.
Print Assumptions C75_case_refuted.

(* ----------------------------------------------------- order and hash of servers *)
Lemma str_compare_spec a b :
  (str_compare a b = 0%Z <-> a = b) /\ (str_compare a b = (-1)%Z <-> bytes_lt a b) /\ (str_compare a b = 1%Z <-> bytes_lt b a).
Proof.
  unfold str_compare. destruct (decide (a = b)) as [->|Hn].
  { rewrite bool_decide_true by done. split_and!; split; intros H; try done; exfalso; by eapply bytes_lt_irrefl. }
  rewrite bool_decide_false by done. destruct (str_leb a b) eqn:E.
  - apply str_leb_spec in E as [->|E]; [done|]. split_and!; split; intros H; try done. exfalso. by eapply bytes_lt_irrefl, bytes_lt_trans.
  - destruct (bytes_lt_tri a b) as [H1|[H1|H1]]; [|done|].
    + assert (str_leb a b = true) by (apply str_leb_spec; by right). congruence.
    + split_and!; split; intros H; try done. exfalso. by eapply bytes_lt_irrefl, bytes_lt_trans.
Qed.
(** Servers are ordered by chain, then by name. *)
Definition server_lt (a b : server) : Prop := sv_chain a < sv_chain b \/ sv_chain a = sv_chain b /\ bytes_lt (sv_id a) (sv_id b).
Theorem C75_compare : forall a b,
  (Compare a b = 0%Z <-> sv_chain a = sv_chain b /\ sv_id a = sv_id b) /\
  (Compare a b = (-1)%Z <-> server_lt a b) /\ (Compare a b = 1%Z <-> server_lt b a) /\
  Compare b a = (- Compare a b)%Z /\
  (forall c, Compare a b = (-1)%Z -> Compare b c = (-1)%Z -> Compare a c = (-1)%Z).
Proof.
  assert (H3 : forall a b, (Compare a b = 0%Z <-> sv_chain a = sv_chain b /\ sv_id a = sv_id b) /\
    (Compare a b = (-1)%Z <-> server_lt a b) /\ (Compare a b = 1%Z <-> server_lt b a)).
  { intros a b. unfold Compare, server_lt. destruct (decide (a = b)) as [->|Hn].
    - rewrite bool_decide_true by done. assert (~ bytes_lt (sv_id b) (sv_id b)) by (intros H; by eapply bytes_lt_irrefl).
      split_and!; split; intros H'; try done; exfalso; destruct H' as [?|[_ ?]]; (lia || done).
    - rewrite bool_decide_false by done. destruct (str_compare_spec (sv_id a) (sv_id b)) as (E0&E1&E2).
      destruct (N.eqb_spec (sv_chain a) (sv_chain b)) as [E|E].
      + rewrite E0, E1, E2. split_and!; split; intros H'; intuition (lia || auto).
      + destruct (N.ltb_spec (sv_chain a) (sv_chain b)); split_and!; split; intros H'; intuition (lia || auto). }
  assert (Hr : forall a b, Compare a b = 0%Z \/ Compare a b = (-1)%Z \/ Compare a b = 1%Z).
  { intros a b. unfold Compare, str_compare. repeat case_match; tauto. }
  intros a b. destruct (H3 a b) as (A0&A1&A2). split; [exact A0|]. split; [exact A1|]. split; [exact A2|]. split.
  - destruct (H3 b a) as (B0&B1&B2). destruct (Hr a b) as [E|[E|E]]; rewrite E.
    + apply B0. apply A0 in E as [-> ->]. done.
    + by apply B2, A1.
    + by apply B1, A2.
  - intros c Hab Hbc. apply A1 in Hab. apply (H3 b c) in Hbc. apply H3. unfold server_lt in *.
    destruct Hab as [?|[E1 L1]], Hbc as [?|[E2 L2]]; [left; lia|left; lia|left; lia|right]. split; [congruence|by eapply bytes_lt_trans].
Qed.
Print Assumptions C75_compare.

(** Any one field of a boot node shows in what is hashed: if all the others stay, a change of
    it changes the string. *)
Theorem C75_hash_fields : forall c i p b c0 c1 d0 d1 r,
  let h := hashSerialize (Server c i p b c0 c1 d0 d1 r) in
  (forall x, hashSerialize (Server x i p b c0 c1 d0 d1 r) = h -> x = c) /\
  (forall x, hashSerialize (Server c x p b c0 c1 d0 d1 r) = h -> x = i) /\
  (forall x, hashSerialize (Server c i x b c0 c1 d0 d1 r) = h -> x = p) /\
  (forall x, hashSerialize (Server c i p x c0 c1 d0 d1 r) = h -> x = b) /\
  (forall x, hashSerialize (Server c i p b x c1 d0 d1 r) = h -> x = c0) /\
  (forall x, hashSerialize (Server c i p b c0 x d0 d1 r) = h -> x = c1) /\
  (forall x, hashSerialize (Server c i p b c0 c1 x d1 r) = h -> x = d0) /\
  (forall x, hashSerialize (Server c i p b c0 c1 d0 x r) = h -> x = d1) /\
  (forall x, hashSerialize (Server c i p b c0 c1 d0 d1 x) = h -> x = r).
Proof.
  intros c i p b c0 c1 d0 d1 r h. assert (forall x y, itoa x = itoa y -> x = y) as Hi.
  { intros x y E. unfold itoa in E. apply AbiSelProps.digits_inj in E. by apply DecimalN.Unsigned.to_uint_inj. }
  unfold h, hashSerialize. cbn [sv_chain sv_id sv_ip sv_basic sv_con0 sv_con1 sv_data0 sv_data1 sv_rpc].
  repeat (match goal with |- _ /\ _ => split end); intros x E;
    repeat (apply (inj (app _)) in E); try (by apply Hi); repeat (apply (inj (.++ _)) in E); try done; by apply Hi.
Qed.
Print Assumptions C75_hash_fields.

(** Different servers with the same hash, whatever the hash is: ports 1 and 23 read as 12
    and 3. The comment above hashSerialize says so. *)
Theorem C75_hash_refuted : exists a b, a <> b /\ sv_chain a = sv_chain b /\ sv_id a = sv_id b /\
  forall H : list N -> list N, H (hashSerialize a) = H (hashSerialize b).
Proof.
  exists (Server 1 (hex_encode (id64 7)) [49] 1 23 3 4 5 6), (Server 1 (hex_encode (id64 7)) [49] 12 3 3 4 5 6).
  split; [done|]. split; [done|]. split; [done|]. intros H. f_equal.
Qed.
Print Assumptions C75_hash_refuted.

(** What Sort promises for boot nodes: the same servers, none before a smaller one. *)
Definition boot_sort (srt : list server -> list server) : Prop :=
  forall l, srt l ≡ₚ l /\ StronglySorted (fun a b => ~ server_lt b a) (srt l).
(** After Sort, servers of different chains are not in order of their names: a member is
    added again and cannot be removed. *)
Theorem C75_after_sort_refuted : forall bsrt, boot_sort bsrt ->
  exists a b, sv_id a = hex_encode (id64 2) /\ sv_id b = hex_encode (id64 1) /\
    forall srt, (AddBootNode srt (bsrt [b; a]) b).2 = true /\ (RemoveBootNode (bsrt [b; a]) (id64 1)).2 = false.
Proof.
  intros bsrt Hb. set (a := Server 1 (hex_encode (id64 2)) [49] 1 2 3 4 5 6). set (b := Server 2 (hex_encode (id64 1)) [49] 1 2 3 4 5 6).
  exists a, b. split; [done|]. split; [done|]. intros srt.
  assert (bsrt [b; a] = [a; b]) as ->.
  { destruct (Hb [b; a]) as [Hp Hs]. set (l := bsrt _) in *. clearbody l.
    assert (l = [b; a] \/ l = [a; b]) as [->|?]; [|exfalso|done].
    { apply Permutation_length_2_inv. by rewrite Hp. }
    inversion Hs as [|? ? _ Hx]; subst. apply Forall_cons in Hx as [Hx _]. apply Hx. left. vm_compute. done. }
  split.
  - unfold AddBootNode. rewrite bool_decide_false by (apply (bool_decide_eq_false_1 _); vm_compute; reflexivity). done.
  - vm_compute. reflexivity.
Qed.
Print Assumptions C75_after_sort_refuted.
(** All servers of one chain, with different names: Sort leaves a list AddBootNode and
    RemoveBootNode work on. *)
Theorem C75_after_sort : forall bsrt l m, boot_sort bsrt ->
  (forall a b, a ∈ l -> b ∈ l -> sv_chain a = sv_chain b) -> NoDup (map sv_id l) ->
  (forall s, s ∈ l -> exists id, is_bytes id /\ sv_id s = hex_encode id /\ m !! id = Some s) ->
  (forall id s, m !! id = Some s -> s ∈ l /\ is_bytes id /\ sv_id s = hex_encode id) ->
  forall srt os, slice_sort srt -> Forall named os ->
  exists m', bnspec_run m os m' (bn_run srt (bsrt l) os).2.
Proof.
  intros bsrt l m Hb Hch Hnd Hlm Hml srt os Hsrt Hn.
  destruct (Hb l) as [Hp Hs]. set (l2 := bsrt l) in *. clearbody l2.
  assert (Hr : brel m l2).
  { assert (Hl2 : forall s, s ∈ l2 -> exists id, is_bytes id /\ sv_id s = hex_encode id /\ m !! id = Some s) by (intros s Hin; apply Hlm; by rewrite <- Hp).
    assert (Hb2 : Forall is_bytes (map decoded l2)).
    { apply Forall_fmap, Forall_forall. intros t Ht. destruct (Hl2 t Ht) as (i&Hi&E&_). cbn. unfold decoded. by rewrite E, hex_roundtrip. }
    assert (Hf2 : Forall2 (fun id0 s0 => m !! id0 = Some s0 /\ sv_id s0 = hex_encode id0) (map decoded l2) l2).
    { apply Forall2_fmap_l. apply Forall_Forall2_diag. apply Forall_forall. intros t Ht. destruct (Hl2 t Ht) as (i&Hi&E2&E1).
      cbn. unfold decoded. rewrite E2, hex_roundtrip by done. cbn. by rewrite E1. }
    exists (map decoded l2). split; [|by split]. split.
    - apply sorted_dec; [done|]. rewrite <- (brel_names _ _ _ Hf2). apply sorted_lt; [|by rewrite Hp].
      assert (Hc2 : forall a b, a ∈ l2 -> b ∈ l2 -> sv_chain a = sv_chain b) by (intros a b; rewrite !Hp; apply Hch).
      clear -Hs Hc2. induction Hs as [|x l' Hs IH Hx]; cbn; constructor.
      + apply IH. intros a b Ha Hb. apply Hc2; by right.
      + apply Forall_fmap. rewrite Forall_forall in Hx |- *. intros y Hy. cbn.
        destruct (bytes_le_total (sv_id x) (sv_id y)) as [|[->|H]]; [done|by left|]. exfalso. apply (Hx y Hy). right.
        split; [apply Hc2; [by right|by left]|done].
    - intros i. rewrite elem_of_dom, elem_of_list_fmap. split.
      + intros (t&->&Ht). destruct (Hl2 t Ht) as (i&Hi&E2&E1). unfold decoded. rewrite E2, hex_roundtrip by done. eauto.
      + intros [s Hsm]. destruct (Hml _ _ Hsm) as (Hin&Hi&E). exists s. split; [|by rewrite Hp]. unfold decoded. by rewrite E, hex_roundtrip. }
  clear -Hr Hn Hsrt. revert m l2 Hr. induction os as [|o os IH]; intros m l2 Hr; [exists m; constructor|].
  apply Forall_cons in Hn as [Ho Hn]. destruct (bn_step_ok srt m l2 o Hsrt Hr Ho) as (m1&H1&Hr1). cbn [bn_run].
  destruct (bn_step srt l2 o) as [l1 x]. destruct (IH Hn m1 l1 Hr1) as (m2&H2). destruct (bn_run srt l1 os) as [l3 xs].
  exists m2. by econstructor.
Qed.
Print Assumptions C75_after_sort.

(* --------------------------------------------------------------- auditors *)
(** The auditors are the genesis data nodes, the data nodes and the named auditors together,
    once each and in ascending order, whatever the order the map is walked in. *)
Theorem C74_auditors : forall iter genesis datas auditors,
  (forall S : gset (list N), NoDup (iter S) /\ forall x, x ∈ iter S <-> x ∈ S) ->
  ascending (list_to_set (genesis ++ datas ++ auditors)) (GetAuditorIds iter genesis datas auditors).
Proof.
  intros iter g d a Hi. unfold GetAuditorIds. set (add := foldl _).
  assert (Hadd : forall l m, add m l = list_to_set l ∪ m).
  { unfold add. induction l as [|x l IH]; intros m; cbn; [set_solver|]. rewrite IH. set_solver. }
  rewrite !Hadd. set (U := list_to_set a ∪ _). assert (U = list_to_set (g ++ d ++ a)) as -> by (unfold U; set_solver).
  destruct (Hi (list_to_set (g ++ d ++ a))) as [Hn He]. set (V := list_to_set (g ++ d ++ a)) in *.
  destruct (Nat.ltb_spec 1 (length (iter V))) as [Hl|Hl].
  - split; [by apply sort_sorted|]. intros x. rewrite elem_sort. apply He.
  - split; [|done]. destruct (iter V) as [|x [|y l]]; [constructor|repeat constructor|cbn in Hl; lia].
Qed.
Print Assumptions C74_auditors.
Example C74_auditors_ex : GetAuditorIds elements [[9]; [4]] [[4]; [200]] [[9]; [1]] = [[1]; [4]; [9]; [200]] /\
  (forall S : gset (list N), NoDup (elements S) /\ forall x, x ∈ elements S <-> x ∈ S).
Proof. split; [vm_compute; reflexivity|]. intros S. split; [apply NoDup_elements|]. intros x. apply elem_of_elements. Qed.

(* ------------------------------------------------------------- attributes *)
(** Adding attributes: one name that is not an attribute and nothing is added; otherwise the
    list holds the old and the new ones, no new one twice; in ascending order when it was. *)
Theorem C76_attributes : forall l attrs,
  let r := Attrs_Add l attrs in
  r.2 = bool_decide (Forall (fun a => a ∈ validAttrs) attrs) /\
  (r.2 = false -> r.1 = l) /\
  (r.2 = true -> (forall x, x ∈ r.1 <-> x ∈ l \/ x ∈ attrs) /\ (NoDup l -> NoDup r.1) /\
     (StronglySorted bytes_lt l -> StronglySorted bytes_lt r.1)) /\
  (l <> [] -> NoDup l -> attrs <> [] -> r.2 = true -> StronglySorted bytes_lt r.1).
Proof.
  intros l attrs. cbn zeta. unfold Attrs_Add.
  assert (Hv : forallb Attr_IsValid attrs = bool_decide (Forall (fun a => a ∈ validAttrs) attrs)).
  { symmetry. apply eq_bool_prop_intro. rewrite bool_decide_spec, forallb_True. unfold Attr_IsValid. 
    split; intros H; (eapply Forall_impl; [exact H|]); intros ? ?; by rewrite bool_decide_spec in *. }
  rewrite Hv. destruct (decide (Forall (fun a => a ∈ validAttrs) attrs)) as [Hf|Hf];
    [rewrite bool_decide_true by done|rewrite bool_decide_false by done]; cbn.
  2:{ split_and!; done. }
  assert (Hstep : forall l a, l <> [] -> NoDup l -> NoDup (if Attrs_Contains l a then l else l ++ [a])).
  { intros l0 a _ Hd. unfold Attrs_Contains. destruct (decide (a ∈ l0)); [by rewrite bool_decide_true|rewrite bool_decide_false by done].
    apply NoDup_app. split; [done|]. split; [|apply NoDup_singleton]. set_solver. }
  assert (Hel : forall l, (forall x, x ∈ attrs_loop l attrs <-> x ∈ l \/ x ∈ attrs) /\ (NoDup l -> NoDup (attrs_loop l attrs)) /\
    (StronglySorted bytes_lt l -> StronglySorted bytes_lt (attrs_loop l attrs))).
  { clear -Hstep. induction attrs as [|a attrs IH]; intros l; cbn [attrs_loop]; [split_and!; set_solver|].
    destruct l as [|y l'] eqn:El.
    { destruct (IH [a]) as (I1&I2&I3). split_and!; [intros x; rewrite I1; set_solver|intros _; apply I2, NoDup_singleton|intros _; apply I3; repeat constructor]. }
    rewrite <- El in *. assert (l <> []) by (by rewrite El). destruct (IH (sort_strings (if Attrs_Contains l a then l else l ++ [a]))) as (I1&I2&I3). split_and!.
    - intros x. rewrite I1, elem_sort. unfold Attrs_Contains. destruct (decide (a ∈ l)); [rewrite bool_decide_true by done|rewrite bool_decide_false by done]; set_solver.
    - intros Hd. apply I2. unfold sort_strings. rewrite merge_sort_Permutation. by apply Hstep.
    - intros Hs%sorted_lt_nodup. apply I3, sort_sorted. by apply Hstep. }
  split; [done|]. split; [done|]. split; [intros _; apply Hel|].
  intros Hl Hd Ha _. destruct attrs as [|a attrs]; [done|]. cbn [attrs_loop]. destruct l as [|y l'] eqn:El; [done|]. rewrite <- El in *.
  assert (Hs := sort_sorted _ (Hstep l a Hl Hd)). clear -Hs Hstep. revert Hs. generalize (sort_strings (if Attrs_Contains l a then l else l ++ [a])).
  induction attrs as [|b attrs IH]; intros l0 Hs; cbn [attrs_loop]; [done|]. destruct l0 as [|z l1] eqn:E0; [apply IH; repeat constructor|].
  rewrite <- E0 in *. apply IH, sort_sorted, Hstep; [by rewrite E0|by apply sorted_lt_nodup].
Qed.
Print Assumptions C76_attributes.
Example C76_attributes_ex :
  Attrs_Add [] [[82; 69; 87; 65; 82; 68]; [80; 79; 67]; [82; 69; 87; 65; 82; 68]] = ([[80; 79; 67]; [82; 69; 87; 65; 82; 68]], true) /\
  Attrs_Add [[80; 79; 67]] [[78; 79; 71; 65; 83]; [80]] = ([[80; 79; 67]], false).
Proof. split; vm_compute; reflexivity. Qed.

(** A sorter as Sort needs exists. *)
Global Instance server_le_dec a b : Decision (~ server_lt b a).
Proof. unfold server_lt. refine (decide (~ (sv_chain b < sv_chain a \/ sv_chain b = sv_chain a /\ bytes_lt (sv_id b) (sv_id a)))). Defined.
Theorem C75_boot_sorter_exists : boot_sort (merge_sort (fun a b => ~ server_lt b a)).
Proof.
  intros l. split; [apply merge_sort_Permutation|].
  assert (Htri : forall a b, server_lt a b \/ (sv_chain a = sv_chain b /\ sv_id a = sv_id b) \/ server_lt b a).
  { intros a b. unfold server_lt. destruct (N.lt_trichotomy (sv_chain a) (sv_chain b)) as [?|[E|?]], (bytes_lt_tri (sv_id a) (sv_id b)) as [?|[?|?]]; auto 6. }
  assert (Htr : forall a b c, server_lt a b -> server_lt b c -> server_lt a c).
  { intros a b c Hab Hbc. unfold server_lt in *.
    destruct Hab as [?|[E1 L1]], Hbc as [?|[E2 L2]]; [left; lia|left; lia|left; lia|right]. split; [congruence|by eapply bytes_lt_trans]. }
  assert (Hirr : forall a, ~ server_lt a a). { intros a [?|[_ ?]]; [lia|by eapply bytes_lt_irrefl]. }
  assert (Total (fun a b => ~ server_lt b a)).
  { intros a b. destruct (Htri a b) as [H|[[E1 E2]|H]]; [left|left|right]; intros H'.
    + by eapply Hirr, Htr.
    + destruct H' as [?|[_ H']]; [lia|]. rewrite E2 in H'. by eapply bytes_lt_irrefl.
    + by eapply Hirr, Htr. }
  assert (Transitive (fun a b => ~ server_lt b a)).
  { intros a b c Hab Hbc Hca. destruct (Htri a b) as [H'|[[E1 E2]|H']]; [| |done].
    + apply Hbc. by eapply Htr.
    + apply Hbc. unfold server_lt in *. by rewrite E1, E2 in Hca. }
  by apply StronglySorted_merge_sort.
Qed.
Print Assumptions C75_boot_sorter_exists.
Example C75_after_sort_ex :
  let l := [sv (hex_encode [200; 7]); sv (hex_encode [10; 7])] in
  let m : gmap (list N) server := {[ [200; 7] := sv (hex_encode [200; 7]); [10; 7] := sv (hex_encode [10; 7]) ]} in
  (forall a b, a ∈ l -> b ∈ l -> sv_chain a = sv_chain b) /\ NoDup (map sv_id l) /\
  (forall s, s ∈ l -> exists id, is_bytes id /\ sv_id s = hex_encode id /\ m !! id = Some s) /\
  (forall id s, m !! id = Some s -> s ∈ l /\ is_bytes id /\ sv_id s = hex_encode id) /\
  merge_sort (fun a b => ~ server_lt b a) l = [sv (hex_encode [10; 7]); sv (hex_encode [200; 7])].
Proof.
  cbn zeta. split; [|split; [|split; [|split]]].
  - intros a b. rewrite !elem_of_cons, !elem_of_nil. intros [->|[->|[]]] [->|[->|[]]]; done.
  - apply (bool_decide_eq_true_1 _). vm_compute. reflexivity.
  - intros s. rewrite !elem_of_cons, !elem_of_nil. intros [->|[->|[]]].
    + exists [200; 7]. split; [repeat constructor; lia|]. split; [done|]. vm_compute. reflexivity.
    + exists [10; 7]. split; [repeat constructor; lia|]. split; [done|]. vm_compute. reflexivity.
  - intros id s [[<- <-]|[Hn H]]%lookup_insert_Some; [|apply lookup_singleton_Some in H as [<- <-]];
      (split; [rewrite !elem_of_cons; auto|split; [repeat constructor; lia|done]]).
  - vm_compute. reflexivity.
Qed.
