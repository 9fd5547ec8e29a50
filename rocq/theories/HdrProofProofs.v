From Verif Require Import Base MerkleSpec MerkleModel MerkleProofs MerkleTreeProofs MerkleBindProofs TrieSpec TrieModel
  TrieProofModel TrieProofProofs FixedModel HdrProofSpec HdrProofModel.

Lemma buffer_take c h : take 12 (ToHeaderPosHashBuffer c h) = pos_key c h.
Proof.
  unfold ToHeaderPosHashBuffer, pos_key. generalize (be_fixed_length 4 c) (be_fixed_length 8 h). generalize (be_fixed 4 c) (be_fixed 8 h).
  intros p q Hp Hq. do 5 (destruct p as [|? p]; try done). do 9 (destruct q as [|? q]; try done).
Qed.
Lemma buffer_index c h i : HeaderIndexInput (ToHeaderPosHashBuffer c h) i = header_key c h i.
Proof.
  unfold ToHeaderPosHashBuffer, HeaderIndexInput, header_key, pos_key. generalize (be_fixed_length 4 c) (be_fixed_length 8 h). generalize (be_fixed 4 c) (be_fixed 8 h).
  intros p q Hp Hq. do 5 (destruct p as [|? p]; try done). do 9 (destruct q as [|? q]; try done).
Qed.
Lemma pos_key_len c h : length (pos_key c h) = 12%nat.
Proof. unfold pos_key. by rewrite app_length, !be_fixed_length. Qed.
Lemma header_key_len c h i : length (header_key c h i) = 13%nat.
Proof. unfold header_key. by rewrite app_length, pos_key_len. Qed.
Lemma pos_key_inj c h c' h' : c < 2 ^ 32 -> c' < 2 ^ 32 -> h < 2 ^ 64 -> h' < 2 ^ 64 -> pos_key c h = pos_key c' h' -> c = c' /\ h = h'.
Proof.
  intros Hc Hc' Hh Hh' E. unfold pos_key in E. apply app_inj_1 in E as [E1 E2]; [|by rewrite !be_fixed_length].
  apply (f_equal be_num) in E1, E2. rewrite !be_num_fixed in E1, E2.
  change (256 ^ N.of_nat 4) with (2 ^ 32) in E1. change (256 ^ N.of_nat 8) with (2 ^ 64) in E2. by rewrite !N.mod_small in E1, E2 by done.
Qed.
Lemma header_key_inj c h i c' h' i' : c < 2 ^ 32 -> c' < 2 ^ 32 -> h < 2 ^ 64 -> h' < 2 ^ 64 ->
  header_key c h i = header_key c' h' i' -> c = c' /\ h = h' /\ i = i'.
Proof.
  intros Hc Hc' Hh Hh' E. unfold header_key in E. apply app_inj_1 in E as [E1 E2]; [|by rewrite !pos_key_len].
  injection E2 as E2. apply pos_key_inj in E1 as [E1 E3]; done.
Qed.

Lemma property_index_spec p i : HeaderPropertyIndex p = Some i <-> property_index p i.
Proof.
  unfold HeaderPropertyIndex. split.
  - repeat match goal with |- context [N.eqb p ?k] => destruct (N.eqb_spec p k); [subst p; intros [= <-]; constructor|] end.
    destruct (N.leb_spec 0x30 p), (N.ltb_spec p 0xa0); cbn [andb]; try done. intros [= <-].
    replace p with (0x30 + (p - 0x30)) at 1 by lia. constructor. lia.
  - destruct 1 as [| | | | | |i Hi]; try done.
    repeat match goal with |- context [N.eqb ?a ?k] => destruct (N.eqb_spec a k); [lia|] end.
    destruct (N.leb_spec 0x30 (0x30 + i)), (N.ltb_spec (0x30 + i) 0xa0); cbn [andb]; try lia. f_equal. lia.
Qed.
Lemma property_index_byte p i : property_index p i -> i < 256.
Proof. destruct 1; lia. Qed.
Lemma property_index_bool p : IsProofHeaderProperty p = true <-> exists i, property_index p i.
Proof.
  assert (IsProofHeaderProperty p = bool_decide (HeaderPropertyIndex p <> None)) as ->.
  { unfold IsProofHeaderProperty, HeaderPropertyIndex. repeat match goal with |- context [N.eqb p ?k] => destruct (N.eqb_spec p k); [done|] end.
    cbn [orb]. destruct ((0x30 <=? p) && (p <? 0xa0)); done. }
  rewrite bool_decide_eq_true. split.
  - destruct (HeaderPropertyIndex p) as [i|] eqn:E; [|done]. intros _. exists i. by apply property_index_spec.
  - intros (i&Hi). apply property_index_spec in Hi. by rewrite Hi.
Qed.
Lemma property_index_types p i : property_index p i -> IsProofMerkleOnly p = false /\ IsProofChild p = false /\ IsProofValue p = false /\ IsProofHdsSummary p = false.
Proof.
  intros Hp. assert (0x20 <= p < 0xa0) as Hb by (destruct Hp; lia).
  unfold IsProofMerkleOnly, IsProofChild, IsProofValue, IsProofHdsSummary, ProofMerkleOnly, ProofValue, ProofHdsSummary.
  repeat split; try (apply N.eqb_neq; lia). apply N.leb_gt. lia.
Qed.

Section keyed.
Context (H : list N -> list N) (HL : forall x, length (H x) = 32%nat).
Context (l : list (list N * list N)) (Hne : l <> []).
Context (Hk : Forall (fun e => length e.1 <> 0%nat /\ length e.1 <> 64%nat) l) (Hp : Forall (fun e => length e.2 = 32%nat) l).
Let leaves := map (keyed_leaf H) l.
Let D := mdepth (length l).

Lemma leaves_len : Forall (fun x => length x = 32%nat) leaves.
Proof. unfold leaves. apply Forall_map, Forall_forall. intros e _. apply HL. Qed.

(** Inputs of the tree: an inner node or a leaf. *)
Definition tinput (x : list N) : Prop :=
  (exists d i, (d < D)%nat /\ (i < 2 ^ (D - 1 - d))%nat /\ x = pnode H leaves d (2 * i) ++ pnode H leaves d (2 * i + 1)) \/
  (exists e, e ∈ l /\ x = H e.1 ++ e.2).

Lemma tinput_in x : tinput x -> x ∈ keyed_inputs H l.
Proof.
  unfold keyed_inputs. intros [(d&i&Hd&Hi&->)|(e&He&->)]; apply elem_of_cons; right; rewrite !elem_of_app.
  - right. right. by apply ptree_inputs_in.
  - right. left. apply elem_of_list_fmap. by exists e.
Qed.
Lemma key_in e : e ∈ l -> e.1 ∈ keyed_inputs H l.
Proof. intros He. unfold keyed_inputs. apply elem_of_cons; right; rewrite !elem_of_app. left. apply elem_of_list_fmap. by exists e. Qed.

(** What a node is the hash of. *)
Lemma node_input d i : (d <= D)%nat -> (i < 2 ^ (D - d))%nat ->
  pnode H leaves d i = H [] \/ exists x, tinput x /\ pnode H leaves d i = H x /\
    (d = 0%nat -> exists e, e ∈ l /\ x = H e.1 ++ e.2).
Proof.
  intros Hd Hi. destruct d as [|d].
  - cbn [pnode]. rewrite nth_lookup. destruct (leaves !! i) as [x|] eqn:Hx; cbn [default]; [|by left].
    right. unfold leaves in Hx. rewrite list_lookup_fmap in Hx. destruct (l !! i) as [e|] eqn:He; [|done]. injection Hx as <-.
    apply elem_of_list_lookup_2 in He. exists (H e.1 ++ e.2). split; [right; by exists e|]. split; [done|]. intros _. by exists e.
  - right. exists (pnode H leaves d (2 * i) ++ pnode H leaves d (2 * i + 1)). split; [|split; [done|lia]].
    left. exists d, i. split; [lia|]. split; [|done]. by replace (D - 1 - d)%nat with (D - S d)%nat by lia.
Qed.

Lemma root_node : keyed_root H l = pnode H leaves D 0.
Proof. unfold keyed_root. fold leaves. unfold D. replace (length l) with (length leaves) by (unfold leaves; by rewrite map_length). unfold leaves. destruct l; done. Qed.

Lemma inner_bound d i : (d < D)%nat -> (i < 2 ^ (D - 1 - d))%nat -> (2 * i + 1 < 2 ^ (D - d))%nat.
Proof. intros Hd Hi. replace (D - d)%nat with (S (D - 1 - d)) by lia. rewrite Nat.pow_succ_r'. lia. Qed.

(** The first string hashed on a path to the root is hashed in the tree too, unless the path enters an entry's hash. *)
Lemma climb_down its : forall h, length h = 32%nat -> Forall (fun it => length it.1 = 32%nat) its ->
  inj_on H (keyed_inputs H l ++ climb_inputs H h its) -> climb H h its = keyed_root H l ->
  forall s o r, its = (s, o) :: r ->
  tinput (if o : bool then s ++ h else h ++ s) \/ exists e x, e ∈ l /\ x ∈ climb_inputs H h its /\ e.2 = H x.
Proof.
  induction its as [|[s0 o0] its IH]; intros h Hh Hits Hinj Hc s o r E; [done|]. injection E as -> -> ->.
  rewrite climb_cons in Hc. rewrite climb_inputs_cons in Hinj |- *. set (x := if o then s ++ h else h ++ s) in *.
  apply Forall_cons in Hits as [Hs Hits]. cbn [fst] in Hs.
  assert (Hlx : length x = 64%nat) by (unfold x; destruct o; by rewrite app_length, Hs, Hh).
  assert (Hxin : x ∈ keyed_inputs H l ++ x :: climb_inputs H (H x) r) by (apply elem_of_app; right; by left).
  assert (Htin : forall y, tinput y -> y ∈ keyed_inputs H l ++ x :: climb_inputs H (H x) r) by (intros y Hy; apply elem_of_app; left; by apply tinput_in).
  assert (Hnode : forall d i, (d <= D)%nat -> (i < 2 ^ (D - d))%nat -> H x = pnode H leaves d i -> tinput x).
  { intros d i Hd Hi He. destruct (node_input d i Hd Hi) as [Hn|(y&Hy&Hn&_)]; rewrite Hn in He.
    - apply Hinj in He; [by rewrite He in Hlx|done|apply elem_of_app; left; by left].
    - apply Hinj in He; [by rewrite He|done|by apply Htin]. }
  destruct r as [|[s1 o1] r].
  - left. cbn [climb] in Hc. rewrite root_node in Hc. apply (Hnode D 0%nat); [done| |done].
    rewrite Nat.sub_diag. cbn. lia.
  - destruct (IH (H x) (HL x) Hits) with (s := s1) (o := o1) (r := r) as [Ht|(e&y&He&Hy&Hey)]; [|done|done| |].
    { eapply inj_on_sub; [|exact Hinj]. intros y. rewrite !elem_of_app. intros [?|?]; [by left|right; by right]. }
    2:{ right. exists e, y. split; [done|]. split; [by right|done]. }
    apply Forall_cons in Hits as [Hs1 _]. cbn [fst] in Hs1.
    destruct Ht as [(d&i&Hd&Hi&Ht)|(e&He&Ht)].
    + left. pose proof (inner_bound d i Hd Hi) as Hb. pose proof (node_len H leaves HL leaves_len) as L32.
      destruct o1; apply app_inj32 in Ht as [Ht1 Ht2]; try done; try apply HL.
      * apply (Hnode d (2 * i + 1)%nat); [lia|lia|done].
      * apply (Hnode d (2 * i)%nat); [lia|lia|done].
    + rewrite Forall_forall in Hk, Hp. destruct (Hk e He) as [_ Hk64].
      destruct o1; apply app_inj32 in Ht as [Ht1 Ht2]; try done; try apply HL.
      * right. exists e, x. split; [done|]. split; [by left|done].
      * exfalso. apply Hinj in Ht1; [by rewrite Ht1 in Hlx|done|]. apply elem_of_app. left. by apply key_in.
Qed.

(** Soundness of a keyed path. *)
Lemma keyed_sound key v its : length v = 32%nat -> length key <> 0%nat -> length key <> 64%nat ->
  Forall (fun it => length it.1 = 32%nat) its ->
  inj_on H (keyed_inputs H l ++ key :: climb_inputs H v ((H key, true) :: its)) ->
  climb H v ((H key, true) :: its) = keyed_root H l ->
  (key, v) ∈ l \/ exists e x, e ∈ l /\ x ∈ climb_inputs H v ((H key, true) :: its) /\ e.2 = H x.
Proof.
  intros Hv Hk0 Hk64 Hits Hinj Hc.
  destruct (climb_down ((H key, true) :: its) v Hv) with (s := H key) (o := true) (r := its) as [Ht|?]; [|  | |done| |by right].
  { constructor; [apply HL|done]. }
  { eapply inj_on_sub; [|exact Hinj]. intros y. rewrite !elem_of_app. intros [?|?]; [by left|right; by right]. }
  { done. }
  left. assert (Hkin : key ∈ keyed_inputs H l ++ key :: climb_inputs H v ((H key, true) :: its)) by (apply elem_of_app; right; by left).
  destruct Ht as [(d&i&Hd&Hi&Ht)|(e&He&Ht)].
  - exfalso. pose proof (inner_bound d i Hd Hi) as Hb. pose proof (node_len H leaves HL leaves_len) as L32.
    apply app_inj32 in Ht as [Ht _]; [|apply HL|apply L32].
    destruct (node_input d (2 * i)) as [Hn|(y&Hy&Hn&_)]; [lia|lia| |]; rewrite Hn in Ht; apply Hinj in Ht; try done.
    + by rewrite Ht in Hk0.
    + apply elem_of_app. left. by left.
    + rewrite Ht in Hk64. destruct Hy as [(d'&i'&_&_&->)|(e&He&->)]; apply Hk64; rewrite app_length, ?HL, ?L32; [done|].
      rewrite Forall_forall in Hp. by rewrite (Hp e He).
    + apply elem_of_app. left. by apply tinput_in.
  - apply app_inj32 in Ht as [Ht1 Ht2]; [|apply HL..]. apply Hinj in Ht1; [|done|apply elem_of_app; left; by apply key_in].
    subst. by destruct e.
Qed.

(** With as many steps as the tree is high the path ends at a leaf. *)
Lemma climb_level its : forall h k i0, length h = 32%nat -> Forall (fun it => length it.1 = 32%nat) its ->
  inj_on H (keyed_inputs H l ++ climb_inputs H h its) -> (k + length its <= D)%nat -> (i0 < 2 ^ (D - (k + length its)))%nat ->
  climb H h its = pnode H leaves (k + length its) i0 -> exists i, (i < 2 ^ (D - k))%nat /\ h = pnode H leaves k i.
Proof.
  induction its as [|[s o] its IH]; intros h k i0 Hh Hits Hinj Hk' Hi0 Hc.
  - cbn [length] in *. rewrite Nat.add_0_r in *. by exists i0.
  - rewrite climb_cons in Hc. rewrite climb_inputs_cons in Hinj. set (x := if o then s ++ h else h ++ s) in *.
    apply Forall_cons in Hits as [Hs Hits]. cbn [fst length] in *. rewrite Nat.add_succ_r, <- Nat.add_succ_l in *.
    destruct (IH (H x) (S k) i0 (HL x) Hits) as (i&Hi&He); [|done|done|done|].
    { eapply inj_on_sub; [|exact Hinj]. intros y. rewrite !elem_of_app. intros [?|?]; [by left|right; by right]. }
    assert (Hi' : (i < 2 ^ (D - 1 - k))%nat) by by replace (D - 1 - k)%nat with (D - S k)%nat by lia.
    cbn [pnode] in He. apply Hinj in He; [|apply elem_of_app; right; by left|].
    2:{ apply elem_of_app. left. apply tinput_in. left. exists k, i. split; [lia|]. done. }
    pose proof (node_len H leaves HL leaves_len) as L32. assert (Hkd : (k < D)%nat) by lia. pose proof (inner_bound k i Hkd Hi').
    unfold x in He. destruct o; apply app_inj32 in He as [E1 E2]; try done; try apply L32.
    + exists (2 * i + 1)%nat. split; [lia|done].
    + exists (2 * i)%nat. split; [lia|done].
Qed.

Lemma keyed_sound_exact key v its : length v = 32%nat -> length its = D ->
  Forall (fun it => length it.1 = 32%nat) its ->
  inj_on H (keyed_inputs H l ++ key :: climb_inputs H v ((H key, true) :: its)) ->
  climb H v ((H key, true) :: its) = keyed_root H l -> (key, v) ∈ l.
Proof.
  intros Hv Hlen Hits Hinj Hc. rewrite root_node in Hc. cbn [climb climb_inputs] in *.
  destruct (climb_level its (H (H key ++ v)) 0 0) as (i&Hi&He).
  - apply HL.
  - done.
  - eapply inj_on_sub; [|exact Hinj]. intros y. rewrite !elem_of_app. intros [?|?]; [by left|right; right; by right].
  - lia.
  - rewrite Hlen. cbn [Nat.add]. rewrite Nat.sub_diag. cbn. lia.
  - by rewrite Hlen.
  - assert (Hxin : H key ++ v ∈ keyed_inputs H l ++ key :: (H key ++ v) :: climb_inputs H (H (H key ++ v)) its) by (apply elem_of_app; right; right; by left).
    assert (Hkin : key ∈ keyed_inputs H l ++ key :: (H key ++ v) :: climb_inputs H (H (H key ++ v)) its) by (apply elem_of_app; right; by left).
    destruct (node_input 0 i) as [Hn|(y&Hy&Hn&Hl)]; [lia|done| |]; rewrite Hn in He; apply Hinj in He; try done.
    + apply (f_equal length) in He. rewrite app_length, HL in He. cbn in He. lia.
    + apply elem_of_app. left. by left.
    + destruct (Hl eq_refl) as (e&Hel&->). apply app_inj32 in He as [E1 E2]; [|apply HL..].
      apply Hinj in E1; [|done|apply elem_of_app; left; by apply key_in]. subst. by destruct e.
    + apply elem_of_app. left. by apply tinput_in.
Qed.
End keyed.

(* ------------------------------------------------------------ the code *)
Section code.
Context {V : Type} (E : env V) (HE : env_ok E).
Local Notation H := (eH E).

(** Go's types: hashes are 32 bytes long. *)
Definition chain_ok (c : list nodeproof) : Prop := forall p, p ∈ c ->
  (forall h, np_vhash p = Some h -> length h = 32%nat) /\
  (forall q, np_child p = Some q -> Forall (fun h => length h = 32%nat) (mp_hashs q)).

Lemma chain_items_len c its : chain_ok c -> chain_items E c = Some its -> Forall (fun it => length it.1 = 32%nat) its.
Proof.
  intros Hc. revert its. induction c as [|p c IH]; intros its; cbn [chain_items]; [by intros [= <-]|].
  destruct (np_items E p) as [a|] eqn:Ha; [|done]. destruct (chain_items E c) as [b|]; [|done]. intros [= <-].
  apply Forall_app. split.
  - destruct (Hc p) as [H1 H2]; [by left|]. by eapply np_items_len.
  - apply IH; [|done]. intros q Hq. apply Hc. by right.
Qed.

Lemma np_items_head np vh its : np_vhash np = Some vh -> np_items E np = Some its ->
  IsProofHdsSummary (np_type np) = true \/ (exists i, property_index (np_type np) i) -> exists its', its = (vh, true) :: its'.
Proof.
  intros Hv Hits Ht. unfold np_items in Hits.
  assert (IsProofMerkleOnly (np_type np) = false /\ IsProofChild (np_type np) = false /\ IsProofValue (np_type np) = false) as (H1&H2&H3).
  { destruct Ht as [Ht|(i&Ht)]; [|by destruct (property_index_types _ _ Ht) as (?&?&?&?)].
    unfold IsProofHdsSummary in Ht. apply N.eqb_eq in Ht. by rewrite Ht. }
  rewrite H1, H2, H3, Hv in Hits. destruct (IsProofHdsSummary _) eqn:Hs.
  - destruct (mpo_items _); [|done]. injection Hits as <-. by eexists.
  - destruct Ht as [Ht|Ht]; [congruence|]. apply property_index_bool in Ht. rewrite Ht in Hits.
    destruct (np_child np) as [cp|]; [|done]. destruct (mp_hashs cp); [done|]. destruct (mp_items cp); [|done]. injection Hits as <-. by eexists.
Qed.

Lemma verify_head np c v root vh : np_vhash np = Some vh ->
  IsProofHdsSummary (np_type np) = true \/ (exists i, property_index (np_type np) i) ->
  VerifyProofChain E v (np :: c) root = true ->
  exists its, chain_items E (np :: c) = Some ((vh, true) :: its) /\ climb H v ((vh, true) :: its) = root.
Proof.
  intros Hv Ht Hver. unfold VerifyProofChain, chain_proof in Hver. destruct (chain_items E (np :: c)) as [its|] eqn:Hits; [|done].
  apply bool_decide_eq_true_1 in Hver. rewrite fold_climb in Hver. cbn [chain_items] in Hits.
  destruct (np_items E np) as [a|] eqn:Ha; [|done]. destruct (chain_items E c) as [b|]; [|done]. injection Hits as <-.
  destruct (np_items_head _ _ _ Hv Ha Ht) as (a'&->). exists (a' ++ b). split; [done|]. exact Hver.
Qed.
End code.
