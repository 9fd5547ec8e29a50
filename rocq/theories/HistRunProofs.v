(** Whole-tree calls, and sequences of calls. *)
From Verif Require Import Base MerkleSpec MerkleModel TrieSpec TrieModel TrieProofModel MerkleTreeProofs.
From Verif Require Import HistSpec HistModel HistLayerProofs HistRepProofs HistOpProofs HistPathProofs HistCommitProofs.
From stdpp Require Import gmap.
Open Scope N_scope.
Arguments Nat.mul : simpl never.
Arguments Nat.add : simpl never.
Arguments Nat.sub : simpl never.

Section run.
Context (E : henv) (EOK : henv_ok E).
Local Notation H := (hH E).
Local Notation nilhash := (nilhash H).
Local Notation look vs k i := (layers H k vs !! i).
Local Notation len32 := (Forall (fun v : list N => length v = 32%nat)).
Implicit Types (vs : list (list N)) (st : hstore).

Definition trep st (t : htree) vs : Prop :=
  ht_exp t = lenN vs /\ match ht_root t with None => vs = [] | Some n => rep E st vs 15 0 n end.

Lemma up_zero k : forall n, N.of_nat n < 2 ^ N.of_nat k -> up k n = 0%nat.
Proof.
  induction k as [|k IH]; intros n Hn; [change (2 ^ N.of_nat 0) with 1 in Hn; cbn [up]; lia|].
  rewrite <- up_half. apply IH. rewrite Nat2N.inj_succ, N.pow_succ_r' in Hn. lia.
Qed.
Lemma rep_ne st vs n : rep E st vs 15 0 n -> vs <> [].
Proof. intros [([h Hh] & _) _]%rep_unfold ->. by rewrite look_nil in Hh. Qed.
Lemma hget_look vs k : hget vs k = look vs 0 (N.to_nat k).
Proof.
  unfold hget. destruct (N.ltb_spec k (lenN vs)) as [Hk|Hk]; [done|]. cbn [layers]. symmetry. apply lookup_ge_None. unfold lenN in Hk. lia.
Qed.
Lemma root_some vs h : look vs 64 0%nat = Some h -> hist_root H vs = h.
Proof. rewrite hist_root_look. by intros ->. Qed.

Lemma append_ok st t vs v : (st <> ∅ -> len32 vs) -> trep st t vs -> v <> [] -> lenN vs + 1 < two64 ->
  exists t', append E st t (lenN vs) v = (t', true) /\ trep st t' (vs ++ [v]).
Proof.
  intros Hv [He Hr] Hne Hl. unfold append. rewrite He, N.eqb_refl, bool_decide_eq_false_2 by done. cbn [negb].
  destruct (heightToPrefix_ok (lenN vs) ltac:(lia)) as (Hp1 & Hp2 & Hp3).
  destruct (trace_append E EOK st vs v Hv Hne 15 0 (default NewTreeNode (ht_root t)) (heightToPrefix (lenN vs)))
    as (n' & r & -> & Hn' & _); [|done|done|by rewrite Hp3; unfold lenN; lia|].
  { destruct (ht_root t) as [n|]; [by left|]. right. subst vs. split; [apply look_nil|done]. }
  eexists. split; [done|]. split; cbn [ht_exp ht_root]; [|by apply erep_rep].
  rewrite N.mod_small by done. unfold lenN. rewrite app_length. cbn [length]. lia.
Qed.
Lemma append_bad st t vs k v : trep st t vs -> (k =? lenN vs) && negb (bool_decide (v = [])) = false -> append E st t k v = (t, false).
Proof.
  intros [He _] Hb. unfold append. rewrite He. destruct (k =? lenN vs); cbn [negb andb] in *; [|done].
  by destruct (bool_decide (v = [])).
Qed.
Lemma get_ok st t vs k : (st <> ∅ -> len32 vs) -> trep st t vs -> k < two64 ->
  exists t', get_tree E st t k = (t', hget vs k) /\ trep st t' vs.
Proof.
  intros Hv [He Hr] Hk. unfold get_tree. rewrite hget_look. destruct (ht_root t) as [n|] eqn:Hn.
  - destruct (heightToPrefix_ok k Hk) as (Hp1 & Hp2 & Hp3).
    destruct (trace_get E EOK st vs Hv 15 0 n (heightToPrefix k) Hr Hp1 Hp2) as (n' & -> & Hn' & _). rewrite Hp3.
    eexists. split; [f_equal; by destruct (look vs 0 (N.to_nat k))|]. done.
  - subst vs. exists t. split; [done|]. split; [done|]. by rewrite Hn.
Qed.
Lemma hash_ok st t vs : trep st t vs -> exists t', hash_value E t = (t', Some (hist_root H vs)) /\ trep st t' vs.
Proof.
  intros [He Hr]. unfold hash_value. destruct (ht_root t) as [n|] eqn:Hn.
  - destruct (hash_prefix_ok E vs st 15 0 n ltac:(lia) Hr) as (n' & f1 & f2 & -> & Hn' & _).
    eexists. split; [by rewrite hist_root_look|]. done.
  - subst vs. exists t. split; [done|]. split; [done|]. by rewrite Hn.
Qed.
Lemma collapse_before_ok st t vs k : (st <> ∅ -> len32 vs) -> trep st t vs -> k < two64 ->
  exists t', collapse_before E st t k = Some (st, t') /\ trep st t' vs.
Proof.
  intros Hv [He Hr] Hk. unfold collapse_before. destruct (heightToPrefix_ok k Hk) as (Hp1 & Hp2 & _).
  set (pos := last_nonzero (heightToPrefix k)).
  assert (pos <= 16)%nat as Hpos.
  { rewrite <- Hp2. unfold pos. clear. induction (heightToPrefix k) as [|x r IH]; cbn [last_nonzero length]; [lia|].
    destruct (last_nonzero r); [destruct (x =? 0); lia|lia]. }
  destruct (Nat.eqb_spec pos 16) as [|H16]; [exists t; done|]. destruct (Nat.eqb_spec pos 0) as [|H0]; [exists t; done|]. cbn [orb].
  destruct (ht_root t) as [n|] eqn:Hn; [|exists t; split; [done|]; split; [done|by rewrite Hn]].
  assert (nibs (take pos (heightToPrefix k))) as Hnb by by apply Forall_take.
  assert (length (take pos (heightToPrefix k)) = pos) as Hlen by (rewrite take_length; lia).
  destruct (locate_ok E EOK st vs Hv 15 0 n _ Hr Hnb ltac:(lia)) as (n1 & r & -> & Hn1 & _ & Hres).
  destruct (look vs _ _) as [h|] eqn:Hl.
  - destruct Hres as [[i ->] Hop]. destruct (collapse_at_ok E st vs _ 15 0 n1 ltac:(lia) Hnb Hop ltac:(lia) ltac:(eauto)) as (n2 & -> & Hn2).
    eexists. split; [done|]. split; [done|]. cbn [ht_root]. by apply erep_rep.
  - subst r. eexists. split; [done|]. split; [done|]. cbn [ht_root]. by apply erep_rep.
Qed.
Lemma proof_ok st t vs k : len32 vs -> trep st t vs -> lenN vs < two64 -> k < two64 ->
  exists t' r, get_proof E st t k = (t', r) /\ trep st t' vs /\
    match r with None => None | Some (v, c) => Some (v, chain_proof E c (bytes_to_hash v), option_map fst (chain_bigkey c 0 0)) end =
    match hget vs k with Some v => Some (v, Some (hist_root H vs), Some k) | None => None end.
Proof.
  intros Hv [He Hr] Hlen Hk. unfold get_proof. rewrite hget_look. destruct (ht_root t) as [n|] eqn:Hn.
  2:{ subst vs. exists t, None. split; [done|]. split; [|done]. split; [done|]. by rewrite Hn. }
  destruct (heightToPrefix_ok k Hk) as (Hp1 & Hp2 & Hp3).
  destruct (locate_ok E EOK st vs (fun _ => Hv) 15 0 n _ Hr Hp1 ltac:(lia)) as (n1 & r & -> & Hn1 & _ & Hres).
  rewrite Hp2, Hp3 in Hres. replace (4 * (16 - 16))%nat with 0%nat in Hres by lia.
  destruct (look vs 0 (N.to_nat k)) as [v|] eqn:Hl.
  - destruct Hres as [[i ->] Hop]. cbn [Nat.eqb].
    destruct (proof_path_ok E EOK st vs Hv (heightToPrefix k) 15 0 n1 mp_new [] ltac:(lia) Hp1 Hp2 Hop) as (n2 & mp & -> & Hn2 & Hmp);
      [rewrite Hp3; eauto|apply MerkleProofs.mp_rep_new|].
    rewrite Hp3 in Hmp. change (4 * 16)%nat with 64%nat in Hmp. cbn [app] in Hmp.
    eexists. eexists. split; [done|]. split; [split; [done|by apply erep_rep]|]. cbn [default]. change (id v) with v.
    assert (k < lenN vs) as Hkl. { cbn [layers] in Hl. apply lookup_lt_Some in Hl. unfold lenN. lia. }
    rewrite bytes_to_hash_id by (eapply look_len; [apply (hok_H _ EOK)|exact Hv|exact Hl]).
    rewrite (merkle_only_proof E vs mp _ v Hmp Hl).
    rewrite (merkle_only_key E vs mp _ Hmp) by (rewrite N2Nat.id; lia). rewrite N2Nat.id.
    do 3 f_equal. rewrite (up_zero 64) by (rewrite N2Nat.id; exact Hk).
    pose proof (look_up_some E vs 0 _ 64 (ex_intro _ v Hl)) as [h Hh]. rewrite (up_zero 64) in Hh by (rewrite N2Nat.id; exact Hk).
    change (64 + 0)%nat with 64%nat in Hh. rewrite Hh. f_equal. symmetry. by apply root_some.
  - subst r. eexists. eexists. split; [done|]. split; [|done]. split; [done|]. cbn [ht_root]. by apply erep_rep.
Qed.

(* ------------------------------------------------------------ with a database *)
Section db.
Context (good : list (list N) -> Prop).
Context (G32 : forall vs, good vs -> len32 vs).
Context (Glen : forall vs, good vs -> lenN vs < two64).
Context (Ginj : forall vs vs' x y, good vs -> good vs' -> x ∈ hist_inputs H vs -> y ∈ hist_inputs H vs' -> H x = H y -> x = y).
Context (Gval : forall vs vs' v x, good vs -> good vs' -> v ∈ vs -> x ∈ hist_inputs H vs' -> v <> H x).
Local Notation stle := (stle E good).

Definition saved st vs : Prop := vs = [] \/ stored E st vs 15 0.
Lemma commit_tree_ok st t vs : good vs -> trep st t vs ->
  exists st' t', commit_tree E st t = (st', t', true) /\ stle st st' /\ trep st' t' vs /\ saved st' vs.
Proof.
  intros Hg [He Hr]. unfold commit_tree. destruct (ht_root t) as [n|] eqn:Hn.
  - destruct (commit_ok E EOK good G32 Ginj Gval vs Hg 15 16 st 0 n ltac:(lia) ltac:(lia) Hr) as (st' & n' & -> & Hle & Hn' & Hd).
    exists st'. eexists. split; [done|]. split; [done|]. split; [done|]. right.
    apply rep_unfold in Hn' as [(_ & _ & Hst) _]. auto.
  - subst vs. exists st, t. split; [done|]. split; [apply stle_refl|]. split; [split; [done|by rewrite Hn]|by left].
Qed.
Lemma open_ok st vs chk : good vs -> saved st vs ->
  exists t, open_tree E st (hist_root H vs) chk = Some t /\ trep st t vs.
Proof.
  intros Hg [->|Hst]; unfold open_tree.
  - change (hist_root H []) with nilhash. rewrite bool_decide_eq_true_2 by done. rewrite orb_true_r. eexists. split; [done|]. done.
  - destruct (proj1 (stored_unfold E st vs 15 0) Hst) as [(h & c & Hh & Hne & _) _].
    change (4 * 15 + 4)%nat with 64%nat in Hh. rewrite (root_some _ _ Hh).
    rewrite (look_len H vs 64 0 h (hok_H _ EOK) (G32 _ Hg) Hh). rewrite bool_decide_eq_false_2 by done. cbn [Nat.eqb negb orb].
    assert (0 < length vs)%nat as Hpos by (destruct vs; [by rewrite look_nil in Hh|cbn [length]; lia]).
    pose proof (Glen _ Hg) as Hl. unfold lenN in Hl.
    destruct (find_rightmost_ok E EOK st vs (fun _ => G32 _ Hg) Hpos 15 16 0 (from_hash h) chk eq_refl (from_hash_rep E st vs 15 0 h Hh Hst))
      as (n' & p & -> & Hn' & _ & Hp1 & Hp2 & Hp3).
    { change (4 * 15 + 4)%nat with 64%nat. symmetry. apply (up_zero 64). change (2 ^ N.of_nat 64) with two64. lia. }
    rewrite Hp1. cbn [Nat.eqb negb]. rewrite (prefixToHeight_ok p Hp2 Hp1), Hp3. eexists. split; [done|].
    split; cbn [ht_exp ht_root]; [|by apply erep_rep]. unfold lenN. rewrite N.mod_small by lia. lia.
Qed.
Lemma trep_mono st st' t vs : good vs -> stle st st' -> trep st t vs -> trep st' t vs.
Proof.
  intros Hg Hle [He Hr]. split; [done|]. destruct (ht_root t); [|done]. eapply (rep_mono E good G32 Ginj Gval); [exact Hle|done|lia|done].
Qed.
Lemma saved_mono st st' vs : good vs -> stle st st' -> saved st vs -> saved st' vs.
Proof. intros Hg Hle [->|Hs]; [by left|right]. apply Hle; [done|lia|done]. Qed.

Definition prep (p : hpool) (s : hlogs) : Prop :=
  Forall2 (fun t vs => good vs /\ trep (hp_store p) t vs) (hp_trees p) (hl_logs s) /\
  Forall2 (fun h vs => good vs /\ h = hist_root H vs /\ saved (hp_store p) vs) (hp_roots p) (hl_saved s).

Lemma prep_set p s j t vs : prep p s -> hl_logs s !! j = Some vs -> good vs -> trep (hp_store p) t vs -> prep (hp_set p j t) s.
Proof.
  intros [Ht Hs] Hj Hg Hr. split; [|done]. cbn [hp_set hp_trees hp_store].
  rewrite <- (list_insert_id (hl_logs s) j vs Hj). by apply Forall2_insert.
Qed.
Lemma trees_mono st st' ts vss : stle st st' ->
  Forall2 (fun t vs => good vs /\ trep st t vs) ts vss -> Forall2 (fun t vs => good vs /\ trep st' t vs) ts vss.
Proof. intros Hle Ht. eapply Forall2_impl; [exact Ht|]. cbv beta. intros t vs [? ?]. split; [done|]. by eapply trep_mono. Qed.
Lemma saved_all_mono st st' hs vss : stle st st' ->
  Forall2 (fun h vs => good vs /\ h = hist_root H vs /\ saved st vs) hs vss ->
  Forall2 (fun h vs => good vs /\ h = hist_root H vs /\ saved st' vs) hs vss.
Proof. intros Hle Ht. eapply Forall2_impl; [exact Ht|]. cbv beta. intros h vs (? & ? & ?). split; [done|]. split; [done|]. by eapply saved_mono. Qed.

Lemma step_ok p s jo : prep p s -> hcall_key jo.2 < two64 -> (forall vs, vs ∈ hl_logs (hstep (hist_root H) s jo).1 -> good vs) ->
  exists p', hmstep E p jo = Some (p', (hstep (hist_root H) s jo).2) /\ prep p' (hstep (hist_root H) s jo).1.
Proof.
  intros Hp Hk Hnew. destruct jo as [j o]. cbn [snd] in Hk. unfold hmstep, hstep in *. pose proof Hp as [Ht Hs].
  destruct (hp_trees p !! j) as [t|] eqn:Hj.
  2:{ apply lookup_ge_None in Hj. rewrite (Forall2_length _ _ _ Ht) in Hj. apply lookup_ge_None in Hj. rewrite Hj. exists p. done. }
  destruct (Forall2_lookup_l _ _ _ _ _ Ht Hj) as (vs & Hvs & Hg & Htr). rewrite Hvs in *.
  pose proof (G32 _ Hg) as H32. pose proof (Glen _ Hg) as Hlen.
  destruct o as [k v|k| | |k| |k| |i chk]; cbn [hcall_key fst snd] in *.
  - destruct ((k =? lenN vs) && negb (bool_decide (v = []))) eqn:Hc.
    + apply andb_true_iff in Hc as [->%N.eqb_eq Hv%negb_true_iff%bool_decide_eq_false]. cbn [fst snd hl_logs] in *.
      assert (good (vs ++ [v])) as Hg'.
      { apply Hnew. apply elem_of_list_lookup_2 with j. apply list_lookup_insert. by apply lookup_lt_Some in Hvs. }
      destruct (append_ok (hp_store p) t vs v (fun _ => H32) Htr Hv) as (t' & -> & Ht').
      { pose proof (Glen _ Hg') as Hl'. unfold lenN in *. rewrite app_length in Hl'. cbn [length] in Hl'. lia. }
      eexists. split; [done|]. split; [|done]. cbn [hp_set hp_trees hp_store hl_logs]. by apply Forall2_insert.
    + rewrite (append_bad _ _ _ _ _ Htr Hc). eexists. split; [done|]. cbn [fst]. by eapply prep_set.
  - destruct (get_ok (hp_store p) t vs k (fun _ => H32) Htr Hk) as (t' & -> & Ht'). eexists. split; [done|]. by eapply prep_set.
  - destruct Htr as [-> _]. exists p. done.
  - destruct (hash_ok (hp_store p) t vs Htr) as (t' & -> & Ht'). eexists. split; [done|]. by eapply prep_set.
  - destruct (proof_ok (hp_store p) t vs k H32 Htr Hlen Hk) as (t' & r & -> & Ht' & ->). eexists. split; [done|]. by eapply prep_set.
  - destruct (commit_tree_ok (hp_store p) t vs Hg Htr) as (st' & t1 & -> & Hle & Ht1 & Hsv).
    destruct (hash_ok st' t1 vs Ht1) as (t2 & -> & Ht2). eexists. split; [done|]. split; cbn [hp_trees hp_store hp_roots hl_logs hl_saved fst].
    + rewrite <- (list_insert_id (hl_logs s) j vs Hvs). apply Forall2_insert; [by eapply trees_mono|done].
    + apply Forall2_app; [by eapply saved_all_mono|]. by constructor.
  - destruct (collapse_before_ok (hp_store p) t vs k (fun _ => H32) Htr Hk) as (t' & -> & Ht'). eexists. split; [done|].
    by apply (prep_set p s j t' vs).
  - unfold clone. destruct (commit_tree_ok (hp_store p) t vs Hg Htr) as (st' & t1 & -> & Hle & Ht1 & Hsv).
    destruct (hash_ok st' t1 vs Ht1) as (t2 & -> & Ht2). cbn [default]. change (id ?z) with z.
    destruct (open_ok st' vs false Hg Hsv) as (t3 & -> & Ht3). eexists. split; [done|]. split; cbn [hp_trees hp_store hp_roots hl_logs hl_saved fst].
    + apply Forall2_app; [|by constructor]. rewrite <- (list_insert_id (hl_logs s) j vs Hvs). apply Forall2_insert; [by eapply trees_mono|done].
    + by eapply saved_all_mono.
  - destruct (hp_roots p !! i) as [h|] eqn:Hi.
    + destruct (Forall2_lookup_l _ _ _ _ _ Hs Hi) as (vs' & Hvs' & Hg' & -> & Hsv). rewrite Hvs' in *. cbn [fst snd] in *.
      destruct (open_ok (hp_store p) vs' chk Hg' Hsv) as (t3 & -> & Ht3). eexists. split; [done|]. split; [|done].
      cbn [hp_trees hp_store hl_logs]. apply Forall2_app; [done|]. by constructor.
    + apply lookup_ge_None in Hi. rewrite (Forall2_length _ _ _ Hs) in Hi. apply lookup_ge_None in Hi. rewrite Hi. exists p. done.
Qed.
Lemma run_ok : forall ops p s, prep p s -> Forall (fun jo => hcall_key jo.2 < two64) ops ->
  (forall vs, vs ∈ hvisited (hist_root H) ops s -> good vs) ->
  exists p', hmrun E ops p = Some (p', (hrun (hist_root H) ops s).2) /\ prep p' (hrun (hist_root H) ops s).1.
Proof.
  induction ops as [|jo ops IH]; intros p s Hp Hk Hg; cbn [hmrun hrun]; [exists p; done|].
  inversion Hk as [|? ? Hk1 Hk2]; subst. cbn [hvisited] in Hg.
  assert (forall vs, vs ∈ hvisited (hist_root H) ops (hstep (hist_root H) s jo).1 -> good vs) as Hg2
    by (intros vs Hv; apply Hg, elem_of_app; by right).
  destruct (step_ok p s jo Hp Hk1) as (p1 & -> & Hp1).
  { intros vs Hv. apply Hg2. destruct ops; cbn [hvisited]; apply elem_of_app; by left. }
  destruct (hstep (hist_root H) s jo) as [s1 b]. cbn [fst snd] in *.
  destruct (IH p1 s1 Hp1 Hk2 Hg2) as (p2 & -> & Hp2). destruct (hrun (hist_root H) ops s1) as [s2 bs]. exists p2. done.
Qed.

(** The root binds the list. *)
Lemma all_bits k : forall q, N.of_nat q < 2 ^ N.of_nat k -> exists p, bits p /\ length p = k /\ bidx 0 p = q.
Proof.
  induction k as [|k IH]; intros q Hq.
  - change (2 ^ N.of_nat 0) with 1 in Hq. exists []. cbn [bidx length]. split; [constructor|]. lia.
  - rewrite Nat2N.inj_succ, N.pow_succ_r' in Hq. destruct (IH (q / 2)%nat) as (p & Hp1 & Hp2 & Hp3); [lia|].
    exists (p ++ [N.of_nat (q mod 2)]). split; [apply bits_app; split; [done|constructor; [lia|constructor]]|].
    rewrite app_length, bidx_app, Hp3. cbn [length bidx]. lia.
Qed.
Lemma root_binds vs vs' : good vs -> good vs' -> hist_root H vs = hist_root H vs' -> vs = vs'.
Proof.
  intros Hg Hg' He. rewrite !hist_root_look in He.
  assert (look vs 64 0%nat = look vs' 64 0%nat) as He'.
  { destruct (look vs 64 0%nat) as [h|] eqn:Hh, (look vs' 64 0%nat) as [h'|] eqn:Hh'; cbn [default] in He; change (id ?z) with z in He;
      [congruence| | |done]; exfalso.
    - by apply (look_ne_nil E EOK good G32 Ginj Gval vs 64 0 h Hg ltac:(lia) Hh).
    - by apply (look_ne_nil E EOK good G32 Ginj Gval vs' 64 0 h' Hg' ltac:(lia) Hh'). }
  apply list_eq. intros q. destruct (N.lt_ge_cases (N.of_nat q) two64) as [Hq|Hq].
  - destruct (all_bits 64 q Hq) as (p & Hp1 & Hp2 & <-).
    apply (same_below E EOK good G32 Ginj Gval vs vs' Hg Hg' p 0 0 0 0 Hp1); [lia|lia|]. by rewrite Hp2.
  - pose proof (Glen _ Hg). pose proof (Glen _ Hg'). unfold lenN in *.
    rewrite !(proj2 (lookup_ge_None _ _)); [done|lia|lia].
Qed.
End db.

(* ------------------------------------------------------------ in memory *)
Definition mem_call (o : hcall) : bool :=
  match o with HAppend _ _ | HGet _ | HExpecting | HHash | HCollapse _ => true | _ => false end.
Definition mrep (p : hpool) (s : hlogs) : Prop :=
  hp_store p = ∅ /\ Forall2 (fun t vs => trep ∅ t vs) (hp_trees p) (hl_logs s).
Lemma mrep_set p s j t vs : mrep p s -> hl_logs s !! j = Some vs -> trep ∅ t vs -> mrep (hp_set p j t) s.
Proof.
  intros [Hst Ht] Hj Hr. split; [done|]. cbn [hp_set hp_trees hp_store].
  rewrite <- (list_insert_id (hl_logs s) j vs Hj). by apply Forall2_insert.
Qed.
Lemma mem_step_ok p s jo : mrep p s -> mem_call jo.2 = true -> hcall_key jo.2 < two64 ->
  (forall vs, vs ∈ hl_logs (hstep (hist_root H) s jo).1 -> lenN vs < two64) ->
  exists p', hmstep E p jo = Some (p', (hstep (hist_root H) s jo).2) /\ mrep p' (hstep (hist_root H) s jo).1.
Proof.
  intros Hp Hm Hk Hnew. destruct jo as [j o]. cbn [snd] in *. unfold hmstep, hstep in *. pose proof Hp as [Hst Ht].
  destruct (hp_trees p !! j) as [t|] eqn:Hj.
  2:{ apply lookup_ge_None in Hj. rewrite (Forall2_length _ _ _ Ht) in Hj. apply lookup_ge_None in Hj. rewrite Hj. exists p. done. }
  destruct (Forall2_lookup_l _ _ _ _ _ Ht Hj) as (vs & Hvs & Htr). rewrite Hvs in *. rewrite Hst.
  assert (forall P : Prop, (∅ : hstore) <> ∅ -> P) as Hno by (intros P HP; by destruct HP).
  destruct o as [k v|k| | |k| |k| |i chk]; try discriminate Hm; cbn [hcall_key fst snd] in *.
  - destruct ((k =? lenN vs) && negb (bool_decide (v = []))) eqn:Hc.
    + apply andb_true_iff in Hc as [->%N.eqb_eq Hv%negb_true_iff%bool_decide_eq_false]. cbn [fst snd hl_logs] in *.
      destruct (append_ok ∅ t vs v (Hno _) Htr Hv) as (t' & -> & Ht').
      { assert (lenN (vs ++ [v]) < two64) as Hl'.
        { apply Hnew. apply elem_of_list_lookup_2 with j. apply list_lookup_insert. by apply lookup_lt_Some in Hvs. }
        unfold lenN in *. rewrite app_length in Hl'. cbn [length] in Hl'. lia. }
      eexists. split; [done|]. split; [done|]. cbn [hp_set hp_trees hp_store hl_logs]. by apply Forall2_insert.
    + rewrite (append_bad _ _ _ _ _ Htr Hc). eexists. split; [done|]. cbn [fst]. by eapply mrep_set.
  - destruct (get_ok ∅ t vs k (Hno _) Htr Hk) as (t' & -> & Ht'). eexists. split; [done|]. by eapply mrep_set.
  - destruct Htr as [-> _]. exists p. done.
  - destruct (hash_ok ∅ t vs Htr) as (t' & -> & Ht'). eexists. split; [done|]. by eapply mrep_set.
  - destruct (collapse_before_ok ∅ t vs k (Hno _) Htr Hk) as (t' & -> & Ht'). eexists. split; [done|].
    rewrite <- Hst. by apply (mrep_set p s j t' vs).
Qed.
Lemma mem_run_ok : forall ops p s, mrep p s -> Forall (fun jo => mem_call jo.2 = true /\ hcall_key jo.2 < two64) ops ->
  (forall vs, vs ∈ hvisited (hist_root H) ops s -> lenN vs < two64) ->
  exists p', hmrun E ops p = Some (p', (hrun (hist_root H) ops s).2).
Proof.
  induction ops as [|jo ops IH]; intros p s Hp Hk Hg; cbn [hmrun hrun]; [exists p; done|].
  inversion Hk as [|? ? [Hm1 Hk1] Hk2]; subst. cbn [hvisited] in Hg.
  assert (forall vs, vs ∈ hvisited (hist_root H) ops (hstep (hist_root H) s jo).1 -> lenN vs < two64) as Hg2
    by (intros vs Hv; apply Hg, elem_of_app; by right).
  destruct (mem_step_ok p s jo Hp Hm1 Hk1) as (p1 & -> & Hp1).
  { intros vs Hv. apply Hg2. destruct ops; cbn [hvisited]; apply elem_of_app; by left. }
  destruct (hstep (hist_root H) s jo) as [s1 b]. cbn [fst snd] in *.
  destruct (IH p1 s1 Hp1 Hk2 Hg2) as (p2 & ->). destruct (hrun (hist_root H) ops s1) as [s2 bs]. exists p2. done.
Qed.
End run.
