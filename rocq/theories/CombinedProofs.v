(** SmallCombinedTrie refines the map of CombinedSpec. *)
From Verif Require Export TrieRunProofs TrieProps MerkleProps CombinedSpec CombinedModel TrieIterProofs BasicProofs.

(* ---------------------------------------------------------- key order *)
Lemma bytes_lt_trans a b c : bytes_lt a b -> bytes_lt b c -> bytes_lt a c.
Proof.
  revert b c. induction a as [|x a IH]; intros [|y b] [|z c]; cbn; try done.
  intros [?|[-> ?]] [?|[-> ?]]; [left; lia|by left|by left|right; split; [done|by eapply IH]].
Qed.
Lemma bytes_lt_tri a b : bytes_lt a b \/ a = b \/ bytes_lt b a.
Proof.
  revert b. induction a as [|x a IH]; intros [|y b]; cbn; [tauto|tauto|tauto|].
  destruct (N.lt_trichotomy x y) as [?|[->|?]]; [tauto| |tauto]. destruct (IH b) as [?|[->|?]]; tauto.
Qed.
Global Instance bytes_le_trans : Transitive bytes_le.
Proof. intros a b c [->|?] [->|?]; [by left|by right|by right|right; by eapply bytes_lt_trans]. Qed.
Global Instance bytes_le_total : Total bytes_le.
Proof. intros a b. unfold bytes_le. destruct (bytes_lt_tri a b) as [?|[->|?]]; auto. Qed.
Global Instance bytes_le_anti : AntiSymm (=) bytes_le.
Proof. intros a b [->|Hab] [Hba|Hba]; try done. exfalso. eapply bytes_lt_irrefl, bytes_lt_trans; [exact Hab|done]. Qed.
Lemma str_leb_spec a b : str_leb a b = true <-> bytes_le a b.
Proof.
  unfold bytes_le. revert b. induction a as [|x a IH]; intros [|y b]; cbn.
  - tauto.
  - split; [by right|done].
  - split; [done|]. by intros [?|?].
  - rewrite orb_true_iff, andb_true_iff, N.ltb_lt, N.eqb_eq, IH. split.
    + intros [?|[-> [->|?]]]; auto.
    + intros [[= -> ->]|[?|[-> ?]]]; auto.
Qed.
Lemma sort_strings_eq l : sort_strings l = merge_sort bytes_le l.
Proof.
  assert (Ha : forall a b, Is_true (str_leb a b) <-> bytes_le a b) by (intros; rewrite Is_true_true; apply str_leb_spec).
  apply (StronglySorted_unique bytes_le).
  - assert (Hs : StronglySorted (fun a b => Is_true (str_leb a b)) (sort_strings l)).
    { apply Sorted_StronglySorted; [intros a b c; rewrite !Ha; apply bytes_le_trans|].
      assert (Total (fun a b => Is_true (str_leb a b))) by (intros a b; rewrite !Ha; apply bytes_le_total).
      apply (Sorted_merge_sort (fun a b => Is_true (str_leb a b))). }
    induction Hs as [|x l' Hs IH Hx]; constructor; [done|]. eapply Forall_impl; [done|]. intros y. apply Ha.
  - apply (StronglySorted_merge_sort bytes_le).
  - unfold sort_strings. by rewrite !merge_sort_Permutation.
Qed.
Lemma sorted_lt l : StronglySorted bytes_le l -> NoDup l -> StronglySorted bytes_lt l.
Proof.
  induction 1 as [|x l Hs IH Hx]; [constructor|]. intros [Hn Hd]%NoDup_cons. constructor; [by apply IH|].
  rewrite Forall_forall in Hx |- *. intros y Hy. destruct (Hx y Hy) as [->|?]; done.
Qed.
Lemma sorted_lt_nodup l : StronglySorted bytes_lt l -> NoDup l.
Proof.
  induction 1 as [|x l Hs IH Hx]; [constructor|]. apply NoDup_cons. split; [|done]. intros Hin.
  rewrite Forall_forall in Hx. by eapply bytes_lt_irrefl, Hx.
Qed.
Lemma sorted_lt_le l : StronglySorted bytes_lt l -> StronglySorted bytes_le l.
Proof. induction 1 as [|x l Hs IH Hx]; constructor; [done|]. eapply Forall_impl; [done|]. intros y. by right. Qed.

Section keys.
Context {A : Type}.
Implicit Types m : gmap (list N) A.
Lemma is_keys_unique m ks ks' : is_keys m ks -> is_keys m ks' -> ks = ks'.
Proof.
  intros [Hs He] [Hs' He']. apply (StronglySorted_unique bytes_le); [by apply sorted_lt_le..|].
  apply NoDup_Permutation; [by apply sorted_lt_nodup..|]. intros k. by rewrite He, He'.
Qed.
Lemma is_keys_sort m l : NoDup l -> (forall k, k ∈ l <-> is_Some (m !! k)) -> is_keys m (merge_sort bytes_le l).
Proof.
  intros Hd He. split.
  - apply sorted_lt; [apply (StronglySorted_merge_sort bytes_le)|]. by rewrite merge_sort_Permutation.
  - intros k. by rewrite merge_sort_Permutation.
Qed.
Lemma sorted_keys_is m : is_keys m (sorted_keys m).
Proof.
  apply is_keys_sort; [apply NoDup_fst_map_to_list|]. intros k. rewrite elem_of_list_fmap. split.
  - intros ([k' x]&->&Hx). apply elem_of_map_to_list in Hx. by exists x.
  - intros [x Hx]. exists (k, x). split; [done|]. by apply elem_of_map_to_list.
Qed.
Lemma sorted_keys_eq m ks : is_keys m ks -> ks = sorted_keys m.
Proof. intros Hk. by eapply is_keys_unique, sorted_keys_is. Qed.
Lemma elem_sorted_keys m k : k ∈ sorted_keys m <-> is_Some (m !! k).
Proof. apply sorted_keys_is. Qed.
Lemma nodup_sorted_keys m : NoDup (sorted_keys m).
Proof. apply sorted_lt_nodup, sorted_keys_is. Qed.
Lemma sort_keys m l : NoDup l -> (forall k, k ∈ l <-> is_Some (m !! k)) -> sort_strings l = sorted_keys m.
Proof. intros Hd He. rewrite sort_strings_eq. by apply sorted_keys_eq, is_keys_sort. Qed.
Lemma addKey_spec m k x : m !! k = None -> addKey (sorted_keys m) k = sorted_keys (<[k := x]> m).
Proof.
  intros Hn. apply sort_keys.
  - apply NoDup_app. split; [apply nodup_sorted_keys|]. split; [|apply NoDup_singleton].
    intros k' Hk' ->%elem_of_list_singleton. apply elem_sorted_keys in Hk' as [? ?]. congruence.
  - intros k'. rewrite elem_of_app, elem_of_list_singleton, elem_sorted_keys, lookup_insert_is_Some.
    destruct (decide (k = k')) as [->|]; [tauto|]. split; [intros [?|?]; [tauto|congruence]|intros [?|[_ ?]]; [congruence|tauto]].
Qed.
Lemma insert_keys m k x : is_Some (m !! k) -> sorted_keys (<[k := x]> m) = sorted_keys m.
Proof.
  intros Hk. apply sorted_keys_eq. destruct (sorted_keys_is (<[k := x]> m)) as [Hs He]. split; [done|].
  intros k'. rewrite He, lookup_insert_is_Some. destruct (decide (k = k')) as [->|]; tauto.
Qed.
End keys.

Lemma search_loop_mono f n : forall fuel i j, (j - i <= fuel)%nat -> (i <= j)%nat -> (j <= n)%nat ->
  (forall a b, (a <= b < n)%nat -> f a = true -> f b = true) ->
  let r := search_loop fuel f i j in
  (i <= r <= j)%nat /\ (forall a, (i <= a < r)%nat -> f a = false) /\ ((r < j)%nat -> f r = true).
Proof.
  induction fuel as [|fu IH]; intros i j Hf Hij Hjn Hm; cbn [search_loop].
  - split; [lia|]. split; [intros; lia|intros; lia].
  - destruct (Nat.ltb_spec i j) as [Hlt|Hge]; [|split; [lia|split; intros; lia]].
    pose proof (Nat.div_lt_upper_bound (i + j) 2 j ltac:(lia) ltac:(lia)) as H1.
    pose proof (Nat.div_le_lower_bound (i + j) 2 i ltac:(lia) ltac:(lia)) as H2.
    set (h := ((i + j) / 2)%nat) in *. clearbody h.
    destruct (f h) eqn:Hh.
    + destruct (IH i h) as (A & B & C); [lia|lia|lia|done|]. split; [lia|]. split; [done|].
      intros Hr. destruct (Nat.eq_dec (search_loop fu f i h) h) as [->|]; [done|]. apply C. lia.
    + destruct (IH (S h) j) as (A & B & C); [lia|lia|lia|done|]. split; [lia|]. split; [|done].
      intros a Ha. destruct (Nat.le_gt_cases a h) as [Hle|Hgt]; [|apply B; lia].
      destruct (f a) eqn:Hfa; [|done]. rewrite (Hm a h) in Hh; [done|lia|done].
Qed.
Lemma sorted_nth l i j : StronglySorted bytes_lt l -> (i < j < length l)%nat -> bytes_lt (nth i l []) (nth j l []).
Proof.
  intros Hs. revert i j. induction Hs as [|x l Hs IH Hx]; intros i j Hij; cbn in Hij; [lia|].
  destruct j as [|j]; [lia|]. destruct i as [|i]; cbn [nth]; [|apply IH; lia].
  rewrite Forall_forall in Hx. apply Hx. apply elem_of_list_In, nth_In. lia.
Qed.
Lemma deleteKey_spec {A} (m : gmap (list N) A) k : is_Some (m !! k) -> deleteKey (sorted_keys m) k = Some (sorted_keys (delete k m)).
Proof.
  intros Hk. destruct (sorted_keys_is m) as [Hs He]. set (l := sorted_keys m) in *. clearbody l.
  assert (Hin : k ∈ l) by (by apply He). apply elem_of_list_lookup in Hin as [q Hq].
  assert (Hql : (q < length l)%nat) by (by apply lookup_lt_Some in Hq).
  assert (Hnq : nth q l [] = k) by (by apply nth_lookup_Some).
  unfold deleteKey, search_strings, sort_search.
  set (f := fun i => str_leb k (nth i l [])).
  assert (Hf : forall i, (i < length l)%nat -> f i = true <-> (q <= i)%nat).
  { intros i Hi. unfold f. rewrite str_leb_spec. rewrite <- Hnq. split.
    - intros Hle. destruct (Nat.le_gt_cases q i) as [|Hlt]; [done|]. exfalso.
      pose proof (sorted_nth l i q Hs ltac:(lia)) as H1. destruct Hle as [Heq|H2].
      + rewrite Heq in H1. by eapply bytes_lt_irrefl.
      + by eapply bytes_lt_irrefl, bytes_lt_trans.
    - intros Hle. destruct (Nat.eq_dec q i) as [->|]; [by left|right]. apply sorted_nth; [done|lia]. }
  destruct (search_loop_mono f (length l) (length l) 0 (length l)) as (A1&A2&A3); [lia|lia|lia| |].
  { intros a b Hab Ha. apply Hf; [lia|]. apply Hf in Ha; lia. }
  cbv zeta in A1, A2, A3. set (r := search_loop _ _ _ _) in *.
  assert (r = q) as ->.
  { destruct (Nat.lt_trichotomy r q) as [?|[?|?]]; [|done|].
    - assert (f r = true) as Hr by (apply A3; lia). apply Hf in Hr; lia.
    - assert (f q = false) as Hr by (apply A2; lia). assert (f q = true) by (apply Hf; lia). congruence. }
  rewrite Hq, decide_True by done. f_equal. apply sorted_keys_eq.
  pose proof (take_drop_middle l q k Hq) as Hl. rewrite <- Hl in Hs. split.
  - apply StronglySorted_app_inv_l in Hs as Hs1. apply StronglySorted_app_inv_r in Hs as Hs2. inversion Hs2; subst.
    clear -Hs Hs1 H1. induction (take q l) as [|x t IH]; [done|]. cbn in *. inversion Hs; subst. inversion Hs1; subst. constructor; [by apply IH|].
    apply Forall_app in H3 as [? H3]. apply Forall_cons in H3 as [_ ?]. by apply Forall_app.
  - intros k'. apply sorted_lt_nodup in Hs. rewrite lookup_delete_is_Some, <- He.
    assert (Hl' : k' ∈ l <-> k' ∈ take q l ++ k :: drop (S q) l) by (by rewrite Hl). rewrite Hl'.
    rewrite !elem_of_app, elem_of_cons. apply NoDup_app in Hs as (_&Hd1&Hd2%NoDup_cons). destruct Hd2 as [Hd2 _]. split.
    + intros Hx. split; [|tauto]. intros ->. destruct Hx as [Hx|Hx]; [|done]. apply (Hd1 _ Hx). by left.
    + intros [Hne [Hx|[Hx|Hx]]]; [by left|congruence|by right].
Qed.

(* --------------------------------------------------------- refinement *)
Section combined.
Context {V : Type} (E : env V) (HE : env_ok E).
Context (K : list N -> Prop) (HK : prefix_free K) (HKb : forall k, K k -> is_bytes k) (HKl : forall k, K k -> (length k <= 48)%nat).
Local Notation root := (root_of (eH E) (ertl E) (evhash E)).
Local Notation root_inputs := (root_inputs (eH E) (ertl E) (evhash E)).
Context (L : list (gmap (list N) V)) (HL : forall m, m ∈ L -> dom_in K m).
Context (Hinj : inj_on (eH E) (concat (map root_inputs (∅ :: L)))).
Context (vals : list V) (Hvals : forall m k x, m ∈ L -> m !! k = Some x -> x ∈ vals) (Hvinj : vinj E vals).
Local Notation prel := (prel E K L).
Local Notation trel := (trel E K).
Local Notation nrep := (nrep E).
Local Notation kept := (kept E).
Implicit Types (p : pool V) (ts : list (@trie V)) (mp : @mpool V) (m : gmap (list N) nat) (st : store).

Lemma croot_len (c : gmap (list N) V) : length (root c) = 32%nat.
Proof. unfold root_of. destruct (radix_of c). apply rhash_len. done. Qed.

Definition inrange p m : Prop := forall k j, m !! k = Some j -> is_Some (p_maps p !! j).
Definition ents p m (ks : list (list N)) : list (list N * gmap (list N) V) := map (fun k => (k, contents p (default 0%nat (m !! k)))) ks.

Lemma hash_list_spec p m st ks : forall ts, Forall2 (trel st) ts (p_maps p) -> (forall c, c ∈ map fst (p_maps p) -> c ∈ L) -> inrange p m ->
  (forall k, k ∈ ks -> is_Some (m !! k)) ->
  exists ts', hash_list E m ks ts = (ts', map (fun e => (e.1, root e.2)) (ents p m ks)) /\ Forall2 (trel st) ts' (p_maps p).
Proof.
  induction ks as [|k ks IH]; intros ts Hts HinL Hr Hks; cbn [hash_list]; [by exists ts|].
  destruct (Hks k) as [j Hj]; [by left|]. rewrite Hj. destruct (Hr k j Hj) as [[c b] Hc].
  destruct (Forall2_lookup_r _ _ _ _ _ Hts Hc) as (t&Ht&(Hn&Hd&Hct)). rewrite Ht. cbn [fst snd] in *.
  assert (HcL : c ∈ L). { apply HinL. apply elem_of_list_fmap. exists (c, b). split; [done|]. by eapply elem_of_list_lookup_2. }
  unfold HashValue. destruct (hash_nrep E HE K HK HKb HKl L HL Hinj vals Hvals Hvinj st (t_root t) c Hn HcL) as (n'&->&Hn').
  destruct (IH (<[j := Trie n' (t_count t) (t_gen t)]> ts)) as (ts'&->&Hts'); [|done|done|intros; apply Hks; by right|].
  { rewrite <- (list_insert_id (p_maps p) j (c, b)) by done. apply Forall2_insert; [done|]. done. }
  exists ts'. split; [|done]. do 2 f_equal. cbn. rewrite Hj. cbn. unfold contents. by rewrite Hc.
Qed.

Lemma not_dirty_kept st (n : node V) (c : gmap (list N) V) : nrep st n c -> n_dirty n = false -> kept st c.
Proof.
  intros [[-> _]|[Hc Hr]] Hd; [by left|right]. inversion Hr as [? ? ? Hs|? ? ? ? ? ? ? ? ? ? ? ? ? ? ? ? ? ? Hst]; subst; [done|].
  cbn in Hd. subst. apply Hst. done.
Qed.

Lemma commit_list_spec p m ks : forall st ts, store_ok E (QL L) st -> Forall2 (trel st) ts (p_maps p) -> (forall c, c ∈ map fst (p_maps p) -> c ∈ L) -> inrange p m ->
  exists st' ts', commit_list E m ks st ts = (st', ts', true) /\ st_le st st' /\ store_ok E (QL L) st' /\ Forall2 (trel st') ts' (p_maps p) /\
    (forall k j c b, k ∈ ks -> m !! k = Some j -> p_maps p !! j = Some (c, b) -> kept st' c).
Proof.
  induction ks as [|k ks IH]; intros st ts Hok Hts HinL Hr; cbn [commit_list].
  - exists st, ts. split; [done|]. split; [apply st_le_refl|]. split; [done|]. split; [done|]. intros k j c b Hk. by apply elem_of_nil in Hk.
  - destruct (m !! k) as [j|] eqn:Hj.
    2:{ destruct (IH st ts Hok Hts HinL Hr) as (st'&ts'&->&Hle&Hok'&Hts'&Hk). exists st', ts'. do 4 (split; [done|]).
        intros k' j' c b [->|Hk']%elem_of_cons Hj'; [congruence|by eapply Hk]. }
    destruct (Hr k j Hj) as [[c b] Hc]. destruct (Forall2_lookup_r _ _ _ _ _ Hts Hc) as (t&Ht&(Hn&Hd&Hct)). rewrite Ht. cbn [fst snd] in *.
    assert (HcL : c ∈ L). { apply HinL. apply elem_of_list_fmap. exists (c, b). split; [done|]. by eapply elem_of_list_lookup_2. }
    unfold IsDirty. destruct (n_dirty (t_root t)) eqn:Hdirty.
    + unfold Commit. destruct (commit_nrep E HE K HK HKb HKl L HL Hinj vals Hvals Hvinj st (t_gen t) (t_root t) c Hn HcL Hok) as (st1&n'&->&Hle&Hok1&Hn'&Hkept&_).
      set (t1 := Trie _ _ _). destruct (IH st1 (<[j := t1]> ts)) as (st'&ts'&->&Hle'&Hok'&Hts'&Hk); [done| |done|done|].
      { rewrite <- (list_insert_id (p_maps p) j (c, b)) by done. apply Forall2_insert; [|done].
        eapply Forall2_impl; [done|]. intros. by eapply trel_mono. }
      exists st', ts'. split; [done|]. split; [by eapply st_le_trans|]. do 2 (split; [done|]).
      intros k' j' c' b' [->|Hk']%elem_of_cons Hj' Hc'; [|by eapply Hk].
      rewrite Hj in Hj'. injection Hj' as <-. rewrite Hc in Hc'. injection Hc' as <- <-. by eapply kept_mono.
    + destruct (IH st ts Hok Hts HinL Hr) as (st'&ts'&->&Hle&Hok'&Hts'&Hk). exists st', ts'. do 4 (split; [done|]).
      intros k' j' c' b' [->|Hk']%elem_of_cons Hj' Hc'; [|by eapply Hk].
      rewrite Hj in Hj'. injection Hj' as <-. rewrite Hc in Hc'. injection Hc' as <- <-. eapply kept_mono; [done|]. by eapply not_dirty_kept.
Qed.

Lemma computeHash_spec p m st ts index proofs : Forall2 (trel st) ts (p_maps p) -> (forall c, c ∈ map fst (p_maps p) -> c ∈ L) -> inrange p m ->
  (proofs = None /\ index = 0%Z \/ proofs = Some mp_new /\ (0 <= index < Z.of_nat (length (sorted_keys m)))%Z) ->
  exists ts' pr, computeHash E (CTrie (sorted_keys m) m) ts index proofs = Some (ts', proot (eH E) (map (fun e => root e.2) (ents p m (sorted_keys m))), pr) /\
    Forall2 (trel st) ts' (p_maps p) /\
    (proofs <> None -> exists q, pr = Some q /\ mp_proof (eH E) q (nth (Z.to_nat index) (map (fun e => root e.2) (ents p m (sorted_keys m))) []) =
       Some (proot (eH E) (map (fun e => root e.2) (ents p m (sorted_keys m))))).
Proof.
  intros Hts HinL Hr Hi. unfold computeHash. cbn [c_keys c_map].
  destruct (sorted_keys m) as [|k0 ks0] eqn:Hks.
  { cbn [length] in Hi. destruct Hi as [[-> _]|[_ Hi]]; [|lia]. exists ts, None. split; [done|]. split; [done|done]. }
  rewrite <- Hks in *. destruct (hash_list_spec p m st (sorted_keys m) ts Hts HinL Hr) as (ts'&->&Hts').
  { intros k. by apply elem_sorted_keys. }
  set (hs := map (fun e => root e.2) (ents p m (sorted_keys m))).
  assert (Hm : map snd (map (fun e => (e.1, root e.2)) (ents p m (sorted_keys m))) = hs) by (unfold hs; by rewrite map_map). rewrite Hm.
  assert (H32 : all32 hs). { apply Forall_forall. intros h Hh. apply elem_of_list_fmap in Hh as (e&->&_). apply croot_len. }
  assert (Hlen : length hs = length (sorted_keys m)) by (unfold hs, ents; by rewrite !map_length).
  destruct Hi as [[-> ->]|[-> Hi]].
  - destruct (C29_root_without_proof (eH E) hs (ok_H E HE) H32) as [Hc _]. rewrite Hc by (rewrite Hlen, Hks; cbn; lia).
    exists ts', None. split; [done|]. split; [done|done].
  - destruct (C29_complete_proof_verifies (eH E) hs (Z.to_nat index) (ok_H E HE) H32) as (q&Hq&Hv); [lia|].
    rewrite Z2Nat.id in Hq by lia. rewrite Hq. exists ts', (Some q). split; [done|]. split; [done|]. intros _. by exists q.
Qed.

Definition ser (l : list (list N * gmap (list N) V)) : list N := concat (map (fun e => ertl E e.1 ++ ertl E (root e.2)) l).
Lemma ertl_nonempty b : ertl E b <> [].
Proof.
  intros He. set (b' := 0 :: b). pose proof (ok_rtl E HE b (ertl E b')) as H1. rewrite He in H1. cbn [app] in H1.
  pose proof (ok_rtl E HE b' []) as H2. rewrite app_nil_r in H2. rewrite H2 in H1. injection H1 as H1 _.
  apply (f_equal length) in H1. cbn in H1. lia.
Qed.
Lemma ser_cons k c l : ser ((k, c) :: l) = ertl E k ++ ertl E (root c) ++ ser l.
Proof. unfold ser. cbn [map concat fst snd]. by rewrite <- app_assoc. Qed.
Lemma ser_nil l : ser l = [] <-> l = [].
Proof.
  split; [|by intros ->]. destruct l as [|[k c] l]; [done|]. rewrite ser_cons. intros He. apply app_eq_nil in He as [He _]. by apply ertl_nonempty in He.
Qed.
Lemma ser_len l : (length l <= length (ser l))%nat.
Proof.
  induction l as [|[k c] l IH]; [cbn; lia|]. rewrite ser_cons, !app_length. cbn [length].
  assert (length (ertl E k) <> 0)%nat; [|lia]. intros Hz%nil_length_inv. by apply ertl_nonempty in Hz.
Qed.

Definition keys_of (ks : list (list N)) m : Prop := NoDup ks /\ forall k, k ∈ ks <-> is_Some (m !! k).
Lemma load_loop_spec st l : forall fuel p mp ks m, (length l <= fuel)%nat -> mp_store mp = st -> prel mp p -> keys_of ks m -> inrange p m ->
  (forall k c, (k, c) ∈ l -> kept st c /\ dom_in K c) ->
  exists mp', load_loop E fuel (ser l) (CTrie ks m) mp = Some (CTrie (sorted_keys (load l p m).2) (load l p m).2, mp') /\
    mp_store mp' = st /\ prel mp' (load l p m).1 /\ inrange (load l p m).1 (load l p m).2.
Proof.
  induction l as [|[k c] l IH]; intros fuel p mp ks m Hf Hst Hp [Hd Hk] Hr Hl.
  - cbn [load fst snd]. exists mp. split; [|done]. destruct fuel; cbn; by rewrite (sort_keys m).
  - destruct fuel as [|fuel]; [cbn in Hf; lia|]. assert (Hne : ser ((k, c) :: l) <> []) by (by rewrite ser_nil).
    cbn [load_loop]. destruct (ser ((k, c) :: l)) as [|x xs] eqn:Hs; [done|]. rewrite <- Hs. clear Hne.
    rewrite ser_cons, !(ok_rtl E HE). cbn [c_keys c_map load].
    destruct (Hl k c) as [Hkc Hdc]; [by left|]. cbn [length] in Hf.
    destruct (m !! k) as [j|] eqn:Hmk.
    + apply IH; [lia|done|done|done|done|]. intros k1 c1 Hkc1. apply (Hl k1 c1). by right.
    + destruct Hp as [P1 P2 P3]. assert (length (mp_tries mp) = length (p_maps p)) as -> by (by eapply Forall2_length). apply IH; [lia|done| | | |].
      * split; cbn; [done| |done]. apply Forall2_app; [done|]. constructor; [|constructor]. split; cbn; [|split; [done|lia]].
        rewrite Hst. by apply open_nrep.
      * split.
        -- apply NoDup_app. split; [done|]. split; [|apply NoDup_singleton]. intros k' Hk' ->%elem_of_list_singleton. apply Hk in Hk' as [? ?]. congruence.
        -- intros k'. rewrite elem_of_app, elem_of_list_singleton, Hk, lookup_insert_is_Some.
           destruct (decide (k = k')) as [->|]; [tauto|]. split; [intros [?|?]; [tauto|congruence]|intros [?|[_ ?]]; [congruence|tauto]].
      * intros k' j'. cbn. rewrite lookup_insert_Some. intros [[<- <-]|[_ Hj']].
        -- rewrite lookup_app_r, Nat.sub_diag by lia. by eexists.
        -- destruct (Hr k' j' Hj') as [x' Hx']. exists x'. by apply lookup_app_l_Some.
      * intros k1 c1 Hkc1. apply (Hl k1 c1). by right.
Qed.

Definition it_rel (it : option (list (list N) * Z)) (ai : option (option (list N) * list (list N))) : Prop :=
  match it, ai with
  | None, None => True
  | Some (ks, pos), Some (cur, rest) => (-1 <= pos < Z.max 0 (Z.of_nat (length ks)))%Z /\ rest = drop (Z.to_nat (pos + 1)) ks /\
      cur = (if (pos <? 0)%Z then None else ks !! Z.to_nat pos)
  | _, _ => False
  end.
Record crel (s : cstate) (a : cmap V) : Prop := CRel {
  cr_pool : prel (cs_pool s) (b_pool a);
  cr_map : c_map (cs_c s) = b_map a;
  cr_keys : c_keys (cs_c s) = sorted_keys (b_map a);
  cr_range : inrange (b_pool a) (b_map a);
  cr_adapter : cs_adapter s = ser <$> b_saved a;
  cr_saved : forall h l k c, b_saved a !! h = Some l -> (k, c) ∈ l -> kept (mp_store (cs_pool s)) c /\ dom_in K c;
  cr_it : it_rel (cs_it s) (b_it a);
}.

Lemma c_Next_spec m ks : forall fuel pos, (-1 <= pos < Z.max 0 (Z.of_nat (length ks)))%Z -> (length ks - Z.to_nat (pos + 1) <= fuel)%nat ->
  exists pos', c_Next fuel m ks pos = Some (pos', (it_next m (if (pos <? 0)%Z then None else ks !! Z.to_nat pos) (drop (Z.to_nat (pos + 1)) ks)).2) /\
    it_rel (Some (ks, pos')) (Some (it_next m (if (pos <? 0)%Z then None else ks !! Z.to_nat pos) (drop (Z.to_nat (pos + 1)) ks)).1).
Proof.
  induction fuel as [|f IH]; intros pos Hp Hf; cbn [c_Next].
  - destruct (Z.ltb_spec pos (Z.of_nat (length ks) - 1)); [lia|]. exists pos. rewrite drop_ge by lia. cbn [it_next fst snd].
    split; [done|]. cbn. split; [done|]. by rewrite drop_ge by lia.
  - destruct (Z.ltb_spec pos (Z.of_nat (length ks) - 1)) as [Hlt|Hge].
    + destruct (Z.ltb_spec (pos + 1) 0); [lia|].
      destruct (lookup_lt_is_Some_2 ks (Z.to_nat (pos + 1))) as [k Hk]; [lia|].
      rewrite (nth_lookup_Some _ _ [] _ Hk), (drop_S _ _ _ Hk). cbn [it_next].
      destruct (m !! k) as [j|] eqn:Hm.
      * exists (pos + 1)%Z. split; [done|]. cbn [fst it_rel]. split; [lia|]. split; [f_equal; lia|].
        destruct (Z.ltb_spec (pos + 1) 0); [lia|done].
      * destruct (IH (pos + 1)%Z) as (pos'&H1&H2); [lia|lia|].
        replace (Z.to_nat (pos + 1 + 1)) with (S (Z.to_nat (pos + 1))) in H1, H2 by lia.
        destruct (Z.ltb_spec (pos + 1) 0); [lia|]. rewrite Hk in H1, H2. by exists pos'.
    + exists pos. rewrite drop_ge by lia. cbn [it_next fst snd]. split; [done|]. cbn. split; [done|]. by rewrite drop_ge by lia.
Qed.

Lemma pstep_mono p j o : forall i, is_Some (p_maps p !! i) -> is_Some (p_maps (pstep root p (j, o)).1 !! i).
Proof.
  intros i Hi. rewrite lookup_lt_is_Some in Hi |- *.
  enough (length (p_maps p) <= length (p_maps (pstep root p (j, o)).1))%nat by lia. unfold pstep.
  destruct (p_maps p !! j) as [[c b]|]; [|done].
  destruct o; cbn; rewrite ?insert_length, ?app_length; try lia.
  all: destruct (p_roots p !! _); cbn; rewrite ?app_length; lia.
Qed.

Lemma mstep_store mp p j o mp' ob : prel mp p -> (forall c, c ∈ map fst (p_maps p) -> c ∈ L) -> mstep E mp (j, o) = Some (mp', ob) -> st_le (mp_store mp) (mp_store mp').
Proof.
  intros [Hst Htr Hro] HinL. unfold mstep.
  destruct (mp_tries mp !! j) as [t|] eqn:Ht; [|by intros [= <- _]].
  destruct (Forall2_lookup_l _ _ _ _ _ Htr Ht) as ([c b]&Hj&(Hn&Hd&Hc)). cbn [fst snd] in *.
  assert (HmL : c ∈ L).
  { apply HinL. apply elem_of_list_fmap. exists (c, b). split; [done|]. by apply elem_of_list_lookup_2 in Hj. }
  pose proof (st_le_refl (mp_store mp)) as Hrefl.
  destruct o as [k v|k|k| | | | | | |i|i].
  - destruct (Put _ _ _ _ _) as [[? ?]|]; [|done]. by intros [= <- _].
  - destruct (TrieModel.Delete _ _ _ _) as [[[? ?] ?]|]; [|done]. by intros [= <- _].
  - destruct (Get _ _ _ _). by intros [= <- _].
  - destruct (HashValue _ _). by intros [= <- _].
  - unfold Commit. destruct (commit_nrep E HE K HK HKb HKl L HL Hinj vals Hvals Hvinj (mp_store mp) (t_gen t) (t_root t) c Hn HmL Hst) as (st'&n'&->&Hle&_).
    destruct (HashValue _ _). by intros [= <- _].
  - by intros [= <- _].
  - by intros [= <- _].
  - by intros [= <- _].
  - unfold Clone, Commit. destruct (commit_nrep E HE K HK HKb HKl L HL Hinj vals Hvals Hvinj (mp_store mp) (t_gen t) (t_root t) c Hn HmL Hst) as (st'&n'&->&Hle&_).
    destruct (HashValue _ _). by intros [= <- _].
  - destruct (mp_roots mp !! i); by intros [= <- _].
  - destruct (mp_roots mp !! i); by intros [= <- _].
Qed.

Context (iter : list (list N) -> list (list N)) (Hiter : forall l k, k ∈ l -> k ∈ iter l).
Lemma cstep_spec s a x : crel s a -> (forall k, k ∈ ccall_keys x -> K k) -> (forall c, c ∈ map fst (p_maps (b_pool a)) -> c ∈ L) ->
  exists s', cstep E iter s x = Some (s', (cspec (eH E) root a x).2) /\ crel s' (cspec (eH E) root a x).1.
Proof.
  intros [Hp Hm Hks Hr Had Hsv Hit] HKx HinL.
  assert (Hc : cs_c s = CTrie (sorted_keys (b_map a)) (b_map a)). { destruct (cs_c s) as [ks mm]. cbn in *. by subst. }
  destruct s as [mp c ad it]. cbn [cs_pool cs_c cs_adapter cs_it] in *. subst c ad.
  destruct x as [j o|k j|k|k| | |k| | |h| | |]; cbn [cstep cspec cs_pool cs_c cs_adapter cs_it c_keys c_map].
  - destruct (step_rel E HE K HK HKb HKl L HL Hinj vals Hvals Hvinj mp (b_pool a) j o Hp HKx HinL) as (mp'&Hst&Hp'). rewrite Hst.
    pose proof (mstep_store _ _ _ _ _ _ Hp HinL Hst) as Hle. pose proof (pstep_mono (b_pool a) j o) as Hmono.
    destruct (pstep root (b_pool a) (j, o)) as [p' ob]. cbn [fst snd] in *. eexists. split; [done|]. split; cbn; try done.
    + intros k j' Hj'. eapply Hmono, Hr, Hj'.
    + intros h l k c Hl Hkc. destruct (Hsv h l k c Hl Hkc). split; [by eapply kept_mono|done].
  - assert (is_Some (mp_tries mp !! j) <-> is_Some (p_maps (b_pool a) !! j)) as Hiff.
    { rewrite !lookup_lt_is_Some. by rewrite (Forall2_length _ _ _ (pr_tries _ _ _ _ _ Hp)). }
    destruct (p_maps (b_pool a) !! j) as [cb|] eqn:Hj.
    + destruct (proj2 Hiff ltac:(by eexists)) as [t ->]. eexists. split; [done|]. split; cbn; try done.
      * destruct (b_map a !! k) as [j'|] eqn:Hk; [symmetry; apply insert_keys; by eexists|by apply addKey_spec].
      * intros k' j'. rewrite lookup_insert_Some. intros [[<- <-]|[_ Hj']]; [by eexists|by eapply Hr].
    + destruct (mp_tries mp !! j) as [t|]; [destruct (proj1 Hiff ltac:(by eexists)); done|]. eexists. split; [done|]. by split.
  - unfold c_Delete. cbn [c_map c_keys]. destruct (b_map a !! k) as [j|] eqn:Hk.
    + rewrite deleteKey_spec by (by eexists). rewrite bool_decide_eq_true_2 by (by eexists). eexists. split; [done|]. split; cbn; try done.
      intros k' j'. rewrite lookup_delete_Some. intros [_ Hj']. by eapply Hr.
    + rewrite bool_decide_eq_false_2 by (by intros [? ?]). eexists. split; [done|]. split; cbn; try done; rewrite delete_notin by done; done.
  - eexists. split; [done|]. by split.
  - eexists. split; [done|]. by split.
  - destruct (computeHash_spec (b_pool a) (b_map a) (mp_store mp) (mp_tries mp) 0 None) as (ts'&pr&->&Hts'&_);
      [apply Hp|done|done|by left|]. eexists. split; [done|]. split; try done. destruct Hp as [? ? ?]. by split.
  - unfold c_GetProof. cbn [c_keys c_map]. destruct (list_find _ _) as [[i k']|] eqn:Hfind.
    + apply list_find_Some in Hfind as (Hi&->&_). assert (Hsome : is_Some (b_map a !! k)) by (by apply elem_sorted_keys; eapply elem_of_list_lookup_2).
      destruct Hsome as [j Hj]. pose proof (lookup_lt_Some _ _ _ Hi) as Hil.
      destruct (computeHash_spec (b_pool a) (b_map a) (mp_store mp) (mp_tries mp) (Z.of_nat i) (Some mp_new)) as (ts'&pr&->&Hts'&Hpr);
        [apply Hp|done|done|right; split; [done|lia]|]. destruct (Hpr ltac:(done)) as (q&->&Hq). rewrite Hj.
      destruct (Hr k j Hj) as [[c b] Hc]. destruct (Forall2_lookup_r _ _ _ _ _ Hts' Hc) as (t&Ht&(Hn&Hd&Hct)). rewrite Ht. cbn [fst snd] in *.
      assert (HcL : c ∈ L). { apply HinL. apply elem_of_list_fmap. exists (c, b). split; [done|]. by eapply elem_of_list_lookup_2. }
      unfold HashValue. destruct (hash_nrep E HE K HK HKb HKl L HL Hinj vals Hvals Hvinj (mp_store mp) (t_root t) c Hn HcL) as (n'&->&Hn'). cbn [snd].
      assert (Hnth : nth (Z.to_nat (Z.of_nat i)) (map (fun e => root e.2) (ents (b_pool a) (b_map a) (sorted_keys (b_map a)))) [] = root c).
      { rewrite Nat2Z.id. apply nth_lookup_Some. unfold ents. rewrite !list_lookup_fmap, Hi. cbn. rewrite Hj. cbn. unfold contents. by rewrite Hc. }
      rewrite Hnth in Hq. rewrite Hq. eexists. split; [done|]. split; try done. destruct Hp as [? ? ?]. by split.
    + assert (Hn : b_map a !! k = None).
      { destruct (b_map a !! k) as [j|] eqn:Hj; [|done]. exfalso.
        assert (k ∈ sorted_keys (b_map a)) as Hin by (apply elem_sorted_keys; by eexists).
        apply (list_find_None (fun k' => k' = k)) in Hfind. rewrite Forall_forall in Hfind. by apply (Hfind k Hin). }
      rewrite Hn. eexists. split; [done|]. split; try done. destruct Hp as [? ? ?]. by split.
  - unfold c_Commit. cbn [cs_pool cs_c cs_adapter cs_it c_map c_keys].
    destruct Hp as [Hok Htr Hro].
    destruct (commit_list_spec (b_pool a) (b_map a) (iter (map fst (map_to_list (b_map a)))) (mp_store mp) (mp_tries mp) Hok Htr HinL Hr) as (st'&ts'&->&Hle&Hok'&Htr'&Hkept).
    cbn [negb]. destruct (hash_list_spec (b_pool a) (b_map a) st' (sorted_keys (b_map a)) ts' Htr' HinL Hr) as (ts2&->&Htr2).
    { intros k. by apply elem_sorted_keys. }
    destruct (computeHash_spec (b_pool a) (b_map a) st' ts2 0 None) as (ts3&pr&->&Htr3&_); [done|done|done|by left|].
    eexists. split; [done|]. split; cbn [b_pool b_map b_saved b_it fst cs_pool cs_c cs_adapter cs_it c_map c_keys mp_store]; try done.
    + split; [done|done|]. cbn. eapply Forall2_impl; [done|]. intros. by eapply rrel_mono.
    + rewrite fmap_insert. f_equal. unfold ser, entries, ents. by rewrite !map_map.
    + intros h l k c. rewrite lookup_insert_Some. intros [[_ <-]|[_ Hl]] Hkc.
      * unfold entries in Hkc. apply elem_of_list_fmap in Hkc as (k'&[= -> ->]&Hk'). apply elem_sorted_keys in Hk' as [j Hj]. rewrite Hj. cbn.
        destruct (Hr k' j Hj) as [[c b] Hc]. unfold contents. rewrite Hc. split.
        -- eapply Hkept; [|done|done]. apply Hiter. apply elem_of_list_fmap. exists (k', j). split; [done|]. by apply elem_of_map_to_list.
        -- apply HL, HinL. apply elem_of_list_fmap. exists (c, b). split; [done|]. by eapply elem_of_list_lookup_2.
      * destruct (Hsv h l k c Hl Hkc). split; [by eapply kept_mono|done].
  - eexists. split; [done|]. split; cbn; try done.
  - unfold c_Init. cbn [cs_pool cs_c cs_adapter cs_it]. rewrite lookup_fmap. destruct (b_saved a !! h) as [l|] eqn:Hl; cbn [fmap option_fmap option_map].
    2:{ eexists. split; [done|]. by split. }
    destruct l as [|e l]. { cbn. eexists. split; [done|]. by split. }
    destruct (ser (e :: l)) as [|x0 xs] eqn:Hser; [by apply ser_nil in Hser|]. rewrite <- Hser.
    destruct (load_loop_spec (mp_store mp) (e :: l) (length (ser (e :: l))) (b_pool a) mp (sorted_keys (b_map a)) (b_map a)) as (mp'&->&Hst'&Hp'&Hr');
      [apply ser_len|done|done|split; [apply nodup_sorted_keys|intros; apply elem_sorted_keys]|done|intros k c Hkc; by eapply Hsv|].
    destruct (load (e :: l) (b_pool a) (b_map a)) as [p' m'] eqn:Hload. cbn [fst snd] in *. eexists. split; [done|]. split; cbn; try done.
    intros h' l' k c Hl' Hkc. rewrite Hst'. by eapply Hsv.
  - eexists. split; [done|]. split; cbn; try done. split; [lia|done].
  - destruct it as [[ks pos]|], (b_it a) as [[cur rest]|] eqn:Hb; try done.
    + destruct Hit as (Hpos&->&->). destruct (c_Next_spec (b_map a) ks (length ks) pos Hpos) as (pos'&->&Hrel); [lia|].
      destruct (it_next _ _ _) as [[cur' rest'] b]. cbn [fst snd] in *. eexists. split; [done|]. by split.
    + eexists. split; [done|]. split; try done. cbn. by rewrite Hb.
  - destruct it as [[ks pos]|], (b_it a) as [[cur rest]|] eqn:Hb; try done.
    + destruct Hit as (Hpos&->&->). unfold c_Current.
      assert (Hrel : crel (CState mp (CTrie (sorted_keys (b_map a)) (b_map a)) (ser <$> b_saved a) (Some (ks, pos))) a).
      { split; try done. cbn. by rewrite Hb. }
      destruct (Z.ltb_spec pos 0); cbn [orb]; [eexists; split; [done|done]|]. destruct (Z.leb_spec (Z.of_nat (length ks)) pos); [lia|].
      destruct (lookup_lt_is_Some_2 ks (Z.to_nat pos)) as [k Hk]; [lia|]. rewrite Hk, (nth_lookup_Some _ _ [] _ Hk). eexists. split; done.
    + eexists. split; [done|]. split; try done. cbn. by rewrite Hb.
Qed.
End combined.
