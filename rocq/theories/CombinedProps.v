(** C22: SmallCombinedTrie. *)
From Verif Require Import CombinedProofs ToyHash CombinedSpec CombinedModel.

(** The hypotheses on a history: the keys used in the sub-tries are at most 48 bytes
    long and not prefixes of each other, no hash collision among the strings hashed
    for the sub-tries, different values have different hashes. The keys of the
    combined trie itself are arbitrary. *)
Record combined_ok {V} (E : env V) (K : list N -> Prop) (cs : list (ccall V)) : Prop := CombinedOk {
  co_env : env_ok E;
  co_pf : prefix_free K;
  co_key : forall k, K k -> is_bytes k /\ (length k <= 48)%nat;
  co_keys : forall c k, c ∈ cs -> k ∈ ccall_keys c -> K k;
  co_inj : inj_on (eH E) (concat (map (root_inputs (eH E) (ertl E) (evhash E))
             (∅ :: cvisited (eH E) (root_of (eH E) (ertl E) (evhash E)) cs cmap0)));
  co_vinj : forall x y, x ∈ concat (map ccall_vals cs) -> y ∈ concat (map ccall_vals cs) -> evhash E x = evhash E y -> x = y;
}.
(** Go ranges over a map in an arbitrary order, different each time. *)
Definition map_order (iter : nat -> list (list N) -> list (list N)) : Prop := forall n l, iter n l ≡ₚ l.

Section visited.
Context {V : Type} (H : list N -> list N) (root : gmap (list N) V -> list N).
Implicit Types (P : gmap (list N) V -> Prop) (s : cmap V).
Definition call_all P s : Prop := pool_all P (b_pool s) /\ forall h l k c, b_saved s !! h = Some l -> (k, c) ∈ l -> P c.
Lemma load_all P l : forall p m, pool_all P p -> (forall k c, (k, c) ∈ l -> P c) -> pool_all P (load l p m).1.
Proof.
  induction l as [|[k c] l IH]; intros p m Hp Hl; [done|]. cbn [load].
  destruct (m !! k); apply IH; try done; try (intros k' c' ?; apply (Hl k'); by right).
  destruct Hp as [Hp1 Hp2]. split; [|done]. cbn. intros m' Hm'. rewrite map_app, elem_of_app in Hm'. destruct Hm' as [?|Hm']; [by apply Hp1|].
  apply elem_of_list_singleton in Hm' as ->. apply (Hl k). by left.
Qed.
Lemma cspec_all P s c : P ∅ -> call_all P s ->
  (forall k v m, v ∈ ccall_vals c -> k ∈ ccall_keys c -> P m -> P (<[k := v]> m)) -> (forall k m, P m -> P (delete k m)) ->
  call_all P (cspec H root s c).1.
Proof.
  intros He [Hp Hs] Hput Hdel.
  destruct c as [j o|k j|k|k| | |k| | |h| | |]; cbn [cspec fst]; try done.
  - pose proof (pstep_all root P (b_pool s) j o Hp) as Hp'. destruct (pstep root (b_pool s) (j, o)) as [p ob]. cbn [fst] in *. split; [|done]. cbn. apply Hp'.
    + intros k v m ->. apply Hput; cbn; by left.
    + intros k m _. apply Hdel.
  - by destruct (p_maps (b_pool s) !! j).
  - split; [done|]. cbn. intros h l k c. rewrite lookup_insert_Some. intros [[_ <-]|[_ Hl]] Hkc; [|by eapply Hs].
    unfold entries in Hkc. apply elem_of_list_fmap in Hkc as (k'&[= -> ->]&_). unfold contents.
    destruct (p_maps (b_pool s) !! _) as [[m b]|] eqn:Hj; [|done]. apply (proj1 Hp). apply elem_of_list_fmap. exists (m, b). split; [done|]. by eapply elem_of_list_lookup_2.
  - destruct (b_saved s !! h) as [[|e l]|] eqn:Hl; [done| |done].
    pose proof (load_all P (e :: l) (b_pool s) (b_map s) Hp (fun k c Hkc => Hs h _ k c Hl Hkc)) as Hp'.
    destruct (load (e :: l) (b_pool s) (b_map s)) as [p m]. by split.
  - destruct (b_it s) as [[cur l]|]; [|done]. by destruct (it_next _ _ _) as [[? ?] ?].
  - destruct (b_it s) as [[[k|] l]|]; done.
Qed.
Lemma cvisited_all P cs : P ∅ -> forall s, call_all P s ->
  (forall k v m c, c ∈ cs -> v ∈ ccall_vals c -> k ∈ ccall_keys c -> P m -> P (<[k := v]> m)) -> (forall k m, P m -> P (delete k m)) ->
  forall m, m ∈ cvisited H root cs s -> P m.
Proof.
  intros He. induction cs as [|c cs IH]; intros s Hs Hput Hdel m; cbn [cvisited]; rewrite elem_of_app.
  - intros [Hm|Hm]; [by apply (proj1 (proj1 Hs))|by apply elem_of_nil in Hm].
  - intros [Hm|Hm]; [by apply (proj1 (proj1 Hs))|]. revert m Hm. apply IH; [|intros k v m c' Hc'; apply (Hput k v m c'); by right|done].
    apply cspec_all; [done|done| |done]. intros k v m. apply (Hput k v m c). by left.
Qed.
Lemma cruns_app cs1 cs2 s : cruns H root (cs1 ++ cs2) s =
  ((cruns H root cs2 (cruns H root cs1 s).1).1, (cruns H root cs1 s).2 ++ (cruns H root cs2 (cruns H root cs1 s).1).2).
Proof.
  revert s. induction cs1 as [|c cs1 IH]; intros s; cbn [app cruns].
  - cbn [fst snd app]. by destruct (cruns H root cs2 s).
  - destruct (cspec H root s c) as [s1 o]. rewrite IH. by destruct (cruns H root cs1 s1).
Qed.
End visited.

Lemma crun_spec {V} (E : env V) K L vals iter : env_ok E -> prefix_free K -> (forall k, K k -> is_bytes k) -> (forall k, K k -> (length k <= 48)%nat) ->
  (forall m, m ∈ L -> dom_in K m) -> inj_on (eH E) (concat (map (root_inputs (eH E) (ertl E) (evhash E)) (∅ :: L))) ->
  (forall m k x, m ∈ L -> m !! k = Some x -> x ∈ vals) -> vinj E vals -> map_order iter ->
  forall cs s a, crel E K L s a -> (forall c k, c ∈ cs -> k ∈ ccall_keys c -> K k) ->
  (forall m, m ∈ cvisited (eH E) (root_of (eH E) (ertl E) (evhash E)) cs a -> m ∈ L) ->
  exists s', crun E iter cs s = Some (s', (cruns (eH E) (root_of (eH E) (ertl E) (evhash E)) cs a).2) /\
    crel E K L s' (cruns (eH E) (root_of (eH E) (ertl E) (evhash E)) cs a).1.
Proof.
  intros HE HK HKb HKl HL Hinj Hvals Hvinj Hiter. induction cs as [|c cs IH]; intros s a Hr HKx HinL; [by exists s|].
  cbn [crun cruns cvisited] in *.
  destruct (cstep_spec E HE K HK HKb HKl L HL Hinj vals Hvals Hvinj (iter (length cs))) with (s:=s) (a:=a) (x:=c) as (s1&->&Hr1).
  { intros l k Hk. by rewrite (Hiter (length cs) l). }
  { done. }
  { intros k Hk. eapply HKx; [by left|done]. }
  { intros m Hm. apply HinL. apply elem_of_app. by left. }
  destruct (cspec (eH E) _ a c) as [a1 o]. cbn [fst snd] in *.
  destruct (IH s1 a1 Hr1) as (s2&->&Hr2).
  { intros c' k Hc'. apply HKx. by right. }
  { intros m Hm. apply HinL. apply elem_of_app. by right. }
  destruct (cruns (eH E) _ cs a1) as [a2 os]. cbn [fst snd] in *. by exists s2.
Qed.

(** The order of the keys is determined by the map. *)
Theorem C22_sorted_keys : forall A (m : gmap (list N) A) ks, is_keys m ks <-> ks = sorted_keys m.
Proof. intros A m ks. split; [apply sorted_keys_eq|]. intros ->. apply sorted_keys_is. Qed.
Print Assumptions C22_sorted_keys.

(** Every history of calls on a SmallCombinedTrie and on the tries in it answers as
    the map of CombinedSpec: Get, Put, Delete and Keys, the root hash (the Merkle
    root of the roots of the sub-tries by increasing key), proofs that verify from
    the hash of the sub-trie to that root, Commit and InitTrie, and an iterator
    that can be interleaved with changes. *)
Theorem C22_refines : forall V (E : env V) K iter cs, combined_ok E K cs -> map_order iter ->
  exists s, crun E iter cs cstate0 = Some (s, (cruns (eH E) (root_of (eH E) (ertl E) (evhash E)) cs cmap0).2).
Proof.
  intros V E K iter cs [HE HK HKp Hkeys Hinj Hv] Hiter. set (root := root_of _ _ _) in *.
  set (P := fun m : gmap (list N) V => dom_in K m /\ forall k x, m !! k = Some x -> x ∈ concat (map ccall_vals cs)).
  assert (He : P ∅) by (split; intros k x Hx; by rewrite lookup_empty in Hx).
  assert (HP : forall m, m ∈ cvisited (eH E) root cs cmap0 -> P m).
  { apply cvisited_all.
    - done.
    - split; [split; intros m Hm|intros h l k c Hl; cbn in Hl; by rewrite lookup_empty in Hl]; cbn in Hm; [|by apply elem_of_nil in Hm].
      by apply elem_of_list_singleton in Hm as ->.
    - intros k v m c Hc Hvc Hkc [Hd Hx]. split.
      + intros k' x. rewrite lookup_insert_Some. intros [[<- _]|[_ Hk']]; [|by eapply Hd].
        assert (K k) as HKk by (by eapply Hkeys). split; [done|by apply HKp].
      + intros k' x. rewrite lookup_insert_Some. intros [[_ <-]|[_ Hk']]; [|by eapply Hx].
        apply elem_of_list_In, in_concat. exists (ccall_vals c). split; [|by apply elem_of_list_In]. apply in_map. by apply elem_of_list_In.
    - intros k m [Hd Hx]. split; intros k' x; rewrite lookup_delete_Some; intros [_ Hk']; [by eapply Hd|by eapply Hx]. }
  destruct (crun_spec E K _ _ iter HE HK (fun k Hk => proj1 (HKp k Hk)) (fun k Hk => proj2 (HKp k Hk))
     (fun m Hm => proj1 (HP m Hm)) Hinj (fun m k x Hm => proj2 (HP m Hm) k x) Hv Hiter cs cstate0 cmap0) as (r&Hr&_); [|done|done|by exists r].
  split; cbn; try done; try apply init_rel; try (intros; by rewrite fmap_empty).
Qed.
Print Assumptions C22_refines.

(** Commit, then any calls without another Commit, then InitTrie on a new combined
    trie with the root that HashValue returned: if there was an entry, the keys are
    those committed, each with a new trie with the contents of the committed one,
    and the history goes on from there. *)
Definition no_commit {V} (c : ccall V) : bool := match c with CCommit => false | _ => true end.
Lemma saved_kept {V} H root cs : forall (s : cmap V), forallb no_commit cs = true -> b_saved (cruns H root cs s).1 = b_saved s.
Proof.
  induction cs as [|c cs IH]; intros s; [done|]. cbn [forallb cruns]. intros [Hc Hcs]%andb_prop.
  assert (Hs : b_saved (cspec H root s c).1 = b_saved s).
  { destruct c as [j o|k j|k|k| | |k| | |h| | |]; cbn [cspec]; try done.
    - by destruct (pstep root (b_pool s) (j, o)).
    - by destruct (p_maps (b_pool s) !! j).
    - destruct (b_saved s !! h) as [[|e l]|]; [done| |done]. by destruct (load (e :: l) _ _).
    - destruct (b_it s) as [[cur l]|]; [|done]. by destruct (it_next _ _ _) as [[? ?] ?].
    - destruct (b_it s) as [[[k|] l]|]; done. }
  destruct (cspec H root s c) as [s1 o]. specialize (IH s1 Hcs). destruct (cruns H root cs s1). cbn [fst] in *. by rewrite IH.
Qed.
Lemma load_spec {V} l : forall (p : pool V) m, NoDup (map fst l) -> (forall k c, (k, c) ∈ l -> m !! k = None) ->
  (forall k j, m !! k = Some j -> (j < length (p_maps p))%nat) ->
  let '(p', m') := load l p m in
  (forall k, is_Some (m' !! k) <-> is_Some (m !! k) \/ k ∈ map fst l) /\
  (forall k j, m !! k = Some j -> m' !! k = Some j) /\
  (forall j, (j < length (p_maps p))%nat -> contents p' j = contents p j) /\ (length (p_maps p) <= length (p_maps p'))%nat /\
  forall k c, (k, c) ∈ l -> exists j, m' !! k = Some j /\ contents p' j = c /\ (length (p_maps p) <= j)%nat.
Proof.
  induction l as [|[k c] l IH]; intros p m Hd Hn Hr; cbn [load].
  - split; [intros k; cbn; rewrite elem_of_nil; tauto|]. split; [done|]. split; [done|]. split; [done|]. intros k c Hkc. by apply elem_of_nil in Hkc.
  - cbn [map fst] in Hd. apply NoDup_cons in Hd as [Hk Hd]. rewrite (Hn k c) by (by left).
    specialize (IH (p_add p c) (<[k := length (p_maps p)]> m) Hd).
    destruct (load l (p_add p c) (<[k := length (p_maps p)]> m)) as [p' m'].
    destruct IH as (A1&A2&A3&A4&A5).
    { intros k' c' Hkc. rewrite lookup_insert_ne; [apply (Hn k' c'); by right|]. intros ->. apply Hk. apply elem_of_list_fmap. by exists (k', c'). }
    { intros k' j'. cbn. rewrite app_length. cbn. rewrite lookup_insert_Some. intros [[_ <-]|[_ Hj]]; [lia|]. specialize (Hr _ _ Hj). lia. }
    cbn [p_add p_maps] in *. rewrite app_length in A3, A4, A5. cbn [length] in *.
    split; [|split; [|split; [|split]]].
    + intros k'. rewrite A1, lookup_insert_is_Some. cbn [map fst]. rewrite elem_of_cons. destruct (decide (k = k')) as [->|Hne]; [tauto|].
      split; [intros [[?|[_ ?]]|?]; tauto|intros [?|[?|?]]; [tauto|congruence|tauto]].
    + intros k' j' Hj'. apply A2. rewrite lookup_insert_ne; [done|]. intros ->. rewrite (Hn k' c) in Hj' by (by left). done.
    + intros j Hj. rewrite A3 by lia. unfold contents. cbn. by rewrite lookup_app_l.
    + lia.
    + intros k' c' [Hkc|Hkc]%elem_of_cons.
      * injection Hkc as -> ->. exists (length (p_maps p)). split; [apply A2; by rewrite lookup_insert|]. split; [|lia].
        rewrite A3 by lia. unfold contents. cbn. by rewrite lookup_app_r, Nat.sub_diag.
      * destruct (A5 k' c' Hkc) as (j&?&?&?). exists j. split; [done|]. split; [done|]. lia.
Qed.

Theorem C22_commit_load : forall V (E : env V) K iter cs1 cs2 cs3,
  let root := root_of (eH E) (ertl E) (evhash E) in
  let s := (cruns (eH E) root cs1 cmap0).1 in
  let h := croot (eH E) root s in
  let cs := cs1 ++ (CHash :: CCommit :: cs2 ++ [CNew; CInit h]) ++ cs3 in
  combined_ok E K cs -> map_order iter -> forallb no_commit cs2 = true -> b_map s <> ∅ ->
  exists st obs1 obs2 s', crun E iter cs cstate0 = Some (st, obs1 ++ (BHash h :: BDone :: obs2 ++ [BDone; BDone]) ++ (cruns (eH E) root cs3 s').2) /\
    length obs1 = length cs1 /\ length obs2 = length cs2 /\
    (forall k, is_Some (b_map s' !! k) <-> is_Some (b_map s !! k)) /\
    forall k j, b_map s !! k = Some j -> exists j', b_map s' !! k = Some j' /\ contents (b_pool s') j' = contents (b_pool s) j.
Proof.
  intros V E K iter cs1 cs2 cs3 root s h cs Hok Hiter Hnc Hne.
  destruct (C22_refines V E K iter cs Hok Hiter) as (st&Hst). fold root in Hst. rewrite Hst. clear Hst.
  assert (Hlen : forall cs s, length (cruns (eH E) root cs s).2 = length cs).
  { clear. induction cs as [|c cs IH]; intros s; [done|]. cbn [cruns]. destruct (cspec (eH E) root s c) as [s1 o]. specialize (IH s1).
    destruct (cruns (eH E) root cs s1). cbn in *. by rewrite IH. }
  unfold cs. rewrite !cruns_app. fold s. cbn [fst snd].
  set (s1 := CMap (b_pool s) (b_map s) (<[h := entries s]> (b_saved s)) (b_it s)).
  assert (Hc : cruns (eH E) root (CHash :: CCommit :: cs2 ++ [CNew; CInit h]) s =
    let '(s2, os) := cruns (eH E) root (cs2 ++ [CNew; CInit h]) s1 in (s2, BHash h :: BDone :: os)).
  { cbn [cruns cspec]. fold h. fold s1. by destruct (cruns (eH E) root (cs2 ++ [CNew; CInit h]) s1). }
  rewrite cruns_app in Hc. set (s2 := (cruns (eH E) root cs2 s1).1) in *.
  assert (Hsv : b_saved s2 !! h = Some (entries s)) by (unfold s2; rewrite saved_kept by done; apply lookup_insert).
  assert (Hen : entries s <> []).
  { unfold entries. destruct (sorted_keys (b_map s)) as [|k ks] eqn:Hks; [|done]. exfalso. apply Hne. apply map_eq. intros k.
    rewrite lookup_empty. destruct (b_map s !! k) as [j|] eqn:Hj; [|done].
    assert (k ∈ sorted_keys (b_map s)) as Hk by (apply elem_sorted_keys; by eexists). rewrite Hks in Hk. by apply elem_of_nil in Hk. }
  pose proof (load_spec (entries s) (b_pool s2) ∅) as Hload.
  assert (Hfst : map fst (entries s) = sorted_keys (b_map s)) by (unfold entries; by rewrite map_map, map_id).
  destruct (load (entries s) (b_pool s2) ∅) as [p' m'] eqn:Hl.
  destruct Hload as (A1&_&_&_&A5).
  { rewrite Hfst. apply nodup_sorted_keys. }
  { intros. apply lookup_empty. }
  { intros k j. by rewrite lookup_empty. }
  assert (Hfin : cruns (eH E) root [CNew; CInit h] s2 = (CMap p' m' (b_saved s2) (b_it s2), [BDone; BDone])).
  { cbn [cruns cspec b_saved b_pool b_map b_it]. rewrite Hsv. destruct (entries s) as [|e l]; [done|]. by rewrite Hl. }
  rewrite Hfin in Hc. cbn [fst snd] in Hc. rewrite Hc. cbn [fst snd].
  exists st, (cruns (eH E) root cs1 cmap0).2, (cruns (eH E) root cs2 s1).2, (CMap p' m' (b_saved s2) (b_it s2)).
  split; [done|]. split; [apply Hlen|]. split; [apply Hlen|]. cbn [b_map b_pool]. split.
  - intros k. rewrite A1, Hfst, elem_sorted_keys, lookup_empty. split; [by intros [[? ?]|?]|by right].
  - intros k j Hj. destruct (A5 k (contents (b_pool s) j)) as (j'&?&?&_); [|by exists j'].
    unfold entries. apply elem_of_list_fmap. exists k. rewrite Hj. split; [done|]. apply elem_sorted_keys. by eexists.
Qed.
Print Assumptions C22_commit_load.

(** An iterator, used to its end without changes in between, yields every entry
    once, by increasing key. *)
Theorem C22_iterator : forall V (E : env V) K iter cs,
  let root := root_of (eH E) (ertl E) (evhash E) in
  let s := (cruns (eH E) root cs cmap0).1 in
  let ks := sorted_keys (b_map s) in
  let cs' := cs ++ CIter :: concat (map (fun _ => [CNext; CCur]) ks) ++ [CNext] in
  combined_ok E K cs' -> map_order iter ->
  exists st obs, crun E iter cs' cstate0 = Some (st, obs ++ BDone ::
      concat (map (fun k => [BBool true; BEntry (match b_map s !! k with Some j => Some (k, j) | None => None end)]) ks) ++ [BBool false]) /\
    length obs = length cs /\ is_keys (b_map s) ks.
Proof.
  intros V E K iter cs root s ks cs' Hok Hiter.
  destruct (C22_refines V E K iter cs' Hok Hiter) as (st&->). fold root. exists st, (cruns (eH E) root cs cmap0).2.
  split; [|split; [|apply sorted_keys_is]].
  2:{ clear. generalize (cmap0 (V:=V)). induction cs as [|c cs IH]; intros s; [done|]. cbn [cruns]. destruct (cspec (eH E) root s c) as [s1 o]. specialize (IH s1).
    destruct (cruns (eH E) root cs s1). cbn in *. by rewrite IH. }
  unfold cs'. rewrite cruns_app. fold s. cbn [fst snd]. do 3 f_equal. cbn [cruns cspec]. fold ks.
  assert (Hall : forall k, k ∈ ks -> is_Some (b_map s !! k)) by (intros k; apply elem_sorted_keys). clearbody ks s.
  assert (Hg : forall l cur, (forall k, k ∈ l -> is_Some (b_map s !! k)) ->
    (cruns (eH E) root (concat (map (fun _ => [CNext; CCur]) l) ++ [CNext]) (CMap (b_pool s) (b_map s) (b_saved s) (Some (cur, l)))).2 =
    concat (map (fun k => [BBool true; BEntry (match b_map s !! k with Some j => Some (k, j) | None => None end)]) l) ++ [BBool false]).
  { induction l as [|k l IH]; intros cur Hk; [done|]. cbn [map concat app cruns cspec b_it b_map b_pool b_saved it_next].
    destruct (Hk k) as [j Hj]; [by left|]. rewrite Hj. cbn [cruns cspec b_it b_map b_pool b_saved]. rewrite Hj.
    specialize (IH (Some k)). destruct (cruns _ _ _ (CMap _ _ _ _)) as [s2 os]. cbn [snd] in *. rewrite IH; [done|]. intros k' Hk'. apply Hk. by right. }
  specialize (Hg ks None). destruct (cruns _ _ _ _) as [s2 os]. cbn [snd] in *. by rewrite Hg.
Qed.
Print Assumptions C22_iterator.

(* ------------------------------------------------------------ findings *)
(** FINDING. An empty combined trie that was committed cannot be loaded again: the
    database holds an empty value under its root and InitTrie reports an error. *)
Theorem C22_empty_reload_refuted : forall V (E : env V) K iter, let h := nilhash (eH E) in
  combined_ok E K [CHash; CCommit; CNew; CInit h] -> map_order iter ->
  exists st, crun E iter [CHash; CCommit; CNew; CInit h] cstate0 = Some (st, [BHash h; BDone; BDone; BErr]).
Proof.
  intros V E K iter h Hok Hiter. destruct (C22_refines V E K iter _ Hok Hiter) as (st&->). exists st. do 2 f_equal.
  cbn [cruns cspec cmap0 b_saved b_map b_pool b_it croot entries]. change (sorted_keys ∅) with (@nil (list N)).
  change (croot (eH E) _ cmap0) with h. rewrite lookup_insert. done.
Qed.
Print Assumptions C22_empty_reload_refuted.

Lemma sorted_keys_one {A} (k : list N) (x : A) : sorted_keys (<[k := x]> ∅) = [k].
Proof.
  symmetry. apply sorted_keys_eq. split; [repeat constructor|]. intros k'. rewrite elem_of_list_singleton, lookup_insert_is_Some, lookup_empty.
  split; [left; congruence|]. intros [?|[_ [? ?]]]; [congruence|done].
Qed.
(** FINDING. The root hash does not depend on the keys. Two combined tries with
    different keys and the same sub-tries have the same root, so committing the
    second replaces the first in the database: loading the root of the first gives
    the keys of the second. (Hence the condition on later commits in C22_commit_load.) *)
Theorem C22_root_ignores_keys_refuted : forall V (E : env V) K iter k1 k2,
  let root := root_of (eH E) (ertl E) (evhash E) in
  let h := proot (eH E) [root ∅] in
  let cs := [CPut k1 0; CHash; CCommit; CNew; CPut k2 0; CHash; CCommit; CNew; CInit h; CKeys] in
  combined_ok E K cs -> map_order iter ->
  exists st, crun E iter cs cstate0 = Some (st,
    [BBool true; BHash h; BDone; BDone; BBool true; BHash h; BDone; BDone; BDone; BKeys [k2]]).
Proof.
  intros V E K iter k1 k2 root h cs Hok Hiter. destruct (C22_refines V E K iter _ Hok Hiter) as (st&->). exists st. do 2 f_equal. fold root.
  assert (Hr : forall k sv it, croot (eH E) root (CMap pool0 (<[k := 0%nat]> ∅) sv it) = h).
  { intros k sv it. unfold croot, entries. cbn [b_map b_pool]. rewrite sorted_keys_one. cbn [map]. by rewrite lookup_insert. }
  unfold cs, cmap0. cbn [cruns cspec b_saved b_map b_pool b_it p_maps pool0 lookup list_lookup].
  change (@Pool V [(∅, 0%Z)] []) with (pool0 (V:=V)). rewrite !Hr. rewrite insert_insert, lookup_insert.
  unfold entries. cbn [b_map b_pool]. rewrite sorted_keys_one. cbn [map]. cbn [load]. rewrite lookup_empty.
  cbn [cruns cspec b_map b_pool]. by rewrite sorted_keys_one.
Qed.
Print Assumptions C22_root_ignores_keys_refuted.

(* ------------------------------------------------------------ examples *)
Lemma demo_combined_ok n cs : (n <= 48)%nat ->
  Forall (fun c => Forall (fun k => is_bytesb k = true /\ length k = n) (ccall_keys c)) cs ->
  combined_ok (demo_env idealH) (keys_of_length n) cs.
Proof.
  intros Hn Hk. split.
  - by apply demo_env_ok.
  - apply same_length_prefix_free.
  - intros k [? ?]. split; [done|lia].
  - intros c k Ho Hk'. rewrite Forall_forall in Hk. specialize (Hk _ Ho). rewrite Forall_forall in Hk.
    destruct (Hk k Hk') as [? ?]. split; [by apply is_bytesb_spec|done].
  - apply idealH_inj.
  - intros x y _ _ He. cbn in He. assert ([x] = [y]) as Hxy; [|by injection Hxy].
    apply (idealH_inj [[x]; [y]]); [by left|right; by left|done].
Qed.
Definition cmb_cs1 : list (ccall N) :=
  [CSub 0 (TPut [0x12; 0x34] 7); CSub 0 TClone; CSub 1 (TPut [0x92; 0x35] 9); CPut [7; 1] 0; CPut [5] 1; CPut [7] 0; CDel [7]].
Definition cmb_cs2 : list (ccall N) := [CSub 0 (TPut [0x12; 0x34] 8); CPut [9] 0; CSub 1 TCollapse].
Example C22_example :
  let E := demo_env idealH in
  let root := root_of (eH E) (ertl E) (evhash E) in
  let s := (cruns (eH E) root cmb_cs1 cmap0).1 in
  let h := croot (eH E) root s in
  combined_ok E (keys_of_length 2) (cmb_cs1 ++ (CHash :: CCommit :: cmb_cs2 ++ [CNew; CInit h]) ++ [CKeys; CGet [7; 1]; CSub 3 (TGet [0x12; 0x34])]) /\
  forallb no_commit cmb_cs2 = true /\ b_map s <> ∅ /\ sorted_keys (b_map s) = [[5]; [7; 1]] /\ map_order (fun _ l => rev l).
Proof.
  cbv zeta. split; [|split; [|split; [|split]]].
  - apply demo_combined_ok; [lia|by repeat constructor].
  - done.
  - intros He. apply (f_equal (fun m => m !! [5])) in He. rewrite lookup_empty in He. vm_compute in He. done.
  - vm_compute. reflexivity.
  - intros n l. symmetry. apply Permutation_rev.
Qed.
Example C22_findings_example :
  let E := demo_env idealH in
  combined_ok E (keys_of_length 2) [CHash; CCommit; CNew; CInit (nilhash (eH E))] /\
  combined_ok E (keys_of_length 2) [CPut [1] 0; CHash; CCommit; CNew; CPut [2] 0; CHash; CCommit; CNew;
    CInit (proot (eH E) [root_of (eH E) (ertl E) (evhash E) ∅]); CKeys].
Proof. split; apply demo_combined_ok; try lia; by repeat constructor. Qed.
