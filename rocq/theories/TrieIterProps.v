(** Properties of the trie's iterators: C19, and of BatchPutter: C68. *)
From Verif Require Import TrieIterProofs TrieProofProps TrieProps ToyHash.

Definition with_some {V} (kv : list N * V) : list N * option V := (kv.1, Some kv.2).

Section clone.
Context {V : Type} (E : env V) (K : list N -> Prop).
Local Notation root := (root_of (eH E) (ertl E) (evhash E)).

(** The entries of the radix tree of [m] are those of [m], in key order. *)
Lemma entries_of m : prefix_free K -> dom_in K m -> m <> ∅ ->
  let r := radix_of m in
  let l := map (fun e : list N * V => (pack e.1, e.2)) (rents r []) in
  rshape r /\ Forall even_key (rents r []) /\ in_key_order l m /\ map out (rents r []) = map with_some l.
Proof.
  intros HK Hd Hm r l. destruct (radix_wfr K HK m Hd Hm) as [Hw Hlk]. fold r in Hw, Hlk.
  assert (Hin : forall s x, (s, x) ∈ rents r [] -> exists k, s = nibbles k /\ is_bytes k /\ m !! k = Some x).
  { intros s x Hs. apply elem_rents in Hs as (k&->&Hx). cbn [app]. destruct (wfr_in _ _ _ _ Hw Hx) as [(k0&HK0&->) _].
    rewrite Hlk in Hx. exists k0. split; [done|]. split; [by eapply Hd|done]. }
  split; [by eexists|]. split.
  { apply Forall_forall. intros [s x] (k&->&Hb&_)%Hin. split; cbn [fst]; [by apply nibbles_ok|]. rewrite nibbles_length. by rewrite Nat.odd_mul. }
  split; [split|].
  - unfold l. rewrite map_map. cbn [fst]. pose proof (sorted_rents r []) as Hs.
    revert Hin Hs. generalize (rents r []). intros es Hin. induction es as [|[s x] es IH]; cbn [map fst]; [constructor|].
    intros Hs. inversion Hs as [|? ? Hs' Hall]; subst. constructor.
    + apply IH; [|done]. intros s' x' He. apply Hin. by right.
    + apply Forall_forall. intros k' Hk'. apply elem_of_list_fmap in Hk' as ([s' x']&->&He). cbn [fst].
      rewrite Forall_forall in Hall. assert (Hlt : bytes_lt s s').
      { apply Hall. apply elem_of_list_fmap. by exists (s', x'). }
      destruct (Hin s x) as (k1&->&Hb1&_); [by left|]. destruct (Hin s' x') as (k2&->&Hb2&_); [by right|].
      rewrite !pack_nibbles. by apply nibbles_lt.
  - intros k v. unfold l. rewrite elem_of_list_fmap. split.
    + intros ([s x]&[= -> ->]&He). destruct (Hin s x He) as (k0&->&_&?). cbn [fst]. by rewrite pack_nibbles.
    + intros Hk. exists (nibbles k, v). cbn [fst snd]. rewrite pack_nibbles. split; [done|]. apply elem_rents. exists (nibbles k). by rewrite Hlk.
  - unfold l. rewrite map_map. done.
Qed.

Lemma drive_entries sts t m : env_ok E -> prefix_free K -> dom_in K m -> nrep E (sts O) (t_root t) m -> clean (t_root t) ->
  (forall i, st_le (sts i) (sts (S i))) ->
  exists l, in_key_order l m /\ exists fuel0, forall fuel body, (fuel0 <= fuel)%nat ->
    drive (fnext E) fcurrent body fuel fuel sts 0 (NewValueIterator t) = Some (upto body (map with_some l)) /\
    drive (rnext E) rcurrent body fuel fuel sts 0 (newReversedValueIterator t) = Some (upto body (map with_some (rev l))).
Proof.
  intros HE HK Hd Hn Hc Hle. destruct Hn as [[-> He]|[Hm Hr]].
  - exists []. split; [split; [constructor|]|].
    { intros k v. rewrite lookup_empty. split; [|done]. intros Hx. by apply elem_of_nil in Hx. }
    exists 2%nat. intros fuel body Hf. rewrite (fdrive_empty E) by (done || lia). rewrite (rdrive_empty E) by (done || lia). done.
  - destruct (entries_of m HK Hd Hm) as (Hs&Hev&Hord&Hout). eexists. split; [exact Hord|].
    exists (S (rsize (radix_of m) + rwork (radix_of m) + length (rents (radix_of m) []))). intros fuel body Hf.
    rewrite (fdrive_root E HE body sts t (radix_of m)) by (done || lia). rewrite (rdrive_root E HE body sts t (radix_of m)) by (done || lia).
    rewrite Hout. split; [done|]. do 2 f_equal. rewrite !map_rev, Hout. done.
Qed.

(** The clone an iterator works on. *)
Lemma clone_state ops1 j m b : history_ok E K (ops1 ++ [(j, TClone)]) -> p_maps (prun root ops1 pool0).1 !! j = Some (m, b) ->
  exists mp t st' t1 c, mrun E ops1 mpool0 = Some (mp, (prun root ops1 pool0).2) /\ mp_tries mp !! j = Some t /\
    Clone E (mp_store mp) t = (st', t1, c) /\ nrep E st' (t_root c) m /\ clean (t_root c) /\ dom_in K m.
Proof.
  intros Hok Hj. destruct (history_state E K ops1 _ Hok) as (HL&Hvals&Hin&(mp&Hmp&Hrel)&Hrest).
  assert (HmL : m ∈ pvisited root (ops1 ++ [(j, TClone)]) pool0).
  { apply Hin. apply elem_of_list_fmap. exists (m, b). split; [done|]. by apply elem_of_list_lookup_2 in Hj. }
  pose proof Hok as [HE HK HKp Hkeys Hinj Hv].
  destruct (Forall2_lookup_r _ _ _ _ _ (pr_tries _ _ _ _ _ Hrel) Hj) as (t&Ht&_).
  destruct (step_rel E HE K HK (fun k Hk => proj1 (HKp k Hk)) (fun k Hk => proj2 (HKp k Hk)) _ HL Hinj _ Hvals Hv
    mp _ j TClone Hrel) as (mp3&Hs&Hrel3); [intros k' Hk'; by apply elem_of_nil in Hk'| |].
  { exact Hin. }
  unfold mstep in Hs. rewrite Ht in Hs. destruct (Clone E (mp_store mp) t) as [[st' t1] c] eqn:Hc.
  injection Hs as <- _. exists mp, t, st', t1, c. split; [done|]. split; [done|]. split; [done|].
  destruct Hrel3 as [_ Htr _]. unfold pstep in Htr. rewrite Hj in Htr. cbn [mp_tries p_maps p_add fst] in Htr.
  apply Forall2_app_inv in Htr as [_ Htr]; [|rewrite insert_length; by eapply Forall2_length, (pr_tries _ _ _ _ _ Hrel)].
  apply Forall2_cons in Htr as [(Hn&Hd&_) _]. cbn [fst mp_store] in *. split; [done|]. split; [|done].
  unfold Clone in Hc. destruct (Commit E (mp_store mp) t) as [[? ?] ?]. destruct (HashValue E t0) as [? ?]. injection Hc as <- <- <-. apply clean_new.
Qed.
End clone.

(* ------------------------------------------------------------------ C19 *)

(** In any reachable state, an iterator made on trie [j] with contents [m] (it
    works on a clone, whose database only grows between the calls of Next)
    yields a list [l] of the entries of [m] in key order, cut off where the loop
    body stops; the reversed iterator yields the reverse of [l]. From some fuel
    on, the fuel does not matter. *)
Theorem C19_iterators : forall V (E : env V) K ops j m b,
  let root := root_of (eH E) (ertl E) (evhash E) in
  history_ok E K (ops ++ [(j, TClone)]) -> p_maps (prun root ops pool0).1 !! j = Some (m, b) ->
  exists mp obs t st' t1 c, mrun E ops mpool0 = Some (mp, obs) /\ mp_tries mp !! j = Some t /\
    Clone E (mp_store mp) t = (st', t1, c) /\
    forall sts : nat -> store, sts O = st' ->
      (forall i, st_nodes (sts i) ⊆ st_nodes (sts (S i)) /\ st_vals (sts i) ⊆ st_vals (sts (S i))) ->
    exists l, in_key_order l m /\ exists fuel0, forall fuel body, (fuel0 <= fuel)%nat ->
      drive (fnext E) fcurrent body fuel fuel sts 0 (NewValueIterator c) = Some (upto body (map with_some l)) /\
      drive (rnext E) rcurrent body fuel fuel sts 0 (newReversedValueIterator c) = Some (upto body (map with_some (rev l))).
Proof.
  intros V E K ops j m b root Hok Hj. destruct (clone_state E K ops j m b Hok Hj) as (mp&t&st'&t1&c&Hmp&Ht&Hc&Hn&Hcl&Hd).
  exists mp, (prun root ops pool0).2, t, st', t1, c. split; [done|]. split; [done|]. split; [done|]. intros sts <- Hle.
  destruct Hok. by apply (drive_entries E K).
Qed.
Print Assumptions C19_iterators.

(** A list in key order is determined by the map. *)
Theorem C19_key_order_unique : forall V (m : gmap (list N) V) l1 l2, in_key_order l1 m -> in_key_order l2 m -> l1 = l2.
Proof.
  assert (Hasym : forall a b, bytes_lt a b -> bytes_lt b a -> False).
  { induction a as [|x a IH]; intros [|y b]; cbn [bytes_lt]; [done..|]. intros [?|[? ?]] [?|[? ?]]; [lia..|]. by eapply IH. }
  intros V m l1. assert (Hgo : forall (l1 l2 : list (list N * V)), StronglySorted bytes_lt (map fst l1) -> StronglySorted bytes_lt (map fst l2) ->
     (forall kv, kv ∈ l1 <-> kv ∈ l2) -> l1 = l2).
  { clear l1 m. induction l1 as [|[k v] l1 IH]; intros [|[k' v'] l2] H1 H2 He; [done| | |].
    - destruct (He (k', v')) as [_ Hx]. by specialize (Hx ltac:(by left)); apply elem_of_nil in Hx.
    - destruct (He (k, v)) as [Hx _]. by specialize (Hx ltac:(by left)); apply elem_of_nil in Hx.
    - cbn [map fst] in *. inversion H1 as [|? ? Hs1 Ha1]; inversion H2 as [|? ? Hs2 Ha2]; subst. rewrite Forall_forall in Ha1, Ha2.
      assert (Hfst : forall (kv : list N * V) l, kv ∈ l -> kv.1 ∈ map fst l) by (intros kv l ?; apply elem_of_list_fmap; by exists kv).
      assert (Heq : (k, v) = (k', v')).
      { pose proof (proj1 (He (k, v)) ltac:(by left)) as Hx. apply elem_of_cons in Hx as [?|Hx]; [done|].
        pose proof (proj2 (He (k', v')) ltac:(by left)) as Hx'. apply elem_of_cons in Hx' as [?|Hx']; [done|].
        exfalso. eapply Hasym; [apply Ha2, (Hfst _ _ Hx)|apply Ha1, (Hfst _ _ Hx')]. }
      rewrite Heq in *. injection Heq as -> ->. f_equal. apply IH; [done..|]. intros [k v].
      assert (forall l, (forall x, x ∈ map fst l -> bytes_lt k' x) -> (k, v) ∈ l -> (k, v) <> (k', v')).
      { intros l Ha Hin [= -> ->]. by eapply bytes_lt_irrefl, Ha, (Hfst _ _ Hin). }
      specialize (He (k, v)). rewrite !elem_of_cons in He. split; intros Hx.
      + destruct (proj1 He (or_intror Hx)) as [He'|?]; [|done]. by destruct (H l1 Ha1 Hx).
      + destruct (proj2 He (or_intror Hx)) as [He'|?]; [|done]. by destruct (H l2 Ha2 Hx). }
  intros l2 [H1 He1] [H2 He2]. apply Hgo; [done..|]. intros [k v]. by rewrite He1, He2.
Qed.
Print Assumptions C19_key_order_unique.

(** IterateAll calls the callback on the entries in key order until it declines;
    with noNil the entry with the empty key is left out. Marshal writes the
    values in key order; MarshalAsMap keys and values, without the empty key. *)
Definition nonempty_key {A} (kv : list N * A) : bool := match kv.1 with [] => false | _ => true end.
Lemma upto_filter {A} (nil : A -> bool) cb l :
  List.filter (fun x => negb (nil x)) (upto (fun x => nil x || cb x) l) = upto cb (List.filter (fun x => negb (nil x)) l).
Proof.
  induction l as [|x l IH]; [done|]. cbn [upto List.filter]. destruct (nil x) eqn:Hx; cbn [orb negb List.filter]; [by rewrite Hx|].
  destruct (cb x) eqn:Hcb; cbn [List.filter upto]; rewrite Hx, ?Hcb; cbn [negb]; [by rewrite IH|done].
Qed.
Lemma filter_nil_kv {V} (l : list (list N * V)) :
  List.filter (fun kv => negb (nil_kv kv)) (map with_some l) = map with_some (List.filter nonempty_key l).
Proof. induction l as [|[[|x k] v] l IH]; cbn; [done|done|]. by rewrite IH. Qed.
Lemma upto_all {A} (l : list A) : upto (fun _ => true) l = l.
Proof. induction l as [|x l IH]; cbn; [done|by rewrite IH]. Qed.
Lemma upto_ext {A} (f g : A -> bool) l : (forall x, f x = g x) -> upto f l = upto g l.
Proof. intros H. induction l as [|x l IH]; cbn; [done|]. rewrite H, IH. done. Qed.

Theorem C19_iterate_all_and_marshal : forall V (E : env V) K ops j m b,
  let root := root_of (eH E) (ertl E) (evhash E) in
  history_ok E K (ops ++ [(j, TClone)]) -> p_maps (prun root ops pool0).1 !! j = Some (m, b) ->
  exists mp obs t st' t1 c, mrun E ops mpool0 = Some (mp, obs) /\ mp_tries mp !! j = Some t /\
    Clone E (mp_store mp) t = (st', t1, c) /\
    forall sts : nat -> store, sts O = st' ->
      (forall i, st_nodes (sts i) ⊆ st_nodes (sts (S i)) /\ st_vals (sts i) ⊆ st_vals (sts (S i))) ->
    exists l, in_key_order l m /\ exists fuel0, forall fuel, (fuel0 <= fuel)%nat ->
      (forall callback, IterateAll E fuel sts c false callback = Some (upto callback (map with_some l))) /\
      (forall callback, IterateAll E fuel sts c true callback = Some (upto callback (map with_some (List.filter nonempty_key l)))) /\
      (forall enc, Marshal E fuel sts c enc = Some (concat (map (fun kv => enc kv.2) l))) /\
      (forall enc encnil, MarshalAsMap E fuel sts c enc encnil =
         Some (concat (map (fun kv => ertl E kv.1 ++ enc kv.2) (List.filter nonempty_key l)))).
Proof.
  intros V E K ops j m b root Hok Hj. destruct (C19_iterators V E K ops j m b Hok Hj) as (mp&obs&t&st'&t1&c&Hmp&Ht&Hc&Hit).
  exists mp, obs, t, st', t1, c. split; [done|]. split; [done|]. split; [done|]. intros sts H0 Hle.
  destruct (Hit sts H0 Hle) as (l&Hord&fuel0&Hf). exists l. split; [done|]. exists fuel0. intros fuel Hfuel.
  assert (Hd : forall body, drive (fnext E) fcurrent body fuel fuel sts 0 (NewValueIterator c) = Some (upto body (map with_some l))) by (intros body; by apply Hf).
  split; [|split; [|split]].
  - intros cb. unfold IterateAll. rewrite Hd. cbn [andb orb]. done.
  - intros cb. unfold IterateAll. rewrite Hd. cbn [andb]. by rewrite (upto_filter nil_kv), filter_nil_kv.
  - intros enc. unfold Marshal. rewrite Hd, upto_all, map_map. done.
  - intros enc encnil. unfold MarshalAsMap. rewrite Hd, upto_all, map_map. f_equal. clear.
    induction l as [|[[|x k] v] l IH]; [done|done|]. cbn [map List.filter nonempty_key fst snd with_some concat]. f_equal. exact IH.
Qed.
Print Assumptions C19_iterate_all_and_marshal.

Example C19_example :
  let E := demo_env idealH in
  let root := root_of idealH (ertl E) (evhash E) in
  history_ok E (keys_of_length 2) (demo_hist1 ++ [(0%nat, TClone)]) /\
  exists m b, p_maps (prun root demo_hist1 pool0).1 !! 0%nat = Some (m, b) /\
    in_key_order [([0x12; 0x34], 7); ([0x92; 0x35], 9)] m.
Proof.
  split; [apply demo_history_ok; [lia|by repeat constructor]|]. eexists _, _. split; [reflexivity|]. split.
  - cbn. repeat constructor.
  - intros k v. rewrite !elem_of_cons, lookup_insert_Some, lookup_insert_Some, lookup_empty.
    split.
    + intros [[= -> ->]|[[= -> ->]|Hx]]; [right; split; [done|by left]|by left|by apply elem_of_nil in Hx].
    + intros [[<- <-]|[_ [[<- <-]|[_ ?]]]]; [right; by left|by left|done].
Qed.

(** Without the condition that no key is a prefix of another the reversed
    iterator is wrong: it skips the value of a node that has a child at position
    0. With keys 0x12 and 0x1200 the forward iterator yields both, the reversed
    one only 0x1200. *)
Theorem C19_reversed_prefix_keys_refuted : forall H,
  let E := demo_env H in
  let sts := fun _ : nat => Store ∅ ∅ [] in
  (exists t0, Put E (Store ∅ ∅ []) (NewTrie None) [0x12] (Some 7) = Some (t0, true) /\
     exists t1, Put E (Store ∅ ∅ []) t0 [0x12; 0x00] (Some 8) = Some (t1, true) /\
     drive (fnext E) fcurrent (fun _ => true) 20 20 sts 0 (NewValueIterator t1) = Some [([0x12], Some 7); ([0x12; 0x00], Some 8)] /\
     drive (rnext E) rcurrent (fun _ => true) 20 20 sts 0 (newReversedValueIterator t1) = Some [([0x12; 0x00], Some 8)]).
Proof.
  intros H E sts. eexists. split; [vm_compute; reflexivity|]. eexists. split; [vm_compute; reflexivity|].
  split; vm_compute; reflexivity.
Qed.
Print Assumptions C19_reversed_prefix_keys_refuted.

(* ------------------------------------------------------------------ C68 *)

Definition puts {V} (j : nat) (kvs : list (list N * V)) : list (nat * tcall V) := map (fun kv => (j, TPut kv.1 kv.2)) kvs.

(** A BatchPutter with a modulus other than 0 changes the trie as the same Puts
    would: every Put reports a change and no error, Count is the number of Puts,
    and the calls that follow on any of the tries answer as after plain Puts.
    When the number of Puts is a multiple of the modulus nothing is left to
    commit. *)
Theorem C68_batch_putter : forall V (E : env V) K ops1 kvs ops2 j m b (bm : Z),
  let root := root_of (eH E) (ertl E) (evhash E) in
  history_ok E K (ops1 ++ puts j kvs ++ ops2) -> p_maps (prun root ops1 pool0).1 !! j = Some (m, b) -> bm <> 0%Z ->
  exists mp obs t st' p', mrun E ops1 mpool0 = Some (mp, obs) /\ mp_tries mp !! j = Some t /\
    BatchPutAll E (mp_store mp) (NewBatchPutter t bm) kvs = Some (st', p', replicate (length kvs) (true, true)) /\
    bp_count p' = Z.of_nat (length kvs) /\
    (kvs <> [] -> (Z.rem (Z.of_nat (length kvs)) bm = 0)%Z -> IsDirty (bp_t p') = false) /\
    exists mp2, mrun E ops2 (MPool st' (<[j := bp_t p']> (mp_tries mp)) (mp_roots mp)) =
      Some (mp2, (prun root ops2 (prun root (ops1 ++ puts j kvs) pool0).1).2).
Proof.
  intros V E K ops1 kvs ops2 j m b bm root Hok Hj Hbm.
  destruct (history_state E K ops1 _ Hok) as (HL&Hvals&Hin&(mp&Hmp&Hrel)&_).
  destruct (history_state E K (ops1 ++ puts j kvs) ops2) as (_&_&_&_&Hrest); [by rewrite <- app_assoc|].
  rewrite <- app_assoc in Hrest. fold root in Hrest, Hrel, HL, Hin, Hvals.
  destruct (Forall2_lookup_r _ _ _ _ _ (pr_tries _ _ _ _ _ Hrel) Hj) as (t&Ht&_).
  exists mp, (prun root ops1 pool0).2, t.
  assert (Hvis : forall x, x ∈ pvisited root (puts j kvs) (prun root ops1 pool0).1 -> x ∈ pvisited root (ops1 ++ puts j kvs ++ ops2) pool0).
  { intros x Hx. apply pvisited_app2. by apply pvisited_app1. }
  pose proof Hok as [HE HK HKp Hkeys Hinj Hv].
  assert (Hkk : forall kv, kv ∈ kvs -> K kv.1).
  { intros kv Hkv. apply (Hkeys j (TPut kv.1 kv.2)); [|cbn; set_solver]. apply elem_of_app. right. apply elem_of_app. left.
    apply elem_of_list_fmap. by exists kv. }
  set (L := pvisited root (ops1 ++ puts j kvs ++ ops2) pool0) in *.
  assert (Hgo : forall kvs p mp0 t0 m0 c, prel E K L mp0 p -> p_maps p !! j = Some (m0, b) -> mp_tries mp0 !! j = Some t0 ->
    (forall kv, kv ∈ kvs -> K kv.1) -> (forall x, x ∈ pvisited root (puts j kvs) p -> x ∈ L) ->
    exists st' p', BatchPutAll E (mp_store mp0) (BatchPutter t0 bm c) kvs = Some (st', p', replicate (length kvs) (true, true)) /\
      bp_count p' = (c + Z.of_nat (length kvs))%Z /\
      (kvs <> [] -> (Z.rem (c + Z.of_nat (length kvs)) bm = 0)%Z -> IsDirty (bp_t p') = false) /\
      prel E K L (MPool st' (<[j := bp_t p']> (mp_tries mp0)) (mp_roots mp0)) (prun root (puts j kvs) p).1).
  { fold root in Hinj. change (pvisited root (ops1 ++ puts j kvs ++ ops2) pool0) with L in Hinj.
    clear Hok Hrest Hvis Hkeys Hkk Hj t Ht mp Hmp Hrel m Hin. clearbody L.
    revert Hvals Hv. generalize (concat (map (fun jo : nat * tcall V => tcall_vals jo.2) (ops1 ++ puts j kvs ++ ops2))).
    clear kvs. intros vals Hvals Hv.
    induction kvs as [|[k v] kvs IH]; intros p mp t m c Hrel Hj Ht Hk Hvis.
    - exists (mp_store mp), (BatchPutter t bm c). split; [done|]. split; [cbn; lia|]. split; [done|]. cbn [bp_t puts map prun fst].
      rewrite list_insert_id by done. by destruct mp.
    - destruct Hrel as [Hst Htr Hro]. destruct (Forall2_lookup_r _ _ _ _ _ Htr Hj) as (t0&Ht0&(Hn&Hd&Hc)).
      rewrite Ht in Ht0. injection Ht0 as <-. cbn [fst snd] in *.
      assert (HKk : K k) by (apply (Hk (k, v)); by left).
      set (p1 := p_set p j (<[k := v]> m) b).
      assert (Hp1 : (pstep root p (j, TPut k v)).1 = p1) by (unfold pstep; by rewrite Hj).
      assert (Hj1 : p_maps p1 !! j = Some (<[k := v]> m, b)).
      { cbn [p1 p_set p_maps]. apply list_lookup_insert. by eapply lookup_lt_Some. }
      cbn [puts map fst snd] in *. change (map _ kvs) with (puts j kvs) in *. cbn [pvisited] in Hvis. rewrite Hp1 in Hvis.
      assert (HmL : <[k := v]> m ∈ L).
      { apply Hvis, elem_of_app. right. assert (Hmm : <[k := v]> m ∈ map fst (p_maps p1)).
        { apply elem_of_list_fmap. exists (<[k := v]> m, b). split; [done|]. by eapply elem_of_list_lookup_2. }
        destruct (puts j kvs); cbn [pvisited]; apply elem_of_app; by left. }
      cbn [BatchPutAll]. unfold BatchPut, Put. cbn [bp_t bp_m bp_count].
      destruct (put_nrep E HE K HK (fun k Hk => proj1 (HKp k Hk)) (mp_store mp) (t_gen t) (t_root t) m k v Hn Hd HKk) as (n'&->&Hn'&Hd').
      rewrite (proj2 (Z.eqb_neq bm 0) Hbm). set (t1 := Trie n' _ _).
      assert (Htl : trel E K (mp_store mp) t1 (<[k := v]> m, b)) by (split; [done|]; split; [done|]; cbn; lia).
      assert (Hnext : exists st1 t2, (if (Z.rem (c + 1) bm =? 0)%Z then let '(st', t1, ok) := Commit E (mp_store mp) t1 in
           if ok then Some (st', BatchPutter (Collapse E t1) bm (c + 1), (true, true)) else Some (st', BatchPutter t1 bm (c + 1), (true, false))
           else Some (mp_store mp, BatchPutter t1 bm (c + 1), (true, true))) = Some (st1, BatchPutter t2 bm (c + 1), (true, true)) /\
         (Z.rem (c + 1) bm = 0%Z -> IsDirty t2 = false) /\
         prel E K L (MPool st1 (<[j := t2]> (mp_tries mp)) (mp_roots mp)) p1).
      { destruct (Z.eqb_spec (Z.rem (c + 1) bm) 0) as [Hrem|Hrem].
        - unfold Commit. destruct (commit_nrep E HE K HK (fun k Hk => proj1 (HKp k Hk)) (fun k Hk => proj2 (HKp k Hk)) L HL Hinj _ Hvals Hv
            (mp_store mp) (t_gen t1) (t_root t1) (<[k := v]> m) Hn' HmL Hst) as (st'&n2&->&Hle&Hok'&Hn2&Hkept&Hdirty).
          do 2 eexists. split; [reflexivity|]. split.
          { intros _. unfold Collapse. cbn [t_root]. destruct (canCollapse E n2); [|done]. unfold IsDirty. cbn [t_root].
            unfold collapse. destruct (isCollapsed E n2); [done|]. destruct n2 as [q ch x d h vh vs g]. cbn in Hdirty. subst d.
            destruct h as [h|]; cbn [node_hash snd]; [done|]. assert (Hcv : forall n, n_dirty (cache_value E n) = n_dirty n).
            { intros []. unfold cache_value. cbn. by repeat case_match. }
            match goal with |- context [cache_value E ?n] => specialize (Hcv n); by destruct (cache_value E n) end. }
          split; cbn [mp_store mp_tries mp_roots p_maps p_roots p1 p_set].
          + done.
          + apply Forall2_insert; [eapply Forall2_impl; [done|]; intros; by eapply trel_mono|].
            split; [|split; [done|]].
            * cbn [fst]. unfold Collapse. cbn [t_root]. destruct (canCollapse E n2) eqn:Hcc; [|done]. by apply collapse_nrep.
            * unfold Collapse. cbn [t_root t_count fst snd]. destruct (canCollapse E n2); cbn; lia.
          + eapply Forall2_impl; [done|]. intros. by eapply rrel_mono.
        - do 2 eexists. split; [reflexivity|]. split; [done|]. split; cbn [mp_store mp_tries mp_roots p_maps p_roots p1 p_set]; [done| |done].
          by apply Forall2_insert. }
      destruct Hnext as (st1&t2&->&Hclean&Hrel1).
      destruct (IH p1 _ t2 (<[k := v]> m) (c + 1)%Z Hrel1 Hj1) as (st'&p'&HB&Hcnt&Hdir&Hrel').
      + cbn [mp_tries]. apply list_lookup_insert. by eapply lookup_lt_Some.
      + intros kv Hkv. apply Hk. by right.
      + intros x Hx. apply Hvis, elem_of_app. by right.
      + cbn [mp_store mp_tries mp_roots] in *. rewrite HB. exists st', p'. split; [done|]. split; [cbn [length]; lia|]. split.
        * intros _ Hrem. destruct kvs as [|kv kvs].
          -- cbn [BatchPutAll] in HB. injection HB as _ <-. apply Hclean. cbn [length] in Hrem. by rewrite <- Hrem.
          -- apply Hdir; [done|]. rewrite <- Hrem. f_equal. cbn [length]. lia.
        * rewrite list_insert_insert in Hrel'. rewrite prun_cons, Hp1. done. }
  destruct (Hgo kvs _ mp t m 0%Z Hrel Hj Ht Hkk Hvis) as (st'&p'&HB&Hcnt&Hdir&Hrel').
  exists st', p'. split; [done|]. split; [done|]. split; [done|]. split; [lia|]. split; [done|].
  apply Hrest. rewrite prun_app. done.
Qed.
Print Assumptions C68_batch_putter.

(** With modulus 0 the first Put that changes the trie panics. *)
Theorem C68_zero_modulus_panics : forall V (E : env V) st t k v t',
  Put E st t k (Some v) = Some (t', true) -> BatchPut E st (NewBatchPutter t 0) k v = None.
Proof. intros V E st t k v t' HP. unfold BatchPut. cbn [NewBatchPutter bp_t bp_m]. by rewrite HP. Qed.
Print Assumptions C68_zero_modulus_panics.

Example C68_example :
  let E := demo_env idealH in
  let root := root_of idealH (ertl E) (evhash E) in
  let kvs := [([0x12; 0x34], 7); ([0x92; 0x35], 9); ([0x12; 0x35], 1)] in
  history_ok E (keys_of_length 2) ([] ++ puts 0 kvs ++ [(0%nat, TGet [0x92; 0x35]); (0%nat, THash)]) /\
  p_maps (prun root [] pool0).1 !! 0%nat = Some (∅, 0%Z).
Proof. split; [apply demo_history_ok; [lia|by repeat constructor]|done]. Qed.
