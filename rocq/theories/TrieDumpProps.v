(** Properties of Dump and Rebase: C92. *)
From Verif Require Import TrieDumpModel TrieDumpProofs TrieIterProofs TrieIterProps TrieProofProps TrieProps ToyHash.

Section state.
Context {V : Type} (E : env V) (K : list N -> Prop).
Local Notation root := (root_of (eH E) (ertl E) (evhash E)).
Local Notation rhash := (rhash (eH E) (ertl E) (evhash E)).

Lemma rhash_input r : exists x, x ∈ rinputs (eH E) (ertl E) (evhash E) r /\ rhash r = eH E x.
Proof.
  destruct r as [p ch v]. cbn [TrieSpec.rhash rinputs]. destruct (somes (map (option_map rhash) ch)) as [|h hs] eqn:Hs.
  - eexists. split; [|reflexivity]. right. by left.
  - eexists. split; [|reflexivity]. right. right. by left.
Qed.
Lemma dumpable_of m : prefix_free K -> dom_in K m -> m <> ∅ ->
  (forall x, x ∈ root_inputs (eH E) (ertl E) (evhash E) m -> eH E x <> replicate 32 0 /\ eH E x <> eH E []) ->
  (forall k x, m !! k = Some x -> evenc E x <> []) -> dumpable E (radix_of m).
Proof.
  intros HK Hd Hm Hin Hen. destruct (radix_wfr K HK m Hd Hm) as [Hw Hlk]. split.
  - intros a Ha. destruct (rhash_input a) as (x&Hx&->). apply Hin. by eapply subr_inputs.
  - intros p ch x Hs. destruct (rvalues_look _ _ x Hw) as (k&Hk).
    { eapply subr_values; [done|]. cbn [rvalues]. apply elem_of_app. left. by left. }
    destruct (wfr_in _ _ _ _ Hw Hk) as [(k0&_&->) _]. rewrite Hlk in Hk. by eapply Hen.
Qed.

Definition as_calls (l : list (list N * V)) : list (list N * list N) := map (fun kv => (kv.1, evenc E kv.2)) l.

Lemma calls_once m : prefix_free K -> dom_in K m -> m <> ∅ -> m !! [] = None ->
  flat_map (calls_of E) (rents (radix_of m) []) = as_calls (map (fun e : list N * V => (pack e.1, e.2)) (rents (radix_of m) [])).
Proof.
  intros HK Hd Hm He. destruct (radix_wfr K HK m Hd Hm) as [Hw Hlk].
  assert (Hne : forall s x, (s, x) ∈ rents (radix_of m) [] -> s <> []).
  { intros s x Hs ->. apply elem_rents in Hs as (k&Hk&Hx). cbn [app] in Hk. subst k. rewrite <- (Hlk []) in He. change (nibbles []) with (@nil N) in He. congruence. }
  revert Hne. generalize (rents (radix_of m) []). intros l Hne. induction l as [|[s x] l IH]; [done|].
  cbn [flat_map map as_calls]. unfold as_calls in IH |- *. rewrite IH by (intros s' x' ?; eapply Hne; by right). unfold calls_of. cbn [fst snd].
  destruct s; [|done]. exfalso. by eapply (Hne [] x); [left|].
Qed.

Lemma dump_kept st m cb dst : env_ok E -> prefix_free K -> kept E st m -> dom_in K m ->
  (forall x, x ∈ root_inputs (eH E) (ertl E) (evhash E) m -> eH E x <> replicate 32 0 /\ eH E x <> eH E []) ->
  (forall k x, m !! k = Some x -> evenc E x <> []) ->
  exists l, in_key_order l m /\ exists fuel0, forall fuel, (fuel0 <= fuel)%nat ->
  exists dst' cs ok, Dump E fuel st (NewTrie (Some (root m))) cb dst = Some (dst', cs, ok) /\ mixed st dst dst' /\
    if ok then kept E dst' m /\ (m !! [] = None -> cs = if cb then as_calls l else [])
    else true ∈ st_faults dst /\ (m !! [] = None -> cs `prefix_of` if cb then as_calls l else []).
Proof.
  intros HE HK Hk Hd Hin Hen. pose proof (open_nrep E st m 1 Hk) as Hn. pose proof (IsEmpty_spec E HE _ _ _ Hn) as Hem.
  destruct (decide (m = ∅)) as [->|Hm].
  { exists []. split; [split; [constructor|]; intros k v; rewrite lookup_empty; split; [by intros ?%elem_of_nil|done]|].
    exists O. intros fuel _. exists dst, [], true. split.
    - unfold Dump, NewTrie. cbn [t_root]. by rewrite Hem, bool_decide_eq_true_2.
    - split; [apply mixed_refl|]. split; [by left|]. intros _. by destruct cb. }
  destruct (entries_of K m HK Hd Hm) as (Hs&Hev&Hord&Hout). eexists. split; [exact Hord|].
  exists (S (rsize (radix_of m))). intros fuel Hf. destruct Hn as [[? ?]|[_ Hrep]]; [done|].
  destruct (dump_spec E HE st (NewTrie (Some (root m))) (radix_of m) cb dst Hrep) with (fuel := fuel) as (dst'&cs&ok&->&Hmx&Hok);
    [apply dok_new|by apply dumpable_of|done|by rewrite bool_decide_eq_false_2 in Hem|lia|].
  exists dst', cs, ok. split; [done|]. split; [done|].
  assert (Hc : m !! [] = None -> calls E cb (rents (radix_of m) []) = if cb then as_calls (map (fun e : list N * V => (pack e.1, e.2)) (rents (radix_of m) [])) else []).
  { intros He. unfold calls. destruct cb; [|done]. by apply calls_once. }
  destruct ok.
  - destruct Hok as [-> Hst]. split; [by right|]. exact Hc.
  - destruct Hok as [Hfa Hp]. split; [done|]. intros He. by rewrite <- Hc.
Qed.

Lemma get_kept st m g c k : env_ok E -> prefix_free K -> (forall k, K k -> is_bytes k /\ (length k <= 48)%nat) -> kept E st m -> dom_in K m -> K k ->
  (Get E st (Trie (new_node (Some (root m)) g) c g) k).2 = m !! k.
Proof.
  intros HE HK Hkey Hk Hd HKk. pose proof (open_nrep E st m g Hk) as Hn.
  destruct (get_nrep E HE K HK ltac:(intros; by apply Hkey) st g _ m k Hn Hd HKk) as (n'&tr&Hg&_). unfold Get. cbn [t_root t_gen].
  by rewrite Hg.
Qed.
End state.

(** After any history over a database, take any root hash [h] that a Commit gave,
    with [m] the contents then, open it and Dump to any other database [dst]. Dump
    ends. Every entry of the destination is then as before or a copy of the
    source's entry. If Dump reports no error, then a trie opened with [h] on the
    destination answers every Get as [m], and valueCallback was called exactly
    once for each key, in key order, with the encoded value. Otherwise a write to
    the destination had failed, and the calls are the first of those.
    No hash may look like the empty hash or the hash of no bytes (InvalidHash), no
    value may have an empty encoding. *)
Theorem C92_dump : forall V (E : env V) K ops i m cb dst,
  let root := root_of (eH E) (ertl E) (evhash E) in
  history_ok E K ops -> p_roots (prun root ops pool0).1 !! i = Some m ->
  (forall x, x ∈ root_inputs (eH E) (ertl E) (evhash E) m -> eH E x <> replicate 32 0 /\ eH E x <> eH E []) ->
  (forall k x, m !! k = Some x -> evenc E x <> []) ->
  exists mp obs h, mrun E ops mpool0 = Some (mp, obs) /\ mp_roots mp !! i = Some h /\
  let src := mp_store mp in
  exists l, in_key_order l m /\ exists fuel0, forall fuel, (fuel0 <= fuel)%nat ->
  exists dst' cs ok, Dump E fuel src (NewTrie (Some h)) cb dst = Some (dst', cs, ok) /\
    (forall k, st_nodes dst' !! k = st_nodes dst !! k \/ is_Some (st_nodes src !! k) /\ st_nodes dst' !! k = st_nodes src !! k) /\
    (forall k, st_vals dst' !! k = st_vals dst !! k \/ is_Some (st_vals src !! k) /\ st_vals dst' !! k = st_vals src !! k) /\
    if ok then (forall k, K k -> (Get E dst' (NewTrie (Some h)) k).2 = m !! k) /\
               (m !! [] = None -> cs = if cb then map (fun kv => (kv.1, evenc E kv.2)) l else [])
    else true ∈ st_faults dst /\ (m !! [] = None -> cs `prefix_of` if cb then map (fun kv => (kv.1, evenc E kv.2)) l else []).
Proof.
  intros V E K ops i m cb dst root Hok Hi Hin Hen.
  destruct (history_state E K ops []) as (HL&Hvals&Hx&(mp&Hmp&Hrel)&Hrest); [by rewrite app_nil_r|]. fold root in Hmp, Hrel.
  destruct (Forall2_lookup_r _ _ _ _ _ (pr_roots _ _ _ _ _ Hrel) Hi) as (h&Hh&(->&Hk&Hd)). fold root in Hh.
  exists mp, (prun root ops pool0).2, (root m). split; [done|]. split; [done|]. intros src.
  destruct Hok as [HE HK Hkey Hkeys Hinj Hv].
  destruct (dump_kept E K src m cb dst HE HK Hk Hd Hin Hen) as (l&Hl&fuel0&Hf). exists l. split; [done|]. exists fuel0. intros fuel Hfu.
  destruct (Hf fuel Hfu) as (dst'&cs&ok&Hdu&[Hm1 Hm2]&Hres). exists dst', cs, ok. split; [done|]. split; [done|]. split; [done|].
  destruct ok; [|done]. destruct Hres as [Hk' Hc]. split; [|done]. intros k HKk. by apply (get_kept E K).
Qed.
Print Assumptions C92_dump.

(** Rebase: the new trie has the root hash of the contents. It reads them on any
    database into which they have been dumped from the trie's own database. *)
Theorem C92_rebase : forall V (E : env V) K ops j m b dst,
  let root := root_of (eH E) (ertl E) (evhash E) in
  history_ok E K (ops ++ [(j, TCommit)]) -> p_maps (prun root ops pool0).1 !! j = Some (m, b) ->
  (forall x, x ∈ root_inputs (eH E) (ertl E) (evhash E) m -> eH E x <> replicate 32 0 /\ eH E x <> eH E []) ->
  (forall k x, m !! k = Some x -> evenc E x <> []) ->
  exists mp obs t src t1 new, mrun E ops mpool0 = Some (mp, obs) /\ mp_tries mp !! j = Some t /\
    Rebase E (mp_store mp) t = Some (src, t1, new) /\
    (HashValue E new).2 = root m /\ (HashValue E t1).2 = root m /\
    exists fuel0, forall fuel, (fuel0 <= fuel)%nat -> ~ true ∈ st_faults dst ->
    exists dst' cs, Dump E fuel src (NewTrie (Some (root m))) false dst = Some (dst', cs, true) /\
      forall k, K k -> (Get E dst' new k).2 = m !! k.
Proof.
  intros V E K ops j m b dst root Hok Hj Hin Hen.
  destruct (history_state E K ops _ Hok) as (HL&Hvals&Hx&(mp&Hmp&Hrel)&Hrest). fold root in Hmp, Hrel, Hx.
  destruct (Forall2_lookup_r _ _ _ _ _ (pr_tries _ _ _ _ _ Hrel) Hj) as (t&Ht&(Hn&Hd&Hc)). cbn [fst snd] in *.
  assert (HmL : m ∈ pvisited root (ops ++ [(j, TCommit)]) pool0).
  { apply Hx. apply elem_of_list_fmap. exists (m, b). split; [done|]. by apply elem_of_list_lookup_2 in Hj. }
  pose proof Hok as [HE HK HKp Hkeys Hinj Hv].
  destruct (commit_nrep E HE K HK (fun k Hk => proj1 (HKp k Hk)) (fun k Hk => proj2 (HKp k Hk)) _ HL Hinj _ Hvals Hv
    (mp_store mp) (t_gen t) (t_root t) m Hn HmL (pr_store _ _ _ _ _ Hrel)) as (src&n1&Hit&_&_&Hn1&Hk&_).
  destruct (hash_nrep E HE K HK (fun k Hk => proj1 (HKp k Hk)) (fun k Hk => proj2 (HKp k Hk)) _ HL Hinj _ Hvals Hv
    src n1 m Hn1 HmL) as (n2&Hh&Hn2).
  destruct (hash_nrep E HE K HK (fun k Hk => proj1 (HKp k Hk)) (fun k Hk => proj2 (HKp k Hk)) _ HL Hinj _ Hvals Hv
    src n2 m Hn2 HmL) as (n3&Hh2&_). fold root in Hh, Hh2.
  exists mp, (prun root ops pool0).2, t, src. do 2 eexists. split; [done|]. split; [done|]. split.
  { unfold Rebase, Commit. rewrite Hit. unfold HashValue. cbn [t_root]. rewrite Hh. reflexivity. }
  split; [done|]. split; [unfold HashValue; cbn [t_root]; by rewrite Hh2|].
  destruct (dump_kept E K src m false dst HE HK Hk Hd Hin Hen) as (l&_&fuel0&Hf). exists fuel0. intros fuel Hfu Hnf.
  destruct (Hf fuel Hfu) as (dst'&cs&[|]&Hdu&_&Hres); [|by destruct Hres]. destruct Hres as [Hk' _].
  exists dst', cs. split; [done|]. intros k HKk. by apply (get_kept E K).
Qed.
Print Assumptions C92_rebase.

(** A trie with uncommitted changes is refused and nothing is written; an empty
    one is dumped without writing anything. *)
Theorem C92_dirty_or_empty : forall V (E : env V) fuel st t cb dst,
  (IsEmpty E t = true -> Dump E fuel st t cb dst = Some (dst, [], true)) /\
  (IsEmpty E t = false -> IsDirty t = true -> Dump E fuel st t cb dst = Some (dst, [], false)).
Proof. intros V E fuel st t cb dst. unfold IsEmpty, IsDirty, Dump. split; [by intros ->|by intros -> ->]. Qed.
Print Assumptions C92_dirty_or_empty.
Example C92_dirty_example :
  let E := demo_env toyH in
  exists t t', Put E (Store ∅ ∅ []) (NewTrie None) [0x12] (Some 7) = Some (t, true) /\ IsEmpty E t = false /\ IsDirty t = true /\
    IsEmpty E (NewTrie None) = true /\ (Commit E (Store ∅ ∅ []) t).1.2 = t' /\ IsDirty t' = false.
Proof. cbv zeta. do 2 eexists. split; [vm_compute; reflexivity|]. split; [by vm_compute|]. split; [by vm_compute|]. split; [by vm_compute|]. split; [reflexivity|by vm_compute]. Qed.

(** Non-vacuity: the second history of C12, and the root of its second commit. *)
Example C92_example :
  let E := demo_env idealH in
  let root := root_of idealH (ertl E) (evhash E) in
  exists m, history_ok E (keys_of_length 2) demo_hist2 /\ p_roots (prun root demo_hist2 pool0).1 !! 1%nat = Some m /\
  map (fun k => m !! k) [[0x12; 0x34]; [0x92; 0x35]; [0x12; 0x35]; []] = [Some 7; Some 1; None; None] /\
  (forall x, x ∈ root_inputs (eH E) (ertl E) (evhash E) m -> eH E x <> replicate 32 0 /\ eH E x <> eH E []) /\
  (forall k x, m !! k = Some x -> evenc E x <> []).
Proof.
  cbv zeta. eexists. split; [apply demo_history_ok; [lia|by repeat constructor]|]. split; [reflexivity|]. split; [vm_compute; reflexivity|]. split; [|done].
  intros x Hx. split; [done|]. intros He.
  assert (Hn : x = []) by (apply (idealH_inj [x; []]); [by left|right; by left|done]).
  revert Hx He Hn. match goal with |- x ∈ ?l -> _ => assert (Hl : forallb (fun x : list N => match x with [] => false | _ => true end) l = true) end.
  { lazy. reflexivity. }
  intros Hx _ ->. rewrite forallb_forall in Hl. apply elem_of_list_In in Hx. by specialize (Hl _ Hx).
Qed.

(** Dump copies a trie with a branch and two leaves and a value, and calls back
    in key order; on the copy Get works and on the old destination it does not. *)
Example C92_run :
  let E := demo_env toyH in
  exists mp obs h dst', mrun E [(0%nat, TPut [0x92; 0x35] 9); (0%nat, TPut [0x12; 0x34] 7); (0%nat, TCommit)] mpool0 = Some (mp, obs) /\
    mp_roots mp = [h] /\
    Dump E 10 (mp_store mp) (NewTrie (Some h)) true (Store ∅ ∅ []) = Some (dst', [([0x12; 0x34], [7]); ([0x92; 0x35], [9])], true) /\
    map (fun k => (Get E dst' (NewTrie (Some h)) k).2) [[0x12; 0x34]; [0x92; 0x35]; [0x92; 0x36]] = [Some 7; Some 9; None] /\
    (Get E (Store ∅ ∅ []) (NewTrie (Some h)) [0x12; 0x34]).2 = None /\
    exists dst2, Dump E 10 (mp_store mp) (NewTrie (Some h)) true (Store ∅ ∅ [false; false; false; true]) = Some (dst2, [([0x12; 0x34], [7])], false).
Proof.
  cbv zeta. do 4 eexists. split; [vm_compute; reflexivity|]. split; [reflexivity|]. split; [vm_compute; reflexivity|].
  split; [vm_compute; reflexivity|]. split; [vm_compute; reflexivity|]. eexists. vm_compute. reflexivity.
Qed.

(** A key of length zero is reported twice. *)
Theorem C92_empty_key_refuted :
  let E := demo_env toyH in
  exists mp obs h dst', mrun E [(0%nat, TPut [] 7); (0%nat, TCommit)] mpool0 = Some (mp, obs) /\ mp_roots mp = [h] /\
    Dump E 10 (mp_store mp) (NewTrie (Some h)) true (Store ∅ ∅ []) = Some (dst', [([], [7]); ([], [7])], true).
Proof. cbv zeta. do 4 eexists. split; [vm_compute; reflexivity|]. split; [reflexivity|]. vm_compute. reflexivity. Qed.
Print Assumptions C92_empty_key_refuted.

(** Rebase alone moves no data: over a database that does not have it, the new
    trie reports no error and finds nothing. *)
Theorem C92_rebase_empty_refuted :
  let E := demo_env toyH in
  exists mp obs t src t1 new, mrun E [(0%nat, TPut [0x12] 7)] mpool0 = Some (mp, obs) /\ mp_tries mp = [t] /\
    (Get E (mp_store mp) t [0x12]).2 = Some 7 /\
    Rebase E (mp_store mp) t = Some (src, t1, new) /\ (Get E (Store ∅ ∅ []) new [0x12]).2 = None.
Proof.
  cbv zeta. do 6 eexists. split; [vm_compute; reflexivity|]. split; [reflexivity|]. split; [vm_compute; reflexivity|].
  split; [vm_compute; reflexivity|]. vm_compute. reflexivity.
Qed.
Print Assumptions C92_rebase_empty_refuted.
