(** Properties of the trie: contents, root hash, commit and reload, collapse,
    count, key and header encodings (C10-C15, C17, C20, C23, C24). *)
From Verif Require Export TrieRunProofs ToyHash.

(* ------------------------------------------------- example environments *)

(** An injective "hash" (one unbounded symbol followed by zeros), used only to
    show that the hypotheses of the theorems can be met together. *)
Definition idealH (x : list N) : list N := Npos (encode x) :: replicate 31 0.
Lemma idealH_inj l : inj_on idealH l.
Proof. intros x y _ _ He. unfold idealH in He. injection He as He. by apply (inj encode) in He. Qed.

Definition demo_env (H : list N -> list N) : env N :=
  Env N H (fun b => lenN b :: b)
    (fun l => match l with n :: r => Some (take (N.to_nat n) r, drop (N.to_nat n) r) | [] => None end)
    (fun v => [v]) (fun b => match b with [v] => Some v | _ => None end) (fun v => H [v]).
Lemma demo_env_ok H : (forall x, length (H x) = 32%nat) -> env_ok (demo_env H).
Proof.
  intros HL. split; cbn; try done.
  - intros b rest. unfold lenN. rewrite Nat2N.id, take_app, drop_app. done.
  - intros b Hb. lia.
Qed.

(* ------------------------------------------------------------------ C10 *)

(** Plain calls on one trie, starting from the empty one, answer as a finite
    map does, for keys none of which is a proper prefix of another. No
    assumption on the hash. *)
Theorem C10_trie_is_map : forall V (E : env V) (K : list N -> Prop) (ops : list (tcall V)),
  env_ok E -> prefix_free K -> (forall k, K k -> is_bytes k) ->
  Forall basic ops -> (forall o k, o ∈ ops -> k ∈ tcall_keys o -> K k) ->
  exists mp, mrun E (map (pair 0%nat) ops) mpool0 = Some (mp, map_obs ops ∅).
Proof.
  intros V E K ops HE HK HKb Hb Hk.
  destruct (basic_run E K ops HE HK HKb (NewTrie None) ∅) as (t'&Ht'); try done.
  - left. split; [done|]. constructor. by left.
  - eexists. exact Ht'.
Qed.
Print Assumptions C10_trie_is_map.

Lemma same_length_prefix_free n : prefix_free (fun k => is_bytes k /\ length k = n).
Proof.
  intros a b [_ Ha] [_ Hb] [s ->]. rewrite app_length in Hb. destruct s; [by rewrite app_nil_r|cbn in Hb; lia].
Qed.

Theorem C10_same_length_keys : forall V (E : env V) n (ops : list (tcall V)),
  env_ok E -> Forall basic ops -> (forall o k, o ∈ ops -> k ∈ tcall_keys o -> is_bytes k /\ length k = n) ->
  exists mp, mrun E (map (pair 0%nat) ops) mpool0 = Some (mp, map_obs ops ∅).
Proof.
  intros V E n ops HE Hb Hk. eapply C10_trie_is_map; [done|apply (same_length_prefix_free n)|by intros k [? _]|done|done].
Qed.
Print Assumptions C10_same_length_keys.

Definition demo_ops : list (tcall N) :=
  [TPut [0x12; 0x34] 7; TPut [0x12; 0x35] 8; TPut [0x92; 0x35] 9; TGet [0x12; 0x34]; TDel [0x12; 0x34];
   TGet [0x12; 0x34]; TPut [0x12; 0x35] 10; TDel [0x55; 0x55]; TCount; TIsEmpty; TGet [0x12; 0x35]].
Example C10_example : env_ok (demo_env toyH) /\ Forall basic demo_ops /\
  (forall o k, o ∈ demo_ops -> k ∈ tcall_keys o -> is_bytes k /\ length k = 2%nat) /\
  map_obs demo_ops ∅ = [OChanged true; OChanged true; OChanged true; OVal (Some 7); ODeleted true (Some 7);
     OVal None; OChanged true; ODeleted false None; OCount 2; OBool false; OVal (Some 10)].
Proof.
  split; [apply demo_env_ok, toyH_len|]. split; [by repeat constructor|]. split; [|by vm_compute].
  intros o k Ho Hk. unfold demo_ops in Ho. repeat (apply elem_of_cons in Ho as [->|Ho]); try (by apply elem_of_nil in Ho);
    cbn in Hk; try (by apply elem_of_nil in Hk); apply elem_of_list_singleton in Hk as ->; (split; [|done]);
    repeat constructor; lia.
Qed.

(* ------------------------------------------------------------------ C11 *)

(** With keys of different lengths the trie is not a map: a Get of an absent key
    that is a proper prefix of a stored key returns the longer key's value. *)
Theorem C11_arbitrary_keys_refuted : forall V (E : env V) (v w : V),
  let ops := [TPut [0x12; 0x34] v; TPut [0x15] w; TGet [0x12]] in
  map_obs ops ∅ = [OChanged true; OChanged true; OVal None] /\
  exists mp, mrun E (map (pair 0%nat) ops) mpool0 = Some (mp, [OChanged true; OChanged true; OVal (Some v)]).
Proof.
  intros V E v w ops. split; [reflexivity|]. eexists. unfold ops. vm_compute. reflexivity.
Qed.
Print Assumptions C11_arbitrary_keys_refuted.

(* ------------------------------------------------------------------ C12 *)

(** The hypotheses shared by the theorems about whole histories: the keys are
    byte strings of at most 48 bytes, none a proper prefix of another; no two
    different strings actually hashed collide; no two different values put have
    the same value hash. *)
Record history_ok {V} (E : env V) (K : list N -> Prop) (ops : list (nat * tcall V)) : Prop := HistoryOk {
  ho_env : env_ok E;
  ho_pf : prefix_free K;
  ho_key : forall k, K k -> is_bytes k /\ (length k <= 48)%nat;
  ho_keys : forall j o k, (j, o) ∈ ops -> k ∈ tcall_keys o -> K k;
  ho_inj : inj_on (eH E) (concat (map (root_inputs (eH E) (ertl E) (evhash E))
             (∅ :: pvisited (root_of (eH E) (ertl E) (evhash E)) ops pool0)));
  ho_vinj : forall x y, x ∈ concat (map (fun jo => tcall_vals jo.2) ops) ->
              y ∈ concat (map (fun jo => tcall_vals jo.2) ops) -> evhash E x = evhash E y -> x = y;
}.

(** Any history of calls on any number of tries over one database (Put, Delete,
    Get, HashValue, Commit, Collapse, Count, IsEmpty, Clone, reopening by root
    hash) answers as finite maps do, and HashValue answers [root_of] of the
    contents. *)
Theorem C12_histories_refine_maps : forall V (E : env V) K ops, history_ok E K ops ->
  exists mp, mrun E ops mpool0 = Some (mp, (prun (root_of (eH E) (ertl E) (evhash E)) ops pool0).2).
Proof. intros V E K ops []. by apply (trie_refines E K ops). Qed.
Print Assumptions C12_histories_refine_maps.

(** Two histories that leave the same contents (in trie [j1] of the first and
    [j2] of the second) leave the same root hash. *)
Theorem C12_history_independence : forall V (E : env V) K1 K2 ops1 ops2 j1 j2 m b1 b2,
  let root := root_of (eH E) (ertl E) (evhash E) in
  history_ok E K1 (ops1 ++ [(j1, THash)]) -> history_ok E K2 (ops2 ++ [(j2, THash)]) ->
  p_maps (prun root ops1 pool0).1 !! j1 = Some (m, b1) ->
  p_maps (prun root ops2 pool0).1 !! j2 = Some (m, b2) ->
  exists h mp1 mp2 obs1 obs2,
    mrun E (ops1 ++ [(j1, THash)]) mpool0 = Some (mp1, obs1 ++ [OHash h]) /\
    mrun E (ops2 ++ [(j2, THash)]) mpool0 = Some (mp2, obs2 ++ [OHash h]).
Proof.
  intros V E K1 K2 ops1 ops2 j1 j2 m b1 b2 root H1 H2 Hm1 Hm2.
  destruct (C12_histories_refine_maps V E K1 _ H1) as (mp1&->). destruct (C12_histories_refine_maps V E K2 _ H2) as (mp2&->).
  exists (root m), mp1, mp2, (prun root ops1 pool0).2, (prun root ops2 pool0).2. fold root.
  rewrite !prun_app. cbn [snd]. rewrite !prun_cons. cbn [snd prun]. unfold pstep. by rewrite Hm1, Hm2.
Qed.
Print Assumptions C12_history_independence.

(** Plain Put/Delete histories: only the hashing of the final contents matters. *)
Definition put_del {V} (o : mop V) : tcall V := match o with MPut k v => TPut k v | MDel k => TDel k end.
Theorem C12_put_delete_root : forall V (E : env V) K (ops : list (mop V)),
  let m := mop_run ops ∅ in
  env_ok E -> prefix_free K -> (forall k, K k -> is_bytes k /\ (length k <= 48)%nat) ->
  (forall o, o ∈ ops -> K (mop_key o)) ->
  inj_on (eH E) (root_inputs (eH E) (ertl E) (evhash E) m ++ root_inputs (eH E) (ertl E) (evhash E) (∅ : gmap (list N) V)) ->
  exists mp obs, mrun E (map (fun o => (0%nat, put_del o)) ops ++ [(0%nat, THash)]) mpool0 =
    Some (mp, obs ++ [OHash (root_of (eH E) (ertl E) (evhash E) m)]).
Proof.
  intros V E K ops m HE HK HKp Hk Hinj.
  assert (HKb : forall k, K k -> is_bytes k) by (intros k ?; by apply HKp).
  assert (Hrun : forall ops m0 t, (forall o, o ∈ ops -> K (mop_key o)) -> nrep E (Store ∅ ∅ []) (t_root t) m0 -> dom_in K m0 ->
     exists t' obs, nrep E (Store ∅ ∅ []) (t_root t') (mop_run ops m0) /\ dom_in K (mop_run ops m0) /\
       forall rest, mrun E (map (fun o => (0%nat, put_del o)) ops ++ rest) (MPool (Store ∅ ∅ []) [t] []) =
         match mrun E rest (MPool (Store ∅ ∅ []) [t'] []) with Some (p, o2) => Some (p, obs ++ o2) | None => None end).
  { clear ops m Hk Hinj. induction ops as [|o ops IH]; intros m0 t Hk Hn Hd.
    - exists t, []. split; [done|]. split; [done|]. intros rest. cbn [map app]. by destruct (mrun E rest _) as [[? ?]|].
    - assert (HKo : K (mop_key o)) by (apply Hk; by left).
      assert (exists t1 ob, mstep E (MPool (Store ∅ ∅ []) [t] []) (0%nat, put_del o) = Some (MPool (Store ∅ ∅ []) [t1] [], ob) /\
         nrep E (Store ∅ ∅ []) (t_root t1) (mop_step m0 o) /\ dom_in K (mop_step m0 o)) as (t1&ob&Hs&Hn1&Hd1).
      { unfold mstep. cbn [mp_store mp_tries mp_roots]. change ([t] !! 0%nat) with (Some t). destruct o as [k v|k]; cbn [put_del mop_step mop_key] in *.
        - unfold Put. destruct (put_nrep E HE K HK HKb (Store ∅ ∅ []) (t_gen t) (t_root t) m0 k v Hn Hd HKo) as (n'&->&Hn'&Hd').
          eexists _, _. split; [reflexivity|]. done.
        - destruct (delete_nrep E HE K HK HKb (Store ∅ ∅ []) (t_root t) m0 k t Hn Hd HKo) as (t1&->&Hn'&Hd'&_); [done|].
          eexists _, _. split; [reflexivity|]. done. }
      destruct (IH (mop_step m0 o) t1) as (t'&obs&Hn'&Hd'&Hr); [intros; apply Hk; by right|done|done|].
      exists t', (ob :: obs). split; [done|]. split; [done|]. intros rest. cbn [map app mrun]. rewrite Hs, Hr.
      by destruct (mrun E rest _) as [[? ?]|]. }
  destruct (Hrun ops ∅ (NewTrie None)) as (t'&obs&Hn&Hd&Hr); [done| |done|].
  { left. split; [done|]. constructor. by left. }
  fold m in Hn, Hd. unfold mpool0. rewrite Hr. cbn [mrun mstep mp_store mp_tries mp_roots]. change ([t'] !! 0%nat) with (Some t').
  unfold HashValue.
  assert (exists n', node_hash E (t_root t') = (n', root_of (eH E) (ertl E) (evhash E) m)) as (n'&->); [|eexists _, obs; reflexivity].
  destruct Hn as [[Hm He]|[Hm Hrep]].
  - destruct (erep_hash E _ He) as (n'&->&_). exists n'. rewrite EH_eq, Hm. unfold root_of. by rewrite radix_empty.
  - destruct (node_hash_spec E HE (fun r => subr r (radix_of m)) (Store ∅ ∅ []) (t_root t') (radix_of m)) as (n'&->&_); [| |done|constructor|by exists n'].
    + intros pre ch v i c Hs Hi. by eapply subr_closed.
    + intros r Hs. rewrite EH_eq. assert (okr (radix_of m)) as Hok by (apply (root_okr K HK HKb); [|done..]; intros k ?; by apply HKp).
      apply rhash_nonempty; [done|by eapply subr_okr|]. eapply inj_on_sub; [|exact Hinj].
      intros x. rewrite !elem_of_app. intros [Hx|Hx]; [left; by eapply subr_inputs|right; unfold root_inputs; by rewrite radix_empty].
Qed.
Print Assumptions C12_put_delete_root.

Definition keys_of_length (n : nat) (k : list N) : Prop := is_bytes k /\ length k = n.
Lemma demo_history_ok n ops : (n <= 48)%nat ->
  Forall (fun jo => Forall (fun k => is_bytesb k = true /\ length k = n) (tcall_keys jo.2)) ops ->
  history_ok (demo_env idealH) (keys_of_length n) ops.
Proof.
  intros Hn Hk. split.
  - by apply demo_env_ok.
  - apply same_length_prefix_free.
  - intros k [? ?]. split; [done|lia].
  - intros j o k Ho Hk'. rewrite Forall_forall in Hk. specialize (Hk _ Ho). rewrite Forall_forall in Hk.
    destruct (Hk k Hk') as [? ?]. split; [by apply is_bytesb_spec|done].
  - apply idealH_inj.
  - intros x y _ _ He. cbn in He. assert ([x] = [y]) as Hxy; [|by injection Hxy].
    apply (idealH_inj [[x]; [y]]); [by left|right; by left|done].
Qed.

(** Two different histories with the same final contents: the second inserts
    and removes another key, commits, collapses and reopens in between. *)
Definition demo_hist1 : list (nat * tcall N) := [(0%nat, TPut [0x12; 0x34] 7); (0%nat, TPut [0x92; 0x35] 9)].
Definition demo_hist2 : list (nat * tcall N) :=
  [(0%nat, TPut [0x92; 0x35] 1); (0%nat, TPut [0x12; 0x35] 8); (0%nat, TCommit); (0%nat, TCollapse);
   (0%nat, TPut [0x12; 0x34] 7); (0%nat, TDel [0x12; 0x35]); (0%nat, TCommit); (0%nat, TOpen 1); (1%nat, TPut [0x92; 0x35] 9)].
Example C12_example :
  let root := root_of idealH (ertl (demo_env idealH)) (evhash (demo_env idealH)) in
  history_ok (demo_env idealH) (keys_of_length 2) (demo_hist1 ++ [(0%nat, THash)]) /\
  history_ok (demo_env idealH) (keys_of_length 2) (demo_hist2 ++ [(1%nat, THash)]) /\
  exists m b1 b2, m <> ∅ /\ p_maps (prun root demo_hist1 pool0).1 !! 0%nat = Some (m, b1) /\
    p_maps (prun root demo_hist2 pool0).1 !! 1%nat = Some (m, b2).
Proof.
  split; [apply demo_history_ok; [lia|by repeat constructor]|]. split; [apply demo_history_ok; [lia|by repeat constructor]|].
  exists (<[[0x92; 0x35] := 9]> (<[[0x12; 0x34] := 7]> ∅)). eexists _, _. split; [apply insert_non_empty|]. split; [reflexivity|].
  assert (Hm : <[[0x92; 0x35] := 9]> (<[[0x12; 0x34] := 7]> ∅) =
     <[[0x92; 0x35] := 9]> (delete [0x12; 0x35] (<[[0x12; 0x34] := 7]> (<[[0x12; 0x35] := 8]> (<[[0x92; 0x35] := 1]> ∅)))) :> gmap (list N) N)
    by (apply (bool_decide_eq_true_1 _); vm_compute; reflexivity).
  rewrite Hm. reflexivity.
Qed.

(* ------------------------------------------------------------------ C13 *)

(** Equal root hashes mean equal contents, when no two different strings hashed
    for the two roots (or for the empty trie) collide and no two different
    values stored have the same value hash. The two tries may use different key
    universes. *)
Definition keys_ok {V} (m : gmap (list N) V) : Prop :=
  prefix_free (fun k => is_Some (m !! k)) /\ forall k, is_Some (m !! k) -> is_bytes k /\ (length k <= 48)%nat.
Definition values_of {V} (m : gmap (list N) V) : list V := map snd (map_to_list m).

Theorem C13_root_binds_contents : forall V (E : env V) (m1 m2 : gmap (list N) V),
  let inputs := root_inputs (eH E) (ertl E) (evhash E) in
  env_ok E -> keys_ok m1 -> keys_ok m2 ->
  inj_on (eH E) (inputs m1 ++ inputs m2 ++ inputs ∅) ->
  (forall x y, x ∈ values_of m1 ++ values_of m2 -> y ∈ values_of m1 ++ values_of m2 -> evhash E x = evhash E y -> x = y) ->
  root_of (eH E) (ertl E) (evhash E) m1 = root_of (eH E) (ertl E) (evhash E) m2 -> m1 = m2.
Proof.
  intros V E m1 m2 inputs HE [Hp1 Hk1] [Hp2 Hk2] Hinj Hv He.
  assert (Hd : forall m : gmap (list N) V, (forall k, is_Some (m !! k) -> is_bytes k /\ (length k <= 48)%nat) ->
     dom_in (fun k => is_Some (m !! k)) m) by (intros m Hm k x Hx; split; [eauto|]; eapply Hm; eauto).
  assert (Hemp : forall m : gmap (list N) V, m <> ∅ -> prefix_free (fun k => is_Some (m !! k)) ->
     (forall k, is_Some (m !! k) -> is_bytes k /\ (length k <= 48)%nat) ->
     inj_on (eH E) (inputs m ++ inputs ∅) ->
     root_of (eH E) (ertl E) (evhash E) m <> root_of (eH E) (ertl E) (evhash E) (∅ : gmap (list N) V)).
  { intros m Hm Hp Hk Hi. unfold root_of. rewrite radix_empty. apply rhash_nonempty; [done| |].
    - apply (root_okr _ Hp (fun k Hx => proj1 (Hk k Hx)) (fun k Hx => proj2 (Hk k Hx)) m); [by apply Hd|done].
    - unfold inputs, root_inputs in Hi. by rewrite radix_empty in Hi. }
  destruct (decide (m1 = ∅)) as [->|Hm1]; destruct (decide (m2 = ∅)) as [->|Hm2]; [done|exfalso..|].
  - apply (Hemp m2); try done. eapply inj_on_sub; [|exact Hinj]. intros x. rewrite !elem_of_app. tauto.
  - apply (Hemp m1); try done. eapply inj_on_sub; [|exact Hinj]. intros x. rewrite !elem_of_app. tauto.
  - assert (Hw1 := radix_wfr _ Hp1 m1 (Hd m1 Hk1) Hm1). assert (Hw2 := radix_wfr _ Hp2 m2 (Hd m2 Hk2) Hm2).
    destruct Hw1 as [Hw1 Hl1], Hw2 as [Hw2 Hl2].
    assert (Hvals : forall (m : gmap (list N) V) (x : V), wfr (nibU (fun k => is_Some (m !! k))) (radix_of m) ->
       (forall k, rlook (radix_of m) (nibbles k) = m !! k) -> x ∈ rvalues (radix_of m) -> x ∈ values_of m).
    { intros m x Hw Hl Hx. destruct (rvalues_look _ _ _ Hw Hx) as (k&Hk). destruct (wfr_in _ _ _ _ Hw Hk) as [(k0&_&->) _].
      rewrite Hl in Hk. unfold values_of. apply elem_of_list_fmap. exists (k0, x). split; [done|]. by apply elem_of_map_to_list. }
    assert (radix_of m1 = radix_of m2) as Hr.
    { apply (rhash_inj E HE); [| | | |exact He].
      - apply (root_okr _ Hp1 (fun k Hx => proj1 (Hk1 k Hx)) (fun k Hx => proj2 (Hk1 k Hx)) m1); [by apply Hd|done].
      - apply (root_okr _ Hp2 (fun k Hx => proj1 (Hk2 k Hx)) (fun k Hx => proj2 (Hk2 k Hx)) m2); [by apply Hd|done].
      - eapply inj_on_sub; [|exact Hinj]. intros x. rewrite !elem_of_app. tauto.
      - intros x y Hx Hy. apply Hv; rewrite elem_of_app in *.
        + destruct Hx; [left|right]; by apply Hvals.
        + destruct Hy; [left|right]; by apply Hvals. }
    apply map_eq. intros k. by rewrite <- Hl1, <- Hl2, Hr.
Qed.
Print Assumptions C13_root_binds_contents.

(** The same about two histories of Put and Delete calls: if HashValue answers
    the same then the contents are the same. *)
Theorem C13_equal_hashes_equal_contents : forall V (E : env V) K1 K2 (ops1 ops2 : list (mop V)) mp1 mp2 obs1 obs2 h,
  let inputs := root_inputs (eH E) (ertl E) (evhash E) in
  let m1 := mop_run ops1 ∅ in let m2 := mop_run ops2 ∅ in
  env_ok E -> prefix_free K1 -> prefix_free K2 ->
  (forall k, K1 k -> is_bytes k /\ (length k <= 48)%nat) -> (forall k, K2 k -> is_bytes k /\ (length k <= 48)%nat) ->
  (forall o, o ∈ ops1 -> K1 (mop_key o)) -> (forall o, o ∈ ops2 -> K2 (mop_key o)) ->
  inj_on (eH E) (inputs m1 ++ inputs m2 ++ inputs ∅) ->
  (forall x y, x ∈ values_of m1 ++ values_of m2 -> y ∈ values_of m1 ++ values_of m2 -> evhash E x = evhash E y -> x = y) ->
  mrun E (map (fun o => (0%nat, put_del o)) ops1 ++ [(0%nat, THash)]) mpool0 = Some (mp1, obs1 ++ [OHash h]) ->
  mrun E (map (fun o => (0%nat, put_del o)) ops2 ++ [(0%nat, THash)]) mpool0 = Some (mp2, obs2 ++ [OHash h]) ->
  m1 = m2.
Proof.
  intros V E K1 K2 ops1 ops2 mp1 mp2 obs1 obs2 h inputs m1 m2 HE Hp1 Hp2 Hk1 Hk2 Ho1 Ho2 Hinj Hv Hr1 Hr2.
  assert (Hdom : forall (K : list N -> Prop) (ops : list (mop V)), (forall o, o ∈ ops -> K (mop_key o)) -> forall k, is_Some (mop_run ops ∅ !! k) -> K k).
  { intros K ops. assert (Hg : forall m : gmap (list N) V, (forall o, o ∈ ops -> K (mop_key o)) -> (forall k, is_Some (m !! k) -> K k) ->
       forall k, is_Some (mop_run ops m !! k) -> K k).
    { induction ops as [|o ops IH]; intros m Ho Hm; [done|]. cbn [mop_run fold_left]. apply IH; [intros; apply Ho; by right|].
      intros k. destruct o as [k' v|k']; cbn [mop_step].
      - destruct (decide (k' = k)) as [->|Hne]; [intros _; apply (Ho (MPut k v)); by left|rewrite lookup_insert_ne by done; apply Hm].
      - destruct (decide (k' = k)) as [->|Hne]; [rewrite lookup_delete; by intros []|rewrite lookup_delete_ne by done; apply Hm]. }
    intros Ho. apply Hg; [done|]. intros k. rewrite lookup_empty. by intros []. }
  assert (Hok : forall (K : list N -> Prop) ops, prefix_free K -> (forall k, K k -> is_bytes k /\ (length k <= 48)%nat) ->
     (forall o, o ∈ ops -> K (mop_key o)) -> keys_ok (mop_run ops (∅ : gmap (list N) V))).
  { intros K ops Hp Hk Ho. split; [intros a b Ha Hb; apply Hp; by eapply Hdom|]. intros k Hs. apply Hk. by eapply Hdom. }
  destruct (C12_put_delete_root V E K1 ops1 HE Hp1 Hk1 Ho1) as (mp1'&obs1'&Hr1').
  { eapply inj_on_sub; [|exact Hinj]. intros x. rewrite !elem_of_app. tauto. }
  destruct (C12_put_delete_root V E K2 ops2 HE Hp2 Hk2 Ho2) as (mp2'&obs2'&Hr2').
  { eapply inj_on_sub; [|exact Hinj]. intros x. rewrite !elem_of_app. tauto. }
  rewrite Hr1 in Hr1'. rewrite Hr2 in Hr2'. injection Hr1' as _ Hh1. injection Hr2' as _ Hh2.
  apply app_inj_tail in Hh1 as [_ Hh1], Hh2 as [_ Hh2]. injection Hh1 as Hh1. injection Hh2 as Hh2.
  apply (C13_root_binds_contents V E m1 m2 HE); try done; [by apply (Hok K1)|by apply (Hok K2)|].
  unfold m1, m2. congruence.
Qed.
Print Assumptions C13_equal_hashes_equal_contents.

(** A byte-valued hash without collision among the strings hashed for two
    different contents. *)
Example C13_example :
  let m1 : gmap (list N) N := <[[0x12; 0x34] := 7]> (<[[0x12; 0x55] := 8]> ∅) in
  let m2 : gmap (list N) N := <[[0x12; 0x34] := 7]> (<[[0x13; 0x55] := 9]> ∅) in
  let inputs := root_inputs toyH (ertl (demo_env toyH)) (evhash (demo_env toyH)) in
  env_ok (demo_env toyH) /\ inj_on toyH (inputs m1 ++ inputs m2 ++ inputs ∅) /\
  map (evhash (demo_env toyH)) [7; 8; 9] = [toyH [7]; toyH [8]; toyH [9]] /\ NoDup [toyH [7]; toyH [8]; toyH [9]].
Proof.
  split; [apply demo_env_ok, toyH_len|]. split; [apply inj_onb_spec; vm_compute; reflexivity|]. split; [done|].
  apply NoDup_ListNoDup. repeat constructor; cbn; intuition discriminate.
Qed.

(* ------------------------------------------------------------------ C14 *)

(** After any history, Commit on trie [j] followed by opening a new trie on the
    same database with the root hash: the new trie answers every Get as the
    contents of trie [j] at the time of the Commit. *)
Theorem C14_commit_reload : forall V (E : env V) K ops j m b ks,
  let root := root_of (eH E) (ertl E) (evhash E) in
  let p := (prun root ops pool0).1 in
  let new := length (p_maps p) in
  let all := ops ++ [(j, TCommit); (j, TOpen (length (p_roots p)))] ++ map (fun k => (new, TGet k)) ks in
  history_ok E K all -> p_maps p !! j = Some (m, b) ->
  exists mp obs, mrun E all mpool0 = Some (mp, obs ++ [ODone; ODone] ++ map (fun k => OVal (m !! k)) ks) /\
    length obs = length ops.
Proof.
  intros V E K ops j m b ks root p new all Hok Hj.
  destruct (C12_histories_refine_maps V E K all Hok) as (mp&->). fold root.
  exists mp, (prun root ops pool0).2. split.
  - f_equal. f_equal. unfold all. rewrite prun_app. cbn [snd]. f_equal. fold p.
    assert (Hs1 : pstep root p (j, TCommit) = (Pool (p_maps p) (p_roots p ++ [m]), ODone)) by (unfold pstep; by rewrite Hj).
    assert (Hs2 : pstep root (Pool (p_maps p) (p_roots p ++ [m])) (j, TOpen (length (p_roots p))) =
       (p_add (Pool (p_maps p) (p_roots p ++ [m])) m, ODone)).
    { unfold pstep. cbn [p_maps p_roots]. rewrite Hj, lookup_app_r, Nat.sub_diag by lia. done. }
    cbn [app]. rewrite !prun_cons, Hs1. cbn [fst snd]. rewrite Hs2. cbn [fst snd]. do 2 f_equal.
    apply (gets_run root new m (zsize m)). cbn [p_add p_maps].
    unfold new. rewrite lookup_app_r by lia. rewrite Nat.sub_diag. done.
  - clear. generalize (pool0 : pool V). induction ops as [|o ops IH]; intros p; [done|]. rewrite prun_cons. cbn [snd length]. by rewrite IH.
Qed.
Print Assumptions C14_commit_reload.

Example C14_example :
  let root := root_of idealH (ertl (demo_env idealH)) (evhash (demo_env idealH)) in
  let p := (prun root demo_hist2 pool0).1 in
  history_ok (demo_env idealH) (keys_of_length 2)
    (demo_hist2 ++ [(1%nat, TCommit); (1%nat, TOpen (length (p_roots p)))] ++
     map (fun k => (length (p_maps p), TGet k)) [[0x12; 0x34]; [0x92; 0x35]; [0x12; 0x35]]) /\
  exists m b, p_maps p !! 1%nat = Some (m, b) /\
    map (fun k => m !! k) [[0x12; 0x34]; [0x92; 0x35]; [0x12; 0x35]] = [Some 7; Some 9; None].
Proof.
  split; [apply demo_history_ok; [lia|by repeat constructor]|]. eexists _, _. split; [reflexivity|]. vm_compute. reflexivity.
Qed.

(* ------------------------------------------------------------------ C15 *)

(** Collapse calls change nothing: removing all of them from a history leaves
    every other answer as it was. *)
Theorem C15_collapse_invisible : forall V (E : env V) K ops, history_ok E K ops ->
  exists mp mp' obs, mrun E ops mpool0 = Some (mp, obs) /\
    mrun E (uncollapse ops) mpool0 = Some (mp', keep_obs ops obs).
Proof.
  intros V E K ops Hok. destruct (C12_histories_refine_maps V E K ops Hok) as (mp&->).
  set (root := root_of (eH E) (ertl E) (evhash E)).
  destruct (uncollapse_run root ops pool0) as (_&Hobs&_).
  assert (Hok' : history_ok E K (uncollapse ops)).
  { destruct Hok as [H1 H2 H3 H4 H5 H6]. split; try done.
    - intros j o k Ho. apply (H4 j). by apply uncollapse_in.
    - eapply inj_on_sub; [|exact H5]. intros x Hx. apply elem_of_list_In, in_concat in Hx as (l&Hl&Hx).
      apply elem_of_list_In, in_concat. exists l. split; [|done]. apply in_map_iff in Hl as (m&<-&Hm). apply in_map.
      destruct Hm as [->|Hm]; [by left|right]. apply elem_of_list_In. apply elem_of_list_In in Hm. revert Hm. apply uncollapse_visited.
    - assert (Hs : forall x, x ∈ concat (map (fun jo : nat * tcall V => tcall_vals jo.2) (uncollapse ops)) ->
         x ∈ concat (map (fun jo : nat * tcall V => tcall_vals jo.2) ops)).
      { intros x Hx. apply elem_of_list_In, in_concat in Hx as (l&Hl&Hx). apply elem_of_list_In, in_concat. exists l. split; [|done].
        apply in_map_iff in Hl as (jo&<-&Hjo). apply (in_map (fun jo : nat * tcall V => tcall_vals jo.2)). apply elem_of_list_In. apply elem_of_list_In in Hjo. by apply uncollapse_in. }
      intros x y Hx Hy. apply H6; by apply Hs. }
  destruct (C12_histories_refine_maps V E K _ Hok') as (mp'&->). fold root.
  exists mp, mp', (prun root ops pool0).2. split; [done|]. by rewrite Hobs.
Qed.
Print Assumptions C15_collapse_invisible.

Definition demo_hist3 : list (nat * tcall N) :=
  demo_hist2 ++ [(0%nat, TCollapse); (1%nat, TCommit); (1%nat, TCollapse); (1%nat, TGet [0x12; 0x34]); (1%nat, THash)].
Example C15_example : history_ok (demo_env idealH) (keys_of_length 2) demo_hist3 /\
  length (uncollapse demo_hist3) = 11%nat /\ length demo_hist3 = 14%nat.
Proof. split; [apply demo_history_ok; [lia|by repeat constructor]|done]. Qed.

(* ------------------------------------------------------------------ C20 *)

(** Count on the first trie is the number of its entries after every history. *)
Theorem C20_count_is_size : forall V (E : env V) K ops,
  let root := root_of (eH E) (ertl E) (evhash E) in
  history_ok E K (ops ++ [(0%nat, TCount)]) ->
  exists m b mp obs, p_maps (prun root ops pool0).1 !! 0%nat = Some (m, b) /\
    mrun E (ops ++ [(0%nat, TCount)]) mpool0 = Some (mp, obs ++ [OCount (Z.of_nat (size m))]).
Proof.
  intros V E K ops root Hok. destruct (C12_histories_refine_maps V E K _ Hok) as (mp&->). fold root.
  destruct (base0 root ops pool0 0%Z) as (m&Hm); [by exists ∅|]. exists m, 0%Z, mp, (prun root ops pool0).2.
  split; [done|]. rewrite prun_app. cbn [snd]. rewrite prun_cons. cbn [snd prun]. unfold pstep. rewrite Hm. cbn [snd].
  by rewrite Z.sub_0_r.
Qed.
Print Assumptions C20_count_is_size.

Example C20_example : history_ok (demo_env idealH) (keys_of_length 2) (demo_hist2 ++ [(0%nat, TCount)]).
Proof. apply demo_history_ok; [lia|by repeat constructor]. Qed.

(** A trie made by Clone from a trie with entries reports Count 0. *)
Theorem C20_clone_count_refuted : forall V (E : env V) (k : list N) (v : V), is_bytes k -> (length k <= 48)%nat ->
  history_ok E (fun k' => k' = k) [(0%nat, TPut k v); (0%nat, TClone); (1%nat, TCount); (1%nat, TGet k)] ->
  exists mp, mrun E [(0%nat, TPut k v); (0%nat, TClone); (1%nat, TCount); (1%nat, TGet k)] mpool0 =
    Some (mp, [OChanged true; ODone; OCount 0; OVal (Some v)]).
Proof.
  intros V E k v Hb Hl Hok. destruct (C12_histories_refine_maps V E _ _ Hok) as (mp&->). exists mp.
  set (root := root_of (eH E) (ertl E) (evhash E)). cbn [prun pstep pool0 p_maps lookup list_lookup p_set insert list_insert p_add app fst snd p_roots].
  rewrite lookup_insert, Z.sub_diag. done.
Qed.
Print Assumptions C20_clone_count_refuted.

(* ------------------------------------------------------------------ C17 *)

(** Commit of a modified trie that returns no error has stored the root node;
    so a failure to store the root node is reported. Any schedule of write
    failures. *)
Theorem C17_root_write_reported : forall V (E : env V) st t st' t',
  IsDirty t = true -> Commit E st t = (st', t', true) ->
  is_Some (st_nodes st' !! (HashValue E t').2).
Proof.
  intros V E st [[pre ch v d h vh vs g] c gen] st' t' Hd HC. unfold IsDirty in Hd. cbn in Hd. subst d.
  unfold Commit in HC. cbn [t_gen t_root t_count] in HC. rewrite iterateSave_eq in HC.
  destruct (save_list E gen ch st) as [st1 ch1]. unfold saveOneNode in HC.
  destruct (cache_value E (Node pre ch1 v true h vh vs g)) as [p2 ch2 v2 d2 h2 vh2 vs2 g2] eqn:Hcv.
  set (n1 := Node p2 ch2 v2 d2 h2 vh2 vs2 g2) in *.
  destruct (match n_val n1 with Some _ => _ | None => _ end) as [ok st2]. destruct ok; [|by injection HC].
  assert (Hh : exists p ch' v' d' vh' vs' g' hh, node_hash E n1 = (Node p ch' v' d' (Some hh) vh' vs' g', hh)).
  { unfold n1. cbn [node_hash]. destruct h2 as [x|]; [by repeat eexists|].
    set (n2 := cache_value E _). destruct n2. by repeat eexists. }
  destruct Hh as (p&ch'&v'&d'&vh'&vs'&g'&hh&Hh). rewrite Hh in HC.
  unfold save_node in HC.
  destruct (st_faults st2) as [|[] f]; [|discriminate HC|]; injection HC as <- <-; unfold HashValue; cbn [t_root node_hash snd st_nodes];
    rewrite lookup_insert; eauto.
Qed.
Print Assumptions C17_root_write_reported.

(** After a reported failure the trie is still modified: the next Commit stores
    the root again. *)
Theorem C17_failed_commit_stays_dirty : forall V (E : env V) st t st' t',
  Commit E st t = (st', t', false) -> IsDirty t' = true.
Proof.
  intros V E st [[pre ch v d h vh vs g] c gen] st' t' HC.
  unfold Commit in HC. cbn [t_gen t_root t_count] in HC. rewrite iterateSave_eq in HC.
  destruct (save_list E gen ch st) as [st1 ch1]. destruct d.
  2:{ set (n1 := Node _ _ _ _ _ _ _ _) in HC. cbv zeta in HC.
      destruct (shouldCollapse E n1 gen); [discriminate HC|]. destruct (shouldCollapseValue n1); discriminate HC. }
  unfold saveOneNode in HC.
  assert (Hcv : exists p2 ch2 v2 h2 vh2 vs2 g2, cache_value E (Node pre ch1 v true h vh vs g) = Node p2 ch2 v2 true h2 vh2 vs2 g2).
  { unfold cache_value. cbn [n_val]. destruct v; [destruct (valueHash _ _ _)|]; by repeat eexists. }
  destruct Hcv as (p2&ch2&v2&h2&vh2&vs2&g2&Hcv). rewrite Hcv in HC.
  set (n1 := Node p2 ch2 v2 true h2 vh2 vs2 g2) in *.
  destruct (match n_val n1 with Some _ => _ | None => _ end) as [ok st2]. destruct ok.
  2:{ injection HC as <- <-. unfold IsDirty. cbn. reflexivity. }
  assert (Hh : exists p ch' v' vh' vs' g' hh, node_hash E n1 = (Node p ch' v' true (Some hh) vh' vs' g', hh)).
  { unfold n1. cbn [node_hash]. destruct h2 as [x|]; [by repeat eexists|].
    unfold cache_value. cbn [n_val]. destruct v2; [destruct (valueHash _ _ _)|]; by repeat eexists. }
  destruct Hh as (p&ch'&v'&vh'&vs'&g'&hh&Hh). rewrite Hh in HC.
  destruct (save_node st2 hh _) as [[] st3]; [discriminate HC|]. injection HC as <- <-. done.
Qed.
Print Assumptions C17_failed_commit_stays_dirty.

(** A failure to store a node below the root is not reported: Commit returns no
    error, marks the trie clean, and the entry cannot be read back. *)
Definition demo_two : option trie :=
  match Put (demo_env toyH) (Store ∅ ∅ []) (NewTrie None) [0x12] (Some 7) with
  | Some (t, _) => option_map fst (Put (demo_env toyH) (Store ∅ ∅ []) t [0x52] (Some 9))
  | None => None
  end.
Theorem C17_child_write_failure_refuted :
  exists t st' t', demo_two = Some t /\
    Commit (demo_env toyH) (Store ∅ ∅ [true]) t = (st', t', true) /\ IsDirty t' = false /\
    (Get (demo_env toyH) (Store ∅ ∅ []) t [0x12]).2 = Some 7 /\
    (Get (demo_env toyH) st' (NewTrie (Some (HashValue (demo_env toyH) t').2)) [0x12]).2 = None /\
    (Get (demo_env toyH) st' (NewTrie (Some (HashValue (demo_env toyH) t').2)) [0x52]).2 = Some 9.
Proof.
  destruct demo_two as [t|] eqn:Ht; [|by vm_compute in Ht].
  destruct (Commit (demo_env toyH) (Store ∅ ∅ [true]) t) as [[st' t'] ok] eqn:Hc.
  exists t, st', t'. vm_compute in Ht. injection Ht as <-. split; [done|].
  vm_compute in Hc. injection Hc as <- <- <-. vm_compute. repeat split.
Qed.
Print Assumptions C17_child_write_failure_refuted.

(* ------------------------------------------------------------------ C23 *)

Theorem C23_key_nibbles_lossless : forall k, is_bytes k ->
  is_nibbles (keyToPrefix k) /\ length (keyToPrefix k) = (2 * length k)%nat /\
  prefixToKey (keyToPrefix k) = k.
Proof.
  intros k Hk. rewrite keyToPrefix_nibbles. split; [by apply nibbles_ok|]. split; [apply nibbles_length|].
  assert (Hev : Nat.odd (length (nibbles k)) = false).
  { rewrite nibbles_length, <- Nat.negb_even, Nat.even_mul. done. }
  unfold prefixToKey. destruct (nibbles k) as [|a l] eqn:Hn; [by destruct k|]. rewrite Hev, <- Hn.
  rewrite prefixToKey_loop_pack2; [apply pack2_nibbles|by apply nibbles_ok|]. by rewrite <- Nat.negb_odd, Hn, Hev.
Qed.
Print Assumptions C23_key_nibbles_lossless.

(** Packing a nibble string of even or odd length and unpacking it with the type
    byte of its node is the identity; the packed form has two nibbles a byte. *)
Theorem C23_prefix_packing_lossless : forall pre children hasvalue, is_nibbles pre ->
  keystringToPrefix (ntype pre children hasvalue) (prefixToKeystring pre) = pre /\
  is_bytes (prefixToKeystring pre) /\ length (prefixToKeystring pre) = (length pre / 2)%nat.
Proof.
  intros pre c hv Hp. split.
  - rewrite prefixToKeystring_pack by done.
    replace (ntype pre c hv) with (type_byte pre [c] hv); [by apply keystringToPrefix_header|].
    rewrite <- ntype_spec by done. cbn. by rewrite orb_false_r.
  - rewrite prefixToKeystring_pack by done. unfold pack. destruct (Nat.odd (length pre)) eqn:Ho.
    + split; [by apply pack2_bytes, is_nibbles_tail|]. rewrite pack2_length. destruct pre as [|a pre]; [done|]. cbn [tail length] in *.
      rewrite Nat.odd_succ in Ho. apply Nat.even_spec in Ho as [q Hq]. rewrite Hq.
      rewrite Nat.mul_comm, Nat.div_mul by done. replace (S (q * 2))%nat with (1 + q * 2)%nat by lia. rewrite Nat.div_add by done. done.
    + split; [by apply pack2_bytes|]. apply pack2_length.
Qed.
Print Assumptions C23_prefix_packing_lossless.

(** The hexadecimal text form of a nibble string is lossless. *)
Theorem C23_hex_lossless : forall pre, is_nibbles pre -> hexstringToPrefix (prefixToHexstring pre) = pre.
Proof.
  induction pre as [|x pre IH]; intros Hp; [done|]. apply Forall_cons in Hp as [Hx Hp]. cbn [prefixToHexstring hexstringToPrefix map].
  f_equal; [|by apply IH]. revert x Hx.
  assert (Hall : forallb (fun x => hexbyteToValuebyte (valuebyteToHexbyte x) =? x) nibs = true) by reflexivity.
  intros x Hx. apply N.eqb_eq. exact (nib_forall (fun x => hexbyteToValuebyte (valuebyteToHexbyte x) =? x) Hall x Hx).
Qed.
Print Assumptions C23_hex_lossless.

Example C23_example : is_nibbles [3; 15; 0] /\ prefixToKeystring [3; 15; 0] = [0xF0] /\ ntype [3; 15; 0] true false = 0xD3 /\
  keyToPrefix [0x1F; 0xA0] = [1; 15; 10; 0].
Proof. split; [by repeat constructor|]. by vm_compute. Qed.

(* ------------------------------------------------------------------ C24 *)

(** A serialized header is read back exactly, whatever follows it. *)
Theorem C24_header_round_trip : forall V (E : env V) pre pres hv rest, env_ok E -> is_nibbles pre -> length pres = 16%nat ->
  exists hd, nh_deser E (nh_ser E (newNodeHeader pre pres hv) ++ rest) = Some (hd, rest) /\
    hd = newNodeHeader pre pres hv /\ nh_KeyToPrefix hd = pre /\ nt_HasValue (nh_nt hd) = hv /\
    nt_HasChildren (nh_nt hd) = existsb id pres /\
    forall i, (i < 16)%nat -> nh_HasChild hd (N.of_nat i) = nth i pres false.
Proof.
  intros V E pre pres hv rest HE Hp Hl. rewrite newNodeHeader_ser by done.
  destruct (nh_deser_ser E pre pres hv rest HE Hp Hl) as (hd&Hd&Hnt&Hk&Heq&Hc). exists hd.
  destruct (type_byte_bits pre pres hv Hp) as (_&_&_&HC&HV&_). rewrite <- Hnt in HC, HV. done.
Qed.
Print Assumptions C24_header_round_trip.

Lemma read_child_hashes {V} hd g (hs : list (option (list N))) rest : forall is,
  length is = length hs -> Forall (fun o => match o with Some h => length h = 32%nat | None => True end) hs ->
  (forall j i, is !! j = Some i -> nh_HasChild hd i = is_some (nth j hs None)) ->
  read_children (V := V) hd is g (concat (somes hs) ++ rest) = Some (map (option_map (fun h => new_node (Some h) g)) hs, rest).
Proof.
  induction hs as [|o hs IH]; intros [|i is] Hl Hf Hc; try done. cbn [read_children].
  apply Forall_cons in Hf as [Ho Hf].
  assert (Hh : nh_HasChild hd i = is_some o) by apply (Hc O i eq_refl).
  assert (IHis := IH is ltac:(cbn in Hl; lia) Hf (fun j i' Hj => Hc (S j) i' Hj)).
  rewrite Hh. destruct o as [c|]; cbn [is_some somes concat].
  - rewrite <- app_assoc. rewrite (read_n_app 32) by done. rewrite IHis. done.
  - rewrite IHis. done.
Qed.

(** A serialized node is read back exactly: prefix, which children exist and
    their hashes, the value hash. *)
Theorem C24_node_round_trip : forall V (E : env V) pre (hs : list (option (list N))) (vh : option (list N)) g,
  env_ok E -> is_nibbles pre -> length hs = 16%nat ->
  Forall (fun o => match o with Some h => length h = 32%nat | None => True end) (vh :: hs) ->
  node_deser E (new_node None g) (node_ser E (newNodeHeader pre (map is_some hs) (is_some vh)) (somes hs) vh) =
    Some (Node pre (map (option_map (fun h => new_node (Some h) g)) hs) None false None vh [] g).
Proof.
  intros V E pre hs vh g HE Hp Hl Hf. apply Forall_cons in Hf as [Hv Hf]. unfold node_deser, node_ser.
  destruct (C24_header_round_trip V E pre (map is_some hs) (is_some vh) (concat (somes hs) ++ default [] vh) HE Hp ltac:(by rewrite map_length))
    as (hd&->&_&Hk&HV&HC&Hch).
  unfold new_node at 1. rewrite HC, HV, Hk.
  assert (Hr : (if existsb id (map is_some hs) then read_children hd nibs g (concat (somes hs) ++ default [] vh)
     else Some (replicate 16 None, concat (somes hs) ++ default [] vh)) =
     Some (map (option_map (fun h => new_node (V := V) (Some h) g)) hs, default [] vh)).
  { destruct (existsb id (map is_some hs)) eqn:Hex.
    - apply read_child_hashes; [by rewrite Hl|done|]. intros j i Hj.
      assert (j < 16)%nat as Hj16 by (by apply lookup_lt_Some in Hj).
      rewrite lookup_nibs in Hj by done. injection Hj as <-. rewrite Hch by done.
      rewrite <- (map_nth is_some hs None j). done.
    - assert (Hn : hs = replicate 16 None).
      { rewrite <- Hl. clear -Hex. induction hs as [|[h|] hs IH]; [done|done|]. cbn [length replicate]. f_equal. by apply IH. }
      rewrite Hn. done. }
  rewrite Hr. destruct vh as [x|]; cbn [is_some default id]; [|done].
  pose proof (read_n_app 32 x [] Hv) as Hrd. rewrite app_nil_r in Hrd. by rewrite Hrd.
Qed.
Print Assumptions C24_node_round_trip.

Example C24_example : env_ok (demo_env toyH) /\
  let hs := replicate 3 None ++ [Some (replicate 32 1)] ++ replicate 11 None ++ [Some (replicate 32 2)] in
  length hs = 16%nat /\ Forall (fun o => match o with Some h => length h = 32%nat | None => True end) (Some (replicate 32 3) :: hs).
Proof. split; [apply demo_env_ok, toyH_len|]. split; [done|by repeat constructor]. Qed.
