(** Properties of the trie's proof chains: C16 (completeness), C18 (soundness). *)
From Verif Require Import TrieProofProofs TrieProps ToyHash.

Section history.
Context {V : Type} (E : env V) (K : list N -> Prop).
Local Notation root := (root_of (eH E) (ertl E) (evhash E)).

Lemma pvisited_app1 ops1 ops2 : forall p m, m ∈ pvisited root ops1 p -> m ∈ pvisited root (ops1 ++ ops2) p.
Proof.
  induction ops1 as [|[j o] ops1 IH]; intros p m; cbn [pvisited app].
  - rewrite app_nil_r. intros Hm. destruct ops2; cbn [pvisited]; apply elem_of_app; by left.
  - rewrite !elem_of_app. intros [?|?]; [by left|right; by apply IH].
Qed.
Lemma pvisited_app2 ops1 ops2 : forall p m, m ∈ pvisited root ops2 (prun root ops1 p).1 -> m ∈ pvisited root (ops1 ++ ops2) p.
Proof.
  induction ops1 as [|o ops1 IH]; intros p m; [done|]. rewrite prun_cons. cbn [pvisited app fst].
  intros Hm. apply elem_of_app. right. by apply IH.
Qed.

(** The state in the middle of a history. *)
Lemma history_state ops1 ops2 : history_ok E K (ops1 ++ ops2) ->
  let L := pvisited root (ops1 ++ ops2) pool0 in
  let vals := concat (map (fun jo : nat * tcall V => tcall_vals jo.2) (ops1 ++ ops2)) in
  (forall m, m ∈ L -> dom_in K m) /\ (forall m k x, m ∈ L -> m !! k = Some x -> x ∈ vals) /\
  (forall m, m ∈ map fst (p_maps (prun root ops1 pool0).1) -> m ∈ L) /\
  (exists mp, mrun E ops1 mpool0 = Some (mp, (prun root ops1 pool0).2) /\ prel E K L mp (prun root ops1 pool0).1) /\
  (forall mp, prel E K L mp (prun root ops1 pool0).1 ->
     exists mp2, mrun E ops2 mp = Some (mp2, (prun root ops2 (prun root ops1 pool0).1).2)).
Proof.
  intros [HE HK HKp Hkeys Hinj Hv] L vals.
  set (P := fun m : gmap (list N) V => dom_in K m /\ forall k x, m !! k = Some x -> x ∈ vals).
  assert (HP : forall m, m ∈ L -> P m).
  { apply pvisited_all.
    - split; [|intros m Hm; by apply elem_of_nil in Hm]. intros m Hm. cbn in Hm. apply elem_of_list_singleton in Hm as ->.
      split; intros k x Hx; by rewrite lookup_empty in Hx.
    - intros j o k v m Hin -> [Hd Hx]. split.
      + intros k' x. rewrite lookup_insert_Some. intros [[<- _]|[_ Hk']]; [|by eapply Hd].
        assert (K k) as HKk by (eapply Hkeys; [done|cbn; set_solver]). split; [done|by apply HKp].
      + intros k' x. rewrite lookup_insert_Some. intros [[_ <-]|[_ Hk']]; [|by eapply Hx].
        unfold vals. apply elem_of_list_In, in_concat. exists [v]. split; [|by left].
        apply in_map_iff. exists (j, TPut k v). split; [done|]. by apply elem_of_list_In.
    - intros j o k m Hin -> [Hd Hx]. split; intros k' x; rewrite lookup_delete_Some; intros [_ Hk']; [by eapply Hd|by eapply Hx]. }
  assert (HL : forall m, m ∈ L -> dom_in K m) by (intros m Hm; by apply HP).
  assert (Hvals : forall m k x, m ∈ L -> m !! k = Some x -> x ∈ vals) by (intros m k x Hm; by apply HP).
  pose proof (run_rel E HE K HK (fun k Hk => proj1 (HKp k Hk)) (fun k Hk => proj2 (HKp k Hk)) L HL Hinj vals Hvals Hv) as Hrun.
  split; [done|]. split; [done|]. split.
  { intros m Hm. apply pvisited_app1. by apply pvisited_final. }
  split.
  - apply Hrun; [by apply init_rel| |].
    + intros j o k Hin. eapply Hkeys. apply elem_of_app. by left.
    + intros m. apply pvisited_app1.
  - intros mp Hrel. destruct (Hrun ops2 mp _ Hrel) as (mp2&Hm&_).
    + intros j o k Hin. eapply Hkeys. apply elem_of_app. by right.
    + intros m. apply pvisited_app2.
    + by exists mp2.
Qed.
End history.

(* ------------------------------------------------------------------ C16 *)

(** In the middle of any history, GetProof of [k] on trie [j] answers: not found
    when [k] is absent; the stored value and a chain that verifies, from the hash
    of the value to the root hash, when it is present. The calls that follow
    answer as if GetProof had not been called. *)
Theorem C16_value_proofs : forall V (E : env V) K ops1 ops2 j k m b,
  let root := root_of (eH E) (ertl E) (evhash E) in
  let p := (prun root ops1 pool0).1 in
  history_ok E K (ops1 ++ (j, TGet k) :: ops2) -> p_maps p !! j = Some (m, b) ->
  exists mp obs t t' r, mrun E ops1 mpool0 = Some (mp, obs) /\ mp_tries mp !! j = Some t /\
    GetProof E (mp_store mp) t k = (t', r) /\
    (HashValue E t).2 = root m /\
    match m !! k with
    | Some v => exists c, r = Some (v, c) /\ VerifyProofChain E (evhash E v) c (root m) = true
    | None => r = None
    end /\
    exists mp2, mrun E ops2 (mp_set mp j t') = Some (mp2, (prun root ops2 p).2).
Proof.
  intros V E K ops1 ops2 j k m b root p Hok Hj.
  destruct (history_state E K ops1 _ Hok) as (HL&Hvals&Hin&(mp&Hmp&[Hst Htr Hro])&Hrest).
  destruct Hok as [HE HK HKp Hkeys Hinj Hv].
  assert (HmL : m ∈ pvisited root (ops1 ++ (j, TGet k) :: ops2) pool0).
  { apply Hin. apply elem_of_list_fmap. exists (m, b). split; [done|]. by apply elem_of_list_lookup_2 in Hj. }
  assert (HKk : K k) by (eapply (Hkeys j (TGet k)); [apply elem_of_app; right; by left|cbn; set_solver]).
  destruct (Forall2_lookup_r _ _ _ _ _ Htr Hj) as (t&Ht&(Hn&Hd&Hc)). cbn [fst snd] in *.
  destruct (getproof_nrep E HE K HK (fun k Hk => proj1 (HKp k Hk)) (fun k Hk => proj2 (HKp k Hk)) _ HL Hinj _ Hvals Hv
    (mp_store mp) t m k Hn HmL HKk) as (t'&r&Hgp&Hn'&Hc'&Hg'&Hr).
  destruct (hash_nrep E HE K HK (fun k Hk => proj1 (HKp k Hk)) (fun k Hk => proj2 (HKp k Hk)) _ HL Hinj _ Hvals Hv
    (mp_store mp) (t_root t) m Hn HmL) as (nh&Hnh&_).
  exists mp, (prun root ops1 pool0).2, t, t', r. split; [done|]. split; [done|]. split; [done|]. split.
  { unfold HashValue. by rewrite Hnh. }
  split.
  { destruct (m !! k) as [v|]; [|done]. destruct Hr as (c&->&Hcp). exists c. split; [done|]. unfold VerifyProofChain.
    rewrite Hcp. by apply bool_decide_eq_true_2. }
  assert (Hrel' : prel E K (pvisited root (ops1 ++ (j, TGet k) :: ops2) pool0) (mp_set mp j t') p).
  { split; [done| |done]. cbn [mp_set mp_tries]. rewrite <- (list_insert_id (p_maps p) j (m, b)) by done.
    apply Forall2_insert; [done|]. split; [done|]. split; [done|]. cbn [fst snd]. by rewrite Hc'. }
  destruct (Hrest _ Hrel') as (mp2&Hm2). cbn [mrun] in Hm2.
  destruct (step_rel E HE K HK (fun k Hk => proj1 (HKp k Hk)) (fun k Hk => proj2 (HKp k Hk)) _ HL Hinj _ Hvals Hv
    (mp_set mp j t') p j (TGet k) Hrel') as (mp3&Hs&_).
  - intros k' Hk'. cbn in Hk'. apply elem_of_list_singleton in Hk' as ->. done.
  - done.
  - assert (Hp : (pstep root p (j, TGet k)).1 = p) by (unfold pstep; by rewrite Hj).
    pose proof (history_state E K (ops1 ++ [(j, TGet k)]) ops2) as Hhs.
    rewrite <- app_assoc in Hhs. cbn [app] in Hhs. destruct Hhs as (_&_&_&_&Hrest2); [by split|].
    rewrite prun_app in Hrest2. cbn [fst] in Hrest2. rewrite prun_cons in Hrest2. cbn [prun fst] in Hrest2.
    fold root in Hrest2. fold p in Hrest2. rewrite Hp in Hrest2. by apply Hrest2.
Qed.
Print Assumptions C16_value_proofs.

(** GetExistenceProof: for every key (present or absent) the chain leads to the
    root hash and IsExist answers whether the key is present. *)
Theorem C16_existence_proofs : forall V (E : env V) K ops1 ops2 j k m b,
  let root := root_of (eH E) (ertl E) (evhash E) in
  let p := (prun root ops1 pool0).1 in
  history_ok E K (ops1 ++ (j, TGet k) :: ops2) -> k <> [] -> p_maps p !! j = Some (m, b) ->
  exists mp obs t t' c, mrun E ops1 mpool0 = Some (mp, obs) /\ mp_tries mp !! j = Some t /\
    GetExistenceProof E (mp_store mp) t k = (t', Some (bool_decide (is_Some (m !! k)), c)) /\
    (HashValue E t).2 = root m /\
    ExistenceHash E c = Some (root m) /\ IsExist c k = Some (bool_decide (is_Some (m !! k))) /\
    exists mp2, mrun E ops2 (mp_set mp j t') = Some (mp2, (prun root ops2 p).2).
Proof.
  intros V E K ops1 ops2 j k m b root p Hok Hk0 Hj.
  destruct (history_state E K ops1 _ Hok) as (HL&Hvals&Hin&(mp&Hmp&[Hst Htr Hro])&Hrest).
  pose proof (history_state E K (ops1 ++ [(j, TGet k)]) ops2) as Hhs.
  rewrite <- app_assoc in Hhs. cbn [app] in Hhs. destruct (Hhs Hok) as (_&_&_&_&Hrest2). clear Hhs.
  destruct Hok as [HE HK HKp Hkeys Hinj Hv].
  assert (HmL : m ∈ pvisited root (ops1 ++ (j, TGet k) :: ops2) pool0).
  { apply Hin. apply elem_of_list_fmap. exists (m, b). split; [done|]. by apply elem_of_list_lookup_2 in Hj. }
  assert (HKk : K k) by (eapply (Hkeys j (TGet k)); [apply elem_of_app; right; by left|cbn; set_solver]).
  destruct (Forall2_lookup_r _ _ _ _ _ Htr Hj) as (t&Ht&(Hn&Hd&Hc)). cbn [fst snd] in *.
  destruct (existproof_nrep E HE K HK (fun k Hk => proj1 (HKp k Hk)) (fun k Hk => proj2 (HKp k Hk)) _ HL Hinj _ Hvals Hv
    (mp_store mp) t m k Hn HmL HKk Hk0) as (t'&c&Hgp&Hn'&Hc'&Hg'&Heh&Hex).
  destruct (hash_nrep E HE K HK (fun k Hk => proj1 (HKp k Hk)) (fun k Hk => proj2 (HKp k Hk)) _ HL Hinj _ Hvals Hv
    (mp_store mp) (t_root t) m Hn HmL) as (nh&Hnh&_).
  exists mp, (prun root ops1 pool0).2, t, t', c. split; [done|]. split; [done|]. split; [done|]. split.
  { unfold HashValue. by rewrite Hnh. }
  split; [done|]. split.
  { unfold IsExist. destruct k as [|k0 k']; [done|]. rewrite keyToPrefix_nibbles by (by apply HKp). rewrite Hex.
    by destruct (m !! (k0 :: k')). }
  assert (Hrel' : prel E K (pvisited root (ops1 ++ (j, TGet k) :: ops2) pool0) (mp_set mp j t') p).
  { split; [done| |done]. cbn [mp_set mp_tries]. rewrite <- (list_insert_id (p_maps p) j (m, b)) by done.
    apply Forall2_insert; [done|]. split; [done|]. split; [done|]. cbn [fst snd]. by rewrite Hc'. }
  assert (Hp : (pstep root p (j, TGet k)).1 = p) by (unfold pstep; by rewrite Hj).
  rewrite prun_app in Hrest2. cbn [fst] in Hrest2. rewrite prun_cons in Hrest2. cbn [prun fst] in Hrest2.
  fold root in Hrest2. fold p in Hrest2. rewrite Hp in Hrest2. by apply Hrest2.
Qed.
Print Assumptions C16_existence_proofs.

Example C16_example :
  let root := root_of idealH (ertl (demo_env idealH)) (evhash (demo_env idealH)) in
  history_ok (demo_env idealH) (keys_of_length 2) (demo_hist2 ++ (1%nat, TGet [0x12; 0x34]) :: [(1%nat, TCommit); (1%nat, TGet [0x92; 0x35])]) /\
  history_ok (demo_env idealH) (keys_of_length 2) (demo_hist2 ++ (1%nat, TGet [0x12; 0x35]) :: [(1%nat, TDel [0x12; 0x34])]) /\
  exists m b, p_maps (prun root demo_hist2 pool0).1 !! 1%nat = Some (m, b) /\
    map (fun k => m !! k) [[0x12; 0x34]; [0x12; 0x35]] = [Some 7; None].
Proof.
  split; [apply demo_history_ok; [lia|by repeat constructor]|]. split; [apply demo_history_ok; [lia|by repeat constructor]|].
  eexists _, _. split; [reflexivity|]. vm_compute. reflexivity.
Qed.

(* ------------------------------------------------------------------ C18 *)

(** Soundness of value proofs: whatever chain an adversary presents, if it is
    accepted for the hash of a value against the root of [m], that value (up to
    its hash) is stored in [m]. The hash must not collide on the strings hashed
    by the trie and by the verification, and hashes of values must differ from
    hashes of node parts (the code has no domain separation). *)
Theorem C18_value_proofs_sound : forall V (E : env V) (K : list N -> Prop) (m : gmap (list N) V) (v : V) (c : list nodeproof) its,
  env_ok E -> prefix_free K -> (forall k, is_Some (m !! k) -> K k) -> (forall k, K k -> is_bytes k /\ (length k <= 48)%nat) ->
  (forall p, p ∈ c -> (forall h, np_vhash p = Some h -> length h = 32%nat) /\
                      (forall q, np_child p = Some q -> Forall (fun h => length h = 32%nat) (mp_hashs q))) ->
  chain_items E c = Some its -> length (evhash E v) = 32%nat ->
  let inputs := ([] :: root_inputs (eH E) (ertl E) (evhash E) m) ++ climb_inputs (eH E) (evhash E v) its in
  inj_on (eH E) inputs ->
  (forall x w, x ∈ inputs -> w = v \/ (exists k, m !! k = Some w) -> eH E x <> evhash E w) ->
  VerifyProofChain E (evhash E v) c (root_of (eH E) (ertl E) (evhash E) m) = true ->
  exists k w, m !! k = Some w /\ evhash E w = evhash E v.
Proof.
  intros V E K m v c its HE HK HmK HKp Hc Hits Hlv inputs Hinj Hdis Hv.
  assert (HKb : forall k, K k -> is_bytes k) by (intros k Hk; by apply HKp).
  assert (HKl : forall k, K k -> (length k <= 48)%nat) by (intros k Hk; by apply HKp).
  assert (Hd : dom_in K m) by (intros k x Hx; assert (K k) by (apply HmK; eauto); by split; [|apply HKb]).
  unfold VerifyProofChain, chain_proof in Hv. rewrite Hits in Hv. apply bool_decide_eq_true_1 in Hv. rewrite fold_climb in Hv.
  assert (Hlen : Forall (fun it => length it.1 = 32%nat) its).
  { clear - HE Hc Hits. revert its Hits. induction c as [|p c IH]; intros its; cbn [chain_items]; [by intros [= <-]|].
    destruct (np_items E p) as [a|] eqn:Ha; [|done]. destruct (chain_items E c) as [b|]; [|done]. intros [= <-].
    apply Forall_app. split.
    - destruct (Hc p) as [H1 H2]; [by left|]. by eapply np_items_len.
    - apply IH; [|done]. intros q Hq. apply Hc. by right. }
  assert (Hvals : forall w, w ∈ rvalues (radix_of m) -> exists k, m !! k = Some w).
  { intros w Hw. destruct (decide (m = ∅)) as [->|Hm]; [by apply elem_of_nil in Hw|].
    destruct (radix_wfr K HK m Hd Hm) as [Hwf Hlk]. destruct (rvalues_look _ _ _ Hwf Hw) as (s&Hs).
    destruct (wfr_in _ _ _ _ Hwf Hs) as [(k0&_&->) _]. exists k0. by rewrite <- Hlk. }
  assert (Hpart : part E (radix_of m) (evhash E v)).
  { eapply (climb_part E HE (radix_of m) its); [|done|done|done| |].
    - destruct (decide (m = ∅)) as [->|Hm]; [apply (inputs_part_empty E HE)|].
      apply (inputs_part E HE). by apply (root_okr K HK HKb HKl m).
    - intros x w Hx Hw. apply Hdis; [apply elem_of_app; by right|right; by apply Hvals].
    - rewrite Hv. by apply (rhash_part E HE). }
  destruct Hpart as [(x&Hx&He)|(w&Hw&He)].
  - exfalso. eapply (Hdis x v); [apply elem_of_app; by left|by left|done].
  - destruct (Hvals w Hw) as (k&Hk). by exists k, w.
Qed.
Print Assumptions C18_value_proofs_sound.

(** The chain built by the code for a one-entry trie. *)
Example C18_example :
  let E := demo_env idealH in
  let m : gmap (list N) N := {[ [0x12] := 7 ]} in
  exists c its, VerifyProofChain E (evhash E 7) c (root_of (eH E) (ertl E) (evhash E) m) = true /\ c <> [] /\
    env_ok E /\ chain_items E c = Some its /\
    let inputs := ([] :: root_inputs (eH E) (ertl E) (evhash E) m) ++ climb_inputs (eH E) (evhash E 7) its in
    inj_on idealH inputs /\ forall x w, x ∈ inputs -> eH E x <> evhash E w.
Proof.
  intros E m. destruct (MakeProof E (hd_of [1; 2] (replicate 16 None) (Some 7)) (Some (evhash E 7)) [] ProofValue (-1)) as [[h p]|] eqn:Hp; [|done].
  destruct (chain_items E [p]) as [its|] eqn:Hits; [|exfalso; vm_compute in Hp; injection Hp as <- <-; by vm_compute in Hits].
  exists [p], its. vm_compute in Hp. injection Hp as <- <-. split; [by vm_compute|]. split; [done|]. split; [by apply demo_env_ok|].
  split; [done|]. split; [apply idealH_inj|]. intros x w Hx He.
  assert (x = [w]) as -> by (apply (idealH_inj [x; [w]]); [by left|right; by left|done]). clear He.
  injection Hits as <-.
  assert (Hall : Forall (fun x => length x <> 1%nat) (([] :: root_inputs (eH E) (ertl E) (evhash E) m) ++ climb_inputs (eH E) (evhash E 7)
     [(nh_hash E (hd_of [1; 2] (replicate 16 None) (Some 7)), true)])).
  { apply (bool_decide_unpack _). vm_compute. exact I. }
  rewrite Forall_forall in Hall. by apply (Hall [w]).
Qed.

(** Existence chains can be forged. For every hash: in the trie that stores
    exactly the keys 1a and 2b there is a chain whose ExistenceHash is the root
    hash but that says 1b exists and 1a does not. *)
Theorem C18_existence_refuted : forall V (E : env V) (v w : V), env_ok E ->
  let m : gmap (list N) V := <[ [0x1a] := v ]> {[ [0x2b] := w ]} in
  exists c, ExistenceHash E c = Some (root_of (eH E) (ertl E) (evhash E) m) /\
    m !! [0x1b] = None /\ IsExist c [0x1b] = Some true /\
    m !! [0x1a] = Some v /\ IsExist c [0x1a] = Some false.
Proof.
  intros V E v w HE m.
  set (lv := Radix [0xa] (replicate 16 None) (Some v)). set (lw := Radix [0xb] (replicate 16 None) (Some w)).
  set (rch := None :: Some lv :: Some lw :: replicate 13 None).
  assert (Hr : radix_of m = Radix [] rch None).
  { unfold radix_of. assert (Hl : map_to_list m ≡ₚ [([0x1a], v); ([0x2b], w)]).
    { unfold m. rewrite map_to_list_insert by done. by rewrite map_to_list_singleton. }
    symmetry in Hl. apply Permutation_length_2_inv in Hl as [->| ->]; reflexivity. }
  destruct (MakeProof_spec E HE [0xb] (replicate 16 None) (Some w) ProofExistence) as (h1&p1&_&Hp1); [done|repeat constructor; lia|].
  destruct (MakeProof_spec E HE [] rch None 2) as (h2&p2&_&Hp2); [done|constructor|].
  assert (Hcok : cok E ProofExistence (Radix [] rch None) [2] ([p1] ++ [p2])).
  { apply (cok_cons E ProofExistence [] rch None 2 lw); [done|lia| |done]. by constructor. }
  assert (Hsh : rshape (Radix [] rch None)).
  { rewrite <- Hr. set (K := fun k => k = [0x1a] \/ k = [0x2b]). exists (nibU K).
    apply (radix_wfr K); [|intros k x|unfold m; apply insert_non_empty].
    - intros a b [-> | ->] [-> | ->] [t Ht]; first [done|by injection Ht].
    - unfold m. rewrite lookup_insert_Some, lookup_singleton_Some. intros [[<- _]|[_ [<- _]]]; (split; [|repeat constructor; lia]);
        [by left|by right]. }
  pose proof (cok_exist_hash E HE _ _ _ Hcok Hsh) as Heh. rewrite <- Hr in Heh.
  destruct Hp1 as (cp1&->&Hcp1). assert (Hc1 : chashes E (V:=V) (replicate 16 None) = []) by done. rewrite Hc1 in Hcp1. subst cp1.
  destruct Hp2 as (cp2&->&Hcp2).
  exists [NewNodeProof ProofExistence (hd_of [0xb] (replicate 16 None) (Some w)) (Some (evhash E w)) None;
          NewNodeProof 1 (hd_of [] rch None) None cp2].
  split.
  { cbn [app ExistenceHash] in *. exact Heh. }
  split; [by vm_compute|]. split; [by vm_compute|]. split; [unfold m; apply lookup_insert|]. by vm_compute.
Qed.
Print Assumptions C18_existence_refuted.
