(** Checking history proofs (C69). *)
From Verif Require Import Base MerkleSpec MerkleModel MerkleProofs MerkleProps TrieSpec TrieModel TrieProofModel TrieProps.
From Verif Require Import HistSpec HistModel HistVerifyModel HistLayerProofs HistPathProofs HistRunProofs HistVerifyProofs HistProps.
From stdpp Require Import gmap.
Open Scope N_scope.

Lemma get_proof_shape E st t k v c : (get_proof E st t k).2 = Some (v, c) -> exists mp, c = [merkle_only mp].
Proof.
  unfold get_proof. destruct (ht_root t) as [n|]; [|done]. destruct (locate E st n _) as [n1 [[[? ?]|]|]]; try done.
  destruct (proof_path E n1 _ _) as [n2 [mp|]]; cbn [snd]; [|done]. intros [= _ <-]. eauto.
Qed.
(** The proofs GetProof gives are accepted for their key and value, with the root as result. *)
Theorem C69_own_proofs_accepted : forall E ops j k vs, henv_ok E -> hist_ok (hH E) (ops ++ [(j, HProof k)]) ->
  hl_logs (hrun (hist_root (hH E)) ops hlogs0).1 !! j = Some vs -> k < lenN vs ->
  exists p obs t v chain, hmrun E ops hpool0 = Some (p, obs) /\ hp_trees p !! j = Some t /\ vs !! N.to_nat k = Some v /\
    (get_proof E (hp_store p) t k).2 = Some (v, chain) /\ history_proof E chain k v = Some (Some (hist_root (hH E) vs)).
Proof.
  intros E ops j k vs HE Ho Hj Hk. destruct (C26_proofs_verify E ops j k vs HE Ho Hj) as (p & obs & t & Hp & Ht & Hm).
  destruct (get_proof E (hp_store p) t k) as [t' [[v c]|]] eqn:Hg; cbn [snd] in Hm; [|lia].
  destruct Hm as (_ & Hv & Hc & Hb). exists p, obs, t, v, c. rewrite Hg. do 4 (split; [done|]).
  destruct (get_proof_shape E (hp_store p) t k v c) as [mp Hmp]; [by rewrite Hg|].
  assert (v <> []) as Hv0.
  { intros ->. destruct Ho as [_ _ Hlen _ _]. rewrite Forall_forall in Hlen. specialize (Hlen vs).
    rewrite Forall_forall in Hlen. cut (length (@nil N) = 32%nat); [done|]. apply Hlen; [|by eapply elem_of_list_lookup_2].
    rewrite hvisited_snoc. apply elem_of_app. right. cbn [hstep]. rewrite Hj. cbn [fst]. by eapply elem_of_list_lookup_2. }
  unfold history_proof. rewrite bool_decide_eq_false_2 by (subst c; done). rewrite (bool_decide_eq_false_2 (v = [])) by done.
  rewrite andb_false_r. destruct (chain_bigkey c 0 0) as [[key pos]|]; [|done]. injection Hb as ->. rewrite N.eqb_refl, Hc.
  by destruct (k =? two64 - 1).
Qed.
Print Assumptions C69_own_proofs_accepted.

(** Whoever made it: an accepted proof of 64 siblings for height and hob, leading to the root of
    vs, shows that hob is value number height of vs (or hob is the hash of the empty string and
    there is no such value), unless the hash collides on the strings hashed for vs and by the check. *)
Theorem C69_accepted_proof_sound : forall E vs c its height hob, henv_ok E ->
  Forall (fun v => length v = 32%nat) vs -> height < two64 - 1 -> length hob = 32%nat ->
  chain_wf c -> chain_items c = Some its -> length its = 64%nat -> Forall (fun it => length it.1 = 32%nat) its ->
  history_proof E c height hob = Some (Some (hist_root (hH E) vs)) ->
  inj_on (hH E) (hist_inputs (hH E) vs ++ climb_inputs (hH E) hob its) ->
  vs !! N.to_nat height = Some hob \/ (vs !! N.to_nat height = None /\ hob = nilhash (hH E)).
Proof.
  intros E vs c its height hob HE Hv Hh Hob Hwf Hits Hlen H32 Hp Hinj. unfold history_proof in Hp.
  destruct (bool_decide (c = [])); [done|]. destruct (N.eqb_spec height (two64 - 1)); [lia|]. cbn [andb] in Hp.
  destruct (chain_bigkey c 0 0) as [[key pos]|] eqn:Hk; [|done]. destruct (N.eqb_spec key height) as [->|]; [|done].
  rewrite bool_decide_eq_false_2 in Hp by (intros ->; done). unfold chain_proof in Hp. rewrite Hits in Hp. injection Hp as Hp.
  rewrite bytes_to_hash_id in Hp by done.
  destruct (chain_key c its 0 0 height pos Hits Hk Hwf ltac:(lia)) as (_ & Hbits & _).
  assert (height < 2 ^ 64) as Hh64 by (change (2 ^ 64) with two64; lia).
  assert (up 64 (N.to_nat height) = 0%nat) as Hup by (apply up_zero; rewrite N2Nat.id; exact Hh64).
  destruct (layers (hH E) 64 vs !! 0%nat) as [r|] eqn:Hr.
  - apply (fold_sound E HE vs (hist_inputs (hH E) vs ++ climb_inputs (hH E) hob its)) with (its := its) (k := 0%nat); try done; try lia.
    + intros x Hx. apply elem_of_app. by left.
    + intros x Hx. apply elem_of_app. by right.
    + intros j x Hj. split; [rewrite Forall_lookup in H32; by apply (H32 j)|].
      rewrite <- (Hbits j x Hj), <- testbit_up, N2Nat.id. f_equal.
    + rewrite Hp, Hlen, Nat.add_0_r, Hup, Hr. rewrite hist_root_look, Hr. done.
  - exfalso. rewrite hist_root_look, Hr in Hp. cbn [default] in Hp.
    assert (exists its' x, its = its' ++ [x]) as (its' & [s o] & ->) by (destruct its using rev_ind; [done|eauto]).
    rewrite foldl_app in Hp. cbn [foldl] in Hp. set (acc := foldl _ hob its') in *.
    assert (length acc = 32%nat \/ its' = []) as Hacc.
    { unfold acc. destruct its' as [|[s' o'] l _] using rev_ind; [by right|]. left. rewrite foldl_app. cbn [foldl].
      unfold hash_pair_order. destruct o'; apply (hok_H E HE). }
    assert ((if o then s ++ acc else acc ++ s) = []) as Hz.
    { apply Hinj.
      - apply elem_of_app. right. clear -acc. subst acc. revert hob. induction its' as [|[s' o'] its' IH]; intros hob; cbn [app foldl].
        + destruct o; cbn [climb_inputs]; by left.
        + destruct o'; cbn [climb_inputs]; right; apply IH.
      - apply elem_of_app. left. by left.
      - unfold hash_pair_order in Hp. unfold nilhash in Hp. rewrite <- Hp. by destruct o. }
    apply Forall_app in H32 as [_ H32]. inversion H32 as [|? ? Hs _]; subst. cbn [fst] in Hs.
    apply (f_equal length) in Hz. destruct o; rewrite app_length in Hz; cbn [length] in Hz; lia.
Qed.
Print Assumptions C69_accepted_proof_sound.

(** The check does not count the siblings, so without "64" the claim is false: in the tree of
    two values, the hash of both is accepted as the value at height 0. *)
Theorem C69_any_depth_refuted : forall E v0 v1, henv_ok E -> length v0 = 32%nat -> length v1 = 32%nat -> hH E (v0 ++ v1) <> v0 ->
  exists c its, chain_wf c /\ chain_items c = Some its /\ Forall (fun it => length it.1 = 32%nat) its /\
    history_proof E c 0 (hH E (v0 ++ v1)) = Some (Some (hist_root (hH E) [v0; v1])) /\
    [v0; v1] !! 0%nat <> Some (hH E (v0 ++ v1)).
Proof.
  intros E v0 v1 HE H0 H1 Hne. set (its := path_items E [v0; v1] 1 63 0).
  destruct (append_all_rep its mp_new [] mp_rep_new) as (mp & _ & Hmp). rewrite app_nil_l in Hmp.
  exists [merkle_only mp], its. pose proof (mp_rep_len _ _ Hmp) as Hml. pose proof (mp_rep_items _ _ Hmp) as Hmi.
  assert (chain_items [merkle_only mp] = Some its) as Hci.
  { cbn [chain_items merkle_only np_type np_child mpo_items]. change (IsProofMerkleOnly ProofMerkleOnly) with true. cbv iota.
    rewrite Hmi, app_nil_r. done. }
  assert (chain_wf [merkle_only mp]) as Hwf.
  { constructor; [|constructor]. intros p its' [= <-] Hi. rewrite Hmi in Hi. injection Hi as <-. done. }
  split; [done|]. split; [done|].
  assert (length its = 63%nat) as Hl63 by apply path_items_len.
  split; [|split].
  - assert (forall c k i, Forall (fun it => length it.1 = 32%nat) (path_items E [v0; v1] k c i)) as Hg; [|apply Hg].
    induction c as [|c IH]; intros k i; cbn [path_items]; constructor; [|apply IH].
    destruct (Nat.odd i); cbn [fst].
    + destruct (layers (hH E) k [v0; v1] !! (i - 1)%nat) as [x|] eqn:Hx; cbn [default]; [|apply (hok_H E HE)].
      eapply look_len; [apply (hok_H E HE)| |exact Hx]. by repeat constructor.
    + destruct (layers (hH E) k [v0; v1] !! (i + 1)%nat) as [x|] eqn:Hx; cbn [default]; [|apply (hok_H E HE)].
      eapply look_len; [apply (hok_H E HE)| |exact Hx]. by repeat constructor.
  - unfold history_proof. rewrite bool_decide_eq_false_2 by done.
    assert (hH E (v0 ++ v1) <> []) as Hn0 by (intros Hx; apply (f_equal length) in Hx; rewrite (hok_H E HE) in Hx; done).
    rewrite (bool_decide_eq_false_2 _ Hn0), andb_false_r. change (0 =? two64 - 1) with false. cbv iota.
    destruct (mp_rep_bits _ _ Hmp) as (paths & Hpaths & _).
    destruct (chain_bigkey [merkle_only mp] 0 0) as [[key pos]|] eqn:Hk.
    2:{ cbn [chain_bigkey merkle_only np_child] in Hk. unfold mp_bigkey in Hk. rewrite Hpaths in Hk. cbn [Z.ltb Z.compare] in Hk. by destruct (mp_hashs mp). }
    assert (key = 0) as ->.
    { destruct (chain_key _ _ 0 0 key pos Hci Hk Hwf ltac:(lia)) as (_ & Hb & Hz). apply N.bits_inj_0. intros k.
      destruct (decide (k < N.of_nat (length its))) as [Hlt|Hge].
      - destruct (lookup_lt_is_Some_2 its (N.to_nat k)) as [[h o] Hx]; [lia|].
        specialize (Hb _ _ Hx). rewrite N2Nat.id in Hb. change (Z.to_N 0 + k) with (0 + k) in Hb. rewrite N.add_0_l in Hb. rewrite Hb.
        apply path_items_dir in Hx. cbn [snd]. rewrite Hx. clear. induction (N.to_nat k) as [|m IH]; [done|]. cbn [up].
        assert (forall m, up m 0 = 0%nat) as -> by (clear; induction m as [|m IH]; cbn [up]; [done|by rewrite IH]). done.
      - rewrite Hz; [apply N.bits_0|]. right. change (Z.to_N 0) with 0. lia. }
    rewrite N.eqb_refl. unfold chain_proof. rewrite Hci, bytes_to_hash_id by apply (hok_H E HE).
    rewrite hist_root_look. pose proof (climb E [v0; v1] 63 1 0 (hH E (v0 ++ v1)) eq_refl) as Hcl.
    assert (up 63 0 = 0%nat) as Hu by reflexivity. rewrite Hu in Hcl. change (63 + 1)%nat with 64%nat in Hcl. rewrite Hcl. done.
  - cbn. congruence.
Qed.
Print Assumptions C69_any_depth_refuted.

(** The hypotheses of the soundness theorem are met by the honest proof of value 1 of three. *)
Example C69_example :
  let E := hdemo_env idealH in let vs := [replicate 32 1; replicate 32 2; replicate 32 3] in
  exists c its, chain_wf c /\ chain_items c = Some its /\ length its = 64%nat /\ Forall (fun it => length it.1 = 32%nat) its /\
    history_proof E c 1 (replicate 32 2) = Some (Some (hist_root idealH vs)) /\
    inj_on idealH (hist_inputs idealH vs ++ climb_inputs idealH (replicate 32 2) its).
Proof.
  intros E vs. pose proof hdemo_ok as HE. set (its := path_items E vs 0 64 1).
  destruct (append_all_rep its mp_new [] mp_rep_new) as (mp & _ & Hmp). rewrite app_nil_l in Hmp.
  pose proof (mp_rep_len _ _ Hmp) as Hml. pose proof (mp_rep_items _ _ Hmp) as Hmi.
  exists [merkle_only mp], its. split; [|split; [|split; [apply path_items_len|split; [|split; [|apply idealH_inj]]]]].
  - constructor; [|constructor]. intros p its' [= <-] Hi. rewrite Hmi in Hi. injection Hi as <-. done.
  - cbn [chain_items merkle_only np_type np_child mpo_items]. change (IsProofMerkleOnly ProofMerkleOnly) with true. cbv iota.
    rewrite Hmi, app_nil_r. done.
  - assert (forall c k i, Forall (fun it => length it.1 = 32%nat) (path_items E vs k c i)) as Hg; [|apply Hg].
    induction c as [|c IH]; intros k i; cbn [path_items]; constructor; [|apply IH].
    assert (forall o, length (default (nilhash (hH E)) (layers (hH E) k vs !! o)) = 32%nat) as Hd.
    { intros o. destruct (layers (hH E) k vs !! o) as [x|] eqn:Hx; cbn [default]; [|apply (hok_H E HE)].
      eapply look_len; [apply (hok_H E HE)| |exact Hx]. by repeat constructor. }
    destruct (Nat.odd i); apply Hd.
  - unfold history_proof. rewrite bool_decide_eq_false_2 by done. change (1 =? two64 - 1) with false. cbn [andb]. cbv iota.
    pose proof (merkle_only_key E vs mp 1 Hmp ltac:(done)) as Hk. destruct (chain_bigkey [merkle_only mp] 0 0) as [[key pos]|]; [|done].
    cbn [option_map fst] in Hk. injection Hk as ->. change (N.of_nat 1 =? 1) with true. cbv iota.
    rewrite bool_decide_eq_false_2 by done. rewrite bytes_to_hash_id by done.
    rewrite (merkle_only_proof E vs mp 1 (replicate 32 2) Hmp eq_refl). rewrite (up_zero 64 1) by done.
    change (hist_root idealH vs) with (hist_root (hH E) vs). rewrite hist_root_look.
    destruct (layers (hH E) 64 vs !! 0%nat) eqn:Hl; [done|]. exfalso.
    pose proof (look_up_some E vs 0 1 64 ltac:(eexists; reflexivity)) as [x Hx]. rewrite (up_zero 64 1) in Hx by done.
    change (64 + 0)%nat with 64%nat in Hx. congruence.
Qed.
