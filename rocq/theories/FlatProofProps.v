(** C96: flattening a proof chain into one Merkle proof, and comparing proof chains. *)
From Verif Require Import Base MerkleSpec MerkleModel MerkleProofs MerkleTreeProofs MerkleProps TrieSpec TrieModel
  TrieProofModel TrieProofProofs TrieProofProps TrieProps FixedModel HistMergeSpec HdrProofProofs FlatProofModel.
From Verif Require HistModel HistVerifyProofs HistMergeProps.

Lemma merkles_loop_spec its : forall mp its0, mp_rep mp its0 -> Forall (fun it => length it.1 = 32%nat) its ->
  exists p, merkles_loop mp its = Some p /\ mp_rep p (its0 ++ its).
Proof.
  induction its as [|[h o] its IH]; intros mp its0 Hmp Hl; cbn [merkles_loop].
  - exists mp. by rewrite app_nil_r.
  - apply Forall_cons in Hl as [Hh Hl]. cbn [fst] in Hh. rewrite Hh. cbn [Nat.eqb negb]. rewrite bytes_to_hash_id by done.
    destruct (mp_rep_append mp its0 h o Hmp) as (mp'&->&Hmp'). destruct (IH mp' _ Hmp' Hl) as (p&Hp&Hr).
    exists p. split; [done|]. by rewrite <- app_assoc in Hr.
Qed.

(** Adjacent elements differ. *)
Definition no_adjacent (l : list (list N)) : Prop := forall i x, l !! i = Some x -> l !! S i <> Some x.
Lemma no_adjacent_snoc l h : no_adjacent l -> last l <> Some h -> no_adjacent (l ++ [h]).
Proof.
  intros Hl Hh i x Hi Hs. apply lookup_app_Some in Hs as [Hs|[Hge Hs]].
  - apply (Hl i x); [|done]. rewrite lookup_app_l in Hi; [done|]. apply lookup_lt_Some in Hs. lia.
  - destruct (S i - length l)%nat as [|k] eqn:Hk; [|by destruct k]. cbn in Hs. injection Hs as ->.
    apply Hh. rewrite last_lookup. assert (pred (length l) = i) as -> by lia. rewrite lookup_app_l in Hi by lia. done.
Qed.
Lemma append_no_adjacent mp h o mp' : no_adjacent (mp_hashs mp) -> mp_append mp h o = Some mp' -> no_adjacent (mp_hashs mp').
Proof.
  intros Hn. unfold mp_append. destruct (last (mp_hashs mp)) as [h'|] eqn:Hl.
  - destruct (decide (h' = h)) as [->|Hd].
    + destruct o; [destruct (mp_paths mp); [|done]|]; by intros [= <-].
    + assert (no_adjacent (mp_hashs mp ++ [h])) by (apply no_adjacent_snoc; [done|congruence]).
      destruct o; [destruct (mp_paths mp); [|done]|]; by intros [= <-].
  - assert (no_adjacent (mp_hashs mp ++ [h])) by (apply no_adjacent_snoc; [done|congruence]).
    destruct o; [destruct (mp_paths mp); [|done]|]; by intros [= <-].
Qed.
Lemma merkles_loop_no_adjacent its : forall mp p, no_adjacent (mp_hashs mp) -> merkles_loop mp its = Some p -> no_adjacent (mp_hashs p).
Proof.
  induction its as [|[h o] its IH]; intros mp p Hn; cbn [merkles_loop]; [by intros [= <-]|].
  destruct (negb _); [done|]. destruct (mp_append mp (bytes_to_hash h) o) as [mp'|] eqn:Ha; [|done]. apply IH. by eapply append_no_adjacent.
Qed.

(** ToMerkles: for an empty chain it is nil; otherwise it fails exactly if the chain cannot be
    walked, and the Merkle proof takes the same steps as the chain, so it maps every hash to
    the same root. Equal neighbours are stored once. *)
Theorem C96_to_merkles : forall V (E : env V) c, env_ok E -> chain_ok c ->
  (c = [] -> ToMerkles E c = Some None) /\
  (c <> [] -> chain_items E c = None -> ToMerkles E c = None /\ forall h, chain_proof E c h = None) /\
  (forall its, c <> [] -> chain_items E c = Some its ->
     exists p, ToMerkles E c = Some (Some p) /\ mp_items p = Some its /\ mp_len p = Z.of_nat (length its) /\
       (forall h, mp_proof (eH E) p h = chain_proof E c h) /\ no_adjacent (mp_hashs p)).
Proof.
  intros V E c HE Hok. split; [by intros ->|]. split.
  - intros Hne Hi. split; [|intros h; unfold chain_proof; by rewrite Hi]. unfold ToMerkles. rewrite Hi. by destruct c.
  - intros its Hne Hi. destruct (merkles_loop_spec its mp_new [] mp_rep_new (chain_items_len E HE c its Hok Hi)) as (p&Hp&Hr).
    cbn [app] in Hr. exists p. split; [unfold ToMerkles; rewrite Hi, Hp; by destruct c|]. split; [by apply mp_rep_items|].
    split; [by apply mp_rep_len|]. split.
    + intros h. rewrite (mp_proof_spec (eH E) p its h Hr). unfold chain_proof. rewrite Hi, fold_climb. done.
    + eapply merkles_loop_no_adjacent; [|exact Hp]. intros i x Hx. done.
Qed.
Print Assumptions C96_to_merkles.

(** What a chain proves its flat form proves: the verdict of VerifyProofChain is kept. *)
Theorem C96_verdict : forall V (E : env V) c v root, env_ok E -> chain_ok c -> c <> [] ->
  (VerifyProofChain E v c root = true <-> exists p, ToMerkles E c = Some (Some p) /\ mp_proof (eH E) p v = Some root).
Proof.
  intros V E c v root HE Hok Hne. destruct (C96_to_merkles V E c HE Hok) as (_&Herr&Hit). unfold VerifyProofChain.
  destruct (chain_items E c) as [its|] eqn:Hi.
  - destruct (Hit its Hne eq_refl) as (p&Hp&_&_&Hpr&_). rewrite Hp. rewrite <- Hpr. split.
    + intros Hv. exists p. split; [done|]. destruct (mp_proof (eH E) p v); [|done]. apply bool_decide_eq_true_1 in Hv. congruence.
    + intros (p'&[= <-]&Hm). rewrite Hm. by apply bool_decide_eq_true.
  - destruct (Herr Hne eq_refl) as [Hn Hc]. rewrite Hn, Hc. split; [done|]. by intros (p&?&_).
Qed.
Print Assumptions C96_verdict.

Lemma hist_items {V} (E : env V) c its : HistModel.chain_items c = Some its -> chain_items E c = Some its.
Proof.
  revert its. induction c as [|p c IH]; intros its; cbn [HistModel.chain_items chain_items]; [done|].
  destruct (IsProofMerkleOnly (np_type p)) eqn:Ht; [|done]. destruct (mpo_items (np_child p)) as [a|] eqn:Ha; [|done].
  destruct (HistModel.chain_items c) as [b|] eqn:Hb; [|done]. intros [= <-]. unfold np_items. rewrite Ht, Ha. by rewrite (IH b eq_refl).
Qed.

(** For chains of Merkle-only proofs (the history proofs) the position is kept too: BigKey of
    the chain is BigKey of the flat proof. *)
Theorem C96_bigkey : forall V (E : env V) c its key pos, env_ok E -> chain_ok c -> c <> [] ->
  HistModel.chain_items c = Some its -> HistModel.chain_bigkey c 0 0 = Some (key, pos) ->
  HistVerifyProofs.chain_wf c ->
  exists p, ToMerkles E c = Some (Some p) /\ mp_bigkey p 0 0 = Some (key, Z.of_nat (length its)).
Proof.
  intros V E c its key pos HE Hok Hne Hi Hk Hwf. pose proof (hist_items E c its Hi) as Hi'.
  destruct (merkles_loop_spec its mp_new [] mp_rep_new (chain_items_len E HE c its Hok Hi')) as (p&Hp&Hr).
  cbn [app] in Hr. exists p. split; [unfold ToMerkles; rewrite Hi', Hp; by destruct c|].
  rewrite (HistMergeProps.bigkey_path c its key pos Hwf Hi Hk).
  pose proof (mp_rep_len _ _ Hr) as Hlen. pose proof (mp_rep_items _ _ Hr) as Hits.
  destruct (mp_bigkey p 0 0) as [[k' pos']|] eqn:Hb.
  2:{ exfalso. destruct Hr as (n&Hn&_). unfold mp_bigkey in Hb. rewrite Hn in Hb. by destruct (mp_hashs p). }
  set (c1 := [NP ProofMerkleOnly (NH 0 [] []) None (Some p)]).
  assert (Hi1 : HistModel.chain_items c1 = Some its) by (unfold c1; cbn [HistModel.chain_items np_type np_child]; cbn; rewrite Hits; by rewrite app_nil_r).
  assert (Hk1 : HistModel.chain_bigkey c1 0 0 = Some (k', pos')) by (unfold c1; cbn [HistModel.chain_bigkey np_child]; by rewrite Hb).
  assert (Hw1 : HistVerifyProofs.chain_wf c1).
  { constructor; [|constructor]. cbn [np_child]. intros q its' [= <-] Hq. rewrite Hits in Hq. by injection Hq as <-. }
  rewrite (HistMergeProps.bigkey_path c1 its k' pos' Hw1 Hi1 Hk1). f_equal. f_equal.
  destruct (HistVerifyProofs.chain_key c1 its 0 0 k' pos' Hi1 Hk1 Hw1 ltac:(lia)) as (->&_). lia.
Qed.
Print Assumptions C96_bigkey.

Lemma hashs_loop_eq a : forall b, length a = length b -> hashs_loop a b = true <-> a = b.
Proof.
  induction a as [|x a IH]; intros [|y b]; cbn [length hashs_loop]; try done. intros [= Hl].
  case_bool_decide as Hx; [subst; rewrite (IH b Hl); split; congruence|]. split; [done|congruence].
Qed.
Lemma mt_Equal_eq m o : mt_Equal m o = true <-> m = o.
Proof.
  unfold mt_Equal. destruct m as [a b], o as [c d]; cbn [mt_index mt_times]. rewrite andb_true_iff, !Z.eqb_eq. split; [intros [-> ->]; done|by intros [= -> ->]].
Qed.
Lemma mts_loop_eq a : forall b, length a = length b -> mts_loop a b = true <-> a = b.
Proof.
  induction a as [|x a IH]; intros [|y b]; cbn [length mts_loop]; try done. intros [= Hl].
  destruct (mt_Equal x y) eqn:Hx; [apply mt_Equal_eq in Hx; subst; rewrite (IH b Hl); split; congruence|].
  split; [done|]. intros [= -> ->]. assert (mt_Equal y y = true) by by apply mt_Equal_eq. congruence.
Qed.
(** A nil list of repetitions is not equal to an empty one; otherwise lists are compared by value. *)
Theorem C96_repeats_equal : forall ms os, MoreTimes_Equal ms os = true <-> ms = os.
Proof.
  intros ms os. unfold MoreTimes_Equal. destruct (Nat.eqb_spec (length (default [] ms)) (length (default [] os))) as [Hl|Hl]; cbn [negb].
  - destruct ms as [ms|], os as [os|]; cbn [default] in Hl; try by split. rewrite mts_loop_eq by done. split; congruence.
  - split; [done|]. intros ->. done.
Qed.
Print Assumptions C96_repeats_equal.

Lemma MerkleProofs_Equal_eq p o : MerkleProofs_Equal p o = true <-> p = o.
Proof.
  destruct p as [[hs ps rs]|], o as [[hs' ps' rs']|]; cbn [MerkleProofs_Equal mp_hashs mp_paths mp_repeats]; try by split.
  assert (CompareBigInt0 ps ps' = true <-> ps = ps') as Hb.
  { destruct ps, ps'; cbn [CompareBigInt0]; try by split. rewrite N.eqb_eq. split; congruence. }
  assert (MoreTimes_Equal (repeats_slice rs) (repeats_slice rs') = true <-> rs = rs') as Hm.
  { rewrite C96_repeats_equal. unfold repeats_slice. destruct rs, rs'; split; congruence. }
  destruct (Nat.eqb_spec (length hs) (length hs')) as [Hl|Hl]; cbn [negb]; [|split; [done|intros [= -> _ _]; done]].
  pose proof (hashs_loop_eq hs hs' Hl) as Hh. destruct (hashs_loop hs hs'); cbn [negb].
  2:{ split; [done|]. intros [= E0 _ _]. apply Hh in E0. done. }
  destruct (CompareBigInt0 ps ps'); cbn [negb].
  2:{ split; [done|]. intros [= _ E0 _]. apply Hb in E0. done. }
  rewrite Hm. split; [intros ->|by intros [= _ _ ->]]. destruct Hh as [Hh _], Hb as [Hb _]. rewrite (Hh eq_refl), (Hb eq_refl). done.
Qed.
Lemma Equal_eq a b : Equal a b = true <-> a = b.
Proof. destruct a, b; cbn [Equal]; try by split. rewrite bool_decide_eq_true. split; congruence. Qed.
Lemma NodeProof_Equal_eq n o : NodeProof_Equal n o = true <-> n = o.
Proof.
  unfold NodeProof_Equal, NodeHeader_Equal. rewrite !andb_true_iff, Equal_eq, MerkleProofs_Equal_eq, !bool_decide_eq_true, !N.eqb_eq.
  destruct n as [t [a b f] v c], o as [t' [a' b' f'] v' c']; cbn. split; [intros [[[-> [[-> ->] ->]] ->] ->]; done|intros [= -> -> -> -> -> ->]; done].
Qed.

(** Equal holds exactly of chains with the same proofs, so equal chains verify alike. *)
Theorem C96_equal : forall c o, ProofChain_Equal c o = true <-> c = o.
Proof.
  intros c o. unfold ProofChain_Equal. destruct (Nat.eqb_spec (length c) (length o)) as [Hl|Hl]; cbn [negb]; [|split; [done|by intros ->]].
  revert o Hl. induction c as [|x c IH]; intros [|y o]; cbn [length chain_loop]; try done. intros [= Hl].
  destruct (NodeProof_Equal x y) eqn:Hx.
  - apply NodeProof_Equal_eq in Hx as ->. rewrite (IH o Hl). split; congruence.
  - split; [done|]. intros [= -> ->]. assert (NodeProof_Equal y y = true) by by apply NodeProof_Equal_eq. congruence.
Qed.
Print Assumptions C96_equal.

(** The flat form is canonical: two chains have Equal flat forms exactly if they take the same steps. *)
Theorem C96_canonical : forall V (E : env V) c o its its', env_ok E -> chain_ok c -> chain_ok o -> c <> [] -> o <> [] ->
  chain_items E c = Some its -> chain_items E o = Some its' ->
  exists p q, ToMerkles E c = Some (Some p) /\ ToMerkles E o = Some (Some q) /\
    (MerkleProofs_Equal (Some p) (Some q) = true <-> its = its').
Proof.
  intros V E c o its its' HE Hc Ho Hnc Hno Hi Hi'.
  destruct (C96_to_merkles V E c HE Hc) as (_&_&H1). destruct (H1 its Hnc Hi) as (p&Hp&Hpi&_).
  destruct (C96_to_merkles V E o HE Ho) as (_&_&H2). destruct (H2 its' Hno Hi') as (q&Hq&Hqi&_).
  exists p, q. split; [done|]. split; [done|]. rewrite MerkleProofs_Equal_eq. split.
  - intros [= ->]. congruence.
  - intros <-. unfold ToMerkles in Hp, Hq. rewrite Hi in Hp. rewrite Hi' in Hq. destruct c; [done|]. destruct o; [done|]. congruence.
Qed.
Print Assumptions C96_canonical.

(** A chain of two Merkle-only proofs whose neighbouring siblings are equal. *)
Example C96_example :
  let E := demo_env idealH in
  let h := replicate 32 1 in
  let c := [NP ProofMerkleOnly (NH 0 [] []) None (Some (MP [h] (Some 1) [])); NP ProofMerkleOnly (NH 0 [] []) None (Some (MP [h] (Some 0) []))] in
  env_ok E /\ chain_ok c /\ HistVerifyProofs.chain_wf c /\ HistModel.chain_items c = Some [(h, true); (h, false)] /\
  HistModel.chain_bigkey c 0 0 = Some (1, 2%Z) /\ ToMerkles E c = Some (Some (MP [h] (Some 1) [MT 0 1])).
Proof.
  intros E h c. split; [by apply demo_env_ok|]. split.
  { intros p Hp. repeat (apply elem_of_cons in Hp as [Hp|Hp]; [subst p; cbn; split; [done|]; intros q [= <-]; by repeat constructor|]). by apply elem_of_nil in Hp. }
  split.
  { constructor; [|constructor; [|constructor]]; cbn [np_child]; intros q its [= <-]; vm_compute; by intros [= <-]. }
  split; [reflexivity|]. split; [reflexivity|]. reflexivity.
Qed.
