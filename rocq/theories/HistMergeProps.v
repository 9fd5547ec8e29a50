(** Properties of merging proofs into restored trees (C84). *)
From Verif Require Import Base MerkleSpec MerkleModel MerkleProofs TrieSpec TrieModel TrieProofModel.
From Verif Require Import HistFindProps TrieProps ToyHash.
From Verif Require Import HistSpec HistModel HistLayerProofs HistRepProofs HistPathProofs HistCommitProofs HistRunProofs HistProps HistChopProps HistRestoreSpec HistRestoreModel
  HistRestoreProofs HistRestoreRunProofs HistRestoreProps HistVerifyProofs HistVerifyProps HistMergeSpec HistMergeModel HistMergeProofs HistMergeRunProofs.
From stdpp Require Import gmap.
Open Scope N_scope.

(* ------------------------------------------------------------ the calls on the model *)
(** Calls on a tree over an empty database; None = panic or error of HashValue. *)
Fixpoint merge_run (E : henv) (t : htree) (calls : list (mcall (list nodeproof))) : option (list mobs) :=
  match calls with
  | [] => Some []
  | o :: r =>
      match (match o with
             | MMerge key value c => match merge_proof E ∅ t key value (Some c) with Some (t', b) => Some (t', MTaken b) | None => None end
             | MGet key => let '(t', v) := get_tree E ∅ t key in Some (t', MValue v)
             | MHash => match hash_value E t with (t', Some h) => Some (t', MRootIs h) | _ => None end
             end) with
      | None => None
      | Some (t', b) => option_map (cons b) (merge_run E t' r)
      end
  end.
Definition siblings (c : list nodeproof) : list (list N * bool) := default [] (chain_items c).
(** Asked of a proof that is offered: it is a chain of Merkle proofs of 64 hashes in all, the
    value is not the hash of the empty string, and the hash has no collision among the strings
    hashed for [vs] and by the check. *)
Record offer_ok (E : henv) (vs : list (list N)) (key : N) (value : list N) (c : list nodeproof) : Prop := OfferOk {
  of_key : is_Some (chain_bigkey c 0 0);
  of_wf : chain_wf c;
  of_items : is_Some (chain_items c);
  of_len : length (siblings c) = 64%nat;
  of_32 : Forall (fun it => length it.1 = 32%nat) (siblings c);
  of_val : value <> nilhash (hH E);
  of_inj : inj_on (hH E) (hist_inputs (hH E) vs ++ climb_inputs (hH E) value (siblings c));
}.

(* ------------------------------------------------------------ helpers *)
Lemma climb_fold (H : list N -> list N) its : forall h, MerkleSpec.climb H h its = foldl (fun acc '(v, order) => hash_pair_order H order v acc) h its.
Proof. induction its as [|[s []] its IH]; intros h; cbn [MerkleSpec.climb foldl]; [done|..]; rewrite IH; done. Qed.
Lemma path_key_bit its : forall i, N.testbit (path_key its) (N.of_nat i) = default false (snd <$> its !! i).
Proof.
  induction its as [|[s o] its IH]; intros i; cbn [path_key]; [by rewrite N.bits_0|].
  replace ((if o then 1 else 0) + 2 * path_key its) with (2 * path_key its + N.b2n o) by (destruct o; cbn; lia).
  destruct i as [|i]; [rewrite N.testbit_0_r; done|]. rewrite Nat2N.inj_succ, N.testbit_succ_r. by rewrite IH.
Qed.
Lemma bigkey_path c its pk pos : chain_wf c -> chain_items c = Some its -> chain_bigkey c 0 0 = Some (pk, pos) -> pk = path_key its.
Proof.
  intros Hwf Hi Hk. destruct (chain_key c its 0 0 pk pos Hi Hk Hwf ltac:(lia)) as (_ & Hb & Hz). apply N.bits_inj. intros m.
  rewrite <- (N2Nat.id m), path_key_bit. destruct (its !! N.to_nat m) as [x|] eqn:Hx; cbn [fmap option_fmap option_map default].
  - rewrite <- (Hb _ _ Hx). done.
  - rewrite Hz; [by rewrite N.bits_0|]. right. apply lookup_ge_None_1 in Hx. change (Z.to_N 0) with 0. lia.
Qed.
Lemma accepts_shows E vs key value c : chain_wf c -> is_Some (chain_items c) -> is_Some (chain_bigkey c 0 0) ->
  accepts E vs key value c = shows (hH E) (hist_root (hH E) vs) key value (siblings c).
Proof.
  intros Hwf [its Hi] [[pk pos] Hk]. unfold accepts, shows, siblings. rewrite Hk, Hi. cbn [option_map fst default]. change (id its) with its.
  rewrite (bigkey_path c its pk pos Hwf Hi Hk). unfold chain_proof. rewrite Hi, climb_fold. f_equal; [f_equal|].
  - destruct (N.eqb_spec (path_key its) key) as [->|]; [by rewrite bool_decide_eq_true_2|rewrite bool_decide_eq_false_2; [done|congruence]].
  - apply bool_decide_ext. split; congruence.
Qed.
Lemma blocks_sib a b : a / 32 = b / 32 /\ a / 16 <> b / 16 <-> up 4 (N.to_nat a) = sib (up 4 (N.to_nat b)).
Proof.
  assert (forall x, up 4 (N.to_nat x) = N.to_nat (x / 16)) as Hu.
  { intros x. change 4%nat with (4 + 0)%nat. rewrite up_4. cbn [up]. rewrite N2Nat.inj_div. done. }
  rewrite !Hu. replace 32 with (16 * 2) by done. rewrite <- !N.div_div by done. generalize (a / 16) (b / 16). intros x y. unfold sib.
  destruct (Nat.odd (N.to_nat y)) eqn:Ho.
  - apply Nat.odd_spec in Ho as [m Hm]. assert (y = 2 * N.of_nat m + 1) as -> by lia.
    replace ((2 * N.of_nat m + 1) / 2) with (N.of_nat m) by lia. split; [intros [H1 H2]|intros H1]; [|split]; lia.
  - apply Bool.negb_true_iff in Ho. rewrite Nat.negb_odd in Ho. apply Nat.even_spec in Ho as [m Hm]. assert (y = 2 * N.of_nat m) as -> by lia.
    replace (2 * N.of_nat m / 2) with (N.of_nat m) by lia. split; [intros [H1 H2]|intros H1]; [|split]; lia.
Qed.

Lemma merge_run_ok E vs calls : henv_ok E -> Forall (fun v : list N => length v = 32%nat) vs ->
  (forall l i h, (l <= 64)%nat -> layers (hH E) l vs !! i = Some h -> h <> nilhash (hH E)) -> lenN vs < two64 ->
  forall t known, tgood E vs (fun k => N.of_nat k ∈ known) t -> Forall (fun k => k < two64 /\ exists v, vs !! N.to_nat k = Some v /\ reads t k v) known ->
  mcalls_ok (hH E) vs siblings (offer_ok E vs) known calls ->
  merge_run E t calls = Some (mspec_run (hH E) vs siblings known calls).
Proof.
  intros HE H32 Hnil Hlen. induction calls as [|o calls IH]; intros t known Hg Hrd Hok; [done|]. cbn [mcalls_ok] in Hok. destruct Hok as [Ho Hok].
  cbn [merge_run mspec_run]. destruct o as [key value c|key|]; cbn [mspec_step fst] in *.
  - destruct Ho as (Hkey & [O1 O2 [its O3] O4 O5 O6 O7] & Hno). pose proof (accepts_shows E vs key value c O2 ltac:(eauto) O1) as Has.
    assert (siblings c = its) as Hsib by (unfold siblings; by rewrite O3). rewrite Hsib in O4, O5, O7.
    destruct (offer_step E HE vs H32 Hnil Hlen (fun k => N.of_nat k ∈ known) t key value c its Hg Hkey O1 O2 O3 O4 O5 O6 O7) as (t' & -> & _ & Hg' & Hacc & Hkeep).
    { intros k' Hk' Hs. rewrite Forall_forall in Hno. apply (Hno _ Hk'). unfold paired_blocks. apply blocks_sib. by rewrite Nat2N.id. }
    rewrite Has in *. set (b := shows _ _ key value (siblings c)) in *.
    rewrite (IH t' (if b then key :: known else known)); [done| | |done].
    + destruct Hg' as (n & Hn & Hf & Hor). exists n. split; [done|]. split; [|done]. eapply fine_mono; [|exact Hf].
      intros k [Hk|[Hb ->]]; [destruct b; [by right|done]|]. rewrite Hb, N2Nat.id. by left.
    + assert (Forall (fun k => k < two64 /\ exists v, vs !! N.to_nat k = Some v /\ reads t' k v) known) as Hrd'.
      { eapply Forall_impl; [exact Hrd|]. cbv beta. intros k (Hk & v & Hv & Hr). split; [done|]. exists v. split; [done|]. by apply Hkeep. }
      destruct b; [|done]. constructor; [|done]. split; [done|]. exists value. by apply Hacc.
  - rewrite Forall_forall in Hrd. destruct (Hrd key Ho) as (Hk & v & Hv & Hr).
    assert (get_tree E ∅ t key = (t, Some v)) as ->.
    { destruct Hr as (n & Hn & Hh). unfold get_tree. rewrite Hn. destruct (heightToPrefix_ok key Hk) as (Hp & _ & _).
      rewrite (trace_has E ∅ (heightToPrefix key) n v Hp Hh). destruct t as [x r]. cbn [ht_exp ht_root] in *. by rewrite Hn. }
    rewrite Hv. rewrite (IH t known Hg (proj2 (Forall_forall _ _) Hrd) Hok). done.
  - destruct (hash_step E vs Hnil Hlen _ t Hg) as (t1 & n1 & -> & Hn1 & _ & Hf1 & Hb1 & Hk1).
    rewrite (IH t1 known); [done| | |done].
    + exists n1. auto.
    + eapply Forall_impl; [exact Hrd|]. cbv beta. intros k (Hk & v & Hv & Hr). split; [done|]. exists v. split; [done|]. by apply Hk1.
Qed.

Lemma merge_setup : forall E ops j k vs v, henv_ok E ->
  Forall (fun jo => hcall_key jo.2 < two64) ops ->
  let s := (hrun (hist_root (hH E)) ops hlogs0).1 in
  logs_ok (hH E) (hvisited (hist_root (hH E)) ops hlogs0) ->
  hl_logs s !! j = Some vs -> k < lenN vs -> vs !! N.to_nat k = Some v ->
  exists p t, hmrun E ops hpool0 = Some (p, (hrun (hist_root (hH E)) ops hlogs0).2) /\ hp_trees p !! j = Some t /\ trep E (hp_store p) t vs /\
    Forall (fun v : list N => length v = 32%nat) vs /\ lenN vs < two64 /\
    (forall l i h, (l <= 64)%nat -> layers (hH E) l vs !! i = Some h -> h <> nilhash (hH E)) /\ inj_on (hH E) (hist_inputs (hH E) vs) /\
    exists t' c r, get_proof E (hp_store p) t k = (t', Some (v, c)) /\ restore_tree E ∅ k v c = Some r /\
      forall calls, mcalls_ok (hH E) vs siblings (offer_ok E vs) [k] calls -> merge_run E r calls = Some (mspec_run (hH E) vs siblings [k] calls).
Proof.
  intros E ops j k vs v HE Hk1 s [Hl Hv Hi Hn] Hj Hk Hkv. set (H := hH E) in *.
  set (V := hvisited (hist_root H) ops hlogs0) in *.
  assert (forall ws x, ws ∈ V -> x ∈ hist_inputs H ws -> x ∈ flat_map (hist_inputs H) V) as Hin.
  { intros ws x Hvs Hx. apply elem_of_list_In, in_flat_map. exists ws. by rewrite <- !elem_of_list_In. }
  assert (forall ws, ws ∈ V -> Forall (fun v => length v = 32%nat) ws) as G1 by (intros ws Hvs; by apply (proj1 (Forall_forall _ _) Hv)).
  assert (forall ws, ws ∈ V -> lenN ws < two64) as G2 by (intros ws Hvs; by apply (proj1 (Forall_forall _ _) Hl)).
  assert (forall ws ws' x y, ws ∈ V -> ws' ∈ V -> x ∈ hist_inputs H ws -> y ∈ hist_inputs H ws' -> H x = H y -> x = y) as G3.
  { intros ws ws' x y Hvs Hvs' Hx Hy He. exact (Hi x y (Hin ws x Hvs Hx) (Hin ws' y Hvs' Hy) He). }
  assert (forall ws ws' v x, ws ∈ V -> ws' ∈ V -> v ∈ ws -> x ∈ hist_inputs H ws' -> v <> H x) as G4.
  { intros ws ws' w x Hvs Hvs' Hv' Hx. exact (Hn ws w x Hvs Hv' (Hin ws' x Hvs' Hx)). }
  destruct (run_ok E HE (fun ws => ws ∈ V) G1 G2 G3 G4 ops hpool0 hlogs0) as (p & Hp & Hprep).
  { split; [|constructor]. cbn. constructor; [|constructor]. split; [|done].
    unfold V. destruct ops; cbn [hvisited hlogs0 hl_logs]; apply elem_of_app; left; by left. }
  { exact Hk1. }
  { done. }
  destruct Hprep as [Hpt _]. fold H s in Hpt.
  destruct (Forall2_lookup_r _ _ _ _ _ Hpt Hj) as (t & Htj & Hrep).
  destruct Hrep as [HgV Hrep].
  assert (hget vs k = Some v) as Hget by (unfold hget; by rewrite (proj2 (N.ltb_lt _ _) Hk)).
  pose proof (G1 _ HgV) as H32. pose proof (G2 _ HgV) as Hlen.
  assert (forall l i h, (l <= 64)%nat -> layers H l vs !! i = Some h -> h <> nilhash H) as Hnil.
  { intros l i h Hl64 Hh. by eapply (look_ne_nil E HE (fun ws => ws ∈ V) G1 G3 G4 vs l i). }
  destruct (commit_tree_ok E HE (fun ws => ws ∈ V) G1 G2 G3 G4 (hp_store p) t vs HgV Hrep) as (st' & t1 & _ & _ & _ & Hsv).
  assert (layers H 0 vs !! N.to_nat k = Some v) as Hlk by done.
  destruct (proof_items E HE (hp_store p) t vs k v H32 Hrep Hlen Hlk ltac:(lia)) as (t' & c & Hpr & _).
  destruct (restore_good E HE vs H32 Hnil Hlen (hp_store p) t k v c Hrep Hget) with (t' := t') as (r & Hr & _ & Hg & Hrd); [|done|].
  { exists st'. done. }
  exists p, t. split; [exact Hp|]. split; [done|]. split; [done|]. split; [done|]. split; [done|]. split; [done|].
  split; [intros x y; by apply (G3 vs vs)|]. exists t', c, r. split; [done|]. split; [done|]. intros calls Hok.
  apply merge_run_ok; try done.
  - destruct Hg as (n & Hnn & Hf & Hor). exists n. split; [done|]. split; [|done]. eapply fine_mono; [|exact Hf]. intros k' <-. rewrite N2Nat.id. by left.
  - constructor; [|constructor]. split; [lia|]. eauto.
Qed.

(** Any calls on a family of trees, then GetProof of the key [k] of tree [j], then
    RestoreTreeFromProofs from that proof on an empty database, then any calls of MergeProof,
    Get of known keys and HashValue, where no key offered is in the other block of a pair with a
    known one: MergeProof accepts exactly the offers whose siblings lead from the key and the
    value to the root, each such value is value number key of the list, every known key is read
    and the root stays. *)
Theorem C84_merge : forall E ops j k vs v calls, henv_ok E ->
  Forall (fun jo => hcall_key jo.2 < two64) ops ->
  let s := (hrun (hist_root (hH E)) ops hlogs0).1 in
  logs_ok (hH E) (hvisited (hist_root (hH E)) ops hlogs0) ->
  hl_logs s !! j = Some vs -> k < lenN vs -> vs !! N.to_nat k = Some v ->
  mcalls_ok (hH E) vs siblings (offer_ok E vs) [k] calls ->
  exists p t t' c r, hmrun E ops hpool0 = Some (p, (hrun (hist_root (hH E)) ops hlogs0).2) /\
    hp_trees p !! j = Some t /\ get_proof E (hp_store p) t k = (t', Some (v, c)) /\
    restore_tree E ∅ k v c = Some r /\
    merge_run E r calls = Some (mspec_run (hH E) vs siblings [k] calls).
Proof.
  intros E ops j k vs v calls HE Hk1 s Hlo Hj Hk Hkv Hok.
  destruct (merge_setup E ops j k vs v HE Hk1 Hlo Hj Hk Hkv) as (p & t & Hp & Ht & _ & _ & _ & _ & _ & t' & c & r & Hg & Hr & Hrun).
  exists p, t, t', c, r. repeat (split; [done|]). by apply Hrun.
Qed.
Print Assumptions C84_merge.

Lemma log_facts E vs : henv_ok E -> logs_ok (hH E) [vs] -> Forall (fun v => length v = 32%nat) vs /\ lenN vs < two64 /\
  (forall l i h, (l <= 64)%nat -> layers (hH E) l vs !! i = Some h -> h <> nilhash (hH E)).
Proof.
  intros HE [Hl Hv Hi Hn]. cbn [flat_map] in *. rewrite app_nil_r in *.
  assert (Forall (fun v => length v = 32%nat) vs) as H32 by exact (Forall_inv Hv). split; [done|]. split; [exact (Forall_inv Hl)|].
  intros l i h Hl64 Hh. eapply (look_ne_nil E HE (fun ws => ws = vs)); [| | |done|exact Hl64|exact Hh].
  - by intros ws ->.
  - intros ws ws' x y -> ->. apply Hi.
  - intros ws ws' w x -> -> Hw Hx. apply (Hn vs w x); [by left|done|done].
Qed.
(** What is accepted is true: siblings that lead to the root of a list that is not empty. *)
Theorem C84_sound : forall E vs key value c, henv_ok E -> logs_ok (hH E) [vs] -> vs <> [] -> key < two64 ->
  offer_ok E vs key value c -> shows (hH E) (hist_root (hH E) vs) key value (siblings c) = true -> vs !! N.to_nat key = Some value.
Proof.
  intros E vs key value c HE Hok Hvs Hkey [[[pk pos] Hbk] O2 [its O3] O4 O5 O6 O7]. unfold siblings in *. rewrite O3 in *. cbn [default] in *. change (id its) with its in *.
  unfold shows. rewrite !andb_true_iff. intros [[Hv Hk] Hr]. apply Nat.eqb_eq in Hv. apply N.eqb_eq in Hk. apply bool_decide_eq_true in Hr. rewrite climb_fold in Hr.
  destruct (log_facts E vs HE Hok) as (H32 & Hlen & Hnil).
  pose proof (bigkey_path c its pk pos O2 O3 Hbk) as Hpk. rewrite Hk in Hpk. subst pk.
  destruct (chain_key c its 0 0 key pos O3 Hbk O2 ltac:(lia)) as (_ & Hbits & _).
  assert (exists h, layers (hH E) 64 vs !! 0%nat = Some h) as Hlk.
  { destruct vs as [|v0 vs]; [done|]. pose proof (look_up_some E (v0 :: vs) 0 0 64 (ex_intro _ v0 eq_refl)) as Hs.
    rewrite (up_zero 64) in Hs by done. exact Hs. }
  destruct (fold_items E HE vs H32 Hnil ltac:(lia) _ O7 ltac:(intros x Hx; apply elem_of_app; by left) its 0 (N.to_nat key) value) as [Hval _]; [lia|done|done| | | |].
  { intros x Hx. apply elem_of_app. by right. }
  { intros i x Hx. split; [by eapply (proj1 (Forall_lookup _ _) O5)|]. rewrite <- (Hbits i x Hx). rewrite <- (N2Nat.id key) at 1.
    change (Z.to_N 0 + N.of_nat i) with (N.of_nat i). apply testbit_up. }
  { rewrite O4, Hr. change (64 + 0)%nat with 64%nat. rewrite (up_zero 64) by (by rewrite N2Nat.id). apply (root_look E vs Hlk). }
  exact Hval.
Qed.
Print Assumptions C84_sound.

(* ------------------------------------------------------------ proofs of GetProof *)
Lemma own_proof E st t vs k v : henv_ok E -> Forall (fun v => length v = 32%nat) vs -> trep E st t vs -> lenN vs < two64 -> vs !! N.to_nat k = Some v -> k < two64 ->
  exists t' mp, get_proof E st t k = (t', Some (v, [merkle_only mp])) /\ mp_rep mp (path_items E vs 0 64 (N.to_nat k)).
Proof.
  intros HE Hv [He Hr] Hlen Hl Hk. unfold get_proof. destruct (ht_root t) as [n|] eqn:Hn; [|by subst vs].
  destruct (heightToPrefix_ok k Hk) as (Hp1 & Hp2 & Hp3).
  destruct (locate_ok E HE st vs (fun _ => Hv) 15 0 n _ Hr Hp1 ltac:(lia)) as (n1 & r & -> & Hn1 & _ & Hres).
  rewrite Hp2, Hp3 in Hres. replace (4 * (16 - 16))%nat with 0%nat in Hres by lia. cbn [layers] in Hres. rewrite Hl in Hres.
  destruct Hres as [[i ->] Hop]. cbn [Nat.eqb].
  destruct (proof_path_ok E HE st vs Hv (heightToPrefix k) 15 0 n1 mp_new [] ltac:(lia) Hp1 Hp2 Hop) as (n2 & mp & -> & Hn2 & Hmp);
    [rewrite Hp3; cbn [layers]; eauto|apply MerkleProofs.mp_rep_new|].
  rewrite Hp3 in Hmp. change (4 * 16)%nat with 64%nat in Hmp. cbn [app] in Hmp.
  eexists. exists mp. split; [reflexivity|exact Hmp].
Qed.
Lemma own_inputs E vs c : forall k i h, layers (hH E) k vs !! i = Some h -> (k + c <= 64)%nat -> forall x, x ∈ climb_inputs (hH E) h (path_items E vs k c i) -> x ∈ hist_inputs (hH E) vs.
Proof.
  induction c as [|c IH]; intros k i h Hh Hk x Hx; cbn [path_items climb_inputs] in Hx; [by apply elem_of_nil in Hx|].
  assert (exists a, layers (hH E) k vs !! (2 * (i / 2))%nat = Some a) as [a Ha].
  { destruct (layers (hH E) k vs !! (2 * (i / 2))%nat) as [a|] eqn:Ha; [eauto|]. exfalso. apply (look_mono (hH E) vs k _ i) in Ha; [congruence|].
    pose proof (Nat.div_mod i 2). lia. }
  assert (forall y, y ∈ [a ++ default (nilhash (hH E)) (layers (hH E) k vs !! (2 * (i / 2) + 1)%nat)] -> y ∈ hist_inputs (hH E) vs) as Hin.
  { intros y Hy. apply elem_of_list_singleton in Hy as ->. unfold hist_inputs. right. apply elem_of_list_In, in_flat_map. exists k. split; [apply in_seq; lia|].
    apply elem_of_list_In, layer_inputs_in. done. }
  pose proof (look_S (hH E) vs k (i / 2)) as HS. rewrite Ha in HS. specialize (IH (S k) (i / 2)%nat _ HS ltac:(lia)).
  destruct (Nat.odd i) eqn:Ho.
  - apply Nat.odd_spec in Ho as [m Hm]. replace (2 * (i / 2))%nat with (i - 1)%nat in * by lia. replace (i - 1 + 1)%nat with i in * by lia.
    rewrite Ha, Hh in *. cbn [default] in *. change (id ?z) with z in *. apply elem_of_cons in Hx as [->|Hx]; [apply Hin; by left|]. by apply IH.
  - assert (Nat.Even i) as [m Hm] by (apply Nat.even_spec; rewrite <- Nat.negb_odd, Ho; done). replace (2 * (i / 2))%nat with i in * by lia.
    rewrite Hh in Ha. injection Ha as ->. apply elem_of_cons in Hx as [->|Hx]; [apply Hin; by left|]. by apply IH.
Qed.
Lemma own_len E vs : henv_ok E -> Forall (fun v => length v = 32%nat) vs -> forall c k i, Forall (fun it => length it.1 = 32%nat) (path_items E vs k c i).
Proof.
  intros HE H32. induction c as [|c IH]; intros k i; cbn [path_items]; constructor; [|apply IH].
  destruct (Nat.odd i); cbn [fst]; by apply def_len.
Qed.
(** GetProof of a key gives a proof that may be offered and that is accepted. *)
Lemma own_offer E vs k v mp : henv_ok E -> Forall (fun v => length v = 32%nat) vs -> lenN vs < two64 -> vs !! N.to_nat k = Some v -> k < two64 ->
  inj_on (hH E) (hist_inputs (hH E) vs) -> v <> nilhash (hH E) -> mp_rep mp (path_items E vs 0 64 (N.to_nat k)) ->
  offer_ok E vs k v [merkle_only mp] /\ shows (hH E) (hist_root (hH E) vs) k v (siblings [merkle_only mp]) = true.
Proof.
  intros HE H32 Hlen Hv Hk Hinj Hne Hmp.
  assert (layers (hH E) 0 vs !! N.to_nat k = Some v) as Hlk by exact Hv.
  pose proof (merkle_only_key E vs mp (N.to_nat k) Hmp ltac:(by rewrite N2Nat.id)) as Hkey. rewrite N2Nat.id in Hkey.
  pose proof (path_items_len E vs 64 0 (N.to_nat k)) as HP1.
  pose proof (own_inputs E vs 64 0 (N.to_nat k) v Hlk ltac:(lia)) as HP2.
  pose proof (climb E vs 64 0 (N.to_nat k) v Hlk) as Hc. change (64 + 0)%nat with 64%nat in Hc.
  rewrite (up_zero 64) in Hc by (rewrite N2Nat.id; exact Hk). apply root_some in Hc.
  pose proof (own_len E vs HE H32 64 0 (N.to_nat k)) as HP3.
  revert Hmp HP1 HP2 Hc HP3. generalize (path_items E vs 0 64 (N.to_nat k)). intros P Hmp HP1 HP2 Hc HP3.
  pose proof (mp_rep_len _ _ Hmp) as Hml. pose proof (mp_rep_items _ _ Hmp) as Hmi.
  assert (chain_items [merkle_only mp] = Some P) as Hci.
  { cbn [chain_items merkle_only np_type np_child mpo_items]. change (IsProofMerkleOnly ProofMerkleOnly) with true. cbv iota. by rewrite Hmi, app_nil_r. }
  assert (siblings [merkle_only mp] = P) as Hs by (unfold siblings; by rewrite Hci).
  assert (chain_wf [merkle_only mp]) as Hwf.
  { constructor; [|constructor]. intros q its' [= <-] Hi. rewrite Hmi in Hi. injection Hi as <-. done. }
  destruct (chain_bigkey [merkle_only mp] 0 0) as [[pk pos]|] eqn:Hbk; [|done]. cbn [option_map fst] in Hkey. injection Hkey as ->.
  pose proof (bigkey_path _ _ _ _ Hwf Hci Hbk) as Hpk.
  split.
  - split; [rewrite Hbk; eauto|done|eauto|by rewrite Hs|by rewrite Hs|done|].
    rewrite Hs. intros x y Hx Hy. apply Hinj; [apply elem_of_app in Hx as [Hx|Hx]|apply elem_of_app in Hy as [Hy|Hy]]; auto.
  - unfold shows. rewrite Hs, <- Hpk, N.eqb_refl. rewrite (look_len (hH E) vs 0 _ v (hok_H E HE) H32 Hlk). cbn [Nat.eqb andb]. apply bool_decide_eq_true_2.
    rewrite climb_fold. by rewrite Hc.
Qed.

Lemma reads_tail E vs (val : N -> list N) : forall ks known, Forall (fun k => k ∈ known /\ vs !! N.to_nat k = Some (val k)) ks ->
  mcalls_ok (hH E) vs siblings (offer_ok E vs) known (map MGet ks ++ [MHash]) /\
  mspec_run (hH E) vs siblings known (map MGet ks ++ [MHash]) = map (fun k' => MValue (Some (val k'))) ks ++ [MRootIs (hist_root (hH E) vs)].
Proof.
  induction ks as [|k ks IH]; intros known Hks; cbn [map app mcalls_ok mspec_run mspec_step fst]; [done|].
  destruct (Forall_inv Hks) as [Hk ->]. destruct (IH known (Forall_inv_tail Hks)) as [H1 ->]. done.
Qed.
Lemma offers_run E vs (val : N -> list N) (all : list N) tail obs : (forall a b, a ∈ all -> b ∈ all -> ~ paired_blocks a b) ->
  forall ks cs known, Forall2 (fun k c => k < two64 /\ offer_ok E vs k (val k) c /\ shows (hH E) (hist_root (hH E) vs) k (val k) (siblings c) = true) ks cs ->
  Forall (fun k => k ∈ all) known -> Forall (fun k => k ∈ all) ks ->
  (forall known', (forall k, k ∈ known \/ k ∈ ks -> k ∈ known') -> mcalls_ok (hH E) vs siblings (offer_ok E vs) known' tail /\ mspec_run (hH E) vs siblings known' tail = obs) ->
  let calls := zip_with (fun k' c => MMerge k' (val k') c) ks cs ++ tail in
  mcalls_ok (hH E) vs siblings (offer_ok E vs) known calls /\ mspec_run (hH E) vs siblings known calls = map (fun _ => MTaken true) ks ++ obs.
Proof.
  intros Hall ks cs known H2. revert known. induction H2 as [|k c ks cs (Hk & Ho & Hs) H2 IH]; intros known Hkn Hks Ht calls; subst calls.
  - apply Ht. by intros k [?|?%elem_of_nil].
  - cbn [zip_with app mcalls_ok mspec_run mspec_step map]. rewrite Hs. cbn [fst].
    destruct (IH (k :: known)) as [H1 H3].
    + constructor; [exact (Forall_inv Hks)|done].
    + exact (Forall_inv_tail Hks).
    + intros known' Hkn'. apply Ht. intros k' [Hk'|Hk']; [apply Hkn'; left; by right|]. apply elem_of_cons in Hk' as [->|Hk']; apply Hkn'; [left; by left|by right].
    + split; [|by rewrite H3]. split; [|done]. split; [done|]. split; [done|]. eapply Forall_impl; [exact Hkn|]. cbv beta. intros a Ha. apply Hall; [exact (Forall_inv Hks)|done].
Qed.
(** The proofs that GetProof gives of the keys [ks] of the same tree, offered one after the
    other: all are accepted, then Get of each key gives its value and HashValue the root. *)
Theorem C84_keys : forall E ops j k vs ks, henv_ok E ->
  Forall (fun jo => hcall_key jo.2 < two64) ops ->
  let s := (hrun (hist_root (hH E)) ops hlogs0).1 in
  logs_ok (hH E) (hvisited (hist_root (hH E)) ops hlogs0) ->
  hl_logs s !! j = Some vs -> Forall (fun k' => k' < lenN vs) (k :: ks) ->
  (forall a b, a ∈ k :: ks -> b ∈ k :: ks -> ~ paired_blocks a b) ->
  let val k' := default [] (vs !! N.to_nat k') in
  exists p t t' c r cs, hmrun E ops hpool0 = Some (p, (hrun (hist_root (hH E)) ops hlogs0).2) /\
    hp_trees p !! j = Some t /\ get_proof E (hp_store p) t k = (t', Some (val k, c)) /\
    Forall2 (fun k' c => exists t', get_proof E (hp_store p) t k' = (t', Some (val k', c))) ks cs /\
    restore_tree E ∅ k (val k) c = Some r /\
    merge_run E r (zip_with (fun k' c => MMerge k' (val k') c) ks cs ++ map MGet (k :: ks) ++ [MHash]) =
      Some (map (fun _ => MTaken true) ks ++ map (fun k' => MValue (Some (val k'))) (k :: ks) ++ [MRootIs (hist_root (hH E) vs)]).
Proof.
  intros E ops j k vs ks HE Hk1 s Hlo Hj Hks Hpb val.
  assert (forall k', k' < lenN vs -> vs !! N.to_nat k' = Some (val k')) as Hval.
  { intros k' Hk'. subst val. cbv beta. destruct (vs !! N.to_nat k') as [v|] eqn:Hv; [done|]. apply lookup_ge_None in Hv. unfold lenN in Hk'. lia. }
  pose proof (Forall_inv Hks) as Hk.
  destruct (merge_setup E ops j k vs (val k) HE Hk1 Hlo Hj Hk (Hval k Hk)) as (p & t & Hp & Ht & Hrep & H32 & Hlen & Hnil & Hinj & t' & c & r & Hg & Hr & Hrun).
  assert (forall k', k' < lenN vs -> exists c t', get_proof E (hp_store p) t k' = (t', Some (val k', c)) /\
    offer_ok E vs k' (val k') c /\ shows (hH E) (hist_root (hH E) vs) k' (val k') (siblings c) = true) as Hown.
  { intros k' Hk'. destruct (own_proof E (hp_store p) t vs k' (val k') HE H32 Hrep Hlen (Hval k' Hk') ltac:(lia)) as (t2 & mp & Hgp & Hmp).
    exists [merkle_only mp], t2. split; [done|]. apply own_offer; try done; [by apply Hval|lia|].
    apply (Hnil 0%nat (N.to_nat k')); [lia|]. apply (Hval k' Hk'). }
  assert (exists cs, Forall2 (fun k' c => (exists t', get_proof E (hp_store p) t k' = (t', Some (val k', c))) /\
    offer_ok E vs k' (val k') c /\ shows (hH E) (hist_root (hH E) vs) k' (val k') (siblings c) = true) ks cs) as [cs Hcs].
  { pose proof (Forall_inv_tail Hks) as Hks'. revert Hks' Hown. clear. intros Hks Hown. induction Hks as [|k' ks Hk' Hks IH]; [exists []; constructor|].
    destruct IH as [cs IH]. destruct (Hown k' Hk') as (c & t' & H1 & H2 & H3). exists (c :: cs). constructor; [eauto|done]. }
  exists p, t, t', c, r, cs. split; [done|]. split; [done|]. split; [done|]. split; [eapply Forall2_impl; [exact Hcs|]; cbv beta; tauto|]. split; [done|].
  destruct (offers_run E vs val (k :: ks) (map MGet (k :: ks) ++ [MHash]) (map (fun k' => MValue (Some (val k'))) (k :: ks) ++ [MRootIs (hist_root (hH E) vs)]) Hpb ks cs [k]) as [Hok Hsp].
  - assert (Forall (fun k' => k' < two64) ks) as Hb by (eapply Forall_impl; [exact (Forall_inv_tail Hks)|]; cbv beta; lia).
    clear - Hcs Hb. induction Hcs as [|a b ks cs (_ & H1 & H2) Hcs IH]; constructor; [split; [exact (Forall_inv Hb)|done]|apply IH; exact (Forall_inv_tail Hb)].
  - constructor; [by left|constructor].
  - apply Forall_forall. intros a Ha. by right.
  - intros known Hkn. apply reads_tail. apply Forall_forall. intros a Ha. split.
    + apply Hkn. apply elem_of_cons in Ha as [->|Ha]; [left; by left|by right].
    + apply Hval. exact (proj1 (Forall_forall _ _) Hks a Ha).
  - rewrite (Hrun _ Hok), Hsp. done.
Qed.
Print Assumptions C84_keys.

(* ------------------------------------------------------------ findings *)
(** [n] values, the tree restored from the proof of [k] on an empty database, then the proofs
    of the keys [ks] offered in turn, then Get of the keys [gets]. *)
Definition merged_run (n : nat) (k : N) (ks gets : list N) : option (list mobs) :=
  let E := hdemo_env exH in
  match hmrun E (hist_appends 0 (restore_values n)) hpool0 with
  | Some (p, _) =>
      match hp_trees p !! 0%nat with
      | Some t =>
          let proof k := (get_proof E (hp_store p) t k).2 in
          match proof k with
          | Some (v, c) =>
              match restore_tree E ∅ k v c with
              | Some r => merge_run E r (flat_map (fun k => match proof k with Some (v, c) => [MMerge k v c] | None => [] end) ks ++ map MGet gets)
              | None => None end
          | None => None end
      | None => None end
  | None => None end.
(** The proof of a key in the other block of a pair with a known one: MergeProof says that it
    was taken, but the key is not there. *)
Theorem C84_paired_block_refuted : henv_ok (hdemo_env exH) /\
  merged_run 17 2 [16] [16; 2] = Some [MTaken true; MValue None; MValue (Some (replicate 32 3))] /\
  merged_run 17 2 [3] [3; 2] = Some [MTaken true; MValue (Some (replicate 32 4)); MValue (Some (replicate 32 3))].
Proof. split; [apply hdemo_env_ok, exH_len|]. split; vm_compute; reflexivity. Qed.
Print Assumptions C84_paired_block_refuted.

(* ------------------------------------------------------------ the hypotheses can be met *)
(** Three values; the proof of key 1 may be offered with its value and with another one, and
    only the first is shown. *)
Example C84_example : henv_ok (hdemo_env idealH) /\ logs_ok idealH [chop_values] /\
  exists c, offer_ok (hdemo_env idealH) chop_values 1 (replicate 32 2) c /\
    offer_ok (hdemo_env idealH) chop_values 1 (replicate 32 9) c /\
    mspec_run idealH chop_values siblings [0] [MGet 0; MMerge 1 (replicate 32 9) c; MMerge 1 (replicate 32 2) c; MGet 1] =
      [MValue (Some (replicate 32 1)); MTaken false; MTaken true; MValue (Some (replicate 32 2))] /\
    mcalls_ok idealH chop_values siblings (offer_ok (hdemo_env idealH) chop_values) [0] [MGet 0; MMerge 1 (replicate 32 9) c; MMerge 1 (replicate 32 2) c; MGet 1].
Proof.
  split; [exact hdemo_ok|].
  assert (Forall (fun jo => hcall_key jo.2 < two64) (hist_appends 0 chop_values)) as Hk by repeat constructor.
  assert (logs_ok idealH [chop_values]) as Hlv.
  { apply (logs_ok_ideal _ 3); [|reflexivity]. repeat constructor; cbn; discriminate. }
  assert (logs_ok idealH (hvisited (hist_root idealH) (hist_appends 0 chop_values) hlogs0)) as Hlo.
  { apply (logs_ok_ideal _ (0 + length (hist_appends 0 chop_values))); [|reflexivity].
    apply visited_plain; [|constructor; [split; [done|constructor]|constructor]|constructor]. repeat constructor; cbn; discriminate. }
  split; [done|].
  destruct (merge_setup (hdemo_env idealH) (hist_appends 0 chop_values) 0 1 chop_values (replicate 32 2) hdemo_ok Hk Hlo eq_refl ltac:(done) eq_refl)
    as (p & t & _ & _ & Hrep & H32 & Hlen & Hnil & Hinj & _).
  destruct (own_proof _ (hp_store p) t chop_values 1 (replicate 32 2) hdemo_ok H32 Hrep Hlen eq_refl ltac:(done)) as (t2 & mp & _ & Hmp).
  destruct (own_offer _ chop_values 1 (replicate 32 2) mp hdemo_ok H32 Hlen eq_refl ltac:(done) Hinj) as [Ho Hs]; [|done|].
  { apply (Hnil 0%nat 1%nat); [lia|reflexivity]. }
  exists [merkle_only mp]. split; [done|].
  assert (offer_ok (hdemo_env idealH) chop_values 1 (replicate 32 9) [merkle_only mp]) as Ho9.
  { destruct Ho as [O1 O2 O3 O4 O5 _ _]. split; [exact O1|exact O2|exact O3|exact O4|exact O5| |apply idealH_inj]. intros Heq. pose proof (ideal_last []) as Hl. unfold nilhash in Heq. cbn [hH hdemo_env] in Heq.
    rewrite <- Heq in Hl. discriminate Hl. }
  split; [done|].
  assert (shows idealH (hist_root idealH chop_values) 1 (replicate 32 9) (siblings [merkle_only mp]) = false) as Hs9.
  { apply not_true_is_false. intros Ht. pose proof (C84_sound _ chop_values 1 (replicate 32 9) _ hdemo_ok Hlv ltac:(done) ltac:(done) Ho9 Ht) as Hx. discriminate Hx. }
  change (hH (hdemo_env idealH)) with idealH in Hs.
  cbn [mspec_run mspec_step mcalls_ok fst]. rewrite Hs9, Hs. cbn [fst mcalls_ok].
  split; [reflexivity|]. 
  assert (Forall (fun k => ~ paired_blocks 1 k) [0]) as Hpb by (apply Forall_singleton; intros [_ Hd]; apply Hd; reflexivity).
  split; [by left|]. split; [split; [done|]; split; [done|exact Hpb]|]. split; [split; [done|]; split; [done|exact Hpb]|]. split; [by left|done].
Qed.
(** Forty values; key 2 and the keys 33, 3 and 39. *)
Example C84_keys_example : let ops := hist_appends 0 (restore_values 40) in
  Forall (fun jo => hcall_key jo.2 < two64) ops /\ logs_ok idealH (hvisited (hist_root idealH) ops hlogs0) /\
  hl_logs (hrun (hist_root idealH) ops hlogs0).1 !! 0%nat = Some (restore_values 40) /\
  Forall (fun k' => k' < lenN (restore_values 40)) [2; 33; 3; 39] /\
  (forall a b, a ∈ [2; 33; 3; 39] -> b ∈ [2; 33; 3; 39] -> ~ paired_blocks a b).
Proof.
  cbv zeta. split; [repeat constructor|]. split.
  { apply (logs_ok_ideal _ (0 + length (hist_appends 0 (restore_values 40)))); [|reflexivity].
    apply visited_plain; [|constructor; [split; [done|constructor]|constructor]|constructor]. repeat constructor; cbn; discriminate. }
  split; [reflexivity|]. split; [repeat constructor|].
  intros a b Ha Hb [H1 H2]. apply elem_of_list_In in Ha, Hb. cbn in Ha, Hb.
  repeat (destruct Ha as [<-|Ha]; [repeat (destruct Hb as [<-|Hb]; [first [by apply H2|discriminate H1]|]); done|]). done.
Qed.
