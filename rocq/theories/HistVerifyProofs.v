(** What an accepted history proof shows. *)
From Verif Require Import Base MerkleSpec MerkleModel MerkleProofs MerkleBindProofs TrieSpec TrieModel TrieProofModel.
From Verif Require Import HistSpec HistModel HistVerifyModel HistLayerProofs HistRepProofs HistPathProofs HistRunProofs.
From stdpp Require Import gmap.
Open Scope N_scope.

(* ------------------------------------------------------------ the items of an arbitrary proof *)
Lemma skip_valid : forall it i cur cur' it', skip_moretimes i cur it = Some (cur', it') ->
  (mt_times cur' = mt_times cur /\ mt_index cur' = mt_index cur) \/ (0 < mt_times cur')%Z.
Proof.
  induction it as [|n it IH]; intros i cur cur' it'; cbn [skip_moretimes].
  - intros [= <- <-]. auto.
  - destruct (_ <? _)%Z; [|intros [= <- <-]; auto]. destruct (mt_valid n) eqn:Hv; [|done]. intros Hs.
    destruct (IH _ _ _ _ Hs) as [[-> _]|?]; [|auto]. right. unfold mt_valid in Hv. lia.
Qed.
Lemma map_seq_shift {A} (g : nat -> A) k n : map g (seq k n) = map (fun j => g (k + j)%nat) (seq 0 n).
Proof. rewrite <- (Nat.add_0_r k) at 1. rewrite <- fmap_add_seq. change (Nat.add k <$> seq 0 n) with (map (Nat.add k) (seq 0 n)). by rewrite map_map. Qed.
Definition spread (f : Z -> bool) (l : list (list N * Z * Z)) : list (list N * bool) :=
  flat_map (fun '(v, full, times) => map (fun j => (v, f (full + Z.of_nat j)%Z)) (seq 0 (Z.to_nat times))) l.
(** The directions of the items are the bits of Paths in order. *)
Lemma iterate_orders (f : Z -> bool) : forall hs i full cur it l, (0 <= i)%Z -> (0 < mt_times cur)%Z \/ (mt_index cur < 0)%Z ->
  hashs_iterate hs i full cur it = Some l ->
  map snd (spread f l) = map (fun j => f (full + Z.of_nat j)%Z) (seq 0 (length (spread f l))) /\
  Forall (fun x => In x.1 hs) (spread f l).
Proof.
  induction hs as [|h hs IH]; intros i full cur it l Hi0 Hcur; cbn [hashs_iterate]; [intros [= <-]; by split; [|constructor]|].
  destruct (skip_moretimes i cur it) as [[cur' it']|] eqn:Hsk; [|done].
  set (times := if (mt_index cur' =? i)%Z then (mt_times cur' + 1)%Z else 1%Z).
  destruct (hashs_iterate hs (i + 1) (full + times) cur' it') as [l'|] eqn:Hl; [|done]. intros [= <-].
  assert ((0 < mt_times cur')%Z \/ (mt_index cur' < 0)%Z) as Hc'.
  { destruct (skip_valid _ _ _ _ _ Hsk) as [[-> ->]|?]; [done|auto]. }
  assert (0 < times)%Z as Ht by (unfold times; destruct (Z.eqb_spec (mt_index cur') i); lia).
  destruct (IH (i + 1)%Z (full + times)%Z cur' it' l' ltac:(lia) Hc' Hl) as [IH1 IH2].
  change (spread f ((h, full, times) :: l')) with (map (fun j => (h, f (full + Z.of_nat j)%Z)) (seq 0 (Z.to_nat times)) ++ spread f l').
  split.
  - rewrite map_app, IH1, app_length, map_length, seq_length, seq_app, map_app, map_map. cbn [snd]. f_equal.
    rewrite (map_seq_shift _ (0 + _)). apply map_ext. intros a. f_equal. lia.
  - apply Forall_app. split; [|eapply Forall_impl; [exact IH2|]; intros x Hx; by right].
    apply Forall_forall. intros x Hx. apply elem_of_list_In, in_map_iff in Hx as (j & <- & _). by left.
Qed.
Lemma mp_items_orders p its : mp_items p = Some its ->
  map snd its = map (fun j => mp_order p (Z.of_nat j)) (seq 0 (length its)) /\ Forall (fun x => In x.1 (mp_hashs p)) its.
Proof.
  unfold mp_items. destruct (hashs_iterate _ _ _ _ _) as [l|] eqn:Hl; [|done]. intros [= <-].
  destruct (iterate_orders (mp_order p) _ _ _ (MT (-1) 0) _ _ (Z.le_refl 0) (or_intror (eq_refl : (-1 < 0)%Z)) Hl) as [H1 H2]. split; [|done].
  etransitivity; [exact H1|]. apply map_ext. intros j. f_equal.
Qed.

Section proofs.
Context (E : henv) (EOK : henv_ok E).
Notation H := (hH E).
Notation nilhash := (nilhash H).
Notation look vs k i := (layers H k vs !! i).

(** Every part has as many items as its Len says. *)
Definition chain_wf (c : list nodeproof) : Prop :=
  Forall (fun np => forall p its, np_child np = Some p -> mp_items p = Some its -> mp_len p = Z.of_nat (length its)) c.

Lemma chain_key : forall c its key pos key' pos', chain_items c = Some its -> chain_bigkey c key pos = Some (key', pos') ->
  chain_wf c -> (0 <= pos)%Z ->
  pos' = (pos + Z.of_nat (length its))%Z /\
  (forall j x, its !! j = Some x -> N.testbit key' (Z.to_N pos + N.of_nat j) = x.2) /\
  (forall k, (k < Z.to_N pos \/ Z.to_N pos + N.of_nat (length its) <= k) -> N.testbit key' k = N.testbit key k).
Proof.
  induction c as [|np c IH]; intros its key pos key' pos' Hi Hk Hwf Hpos; cbn [chain_items chain_bigkey] in *.
  { injection Hi as <-. injection Hk as <- <-. cbn [length]. split; [lia|]. split; [done|done]. }
  inversion Hwf as [|? ? Hw Hwf']; subst.
  destruct (np_child np) as [p|] eqn:Hc; [|done]. destruct (IsProofMerkleOnly (np_type np)); [|done]. cbn [mpo_items] in Hi.
  destruct (mp_items p) as [a|] eqn:Ha; [|done]. destruct (chain_items c) as [b|] eqn:Hb; [|done]. injection Hi as <-.
  destruct (mp_bigkey p key pos) as [[key1 pos1]|] eqn:Hm; [|done].
  pose proof (Hw p a eq_refl Ha) as Hlen. destruct (mp_items_orders p a Ha) as [Hord _].
  assert (pos1 = (pos + Z.of_nat (length a))%Z /\
    (forall j x, a !! j = Some x -> N.testbit key1 (Z.to_N pos + N.of_nat j) = x.2) /\
    (forall k, (k < Z.to_N pos \/ Z.to_N pos + N.of_nat (length a) <= k) -> N.testbit key1 k = N.testbit key k)) as (-> & H1 & H2).
  { unfold mp_bigkey in Hm. destruct (Z.ltb_spec pos 0); [lia|]. destruct (mp_hashs p) as [|h0 hs] eqn:Eh.
    - injection Hm as <- <-. unfold mp_items in Ha. rewrite Eh in Ha. cbn in Ha. injection Ha as <-. cbn [length]. split; [lia|]. split; done.
    - destruct (mp_paths p) as [paths|] eqn:Ep; [|done]. injection Hm as <- <-. rewrite Hlen. split; [lia|]. split.
      + intros j x Hj. rewrite bigkey_loop_spec by lia. rewrite Nat2Z.id.
        assert (j < length a)%nat by by eapply lookup_lt_Some.
        rewrite (proj2 (andb_true_iff _ _)); [|split; lia].
        assert (map snd a !! j = Some x.2) as Hx by (change (map snd a) with (snd <$> a); rewrite list_lookup_fmap, Hj; done).
        rewrite Hord in Hx. change (map ?f ?l) with (f <$> l) in Hx. rewrite list_lookup_fmap, lookup_seq_lt in Hx by done. injection Hx as <-.
        unfold mp_order. rewrite Ep. f_equal. lia.
      + intros k Hkk. rewrite bigkey_loop_spec by lia. destruct (_ && _) eqn:Hcond; [|done]. lia. }
  destruct (IH b key1 _ key' pos' eq_refl Hk Hwf' ltac:(lia)) as (-> & H3 & H4). rewrite app_length. split; [lia|]. split.
  - intros j x Hj. apply lookup_app_Some in Hj as [Hj|[Hge Hj]].
    + rewrite H4; [by apply H1|]. left. assert (j < length a)%nat by by eapply lookup_lt_Some. lia.
    + rewrite <- (H3 _ _ Hj). f_equal. lia.
  - intros k Hkk. rewrite H4, H2; [done|lia|lia].
Qed.

Notation fold its h := (foldl (fun acc '(v, order) => hash_pair_order H order v acc) h its).
Lemma fold_sound vs ins : Forall (fun v => length v = 32%nat) vs -> inj_on H ins -> (forall x, x ∈ hist_inputs H vs -> x ∈ ins) ->
  forall its k q h, (k + length its <= 64)%nat -> length h = 32%nat -> (forall x, x ∈ climb_inputs H h its -> x ∈ ins) ->
  (forall j x, its !! j = Some x -> length x.1 = 32%nat /\ x.2 = Nat.odd (up j q)) ->
  look vs (length its + k) (up (length its) q) = Some (fold its h) ->
  look vs k q = Some h \/ (look vs k q = None /\ h = nilhash).
Proof.
  intros Hv Hinj Hin. induction its as [|[s o] its IH]; intros k q h Hk Hh Hcl Hits Hl; cbn [length up Nat.add] in *; [by left|].
  destruct (Hits 0%nat _ eq_refl) as [Hs Ho]. cbn [fst snd up] in Hs, Ho.
  assert ((if o then s ++ h else h ++ s) ∈ ins) as Hpin by (apply Hcl; destruct o; cbn [climb_inputs]; by left).
  set (h1 := H (if o then s ++ h else h ++ s)) in *.
  assert (look vs (S k) (q / 2)%nat = Some h1 \/ (look vs (S k) (q / 2)%nat = None /\ h1 = nilhash)) as [Hu|[_ Hu]].
  { apply (IH (S k) (q / 2)%nat h1); [lia|apply (hok_H E EOK)| | |].
    - intros x Hx. apply Hcl. destruct o; cbn [climb_inputs]; by right.
    - intros j x Hj. destruct (Hits (S j) x Hj) as [? ->]. split; [done|]. by rewrite up_half.
    - rewrite up_half. replace (length its + S k)%nat with (S (length its) + k)%nat by lia. cbn [up] in *. rewrite Hl. cbn [foldl].
      unfold h1, hash_pair_order. by destruct o. }
  - rewrite look_S in Hu. destruct (look vs k (2 * (q / 2))%nat) as [a|] eqn:Ha; [|done]. injection Hu as Hu.
    assert (a ++ default nilhash (look vs k (2 * (q / 2) + 1)%nat) ∈ ins) as Hain.
    { apply Hin. unfold hist_inputs. right. apply elem_of_list_In, in_flat_map. exists k. split; [apply in_seq; lia|].
      apply elem_of_list_In, layer_inputs_in. done. }
    pose proof (Hinj _ _ Hain Hpin Hu) as Heq.
    assert (length a = 32%nat) as Hla by (eapply look_len; [apply (hok_H E EOK)|exact Hv|exact Ha]).
    assert (length (default nilhash (look vs k (2 * (q / 2) + 1)%nat)) = 32%nat) as Hlb.
    { destruct (look vs k (2 * (q / 2) + 1)%nat) eqn:Hb; cbn [default]; [by eapply look_len; [apply (hok_H E EOK)|exact Hv|exact Hb]|apply (hok_H E EOK)]. }
    pose proof (Nat.odd_spec q) as Hod. destruct o.
    + destruct (proj1 Hod (eq_sym Ho)) as [m Hm]. replace (2 * (q / 2) + 1)%nat with q in * by lia.
      apply app_inj_1 in Heq as [_ Heq]; [|congruence]. destruct (look vs k q); cbn [default] in Heq; [left|right]; by subst.
    + assert (2 * (q / 2) = q)%nat as Hq.
      { assert (Nat.Even q) as [m ->] by (apply Nat.even_spec; rewrite <- Nat.negb_odd, <- Ho; done). lia. }
      rewrite Hq in Ha. apply app_inj_1 in Heq as [Heq _]; [|congruence]. left. by subst.
  - exfalso. assert ((if o then s ++ h else h ++ s) = []) as Hz.
    { apply Hinj; [done|apply Hin; by left|exact Hu]. }
    apply (f_equal length) in Hz. destruct o; rewrite app_length in Hz; cbn [length] in Hz; lia.
Qed.
End proofs.
