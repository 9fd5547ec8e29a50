(** Calls on a family of trees after a Chop. *)
From Verif Require Import Base MerkleSpec MerkleModel TrieSpec TrieModel TrieProofModel HistSpec HistModel HistLayerProofs
  HistRepProofs HistPathProofs HistOpProofs HistCommitProofs HistRunProofs HistSimProofs HistChopModel HistChopProofs HistChopSpec.
From stdpp Require Import gmap.
Open Scope N_scope.

Lemma Forall2_end {A B} (P : A -> B -> Prop) l l' a b x y : Forall2 P l l' -> P a b ->
  Forall2 P (<[length l' := a]> (l ++ [x])) (<[length l' := b]> (l' ++ [y])).
Proof.
  intros Hl Hab. assert (forall C (z : list C) c d, <[length z := c]> (z ++ [d]) = z ++ [c]) as Hi.
  { intros C z c d. pose proof (insert_app_r z [d] 0 c) as Hx. by rewrite Nat.add_0_r in Hx. }
  rewrite Hi. rewrite <- (Forall2_length _ _ _ Hl), Hi. apply Forall2_app; [done|by constructor].
Qed.

Section run.
Context (E : henv) (EOK : henv_ok E).
Local Notation H := (hH E).
Local Notation len32 := (Forall (fun v : list N => length v = 32%nat)).

(* ------------------------------------------------------------ two families that differ in marks of one tree *)
Definition psim (n : nat) (p p' : hpool) : Prop :=
  hp_store p = hp_store p' /\ hp_roots p = hp_roots p' /\
  exists t t', hp_trees p !! n = Some t /\ hp_trees p' = <[n := t']> (hp_trees p) /\ tsim t t'.
Lemma psim_set n p p' u u' : psim n p p' -> tsim u u' -> psim n (hp_set p n u) (hp_set p' n u').
Proof.
  intros (Hst & Hrt & t & t' & Hn & Ht & Hs) Hu. split; [done|]. split; [done|]. cbn [hp_set hp_trees].
  assert (n < length (hp_trees p))%nat as Hlt by by apply lookup_lt_Some in Hn.
  exists u, u'. split; [by apply list_lookup_insert|]. rewrite Ht, !list_insert_insert. done.
Qed.
Lemma psim_other n p p' j u st rt more : psim n p p' -> j <> n ->
  psim n (HPool st (<[j := u]> (hp_trees p) ++ more) rt) (HPool st (<[j := u]> (hp_trees p') ++ more) rt).
Proof.
  intros (Hst & Hrt & t & t' & Hn & Ht & Hs) Hj. split; [done|]. split; [done|]. cbn [hp_trees].
  assert (n < length (hp_trees p))%nat as Hlt by by apply lookup_lt_Some in Hn.
  exists t, t'. split; [rewrite lookup_app_l by (by rewrite insert_length); by rewrite list_lookup_insert_ne|]. split; [|done].
  rewrite insert_app_l by (by rewrite insert_length). rewrite Ht. by rewrite list_insert_commute.
Qed.
Lemma psim_grow n p p' st rt more : psim n p p' ->
  psim n (HPool st (hp_trees p ++ more) rt) (HPool st (hp_trees p' ++ more) rt).
Proof.
  intros (Hst & Hrt & t & t' & Hn & Ht & Hs). split; [done|]. split; [done|]. cbn [hp_trees].
  assert (n < length (hp_trees p))%nat as Hlt by by apply lookup_lt_Some in Hn.
  exists t, t'. split; [by rewrite lookup_app_l|]. split; [|done]. rewrite insert_app_l by done. by rewrite Ht.
Qed.
Lemma psim_other0 n p p' j u st rt : psim n p p' -> j <> n ->
  psim n (HPool st (<[j := u]> (hp_trees p)) rt) (HPool st (<[j := u]> (hp_trees p')) rt).
Proof. intros Hp Hj. pose proof (psim_other n p p' j u st rt [] Hp Hj) as Hx. by rewrite !app_nil_r in Hx. Qed.

Lemma psim_step n p p' jo p1' o : psim n p p' -> (jo.1 = n -> light_call jo.2 = true) -> hmstep E p' jo = Some (p1', o) ->
  exists p1, hmstep E p jo = Some (p1, o) /\ psim n p1 p1'.
Proof.
  destruct jo as [j c]. cbn [fst snd]. intros Hp Hw. pose proof Hp as (Hst & Hrt & t & t' & Hn & Ht & Hs). unfold hmstep.
  rewrite <- Hst, <- Hrt. destruct (decide (j = n)) as [->|Hj].
  - specialize (Hw eq_refl). rewrite Hn, Ht, list_lookup_insert by (by apply lookup_lt_Some in Hn).
    destruct c as [k v|k| | |k| |k| |i chk]; try discriminate Hw.
    + destruct (append_sim E (hp_store p) t t' k v Hs) as (u & u' & r & -> & -> & Hu). intros [= <- <-]. eexists. split; [done|]. by apply psim_set.
    + destruct (get_sim E (hp_store p) t t' k Hs) as (u & u' & r & -> & -> & Hu). intros [= <- <-]. eexists. split; [done|]. by apply psim_set.
    + intros [= <- <-]. exists p. rewrite (proj1 Hs). done.
    + destruct (hash_value_sim E t t' Hs) as (u & u' & r & -> & -> & Hu). intros [= <- <-]. eexists. split; [done|]. by apply psim_set.
    + destruct (get_proof_sim E (hp_store p) t t' k Hs) as (u & u' & r & -> & -> & Hu). intros [= <- <-]. eexists. split; [done|]. by apply psim_set.
  - assert (hp_trees p' !! j = hp_trees p !! j) as -> by (rewrite Ht; by apply list_lookup_insert_ne).
    destruct (hp_trees p !! j) as [tj|] eqn:Htj; [|intros [= <- <-]; eauto].
    unfold hp_set. rewrite <- Hst, <- Hrt.
    destruct c as [k v|k| | |k| |k| |i chk].
    + destruct (append E (hp_store p) tj k v) as [u ok]. intros [= <- <-]. eexists. split; [done|]. by apply psim_other0.
    + destruct (get_tree E (hp_store p) tj k) as [u ok]. intros [= <- <-]. eexists. split; [done|]. by apply psim_other0.
    + intros [= <- <-]. eauto.
    + destruct (hash_value E tj) as [u ok]. intros [= <- <-]. eexists. split; [done|]. by apply psim_other0.
    + destruct (get_proof E (hp_store p) tj k) as [u ok]. intros [= <- <-]. eexists. split; [done|]. by apply psim_other0.
    + destruct (commit_tree E (hp_store p) tj) as [[st' t1] ok]. destruct ok.
      * destruct (hash_value E t1) as [t2 [h|]]; intros [= <- <-]; (eexists; split; [done|]; by apply psim_other0).
      * intros [= <- <-]. eexists. split; [done|]. by apply psim_other0.
    + destruct (collapse_before E (hp_store p) tj k) as [[st' u]|]; [|done]. intros [= <- <-]. eexists. split; [done|]. by apply psim_other0.
    + destruct (clone E (hp_store p) tj) as [[st' t1] [t2|]]; intros [= <- <-].
      * eexists. split; [done|]. by apply psim_other.
      * eexists. split; [done|]. by apply psim_other0.
    + destruct (hp_roots p !! i) as [h|]; [|intros [= <- <-]; eauto].
      destruct (open_tree E (hp_store p) h chk) as [u|]; intros [= <- <-]; [|eauto]. eexists. split; [done|]. by apply psim_grow.
Qed.
Lemma psim_run n : forall ops p p' p1' os, psim n p p' -> Forall (fun jo => jo.1 = n -> light_call jo.2 = true) ops ->
  hmrun E ops p' = Some (p1', os) -> exists p1, hmrun E ops p = Some (p1, os).
Proof.
  induction ops as [|jo ops IH]; intros p p' p1' os Hp Hw; cbn [hmrun]; [intros [= <- <-]; eauto|].
  inversion Hw as [|? ? Hw1 Hw2]; subst. destruct (hmstep E p' jo) as [[p2' o]|] eqn:Hs; [|done].
  destruct (psim_step n p p' jo p2' o Hp Hw1 Hs) as (p2 & -> & Hp2).
  destruct (hmrun E ops p2') as [[p3' os']|] eqn:Hr; [|done]. intros [= <- <-].
  destruct (IH p2 p2' p3' os' Hp2 Hw2 Hr) as (p3 & ->). eauto.
Qed.

(* ------------------------------------------------------------ chop *)
Section db.
Context (good : list (list N) -> Prop).
Context (G32 : forall vs, good vs -> len32 vs).
Context (Glen : forall vs, good vs -> lenN vs < two64).
Context (Ginj : forall vs vs' x y, good vs -> good vs' -> x ∈ hist_inputs H vs -> y ∈ hist_inputs H vs' -> H x = H y -> x = y).
Context (Gval : forall vs vs' v x, good vs -> good vs' -> v ∈ vs -> x ∈ hist_inputs H vs' -> v <> H x).

(** The chopped tree: marked it is a tree of the prefix; one append makes it one. *)
Record chopped st (vs : list (list N)) (k : N) (t : htree) : Prop := Chopped {
  cp_marked : exists t', tsim t t' /\ trep E st t' (take (N.to_nat k + 1) vs);
  cp_last : lenN vs = k + 1 -> trep E st t vs;
  cp_append : forall v, v <> [] -> k + 2 < two64 ->
    exists t', append E st t (k + 1) v = (t', true) /\ trep E st t' (take (N.to_nat k + 1) vs ++ [v]);
}.
Lemma chop_ok st t vs k : good vs -> trep E st t vs -> saved E st vs -> k < lenN vs ->
  exists t1 t2, chop E st t k = (t1, Some t2) /\ trep E st t1 vs /\ chopped st vs k t2.
Proof.
  intros Hg [He Hr] Hsv Hk. pose proof (G32 _ Hg) as V32. pose proof (Glen _ Hg) as Hlen. unfold lenN in *.
  destruct Hsv as [->|Hst]; [cbn in Hk; lia|]. unfold chop. destruct (ht_root t) as [n|]; [|subst vs; cbn in Hk; lia].
  set (K := (N.to_nat k + 1)%nat). assert (0 < K <= length vs)%nat as HK by (unfold K; lia).
  destruct (heightToPrefix_ok k ltac:(lia)) as (Hp1 & Hp2 & Hp3).
  assert (npos 0 (heightToPrefix k) = K - 1)%nat as Hp3' by (rewrite Hp3; unfold K; lia).
  destruct (chop_path_ok E EOK st vs K HK V32 15 0 n (heightToPrefix k) ltac:(lia) Hr Hst Hp1 Hp2 Hp3') as (n' & m & b & -> & Hn' & _ & Hcut & _).
  do 2 eexists. split; [reflexivity|]. split; [split; [done|]; cbn [ht_root]; by apply erep_rep|].
  assert (lenN (take K vs) = k + 1) as HlK by (unfold lenN; rewrite take_length; lia).
  rewrite N.mod_small by lia. split.
  - destruct (cut_sim E st vs K HK (heightToPrefix k) 15 0 m Hp2 Hp1 Hcut) as (m' & Hsm & Hem & _).
    exists (HTree (k + 1) (Some m')). split; [split; [done|by constructor]|]. split; [done|]. by apply erep_rep.
  - intros Hl. unfold lenN in Hl. assert (length vs <= K)%nat as Hle by lia. split; cbn [ht_exp ht_root]; [unfold lenN; lia|].
    rewrite <- (take_all vs K Hle). apply (cut_rep E st vs K HK (heightToPrefix k)); [done|done|done|by left|done].
  - intros v Hv Hk2. unfold append. cbn [ht_exp ht_root default]. rewrite N.eqb_refl, bool_decide_eq_false_2 by done. cbn [negb].
    destruct (heightToPrefix_ok (k + 1) ltac:(lia)) as (Hq1 & Hq2 & Hq3). change (id m) with m.
    destruct (cut_append E EOK st vs K HK V32 v Hv 15 0 m (heightToPrefix k) (heightToPrefix (k + 1)) ltac:(lia) Hcut Hst Hp1 Hp2 Hp3' Hq1 Hq2)
      as (m' & r & -> & Hm' & _); [rewrite Hq3; unfold K; lia|].
    eexists. split; [reflexivity|]. split; cbn [ht_exp ht_root]; [|by apply erep_rep].
    fold K. unfold lenN in *. rewrite app_length, Nat2N.inj_add, HlK. cbn [length]. rewrite N.mod_small by lia. lia.
Qed.
Lemma chop_bad st t vs k : good vs -> trep E st t vs -> lenN vs <= k -> k < two64 -> exists t1, chop E st t k = (t1, None) /\ trep E st t1 vs.
Proof.
  intros Hg [He Hr] Hk Hk2. pose proof (G32 _ Hg) as V32. unfold chop. destruct (ht_root t) as [n|] eqn:Hn.
  2:{ exists t. split; [done|]. split; [done|]. by rewrite Hn. }
  destruct (heightToPrefix_ok k Hk2) as (Hp1 & Hp2 & Hp3).
  destruct (chop_path_bad E EOK st vs V32 15 0 n (heightToPrefix k) ltac:(lia) Hr Hp1 Hp2) as (n' & -> & Hn').
  { rewrite Hp3. cbn [layers]. apply lookup_ge_None. unfold lenN in Hk. lia. }
  eexists. split; [done|]. split; [done|]. cbn [ht_root]. by apply erep_rep.
Qed.

Local Notation prep := (prep E good).
Lemma saved_at p s vs : prep p s -> vs ∈ hl_saved s -> saved E (hp_store p) vs.
Proof.
  intros [_ Hs] Hin. apply elem_of_list_lookup in Hin as [i Hi]. destruct (Forall2_lookup_r _ _ _ _ _ Hs Hi) as (h & _ & _ & _ & Hx). done.
Qed.
Lemma hmchop_ok p s j k post : prep p s -> k < two64 ->
  (forall vs, hl_logs s !! j = Some vs -> k < lenN vs -> vs ∈ hl_saved s) ->
  after_chop s j k post ->
  Forall (fun jo => hcall_key jo.2 < two64) post ->
  (forall vs, vs ∈ hvisited (hist_root H) post (hchop s j k).1 -> good vs) ->
  exists p1 p2, hmchop E p j k = (p1, (hchop s j k).2) /\ hmrun E post p1 = Some (p2, (hrun (hist_root H) post (hchop s j k).1).2).
Proof.
  intros Hp Hk Hsv Hpost Hkeys Hgood. unfold hmchop, hchop, after_chop in *. pose proof Hp as [Ht Hs].
  destruct (hp_trees p !! j) as [t|] eqn:Hj.
  2:{ apply lookup_ge_None in Hj. rewrite (Forall2_length _ _ _ Ht) in Hj. apply lookup_ge_None in Hj. rewrite Hj in *. cbn [fst snd] in *.
      destruct (run_ok E EOK good G32 Glen Ginj Gval post p s Hp Hkeys Hgood) as (p2 & Hr & _). eauto. }
  destruct (Forall2_lookup_l _ _ _ _ _ Ht Hj) as (vs & Hvs & Hg & Htr). rewrite Hvs in *. destruct (N.ltb_spec k (lenN vs)) as [Hlt|Hge]; cbn [fst snd] in *.
  2:{ destruct (chop_bad (hp_store p) t vs k Hg Htr Hge Hk) as (t1 & -> & Ht1).
      destruct (run_ok E EOK good G32 Glen Ginj Gval post (hp_set p j t1) s) as (p2 & Hr & _); [by eapply prep_set|done|done|].
      exists (hp_set p j t1), p2. split; [done|exact Hr]. }
  destruct (chop_ok (hp_store p) t vs k Hg Htr (saved_at p s vs Hp (Hsv vs eq_refl Hlt)) Hlt) as (t1 & t2 & -> & Ht1 & Hc).
  set (s1 := HLogs (hl_logs s ++ [take (N.to_nat k + 1) vs]) (hl_saved s)) in *.
  set (p1 := HPool (hp_store p) (<[j:=t1]> (hp_trees p) ++ [t2]) (hp_roots p)).
  assert (length (<[j:=t1]> (hp_trees p)) = length (hl_logs s)) as Hlen by (rewrite insert_length; by eapply Forall2_length).
  assert (Forall2 (fun t vs => good vs /\ trep E (hp_store p) t vs) (<[j:=t1]> (hp_trees p)) (hl_logs s)) as Ht'.
  { rewrite <- (list_insert_id (hl_logs s) j vs Hvs). by apply Forall2_insert. }
  assert (good (take (N.to_nat k + 1) vs)) as Hgt.
  { apply Hgood. assert (take (N.to_nat k + 1) vs ∈ hl_logs s1) as Hin by (unfold s1; cbn [hl_logs]; apply elem_of_app; right; by left).
    destruct post; cbn [hvisited]; apply elem_of_app; by left. }
  assert (forall u, trep E (hp_store p) u (take (N.to_nat k + 1) vs) ->
    prep (HPool (hp_store p) (<[j:=t1]> (hp_trees p) ++ [u]) (hp_roots p)) s1) as Hadd.
  { intros u Hu. split; [|exact Hs]. cbn [hp_trees hp_store s1 hl_logs]. apply Forall2_app; [done|]. by constructor. }
  exists p1. destruct (Hpost Hlt) as [Hw|[Hlast|(v & rest & -> & Hv)]].
  - destruct (cp_marked _ _ _ _ Hc) as (t' & Hsim & Ht2).
    destruct (run_ok E EOK good G32 Glen Ginj Gval post _ s1 (Hadd _ Ht2) Hkeys Hgood) as (p2' & Hr & _).
    match type of Hr with hmrun _ _ ?q = _ => assert (psim (length (hl_logs s)) p1 q) as Hps end.
    2:{ destruct (psim_run _ _ _ _ _ _ Hps Hw Hr) as (p2 & Hr2). eauto. }
    split; [done|]. split; [done|]. exists t2, t'. unfold p1. cbn [hp_trees]. rewrite <- Hlen. split; [by apply list_lookup_middle|].
    split; [|done]. rewrite <- (Nat.add_0_r (length _)) at 1. by rewrite insert_app_r.
  - destruct (run_ok E EOK good G32 Glen Ginj Gval post p1 s1) as (p2 & Hr & _); [|done|done|eauto].
    apply Hadd. rewrite take_ge by (unfold lenN in *; lia). apply (cp_last _ _ _ _ Hc). unfold lenN in *; lia.
  - cbn [hmrun hrun]. set (n := length (hl_logs s)) in *.
    assert (lenN (take (N.to_nat k + 1) vs) = k + 1) as HlK by (unfold lenN in *; rewrite take_length; lia).
    assert (hl_logs s1 !! n = Some (take (N.to_nat k + 1) vs)) as Hn by (unfold s1, n; cbn [hl_logs]; by apply list_lookup_middle).
    assert (hstep (hist_root H) s1 (n, HAppend (k + 1) v) = (HLogs (<[n := take (N.to_nat k + 1) vs ++ [v]]> (hl_logs s1)) (hl_saved s1), HvOk)) as Hst.
    { unfold hstep. rewrite Hn, HlK, N.eqb_refl, bool_decide_eq_false_2 by done. done. }
    cbn [hvisited] in Hgood. rewrite Hst in *. cbn [fst] in Hgood.
    assert (good (take (N.to_nat k + 1) vs ++ [v])) as Hg3.
    { apply Hgood, elem_of_app. right. assert (take (N.to_nat k + 1) vs ++ [v] ∈ <[n := take (N.to_nat k + 1) vs ++ [v]]> (hl_logs s1)) as Hin.
      { apply elem_of_list_lookup_2 with n. apply list_lookup_insert. by apply lookup_lt_Some in Hn. }
      destruct rest; cbn [hvisited hl_logs]; apply elem_of_app; by left. }
    destruct (cp_append _ _ _ _ Hc v Hv) as (t3 & Hap & Ht3).
    { pose proof (Glen _ Hg3) as Hl3. unfold lenN in *. rewrite app_length, Nat2N.inj_add, HlK in Hl3. cbn [length] in Hl3. lia. }
    assert (hmstep E p1 (n, HAppend (k + 1) v) = Some (hp_set p1 n t3, HvOk)) as ->.
    { unfold hmstep, p1. cbn [hp_trees hp_store]. rewrite <- Hlen. rewrite list_lookup_middle by done. by rewrite Hap. }
    inversion Hkeys as [|? ? _ Hkeys']; subst.
    destruct (run_ok E EOK good G32 Glen Ginj Gval rest (hp_set p1 n t3) (HLogs (<[n := take (N.to_nat k + 1) vs ++ [v]]> (hl_logs s1)) (hl_saved s1)))
      as (p2 & Hr & _); [|done| |].
    + split; [|exact Hs]. unfold p1, s1. cbn [hp_set hp_trees hp_store hl_logs].
      by apply Forall2_end.
    + intros ws Hws. apply Hgood, elem_of_app. by right.
    + rewrite Hr. destruct (hrun _ rest _) as [? ?]. eauto.
Qed.
End db.
End run.
