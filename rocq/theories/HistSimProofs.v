(** Reading, appending and hashing do not look at the dirty flags. *)
From Verif Require Import Base MerkleSpec MerkleModel TrieSpec TrieModel TrieProofModel HistSpec HistModel.
From stdpp Require Import gmap.
Open Scope N_scope.

(** Nodes that differ in their dirty flags only. *)
Inductive sim : hnode -> hnode -> Prop :=
| Sim d d' l b ch ch' lv : Forall2 (option_Forall2 sim) ch ch' -> sim (HNode d l b ch lv) (HNode d' l b ch' lv).

Lemma sim_refl : forall n, sim n n.
Proof.
  fix IH 1. intros [d l b ch lv]. constructor. induction ch as [|[c|] ch IHch]; constructor; [constructor; apply IH|exact IHch|constructor|exact IHch].
Qed.
Lemma sim_leaf n n' : sim n n' -> hn_leaf n = hn_leaf n'.
Proof. by intros []. Qed.
Lemma sim_br n n' : sim n n' -> hn_br n = hn_br n'.
Proof. by intros []. Qed.
Lemma sim_lv n n' : sim n n' -> hn_lv n = hn_lv n'.
Proof. by intros []. Qed.
Lemma sim_ch n n' : sim n n' -> Forall2 (option_Forall2 sim) (hn_ch n) (hn_ch n').
Proof. by intros []. Qed.
Lemma sim_leafv n n' i : sim n n' -> leafv n i = leafv n' i.
Proof. by intros []. Qed.
Lemma sim_intro n n' : hn_leaf n = hn_leaf n' -> hn_br n = hn_br n' -> hn_lv n = hn_lv n' ->
  Forall2 (option_Forall2 sim) (hn_ch n) (hn_ch n') -> sim n n'.
Proof. destruct n, n'; cbn. intros -> -> -> H. by constructor. Qed.
Lemma sim_child n n' i : sim n n' -> option_Forall2 sim (child n i) (child n' i).
Proof.
  intros H%sim_ch. unfold child. destruct (hn_ch n !! N.to_nat i) as [o|] eqn:Ho.
  - destruct (Forall2_lookup_l _ _ _ _ _ H Ho) as (o' & -> & Hs). exact Hs.
  - apply lookup_ge_None in Ho. rewrite (Forall2_length _ _ _ H) in Ho. rewrite (proj2 (lookup_ge_None _ _) Ho). constructor.
Qed.
Lemma sim_set_child n n' i c c' : sim n n' -> sim c c' -> sim (set_child n i c) (set_child n' i c').
Proof.
  intros Hn Hc. apply sim_intro; cbn; [by apply sim_leaf|by apply sim_br|by apply sim_lv|].
  apply Forall2_insert; [by apply sim_ch|by constructor].
Qed.
Lemma sim_with_br n n' b : sim n n' -> sim (with_br n b) (with_br n' b).
Proof. intros []. by constructor. Qed.
Lemma sim_with_lv n n' b : sim n n' -> sim (with_lv n b) (with_lv n' b).
Proof. intros []. by constructor. Qed.
Lemma sim_with_leaf n n' b : sim n n' -> sim (with_leaf n b) (with_leaf n' b).
Proof. intros []. by constructor. Qed.
Lemma sim_with_dirty n n' b b' : sim n n' -> sim (with_dirty n b) (with_dirty n' b').
Proof. intros []. by constructor. Qed.
Lemma sim_clear n n' bs : sim n n' -> sim (clear_ancestors n bs) (clear_ancestors n' bs).
Proof. intros H. unfold clear_ancestors. rewrite (sim_br _ _ H). by apply sim_with_br. Qed.
Lemma sim_has_child l l' : Forall2 (option_Forall2 sim) l l' -> existsb is_some l = existsb is_some l'.
Proof. induction 1 as [|? ? ? ? [] _ IH]; cbn; [done|done|exact IH]. Qed.
Lemma sim_collapsed n n' : sim n n' -> collapsed n = collapsed n'.
Proof.
  intros H. unfold collapsed, has_leaf, has_child.
  rewrite (sim_br _ _ H), (sim_leaf _ _ H), (sim_lv _ _ H), (sim_has_child _ _ (sim_ch _ _ H)). done.
Qed.

Section sim.
Context (E : henv).
Local Notation H := (hH E).

Lemma sim_reset n n' : sim n n' -> reset n = reset n'.
Proof. by intros []. Qed.
Lemma sim_expand st n n' : sim n n' -> exists m m' ok, expand_if E st n = (m, ok) /\ expand_if E st n' = (m', ok) /\ sim m m'.
Proof.
  intros Hs. unfold expand_if, expand. rewrite <- (sim_collapsed _ _ Hs). destruct (collapsed n); cbn [negb]; [|eauto 10].
  rewrite <- (sim_br _ _ Hs). destruct (hn_br n !! []) as [[|x r]|]; eauto 10.
  unfold read_full. rewrite <- (sim_reset _ _ Hs).
  set (a := reset n). assert (sim a a) as Ha by apply sim_refl.
  repeat case_match; eauto 10 using sim_refl.
Qed.

Lemma hash_at_sim : forall fuel n n' p, sim n n' ->
  exists m m' r, hash_at E fuel n p = (m, r) /\ hash_at E fuel n' p = (m', r) /\ sim m m'.
Proof.
  induction fuel as [|f IH]; intros n n' p Hs; cbn [hash_at]; [eauto 10|].
  destruct (4 <? length p)%nat; [eauto 10|]. destruct (length p =? 4)%nat.
  { rewrite <- (sim_leaf _ _ Hs), <- (sim_leafv _ _ _ Hs). destruct (hn_leaf n); [eauto 10|].
    destruct (sim_child _ _ (to_byte p) Hs) as [c c' Hc|]; [|eauto 10].
    destruct (IH c c' [] Hc) as (m & m' & r & -> & -> & Hm). eauto 10 using sim_set_child. }
  rewrite <- (sim_br _ _ Hs). destruct (hn_br n !! p) as [r|]; [eauto 10|].
  destruct (IH n n' (p ++ [0]) Hs) as (n1 & n1' & r1 & -> & -> & Hn1).
  destruct r1 as [[[lh lln] lrn]|]; [|eauto 10]. destruct (lln && negb lrn); [eauto 10|].
  destruct (IH n1 n1' (p ++ [1]) Hn1) as (n2 & n2' & r2 & -> & -> & Hn2).
  destruct r2 as [[[rh rln] rrn]|]; [|eauto 10]. destruct (rln && negb rrn); [eauto 10|].
  rewrite <- (sim_br _ _ Hn2).
  destruct (lrn && is_some rh); [destruct lln; eauto 10 using sim_with_br|].
  destruct lh, rh; eauto 10 using sim_with_br.
Qed.
Lemma hash_prefix_sim n n' p : sim n n' ->
  exists m m' r, hash_prefix E n p = (m, r) /\ hash_prefix E n' p = (m', r) /\ sim m m'.
Proof. apply hash_at_sim. Qed.
Lemma leaf_hash_sim n n' i : sim n n' ->
  exists m m' r, leaf_hash E n i = (m, r) /\ leaf_hash E n' i = (m', r) /\ sim m m'.
Proof.
  intros Hs. unfold leaf_hash. rewrite <- (sim_leaf _ _ Hs), <- (sim_leafv _ _ _ Hs). destruct (hn_leaf n); [eauto 10|].
  destruct (sim_child _ _ i Hs) as [c c' Hc|]; [|eauto 10].
  destruct (hash_prefix_sim c c' [] Hc) as (m & m' & r & -> & -> & Hm). eauto 10 using sim_set_child.
Qed.

Lemma put_leaf_sim n n' i v : sim n n' -> option_Forall2 sim (put_leaf n i v) (put_leaf n' i v).
Proof.
  intros Hs. unfold put_leaf. rewrite <- (sim_collapsed _ _ Hs), <- (sim_leaf _ _ Hs), <- (sim_lv _ _ Hs).
  destruct (collapsed n), (hn_leaf n), (bool_decide (v = [])); cbn [negb]; constructor.
  by apply sim_with_dirty, sim_clear, sim_with_lv.
Qed.
Lemma trace_sim st app : forall p n n', sim n n' ->
  exists m m' r, trace E st n p app = (m, r) /\ trace E st n' p app = (m', r) /\ sim m m'.
Proof.
  induction p as [|x p IH]; intros n n' Hs; cbn [trace]; [eauto 10|].
  destruct (sim_expand st _ _ Hs) as (n1 & n1' & ok & -> & -> & Hn). destruct ok; cbn [negb]; [|eauto 10].
  rewrite <- (sim_leaf _ _ Hn), <- (sim_leafv _ _ _ Hn).
  destruct (bool_decide (p = []) && negb (hn_leaf n1)); [eauto 10|].
  destruct (negb (bool_decide (p = [])) && hn_leaf n1); [eauto 10|].
  destruct (hn_leaf n1).
  { destruct app as [v|]; [|eauto 10]. destruct (put_leaf_sim _ _ x v Hn) as [a a' Ha|]; [|eauto 10].
    rewrite <- (sim_leafv _ _ _ Ha). eauto 10. }
  destruct (sim_child _ _ x Hn) as [c c' Hc|].
  - destruct (IH c c' Hc) as (m & m' & r & -> & -> & Hm). destruct r as [[[[] v] e]|].
    + do 3 eexists. split; [reflexivity|]. split; [reflexivity|]. by apply sim_with_dirty, sim_clear, sim_set_child.
    + do 3 eexists. split; [reflexivity|]. split; [reflexivity|]. by apply sim_set_child.
    + do 3 eexists. split; [reflexivity|]. split; [reflexivity|]. by apply sim_set_child.
  - destruct app as [v|]; [|eauto 10].
    destruct (IH _ _ (sim_refl (with_leaf NewTreeNode (length p =? 1)%nat))) as (m & m' & r & -> & Hr & Hm). 
    destruct r as [[[ch v'] e]|]; [|eauto 10].
    do 3 eexists. split; [reflexivity|]. split; [reflexivity|]. apply sim_with_dirty, sim_clear, sim_set_child; [done|apply sim_refl].
Qed.
Lemma locate_sim st : forall p n n', sim n n' ->
  exists m m' r, locate E st n p = (m, r) /\ locate E st n' p = (m', r) /\ sim m m'.
Proof.
  induction p as [|x p IH]; intros n n' Hs; cbn [locate]; [eauto 10|]. destruct (16 <=? x); [eauto 10|].
  destruct (sim_expand st _ _ Hs) as (n1 & n1' & ok & -> & -> & Hn). destruct ok; cbn [negb]; [|eauto 10].
  rewrite <- (sim_leaf _ _ Hn), <- (sim_leafv _ _ _ Hn). destruct (hn_leaf n1).
  { destruct (negb (bool_decide (p = []))); [eauto 10|]. destruct (leafv n1 x); eauto 10. }
  destruct (bool_decide (p = [])).
  { destruct (sim_child _ _ x Hn); eauto 10. }
  destruct (sim_child _ _ x Hn) as [c c' Hc|]; [|eauto 10].
  destruct (IH c c' Hc) as (m & m' & r & -> & -> & Hm). eauto 10 using sim_set_child.
Qed.

Lemma proof_layers_sim bits : forall i n n' mp, sim n n' ->
  exists m m' r, proof_layers E i n bits mp = (m, r) /\ proof_layers E i n' bits mp = (m', r) /\ sim m m'.
Proof.
  induction i as [|i IH]; intros n n' mp Hs; cbn [proof_layers]; [eauto 10|].
  destruct (default 0 (bits !! i) =? 0).
  - destruct (hash_prefix_sim _ _ (take i bits ++ [1]) Hs) as (n1 & n1' & r & -> & -> & Hn).
    destruct r as [[[rh ?] ?]|]; [|eauto 10]. destruct (mp_append _ _ _); [|eauto 10]. by apply IH.
  - destruct (hash_prefix_sim _ _ (take i bits ++ [0]) Hs) as (n1 & n1' & r & -> & -> & Hn).
    destruct r as [[[[l|] a] b]|]; [|eauto 10..]. destruct (a || b); [eauto 10|]. destruct (mp_append _ _ _); [|eauto 10]. by apply IH.
Qed.
Lemma append_proof_sim n n' mp i : sim n n' ->
  exists m m' r, append_proof E n mp i = (m, r) /\ append_proof E n' mp i = (m', r) /\ sim m m'.
Proof.
  intros Hs. unfold append_proof. rewrite <- (sim_leaf _ _ Hs), <- (sim_leafv _ _ _ Hs).
  assert (is_some (child n i) = is_some (child n' i)) as -> by (by destruct (sim_child _ _ i Hs)).
  destruct (if hn_leaf n then _ else _); [eauto 10|].
  destruct (i mod 2 =? 0).
  - destruct (leaf_hash_sim _ _ i Hs) as (n1 & n1' & r1 & -> & -> & H1). destruct r1; [|eauto 10].
    destruct (leaf_hash_sim _ _ (i + 1) H1) as (n2 & n2' & r2 & -> & -> & H2). destruct r2; [|eauto 10].
    destruct (mp_append _ _ _); [|eauto 10]. by apply proof_layers_sim.
  - destruct (leaf_hash_sim _ _ (i - 1) Hs) as (n1 & n1' & r1 & -> & -> & H1). destruct r1 as [[|]|]; [|eauto 10..].
    destruct (leaf_hash_sim _ _ i H1) as (n2 & n2' & r2 & -> & -> & H2). destruct r2; [|eauto 10].
    destruct (mp_append _ _ _); [|eauto 10]. by apply proof_layers_sim.
Qed.
Lemma proof_path_sim : forall p n n' mp, sim n n' ->
  exists m m' r, proof_path E n p mp = (m, r) /\ proof_path E n' p mp = (m', r) /\ sim m m'.
Proof.
  induction p as [|x p IH]; intros n n' mp Hs; cbn [proof_path]; [eauto 10|].
  destruct p as [|y p]; [by apply append_proof_sim|].
  destruct (sim_child _ _ x Hs) as [c c' Hc|]; [|eauto 10].
  destruct (IH c c' mp Hc) as (m & m' & r & -> & -> & Hm). destruct r as [mp'|]; [|eauto 10 using sim_set_child].
  apply append_proof_sim. by apply sim_set_child.
Qed.

(* ------------------------------------------------------------ trees *)
Definition tsim (t t' : htree) : Prop := ht_exp t = ht_exp t' /\ option_Forall2 sim (ht_root t) (ht_root t').
Lemma append_sim st t t' k v : tsim t t' ->
  exists u u' r, append E st t k v = (u, r) /\ append E st t' k v = (u', r) /\ tsim u u'.
Proof.
  intros [He Hr]. unfold append. rewrite <- He. destruct (negb (k =? ht_exp t)); [unfold tsim; eauto 10|].
  destruct (bool_decide (v = [])); [unfold tsim; eauto 10|].
  assert (sim (default NewTreeNode (ht_root t)) (default NewTreeNode (ht_root t'))) as Hd by (destruct Hr; [done|apply sim_refl]).
  destruct (trace_sim st (Some v) (heightToPrefix k) _ _ Hd) as (m & m' & r & -> & -> & Hm).
  destruct r as [[[c ?] ?]|]; do 3 eexists; (split; [reflexivity|]); (split; [reflexivity|]); split; by (try constructor).
Qed.
Lemma get_sim st t t' k : tsim t t' ->
  exists u u' r, get_tree E st t k = (u, r) /\ get_tree E st t' k = (u', r) /\ tsim u u'.
Proof.
  destruct t as [e o], t' as [e' o']. intros [He Hr]. cbn in He. subst e'. cbn [ht_root] in Hr. unfold get_tree. cbn [ht_root ht_exp].
  destruct Hr as [n n' Hn|].
  - destruct (trace_sim st None (heightToPrefix k) _ _ Hn) as (m & m' & r & -> & -> & Hm).
    do 3 eexists. split; [reflexivity|]. split; [reflexivity|]. split; [done|by constructor].
  - do 3 eexists. split; [reflexivity|]. split; [reflexivity|]. split; [done|constructor].
Qed.
Lemma hash_value_sim t t' : tsim t t' ->
  exists u u' r, hash_value E t = (u, r) /\ hash_value E t' = (u', r) /\ tsim u u'.
Proof.
  destruct t as [e o], t' as [e' o']. intros [He Hr]. cbn in He. subst e'. cbn [ht_root] in Hr. unfold hash_value. cbn [ht_root ht_exp].
  destruct Hr as [n n' Hn|].
  - destruct (hash_prefix_sim _ _ [] Hn) as (m & m' & r & -> & -> & Hm).
    do 3 eexists. split; [reflexivity|]. split; [reflexivity|]. split; [done|by constructor].
  - do 3 eexists. split; [reflexivity|]. split; [reflexivity|]. split; [done|constructor].
Qed.
Lemma get_proof_sim st t t' k : tsim t t' ->
  exists u u' r, get_proof E st t k = (u, r) /\ get_proof E st t' k = (u', r) /\ tsim u u'.
Proof.
  destruct t as [e o], t' as [e' o']. intros [He Hr]. cbn in He. subst e'. cbn [ht_root] in Hr. unfold get_proof. cbn [ht_root ht_exp].
  destruct Hr as [n n' Hn|].
  - destruct (locate_sim st (heightToPrefix k) _ _ Hn) as (m & m' & r & -> & -> & Hm).
    destruct r as [[[i v]|]|].
    + destruct (proof_path_sim (heightToPrefix k) _ _ mp_new Hm) as (m1 & m1' & r1 & -> & -> & Hm1).
      do 3 eexists. split; [reflexivity|]. split; [reflexivity|]. split; [done|by constructor].
    + do 3 eexists. split; [reflexivity|]. split; [reflexivity|]. split; [done|by constructor].
    + do 3 eexists. split; [reflexivity|]. split; [reflexivity|]. split; [done|by constructor].
  - do 3 eexists. split; [reflexivity|]. split; [reflexivity|]. split; [done|constructor].
Qed.
End sim.
