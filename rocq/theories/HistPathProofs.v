(** Locating nodes, proofs, the last value, collapsing. *)
From Verif Require Import Base MerkleSpec MerkleModel TrieSpec TrieModel TrieProofModel MerkleProofs MerkleTreeProofs TrieBaseProofs.
From Verif Require Import HistSpec HistModel HistLayerProofs HistRepProofs HistOpProofs.
From stdpp Require Import gmap.
Open Scope N_scope.
Arguments Nat.mul : simpl never.
Arguments Nat.add : simpl never.
Arguments Nat.sub : simpl never.

Section path.
Context (E : henv) (EOK : henv_ok E).
Local Notation H := (hH E).
Local Notation nilhash := (nilhash H).
Local Notation look vs k i := (layers H k vs !! i).
Local Notation len32 := (Forall (fun v : list N => length v = 32%nat)).
Implicit Types (vs : list (list N)) (st : hstore).

Lemma up_half c i : up c (i / 2) = up (S c) i.
Proof. induction c as [|c IH]; [done|]. cbn [up] in *. by rewrite IH. Qed.
(** The siblings on the way up from position [i] of layer [k]. *)
Fixpoint path_items vs (k c i : nat) : list (list N * bool) :=
  match c with
  | O => []
  | S c' => (if Nat.odd i then (default nilhash (look vs k (i - 1)%nat), true)
             else (default nilhash (look vs k (i + 1)%nat), false)) :: path_items vs (S k) c' (i / 2)
  end.
Lemma path_items_app vs a : forall k b i, path_items vs k (a + b) i = path_items vs k a i ++ path_items vs (a + k) b (up a i).
Proof.
  induction a as [|a IH]; intros k b i; [done|]. change (S a + b)%nat with (S (a + b)). cbn [path_items app]. f_equal.
  rewrite IH. f_equal. replace (a + S k)%nat with (S a + k)%nat by lia. f_equal. apply up_half.
Qed.
Lemma path_items_len vs c : forall k i, length (path_items vs k c i) = c.
Proof. induction c as [|c IH]; intros k i; cbn [path_items length]; [done|]. by rewrite IH. Qed.
Lemma path_items_dir vs c : forall k i m h b, path_items vs k c i !! m = Some (h, b) -> b = Nat.odd (up m i).
Proof.
  induction c as [|c IH]; intros k i m h b; cbn [path_items]; [done|]. destruct m as [|m].
  - cbn [lookup list_lookup up]. destruct (Nat.odd i); intros [= <- <-]; done.
  - cbn [lookup list_lookup]. intros Hm. apply IH in Hm. rewrite Hm. f_equal. apply up_half.
Qed.
Lemma climb vs c : forall k i h, look vs k i = Some h ->
  look vs (c + k) (up c i) = Some (foldl (fun acc '(v, order) => hash_pair_order H order v acc) h (path_items vs k c i)).
Proof.
  induction c as [|c IH]; intros k i h Hh; [done|].
  cbn [path_items foldl]. replace (S c + k)%nat with (c + S k)%nat by lia.
  rewrite <- up_half.
  apply IH. rewrite look_S. pose proof (Nat.odd_spec i) as Ho. destruct (Nat.odd i).
  - destruct (proj1 Ho eq_refl) as [m ->]. replace ((2 * m + 1) / 2)%nat with m by lia.
    replace (2 * m + 1 - 1)%nat with (2 * m)%nat by lia.
    destruct (look_some_le H vs k (2 * m) (2 * m + 1) ltac:(lia) ltac:(eauto)) as [l Hl]. rewrite Hl, Hh. done.
  - assert (Nat.even i = true) as He.
    { rewrite <- Nat.negb_odd. destruct (Nat.odd i) eqn:Hx; [|done]. apply Nat.odd_spec in Hx. by apply Ho in Hx. }
    apply Nat.even_spec in He as [m ->]. replace (2 * m / 2)%nat with m by lia. rewrite Hh. done.
Qed.
Lemma look_up_some vs k i c : is_Some (look vs k i) -> is_Some (look vs (c + k) (up c i)).
Proof. intros [h Hh]. rewrite (climb vs c _ _ _ Hh). eauto. Qed.

(* ------------------------------------------------------------ hashing parts *)
Lemma hash_prefix_at vs st d j n p : (d <= 15)%nat -> erep E st vs d j n -> bits p -> (length p <= 4)%nat ->
  exists n' f1 f2, hash_prefix E n p = (n', Some (look vs (4 * d + (4 - length p)) (bidx j p), f1, f2)) /\
    erep E st vs d j n' /\ hn_dirty n' = hn_dirty n /\ (f1 = true -> f2 = true) /\
    (f2 = true -> (length p < 4)%nat /\ look vs (4 * d + (3 - length p)) (2 * bidx j p + 1)%nat = None).
Proof.
  intros Hd Hn Hp Hl. unfold hash_prefix, hash_fuel.
  destruct (hash_at_ok E vs st 81 d j n p Hn Hp Hl ltac:(lia)) as (n' & f1 & f2 & He & Hn' & Hdd & Hf & Hf2 & _).
  exists n', f1, f2. done.
Qed.
Lemma leaf_hash_ok vs st d j n i : (d <= 15)%nat -> erep E st vs d j n -> i < 16 ->
  exists n', leaf_hash E n i = (n', Some (look vs (4 * d) (16 * j + N.to_nat i)%nat)) /\ erep E st vs d j n' /\ hn_dirty n' = hn_dirty n.
Proof.
  intros Hd Hn Hi. unfold leaf_hash. rewrite (erep_leaf E vs _ _ _ _ Hn). destruct d as [|d']; cbn [Nat.eqb].
  - exists n. rewrite (erep_leafv E vs _ _ _ _ Hn Hi). done.
  - pose proof (kids_child E vs _ _ _ _ _ (proj2 Hn) Hi) as Hc. destruct (child n i) as [c|].
    + destruct (hash_prefix_ok E vs st d' _ c ltac:(lia) Hc) as (c' & f1 & f2 & -> & Hc' & _).
      replace (4 * d' + 4)%nat with (4 * S d')%nat by lia. eexists. split; [done|]. split; [|done]. by apply erep_set_child.
    + exists n. rewrite Hc. done.
Qed.

Lemma def_len vs k i : len32 vs -> length (default nilhash (look vs k i)) = 32%nat.
Proof.
  intros Hv. destruct (look vs k i) eqn:Hl; [|apply (hok_H _ EOK)]. eapply look_len; [apply (hok_H _ EOK)|exact Hv|exact Hl].
Qed.
Lemma take_bit (bs : list N) i : (i < length bs)%nat -> take (S i) bs = take i bs ++ [default 0 (bs !! i)].
Proof. intros Hi. destruct (lookup_lt_is_Some_2 bs i Hi) as [b Hb]. rewrite Hb. by apply take_S_r. Qed.
Lemma bits_take p i : bits p -> bits (take i p).
Proof. intros Hp. by apply Forall_take. Qed.
Lemma bidx_take j x i : x < 16 -> (i <= 4)%nat -> bidx j (take i (to_binary x 4)) = up (4 - i) (16 * j + N.to_nat x).
Proof.
  intros Hx Hi. symmetry. pose proof (to_binary_len x 4) as HL. pose proof (to_binary_bits x 4) as HB.
  rewrite <- (bidx_binary j x Hx). set (B := to_binary x 4) in *. rewrite <- (take_drop i B) in HB. apply bits_app in HB as [_ HB].
  assert (bidx j B = bidx (bidx j (take i B)) (drop i B)) as Hj by (by rewrite <- bidx_app, take_drop).
  pose proof (bidx_up (drop i B) 0 _ (bidx j (take i B)) HB Hj) as Hu.
  rewrite drop_length, HL in Hu. by replace (4 - i + 0)%nat with (4 - i)%nat in Hu by lia.
Qed.

Lemma proof_layers_ok vs st d j x : len32 vs -> (d <= 15)%nat -> x < 16 -> is_Some (look vs (4 * d) (16 * j + N.to_nat x)%nat) ->
  forall i n mp its, (i <= 3)%nat -> erep E st vs d j n -> mp_rep mp its ->
  exists n' mp', proof_layers E i n (to_binary x 4) mp = (n', Some mp') /\ erep E st vs d j n' /\ hn_dirty n' = hn_dirty n /\
    mp_rep mp' (its ++ path_items vs ((4 - i) + 4 * d) i (up (4 - i) (16 * j + N.to_nat x))).
Proof.
  intros Hv Hd Hx Hs. pose proof (to_binary_len x 4) as HL. pose proof (to_binary_bits x 4) as HB.
  assert (forall i b, (i <= 3)%nat -> b < 2 -> bits (take i (to_binary x 4) ++ [b])) as Hbb.
  { intros i b Hi Hb. apply bits_app. split; [by apply bits_take|]. by constructor. }
  induction i as [|i IH]; intros n mp its Hi Hn Hmp.
  { exists n, mp. cbn [proof_layers path_items]. rewrite app_nil_r. done. }
  cbn [proof_layers path_items]. set (q := (16 * j + N.to_nat x)%nat) in *.
  pose proof (bidx_take j x i Hx ltac:(lia)) as Hb1. pose proof (bidx_take j x (S i) Hx ltac:(lia)) as Hb2.
  rewrite take_bit, bidx_app in Hb2 by lia. cbn [bidx] in Hb2. rewrite Hb1 in Hb2. fold q in Hb1, Hb2.
  assert (default 0 (to_binary x 4 !! i) < 2) as Hlt.
  { destruct (lookup_lt_is_Some_2 (to_binary x 4) i ltac:(lia)) as [b Hb]. rewrite Hb. by eapply (proj1 (Forall_lookup _ _) HB). }
  set (b := default 0 (to_binary x 4 !! i)) in *.
  assert (up (4 - S i) q / 2 = up (4 - i) q)%nat as Hhalf by (rewrite <- Hb2; lia).
  assert (length (take i (to_binary x 4)) = i) as Hti by (rewrite take_length; lia).
  pose proof (look_up_some vs _ _ (4 - S i) Hs) as Hsome. fold q in Hsome.
  replace (S (4 - S i + 4 * d)) with (4 - i + 4 * d)%nat by lia.
  assert (forall b0, length (take i (to_binary x 4) ++ [b0]) <= 4)%nat as Hl4 by (intros b0; rewrite app_length; cbn [length]; lia).
  destruct (N.eqb_spec b 0) as [Hb0|Hb0].
  - destruct (hash_prefix_at vs st d j n _ Hd Hn (Hbb i 1 ltac:(lia) ltac:(lia)) (Hl4 1))
      as (n1 & f1 & f2 & -> & Hn1 & Hd1 & _).
    rewrite app_length, Hti, bidx_app. cbn [length bidx]. rewrite Hb1.
    rewrite bytes_to_hash_id by by apply def_len.
    destruct (mp_rep_append mp its (default nilhash (look vs (4 * d + (4 - (i + 1))) (2 * up (4 - i) q + N.to_nat 1)%nat)) false Hmp) as (mp1 & -> & Hmp1).
    destruct (IH n1 mp1 _ ltac:(lia) Hn1 Hmp1) as (n2 & mp2 & -> & Hn2 & Hd2 & Hmp2).
    exists n2, mp2. split; [done|]. split; [done|]. split; [congruence|]. rewrite <- app_assoc in Hmp2. cbn [app] in Hmp2.
    rewrite Hhalf. assert (up (4 - S i) q = 2 * up (4 - i) q)%nat as -> by lia.
    assert (Nat.odd (2 * up (4 - i) q) = false) as ->.
    { rewrite Nat.odd_mul. done. }
    replace (4 - S i + 4 * d)%nat with (4 * d + (4 - (i + 1)))%nat by lia. exact Hmp2.
  - destruct (hash_prefix_at vs st d j n _ Hd Hn (Hbb i 0 ltac:(lia) ltac:(lia)) (Hl4 0))
      as (n1 & f1 & f2 & -> & Hn1 & Hd1 & Hf1 & Hf2).
    rewrite app_length, Hti, bidx_app in Hf2 |- *. cbn [length bidx] in Hf2 |- *. rewrite Hb1 in Hf2 |- *.
    assert (up (4 - S i) q = 2 * up (4 - i) q + 1)%nat as Hodd by lia.
    rewrite Hodd in Hsome |- *. replace (2 * up (4 - i) q + N.to_nat 0)%nat with (2 * up (4 - i) q)%nat in Hf2 |- * by lia.
    replace (4 - S i + 4 * d)%nat with (4 * d + (4 - (i + 1)))%nat in Hsome |- * by lia.
    destruct (look_some_le H vs _ (2 * up (4 - i) q) (2 * up (4 - i) q + 1)%nat ltac:(lia) Hsome) as [l Hl]. rewrite Hl.
    assert (f2 = false) as ->.
    { destruct f2; [|done]. destruct (Hf2 eq_refl) as [_ Hn0].
      replace (4 * d + (4 - (i + 1)))%nat with (S (4 * d + (3 - (i + 1)))) in Hsome by lia. apply look_S_some in Hsome.
      rewrite (look_mono H vs _ (2 * (2 * up (4 - i) q) + 1) (2 * (2 * up (4 - i) q + 1)) ltac:(lia) Hn0) in Hsome. by destruct Hsome. }
    assert (f1 = false) as -> by (destruct f1; [by specialize (Hf1 eq_refl)|done]). cbn [orb].
    rewrite bytes_to_hash_id by (eapply look_len; [apply (hok_H _ EOK)|exact Hv|exact Hl]).
    destruct (mp_rep_append mp its l true Hmp) as (mp1 & -> & Hmp1).
    destruct (IH n1 mp1 _ ltac:(lia) Hn1 Hmp1) as (n2 & mp2 & -> & Hn2 & Hd2 & Hmp2).
    exists n2, mp2. split; [done|]. split; [done|]. split; [congruence|]. rewrite <- app_assoc in Hmp2. cbn [app] in Hmp2.
    assert (Nat.odd (2 * up (4 - i) q + 1) = true) as -> by (rewrite Nat.odd_add, Nat.odd_mul; done).
    replace (2 * up (4 - i) q + 1 - 1)%nat with (2 * up (4 - i) q)%nat by lia. rewrite Hl. cbn [default]. change (id l) with l.
    replace ((2 * up (4 - i) q + 1) / 2)%nat with (up (4 - i) q) by lia. exact Hmp2.
Qed.

Lemma append_proof_ok vs st d j x n mp its : len32 vs -> (d <= 15)%nat -> x < 16 ->
  is_Some (look vs (4 * d) (16 * j + N.to_nat x)%nat) -> erep E st vs d j n -> mp_rep mp its ->
  exists n' mp', append_proof E n mp x = (n', Some mp') /\ erep E st vs d j n' /\ hn_dirty n' = hn_dirty n /\
    mp_rep mp' (its ++ path_items vs (4 * d) 4 (16 * j + N.to_nat x)).
Proof.
  intros Hv Hd Hx Hs Hn Hmp. unfold append_proof.
  assert ((if hn_leaf n then negb (is_some (leafv n x)) else negb (is_some (child n x))) = false) as ->.
  { rewrite (erep_leaf E vs _ _ _ _ Hn). destruct d as [|d']; cbn [Nat.eqb].
    - rewrite (erep_leafv E vs _ _ _ _ Hn Hx). change (4 * 0)%nat with 0%nat in Hs. by destruct Hs as [h ->].
    - pose proof (kids_child E vs _ _ _ _ _ (proj2 Hn) Hx) as Hc. destruct (child n x); [done|]. rewrite Hc in Hs. by destruct Hs. }
  set (q := (16 * j + N.to_nat x)%nat) in *.
  assert (forall k i, length (default nilhash (look vs k i)) = 32%nat) as Hl32.
  { intros k i. by apply def_len. }
  assert (q / 2 = up 1 q)%nat as Hq2 by done.
  destruct (N.eqb_spec (x mod 2) 0) as [He|Ho].
  - destruct (leaf_hash_ok vs st d j n x Hd Hn Hx) as (n1 & -> & Hn1 & Hd1).
    destruct (leaf_hash_ok vs st d j n1 (x + 1) Hd Hn1 ltac:(nib x Hx; done)) as (n2 & -> & Hn2 & Hd2).
    rewrite bytes_to_hash_id by done.
    destruct (mp_rep_append mp its (default nilhash (look vs (4 * d) (16 * j + N.to_nat (x + 1))%nat)) false Hmp) as (mp1 & -> & Hmp1).
    destruct (proof_layers_ok vs st d j x Hv Hd Hx Hs 3 n2 mp1 _ ltac:(lia) Hn2 Hmp1) as (n3 & mp3 & -> & Hn3 & Hd3 & Hmp3).
    exists n3, mp3. split; [done|]. split; [done|]. split; [congruence|]. rewrite <- app_assoc in Hmp3.
    change 4%nat with (1 + 3)%nat at 2. rewrite path_items_app. cbn [path_items].
    assert (Nat.odd q = false) as ->.
    { unfold q. nib x Hx; try discriminate He; rewrite Nat.odd_add, Nat.odd_mul; done. }
    replace (q + 1)%nat with (16 * j + N.to_nat (x + 1))%nat by (unfold q; lia). exact Hmp3.
  - assert (Nat.odd q = true) as Hod.
    { unfold q. clear - Hx Ho. nib x Hx; try (by destruct Ho); rewrite Nat.odd_add, Nat.odd_mul; done. }
    assert (1 <= x) as Hx1 by (clear - Hx Ho; nib x Hx; (lia || by destruct Ho)).
    destruct (leaf_hash_ok vs st d j n (x - 1) Hd Hn ltac:(lia)) as (n1 & -> & Hn1 & Hd1).
    replace (16 * j + N.to_nat (x - 1))%nat with (q - 1)%nat by (unfold q; lia).
    destruct (look_some_le H vs (4 * d) (q - 1) q ltac:(lia) Hs) as [l Hl]. rewrite Hl.
    destruct (leaf_hash_ok vs st d j n1 x Hd Hn1 Hx) as (n2 & -> & Hn2 & Hd2).
    rewrite bytes_to_hash_id by (eapply look_len; [apply (hok_H _ EOK)|exact Hv|exact Hl]).
    destruct (mp_rep_append mp its l true Hmp) as (mp1 & -> & Hmp1).
    destruct (proof_layers_ok vs st d j x Hv Hd Hx Hs 3 n2 mp1 _ ltac:(lia) Hn2 Hmp1) as (n3 & mp3 & -> & Hn3 & Hd3 & Hmp3).
    exists n3, mp3. split; [done|]. split; [done|]. split; [congruence|]. rewrite <- app_assoc in Hmp3.
    change 4%nat with (1 + 3)%nat at 2. rewrite path_items_app. cbn [path_items].
    rewrite Hod, Hl. exact Hmp3.
Qed.

(* ------------------------------------------------------------ locating *)
(** The nodes on the path are expanded. *)
Fixpoint opened st vs (d j : nat) (n : hnode) (p : list N) {struct p} : Prop :=
  match p with
  | [] => True
  | x :: rest => erep E st vs d j n /\
      match rest with
      | [] => True
      | _ => match d with O => False | S d' => exists c, child n x = Some c /\ opened st vs d' (16 * j + N.to_nat x) c rest end
      end
  end.
Lemma child_set n x c : length (hn_ch n) = 16%nat -> x < 16 -> child (set_child n x c) x = Some c.
Proof. intros Hl Hx. unfold child, set_child, with_ch. cbn [hn_ch]. rewrite list_lookup_insert by lia. done. Qed.
Lemma erep_chlen st vs d' j n : erep E st vs (S d') j n -> length (hn_ch n) = 16%nat.
Proof. intros [_ (_ & Hl & _)]. done. Qed.

Lemma look_none_npos' vs p : forall k j, nibs p -> look vs (4 * length p + k) j = None -> look vs k (npos j p) = None.
Proof.
  induction p as [|x p IH]; intros k j Hp Hn; [done|]. inversion Hp; subst. cbn [npos]. apply IH; [done|].
  cbn [length] in Hn. replace (4 * S (length p) + k)%nat with (4 + (4 * length p + k))%nat in Hn by lia. rewrite look_none_16 in Hn.
  eapply look_mono; [|exact Hn]. lia.
Qed.
Lemma locate_ok st vs : (st <> ∅ -> len32 vs) -> forall d j n p,
  rep E st vs d j n -> nibs p -> (0 < length p <= S d)%nat ->
  exists n' r, locate E st n p = (n', Some r) /\ erep E st vs d j n' /\ hn_dirty n' = hn_dirty n /\
    match look vs (4 * (S d - length p)) (npos j p) with
    | None => r = None
    | Some h => (exists i, r = Some (i, if (length p =? S d)%nat then Some h else None)) /\ opened st vs d j n' p
    end.
Proof.
  intros Hv. induction d as [|d' IH]; intros j n p Hn Hnb Hlen;
    (destruct p as [|x rest]; [cbn in Hlen; lia|]); cbn [length] in Hlen; inversion Hnb as [|? ? Hx Hrest]; subst;
    destruct (expand_ok E EOK vs st _ j n Hv Hn) as (n1 & He & Hn1 & Hd1); cbn [locate]; rewrite He; cbn [negb];
    (destruct (N.leb_spec 16 x) as [Hxx|_]; [lia|]).
  - destruct rest; [|cbn in Hlen; lia]. rewrite (bool_decide_eq_true_2 ([] = [])) by done. rewrite (erep_leaf E vs _ _ _ _ Hn1).
    cbn [Nat.eqb negb]. rewrite (erep_leafv E vs _ _ _ _ Hn1 Hx). cbn [npos length]. change (4 * (1 - 1))%nat with 0%nat.
    destruct (look vs 0 (16 * j + N.to_nat x)%nat) as [h|].
    + exists n1. eexists. split; [done|]. split; [done|]. split; [done|]. split; [by exists x|]. cbn [opened]. done.
    + exists n1, None. done.
  - rewrite (erep_leaf E vs _ _ _ _ Hn1). cbn [Nat.eqb].
    pose proof (kids_child E vs _ _ _ _ _ (proj2 Hn1) Hx) as Hch. cbn [npos length].
    destruct rest as [|y rest'].
    + rewrite (bool_decide_eq_true_2 ([] = [])) by done. cbn [npos length]. replace (S (S d') - 1)%nat with (S d') by lia.
      destruct (child n1 x) as [c|].
      * apply rep_unfold in Hch as [[[h Hh] _] _]. replace (4 * d' + 4)%nat with (4 * S d')%nat in Hh by lia. rewrite Hh.
        exists n1. eexists. split; [done|]. split; [done|]. split; [done|].
        split; [exists x; destruct (Nat.eqb_spec 1 (S (S d'))); [lia|done]|]. cbn [opened]. done.
      * rewrite Hch. exists n1, None. done.
    + set (rest := y :: rest') in *. rewrite (bool_decide_eq_false_2 (rest = [])) by done.
      replace (S (S d') - S (length rest))%nat with (S d' - length rest)%nat by lia.
      assert (0 < length rest)%nat as Hr0 by (unfold rest; cbn; lia).
      destruct (child n1 x) as [c|].
      * destruct (IH _ c rest Hch Hrest ltac:(lia)) as (c' & r & -> & Hc' & _ & Hr).
        exists (set_child n1 x c'), r. split; [done|].
        assert (erep E st vs (S d') j (set_child n1 x c')) as Hsc by (apply erep_set_child; [done|done|by apply erep_rep]).
        split; [done|]. split; [done|]. destruct (look vs _ _) as [h|]; [|done]. destruct Hr as [(i & ->) Hop].
        split; [exists i; destruct (Nat.eqb_spec (length rest) (S d')), (Nat.eqb_spec (S (length rest)) (S (S d'))); (done || lia)|].
        cbn [opened]. split; [done|]. unfold rest at 1. exists c'. split; [|done]. apply child_set; [by eapply erep_chlen|done].
      * assert (look vs (4 * (S d' - length rest)) (npos (16 * j + N.to_nat x) rest) = None) as ->.
        { apply look_none_npos'; [done|]. by replace (4 * length rest + 4 * (S d' - length rest))%nat with (4 * S d')%nat by lia. }
        exists n1, None. done.
Qed.

(* ------------------------------------------------------------ proofs *)
Lemma proof_path_ok st vs : len32 vs -> forall p d j n mp its,
  (d <= 15)%nat -> nibs p -> length p = S d -> opened st vs d j n p -> is_Some (look vs 0 (npos j p)) -> mp_rep mp its ->
  exists n' mp', proof_path E n p mp = (n', Some mp') /\ erep E st vs d j n' /\
    mp_rep mp' (its ++ path_items vs 0 (4 * S d) (npos j p)).
Proof.
  intros Hv. induction p as [|x rest IH]; intros d j n mp its Hd Hnb Hlen Hop Hs Hmp; [done|].
  inversion Hnb as [|? ? Hx Hrest]; subst. cbn [length] in Hlen. cbn [opened] in Hop. destruct Hop as [Hn Hop].
  destruct rest as [|y rest'].
  - assert (d = 0%nat) as -> by (cbn in Hlen; lia). cbn [proof_path npos] in *.
    destruct (append_proof_ok vs st 0 j x n mp its Hv ltac:(lia) Hx Hs Hn Hmp) as (n' & mp' & -> & Hn' & _ & Hmp').
    exists n', mp'. done.
  - set (rest := y :: rest') in *. destruct d as [|d']; [done|]. destruct Hop as (c & Hc & Hop).
    cbn [proof_path npos] in *. unfold rest at 1. fold rest. rewrite Hc.
    destruct (IH d' _ c mp its ltac:(lia) Hrest ltac:(lia) Hop Hs Hmp) as (c' & mp1 & -> & Hc' & Hmp1).
    assert (erep E st vs (S d') j (set_child n x c')) as Hsc by (apply erep_set_child; [done|done|by apply erep_rep]).
    assert (up (4 * S d') (npos (16 * j + N.to_nat x) rest) = (16 * j + N.to_nat x)%nat) as Hup.
    { replace (4 * S d')%nat with (4 * length rest + 0)%nat by lia. apply npos_up; done. }
    pose proof (look_up_some vs 0 _ (4 * S d') Hs) as Hu. rewrite Hup in Hu. replace (4 * S d' + 0)%nat with (4 * S d')%nat in Hu by lia.
    destruct (append_proof_ok vs st (S d') j x _ mp1 _ Hv Hd Hx Hu Hsc Hmp1) as (n' & mp' & -> & Hn' & _ & Hmp').
    exists n', mp'. split; [done|]. split; [done|]. rewrite <- app_assoc in Hmp'.
    replace (4 * S (S d'))%nat with (4 * S d' + 4)%nat by lia. rewrite path_items_app, Hup.
    by replace (4 * S d' + 0)%nat with (4 * S d')%nat by lia.
Qed.

(* ------------------------------------------------------------ collapsing *)
Lemma collapse_ok st vs d j n : (d <= 15)%nat -> rep E st vs d j n -> hn_dirty n = false ->
  exists n', collapse E st n = (st, n', true) /\ rep E st vs d j n'.
Proof.
  intros Hd Hn Hdn. unfold collapse. destruct (collapsed n) eqn:Hc; [exists n; done|]. rewrite Hdn. cbn [negb]. rewrite Hdn.
  destruct (hash_prefix_ok E vs st d j n Hd Hn) as (n' & f1 & f2 & -> & Hn' & Hd' & _).
  apply rep_unfold in Hn' as [[[h Hh] [Hb Hst]] _]. rewrite Hh. eexists. split; [done|]. apply rep_unfold.
  split; [|left; split; [|done]].
  - split; [eauto|]. split; [by apply br_ok_single|]. intros _. apply Hst. congruence.
  - unfold collapsed, with_br, reset. cbn [hn_br hn_leaf hn_ch hn_lv].
    rewrite map_size_singleton, lookup_singleton. cbn [is_some Nat.eqb andb]. unfold has_leaf, has_child, no_ch, no_lv. cbn [hn_ch hn_lv].
    rewrite !existsb_none. by destruct (hn_leaf n').
Qed.
Lemma collapse_at_ok st vs : forall p d j n, (d <= 15)%nat -> nibs p -> opened st vs d j n p -> (0 < length p <= S d)%nat ->
  is_Some (look vs (4 * (S d - length p)) (npos j p)) ->
  exists n', collapse_at E st n p = Some (st, n') /\ erep E st vs d j n'.
Proof.
  induction p as [|x rest IH]; intros d j n Hd Hnb Hop Hlen Hs; [cbn in Hlen; lia|].
  inversion Hnb as [|? ? Hx Hrest]; subst. cbn [length] in Hlen. cbn [opened] in Hop. destruct Hop as [Hn Hop].
  destruct rest as [|y rest'].
  - cbn [collapse_at]. rewrite (erep_leaf E vs _ _ _ _ Hn). destruct (N.eqb_spec x 0) as [|Hx0]; [exists n; done|].
    destruct d as [|d']; cbn [Nat.eqb orb]; [exists n; done|].
    cbn [npos length] in Hs. replace (S (S d') - 1)%nat with (S d') in Hs by lia.
    pose proof (kids_child E vs _ _ _ _ (x - 1) (proj2 Hn) ltac:(lia)) as Hc. destruct (child n (x - 1)) as [c|].
    + destruct (hn_dirty c) eqn:Hdc; [exists n; done|].
      destruct (collapse_ok st vs d' _ c ltac:(lia) Hc Hdc) as (c' & -> & Hc'). eexists. split; [done|].
      apply erep_set_child; [done|lia|done].
    + rewrite (look_mono H vs _ (16 * j + N.to_nat (x - 1)) (16 * j + N.to_nat x) ltac:(lia) Hc) in Hs. by destruct Hs.
  - set (rest := y :: rest') in *. destruct d as [|d']; [done|]. destruct Hop as (c & Hc & Hop).
    cbn [collapse_at npos length] in *. unfold rest at 1. fold rest. rewrite Hc.
    assert (0 < length rest)%nat as Hr0 by (unfold rest; cbn; lia).
    replace (S (S d') - S (length rest))%nat with (S d' - length rest)%nat in Hs by lia.
    destruct (IH d' _ c ltac:(lia) Hrest Hop ltac:(lia) Hs) as (c' & -> & Hc').
    eexists. split; [done|]. apply erep_set_child; [done|done|by apply erep_rep].
Qed.

(* ------------------------------------------------------------ the last value *)
Lemma rightmost_none {A} (l : list (option A)) : (forall k, mjoin (l !! k) = None) -> forall i chk cur, rightmost l i chk cur = cur.
Proof.
  induction l as [|o l IH]; intros Hl i chk cur; [done|]. pose proof (Hl 0%nat) as H0. cbn in H0. subst o. cbn [rightmost].
  destruct chk; [done|]. apply IH. intros k. apply (Hl (S k)).
Qed.
Lemma rightmost_spec {A} (l : list (option A)) : forall m x i chk cur, l !! m = Some (Some x) ->
  (forall k, (k <= m)%nat -> is_Some (mjoin (l !! k))) -> (forall k, (m < k)%nat -> mjoin (l !! k) = None) ->
  rightmost l i chk cur = Some (i + N.of_nat m, x).
Proof.
  induction l as [|o l IH]; intros m x i chk cur Hm Hle Hgt; [done|]. destruct m as [|m].
  - injection Hm as ->. cbn [rightmost]. rewrite rightmost_none; [f_equal; f_equal; lia|].
    intros k. apply (Hgt (S k)). lia.
  - destruct (Hle 0%nat ltac:(lia)) as [y Hy]. cbn in Hy. subst o. cbn [rightmost].
    rewrite (IH m x); [f_equal; f_equal; lia|done| |].
    + intros k Hk. apply (Hle (S k)). lia.
    + intros k Hk. apply (Hgt (S k)). lia.
Qed.
Lemma look_edge vs k i : (0 < length vs)%nat -> is_Some (look vs k i) <-> (i <= up k (length vs - 1))%nat.
Proof.
  intros Hl. revert i; induction k as [|k IH]; intros i; cbn [up].
  - cbn [layers]. rewrite lookup_lt_is_Some. lia.
  - rewrite look_S_some, IH. lia.
Qed.
Lemma find_rightmost_ok st vs : (st <> ∅ -> len32 vs) -> (0 < length vs)%nat -> forall d f j n chk,
  f = S d -> rep E st vs d j n -> j = up (4 * d + 4) (length vs - 1) ->
  exists n' p, find_rightmost E f st n chk = (n', Some p) /\ erep E st vs d j n' /\ hn_dirty n' = hn_dirty n /\
    length p = S d /\ nibs p /\ npos j p = (length vs - 1)%nat.
Proof.
  intros Hv Hl. induction d as [|d' IH]; intros f j n chk Hf Hn Hj; (destruct f as [|f]; [discriminate Hf|]); injection Hf as Hf; cbn [find_rightmost];
    destruct (expand_ok E EOK vs st _ j n Hv Hn) as (n1 & He & Hn1 & Hd1); rewrite He; cbn [negb];
    rewrite (erep_leaf E vs _ _ _ _ Hn1); cbn [Nat.eqb].
  - set (q := (length vs - 1)%nat) in *. change (4 * 0 + 4)%nat with (4 + 0)%nat in Hj. rewrite up_4 in Hj. cbn [up] in Hj.
    destruct (proj2 (look_edge vs 0 q Hl) ltac:(cbn [up]; lia)) as [h Hh].
    assert (Hlv : hn_lv n1 = arr E vs 0 j) by apply (proj2 (proj2 Hn1)).
    assert (forall k, mjoin (hn_lv n1 !! k) = if (k <? 16)%nat then look vs 0 (16 * j + k)%nat else None) as Hk.
    { intros k. rewrite Hlv. destruct (Nat.ltb_spec k 16).
      - rewrite arr_lookup by done. done.
      - rewrite (proj2 (lookup_ge_None _ _)); [done|]. rewrite arr_len. lia. }
    rewrite (rightmost_spec _ (q mod 16) h).
    + exists n1. eexists. split; [done|]. split; [done|]. split; [done|]. split; [done|]. split; [constructor; [lia|constructor]|].
      cbn [npos]. lia.
    + rewrite Hlv, arr_lookup by lia. change (4 * 0)%nat with 0%nat. replace (16 * j + q mod 16)%nat with q by lia. by rewrite Hh.
    + intros k Hkm. rewrite Hk. destruct (Nat.ltb_spec k 16); [|lia]. apply look_edge; [done|]. cbn [up]. lia.
    + intros k Hkm. rewrite Hk. destruct (Nat.ltb_spec k 16); [|done].
      destruct (look vs 0 (16 * j + k)%nat) eqn:Hx; [|done]. exfalso.
      assert (is_Some (look vs 0 (16 * j + k)%nat)) as Hs by eauto. apply look_edge in Hs; [|done]. cbn [up] in Hs. fold q in Hs. lia.
  - set (q := up (4 * S d') (length vs - 1)) in *. rewrite Nat.add_comm, up_4 in Hj. fold q in Hj.
    assert (forall k, (k < 16)%nat -> is_Some (mjoin (hn_ch n1 !! k)) <-> is_Some (look vs (4 * S d') (16 * j + k)%nat)) as Hk.
    { intros k Hk. destruct (proj2 Hn1) as (_ & _ & Hkk). specialize (Hkk k Hk). destruct (hn_ch n1 !! k) as [[c|]|]; cbn.
      - apply rep_unfold in Hkk as [[Hs _] _]. replace (4 * d' + 4)%nat with (4 * S d')%nat in Hs by lia. split; [done|eauto].
      - rewrite Hkk. split; intros [? ?]; done.
      - done. }
    assert (length (hn_ch n1) = 16%nat) as H16 by by eapply erep_chlen.
    destruct (proj2 (Hk (q mod 16)%nat ltac:(lia))) as [c Hc].
    { apply look_edge; [done|]. fold q. lia. }
    rewrite (rightmost_spec _ (q mod 16) c).
    + rewrite N.add_0_l. pose proof (proj2 (proj2 (proj2 Hn1)) (q mod 16)%nat ltac:(lia)) as Hr.
      destruct (hn_ch n1 !! (q mod 16)%nat) as [[c0|]|] eqn:Hc0; [|done|done]. cbn in Hc. injection Hc as ->.
      replace (16 * j + q mod 16)%nat with q in Hr by lia.
      destruct (IH f q c chk Hf Hr) as (c' & p & -> & Hc' & _ & Hp1 & Hp2 & Hp3).
      { unfold q. f_equal. lia. }
      exists (set_child n1 (N.of_nat (q mod 16)) c'), (N.of_nat (q mod 16) :: p). split; [done|].
      split; [apply erep_set_child; [done|lia|]|].
      { rewrite Nat2N.id. replace (16 * j + q mod 16)%nat with q by lia. by apply erep_rep. }
      split; [done|]. cbn [length npos]. split; [lia|]. split; [constructor; [lia|done]|].
      rewrite Nat2N.id. by replace (16 * j + q mod 16)%nat with q by lia.
    + destruct (hn_ch n1 !! (q mod 16)%nat) as [[c0|]|]; cbn in Hc; [by injection Hc as ->|done|done].
    + intros k Hkm. apply Hk; [lia|]. apply look_edge; [done|]. fold q. lia.
    + intros k Hkm. destruct (decide (k < 16)%nat) as [Hlt|Hge].
      * destruct (mjoin (hn_ch n1 !! k)) eqn:Hx; [|done]. exfalso. assert (is_Some (mjoin (hn_ch n1 !! k))) as Hs by eauto.
        apply Hk in Hs; [|done]. apply look_edge in Hs; [|done]. fold q in Hs. lia.
      * rewrite (proj2 (lookup_ge_None _ _)); [done|lia].
Qed.


(* ------------------------------------------------------------ keys and prefixes *)
Lemma npos_num p : forall j, npos j p = N.to_nat (foldl (fun a x => a * 16 + x) (N.of_nat j) p).
Proof.
  induction p as [|x p IH]; intros j; cbn [npos foldl]; [lia|]. rewrite IH. do 2 f_equal. lia.
Qed.
Lemma nibbles_num l : forall a, foldl (fun a x => a * 16 + x) a (nibbles l) = foldl (fun a b => a * 256 + b) a l.
Proof. induction l as [|b l IH]; intros a; [done|]. rewrite nibbles_cons. cbn [foldl]. rewrite IH. f_equal. lia. Qed.
Lemma pack2_num p : Nat.even (length p) = true -> forall a, foldl (fun a b => a * 256 + b) a (pack2 p) = foldl (fun a x => a * 16 + x) a p.
Proof.
  induction p as [| |x y p IH] using nib_pair_ind; [done..|]. intros He a. cbn [pack2 foldl]. rewrite IH by done. f_equal. lia.
Qed.
Lemma heightToPrefix_ok k : k < two64 -> nibs (heightToPrefix k) /\ length (heightToPrefix k) = 16%nat /\ npos 0 (heightToPrefix k) = N.to_nat k.
Proof.
  intros Hk. unfold heightToPrefix. rewrite keyToPrefix_nibbles. split; [|split].
  - apply nibbles_ok, be_fixed_bytes.
  - by rewrite nibbles_length, be_fixed_length.
  - rewrite npos_num, nibbles_num. change (N.of_nat 0) with 0. fold (be_num (be_fixed 8 k)). rewrite be_num_fixed.
    f_equal. apply N.mod_small. exact Hk.
Qed.
Lemma prefixToHeight_ok p : nibs p -> length p = 16%nat -> prefixToHeight p = Some (N.of_nat (npos 0 p)).
Proof.
  intros Hp Hl. unfold prefixToHeight. rewrite Hl. cbn [Nat.eqb negb]. f_equal. unfold prefixToKey.
  destruct p as [|a p]; [done|]. rewrite Hl. change (Nat.odd 16) with false. cbv iota.
  rewrite prefixToKey_loop_pack2 by (done || by rewrite Hl). unfold be_num. rewrite pack2_num by (by rewrite Hl).
  rewrite npos_num, N2Nat.id. done.
Qed.

(* ------------------------------------------------------------ what a proof says *)
Lemma testbit_up k : forall q, N.testbit (N.of_nat q) (N.of_nat k) = Nat.odd (up k q).
Proof.
  induction k as [|k IH]; intros q.
  - cbn [up]. change (N.of_nat 0) with 0. rewrite N.bit0_odd.
    pose proof (Nat.odd_spec q) as Ho. destruct (Nat.odd q).
    + destruct (proj1 Ho eq_refl) as [m ->]. apply N.odd_spec. exists (N.of_nat m). lia.
    + destruct (N.odd (N.of_nat q)) eqn:Hx; [|done]. apply N.odd_spec in Hx as [m Hm].
      symmetry. apply Ho. exists (N.to_nat m). lia.
  - rewrite Nat2N.inj_succ, N.testbit_succ_r_div2, N.div2_div by lia. rewrite <- up_half, <- IH. f_equal. lia.
Qed.
Lemma merkle_only_proof vs mp q h : mp_rep mp (path_items vs 0 64 q) -> look vs 0 q = Some h ->
  chain_proof E [merkle_only mp] h = look vs 64 (up 64 q).
Proof.
  intros Hmp Hh. unfold chain_proof, chain_items, merkle_only. cbn [np_type np_child].
  change (IsProofMerkleOnly ProofMerkleOnly) with true. cbn [mpo_items]. cbv iota.
  rewrite (mp_rep_items _ _ Hmp), app_nil_r. symmetry. by apply (climb vs 64 0).
Qed.
Lemma merkle_only_key vs mp q : mp_rep mp (path_items vs 0 64 q) -> N.of_nat q < two64 ->
  option_map fst (chain_bigkey [merkle_only mp] 0 0) = Some (N.of_nat q).
Proof.
  intros Hmp Hq. unfold chain_bigkey, merkle_only. cbn [np_child]. pose proof (mp_rep_len _ _ Hmp) as Hlen. rewrite path_items_len in Hlen.
  destruct (mp_rep_bits _ _ Hmp) as (n & Hp & Hb & Hbits). rewrite path_items_len in Hb, Hbits.
  unfold mp_bigkey. cbn [Z.ltb Z.compare]. destruct (mp_hashs mp) as [|h0 hs] eqn:Eh.
  { exfalso. destruct Hmp as (n' & _ & _ & _ & He). rewrite Eh in He. cbn [expand withord] in He. done. }
  rewrite Hp, Hlen. cbn [option_map fst]. f_equal. apply N.bits_inj. intros k.
  rewrite bigkey_loop_spec by lia. rewrite Nat2Z.id. change (Z.to_N 0) with 0. change (Z.to_N (0 + 0)) with 0.
  change (Z.to_N (0 + 0 + Z.of_nat 64)) with 64. rewrite N.sub_0_r.
  destruct (N.leb_spec 0 k) as [_|]; [|lia]. cbn [andb]. destruct (N.ltb_spec k 64) as [Hk|Hk].
  - destruct (Hbits (N.to_nat k) ltac:(lia)) as [h Hh]. apply path_items_dir in Hh. rewrite <- testbit_up in Hh.
    by rewrite N2Nat.id in Hh.
  - rewrite N.bits_0. symmetry. rewrite <- (N.mod_small (N.of_nat q) (2 ^ 64)) by exact Hq. by apply N.mod_pow2_bits_high.
Qed.
End path.
