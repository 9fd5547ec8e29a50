(** Appending, getting, locating, proving, finding the last value and collapsing. *)
From Verif Require Import Base MerkleSpec MerkleModel TrieSpec TrieModel TrieProofModel MerkleProofs.
From Verif Require Import HistSpec HistModel HistLayerProofs HistRepProofs.
From stdpp Require Import gmap.
Open Scope N_scope.
Arguments Nat.mul : simpl never.
Arguments Nat.add : simpl never.

Section op.
Context (E : henv) (EOK : henv_ok E).
Local Notation H := (hH E).
Local Notation nilhash := (nilhash H).
Local Notation look vs k i := (layers H k vs !! i).
Local Notation len32 := (Forall (fun v : list N => length v = 32%nat)).
Implicit Types (vs : list (list N)) (st : hstore).

(* ------------------------------------------------------------ frame *)
Lemma bits_off d j p n : bits p -> (length p <= 4)%nat -> j <> up (4 * d + 4) n -> bidx j p <> up (4 * d + (4 - length p)) n.
Proof.
  intros Hp Hl Hj He. apply Hj. symmetry in He. apply (bidx_up p) in He; [|done].
  rewrite <- He. f_equal. lia.
Qed.
Lemma slot_off d j i n : (i < 16)%nat -> j <> up (4 * d + 4) n -> (16 * j + i)%nat <> up (4 * d) n.
Proof. intros Hi Hj He. apply Hj. rewrite Nat.add_comm, up_4, <- He. lia. Qed.
Lemma stored_frame st vs v : forall d j, j <> up (4 * d + 4) (length vs) -> stored E st vs d j -> stored E st (vs ++ [v]) d j.
Proof.
  induction d as [|d' IH]; intros j Hj Hs; cbn [stored] in *; destruct Hs as [(h & c & Hh & Hne & Hc & Hok) Hk].
  - split; [|done]. exists h, c. split; [by rewrite look_frame|]. split; [done|]. split; [done|].
    assert (arr E (vs ++ [v]) 0 j = arr E vs 0 j) as Ha.
    { unfold arr. apply list_eq_same_length with 16%nat; rewrite ?map_length, ?seq_length; try done.
      intros i x y Hi. rewrite !map_lookup, lookup_seq_lt by done. cbn [option_map].
      rewrite look_frame by (apply (slot_off 0); done). congruence. }
    destruct Hok as [->|(b & -> & Hb & Hbo)]; [left; by rewrite Ha|]. right. exists b. rewrite Ha. split; [done|]. split; [done|].
    intros p r Hp. destruct (Hbo p r Hp) as (Hbt & Hl & Hr). split; [done|]. split; [done|].
    rewrite look_frame; [done|]. apply bits_off; [done|lia|done].
  - split.
    + exists h, c. split; [by rewrite look_frame|]. split; [done|]. split; [done|].
      assert (arr E (vs ++ [v]) (S d') j = arr E vs (S d') j) as Ha.
      { unfold arr. apply list_eq_same_length with 16%nat; rewrite ?map_length, ?seq_length; try done.
        intros i x y Hi. rewrite !map_lookup, lookup_seq_lt by done. cbn [option_map].
        rewrite look_frame by (apply (slot_off (S d')); done). congruence. }
      destruct Hok as [->|(b & -> & Hb & Hbo)]; [left; by rewrite Ha|]. right. exists b. rewrite Ha. split; [done|]. split; [done|].
      intros p r Hp. destruct (Hbo p r Hp) as (Hbt & Hl & Hr). split; [done|]. split; [done|].
      rewrite look_frame; [done|]. apply bits_off; [done|lia|done].
    + intros i Hi Hx. pose proof (slot_off _ _ _ _ Hi Hj) as Hso. rewrite look_frame in Hx by done.
      apply IH; [|by apply Hk]. by replace (4 * d' + 4)%nat with (4 * S d')%nat by lia.
Qed.
Lemma rep_frame st vs v : forall d j n, j <> up (4 * d + 4) (length vs) -> rep E st vs d j n -> rep E st (vs ++ [v]) d j n.
Proof.
  induction d as [|d' IH]; intros j n Hj [(Hs & Hb & Hst) Hor]%rep_unfold; apply rep_unfold.
  - split.
    + split; [by rewrite look_frame|]. split; [|intros Hd; apply stored_frame; auto].
      intros p r Hp. destruct (Hb p r Hp) as (Hbt & Hl & Hr). split; [done|]. split; [done|].
      rewrite look_frame; [done|]. apply bits_off; [done|lia|done].
    + destruct Hor as [?|[Hlf Hlv]]; [by left|]. right. split; [done|]. rewrite Hlv.
      unfold arr. apply list_eq_same_length with 16%nat; rewrite ?map_length, ?seq_length; try done.
      intros i x y Hi. rewrite !map_lookup, lookup_seq_lt by done. cbn [option_map].
      rewrite look_frame by (apply (slot_off 0); done). congruence.
  - split.
    + split; [by rewrite look_frame|]. split; [|intros Hd; apply stored_frame; auto].
      intros p r Hp. destruct (Hb p r Hp) as (Hbt & Hl & Hr). split; [done|]. split; [done|].
      rewrite look_frame; [done|]. apply bits_off; [done|lia|done].
    + destruct Hor as [?|(Hlf & Hlc & Hk)]; [by left|]. right. split; [done|]. split; [done|]. intros i Hi.
      specialize (Hk i Hi). pose proof (slot_off _ _ _ _ Hi Hj) as Hso.
      destruct (hn_ch n !! i) as [[c|]|]; [|by rewrite look_frame|done].
      apply IH; [|done]. by replace (4 * d' + 4)%nat with (4 * S d')%nat by lia.
Qed.

(* ------------------------------------------------------------ append *)
Lemma clear_lookup b p bs : (length bs = 4)%nat -> (length p <= 3)%nat ->
  hn_br (clear_ancestors b bs) !! p = if decide (p = take (length p) bs) then None else hn_br b !! p.
Proof.
  intros Hl Hp. unfold clear_ancestors, with_br. cbn [hn_br].
  destruct bs as [|b0 [|b1 [|b2 [|b3 [|]]]]]; try discriminate Hl. cbn [take].
  destruct (decide _) as [He|Hne].
  - destruct p as [|p0 [|p1 [|p2 [|]]]]; cbn [length take] in *; try lia; try (injection He as ?); subst;
      repeat first [rewrite lookup_delete; done | rewrite lookup_delete_ne by (intros ?; discriminate)].
  - assert (forall q, q = take (length q) [b0;b1;b2;b3] -> q <> p) as Hq by (intros q Hq ->; done).
    rewrite !lookup_delete_ne; [done|apply (Hq _ eq_refl)..].
Qed.
Lemma clear_br_ok vs v d j n x : br_ok E vs d j (hn_br n) -> x < 16 -> up (4 * d) (length vs) = (16 * j + N.to_nat x)%nat ->
  br_ok E (vs ++ [v]) d j (hn_br (clear_ancestors n (to_binary x 4))).
Proof.
  intros Hb Hx Hu p r Hp.
  assert (exists r', hn_br n !! p = Some r') as [r' Hr'].
  { unfold clear_ancestors, with_br in Hp. cbn [hn_br] in Hp.
    repeat (apply lookup_delete_Some in Hp as [_ Hp]). eauto. }
  destruct (Hb _ _ Hr') as (Hbt & Hl & Hr). rewrite clear_lookup in Hp by (done || apply to_binary_len).
  destruct (decide _) as [|Hne]; [done|]. assert (r' = r) as -> by congruence. split; [done|]. split; [done|].
  rewrite look_frame; [done|]. intros He. apply Hne.
  pose proof (to_binary_bits x 4) as HB. pose proof (to_binary_len x 4) as HL. set (B := to_binary x 4) in *.
  rewrite <- (take_drop (length p) B) in HB. apply bits_app in HB as [HB1 HB2].
  apply (bidx_inj _ _ j Hbt HB1); [rewrite take_length; lia|]. rewrite He.
  replace (4 * d + (4 - length p))%nat with (length (drop (length p) B) + 4 * d)%nat by (rewrite drop_length; lia).
  apply bidx_up; [done|]. rewrite <- bidx_app, take_drop, Hu. unfold B. by rewrite bidx_binary.
Qed.
Definition fresh (d : nat) : hnode := with_leaf NewTreeNode (d =? 0)%nat.
Lemma arr_none vs d j : look vs (4 * d + 4) j = None -> arr E vs d j = no_lv.
Proof.
  intros Hn. unfold arr, no_lv. apply list_eq_same_length with 16%nat; rewrite ?map_length, ?seq_length, ?replicate_length; try done.
  intros i x y Hi. rewrite map_lookup, lookup_seq_lt, lookup_replicate_2 by done. cbn [option_map].
  rewrite Nat.add_comm, look_none_16 in Hn. rewrite (look_mono H vs (4 * d) (16 * j) (16 * j + (0 + i))%nat ltac:(lia) Hn). congruence.
Qed.
Lemma fresh_kids st vs d j : look vs (4 * d + 4) j = None -> kids E st vs d j (fresh d).
Proof.
  intros Hn. destruct d as [|d']; cbn [kids].
  - split; [done|]. by rewrite arr_none.
  - split; [done|]. split; [done|]. intros i Hi. cbn [fresh with_leaf hn_ch NewTreeNode]. unfold no_ch.
    rewrite lookup_replicate_2 by done. rewrite Nat.add_comm, look_none_16 in Hn. eapply look_mono; [|exact Hn]. lia.
Qed.
Lemma arr_append vs v j x : x < 16 -> length vs = (16 * j + N.to_nat x)%nat ->
  <[N.to_nat x := Some v]> (arr E vs 0 j) = arr E (vs ++ [v]) 0 j.
Proof.
  intros Hx Hl. apply list_eq_same_length with 16%nat; [apply arr_len|rewrite insert_length; apply arr_len|].
  intros i y z Hi Hy Hz. rewrite arr_lookup in Hz by done. injection Hz as <-.
  destruct (decide (i = N.to_nat x)) as [->|Hne].
  - rewrite list_lookup_insert in Hy by (rewrite arr_len; lia). injection Hy as <-.
    cbn [layers]. change (4 * 0)%nat with 0%nat. cbn [layers]. rewrite <- Hl, list_lookup_middle; done.
  - rewrite list_lookup_insert_ne, arr_lookup in Hy by done. injection Hy as <-.
    symmetry. apply (look_frame H vs v 0). cbn [up]. lia.
Qed.

Lemma open_node st vs d j n : (st <> ∅ -> len32 vs) ->
  rep E st vs d j n \/ (look vs (4 * d + 4) j = None /\ n = fresh d) ->
  exists n1, expand_if E st n = (n1, true) /\ br_ok E vs d j (hn_br n1) /\ kids E st vs d j n1 /\ collapsed n1 = false.
Proof.
  intros Hv [Hn|[Hn ->]].
  - destruct (expand_ok E EOK vs st d j n Hv Hn) as (n1 & He & Hn1 & _). exists n1. split; [done|].
    split; [apply Hn1|]. split; [apply Hn1|]. by eapply erep_not_collapsed.
  - exists (fresh d). split; [done|]. split; [intros p r; cbn; rewrite lookup_empty; done|].
    split; [by apply fresh_kids|done].
Qed.
Lemma trace_append st vs v : (st <> ∅ -> len32 vs) -> v <> [] -> forall d j n prefix,
  rep E st vs d j n \/ (look vs (4 * d + 4) j = None /\ n = fresh d) ->
  nibs prefix -> length prefix = S d -> npos j prefix = length vs ->
  exists n' r, trace E st n prefix (Some v) = (n', Some (true, r, true)) /\
    erep E st (vs ++ [v]) d j n' /\ hn_dirty n' = true.
Proof.
  intros Hv Hne. induction d as [|d' IH]; intros j n prefix Hor Hnb Hlen Hpos;
    (destruct prefix as [|x rest]; [done|]); cbn [length] in Hlen; inversion Hnb as [|? ? Hx Hrest]; subst;
    destruct (open_node st vs _ j n Hv Hor) as (n1 & He & Hb & Hk & Hc).
  - destruct rest; [|done]. cbn [trace]. rewrite He. cbn [negb].
    rewrite (bool_decide_eq_true_2 ([] = [])) by done. destruct Hk as [Hlf Hlv]. rewrite Hlf. cbn [andb negb].
    unfold put_leaf. rewrite Hc, Hlf, bool_decide_eq_false_2 by done. cbn [negb]. do 2 eexists. split; [reflexivity|].
    cbn [npos] in Hpos. split; [|done]. split; [|split; [done|]].
    + split; [|split; [|done]].
      * replace j with (up (4 * 0 + 4) (length vs)); [apply look_new|]. change (4 * 0 + 4)%nat with (4 + 0)%nat.
        rewrite up_4. cbn [up]. lia.
      * cbn [with_dirty hn_br].
        apply (clear_br_ok vs v 0 j (with_lv n1 (<[N.to_nat x:=Some v]> (hn_lv n1)))); [done|done|]. cbn [up]. change (4 * 0)%nat with 0%nat. cbn [up]. lia.
    + cbn [with_dirty clear_ancestors with_br with_lv hn_lv]. rewrite Hlv. by apply arr_append.
  - cbn [trace]. rewrite He. cbn [negb]. destruct rest as [|y rest]; [cbn [length] in Hlen; lia|]. set (rr := y :: rest) in *.
    rewrite (bool_decide_eq_false_2 (rr = [])) by done.
    assert (Hlf := proj1 Hk). rewrite Hlf. cbn [andb negb].
    pose proof (kids_child E vs _ _ _ _ _ Hk Hx) as Hch. cbn [npos] in Hpos. set (jx := (16 * j + N.to_nat x)%nat) in *.
    assert (up (4 * S d') (length vs) = jx) as Hup.
    { replace (4 * S d')%nat with (4 * length rr + 0)%nat by lia. apply npos_up; [done|]. cbn [up]. done. }
    assert (up (4 * S d' + 4) (length vs) = j) as Hupj.
    { rewrite Nat.add_comm, up_4, Hup. unfold jx. lia. }
    replace (length rr =? 1)%nat with (d' =? 0)%nat by (destruct d'; destruct (Nat.eqb_spec (length rr) 1); cbn; lia).
    fold (fresh d').
    assert (exists c' r, trace E st (default (fresh d') (child n1 x)) rr (Some v) = (c', Some (true, r, true)) /\
      erep E st (vs ++ [v]) d' jx c' /\ hn_dirty c' = true) as (c' & r & Ht & Hc' & Hd').
    { apply IH; [|done|lia|done]. destruct (child n1 x) as [c|]; cbn [default]; [by left|right].
      split; [|done]. by replace (4 * d' + 4)%nat with (4 * S d')%nat by lia. }
    exists (with_dirty (clear_ancestors (set_child n1 x c') (to_binary x 4)) true), r.
    split; [destruct (child n1 x); cbn [default id] in Ht; change (id ?z) with z in Ht; rewrite Ht; done|].
    split; [|done]. split; [split; [|split; [|done]]|].
    + rewrite <- Hupj. apply look_new.
    + cbn [with_dirty hn_br]. apply (clear_br_ok vs v (S d') j (set_child n1 x c')); [done|done|done].
    + cbn [kids with_dirty clear_ancestors with_br hn_leaf hn_ch]. split; [done|].
      destruct Hk as (_ & Hl16 & Hk). split; [unfold set_child, with_ch; cbn [hn_ch]; by rewrite insert_length|].
      intros i Hi. rewrite set_child_lookup by done. destruct (decide (i = N.to_nat x)) as [->|Hix].
      { by apply erep_rep. }
      specialize (Hk i Hi). assert ((16 * j + i)%nat <> up (4 * S d') (length vs)) as Hoff by (rewrite Hup; unfold jx; lia).
      destruct (hn_ch n1 !! i) as [[c|]|]; [|by rewrite look_frame|done].
      apply rep_frame; [|done]. by replace (4 * d' + 4)%nat with (4 * S d')%nat by lia.
Qed.

(* ------------------------------------------------------------ get *)
Lemma look_none_npos vs p : forall j, nibs p -> look vs (4 * length p) j = None -> look vs 0 (npos j p) = None.
Proof.
  induction p as [|x p IH]; intros j Hp Hn; [done|]. inversion Hp; subst. cbn [npos]. apply IH; [done|].
  cbn [length] in Hn. replace (4 * S (length p))%nat with (4 + 4 * length p)%nat in Hn by lia. rewrite look_none_16 in Hn.
  eapply look_mono; [|exact Hn]. lia.
Qed.
Lemma trace_get st vs : (st <> ∅ -> len32 vs) -> forall d j n prefix,
  rep E st vs d j n -> nibs prefix -> length prefix = S d ->
  exists n', trace E st n prefix None = (n', Some (false, look vs 0 (npos j prefix), is_some (look vs 0 (npos j prefix)))) /\
    rep E st vs d j n' /\ hn_dirty n' = hn_dirty n.
Proof.
  intros Hv. induction d as [|d' IH]; intros j n prefix Hn Hnb Hlen;
    (destruct prefix as [|x rest]; [done|]); cbn [length] in Hlen; inversion Hnb as [|? ? Hx Hrest]; subst;
    destruct (expand_ok E EOK vs st _ j n Hv Hn) as (n1 & He & Hn1 & Hd1); cbn [trace]; rewrite He; cbn [negb].
  - destruct rest; [|done]. rewrite (bool_decide_eq_true_2 ([] = [])) by done. rewrite (erep_leaf E vs _ _ _ _ Hn1). cbn [andb negb Nat.eqb].
    rewrite (erep_leafv E vs _ _ _ _ Hn1 Hx). cbn [npos]. exists n1. split; [done|]. split; [by apply erep_rep|done].
  - destruct rest as [|y rest]; [cbn [length] in Hlen; lia|]. set (rr := y :: rest) in *.
    rewrite (bool_decide_eq_false_2 (rr = [])) by done.
    rewrite (erep_leaf E vs _ _ _ _ Hn1). cbn [andb negb Nat.eqb]. cbn [npos].
    pose proof (kids_child E vs _ _ _ _ _ (proj2 Hn1) Hx) as Hch. destruct (child n1 x) as [c|].
    + destruct (IH _ c rr Hch Hrest ltac:(lia)) as (c' & Ht & Hc' & _). rewrite Ht.
      exists (set_child n1 x c'). split; [done|]. split; [|done]. apply erep_rep. by apply erep_set_child.
    + exists n1. rewrite look_none_npos; [|done|by replace (length rr) with (S d') by lia]. split; [done|]. split; [by apply erep_rep|done].
Qed.

End op.
