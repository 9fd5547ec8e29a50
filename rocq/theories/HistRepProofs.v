(** When a node of the model represents a part of a list of values, and what
    expanding and hashing make of it. *)
From Verif Require Import Base MerkleSpec MerkleModel TrieSpec TrieModel HistSpec HistModel HistLayerProofs.
From stdpp Require Import gmap.
Open Scope N_scope.
Arguments Nat.mul : simpl never.
Arguments Nat.add : simpl never.

Lemma map_lookup {A B} (f : A -> B) l (i : nat) : map f l !! i = option_map f (l !! i).
Proof. revert i; induction l as [|a l IH]; intros [|i]; cbn; try done; apply IH. Qed.

Section rep.
Context (E : henv) (EOK : henv_ok E).
Local Notation H := (hH E).
Local Notation nilhash := (nilhash H).
Local Notation look vs k i := (layers H k vs !! i).
Implicit Types (vs : list (list N)) (st : hstore).

(** [b] holds hashes of layers inside the node of level [d] at position [j]. *)
Definition br_ok vs (d j : nat) (b : branches) : Prop :=
  forall p r, b !! p = Some r -> bits p /\ (length p <= 3)%nat /\ look vs (4 * d + (4 - length p)) (bidx j p) = Some r.
Definition arr vs (d j : nat) : slots := map (fun i => look vs (4 * d) (16 * j + i)%nat) (seq 0 16).
(** The stored form of the node. *)
Definition cont_ok vs (d j : nat) (c : list N) : Prop :=
  c = (if (d =? 0)%nat then 1 else 0) :: harr E (arr vs d j) \/
  exists b, c = 0xff :: hsn E ((d =? 0)%nat, b, arr vs d j) /\ b <> ∅ /\ br_ok vs d j b.
Fixpoint stored st vs (d j : nat) : Prop :=
  (exists h c, look vs (4 * d + 4) j = Some h /\ h <> nilhash /\ st !! h = Some c /\ cont_ok vs d j c) /\
  match d with
  | O => True
  | S d' => forall i, (i < 16)%nat -> is_Some (look vs (4 * d) (16 * j + i)%nat) -> stored st vs d' (16 * j + i)
  end.

Definition leafslots vs (j : nat) (n : hnode) : Prop := hn_leaf n = true /\ hn_lv n = arr vs 0 j.
Fixpoint rep st vs (d j : nat) (n : hnode) : Prop :=
  (is_Some (look vs (4 * d + 4) j) /\ br_ok vs d j (hn_br n) /\ (hn_dirty n = false -> stored st vs d j)) /\
  ((collapsed n = true /\ hn_dirty n = false) \/
   match d with
   | O => leafslots vs j n
   | S d' => hn_leaf n = false /\ length (hn_ch n) = 16%nat /\
       forall i, (i < 16)%nat ->
         match hn_ch n !! i with
         | Some (Some c) => rep st vs d' (16 * j + i) c
         | Some None => look vs (4 * d) (16 * j + i)%nat = None
         | None => False end
   end).
Definition base st vs (d j : nat) (n : hnode) : Prop :=
  is_Some (look vs (4 * d + 4) j) /\ br_ok vs d j (hn_br n) /\ (hn_dirty n = false -> stored st vs d j).
Definition kids st vs (d j : nat) (n : hnode) : Prop :=
  match d with
  | O => leafslots vs j n
  | S d' => hn_leaf n = false /\ length (hn_ch n) = 16%nat /\
      forall i, (i < 16)%nat ->
        match hn_ch n !! i with
        | Some (Some c) => rep st vs d' (16 * j + i) c
        | Some None => look vs (4 * d) (16 * j + i)%nat = None
        | None => False end
  end.
(** A node whose slots are in memory. *)
Definition erep st vs d j n : Prop := base st vs d j n /\ kids st vs d j n.
Lemma rep_unfold st vs d j n : rep st vs d j n <->
  base st vs d j n /\ ((collapsed n = true /\ hn_dirty n = false) \/ kids st vs d j n).
Proof. destruct d; done. Qed.
Lemma erep_rep st vs d j n : erep st vs d j n -> rep st vs d j n.
Proof. intros [? ?]. apply rep_unfold. auto. Qed.

Lemma arr_len vs d j : length (arr vs d j) = 16%nat.
Proof. unfold arr. rewrite map_length, seq_length. done. Qed.
Lemma arr_lookup vs d j i : (i < 16)%nat -> arr vs d j !! i = Some (look vs (4 * d) (16 * j + i)%nat).
Proof. intros Hi. unfold arr. rewrite map_lookup, lookup_seq_lt by done. done. Qed.
Lemma arr_ok vs d j : Forall (fun v => length v = 32%nat) vs -> slots_ok (arr vs d j).
Proof.
  intros Hv. split; [apply arr_len|]. unfold arr. apply Forall_map, Forall_forall. intros i _. cbv beta.
  destruct (look vs (4 * d) (16 * j + i)%nat) eqn:Hl; [|done]. eapply look_len; [apply (hok_H _ EOK)|exact Hv|exact Hl].
Qed.
Lemma first_slot vs d j : is_Some (look vs (4 * d + 4) j) -> is_Some (look vs (4 * d) (16 * j + 0)%nat).
Proof. rewrite Nat.add_comm, look_some_16. replace (16 * j + 0)%nat with (16 * j)%nat by lia. done. Qed.

Lemma existsb_lookup {A} (f : A -> bool) l i x : l !! i = Some x -> f x = true -> existsb f l = true.
Proof. intros Hl Hf. apply existsb_exists. exists x. split; [|done]. apply elem_of_list_In. by eapply elem_of_list_lookup_2. Qed.
Lemma existsb_none {A} (k : nat) : existsb is_some (replicate k (@None A)) = false.
Proof. induction k; done. Qed.

Lemma kids_not_collapsed st vs d j n : is_Some (look vs (4 * d + 4) j) -> kids st vs d j n -> collapsed n = false.
Proof.
  intros Hs Hk. apply first_slot in Hs. unfold collapsed. apply andb_false_iff. right.
  destruct d as [|d']; cbn [kids] in Hk.
  - destruct Hk as [-> Hl]. unfold has_leaf. rewrite Hl.
    destruct Hs as [h Hh].
    rewrite (existsb_lookup _ _ 0%nat (Some h)); [done| |done]. rewrite arr_lookup by lia. by rewrite Hh.
  - destruct Hk as (-> & Hl & Hi). unfold has_child. specialize (Hi 0%nat ltac:(lia)).
    destruct (hn_ch n !! 0%nat) as [[c|]|] eqn:Hc; [|by rewrite Hi in Hs; destruct Hs|done].
    by rewrite (existsb_lookup _ _ 0%nat _ Hc).
Qed.
Lemma erep_not_collapsed st vs d j n : erep st vs d j n -> collapsed n = false.
Proof. intros [[Hs _] Hk]. by eapply kids_not_collapsed. Qed.

(* ------------------------------------------------------------ expanding *)
Lemma from_hash_collapsed h : collapsed (from_hash h) = true.
Proof.
  unfold collapsed, from_hash, with_br. cbn [hn_br hn_leaf hn_ch hn_dirty hn_lv NewTreeNode].
  rewrite map_size_singleton, lookup_singleton. cbn [is_some Nat.eqb andb]. unfold has_child, no_ch. cbn [hn_ch].
  rewrite existsb_none. done.
Qed.
Lemma br_ok_single vs d j h : look vs (4 * d + 4) j = Some h -> br_ok vs d j {[ [] := h ]}.
Proof.
  intros Hh p r Hp. apply lookup_singleton_Some in Hp as [<- <-]. split; [constructor|]. cbn [length bidx].
  split; [lia|]. by replace (4 * d + (4 - 0))%nat with (4 * d + 4)%nat by lia.
Qed.
Lemma from_hash_rep st vs d j h : look vs (4 * d + 4) j = Some h -> stored st vs d j -> rep st vs d j (from_hash h).
Proof.
  intros Hh Hst. apply rep_unfold. split; [|left; split; [apply from_hash_collapsed|done]].
  split; [eauto|]. split; [|done]. by apply br_ok_single.
Qed.
Lemma stored_kid st vs d' j i : (i < 16)%nat -> stored st vs (S d') j ->
  is_Some (look vs (4 * S d') (16 * j + i)%nat) -> stored st vs d' (16 * j + i).
Proof. intros Hi [_ Hk] Hs. by apply Hk. Qed.
Lemma load_slots_kids st vs d j n : hn_leaf n = (d =? 0)%nat -> stored st vs d j -> kids st vs d j (load_slots n (arr vs d j)).
Proof.
  intros Hl Hst. unfold load_slots. rewrite Hl. destruct d as [|d']; cbn [Nat.eqb]; [done|].
  cbn [kids]. split; [done|]. cbn [with_ch hn_ch]. split; [by rewrite map_length, arr_len|]. intros i Hi.
  rewrite map_lookup, arr_lookup by done. cbn [option_map].
  destruct (look vs (4 * S d') (16 * j + i)%nat) as [h|] eqn:Hh; cbn; [|done].
  apply from_hash_rep; [|by apply (stored_kid _ _ _ _ _ Hi Hst); eauto].
  by replace (4 * d' + 4)%nat with (4 * S d')%nat by lia.
Qed.

Context (vs : list (list N)).

Lemma br_len d j b : Forall (fun v => length v = 32%nat) vs -> br_ok vs d j b -> map_Forall (fun _ v => length v = 32%nat) b.
Proof. intros Hv Hb p r Hp. destruct (Hb p r Hp) as (_ & _ & Hl). eapply look_len; [apply (hok_H _ EOK)|exact Hv|exact Hl]. Qed.

Lemma load_slots_dirty n a : hn_dirty (load_slots n a) = hn_dirty n.
Proof. unfold load_slots. destruct (hn_leaf n); done. Qed.
Lemma load_slots_br n a : hn_br (load_slots n a) = hn_br n.
Proof. unfold load_slots. destruct (hn_leaf n); done. Qed.
Lemma read_full_erep st d j n h : Forall (fun v => length v = 32%nat) vs -> look vs (4 * d + 4) j = Some h -> stored st vs d j ->
  exists n', read_full E st n h = (n', true) /\ erep st vs d j n' /\ hn_dirty n' = false.
Proof.
  intros Hv Hh Hst. assert (Hst' := Hst).
  assert (exists c, h <> nilhash /\ st !! h = Some c /\ cont_ok vs d j c) as (c & Hne & Hc & Hok).
  { destruct d; destruct Hst as [(h' & c & Hh' & Hne & Hc & Hok) _]; rewrite Hh in Hh'; injection Hh' as <-; eauto. }
  assert (length h = 32%nat) as Hl by (eapply look_len; [apply (hok_H _ EOK)|exact Hv|exact Hh]).
  unfold read_full. rewrite (bool_decide_eq_false_2 (h = [])) by (intros ->; done).
  rewrite (bool_decide_eq_false_2 (h = nilhash)) by done. cbn [orb]. rewrite Hc.
  pose proof (arr_ok vs d j Hv) as Ha.
  assert (forall n0, hn_leaf n0 = (d =? 0)%nat -> hn_dirty n0 = false -> br_ok vs d j (hn_br n0) ->
    erep st vs d j (load_slots n0 (arr vs d j)) /\ hn_dirty (load_slots n0 (arr vs d j)) = false) as Hg.
  { intros n0 Hl0 Hd0 Hb0. rewrite load_slots_dirty. split; [|done]. split; [|by apply load_slots_kids].
    split; [eauto|]. rewrite load_slots_br. done. }
  destruct Hok as [->|(b & -> & Hb & Hbo)].
  - destruct d as [|d']; cbn [Nat.eqb] in *; cbn [N.eqb]; rewrite (hok_arr _ EOK _ Ha);
      (eexists; split; [reflexivity|]); apply Hg; try done; cbn; intros p r; rewrite lookup_empty; done.
  - cbn [N.eqb]. rewrite (hok_sn _ EOK) by (done || by eapply br_len). eexists. split; [reflexivity|].
    apply Hg; done.
Qed.
Lemma expand_ok st d j n : (st <> ∅ -> Forall (fun v => length v = 32%nat) vs) -> rep st vs d j n ->
  exists n', expand_if E st n = (n', true) /\ erep st vs d j n' /\ hn_dirty n' = hn_dirty n.
Proof.
  intros Hv0 [Hb Hor]%rep_unfold. unfold expand_if.
  destruct Hor as [[Hc Hd]|Hk].
  2:{ rewrite (kids_not_collapsed _ _ _ _ _ (proj1 Hb) Hk). exists n. done. }
  rewrite Hc. unfold expand. rewrite Hc. cbn [negb].
  destruct Hb as (Hs & Hbr & Hst). destruct (hn_br n !! []) as [h|] eqn:Hh.
  1: assert (Forall (fun v => length v = 32%nat) vs) as Hv by
    (apply Hv0; intros ->; specialize (Hst Hd); destruct d; destruct Hst as [(? & ? & _ & _ & Hx & _) _]; by rewrite lookup_empty in Hx).
  2:{ unfold collapsed in Hc. rewrite Hh in Hc. cbn in Hc. rewrite andb_false_r in Hc. done. }
  destruct (Hbr _ _ Hh) as (_ & _ & Hl). cbn [length bidx] in Hl. replace (4 * d + (4 - 0))%nat with (4 * d + 4)%nat in Hl by lia.
  assert (length h = 32%nat) as Hlen by (eapply look_len; [apply (hok_H _ EOK)|exact Hv|exact Hl]).
  destruct h as [|x h]; [done|].
  destruct (read_full_erep st d j n _ Hv Hl (Hst Hd)) as (n' & -> & Hn & Hd'). exists n'. rewrite Hd. done.
Qed.

(* ------------------------------------------------------------ hashing *)
Lemma kids_child st d' j n i : kids st vs (S d') j n -> i < 16 ->
  match child n i with
  | Some c => rep st vs d' (16 * j + N.to_nat i) c
  | None => look vs (4 * S d') (16 * j + N.to_nat i)%nat = None end.
Proof.
  intros (_ & _ & Hk) Hi. unfold child. specialize (Hk (N.to_nat i) ltac:(lia)).
  destruct (hn_ch n !! N.to_nat i) as [[c|]|]; done.
Qed.
Lemma set_child_lookup n x c i : length (hn_ch n) = 16%nat -> (i < 16)%nat -> x < 16 ->
  hn_ch (set_child n x c) !! i = if decide (i = N.to_nat x) then Some (Some c) else hn_ch n !! i.
Proof.
  intros Hl Hi Hx. unfold set_child, with_ch. cbn [hn_ch]. destruct (decide (i = N.to_nat x)) as [->|Hne].
  - rewrite list_lookup_insert by lia. done.
  - by rewrite list_lookup_insert_ne by done.
Qed.
Lemma kids_set_child st d' j n x c : kids st vs (S d') j n -> x < 16 -> rep st vs d' (16 * j + N.to_nat x) c ->
  kids st vs (S d') j (set_child n x c).
Proof.
  intros (Hlf & Hl & Hk) Hx Hc. split; [done|]. split; [unfold set_child, with_ch; cbn [hn_ch]; by rewrite insert_length|].
  intros i Hi. rewrite set_child_lookup by done. destruct (decide (i = N.to_nat x)) as [->|]; [done|]. by apply Hk.
Qed.
Lemma erep_set_child st d' j n x c : erep st vs (S d') j n -> x < 16 -> rep st vs d' (16 * j + N.to_nat x) c ->
  erep st vs (S d') j (set_child n x c).
Proof. intros [Hb Hk] Hx Hc. split; [exact Hb|]. by apply kids_set_child. Qed.
Lemma erep_leaf st d j n : erep st vs d j n -> hn_leaf n = (d =? 0)%nat.
Proof. intros [_ Hk]. destruct d; [by destruct Hk|by destruct Hk]. Qed.
Lemma erep_leafv st j n i : erep st vs 0 j n -> i < 16 -> leafv n i = look vs 0 (16 * j + N.to_nat i)%nat.
Proof.
  intros [_ [_ Hk]] Hi. unfold leafv. rewrite Hk, arr_lookup by lia. cbn [mjoin option_join]. done.
Qed.
Lemma erep_insert_br st d j n p h : erep st vs d j n -> bits p -> (length p <= 3)%nat ->
  look vs (4 * d + (4 - length p)) (bidx j p) = Some h -> erep st vs d j (with_br n (<[p := h]> (hn_br n))).
Proof.
  intros [(Hs & Hb & Hd) Hk] Hp Hl Hh. split; [|destruct d; exact Hk].
  split; [done|]. split; [|done]. cbn [with_br hn_br]. intros q r Hq.
  destruct (decide (p = q)) as [->|Hne]; [rewrite lookup_insert in Hq; injection Hq as <-; done|].
  rewrite lookup_insert_ne in Hq by done. by apply Hb.
Qed.
Lemma stub_br st d j n : base st vs d j n -> collapsed n = true -> exists h, hn_br n !! [] = Some h /\ look vs (4 * d + 4) j = Some h.
Proof.
  intros (_ & Hb & _) Hc. destruct (hn_br n !! []) as [h|] eqn:Hh.
  - exists h. split; [done|]. destruct (Hb _ _ Hh) as (_ & _ & Hl). cbn [length bidx] in Hl.
    by replace (4 * d + (4 - 0))%nat with (4 * d + 4)%nat in Hl by lia.
  - unfold collapsed in Hc. rewrite Hh in Hc. cbn in Hc. rewrite andb_false_r in Hc. done.
Qed.

Lemma hash_at_ok st : forall fuel d j n p,
  erep st vs d j n -> bits p -> (length p <= 4)%nat -> (5 * d + (5 - length p) <= fuel)%nat ->
  exists n' f1 f2, hash_at E fuel n p = (n', Some (look vs (4 * d + (4 - length p)) (bidx j p), f1, f2)) /\
    erep st vs d j n' /\ hn_dirty n' = hn_dirty n /\ (f1 = true -> f2 = true) /\
    (f2 = true -> (length p < 4)%nat /\ look vs (4 * d + (3 - length p)) (2 * bidx j p + 1)%nat = None) /\
    ((length p < 4)%nat -> forall h, look vs (4 * d + (4 - length p)) (bidx j p) = Some h -> hn_br n' !! p = Some h).
Proof.
  induction fuel as [|f IH]; intros d j n p Hn Hp Hl Hf; [lia|]. cbn [hash_at].
  destruct (Nat.ltb_spec 4 (length p)) as [?Hgt|_]; [lia|].
  destruct (Nat.eqb_spec (length p) 4) as [He|Hne].
  { destruct (bits_4 p Hp He) as [Hx _]. rewrite (erep_leaf _ _ _ _ Hn).
    replace (4 * d + (4 - length p))%nat with (4 * d)%nat by lia. rewrite (bidx_byte j p Hp He).
    destruct d as [|d']; cbn [Nat.eqb].
    - rewrite (erep_leafv _ _ _ _ Hn Hx). exists n, false, false.
      split; [done|]. (split_and!; try done; intros; exfalso; lia).
    - pose proof (kids_child _ _ _ _ _ (proj2 Hn) Hx) as Hc. destruct (child n (to_byte p)) as [c|].
      2:{ rewrite Hc. exists n, false, false. split; [done|]. (split_and!; try done; intros; exfalso; lia). }
      assert (exists c' g1 g2, hash_at E f c [] = (c', Some (look vs (4 * d' + 4) (16 * j + N.to_nat (to_byte p))%nat, g1, g2)) /\
        rep st vs d' (16 * j + N.to_nat (to_byte p)) c') as (c' & g1 & g2 & Hh & Hc').
      { apply rep_unfold in Hc as Hc2. destruct Hc2 as [Hb [[Hco _]|Hk]].
        - destruct (stub_br _ _ _ _ Hb Hco) as (h & Hh & Hlk). destruct f as [|f']; [lia|]. cbn [hash_at length Nat.ltb Nat.leb Nat.eqb].
          rewrite Hh. exists c, false, false. rewrite Hlk. done.
        - destruct (IH d' (16 * j + N.to_nat (to_byte p))%nat c [] (conj Hb Hk)) as (c' & g1 & g2 & Hh & Hc' & _);
            [constructor|cbn;lia|cbn [length]; lia|].
          cbn [length bidx] in Hh. replace (4 * d' + (4 - 0))%nat with (4 * d' + 4)%nat in Hh by lia.
          exists c', g1, g2. split; [done|]. by apply erep_rep. }
      rewrite Hh. replace (4 * d' + 4)%nat with (4 * S d')%nat by lia.
      exists (set_child n (to_byte p) c'), false, false. split; [done|].
      split; [by apply erep_set_child|]. (split_and!; try done; intros; exfalso; lia). }
  destruct (hn_br n !! p) as [r|] eqn:Hr.
  { destruct (proj1 (proj2 (proj1 Hn)) _ _ Hr) as (_ & _ & Hlk). rewrite Hlk. exists n, false, false.
    split; [done|]. (split_and!; try done; intros; congruence). }
  set (k := (4 * d + (3 - length p))%nat).
  assert (4 * d + (4 - length p) = S k)%nat as HSk by (unfold k; lia).
  assert (forall b, length (p ++ [b]) = S (length p)) as Hla by (intros; rewrite app_length; cbn; lia).
  assert (forall b, bidx j (p ++ [b]) = (2 * bidx j p + N.to_nat b)%nat) as Hbi by (intros; rewrite bidx_app; done).
  assert (forall b, 4 * d + (4 - length (p ++ [b])) = k)%nat as Hk4 by (intros; rewrite Hla; unfold k; lia).
  destruct (IH d j n (p ++ [0])) as (n1 & lln & lrn & Hh1 & Hn1 & Hd1 & Hf1 & Hf2 & _);
    [done|apply bits_app; split; [done|repeat constructor]|rewrite Hla; lia|rewrite Hla; lia|].
  rewrite Hh1, Hk4, Hbi. rewrite Hk4, Hbi in Hh1. replace (2 * bidx j p + N.to_nat 0)%nat with (2 * bidx j p)%nat in * by lia.
  replace (lln && negb lrn) with false by (destruct lln, lrn; try done; specialize (Hf1 eq_refl); done).
  destruct (IH d j n1 (p ++ [1])) as (n2 & rln & rrn & Hh2 & Hn2 & Hd2 & Hg1 & Hg2 & _);
    [done|apply bits_app; split; [done|repeat constructor]|rewrite Hla; lia|rewrite Hla; lia|].
  rewrite Hh2, Hk4, Hbi. replace (2 * bidx j p + N.to_nat 1)%nat with (2 * bidx j p + 1)%nat in * by lia.
  replace (rln && negb rrn) with false by (destruct rln, rrn; try done; specialize (Hg1 eq_refl); done).
  assert (lrn = true -> look vs k (2 * bidx j p + 1)%nat = None) as Hlr.
  { intros Ht. destruct (Hf2 Ht) as [Hl4 Hnone]. rewrite Hla in Hl4, Hnone. rewrite Hbi in Hnone.
    replace (N.to_nat 0) with 0%nat in Hnone by lia.
    replace k with (S (4 * d + (3 - S (length p)))) by (unfold k; lia). apply look_S_none.
    eapply look_mono; [|exact Hnone]. lia. }
  assert (lrn && is_some (look vs k (2 * bidx j p + 1)%nat) = false) as ->.
  { destruct lrn; [|done]. by rewrite Hlr. }
  rewrite HSk, look_S. rewrite Hd1 in Hd2.
  destruct (look vs k (2 * bidx j p)%nat) as [l|] eqn:Hleft.
  - exists (with_br n2 (<[p := hash_pair H l (default nilhash (look vs k (2 * bidx j p + 1)%nat))]> (hn_br n2))).
    exists false, (negb (is_some (look vs k (2 * bidx j p + 1)%nat))). split; [done|].
    split; [|split; [done|split; [done|split]]].
    + apply erep_insert_br; [done|done|lia|]. rewrite HSk, look_S, Hleft. done.
    + intros Hx. split; [lia|]. fold k. destruct (look vs k (2 * bidx j p + 1)%nat); done.
    + intros _ h [= <-]. cbn [with_br hn_br]. by rewrite lookup_insert.
  - assert (look vs k (2 * bidx j p + 1)%nat = None) as Hrn by (eapply look_mono; [|exact Hleft]; lia).
    rewrite Hrn. exists n2, true, true. split; [done|]. split_and!; try done. intros _. split; [lia|done].
Qed.

Lemma hash_at_cached f n r : hn_br n !! [] = Some r -> hash_at E (S f) n [] = (n, Some (Some r, false, false)).
Proof. intros Hr. cbn [hash_at length Nat.ltb Nat.leb Nat.eqb]. rewrite Hr. done. Qed.
(** Hashing a node. *)
Lemma hash_prefix_ok st d j n : (d <= 15)%nat -> rep st vs d j n ->
  exists n' f1 f2, hash_prefix E n [] = (n', Some (look vs (4 * d + 4) j, f1, f2)) /\ rep st vs d j n' /\
    hn_dirty n' = hn_dirty n /\ hn_leaf n' = hn_leaf n /\ (erep st vs d j n -> erep st vs d j n' /\ is_Some (hn_br n' !! [])).
Proof.
  intros Hd Hn. apply rep_unfold in Hn as Hn2. destruct Hn2 as [Hb Hor].
  destruct (hn_br n !! []) as [r|] eqn:Hr.
  { exists n, false, false. unfold hash_prefix, hash_fuel. rewrite (hash_at_cached 80 n r Hr). destruct (proj1 (proj2 Hb) _ _ Hr) as (_ & _ & Hl). cbn [length bidx] in Hl.
    replace (4 * d + (4 - 0))%nat with (4 * d + 4)%nat in Hl by lia. rewrite Hl. rewrite Hr. eauto 10. }
  destruct Hor as [[Hc _]|Hk]; [destruct (stub_br _ _ _ _ Hb Hc) as (h & Hh & _); congruence|].
  destruct (hash_at_ok st hash_fuel d j n []) as (n' & f1 & f2 & Hh & Hn' & Hdd & _ & _ & Hbr);
    [done|constructor|cbn [length]; lia|unfold hash_fuel; cbn [length]; lia|].
  cbn [length bidx] in *. replace (4 * d + (4 - 0))%nat with (4 * d + 4)%nat in * by lia.
  exists n', f1, f2. split; [done|]. split; [by apply erep_rep|]. split; [done|].
  split; [rewrite (erep_leaf _ _ _ _ Hn'); by rewrite (erep_leaf st d j n)|]. intros _. split; [done|].
  destruct Hb as [[h Hs] _]. exists h. apply Hbr; [lia|done].
Qed.

End rep.
