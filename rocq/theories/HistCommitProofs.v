(** Committing: equal hashes come from equal nodes, and saving keeps what was saved. *)
From Verif Require Import Base MerkleSpec MerkleModel TrieSpec TrieModel TrieProofModel.
From Verif Require Import HistSpec HistModel HistLayerProofs HistRepProofs HistOpProofs HistPathProofs.
From stdpp Require Import gmap.
Open Scope N_scope.
Arguments Nat.mul : simpl never.
Arguments Nat.add : simpl never.
Arguments Nat.sub : simpl never.

Section commit.
Context (E : henv) (EOK : henv_ok E).
Local Notation H := (hH E).
Local Notation nilhash := (nilhash H).
Local Notation look vs k i := (layers H k vs !! i).
Local Notation len32 := (Forall (fun v : list N => length v = 32%nat)).
Implicit Types (vs : list (list N)) (st : hstore).

(** The lists in play. *)
Context (good : list (list N) -> Prop).
Context (G32 : forall vs, good vs -> len32 vs).
Context (Ginj : forall vs vs' x y, good vs -> good vs' -> x ∈ hist_inputs H vs -> y ∈ hist_inputs H vs' -> H x = H y -> x = y).
Context (Gval : forall vs vs' v x, good vs -> good vs' -> v ∈ vs -> x ∈ hist_inputs H vs' -> v <> H x).

Lemma look_ne_nil vs k i h : good vs -> (k <= 64)%nat -> look vs k i = Some h -> h <> nilhash.
Proof.
  intros Hg Hk Hh ->. destruct k as [|k].
  - cbn [layers] in Hh. apply elem_of_list_lookup_2 in Hh. eapply (Gval vs vs); [done..| |reflexivity]. apply hist_inputs_nil.
  - rewrite look_S in Hh. destruct (look vs k (2 * i)%nat) as [a|] eqn:Ha; [|done]. injection Hh as Hh.
    apply (Ginj vs vs) in Hh; [|done|done|apply hist_inputs_in; [lia|done]|apply hist_inputs_nil].
    apply (f_equal length) in Hh. rewrite app_length in Hh. cbn [length] in Hh.
    rewrite (look_len H vs k (2 * i) a (hok_H _ EOK) (G32 _ Hg) Ha) in Hh. lia.
Qed.

Lemma same_children vs vs' k k' i i' b : good vs -> good vs' -> (k < 64)%nat -> (k' < 64)%nat -> (b < 2)%nat ->
  look vs (S k) i = look vs' (S k') i' -> look vs k (2 * i + b)%nat = look vs' k' (2 * i' + b)%nat.
Proof.
  intros Hg Hg' Hk Hk' Hb. rewrite !look_S.
  destruct (look vs k (2 * i)%nat) as [a|] eqn:Ha, (look vs' k' (2 * i')%nat) as [a'|] eqn:Ha'; try done.
  - intros [= He]. apply (Ginj vs vs') in He; [|done|done|by apply hist_inputs_in|by apply hist_inputs_in].
    apply app_inj_1 in He as [-> He].
    2:{ rewrite (look_len H vs k (2 * i) a (hok_H _ EOK) (G32 _ Hg) Ha).
        by rewrite (look_len H vs' k' (2 * i') a' (hok_H _ EOK) (G32 _ Hg') Ha'). }
    destruct b as [|[|b]]; [|clear Hb|lia].
    + replace (2 * i + 0)%nat with (2 * i)%nat by lia. replace (2 * i' + 0)%nat with (2 * i')%nat by lia. congruence.
    + destruct (look vs k (2 * i + 1)%nat) as [o|] eqn:Ho, (look vs' k' (2 * i' + 1)%nat) as [o'|] eqn:Ho';
        cbn [default] in He; change (id ?z) with z in He; [congruence| | |done].
      * exfalso. by apply (look_ne_nil vs k _ _ Hg ltac:(lia) Ho).
      * exfalso. by apply (look_ne_nil vs' k' _ _ Hg' ltac:(lia) Ho').
  - intros _. rewrite (look_mono H vs k (2 * i) (2 * i + b) ltac:(lia) Ha). by rewrite (look_mono H vs' k' (2 * i') (2 * i' + b) ltac:(lia) Ha').
Qed.
Lemma same_below vs vs' : good vs -> good vs' -> forall p k k' i i', bits p -> (length p + k <= 64)%nat -> (length p + k' <= 64)%nat ->
  look vs (length p + k) i = look vs' (length p + k') i' -> look vs k (bidx i p) = look vs' k' (bidx i' p).
Proof.
  intros Hg Hg'. induction p as [|b p IH]; intros k k' i i' Hp Hk Hk' He; [done|]. cbn [length] in *. inversion Hp; subst.
  cbn [bidx]. apply IH; [done|lia|lia|]. apply same_children; [done|done|lia|lia|lia|].
  replace (S (length p + k)) with (S (length p) + k)%nat by lia. by replace (S (length p + k')) with (S (length p) + k')%nat by lia.
Qed.
Lemma same_layer vs vs' : good vs -> good vs' -> forall k k' i i' h, (k <= 64)%nat -> (k' <= 64)%nat ->
  look vs k i = Some h -> look vs' k' i' = Some h -> k = k'.
Proof.
  assert (forall vs vs', good vs -> good vs' -> forall k i i' h, (S k <= 64)%nat ->
    look vs 0 i = Some h -> look vs' (S k) i' = Some h -> False) as H0.
  { clear vs vs'. intros vs vs' Hg Hg' k i i' h Hk Hh Hh'. rewrite look_S in Hh'. destruct (look vs' k (2 * i')%nat) as [a|] eqn:Ha; [|done].
    injection Hh' as <-. cbn [layers] in Hh. apply elem_of_list_lookup_2 in Hh.
    eapply (Gval vs vs'); [done|done|exact Hh| |reflexivity]. apply hist_inputs_in; [lia|done]. }
  intros Hg Hg'. induction k as [|k IH]; intros [|k'] i i' h Hk Hk' Hh Hh'; [done| | |].
  - exfalso. by eapply (H0 vs vs').
  - exfalso. by eapply (H0 vs' vs).
  - f_equal. assert (is_Some (look vs (S k) i)) as Hs by eauto. apply look_S_some in Hs as [a Ha].
    pose proof (same_children vs vs' k k' i i' 0 Hg Hg' ltac:(lia) ltac:(lia) ltac:(lia)) as Hc.
    replace (2 * i + 0)%nat with (2 * i)%nat in Hc by lia.
    eapply (IH k' _ _ a); [lia|lia|exact Ha|]. rewrite <- Hc; [exact Ha|]. by rewrite Hh, Hh'.
Qed.

(** Nodes with the same hash: one stored form serves both. *)
Lemma same_cont vs vs' d d' j j' h c : good vs -> good vs' -> (d <= 15)%nat -> (d' <= 15)%nat ->
  look vs (4 * d + 4) j = Some h -> look vs' (4 * d' + 4) j' = Some h -> cont_ok E vs d j c -> cont_ok E vs' d' j' c.
Proof.
  intros Hg Hg' Hd Hd' Hh Hh' Hc.
  pose proof (same_layer vs vs' Hg Hg' (4 * d + 4) (4 * d' + 4) j j' h ltac:(lia) ltac:(lia) Hh Hh') as Hl. assert (d' = d) as -> by lia. clear Hl Hd'.
  assert (forall p, bits p -> (length p <= 4)%nat -> look vs (4 * d + (4 - length p)) (bidx j p) = look vs' (4 * d + (4 - length p)) (bidx j' p)) as Hsame.
  { intros p Hp Hl. apply same_below; [done|done|done|lia|lia|].
    replace (length p + (4 * d + (4 - length p)))%nat with (4 * d + 4)%nat by lia. congruence. }
  assert (arr E vs d j = arr E vs' d j') as Harr.
  { apply list_eq_same_length with 16%nat; rewrite ?arr_len; try done. intros i x y Hi. rewrite !arr_lookup by done.
    specialize (Hsame (to_binary (N.of_nat i) 4) (to_binary_bits _ _)). rewrite to_binary_len, !bidx_binary, !Nat2N.id in Hsame by lia.
    replace (4 * d + (4 - 4))%nat with (4 * d)%nat in Hsame by lia. rewrite Hsame by lia. congruence. }
  destruct Hc as [->|(b & -> & Hb & Hbo)]; [left; by rewrite Harr|]. right. exists b. rewrite Harr. split; [done|]. split; [done|].
  intros p r Hp. destruct (Hbo p r Hp) as (H1 & H2 & H3). split; [done|]. split; [done|]. rewrite <- Hsame; [done|done|lia].
Qed.

(* ------------------------------------------------------------ growing stores *)
Definition stle st st' : Prop := forall vs d j, good vs -> (d <= 15)%nat -> stored E st vs d j -> stored E st' vs d j.
Lemma stle_refl st : stle st st.
Proof. intros vs d j _ _ Hs. done. Qed.
Lemma stle_trans st1 st2 st3 : stle st1 st2 -> stle st2 st3 -> stle st1 st3.
Proof. intros H1 H2 vs d j Hg Hd Hs. auto. Qed.
Lemma stle_save st vs d j h c : good vs -> (d <= 15)%nat -> look vs (4 * d + 4) j = Some h -> cont_ok E vs d j c -> stle st (<[h := c]> st).
Proof.
  intros Hg Hd Hh Hc vs' d' j' Hg'. revert j'. induction d' as [|d' IH]; intros j' Hd' Hs; cbn [stored] in *;
    destruct Hs as [(h' & c' & Hh' & Hne & Hc' & Hok) Hk].
  - split; [|done]. exists h'. destruct (decide (h = h')) as [<-|Hneq].
    + exists c. rewrite lookup_insert. split; [done|]. split; [done|]. split; [done|]. exact (same_cont vs vs' d _ j j' h c Hg Hg' Hd Hd' Hh Hh' Hc).
    + exists c'. rewrite lookup_insert_ne by done. done.
  - split; [|intros i Hi Hx; apply IH; [lia|by apply Hk]]. exists h'. destruct (decide (h = h')) as [<-|Hneq].
    + exists c. rewrite lookup_insert. split; [done|]. split; [done|]. split; [done|]. exact (same_cont vs vs' d _ j j' h c Hg Hg' Hd Hd' Hh Hh' Hc).
    + exists c'. rewrite lookup_insert_ne by done. done.
Qed.
Lemma rep_mono st st' vs : stle st st' -> good vs -> forall d j n, (d <= 15)%nat -> rep E st vs d j n -> rep E st' vs d j n.
Proof.
  intros Hle Hg. induction d as [|d IH]; intros j n Hd [(Hs & Hb & Hst) Hor]%rep_unfold; apply rep_unfold;
    (split; [split; [done|]; split; [done|]; intros Hdn; apply Hle; [done|done|by apply Hst]|]).
  - exact Hor.
  - destruct Hor as [?|(Hlf & Hlc & Hk)]; [by left|]. right. split; [done|]. split; [done|]. intros i Hi.
    specialize (Hk i Hi). destruct (hn_ch n !! i) as [[c|]|]; [|done|done]. apply IH; [lia|done].
Qed.

(* ------------------------------------------------------------ children *)
Definition klist st vs (d' J : nat) (l : list (option hnode)) : Prop :=
  forall i o, l !! i = Some o -> match o with Some c => rep E st vs d' (J + i) c | None => look vs (4 * S d') (J + i)%nat = None end.
Lemma klist_cons st vs d' J o l : klist st vs d' J (o :: l) <->
  match o with Some c => rep E st vs d' J c | None => look vs (4 * S d') J = None end /\ klist st vs d' (S J) l.
Proof.
  unfold klist. split.
  - intros Hl. split; [specialize (Hl 0%nat o eq_refl); by replace (J + 0)%nat with J in Hl by lia|].
    intros i o' Hi. specialize (Hl (S i) o' Hi). by replace (S J + i)%nat with (J + S i)%nat by lia.
  - intros [Ho Hl] [|i] o' Hi; [injection Hi as <-; by replace (J + 0)%nat with J by lia|].
    specialize (Hl i o' Hi). by replace (J + S i)%nat with (S J + i)%nat by lia.
Qed.
Lemma klist_mono st st' vs d' J l : stle st st' -> good vs -> (d' <= 15)%nat -> klist st vs d' J l -> klist st' vs d' J l.
Proof. intros Hle Hg Hd Hl i o Hi. specialize (Hl i o Hi). destruct o; [|done]. by eapply rep_mono. Qed.
Lemma klist_kids st vs d' j n : length (hn_ch n) = 16%nat -> hn_leaf n = false ->
  kids E st vs (S d') j n <-> klist st vs d' (16 * j) (hn_ch n).
Proof.
  intros Hl Hlf. unfold kids, klist. split.
  - intros (_ & _ & Hk) i o Hi. assert (i < 16)%nat as Hlt by (apply lookup_lt_Some in Hi; lia).
    specialize (Hk i Hlt). rewrite Hi in Hk. destruct o; done.
  - intros Hk. split; [done|]. split; [done|]. intros i Hi. destruct (lookup_lt_is_Some_2 (hn_ch n) i ltac:(lia)) as [o Ho].
    specialize (Hk i o Ho). rewrite Ho. destruct o; done.
Qed.

Lemma child_hashes_ok st vs d' : (d' <= 15)%nat -> forall l J, klist st vs d' J l ->
  exists l', child_hashes E l = (l', Some (map (fun i => look vs (4 * S d') i) (seq J (length l)))) /\
    klist st vs d' J l' /\ length l' = length l.
Proof.
  intros Hd. induction l as [|[c|] l IH]; intros J Hk; cbn [child_hashes length seq map].
  - exists []. done.
  - apply klist_cons in Hk as [Hc Hk]. destruct (hash_prefix_ok E vs st d' J c Hd Hc) as (c' & f1 & f2 & -> & Hc' & Hdc & _).
    destruct (IH _ Hk) as (l' & -> & Hk' & Hl'). cbn [option_map]. replace (4 * d' + 4)%nat with (4 * S d')%nat by lia.
    eexists. split; [done|]. split; [apply klist_cons; done|]. cbn [length]; lia.
  - apply klist_cons in Hk as [Hc Hk]. destruct (IH _ Hk) as (l' & -> & Hk' & Hl'). cbn [option_map]. rewrite Hc.
    eexists. split; [done|]. split; [apply klist_cons; done|]. cbn [length]; lia.
Qed.

Lemma arr_seq vs d j : arr E vs d j = map (fun i => look vs (4 * d) i) (seq (16 * j) 16).
Proof.
  apply list_eq_same_length with 16%nat; rewrite ?arr_len, ?map_length, ?seq_length; try done.
  intros i x y Hi. rewrite arr_lookup, map_lookup, lookup_seq_lt by done. cbn [option_map]. congruence.
Qed.
(** The nodes below are stored. *)
Definition kstored st vs (d j : nat) : Prop :=
  match d with
  | O => True
  | S d' => forall i, (i < 16)%nat -> is_Some (look vs (4 * d) (16 * j + i)%nat) -> stored E st vs d' (16 * j + i)
  end.
Lemma stored_unfold st vs d j : stored E st vs d j <->
  (exists h c, look vs (4 * d + 4) j = Some h /\ h <> nilhash /\ st !! h = Some c /\ cont_ok E vs d j c) /\ kstored st vs d j.
Proof. destruct d; done. Qed.

Lemma node_slots_ok st vs d j n : (d <= 15)%nat -> erep E st vs d j n ->
  exists n', node_slots E n = (n', Some (arr E vs d j)) /\ erep E st vs d j n' /\ hn_br n' = hn_br n /\ hn_leaf n' = (d =? 0)%nat.
Proof.
  intros Hd Hn. unfold node_slots. rewrite (erep_leaf E vs _ _ _ _ Hn). destruct d as [|d']; cbn [Nat.eqb].
  - exists n. destruct Hn as [Hb [Hlf Hlv]]. rewrite Hlv. done.
  - destruct Hn as [Hb Hk]. assert (length (hn_ch n) = 16%nat) as Hl by apply Hk. assert (hn_leaf n = false) as Hlf by apply Hk.
    apply klist_kids in Hk; [|done|done]. destruct (child_hashes_ok st vs d' ltac:(lia) _ _ Hk) as (l' & -> & Hk' & Hl').
    exists (with_ch n l'). rewrite arr_seq, Hl. split; [done|]. split; [|done]. split; [exact Hb|].
    apply klist_kids; cbn [with_ch hn_ch hn_leaf]; [congruence|done|done].
Qed.

Lemma save_full_ok st vs d j n : good vs -> (d <= 15)%nat -> erep E st vs d j n -> kstored st vs d j ->
  exists st' n', save_full E st n = (st', n', true) /\ stle st st' /\ erep E st' vs d j n' /\ hn_dirty n' = false.
Proof.
  intros Hg Hd Hn Hks. unfold save_full. destruct (hn_dirty n) eqn:Hdn; cbn [negb]; [|exists st, n; split; [done|]; split; [apply stle_refl|done]].
  destruct (hash_prefix_ok E vs st d j n Hd (erep_rep _ _ _ _ _ _ Hn)) as (n1 & f1 & f2 & -> & _ & Hdn1 & Hlf1 & Hn1).
  destruct (Hn1 Hn) as [Hn1' [rb Hrb]]. clear Hn1. rename Hn1' into Hn1.
  destruct Hn1 as [[[h Hh] Hbr] Hk1] eqn:Hx. clear Hx. rewrite Hh.
  destruct (node_slots_ok st vs d j n1 Hd Hn1) as (n2 & -> & Hn2 & Hbr2 & Hlf2).
  destruct (if hn_leaf n1 then _ else _) as [[has missing] lst].
  set (content := if _ || _ || _ then _ else _).
  assert (cont_ok E vs d j content) as Hc.
  { unfold content, cont_ok. rewrite Hlf2. destruct (negb has || missing || (lst <? 15)%Z); [right|by left].
    exists (hn_br n2). split; [done|]. split; [|apply Hn2]. rewrite Hbr2. intros He. rewrite He in Hrb. done. }
  pose proof (stle_save st vs d j h content Hg Hd Hh Hc) as Hle.
  exists (<[h:=content]> st), (with_dirty n2 false). split; [done|]. split; [done|]. split; [|done].
  assert (stored E (<[h:=content]> st) vs d j) as Hst.
  { apply stored_unfold. split.
    - exists h, content. rewrite lookup_insert. split; [done|]. split; [|done]. eapply look_ne_nil; [done| |exact Hh]. lia.
    - destruct d as [|d']; [done|]. intros i Hi Hs. apply Hle; [done|lia|by apply Hks]. }
  pose proof (erep_rep _ _ _ _ _ _ Hn2) as Hr. apply (rep_mono st _ vs Hle Hg d j n2 Hd) in Hr. apply rep_unfold in Hr as [(Hs & Hb & _) Hor].
  split; [split; [done|]; split; [done|]; intros _; exact Hst|].
  destruct Hor as [[Hco _]|Hk]; [by rewrite (erep_not_collapsed E st vs d j n2 Hn2) in Hco|]. destruct d; exact Hk.
Qed.

(* ------------------------------------------------------------ Commit *)
Definition clean (l : list (option hnode)) : Prop := forall i c, l !! i = Some (Some c) -> hn_dirty c = false.
Lemma commit_list_ok vs (d' : nat) (cm : hstore -> hnode -> hstore * hnode * bool) : good vs -> (d' <= 15)%nat ->
  (forall st J x, rep E st vs d' J x -> exists st' x', cm st x = (st', x', true) /\ stle st st' /\ rep E st' vs d' J x' /\ hn_dirty x' = false) ->
  forall l st J, klist st vs d' J l ->
  exists st' l', commit_list cm st l = (st', l', true) /\ stle st st' /\ klist st' vs d' J l' /\ length l' = length l /\ clean l'.
Proof.
  intros Hg Hd Hcm. induction l as [|[c|] l IH]; intros st J Hk; cbn [commit_list].
  - exists st, []. split; [done|]. split; [apply stle_refl|]. done.
  - apply klist_cons in Hk as [Hc Hk].
    assert (exists st1 c', (if hn_dirty c then cm st c else (st, c, true)) = (st1, c', true) /\ stle st st1 /\ rep E st1 vs d' J c' /\ hn_dirty c' = false)
      as (st1 & c' & He & Hle & Hc' & Hdc).
    { destruct (hn_dirty c) eqn:Hdc; [by apply Hcm|]. exists st, c. split; [done|]. split; [apply stle_refl|done]. }
    apply (klist_mono st st1 vs d' (S J) l Hle Hg Hd) in Hk. destruct (IH st1 (S J) Hk) as (st2 & l' & Hl & Hle2 & Hk' & Hlen & Hcl).
    exists st2, (Some c' :: l'). split; [|split; [by eapply stle_trans|split; [apply klist_cons; split; [by eapply rep_mono|done]|split; [cbn [length]; lia|]]]].
    + destruct (hn_dirty c); [by rewrite He, Hl|]. injection He as -> ->. by rewrite Hl.
    + intros [|i] x Hx; [by injection Hx as <-|by apply (Hcl i)].
  - apply klist_cons in Hk as [Hc Hk]. destruct (IH st (S J) Hk) as (st2 & l' & -> & Hle2 & Hk' & Hlen & Hcl).
    exists st2, (None :: l'). split; [done|]. split; [done|]. split; [by apply klist_cons|]. split; [cbn [length]; lia|].
    intros [|i] x Hx; [done|by apply (Hcl i)].
Qed.
Lemma commit_ok vs : good vs -> forall d f st j n, (d <= 15)%nat -> (d <= f)%nat -> rep E st vs d j n ->
  exists st' n', commit E f st n = (st', n', true) /\ stle st st' /\ rep E st' vs d j n' /\ hn_dirty n' = false.
Proof.
  intros Hg. induction d as [|d' IH]; intros f st j n Hd Hf Hn.
  all: assert (commit E f st n = if negb (hn_dirty n) then (st, n, true) else
    if hn_leaf n then let '(st1, n1, ok) := save_full E st n in (st1, if ok then with_dirty n1 false else n1, ok)
    else match f with O => (st, n, false) | S f =>
      let '(st1, c, ok) := commit_list (commit E f) st (hn_ch n) in
      let n1 := with_ch n c in
      if negb ok then (st1, n1, false)
      else let '(st2, n2, ok2) := save_full E st1 n1 in (st2, if ok2 then with_dirty n2 false else n2, ok2) end) as ->
    by (destruct f; done).
  all: destruct (hn_dirty n) eqn:Hdn; cbn [negb]; [|exists st, n; split; [done|]; split; [apply stle_refl|done]].
  all: assert (erep E st vs _ j n) as Hen by (apply rep_unfold in Hn as [Hb [[_ Hx]|Hk]]; [congruence|by split]).
  all: rewrite (erep_leaf E vs _ _ _ _ Hen); cbn [Nat.eqb].
  - destruct (save_full_ok st vs 0 j n Hg Hd Hen I) as (st' & n' & -> & Hle & Hn' & Hd').
    exists st', n'. split; [|split; [done|split; [by apply erep_rep|done]]]. destruct n'; cbn in Hd'; subst; done.
  - destruct f as [|f]; [lia|]. destruct Hen as [(Hs & Hbr & _) Hk]. assert (length (hn_ch n) = 16%nat) as Hl by apply Hk. assert (hn_leaf n = false) as Hlf by apply Hk.
    apply klist_kids in Hk; [|done|done].
    destruct (commit_list_ok vs d' (commit E f) Hg ltac:(lia) (fun st J x Hx => IH f st J x ltac:(lia) ltac:(lia) Hx) _ st _ Hk)
      as (st1 & l' & -> & Hle & Hk' & Hlen & Hcl). cbn [negb].
    assert (kids E st1 vs (S d') j (with_ch n l')) as Hkids by (apply klist_kids; cbn [with_ch hn_ch hn_leaf]; [congruence|done|done]).
    assert (erep E st1 vs (S d') j (with_ch n l')) as Hen.
    { split; [|done]. split; [done|]. split; [done|]. cbn [with_ch hn_dirty]. congruence. }
    assert (kstored st1 vs (S d') j) as Hks.
    { intros i Hi Hsi. destruct (lookup_lt_is_Some_2 l' i ltac:(lia)) as [o Ho]. pose proof (Hk' i o Ho) as Hr.
      destruct o as [c|]; [|rewrite Hr in Hsi; by destruct Hsi]. apply rep_unfold in Hr as [(_ & _ & Hst) _]. apply Hst. by apply (Hcl i). }
    destruct (save_full_ok st1 vs (S d') j _ Hg Hd Hen Hks) as (st' & n' & -> & Hle' & Hn' & Hd').
    exists st', n'. split; [|split; [by eapply stle_trans|split; [by apply erep_rep|done]]]. destruct n'; cbn in Hd'; subst; done.
Qed.
End commit.
