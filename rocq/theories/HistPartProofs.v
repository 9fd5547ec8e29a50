(** Trees with parts missing: slots below a cached hash that are not there. *)
From Verif Require Import Base MerkleSpec MerkleModel TrieSpec TrieModel TrieProofModel HistSpec HistModel HistLayerProofs
  HistRepProofs HistOpProofs HistPathProofs.
From stdpp Require Import gmap.
Open Scope N_scope.
Arguments Nat.mul : simpl never.
Arguments Nat.add : simpl never.
Arguments Nat.sub : simpl never.

Local Notation fresh := HistOpProofs.fresh.

Section part.
Context (E : henv).
Local Notation H := (hH E).
Local Notation nilhash := (nilhash H).
(** The positions that calls go to. *)
Context (A : nat -> Prop).

(** Slot [i] is below a cached hash that no path to a position of [A] passes. *)
Definition miss (b : branches) (d j : nat) (i : N) : Prop :=
  exists q r, b !! q = Some r /\ (1 <= length q <= 3)%nat /\ q = take (length q) (to_binary i 4) /\
    forall pos y, A pos -> y < 16 -> up (4 * d) pos = (16 * j + N.to_nat y)%nat -> q <> take (length q) (to_binary y 4).
Definition off (d j : nat) (i : N) : Prop := forall pos, A pos -> up (4 * d) pos <> (16 * j + N.to_nat i)%nat.
Fixpoint psub (d j : nat) (n n' : hnode) : Prop :=
  hn_br n = hn_br n' /\
  match d with
  | O => hn_leaf n = true /\ hn_leaf n' = true /\ length (hn_lv n) = 16%nat /\ length (hn_lv n') = 16%nat /\
      (exists i, i < 16 /\ is_Some (leafv n i)) /\
      forall i, i < 16 -> leafv n i = leafv n' i \/ (leafv n i = None /\ miss (hn_br n) 0 j i)
  | S d' => hn_leaf n = false /\ hn_leaf n' = false /\ length (hn_ch n) = 16%nat /\ length (hn_ch n') = 16%nat /\
      (exists i, i < 16 /\ is_Some (child n i)) /\
      forall i, i < 16 -> match child n i, child n' i with
                          | None, None => True
                          | None, Some _ => miss (hn_br n) d j i
                          | Some c, Some c' => psub d' (16 * j + N.to_nat i) c c' \/ (c = c' /\ off d j i)
                          | Some _, None => False end
  end.
Lemma psub_leaf d j n n' : psub d j n n' -> hn_leaf n = (d =? 0)%nat /\ hn_leaf n' = (d =? 0)%nat.
Proof. destruct d; intros (_ & ? & ? & _); done. Qed.
Lemma psub_br d j n n' : psub d j n n' -> hn_br n = hn_br n'.
Proof. destruct d; intros [? _]; done. Qed.

(* ------------------------------------------------------------ changing slots *)
Lemma child_set n i x c : length (hn_ch n) = 16%nat -> x < 16 ->
  child (set_child n x c) i = if decide (i = x) then Some c else child n i.
Proof.
  intros Hl Hx. unfold child, set_child, with_ch. cbn [hn_ch]. destruct (decide (i = x)) as [->|Hne].
  - rewrite list_lookup_insert by lia. done.
  - rewrite list_lookup_insert_ne by lia. done.
Qed.
Lemma miss_br b b' d j i : miss b d j i ->
  (forall q, (1 <= length q <= 3)%nat ->
     (forall pos y, A pos -> y < 16 -> up (4 * d) pos = (16 * j + N.to_nat y)%nat -> q <> take (length q) (to_binary y 4)) ->
     is_Some (b !! q) -> is_Some (b' !! q)) -> miss b' d j i.
Proof.
  intros (q & r & Hq & Hl & Ht & Hp) Hb. destruct (Hb q Hl Hp ltac:(eauto)) as [r' Hr']. exists q, r'. done.
Qed.
(** Same change of the cached hashes on both sides. *)
Lemma psub_with_br d j n n' b : psub d j n n' ->
  (forall q, (1 <= length q <= 3)%nat ->
     (forall pos y, A pos -> y < 16 -> up (4 * d) pos = (16 * j + N.to_nat y)%nat -> q <> take (length q) (to_binary y 4)) ->
     is_Some (hn_br n !! q) -> is_Some (b !! q)) -> psub d j (with_br n b) (with_br n' b).
Proof.
  intros Hs Hb. destruct d as [|d']; cbn [psub] in *.
  - destruct Hs as (Hbr & Hl & Hl' & Hn & Hn' & Hex & Hi). split; [done|]. split; [done|]. split; [done|]. split; [done|]. split; [done|].
    split; [done|]. intros i Hi16. change (leafv (with_br n b) i) with (leafv n i). change (leafv (with_br n' b) i) with (leafv n' i).
    destruct (Hi i Hi16) as [?|[? Hm]]; [by left|]. right. split; [done|]. by eapply miss_br.
  - destruct Hs as (Hbr & Hl & Hl' & Hn & Hn' & Hex & Hi). split; [done|]. split; [done|]. split; [done|]. split; [done|]. split; [done|].
    split; [done|]. intros i Hi16. change (child (with_br n b) i) with (child n i). change (child (with_br n' b) i) with (child n' i).
    specialize (Hi i Hi16). destruct (child n i), (child n' i); try done. by eapply miss_br.
Qed.
Lemma psub_with_dirty d j n n' b b' : psub d j n n' -> psub d j (with_dirty n b) (with_dirty n' b').
Proof. destruct d; done. Qed.
Lemma psub_set_child d' j n n' x c c' : psub (S d') j n n' -> x < 16 ->
  psub d' (16 * j + N.to_nat x) c c' \/ (c = c' /\ off (S d') j x) -> psub (S d') j (set_child n x c) (set_child n' x c').
Proof.
  intros (Hbr & Hl & Hl' & Hn & Hn' & Hex & Hi) Hx Hc. cbn [psub].
  split; [done|]. split; [done|]. split; [done|]. split; [cbn; by rewrite insert_length|]. split; [cbn; by rewrite insert_length|].
  split; [exists x; split; [done|]; rewrite child_set by done; rewrite decide_True by done; eauto|].
  intros i Hi16. rewrite !child_set by done. destruct (decide (i = x)) as [->|]; [done|]. by apply Hi.
Qed.
Lemma psub_clear d j n n' pos x : psub d j n n' -> A pos -> x < 16 -> up (4 * d) pos = (16 * j + N.to_nat x)%nat ->
  psub d j (clear_ancestors n (to_binary x 4)) (clear_ancestors n' (to_binary x 4)).
Proof.
  intros Hs HA Hx Hu. pose proof (psub_br _ _ _ _ Hs) as Hbr. unfold clear_ancestors at 2. rewrite <- Hbr.
  apply psub_with_br; [done|]. intros q Hq Hno Hsome.
  change (is_Some (hn_br (clear_ancestors n (to_binary x 4)) !! q)). rewrite clear_lookup by (lia || apply to_binary_len).
  rewrite decide_False; [done|]. by apply (Hno pos).
Qed.
Lemma psub_collapsed d j n n' : psub d j n n' -> collapsed n = false /\ collapsed n' = false.
Proof.
  intros Hs.
  assert (forall (m : hnode) i c, child m i = Some c -> has_child m = true) as Hc.
  { intros m i c Hm. unfold child in Hm. destruct (hn_ch m !! N.to_nat i) as [[c1|]|] eqn:Ho; try done. by eapply existsb_lookup. }
  assert (forall (m : hnode) i c, leafv m i = Some c -> has_leaf m = true) as Hv.
  { intros m i c Hm. unfold leafv in Hm. destruct (hn_lv m !! N.to_nat i) as [[c1|]|] eqn:Ho; try done. by eapply existsb_lookup. }
  unfold collapsed. destruct d as [|d'].
  - destruct Hs as (_ & -> & -> & _ & _ & (i & Hi16 & v & Hi) & Hall). rewrite (Hv _ _ _ Hi).
    destruct (Hall i Hi16) as [Heq|[? _]]; [|congruence]. rewrite Heq in Hi. rewrite (Hv _ _ _ Hi). by rewrite !andb_false_r.
  - destruct Hs as (_ & -> & -> & _ & _ & (i & Hi16 & v & Hi) & Hall). rewrite (Hc _ _ _ Hi).
    specialize (Hall i Hi16). rewrite Hi in Hall. destruct (child n' i) as [c'|] eqn:Hi'; [|done]. rewrite (Hc _ _ _ Hi'). by rewrite !andb_false_r.
Qed.

(* ------------------------------------------------------------ hashing *)
Lemma hash_psub : forall fuel d j n n' p m' r, psub d j n n' -> bits p -> (length p <= 4)%nat ->
  (forall l, (1 <= l < length p)%nat -> hn_br n !! take l p = None) ->
  hash_at E fuel n' p = (m', Some r) ->
  exists m, hash_at E fuel n p = (m, Some r) /\ psub d j m m' /\ forall q, take (length p) q <> p -> hn_br m !! q = hn_br n !! q.
Proof.
  induction fuel as [|f IH]; intros d j n n' p m' r Hs Hp Hl Hpre; cbn [hash_at]; [done|].
  destruct (Nat.ltb_spec 4 (length p)) as [?|_]; [done|].
  destruct (Nat.eqb_spec (length p) 4) as [He|Hne].
  { destruct (bits_4 p Hp He) as [Hx Hb]. destruct (psub_leaf _ _ _ _ Hs) as [-> ->]. set (x := to_byte p) in *.
    assert (forall d, miss (hn_br n) d j x -> False) as Hnm.
    { intros d1 (q & r' & Hq & Hlq & Htq & _). rewrite <- Hb in Htq. rewrite Htq in Hq. rewrite Hpre in Hq; [done|lia]. }
    destruct d as [|d']; cbn [Nat.eqb].
    - intros [= <- <-]. exists n. split; [|done]. destruct Hs as (_ & _ & _ & _ & _ & _ & Hall).
      destruct (Hall x Hx) as [->|[_ Hm]]; [done|]. by apply Hnm in Hm.
    - pose proof Hs as (_ & _ & _ & _ & _ & _ & Hall). specialize (Hall x Hx).
      destruct (child n x) as [c|], (child n' x) as [c'|]; [|done|by apply Hnm in Hall|intros [= <- <-]; by exists n].
      destruct Hall as [Hc|[<- Hoff]].
      + destruct (hash_at E f c' []) as [c1' r1'] eqn:Hh. destruct r1' as [[[h f1] f2]|]; [|done]. intros [= <- <-].
        destruct (IH d' _ c c' [] c1' (h, f1, f2) Hc) as (c1 & -> & Hc1 & _); [constructor|cbn; lia|cbn; lia|exact Hh|].
        eexists. split; [done|]. split; [|done]. apply psub_set_child; [done|done|by left].
      + destruct (hash_at E f c []) as [c1 r1] eqn:Hh. destruct r1 as [[[h f1] f2]|]; [|done]. intros [= <- <-].
        eexists. split; [done|]. split; [|done]. apply psub_set_child; [done|done|by right]. }
  rewrite <- (psub_br _ _ _ _ Hs). destruct (hn_br n !! p) as [r0|] eqn:Hr0; [intros [= <- <-]; by exists n|].
  assert (forall b, length (p ++ [b]) = S (length p)) as Hla by (intros; rewrite app_length; cbn; lia).
  assert (forall b, b < 2 -> bits (p ++ [b])) as Hbb by (intros b Hb; apply bits_app; split; [done|by constructor]).
  assert (forall b l, (1 <= l < length (p ++ [b]))%nat -> hn_br n !! take l (p ++ [b]) = None) as Hpre2.
  { intros b l Hlt. rewrite Hla in Hlt. rewrite take_app_le by lia. destruct (decide (l = length p)) as [->|]; [by rewrite firstn_all|].
    apply Hpre. lia. }
  assert (forall b q, take (length (p ++ [b])) q = p ++ [b] -> take (length p) q = p) as Hext.
  { intros b q Hq. apply (f_equal (take (length p))) in Hq. rewrite take_take, take_app in Hq.
    rewrite Hla in Hq. by rewrite Nat.min_l in Hq by lia. }
  destruct (hash_at E f n' (p ++ [0])) as [n1' rl] eqn:H0. destruct rl as [[[lh lln] lrn]|]; [|done].
  destruct (IH d j n n' (p ++ [0]) n1' (lh, lln, lrn) Hs (Hbb 0 ltac:(lia)) ltac:(rewrite Hla; lia) (Hpre2 0) H0) as (n1 & -> & Hs1 & Hf1).
  destruct (lln && negb lrn); [done|].
  destruct (hash_at E f n1' (p ++ [1])) as [n2' rr] eqn:H1. destruct rr as [[[rh rln] rrn]|]; [|done].
  destruct (IH d j n1 n1' (p ++ [1]) n2' (rh, rln, rrn) Hs1 (Hbb 1 ltac:(lia)) ltac:(rewrite Hla; lia)) as (n2 & -> & Hs2 & Hf2); [|exact H1|].
  { intros l Hlt. rewrite Hf1; [by apply Hpre2|]. rewrite Hla in *. intros Hx. apply (f_equal length) in Hx.
    rewrite !take_length, Hla, Hla in Hx. lia. }
  destruct (rln && negb rrn); [done|]. destruct (lrn && is_some rh); [done|].
  assert (forall q, take (length p) q <> p -> hn_br n2 !! q = hn_br n !! q) as Hf.
  { intros q Hq. rewrite Hf2 by (intros Hx; by apply Hext in Hx). apply Hf1. intros Hx. by apply Hext in Hx. }
  destruct lh as [h0|].
  - intros [= <- <-]. eexists. split; [done|]. rewrite <- (psub_br _ _ _ _ Hs2). split.
    + apply psub_with_br; [done|]. intros q _ _ Hq. destruct (decide (p = q)) as [->|]; [by rewrite lookup_insert|by rewrite lookup_insert_ne].
    + intros q Hq. cbn [with_br hn_br]. rewrite lookup_insert_ne; [by apply Hf|]. intros <-. by rewrite firstn_all in Hq.
  - destruct rh; [done|]. intros [= <- <-]. exists n2. done.
Qed.

(* ------------------------------------------------------------ appending and reading *)
Lemma leafv_set n x v : length (hn_lv n) = 16%nat -> x < 16 -> forall i,
  leafv (with_lv n (<[N.to_nat x := Some v]> (hn_lv n))) i = if decide (i = x) then Some v else leafv n i.
Proof.
  intros Hl Hx i. unfold leafv, with_lv. cbn [hn_lv]. destruct (decide (i = x)) as [->|Hne].
  - rewrite list_lookup_insert by lia. done.
  - rewrite list_lookup_insert_ne by lia. done.
Qed.
Lemma psub_expand st d j n n' : psub d j n n' \/ (n = fresh d /\ n' = fresh d) -> expand_if E st n = (n, true) /\ expand_if E st n' = (n', true).
Proof.
  intros [Hs|[-> ->]]; [|done]. destruct (psub_collapsed _ _ _ _ Hs) as [H1 H2]. unfold expand_if. by rewrite H1, H2.
Qed.
Definition nearly d j n n' : Prop := psub d j n n' \/ (n = fresh d /\ n' = fresh d).
Lemma nearly_set_child d' j n n' x c c' : nearly (S d') j n n' -> x < 16 ->
  psub d' (16 * j + N.to_nat x) c c' -> psub (S d') j (set_child n x c) (set_child n' x c').
Proof.
  intros [Hs|[-> ->]] Hx Hc; [apply psub_set_child; [done|done|by left]|].
  cbn [psub]. split; [done|]. split; [done|]. split; [done|]. split; [cbn; by rewrite insert_length|].
  split; [cbn; by rewrite insert_length|].
  split; [exists x; split; [done|]; rewrite child_set by done; rewrite decide_True by done; eauto|].
  intros i Hi16. rewrite !child_set by done. destruct (decide (i = x)) as [->|]; [by left|].
  unfold child, fresh, no_ch. cbn [with_leaf hn_ch NewTreeNode]. destruct (no_ch !! N.to_nat i) as [[c0|]|] eqn:Hc0; try done.
  unfold no_ch in Hc0. apply lookup_replicate in Hc0 as [? _]. done.
Qed.
Lemma nearly_set_leaf j n n' x v : nearly 0 j n n' -> x < 16 ->
  psub 0 j (with_lv n (<[N.to_nat x := Some v]> (hn_lv n))) (with_lv n' (<[N.to_nat x := Some v]> (hn_lv n'))).
Proof.
  intros Hs Hx. assert (hn_br n = hn_br n' /\ hn_leaf n = true /\ hn_leaf n' = true /\ length (hn_lv n) = 16%nat /\ length (hn_lv n') = 16%nat /\
    forall i, i < 16 -> leafv n i = leafv n' i \/ (leafv n i = None /\ miss (hn_br n) 0 j i)) as (H1 & H2 & H3 & H4 & H5 & H6).
  { destruct Hs as [(H1 & H2 & H3 & H4 & H5 & _ & H6)|[-> ->]]; [done|]. do 5 (split; [done|]). by left. }
  cbn [psub]. split; [done|]. split; [done|]. split; [done|]. split; [cbn; by rewrite insert_length|].
  split; [cbn; by rewrite insert_length|].
  split; [exists x; split; [done|]; rewrite leafv_set by done; rewrite decide_True by done; eauto|].
  intros i Hi. rewrite !leafv_set by done. destruct (decide (i = x)); [by left|]. by apply H6.
Qed.
Lemma nearly_leaf d j n n' : nearly d j n n' -> hn_leaf n = (d =? 0)%nat /\ hn_leaf n' = (d =? 0)%nat.
Proof. intros [Hs|[-> ->]]; [by eapply psub_leaf|done]. Qed.
Lemma nearly_collapsed d j n n' : nearly d j n n' -> collapsed n = false /\ collapsed n' = false.
Proof. intros [Hs|[-> ->]]; [by eapply psub_collapsed|done]. Qed.
Lemma trace_psub st st' app : forall d j n n' prefix m' r, nearly d j n n' -> (app = None -> psub d j n n') ->
  nibs prefix -> length prefix = S d -> A (npos j prefix) ->
  trace E st' n' prefix app = (m', Some r) ->
  exists m, trace E st n prefix app = (m, Some r) /\ psub d j m m'.
Proof.
  induction d as [|d' IH]; intros j n n' prefix m' r Hs Hget Hnb Hlen HA;
    (destruct prefix as [|x rest]; [done|]); cbn [length] in Hlen; inversion Hnb as [|? ? Hx Hrest]; subst; cbn [trace];
    destruct (psub_expand st _ _ _ _ Hs) as [-> _]; destruct (psub_expand st' _ _ _ _ Hs) as [_ ->]; cbn [negb];
    destruct (nearly_leaf _ _ _ _ Hs) as [Hl1 Hl2]; rewrite Hl1, Hl2; cbn [Nat.eqb negb].
  - destruct rest; [|done]. rewrite bool_decide_eq_true_2 by done. cbn [andb negb].
    cbn [npos] in HA. destruct app as [v|].
    + unfold put_leaf. destruct (nearly_collapsed _ _ _ _ Hs) as [-> ->]. rewrite Hl1, Hl2. cbn [negb].
      case_bool_decide; [done|]. intros [= <- <-]. eexists. split.
      * f_equal. f_equal. f_equal. f_equal. unfold leafv. cbn [with_dirty clear_ancestors with_br with_lv hn_lv].
        destruct (nearly_set_leaf j n n' x v Hs Hx) as (_ & _ & _ & Hn & Hn' & _). cbn [with_lv hn_lv] in Hn, Hn'. rewrite insert_length in Hn, Hn'.
        rewrite !list_lookup_insert by lia. done.
      * apply psub_with_dirty. eapply psub_clear; [by apply nearly_set_leaf|exact HA|done|]. done.
    + specialize (Hget eq_refl). intros [= <- <-]. exists n. split; [|done]. destruct Hget as (_ & _ & _ & _ & _ & _ & Hall).
      destruct (Hall x Hx) as [->|[_ (q & r' & _ & _ & Hq & Hno)]]; [done|]. exfalso. by apply (Hno _ x HA Hx eq_refl).
  - destruct rest as [|y rest']; [done|]. rewrite bool_decide_eq_false_2 by done. cbn [andb].
    assert (up (4 * S d') (npos j (x :: y :: rest')) = 16 * j + N.to_nat x)%nat as Hup.
    { cbn [npos]. injection Hlen as Hlen. rewrite <- Hlen. rewrite <- (Nat.add_0_r (4 * _)).
      by apply (npos_up (y :: rest') 0). }
    assert (forall c c' m1' e v b, nearly d' (16 * j + N.to_nat x) c c' -> (app = None -> psub d' (16 * j + N.to_nat x) c c') ->
      trace E st' c' (y :: rest') app = (m1', Some (b, v, e)) -> exists m1, trace E st c (y :: rest') app = (m1, Some (b, v, e)) /\
      psub d' (16 * j + N.to_nat x) m1 m1') as HIH.
    { intros c c' m1' e v b Hc Hg Ht. eapply IH; [exact Hc|exact Hg|done|congruence|exact HA|exact Ht]. }
    assert (match child n x, child n' x with
            | None, None => True
            | Some c, Some c' => psub d' (16 * j + N.to_nat x) c c' | _, _ => False end) as Hch.
    { destruct Hs as [(_ & _ & _ & _ & _ & _ & Hall)|[-> ->]].
      - specialize (Hall x Hx). destruct (child n x) as [c|], (child n' x) as [c'|]; try done.
        + destruct Hall as [Hall|[-> Hoff]]; [done|]. exfalso. by apply (Hoff _ HA).
        + destruct Hall as (q & r' & _ & _ & Hq & Hno). exfalso. by apply (Hno _ x HA Hx Hup).
      - unfold child, fresh. cbn [with_leaf hn_ch NewTreeNode]. destruct (no_ch !! N.to_nat x) as [[c0|]|] eqn:Hc0; try done.
        unfold no_ch in Hc0. apply lookup_replicate in Hc0 as [? _]. done. }
    destruct (child n x) as [c|], (child n' x) as [c'|]; try done.
    + destruct (trace E st' c' (y :: rest') app) as [m1' [[[b v] e]|]] eqn:Ht; [|done].
      destruct (HIH c c' m1' e v b (or_introl Hch) (fun _ => Hch) Ht) as (m1 & -> & Hm1).
      pose proof (nearly_set_child d' j n n' x m1 m1' Hs Hx Hm1) as Hset.
      destruct b; intros [= <- <-]; (eexists; split; [done|]); [|done].
      apply psub_with_dirty. by eapply psub_clear.
    + destruct app as [v0|]; [|intros [= <- <-]; exists n; split; [done|by apply Hget]].
      destruct (trace E st' (with_leaf NewTreeNode (length (y :: rest') =? 1)%nat) (y :: rest') (Some v0)) as [m1' [[[b v] e]|]] eqn:Ht; [|done].
      assert (with_leaf NewTreeNode (length (y :: rest') =? 1)%nat = fresh d') as Hfr.
      { unfold fresh. f_equal. injection Hlen as Hlen. cbn [length] in *. destruct d'; rewrite Hlen; done. }
      rewrite Hfr in *. destruct (HIH (fresh d') (fresh d') m1' e v b (or_intror (conj eq_refl eq_refl)) ltac:(done) Ht) as (m1 & -> & Hm1).
      intros [= <- <-]. eexists. split; [done|]. apply psub_with_dirty. eapply psub_clear; [|exact HA|done|done].
      by apply nearly_set_child.
Qed.
End part.
