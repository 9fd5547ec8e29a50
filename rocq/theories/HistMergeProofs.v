(** MergeProof keeps a tree of true values and adds one. *)
From Verif Require Import Base MerkleSpec MerkleModel TrieSpec TrieModel TrieProofModel HistSpec HistModel HistLayerProofs
  HistRepProofs HistOpProofs HistPathProofs HistRunProofs HistRestoreModel HistPartProofs HistRestoreProofs HistMergeModel.
From stdpp Require Import gmap.
Open Scope N_scope.
Arguments Nat.mul : simpl never.
Arguments Nat.add : simpl never.
Arguments Nat.sub : simpl never.

Section merge.
Context (E : henv) (EOK : henv_ok E).
Local Notation H := (hH E).
Local Notation nilhash := (nilhash H).
Context (vs : list (list N)).
Local Notation look vs k i := (layers H k vs !! i).
Context (H32 : Forall (fun v : list N => length v = 32%nat) vs).
Context (Hnil : forall l i h, (l <= 64)%nat -> look vs l i = Some h -> h <> nilhash).
Local Notation sb := (sb E vs).

(** A node of which only the hash is known. At the lowest level such nodes are next to the
    node of a key of [K]. *)
Definition stub (K : nat -> Prop) (d p : nat) (c : hnode) : Prop :=
  exists h, c = from_hash h /\ look vs (4 * d + 4) p = Some h /\ (d = 0%nat -> exists k, K k /\ p = sib (up 4 k)).
(** Everything the node says is true of [vs]. *)
Fixpoint fine (K : nat -> Prop) (d j : nat) (n : hnode) : Prop :=
  br_ok E vs d j (hn_br n) /\
  match d with
  | O => hn_leaf n = true /\ length (hn_lv n) = 16%nat /\ (exists i, i < 16 /\ is_Some (leafv n i)) /\
      forall i v, i < 16 -> leafv n i = Some v -> look vs 0 (16 * j + N.to_nat i)%nat = Some v
  | S d' => hn_leaf n = false /\ length (hn_ch n) = 16%nat /\ (exists i, i < 16 /\ is_Some (child n i)) /\
      forall i c, i < 16 -> child n i = Some c -> fine K d' (16 * j + N.to_nat i) c \/ stub K d' (16 * j + N.to_nat i) c
  end.
(** The same of a node that may be empty. *)
Definition nearly_fine (K : nat -> Prop) (d j : nat) (n : hnode) : Prop :=
  br_ok E vs d j (hn_br n) /\
  match d with
  | O => hn_leaf n = true /\ length (hn_lv n) = 16%nat /\
      forall i v, i < 16 -> leafv n i = Some v -> look vs 0 (16 * j + N.to_nat i)%nat = Some v
  | S d' => hn_leaf n = false /\ length (hn_ch n) = 16%nat /\
      forall i c, i < 16 -> child n i = Some c -> fine K d' (16 * j + N.to_nat i) c \/ stub K d' (16 * j + N.to_nat i) c
  end.
Lemma fine_nearly K d j n : fine K d j n -> nearly_fine K d j n.
Proof. destruct d; cbn [fine nearly_fine]; intros (? & ? & ? & ? & ?); done. Qed.
Lemma stub_mono (K K' : nat -> Prop) d p c : (forall k, K k -> K' k) -> stub K d p c -> stub K' d p c.
Proof. intros HK (h & ? & ? & Hs). exists h. split; [done|]. split; [done|]. intros Hd. destruct (Hs Hd) as (k & ? & ?). eauto. Qed.
Lemma fine_mono (K K' : nat -> Prop) : (forall k, K k -> K' k) -> forall d j n, fine K d j n -> fine K' d j n.
Proof.
  intros HK. induction d as [|d IH]; intros j n; cbn [fine]; [done|]. intros (? & ? & ? & ? & Hc). split_and!; try done.
  intros i c Hi Hic. destruct (Hc i c Hi Hic) as [?|?]; [left; by apply IH|right; by eapply stub_mono].
Qed.
Lemma fine_collapsed K d j n : fine K d j n -> collapsed n = false.
Proof.
  destruct d; cbn [fine].
  - intros (_ & Hl & _ & (i & Hi & Hs) & _). apply (slot_collapsed n i Hi). by rewrite Hl.
  - intros (_ & Hl & _ & (i & Hi & Hs) & _). apply (slot_collapsed n i Hi). by rewrite Hl.
Qed.
Lemma stub_collapsed K d p c : stub K d p c -> collapsed c = true.
Proof. intros (h & -> & _). apply from_hash_collapsed. Qed.

(** The value [v] is at the end of the path, reached through nodes in memory. *)
Fixpoint has (n : hnode) (pre v : list N) : Prop :=
  match pre with
  | [] => False
  | x :: rest => match rest with
                 | [] => hn_leaf n = true /\ leafv n x = Some v
                 | _ => hn_leaf n = false /\ exists c, child n x = Some c /\ has c rest v
                 end
  end.
Lemma has_br n b pre v : has n pre v -> has (with_br n b) pre v.
Proof. destruct pre as [|x [|y r]]; done. Qed.
Lemma has_stub h pre v : ~ has (from_hash h) pre v.
Proof.
  destruct pre as [|x [|y r]]; cbn [has]; [tauto|intros [[=] _]|]. intros (_ & c & Hc & _). unfold child in Hc. cbn [from_hash with_br hn_ch NewTreeNode] in Hc.
  unfold no_ch in Hc. destruct (decide (N.to_nat x < 16)%nat); [rewrite lookup_replicate_2 in Hc by done; done|].
  rewrite lookup_ge_None_2 in Hc by (rewrite replicate_length; lia). done.
Qed.
Lemma set_child_id n x c : child n x = Some c -> set_child n x c = n.
Proof.
  unfold child, set_child. destruct n as [d l b ch lv]. unfold with_ch. cbn [hn_dirty hn_leaf hn_br hn_ch hn_lv]. intros Hc. f_equal. apply list_insert_id.
  destruct (ch !! N.to_nat x) as [[?|]|]; cbn in Hc; congruence.
Qed.
Lemma trace_has st pre : forall n v, nibs pre -> has n pre v -> trace E st n pre None = (n, Some (false, Some v, true)).
Proof.
  induction pre as [|x rest IH]; intros n v Hp Hh; [done|]. pose proof (Forall_inv Hp) as Hx. pose proof (Forall_inv_tail Hp) as Hr. cbn in Hx.
  cbn [trace]. assert (collapsed n = false) as Hc.
  { apply (slot_collapsed n x Hx). destruct rest; cbn [has] in Hh; destruct Hh as [-> Hh]; [eauto|]. destruct Hh as (c & Hc & _). eauto. }
  unfold expand_if. rewrite Hc. cbn [negb]. destruct rest as [|y r].
  - cbn [has] in Hh. destruct Hh as [Hl Hv]. rewrite Hl, Hv. done.
  - cbn [has] in Hh. destruct Hh as [Hl (c & Hch & Hh)]. rewrite Hl. cbn [negb andb]. rewrite bool_decide_eq_false_2 by done. cbn [andb negb].
    rewrite Hch. rewrite (IH c v Hr Hh). do 2 f_equal. by apply set_child_id.
Qed.
Lemma locate_has st pre : forall n v, nibs pre -> has n pre v -> exists i, locate E st n pre = (n, Some (Some (i, Some v))).
Proof.
  induction pre as [|x rest IH]; intros n v Hp Hh; [done|]. pose proof (Forall_inv Hp) as Hx. pose proof (Forall_inv_tail Hp) as Hr. cbn in Hx.
  cbn [locate]. assert (collapsed n = false) as Hc.
  { apply (slot_collapsed n x Hx). destruct rest; cbn [has] in Hh; destruct Hh as [-> Hh]; [eauto|]. destruct Hh as (c & Hc & _). eauto. }
  rewrite (proj2 (N.leb_gt _ _) Hx). unfold expand_if. rewrite Hc. cbn [negb]. destruct rest as [|y r].
  - cbn [has] in Hh. destruct Hh as [Hl Hv]. rewrite Hl, Hv. eauto.
  - cbn [has] in Hh. destruct Hh as [Hl (c & Hch & Hh)]. rewrite Hl. rewrite bool_decide_eq_false_2 by done.
    rewrite Hch. destruct (IH c v Hr Hh) as (i & ->). exists i. f_equal. by apply set_child_id.
Qed.
Lemma has_true K : forall d j n pre v, fine K d j n -> nibs pre -> length pre = S d -> has n pre v -> look vs 0 (npos j pre) = Some v.
Proof.
  induction d as [|d IH]; intros j n pre v Hf Hp Hl Hh; destruct pre as [|x rest]; try done;
    pose proof (Forall_inv Hp) as Hx; pose proof (Forall_inv_tail Hp) as Hr; cbn in Hx; cbn [length] in Hl.
  - destruct rest; [|done]. cbn [has] in Hh. destruct Hh as [_ Hh]. destruct Hf as (_ & _ & _ & _ & Hf). cbn [npos]. by apply Hf.
  - destruct rest as [|y r]; [done|]. cbn [has] in Hh. destruct Hh as (_ & c & Hc & Hh). change (has c (y :: r) v) in Hh. destruct Hf as (_ & _ & _ & _ & Hf).
    destruct (Hf x c Hx Hc) as [Hfc|(h & -> & _)]; [|by apply has_stub in Hh]. cbn [npos]. eapply (IH _ c (y :: r)); [done|done|lia|done].
Qed.

(* ------------------------------------------------------------ one node *)
Lemma sib_slot d j x : x < 16 -> sb d j x 3 = look vs (4 * d) (16 * j + N.to_nat (flipx x))%nat.
Proof.
  clear. intros Hx. unfold HistRestoreProofs.sb. rewrite tog_bidx by (done || lia). rewrite flipx_sib by done. change (4 - 4)%nat with 0%nat. cbn [up].
  by replace (4 * d + (3 - 3))%nat with (4 * d)%nat by lia.
Qed.
Lemma sb_nil d j x : (d <= 15)%nat -> forall o, o ∈ [sb d j x 3; sb d j x 2; sb d j x 1; sb d j x 0] -> o <> Some nilhash.
Proof.
  intros Hd o Ho ->. assert (exists l, sb d j x l = Some nilhash) as [l Hl].
  { repeat (apply elem_of_cons in Ho as [->|Ho]; [eauto|]); by apply elem_of_nil in Ho. }
  unfold HistRestoreProofs.sb in Hl. by apply Hnil in Hl; [|lia].
Qed.
Lemma put_ok d j x l b : x < 16 -> (l <= 2)%nat -> br_ok E vs d j b -> br_ok E vs d j (put_opt (sb d j x l) (tog x l) b).
Proof.
  intros Hx Hl Hb. destruct (sb d j x l) as [h|] eqn:Hs; cbn [put_opt]; [|done]. intros p r Hpr.
  destruct (decide (tog x l = p)) as [<-|Hne]; [|rewrite lookup_insert_ne in Hpr by done; by apply Hb].
  rewrite lookup_insert in Hpr. injection Hpr as <-. rewrite tog_len by (done || lia). split; [apply tog_bits; [done|lia]|]. split; [lia|].
  unfold HistRestoreProofs.sb in Hs. by replace (4 * d + (4 - S l))%nat with (4 * d + (3 - l))%nat by lia.
Qed.
Definition grows (b b2 : branches) : Prop := forall p r, b !! p = Some r -> b2 !! p = Some r.
Lemma put_grows d j x l b : x < 16 -> (l <= 2)%nat -> br_ok E vs d j b -> grows b (put_opt (sb d j x l) (tog x l) b).
Proof.
  intros Hx Hl Hb p r Hp. destruct (sb d j x l) as [h|] eqn:Hs; cbn [put_opt]; [|done].
  destruct (decide (tog x l = p)) as [<-|Hne]; [|by rewrite lookup_insert_ne].
  destruct (Hb _ _ Hp) as (_ & _ & Hr). rewrite tog_len in Hr by (done || lia). unfold HistRestoreProofs.sb in Hs.
  replace (4 * d + (4 - S l))%nat with (4 * d + (3 - l))%nat in Hr by lia. rewrite Hs in Hr. rewrite lookup_insert. congruence.
Qed.
Definition mbr (d j : nat) (x : N) (b : branches) : branches :=
  put_opt (sb d j x 0) (tog x 0) (put_opt (sb d j x 1) (tog x 1) (put_opt (sb d j x 2) (tog x 2) b)).
Lemma mbr_ok d j x b : x < 16 -> br_ok E vs d j b -> br_ok E vs d j (mbr d j x b) /\ grows b (mbr d j x b).
Proof.
  intros Hx Hb. unfold mbr.
  pose proof (put_ok d j x 2 b Hx ltac:(lia) Hb) as H2. pose proof (put_ok d j x 1 _ Hx ltac:(lia) H2) as H1. pose proof (put_ok d j x 0 _ Hx ltac:(lia) H1) as H0.
  split; [done|]. intros p r Hp. apply (put_grows d j x 0 _ Hx ltac:(lia) H1), (put_grows d j x 1 _ Hx ltac:(lia) H2), (put_grows d j x 2 _ Hx ltac:(lia) Hb), Hp.
Qed.
Lemma merge_start st n x v c o0 o1 o2 o3 : x < 16 -> (forall o, o ∈ [o0; o1; o2; o3] -> o <> Some nilhash) ->
  let n0 := if hn_leaf n then with_lv n (<[N.to_nat x := Some v]> (hn_lv n)) else with_ch n (<[N.to_nat x := c]> (hn_ch n)) in
  forall n1, match o0 with None => n1 = n0 | Some h => merge_slot E st n0 (tog x 3) h = (n1, true) end ->
  (forall b, collapsed (with_br n1 b) = false) ->
  merge_items E st n x v c (map (default nilhash) [o0; o1; o2; o3]) =
    (with_dirty (with_br n1 (put_opt o3 (tog x 0) (put_opt o2 (tog x 1) (put_opt o1 (tog x 2) (hn_br n1))))) true, true).
Proof.
  intros Hx Hne n0 n1 Hn1 Hcb. unfold merge_items. cbn [map length Nat.eqb negb]. fold n0. rewrite merge_loop_cons. cbn [Nat.eqb].
  replace (flip_last (to_binary x 4)) with (tog x 3) by (unfold tog; rewrite take_ge by (rewrite to_binary_len; lia); done).
  assert ((if bool_decide (default nilhash o0 = nilhash) then (n0, true) else merge_slot E st n0 (tog x 3) (default nilhash o0)) = (n1, true)) as ->.
  { destruct o0 as [h|]; cbn [default]; [|rewrite bool_decide_eq_true_2 by done; by subst].
    change (id h) with h. rewrite bool_decide_eq_false_2; [done|]. intros ->. eapply Hne; [apply elem_of_list_here|reflexivity]. }
  cbn [negb]. rewrite to_binary_len. change (4 - 1)%nat with 3%nat.
  change [default nilhash o1; default nilhash o2; default nilhash o3] with (map (default nilhash) [o1; o2; o3]).
  rewrite loop_inner; [done|done|done| |intros; apply Hcb|].
  - specialize (Hcb (hn_br n1)). by destruct n1.
  - intros o Ho. apply Hne. by apply elem_of_list_further.
Qed.

Lemma merge_leaf K j n x v : nearly_fine K 0 j n -> x < 16 -> look vs 0 (16 * j + N.to_nat x)%nat = Some v ->
  exists n2, merge_items E ∅ n x v None (map (default nilhash) [sb 0 j x 3; sb 0 j x 2; sb 0 j x 1; sb 0 j x 0]) = (n2, true) /\
    fine K 0 j n2 /\ leafv n2 x = Some v /\ (forall i w, i < 16 -> leafv n i = Some w -> leafv n2 i = Some w) /\ grows (hn_br n) (hn_br n2).
Proof.
  intros (Hb & Hl & Hlen & Hv) Hx Hxv. pose proof (flipx_lt x Hx) as Hfl. pose proof (flipx_ne x Hx) as Hfn.
  set (n1 := with_lv n (put_slot (sb 0 j x 3) (flipx x) (<[N.to_nat x := Some v]> (hn_lv n)))).
  assert (forall i, i < 16 -> leafv n1 i = if decide (i = x) then Some v else if decide (i = flipx x) then (match sb 0 j x 3 with Some h => Some h | None => leafv n i end) else leafv n i) as Hlv.
  { intros i Hi. unfold leafv, n1. cbn [with_lv hn_lv]. destruct (sb 0 j x 3) as [h|]; cbn [put_slot].
    - destruct (decide (i = x)) as [->|Hne]; [rewrite list_lookup_insert_ne by lia; rewrite list_lookup_insert by lia; done|].
      destruct (decide (i = flipx x)) as [->|Hne2]; [rewrite list_lookup_insert by (rewrite insert_length; lia); done|].
      rewrite !list_lookup_insert_ne by lia. done.
    - destruct (decide (i = x)) as [->|Hne]; [rewrite list_lookup_insert by lia; done|].
      rewrite list_lookup_insert_ne by lia. by destruct (decide (i = flipx x)). }
  assert (sb 0 j x 3 = look vs 0 (16 * j + N.to_nat (flipx x))%nat) as Hsb by (rewrite sib_slot by done; by change (4 * 0)%nat with 0%nat).
  assert (forall b, collapsed (with_br n1 b) = false) as Hcb.
  { intros b. apply (slot_collapsed _ x Hx). cbn [with_br n1 with_lv hn_leaf]. rewrite Hl. change (is_Some (leafv n1 x)). rewrite Hlv by done.
    rewrite decide_True by done. eauto. }
  pose proof (mbr_ok 0 j x (hn_br n) Hx Hb) as [Hm1 Hm2].
  eexists. split; [apply (merge_start ∅ n x v None _ _ _ _ Hx) with (n1 := n1); [apply sb_nil; lia| |exact Hcb]|].
  { rewrite Hl. unfold n1. destruct (sb 0 j x 3) as [h|]; cbn [put_slot]; [|done]. unfold merge_slot. cbn [with_lv hn_leaf]. rewrite Hl. done. }
  change (fine K 0 j (with_dirty (with_br n1 (mbr 0 j x (hn_br n))) true) /\ leafv n1 x = Some v /\
    (forall i w, i < 16 -> leafv n i = Some w -> leafv n1 i = Some w) /\ grows (hn_br n) (mbr 0 j x (hn_br n))).
  assert (leafv n1 x = Some v) as Hx1 by (rewrite Hlv by done; by rewrite decide_True).
  split; [|split; [done|split; [|done]]].
  - cbn [fine]. split; [exact Hm1|]. split; [done|]. split.
    { cbn [with_dirty with_br n1 with_lv hn_lv]. by rewrite put_slot_len, insert_length. }
    split; [exists x; split; [done|]; change (is_Some (leafv n1 x)); rewrite Hx1; eauto|].
    intros i w Hi Hw. change (leafv n1 i = Some w) in Hw. rewrite Hlv in Hw by done.
    destruct (decide (i = x)) as [->|]; [congruence|]. destruct (decide (i = flipx x)) as [->|]; [|by apply Hv].
    rewrite Hsb in Hw. destruct (look vs 0 (16 * j + N.to_nat (flipx x))%nat) as [h|] eqn:Hh; [congruence|]. apply Hv in Hw; [congruence|done].
  - intros i w Hi Hw. rewrite Hlv by done. pose proof (Hv i w Hi Hw) as Hlw. destruct (decide (i = x)) as [->|]; [congruence|].
    destruct (decide (i = flipx x)) as [->|]; [|done]. rewrite Hsb, Hlw. done.
Qed.

Lemma stub_expand h : length h = 32%nat -> expand_if E ∅ (from_hash h) = (NewTreeNode, true).
Proof.
  intros Hh. unfold expand_if, expand. rewrite from_hash_collapsed. cbn [negb]. unfold from_hash at 1. cbn [with_br hn_br]. rewrite lookup_singleton.
  destruct h as [|b h]; [done|]. unfold read_full. rewrite bool_decide_eq_false_2 by done. destruct (bool_decide (b :: h = nilhash)); [done|].
  cbn [orb]. rewrite lookup_empty. done.
Qed.
Lemma look32 l i h : look vs l i = Some h -> length h = 32%nat.
Proof. intros Hl. eapply look_len; [apply (hok_H _ EOK)|exact H32|exact Hl]. Qed.

Lemma merge_inner (K : nat -> Prop) d' j n x c k : (S d' <= 15)%nat -> nearly_fine K (S d') j n -> x < 16 -> K k -> up (4 * S d') k = (16 * j + N.to_nat x)%nat ->
  fine K d' (16 * j + N.to_nat x) c ->
  exists n2, merge_items E ∅ n x [] (Some c) (map (default nilhash) [sb (S d') j x 3; sb (S d') j x 2; sb (S d') j x 1; sb (S d') j x 0]) = (n2, true) /\
    fine K (S d') j n2 /\ child n2 x = Some c /\
    (forall i s, i < 16 -> i <> x -> child n i = Some s -> exists s2, child n2 i = Some s2 /\ forall pre w, has s pre w -> has s2 pre w) /\
    grows (hn_br n) (hn_br n2).
Proof.
  intros Hd (Hb & Hl & Hlen & Hv) Hx HK Hk Hc. pose proof (flipx_lt x Hx) as Hfl. pose proof (flipx_ne x Hx) as Hfn.
  pose proof (sib_slot (S d') j x Hx) as Hsb.
  set (n0 := with_ch n (<[N.to_nat x := Some c]> (hn_ch n))).
  assert (forall i, i < 16 -> child n0 i = if decide (i = x) then Some c else child n i) as Hc0.
  { intros i Hi. apply (child_set n i x c Hlen Hx). }
  assert (length (hn_ch n0) = 16%nat) as Hlen0 by (cbn [n0 with_ch hn_ch]; by rewrite insert_length).
  (* the sibling afterwards *)
  assert (exists n1, (match sb (S d') j x 3 with None => n1 = n0 | Some h => merge_slot E ∅ n0 (tog x 3) h = (n1, true) end) /\
    hn_leaf n1 = false /\ length (hn_ch n1) = 16%nat /\ hn_br n1 = hn_br n /\
    (forall i, i < 16 -> i <> flipx x -> child n1 i = child n0 i) /\
    (forall s, child n1 (flipx x) = Some s -> fine K d' (16 * j + N.to_nat (flipx x)) s \/ stub K d' (16 * j + N.to_nat (flipx x)) s) /\
    (forall s, child n (flipx x) = Some s -> exists s2, child n1 (flipx x) = Some s2 /\ forall pre w, has s pre w -> has s2 pre w))
    as (n1 & Hn1 & Hl1 & Hlen1 & Hbr1 & Hot & Hsib & Hkeep).
  { destruct (sb (S d') j x 3) as [h|] eqn:Hh.
    2:{ exists n0. split; [done|]. split; [done|]. split; [done|]. split; [done|]. split; [done|]. split.
        - intros s Hs. rewrite Hc0 in Hs by done. rewrite decide_False in Hs by done. by apply Hv.
        - intros s Hs. exists s. split; [|done]. rewrite Hc0 by done. by rewrite decide_False. }
    symmetry in Hsb.
    assert (stub K d' (16 * j + N.to_nat (flipx x)) (from_hash h)) as Hst.
    { exists h. split; [done|]. replace (4 * d' + 4)%nat with (4 * S d')%nat by lia. split; [done|]. intros ->. exists k. split; [done|].
      rewrite flipx_sib by done. change (4 * 1)%nat with 4%nat in Hk. by rewrite Hk. }
    assert (forall s2, let n1 := set_child n0 (flipx x) s2 in
      (fine K d' (16 * j + N.to_nat (flipx x)) s2 \/ stub K d' (16 * j + N.to_nat (flipx x)) s2) ->
      (forall s, child n (flipx x) = Some s -> forall pre w, has s pre w -> has s2 pre w) ->
      hn_leaf n1 = false /\ length (hn_ch n1) = 16%nat /\ hn_br n1 = hn_br n /\
      (forall i, i < 16 -> i <> flipx x -> child n1 i = child n0 i) /\
      (forall s, child n1 (flipx x) = Some s -> fine K d' (16 * j + N.to_nat (flipx x)) s \/ stub K d' (16 * j + N.to_nat (flipx x)) s) /\
      (forall s, child n (flipx x) = Some s -> exists s2, child n1 (flipx x) = Some s2 /\ forall pre w, has s pre w -> has s2 pre w)) as Hgo.
    { intros s2 n1 Hs2 Hh2. split; [done|]. split; [cbn [n1 set_child with_ch hn_ch]; by rewrite insert_length|]. split; [done|].
      assert (forall i, i < 16 -> child n1 i = if decide (i = flipx x) then Some s2 else child n0 i) as Hc1 by (intros i Hi; by apply child_set).
      split; [intros i Hi Hne; rewrite Hc1 by done; by rewrite decide_False|]. split.
      - intros s Hs. rewrite Hc1 in Hs by done. rewrite decide_True in Hs by done. by injection Hs as <-.
      - intros s Hs. exists s2. split; [rewrite Hc1 by done; by rewrite decide_True|]. by apply Hh2. }
    unfold merge_slot. fold (flipx x). replace (hn_leaf n0) with false by (by cbn [n0 with_ch hn_leaf]). rewrite Hc0 by done. rewrite decide_False by done.
    destruct (child n (flipx x)) as [s|] eqn:Hs.
    - destruct (Hv _ _ Hfl Hs) as [Hf|(h' & -> & Hh' & _)].
      + rewrite put_value_ok; [|by eapply fine_collapsed|cbn; lia|constructor].
        eexists. split; [reflexivity|]. apply Hgo.
        * left. destruct d' as [|d'']; cbn [fine] in Hf |- *.
          -- destruct Hf as (Hfb & Hf). split; [|exact Hf]. cbn [with_br hn_br]. intros p r Hp. destruct (decide ([] = p)) as [<-|Hne].
             ++ rewrite lookup_insert in Hp. injection Hp as <-. cbn [length bidx]. split; [constructor|]. split; [lia|]. exact Hsb.
             ++ rewrite lookup_insert_ne in Hp by done. by apply Hfb.
          -- destruct Hf as (Hfb & Hf). split; [|exact Hf]. cbn [with_br hn_br]. intros p r Hp. destruct (decide ([] = p)) as [<-|Hne].
             ++ rewrite lookup_insert in Hp. injection Hp as <-. cbn [length bidx]. split; [constructor|]. split; [lia|].
                replace (4 * S d'' + (4 - 0))%nat with (4 * S (S d''))%nat by lia. exact Hsb.
             ++ rewrite lookup_insert_ne in Hp by done. by apply Hfb.
        * intros s0 [= <-] pre w. apply has_br.
      + unfold put_value. rewrite stub_expand by (by eapply look32). cbn [negb length Nat.leb forallb].
        eexists. split; [reflexivity|]. apply (Hgo (from_hash h)); [by right|]. intros s0 [= <-] pre w Hw. by apply has_stub in Hw.
    - eexists. split; [reflexivity|]. apply Hgo; [by right|]. done. }
  assert (child n1 x = Some c) as Hx1 by (rewrite Hot by done; rewrite Hc0 by done; by rewrite decide_True).
  assert (forall b, collapsed (with_br n1 b) = false) as Hcb.
  { intros b. apply (slot_collapsed _ x Hx). cbn [with_br hn_leaf]. rewrite Hl1. change (is_Some (child n1 x)). rewrite Hx1. eauto. }
  pose proof (mbr_ok (S d') j x (hn_br n) Hx Hb) as [Hm1 Hm2].
  eexists. split; [apply (merge_start ∅ n x [] (Some c) _ _ _ _ Hx) with (n1 := n1); [apply sb_nil; lia| |exact Hcb]|].
  { rewrite Hl. exact Hn1. }
  rewrite Hbr1.
  change (fine K (S d') j (with_dirty (with_br n1 (mbr (S d') j x (hn_br n))) true) /\ child n1 x = Some c /\
    (forall i s, i < 16 -> i <> x -> child n i = Some s -> exists s2, child n1 i = Some s2 /\ forall pre w, has s pre w -> has s2 pre w) /\
    grows (hn_br n) (mbr (S d') j x (hn_br n))).
  split; [|split; [done|split; [|done]]].
  - cbn [fine]. split; [exact Hm1|]. split; [done|]. split; [done|]. split; [exists x; split; [done|]; change (is_Some (child n1 x)); rewrite Hx1; eauto|].
    intros i s Hi Hs. change (child n1 i = Some s) in Hs. destruct (decide (i = flipx x)) as [->|Hne]; [by apply Hsib|].
    rewrite Hot in Hs by done. rewrite Hc0 in Hs by done. destruct (decide (i = x)) as [->|]; [left; congruence|]. by apply Hv.
  - intros i s Hi Hne Hs. destruct (decide (i = flipx x)) as [->|Hne2]; [by apply Hkeep|].
    exists s. split; [|done]. rewrite Hot by done. rewrite Hc0 by done. by rewrite decide_False.
Qed.

(* ------------------------------------------------------------ the path *)
Context (K : nat -> Prop) (k : nat) (v : list N) (HK : K k) (Hkv : look vs 0 k = Some v).
Local Notation items := (map fst (path_items E vs 0 64 k)).
Lemma items_at d : (d <= 15)%nat -> take 4 (drop (4 * d) items) = map fst (path_items E vs (4 * d) 4 (up (4 * d) k)).
Proof.
  intros Hd. replace 64%nat with (4 * d + (4 + (60 - 4 * d)))%nat by lia. rewrite path_items_app, map_app.
  rewrite drop_app_alt by (rewrite map_length; symmetry; apply path_items_len). rewrite path_items_app, map_app.
  rewrite take_app_alt by (rewrite map_length; symmetry; apply path_items_len). by rewrite Nat.add_0_r.
Qed.
Lemma items_node d j x : (d <= 15)%nat -> x < 16 -> up (4 * d) k = (16 * j + N.to_nat x)%nat ->
  take 4 (drop (4 * d) items) = map (default nilhash) [sb d j x 3; sb d j x 2; sb d j x 1; sb d j x 0].
Proof.
  intros Hd Hx Hk. rewrite items_at by done. rewrite Hk. clear - Hx.
  assert (forall c k i, map fst (path_items E vs k (S c) i) = default nilhash (look vs k (sib i)) :: map fst (path_items E vs (S k) c (i / 2))) as HS.
  { intros c k0 i. cbn [path_items map]. unfold sib. by destruct (Nat.odd i). }
  rewrite !HS. cbn [path_items map]. unfold HistRestoreProofs.sb. rewrite !tog_bidx by (done || lia).
  change (4 - 4)%nat with 0%nat. change (4 - 3)%nat with 1%nat. change (4 - 2)%nat with 2%nat. change (4 - 1)%nat with 3%nat. cbn [up].
  replace (4 * d + (3 - 3))%nat with (4 * d)%nat by lia. replace (4 * d + (3 - 2))%nat with (S (4 * d)) by lia.
  replace (4 * d + (3 - 1))%nat with (S (S (4 * d))) by lia. replace (4 * d + (3 - 0))%nat with (S (S (S (4 * d)))) by lia. done.
Qed.
Lemma pos_up j x rest : nibs rest -> npos j (x :: rest) = k -> up (4 * length rest) k = (16 * j + N.to_nat x)%nat.
Proof. intros Hr Hk. rewrite <- (Nat.add_0_r (4 * length rest)). apply npos_up; [done|]. cbn [up]. by rewrite <- Hk. Qed.

Definition keeps (m n2 : hnode) : Prop := forall pre w, nibs pre -> has m pre w -> has n2 pre w.
Lemma step_leaf j n x : nearly_fine K 0 j n -> x < 16 -> npos j [x] = k ->
  exists n2, merge_items E ∅ n x v None (take 4 (drop (4 * 0) items)) = (n2, true) /\ fine K 0 j n2 /\ has n2 [x] v /\ keeps n n2 /\ grows (hn_br n) (hn_br n2).
Proof.
  intros Hn Hx Hk. rewrite (items_node 0 j x ltac:(lia) Hx (pos_up j x [] ltac:(constructor) Hk)). cbn [npos] in Hk.
  destruct (merge_leaf K j n x v Hn Hx) as (n2 & -> & Hf & Hv & Hkeep & Hg); [by rewrite Hk|].
  exists n2. split; [done|]. split; [done|]. destruct (Hf) as (_ & Hl & _). split; [done|]. split; [|done].
  intros pre w Hp. destruct Hn as (_ & Hln & _). destruct pre as [|y [|z r]]; cbn [has]; [done| |]; intros [Hl2 Hh]; [|by rewrite Hl2 in Hln].
  split; [done|]. apply Hkeep; [apply (Forall_inv Hp)|done].
Qed.
Lemma step_inner d' j n x rest c : (S d' <= 15)%nat -> nearly_fine K (S d') j n -> x < 16 -> nibs rest -> length rest = S d' -> npos j (x :: rest) = k ->
  fine K d' (16 * j + N.to_nat x) c -> has c rest v -> (forall s, child n x = Some s -> keeps s c) ->
  exists n2, merge_items E ∅ n x [] (Some c) (take 4 (drop (4 * length rest) items)) = (n2, true) /\ fine K (S d') j n2 /\ has n2 (x :: rest) v /\
    keeps n n2 /\ grows (hn_br n) (hn_br n2).
Proof.
  intros Hd Hn Hx Hr Hl Hk Hc Hh Hs. pose proof (pos_up j x rest Hr Hk) as Hup. rewrite Hl in *.
  rewrite (items_node (S d') j x Hd Hx Hup).
  destruct (merge_inner K d' j n x c k Hd Hn Hx HK Hup Hc) as (n2 & -> & Hf & Hch & Hkeep & Hg).
  exists n2. split; [done|]. split; [done|]. destruct (Hf) as (_ & Hl2 & _). split.
  { destruct rest as [|y r]; [done|]. cbn [has]. split; [done|]. exists c. done. }
  split; [|done]. intros pre w Hp. destruct Hn as (_ & Hln & _). destruct pre as [|y [|z r]]; cbn [has]; [done|intros [Hl3 _]; by rewrite Hl3 in Hln|].
  pose proof (Forall_inv Hp) as Hy. pose proof (Forall_inv_tail Hp) as Hr2. cbn in Hy. intros (_ & s & Hys & Hhs). split; [done|].
  destruct (decide (y = x)) as [->|Hne].
  - exists c. split; [done|]. exact (Hs s Hys (z :: r) w Hr2 Hhs).
  - destruct (Hkeep y s Hy Hne Hys) as (s2 & Hs2 & Hk2). exists s2. split; [done|]. exact (Hk2 (z :: r) w Hhs).
Qed.

Lemma empty_leaf j : nearly_fine K 0 j (with_leaf NewTreeNode true).
Proof.
  split; [intros ? ? Hbr; cbn [with_leaf NewTreeNode hn_br] in Hbr; by rewrite lookup_empty in Hbr|]. split; [done|]. split; [done|]. intros i w Hi. unfold leafv. cbn [with_leaf NewTreeNode hn_lv]. unfold no_lv.
  rewrite lookup_replicate_2 by lia. done.
Qed.
Lemma empty_inner d j : nearly_fine K (S d) j NewTreeNode.
Proof.
  split; [intros ? ? Hbr; cbn [with_leaf NewTreeNode hn_br] in Hbr; by rewrite lookup_empty in Hbr|]. split; [done|]. split; [done|]. intros i w Hi. unfold child. cbn [NewTreeNode hn_ch]. unfold no_ch.
  rewrite lookup_replicate_2 by lia. done.
Qed.
Lemma new_child x : x < 16 -> child NewTreeNode x = None.
Proof. intros Hi. unfold child. cbn [NewTreeNode hn_ch]. unfold no_ch. by rewrite lookup_replicate_2 by lia. Qed.

(** nodes that are made from the items *)
Lemma merge_new pre : forall d j, nibs pre -> length pre = S d -> (d <= 15)%nat -> npos j pre = k ->
  exists n, merge_path E ∅ None pre v items = (Some n, true) /\ fine K d j n /\ has n pre v.
Proof.
  assert (length v = 32%nat) as Hv32 by (by eapply look32).
  induction pre as [|x rest IH]; intros d j Hp Hl Hd Hk; [done|]. pose proof (Forall_inv Hp) as Hx. pose proof (Forall_inv_tail Hp) as Hr. cbn in Hx.
  cbn [length] in Hl. injection Hl as Hl. cbn [merge_path]. destruct rest as [|y r].
  - cbn [length] in Hl. subst d. rewrite bool_decide_eq_true_2 by done. cbn [negb length].
    destruct (step_leaf j _ x (empty_leaf j) Hx Hk) as (n2 & Hm & Hf & Hh & _ & _).
    unfold node_by_items. rewrite (proj2 (N.leb_gt _ _) Hx). rewrite Hv32. change (32 =? 32)%nat with true. cbn [negb andb orb is_some].
    rewrite Hm. replace (length (take 4 (drop (4 * 0) items)) =? 4)%nat with true.
    + cbn [negb]. eauto.
    + rewrite items_at by lia. rewrite map_length, path_items_len. done.
  - cbn [length] in Hl. destruct d as [|d']; [done|]. rewrite bool_decide_eq_false_2 by done. cbn [npos] in Hk.
    destruct (IH d' (16 * j + N.to_nat x)%nat Hr ltac:(cbn [length]; lia) ltac:(lia) Hk) as (c & -> & Hf & Hh). cbn [negb].
    destruct (step_inner d' j NewTreeNode x (y :: r) c Hd (empty_inner d' j) Hx Hr ltac:(cbn [length]; lia) Hk Hf Hh) as (n2 & Hm & Hf2 & Hh2 & _ & _).
    { intros s Hs. by rewrite new_child in Hs. }
    unfold node_by_items. rewrite (proj2 (N.leb_gt _ _) Hx). cbn [length Nat.eqb negb andb orb is_some].
    change (with_leaf NewTreeNode false) with NewTreeNode. cbn [length] in Hm. rewrite Hm.
    replace (length (take 4 (drop (4 * S (length r)) items)) =? 4)%nat with true; [eauto|].
    rewrite items_at by lia. rewrite map_length, path_items_len. done.
Qed.
(** the last node on the path that exists *)
Lemma merge_end pre x rest d j m : pre = x :: rest -> nearly_fine K d j m -> nibs pre -> length pre = S d -> (d <= 15)%nat -> npos j pre = k ->
  (d = 0%nat \/ child m x = None) ->
  exists n2, merge_path E ∅ (Some m) pre v items = (Some n2, true) /\ fine K d j n2 /\ has n2 pre v /\ keeps m n2 /\ grows (hn_br m) (hn_br n2).
Proof.
  intros -> Hn Hp Hl Hd Hk Hc. pose proof (Forall_inv Hp) as Hx. pose proof (Forall_inv_tail Hp) as Hr. cbn in Hx.
  cbn [length] in Hl. injection Hl as Hl. cbn [merge_path]. destruct rest as [|y r].
  - cbn [length] in Hl. subst d. rewrite bool_decide_eq_true_2 by done. cbn [negb length].
    destruct (step_leaf j _ x Hn Hx Hk) as (n2 & -> & Hf & Hh & ? & ?). eauto 10.
  - cbn [length] in Hl. destruct d as [|d']; [done|]. destruct Hc as [Hc|Hc]; [done|]. rewrite bool_decide_eq_false_2 by done. rewrite Hc.
    cbn [npos] in Hk. destruct (merge_new (y :: r) d' (16 * j + N.to_nat x)%nat Hr ltac:(cbn [length]; lia) ltac:(lia) Hk) as (c & -> & Hf & Hh). cbn [negb].
    destruct (step_inner d' j m x (y :: r) c Hd Hn Hx Hr ltac:(cbn [length]; lia) Hk Hf Hh) as (n2 & Hm & ? & ? & ? & ?).
    { intros s Hs. congruence. }
    cbn [length] in Hm |- *. rewrite Hm. eauto 10.
Qed.
Lemma keep_child n x s m : length (hn_ch n) = 16%nat -> x < 16 -> child (set_child n x s) x = Some s /\
  (child n x = Some m -> forall i, i <> x -> child (set_child n x s) i = child n i).
Proof.
  intros Hl Hx. split; [unfold child, set_child; cbn [with_ch hn_ch]; by rewrite list_lookup_insert by lia|].
  intros _ i Hi. unfold child, set_child. cbn [with_ch hn_ch]. by rewrite list_lookup_insert_ne by lia.
Qed.

Context (Kold : nat -> Prop) (Hold : forall k', Kold k' -> K k') (Hno : forall k', Kold k' -> up 4 k <> sib (up 4 k')).
Lemma nearly_mono d j n : fine Kold d j n -> nearly_fine K d j n.
Proof. intros Hf. apply fine_nearly. by eapply fine_mono. Qed.
Lemma merge_main pre : forall d j n, fine Kold d j n -> nibs pre -> length pre = S d -> (d <= 15)%nat -> npos j pre = k ->
  has n pre v \/ exists n1 n2, locate E ∅ n pre = (n1, Some None) /\ merge_path E ∅ (Some n1) pre v items = (Some n2, true) /\
    fine K d j n2 /\ has n2 pre v /\ keeps n n2 /\ grows (hn_br n) (hn_br n2).
Proof.
  induction pre as [|x rest IH]; intros d j n Hf Hp Hl Hd Hk; [done|]. pose proof (Forall_inv Hp) as Hx. pose proof (Forall_inv_tail Hp) as Hr. cbn in Hx.
  pose proof (fine_collapsed _ _ _ _ Hf) as Hcol. pose proof (nearly_mono _ _ _ Hf) as Hn.
  cbn [locate]. rewrite (proj2 (N.leb_gt _ _) Hx). unfold expand_if at 1. rewrite Hcol. cbn [negb].
  cbn [length] in Hl. injection Hl as Hl. destruct rest as [|y r].
  - cbn [length] in Hl. subst d. destruct Hf as (_ & Hlf & _ & _ & Hv). rewrite Hlf. rewrite bool_decide_eq_true_2 by done. cbn [negb].
    destruct (leafv n x) as [w|] eqn:Hw.
    + left. cbn [has]. split; [done|]. rewrite Hw. apply Hv in Hw; [|done]. cbn [npos] in Hk. rewrite Hk in Hw. congruence.
    + right. destruct (merge_end [x] x [] 0 j n eq_refl Hn Hp eq_refl Hd Hk (or_introl eq_refl)) as (n2 & ? & ? & ? & ? & ?). eauto 10.
  - cbn [length] in Hl. destruct d as [|d']; [done|]. pose proof Hf as Hf0. destruct Hf as (_ & Hlf & Hlen & _ & Hc). rewrite Hlf.
    rewrite bool_decide_eq_false_2 by done. destruct (child n x) as [c|] eqn:Hcx.
    2:{ right. destruct (merge_end (x :: y :: r) x (y :: r) (S d') j n eq_refl Hn Hp ltac:(cbn [length]; lia) Hd Hk (or_intror Hcx)) as (n2 & ? & ? & ? & ? & ?). eauto 10. }
    pose proof Hk as Hk0. cbn [npos] in Hk0. change (npos (16 * j + N.to_nat x) (y :: r) = k) in Hk0.
    assert (forall c1 c2, merge_path E ∅ (Some c1) (y :: r) v items = (Some c2, true) -> fine K d' (16 * j + N.to_nat x) c2 -> has c2 (y :: r) v -> keeps c c2 ->
      exists n2, merge_path E ∅ (Some (set_child n x c1)) (x :: y :: r) v items = (Some n2, true) /\
        fine K (S d') j n2 /\ has n2 (x :: y :: r) v /\ keeps n n2 /\ grows (hn_br n) (hn_br n2)) as Hgo.
    { intros c1 c2 Hm Hf2 Hh2 Hk2. change (merge_path E ∅ (Some (set_child n x c1)) (x :: y :: r) v items) with
        (let last := bool_decide (y :: r = []) in
         let m := set_child n x c1 in
         let cc := if last then None else child m x in
         let '(c', ok) := if last then (None, true) else merge_path E ∅ cc (y :: r) v items in
         let n1 := match cc, c' with Some _, Some c1 => Some (set_child m x c1) | _, _ => Some m end in
         if negb ok then (n1, false) else
         let its := take 4 (drop (4 * length (y :: r)) items) in
         let v0 := if last then v else [] in
         match n1 with
         | None => match node_by_items E ∅ x v0 c' its with Some m => (Some m, true) | None => (None, false) end
         | Some m => let '(m', ok') := merge_items E ∅ m x v0 c' its in (Some m', ok')
         end).
      cbv zeta. rewrite bool_decide_eq_false_2 by done. destruct (keep_child n x c1 c Hlen Hx) as [-> Hoth]. rewrite Hm. cbn [negb].
      set (m2 := set_child (set_child n x c1) x c2).
      assert (m2 = set_child n x c2) as Hm2.
      { unfold m2, set_child, with_ch. cbn [hn_dirty hn_leaf hn_br hn_ch hn_lv]. by rewrite list_insert_insert. }
      assert (nearly_fine K (S d') j m2) as Hn2.
      { rewrite Hm2. destruct Hn as (Hb & _ & _ & Hcc). split; [done|]. split; [done|]. split; [cbn [set_child with_ch hn_ch]; by rewrite insert_length|].
        intros i s Hi Hs. rewrite (child_set n i x c2 Hlen Hx) in Hs. destruct (decide (i = x)) as [->|]; [left; congruence|]. by apply Hcc. }
      destruct (step_inner d' j m2 x (y :: r) c2 Hd Hn2 Hx Hr ltac:(cbn [length]; lia) Hk Hf2 Hh2) as (n2 & -> & ? & ? & Hkeep & Hg).
      { intros s Hs. rewrite Hm2, (child_set n x x c2 Hlen Hx), decide_True in Hs by done. injection Hs as <-. by intros ? ?. }
      exists n2. split; [done|]. split; [done|]. split; [done|]. rewrite Hm2 in Hkeep, Hg. split; [|exact Hg].
      intros pre w Hp2 Hh. apply Hkeep; [done|]. destruct pre as [|z [|z2 r2]]; cbn [has] in Hh |- *; [done|by destruct Hh as [Hh _]; rewrite Hh in Hlf|].
      destruct Hh as (_ & s & Hs & Hh). split; [done|]. rewrite (child_set n z x c2 Hlen Hx). destruct (decide (z = x)) as [->|].
      - exists c2. split; [done|]. assert (s = c) as -> by congruence. exact (Hk2 (z2 :: r2) w (Forall_inv_tail Hp2) Hh).
      - exists s. done. }
    destruct (Hc x c Hx Hcx) as [Hfc|(h & Hst & Hlook & Hd0)].
    + destruct (IH d' _ c Hfc Hr ltac:(cbn [length]; lia) ltac:(lia) Hk0) as [Hh|(c1 & c2 & -> & Hm & Hf2 & Hh2 & Hk2 & _)].
      { left. cbn [has]. split; [done|]. exists c. done. }
      right. destruct (Hgo c1 c2 Hm Hf2 Hh2 Hk2) as (n2 & ?). exists (set_child n x c1), n2. done.
    + right. destruct d' as [|d''].
      { exfalso. destruct (Hd0 eq_refl) as (k' & Hk' & He). apply (Hno k' Hk'). rewrite <- He.
        destruct r; [|cbn [length] in Hl; lia]. pose proof (pos_up j x [y] Hr Hk) as Hu. cbn [length] in Hu. exact Hu. }
      destruct r as [|z r]; [cbn [length] in Hl; lia|]. subst c.
      pose proof (Forall_inv Hr) as Hy. cbn in Hy.
      assert (locate E ∅ (from_hash h) (y :: z :: r) = (NewTreeNode, Some None)) as ->.
      { cbn [locate]. rewrite (proj2 (N.leb_gt _ _) Hy). rewrite stub_expand by (by eapply look32). cbn [negb NewTreeNode hn_leaf].
        rewrite bool_decide_eq_false_2 by done. change (child _ y) with (child NewTreeNode y). by rewrite new_child. }
      destruct (merge_end (y :: z :: r) y (z :: r) (S d'') (16 * j + N.to_nat x) NewTreeNode eq_refl (empty_inner _ _) Hr ltac:(cbn [length] in *; lia) ltac:(lia) Hk0)
        as (c2 & Hm & Hf2 & Hh2 & _ & _); [right; by apply new_child|].
      destruct (Hgo NewTreeNode c2 Hm Hf2 Hh2) as (n2 & ?); [intros p w _ Hw; by apply has_stub in Hw|]. exists (set_child n x NewTreeNode), n2. done.
Qed.
End merge.
