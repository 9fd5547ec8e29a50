(** RestoreTreeFromProofs builds a tree of which only parts that are covered by hashes are
    missing. *)
From Verif Require Import Base MerkleSpec MerkleModel TrieSpec TrieModel TrieProofModel HistSpec HistModel HistLayerProofs
  HistRepProofs HistOpProofs HistPathProofs HistRunProofs HistRestoreModel HistPartProofs.
From stdpp Require Import gmap.
Open Scope N_scope.
Arguments Nat.mul : simpl never.
Arguments Nat.add : simpl never.
Arguments Nat.sub : simpl never.

Definition sib (u : nat) : nat := if Nat.odd u then (u - 1)%nat else (u + 1)%nat.
Definition tog (x : N) (l : nat) : list N := flip_last (take (S l) (to_binary x 4)).
Lemma tog_fin x l : x < 16 -> (l <= 3)%nat -> exists b, b < 2 /\ take (S l) (to_binary x 4) = take l (to_binary x 4) ++ [b] /\
  tog x l = take l (to_binary x 4) ++ [1 - b].
Proof.
  intros Hx Hl. destruct l as [|[|[|[|]]]]; try lia; nib x Hx; (eexists; split; [|split; [reflexivity|reflexivity]]; vm_compute; reflexivity).
Qed.
Lemma tog_len x l : x < 16 -> (l <= 3)%nat -> length (tog x l) = S l.
Proof.
  intros Hx Hl. destruct (tog_fin x l Hx Hl) as (b & _ & _ & ->). rewrite app_length, take_length, to_binary_len. cbn [length]. lia.
Qed.
Lemma tog_bits x l : x < 16 -> (l <= 3)%nat -> bits (tog x l).
Proof.
  intros Hx Hl. destruct (tog_fin x l Hx Hl) as (b & Hb & _ & ->). apply bits_app. split; [apply bits_take, to_binary_bits|].
  repeat constructor. lia.
Qed.
Lemma tog_bidx j x l : x < 16 -> (l <= 3)%nat -> bidx j (tog x l) = sib (up (4 - S l) (16 * j + N.to_nat x)).
Proof.
  intros Hx Hl. destruct (tog_fin x l Hx Hl) as (b & Hb & Ht & ->). rewrite bidx_app.
  rewrite <- (bidx_take j x (S l)) by lia. rewrite Ht, bidx_app. cbn [bidx]. set (u := bidx j _). unfold sib.
  assert (b = 0 \/ b = 1) as [-> | ->] by lia; cbn [N.sub N.to_nat].
  - replace (Nat.odd (2 * u + N.to_nat 0)) with false; [|symmetry; rewrite <- Nat.negb_even; apply negb_false_iff, Nat.even_spec; exists u; lia]. lia.
  - replace (Nat.odd (2 * u + N.to_nat 1)) with true by (symmetry; apply Nat.odd_spec; exists u; lia). lia.
Qed.
Definition flipx (x : N) : N := to_byte (tog x 3).
Lemma flipx_lt x : x < 16 -> flipx x < 16.
Proof. intros Hx. nib x Hx; vm_compute; reflexivity. Qed.
Lemma flipx_ne x : x < 16 -> flipx x <> x.
Proof. intros Hx. nib x Hx; vm_compute; discriminate. Qed.
Lemma flipx_tog x : x < 16 -> tog x 3 = to_binary (flipx x) 4.
Proof. intros Hx. nib x Hx; reflexivity. Qed.
Lemma flipx_sib j x : x < 16 -> (16 * j + N.to_nat (flipx x) = sib (16 * j + N.to_nat x))%nat.
Proof.
  intros Hx. rewrite <- (bidx_binary j (flipx x)) by by apply flipx_lt. rewrite <- flipx_tog by done. rewrite tog_bidx by (done || lia). done.
Qed.
(** Any other slot is below one of the three inner siblings. *)
Lemma other_slot x i : x < 16 -> i < 16 -> i <> x -> i <> flipx x ->
  exists l, (l <= 2)%nat /\ tog x l = take (S l) (to_binary i 4).
Proof.
  assert (forallb (fun x => forallb (fun i => (i =? x) || (i =? flipx x) ||
     existsb (fun l => bool_decide (tog x l = take (S l) (to_binary i 4))) (seq 0 3)) (map N.of_nat (seq 0 16))) (map N.of_nat (seq 0 16)) = true) as Hc
    by (vm_compute; reflexivity).
  intros Hx Hi Hne Hne2. rewrite forallb_forall in Hc.
  assert (forall y, y < 16 -> In y (map N.of_nat (seq 0 16))) as Hin.
  { intros y Hy. apply in_map_iff. exists (N.to_nat y). split; [lia|]. apply in_seq. lia. }
  specialize (Hc x (Hin x Hx)). rewrite forallb_forall in Hc. specialize (Hc i (Hin i Hi)).
  rewrite (proj2 (N.eqb_neq _ _) Hne), (proj2 (N.eqb_neq _ _) Hne2) in Hc. cbn [orb] in Hc.
  apply existsb_exists in Hc as (l & Hl & He). apply in_seq in Hl. exists l. split; [lia|]. by apply bool_decide_eq_true in He.
Qed.

Section restore.
Context (E : henv) (EOK : henv_ok E).
Local Notation H := (hH E).
Local Notation nilhash := (nilhash H).
Local Notation look vs k i := (layers H k vs !! i).
Local Notation len32 := (Forall (fun v : list N => length v = 32%nat)).

(* ------------------------------------------------------------ one node *)
Definition put_opt (o : option (list N)) (p : list N) (b : branches) : branches :=
  match o with Some h => <[p := h]> b | None => b end.
Definition put_slot {A} (o : option A) (i : N) (l : list (option A)) : list (option A) :=
  match o with Some h => <[N.to_nat i := Some h]> l | None => l end.
Lemma put_value_ok st n p h : collapsed n = false -> (length p < 4)%nat -> bits p ->
  put_value E st n p h = (with_br n (<[p := h]> (hn_br n)), true).
Proof.
  intros Hc Hl Hb. unfold put_value, expand_if. rewrite Hc. cbn [negb]. rewrite (proj2 (Nat.leb_gt _ _) Hl).
  assert (forallb (fun b => b <=? 1) p = true) as ->; [|done].
  apply forallb_forall. intros b Hin. apply elem_of_list_In in Hin. unfold bits in Hb. rewrite Forall_forall in Hb. specialize (Hb b Hin). cbn in Hb. apply N.leb_le. lia.
Qed.
Lemma slot_collapsed n x : x < 16 ->
  (if hn_leaf n then is_Some (leafv n x) else is_Some (child n x)) -> collapsed n = false.
Proof.
  intros Hx Hs. unfold collapsed. apply andb_false_iff. right. destruct (hn_leaf n); apply negb_false_iff.
  - unfold leafv in Hs. destruct (hn_lv n !! N.to_nat x) as [[c|]|] eqn:Hc; try by destruct Hs. by eapply existsb_lookup.
  - unfold child in Hs. destruct (hn_ch n !! N.to_nat x) as [[c|]|] eqn:Hc; try by destruct Hs. by eapply existsb_lookup.
Qed.
Lemma loop_inner st n x o1 o2 o3 : x < 16 -> collapsed n = false ->
  (forall b, collapsed (with_br n b) = false) ->
  (forall o, o ∈ [o1; o2; o3] -> o <> Some nilhash) ->
  merge_loop E st n (take 3 (to_binary x 4)) 1 (map (default nilhash) [o1; o2; o3]) =
    (with_br n (put_opt o3 (tog x 0) (put_opt o2 (tog x 1) (put_opt o1 (tog x 2) (hn_br n)))), true).
Proof.
  intros Hx Hc Hcb Hne.
  assert (forall m (o : option (list N)) l, (l <= 2)%nat -> o <> Some nilhash -> collapsed m = false ->
    (if bool_decide (default nilhash o = nilhash) then (m, true)
     else put_value E st m (tog x l) (default nilhash o)) = (with_br m (put_opt o (tog x l) (hn_br m)), true)) as Hstep.
  { intros m o l Hl Ho Hm. destruct o as [h|]; cbn [default put_opt].
    - change (id h) with h. rewrite bool_decide_eq_false_2 by congruence. apply put_value_ok; [done|rewrite tog_len by (done || lia); lia|].
      apply tog_bits; [done|lia].
    - rewrite bool_decide_eq_true_2 by done. by destruct m. }
  cbn [map merge_loop Nat.eqb].
  assert (forall l, (l <= 3)%nat -> length (take l (to_binary x 4)) = l) as Hlen by (intros; rewrite take_length, to_binary_len; lia).
  change (flip_last (take 3 (to_binary x 4))) with (tog x 2).
  rewrite (Hstep n o1 2%nat) by (done || apply Hne; set_solver). cbn [negb]. rewrite Hlen by lia. rewrite take_take. change (3 - 1)%nat with 2%nat.
  change (2 `min` 3)%nat with 2%nat. change (flip_last (take 2 (to_binary x 4))) with (tog x 1).
  rewrite (Hstep _ o2 1%nat) by (lia || apply Hcb || apply Hne; set_solver). cbn [negb]. rewrite Hlen by lia. rewrite take_take. change (2 - 1)%nat with 1%nat.
  change (1 `min` 2)%nat with 1%nat. change (flip_last (take 1 (to_binary x 4))) with (tog x 0).
  rewrite (Hstep _ o3 0%nat) by (lia || apply Hcb || apply Hne; set_solver). cbn [negb]. done.
Qed.
Lemma merge_loop_cons st n bs i h rest : merge_loop E st n bs i (h :: rest) =
  let '(n, ok) := if bool_decide (h = nilhash) then (n, true)
                  else if (i =? 0)%nat then merge_slot E st n (flip_last bs) h
                  else put_value E st n (flip_last bs) h in
  if negb ok then (n, false) else merge_loop E st n (take (length bs - 1) bs) (S i) rest.
Proof. done. Qed.
Definition leaf_node (x : N) (v : list N) (o0 o1 o2 o3 : option (list N)) : hnode :=
  HNode true true (put_opt o3 (tog x 0) (put_opt o2 (tog x 1) (put_opt o1 (tog x 2) ∅))) no_ch
    (put_slot o0 (flipx x) (<[N.to_nat x := Some v]> no_lv)).
Definition inner_node (x : N) (c : hnode) (o0 o1 o2 o3 : option (list N)) : hnode :=
  HNode true false (put_opt o3 (tog x 0) (put_opt o2 (tog x 1) (put_opt o1 (tog x 2) ∅)))
    (put_slot (option_map from_hash o0) (flipx x) (<[N.to_nat x := Some c]> no_ch)) no_lv.
Lemma node_leaf st x v o0 o1 o2 o3 : x < 16 -> length v = 32%nat -> (forall o, o ∈ [o0; o1; o2; o3] -> o <> Some nilhash) ->
  node_by_items E st x v None (map (default nilhash) [o0; o1; o2; o3]) = Some (leaf_node x v o0 o1 o2 o3).
Proof.
  intros Hx Hv Hne. unfold node_by_items, merge_items. rewrite (proj2 (N.leb_gt _ _) Hx), Hv. cbn [Nat.eqb negb andb orb map length is_some].
  cbn [with_leaf hn_leaf NewTreeNode with_lv hn_lv hn_br hn_ch hn_dirty]. rewrite merge_loop_cons. cbn [Nat.eqb].
  replace (flip_last (to_binary x 4)) with (tog x 3) by (unfold tog; rewrite take_ge by (rewrite to_binary_len; lia); done).
  set (n0 := HNode false true ∅ no_ch (<[N.to_nat x := Some v]> no_lv)).
  change (with_lv (with_leaf NewTreeNode true) (<[N.to_nat x:=Some v]> no_lv)) with n0.
  assert ((if bool_decide (default nilhash o0 = nilhash) then (n0, true) else merge_slot E st n0 (tog x 3) (default nilhash o0)) =
    (with_lv n0 (put_slot o0 (flipx x) (hn_lv n0)), true)) as ->.
  { destruct o0 as [h|]; cbn [default put_slot]; [|by rewrite bool_decide_eq_true_2].
    change (id h) with h. rewrite bool_decide_eq_false_2; [done|]. intros ->. eapply Hne; [|reflexivity]. set_solver. }
  cbn [negb]. rewrite to_binary_len. change (4 - 1)%nat with 3%nat.
  assert (forall b, collapsed (with_br (with_lv n0 (put_slot o0 (flipx x) (hn_lv n0))) b) = false) as Hcb.
  { intros b. apply (slot_collapsed _ x Hx). cbn [with_br with_lv hn_leaf n0]. unfold leafv. cbn [with_br with_lv hn_lv n0].
    destruct o0; cbn [put_slot]; [rewrite list_lookup_insert_ne by (pose proof (flipx_ne x Hx); lia)|];
      rewrite list_lookup_insert by (unfold no_lv; rewrite replicate_length; lia); cbn; eauto. }
  change [default nilhash o1; default nilhash o2; default nilhash o3] with (map (default nilhash) [o1; o2; o3]).
  rewrite loop_inner; [done|done| |exact Hcb|].
  - specialize (Hcb ∅). exact Hcb.
  - intros o Ho. apply Hne. set_solver.
Qed.
Lemma node_inner st x c o0 o1 o2 o3 : x < 16 -> (forall o, o ∈ [o0; o1; o2; o3] -> o <> Some nilhash) ->
  node_by_items E st x [] (Some c) (map (default nilhash) [o0; o1; o2; o3]) = Some (inner_node x c o0 o1 o2 o3).
Proof.
  intros Hx Hne. unfold node_by_items, merge_items. rewrite (proj2 (N.leb_gt _ _) Hx). cbn [Nat.eqb negb andb orb map length is_some].
  cbn [with_leaf hn_leaf NewTreeNode with_ch hn_lv hn_br hn_ch hn_dirty]. rewrite merge_loop_cons. cbn [Nat.eqb].
  replace (flip_last (to_binary x 4)) with (tog x 3) by (unfold tog; rewrite take_ge by (rewrite to_binary_len; lia); done).
  set (n0 := HNode false false ∅ (<[N.to_nat x := Some c]> no_ch) no_lv).
  change (with_ch (with_leaf NewTreeNode false) (<[N.to_nat x:=Some c]> no_ch)) with n0.
  assert ((if bool_decide (default nilhash o0 = nilhash) then (n0, true) else merge_slot E st n0 (tog x 3) (default nilhash o0)) =
    (with_ch n0 (put_slot (option_map from_hash o0) (flipx x) (hn_ch n0)), true)) as ->.
  { destruct o0 as [h|]; cbn [default put_slot option_map]; [|by rewrite bool_decide_eq_true_2].
    change (id h) with h. rewrite bool_decide_eq_false_2; [|intros ->; eapply Hne; [|reflexivity]; set_solver].
    unfold merge_slot. cbn [n0 hn_leaf]. fold (flipx x).
    assert (child n0 (flipx x) = None) as ->; [|done]. unfold child. cbn [n0 hn_ch].
    rewrite list_lookup_insert_ne by (pose proof (flipx_ne x Hx); lia). unfold no_ch.
    rewrite lookup_replicate_2 by (pose proof (flipx_lt x Hx); lia). done. }
  cbn [negb]. rewrite to_binary_len. change (4 - 1)%nat with 3%nat.
  assert (forall b, collapsed (with_br (with_ch n0 (put_slot (option_map from_hash o0) (flipx x) (hn_ch n0))) b) = false) as Hcb.
  { intros b. apply (slot_collapsed _ x Hx). cbn [with_br with_ch hn_leaf n0]. unfold child. cbn [with_br with_ch hn_ch n0].
    destruct o0; cbn [put_slot option_map]; [rewrite list_lookup_insert_ne by (pose proof (flipx_ne x Hx); lia)|];
      rewrite list_lookup_insert by (unfold no_ch; rewrite replicate_length; lia); cbn; eauto. }
  change [default nilhash o1; default nilhash o2; default nilhash o3] with (map (default nilhash) [o1; o2; o3]).
  rewrite loop_inner; [done|done| |exact Hcb|].
  - specialize (Hcb ∅). exact Hcb.
  - intros o Ho. apply Hne. set_solver.
Qed.

(* ------------------------------------------------------------ the node and its full form *)
Section node.
Context (A : nat -> Prop) (st : hstore) (vs : list (list N)) (k : nat).
Context (Hnil : forall l i h, (l <= 64)%nat -> look vs l i = Some h -> h <> nilhash).
(** Calls to positions of [A] do not pass the siblings of the path to [k]. *)
Context (HA : forall d j x l pos y, (d <= 15)%nat -> (l <= 3)%nat -> x < 16 -> y < 16 -> up (4 * d) k = (16 * j + N.to_nat x)%nat ->
  A pos -> up (4 * d) pos = (16 * j + N.to_nat y)%nat ->
  is_Some (look vs (4 * d + (3 - l)) (bidx j (tog x l))) -> tog x l <> take (S l) (to_binary y 4)).
Context (Hst : forall d j, (d <= 15)%nat -> is_Some (look vs (4 * d + 4) j) -> stored E st vs d j).

Definition sb (d j : nat) (x : N) (l : nat) : option (list N) := look vs (4 * d + (3 - l)) (bidx j (tog x l)).
Definition rbr (d j : nat) (x : N) : branches :=
  put_opt (sb d j x 0) (tog x 0) (put_opt (sb d j x 1) (tog x 1) (put_opt (sb d j x 2) (tog x 2) ∅)).
Lemma rbr_at d j x l h : x < 16 -> (l <= 2)%nat -> sb d j x l = Some h -> rbr d j x !! tog x l = Some h.
Proof.
  intros Hx Hl Hs. unfold rbr.
  assert (forall a b, (a <= 2)%nat -> (b <= 2)%nat -> a <> b -> tog x a <> tog x b) as Hne.
  { intros a b Ha Hb Hab He. apply (f_equal length) in He. rewrite !tog_len in He by (done || lia). lia. }
  assert (forall a b m o, (a <= 2)%nat -> (b <= 2)%nat -> a <> b -> put_opt o (tog x b) m !! tog x a = m !! tog x a) as Hpass.
  { intros a b m o Ha Hb Hab. destruct o; cbn [put_opt]; [|done]. apply lookup_insert_ne. by apply Hne; auto. }
  destruct l as [|[|[|]]]; try lia; rewrite ?Hpass by lia; rewrite Hs; cbn [put_opt]; by rewrite lookup_insert.
Qed.
Lemma rbr_ok d j x : x < 16 -> br_ok E vs d j (rbr d j x).
Proof.
  intros Hx. assert (forall l b, (l <= 2)%nat -> br_ok E vs d j b -> br_ok E vs d j (put_opt (sb d j x l) (tog x l) b)) as Hp.
  { intros l b Hl Hb. destruct (sb d j x l) as [h|] eqn:Hs; cbn [put_opt]; [|done]. intros p r Hpr.
    destruct (decide (tog x l = p)) as [<-|Hne]; [|rewrite lookup_insert_ne in Hpr by done; by apply Hb].
    rewrite lookup_insert in Hpr. injection Hpr as <-. rewrite tog_len by (done || lia). split; [apply tog_bits; [done|lia]|]. split; [lia|].
    unfold sb in Hs. by replace (4 * d + (4 - S l))%nat with (4 * d + (3 - l))%nat by lia. }
  unfold rbr. do 3 (apply Hp; [lia|]). intros p r. by rewrite lookup_empty.
Qed.
Lemma miss_other d j x i : (d <= 15)%nat -> x < 16 -> i < 16 -> up (4 * d) k = (16 * j + N.to_nat x)%nat -> i <> x -> i <> flipx x ->
  is_Some (look vs (4 * d) (16 * j + N.to_nat i)%nat) -> miss A (rbr d j x) d j i.
Proof.
  intros Hd Hx Hi Hk Hne Hne2 Hs. destruct (other_slot x i Hx Hi Hne Hne2) as (l & Hl & Ht).
  assert (is_Some (sb d j x l)) as [h Hh].
  { unfold sb. rewrite Ht, bidx_take by (done || lia). replace (4 * d + (3 - l))%nat with ((4 - S l) + 4 * d)%nat by lia. by apply look_up_some. }
  exists (tog x l), h. split; [apply rbr_at; [done|lia|done]|]. rewrite tog_len by (done || lia). split; [lia|]. split; [done|].
  intros pos y Hp Hy Hu. exact (HA d j x l pos y Hd ltac:(lia) Hx Hy Hk Hp Hu (ex_intro _ h Hh)).
Qed.
Lemma slot_sib d j x : x < 16 -> sb d j x 3 = look vs (4 * d) (16 * j + N.to_nat (flipx x))%nat.
Proof.
  intros Hx. unfold sb. rewrite tog_bidx by (done || lia). rewrite flipx_sib by done. change (4 - 4)%nat with 0%nat. cbn [up].
  by replace (4 * d + (3 - 3))%nat with (4 * d)%nat by lia.
Qed.
Lemma items4 d j x : x < 16 -> map fst (path_items E vs (4 * d) 4 (16 * j + N.to_nat x)) = map (default nilhash) [sb d j x 3; sb d j x 2; sb d j x 1; sb d j x 0].
Proof.
  intros Hx. assert (forall k i, map fst (path_items E vs k 1 i) = [default nilhash (look vs k (sib i))]) as H1.
  { intros k0 i. cbn [path_items map]. unfold sib. by destruct (Nat.odd i). }
  assert (forall c k i, map fst (path_items E vs k (S c) i) = default nilhash (look vs k (sib i)) :: map fst (path_items E vs (S k) c (i / 2))) as HS.
  { intros c k0 i. cbn [path_items map]. unfold sib. by destruct (Nat.odd i). }
  rewrite !HS. cbn [path_items map]. unfold sb. rewrite !tog_bidx by (done || lia).
  change (4 - 4)%nat with 0%nat. change (4 - 3)%nat with 1%nat. change (4 - 2)%nat with 2%nat. change (4 - 1)%nat with 3%nat. cbn [up].
  replace (4 * d + (3 - 3))%nat with (4 * d)%nat by lia. replace (4 * d + (3 - 2))%nat with (S (4 * d)) by lia.
  replace (4 * d + (3 - 1))%nat with (S (S (4 * d))) by lia. replace (4 * d + (3 - 0))%nat with (S (S (S (4 * d)))) by lia. done.
Qed.
Lemma sb_ok d j x : (d <= 15)%nat -> forall o, o ∈ [sb d j x 3; sb d j x 2; sb d j x 1; sb d j x 0] -> o <> Some nilhash.
Proof.
  intros Hd o Ho ->. assert (exists l, sb d j x l = Some nilhash) as [l Hl].
  { repeat (apply elem_of_cons in Ho as [->|Ho]; [eauto|]); by apply elem_of_nil in Ho. }
  unfold sb in Hl. by apply Hnil in Hl; [|lia].
Qed.

Lemma leafv_put x v o i : x < 16 -> i < 16 -> mjoin (put_slot o (flipx x) (<[N.to_nat x := Some v]> no_lv) !! N.to_nat i) =
  if decide (i = x) then Some v else if decide (i = flipx x) then o else None.
Proof.
  intros Hx Hi. pose proof (flipx_ne x Hx) as Hne. pose proof (flipx_lt x Hx) as Hlt.
  assert (length no_lv = 16%nat) as Hl by done.
  assert (forall i, i < 16 -> mjoin (no_lv !! N.to_nat i) = None) as Hno.
  { intros i' Hi'. unfold no_lv. by rewrite lookup_replicate_2 by lia. }
  destruct (decide (i = x)) as [->|Hix].
  - destruct o; cbn [put_slot]; [rewrite list_lookup_insert_ne by lia|]; rewrite list_lookup_insert by lia; done.
  - destruct (decide (i = flipx x)) as [->|Hif].
    + destruct o; cbn [put_slot]; [rewrite list_lookup_insert by (rewrite insert_length; lia); done|].
      rewrite list_lookup_insert_ne by lia. by apply Hno.
    + destruct o; cbn [put_slot]; rewrite ?list_lookup_insert_ne by lia; by apply Hno.
Qed.
Lemma child_put x v o i : x < 16 -> i < 16 -> mjoin (put_slot o (flipx x) (<[N.to_nat x := Some v]> no_ch) !! N.to_nat i) =
  if decide (i = x) then Some v else if decide (i = flipx x) then o else None.
Proof.
  intros Hx Hi. pose proof (flipx_ne x Hx) as Hne. pose proof (flipx_lt x Hx) as Hlt.
  assert (length no_ch = 16%nat) as Hl by done.
  assert (forall i, i < 16 -> mjoin (no_ch !! N.to_nat i) = None) as Hno.
  { intros i' Hi'. unfold no_ch. by rewrite lookup_replicate_2 by lia. }
  destruct (decide (i = x)) as [->|Hix].
  - destruct o; cbn [put_slot]; [rewrite list_lookup_insert_ne by lia|]; rewrite list_lookup_insert by lia; done.
  - destruct (decide (i = flipx x)) as [->|Hif].
    + destruct o; cbn [put_slot]; [rewrite list_lookup_insert by (rewrite insert_length; lia); done|].
      rewrite list_lookup_insert_ne by lia. by apply Hno.
    + destruct o; cbn [put_slot]; rewrite ?list_lookup_insert_ne by lia; by apply Hno.
Qed.
Lemma put_slot_len {B} (o : option B) i l : length (put_slot o i l) = length l.
Proof. destruct o; cbn [put_slot]; [apply insert_length|done]. Qed.

Lemma leaf_full j x v : x < 16 -> k = (16 * j + N.to_nat x)%nat -> look vs 0 k = Some v ->
  exists n', psub A 0 j (leaf_node x v (sb 0 j x 3) (sb 0 j x 2) (sb 0 j x 1) (sb 0 j x 0)) n' /\ rep E st vs 0 j n'.
Proof.
  intros Hx Hk Hv. exists (HNode true true (rbr 0 j x) no_ch (arr E vs 0 j)). split.
  - cbn [psub]. split; [done|]. split; [done|]. split; [done|]. split; [cbn [leaf_node hn_lv]; by rewrite put_slot_len, insert_length|].
    split; [exact (arr_len E vs 0 j)|]. split.
    + exists x. split; [done|]. unfold leafv. cbn [leaf_node hn_lv]. rewrite leafv_put by done. rewrite decide_True by done. eauto.
    + intros i Hi. assert (leafv (HNode true true (rbr 0 j x) no_ch (arr E vs 0 j)) i = look vs 0 (16 * j + N.to_nat i)%nat) as ->.
      { unfold leafv. cbn [hn_lv]. rewrite arr_lookup by lia. done. }
      unfold leafv. cbn [leaf_node hn_lv]. rewrite leafv_put by done. destruct (decide (i = x)) as [->|Hne]; [left; by rewrite <- Hk|].
      destruct (decide (i = flipx x)) as [->|Hne2]; [left; rewrite slot_sib by done; done|].
      destruct (look vs 0 (16 * j + N.to_nat i)%nat) eqn:Hl; [|by left]. right. split; [done|].
      refine (miss_other 0 j x i ltac:(lia) Hx Hi Hk Hne Hne2 _). change (4 * 0)%nat with 0%nat. eauto.
  - apply erep_rep. split; [|done]. split; [|split; [by apply rbr_ok|done]].
    pose proof (look_up_some E vs 0 k 4 ltac:(eauto)) as Hs. change (4 + 0)%nat with (4 * 0 + 4)%nat in Hs.
    replace (up 4 k) with j in Hs; [done|]. change 4%nat with (4 + 0)%nat. rewrite up_4. cbn [up]. lia.
Qed.
Lemma inner_full d' j x c c' : (S d' <= 15)%nat -> x < 16 -> up (4 * S d') k = (16 * j + N.to_nat x)%nat ->
  psub A d' (16 * j + N.to_nat x) c c' -> rep E st vs d' (16 * j + N.to_nat x) c' ->
  exists n', psub A (S d') j (inner_node x c (sb (S d') j x 3) (sb (S d') j x 2) (sb (S d') j x 1) (sb (S d') j x 0)) n' /\ rep E st vs (S d') j n'.
Proof.
  intros Hd Hx Hk Hc Hc'.
  set (full := map (fun i => if decide (i = N.to_nat x) then Some c' else option_map from_hash (look vs (4 * S d') (16 * j + i)%nat)) (seq 0 16)).
  assert (forall i, (i < 16)%nat -> full !! i = Some (if decide (i = N.to_nat x) then Some c' else option_map from_hash (look vs (4 * S d') (16 * j + i)%nat))) as Hfull.
  { intros i Hi. unfold full. rewrite map_lookup, lookup_seq_lt by done. done. }
  assert (is_Some (look vs (4 * S d') (16 * j + N.to_nat x)%nat)) as Hsx.
  { apply rep_unfold in Hc' as [[Hs _] _]. by replace (4 * S d')%nat with (4 * d' + 4)%nat by lia. }
  exists (HNode true false (rbr (S d') j x) full no_lv). split.
  - cbn [psub]. split; [done|]. split; [done|]. split; [done|]. split; [cbn [inner_node hn_ch]; by rewrite put_slot_len, insert_length|].
    split; [cbn [hn_ch]; unfold full; by rewrite map_length, seq_length|]. split.
    + exists x. split; [done|]. unfold child. cbn [inner_node hn_ch]. rewrite child_put by done. rewrite decide_True by done. eauto.
    + intros i Hi. unfold child. cbn [inner_node hn_ch hn_br]. rewrite child_put by done. rewrite Hfull by lia. cbn [mjoin option_join].
      destruct (decide (i = x)) as [->|Hne]; [rewrite decide_True by done; by left|]. rewrite (decide_False (P := N.to_nat i = N.to_nat x)) by lia.
      destruct (decide (i = flipx x)) as [->|Hne2].
      * rewrite slot_sib by done. destruct (look vs (4 * S d') (16 * j + N.to_nat (flipx x))%nat) as [h|] eqn:Hl; cbn [option_map]; [|done].
        right. split; [done|]. intros pos Hp Hu. pose proof (flipx_lt x Hx) as Hlt.
        refine (HA (S d') j x 3 pos (flipx x) Hd ltac:(lia) Hx Hlt Hk Hp Hu _ _).
        -- fold (sb (S d') j x 3). rewrite slot_sib by done. eauto.
        -- rewrite flipx_tog by done. by rewrite take_ge by (rewrite to_binary_len; lia).
      * destruct (look vs (4 * S d') (16 * j + N.to_nat i)%nat) eqn:Hl; cbn [option_map]; [|done].
        refine (miss_other (S d') j x i Hd Hx Hi Hk Hne Hne2 _). eauto.
  - apply erep_rep. split.
    + split; [|split; [by apply rbr_ok|done]].
      pose proof (look_up_some E vs (4 * S d') _ 4 Hsx) as Hs. replace (4 + 4 * S d')%nat with (4 * S d' + 4)%nat in Hs by lia.
      replace (up 4 (16 * j + N.to_nat x)) with j in Hs; [done|]. change 4%nat with (4 + 0)%nat. rewrite up_4. cbn [up]. lia.
    + cbn [kids]. split; [done|]. split; [cbn [hn_ch]; unfold full; by rewrite map_length, seq_length|]. intros i Hi. cbn [hn_ch].
      rewrite Hfull by done. destruct (decide (i = N.to_nat x)) as [->|Hne]; [done|].
      destruct (look vs (4 * S d') (16 * j + i)%nat) as [h|] eqn:Hl; cbn [option_map]; [|done].
      apply from_hash_rep; [by replace (4 * d' + 4)%nat with (4 * S d')%nat by lia|]. apply Hst; [lia|].
      replace (4 * d' + 4)%nat with (4 * S d')%nat by lia. eauto.
Qed.

(* ------------------------------------------------------------ all the nodes *)
Lemma restore_inner st2 : forall pre d c c', nibs pre -> (d + length pre <= 15)%nat -> up (4 * S d) k = npos 0 pre ->
  psub A d (npos 0 pre) c c' -> rep E st vs d (npos 0 pre) c' ->
  exists n n', restore_nodes E st2 (reverse pre) [] (Some c) (map fst (path_items E vs (4 * S d) (4 * length pre) (npos 0 pre))) = Some n /\
    psub A (d + length pre) 0 n n' /\ rep E st vs (d + length pre) 0 n'.
Proof.
  induction pre as [|x pre IH] using rev_ind; intros d c c' Hp Hd Hk Hc Hc'.
  - exists c, c'. cbn [length npos] in *. rewrite Nat.add_0_r. done.
  - apply Forall_app in Hp as [Hp Hx]. apply Forall_inv in Hx. rewrite app_length in *. cbn [length] in *.
    rewrite npos_app in *. cbn [npos] in *. rewrite reverse_app. cbn [reverse app restore_nodes].
    change (reverse [x] ++ reverse pre) with (x :: reverse pre). cbn [restore_nodes].
    replace (4 * (length pre + 1))%nat with (4 + 4 * length pre)%nat by lia. rewrite path_items_app, map_app.
    rewrite (take_app_alt _ _ 4) by (by rewrite map_length, path_items_len). rewrite (drop_app_alt _ _ 4) by (by rewrite map_length, path_items_len).
    rewrite items4 by done. rewrite node_inner by (done || (apply sb_ok; lia)).
    destruct (inner_full d (npos 0 pre) x c c' ltac:(lia) Hx Hk Hc Hc') as (n' & Hn & Hn').
    set (m := inner_node _ _ _ _ _ _) in *.
    assert (up 4 (16 * npos 0 pre + N.to_nat x) = npos 0 pre)%nat as Hup by (change 4%nat with (4 + 0)%nat; rewrite up_4; cbn [up]; lia).
    rewrite Hup. replace (4 + 4 * S d)%nat with (4 * S (S d))%nat by lia.
    destruct (IH (S d) m n' Hp ltac:(lia)) as (r & r' & Hr & Hr1 & Hr2); [|done|done|].
    { replace (4 * S (S d))%nat with (4 + 4 * S d)%nat by lia. rewrite up_4, Hk. lia. }
    exists r, r'. split; [exact Hr|]. replace (d + (length pre + 1))%nat with (S d + length pre)%nat by lia. done.
Qed.
Lemma restore_all st2 pre v : nibs pre -> length pre = 16%nat -> npos 0 pre = k -> look vs 0 k = Some v -> length v = 32%nat ->
  exists n n', restore_nodes E st2 (reverse pre) v None (map fst (path_items E vs 0 64 k)) = Some n /\
    psub A 15 0 n n' /\ rep E st vs 15 0 n'.
Proof.
  intros Hp Hl Hk Hv H32. destruct pre as [|x pre _] using rev_ind; [done|].
  apply Forall_app in Hp as [Hp Hx]. apply Forall_inv in Hx. rewrite app_length in *. cbn [length] in *.
  rewrite npos_app in *. cbn [npos] in *. rewrite reverse_app. change (reverse [x] ++ reverse pre) with (x :: reverse pre). cbn [restore_nodes].
  change 64%nat with (4 + 60)%nat. rewrite path_items_app, map_app.
  rewrite (take_app_alt _ _ 4) by (by rewrite map_length, path_items_len). rewrite (drop_app_alt _ _ 4) by (by rewrite map_length, path_items_len).
  pose proof (items4 0 (npos 0 pre) x Hx) as Hi. change (4 * 0)%nat with 0%nat in Hi. rewrite Hk in Hi. rewrite Hi.
  rewrite node_leaf by (done || (apply sb_ok; lia)).
  destruct (leaf_full (npos 0 pre) x v Hx ltac:(lia) Hv) as (n' & Hn & Hn').
  assert (up 4 k = npos 0 pre) as Hup by (change 4%nat with (4 + 0)%nat; rewrite up_4; cbn [up]; lia). rewrite Hup.
  destruct (restore_inner st2 pre 0 _ n' Hp ltac:(lia) Hup Hn Hn') as (r & r' & Hr & Hr1 & Hr2).
  change (4 + 0)%nat with (4 * 1)%nat. replace 60%nat with (4 * length pre)%nat by lia.
  exists r, r'. split; [exact Hr|]. by replace (0 + length pre)%nat with 15%nat in * by lia.
Qed.
End node.
End restore.
