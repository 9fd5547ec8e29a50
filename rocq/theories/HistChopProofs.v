(** What Chop makes of a tree. *)
From Coq Require Import Lia Zify ZArith.
From Verif Require Import Base MerkleSpec MerkleModel TrieSpec TrieModel TrieProofModel HistSpec HistModel HistLayerProofs
  HistRepProofs HistPathProofs HistOpProofs HistCommitProofs HistSimProofs HistChopModel.
From stdpp Require Import gmap.
Open Scope N_scope.
Ltac Zify.zify_post_hook ::= Z.div_mod_to_equations.
Arguments Nat.mul : simpl never.
Arguments Nat.add : simpl never.

Lemma up_le k : forall a b, (a <= b)%nat -> (up k a <= up k b)%nat.
Proof. induction k as [|k IH]; intros a b Hab; cbn [up]; [done|]. specialize (IH a b Hab). lia. Qed.
Lemma bidx_lt p : forall l n j, bits p -> (j < up (length p + l) n)%nat -> (bidx j p < up l n)%nat.
Proof.
  induction p as [|b p IH]; intros l n j Hp Hj; cbn [bidx]; [done|]. inversion Hp as [|? ? Hb Hp']; subst.
  apply IH; [done|]. cbn [length] in Hj. cbn [up Nat.add] in Hj. change (S (length p) + l)%nat with (S (length p + l)) in Hj. cbn [up] in Hj. lia.
Qed.

(* ------------------------------------------------------------ the branches that stay *)
Definition prefixes : list (list N) :=
  [[]; [0]; [1]; [0;0]; [0;1]; [1;0]; [1;1]; [0;0;0]; [0;0;1]; [0;1;0]; [0;1;1]; [1;0;0]; [1;0;1]; [1;1;0]; [1;1;1]].
Lemma in_prefixes p : bits p -> (length p <= 3)%nat -> p ∈ prefixes.
Proof.
  intros Hp Hl. unfold prefixes.
  assert (forall b, b < 2 -> b = 0 \/ b = 1) as Hb by lia.
  destruct p as [|a [|b [|c [|]]]]; cbn [length] in Hl; try lia;
    repeat match goal with Hx : bits (_ :: _) |- _ => inversion Hx; subst; clear Hx
         | Hx : Forall _ (_ :: _) |- _ => inversion Hx; subst; clear Hx end;
    repeat match goal with Hx : ?a < 2 |- _ => apply Hb in Hx as [-> | ->] end;
    rewrite !elem_of_cons; tauto.
Qed.
(** last position under [p] in a node *)
Definition hi (p : list N) : nat := ((bidx 0 p + 1) * Nat.pow 2 (4 - length p))%nat.
Definition check_kept : bool :=
  forallb (fun x => forallb (fun p => bool_decide (p ∈ choped x) ||
    ((hi p <=? N.to_nat x)%nat || ((hi p =? S (N.to_nat x))%nat && bool_decide (p = take (length p) (to_binary x 4))))) prefixes)
    [0;1;2;3;4;5;6;7;8;9;10;11;12;13;14;15].
Lemma check_kept_ok : check_kept = true.
Proof. vm_compute. reflexivity. Qed.
Lemma kept p x : x < 16 -> bits p -> (length p <= 3)%nat -> p ∉ choped x ->
  (hi p <= N.to_nat x)%nat \/ (hi p = S (N.to_nat x) /\ p = take (length p) (to_binary x 4)).
Proof.
  intros Hx Hp Hl Hc. pose proof check_kept_ok as Hk. unfold check_kept in Hk. rewrite forallb_forall in Hk.
  specialize (Hk x). rewrite <- elem_of_list_In in Hk. specialize (Hk (nib_cases x Hx)). rewrite forallb_forall in Hk.
  specialize (Hk p). rewrite <- elem_of_list_In in Hk. specialize (Hk (in_prefixes p Hp Hl)).
  rewrite bool_decide_eq_false_2 in Hk by done. cbn [orb] in Hk. apply orb_true_iff in Hk as [Hk|Hk].
  - left. by apply Nat.leb_le.
  - right. apply andb_true_iff in Hk as [Ha Hb]. apply Nat.eqb_eq in Ha. apply bool_decide_eq_true in Hb. done.
Qed.
Lemma bidx_0 p : forall j, bidx j p = (j * Nat.pow 2 (length p) + bidx 0 p)%nat.
Proof.
  assert (forall p i j, bidx (i + j) p = (i * Nat.pow 2 (length p) + bidx j p)%nat) as Hg.
  { clear p. induction p as [|b p IH]; intros i j; cbn [bidx length Nat.pow]; [lia|].
    replace (2 * (i + j) + N.to_nat b)%nat with (2 * i + (2 * j + N.to_nat b))%nat by lia. rewrite IH. lia. }
  intros j. by rewrite <- (Hg p j 0%nat), Nat.add_0_r.
Qed.
(** when all positions under [p] are below [M], so is [p] itself *)
Lemma hi_lt p j M : (length p <= 3)%nat -> (16 * j + hi p <= M)%nat -> (bidx j p < up (4 - length p) M)%nat.
Proof.
  intros Hl. rewrite (bidx_0 p j). unfold hi. generalize (bidx 0 p). intros b Hh. revert Hl Hh. generalize (length p) as l. intros l Hl Hh.
  destruct l as [|[|[|[|]]]]; [| | | |lia].
  1: change (4 - 0)%nat with 4%nat in *. 2: change (4 - 1)%nat with 3%nat in *. 3: change (4 - 2)%nat with 2%nat in *.
  4: change (4 - 3)%nat with 1%nat in *. all: cbn [up Nat.pow] in *; lia.
Qed.

Lemma take_app_le' {A} (l : list A) n m : (m <= n)%nat -> take m (take n l) = take m l.
Proof. intros. rewrite take_take. by rewrite Nat.min_l. Qed.

Section chop.
Context (E : henv) (EOK : henv_ok E).
Local Notation H := (hH E).
Local Notation nilhash := (nilhash H).
Local Notation look vs k i := (layers H k vs !! i).
Local Notation len32 := (Forall (fun v : list N => length v = 32%nat)).
Context (st : hstore) (vs : list (list N)) (K : nat) (HK : (0 < K <= length vs)%nat) (V32 : len32 vs).
Local Notation vs' := (take K vs).

Lemma look_take l : forall i, (i < up l K)%nat -> look vs' l i = look vs l i.
Proof.
  induction l as [|l IH]; intros i Hi; cbn [up] in Hi.
  - cbn [layers]. by rewrite lookup_take.
  - rewrite !look_S, !IH by lia. done.
Qed.
Lemma len_take : length vs' = K.
Proof. rewrite take_length. lia. Qed.
Lemma take_all : (length vs <= K)%nat -> vs' = vs.
Proof. intros. by apply take_ge. Qed.
Lemma take_32 : len32 vs'.
Proof. by apply Forall_take. Qed.

(** The node is complete, or nothing is cut off at all. *)
Definition whole (d j : nat) : Prop := (length vs <= K)%nat \/ (j < up (4 * d + 4) K)%nat.
Lemma whole_look d j p : whole d j -> bits p -> (length p <= 4)%nat ->
  look vs' (4 * d + (4 - length p)) (bidx j p) = look vs (4 * d + (4 - length p)) (bidx j p).
Proof.
  intros [Hw|Hw] Hp Hl; [by rewrite take_all|]. apply look_take. apply bidx_lt; [done|].
  by replace (length p + (4 * d + (4 - length p)))%nat with (4 * d + 4)%nat by lia.
Qed.
Lemma whole_slot d j i : whole d j -> (i < 16)%nat -> look vs' (4 * d) (16 * j + i)%nat = look vs (4 * d) (16 * j + i)%nat.
Proof.
  intros [Hw|Hw] Hi; [by rewrite take_all|]. apply look_take. rewrite Nat.add_comm, up_4 in Hw. lia.
Qed.
Lemma whole_kid d' j i : whole (S d') j -> (i < 16)%nat -> whole d' (16 * j + i).
Proof.
  intros [Hw|Hw] Hi; [by left|right]. rewrite Nat.add_comm, up_4 in Hw. replace (4 * d' + 4)%nat with (4 * S d')%nat by lia. lia.
Qed.
Lemma whole_arr d j : whole d j -> arr E vs' d j = arr E vs d j.
Proof.
  intros Hw. unfold arr. apply map_ext_in. intros i Hi%in_seq. apply whole_slot; [done|lia].
Qed.
Lemma whole_stored : forall d j, whole d j -> stored E st vs d j -> stored E st vs' d j.
Proof.
  assert (forall d j c, whole d j -> cont_ok E vs d j c -> cont_ok E vs' d j c) as Hcont.
  { intros d j c Hw [->|(b & -> & Hb & Hbo)]; [left; by rewrite whole_arr|]. right. exists b. rewrite whole_arr by done.
    split; [done|]. split; [done|]. intros p r Hp. destruct (Hbo p r Hp) as (Hbt & Hl & Hr). split; [done|]. split; [done|].
    rewrite whole_look; [done|done|done|lia]. }
  assert (forall d j, whole d j -> look vs' (4 * d + 4) j = look vs (4 * d + 4) j) as Hself.
  { intros d j Hw. pose proof (whole_look d j [] Hw) as Hx. cbn [length bidx] in Hx.
    replace (4 * d + (4 - 0))%nat with (4 * d + 4)%nat in Hx by lia. apply Hx; [constructor|lia]. }
  induction d as [|d' IH]; intros j Hw Hs; cbn [stored] in *; destruct Hs as [(h & c & Hh & Hne & Hc & Hok) Hk].
  - split; [|done]. exists h, c. rewrite Hself by done. auto 10.
  - split; [exists h, c; rewrite Hself by done; auto 10|]. intros i Hi Hx. rewrite whole_slot in Hx by done.
    apply IH; [by apply whole_kid|by apply Hk].
Qed.

(* ------------------------------------------------------------ copies *)
Definition copied (l : bool) (h : list N) : hnode := HNode false l {[ [] := h ]} no_ch no_lv.
Lemma copied_collapsed l h : collapsed (copied l h) = true.
Proof.
  unfold collapsed, copied, has_leaf, has_child, no_ch, no_lv. cbn [hn_br hn_leaf hn_ch hn_lv].
  rewrite map_size_singleton, lookup_singleton, !existsb_none. by destruct l.
Qed.
Lemma copied_rep d j l h : look vs' (4 * d + 4) j = Some h -> stored E st vs' d j -> rep E st vs' d j (copied l h).
Proof.
  intros Hh Hst. apply rep_unfold. split; [|left; split; [apply copied_collapsed|done]].
  split; [eauto|]. split; [|done]. by apply br_ok_single.
Qed.
Local Notation klist := (klist E).
Lemma klist_cons' d' J o l : klist st vs d' J (o :: l) <->
  match o with Some c => rep E st vs d' J c | None => look vs (4 * S d') J = None end /\ klist st vs d' (S J) l.
Proof using E st vs. clear HK K V32 EOK.
  unfold HistCommitProofs.klist. split.
  - intros Hl. split; [specialize (Hl 0%nat o eq_refl); by replace (J + 0)%nat with J in Hl by lia|].
    intros i o' Hi. specialize (Hl (S i) o' Hi). by replace (S J + i)%nat with (J + S i)%nat by lia.
  - intros [Ho Hl] [|i] o' Hi; [injection Hi as <-; by replace (J + 0)%nat with J by lia|].
    specialize (Hl i o' Hi). by replace (J + S i)%nat with (S J + i)%nat by lia.
Qed.
Lemma klist_kids' d' j n : length (hn_ch n) = 16%nat -> hn_leaf n = false ->
  kids E st vs (S d') j n <-> klist st vs d' (16 * j) (hn_ch n).
Proof using E st vs. clear HK K V32 EOK.
  intros Hl Hlf. unfold kids, HistCommitProofs.klist. split.
  - intros (_ & _ & Hk) i o Hi. assert (i < 16)%nat as Hlt by (apply lookup_lt_Some in Hi; lia).
    specialize (Hk i Hlt). rewrite Hi in Hk. destruct o; done.
  - intros Hk. split; [done|]. split; [done|]. intros i Hi. destruct (lookup_lt_is_Some_2 (hn_ch n) i ltac:(lia)) as [o Ho].
    specialize (Hk i o Ho). rewrite Ho. destruct o; done.
Qed.
Lemma copy_children_ok d' : (d' <= 15)%nat -> forall l J, klist st vs d' J l ->
  exists l' cs, copy_children E l = (l', Some cs) /\ klist st vs d' J l' /\ length l' = length l /\ length cs = length l /\
    (forall i c, l !! i = Some (Some c) -> exists c', l' !! i = Some (Some c')) /\
    forall i o, cs !! i = Some o -> match o with
      | None => look vs (4 * S d') (J + i)%nat = None
      | Some c => exists b h, c = copied b h /\ look vs (4 * S d') (J + i)%nat = Some h end.
Proof using E st vs. clear HK K V32 EOK.
  intros Hd. induction l as [|[c|] l IH]; intros J Hk.
  - exists [], []. by split_and!.
  - apply klist_cons' in Hk as [Hc Hk]. cbn [copy_children]. unfold copy_node.
    destruct (hash_prefix_ok E vs st d' J c Hd Hc) as (c' & f1 & f2 & -> & Hc' & _).
    destruct (IH (S J) Hk) as (l' & cs & -> & Hk' & Hl' & Hcs & Hsome & Hcp).
    apply rep_unfold in Hc as [[[h Hh] _] _]. rewrite Hh. cbn [option_map].
    do 2 eexists. split; [reflexivity|]. split; [by apply klist_cons'|]. cbn [length]. split; [congruence|]. split; [congruence|]. split.
    + intros [|i] c0 Hi; cbn in *; [eauto|by eapply Hsome].
    + intros [|i] o Ho; cbn in Ho.
      * injection Ho as <-. do 2 eexists. split; [reflexivity|]. rewrite Nat.add_0_r. by replace (4 * S d')%nat with (4 * d' + 4)%nat by lia.
      * specialize (Hcp i o Ho). by replace (J + S i)%nat with (S J + i)%nat by lia.
  - apply klist_cons' in Hk as [Hc Hk]. cbn [copy_children].
    destruct (IH (S J) Hk) as (l' & cs & -> & Hk' & Hl' & Hcs & Hsome & Hcp). cbn [option_map].
    do 2 eexists. split; [reflexivity|]. split; [by apply klist_cons'|]. cbn [length]. split; [congruence|]. split; [congruence|]. split.
    + intros [|i] c0 Hi; cbn in *; [done|by eapply Hsome].
    + intros [|i] o Ho; cbn in Ho.
      * injection Ho as <-. by rewrite Nat.add_0_r.
      * specialize (Hcp i o Ho). by replace (J + S i)%nat with (S J + i)%nat by lia.
Qed.

(* ------------------------------------------------------------ branches *)
Definition fbr (x : N) (b : branches) : branches := filter (fun pr : list N * list N => pr.1 ∉ choped x) b.
Lemma fbr_ok d j x b : x < 16 -> br_ok E vs d j b -> (16 * j + N.to_nat x <= up (4 * d) K)%nat ->
  forall p r, fbr x b !! p = Some r -> bits p /\ (length p <= 3)%nat /\
    ((length vs <= K)%nat \/ (16 * j + N.to_nat x < up (4 * d) K)%nat \/ p <> take (length p) (to_binary x 4) ->
      look vs' (4 * d + (4 - length p)) (bidx j p) = Some r).
Proof.
  intros Hx Hb Hj p r Hp. apply map_filter_lookup_Some in Hp as [Hp Hc]. cbn [fst] in Hc.
  destruct (Hb p r Hp) as (Hbt & Hl & Hr). split; [done|]. split; [done|]. intros Hor. rewrite <- Hr.
  destruct (le_lt_dec (length vs) K) as [Hle|Hlt]; [by rewrite take_all|]. destruct Hor as [?|Hor]; [lia|].
  apply look_take. replace (4 * d + (4 - length p))%nat with ((4 - length p) + 4 * d)%nat by lia. rewrite up_add.
  apply hi_lt; [done|]. destruct (kept p x Hx Hbt Hl Hc) as [Hh|[Hh He]]; [lia|]. destruct Hor as [?|?]; [lia|done].
Qed.

(* ------------------------------------------------------------ one node *)
Lemma edge' l i : is_Some (look vs' l i) <-> (i <= up l (K - 1))%nat.
Proof. rewrite look_edge by (rewrite len_take; lia). by rewrite len_take. Qed.
Lemma edge l i : is_Some (look vs l i) <-> (i <= up l (length vs - 1))%nat.
Proof. apply look_edge. lia. Qed.
(** no next sibling: what the node holds stays *)
Lemma stays d j x : up (4 * d) (K - 1) = (16 * j + N.to_nat x)%nat -> x < 16 -> (16 * j + N.to_nat x < up (4 * d) K)%nat ->
  (if x =? 15 then None else look vs (4 * d) (16 * j + N.to_nat (x + 1))%nat) = None -> whole d j.
Proof.
  intros Hup Hx Hk Hn. unfold whole. destruct (N.eqb_spec x 15) as [->|Hx15].
  - right. rewrite Nat.add_comm, up_4. lia.
  - left. apply eq_None_not_Some in Hn. rewrite edge in Hn.
    destruct (le_lt_dec (length vs) K) as [?|Hlt]; [done|]. exfalso. apply Hn.
    pose proof (up_le (4 * d) K (length vs - 1) ltac:(lia)). lia.
Qed.

Lemma child_over n : length (hn_ch n) = 16%nat -> child n 16 = None.
Proof. intros Hl. unfold child. rewrite (proj2 (lookup_ge_None _ _)); [done|]. lia. Qed.

Lemma chop_leaf j n x : erep E st vs 0 j n -> x < 16 -> (16 * j + N.to_nat x = K - 1)%nat ->
  exists m b, chop_node E n x = (n, Some (m, b)) /\ erep E st vs' 0 j (with_dirty m true) /\ (b = false -> whole 0 j).
Proof.
  intros Hn Hx Hpos. unfold chop_node. rewrite (erep_leaf E vs _ _ _ _ Hn). cbn [Nat.eqb].
  rewrite (erep_leafv E vs _ _ _ _ Hn Hx). change (4 * 0)%nat with 0%nat. cbn [layers].
  destruct (lookup_lt_is_Some_2 vs (16 * j + N.to_nat x)%nat ltac:(lia)) as [v Hv]. rewrite Hv.
  do 2 eexists. split; [reflexivity|]. split.
  - split; [|split; [done|]].
    + split; [|split; [|done]].
      * apply edge'. change (4 * 0 + 4)%nat with (4 + 0)%nat. rewrite up_4. cbn [up]. lia.
      * cbn [with_dirty hn_br]. intros p r Hp.
        destruct (fbr_ok 0 j x (hn_br n) Hx (proj1 (proj2 (proj1 Hn)))) with (p := p) (r := r) as (Hb & Hl & Hr); [change (up (4 * 0) K) with K; lia|done|].
        split; [done|]. split; [done|]. apply Hr. right. left. change (up (4 * 0) K) with K. lia.
    + cbn [with_dirty hn_lv]. destruct Hn as [_ [_ Hlv]]. rewrite Hlv.
      assert (length (take (S (N.to_nat x)) (arr E vs 0 j)) = S (N.to_nat x)) as Hlt by (rewrite take_length, arr_len; lia).
      apply list_eq_same_length with 16%nat; [by rewrite arr_len|rewrite app_length, Hlt, replicate_length; lia|].
      intros i a b Hi Ha Hb. rewrite arr_lookup in Hb by done. injection Hb as <-.
      destruct (le_lt_dec i (N.to_nat x)) as [Hle|Hgt].
      * rewrite lookup_app_l in Ha by lia. rewrite lookup_take in Ha by lia. rewrite arr_lookup in Ha by done. injection Ha as <-.
        symmetry. apply lookup_take. lia.
      * rewrite lookup_app_r in Ha by lia. apply lookup_replicate in Ha as [-> _]. symmetry.
        try change (4 * 0)%nat with 0%nat; cbn [layers]. apply lookup_ge_None. rewrite len_take. lia.
  - intros [Hn1 _]%orb_false_iff. apply (stays 0 j x); [change (up (4 * 0) (K - 1)) with (K - 1)%nat; lia|done|change (up (4 * 0) K) with K; lia|].
    destruct (N.eqb_spec x 15) as [|Hx15]; [done|]. rewrite (erep_leafv E vs _ _ _ (x + 1) Hn ltac:(lia)) in Hn1.
    change (4 * 0)%nat with 0%nat in *. by destruct (look vs 0 (16 * j + N.to_nat (x + 1))%nat).
Qed.

Lemma chop_inner d' j n x : (d' <= 15)%nat -> erep E st vs (S d') j n -> stored E st vs (S d') j -> x < 16 ->
  up (4 * S d') (K - 1) = (16 * j + N.to_nat x)%nat ->
  exists n1 m b c, chop_node E n x = (n1, Some (m, b)) /\ erep E st vs (S d') j n1 /\ hn_leaf n1 = false /\ hn_dirty n1 = hn_dirty n /\
    child n1 x = Some c /\ rep E st vs d' (16 * j + N.to_nat x) c /\
    hn_leaf m = false /\ hn_dirty m = false /\ hn_br m = fbr x (hn_br n) /\ length (hn_ch m) = 16%nat /\
    (forall i, (i < 16)%nat -> i <> N.to_nat x -> match hn_ch m !! i with
       | Some (Some c) => (i < N.to_nat x)%nat /\ rep E st vs' d' (16 * j + i) c
       | Some None => look vs' (4 * S d') (16 * j + i)%nat = None | None => False end) /\
    (b = false -> (if x =? 15 then None else look vs (4 * S d') (16 * j + N.to_nat (x + 1))%nat) = None).
Proof.
  intros Hd Hn Hst Hx Hup. unfold chop_node. pose proof (erep_leaf E vs _ _ _ _ Hn) as Hlf. cbn [Nat.eqb] in Hlf. rewrite Hlf.
  assert (Hk := proj2 Hn). assert (length (hn_ch n) = 16%nat) as Hl16 by apply Hk.
  assert (is_Some (look vs (4 * S d') (16 * j + N.to_nat x)%nat)) as Hsx.
  { apply edge. rewrite <- Hup. apply up_le. lia. }
  pose proof (kids_child E vs _ _ _ _ _ Hk Hx) as Hcx. destruct (child n x) as [c0|] eqn:Hc0; [|rewrite Hcx in Hsx; by destruct Hsx].
  assert (klist st vs d' (16 * j) (hn_ch n)) as Hkl by (by apply klist_kids').
  destruct (copy_children_ok d' Hd (take (S (N.to_nat x)) (hn_ch n)) (16 * j)) as (l' & cs & Hcp & Hkl' & Hl' & Hlcs & Hsome & Hcs).
  { intros i o Ho. apply Hkl. by apply lookup_take_Some in Ho as [? _]. }
  rewrite Hcp. rewrite take_length, Hl16, Nat.min_l in Hl', Hlcs by lia.
  set (n1 := with_ch n (l' ++ drop (S (N.to_nat x)) (hn_ch n))).
  assert (length (hn_ch n1) = 16%nat) as Hl1 by (unfold n1; cbn [with_ch hn_ch]; rewrite app_length, drop_length, Hl', Hl16; lia).
  assert (kids E st vs (S d') j n1) as Hk1.
  { apply klist_kids'; [done|done|]. intros i o Ho. unfold n1 in Ho. cbn [with_ch hn_ch] in Ho.
    destruct (le_lt_dec (S (N.to_nat x)) i) as [Hge|Hlt].
    - rewrite lookup_app_r in Ho by lia. rewrite Hl', lookup_drop in Ho. apply Hkl. rewrite <- Ho. f_equal. lia.
    - rewrite lookup_app_l in Ho by lia. by apply Hkl'. }
  destruct (Hsome (N.to_nat x) c0) as [c Hc].
  { rewrite lookup_take by lia. unfold child in Hc0. destruct (hn_ch n !! N.to_nat x) as [[|]|]; cbn in Hc0; congruence. }
  do 4 eexists. split; [reflexivity|]. split; [split; [exact (proj1 Hn)|exact Hk1]|]. split; [done|]. split; [done|].
  assert (child n1 x = Some c) as Hcc.
  { unfold child, n1. cbn [with_ch hn_ch]. rewrite lookup_app_l by lia. rewrite Hc. done. }
  split; [exact Hcc|]. split. { pose proof (kids_child E vs _ _ _ _ _ Hk1 Hx) as Hr. by rewrite Hcc in Hr. }
  cbn [hn_leaf hn_dirty hn_br hn_ch]. split; [done|]. split; [done|]. split; [done|]. split; [rewrite app_length, replicate_length; lia|]. split.
  - intros i Hi Hne. destruct (le_lt_dec (S (N.to_nat x)) i) as [Hge|Hlt].
    + rewrite lookup_app_r by lia. rewrite lookup_replicate_2 by lia. apply eq_None_not_Some. rewrite edge', Hup. lia.
    + rewrite lookup_app_l by lia. destruct (lookup_lt_is_Some_2 cs i ltac:(lia)) as [o Ho]. rewrite Ho. specialize (Hcs i o Ho).
      assert ((16 * j + i)%nat < up (4 * S d') K)%nat as Hin by (pose proof (up_le (4 * S d') (K - 1) K ltac:(lia)); lia).
      destruct o as [cc|].
      * destruct Hcs as (b & h & -> & Hh). split; [lia|]. apply copied_rep.
        -- replace (4 * d' + 4)%nat with (4 * S d')%nat by lia. by rewrite look_take.
        -- apply whole_stored; [right; by replace (4 * d' + 4)%nat with (4 * S d')%nat by lia|].
           apply (proj2 Hst); [lia|eauto].
      * by rewrite look_take.
  - intros [Hb _]%orb_false_iff. destruct (N.eqb_spec x 15) as [|Hx15]; [done|].
    pose proof (kids_child E vs _ _ _ _ (x + 1) Hk ltac:(lia)) as Hr. destruct (child n (x + 1)); [done|exact Hr].
Qed.

(* ------------------------------------------------------------ the path *)
(** What Chop leaves on the path: the nodes are not marked dirty although they may not be
    in the database. *)
Fixpoint cut (d j : nat) (m : hnode) (p : list N) {struct p} : Prop :=
  match p with
  | [] => False
  | x :: rest =>
      is_Some (look vs' (4 * d + 4) j) /\ br_ok E vs' d j (hn_br m) /\
      match d with
      | O => leafslots E vs' j m
      | S d' => hn_leaf m = false /\ length (hn_ch m) = 16%nat /\
          (exists c, child m x = Some c /\ cut d' (16 * j + N.to_nat x) c rest) /\
          forall i, (i < 16)%nat -> i <> N.to_nat x -> match hn_ch m !! i with
            | Some (Some c) => (i < N.to_nat x)%nat /\ rep E st vs' d' (16 * j + i) c
            | Some None => look vs' (4 * S d') (16 * j + i)%nat = None | None => False end
      end
  end.

Lemma path_up p d j : nibs p -> length p = S d -> npos j p = (K - 1)%nat ->
  up (4 * d + 4) (K - 1) = j /\
  match p with [] => False | x :: rest => x < 16 /\ up (4 * d) (K - 1) = (16 * j + N.to_nat x)%nat /\ npos (16 * j + N.to_nat x) rest = (K - 1)%nat end.
Proof.
  intros Hp Hl Hpos. destruct p as [|x rest]; [done|]. cbn [length] in Hl. cbn [npos] in Hpos. inversion Hp as [|? ? Hx Hr]; subst.
  assert (up (4 * d) (K - 1) = 16 * j + N.to_nat x)%nat as Hup.
  { replace (4 * d)%nat with (4 * length rest + 0)%nat by lia. apply npos_up; [done|]. done. }
  split; [rewrite Nat.add_comm, up_4, Hup; lia|]. auto.
Qed.

Lemma chop_path_ok : forall d j n p, (d <= 15)%nat -> rep E st vs d j n -> stored E st vs d j -> nibs p -> length p = S d -> npos j p = (K - 1)%nat ->
  exists n' m b, chop_path E st n p = (n', Some (m, b)) /\ erep E st vs d j n' /\ hn_dirty n' = hn_dirty n /\ cut d j m p /\ (b = false -> whole d j).
Proof.
  induction d as [|d' IH]; intros j n p Hd Hn Hst Hnb Hl Hpos; destruct (path_up p _ j Hnb Hl Hpos) as [Hupj Hx];
    (destruct p as [|x rest]; [done|]); destruct Hx as (Hx & Hup & Hpos'); cbn [length] in Hl; cbn [chop_path];
    destruct (expand_ok E EOK vs st _ j n (fun _ => V32) Hn) as (n1 & -> & Hn1 & Hd1); cbn [negb].
  - destruct rest; [|done]. destruct (chop_leaf j n1 x Hn1 Hx) as (m & b & -> & Hm & Hb); [exact Hpos'|].
    cbv beta iota. rewrite bool_decide_eq_true_2 by done. do 3 eexists. split; [reflexivity|]. split; [done|]. split; [done|]. split; [|done].
    destruct Hm as [(Hs & Hbr & _) Hlv]. split; [done|]. done.
  - destruct (chop_inner d' j n1 x ltac:(lia) Hn1 Hst Hx Hup) as (n2 & m & b & c & -> & Hn2 & Hlf2 & Hdy & Hc & Hrc & Hmlf & Hmd & Hmb & Hml & Hmk & Hb).
    cbv beta iota. pose proof (Forall_inv_tail Hnb) as Hrest. rewrite (bool_decide_eq_false_2 (rest = [])) by (intros ->; cbn in Hl; lia).
    rewrite Hlf2, Hc.
    assert (stored E st vs d' (16 * j + N.to_nat x)) as Hstx.
    { apply (proj2 Hst); [lia|]. apply edge. rewrite <- Hup. apply up_le. lia. }
    destruct (IH (16 * j + N.to_nat x)%nat c rest ltac:(lia) Hrc Hstx Hrest ltac:(lia) Hpos') as (c' & mc & bc & -> & Hc' & _ & Hcut & Hbc).
    cbv beta iota. do 3 eexists. split; [reflexivity|]. split; [apply erep_set_child; [done|done|by apply erep_rep]|]. split; [cbn; congruence|]. split.
    + assert (forall q r, hn_br (if bc then clear_ancestors (set_child m x mc) (to_binary x 4) else set_child m x mc) !! q = Some r ->
        fbr x (hn_br n1) !! q = Some r /\ (bc = true -> q <> take (length q) (to_binary x 4))) as Hq.
      { intros q r. destruct bc; [|cbn [set_child with_ch hn_br]; rewrite Hmb; done]. intros Hq.
        assert (hn_br (set_child m x mc) = fbr x (hn_br n1)) as Heq by (cbn [set_child with_ch hn_br]; done).
        assert (fbr x (hn_br n1) !! q = Some r) as Hf.
        { rewrite <- Heq. unfold clear_ancestors in Hq. cbn [with_br hn_br] in Hq. rewrite !lookup_delete_Some in Hq. tauto. }
        split; [done|]. intros _ Hqe. apply map_filter_lookup_Some in Hf as [Hf _].
        destruct (proj1 (proj2 (proj1 Hn1)) q r Hf) as (_ & Hlq & _).
        rewrite clear_lookup in Hq by (try apply to_binary_len; lia). by rewrite decide_True in Hq. }
      set (mm := if bc then _ else _) in *.
      assert (hn_leaf mm = false /\ hn_ch mm = <[N.to_nat x := Some mc]> (hn_ch m)) as [Hmm1 Hmm2] by (unfold mm; destruct bc; done).
      cbn [cut]. split; [apply edge'; lia|]. split; [|split; [done|]].
      * intros q r Hqr. destruct (Hq q r Hqr) as [Hf Hne].
        destruct (fbr_ok (S d') j x (hn_br n1) Hx (proj1 (proj2 (proj1 Hn1)))) with (p := q) (r := r) as (Hbt & Hlq & Hr);
          [pose proof (up_le (4 * S d') (K - 1) K ltac:(lia)); lia|done|].
        split; [done|]. split; [done|]. apply Hr. destruct bc; [right; right; by apply Hne|].
        destruct (Hbc eq_refl) as [?|Hw]; [by left|]. right. left. by replace (4 * d' + 4)%nat with (4 * S d')%nat in Hw by lia.
      * rewrite Hmm2. split; [by rewrite insert_length|]. split.
        { exists mc. split; [|done]. unfold child. rewrite Hmm2, list_lookup_insert by lia. done. }
        intros i Hi Hne. rewrite list_lookup_insert_ne by done. by apply Hmk.
    + intros [Hb0 Hbc0]%orb_false_iff. specialize (Hb Hb0). destruct (Hbc Hbc0) as [?|Hw]; [by left|].
      eapply stays; [exact Hup|done| |exact Hb]. by replace (4 * S d')%nat with (4 * d' + 4)%nat by lia.
Qed.

(** With the nodes on the path marked dirty it is a tree of the values that are kept. *)
Lemma cut_sim : forall p d j m, length p = S d -> nibs p -> cut d j m p -> exists m', sim m m' /\ erep E st vs' d j m' /\ hn_dirty m' = true.
Proof.
  induction p as [|x rest IH]; intros d j m Hl Hnb Hc; [done|]. cbn [cut length] in *. destruct Hc as (Hs & Hb & Hc). inversion Hnb as [|? ? Hx Hr]; subst.
  destruct d as [|d'].
  - exists (with_dirty m true). split; [|split; [|done]].
    + destruct m. constructor. apply (sim_ch _ _ (sim_refl (HNode hn_dirty hn_leaf hn_br hn_ch hn_lv))).
    + split; [done|exact Hc].
  - destruct Hc as (Hlf & Hl16 & (c & Hcx & Hcut) & Hk).
    destruct (IH d' _ c ltac:(lia) Hr Hcut) as (c' & Hsc & Hec & _).
    exists (with_dirty (set_child m x c') true). split; [|split; [|done]].
    + apply sim_intro; [done..|]. cbn [with_dirty set_child with_ch hn_ch].
      assert (hn_ch m !! N.to_nat x = Some (Some c)) as Hlk by (unfold child in Hcx; destruct (hn_ch m !! N.to_nat x) as [[|]|]; cbn in Hcx; congruence).
      assert (hn_ch m = <[N.to_nat x := Some c]> (hn_ch m)) as Heq by (by rewrite list_insert_id).
      rewrite Heq at 1. apply Forall2_insert; [apply (sim_ch _ _ (sim_refl m))|by constructor].
    + split; [done|]. cbn [kids with_dirty set_child with_ch hn_leaf hn_ch]. split; [done|]. split; [by rewrite insert_length|].
      intros i Hi. destruct (decide (i = N.to_nat x)) as [->|Hne].
      * rewrite list_lookup_insert by lia. by apply erep_rep.
      * rewrite list_lookup_insert_ne by done. specialize (Hk i Hi Hne). destruct (hn_ch m !! i) as [[c0|]|]; [tauto|done|done].
Qed.

(* ------------------------------------------------------------ appending to what is left *)
(** Nodes of the path that are complete are in the database. *)
Lemma cut_rep : forall p d j m, nibs p -> length p = S d -> cut d j m p -> whole d j -> stored E st vs d j -> rep E st vs' d j m.
Proof.
  induction p as [|x rest IH]; intros d j m Hnb Hl Hc Hw Hst; [done|]. cbn [cut length] in *. destruct Hc as (Hs & Hb & Hc).
  pose proof (Forall_inv Hnb) as Hx. pose proof (Forall_inv_tail Hnb) as Hr. cbv beta in Hx.
  apply erep_rep. split; [split; [done|split; [done|intros _; by apply whole_stored]]|].
  destruct d as [|d']; [exact Hc|]. destruct Hc as (Hlf & Hl16 & (c & Hcx & Hcut) & Hk).
  split; [done|]. split; [done|]. intros i Hi. destruct (decide (i = N.to_nat x)) as [->|Hne].
  - unfold child in Hcx. destruct (hn_ch m !! N.to_nat x) as [[c0|]|]; cbn in Hcx; [|done|done]. injection Hcx as ->.
    apply (IH d' _ c Hr ltac:(lia) Hcut); [by apply whole_kid|]. apply (proj2 Hst); [done|].
    rewrite <- (whole_slot (S d') j (N.to_nat x) Hw Hi).
    destruct rest as [|y rest']; [cbn [cut] in Hcut; done|]. cbn [cut] in Hcut. destruct Hcut as [Hso _].
    by replace (4 * d' + 4)%nat with (4 * S d')%nat in Hso by lia.
  - specialize (Hk i Hi Hne). destruct (hn_ch m !! i) as [[c0|]|]; [tauto|done|done].
Qed.
Lemma trace_mark n q v m r e : collapsed n = false -> trace E st (with_dirty n true) q (Some v) = (m, Some (true, r, e)) ->
  trace E st n q (Some v) = (m, Some (true, r, e)).
Proof.
  intros Hc. destruct q as [|x rest]; [done|]. cbn [trace].
  assert (expand_if E st n = (n, true)) as -> by (unfold expand_if; by rewrite Hc).
  assert (expand_if E st (with_dirty n true) = (with_dirty n true, true)) as ->
    by (unfold expand_if; change (collapsed (with_dirty n true)) with (collapsed n); by rewrite Hc).
  cbn [negb]. change (hn_leaf (with_dirty n true)) with (hn_leaf n). change (child (with_dirty n true) x) with (child n x).
  destruct (_ && _); [done|]. destruct (_ && _); [done|]. destruct (hn_leaf n).
  - unfold put_leaf. change (collapsed (with_dirty n true)) with (collapsed n). rewrite Hc.
    change (hn_leaf (with_dirty n true)) with (hn_leaf n). by destruct (bool_decide _), (hn_leaf n).
  - destruct (child n x) as [c|].
    + destruct (trace E st c rest (Some v)) as [c' [[[[] ?] ?]|]]; done.
    + destruct (trace E st _ rest (Some v)) as [c' [[[? ?] ?]|]]; done.
Qed.
Lemma cut_not_collapsed d j m p : nibs p -> cut d j m p -> collapsed m = false.
Proof.
  intros Hnb. destruct p as [|x rest]; [done|]. pose proof (Forall_inv Hnb) as Hx. cbv beta in Hx. cbn [cut]. intros (Hs & _ & Hc).
  destruct d as [|d'].
  - eapply (kids_not_collapsed E st vs' 0 j m); done.
  - destruct Hc as (Hlf & Hl & (c & Hcx & _) & _). unfold collapsed. rewrite Hlf. unfold has_child.
    apply andb_false_iff. right. unfold child in Hcx. destruct (hn_ch m !! N.to_nat x) as [[c0|]|] eqn:Hi; [|done|done].
    by rewrite (existsb_lookup _ _ _ _ Hi).
Qed.

Lemma cut_append v : v <> [] -> forall d j m p q, (d <= 15)%nat -> cut d j m p -> stored E st vs d j ->
  nibs p -> length p = S d -> npos j p = (K - 1)%nat -> nibs q -> length q = S d -> npos j q = K ->
  exists m' r, trace E st m q (Some v) = (m', Some (true, r, true)) /\ erep E st (vs' ++ [v]) d j m' /\ hn_dirty m' = true.
Proof.
  intros Hv. induction d as [|d' IH]; intros j m p q Hd Hc Hst Hnp Hlp Hpp Hnq Hlq Hpq;
    pose proof (cut_not_collapsed _ _ _ _ Hnp Hc) as Hcol;
    destruct (path_up p _ j Hnp Hlp Hpp) as [Hupj Hpx]; (destruct p as [|x rest]; [done|]); destruct Hpx as (Hx & Hupx & Hpp');
    (destruct q as [|y qrest]; [done|]); pose proof (Forall_inv Hnq) as Hy; cbv beta in Hy; pose proof (Forall_inv_tail Hnq) as Hnq';
    pose proof (Forall_inv_tail Hnp) as Hnp'; cbn [length] in Hlp, Hlq; cbn [npos] in Hpq; cbn [cut] in Hc; destruct Hc as (Hs & Hb & Hc).
  - destruct (trace_append E EOK st vs' v (fun _ => take_32) Hv 0 j (with_dirty m true) (y :: qrest)) as (m' & r & Ht & Hm' & Hd');
      [left; apply erep_rep; split; [done|exact Hc]|done|cbn [length]; lia|by rewrite len_take|].
    exists m', r. split; [by apply trace_mark|done].
  - destruct Hc as (Hlf & Hl16 & (c & Hcx & Hcut) & Hk).
    assert (hn_ch m !! N.to_nat x = Some (Some c)) as Hlk by (unfold child in Hcx; destruct (hn_ch m !! N.to_nat x) as [[|]|]; cbn in Hcx; congruence).
    assert (up (4 * S d') K = (16 * j + N.to_nat y)%nat) as Hupy.
    { replace (4 * S d')%nat with (4 * length qrest + 0)%nat by lia. apply npos_up; [done|done]. }
    assert (stored E st vs d' (16 * j + N.to_nat x)) as Hstx.
    { apply (proj2 Hst); [lia|]. apply edge. rewrite <- Hupx. apply up_le. lia. }
    destruct (decide (y = x)) as [->|Hne].
    + destruct (IH (16 * j + N.to_nat x)%nat c rest qrest ltac:(lia) Hcut Hstx Hnp' ltac:(lia) Hpp' Hnq' ltac:(lia) Hpq) as (c' & r & Ht & Hc' & Hd').
      cbn [trace]. assert (expand_if E st m = (m, true)) as -> by (unfold expand_if; by rewrite Hcol). cbn [negb].
      rewrite Hlf, (bool_decide_eq_false_2 (qrest = [])) by (intros ->; cbn in Hlq; lia). cbn [andb negb]. rewrite Hcx, Ht.
      do 2 eexists. split; [reflexivity|]. split; [|done]. split; [split; [|split; [|done]]|].
      * assert (up (4 * S d' + 4) (length vs') = j) as <- by (rewrite len_take, Nat.add_comm, up_4, Hupy; lia). apply look_new.
      * cbn [with_dirty hn_br]. apply (clear_br_ok E vs' v (S d') j (set_child m x c')); [done|done|]. by rewrite len_take.
      * cbn [kids with_dirty clear_ancestors with_br set_child with_ch hn_leaf hn_ch]. split; [done|]. split; [by rewrite insert_length|].
        intros i Hi. destruct (decide (i = N.to_nat x)) as [->|Hix]; [rewrite list_lookup_insert by lia; by apply erep_rep|].
        rewrite list_lookup_insert_ne by done. specialize (Hk i Hi Hix).
        assert ((16 * j + i)%nat <> up (4 * S d') (length vs')) as Hoff by (rewrite len_take, Hupy; lia).
        destruct (hn_ch m !! i) as [[c0|]|]; [|by rewrite look_frame|done].
        apply rep_frame; [|tauto]. by replace (4 * d' + 4)%nat with (4 * S d')%nat by lia.
    + assert (rep E st vs' d' (16 * j + N.to_nat x) c) as Hrc.
      { apply (cut_rep rest); [done|lia|done| |done]. right. replace (4 * d' + 4)%nat with (4 * S d')%nat by lia.
        pose proof (up_le (4 * S d') (K - 1) K ltac:(lia)). lia. }
      destruct (trace_append E EOK st vs' v (fun _ => take_32) Hv (S d') j (with_dirty m true) (y :: qrest)) as (m' & r & Ht & Hm' & Hd');
        [|done|cbn [length]; lia|by rewrite len_take|].
      { left. apply erep_rep. split; [split; [done|split; [done|done]]|]. cbn [kids with_dirty hn_leaf hn_ch]. split; [done|]. split; [done|].
        intros i Hi. destruct (decide (i = N.to_nat x)) as [->|Hix]; [by rewrite Hlk|]. specialize (Hk i Hi Hix).
        destruct (hn_ch m !! i) as [[c0|]|]; [tauto|done|done]. }
      exists m', r. split; [by apply trace_mark|done].
Qed.
End chop.

(* ------------------------------------------------------------ a key that is not there *)
Section bad.
Context (E : henv) (EOK : henv_ok E).
Local Notation H := (hH E).
Local Notation look vs k i := (layers H k vs !! i).
Context (st : hstore) (vs : list (list N)) (V32 : Forall (fun v : list N => length v = 32%nat) vs).

Lemma chop_keeps d' j n x : (d' <= 15)%nat -> erep E st vs (S d') j n -> x < 16 -> is_Some (child n x) ->
  exists n1 r c, chop_node E n x = (n1, Some r) /\ erep E st vs (S d') j n1 /\ child n1 x = Some c /\ rep E st vs d' (16 * j + N.to_nat x) c.
Proof.
  intros Hd Hn Hx [c0 Hc0]. unfold chop_node. pose proof (erep_leaf E vs _ _ _ _ Hn) as Hlf. cbn [Nat.eqb] in Hlf. rewrite Hlf, Hc0.
  assert (Hk := proj2 Hn). assert (length (hn_ch n) = 16%nat) as Hl16 by apply Hk.
  assert (klist E st vs d' (16 * j) (hn_ch n)) as Hkl by (by apply klist_kids').
  destruct (copy_children_ok E st vs d' Hd (take (S (N.to_nat x)) (hn_ch n)) (16 * j)) as (l' & cs & Hcp & Hkl' & Hl' & Hlcs & Hsome & Hcs).
  { intros i o Ho. apply Hkl. by apply lookup_take_Some in Ho as [? _]. }
  rewrite Hcp. rewrite take_length, Hl16, Nat.min_l in Hl', Hlcs by lia.
  set (n1 := with_ch n (l' ++ drop (S (N.to_nat x)) (hn_ch n))).
  assert (length (hn_ch n1) = 16%nat) as Hl1 by (unfold n1; cbn [with_ch hn_ch]; rewrite app_length, drop_length, Hl', Hl16; lia).
  assert (kids E st vs (S d') j n1) as Hk1.
  { apply klist_kids'; [done|done|]. intros i o Ho. unfold n1 in Ho. cbn [with_ch hn_ch] in Ho.
    destruct (le_lt_dec (S (N.to_nat x)) i) as [Hge|Hlt].
    - rewrite lookup_app_r in Ho by lia. rewrite Hl', lookup_drop in Ho. apply Hkl. rewrite <- Ho. f_equal. lia.
    - rewrite lookup_app_l in Ho by lia. by apply Hkl'. }
  destruct (Hsome (N.to_nat x) c0) as [c Hc].
  { rewrite lookup_take by lia. unfold child in Hc0. destruct (hn_ch n !! N.to_nat x) as [[|]|]; cbn in Hc0; congruence. }
  assert (child n1 x = Some c) as Hcc.
  { unfold child, n1. cbn [with_ch hn_ch]. rewrite lookup_app_l by lia. rewrite Hc. done. }
  do 3 eexists. split; [reflexivity|]. split; [split; [exact (proj1 Hn)|exact Hk1]|].
  split; [exact Hcc|]. pose proof (kids_child E vs _ _ _ _ _ Hk1 Hx) as Hr. by rewrite Hcc in Hr.
Qed.
Lemma chop_path_bad : forall d j n p, (d <= 15)%nat -> rep E st vs d j n -> nibs p -> length p = S d -> look vs 0 (npos j p) = None ->
  exists n', chop_path E st n p = (n', None) /\ erep E st vs d j n'.
Proof.
  induction d as [|d' IH]; intros j n p Hd Hn Hnb Hl Hpos; (destruct p as [|x rest]; [done|]); pose proof (Forall_inv Hnb) as Hx; cbv beta in Hx;
    pose proof (Forall_inv_tail Hnb) as Hnr; cbn [length] in Hl; cbn [npos] in Hpos; cbn [chop_path];
    destruct (expand_ok E EOK vs st _ j n (fun _ => V32) Hn) as (n1 & -> & Hn1 & Hd1); cbn [negb].
  - destruct rest; [|done]. cbn [npos] in Hpos. unfold chop_node. rewrite (erep_leaf E vs _ _ _ _ Hn1). cbn [Nat.eqb].
    rewrite (erep_leafv E vs _ _ _ _ Hn1 Hx), Hpos. eauto.
  - destruct (child n1 x) as [c0|] eqn:Hc0.
    + destruct (chop_keeps d' j n1 x ltac:(lia) Hn1 Hx ltac:(eauto)) as (n2 & [m b] & c & -> & Hn2 & Hc & Hrc). cbv beta iota.
      rewrite (bool_decide_eq_false_2 (rest = [])) by (intros ->; cbn in Hl; lia).
      rewrite (erep_leaf E vs _ _ _ _ Hn2). cbn [Nat.eqb]. rewrite Hc.
      destruct (IH (16 * j + N.to_nat x)%nat c rest ltac:(lia) Hrc Hnr ltac:(lia) Hpos) as (c' & -> & Hc'). cbv beta iota.
      eexists. split; [reflexivity|]. apply erep_set_child; [done|done|by apply erep_rep].
    + unfold chop_node. rewrite (erep_leaf E vs _ _ _ _ Hn1). cbn [Nat.eqb]. rewrite Hc0. eauto.
Qed.
End bad.
