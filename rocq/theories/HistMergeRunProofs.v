(** A restored tree and the proofs merged into it. *)
From Verif Require Import Base MerkleSpec MerkleModel TrieSpec TrieModel TrieProofModel MerkleProofs MerkleTreeProofs HistSpec HistModel HistLayerProofs
  HistRepProofs HistOpProofs HistPathProofs HistCommitProofs HistRunProofs HistChopProofs HistRestoreModel HistPartProofs HistRestoreProofs HistRestoreSpec
  HistRestoreRunProofs HistVerifyProofs HistMergeModel HistMergeProofs.
From stdpp Require Import gmap.
Open Scope N_scope.
Arguments Nat.mul : simpl never.
Arguments Nat.add : simpl never.
Arguments Nat.sub : simpl never.

(* ------------------------------------------------------------ nodes made by restoring *)
Section new.
Context (E : henv).
Lemma restore_merge st pre : forall v items n, merge_path E st None pre v items = (Some n, true) ->
  forall ws, restore_nodes E st (reverse pre ++ ws) v None items = restore_nodes E st ws [] (Some n) (drop (4 * length pre) items).
Proof.
  induction pre as [|x rest IH]; intros v items n; [done|]. cbn [merge_path]. intros Hm ws. rewrite reverse_cons, <- app_assoc.
  destruct (decide (rest = [])) as [->|Hne].
  - rewrite bool_decide_eq_true_2 in Hm by done. cbn [negb length] in Hm. change (drop (4 * 0) items) with items in Hm.
    change (reverse [] ++ [x] ++ ws) with (x :: ws). cbn [restore_nodes length].
    destruct (node_by_items E st x v None (take 4 items)) as [m|]; [|done]. injection Hm as ->. done.
  - rewrite bool_decide_eq_false_2 in Hm by done. destruct (merge_path E st None rest v items) as [c ok] eqn:Hc.
    destruct ok; cbn [negb] in Hm; [|done]. destruct c as [c|].
    2:{ destruct rest as [|y r]; [done|]. exfalso. clear -Hc. cbn [merge_path] in Hc.
        destruct (if bool_decide (r = []) then _ else _) as [c' ok]. destruct ok; cbn [negb] in Hc; [|done]. by destruct (node_by_items _ _ _ _ _ _). }
    rewrite (IH v items c Hc ([x] ++ ws)). cbn [app restore_nodes].
    destruct (node_by_items E st x [] (Some c) _) as [m|]; [|done]. injection Hm as ->. rewrite drop_drop.
    cbn [length]. by replace (4 * length rest + 4)%nat with (4 * S (length rest))%nat by lia.
Qed.

(* ------------------------------------------------------------ hashing keeps the slots *)
Fixpoint skel (d : nat) (n m : hnode) : Prop :=
  hn_leaf m = hn_leaf n /\ hn_lv m = hn_lv n /\ length (hn_ch m) = length (hn_ch n) /\
  match d with
  | O => True
  | S d' => forall i, match child n i, child m i with
                      | None, None => True
                      | Some c, Some c1 => (exists h, c = from_hash h /\ c1 = from_hash h) \/ (collapsed c = false /\ skel d' c c1)
                      | _, _ => False end
  end.
Lemma skel_br d n0 n b : skel d n0 n -> skel d n0 (with_br n b).
Proof. destruct d; done. Qed.
Lemma stub_hash f h : (hash_at E f (from_hash h) []).1 = from_hash h.
Proof. destruct f as [|f]; [done|]. by rewrite (hash_at_cached E f _ h) by (unfold from_hash; cbn [with_br hn_br]; by rewrite lookup_singleton). Qed.
Lemma child_set2 n i x c c0 : child n x = Some c0 -> child (set_child n x c) i = if decide (i = x) then Some c else child n i.
Proof.
  intros Hc. unfold child, set_child, with_ch in *. cbn [hn_ch]. destruct (decide (i = x)) as [->|Hne].
  - rewrite list_lookup_insert; [done|]. destruct (hn_ch n !! N.to_nat x) eqn:Hl; [by apply lookup_lt_Some in Hl|done].
  - rewrite list_lookup_insert_ne by lia. done.
Qed.
Lemma hash_skel : forall f n p m r, hash_at E f n p = (m, r) -> forall d n0, skel d n0 n -> skel d n0 m.
Proof.
  induction f as [|f IH]; intros n p m r; cbn [hash_at]; [by intros [= <- <-]|].
  destruct (4 <? length p)%nat; [by intros [= <- <-]|]. destruct (length p =? 4)%nat.
  { destruct (hn_leaf n); [by intros [= <- <-]|]. destruct (child n (to_byte p)) as [c|] eqn:Hc; [|by intros [= <- <-]].
    destruct (hash_at E f c []) as [c' r'] eqn:Hh. intros He. apply pair_equal_spec in He as [<- _]. intros d n0 Hs.
    destruct d as [|d'].
    - destruct Hs as (? & ? & ? & _). cbn [skel]. split; [done|]. split; [done|]. split; [cbn [set_child with_ch hn_ch]; by rewrite insert_length|done].
    - destruct Hs as (? & ? & ? & Hs). cbn [skel]. split; [done|]. split; [done|]. split; [cbn [set_child with_ch hn_ch]; by rewrite insert_length|].
      intros i. rewrite (child_set2 _ _ _ _ c Hc). specialize (Hs i). destruct (decide (i = to_byte p)) as [->|]; [|done].
      rewrite Hc in Hs. destruct (child n0 (to_byte p)) as [c0|]; [|done]. destruct Hs as [(h & -> & ->)|[? Hs]].
      + left. exists h. split; [done|]. pose proof (stub_hash f h) as Hst. by rewrite Hh in Hst.
      + right. split; [done|]. by eapply IH. }
  destruct (hn_br n !! p); [by intros [= <- <-]|].
  destruct (hash_at E f n (p ++ [0])) as [n1 rl] eqn:H0. destruct rl as [[[lh lln] lrn]|].
  2:{ intros [= <- <-] d n0. by eapply IH. }
  destruct (lln && negb lrn). { intros [= <- <-] d n0. by eapply IH. }
  destruct (hash_at E f n1 (p ++ [1])) as [n2 rr] eqn:H1.
  assert (forall d n0, skel d n0 n -> skel d n0 n2) as Hn2. { intros d n0 Hs. eapply IH; [exact H1|]. by eapply IH. }
  destruct rr as [[[rh rln] rrn]|]; [|by intros [= <- <-]].
  destruct (rln && negb rrn); [by intros [= <- <-]|].
  destruct (lrn && is_some rh). { intros He. apply pair_equal_spec in He as [<- _]. intros d n0 Hs. destruct lln; [by apply Hn2|apply skel_br; by apply Hn2]. }
  destruct lh; [|destruct rh]; intros He; apply pair_equal_spec in He as [<- _]; intros d n0 Hs; [apply skel_br|..]; by apply Hn2.
Qed.
Lemma hash_caches f n m h f1 f2 : hash_at E f n [] = (m, Some (Some h, f1, f2)) -> hn_br m !! [] = Some h.
Proof.
  destruct f as [|f]; [done|]. cbn [hash_at length Nat.ltb Nat.leb Nat.eqb]. destruct (hn_br n !! []) as [r|] eqn:Hr; [intros [= <- <-]; congruence|].
  destruct (hash_at E f n ([] ++ [0])) as [n1 rl]. destruct rl as [[[lh lln] lrn]|]; [|done]. destruct (lln && negb lrn); [done|].
  destruct (hash_at E f n1 ([] ++ [1])) as [n2 rr]. destruct rr as [[[rh rln] rrn]|]; [|done]. destruct (rln && negb rrn); [done|].
  destruct (lrn && is_some rh); [done|]. destruct lh; [|by destruct rh]. intros He. apply pair_equal_spec in He as [<- He].
  injection He as He _ _. cbn [with_br hn_br]. rewrite lookup_insert. by rewrite He.
Qed.
End new.

Section run.
Context (E : henv) (EOK : henv_ok E).
Local Notation H := (hH E).
Local Notation nilhash := (nilhash H).
Context (vs : list (list N)).
Local Notation look vs k i := (layers H k vs !! i).
Context (H32 : Forall (fun v : list N => length v = 32%nat) vs).
Context (Hnil : forall l i h, (l <= 64)%nat -> look vs l i = Some h -> h <> nilhash).
Context (Hlen : lenN vs < two64).

Lemma fine_skel_self K : forall d j n, fine E vs K d j n -> skel d n n.
Proof.
  induction d as [|d IH]; intros j n (_ & Hl & Hle & _ & Hs); cbn [skel]; split_and!; try done.
  intros i. destruct (child n i) as [c|] eqn:Hc; [|done]. assert (i < 16) as Hi.
  { unfold child in Hc. destruct (hn_ch n !! N.to_nat i) eqn:Hlk; [|done]. apply lookup_lt_Some in Hlk. lia. }
  destruct (Hs i c Hi Hc) as [Hf|(h & -> & _)]; [right; split; [by eapply fine_collapsed|by eapply IH]|left; eauto].
Qed.
Lemma has_skel : forall d n m pre w, skel d n m -> length pre = S d -> has n pre w -> has m pre w.
Proof.
  induction d as [|d IH]; intros n m pre w Hs Hp Hh; destruct pre as [|x rest]; try done; cbn [length] in Hp.
  - destruct rest; [|done]. destruct Hs as (Hl & Hv & _). cbn [has] in *. unfold leafv in *. by rewrite Hl, Hv.
  - destruct rest as [|y r]; [done|]. destruct Hs as (Hl & _ & _ & Hs). cbn [has] in Hh. destruct Hh as (Hl0 & c & Hc & Hh). change (has c (y :: r) w) in Hh.
    specialize (Hs x). rewrite Hc in Hs. destruct (child m x) as [c1|] eqn:Hc1; [|done]. cbn [has]. split; [congruence|]. exists c1. split; [done|].
    destruct Hs as [(h & -> & ->)|[_ Hs]]; [by apply has_stub in Hh|]. apply (IH c c1 (y :: r) w Hs); [lia|done].
Qed.
(** What is known of a node by its use in a restored tree. *)
Definition backed (A : nat -> Prop) (st : hstore) (d j : nat) (m : hnode) : Prop :=
  (exists m', psub A d j m m' /\ rep E st vs d j m') \/ rep E st vs d j m.
Lemma fine_skel K A st : forall d j n m, fine E vs K d j n -> skel d n m -> backed A st d j m -> fine E vs K d j m.
Proof.
  assert (forall d j m, backed A st d j m -> br_ok E vs d j (hn_br m)) as Hbr.
  { intros d j m [(m' & Hs & Hr)|Hr]; [rewrite (psub_br _ _ _ _ _ Hs)|]; apply rep_unfold in Hr as [(_ & ? & _) _]; done. }
  induction d as [|d IH]; intros j n m Hf Hs Hb; pose proof (Hbr _ _ _ Hb) as Hbm.
  - destruct Hf as (_ & Hl & Hle & Hex & Hv). destruct Hs as (Hsl & Hsv & _). cbn [fine]. unfold leafv in *. rewrite Hsl, Hsv. done.
  - destruct Hf as (_ & Hl & Hle & (i0 & Hi0 & Hex) & Hv). destruct Hs as (Hsl & Hsv & Hsn & Hs). cbn [fine].
    assert (is_Some (child m i0)) as Hex2. { specialize (Hs i0). destruct Hex as [c0 Hex]. rewrite Hex in Hs. by destruct (child m i0). }
    split; [done|]. split; [congruence|]. split; [congruence|]. split; [eauto|].
    intros i c1 Hi Hc1. specialize (Hs i). rewrite Hc1 in Hs. destruct (child n i) as [c|] eqn:Hc; [|done].
    destruct Hs as [(h & -> & ->)|[Hcc Hs]]; [by destruct (Hv i _ Hi Hc) as [Hf|?]; [left; apply fine_collapsed in Hf; by rewrite from_hash_collapsed in Hf|right]|].
    destruct (Hv i c Hi Hc) as [Hf|(h & -> & Hlk & Hz)].
    2:{ by rewrite from_hash_collapsed in Hcc. }
    left. apply (IH _ c c1 Hf Hs). destruct Hb as [(m' & Hp & Hr)|Hr].
    + pose proof (psub_collapsed _ _ _ _ _ Hp) as [_ Hcol]. destruct Hp as (_ & _ & _ & _ & Hl2 & _ & Hp). specialize (Hp i Hi). rewrite Hc1 in Hp.
      destruct (child m' i) as [c'|] eqn:Hc'; [|done].
      assert (rep E st vs d (16 * j + N.to_nat i) c') as Hrc.
      { apply rep_unfold in Hr as [_ [[Hx _]|Hk]]; [congruence|]. destruct Hk as (_ & _ & Hk). specialize (Hk (N.to_nat i) ltac:(lia)).
        unfold child in Hc'. destruct (hn_ch m' !! N.to_nat i) as [[?|]|]; cbn in Hc'; try done. by injection Hc' as ->. }
      destruct Hp as [Hp|[-> _]]; [left; eauto|by right].
    + right. apply rep_unfold in Hr as [_ [[Hx _]|Hk]].
      * assert (collapsed m = false) as Hcm; [|congruence]. apply (slot_collapsed m i0 Hi0). rewrite Hsl, Hl. done.
      * destruct Hk as (_ & _ & Hk). specialize (Hk (N.to_nat i) ltac:(lia)).
        unfold child in Hc1. destruct (hn_ch m !! N.to_nat i) as [[?|]|]; cbn in Hc1; try done. by injection Hc1 as ->.
Qed.

(* ------------------------------------------------------------ an accepted proof has the true siblings *)
Notation fold its h := (foldl (fun acc '(v, order) => hash_pair_order H order v acc) h its).
Lemma fold_items ins : inj_on H ins -> (forall x, x ∈ hist_inputs H vs -> x ∈ ins) ->
  forall its k q h, (k + length its <= 64)%nat -> length h = 32%nat -> h <> nilhash -> (forall x, x ∈ climb_inputs H h its -> x ∈ ins) ->
  (forall j x, its !! j = Some x -> length x.1 = 32%nat /\ x.2 = Nat.odd (up j q)) ->
  look vs (length its + k) (up (length its) q) = Some (fold its h) ->
  look vs k q = Some h /\ map fst its = map fst (path_items E vs k (length its) q).
Proof.
  intros Hinj Hin. induction its as [|[s o] its IH]; intros k q h Hk Hh Hhn Hcl Hits Hl; cbn [length up Nat.add] in *; [done|].
  destruct (Hits 0%nat _ eq_refl) as [Hs Ho]. cbn [fst snd up] in Hs, Ho.
  assert ((if o then s ++ h else h ++ s) ∈ ins) as Hpin by (apply Hcl; destruct o; cbn [climb_inputs]; by left).
  set (h1 := H (if o then s ++ h else h ++ s)) in *.
  assert (h1 <> nilhash) as Hh1.
  { intros Hu. assert ((if o then s ++ h else h ++ s) = []) as Hz by (apply Hinj; [done|apply Hin; by left|exact Hu]).
    apply (f_equal length) in Hz. destruct o; rewrite app_length in Hz; cbn [length] in Hz; lia. }
  assert (look vs (S k) (q / 2)%nat = Some h1 /\ map fst its = map fst (path_items E vs (S k) (length its) (q / 2))) as [Hu Hrest].
  { apply (IH (S k) (q / 2)%nat h1); [lia|apply (hok_H E EOK)|done| | |].
    - intros x Hx. apply Hcl. destruct o; cbn [climb_inputs]; by right.
    - intros j x Hj. destruct (Hits (S j) x Hj) as [? ->]. split; [done|]. by rewrite up_half.
    - rewrite up_half. replace (length its + S k)%nat with (S (length its) + k)%nat by lia. cbn [up] in *. rewrite Hl. cbn [foldl].
      unfold h1, hash_pair_order. by destruct o. }
  rewrite look_S in Hu. destruct (look vs k (2 * (q / 2))%nat) as [a|] eqn:Ha; [|done]. injection Hu as Hu.
  assert (a ++ default nilhash (look vs k (2 * (q / 2) + 1)%nat) ∈ ins) as Hain.
  { apply Hin. unfold hist_inputs. right. apply elem_of_list_In, in_flat_map. exists k. split; [apply in_seq; lia|].
    apply elem_of_list_In, layer_inputs_in. done. }
  pose proof (Hinj _ _ Hain Hpin Hu) as Heq.
  assert (length a = 32%nat) as Hla by (eapply look_len; [apply (hok_H E EOK)|exact H32|exact Ha]).
  pose proof (Nat.odd_spec q) as Hod. cbn [map path_items fst]. rewrite <- Ho. destruct o.
  - destruct (proj1 Hod (eq_sym Ho)) as [m Hm]. replace (2 * (q / 2) + 1)%nat with q in * by lia. replace (2 * (q / 2))%nat with (q - 1)%nat in Ha by lia.
    apply app_inj_1 in Heq as [Heq1 Heq]; [|congruence].
    destruct (look vs k q) as [g|]; cbn [default] in Heq; [|by subst]. split; [by subst|]. rewrite Ha. cbn [default fst]. by rewrite Hrest, Heq1.
  - assert (2 * (q / 2) = q)%nat as Hq.
    { assert (Nat.Even q) as [m ->] by (apply Nat.even_spec; rewrite <- Nat.negb_odd, <- Ho; done). lia. }
    rewrite Hq in Ha, Heq. apply app_inj_1 in Heq as [Heq Heq2]; [|congruence]. split; [by subst|]. cbn [fst]. by rewrite Hrest, Heq2.
Qed.

(* ------------------------------------------------------------ the tree *)
Definition tgood (K : nat -> Prop) (t : htree) : Prop :=
  exists n, ht_root t = Some n /\ fine E vs K 15 0 n /\
    (hn_br n !! [] = Some (hist_root H vs) \/ exists A st n', psub A 15 0 n n' /\ rep E st vs 15 0 n').
Definition reads (t : htree) (k : N) (v : list N) : Prop := exists n, ht_root t = Some n /\ has n (heightToPrefix k) v.
Lemma hash_fine K A st n m m' h f1 f2 : fine E vs K 15 0 n -> hash_prefix E n [] = (m, Some (Some h, f1, f2)) ->
  psub A 15 0 m m' -> rep E st vs 15 0 m' ->
  fine E vs K 15 0 m /\ hn_br m !! [] = Some h /\ forall pre w, length pre = 16%nat -> has n pre w -> has m pre w.
Proof.
  unfold hash_prefix. generalize hash_fuel. intros f Hf Hm Hps Hr. pose proof (hash_skel E f n [] m _ Hm 15%nat n (fine_skel_self K _ _ _ Hf)) as Hsk.
  split; [eapply (fine_skel K A st); [exact Hf|exact Hsk|left; eauto]|]. split; [by eapply hash_caches|].
  intros pre w Hp Hh. eapply has_skel; [exact Hsk|done|done].
Qed.
Lemma root_look : (exists h, look vs 64 0%nat = Some h) -> look vs 64 0%nat = Some (hist_root H vs).
Proof. intros [h Hl]. rewrite Hl. by rewrite (root_some E vs h Hl). Qed.
Lemma hash_step K t : tgood K t -> exists t1 n1, hash_value E t = (t1, Some (hist_root H vs)) /\ ht_root t1 = Some n1 /\ ht_exp t1 = ht_exp t /\
  fine E vs K 15 0 n1 /\ hn_br n1 !! [] = Some (hist_root H vs) /\ forall k v, k < two64 -> reads t k v -> reads t1 k v.
Proof.
  intros (n & Hn & Hf & Hor). unfold hash_value. rewrite Hn. destruct Hor as [Hc|(A & st & n' & Hs & Hr)].
  - unfold hash_prefix, hash_fuel. rewrite (hash_at_cached E 80 n _ Hc). eexists. exists n. split; [reflexivity|]. split; [done|]. split; [done|]. split; [done|].
    split; [done|]. intros k v _ (n0 & Hn0 & Hh). exists n0. by rewrite <- Hn0, Hn.
  - destruct (hash_prefix_ok E vs st 15 0 n' ltac:(lia) Hr) as (m' & f1 & f2 & Hh & Hrep & _).
    destruct (hash_prefix_psub E A 15 0 n n' m' _ Hs Hh) as (m & Hm & Hpm). rewrite Hm.
    assert (look vs (4 * 15 + 4) 0%nat = Some (hist_root H vs)) as Hlk.
    { apply rep_unfold in Hr as [(Hl & _) _]. exact (root_look Hl). }
    rewrite Hlk in Hm |- *. destruct (hash_fine K A st n m m' _ _ _ Hf Hm Hpm Hrep) as (H1 & H2 & H3).
    exists (HTree (ht_exp t) (Some m)), m. split; [reflexivity|]. split; [reflexivity|]. split; [reflexivity|]. split; [exact H1|]. split; [exact H2|].
    intros k v Hk (n0 & Hn0 & Hhas). rewrite Hn in Hn0. injection Hn0 as <-. exists m. split; [reflexivity|].
    apply H3; [|exact Hhas]. by destruct (heightToPrefix_ok k Hk) as (_ & -> & _).
Qed.
Lemma get_step K t k v st : tgood K t -> k < two64 -> reads t k v -> (get_tree E st t k).2 = Some v.
Proof.
  intros _ Hk (n & Hn & Hh). unfold get_tree. rewrite Hn. destruct (heightToPrefix_ok k Hk) as (Hp & _ & _).
  rewrite (trace_has E st (heightToPrefix k) n v Hp Hh). done.
Qed.
Lemma reads_true K t k v : tgood K t -> k < two64 -> reads t k v -> vs !! N.to_nat k = Some v.
Proof.
  intros (n & Hn & Hf & _) Hk (n0 & Hn0 & Hh). rewrite Hn in Hn0. injection Hn0 as <-. destruct (heightToPrefix_ok k Hk) as (Hp & Hl & Hpos).
  pose proof (has_true E vs Hnil K 15 0 n (heightToPrefix k) v Hf Hp Hl Hh) as Ht. rewrite Hpos in Ht. done.
Qed.

Definition accepts (key : N) (value : list N) (c : list nodeproof) : bool :=
  (length value =? 32)%nat && bool_decide (option_map fst (chain_bigkey c 0 0) = Some key) &&
  bool_decide (chain_proof E c value = Some (hist_root H vs)).
Lemma offer_step K t key value c its : tgood K t -> key < two64 -> is_Some (chain_bigkey c 0 0) ->
  chain_wf c -> chain_items c = Some its -> length its = 64%nat -> Forall (fun it => length it.1 = 32%nat) its ->
  value <> nilhash -> inj_on H (hist_inputs H vs ++ climb_inputs H value its) ->
  (forall k', K k' -> up 4 (N.to_nat key) <> sib (up 4 k')) ->
  exists t', merge_proof E ∅ t key value (Some c) = Some (t', accepts key value c) /\ ht_exp t' = ht_exp t /\
    tgood (fun k => K k \/ (accepts key value c = true /\ k = N.to_nat key)) t' /\
    (accepts key value c = true -> vs !! N.to_nat key = Some value /\ reads t' key value) /\
    forall k v, k < two64 -> reads t k v -> reads t' k v.
Proof.
  intros Hg Hkey [[pk pos] Hbk] Hwf Hits Hil Hi32 Hvn Hinj Hno. set (K2 := fun k => K k \/ _).
  pose proof Hg as (n0 & Hn0 & _).
  assert (forall t1, tgood K t1 -> tgood K2 t1) as Hmono.
  { intros t1 (n & Hn & Hf & Hor). exists n. split; [done|]. split; [|done]. eapply fine_mono; [|exact Hf]. intros k ?. by left. }
  unfold merge_proof. rewrite Hn0. unfold accepts in *. rewrite Hbk in *. cbn [option_map fst] in *.
  destruct (Nat.eqb_spec (length value) 32) as [Hv32|Hv32]; cbn [negb andb].
  2:{ exists t. split; [done|]. split; [done|]. split; [by apply Hmono|]. split; [done|]. by intros. }
  destruct (N.eqb_spec pk key) as [->|Hpk]; cbn [negb].
  2:{ rewrite bool_decide_eq_false_2 by congruence. cbn [andb]. exists t. split; [done|]. split; [done|]. split; [by apply Hmono|]. split; [done|]. by intros. }
  rewrite bool_decide_eq_true_2 by done. cbn [andb].
  destruct (hash_step K t Hg) as (t1 & n1 & -> & Hn1 & Hx1 & Hf1 & Hb1 & Hr1).
  assert (tgood K t1) as Hg1 by (exists n1; auto).
  rewrite bytes_to_hash_id by done. unfold chain_proof in *. rewrite Hits in *. rewrite Hn1.
  destruct (decide (hist_root H vs = fold its value)) as [Hroot|Hroot].
  2:{ rewrite bool_decide_eq_false_2 by done. cbn [negb]. rewrite bool_decide_eq_false_2 by congruence. exists t1. split; [done|]. split; [done|].
      split; [by apply Hmono|]. split; [done|]. done. }
  rewrite bool_decide_eq_true_2 by done. cbn [negb]. rewrite bool_decide_eq_true_2 by congruence.
  (* the proof is true *)
  assert (up 64 (N.to_nat key) = 0%nat) as Hup by (apply up_zero; rewrite N2Nat.id; exact Hkey).
  destruct (chain_key c its 0 0 key pos Hits Hbk Hwf ltac:(lia)) as (_ & Hbits & _).
  assert (look vs 64 0%nat = Some (hist_root H vs)) as Hlk.
  { destruct Hf1 as (Hbr & _). destruct (Hbr _ _ Hb1) as (_ & _ & Hlk). exact Hlk. }
  destruct (fold_items _ Hinj ltac:(intros x Hx; apply elem_of_app; by left) its 0 (N.to_nat key) value) as [Hval Hitems]; [lia|done|done| | | |].
  { intros x Hx. apply elem_of_app. by right. }
  { intros i x Hx. split; [by eapply (proj1 (Forall_lookup _ _) Hi32)|]. rewrite <- (Hbits i x Hx). rewrite <- (N2Nat.id key) at 1.
    change (Z.to_N 0 + N.of_nat i) with (N.of_nat i). apply testbit_up. }
  { rewrite Hil. change (64 + 0)%nat with 64%nat. rewrite Hup, Hlk. by rewrite Hroot. }
  rewrite Hil in Hitems. cbn [layers] in Hval.
  destruct (heightToPrefix_ok key Hkey) as (Hp & Hpl & Hpos).
  assert (map (fun it : list N * bool => bytes_to_hash it.1) its = map fst (path_items E vs 0 64 (N.to_nat key))) as ->.
  { rewrite <- Hitems. clear -Hi32. induction its as [|it its IH]; [done|]. cbn [map]. rewrite IH by (by apply Forall_inv_tail in Hi32).
    f_equal. apply bytes_to_hash_id. by apply Forall_inv in Hi32. }
  assert (K2 (N.to_nat key)) as HK2 by (right; split; [|done]; rewrite Hbk, Hits; cbn [option_map fst]; rewrite bool_decide_eq_true_2 by done; cbn [andb]; apply bool_decide_eq_true_2; by rewrite Hroot).
  destruct (merge_main E EOK vs H32 Hnil K2 (N.to_nat key) value HK2 Hval K ltac:(intros ? ?; by left) Hno (heightToPrefix key) 15 0 n1 Hf1 Hp Hpl ltac:(lia) Hpos)
    as [Hh|(m1 & m2 & -> & -> & Hf2 & Hh2 & Hk2 & Hg2)].
  - destruct (locate_has E ∅ (heightToPrefix key) n1 value Hp Hh) as (i & ->). cbn [default]. change (id value) with value.
    rewrite (bool_decide_eq_true_2 (value = value)) by done. exists (HTree (ht_exp t1) (Some n1)). split; [done|]. split; [done|].
    split; [apply Hmono; by exists n1; auto|]. split.
    + intros _. split; [done|]. by exists n1.
    + intros k w Hk Hrd. destruct (Hr1 k w Hk Hrd) as (n & Hn & ?). exists n. split; [cbn [ht_root]; congruence|done].
  - rewrite Hil. cbn [Nat.ltb Nat.leb]. exists (HTree (ht_exp t1) (Some m2)). split; [done|]. split; [done|]. split.
    + exists m2. split; [done|]. split; [done|]. left. by apply Hg2.
    + split; [intros _; split; [done|]; by exists m2|]. intros k w Hk Hrd. destruct (Hr1 k w Hk Hrd) as (n & Hn & Hhn). rewrite Hn1 in Hn. injection Hn as <-.
      exists m2. split; [done|]. apply Hk2; [|done]. by destruct (heightToPrefix_ok k Hk) as (? & _).
Qed.

(* ------------------------------------------------------------ the start *)
Lemma restore_good st t key v c : trep E st t vs -> hget vs key = Some v ->
  (exists st', vs = [] \/ stored E st' vs 15 0) ->
  forall t', get_proof E st t key = (t', Some (v, c)) -> 
  exists r, restore_tree E ∅ key v c = Some r /\ ht_exp r = key + 1 /\ tgood (eq (N.to_nat key)) r /\ reads r key v.
Proof.
  intros Ht Hk (st' & Hst) t' Hpr.
  assert (key < lenN vs) as Hkl. { unfold hget in Hk. destruct (N.ltb_spec key (lenN vs)); done. }
  assert (look vs 0 (N.to_nat key) = Some v) as Hl by (by rewrite <- hget_look).
  destruct (proof_items E EOK st t vs key v H32 Ht Hlen Hl ltac:(lia)) as (t2 & c2 & Hpr2 & Hit). rewrite Hpr in Hpr2. injection Hpr2 as <- <-.
  assert (length v = 32%nat) as Hv32 by (eapply look_len; [apply (hok_H _ EOK)|exact H32|exact Hl]).
  destruct Hst as [->|Hst]; [by rewrite look_nil in Hl|].
  destruct (heightToPrefix_ok key ltac:(lia)) as (Hp1 & Hp2 & Hp3).
  assert (map (fun it : list N * bool => bytes_to_hash it.1) (path_items E vs 0 64 (N.to_nat key)) = map fst (path_items E vs 0 64 (N.to_nat key))) as Hmap.
  { assert (forall c l i, map (fun it : list N * bool => bytes_to_hash it.1) (path_items E vs l c i) = map fst (path_items E vs l c i)) as Hg'; [|apply Hg'].
    assert (forall l i, bytes_to_hash (default nilhash (look vs l i)) = default nilhash (look vs l i)) as Hb.
    { intros l i. apply bytes_to_hash_id. destruct (look vs l i) eqn:Hx; cbn [default]; [|apply (hok_H _ EOK)].
      eapply look_len; [apply (hok_H _ EOK)|exact H32|exact Hx]. }
    induction c0 as [|c0 IH]; intros l i; cbn [path_items map]; [done|]. rewrite IH. f_equal. destruct (Nat.odd i); cbn [fst]; apply Hb. }
  destruct (restore_all E EOK (fun i => i = N.to_nat key) st' vs (N.to_nat key) Hnil) with (st2 := ∅ : hstore) (pre := heightToPrefix key) (v := v)
    as (n & n' & Hn & Hps & Hrep); [| |exact Hp1|exact Hp2|exact Hp3|exact Hl|exact Hv32|].
  { intros d j x l pos y _ Hl3 Hx Hy Hu HA Hu2 Hs. apply (only_key E vs (N.to_nat key) d j x l pos y); try done. }
  { intros d j Hd Hs. eapply (stored_all E st' vs Hlen Hst (15 - d)); [lia|done]. }
  destruct (merge_new E EOK vs H32 Hnil (eq (N.to_nat key)) (N.to_nat key) v eq_refl Hl (heightToPrefix key) 15 0 Hp1 Hp2 ltac:(lia) Hp3) as (m & Hm & Hf & Hh).
  pose proof (restore_merge E ∅ (heightToPrefix key) v _ m Hm []) as Hrm. rewrite app_nil_r in Hrm. rewrite Hn in Hrm. cbn [restore_nodes] in Hrm. injection Hrm as ->.
  exists (HTree ((key + 1) mod two64) (Some m)). split.
  { unfold restore_tree. rewrite Hv32, Hit. cbn [Nat.eqb negb]. rewrite path_items_len. cbn [Nat.ltb Nat.leb]. rewrite Hmap, Hn. done. }
  split; [cbn [ht_exp]; by rewrite N.mod_small by lia|]. split; [|by exists m].
  exists m. split; [done|]. split; [done|]. right. eauto.
Qed.
End run.
