(** C51: sharding of addresses. *)
From Verif Require Import BasicProofs.
From Coq Require Import Sorting.Sorted.

(* ------------------------------------------------- sortedness, uniqueness *)
Lemma chain_less_trans a b c : chain_less a b = true -> chain_less b c = true -> chain_less a c = true.
Proof. rewrite !chain_less_spec. lia. Qed.
Lemma chain_less_asym a b : chain_less a b = true -> chain_less b a = false.
Proof.
  intros H. destruct (chain_less b a) eqn:E; [|done]. rewrite chain_less_spec in H, E. lia.
Qed.
Lemma chain_less_total a b : chain_less a b = true \/ a = b \/ chain_less b a = true.
Proof. rewrite !chain_less_spec. lia. Qed.
Lemma cle_trans a b c : cle a b -> cle b c -> cle a c.
Proof. intros [->|H1] [->|H2]; [by left|by right|by right|right; by eapply chain_less_trans]. Qed.

Lemma chain_ins_sorted a l : StronglySorted cle l -> StronglySorted cle (chain_ins a l).
Proof.
  induction 1 as [|b l Hs IH Hb]; cbn [chain_ins]; [by repeat constructor|].
  destruct (chain_less b a) eqn:E.
  - constructor; [done|]. rewrite chain_ins_perm. constructor; [by right|done].
  - assert (cle a b) as Hab by (destruct (chain_less_total a b) as [?|[?|?]]; [by right|by left|congruence]).
    constructor; [by constructor|]. constructor; [done|].
    eapply Forall_impl; [exact Hb|]. intros x Hx. by eapply cle_trans.
Qed.
Lemma chain_sort_sorted l : StronglySorted cle (chain_sort l).
Proof. induction l as [|a l IH]; [constructor|]. by apply chain_ins_sorted. Qed.

Lemma sorted_unique l1 l2 : StronglySorted cle l1 -> StronglySorted cle l2 -> l1 ≡ₚ l2 -> l1 = l2.
Proof.
  intros H1. revert l2; induction H1 as [|a l1 Hs IH Ha]; intros l2 H2 HP.
  { by apply Permutation_nil_l in HP. }
  destruct H2 as [|b l2 Hs2 Hb]; [by apply Permutation_nil_r in HP|].
  assert (a = b) as ->.
  { assert (a ∈ b :: l2) as A by (rewrite <- HP; constructor).
    assert (b ∈ a :: l1) as B by (rewrite HP; constructor).
    apply elem_of_cons in A as [->|A]; [done|]. apply elem_of_cons in B as [->|B]; [done|].
    rewrite Forall_forall in Ha, Hb. specialize (Ha b B). specialize (Hb a A).
    destruct Ha as [->|Ha]; [done|]. destruct Hb as [->|Hb]; [done|].
    apply chain_less_asym in Ha. congruence. }
  f_equal. apply IH; [done|]. by apply Permutation_cons_inv in HP.
Qed.

Lemma chain_sort_len l : length (chain_sort l) = length l.
Proof. by rewrite chain_sort_perm. Qed.

(** The shard list does not depend on the order in which shards are listed. *)
Theorem C51_order_irrelevant : forall parent l1 l2, l1 ≡ₚ l2 ->
  NewAccountShards parent l1 = NewAccountShards parent l2.
Proof.
  intros p l1 l2 HP. unfold NewAccountShards.
  assert (chain_sort l1 = chain_sort l2) as E.
  { apply sorted_unique; try apply chain_sort_sorted. by rewrite !chain_sort_perm. }
  rewrite E. destruct l1, l2; [done|by apply Permutation_nil_l in HP|by apply Permutation_nil_r in HP|done].
Qed.
Print Assumptions C51_order_irrelevant.

(** For any 1..256 shards construction succeeds, keeps exactly the given shards, and
    every address is sent to one of them; with no shards, to the parent. *)
Theorem C51_shard_is_member : forall parent chains, lenN chains <= 256 ->
  exists s, NewAccountShards parent chains = Some s /\ as_chains s ≡ₚ chains /\
    forall addr, (chains <> [] -> as_shardTo s addr ∈ chains) /\ (chains = [] -> as_shardTo s addr = parent).
Proof.
  intros p l Hl. unfold NewAccountShards. destruct l as [|c l]; [eexists; split; [done|]; done|].
  set (cs := c :: l) in *.
  assert (0 < lenN (chain_sort cs)) as Hpos by (unfold lenN; rewrite chain_sort_len; subst cs; simpl; lia).
  pose proof (mask_bits_spec (lenN (chain_sort cs)) Hpos) as [_ Hm].
  rewrite lenN_to_nat in Hm. set (b := mask_loop _ _ _ _) in *.
  assert (b <= 8) as Hb.
  { destruct Hm as [->|Hm]; [lia|]. destruct (N.le_gt_cases b 8) as [|Hgt]; [done|]. exfalso.
    assert (2 ^ 8 <= 2 ^ (b - 1)) by (apply N.pow_le_mono_r; lia). change (2 ^ 8) with 256 in *.
    unfold lenN in *. rewrite chain_sort_len in Hm. lia. }
  destruct (N.ltb_spec 8 b); [lia|]. eexists. split; [done|]. cbn [as_chains]. split; [apply chain_sort_perm|].
  intros addr. split; [|done]. intros _. eapply elem_of_Permutation_proper; [symmetry; apply (chain_sort_perm cs)|]. unfold as_shardTo. cbn [as_chains].
  destruct (chain_sort cs) as [|c' l'] eqn:E; [unfold lenN in Hpos; cbn in Hpos; lia|].
  apply elem_of_list_In, nth_In.
  pose proof (N.mod_lt (as_index (AccShards b p (c' :: l')) addr) (lenN (c' :: l')) ltac:(lia)) as Hlt.
  unfold lenN in *. lia.
Qed.
Print Assumptions C51_shard_is_member.

(** More than 256 shards are refused (panic). *)
Theorem C51_too_many : forall parent chains, 256 < lenN chains -> NewAccountShards parent chains = None.
Proof.
  intros p l Hl. unfold NewAccountShards. destruct l as [|c l]; [unfold lenN in Hl; simpl in Hl; lia|].
  set (cs := c :: l) in *. assert (lenN (chain_sort cs) = lenN cs) as El by (unfold lenN; by rewrite chain_sort_len).
  pose proof (mask_bits_spec (lenN (chain_sort cs)) ltac:(lia)) as [Hm _].
  rewrite lenN_to_nat in Hm. set (b := mask_loop _ _ _ _) in *.
  destruct (N.ltb_spec 8 b) as [|Hb]; [done|]. exfalso.
  assert (2 ^ b <= 2 ^ 8) by (apply N.pow_le_mono_r; lia). change (2 ^ 8) with 256 in *. lia.
Qed.
Print Assumptions C51_too_many.

(* ----------------------------------------------- powers of two: evenness *)
(** The position selected for 2^k shards: the first k bits of the address for k <= 7,
    its second byte for k = 8. *)
Definition bit_index (k b0 b1 : N) : N := if k =? 8 then b1 else b0 / 2 ^ (8 - k).

Lemma land7_small k : k <= 7 -> N.land k 7 = k.
Proof. intros. change 7 with (N.ones 3). rewrite N.land_ones. apply N.mod_small. change (2^3) with 8. lia. Qed.

Lemma as_index_pow k p cs b0 b1 rest : k <= 8 -> b0 < 256 -> b1 < 256 ->
  as_index (AccShards k p cs) (b0 :: b1 :: rest) mod 2 ^ k = bit_index k b0 b1.
Proof.
  intros Hk H0 H1. unfold as_index, bit_index. cbn [as_mask].
  destruct (N.eqb_spec k 8) as [->|Hk8].
  - change (N.to_nat (N.shiftr 8 3 + 1)) with 2%nat. cbn [take]. change (N.land 8 7 =? 0) with true. cbn iota.
    rewrite be_num_cons, be_num_cons. change (2 ^ 8) with 256. change (256 ^ lenN [b1]) with 256.
    change (256 ^ lenN []) with 1. change (be_num []) with 0. rewrite N.add_comm, N.mod_add by done.
    rewrite N.mul_1_r, N.add_0_r. by apply N.mod_small.
  - assert (N.shiftr k 3 = 0) as E by (rewrite N.shiftr_div_pow2; apply N.div_small; change (2^3) with 8; lia).
    rewrite E. change (N.to_nat (0 + 1)) with 1%nat. cbn [take]. rewrite land7_small by lia.
    rewrite be_num_cons. change (256 ^ lenN []) with 1. change (be_num []) with 0. rewrite N.mul_1_r, N.add_0_r.
    destruct (N.eqb_spec k 0) as [->|Hk0].
    + change (2 ^ 0) with 1. rewrite N.mod_1_r. change (2 ^ (8 - 0)) with 256. by rewrite N.div_small.
    + rewrite N.shiftr_div_pow2. apply N.mod_small. apply N.div_lt_upper_bound; [apply N.pow_nonzero; lia|].
      rewrite <- N.pow_add_r. replace (8 - k + k) with 8 by lia. done.
Qed.

Lemma shards_pow p cs k : lenN cs = 2 ^ k -> k <= 8 ->
  NewAccountShards p cs = Some (AccShards k p (chain_sort cs)) /\ cs <> [].
Proof.
  intros Hl Hk. assert (cs <> []) as Hne.
  { intros ->. change (lenN []) with 0 in Hl. assert (2 ^ k <> 0) by (apply N.pow_nonzero; lia). lia. }
  split; [|done]. unfold NewAccountShards. destruct cs as [|c l]; [done|]. set (cs := c :: l) in *.
  assert (lenN (chain_sort cs) = 2 ^ k) as El by (unfold lenN in *; by rewrite chain_sort_len).
  rewrite El, <- (lenN_to_nat (chain_sort cs)), El, mask_bits_pow.
  destruct (N.ltb_spec 8 k); [lia|]. done.
Qed.

(** Closed form of the assignment for 2^k shards. *)
Theorem C51_power_of_two : forall parent chains k b0 b1 rest,
  lenN chains = 2 ^ k -> k <= 8 -> b0 < 256 -> b1 < 256 ->
  exists s, NewAccountShards parent chains = Some s /\ as_mask s = k /\
    as_chains s !! N.to_nat (bit_index k b0 b1) = Some (as_shardTo s (b0 :: b1 :: rest)).
Proof.
  intros p cs k b0 b1 rest Hl Hk H0 H1. destruct (shards_pow p cs k Hl Hk) as [E Hne].
  eexists. split; [done|]. split; [done|]. unfold as_shardTo. cbn [as_chains].
  assert (lenN (chain_sort cs) = 2 ^ k) as El by (unfold lenN in *; by rewrite chain_sort_len).
  pose proof (as_index_pow k p (chain_sort cs) b0 b1 rest Hk H0 H1) as Ei.
  assert (2 ^ k <> 0) as Hnz by (apply N.pow_nonzero; lia).
  pose proof (N.mod_lt (as_index (AccShards k p (chain_sort cs)) (b0 :: b1 :: rest)) _ Hnz) as Hlt.
  destruct (chain_sort cs) as [|c l] eqn:Ec; [change (lenN []) with 0 in El; lia|].
  rewrite El, Ei in *. 
  destruct (nth_lookup_or_length (c :: l) (N.to_nat (bit_index k b0 b1)) 0) as [A|A]; [done|].
  unfold lenN in El. lia.
Qed.
Print Assumptions C51_power_of_two.

(** Two addresses are in the same shard iff their first k bits agree (k <= 7, distinct
    shards). *)
Theorem C51_same_prefix_same_shard : forall parent chains k s b0 b1 r b0' b1' r',
  NoDup chains -> lenN chains = 2 ^ k -> k <= 7 -> b0 < 256 -> b1 < 256 -> b0' < 256 -> b1' < 256 ->
  NewAccountShards parent chains = Some s ->
  (as_shardTo s (b0 :: b1 :: r) = as_shardTo s (b0' :: b1' :: r') <->
   forall i, i < k -> addr_bit [b0] i = addr_bit [b0'] i).
Proof.
  intros p cs k s b0 b1 r b0' b1' r' Hnd Hl Hk H0 H1 H0' H1' Hs.
  destruct (C51_power_of_two p cs k b0 b1 r Hl ltac:(lia) H0 H1) as (s1 & E1 & _ & L1).
  destruct (C51_power_of_two p cs k b0' b1' r' Hl ltac:(lia) H0' H1') as (s2 & E2 & _ & L2).
  assert (s1 = s) as -> by congruence. assert (s2 = s) as -> by congruence.
  assert (NoDup (as_chains s)) as Hnd'.
  { destruct (C51_shard_is_member p cs) as (s' & E' & HP & _).
    - rewrite Hl. change 256 with (2 ^ 8). apply N.pow_le_mono_r; lia.
    - assert (s' = s) as -> by congruence. by rewrite HP. }
  unfold bit_index in L1, L2. destruct (N.eqb_spec k 8); [lia|].
  assert (as_shardTo s (b0 :: b1 :: r) = as_shardTo s (b0' :: b1' :: r') <-> b0 / 2 ^ (8 - k) = b0' / 2 ^ (8 - k)) as ->.
  { split.
    - intros E. rewrite E in L1. pose proof (NoDup_lookup _ _ _ _ Hnd' L1 L2). lia.
    - intros E. rewrite E in L1. rewrite L1 in L2. by injection L2. }
  rewrite <- !N.shiftr_div_pow2.
  assert (forall b i, i < k -> addr_bit [b] i = N.testbit (N.shiftr b (8 - k)) (k - 1 - i)) as Hbit.
  { intros b i Hi. unfold addr_bit. rewrite N.div_small by lia. cbn [N.to_nat nth].
    change (nth (N.to_nat 0) [b] 0) with b. rewrite N.mod_small by lia. rewrite N.shiftr_spec'. f_equal. lia. }
  split.
  - intros E i Hi. rewrite !Hbit by done. by rewrite E.
  - intros E. apply N.bits_inj. intros j. destruct (N.lt_ge_cases j k) as [Hj|Hj].
    + specialize (E (k - 1 - j) ltac:(lia)). rewrite !Hbit in E by lia.
      by replace (k - 1 - (k - 1 - j)) with j in E by lia.
    + rewrite !N.shiftr_spec'.
      rewrite <- (N.mod_small b0 (2 ^ 8)), <- (N.mod_small b0' (2 ^ 8)) by done.
      rewrite !N.mod_pow2_bits_high by lia. done.
Qed.
Print Assumptions C51_same_prefix_same_shard.

(** Evenness: of the 65536 possible first two address bytes, every one of 2^k distinct
    shards receives exactly 65536 / 2^k. *)
Definition seqN (n : nat) : list N := map N.of_nat (seq 0 n).
Definition all_prefixes : list (N * N) := list_prod (seqN 256) (seqN 256).
Fixpoint cnt {A} (P : A -> bool) (l : list A) : nat :=
  match l with [] => 0%nat | x :: r => ((if P x then 1 else 0) + cnt P r)%nat end.

Lemma cnt_app {A} (P : A -> bool) l1 l2 : cnt P (l1 ++ l2) = (cnt P l1 + cnt P l2)%nat.
Proof. induction l1 as [|x l1 IH]; cbn [cnt app]; [done|]. rewrite IH. lia. Qed.
Lemma cnt_ext {A} (P Q : A -> bool) l : (forall x, x ∈ l -> P x = Q x) -> cnt P l = cnt Q l.
Proof.
  induction l as [|x l IH]; intros H; cbn [cnt]; [done|].
  rewrite (H x) by constructor. rewrite IH; [done|]. intros y Hy. apply H. by constructor.
Qed.
Lemma cnt_map {A B} (f : A -> B) P l : cnt P (map f l) = cnt (fun x => P (f x)) l.
Proof. induction l as [|x l IH]; cbn [cnt map]; [done|]. by rewrite IH. Qed.
Lemma cnt_const {A} (b : bool) (l : list A) : cnt (fun _ => b) l = (if b then length l else 0)%nat.
Proof. induction l as [|x l IH]; cbn [cnt length]; [by destruct b|]. rewrite IH. by destruct b. Qed.
Lemma cnt_prod1 {A B} (P : A -> bool) (l1 : list A) (l2 : list B) :
  cnt (fun p => P p.1) (list_prod l1 l2) = (cnt P l1 * length l2)%nat.
Proof.
  induction l1 as [|x l1 IH]; cbn [list_prod cnt]; [done|]. rewrite cnt_app, cnt_map, IH. cbn [fst].
  rewrite cnt_const. destruct (P x); lia.
Qed.
Lemma cnt_prod2 {A B} (P : B -> bool) (l1 : list A) (l2 : list B) :
  cnt (fun p => P p.2) (list_prod l1 l2) = (length l1 * cnt P l2)%nat.
Proof.
  induction l1 as [|x l1 IH]; cbn [list_prod cnt length]; [done|]. rewrite cnt_app, cnt_map, IH. cbn [snd].
  change (cnt (fun x0 : B => P x0) l2) with (cnt P l2). lia.
Qed.

Lemma seqN_lt n x : x ∈ seqN n -> x < N.of_nat n.
Proof. intros H. apply elem_of_list_fmap in H as (i & -> & H). apply elem_of_seq in H. lia. Qed.

Lemma seqN_in n x : x < N.of_nat n -> x ∈ seqN n.
Proof. intros H. apply elem_of_list_fmap. exists (N.to_nat x). split; [lia|]. apply elem_of_seq. lia. Qed.

Lemma cnt_div (d m : nat) (i : N) : (0 < d)%nat ->
  cnt (fun b => b / N.of_nat d =? i) (seqN (m * d)) = if decide (i < N.of_nat m) then d else 0%nat.
Proof.
  intros Hd. unfold seqN. induction m as [|m IH]; [rewrite decide_False by lia; done|].
  replace (S m * d)%nat with (m * d + d)%nat by lia. rewrite seq_app, map_app, cnt_app, IH, Nat.add_0_l.
  rewrite cnt_map. rewrite (cnt_ext _ (fun _ => i =? N.of_nat m)).
  - rewrite cnt_const, seq_length. destruct (N.eqb_spec i (N.of_nat m)) as [->|].
    + rewrite decide_False, decide_True by lia. lia.
    + destruct (decide (i < N.of_nat m)); [rewrite decide_True by lia|rewrite decide_False by lia]; lia.
  - intros x Hx. apply elem_of_seq in Hx.
    replace (N.of_nat x / N.of_nat d) with (N.of_nat m); [apply N.eqb_sym|].
    apply N.div_unique with (N.of_nat x - N.of_nat m * N.of_nat d); nia.
Qed.

Lemma even_div k i : k <= 8 -> i < 2 ^ k ->
  N.of_nat (cnt (fun b => b / 2 ^ (8 - k) =? i) (seqN 256)) = 2 ^ (8 - k).
Proof.
  intros Hk Hi. pose proof (cnt_div (N.to_nat (2 ^ (8 - k))) (N.to_nat (2 ^ k)) i) as H.
  assert (2 ^ (8 - k) <> 0) by (apply N.pow_nonzero; lia).
  rewrite decide_True in H by lia. rewrite N2Nat.id in H.
  replace (N.to_nat (2 ^ k) * N.to_nat (2 ^ (8 - k)))%nat with 256%nat in H.
  - rewrite H by lia. lia.
  - rewrite <- N2Nat.inj_mul, <- N.pow_add_r. replace (k + (8 - k)) with 8 by lia. reflexivity.
Qed.

Theorem C51_even : forall parent chains k s c rest,
  NoDup chains -> lenN chains = 2 ^ k -> k <= 8 ->
  NewAccountShards parent chains = Some s -> c ∈ chains ->
  N.of_nat (cnt (fun p => as_shardTo s (p.1 :: p.2 :: rest) =? c) all_prefixes) = 65536 / 2 ^ k.
Proof.
  intros p cs k s c rest Hnd Hl Hk Hs Hc.
  destruct (shards_pow p cs k Hl Hk) as [E _]. assert (s = AccShards k p (chain_sort cs)) as -> by congruence. clear E.
  assert (c ∈ chain_sort cs) as Hc' by (by rewrite chain_sort_perm).
  apply elem_of_list_lookup in Hc' as [i Hi].
  assert (NoDup (chain_sort cs)) as Hnd' by (by rewrite chain_sort_perm).
  assert (N.of_nat i < 2 ^ k) as Hik.
  { apply lookup_lt_Some in Hi. rewrite chain_sort_len in Hi. unfold lenN in Hl. lia. }
  rewrite (cnt_ext _ (fun q => bit_index k q.1 q.2 =? N.of_nat i)).
  2:{ intros [b0 b1] Hin. cbn [fst snd]. apply elem_of_list_In, in_prod_iff in Hin as [A B].
      apply elem_of_list_In, seqN_lt in A. apply elem_of_list_In, seqN_lt in B.
      destruct (C51_power_of_two p cs k b0 b1 rest Hl Hk ltac:(lia) ltac:(lia)) as (s' & E' & _ & L).
      assert (s' = AccShards k p (chain_sort cs)) as -> by congruence. cbn [as_chains] in L.
      destruct (N.eqb_spec (bit_index k b0 b1) (N.of_nat i)) as [Eb|Eb].
      - apply N.eqb_eq. rewrite Eb, Nat2N.id in L. congruence.
      - apply N.eqb_neq. intros Eq. rewrite Eq in L. pose proof (NoDup_lookup _ _ _ _ Hnd' L Hi). lia. }
  unfold all_prefixes, bit_index. destruct (N.eqb_spec k 8) as [->|Hk8].
  - rewrite (cnt_prod2 (fun b => b =? N.of_nat i)). change (65536 / 2 ^ 8) with (256 * 1).
    change (length (seqN 256)) with 256%nat. rewrite Nat2N.inj_mul. f_equal.
    transitivity (2 ^ (8 - 8)); [|done]. rewrite <- (even_div 8 (N.of_nat i)) by done. apply (f_equal N.of_nat), cnt_ext. intros x _.
    change (2 ^ (8 - 8)) with 1. by rewrite N.div_1_r.
  - rewrite (cnt_prod1 (fun b => b / 2 ^ (8 - k) =? N.of_nat i)). rewrite Nat2N.inj_mul, even_div by (done || lia).
    change (N.of_nat (length (seqN 256))) with 256.
    change 65536 with (2 ^ 16). replace 16 with (8 + (8 - k) + k) by lia.
    rewrite !N.pow_add_r, N.div_mul by (apply N.pow_nonzero; lia). change (2 ^ 8) with 256. lia.
Qed.
Print Assumptions C51_even.

(** With 256 shards the second address byte alone selects the shard. *)
Theorem C51_256_shards_second_byte : forall parent chains s b0 b1 r b0' r',
  lenN chains = 2 ^ 8 -> b0 < 256 -> b1 < 256 -> b0' < 256 ->
  NewAccountShards parent chains = Some s ->
  as_shardTo s (b0 :: b1 :: r) = as_shardTo s (b0' :: b1 :: r').
Proof.
  intros p cs s b0 b1 r b0' r' Hl H0 H1 H0' Hs.
  destruct (C51_power_of_two p cs 8 b0 b1 r Hl ltac:(lia) H0 H1) as (s1 & E1 & _ & L1).
  destruct (C51_power_of_two p cs 8 b0' b1 r' Hl ltac:(lia) H0' H1) as (s2 & E2 & _ & L2).
  assert (s1 = s) as -> by congruence. assert (s2 = s) as -> by congruence.
  unfold bit_index in L1, L2. cbn [N.eqb Pos.eqb] in L1, L2. congruence.
Qed.
Print Assumptions C51_256_shards_second_byte.

(** Finding: so with 256 shards the shard is not chosen by the leading bits, as the
    comment on maskBits says. *)
Theorem C51_leading_bits_refuted :
  ~ (forall parent chains k s b0 b1 r b0' b1' r',
      NoDup chains -> lenN chains = 2 ^ k -> k <= 8 -> b0 < 256 -> b1 < 256 -> b0' < 256 -> b1' < 256 ->
      NewAccountShards parent chains = Some s ->
      as_shardTo s (b0 :: b1 :: r) = as_shardTo s (b0' :: b1' :: r') ->
      forall i, i < k -> addr_bit [b0] i = addr_bit [b0'] i).
Proof.
  intros H.
  assert (NoDup (seqN 256)) as Hnd by (apply NoDup_fmap_2; [intros ? ?; apply Nat2N.inj|apply NoDup_seq]).
  assert (lenN (seqN 256) = 2 ^ 8) as Hl by (unfold lenN, seqN; rewrite map_length, seq_length; reflexivity).
  revert Hnd Hl. generalize (seqN 256). intros cs Hnd Hl.
  destruct (shards_pow 0 cs 8 Hl ltac:(lia)) as [E _]. revert E. generalize (AccShards 8 0 (chain_sort cs)). intros s E.
  pose proof (H 0 cs 8 s 0 7 [] 255 7 [] Hnd Hl ltac:(lia) ltac:(lia) ltac:(lia) ltac:(lia) ltac:(lia) E
    (C51_256_shards_second_byte 0 cs s 0 7 [] 255 [] Hl ltac:(lia) ltac:(lia) ltac:(lia) E) 0 ltac:(lia)) as F.
  vm_compute in F. discriminate.
Qed.
Print Assumptions C51_leading_bits_refuted.

(* ------------------------------------------------------------------- Pos *)
Lemma sorted_nth_le l i j a b : StronglySorted cle l -> (i <= j)%nat ->
  l !! i = Some a -> l !! j = Some b -> cle a b.
Proof.
  intros Hs. revert i j; induction Hs as [|x l Hs IH Hx]; intros i j Hij Hi Hj; [done|].
  destruct i as [|i], j as [|j]; cbn in *; try lia.
  - left. congruence.
  - injection Hi as <-. rewrite Forall_forall in Hx. apply Hx. by eapply elem_of_list_lookup_2.
  - eapply IH; [|done..]. lia.
Qed.

(** Pos finds every shard at its position in the sorted list, and nothing else, when
    the nil chain id is not among the shards. *)
Theorem C51_pos : forall parent chains s id,
  NewAccountShards parent chains = Some s -> NoDup chains -> NilChainID ∉ chains ->
  (id ∈ chains -> exists i, as_pos s id = Z.of_nat i /\ as_chains s !! i = Some id) /\
  (id ∉ chains -> as_pos s id = (-1)%Z).
Proof.
  intros p cs s id Hs Hnd Hnil.
  assert (exists b, s = AccShards b p (chain_sort cs)) as [b ->].
  { unfold NewAccountShards in Hs. destruct cs as [|c l]; [eexists; by injection Hs as <-|].
    destruct (8 <? _); [done|]. injection Hs as <-. eauto. }
  clear Hs. unfold as_pos. cbn [as_chains]. set (l := chain_sort cs).
  assert (forall x, x ∈ l <-> x ∈ cs) as Hel by (intros x; unfold l; by rewrite chain_sort_perm).
  assert (StronglySorted cle l) as Hso by apply chain_sort_sorted.
  set (f := fun j => id <=? nth j l 0). set (i := sort_search (length l) f).
  (* Go only evaluates f below the length: compare with the monotone extension *)
  set (g := fun j => if (j <? length l)%nat then f j else true).
  assert (i = sort_search (length l) g) as Ei.
  { unfold i, sort_search. generalize (length l) at 1 3. intros fuel.
    assert (forall a c, (c <= length l)%nat -> search_loop fuel f a c = search_loop fuel g a c) as Hsl.
    { induction fuel as [|fu IH]; intros a c Hc; cbn [search_loop]; [done|].
      destruct (Nat.ltb_spec a c) as [Hac|]; [|done].
      pose proof (Nat.div_lt_upper_bound (a + c) 2 c ltac:(lia) ltac:(lia)) as Hh.
      set (h := ((a + c) / 2)%nat) in *.
      assert (g h = f h) as -> by (unfold g; destruct (Nat.ltb_spec h (length l)); [done|lia]).
      destruct (f h); apply IH; lia. }
    apply Hsl. lia. }
  assert (forall j x, l !! j = Some x -> f j = (id <=? x)) as Hf.
  { intros j x Hj. unfold f. by rewrite (nth_lookup_Some _ _ _ _ Hj). }
  assert (forall a b, (a <= b)%nat -> g a = true -> g b = true) as Hmono.
  { intros a c Hac. unfold g. destruct (Nat.ltb_spec c (length l)) as [Hc|]; [|done].
    destruct (Nat.ltb_spec a (length l)); [|lia].
    destruct (lookup_lt_is_Some_2 l a ltac:(lia)) as [x Hx]. destruct (lookup_lt_is_Some_2 l c ltac:(lia)) as [y Hy].
    rewrite (Hf _ _ Hx), (Hf _ _ Hy). rewrite !N.leb_le. intros Hle.
    pose proof (sorted_nth_le l a c x y Hso Hac Hx Hy) as [->|Hlt]; [done|].
    apply chain_less_spec in Hlt as (_ & [->|[_ Hlt]]); [|lia].
    exfalso. apply Hnil, Hel. by eapply elem_of_list_lookup_2. }
  destruct (search_loop_spec g (length l) 0 (length l) ltac:(lia) ltac:(lia) Hmono) as (Hr & Hlow & Hhi).
  fold (sort_search (length l) g) in *. rewrite <- Ei in *.
  split.
  - intros Hin. apply Hel, elem_of_list_lookup in Hin as [j Hj].
    assert (i = j) as ->.
    { destruct (Nat.lt_trichotomy i j) as [Hlt|[?|Hgt]]; [|done|].
      - assert ((i < length l)%nat) as Hil by (apply lookup_lt_Some in Hj; lia).
        specialize (Hhi Hil). unfold g in Hhi. destruct (Nat.ltb_spec i (length l)); [|lia].
        destruct (lookup_lt_is_Some_2 l i Hil) as [x Hx]. rewrite (Hf _ _ Hx) in Hhi. apply N.leb_le in Hhi.
        pose proof (sorted_nth_le l i j x id Hso ltac:(lia) Hx Hj) as [->|Hlt'].
        + assert (NoDup l) as Hndl by (unfold l; by rewrite chain_sort_perm).
          eapply NoDup_lookup; eauto.
        + apply chain_less_spec in Hlt' as (_ & [->|[_ Hlt']]); [|lia].
          exfalso. apply Hnil, Hel. by eapply elem_of_list_lookup_2.
      - assert (g j = false) as Hgj by (apply Hlow; lia). unfold g in Hgj. apply lookup_lt_Some in Hj as Hjl.
        destruct (Nat.ltb_spec j (length l)); [|lia]. rewrite (Hf _ _ Hj), N.leb_refl in Hgj. done. }
    exists j. rewrite Hj, N.eqb_refl. done.
  - intros Hnin. destruct (l !! i) as [x|] eqn:Hx; [|done].
    destruct (N.eqb_spec x id) as [->|]; [|done]. exfalso. apply Hnin, Hel. by eapply elem_of_list_lookup_2.
Qed.
Print Assumptions C51_pos.

(** Finding: the list is sorted with the nil chain id first, but searched as if it were
    sorted by number. *)
Theorem C51_pos_with_nil_refuted :
  ~ (forall parent chains s id, NewAccountShards parent chains = Some s -> NoDup chains ->
       id ∈ chains -> exists i, as_pos s id = Z.of_nat i /\ as_chains s !! i = Some id).
Proof.
  intros H.
  assert (NoDup [NilChainID; 1; 2]) as Hnd by (apply (bool_decide_eq_true_1 _); vm_compute; reflexivity).
  destruct (H 0 [NilChainID; 1; 2] _ NilChainID eq_refl Hnd ltac:(constructor)) as (i & E & _).
  vm_compute in E. destruct i; discriminate.
Qed.
Print Assumptions C51_pos_with_nil_refuted.

(* ---------------------------------------------------------- NewShardInfo *)
Lemma dedup_spec l : forall seen, NoDup (dedup seen l) /\
  (forall x, x ∈ dedup seen l <-> x ∈ l /\ x ∉ seen).
Proof.
  induction l as [|a l IH]; intros seen; cbn [dedup].
  - split; [constructor|]. intros x. split; [intros H; inversion H|intros [H _]; inversion H].
  - destruct (existsb (N.eqb a) seen) eqn:E.
    + apply existsb_exists in E as (y & Hy & Ey). apply N.eqb_eq in Ey as <-. apply elem_of_list_In in Hy.
      destruct (IH seen) as [H1 H2]. split; [done|]. intros x. rewrite H2, elem_of_cons. set_solver.
    + assert (a ∉ seen) as Ha.
      { intros Hin. apply not_true_iff_false in E. apply E. apply existsb_exists. exists a.
        split; [by apply elem_of_list_In|apply N.eqb_refl]. }
      destruct (IH (a :: seen)) as [H1 H2]. split.
      * constructor; [|done]. rewrite H2. set_solver.
      * intros x. rewrite elem_of_cons, H2, !elem_of_cons. destruct (decide (x = a)) as [->|]; set_solver.
Qed.

(** The shards of NewShardInfo are the distinct given ids, plus the current chain
    unless it is the parent. *)
Theorem C51_shard_info : forall parent current l id s,
  current <> NilChainID -> NewShardInfo parent current (Some l) = Some (id, s) ->
  id = current /\ NoDup (as_chains s) /\ as_parent s = parent /\
  (forall x, x ∈ as_chains s <-> x ∈ l \/ (x = current /\ current <> parent)).
Proof.
  intros p cur l id s Hc H. unfold NewShardInfo in H. destruct (N.eqb_spec cur NilChainID); [done|].
  destruct (dedup_spec l []) as [Hnd Hel].
  set (sl := dedup [] l) in *.
  set (sl' := if cur =? p then sl else if existsb (N.eqb cur) sl then sl else sl ++ [cur]) in *.
  assert (NoDup sl' /\ forall x, x ∈ sl' <-> x ∈ l \/ (x = cur /\ cur <> p)) as [Hnd' Hel'].
  { unfold sl'. destruct (N.eqb_spec cur p) as [->|Hcp].
    - split; [done|]. intros x. rewrite Hel. set_solver.
    - destruct (existsb (N.eqb cur) sl) eqn:E.
      + apply existsb_exists in E as (y & Hy & Ey). apply N.eqb_eq in Ey as <-. apply elem_of_list_In in Hy.
        split; [done|]. intros x. rewrite Hel. rewrite Hel in Hy. set_solver.
      + assert (cur ∉ sl) as Hn.
        { intros Hin. apply not_true_iff_false in E. apply E. apply existsb_exists. exists cur.
          split; [by apply elem_of_list_In|apply N.eqb_refl]. }
        split.
        * apply NoDup_app. split; [done|]. split; [|apply NoDup_singleton]. set_solver.
        * intros x. rewrite elem_of_app, elem_of_list_singleton, Hel. set_solver. }
  assert (NewAccountShards p sl' = Some s /\ id = cur) as [Es ->].
  { destruct (NewAccountShards p sl') as [s0|] eqn:E; [|done]. cbn in H. injection H as <- <-. done. }
  assert (as_chains s ≡ₚ sl' /\ as_parent s = p) as [HP Hp].
  { unfold NewAccountShards in Es. destruct sl' as [|c r]; [injection Es as <-; done|].
    destruct (8 <? _); [done|]. injection Es as <-. cbn [as_chains as_parent]. split; [apply (chain_sort_perm (c :: r))|done]. }
  split; [done|]. split; [by rewrite HP|]. split; [done|]. intros x. by rewrite HP.
Qed.
Print Assumptions C51_shard_info.

Example C51_example :
  exists s, NewAccountShards 7 [4; 3; 2; 1] = Some s /\ as_mask s = 2 /\
    map (fun b => as_shardTo s (b :: 0 :: replicate 18 0)) [0; 63; 64; 130; 255] = [1; 1; 2; 3; 4].
Proof. eexists. split; [reflexivity|]. split; vm_compute; reflexivity. Qed.
Example C51_three_shards :
  exists s, NewAccountShards 7 [30; 10; 20] = Some s /\
    map (fun b => as_shardTo s (b :: 0 :: replicate 18 0)) [0; 64; 128; 192] = [10; 20; 30; 10].
Proof. eexists. split; [reflexivity|]. vm_compute. reflexivity. Qed.
