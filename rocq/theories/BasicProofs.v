(** Lemmas about heights, orders and shards. *)
From Verif Require Export NumProofs BasicModel.

Lemma nil_compare_eq nil a b : nil_compare nil a b = 0%Z <-> a = b.
Proof.
  unfold nil_compare. destruct (N.eqb_spec a b); [done|].
  destruct (a =? nil); [done|]. destruct (b =? nil); [done|]. destruct (a <? b); done.
Qed.

(* ----------------------------------------------------------- insertion sort *)
Definition cle (a b : N) : Prop := a = b \/ chain_less a b = true.

Lemma chain_less_spec a b :
  chain_less a b = true <-> a <> b /\ (a = NilChainID \/ b <> NilChainID /\ a < b).
Proof.
  unfold chain_less, ChainID_Compare, nil_compare.
  destruct (N.eqb_spec a b) as [->|Hne]; [cbn; split; [done|intros [? _]; done]|].
  destruct (N.eqb_spec a NilChainID); [cbn; tauto|].
  destruct (N.eqb_spec b NilChainID); [cbn; split; [done|intros (_ & [?|[? _]]); done]|].
  destruct (N.ltb_spec a b); cbn; split; try done; lia.
Qed.

Lemma chain_ins_perm a l : chain_ins a l ≡ₚ a :: l.
Proof.
  induction l as [|b l IH]; cbn [chain_ins]; [done|].
  destruct (chain_less b a); [|done]. rewrite IH. constructor.
Qed.
Lemma chain_sort_perm l : chain_sort l ≡ₚ l.
Proof. induction l as [|a l IH]; cbn [chain_sort foldr]; [done|]. rewrite chain_ins_perm. by constructor. Qed.

(* -------------------------------------------------------------- mask bits *)
Lemma mask_loop_spec : forall f bits n, (N.to_nat n <= f + 2 ^ N.to_nat bits)%nat ->
  (bits = 0 \/ 2 ^ (bits - 1) < n) ->
  let r := mask_loop f (2 ^ bits) bits n in
  n <= 2 ^ r /\ (r = 0 \/ 2 ^ (r - 1) < n).
Proof.
  induction f as [|f IH]; intros bits n Hf Hb; cbn [mask_loop].
  - split; [|done]. assert (N.to_nat (2 ^ bits) = (2 ^ N.to_nat bits)%nat) by (rewrite N2Nat.inj_pow; done). lia.
  - destruct (N.ltb_spec (2 ^ bits) n) as [Hlt|Hge].
    + replace (2 * 2 ^ bits) with (2 ^ (bits + 1)) by (rewrite N.pow_add_r; change (2^1) with 2; lia).
      apply IH.
      * replace (N.to_nat (bits + 1)) with (S (N.to_nat bits)) by lia. rewrite Nat.pow_succ_r'.
        pose proof (Nat.pow_nonzero 2 (N.to_nat bits)). lia.
      * right. replace (bits + 1 - 1) with bits by lia. done.
    + split; [lia|done].
Qed.

Lemma mask_bits_spec n : 0 < n ->
  let r := mask_loop (N.to_nat n) 1 0 n in n <= 2 ^ r /\ (r = 0 \/ 2 ^ (r - 1) < n).
Proof. intros Hn. apply (mask_loop_spec (N.to_nat n) 0 n); [simpl; lia|by left]. Qed.

Lemma mask_bits_pow k : mask_loop (N.to_nat (2 ^ k)) 1 0 (2 ^ k) = k.
Proof.
  assert (0 < 2 ^ k) as Hp by (assert (2 ^ k <> 0) by (apply N.pow_nonzero; lia); lia).
  destruct (mask_bits_spec (2 ^ k) Hp) as [H1 H2].
  set (r := mask_loop _ _ _ _) in *. clearbody r.
  apply N.pow_le_mono_r_iff in H1; [|lia]. destruct H2 as [->|H2]; [lia|].
  apply N.pow_lt_mono_r_iff in H2; lia.
Qed.

(* ------------------------------------------------------------ sort.Search *)
Lemma search_loop_spec f : forall fuel i j, (j - i <= fuel)%nat -> (i <= j)%nat ->
  (forall a b, (a <= b)%nat -> f a = true -> f b = true) ->
  let r := search_loop fuel f i j in
  (i <= r <= j)%nat /\ (forall a, (i <= a < r)%nat -> f a = false) /\ ((r < j)%nat -> f r = true).
Proof.
  induction fuel as [|fu IH]; intros i j Hf Hij Hm; cbn [search_loop].
  - split; [lia|]. split; [intros; lia|intros; lia].
  - destruct (Nat.ltb_spec i j) as [Hlt|Hge]; [|split; [lia|split; intros; lia]].
    pose proof (Nat.div_lt_upper_bound (i + j) 2 j ltac:(lia) ltac:(lia)) as H1.
    pose proof (Nat.div_le_lower_bound (i + j) 2 i ltac:(lia) ltac:(lia)) as H2.
    set (h := ((i + j) / 2)%nat) in *. clearbody h.
    destruct (f h) eqn:Hh.
    + destruct (IH i h) as (A & B & C); [lia|lia|done|]. split; [lia|]. split; [done|].
      intros Hr. destruct (Nat.eq_dec (search_loop fu f i h) h) as [->|]; [done|]. apply C. lia.
    + destruct (IH (S h) j) as (A & B & C); [lia|lia|done|]. split; [lia|]. split; [|done].
      intros a Ha. destruct (Nat.le_gt_cases a h) as [Hle|Hgt]; [|apply B; lia].
      destruct (f a) eqn:Hfa; [|done]. rewrite (Hm a h) in Hh; done.
Qed.

(* ------------------------------------------------------------- byte order *)
Fixpoint lex_lt (a b : list N) : Prop :=
  match a, b with
  | [], [] => False
  | [], _ :: _ => True
  | _, [] => False
  | x :: a', y :: b' => x < y \/ x = y /\ lex_lt a' b'
  end.

Lemma lex_lt_num a b : length a = length b -> is_bytes a -> is_bytes b ->
  (lex_lt a b <-> be_num a < be_num b).
Proof.
  revert b; induction a as [|x a IH]; intros [|y b] Hl Ha Hb; try done.
  cbn [lex_lt]. injection Hl as Hl. apply is_bytes_cons in Ha as [Hx Ha]. apply is_bytes_cons in Hb as [Hy Hb].
  rewrite (IH b) by done. rewrite !be_num_cons.
  pose proof (be_num_bound a Ha). pose proof (be_num_bound b Hb).
  assert (lenN a = lenN b) as E by (unfold lenN; lia). rewrite E in *.
  set (P := 256 ^ lenN b) in *. clearbody P. split.
  - intros [H1|[-> H1]]; [nia|lia].
  - intros H1. destruct (N.lt_total x y) as [?|[?|?]]; [by left|right; split; [done|lia]|nia].
Qed.

(* ----------------------------------------------------- address bits *)
Definition addr_bit (bs : list N) (i : N) : bool :=
  N.testbit (nth (N.to_nat (i / 8)) bs 0) (7 - i mod 8).

Lemma BytePos_div p : BytePos p = p / 8.
Proof. unfold BytePos. rewrite N.shiftr_div_pow2. done. Qed.
Lemma BitPos_mod p : BitPos p = p mod 8.
Proof. unfold BitPos. change 7 with (N.ones 3). rewrite N.land_ones. done. Qed.

Lemma Mask_bits p b i : b < 256 -> i < 8 ->
  N.testbit (Mask p b) (7 - i) =
    if decide (p mod 8 = 0) then false else if decide (i <= p mod 8) then N.testbit b (7 - i) else false.
Proof.
  intros Hb Hi. unfold Mask. rewrite BitPos_mod.
  pose proof (N.mod_lt p 8 ltac:(done)) as Hm. set (q := p mod 8) in *. clearbody q.
  destruct (N.eqb_spec q 7) as [->|H7].
  { rewrite decide_False by done. rewrite decide_True by lia. done. }
  destruct (N.eqb_spec q 0) as [->|H0]; [rewrite decide_True by done; apply N.bits_0|].
  rewrite decide_False by done.
  change 256 with (2 ^ 8). rewrite N.mod_pow2_bits_low by lia.
  destruct (decide (i <= q)) as [Hq|Hq].
  - rewrite N.shiftl_spec_high' by lia. rewrite N.shiftr_spec'. f_equal. lia.
  - rewrite N.shiftl_spec_low by lia. done.
Qed.

Lemma byte_bits_eq a b : a < 256 -> b < 256 ->
  (forall i, i < 8 -> N.testbit a (7 - i) = N.testbit b (7 - i)) -> a = b.
Proof.
  intros Ha Hb Hbits. apply N.bits_inj. intros k.
  destruct (N.lt_ge_cases k 8) as [Hk|Hk].
  - specialize (Hbits (7 - k) ltac:(lia)). replace (7 - (7 - k)) with k in Hbits by lia. done.
  - rewrite <- (N.mod_small a (2 ^ 8)), <- (N.mod_small b (2 ^ 8)) by done.
    rewrite !N.mod_pow2_bits_high by done. done.
Qed.

Lemma Mask_lt p b : b < 256 -> Mask p b < 256.
Proof.
  intros. unfold Mask. destruct (_ =? 7); [done|]. destruct (_ =? 0); [lia|]. apply N.mod_lt. done.
Qed.

(** number of leading bits an AddressShard compares *)
Definition shard_bits (idx : N) : N := if idx mod 8 =? 0 then idx else idx + 1.

Lemma isin_loop_spec idx value addr : forall k i,
  isin_loop k i idx value addr = true <->
  (forall j, (i <= j < i + k)%nat -> exists b a, value !! j = Some b /\ addr !! j = Some a /\
     if (j =? i + k - 1)%nat then Mask idx b = Mask idx a else b = a).
Proof.
  induction k as [|k IH]; intros i; cbn [isin_loop].
  - split; [|done]. intros _ j Hj. lia.
  - destruct (value !! i) as [b|] eqn:Hv.
    2:{ split; [done|]. intros H. destruct (H i ltac:(lia)) as (b & a & E & _). congruence. }
    destruct (addr !! i) as [a|] eqn:Ha.
    2:{ split; [done|]. intros H. destruct (H i ltac:(lia)) as (b' & a & _ & E & _). congruence. }
    rewrite andb_true_iff, IH. split.
    + intros [H1 H2] j Hj. destruct (Nat.eq_dec j i) as [->|Hne].
      * exists b, a. do 2 (split; [done|]).
        destruct (Nat.eqb_spec k 0) as [->|].
        -- rewrite (proj2 (Nat.eqb_eq i (i + 1 - 1))) by lia. by apply N.eqb_eq.
        -- rewrite (proj2 (Nat.eqb_neq i (i + S k - 1))) by lia. by apply N.eqb_eq.
      * destruct (H2 j ltac:(lia)) as (b' & a' & E1 & E2 & E3). exists b', a'. do 2 (split; [done|]).
        replace (i + S k - 1)%nat with (S i + k - 1)%nat by lia. done.
    + intros H. split.
      * destruct (H i ltac:(lia)) as (b' & a' & E1 & E2 & E3).
        assert (b' = b) as -> by congruence. assert (a' = a) as -> by congruence.
        destruct (Nat.eqb_spec k 0) as [->|].
        -- rewrite (proj2 (Nat.eqb_eq i (i + 1 - 1))) in E3 by lia. by apply N.eqb_eq.
        -- rewrite (proj2 (Nat.eqb_neq i (i + S k - 1))) in E3 by lia. by apply N.eqb_eq.
      * intros j Hj. destruct (H j ltac:(lia)) as (b' & a' & E1 & E2 & E3). exists b', a'. do 2 (split; [done|]).
        replace (i + S k - 1)%nat with (S i + k - 1)%nat in E3 by lia. done.
Qed.
