(** C55 (padding, splitting, joining) and C56 (bit extraction). *)
From Verif Require Import BytesModel.
Global Open Scope N_scope.

(* -------------------------------------------------------------------- C55 *)
Lemma buf_put_all p s n : (p + length s = n)%nat -> buf_put p s (replicate n 0) = replicate p 0 ++ s.
Proof.
  intros H. unfold buf_put. rewrite take_replicate, drop_replicate, Nat.min_l by lia.
  replace (n - (p + length s))%nat with 0%nat by lia. cbn [replicate]. by rewrite app_nil_r.
Qed.

(** Padding appends (prepends) exactly the missing zeros; strings that are long enough
    are returned as they are. *)
Theorem C55_pad : forall s l,
  RightPadBytes s l = s ++ replicate (Z.to_nat l - length s) 0 /\
  LeftPadBytes s l = replicate (Z.to_nat l - length s) 0 ++ s.
Proof.
  intros s l. unfold RightPadBytes, LeftPadBytes. destruct (Z.leb_spec l (Z.of_nat (length s))) as [H|H].
  - replace (Z.to_nat l - length s)%nat with 0%nat by lia. cbn [replicate app]. by rewrite app_nil_r.
  - split.
    + unfold buf_put. rewrite take_0, drop_replicate. by rewrite Nat.add_0_l.
    + apply buf_put_all. lia.
Qed.
Print Assumptions C55_pad.

(** Hence a padded number keeps its value and has at least the requested length. *)
Theorem C55_pad_value : forall s l,
  be_num (LeftPadBytes s l) = be_num s /\ length (LeftPadBytes s l) = Nat.max (length s) (Z.to_nat l) /\
  take (length s) (RightPadBytes s l) = s /\ length (RightPadBytes s l) = Nat.max (length s) (Z.to_nat l).
Proof.
  intros s l. destruct (C55_pad s l) as [-> ->].
  assert (forall n, be_num (replicate n 0) = 0) as Hz.
  { induction n as [|n IH]; [done|]. cbn [replicate]. rewrite be_num_cons, IH. lia. }
  rewrite be_num_app, Hz, !app_length, !replicate_length, take_app. repeat split; lia.
Qed.
Print Assumptions C55_pad_value.

(** Hex2BytesFixed after decoding: exactly [flen] bytes, and for a big-endian number
    the value modulo 256^flen. *)
Theorem C55_fixed : forall h flen, is_bytes h ->
  length (FixLength h flen) = flen /\ be_num (FixLength h flen) = be_num h mod 256 ^ N.of_nat flen.
Proof.
  intros h flen Hh. unfold FixLength. pose proof (be_num_bound h Hh) as Hb.
  destruct (Nat.eqb_spec (length h) flen) as [<-|Hne].
  { split; [done|]. by rewrite N.mod_small. }
  destruct (Nat.ltb_spec flen (length h)) as [Hlt|Hge].
  - split; [rewrite drop_length; lia|].
    assert (be_num h = be_num (take (length h - flen) h) * 256 ^ lenN (drop (length h - flen) h) + be_num (drop (length h - flen) h)) as ->
      by (rewrite <- be_num_app; by rewrite take_drop).
    assert (lenN (drop (length h - flen) h) = N.of_nat flen) as El by (unfold lenN; rewrite drop_length; lia).
    pose proof (be_num_bound _ (is_bytes_drop (length h - flen) h Hh)) as Hb'. rewrite El in *.
    rewrite N.add_comm, N.mod_add by (pose proof (pow256_pos (N.of_nat flen)); lia). by rewrite N.mod_small.
  - rewrite buf_put_all by lia. split; [rewrite app_length, replicate_length; lia|].
    rewrite be_num_app. assert (forall n, be_num (replicate n 0) = 0) as Hz.
    { induction n as [|n IH]; [done|]. cbn [replicate]. rewrite be_num_cons, IH. lia. }
    rewrite Hz, N.mul_0_l, N.add_0_l. symmetry. apply N.mod_small.
    eapply N.lt_le_trans; [exact Hb|]. apply N.pow_le_mono_r; [lia|]. unfold lenN. lia.
Qed.
Print Assumptions C55_fixed.

(** ConcatenateBytes is concatenation. *)
Theorem C55_concatenate : forall bss, ConcatenateBytes bss = concat bss.
Proof.
  intros bss. unfold ConcatenateBytes.
  assert (forall pre, concat_loop (length pre) bss (pre ++ replicate (concat_size bss) 0) = pre ++ concat bss) as H.
  { induction bss as [|b bss IH]; intros pre; cbn [concat_loop concat_size concat]; [done|].
    destruct (Nat.leb_spec (length b) 0) as [H0|H0].
    - destruct b; [|cbn in H0; lia]. cbn [length Nat.add app]. apply IH.
    - unfold buf_put. rewrite take_app, <- drop_drop, drop_app.
      rewrite drop_replicate. replace (length b + concat_size bss - length b)%nat with (concat_size bss) by lia.
      rewrite (app_assoc pre b), <- app_length, IH. by rewrite <- app_assoc. }
  apply (H []).
Qed.
Print Assumptions C55_concatenate.

Lemma split_loop_spec bs size : (0 < size)%nat -> forall fuel p, (length bs <= p + fuel)%nat ->
  (exists k, length bs = p + k * size)%nat ->
  concat (split_loop fuel p size bs) = drop p bs /\ Forall (fun c => length c = size) (split_loop fuel p size bs).
Proof.
  intros Hs. induction fuel as [|f IH]; intros p Hf [k Hk]; cbn [split_loop].
  { rewrite drop_ge by lia. split; [done|constructor]. }
  destruct (Nat.ltb_spec p (length bs)) as [Hlt|Hge].
  - destruct k as [|k]; [lia|]. destruct (IH (p + size)%nat ltac:(lia)) as [A B]; [exists k; lia|].
    cbn [concat]. split.
    + rewrite A, <- drop_drop. apply take_drop.
    + constructor; [|done]. rewrite take_length, drop_length. lia.
  - rewrite drop_ge by lia. split; [done|constructor].
Qed.

(** SplitBytes succeeds exactly when the (positive) size divides the length; its parts
    all have that size and concatenate to the input. *)
Theorem C55_split : forall bs size, (0 < size)%Z ->
  if (Z.of_nat (length bs) mod size =? 0)%Z
  then exists r, SplitBytes bs size = BOk r /\ concat r = bs /\ Forall (fun c => Z.of_nat (length c) = size) r
  else SplitBytes bs size = BErr.
Proof.
  intros bs size Hs. unfold SplitBytes. destruct (Z.eqb_spec size 0); [lia|].
  rewrite Z.rem_mod_nonneg by lia. destruct (Z.eqb_spec (Z.of_nat (length bs) mod size) 0) as [Hm|Hm]; cbn [negb]; [|done].
  rewrite Z.quot_div_nonneg by lia.
  assert (0 <= Z.of_nat (length bs) / size)%Z as Hq by (apply Z.div_pos; lia).
  destruct (Z.ltb_spec (Z.of_nat (length bs) / size) 0); [lia|].
  eexists. split; [done|].
  destruct (split_loop_spec bs (Z.to_nat size) ltac:(lia) (length bs) 0%nat ltac:(lia)) as [A B].
  { exists (Z.to_nat (Z.of_nat (length bs) / size)). rewrite <- Z2Nat.inj_mul by lia.
    rewrite Z.mul_comm, <- Z_div_exact_full_2 by lia. lia. }
  split; [by rewrite A|]. eapply Forall_impl; [exact B|]. cbn. intros c Hc. lia.
Qed.
Print Assumptions C55_split.

(** Splitting a joined list of equally long parts gives the parts back. *)
Theorem C55_split_join : forall parts size, (0 < size)%Z ->
  Forall (fun c => Z.of_nat (length c) = size) parts ->
  SplitBytes (ConcatenateBytes parts) size = BOk parts.
Proof.
  intros parts size Hs Hp. rewrite C55_concatenate.
  assert (Z.of_nat (length (concat parts)) = Z.of_nat (length parts) * size)%Z as Hlen.
  { clear -Hp. induction Hp as [|c parts Hc Hp IH]; [done|]. cbn [concat length]. rewrite app_length, Nat2Z.inj_add, IH, Hc. lia. }
  pose proof (C55_split (concat parts) size Hs) as H. rewrite Hlen, Z.mod_mul in H by lia. cbn [Z.eqb] in H.
  destruct H as (r & -> & Hr & Hf). f_equal.
  clear Hlen. revert r Hr Hf. induction Hp as [|c parts Hc Hp IH]; intros r Hr Hf.
  - destruct r as [|c r]; [done|]. exfalso. cbn in Hr. apply app_eq_nil in Hr as [-> _]. apply Forall_cons in Hf as [Hf _]. cbn in Hf. lia.
  - destruct r as [|c' r]; cbn [concat] in Hr.
    + exfalso. symmetry in Hr. apply app_eq_nil in Hr as [-> _]. cbn in Hc. lia.
    + apply Forall_cons in Hf as [Hf Hf']. apply app_inj_1 in Hr as [-> Hr]; [|lia]. f_equal. by apply IH.
Qed.
Print Assumptions C55_split_join.

(** Size zero, and a negative size that divides a non-empty input, panic. *)
Theorem C55_split_panics : forall bs size, SplitBytes bs size = BPanic <->
  size = 0%Z \/ (size < 0 /\ bs <> [] /\ Z.of_nat (length bs) mod size = 0)%Z.
Proof.
  intros bs size. unfold SplitBytes. destruct (Z.eqb_spec size 0) as [->|Hne]; [split; [by left|done]|].
  assert (Z.rem (Z.of_nat (length bs)) size = 0%Z <-> (Z.of_nat (length bs)) mod size = 0%Z)%Z as Hrm.
  { rewrite Z.rem_divide, Z.mod_divide by done. done. }
  destruct (Z.eqb_spec (Z.rem (Z.of_nat (length bs)) size) 0) as [Hr|Hr]; cbn [negb].
  2:{ split; [done|]. intros [?|(_ & _ & H)]; [done|]. tauto. }
  destruct (Z.ltb_spec (Z.quot (Z.of_nat (length bs)) size) 0) as [Hq|Hq].
  - split; [|done]. intros _. right. assert (bs <> []) by (intros ->; by rewrite Z.quot_0_l in Hq). split; [|tauto].
    destruct (Z.lt_ge_cases size 0) as [|Hs]; [done|]. pose proof (Z.quot_pos (Z.of_nat (length bs)) size). lia.
  - split; [done|]. intros [?|(Hs & Hb & _)]; [done|]. exfalso. apply Z.rem_divide in Hr as [q Hr]; [|done].
    rewrite Hr, Z.quot_mul in Hq by done. destruct bs; [done|]. cbn [length] in Hr. nia.
Qed.
Print Assumptions C55_split_panics.

Lemma inter_loop_spec y : forall m, NoDup (inter_loop m y) /\
  (forall x, x ∈ inter_loop m y <-> x ∈ m /\ x ∈ y) /\ sublist (inter_loop m y) y.
Proof.
  induction y as [|b y IH]; intros m; cbn [inter_loop].
  - split; [constructor|]. split; [|constructor]. intros x. split; [intros H; inversion H|intros [_ H]; inversion H].
  - case_decide as Hb.
    + destruct (IH (m ∖ {[b]})) as (A & B & C). split; [constructor; [|done]; rewrite B; set_solver|].
      split; [|by constructor]. intros x. rewrite !elem_of_cons, B. destruct (decide (x = b)) as [->|]; set_solver.
    + destruct (IH m) as (A & B & C). split; [done|]. split; [|by constructor]. intros x. rewrite elem_of_cons, B.
      split; [naive_solver|]. intros [H [->|H']]; [done|naive_solver].
Qed.

(** BytesIntersection returns the common strings, each once; BytesIntersectionMap too;
    BytesSliceEqual is equality of the sequences. *)
Theorem C55_intersection : forall a b,
  NoDup (BytesIntersection a b) /\ (forall x, x ∈ BytesIntersection a b <-> x ∈ a /\ x ∈ b).
Proof.
  intros a b. unfold BytesIntersection.
  destruct a as [|a0 a]; [split; [constructor|]; cbn; set_solver|].
  destruct b as [|b0 b]; [split; [constructor|]; cbn; set_solver|]. cbn [length Nat.eqb orb].
  destruct (S (length a) <? S (length b))%nat.
  - destruct (inter_loop_spec (a0 :: a) (list_to_set (b0 :: b))) as (A & B & _). split; [done|].
    intros x. rewrite B, elem_of_list_to_set. tauto.
  - destruct (inter_loop_spec (b0 :: b) (list_to_set (a0 :: a))) as (A & B & _). split; [done|].
    intros x. rewrite B, elem_of_list_to_set. tauto.
Qed.
Print Assumptions C55_intersection.

Theorem C55_intersection_map : forall iter a b,
  (forall S : gset (list N), NoDup (iter S) /\ forall x, x ∈ iter S <-> x ∈ S) ->
  NoDup (BytesIntersectionMap iter a b) /\ (forall x, x ∈ BytesIntersectionMap iter a b <-> x ∈ a /\ x ∈ b).
Proof.
  intros iter a b Hi. unfold BytesIntersectionMap. split; [apply Hi|]. intros x. rewrite (proj2 (Hi _)).
  assert (forall m : gset (list N), x ∈ foldl (fun (rm : gset (list N)) bs => if decide (bs ∈ a) then {[bs]} ∪ rm else rm) m b <-> x ∈ m \/ (x ∈ a /\ x ∈ b)) as H.
  { induction b as [|y b IH]; intros m; cbn [foldl]; [set_solver|]. rewrite IH. case_decide; set_solver. }
  rewrite H. set_solver.
Qed.
Print Assumptions C55_intersection_map.

Theorem C55_slice_equal : forall a b, BytesSliceEqual a b = true <-> default [] a = default [] b.
Proof.
  intros a b. unfold BytesSliceEqual.
  assert (forall a b, (if negb (length a =? length b)%nat then false else bse_loop a b) = true <-> a = b) as H.
  { clear. intros a b. destruct (Nat.eqb_spec (length a) (length b)) as [El|Hn]; cbn [negb]; [|split; [done|intros ->; done]].
    revert b El; induction a as [|x a IH]; intros [|y b] El; try done. cbn [bse_loop]. injection El as El.
    case_decide; [rewrite IH by done; naive_solver|naive_solver]. }
  destruct a, b; cbn [default]; try apply H. done.
Qed.
Print Assumptions C55_slice_equal.

Example C55_example :
  LeftPadBytes [1; 2] 4 = [0; 0; 1; 2] /\ RightPadBytes [1; 2] 4 = [1; 2; 0; 0] /\
  SplitBytes [1; 2; 3; 4] 2 = BOk [[1; 2]; [3; 4]] /\ SplitBytes [1; 2; 3] 2 = BErr /\
  ConcatenateBytes [[1]; []; [2; 3]] = [1; 2; 3] /\ FixLength [1; 2; 3] 2 = [2; 3].
Proof. repeat split; vm_compute; reflexivity. Qed.
Example C55_intersection_example : BytesIntersection [[1]; [2]; [2]; [5]] [[2]; [5]; [2]] = [[2]; [5]].
Proof. vm_compute. reflexivity. Qed.

(* -------------------------------------------------------------------- C56 *)
Lemma testbit_small b n : b < 256 -> 8 <= n -> N.testbit b n = false.
Proof.
  intros Hb Hn. rewrite <- (N.mod_small b (2 ^ 8)) by done. by apply N.mod_pow2_bits_high.
Qed.
Lemma testbit_snoc a b n : b < 256 ->
  N.testbit (a * 256 + b) n = if n <? 8 then N.testbit b n else N.testbit a (n - 8).
Proof.
  intros Hb. destruct (N.ltb_spec n 8) as [Hn|Hn].
  - rewrite <- (N.mod_pow2_bits_low (a * 256 + b) 8) by done. change (2 ^ 8) with 256.
    rewrite N.add_comm, N.mod_add by done. by rewrite N.mod_small.
  - replace n with ((n - 8) + 8) at 1 by lia. rewrite <- N.div_pow2_bits. change (2 ^ 8) with 256.
    rewrite N.add_comm, N.div_add by done. by rewrite N.div_small.
Qed.
Lemma shl8_testbit b k n : N.testbit (shl8 b k) n = (n <? 8) && (k <=? n) && N.testbit b (n - k).
Proof.
  unfold shl8. change 256 with (2 ^ 8). destruct (N.ltb_spec n 8); cbn [andb].
  - rewrite N.mod_pow2_bits_low by done. destruct (N.leb_spec k n); cbn [andb].
    + by rewrite N.shiftl_spec_high'.
    + by rewrite N.shiftl_spec_low.
  - by apply N.mod_pow2_bits_high.
Qed.

Definition bit_len_of (len : option N) : N :=
  match len with Some l => if (0 <? l) && (l <? 8) then l else 8 | None => 8 end.
Lemma bit_len_of_range len : 1 <= bit_len_of len <= 8.
Proof. unfold bit_len_of. destruct len as [l|]; [|lia]. destruct (N.ltb_spec 0 l), (N.ltb_spec l 8); cbn [andb]; lia. Qed.

(** ShiftBits: of the 16-bit number b1 b0, the [len] bits from bit [shifts mod 8]. *)
Theorem C56_ShiftBits : forall b0 b1 shifts len, b0 < 256 -> b1 < 256 ->
  ShiftBits b0 b1 shifts len = (b1 * 256 + b0) / 2 ^ (shifts mod 8) mod 2 ^ bit_len_of len.
Proof.
  intros b0 b1 shifts len H0 H1. unfold ShiftBits. fold (bit_len_of len).
  change 7 with (N.ones 3). rewrite N.land_ones. change (2 ^ 3) with 8.
  pose proof (N.mod_lt shifts 8 ltac:(lia)) as Hs. set (s := shifts mod 8) in *. clearbody s.
  pose proof (bit_len_of_range len) as HL. set (L := bit_len_of len) in *. clearbody L.
  set (r := if s =? 0 then b0 else _).
  assert (forall n, n < L -> N.testbit r n = N.testbit (b1 * 256 + b0) (n + s)) as Hr.
  { intros n Hn. rewrite testbit_snoc by done. unfold r. destruct (N.eqb_spec s 0) as [->|Hs0].
    - rewrite N.add_0_r. destruct (N.ltb_spec n 8); [done|lia].
    - destruct (N.ltb_spec 8 (L + s)) as [Hls|Hls].
      + rewrite N.lor_spec, N.shiftr_spec', shl8_testbit.
        destruct (N.ltb_spec n 8); [|lia]. destruct (N.leb_spec (8 - s) n), (N.ltb_spec (n + s) 8); try lia; cbn [andb].
        * rewrite testbit_small by lia. rewrite orb_false_l. f_equal. lia.
        * by rewrite orb_false_r.
      + rewrite N.shiftr_spec'. destruct (N.ltb_spec (n + s) 8); [done|lia]. }
  apply N.bits_inj. intros n. destruct (N.lt_ge_cases n L) as [Hn|Hn].
  - rewrite N.mod_pow2_bits_low by done. rewrite N.div_pow2_bits, <- Hr by done.
    destruct (N.ltb_spec 0 (8 - L)) as [Ho|Ho]; [|done].
    rewrite N.shiftr_spec', shl8_testbit. destruct (N.ltb_spec (n + (8 - L)) 8), (N.leb_spec (8 - L) (n + (8 - L))); try lia.
    cbn [andb]. f_equal. lia.
  - rewrite N.mod_pow2_bits_high by done. destruct (N.ltb_spec 0 (8 - L)) as [Ho|Ho].
    + rewrite N.shiftr_spec', shl8_testbit. destruct (N.ltb_spec (n + (8 - L)) 8); [lia|done].
    + assert (L = 8) as -> by lia. unfold r. destruct (s =? 0); [by apply testbit_small|].
      assert (forall k, N.testbit (N.shiftr b0 s) n = false) as Hf by (intros; rewrite N.shiftr_spec'; apply testbit_small; [done|lia]).
      destruct (8 <? 8 + s); [|by apply Hf]. rewrite N.lor_spec, Hf by done. rewrite shl8_testbit.
      destruct (N.ltb_spec n 8); [lia|done].
Qed.
Print Assumptions C56_ShiftBits.

(** Bit n of a byte string read as a number. *)
Lemma be_num_testbit bs : is_bytes bs -> forall n : nat,
  N.testbit (be_num bs) (N.of_nat n) =
    if (n / 8 <? length bs)%nat then N.testbit (nth (length bs - 1 - n / 8) bs 0) (N.of_nat (n mod 8)) else false.
Proof.
  induction bs as [|b bs IH] using rev_ind; intros Hb n; [by rewrite N.bits_0|].
  apply is_bytes_app in Hb as [Hbs Hb]. apply is_bytes_cons in Hb as [Hb _].
  rewrite be_num_snoc, testbit_snoc by done. rewrite app_length. cbn [length].
  destruct (N.ltb_spec (N.of_nat n) 8) as [Hn|Hn].
  - rewrite (Nat.div_small n 8), (Nat.mod_small n 8) by lia. destruct (Nat.ltb_spec 0 (length bs + 1)); [|lia].
    replace (length bs + 1 - 1 - 0)%nat with (length bs) by lia. by rewrite nth_middle.
  - replace (N.of_nat n - 8) with (N.of_nat (n - 8)) by lia. rewrite IH by done.
    assert ((n / 8 = S ((n - 8) / 8))%nat /\ (n mod 8 = (n - 8) mod 8)%nat) as [E1 E2] by (clear -Hn; lia).
    rewrite E1, E2. set (q := ((n - 8) / 8)%nat). 
    destruct (Nat.ltb_spec q (length bs)) as [Hq|Hq], (Nat.ltb_spec (S q) (length bs + 1)); try lia.
    replace (length bs + 1 - 1 - S q)%nat with (length bs - 1 - q)%nat by lia. rewrite app_nth1 by lia. done.
Qed.

(** the byte that SubBytes computes for position i *)
Definition sub_val (i size from : nat) (bs : list N) : N :=
  let p := (length bs - 1 - (i + from) / 8)%nat in
  let b1 := if (0 <? p)%nat then nth (p - 1) bs 0 else 0 in
  if (8 <=? size - i)%nat then ShiftBits (nth p bs 0) b1 (N.of_nat (from mod 8)) None
  else ShiftBits (nth p bs 0) b1 (N.of_nat (from mod 8)) (Some (N.of_nat (size - i))).

Lemma sub_loop_spec size from bs : forall fuel k rs, length rs = ((size + 7) / 8)%nat -> (size <= 8 * k + fuel)%nat ->
  length (sub_loop fuel (8 * k) size from bs rs) = length rs /\
  forall j, (j < length rs)%nat ->
    nth (length rs - 1 - j) (sub_loop fuel (8 * k) size from bs rs) 0 =
      if (k <=? j)%nat then sub_val (8 * j) size from bs else nth (length rs - 1 - j) rs 0.
Proof.
  induction fuel as [|f IH]; intros k rs Hl Hf; cbn [sub_loop].
  { split; [done|]. intros j Hj. destruct (Nat.leb_spec k j); [lia|done]. }
  destruct (Nat.ltb_spec (8 * k) size) as [Hk|Hk].
  2:{ split; [done|]. intros j Hj. destruct (Nat.leb_spec k j); [lia|done]. }
  replace (8 * k + 8)%nat with (8 * S k)%nat by lia.
  replace (8 * k / 8)%nat with k by (clear; lia).
  assert ((k < length rs)%nat) as Hkl by (rewrite Hl; clear -Hk; lia).
  match goal with |- context [<[_ := ?v]> rs] => change v with (sub_val (8 * k) size from bs) end.
  set (rs' := <[(length rs - 1 - k)%nat := sub_val (8 * k) size from bs]> rs).
  assert (length rs' = length rs) as Hl' by apply insert_length.
  destruct (IH (S k) rs') as [A B]; [by rewrite Hl'|lia|]. rewrite Hl' in *. split; [done|].
  intros j Hj. rewrite B by done. destruct (Nat.leb_spec (S k) j) as [H1|H1], (Nat.leb_spec k j) as [H2|H2]; try done; try lia.
  - assert (j = k) as -> by lia. apply nth_lookup_Some. apply list_lookup_insert. lia.
  - rewrite !nth_lookup. unfold rs'. rewrite list_lookup_insert_ne by lia. done.
Qed.

Lemma sub_val_testbit bs size from i j : is_bytes bs -> (size + from <= length bs * 8)%nat ->
  (8 * i < size)%nat -> (j < 8)%nat ->
  N.testbit (sub_val (8 * i) size from bs) (N.of_nat j) =
    (8 * i + j <? size)%nat && N.testbit (be_num bs) (N.of_nat (8 * i + j + from)).
Proof.
  intros Hb Hsz Hi Hj. unfold sub_val.
  set (q := ((8 * i + from) / 8)%nat). set (m := (from mod 8)%nat).
  assert ((8 * i + from = 8 * q + m)%nat /\ (m < 8)%nat) as [Eq Hm] by (clear; subst q m; lia).
  assert ((q < length bs)%nat) as Hq by lia.
  clearbody q m.
  set (p := (length bs - 1 - q)%nat) in *.
  set (b1 := if (0 <? p)%nat then nth (p - 1) bs 0 else 0) in *.
  assert (forall k, nth k bs 0 < 256) as Hnth.
  { intros k. destruct (nth_lookup_or_length bs k 0) as [H|H]; [|rewrite nth_overflow by done; lia].
    unfold is_bytes in Hb. rewrite Forall_forall in Hb. apply Hb. by eapply elem_of_list_lookup_2. }
  assert (b1 < 256) as Hb1 by (unfold b1; destruct (0 <? p)%nat; [apply Hnth|lia]).
  assert (forall L, 1 <= L <= 8 -> N.testbit ((b1 * 256 + nth p bs 0) / 2 ^ N.of_nat m mod 2 ^ L) (N.of_nat j) =
     (N.of_nat j <? L) && N.testbit (be_num bs) (N.of_nat (8 * i + j + from))) as HB.
  { intros L HL. destruct (N.ltb_spec (N.of_nat j) L) as [Hjl|Hjl]; cbn [andb]; [|by apply N.mod_pow2_bits_high].
    rewrite N.mod_pow2_bits_low by done. rewrite N.div_pow2_bits, testbit_snoc by done.
    rewrite be_num_testbit by done.
    destruct (N.ltb_spec (N.of_nat j + N.of_nat m) 8) as [H8|H8].
    - assert (((8 * i + j + from) / 8 = q)%nat /\ ((8 * i + j + from) mod 8 = j + m)%nat) as [-> ->] by (clear -Eq Hm H8; lia).
      destruct (Nat.ltb_spec q (length bs)); [|lia]. rewrite Nat2N.inj_add. done.
    - assert (((8 * i + j + from) / 8 = S q)%nat /\ ((8 * i + j + from) mod 8 = j + m - 8)%nat) as [-> ->] by (clear -Eq Hm Hj H8; lia).
      unfold b1. destruct (Nat.ltb_spec (S q) (length bs)), (Nat.ltb_spec 0 p); try lia.
      + replace (p - 1)%nat with (length bs - 1 - S q)%nat by lia. f_equal. lia.
      + apply N.bits_0. }
  destruct (Nat.leb_spec 8 (size - 8 * i)) as [H8|H8].
  - rewrite C56_ShiftBits by done. rewrite (N.mod_small (N.of_nat m)) by lia. cbn [bit_len_of]. rewrite HB by lia.
    destruct (N.ltb_spec (N.of_nat j) 8), (Nat.ltb_spec (8 * i + j) size); try lia; done.
  - rewrite C56_ShiftBits by done. rewrite (N.mod_small (N.of_nat m)) by lia. cbn [bit_len_of].
    destruct (N.ltb_spec 0 (N.of_nat (size - 8 * i))), (N.ltb_spec (N.of_nat (size - 8 * i)) 8); try lia. cbn [andb].
    rewrite HB by lia.
    destruct (N.ltb_spec (N.of_nat j) (N.of_nat (size - 8 * i))), (Nat.ltb_spec (8 * i + j) size); try lia; done.
Qed.

(** SubBytes(bs, from, size): an error for a negative offset or a size below 1, nothing
    when the offset is beyond the string, and otherwise the [size] bits from bit
    [from] (bit 0 being the least significant bit of the last byte), clipped to the
    string, in the fewest bytes. *)
Theorem C56_SubBytes : forall bs from size, is_bytes bs ->
  if ((from <? 0) || (size <=? 0))%Z then SubBytes bs from size = BErr
  else if (Z.of_nat (length bs) * 8 <=? from)%Z then SubBytes bs from size = BOk None
  else exists r, SubBytes bs from size = BOk (Some r) /\ is_bytes r /\
    let n := Z.min size (Z.of_nat (length bs) * 8 - from) in
    Z.of_nat (length r) = ((n + 7) / 8)%Z /\
    be_num r = be_num bs / 2 ^ Z.to_N from mod 2 ^ Z.to_N n.
Proof.
  intros bs from size Hb. unfold SubBytes. destruct ((from <? 0) || (size <=? 0))%Z eqn:E; [done|].
  apply orb_false_iff in E as [E1 E2]. apply Z.ltb_ge in E1. apply Z.leb_gt in E2.
  destruct (Z.leb_spec (Z.of_nat (length bs) * 8) from) as [Hf|Hf], (Nat.leb_spec (length bs * 8) (Z.to_nat from)); try lia; [done|].
  set (f := Z.to_nat from) in *.
  set (n := if (length bs * 8 <? Z.to_nat size + f)%nat then (length bs * 8 - f)%nat else Z.to_nat size).
  assert (Z.of_nat n = Z.min size (Z.of_nat (length bs) * 8 - from) /\ (0 < n)%nat /\ (n + f <= length bs * 8)%nat) as (En & Hn0 & Hnf).
  { unfold n. destruct (Nat.ltb_spec (length bs * 8) (Z.to_nat size + f)); lia. }
  assert (N.of_nat f = Z.to_N from) as Ef by lia.
  clearbody n. clear E1 E2 Hf H.
  set (rs0 := replicate ((n + 7) / 8) 0). assert (length rs0 = ((n + 7) / 8)%nat) as Hl0 by apply replicate_length.
  destruct (sub_loop_spec n f bs n 0 rs0 Hl0 ltac:(lia)) as [HL HV].
  change (8 * 0)%nat with 0%nat in *. set (r := sub_loop n 0 n f bs rs0) in *.
  exists r. split; [done|].
  assert (is_bytes r) as Hr.
  { apply Forall_forall. intros x Hx. apply elem_of_list_lookup in Hx as [k Hk].
    pose proof (lookup_lt_Some _ _ _ Hk) as Hkl. rewrite HL in Hkl.
    specialize (HV (length rs0 - 1 - k)%nat ltac:(lia)). replace (length rs0 - 1 - (length rs0 - 1 - k))%nat with k in HV by lia.
    rewrite (nth_lookup_Some _ _ _ _ Hk) in HV. destruct (Nat.leb_spec 0 (length rs0 - 1 - k)); [|lia].
    rewrite HV. unfold sub_val.
    assert (forall b0 b1 s l, b0 < 256 -> b1 < 256 -> ShiftBits b0 b1 s l < 256) as HS.
    { intros b0 b1 s l Ha Hc. rewrite C56_ShiftBits by done. pose proof (bit_len_of_range l).
      eapply N.lt_le_trans; [apply N.mod_lt, N.pow_nonzero; lia|]. change 256 with (2 ^ 8). apply N.pow_le_mono_r; lia. }
    assert (forall j, nth j bs 0 < 256) as Hnth.
    { intros j. destruct (nth_lookup_or_length bs j 0) as [H9|H9]; [|rewrite nth_overflow by done; lia].
      unfold is_bytes in Hb. rewrite Forall_forall in Hb. apply Hb. by eapply elem_of_list_lookup_2. }
    destruct (8 <=? _)%nat; apply HS; try apply Hnth; destruct (0 <? _)%nat; try apply Hnth; lia. }
  split; [done|]. cbn zeta. rewrite <- En. split.
  - rewrite HL, Hl0. clear. rewrite Nat2Z.inj_div, Nat2Z.inj_add. done.
  - replace (Z.to_N (Z.of_nat n)) with (N.of_nat n) by lia. rewrite <- Ef.
    apply N.bits_inj. intros t. rewrite <- (N2Nat.id t). set (u := N.to_nat t).
    rewrite be_num_testbit by done. rewrite HL.
    destruct (Nat.ltb_spec (u / 8) (length rs0)) as [Hu|Hu].
    + rewrite HV by done. cbn [Nat.leb].
      assert ((8 * (u / 8) < n)%nat) as Hlt by (rewrite Hl0 in Hu; clear -Hu; lia).
      rewrite sub_val_testbit by (done || (clear; lia)).
      replace (8 * (u / 8) + u mod 8)%nat with u by (clear; lia).
      destruct (Nat.ltb_spec u n) as [Hun|Hun]; cbn [andb].
      * rewrite N.mod_pow2_bits_low by lia. rewrite N.div_pow2_bits. f_equal. lia.
      * by rewrite N.mod_pow2_bits_high by lia.
    + rewrite N.mod_pow2_bits_high; [done|]. rewrite Hl0 in Hu. clear -Hu. lia.
Qed.
Print Assumptions C56_SubBytes.

Example C56_example :
  SubBytes [240; 15; 170] 4 12 = BOk (Some [0; 250]) /\ SubBytes [240; 15; 170] 20 9 = BOk (Some [15]) /\
  SubBytes [1] 8 1 = BOk None /\ SubBytes [1] (-1) 1 = BErr.
Proof. repeat split; vm_compute; reflexivity. Qed.
