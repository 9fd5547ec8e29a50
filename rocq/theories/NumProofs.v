(** Lemmas about the models of NumModel.v. *)
From Verif Require Export NumModel.

Ltac u64 := unfold u64_add, u64_sub, u64_mul, MaxUint64, two64 in *.

Lemma u64_mul_small x y : x * y < two64 -> u64_mul x y = x * y.
Proof. intros. apply N.mod_small; done. Qed.
Lemma u64_add_small x y : x + y < two64 -> u64_add x y = x + y.
Proof. intros. apply N.mod_small; done. Qed.
Lemma u64_sub_small x y : y <= x -> x < two64 -> u64_sub x y = x - y.
Proof. intros. u64. lia. Qed.

Lemma SafeMul_spec x y : x < two64 -> y < two64 ->
  SafeMul x y = ((x * y) mod two64, two64 <=? x * y).
Proof.
  intros Hx Hy. unfold SafeMul.
  destruct (N.eqb_spec x 0) as [->|H1]; cbn [orb]; [reflexivity|].
  destruct (N.eqb_spec y 0) as [->|H2]; cbn [orb]; [by rewrite N.mul_0_r|].
  f_equal.
  destruct (N.ltb_spec (MaxUint64 / x) y) as [H|H], (N.leb_spec two64 (x*y)) as [H'|H'];
    try done; exfalso.
  - assert (x * y <= MaxUint64) as Hle by (u64; lia).
    apply N.div_le_lower_bound in Hle; lia.
  - assert (x * y <= MaxUint64); [|u64; lia].
    etransitivity; [apply N.mul_le_mono_l, H|]. apply N.mul_div_le; lia.
Qed.

Lemma SafeAdd_spec x y : x < two64 -> y < two64 ->
  SafeAdd x y = ((x + y) mod two64, two64 <=? x + y).
Proof.
  intros Hx Hy. unfold SafeAdd. f_equal. u64.
  destruct (N.ltb_spec ((18446744073709551615 + (18446744073709551616 - x mod 18446744073709551616)) mod 18446744073709551616) y);
  destruct (N.leb_spec 18446744073709551616 (x+y)); try done; lia.
Qed.

(* ------------------------------------------------------------- be_fixed *)
Lemma pow256_split a b : 256 ^ N.of_nat (a + b) = 256 ^ N.of_nat a * 256 ^ N.of_nat b.
Proof. rewrite Nat2N.inj_add, N.pow_add_r. done. Qed.

Lemma be_fixed_app a b n :
  be_fixed (a + b) n = be_fixed a (n / 256 ^ N.of_nat b) ++ be_fixed b n.
Proof.
  revert n; induction b as [|b IH]; intros n.
  - rewrite Nat.add_0_r, app_nil_r. change (256 ^ N.of_nat 0) with 1. by rewrite N.div_1_r.
  - rewrite Nat.add_succ_r. cbn [be_fixed]. rewrite IH, <- app_assoc. f_equal. f_equal.
    rewrite N.div_div by (pose proof (pow256_pos (N.of_nat b)); lia). f_equal.
    replace (N.of_nat (S b)) with (1 + N.of_nat b) by lia. rewrite N.pow_add_r. done.
Qed.

Lemma be_fixed_mod k m n : (k <= m)%nat -> be_fixed k (n mod 256 ^ N.of_nat m) = be_fixed k n.
Proof.
  intros Hk. apply be_num_inj_len; try apply be_fixed_bytes; rewrite ?be_fixed_length; try done.
  rewrite !be_num_fixed. replace m with (k + (m - k))%nat by lia. rewrite pow256_split.
  pose proof (pow256_pos (N.of_nat k)). pose proof (pow256_pos (N.of_nat (m-k))).
  rewrite N.mod_mul_r by lia.
  rewrite (N.mul_comm (256 ^ N.of_nat k)), N.mod_add by lia. rewrite N.mod_mod by lia. done.
Qed.

Lemma be_fixed_small k n : n = 0 -> be_fixed k n = replicate k 0.
Proof. intros ->. apply be_fixed_zero. Qed.

Lemma be_fixed_S_last k n : be_fixed (S k) n = be_fixed k (n / 256) ++ [n mod 256].
Proof. done. Qed.

Lemma shiftr8 d : N.shiftr d 8 = d / 256.
Proof. rewrite N.shiftr_div_pow2. done. Qed.

Lemma read_word_spec j d i acc :
  read_word j d i acc = ((i - Nat.min i j)%nat, be_fixed (Nat.min i j) d ++ acc).
Proof.
  revert d i acc; induction j as [|j IH]; intros d i acc.
  - cbn [read_word]. rewrite Nat.min_0_r, Nat.sub_0_r. done.
  - destruct i as [|i]; [done|]. cbn [read_word]. rewrite IH.
    cbn [Nat.min]. rewrite shiftr8. f_equal. cbn [be_fixed]. by rewrite <- app_assoc.
Qed.

Lemma read_words_spec wb f n i acc :
  read_words wb (words_f f wb n) i acc =
    ((i - Nat.min i (wb * length (words_f f wb n)))%nat,
     be_fixed (Nat.min i (wb * length (words_f f wb n))) n ++ acc).
Proof.
  revert n i acc; induction f as [|f IH]; intros n i acc; cbn [words_f].
  { cbn [read_words length]. rewrite Nat.mul_0_r, Nat.min_0_r, Nat.sub_0_r. done. }
  destruct (N.eqb_spec n 0) as [Hn|Hn].
  { cbn [read_words length]. rewrite Nat.mul_0_r, Nat.min_0_r, Nat.sub_0_r. done. }
  cbn [read_words length]. rewrite read_word_spec, IH.
  set (L := length _). rewrite app_assoc. f_equal; [lia|]. f_equal.
  rewrite be_fixed_mod by lia.
  destruct (Nat.le_gt_cases i wb) as [Hi|Hi].
  - rewrite (Nat.min_l i wb) by done. rewrite Nat.sub_diag. cbn [Nat.min be_fixed app].
    rewrite Nat.min_l by lia. done.
  - rewrite (Nat.min_r i wb) by lia.
    replace (Nat.min i (wb * S L)) with (Nat.min (i - wb) (wb * L) + wb)%nat by lia.
    rewrite be_fixed_app. done.
Qed.

Lemma pow256_wb wb : (0 < wb)%nat -> 256 <= 256 ^ N.of_nat wb.
Proof.
  intros. replace (N.of_nat wb) with (1 + N.of_nat (wb - 1)) by lia. rewrite N.pow_add_r.
  pose proof (pow256_pos (N.of_nat (wb - 1))). change (256 ^ 1) with 256. lia.
Qed.

Lemma words_f_bound wb f n : (0 < wb)%nat -> n < 2 ^ N.of_nat f ->
  n < 256 ^ N.of_nat (wb * length (words_f f wb n)).
Proof.
  intros Hwb. revert n; induction f as [|f IH]; intros n Hn; cbn [words_f].
  { change (2 ^ N.of_nat 0) with 1 in Hn. cbn [length]. rewrite Nat.mul_0_r. done. }
  destruct (N.eqb_spec n 0) as [->|Hn0].
  { pose proof (pow256_pos (N.of_nat (wb * length (@nil N)))). lia. }
  cbn [length]. pose proof (pow256_wb wb Hwb).
  assert (n / 256 ^ N.of_nat wb < 2 ^ N.of_nat f) as Hlt.
  { replace (N.of_nat (S f)) with (1 + N.of_nat f) in Hn by lia. rewrite N.pow_add_r in Hn.
    change (2 ^ 1) with 2 in Hn. apply N.div_lt_upper_bound; [lia|]. nia. }
  specialize (IH _ Hlt).
  rewrite Nat.mul_succ_r, Nat.add_comm, pow256_split.
  set (L := 256 ^ N.of_nat (wb * _)) in *. set (W := 256 ^ N.of_nat wb) in *.
  rewrite (N.div_mod n W) by lia. pose proof (N.mod_lt n W ltac:(lia)). nia.
Qed.

Lemma words_bound wb z : (0 < wb)%nat -> Z.abs_N z < 256 ^ N.of_nat (wb * length (words wb z)).
Proof.
  intros. unfold words. apply words_f_bound; [done|]. rewrite N2Nat.id. apply N.size_gt.
Qed.

Lemma ReadBits_spec wb z k : (0 < wb)%nat ->
  ReadBits wb z (replicate k 0) = be_fixed k (Z.abs_N z).
Proof.
  intros Hwb. unfold ReadBits. pose proof (words_bound wb z Hwb) as Hb. unfold words in *.
  rewrite read_words_spec, app_nil_r, replicate_length.
  set (L := (wb * _)%nat) in *. rewrite take_replicate.
  rewrite Nat.min_l by lia.
  destruct (Nat.le_gt_cases k L) as [Hk|Hk].
  - rewrite Nat.min_l by done. rewrite Nat.sub_diag. done.
  - rewrite Nat.min_r by lia. replace k with ((k - L) + L)%nat at 2 by lia.
    rewrite be_fixed_app. f_equal. symmetry. apply be_fixed_small. by apply N.div_small.
Qed.

(* ------------------------------------------------------- word decomposition *)
Lemma words_f_nth wb f n i w : (0 < wb)%nat ->
  words_f f wb n !! i = Some w ->
  w = (n / 256 ^ N.of_nat (wb * i)) mod 256 ^ N.of_nat wb.
Proof.
  intros Hwb. revert n i; induction f as [|f IH]; intros n i; cbn [words_f]; [done|].
  destruct (n =? 0); [done|]. destruct i as [|i]; cbn [lookup list_lookup].
  - intros [= <-]. rewrite Nat.mul_0_r. change (256 ^ N.of_nat 0) with 1. by rewrite N.div_1_r.
  - intros Hi. apply IH in Hi. rewrite Hi. rewrite N.div_div.
    2,3: pose proof (pow256_pos (N.of_nat wb)); pose proof (pow256_pos (N.of_nat (wb*i))); lia.
    rewrite <- pow256_split. do 4 f_equal. lia.
Qed.

Lemma bigEndianByteAt_spec wb z n : (0 < wb)%nat ->
  bigEndianByteAt wb z n = (Z.abs_N z / 256 ^ N.of_nat n) mod 256.
Proof.
  intros Hwb. unfold bigEndianByteAt.
  pose proof (Nat.div_mod n wb ltac:(lia)) as Hdm.
  pose proof (Nat.mod_upper_bound n wb ltac:(lia)) as Hlt.
  set (q := (n / wb)%nat) in *. set (r := (n mod wb)%nat) in *.
  destruct (words wb z !! q) as [w|] eqn:Hw.
  - unfold words in Hw. apply words_f_nth in Hw; [|done]. rewrite Hw.
    rewrite N.shiftr_div_pow2, N.pow_mul_r. change (2 ^ 8) with 256.
    set (x := Z.abs_N z / 256 ^ N.of_nat (wb * q)).
    replace wb with (r + (1 + (wb - r - 1)))%nat by lia.
    rewrite !pow256_split. change (256 ^ N.of_nat 1) with 256.
    pose proof (pow256_pos (N.of_nat r)) as P1. pose proof (pow256_pos (N.of_nat (wb-r-1))) as P2.
    set (R := 256 ^ N.of_nat r) in *. set (T := 256 ^ N.of_nat (wb-r-1)) in *.
    rewrite N.mod_mul_r by lia.
    rewrite (N.mul_comm R), N.div_add by lia.
    rewrite (N.div_small (x mod R)) by (apply N.mod_lt; lia). rewrite N.add_0_l.
    rewrite N.mod_mul_r by lia. rewrite (N.mul_comm 256), N.mod_add, N.mod_mod by lia.
    unfold x. rewrite N.div_div by (pose proof (pow256_pos (N.of_nat (wb*q))); lia).
    unfold R. rewrite <- pow256_split. do 4 f_equal. lia.
  - apply lookup_ge_None in Hw. pose proof (words_bound wb z Hwb) as Hb.
    rewrite N.div_small; [done|]. eapply N.lt_le_trans; [exact Hb|].
    apply N.pow_le_mono_r; [lia|]. nia.
Qed.

Lemma be_fixed_nth k n i : (i < k)%nat ->
  be_fixed k n !! i = Some ((n / 256 ^ N.of_nat (k - 1 - i)) mod 256).
Proof.
  intros Hi. replace k with (i + (1 + (k - 1 - i)))%nat at 1 by lia.
  rewrite be_fixed_app. rewrite lookup_app_r; rewrite be_fixed_length; [|lia].
  rewrite Nat.sub_diag. rewrite be_fixed_app. cbn [be_fixed app lookup list_lookup]. done.
Qed.

(* -------------------------------------------------------------------- Exp *)
Local Open Scope Z_scope.
Lemma U256_mod x : U256 x = x mod tt256.
Proof.
  unfold U256, tt256m1, tt256. change (2 ^ 256 - 1) with (Z.ones 256).
  apply Z.land_ones. lia.
Qed.
Lemma tt256_pos : 0 < tt256. Proof. reflexivity. Qed.

Local Opaque tt256.
Lemma land1 w : (N.land w 1 =? 1)%N = (w mod 2 =? 1)%N.
Proof. change 1%N with (N.ones 1) at 1. rewrite N.land_ones. done. Qed.

Lemma mod_pow_l a k M : 0 < M -> (a mod M) ^ k mod M = a ^ k mod M.
Proof.
  intros HM. destruct (Z.le_gt_cases 0 k) as [Hk|Hk].
  - pattern k. apply natlike_ind; [done| |done]. intros x Hx IH.
    rewrite !Z.pow_succ_r by lia. rewrite Z.mul_mod by lia. rewrite IH.
    rewrite Z.mod_mod by lia. rewrite <- Z.mul_mod by lia. done.
  - rewrite !Z.pow_neg_r by lia. done.
Qed.

Lemma exp_word_spec i w r b :
  let p := exp_word i w r b in
  p.1 mod tt256 = (r * b ^ Z.of_N (w mod 2 ^ N.of_nat i)%N) mod tt256 /\
  p.2 mod tt256 = (b ^ (2 ^ Z.of_nat i)) mod tt256 /\
  (0 <= r < tt256 -> 0 <= p.1 < tt256).
Proof.
  pose proof tt256_pos as HM.
  revert w r b; induction i as [|i IH]; intros w r b; cbn [exp_word].
  - change (2 ^ N.of_nat 0)%N with 1%N. rewrite N.mod_1_r. cbn [fst snd]. simpl Z.of_N.
    change (2 ^ Z.of_nat 0) with 1. rewrite Z.pow_0_r, Z.pow_1_r, Z.mul_1_r. done.
  - set (r' := if (N.land w 1 =? 1)%N then U256 (r * b) else r). specialize (IH (N.shiftr w 1) r' (U256 (b * b))).
    cbn zeta in IH. destruct IH as (IH1 & IH2 & IH3).
    assert (0 <= r < tt256 -> 0 <= r' < tt256) as Hr'.
    { unfold r'. destruct (_ =? _)%N; [|done]. rewrite U256_mod. intros _. apply Z.mod_pos_bound, HM. }
    split; [|split].
    + rewrite IH1. rewrite U256_mod.
      rewrite Z.mul_mod, mod_pow_l, <- Z.mul_mod by lia.
      rewrite N.shiftr_div_pow2. change (2 ^ 1)%N with 2%N.
      rewrite <- Z.pow_2_r, <- Z.pow_mul_r by lia.
      replace (N.of_nat (S i)) with (1 + N.of_nat i)%N by lia. rewrite N.pow_add_r.
      change (2 ^ 1)%N with 2%N. rewrite N.mod_mul_r by (pose proof (N.pow_nonzero 2 (N.of_nat i)); lia).
      generalize ((w / 2) mod 2 ^ N.of_nat i)%N. intros k.
      unfold r'. rewrite land1. clear IH1 IH2 IH3 Hr' r'.
      pose proof (N.mod_lt w 2 ltac:(discriminate)) as Hw2. revert Hw2.
      generalize (w mod 2)%N. clear w i. intros w Hw2.
      assert (tt256 <> 0) as HM0 by (intros E; rewrite E in HM; discriminate).
      destruct (N.eqb_spec w 1) as [->|Hw].
      * rewrite U256_mod, Z.mul_mod_idemp_l by done. f_equal.
        replace (Z.of_N (1 + 2 * k)) with (1 + 2 * Z.of_N k) by (clear; lia).
        rewrite Z.pow_add_r, Z.pow_1_r by (clear; lia). by rewrite Z.mul_assoc.
      * replace w with 0%N by (clear -Hw Hw2; lia). do 2 f_equal. f_equal. clear; lia.
    + rewrite IH2, U256_mod, mod_pow_l by done. f_equal.
      replace (Z.of_nat (S i)) with (1 + Z.of_nat i) by lia. rewrite Z.pow_add_r by lia.
      rewrite <- Z.pow_2_r, <- Z.pow_mul_r by (try apply Z.pow_nonneg; lia). done.
    + auto.
Qed.

Lemma exp_words_spec wb f n r b :
  (0 < wb)%nat -> (n < 2 ^ N.of_nat f)%N -> 0 <= r < tt256 ->
  let p := exp_words wb (words_f f wb n) r b in
  p.1 = (r * b ^ Z.of_N n) mod tt256 /\
  (p.2 mod tt256 = b ^ (2 ^ Z.of_nat (8 * wb * length (words_f f wb n))) mod tt256).
Proof.
  pose proof tt256_pos as HM. intros Hwb.
  revert n r b; induction f as [|f IH]; intros n r b Hn Hr; cbn [words_f].
  - change (2 ^ N.of_nat 0)%N with 1%N in Hn. assert (n = 0%N) as -> by lia.
    cbn [exp_words fst snd length]. rewrite Nat.mul_0_r.
    change (2 ^ Z.of_nat 0) with 1. simpl Z.of_N. rewrite Z.pow_0_r, Z.pow_1_r, Z.mul_1_r.
    rewrite Z.mod_small by lia. done.
  - destruct (N.eqb_spec n 0) as [->|Hn0].
    { cbn [exp_words fst snd length]. rewrite Nat.mul_0_r.
      change (2 ^ Z.of_nat 0) with 1. simpl Z.of_N. rewrite Z.pow_0_r, Z.pow_1_r, Z.mul_1_r.
      rewrite Z.mod_small by lia. done. }
    pose proof (pow256_wb wb Hwb) as HW.
    assert (256 ^ N.of_nat wb = 2 ^ N.of_nat (8 * wb))%N as HWeq.
    { rewrite Nat2N.inj_mul, N.pow_mul_r. done. }
    assert (n / 256 ^ N.of_nat wb < 2 ^ N.of_nat f)%N as Hlt.
    { replace (N.of_nat (S f)) with (1 + N.of_nat f)%N in Hn by lia. rewrite N.pow_add_r in Hn.
      change (2 ^ 1)%N with 2%N in Hn. apply N.div_lt_upper_bound; [lia|]. nia. }
    cbn [exp_words length].
    pose proof (exp_word_spec (8 * wb) (n mod 256 ^ N.of_nat wb) r b) as (E1 & E2 & E3).
    destruct (exp_word _ _ r b) as [r' b']. cbn [fst snd] in *.
    specialize (E3 Hr). specialize (IH (n / 256 ^ N.of_nat wb)%N r' b' Hlt E3).
    cbn zeta in IH. destruct IH as [IH1 IH2]. split.
    + rewrite IH1. clear IH1 IH2 E3. revert E1 E2. rewrite <- HWeq.
      set (W := (256 ^ N.of_nat wb)%N) in *.
      assert (2 ^ Z.of_nat (8 * wb) = Z.of_N W) as HWZ.
      { rewrite HWeq, N2Z.inj_pow. rewrite nat_N_Z. done. }
      assert (W <> 0%N) as HW0 by (clear -HW; lia).
      assert (Z.of_N n = Z.of_N (n mod W) + Z.of_N W * Z.of_N (n / W)) as Hdm.
      { rewrite <- N2Z.inj_mul, <- N2Z.inj_add. f_equal. rewrite (N.div_mod n W HW0) at 1.
        apply N.add_comm. }
      rewrite HWZ, N.mod_mod by done. rewrite Hdm.
      pose proof (N2Z.is_nonneg (n mod W)) as P1. pose proof (N2Z.is_nonneg (n / W)) as P2.
      pose proof (N2Z.is_nonneg W) as P3. revert P1 P2 P3.
      generalize (Z.of_N (n mod W)) (Z.of_N (n / W)) (Z.of_N W). clear - HM. intros x y w P1 P2 P3 E1 E2.
      assert (tt256 <> 0) as HM0 by (intros E; rewrite E in HM; discriminate).
      rewrite Z.mul_mod, <- (mod_pow_l b'), E2, E1, mod_pow_l, <- Z.mul_mod by done.
      rewrite <- Z.pow_mul_r by done. rewrite <- Z.mul_assoc.
      rewrite <- Z.pow_add_r by (try apply Z.mul_nonneg_nonneg; done). done.
    + rewrite IH2. rewrite <- (mod_pow_l b'), E2, mod_pow_l by done.
      clear. set (L := length _). clearbody L.
      rewrite <- Z.pow_mul_r by (apply Z.pow_nonneg; done).
      rewrite <- Z.pow_add_r by (apply Nat2Z.is_nonneg). f_equal. f_equal. f_equal.
      rewrite <- Nat2Z.inj_add. f_equal. lia.
Qed.

Lemma Exp_spec wb b e : (0 < wb)%nat ->
  (Exp wb b e).1 = (b ^ Z.abs e) mod tt256 /\
  (Exp wb b e).2 mod tt256 = b ^ (2 ^ Z.of_nat (8 * wb * length (words wb e))) mod tt256.
Proof.
  intros Hwb. unfold Exp, words.
  destruct (exp_words_spec wb (N.to_nat (bit_len e)) (Z.abs_N e) 1 b Hwb) as [H1 H2].
  - rewrite N2Nat.id. apply N.size_gt.
  - done.
  - split; [|exact H2]. rewrite H1. rewrite Z.mul_1_l. do 2 f_equal. lia.
Qed.
