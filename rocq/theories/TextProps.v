(** The text forms of numbers in package math. *)
From Coq Require Import NArith ZArith Lia Zify.
From Verif Require Import Base TextSpec TextModel.
From stdpp Require Import list.
Open Scope N_scope.

Lemma digit_of_eq base c : base <= 255 -> digit_of base c = if char_val c <? base then Some (char_val c) else None.
Proof.
  intros Hb. unfold digit_of, char_val. destruct ((48 <=? c) && (c <=? 57)); [done|].
  destruct ((97 <=? c) && (c <=? 122)) eqn:H1.
  { apply andb_true_iff in H1 as [H1 H2]. apply N.leb_le in H1, H2. by replace (c - 97 + 10) with (c - 87) by lia. }
  destruct ((65 <=? c) && (c <=? 90)) eqn:H3.
  { apply andb_true_iff in H3 as [H3 H4]. apply N.leb_le in H3, H4. by replace (c - 65 + 10) with (c - 55) by lia. }
  destruct (N.ltb_spec 255 base); [lia|done].
Qed.
Lemma lenN_cons (c : N) s : lenN (c :: s) = lenN s + 1.
Proof. unfold lenN. cbn [length]. lia. Qed.
Lemma lenN_app (a b : list N) : lenN (a ++ b) = lenN a + lenN b.
Proof. unfold lenN. rewrite app_length. lia. Qed.
Lemma places_app base a b : places base (a ++ b) =
  match places base a, places base b with Some x, Some y => Some (x * base ^ lenN b + y) | _, _ => None end.
Proof.
  induction a as [|c a IH]; cbn [app places].
  - destruct (places base b); done.
  - rewrite IH. destruct (digit_of base c) as [d|]; [|done]. destruct (places base a) as [x|]; [|done]. destruct (places base b) as [y|]; [|done].
    f_equal. rewrite lenN_app, N.pow_add_r. lia.
Qed.
Lemma places_digits base s v : places base s = Some v -> Forall (fun c => is_Some (digit_of base c)) s.
Proof.
  revert v. induction s as [|c s IH]; intros v; cbn [places]; [constructor|]. destruct (digit_of base c) as [d|] eqn:Hd; [|done].
  destruct (places base s) as [x|]; [|done]. intros _. constructor; [rewrite Hd; eauto|by eapply IH].
Qed.
Lemma dec_digit c : is_Some (digit_of 10 c) -> 48 <= c <= 57.
Proof.
  intros [d Hd]. rewrite digit_of_eq in Hd by done. destruct (N.ltb_spec (char_val c) 10) as [Hl|]; [|done]. clear Hd. revert Hl. unfold char_val.
  destruct (N.leb_spec 48 c), (N.leb_spec c 57), (N.leb_spec 97 c), (N.leb_spec c 122), (N.leb_spec 65 c), (N.leb_spec c 90); cbn [andb]; lia.
Qed.
Lemma places_bound base s v : 0 < base -> places base s = Some v -> v < base ^ lenN s.
Proof.
  intros Hb. revert v. induction s as [|c s IH]; intros v; cbn [places]; [intros [= <-]; done|].
  destruct (digit_of base c) as [d|] eqn:Hd; [|done]. destruct (places base s) as [x|]; [|done]. intros [= <-]. specialize (IH x eq_refl).
  assert (d < base).
  { unfold digit_of in Hd. repeat case_match; try done; injection Hd as <-; by apply N.ltb_lt. }
  rewrite lenN_cons, N.add_1_r, N.pow_succ_r'. nia.
Qed.

Lemma uint_loop_ok base s : 2 <= base <= 36 -> forall n, n < two64 ->
  uint_loop base n s = match places base s with
                       | Some v => if n * base ^ lenN s + v <? two64 then Some (n * base ^ lenN s + v) else None
                       | None => None end.
Proof.
  intros Hb. induction s as [|c s IH]; intros n Hn; cbn [uint_loop places].
  - change (lenN []) with 0. rewrite N.pow_0_r. replace (n * 1 + 0) with n by lia. by rewrite (proj2 (N.ltb_lt _ _) Hn).
  - rewrite digit_of_eq by lia. destruct (N.leb_spec base (char_val c)) as [Hc|Hc].
    { by rewrite (proj2 (N.ltb_ge _ _) Hc). }
    rewrite (proj2 (N.ltb_lt _ _) Hc). set (d := char_val c) in *. clearbody d.
    assert (0 < base ^ lenN s) as Hp by (apply N.neq_0_lt_0, N.pow_nonzero; lia).
    rewrite lenN_cons, N.add_1_r, N.pow_succ_r'.
    assert (cutoff base <= n <-> two64 <= n * base) as Hcut.
    { unfold cutoff. pose proof (N.div_mod (two64 - 1) base ltac:(lia)) as Hdm. pose proof (N.mod_lt (two64 - 1) base ltac:(lia)) as Hml.
      set (q := (two64 - 1) / base) in *. assert (0 < two64) by done. split; intros ?; nia. }
    destruct (N.leb_spec (cutoff base) n) as [Hk|Hk].
    { apply Hcut in Hk. destruct (places base s) as [v|]; [|done].
      rewrite (proj2 (N.ltb_ge _ _)); [done|]. nia. }
    assert (n * base < two64) as Hk' by (destruct (N.lt_ge_cases (n * base) two64) as [?|Hg]; [done|]; apply Hcut in Hg; lia).
    destruct (N.lt_ge_cases (n * base + d) two64) as [Ho|Ho].
    + rewrite N.mod_small by done. destruct (N.ltb_spec (n * base + d) (n * base)) as [?|_]; [lia|]. rewrite IH by done.
      destruct (places base s) as [v|]; [|done].
      replace (n * (base * base ^ lenN s) + (d * base ^ lenN s + v)) with ((n * base + d) * base ^ lenN s + v) by lia. done.
    + assert (d < two64) by (assert (36 < two64) by done; lia).
      assert ((n * base + d) mod two64 = n * base + d - two64) as ->.
      { symmetry. apply N.mod_unique with 1; lia. }
      destruct (N.ltb_spec (n * base + d - two64) (n * base)) as [_|?]; [|lia].
      destruct (places base s) as [v|]; [|done]. rewrite (proj2 (N.ltb_ge _ _)); [done|]. nia.
Qed.
Lemma ParseUint_ok base s : 2 <= base <= 36 ->
  ParseUint s base = match numeral base s with Some n => if n <? two64 then Some n else None | None => None end.
Proof.
  intros Hb. destruct s as [|c s]; [done|]. unfold ParseUint, numeral. by rewrite uint_loop_ok.
Qed.
Lemma prefix0x_spec {A} (zero : A) num s : s <> [] -> hex_or_dec zero num s = if prefix0x s then num 16 (drop 2 s) else num 10 s.
Proof.
  destruct s as [|a s]; [done|]. intros _. destruct s as [|b s].
  { cbn [prefix0x]. cbn [hex_or_dec]. by repeat case_match. }
  cbn [prefix0x drop]. destruct (N.eqb_spec a 48) as [->|Ha].
  - cbn [andb]. destruct (N.eqb_spec b 120) as [->|Hb]; [done|]. destruct (N.eqb_spec b 88) as [->|Hb']; [done|]. cbn [orb].
    cbn [hex_or_dec]. repeat case_match; try done; subst; done.
  - cbn [andb]. cbn [hex_or_dec]. repeat case_match; try done; subst; done.
Qed.
(** ParseUint64 gives the number that the text denotes if it has at most 64 bits, and refuses
    all other text. *)
Theorem C85_uint64 : forall s, ParseUint64 s = match hex_or_dec 0 numeral s with
  | Some n => if n <? 2 ^ 64 then Some n else None
  | None => None end.
Proof.
  intros s. destruct (decide (s = [])) as [->|Hs]; [done|]. rewrite prefix0x_spec by done. change (2 ^ 64) with two64.
  unfold ParseUint64. destruct s as [|c s]; [done|]. destruct (prefix0x (c :: s)); by apply ParseUint_ok.
Qed.
Print Assumptions C85_uint64.

Lemma scan_ok base s : base <= 255 -> forall acc k, exists m,
  scan_digits base acc k s = match places base s with
                             | Some v => (acc * base ^ lenN s + v, (k + length s)%nat, [])
                             | None => m end /\ (places base s = None -> m.2 <> []).
Proof.
  intros Hb. induction s as [|c s IH]; intros acc k; cbn [scan_digits places].
  - exists (0, 0%nat, [0]). split; [|done]. change (lenN []) with 0. rewrite N.pow_0_r. cbn [length]. repeat f_equal; lia.
  - rewrite digit_of_eq by done. destruct (N.leb_spec base (char_val c)) as [Hc|Hc].
    + rewrite (proj2 (N.ltb_ge _ _) Hc). eexists. split; [reflexivity|]. done.
    + rewrite (proj2 (N.ltb_lt _ _) Hc). destruct (IH (acc * base + char_val c) (S k)) as (m & Hm & Hn). exists m. rewrite Hm.
      destruct (places base s) as [v|]; [|done]. split; [|done]. rewrite lenN_cons, N.add_1_r, N.pow_succ_r'. cbn [length].
      apply pair_equal_spec. split; [|done]. apply pair_equal_spec. split; lia.
Qed.
Lemma SetString_ok base s : base <= 255 -> SetString s base = signed base s.
Proof.
  intros Hb. unfold SetString.
  assert (forall (neg : bool) r, match scan_digits base 0 0 r with (n, S _, []) => Some (if neg then - Z.of_N n else Z.of_N n)%Z | _ => None end =
    option_map (fun n => if neg then - Z.of_N n else Z.of_N n)%Z (numeral base r)) as Hr.
  { intros neg r. destruct (scan_ok base r Hb 0 0%nat) as (m & -> & Hm). destruct r as [|c r]; [done|]. unfold numeral.
    destruct (places base (c :: r)) as [v|].
    - cbn [Nat.add length option_map]. by replace (0 * base ^ lenN (c :: r) + v) with v by lia.
    - destruct m as [[n k] t]. specialize (Hm eq_refl). cbn in Hm. destruct t; [done|]. by destruct k. }
  assert (forall b s', (match b with 45 => (true, s') | 43 => (false, s') | _ => (false, b :: s') end : bool * list N) =
    if b =? 45 then (true, s') else if b =? 43 then (false, s') else (false, b :: s')) as Hb1.
  { intros b s'. destruct (N.eqb_spec b 45) as [->|H1]; [done|]. destruct (N.eqb_spec b 43) as [->|H2]; [done|]. repeat case_match; try done; subst; done. }
  unfold signed. destruct s as [|b s]; [by rewrite (Hr false)|].
  transitivity (let '(neg, r) := if b =? 45 then (true, s) else if b =? 43 then (false, s) else (false, b :: s) in
    option_map (fun n => if neg : bool then - Z.of_N n else Z.of_N n)%Z (numeral base r)).
  { rewrite Hb1. destruct (b =? 45); [apply (Hr true)|]. destruct (b =? 43); apply (Hr false). }
  destruct (N.eqb_spec b 45) as [->|H1]; [done|]. destruct (N.eqb_spec b 43) as [->|H2]; [done|]. repeat case_match; try done; subst; done.
Qed.
Lemma size_256 z : (256 <? N.size (Z.abs_N z)) = negb (Z.abs z <? 2 ^ 256)%Z.
Proof.
  set (n := Z.abs_N z). assert (Z.abs z = Z.of_N n) as -> by (unfold n; lia).
  assert ((Z.of_N n <? 2 ^ 256)%Z = (n <? 2 ^ 256)) as ->.
  { change (2 ^ 256)%Z with (Z.of_N (2 ^ 256)). destruct (N.ltb_spec n (2 ^ 256)) as [H|H]; [apply Z.ltb_lt|apply Z.ltb_ge]; lia. }
  destruct (decide (n = 0)) as [->|Hn]; [done|]. rewrite N.size_log2 by done.
  destruct (N.ltb_spec n (2 ^ 256)) as [H|H]; cbn [negb].
  - apply N.log2_lt_pow2 in H; [|lia]. apply N.ltb_ge. lia.
  - apply N.log2_le_pow2 in H; [|lia]. apply N.ltb_lt. lia.
Qed.
(** ParseBig256 gives the number that the text denotes if it has at most 256 bits, and
    refuses all other text. A sign may stand before the digits, after 0x as well. *)
Theorem C85_big256 : forall s, ParseBig256 s = match hex_or_dec 0%Z signed s with
  | Some z => if (Z.abs z <? 2 ^ 256)%Z then Some z else None
  | None => None end.
Proof.
  intros s. destruct (decide (s = [])) as [->|Hs]; [done|]. rewrite prefix0x_spec by done.
  assert (ParseBig256 s = match (if prefix0x s then SetString (drop 2 s) 16 else SetString s 10) with
         | Some z => if 256 <? N.size (Z.abs_N z) then None else Some z | None => None end) as -> by (by destruct s).
  rewrite !SetString_ok by done. destruct (if prefix0x s then _ else _) as [z|]; [|done]. rewrite size_256. by destruct (Z.abs z <? 2 ^ 256)%Z.
Qed.
Print Assumptions C85_big256.

(* ------------------------------------------------------------ printing *)
Lemma digit_char_ok base d : d < base <= 36 -> digit_of base (digit_char d) = Some d.
Proof.
  intros Hd. rewrite digit_of_eq by lia. assert (char_val (digit_char d) = d) as ->; [|by rewrite (proj2 (N.ltb_lt _ _) (proj1 Hd))].
  unfold digit_char, char_val. destruct (N.ltb_spec d 10) as [H|H].
  - rewrite (proj2 (N.leb_le 48 _)), (proj2 (N.leb_le _ 57)) by lia. cbn [andb]. lia.
  - rewrite (proj2 (N.leb_gt _ 57)) by lia. rewrite andb_false_r. rewrite (proj2 (N.leb_le 97 _)), (proj2 (N.leb_le _ 122)) by lia. cbn [andb]. lia.
Qed.
Lemma fmt_loop_app f base : forall n acc, fmt_loop f base n acc = fmt_loop f base n [] ++ acc.
Proof.
  induction f as [|f IH]; intros n acc; cbn [fmt_loop]; [done|]. destruct (n =? 0); [done|]. rewrite IH, (IH _ [_]), <- app_assoc. done.
Qed.
Lemma fmt_loop_ok f base : 2 <= base <= 36 -> forall n, n < base ^ N.of_nat f -> places base (fmt_loop f base n []) = Some n.
Proof.
  intros Hb. induction f as [|f IH]; intros n Hn; cbn [fmt_loop].
  - change (base ^ N.of_nat 0) with 1 in Hn. assert (n = 0) as -> by lia. done.
  - destruct (N.eqb_spec n 0) as [->|Hn0]; [done|]. rewrite fmt_loop_app, places_app, IH.
    + cbn [places]. rewrite digit_char_ok by (split; [apply N.mod_lt|]; lia). change (lenN [_]) with 1. change (lenN []) with 0. rewrite N.pow_1_r, N.pow_0_r.
      f_equal. pose proof (N.div_mod n base ltac:(lia)). lia.
    + rewrite Nat2N.inj_succ, N.pow_succ_r' in Hn. apply N.div_lt_upper_bound; lia.
Qed.
Lemma fmt_digits_ok base n : 2 <= base <= 36 -> numeral base (fmt_digits base n) = Some n.
Proof.
  intros Hb. unfold fmt_digits. destruct (N.eqb_spec n 0) as [->|Hn].
  - unfold numeral. cbn [places]. change 48 with (digit_char 0). rewrite (digit_char_ok base 0) by lia. done.
  - assert (places base (fmt_loop (N.to_nat (N.size n)) base n []) = Some n) as Hp.
    { apply fmt_loop_ok; [done|]. rewrite N2Nat.id. eapply N.lt_le_trans; [apply N.size_gt|]. apply N.pow_le_mono_l. lia. }
    unfold numeral. destruct (fmt_loop _ base n []); [|done]. cbn in Hp. congruence.
Qed.
Lemma numeral_places base s n : numeral base s = Some n -> places base s = Some n /\ s <> [].
Proof. by destruct s. Qed.
Lemma signed_num base s n : base <= 36 -> numeral base s = Some n -> signed base s = Some (Z.of_N n).
Proof.
  intros Hb Hn. pose proof (proj1 (numeral_places _ _ _ Hn)) as Hp. apply places_digits in Hp. unfold signed. destruct s as [|c s]; [done|].
  assert (c <> 45 /\ c <> 43) as [H1 H2].
  { destruct (Forall_inv Hp) as [d Hd]. rewrite digit_of_eq in Hd by lia. split; intros ->; change (char_val _) with 255 in Hd; destruct (N.ltb_spec 255 base); try done; lia. }
  transitivity (option_map Z.of_N (numeral base (c :: s))); [|by rewrite Hn]. repeat case_match; try done; subst; done.
Qed.
Lemma signed_fmt base z : 2 <= base <= 36 -> signed base (fmt_sign z ++ fmt_digits base (Z.abs_N z)) = Some z.
Proof.
  intros Hb. pose proof (fmt_digits_ok base (Z.abs_N z) Hb) as Hn. unfold fmt_sign. destruct (Z.ltb_spec z 0) as [Hz|Hz]; cbn [app].
  - unfold signed. rewrite Hn. cbn [option_map]. f_equal. lia.
  - rewrite (signed_num base _ _ ltac:(lia) Hn). f_equal. lia.
Qed.
(** What is printed can be read back. *)
Theorem C85_round_trip :
  (forall n, n < 2 ^ 64 -> HexOrDecimal64_Unmarshal (HexOrDecimal64_Marshal n) = Some n) /\
  (forall z, (0 <= z < 2 ^ 256)%Z -> HexOrDecimal256_Unmarshal (HexOrDecimal256_Marshal (Some z)) = Some z) /\
  (forall z, (Z.abs z < 2 ^ 256)%Z -> Decimal256_Unmarshal (Decimal256_Marshal (Some z)) = Some z) /\
  HexOrDecimal256_Unmarshal (HexOrDecimal256_Marshal None) = Some 0%Z /\
  Decimal256_Unmarshal (Decimal256_Marshal None) = Some 0%Z.
Proof.
  split; [|split; [|split; [|done]]].
  - intros n Hn. unfold HexOrDecimal64_Unmarshal, HexOrDecimal64_Marshal. rewrite C85_uint64. unfold fmt_hex, fmt_sign.
    rewrite (proj2 (Z.ltb_ge _ _)) by lia. cbn [app hex_or_dec]. rewrite fmt_digits_ok by done.
    replace (Z.abs_N (Z.of_N n)) with n by lia. by rewrite (proj2 (N.ltb_lt _ _) Hn).
  - intros z Hz. unfold HexOrDecimal256_Unmarshal, HexOrDecimal256_Marshal. rewrite C85_big256. unfold fmt_hex, fmt_sign.
    rewrite (proj2 (Z.ltb_ge _ _)) by lia. cbn [app hex_or_dec]. rewrite (signed_num 16 _ (Z.abs_N z)) by (try done; by apply fmt_digits_ok).
    replace (Z.of_N (Z.abs_N z)) with z by lia. rewrite (proj2 (Z.ltb_lt _ _)) by lia. done.
  - intros z Hz. unfold Decimal256_Unmarshal, Decimal256_Marshal. rewrite C85_big256.
    assert (hex_or_dec 0%Z signed (fmt_dec z) = signed 10 (fmt_dec z)) as ->.
    { pose proof (fmt_digits_ok 10 (Z.abs_N z) ltac:(done)) as Hn. apply numeral_places in Hn as [Hp Hne]. apply places_digits in Hp.
      assert (fmt_dec z <> []) as Hf by (unfold fmt_dec; destruct (fmt_digits 10 (Z.abs_N z)); [done|]; by destruct (fmt_sign z)).
      rewrite prefix0x_spec by done. assert (prefix0x (fmt_dec z) = false) as ->; [|done].
      unfold fmt_dec, fmt_sign. destruct (z <? 0)%Z; cbn [app]; [by destruct (fmt_digits 10 (Z.abs_N z))|].
      destruct (fmt_digits 10 (Z.abs_N z)) as [|a [|b r]]; [done|done|]. cbn [prefix0x].
      pose proof (dec_digit _ (Forall_inv (Forall_inv_tail Hp))) as Hb. rewrite (proj2 (N.eqb_neq b 120)), (proj2 (N.eqb_neq b 88)) by lia. by rewrite andb_false_r. }
    unfold fmt_dec. rewrite signed_fmt by done. by rewrite (proj2 (Z.ltb_lt _ _) Hz).
Qed.
Print Assumptions C85_round_trip.
Lemma dec_no_prefix z : hex_or_dec 0%Z signed (fmt_dec z) = Some z.
Proof.
  pose proof (fmt_digits_ok 10 (Z.abs_N z) ltac:(done)) as Hn. apply numeral_places in Hn as [Hp Hne]. apply places_digits in Hp.
  assert (fmt_dec z <> []) as Hf by (unfold fmt_dec; destruct (fmt_digits 10 (Z.abs_N z)); [done|]; by destruct (fmt_sign z)).
  rewrite prefix0x_spec by done. assert (prefix0x (fmt_dec z) = false) as ->; [|by apply signed_fmt].
  unfold fmt_dec, fmt_sign. destruct (z <? 0)%Z; cbn [app]; [by destruct (fmt_digits 10 (Z.abs_N z))|].
  destruct (fmt_digits 10 (Z.abs_N z)) as [|a [|b r]]; [done|done|]. cbn [prefix0x].
  pose proof (dec_digit _ (Forall_inv (Forall_inv_tail Hp))) as Hb. rewrite (proj2 (N.eqb_neq b 120)), (proj2 (N.eqb_neq b 88)) by lia. by rewrite andb_false_r.
Qed.
(** Numbers of more than 256 bits are printed, but what is printed is refused. *)
Theorem C85_too_big : forall z, (2 ^ 256 <= Z.abs z)%Z ->
  HexOrDecimal256_Unmarshal (HexOrDecimal256_Marshal (Some z)) = None /\ Decimal256_Unmarshal (Decimal256_Marshal (Some z)) = None.
Proof.
  intros z Hz. unfold HexOrDecimal256_Unmarshal, HexOrDecimal256_Marshal, Decimal256_Unmarshal, Decimal256_Marshal. rewrite !C85_big256, dec_no_prefix.
  rewrite (proj2 (Z.ltb_ge _ _) Hz). split; [|done]. unfold fmt_hex, fmt_sign. destruct (Z.ltb_spec z 0) as [Hn|Hn].
  - done.
  - cbn [app hex_or_dec]. rewrite (signed_num 16 _ (Z.abs_N z)) by (try done; by apply fmt_digits_ok).
    replace (Z.of_N (Z.abs_N z)) with z by lia. by rewrite (proj2 (Z.ltb_ge _ _) Hz).
Qed.
Print Assumptions C85_too_big.

(* ------------------------------------------------------------ short forms *)
Lemma cut_none c s : c ∉ s -> cut c s = (s, None).
Proof.
  induction s as [|x s IH]; intros Hc; cbn [cut]; [done|]. apply not_elem_of_cons in Hc as [H1 H2].
  rewrite (proj2 (N.eqb_neq x c)) by congruence. by rewrite IH.
Qed.
Lemma cut_some c a b : c ∉ a -> cut c (a ++ c :: b) = (a, Some b).
Proof.
  induction a as [|x a IH]; intros Hc; cbn [cut app]; [by rewrite N.eqb_refl|]. apply not_elem_of_cons in Hc as [H1 H2].
  rewrite (proj2 (N.eqb_neq x c)) by congruence. by rewrite IH.
Qed.
Definition decimal (s : list N) : Prop := Forall (fun c => 48 <= c <= 57) s.
Lemma decimal_not s c : decimal s -> c < 48 \/ 57 < c -> c ∉ s.
Proof. intros Hs Hc Hin. pose proof (proj1 (Forall_forall _ _) Hs c Hin) as H. cbv beta in H. lia. Qed.
Lemma numeral_decimal s n : numeral 10 s = Some n -> decimal s.
Proof.
  intros Hn. apply numeral_places in Hn as [Hp _]. apply places_digits in Hp. eapply Forall_impl; [exact Hp|]. cbv beta. apply dec_digit.
Qed.
Lemma sci_abs_plain s n : numeral 10 s = Some n -> sci_abs s = Some n.
Proof. intros Hn. unfold sci_abs. rewrite cut_none; [done|]. apply decimal_not; [by eapply numeral_decimal|lia]. Qed.
Lemma zeros_split s : exists t, s = take (length s - lead_zeros (reverse s)) s ++ replicate (lead_zeros (reverse s)) 48 /\
  (lead_zeros (reverse s) <= length s)%nat /\ t = take (length s - lead_zeros (reverse s)) s.
Proof.
  assert (forall r, exists u, r = replicate (lead_zeros r) 48 ++ u /\ (lead_zeros r <= length r)%nat) as Hz.
  { induction r as [|c r IH]; [by exists []|]. destruct (decide (c = 48)) as [->|Hc].
    - destruct IH as (u & Hu & Hl). exists u. cbn [lead_zeros replicate app length]. split; [by rewrite Hu at 1|lia].
    - exists (c :: r). assert (lead_zeros (c :: r) = 0%nat) as ->; [|split; [done|lia]]. cbn [lead_zeros]. repeat case_match; try done; subst; done. }
  destruct (Hz (reverse s)) as (u & Hu & Hl). set (k := lead_zeros (reverse s)) in *. rewrite reverse_length in Hl. eexists. split; [|split; [done|reflexivity]].
  assert (s = reverse u ++ replicate k 48) as Hs by (rewrite <- (reverse_involutive s), Hu, reverse_app, reverse_replicate; done).
  assert (length s - k = length (reverse u))%nat as Hlen by (apply (f_equal length) in Hs; rewrite app_length, replicate_length in Hs; lia).
  rewrite Hlen. rewrite Hs at 1 2. by rewrite take_app.
Qed.
Lemma places_zeros k : places 10 (replicate k 48) = Some 0.
Proof. induction k as [|k IH]; cbn [replicate places]; [done|]. rewrite IH. done. Qed.
Lemma sci_signs (neg : bool) t n : match t with c :: _ => c <> 45 /\ c <> 43 | [] => True end -> sci_abs t = Some n ->
  sci_value ((if neg then [45] else []) ++ t) = Some (if neg then - Z.of_N n else Z.of_N n)%Z.
Proof.
  intros Ht Hn. destruct neg; cbn [app]; unfold sci_value; [by rewrite Hn|].
  destruct t as [|c t]; [by rewrite Hn|]. destruct Ht as [H1 H2]. transitivity (option_map Z.of_N (sci_abs (c :: t))); [|by rewrite Hn].
  repeat case_match; try done; subst; done.
Qed.
Lemma signed_cases s z : signed 10 s = Some z -> exists (neg : bool) ss n,
  match s with 45 :: r => (true, r) | 43 :: r => (false, r) | _ => (false, s) end = (neg, ss) /\ numeral 10 ss = Some n /\
  z = (if neg then - Z.of_N n else Z.of_N n)%Z /\ (s = ss \/ s = (if neg then 45 else 43) :: ss).
Proof.
  assert (forall ss neg, option_map (fun n => if neg : bool then - Z.of_N n else Z.of_N n)%Z (numeral 10 ss) = Some z -> exists n, numeral 10 ss = Some n /\ z = (if neg then - Z.of_N n else Z.of_N n)%Z) as Hx.
  { intros ss neg. destruct (numeral 10 ss) as [n|]; [|done]. intros [= <-]. eauto. }
  unfold signed. destruct s as [|c s]; [done|]. destruct (decide (c = 45)) as [->|H1].
  { intros H. destruct (Hx s true H) as (n & Hn & Hz). exists true, s, n. auto. }
  destruct (decide (c = 43)) as [->|H2].
  { intros H. destruct (Hx s false H) as (n & Hn & Hz). exists false, s, n. auto. }
  intros H. assert (option_map Z.of_N (numeral 10 (c :: s)) = Some z) as H' by (revert H; repeat case_match; try done; subst; done).
  destruct (Hx (c :: s) false H') as (n & Hn & Hz). exists false, (c :: s), n. split; [repeat case_match; try done; subst; done|]. auto.
Qed.
(** BigStringForPrint of a decimal number, with or without sign and leading zeros, gives text
    that denotes the same number. *)
Theorem C85_print : forall s z, signed 10 s = Some z -> sci_value (BigStringForPrint s) = Some z.
Proof.
  intros s z Hs. destruct (signed_cases s z Hs) as (neg & ss & n & Hcase & Hn & -> & Hss). unfold BigStringForPrint.
  pose proof (numeral_decimal ss n Hn) as Hd. apply numeral_places in Hn as [Hp Hne].
  assert (numeral 10 ss = Some n) as Hn by (by destruct ss).
  destruct (Nat.leb_spec (length s) 5) as [Hl|Hl].
  { destruct Hss as [Hss|Hss]; subst s.
    - destruct neg; [|apply (sci_signs false); [|by apply sci_abs_plain]].
      + exfalso. destruct ss as [|c ss]; [done|]. pose proof (Forall_inv Hd) as Hc. cbv beta in Hc. revert Hcase. repeat case_match; subst; intros [=]; lia.
      + destruct ss as [|c ss]; [done|]. pose proof (Forall_inv Hd) as Hc. cbv beta in Hc. lia.
    - unfold sci_value. destruct neg; by rewrite (sci_abs_plain ss n Hn). }
  rewrite Hcase. destruct (zeros_split ss) as (t & Hsp & Hk & Ht). set (k := lead_zeros (reverse ss)) in *. rewrite <- Ht in Hsp.
  assert (length t = length ss - k)%nat as Hlt by (rewrite Ht, take_length; lia).
  assert (5 <= length ss)%nat as Hl5 by (destruct Hss as [Hss|Hss]; subst s; cbn [length] in Hl; lia).
  set (ex := fmt_dec (Z.of_nat (length ss) - 1)).
  assert (numeral 10 ex = Some (lenN ss - 1)) as Hex.
  { unfold ex, fmt_dec, fmt_sign. rewrite (proj2 (Z.ltb_ge _ _)) by lia. cbn [app]. rewrite fmt_digits_ok by done. f_equal. unfold lenN. lia. }
  rewrite Hsp in Hp. rewrite places_app, places_zeros in Hp. destruct (places 10 t) as [m|] eqn:Hm; [|done].
  injection Hp as Hp. assert (lenN (replicate k 48) = N.of_nat k) as Hlr by (unfold lenN; by rewrite replicate_length). rewrite Hlr in Hp.
  rewrite <- Hlt. destruct (Nat.ltb_spec 1 (length t)) as [Hl1|Hl1].
  - assert (take 1 ss = take 1 t) as H1t by (rewrite Ht, take_take; f_equal; lia). rewrite Hlt, <- Ht, H1t.
    destruct t as [|c [|d t]]; [cbn in Hl1; lia|cbn in Hl1; lia|]. cbn [take drop app].
    assert (decimal (c :: d :: t)) as Hdt by (rewrite Hsp in Hd; by apply Forall_app in Hd as [? _]).
    apply sci_signs; [pose proof (Forall_inv Hdt) as Hc; cbv beta in Hc; lia|].
    unfold sci_abs. change (c :: 46 :: d :: t ++ 101 :: ex) with ((c :: 46 :: d :: t) ++ 101 :: ex). rewrite cut_some.
    2:{ apply not_elem_of_cons. split; [pose proof (Forall_inv Hdt) as Hc; cbv beta in Hc; lia|]. apply not_elem_of_cons. split; [done|].
        apply decimal_not; [exact (Forall_inv_tail Hdt)|lia]. }
    change (c :: 46 :: d :: t) with ([c] ++ 46 :: d :: t). rewrite cut_some.
    2:{ apply decimal_not; [|lia]. constructor; [exact (Forall_inv Hdt)|constructor]. }
    cbn [default app]. change (id ?z) with z. unfold numeral at 1. rewrite Hm, Hex.
    assert (lenN (d :: t) + 1 + N.of_nat k = lenN ss) as Hle by (unfold lenN; cbn [length] in *; lia).
    rewrite (proj2 (N.leb_le _ _)) by lia. f_equal. replace (lenN ss - 1 - lenN (d :: t)) with (N.of_nat k) by lia. lia.
  - destruct (Nat.eqb_spec (length t) 1) as [H1|H1].
    + assert (take 1 ss = t) as -> by (rewrite Ht; f_equal; lia). destruct t as [|c [|d t]]; [done| |done]. cbn [app].
      assert (decimal [c]) as Hdt by (rewrite Hsp in Hd; by apply Forall_app in Hd as [? _]).
      apply sci_signs; [pose proof (Forall_inv Hdt) as Hc; cbv beta in Hc; lia|].
      unfold sci_abs. change (c :: 101 :: ex) with ([c] ++ 101 :: ex). rewrite cut_some by (by apply decimal_not; [done|lia]).
      rewrite cut_none by (apply decimal_not; [done|lia]). cbn [default app]. unfold numeral at 1. rewrite Hm, Hex. change (lenN []) with 0.
      rewrite (proj2 (N.leb_le _ _)) by lia. f_equal. replace (lenN ss - 1 - 0) with (N.of_nat k) by (unfold lenN; lia). lia.
    + assert (t = []) as -> by (destruct t; [done|]; cbn [length] in *; lia). cbn in Hm. injection Hm as <-. assert (n = 0) as -> by lia. by destruct neg.
Qed.
Print Assumptions C85_print.
(** So different numbers print differently. *)
Theorem C85_print_value : forall z, sci_value (BigIntForPrint (Some z)) = Some z.
Proof. intros z. apply C85_print. unfold fmt_dec. by apply signed_fmt. Qed.
Print Assumptions C85_print_value.
(** BigForPrint begins with the number in full; a short form follows in brackets if it is
    another text, and it denotes the same number. *)
Theorem C85_print_both : forall z, let s := BigForPrint (Some z) in
  signed 10 (cut 32 s).1 = Some z /\
  ((cut 32 s).2 = None \/ exists t, (cut 32 s).2 = Some ([40] ++ t ++ [41]) /\ sci_value t = Some z).
Proof.
  intros z s. subst s. unfold BigForPrint.
  assert (signed 10 (fmt_dec z) = Some z) as Hs by (unfold fmt_dec; by apply signed_fmt).
  assert (32 ∉ fmt_dec z) as Hn.
  { destruct (signed_cases _ _ Hs) as (neg & ss & n & _ & Hn & _ & Hss). apply numeral_decimal in Hn.
    destruct Hss as [->|Heq]; [|rewrite Heq; apply not_elem_of_cons; split; [by destruct neg|]]; (apply decimal_not; [done|lia]). }
  case_bool_decide.
  - rewrite cut_none by done. auto.
  - change (fmt_dec z ++ [32; 40] ++ ?t) with (fmt_dec z ++ 32 :: (40 :: t)). rewrite cut_some by done. cbn [fst snd]. split; [done|]. right. eexists. split; [reflexivity|].
    by apply C85_print.
Qed.
Print Assumptions C85_print_both.

(* ------------------------------------------------------------ findings *)
(** HexOrDecimal256 prints a negative number with the sign before 0x, which it does not
    read. *)
Theorem C85_hex_negative_refuted : forall z, (z < 0)%Z ->
  HexOrDecimal256_Unmarshal (HexOrDecimal256_Marshal (Some z)) = None.
Proof.
  intros z Hz. unfold HexOrDecimal256_Unmarshal, HexOrDecimal256_Marshal, fmt_hex, fmt_sign. rewrite (proj2 (Z.ltb_lt _ _) Hz), C85_big256. done.
Qed.
Print Assumptions C85_hex_negative_refuted.
(** Yet it reads negative numbers, with the sign after 0x. *)
Theorem C85_sign_place_refuted :
  HexOrDecimal256_Unmarshal [48; 120; 45; 49] = Some (-1)%Z /\ HexOrDecimal256_Marshal (Some (-1)%Z) = [45; 48; 120; 49].
Proof. split; reflexivity. Qed.
Print Assumptions C85_sign_place_refuted.

(* ------------------------------------------------------------ examples *)
Example C85_examples :
  ParseUint64 [48; 88; 70; 102] = Some 255 /\ ParseUint64 [48; 48; 49; 50] = Some 12 /\ ParseUint64 [48; 120] = None /\ ParseUint64 [45; 49] = None /\
  (* 18446744073709551615 and 18446744073709551616 *)
  ParseUint64 [49;56;52;52;54;55;52;52;48;55;51;55;48;57;53;53;49;54;49;53] = Some (2 ^ 64 - 1) /\
  ParseUint64 [49;56;52;52;54;55;52;52;48;55;51;55;48;57;53;53;49;54;49;54] = None /\
  ParseBig256 [45; 48; 55] = Some (-7)%Z /\
  (* 1230000 and -500000 *)
  signed 10 [49;50;51;48;48;48;48] = Some 1230000%Z /\
  BigIntForPrint (Some 1230000%Z) = [49; 46; 50; 51; 101; 54] /\ BigIntForPrint (Some (-500000)%Z) = [45; 53; 101; 53] /\
  sci_value [45; 53; 101; 53] = Some (-500000)%Z.
Proof. by vm_compute. Qed.
