(** Property theorems for package rlp (C01 - C09). *)
From Verif Require Import RlpRawProofs.

(** A non-trivial value used by the examples: nested lists, a long string, a
    single byte below and one above 0x80, an empty string and an empty list. *)
Definition ex_item : item :=
  Lst [Str []; Str [0x7f]; Str [0x80]; Lst []; Lst [Str (replicate 60 7); Lst [Str [1; 2; 3]]]].

(* ------------------------------------------------------------------ C01 *)
Theorem C01_rlp_round_trip :
  forall v, item_ok v -> lenN (rlp v) < two64 ->
    decode_bytes (encode_to_bytes v) = inr v.
Proof. intros v Hok Hl. rewrite encode_to_bytes_spec by done. exact (decode_encode v Hok Hl). Qed.
Print Assumptions C01_rlp_round_trip.

Example C01_example : item_ok ex_item /\ lenN (rlp ex_item) = 76
  /\ decode_bytes (encode_to_bytes ex_item) = inr ex_item.
Proof.
  split; [|split; vm_compute; reflexivity].
  repeat split; apply is_bytesb_spec; reflexivity.
Qed.

(* ------------------------------------------------------------------ C02 *)
Theorem C02_rlp_canonical :
  forall b v, is_bytes b -> lenN b < two64 -> decode_bytes b = inr v ->
    b = rlp v /\ b = encode_to_bytes v.
Proof.
  intros b v Hb Hl Hd. destruct (decode_bytes_canon b v Hb Hl Hd) as [-> _].
  split; [done|]. symmetry. by apply encode_to_bytes_spec.
Qed.
Print Assumptions C02_rlp_canonical.

Theorem C02_rlp_injective :
  forall b1 b2 v, is_bytes b1 -> is_bytes b2 -> lenN b1 < two64 -> lenN b2 < two64 ->
    decode_bytes b1 = inr v -> decode_bytes b2 = inr v -> b1 = b2.
Proof.
  intros b1 b2 v H1 H2 L1 L2 D1 D2.
  destruct (decode_bytes_canon _ _ H1 L1 D1) as [-> _].
  destruct (decode_bytes_canon _ _ H2 L2 D2) as [-> _]. done.
Qed.
Print Assumptions C02_rlp_injective.

Theorem C02_rlp_no_trailing :
  forall v r, item_ok v -> is_bytes r -> r <> [] -> lenN (rlp v ++ r) < two64 ->
    forall w, decode_bytes (rlp v ++ r) <> inr w.
Proof.
  intros v r Hv Hr Hn Hl w Hd.
  assert (lenN (rlp v) < two64) as Hl1 by (rewrite lenN_app in Hl; lia).
  assert (is_bytes (rlp v ++ r)) as Hb by (apply is_bytes_app; split; [by apply rlp_bytes|done]).
  unfold decode_bytes in Hd.
  destruct (dec_iface_fwd v (st_new (rlp v ++ r)) (2 * length (rlp v ++ r) + 2) r Hv (Inv_new _ Hb Hl)) as [s' Hd'];
    [done|done|done|rewrite app_length; lia|].
  rewrite Hd' in Hd.
  destruct (proj1 (dec_canon _) _ _ _ (Inv_new _ Hb Hl) eq_refl Hd') as ((Hi & _) & _).
  cbn in Hi. apply app_inv_head in Hi. rewrite <- Hi in Hd. destruct r; done.
Qed.
Print Assumptions C02_rlp_no_trailing.

(** The recursion bound used by the model's decoder is never the reason of a
    failure, so [decode_bytes] is the function the Go code computes. *)
Theorem C02_decoder_total :
  forall b, is_bytes b -> lenN b < two64 -> decode_bytes b <> inl EOutOfFuel.
Proof. exact decode_bytes_nofuel. Qed.
Print Assumptions C02_decoder_total.

Example C02_example :
  (exists v, decode_bytes [0xC3; 0x81; 0x80; 0x05] = inr v) /\
  decode_bytes [0xC3; 0x81; 0x01; 0x05] = inl ECanonSize /\
  decode_bytes [0xB8; 0x01; 0x05] = inl ECanonSize /\
  decode_bytes [0x05; 0x05] = inl EMoreThanOneValue.
Proof. split; [eexists|repeat split]; vm_compute; reflexivity. Qed.

(** Finding: Stream.Raw does not check the canonical single-byte form, so a
    RawValue field accepts two encodings of the same string. *)
Theorem C02_raw_value_canonical_refuted :
  exists b, is_bytes b /\ fst (st_Raw (st_new b)) = inr b /\
    (forall v, decode_bytes b <> inr v) /\ forall v, rlp v <> b.
Proof.
  exists [0x81; 0x01]. split; [by apply is_bytesb_spec|]. split; [reflexivity|].
  assert (forall v, decode_bytes [0x81; 0x01] <> inr v) as Hn by (intros v; vm_compute; done).
  split; [done|]. intros [bs|xs] Hr.
  - destruct bs as [|x [|y bs]].
    + done.
    + cbn in Hr. destruct (N.ltb_spec x 128); [done|]. injection Hr as Hx. lia.
    + rewrite str_hdr in Hr by (intros ? [=]). apply (f_equal lenN) in Hr.
      rewrite lenN_app in Hr. pose proof (rlp_head_len_pos 0x80 0xB7 (lenN (x :: y :: bs))).
      rewrite !lenN_cons, lenN_nil in Hr. rewrite !lenN_cons in H. lia.
  - rewrite rlp_Lst in Hr. unfold rlp_head in Hr. destruct (_ <? 56); injection Hr as Hr _; lia.
Qed.
Print Assumptions C02_raw_value_canonical_refuted.

(** Finding: Stream.Kind compares the size of a nested value with the space
    left in the enclosing list *before* its header was read, and List subtracts
    without checking; reading element by element, a nested list can extend past
    the end of the list that contains it. *)
Theorem C02_stream_list_containment_refuted :
  exists b s1 s2 s3 s4,
    st_List (st_new b) = (inr 2, s1) /\      (* outer list: 2 bytes of content *)
    st_List s1 = (inr 2, s2) /\              (* inner list: header + 2 bytes = 3 bytes *)
    st_uint s2 64 = (inr 1, s3) /\           (* inner element 1 *)
    st_uint s3 64 = (inr 2, s4) /\           (* inner element 2: outside the outer list *)
    (forall v, decode_bytes b <> inr v).
Proof.
  exists [0xC2; 0xC2; 0x01; 0x02]. do 4 eexists.
  split; [vm_compute; reflexivity|]. split; [vm_compute; reflexivity|].
  split; [vm_compute; reflexivity|]. split; [vm_compute; reflexivity|].
  intros v. vm_compute. done.
Qed.
Print Assumptions C02_stream_list_containment_refuted.

(* ------------------------------------------------------------------ C03 *)
Theorem C03_encoder_is_recursive_rlp :
  forall v, lenN (rlp v) < two64 -> encode_to_bytes v = rlp v.
Proof. exact encode_to_bytes_spec. Qed.
Print Assumptions C03_encoder_is_recursive_rlp.

Theorem C03_announced_size_exact :
  forall v, lenN (rlp v) < two64 -> fst (encode_to_reader v) = lenN (encode_to_bytes v).
Proof. intros v Hl. rewrite encode_to_bytes_spec by done. exact (encode_size_spec v Hl). Qed.
Print Assumptions C03_announced_size_exact.

(** Whatever buffer sizes a consumer passes to Read, what it has received so far
    is the corresponding prefix of the encoding, and when the reader reports
    io.EOF it has received all of it. *)
Theorem C03_reader_any_chunking :
  forall v rooms out eof, lenN (rlp v) < two64 ->
    er_reads (snd (encode_to_reader v)) rooms = (out, eof) ->
    out = take (foldr Nat.add 0%nat rooms) (rlp v) /\ (eof = true -> out = rlp v).
Proof.
  intros v rooms out eof Hl Hr. destruct (encode_to_reader_rest v Hl) as [Hok Hrest].
  rewrite <- Hrest. exact (er_reads_spec _ _ _ _ Hok Hr).
Qed.
Print Assumptions C03_reader_any_chunking.

(** A Read reports io.EOF exactly when the buffer has room for everything left:
    a consumer that keeps reading positive amounts reaches EOF. *)
Theorem C03_reader_eof :
  forall v n, lenN (rlp v) < two64 ->
    snd (er_reads (snd (encode_to_reader v)) [n]) = true <-> (length (rlp v) <= n)%nat.
Proof.
  intros v n Hl. destruct (encode_to_reader_rest v Hl) as [Hok Hrest].
  cbn [er_reads]. destruct (er_read _ _ n) as [[bs eof] r'] eqn:Hr.
  apply er_read_spec in Hr; [|done|apply er_fuel_meas]. destruct Hr as (_ & Hre & _ & Heof).
  rewrite Hrest in *. destruct eof; cbn.
  - split; [|done]. intros _. destruct Heof as [_ Hn]. rewrite Hre in Hn.
    apply (f_equal length) in Hn. rewrite drop_length in Hn. simpl in Hn. lia.
  - split; [done|]. lia.
Qed.
Print Assumptions C03_reader_eof.

Example C03_example :
  encode_to_bytes ex_item = rlp ex_item /\
  er_reads (snd (encode_to_reader ex_item)) [0%nat; 1%nat; 70%nat; 3%nat; 10%nat] = (rlp ex_item, true).
Proof. split; vm_compute; reflexivity. Qed.

(* ------------------------------------------------------------------ C04 *)
Theorem C04_rlp_self_delimiting :
  forall v w r r', item_ok v -> item_ok w -> is_bytes r -> lenN (rlp v ++ r) < two64 ->
    rlp v ++ r = rlp w ++ r' -> v = w /\ r = r'.
Proof.
  intros v w r r' Hv Hw Hr Hl Heq.
  assert (lenN (rlp v) < two64) as Hl1 by (rewrite lenN_app in Hl; lia).
  assert (is_bytes (rlp v ++ r)) as Hb by (apply is_bytes_app; split; [by apply rlp_bytes|done]).
  set (s := st_new (rlp v ++ r)). set (f := (2 * length (rlp v ++ r) + 2)%nat).
  assert (exists s1, dec_iface f s = (inr v, s1)) as [s1 H1].
  { apply (dec_iface_fwd v s f r Hv (Inv_new _ Hb Hl)); [done|done|done|unfold f; rewrite app_length; lia]. }
  assert (exists s2, dec_iface f s = (inr w, s2)) as [s2 H2].
  { apply (dec_iface_fwd w s f r' Hw (Inv_new _ Hb Hl)); [done|exact Heq|done|unfold f; rewrite Heq, app_length; lia]. }
  rewrite H1 in H2. injection H2 as -> _. split; [done|]. by apply app_inv_head in Heq.
Qed.
Print Assumptions C04_rlp_self_delimiting.

(** A stream positioned at an encoding followed by anything decodes exactly that
    value and stops right behind it. *)
Theorem C04_stream_consumes_exactly_one_value :
  forall v r, item_ok v -> is_bytes r -> lenN (rlp v ++ r) < two64 ->
    exists s', dec_iface (2 * length (rlp v ++ r) + 2) (st_new (rlp v ++ r)) = (inr v, s') /\ st_in s' = r.
Proof.
  intros v r Hv Hr Hl.
  assert (lenN (rlp v) < two64) as Hl1 by (rewrite lenN_app in Hl; lia).
  assert (is_bytes (rlp v ++ r)) as Hb by (apply is_bytes_app; split; [by apply rlp_bytes|done]).
  destruct (dec_iface_fwd v (st_new (rlp v ++ r)) (2 * length (rlp v ++ r) + 2) r Hv (Inv_new _ Hb Hl)) as [s' Hd];
    [done|done|done|rewrite app_length; lia|].
  exists s'. split; [done|].
  destruct (proj1 (dec_canon _) _ _ _ (Inv_new _ Hb Hl) eq_refl Hd) as ((Hi & _) & _).
  cbn in Hi. apply app_inv_head in Hi. done.
Qed.
Print Assumptions C04_stream_consumes_exactly_one_value.

Example C04_example : item_ok ex_item /\ lenN (rlp ex_item ++ [1; 2]) < two64.
Proof. split; [exact (proj1 C01_example)|reflexivity]. Qed.

(* ------------------------------------------------------------------ C05 *)
(** Header plus content of a string item is the encoding of the content; a list
    item is a minimal list header for the content's length, then the content. *)
Theorem C05_split_partitions :
  forall b k c r, is_bytes b -> Split b = inr (k, c, r) ->
    match k with
    | KList => b = rlp_head 0xC0 0xF7 (lenN c) ++ c ++ r
    | _ => b = rlp (Str c) ++ r
    end.
Proof.
  intros b k c r Hb Hs. destruct (Split_bwd _ _ _ _ Hb Hs) as (hdr & -> & Hsh & _).
  destruct k.
  - rewrite app_assoc, (item_shape_str _ _ _ Hsh) by done. done.
  - rewrite app_assoc, (item_shape_str _ _ _ Hsh) by done. done.
  - cbn in Hsh. subst hdr. done.
Qed.
Print Assumptions C05_split_partitions.

Theorem C05_split_string :
  forall bs r, lenN bs < two64 ->
    Split (rlp (Str bs) ++ r) =
      inr (match bs with [x] => if x <? 128 then KByte else KString | _ => KString end, bs, r).
Proof. exact Split_str. Qed.
Print Assumptions C05_split_string.

Theorem C05_split_list :
  forall xs r, lenN (rlps xs) < two64 -> Split (rlp (Lst xs) ++ r) = inr (KList, rlps xs, r).
Proof. exact Split_lst. Qed.
Print Assumptions C05_split_list.

Theorem C05_count_values :
  forall xs, lenN (rlps xs) < two64 -> CountValues (rlps xs) = inr (lenN xs).
Proof. exact CountValues_rlps. Qed.
Print Assumptions C05_count_values.

(** Conversely, when CountValues answers n the input is a concatenation of
    exactly n pieces, each of which Split accepts as one item without rest. *)
Theorem C05_count_values_sound :
  forall b n, is_bytes b -> CountValues b = inr n ->
    exists ps, b = concat ps /\ lenN ps = n /\
      Forall (fun p => exists k c, Split p = inr (k, c, [])) ps.
Proof.
  intros b n Hb Hc. destruct (count_values_bwd _ _ _ _ Hb Hc) as (ps & Hps & -> & ->).
  exists ps. split; [done|]. split; [lia|]. eapply Forall_impl; [exact Hps|].
  intros p (k & hdr & c & Hsh & -> & Hl). exists k, c.
  rewrite <- (app_nil_r c) at 1. by apply Split_fwd.
Qed.
Print Assumptions C05_count_values_sound.

Example C05_example :
  Split (rlp ex_item ++ [9]) = inr (KList, rlps [Str []; Str [0x7f]; Str [0x80]; Lst [];
     Lst [Str (replicate 60 7); Lst [Str [1; 2; 3]]]], [9]) /\
  CountValues (rlps [ex_item; Str [1]; ex_item]) = inr 3.
Proof. split; vm_compute; reflexivity. Qed.

(* ------------------------------------------------------------------ C06 *)
Theorem C06_append_uint64 :
  forall b x, x < two64 -> AppendUint64 b x = b ++ rlp (Str (be_bytes x)).
Proof. exact AppendUint64_spec. Qed.
Print Assumptions C06_append_uint64.

Theorem C06_encode_uint64 :
  forall x, x < two64 -> makeBytes (writeUint64 eb_empty x) = AppendUint64 [] x.
Proof.
  intros x Hx. rewrite AppendUint64_spec by done.
  exact (proj1 (makeBytes_writes _ _ (writeUint64_spec eb_empty x Hx))).
Qed.
Print Assumptions C06_encode_uint64.

Theorem C06_split_uint64 :
  forall x r, x < two64 -> SplitUint64 (AppendUint64 [] x ++ r) = inr (x, r).
Proof. intros x r Hx. rewrite AppendUint64_spec by done. exact (SplitUint64_fwd x r Hx). Qed.
Print Assumptions C06_split_uint64.

Theorem C06_split_uint64_canonical :
  forall b x r, is_bytes b -> SplitUint64 b = inr (x, r) -> x < two64 /\ b = AppendUint64 [] x ++ r.
Proof.
  intros b x r Hb Hs. destruct (SplitUint64_bwd b x r Hb Hs) as [-> Hx].
  split; [done|]. rewrite AppendUint64_spec by done. done.
Qed.
Print Assumptions C06_split_uint64_canonical.

Theorem C06_decode_uint64 :
  forall x, x < two64 -> decode_uint64 (AppendUint64 [] x) = inr x.
Proof.
  intros x Hx. rewrite AppendUint64_spec by done. cbn [app].
  assert (lenN (rlp_nat x) < two64) as Hl.
  { rewrite <- IntSize_spec by done. unfold IntSize. destruct (x <? 0x80); [done|].
    destruct (N.eq_dec x 0) as [->|]; [done|].
    rewrite intsize_spec by lia. pose proof (lenN_be_bytes_le8 x Hx). unfold two64; lia. }
  assert (is_bytes (rlp_nat x)) as Hb by (apply (rlp_bytes (Str (be_bytes x))); [apply be_bytes_bytes|done]).
  apply (decode_with_fwd _ rlp_nat); [| |done|done].
  - intros s v s' HI Hk Hd. exact (proj1 (st_uint_bwd s 64 v s' HI Hk ltac:(vm_compute; done) Hd)).
  - apply (st_uint_fwd _ 64 x []); [by apply Inv_new|done|vm_compute; done| |by rewrite app_nil_r|done].
    exact (lenN_be_bytes_le8 x Hx).
Qed.
Print Assumptions C06_decode_uint64.

Theorem C06_decode_uint64_canonical :
  forall b x, is_bytes b -> lenN b < two64 -> decode_uint64 b = inr x ->
    x < two64 /\ b = AppendUint64 [] x.
Proof.
  intros b x Hb Hl Hd. assert (b = rlp_nat x) as Heq.
  { eapply (decode_with_canon _ rlp_nat); [|done|done|exact Hd].
    intros s v s' HI Hk Hd'. exact (proj1 (st_uint_bwd s 64 v s' HI Hk ltac:(vm_compute; done) Hd')). }
  assert (x < two64) as Hx.
  { unfold decode_uint64, decode_bytes_with in Hd. destruct (st_uint (st_new b) 64) as [[e|w] s] eqn:Hu; [done|].
    destruct (st_uint_bwd _ 64 _ _ (Inv_new _ Hb Hl) eq_refl ltac:(vm_compute; done) Hu) as (_ & _ & Hw).
    destruct (st_in s); [|done]. injection Hd as <-. exact Hw. }
  split; [done|]. rewrite AppendUint64_spec by done. done.
Qed.
Print Assumptions C06_decode_uint64_canonical.

Example C06_example :
  SplitUint64 (AppendUint64 [] 18446744073709551615 ++ [1]) = inr (18446744073709551615, [1]) /\
  decode_uint64 [0x82; 0x04; 0x00] = inr 1024 /\ decode_uint64 [0x82; 0x00; 0x04] = inl ECanonInt /\
  decode_uint64 [0x00] = inl ECanonInt /\ decode_uint64 [0x89;1;2;3;4;5;6;7;8;9] = inl EUintOverflow.
Proof. repeat split; vm_compute; reflexivity. Qed.

(* ------------------------------------------------------------------ C07 *)
Theorem C07_bytes_size : forall b, lenN b < two64 -> BytesSize b = lenN (rlp (Str b)).
Proof. exact BytesSize_spec. Qed.
Print Assumptions C07_bytes_size.
Theorem C07_list_size : forall xs, lenN (rlps xs) < two64 -> ListSize (lenN (rlps xs)) = lenN (rlp (Lst xs)).
Proof. exact ListSize_spec. Qed.
Print Assumptions C07_list_size.
Theorem C07_int_size : forall x, x < two64 -> IntSize x = lenN (rlp (Str (be_bytes x))).
Proof. exact IntSize_spec. Qed.
Print Assumptions C07_int_size.
Example C07_example : BytesSize (replicate 56 1) = 58 /\ ListSize 55 = 56 /\ ListSize 256 = 259 /\ IntSize 255 = 2.
Proof. repeat split; vm_compute; reflexivity. Qed.

(* ------------------------------------------------------------------ C08 *)
Theorem C08_iterator_yields_elements :
  forall xs r, lenN (rlps xs) < two64 ->
    exists it, NewListIterator (rlp (Lst xs) ++ r) = inr it /\
      it_collect (S (length xs)) it = Some (map rlp xs).
Proof.
  intros xs r Hl. unfold NewListIterator. rewrite rlp_Lst, <- app_assoc.
  rewrite (readKind_fwd KList) by done. eexists. split; [reflexivity|].
  rewrite subslice_mid, rlps_concat.
  rewrite <- (map_length rlp xs) at 1. apply it_collect_fwd. by apply rlps_items.
Qed.
Print Assumptions C08_iterator_yields_elements.

(** The consumer loop terminates only on well-formed content (content that is a
    concatenation of items); on any other content it runs for ever. *)
Theorem C08_iterator_terminates_iff_wellformed :
  forall d nx e, is_bytes d ->
    (exists n vs, it_collect n (ListIter d nx e) = Some vs) <->
    (exists ps, d = concat ps /\ Forall (fun p => exists k c, Split p = inr (k, c, [])) ps).
Proof.
  intros d nx e Hd. split.
  - intros (n & vs & Hc). destruct (it_collect_bwd _ _ _ _ _ Hd Hc) as [Hit ->].
    exists vs. split; [done|]. eapply Forall_impl; [exact Hit|].
    intros p (k & hdr & c & Hsh & -> & Hl). exists k, c. rewrite <- (app_nil_r c) at 1. by apply Split_fwd.
  - intros (ps & -> & Hps). exists (S (length ps)), ps. apply it_collect_fwd.
    assert (Forall is_bytes ps) as Hbs.
    { clear -Hd. induction ps as [|p ps IH]; [constructor|]. cbn in Hd. apply is_bytes_app in Hd as [? ?].
      constructor; auto. }
    apply Forall_forall. intros p Hp. rewrite Forall_forall in Hps, Hbs.
    destruct (Hps p Hp) as (k & c & Hs). destruct (Split_bwd _ _ _ _ (Hbs p Hp) Hs) as (hdr & -> & Hsh & Hl).
    rewrite app_nil_r. exists k, hdr, c. done.
Qed.
Print Assumptions C08_iterator_terminates_iff_wellformed.

(** Finding: "iteration stops after a bounded number of steps" is false: a list
    with malformed content makes [for it.Next()] loop for ever. *)
Theorem C08_iterator_bounded_refuted :
  exists data it, is_bytes data /\ NewListIterator data = inr it /\ forall n, it_collect n it = None.
Proof.
  exists [0xC1; 0x81], (ListIter [0x81] [] None). split; [by apply is_bytesb_spec|].
  split; [vm_compute; reflexivity|]. intros n. by eapply it_stuck.
Qed.
Print Assumptions C08_iterator_bounded_refuted.

Example C08_example : it_collect 4 (ListIter (rlps [ex_item; Str [1]; Lst []]) [] None)
   = Some [rlp ex_item; [1]; [0xC0]].
Proof. vm_compute; reflexivity. Qed.

(* ------------------------------------------------------------------ C09 *)
Theorem C09_bigint_encode :
  forall n, lenN (be_bytes n) < two64 ->
    makeBytes (writeBigInt eb_empty n) = rlp (Str (be_bytes n)).
Proof. intros n Hl. exact (proj1 (makeBytes_writes _ _ (writeBigInt_spec eb_empty n Hl))). Qed.
Print Assumptions C09_bigint_encode.

Theorem C09_bigint_round_trip :
  forall n, lenN (rlp (Str (be_bytes n))) < two64 ->
    decode_bigint (makeBytes (writeBigInt eb_empty n)) = inr n.
Proof.
  intros n Hl. assert (lenN (be_bytes n) < two64) as Hl2.
  { destruct (item_shape_of_str (be_bytes n)) as (hdr & _ & Heq). rewrite Heq, lenN_app in Hl. lia. }
  rewrite C09_bigint_encode by done. change (rlp (Str (be_bytes n))) with (rlp_nat n) in *.
  assert (is_bytes (rlp_nat n)) as Hb by (apply (rlp_bytes (Str (be_bytes n))); [apply be_bytes_bytes|done]).
  apply (decode_with_fwd _ rlp_nat); [| |done|done].
  - intros s v s' HI Hk Hd. exact (proj1 (st_BigInt_bwd s v s' HI Hk Hd)).
  - apply (st_BigInt_fwd _ n []); [by apply Inv_new|done|by rewrite app_nil_r|done].
Qed.
Print Assumptions C09_bigint_round_trip.

Theorem C09_bigint_canonical :
  forall b n, is_bytes b -> lenN b < two64 -> decode_bigint b = inr n -> b = rlp (Str (be_bytes n)).
Proof.
  intros b n Hb Hl Hd. eapply (decode_with_canon _ rlp_nat); [|done|done|exact Hd].
  intros s v s' HI Hk Hd'. exact (proj1 (st_BigInt_bwd s v s' HI Hk Hd')).
Qed.
Print Assumptions C09_bigint_canonical.

Example C09_example :
  makeBytes (writeBigInt eb_empty (2 ^ 300)) = 0xA6 :: 0x10 :: replicate 37 0 /\
  decode_bigint (0xA6 :: 0x10 :: replicate 37 0) = inr (2 ^ 300) /\
  decode_bigint [0x83; 0; 1; 2] = inl ECanonInt.
Proof. repeat split; vm_compute; reflexivity. Qed.
