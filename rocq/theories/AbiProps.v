(** C39 (ABI round trip), C40 (unpacking arbitrary data), C41 (sizes). *)
From Verif Require Import NumProofs AbiModel AbiSpec AbiProofs.
Global Open Scope N_scope.

(* -------------------------------------------------------------------- C39 *)
Lemma args_ok wb ts vs : (0 < wb)%nat -> Forall valid_type ts -> Forall2 value_of ts vs ->
  Pack wb ts vs = Ok (enc_args ts vs).
Proof.
  intros Hwb Hv Ho. unfold Pack. pose proof (Forall2_length _ _ _ Ho) as Hl. rewrite Hl, Nat.eqb_refl.
  destruct (pack_fields_layout wb ts vs Hwb Hv Ho) as (h & tl & -> & E).
  { clear Hl. induction Ho as [|t v ts vs Hvo _ IH]; [constructor|]. apply Forall_cons in Hv as [Hv1 Hv2].
    constructor; [by apply pack_enc|by apply IH]. }
  cbn [rbind]. unfold enc_args. by rewrite enc_tuple, E.
Qed.
Lemma args_decode ts vs post : Forall valid_type ts -> Forall2 value_of ts vs ->
  (zlen (enc_args ts vs ++ post) < 2 ^ 63)%Z -> UnpackValues ts (enc_args ts vs ++ post) = Ok vs.
Proof.
  intros Hv Ho Hl. eapply tuple_decode; [|done|done|exact Hl|reflexivity].
  apply Forall_forall. intros t _. apply decode.
Qed.

(** Pack produces exactly the encoding that the ABI specification prescribes. *)
Theorem C39_encoding : forall wb ts vs, (0 < wb)%nat ->
  Forall valid_type ts -> Forall2 value_of ts vs -> Pack wb ts vs = Ok (enc_args ts vs).
Proof. apply args_ok. Qed.
Print Assumptions C39_encoding.

(** Unpack returns the packed values; bytes after the encoding are ignored. The
    bound is that of a Go slice length. *)
Theorem C39_round_trip : forall wb ts vs bs post, (0 < wb)%nat ->
  Forall valid_type ts -> Forall2 value_of ts vs -> Pack wb ts vs = Ok bs ->
  (Z.of_nat (length (bs ++ post)) < 2 ^ 63)%Z -> (ts <> [] \/ post = []) ->
  Unpack ts (bs ++ post) = Ok vs.
Proof.
  intros wb ts vs bs post Hwb Hv Ho Hp Hl Hne. rewrite (args_ok wb ts vs Hwb Hv Ho) in Hp. injection Hp as <-.
  pose proof (args_decode ts vs post Hv Ho Hl) as Hd. unfold Unpack.
  destruct (enc_args ts vs ++ post) as [|b l] eqn:E; [|exact Hd].
  destruct ts as [|t ts]; [by inversion Ho|].
  apply app_nil in E as [E _]. exfalso.
  assert (valid_type (TTuple (t :: ts))) as Hvt by (by apply valid_tuple).
  pose proof (valid_words _ Hvt) as Hw.
  pose proof (parts_length (t :: ts) vs (fields_lengths _ _ Hv Ho)) as [Hh _].
  assert (length (enc_args (t :: ts) vs) = 0%nat) as E0 by (by rewrite E).
  unfold enc_args in E0. rewrite enc_tuple, layout_length, Hh in E0. cbn [map] in E0. rewrite sum_cons in E0.
  apply Forall_cons in Hv as [Hv _]. pose proof (valid_words _ Hv). lia.
Qed.
Print Assumptions C39_round_trip.

(** Hence two argument lists with the same encoding are equal. *)
Theorem C39_injective : forall wb ts vs vs' bs, (0 < wb)%nat -> Forall valid_type ts ->
  Forall2 value_of ts vs -> Forall2 value_of ts vs' -> (Z.of_nat (length bs) < 2 ^ 63)%Z ->
  Pack wb ts vs = Ok bs -> Pack wb ts vs' = Ok bs -> vs = vs'.
Proof.
  intros wb ts vs vs' bs Hwb Hv H1 H2 Hl P1 P2.
  pose proof (C39_round_trip wb ts vs bs [] Hwb Hv H1 P1) as R1.
  pose proof (C39_round_trip wb ts vs' bs [] Hwb Hv H2 P2) as R2.
  rewrite app_nil_r in *. specialize (R1 Hl (or_intror eq_refl)). specialize (R2 Hl (or_intror eq_refl)). congruence.
Qed.
Print Assumptions C39_injective.

(** Pack accepts exactly the values of the right shape and reports an error on all
    others; it never panics. *)
Theorem C39_checked : forall wb ts vs,
  (Forall2 shaped ts vs -> exists bs, Pack wb ts vs = Ok bs) /\
  (~ Forall2 shaped ts vs -> Pack wb ts vs = Err).
Proof.
  intros wb ts vs. unfold Pack.
  assert (Forall (checks wb) ts) as Hc by (apply Forall_forall; intros; apply pack_checked).
  destruct (pack_fields_checked wb ts Hc vs (head_size ts)) as [[H1 [[h tl] ->]]|[H1 ->]].
  - pose proof (Forall2_length _ _ _ H1) as Hl. rewrite Hl, Nat.eqb_refl. cbn [rbind].
    split; [intros _; by eexists|done].
  - split; [done|]. intros _. by destruct (_ =? _)%nat.
Qed.
Print Assumptions C39_checked.

(** The range of a *big.Int is not checked against the declared type: uint24 takes
    2^24, and uint256 takes 2^256 and encodes it as 0. *)
Theorem C39_range_refuted :
  ~ (forall wb n z bs, (0 < wb)%nat -> Pack wb [TUint n] [VNum (machine_kind true n) z] = Ok bs -> (0 <= z < 2 ^ Z.of_N n)%Z).
Proof.
  intros H. destruct (C39_checked 8 [TUint 24] [VNum KBig (2 ^ 24)]) as [[bs Hb] _].
  { constructor; [apply (sh_uint 24)|constructor]. }
  specialize (H 8%nat 24 (2 ^ 24)%Z bs ltac:(lia) Hb). lia.
Qed.
Print Assumptions C39_range_refuted.
Theorem C39_overflow_refuted : forall wb z, (0 < wb)%nat ->
  Pack wb [TUint 256] [VNum KBig (z + 2 ^ 256)] = Pack wb [TUint 256] [VNum KBig z].
Proof.
  intros wb z Hwb. unfold Pack. cbn [length Nat.eqb pack_fields pack packElement]. rewrite !decide_True by done.
  cbn [rbind isDynamicType]. rewrite !packNum_word by done. unfold word. do 4 f_equal.
  rewrite <- (Z.mod_add z 1 (2 ^ 256)) by done. by rewrite Z.mul_1_l.
Qed.
Print Assumptions C39_overflow_refuted.

(** Static types of size zero do not round trip: the decoder wants a word. *)
Theorem C39_empty_static_refuted : forall wb e, dynamic e = false -> valid_type e ->
  Pack wb [TArray e 0] [VList []] = Ok [] /\ Unpack [TArray e 0] [] = Err /\
  Pack wb [TTuple []] [VTuple []] = Ok [] /\ Unpack [TTuple []] [] = Err.
Proof.
  intros wb e D _. unfold Pack. cbn [length Nat.eqb pack_fields pack pack_elems isDynamicType existsb rbind].
  rewrite dynamic_eq, D. done.
Qed.
Print Assumptions C39_empty_static_refuted.

(** Unpack is not strict: a word with garbage above the low byte is a valid uint8. *)
Theorem C39_canonical_refuted : exists d1 d2 v, d1 <> d2 /\
  Unpack [TUint 8] d1 = Ok [v] /\ Unpack [TUint 8] d2 = Ok [v].
Proof.
  exists (replicate 31 0 ++ [7]), (replicate 30 0 ++ [1; 7]), (VNum KU8 7%Z). split; [done|]. split; reflexivity.
Qed.
Print Assumptions C39_canonical_refuted.

(** What was decoded can be packed again, and decodes to the same values. *)
Theorem C39_normalise : forall wb ts data vs, (0 < wb)%nat -> Forall valid_type ts -> is_bytes data ->
  Unpack ts data = Ok vs ->
  exists bs, Pack wb ts vs = Ok bs /\ ((Z.of_nat (length bs) < 2 ^ 63)%Z -> Unpack ts bs = Ok vs).
Proof.
  intros wb ts data vs Hwb Hv Hb Hu.
  assert (Forall2 value_of ts vs) as Ho.
  { unfold Unpack in Hu. destruct data as [|b l]; [destruct ts; [injection Hu as <-; constructor|done]|].
    assert (forall t, valid_type t -> fits t) as Hvf.
    { clear. induction t as [n|n| | | | |n| |e IH|e k IH|ts IH] using aty_ind'; try done.
      - cbn. lia.
      - intros [H _]. by apply IH.
      - intros H. apply valid_tuple in H as [_ H]. apply fits_tuple. induction IH; [constructor|].
        apply Forall_cons in H as [? ?]. constructor; auto. }
    assert (Forall (safe_type (b :: l)) ts) as Hs.
    { eapply Forall_impl; [exact Hv|]. intros t Ht. apply toGo_safe; auto. }
    pose proof (fields_safe _ ts Hs (b :: l) 0%Z 0%Z (piece_refl _) ltac:(lia)) as HL.
    unfold UnpackValues in Hu. rewrite Hu in HL. apply HL. }
  exists (enc_args ts vs). split; [by apply args_ok|]. intros Hl.
  pose proof (C39_round_trip wb ts vs (enc_args ts vs) [] Hwb Hv Ho (args_ok wb ts vs Hwb Hv Ho)) as R.
  rewrite app_nil_r in R. apply R; [done|by right].
Qed.
Print Assumptions C39_normalise.

(** f(uint8, string, (bytes2, int24[])[2], bool[2][]) *)
Definition ex_types : list aty :=
  [TUint 8; TString; TArray (TTuple [TFixedBytes 2; TSlice (TInt 24)]) 2; TSlice (TArray TBool 2)].
Definition ex_values : list val :=
  [VNum KU8 200; VString [104; 105];
   VList [VTuple [VArr [1; 2]; VList [VNum KBig (-5)]]; VTuple [VArr [3; 4]; VList []]];
   VList [VList [VBool true; VBool false]]].
Lemma ex_valid : Forall valid_type ex_types.
Proof. repeat constructor; cbn; try lia; done. Qed.
Lemma ex_value : Forall2 value_of ex_types ex_values.
Proof.
  constructor; [apply (vo_uint 8 200); cbn; lia|].
  constructor; [apply vo_string; repeat constructor|].
  constructor; [|constructor; [|constructor]].
  - apply (vo_array (TTuple [TFixedBytes 2; TSlice (TInt 24)])
      [VTuple [VArr [1; 2]; VList [VNum KBig (-5)]]; VTuple [VArr [3; 4]; VList []]]).
    constructor; [|constructor; [|constructor]]; constructor.
    + constructor; [apply vo_fixed; [repeat constructor|done]|]. constructor; [|constructor].
      apply vo_slice. constructor; [|constructor]. apply (vo_int 24 (-5)). cbn [value_bits in_range]. split; [discriminate|reflexivity].
    + constructor; [apply vo_fixed; [repeat constructor|done]|]. constructor; [|constructor].
      apply vo_slice. constructor.
  - apply vo_slice. constructor; [|constructor]. apply (vo_array TBool [VBool true; VBool false]).
    constructor; [constructor|constructor; [constructor|constructor]].
Qed.
Example C39_example : exists bs, Pack 8 ex_types ex_values = Ok bs /\ length bs = 576%nat /\ Unpack ex_types bs = Ok ex_values.
Proof.
  pose proof (C39_encoding 8 ex_types ex_values ltac:(lia) ex_valid ex_value) as E.
  assert (length (enc_args ex_types ex_values) = 576%nat) as L by reflexivity.
  eexists. split; [exact E|]. split; [exact L|].
  pose proof (C39_round_trip 8 ex_types ex_values _ [] ltac:(lia) ex_valid ex_value E) as R.
  rewrite app_nil_r in R. apply R; [rewrite L; lia|by right].
Qed.

(* -------------------------------------------------------------------- C40 *)
(** On arbitrary bytes Unpack returns an error or values: it never slices outside
    the data, the values belong to the types, every string and byte array in them is
    a piece of the data, and no list is longer than the data has words. *)
Theorem C40_unpack_total : forall ts data, Forall fits ts -> is_bytes data ->
  match Unpack ts data with
  | Ok vs => Forall2 value_of ts vs /\ Forall (from_data data) vs
  | Err => True
  | Panic => False
  end.
Proof.
  intros ts data Hf Hb. unfold Unpack. destruct data as [|b l]; [destruct ts; [split; constructor|done]|].
  assert (Forall (safe_type (b :: l)) ts) as Hs.
  { eapply Forall_impl; [exact Hf|]. intros t Ht. by apply toGo_safe. }
  pose proof (fields_safe _ ts Hs (b :: l) 0%Z 0%Z (piece_refl _) ltac:(lia)) as HL. unfold UnpackValues.
  destruct (fields_loop _ _ _ _ _) as [vs| |]; [|done|done]. cbn [safe_list] in HL. tauto.
Qed.
Print Assumptions C40_unpack_total.

(** A type bytesN with N > 32, which NewType accepts, makes Unpack panic on every
    data of at least one word. *)
Theorem C40_wide_bytes_refuted : forall n data, (32 < n)%nat -> (32 <= length data)%nat ->
  Unpack [TFixedBytes n] data = Panic.
Proof.
  intros n data Hn Hd. unfold Unpack. destruct data as [|b l]; [cbn in Hd; lia|].
  set (data := b :: l) in *. clearbody data. unfold UnpackValues. cbn [fields_loop]. cbn [toGoType].
  change ((0 + 0) * 32)%Z with 0%Z. rewrite toGo_enough by (unfold zlen; lia).
  destruct (sl_in data 0 (0 + 32)) as (w & -> & Hw & _); [lia|unfold zlen; lia|]. cbn [rbind].
  unfold ReadFixedBytes, sl. destruct (Z.leb_spec (Z.of_nat n) (zlen w)); [lia|]. rewrite andb_false_r. done.
Qed.
Print Assumptions C40_wide_bytes_refuted.

Example C40_example : Forall fits ex_types /\ Unpack ex_types (replicate 128 255) = Err /\
  Unpack [TSlice (TUint 8)] (word 32 ++ word 2 ++ word 9 ++ word 8) = Ok [VList [VNum KU8 9; VNum KU8 8]] /\
  Unpack [TSlice (TUint 8)] (word 32 ++ word 3 ++ word 9 ++ word 8) = Err /\
  Unpack [TBytes] (word (2 ^ 255) ++ word 3) = Err.
Proof. split; [repeat constructor|]. repeat split; reflexivity. Qed.

(* -------------------------------------------------------------------- C41 *)
(** getTypeSize is the head size of the specification, the packing of a static value
    has exactly that size, and every packing is a whole number of words. *)
Theorem C41_sizes : forall wb t v, (0 < wb)%nat -> valid_type t -> value_of t v ->
  exists bs, pack wb t v = Ok bs /\
    (isDynamicType t = false -> Z.of_nat (length bs) = getTypeSize t) /\
    (exists k, length bs = (32 * k)%nat) /\
    getTypeSize t = (32 * Z.of_nat (words_of t))%Z /\ isDynamicType t = dynamic t.
Proof.
  intros wb t v Hwb Hv Ho. exists (enc t v). destruct (enc_length t v Hv Ho) as [H1 H2].
  split; [by apply pack_enc|]. split; [|split; [done|split; [apply words_of_spec|apply dynamic_eq]]].
  intros D. rewrite dynamic_eq in D. rewrite H1, words_of_spec by done. lia.
Qed.
Print Assumptions C41_sizes.

(** bytesN with N > 32 breaks this: its packing is longer than its type size. *)
Theorem C41_wide_bytes_refuted : forall wb n s, (32 < n)%nat -> length s = n ->
  pack wb (TFixedBytes n) (VArr s) = Ok s /\ getTypeSize (TFixedBytes n) = 32%Z.
Proof.
  intros wb n s Hn <-. cbn [pack packElement]. rewrite Nat.eqb_refl. unfold RightPadBytes.
  destruct (Z.leb_spec 32 (Z.of_nat (length s))); [done|lia].
Qed.
Print Assumptions C41_wide_bytes_refuted.

Example C41_example : Forall valid_type ex_types /\ Forall2 value_of ex_types ex_values /\
  getTypeSize (TArray (TTuple [TBool; TArray (TUint 8) 3]) 2) = 256%Z.
Proof. split; [exact ex_valid|]. split; [exact ex_value|reflexivity]. Qed.
