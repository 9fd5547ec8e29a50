(** C70: typed RLP, what EncodeToBytes writes and DecodeBytes accepts for a Go type. *)
From Verif Require Import Base RlpSpec RlpModel RlpProofs RlpDecProofs RlpTypeModel RlpTypeSpec RlpTypeProofs.
Open Scope N_scope.

(** EncodeToBytes writes the encoding of the item that the value stands for, and
    fails for values that stand for none (negative numbers). *)
Theorem C70_encode :
  forall t v x, wf_ty t = true -> to_item t v = Some x -> lenN (rlp x) < two64 ->
    EncodeToBytes t v = Some (rlp x).
Proof.
  intros t v x Hwf Hx Hl. unfold EncodeToBytes. destruct (proj1 w_spec t Hwf v x eb_empty Hx Hl) as (b' & -> & Hw).
  cbn. f_equal. by apply makeBytes_writes.
Qed.
Print Assumptions C70_encode.

(** A nil pointer without a tag is written as the empty string if it points to an unsigned
    integer, a boolean, a string, or a slice or array of bytes, as the empty list else. *)
Theorem C70_nil_pointer : forall t, wf_ty (RPtr t) = true ->
  EncodeToBytes (RPtr t) VNil = Some [match t with
    | RUint _ | RBool | RString | RBytes | RByteArr _ => 0x80
    | RSlice _ | RArr _ _ | RStruct _ | RPtr _ | RNilPtr _ _ | RIface | RBig | RBigPtr | RU256 | RU256Ptr => 0xC0
    end].
Proof. intros t _. by destruct t. Qed.
Print Assumptions C70_nil_pointer.

Theorem C70_encode_fails :
  forall t v, wf_ty t = true -> to_item t v = None -> EncodeToBytes t v = None.
Proof. intros t v Hwf Hx. unfold EncodeToBytes. by rewrite (proj1 w_none t Hwf v eb_empty Hx). Qed.
Print Assumptions C70_encode_fails.

(** DecodeBytes accepts exactly the canonical encodings of the items that fit the
    type, and returns the value that the item stands for. *)
Theorem C70_decode_iff :
  forall t b v, wf_ty t = true -> is_bytes b -> lenN b < two64 ->
    (DecodeBytes t b = inr v <-> exists x, b = rlp x /\ item_ok x /\ of_item t x = Some v).
Proof.
  intros t b v Hwf Hb Hl. unfold DecodeBytes, decode_bytes_with. set (F := (2 * length b + 2)%nat).
  assert (0 < F)%nat as HF by (unfold F; lia). split.
  - destruct (d_ty F t (st_new b)) as [[e|w] s] eqn:Hd; [done|].
    destruct (proj1 (d_bwd F HF) t Hwf _ _ _ (Inv_new b Hb Hl) eq_refl Hd) as (x & (Hi & _) & _ & Hok & Hof).
    cbn in Hi. destruct (st_in s); [|done]. intros [= <-]. rewrite app_nil_r in Hi. eauto.
  - intros (x & -> & Hok & Hof).
    destruct (fwd_adv F t (st_new (rlp x)) x v [] HF Hwf (proj1 (d_fwd F HF) t Hwf) Hof Hok (Inv_new _ Hb Hl) eq_refl) as (s' & -> & (Hi & _) & _);
      [by rewrite app_nil_r|done|cbn; unfold F; lia|].
    cbn in Hi. rewrite <- (app_nil_r (rlp x)) in Hi at 1. apply app_inv_head in Hi. by rewrite <- Hi.
Qed.
Print Assumptions C70_decode_iff.

(** The fuel of the model never runs out: decoding always ends with a value or one
    of the errors of the package. *)
Theorem C70_decode_total :
  forall t b, wf_ty t = true -> is_bytes b -> lenN b < two64 -> DecodeBytes t b <> inl EOutOfFuel.
Proof.
  intros t b Hwf Hb Hl. unfold DecodeBytes, decode_bytes_with.
  destruct (d_ty (2 * length b + 2) t (st_new b)) as [[e|w] s] eqn:Hd; [|by destruct (st_in s)].
  intros [= ->]. revert Hd. apply (proj1 (d_nofuel (2 * length b + 2) ltac:(lia)) t Hwf); [by apply Inv_new|done|cbn; lia].
Qed.
Print Assumptions C70_decode_total.

(** A value without nil pointers (other than under a nil tag, or in optional fields
    that are not written) comes back, nil slices as empty slices. *)
Theorem C70_round_trip :
  forall t v x, wf_ty t = true -> clean t v -> to_item t v = Some x -> lenN (rlp x) < two64 ->
    exists b v', EncodeToBytes t v = Some b /\ DecodeBytes t b = inr v' /\ fill t v' = fill t v.
Proof.
  intros t v x Hwf Hc Hx Hl. destruct (proj1 clean_back t Hwf v Hc) as (x' & v' & E1 & E2 & E3 & E4).
  assert (x' = x) as -> by congruence. exists (rlp x), v'. split; [by apply C70_encode|]. split; [|done].
  apply C70_decode_iff; [done|by apply rlp_bytes|done|]. eauto.
Qed.
Print Assumptions C70_round_trip.

(** So two values with one encoding are equal, up to nil slices. *)
Theorem C70_injective :
  forall t v w x y, wf_ty t = true -> clean t v -> clean t w ->
    to_item t v = Some x -> to_item t w = Some y -> lenN (rlp x) < two64 -> lenN (rlp y) < two64 ->
    EncodeToBytes t v = EncodeToBytes t w -> fill t v = fill t w.
Proof.
  intros t v w x y Hwf Hv Hw Hx Hy Hlx Hly He.
  destruct (C70_round_trip t v x Hwf Hv Hx Hlx) as (b & v' & E1 & E2 & E3).
  destruct (C70_round_trip t w y Hwf Hw Hy Hly) as (c & w' & F1 & F2 & F3). congruence.
Qed.
Print Assumptions C70_injective.

(** Every clean value of a type has an item. *)
Theorem C70_clean_encodes :
  forall t v, wf_ty t = true -> clean t v -> exists x, to_item t v = Some x /\ item_ok x.
Proof. intros t v Hwf Hc. destruct (proj1 clean_back t Hwf v Hc) as (x & v' & E1 & E2 & _). eauto. Qed.
Print Assumptions C70_clean_encodes.

(** Without optional fields there is one encoding per value: what was decoded is
    written back byte for byte. *)
Theorem C70_canonical :
  forall t b v, wf_ty t = true -> no_optional t = true -> is_bytes b -> lenN b < two64 ->
    DecodeBytes t b = inr v -> EncodeToBytes t v = Some b.
Proof.
  intros t b v Hwf Hno Hb Hl Hd. apply C70_decode_iff in Hd as (x & -> & Hok & Hof); [|done..].
  apply C70_encode; [done| |done]. by apply (proj1 exact_back).
Qed.
Print Assumptions C70_canonical.

(** With optional fields, writing back never makes the bytes longer, and the value
    read from the new bytes is the same. *)
Theorem C70_stable :
  forall t b v, wf_ty t = true -> nil_exact t = true -> is_bytes b -> lenN b < two64 ->
    DecodeBytes t b = inr v ->
    exists b', EncodeToBytes t v = Some b' /\ lenN b' <= lenN b /\ DecodeBytes t b' = inr v.
Proof.
  intros t b v Hwf Hne Hb Hl Hd. apply C70_decode_iff in Hd as (x & -> & Hok & Hof); [|done..].
  destruct (proj1 again_back t Hwf Hne x v Hok Hof) as (x' & E1 & E2 & E3 & E4). exists (rlp x').
  split; [apply C70_encode; [done|done|lia]|]. split; [done|].
  apply C70_decode_iff; [done|apply rlp_bytes; [done|lia]|lia|]. eauto.
Qed.
Print Assumptions C70_stable.

(* ------------------------------------------------------------------ counterexamples *)
(** struct { A uint64; B uint64 `rlp:"optional"` } *)
Definition T_opt : rty := RStruct (FCons FPlain (RUint 64) (FCons FOpt (RUint 64) FNil)).

(** With an optional field two different inputs decode to one value, and one of them
    is not written back. *)
Theorem C70_canonical_with_optional_refuted :
  ~ (forall t b v, wf_ty t = true -> is_bytes b -> lenN b < two64 ->
       DecodeBytes t b = inr v -> EncodeToBytes t v = Some b).
Proof.
  intros H. specialize (H T_opt [0xC2; 1; 0x80] (VList [VNum 1; VNum 0]) eq_refl).
  assert (EncodeToBytes T_opt (VList [VNum 1; VNum 0]) = Some [0xC1; 1]) as E by (vm_compute; reflexivity).
  rewrite E in H. assert (Some [0xC1; 1] = Some [0xC2; 1; 0x80]) as HH; [|done].
  apply H; [by apply is_bytesb_spec|done|vm_compute; reflexivity].
Qed.
Print Assumptions C70_canonical_with_optional_refuted.

(** struct { P *struct { A uint64 `rlp:"optional"` } `rlp:"nil"` }: a pointer to the
    zero struct is read from [[0]], written as [[]] and read from there as nil. *)
Definition T_nilopt : rty := RStruct (FCons FPlain (RNilPtr NKList (RStruct (FCons FOpt (RUint 64) FNil))) FNil).
Theorem C70_stable_without_nil_exact_refuted :
  ~ (forall t b v, wf_ty t = true -> is_bytes b -> lenN b < two64 -> DecodeBytes t b = inr v ->
       exists b', EncodeToBytes t v = Some b' /\ DecodeBytes t b' = inr v).
Proof.
  intros H. destruct (H T_nilopt [0xC2; 0xC1; 0x80] (VList [VPtr (VList [VNum 0])]) eq_refl) as (b' & E1 & E2);
    [by apply is_bytesb_spec|done|vm_compute; reflexivity|].
  assert (EncodeToBytes T_nilopt (VList [VPtr (VList [VNum 0])]) = Some [0xC1; 0xC0]) as E by (vm_compute; reflexivity).
  rewrite E in E1. injection E1 as <-. revert E2. vm_compute. discriminate.
Qed.
Print Assumptions C70_stable_without_nil_exact_refuted.

(** A nil pointer to a struct without a nil tag is written as an empty list and is
    not accepted on the way back. *)
Definition T_ptr : rty := RPtr (RStruct (FCons FPlain (RUint 64) FNil)).
Theorem C70_nil_pointer_round_trip_refuted :
  EncodeToBytes T_ptr VNil = Some [0xC0] /\ forall v, DecodeBytes T_ptr [0xC0] <> inr v.
Proof.
  split; [vm_compute; reflexivity|]. intros v. assert (DecodeBytes T_ptr [0xC0] = inl EWrongSize) as -> by (vm_compute; reflexivity). done.
Qed.
Print Assumptions C70_nil_pointer_round_trip_refuted.

(** A nil *big.Int is written as 0 and comes back as a pointer to 0. *)
Theorem C70_nil_big_round_trip_refuted :
  EncodeToBytes RBigPtr VNil = Some [0x80] /\ DecodeBytes RBigPtr [0x80] = inr (VPtr (VNum 0)).
Proof. split; vm_compute; reflexivity. Qed.
Print Assumptions C70_nil_big_round_trip_refuted.

(** A pointer to an empty string under the tag nilList is written as an empty string,
    which the decoder of that very field refuses. *)
Theorem C70_nil_tag_own_encoding_refuted :
  EncodeToBytes (RNilPtr NKList RString) (VPtr (VStr [])) = Some [0x80] /\
  forall v, DecodeBytes (RNilPtr NKList RString) [0x80] <> inr v.
Proof.
  split; [vm_compute; reflexivity|]. intros v.
  assert (DecodeBytes (RNilPtr NKList RString) [0x80] = inl EWrongSize) as -> by (vm_compute; reflexivity). done.
Qed.
Print Assumptions C70_nil_tag_own_encoding_refuted.

(** A pointer to an empty string under the tag nil comes back as a nil pointer. *)
Theorem C70_nil_tag_loses_empty_refuted :
  EncodeToBytes (RNilPtr NKString RString) (VPtr (VStr [])) = Some [0x80] /\
  DecodeBytes (RNilPtr NKString RString) [0x80] = inr VNil.
Proof. split; vm_compute; reflexivity. Qed.
Print Assumptions C70_nil_tag_loses_empty_refuted.

(* ------------------------------------------------------------------ examples *)
(** struct { A uint16; B []byte; C [2]bool; D *uint256 `nil`; E string `optional`; F []interface{} `tail` } *)
Definition T_ex : rty :=
  RStruct (FCons FPlain (RUint 16) (FCons FPlain RBytes (FCons FPlain (RArr 2 RBool)
    (FCons FPlain (RNilPtr NKString RU256) (FCons FOpt RString (FCons FTail RIface FNil)))))).
Definition V_ex : rval :=
  VList [VNum 1024; VNil; VList [VBool true; VBool false]; VPtr (VNum 300); VStr [104; 105]; VList [VItem (Str [7]); VItem (Lst [])]].
Definition X_ex : item :=
  Lst [Str [4; 0]; Str []; Lst [Str [1]; Str []]; Str [1; 44]; Str [104; 105]; Str [7]; Lst []].
Example C70_example :
  wf_ty T_ex = true /\ nil_exact T_ex = true /\ to_item T_ex V_ex = Some X_ex /\ lenN (rlp X_ex) < two64 /\
  EncodeToBytes T_ex V_ex = Some [0xCF; 0x82; 4; 0; 0x80; 0xC2; 1; 0x80; 0x82; 1; 44; 0x82; 104; 105; 7; 0xC0].
Proof. repeat split; vm_compute; reflexivity. Qed.
Example C70_example_clean : clean T_ex V_ex.
Proof.
  split; [done|]. cbn [clean_fields T_ex]. split; [done|]. split; [done|]. split; [split; [done|repeat constructor]|].
  split; [split; [done|split; done]|]. right. split; [by apply is_bytesb_spec|]. split; [|done]. right. eexists. split; [done|].
  repeat constructor.
Qed.
Example C70_example_decode :
  DecodeBytes T_ex [0xCF; 0x82; 4; 0; 0x80; 0xC2; 1; 0x80; 0x82; 1; 44; 0x82; 104; 105; 7; 0xC0]
  = inr (VList [VNum 1024; VStr []; VList [VBool true; VBool false]; VPtr (VNum 300); VStr [104; 105]; VList [VItem (Str [7]); VItem (Lst [])]]).
Proof. vm_compute. reflexivity. Qed.
(** Too many elements, a leading zero, and a non-minimal size are refused. *)
Example C70_example_refused :
  DecodeBytes T_opt [0xC3; 1; 2; 3] = inl ENotAtEOL /\ DecodeBytes T_opt [0xC1; 0] = inl ECanonInt /\
  DecodeBytes RBytes [0x81; 5] = inl ECanonSize /\ DecodeBytes (RUint 8) [0x82; 1; 0] = inl EUintOverflow.
Proof. repeat split; vm_compute; reflexivity. Qed.
Example C70_example_no_optional :
  let t := RStruct (FCons FPlain (RSlice RString) (FCons FTail (RUint 16) FNil)) in
  wf_ty t = true /\ no_optional t = true /\ DecodeBytes t [0xC3; 0xC0; 5; 9] = inr (VList [VList []; VList [VNum 5; VNum 9]]).
Proof. repeat split; vm_compute; reflexivity. Qed.
Example C70_example_negative : to_item RBig (VNum (-1)) = None. Proof. reflexivity. Qed.
