(** C94: code written by rlpgen encodes and decodes like the reflection of package rlp. *)
From Verif Require Import Base RlpSpec RlpModel RlpProofs RlpDecProofs RlpTypeModel RlpTypeSpec RlpTypeProofs RlpTypeProps
  RlpGenModel RlpGenSpec RlpGenProofs.

(** A generated encoder writes the encoding of the value in which optional fields
    that hold an empty slice are nil. *)
Theorem C94_encode :
  forall t v x, wf_ty t = true -> gen_w t = true -> to_item t (nil_opt t v) = Some x -> lenN (rlp x) < two64 ->
    g_EncodeRLP t v = Some (rlp x).
Proof.
  intros t v x Hwf Hg Hx Hl. unfold g_EncodeRLP. destruct (proj1 gw_spec t Hwf Hg v x eb_empty Hx Hl) as (b' & -> & Hw).
  cbn. f_equal. by apply makeBytes_writes.
Qed.
Print Assumptions C94_encode.

(** It writes what EncodeToBytes writes for that value, and fails when that fails. *)
Theorem C94_encode_same :
  forall t v, wf_ty t = true -> gen_w t = true -> (forall x, to_item t (nil_opt t v) = Some x -> lenN (rlp x) < two64) ->
    g_EncodeRLP t v = EncodeToBytes t (nil_opt t v).
Proof.
  intros t v Hwf Hg Hl. destruct (to_item t (nil_opt t v)) as [x|] eqn:Hx.
  - rewrite (C94_encode t v x), (C70_encode t _ x); auto.
  - rewrite C70_encode_fails by done. unfold g_EncodeRLP. by rewrite (proj1 gw_none t Hwf Hg v eb_empty Hx).
Qed.
Print Assumptions C94_encode_same.

(** A generated decoder of a type without nil tags accepts exactly what DecodeBytes
    accepts, and returns the same value with nil slices for empty ones. *)
Theorem C94_decode :
  forall t b w, wf_ty t = true -> gen_d t = true -> no_nil_tag t = true -> is_bytes b -> lenN b < two64 ->
    (g_DecodeBytes t b = inr w <-> exists v, DecodeBytes t b = inr v /\ w = nil_slices t v).
Proof.
  intros t b w Hwf Hg Hn Hb Hl. unfold g_DecodeBytes, DecodeBytes, decode_bytes_with. set (F := (2 * length b + 2)%nat).
  pose proof (proj1 (sim_all F ltac:(unfold F; lia)) t Hwf Hg Hn (st_new b) (Inv_new b Hb Hl) eq_refl) as Hs.
  destruct (d_ty F t (st_new b)) as [[e|v] s].
  - destruct Hs as (e' & s' & -> & _). split; [done|]. by intros (? & ? & _).
  - rewrite Hs. destruct (st_in s); [|split; [done|by intros (? & ? & _)]].
    split; [intros [= <-]; eauto|]. by intros (v' & [= <-] & ->).
Qed.
Print Assumptions C94_decode.

(** With nil tags: a generated decoder reads what DecodeBytes reads if no pointer with a
    nil tag is nil (see the findings for values where one is nil). *)
Theorem C94_decode_nil_tags :
  forall t b v, wf_ty t = true -> gen_d t = true -> is_bytes b -> lenN b < two64 ->
    DecodeBytes t b = inr v -> no_nils t v -> g_DecodeBytes t b = inr (nil_slices t v).
Proof.
  intros t b v Hwf Hg Hb Hl. unfold g_DecodeBytes, DecodeBytes, decode_bytes_with. set (F := (2 * length b + 2)%nat).
  destruct (d_ty F t (st_new b)) as [[e|v'] s] eqn:Hd; [done|]. intros Hv Hn.
  destruct (st_in s) eqn:Hs; [|done]. injection Hv as ->.
  rewrite (proj1 (dense_all F ltac:(unfold F; lia)) t Hwf Hg _ _ _ (Inv_new b Hb Hl) eq_refl Hd Hn). by rewrite Hs.
Qed.
Print Assumptions C94_decode_nil_tags.

(** In terms of RLP items alone. *)
Theorem C94_decode_iff :
  forall t b w, wf_ty t = true -> gen_d t = true -> no_nil_tag t = true -> is_bytes b -> lenN b < two64 ->
    (g_DecodeBytes t b = inr w <-> exists x v, b = rlp x /\ item_ok x /\ of_item t x = Some v /\ w = nil_slices t v).
Proof.
  intros t b w Hwf Hg Hn Hb Hl. rewrite C94_decode by done. split.
  - intros (v & Hd & ->). apply C70_decode_iff in Hd as (x & -> & Hok & Hv); [|done..]. eauto 10.
  - intros (x & v & E & Hok & Hv & ->). exists v. split; [|done]. apply C70_decode_iff; eauto.
Qed.
Print Assumptions C94_decode_iff.

(** The loops of the decoder end: it never runs out of rounds. *)
Theorem C94_decode_total :
  forall t b, wf_ty t = true -> gen_d t = true -> no_nil_tag t = true -> is_bytes b -> lenN b < two64 ->
    g_DecodeBytes t b <> inl EOutOfFuel.
Proof.
  intros t b Hwf Hg Hn Hb Hl. pose proof (C70_decode_total t b Hwf Hb Hl) as Ht. revert Ht.
  unfold g_DecodeBytes, DecodeBytes, decode_bytes_with. set (F := (2 * length b + 2)%nat).
  pose proof (proj1 (sim_all F ltac:(unfold F; lia)) t Hwf Hg Hn (st_new b) (Inv_new b Hb Hl) eq_refl) as Hs.
  destruct (d_ty F t (st_new b)) as [[e|v] s].
  - destruct Hs as (e' & s' & -> & He). intros Ht [= ->]. apply Ht. by rewrite He.
  - rewrite Hs. by destruct (st_in s).
Qed.
Print Assumptions C94_decode_total.

(** What a generated encoder writes the generated decoder and DecodeBytes read back, up
    to the difference between nil and empty slices. *)
Theorem C94_round_trip :
  forall t v x, wf_ty t = true -> gen_w t = true -> gen_d t = true -> no_nil_tag t = true ->
    clean t v -> to_item t (nil_opt t v) = Some x -> lenN (rlp x) < two64 ->
    exists b v' w, g_EncodeRLP t v = Some b /\
      g_DecodeBytes t b = inr w /\ fill t w = fill t v /\
      DecodeBytes t b = inr v' /\ fill t v' = fill t v.
Proof.
  intros t v x Hwf Hgw Hgd Hn Hc Hx Hl. pose proof (proj1 clean_nil_opt t Hn Hgw v Hc) as Hc'.
  destruct (C70_round_trip t _ x Hwf Hc' Hx Hl) as (b & v' & He & Hd & Hf).
  rewrite (proj1 fill_nil_opt t Hgw) in Hf.
  pose proof (C70_encode t _ x Hwf Hx Hl) as He'. assert (b = rlp x) as -> by congruence.
  assert (item_ok x) as Hok.
  { destruct (proj1 clean_back t Hwf _ Hc') as (x' & ? & E1 & Hok' & _). by assert (x' = x) as <- by congruence. }
  exists (rlp x), v', (nil_slices t v'). split; [by apply C94_encode|].
  split; [apply C94_decode; [done..|by apply rlp_bytes|done|eauto]|].
  split; [by rewrite (proj1 fill_nil_slices t Hgd)|done].
Qed.
Print Assumptions C94_round_trip.

(* ------------------------------------------------------------------ examples *)
(** struct { A uint64; B []uint16; C *[3]byte; D []byte `optional`; E bool `optional` } *)
Definition gex_ty : rty :=
  RStruct (FCons FPlain (RUint 64) (FCons FPlain (RSlice (RUint 16)) (FCons FPlain (RPtr (RByteArr 3))
    (FCons FOpt RBytes (FCons FOpt RBool FNil))))).
Definition gex_val : rval := VList [VNum 1000; VList [VNum 7; VNum 300]; VPtr (VStr [1; 2; 3]); VStr []; VBool false].
Definition gex_bytes : list N := [0xCC; 0x82; 3; 232; 0xC4; 7; 0x82; 1; 44; 0x83; 1; 2; 3].
Example C94_ex_wf : wf_ty gex_ty = true /\ gen_w gex_ty = true /\ gen_d gex_ty = true /\ no_nil_tag gex_ty = true.
Proof. by vm_compute. Qed.
Example C94_ex_clean : clean gex_ty gex_val.
Proof. cbn. split; [done|]. split_and!; try done; try (right; split_and!); repeat constructor; done. Qed.
Example C94_ex_encode : g_EncodeRLP gex_ty gex_val = Some gex_bytes /\ option_map rlp (to_item gex_ty (nil_opt gex_ty gex_val)) = Some gex_bytes.
Proof. by vm_compute. Qed.
Example C94_ex_decode : g_DecodeBytes gex_ty gex_bytes =
  inr (VList [VNum 1000; VList [VNum 7; VNum 300]; VPtr (VStr [1; 2; 3]); VNil; VBool false]).
Proof. by vm_compute. Qed.
Example C94_ex_reject : exists e, g_DecodeBytes gex_ty (gex_bytes ++ [0]) = inl e.
Proof. eexists. by vm_compute. Qed.

(** struct { A *uint64 `nil`; B *struct{ X bool } `nilString`; C *[]byte `nilList` } *)
Definition gex_nil : rty :=
  RStruct (FCons FPlain (RNilPtr NKString (RUint 64)) (FCons FPlain (RNilPtr NKString (RStruct (FCons FPlain RBool FNil)))
    (FCons FPlain (RNilPtr NKList RBytes) FNil))).
Example C94_ex_nil_wf : wf_ty gex_nil = true /\ gen_d gex_nil = true.
Proof. by vm_compute. Qed.
Definition gex_nil_val : rval := VList [VPtr (VNum 5); VPtr (VList [VBool false]); VPtr (VStr [200; 1])].
Example C94_ex_nil : DecodeBytes gex_nil [0xC6; 5; 0xC1; 0x80; 0x82; 200; 1] = inr gex_nil_val /\ no_nils gex_nil gex_nil_val.
Proof. split; [by vm_compute|by cbn]. Qed.

(* ------------------------------------------------------------------ findings *)
(** Generated code and reflection write different bytes for an optional field that
    holds an empty slice that is not nil. *)
Theorem C94_empty_optional_refuted :
  exists t v b b', wf_ty t = true /\ gen_w t = true /\ clean t v /\
    EncodeToBytes t v = Some b /\ g_EncodeRLP t v = Some b' /\ b <> b'.
Proof.
  exists (RStruct (FCons FOpt RBytes FNil)), (VList [VStr []]), [0xC1; 0x80], [0xC0].
  split; [done|]. split; [done|]. split; [|by vm_compute].
  cbn. split; [done|]. right. by split; [constructor|].
Qed.
Print Assumptions C94_empty_optional_refuted.

(** A generated decoder does not take a nil value off the stream: it refuses what the
    generated encoder wrote for struct { A *uint64 `nil`; B uint64 } ... *)
Theorem C94_nil_not_consumed_refuted :
  exists t v b e, wf_ty t = true /\ gen_w t = true /\ gen_d t = true /\ clean t v /\
    g_EncodeRLP t v = Some b /\ DecodeBytes t b = inr v /\ g_DecodeBytes t b = inl e.
Proof.
  exists (RStruct (FCons FPlain (RNilPtr NKString (RUint 64)) (FCons FPlain (RUint 64) FNil))), (VList [VNil; VNum 5]), [0xC2; 0x80; 5].
  eexists. split; [done|]. split; [done|]. split; [done|]. split; [by cbn|]. by vm_compute.
Qed.
Print Assumptions C94_nil_not_consumed_refuted.

(** ... and with an optional third field it returns another value, without an error. *)
Theorem C94_nil_shifts_fields_refuted :
  exists t v v' b, wf_ty t = true /\ gen_w t = true /\ gen_d t = true /\ clean t v /\
    g_EncodeRLP t v = Some b /\ DecodeBytes t b = inr v /\ g_DecodeBytes t b = inr v' /\ v' <> v.
Proof.
  exists (RStruct (FCons FPlain (RNilPtr NKString (RUint 64)) (FCons FPlain (RUint 64) (FCons FOpt (RUint 64) FNil)))),
    (VList [VNil; VNum 5; VNum 0]), (VList [VNil; VNum 0; VNum 5]), [0xC2; 0x80; 5].
  split; [done|]. split; [done|]. split; [done|]. split; [|by vm_compute]. cbn. split; [done|]. split; [done|]. split; [done|]. by left.
Qed.
Print Assumptions C94_nil_shifts_fields_refuted.

(** A generated decoder of struct { A *uint64 `nilList` } accepts C1 80 as a pointer to
    0, which DecodeBytes refuses. *)
Theorem C94_other_nil_refuted :
  exists t b v e, wf_ty t = true /\ gen_d t = true /\ g_DecodeBytes t b = inr v /\ DecodeBytes t b = inl e.
Proof.
  exists (RStruct (FCons FPlain (RNilPtr NKList (RUint 64)) FNil)), [0xC1; 0x80], (VList [VPtr (VNum 0)]).
  eexists. split; [done|]. split; [done|]. by vm_compute.
Qed.
Print Assumptions C94_other_nil_refuted.
