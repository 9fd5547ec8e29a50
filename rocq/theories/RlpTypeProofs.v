(** Proofs about the typed writers and decoders. *)
From Verif Require Import Base RlpSpec RlpModel RlpProofs RlpDecProofs RlpRawProofs RlpProps RlpTypeModel RlpTypeSpec.

Scheme rty_mut := Induction for rty Sort Prop
  with rfields_mut := Induction for rfields Sort Prop.
Combined Scheme rty_fields_ind from rty_mut, rfields_mut.

(* ---------------------------------------------------------- writers of single values *)
Lemma num_item_rlp z : rlp (num_item z) = rlp_nat (Z.to_N z). Proof. reflexivity. Qed.

Lemma rlp_str_len s : lenN (rlp (Str s)) < two64 -> lenN s < two64.
Proof.
  destruct s as [|x [|y s]]; [done|intros _; done|]. rewrite str_hdr by (intros ? [=]). rewrite lenN_app. lia.
Qed.

Lemma writeString_spec b s : lenN s < two64 -> writes b (writeString b s) (rlp (Str s)).
Proof.
  intros Hl. replace (writeString b s) with (writeBytes b s) by (by destruct s as [|x [|y s]]). by apply writeBytes_spec.
Qed.

Lemma writeByteArray_spec b n s : length s = n -> lenN s < two64 -> writes b (writeByteArray b n s) (rlp (Str s)).
Proof.
  intros Hn Hl. destruct n as [|[|n]]; cbn [writeByteArray].
  - destruct s; [|done]. apply writes_append.
  - destruct s as [|x [|y s]]; [done| |done]. cbn [rlp]. destruct (N.leb_spec x 0x7F), (N.ltb_spec x 128); try lia; apply writes_append.
  - rewrite str_hdr by (intros ? ->; done). eapply writes_trans; [by apply encodeStringHeader_spec|apply writes_append].
Qed.

Lemma size_bytes z : (N.size z + 7) / 8 = lenN (be_bytes z).
Proof.
  destruct (N.eq_dec z 0) as [->|Hz]; [done|].
  destruct (bigint_len z Hz) as [_ HL]. done.
Qed.

Lemma writeUint256_spec b z : z < 2 ^ 256 -> writes b (writeUint256 b z) (rlp_nat z).
Proof.
  intros Hz. unfold writeUint256. destruct (N.leb_spec (N.size z) 64) as [Hs|Hs].
  - apply writeUint64_spec. eapply N.lt_le_trans; [apply N.size_gt|]. change two64 with (2 ^ 64). apply N.pow_le_mono_r; lia.
  - rewrite size_bytes. set (n := lenN (be_bytes z)).
    assert (n <= 32) as Hn.
    { unfold n, lenN. pose proof (be_bytes_length_le z 32 Hz). lia. }
    assert (8 < n) as Hn8.
    { unfold n. rewrite <- size_bytes. clear -Hs. apply N.lt_le_trans with 9; [lia|].
      apply N.div_le_lower_bound; lia. }
    unfold byte_of. rewrite (N.mod_small n) by lia. rewrite (N.mod_small (0x80 + n)) by lia.
    assert (exists m, n = N.of_nat m /\ length (be_bytes z) = m) as (m & Hm & Hlen) by (exists (length (be_bytes z)); done).
    assert (be_fixed 32 z = replicate (32 - m) 0 ++ be_bytes z) as Hf.
    { rewrite <- Hlen. apply be_fixed_pad. exact Hz. }
    replace (N.to_nat n) with m by lia. rewrite Hf.
    assert (drop (32 - m) (<[(32 - m)%nat:=128 + n]> (0 :: replicate (32 - m) 0 ++ be_bytes z)) = (128 + n) :: be_bytes z) as ->.
    { rewrite app_comm_cons. change (0 :: replicate (32 - m) 0) with (replicate (S (32 - m)) 0).
      rewrite replicate_S_end, <- app_assoc. cbn [app].
      rewrite insert_app_r_alt by (rewrite replicate_length; lia). rewrite replicate_length, Nat.sub_diag. cbn.
      rewrite drop_app_ge by (rewrite replicate_length; lia). by rewrite replicate_length, Nat.sub_diag. }
    unfold rlp_nat. rewrite str_hdr.
    + fold n. rewrite rlp_head_short by lia. apply writes_append.
    + intros x Hx. unfold n in Hn8. rewrite Hx in Hn8. change (lenN [x]) with 1 in Hn8. lia.
Qed.

Lemma writeBool_spec b x : writes b (writeBool b x) (rlp (Str (if x then [1] else []))).
Proof. destruct x; apply writes_append. Qed.

Lemma writes_nil b : writes b b [].
Proof. exists [], []. rewrite !app_nil_r. repeat split; try done; try lia. Qed.

(* ---------------------------------------------------------- which fields are written *)
Lemma zero_flags_length fs : forall vs, length vs = num_fields fs -> length (zero_flags fs vs) = num_fields fs.
Proof.
  induction fs as [|g t fs IH]; intros vs Hl; [done|]. destruct vs as [|v vs]; [done|].
  cbn in Hl. destruct g; cbn; f_equal; apply IH; lia.
Qed.

Lemma are_zero_flags fs : forall vs, are_zero fs vs = forallb (fun z => z) (zero_flags fs vs).
Proof.
  induction fs as [|g t fs IH]; intros vs; [done|]. destruct vs as [|v vs]; [by destruct g|].
  destruct g; cbn; by rewrite <- IH.
Qed.

Lemma last_loop_spec first zs : forall k, let n := last_loop first k zs in
  (n <= k)%nat /\ (forall i, (n <= i < k)%nat -> default false (zs !! i) = true) /\
  ((first <= k)%nat -> (first <= n)%nat /\ (n = first \/ (0 < n)%nat /\ default false (zs !! pred n) = false)).
Proof.
  induction k as [|k IH]; cbn [last_loop].
  - cbn. split; [lia|]. split; [intros; lia|]. intros. split; [lia|]. left. lia.
  - destruct (Nat.leb_spec first k) as [Hle|Hgt]; cbn [andb].
    + destruct (default false (zs !! k)) eqn:Hz.
      * cbn in IH. destruct IH as (H1 & H2 & H3). split; [lia|]. split; [|intros _; by apply H3].
        intros i Hi. destruct (decide (i = k)) as [->|]; [done|]. apply H2. lia.
      * cbn. split; [lia|]. split; [intros; lia|]. intros _. split; [lia|]. right. split; [lia|done].
    + cbn. split; [lia|]. split; [intros; lia|]. intros. split; [lia|]. left. lia.
Qed.

(** [n] is the number of fields to write; [any]: an optional field came before. *)
Definition keeps (any : bool) (fs : rfields) (vs : list rval) (n : nat) : Prop :=
  let zs := zero_flags fs vs in
  (n <= num_fields fs)%nat /\ (forall i, (n <= i < num_fields fs)%nat -> default false (zs !! i) = true) /\
  if any then n = 0%nat \/ (0 < n)%nat /\ default false (zs !! pred n) = false
  else (first_opt fs <= n)%nat /\ (n = first_opt fs \/ (0 < n)%nat /\ default false (zs !! pred n) = false).

Lemma keeps_all_zero any fs vs : length vs = num_fields fs -> keeps any fs vs 0 -> are_zero fs vs = true.
Proof.
  intros Hl (_ & Hz & _). rewrite are_zero_flags. rewrite forallb_forall. intros z Hi.
  apply elem_of_list_In, elem_of_list_lookup in Hi as [i Hi]. pose proof (lookup_lt_Some _ _ _ Hi) as Hlt.
  rewrite zero_flags_length in Hlt by done. specialize (Hz i ltac:(lia)). by rewrite Hi in Hz.
Qed.

Lemma nonzero_flag fs vs i : (i < num_fields fs)%nat -> length vs = num_fields fs ->
  default false (zero_flags fs vs !! i) = false -> are_zero fs vs = false.
Proof.
  intros Hi Hl Hz. rewrite are_zero_flags. apply not_true_is_false. rewrite forallb_forall. intros Hall.
  destruct (lookup_lt_is_Some_2 (zero_flags fs vs) i) as [z Hq]; [by rewrite zero_flags_length|].
  rewrite Hq in Hz. cbn in Hz. subst z. specialize (Hall false). discriminate Hall.
  apply elem_of_list_In, elem_of_list_lookup. eauto.
Qed.

Lemma struct_keeps fs vs : length vs = num_fields fs ->
  keeps false fs vs (if (first_opt fs =? num_fields fs)%nat then num_fields fs
                     else last_loop (first_opt fs) (num_fields fs) (zero_flags fs vs)).
Proof.
  intros Hl. assert (first_opt fs <= num_fields fs)%nat as Hf.
  { clear. induction fs as [|[] t fs IH]; cbn; lia. }
  unfold keeps. destruct (Nat.eqb_spec (first_opt fs) (num_fields fs)) as [E|E].
  - split; [lia|]. split; [intros; lia|]. split; [lia|]. by left.
  - destruct (last_loop_spec (first_opt fs) (zero_flags fs vs) (num_fields fs)) as (H1 & H2 & H3).
    split; [done|]. split; [done|]. by apply H3.
Qed.

Lemma keeps_cons any g t fs v vs n : length vs = num_fields fs ->
  (match g with FPlain => any = false | FOpt => True | FTail => fs = FNil end) ->
  keeps any (FCons g t fs) (v :: vs) (S n) ->
  keeps (match g with FOpt => true | _ => any end) fs vs n.
Proof.
  intros Hl Hg (H1 & H2 & H3). cbn [num_fields] in *.
  assert (exists z, zero_flags (FCons g t fs) (v :: vs) = z :: zero_flags fs vs) as [z Hz] by (destruct g; eexists; reflexivity).
  rewrite Hz in *. split; [lia|]. split.
  { intros i Hi. apply (H2 (S i)). lia. }
  assert ((0 < S n)%nat /\ default false ((z :: zero_flags fs vs) !! pred (S n)) = false -> n = 0%nat \/ (0 < n)%nat /\ default false (zero_flags fs vs !! pred n) = false) as Hd.
  { intros [_ Hd]. destruct n as [|n]; [by left|]. right. split; [lia|]. exact Hd. }
  destruct g; cbn [first_opt] in H3.
  - subst any. destruct H3 as [H3 H4]. split; [lia|]. destruct H4 as [H4|H4]; [left; lia|]. destruct (Hd H4) as [->|?]; [|by right]. left. lia.
  - destruct any; [destruct H3 as [?|?]; [lia|auto]|destruct H3 as [_ [?|?]]; [lia|auto]].
  - subst fs. cbn [num_fields] in *. assert (n = 0%nat) by lia. subst n. cbn.
    destruct any; [by left|]. split; [lia|]. by left.
Qed.

(* ---------------------------------------------------------- writers are exact *)
Lemma w_elems_spec t :
  (forall v x b, to_item t v = Some x -> lenN (rlp x) < two64 -> exists b', w_ty t v b = Some b' /\ writes b b' (rlp x)) ->
  forall vs xs b, mapM (to_item t) vs = Some xs -> lenN (rlps xs) < two64 ->
    exists b', w_elems (w_ty t) vs b = Some b' /\ writes b b' (rlps xs).
Proof.
  intros IH. induction vs as [|v vs IHv]; intros xs b Hm Hl.
  - injection Hm as <-. exists b. split; [done|apply writes_nil].
  - apply mapM_Some in Hm. inversion Hm as [|? x ? ys Hx Hxs]; subst. cbn [rlps] in *. rewrite lenN_app in Hl.
    destruct (IH v x b Hx) as (b1 & Hw1 & Hs1); [lia|]. cbn [w_elems]. rewrite Hw1.
    destruct (IHv ys b1) as (b2 & Hw2 & Hs2); [by apply mapM_Some|lia|]. exists b2. split; [done|]. by eapply writes_trans.
Qed.

Lemma w_list_spec t :
  (forall v x b, to_item t v = Some x -> lenN (rlp x) < two64 -> exists b', w_ty t v b = Some b' /\ writes b b' (rlp x)) ->
  forall vs xs b, mapM (to_item t) vs = Some xs -> lenN (rlp (Lst xs)) < two64 ->
    exists b', w_list (w_ty t) vs b = Some b' /\ writes b b' (rlp (Lst xs)).
Proof.
  intros IH vs xs b Hm Hl. rewrite rlp_Lst in *. rewrite lenN_app in Hl.
  destruct vs as [|v vs].
  - injection Hm as <-. eexists. split; [done|]. apply writes_append.
  - cbn [w_list eb_list]. destruct (w_elems_spec t IH (v :: vs) xs (EncBuf (eb_str b) (eb_heads b ++ [(lenN (eb_str b), eb_lhsize b)]) (eb_lhsize b)) Hm) as (b2 & -> & Hs); [lia|].
    eexists. split; [done|]. eapply writes_list; [reflexivity|exact Hs|lia].
Qed.

Lemma nil_item_writes b k : writes b (eb_append b [nil_code k]) (rlp (nil_item k)).
Proof. destruct k; apply writes_append. Qed.

Lemma wf_uint bits : wf_ty (RUint bits) = true -> bits = 8 \/ bits = 16 \/ bits = 32 \/ bits = 64.
Proof. cbn. rewrite !orb_true_iff, !N.eqb_eq. tauto. Qed.

Lemma below_spec bits z : below bits z = true <-> (0 <= z < 2 ^ Z.of_N bits)%Z.
Proof. unfold below. rewrite andb_true_iff, Z.leb_le, Z.ltb_lt. done. Qed.
Lemma below_N bits z : below bits z = true -> Z.to_N z < 2 ^ bits.
Proof.
  rewrite below_spec. intros [H1 H2]. apply N2Z.inj_lt. rewrite Z2N.id by done. by rewrite N2Z.inj_pow.
Qed.

Lemma w_spec :
  (forall t, wf_ty t = true -> forall v x b, to_item t v = Some x -> lenN (rlp x) < two64 ->
     exists b', w_ty t v b = Some b' /\ writes b b' (rlp x)) /\
  (forall fs, wf_fields fs = true -> forall any vs xs n b, tags_ok any fs = true -> length vs = num_fields fs -> keeps any fs vs n ->
     to_items fs vs = Some xs -> lenN (rlps xs) < two64 ->
     exists b', w_fields fs n vs b = Some b' /\ writes b b' (rlps xs)).
Proof.
  apply rty_fields_ind.
  - (* RUint *) intros bits Hwf v x b Hx Hl. destruct v; try done. cbn [to_item] in Hx. cbn [w_ty].
    change ((0 <=? z) && (z <? 2 ^ Z.of_N bits))%Z with (below bits z). destruct (below bits z) eqn:Hb; [|done].
    injection Hx as <-. eexists. split; [done|]. apply writeUint64_spec. apply below_N in Hb.
    eapply N.lt_le_trans; [exact Hb|]. change two64 with (2 ^ 64). apply N.pow_le_mono_r; [done|].
    apply wf_uint in Hwf. lia.
  - (* RBool *) intros _ v x b Hx Hl. destruct v; try done. injection Hx as <-. eexists. split; [done|]. apply writeBool_spec.
  - (* RBig *) intros _ v x b Hx Hl. destruct v; try done. cbn [to_item] in Hx. cbn [w_ty]. destruct (z <? 0)%Z; [done|].
    injection Hx as <-. eexists. split; [done|]. apply writeBigInt_spec. by apply rlp_str_len.
  - (* RBigPtr *) intros _ v x b Hx Hl. destruct v as [| | | | |[]|]; try done.
    + injection Hx as <-. eexists. split; [done|]. apply writes_append.
    + cbn [to_item] in Hx. cbn [w_ty]. destruct (z <? 0)%Z; [done|].
      injection Hx as <-. eexists. split; [done|]. apply writeBigInt_spec. by apply rlp_str_len.
  - (* RU256 *) intros _ v x b Hx Hl. destruct v; try done. cbn [to_item] in Hx. cbn [w_ty].
    change ((0 <=? z) && (z <? 2 ^ 256))%Z with (below 256 z). destruct (below 256 z) eqn:Hb; [|done].
    injection Hx as <-. eexists. split; [done|]. apply writeUint256_spec. by apply below_N in Hb.
  - intros _ v x b Hx Hl. destruct v as [| | | | |[]|]; try done.
    + injection Hx as <-. eexists. split; [done|]. apply writes_append.
    + cbn [to_item] in Hx. cbn [w_ty].
      change ((0 <=? z) && (z <? 2 ^ 256))%Z with (below 256 z). destruct (below 256 z) eqn:Hb; [|done].
      injection Hx as <-. eexists. split; [done|]. apply writeUint256_spec. by apply below_N in Hb.
  - (* RString *) intros _ v x b Hx Hl. destruct v; try done. injection Hx as <-. eexists. split; [done|].
    apply writeString_spec. by apply rlp_str_len.
  - intros _ v x b Hx Hl. destruct v; try done; injection Hx as <-; eexists; (split; [done|]); apply writeBytes_spec; by apply rlp_str_len.
  - (* RByteArr *) intros n _ v x b Hx Hl. destruct v; try done. cbn [to_item] in Hx. cbn [w_ty].
    destruct (Nat.eqb_spec (length bs) n) as [E|]; [|done]. injection Hx as <-. eexists. split; [done|].
    apply writeByteArray_spec; [done|by apply rlp_str_len].
  - (* RSlice *) intros t IH Hwf v x b Hx Hl. cbn [wf_ty] in Hwf. apply andb_true_iff in Hwf as [_ Hwf]. destruct v; try done.
    + injection Hx as <-. eexists. split; [done|]. apply writes_append.
    + cbn [to_item] in Hx. apply fmap_Some in Hx as (xs & Hm & ->). by apply (w_list_spec t (IH Hwf)).
  - (* RArr *) intros n t IH Hwf v x b Hx Hl. cbn [wf_ty] in Hwf. apply andb_true_iff in Hwf as [_ Hwf]. destruct v; try done.
    cbn [to_item] in Hx. cbn [w_ty]. destruct (Nat.eqb_spec (length vs) n) as [E|]; [|done].
    apply fmap_Some in Hx as (xs & Hm & ->). by apply (w_list_spec t (IH Hwf)).
  - (* RStruct *) intros fs IH Hwf v x b Hx Hl. cbn [wf_ty] in Hwf. apply andb_true_iff in Hwf as [Ht Hwf]. destruct v; try done.
    cbn [to_item] in Hx. cbn [w_ty]. destruct (Nat.eqb_spec (length vs) (num_fields fs)) as [E|]; [|done].
    apply fmap_Some in Hx as (xs & Hm & ->). rewrite rlp_Lst in *. rewrite lenN_app in Hl. cbn [eb_list].
    destruct (IH Hwf false vs xs _ (EncBuf (eb_str b) (eb_heads b ++ [(lenN (eb_str b), eb_lhsize b)]) (eb_lhsize b)) Ht E (struct_keeps fs vs E) Hm) as (b2 & -> & Hs); [lia|].
    eexists. split; [done|]. eapply writes_list; [reflexivity|exact Hs|lia].
  - (* RPtr *) intros t IH Hwf v x b Hx Hl. destruct v; try done.
    + injection Hx as <-. eexists. split; [done|]. apply nil_item_writes.
    + by apply IH.
  - intros k t IH Hwf v x b Hx Hl. destruct v; try done.
    + injection Hx as <-. eexists. split; [done|]. apply nil_item_writes.
    + by apply IH.
  - (* RIface *) intros _ v x b Hx Hl. destruct v; try done.
    + injection Hx as <-. eexists. split; [done|]. apply writes_append.
    + injection Hx as <-. eexists. split; [done|]. by apply write_item_writes.
  - (* FNil *) intros _ any vs xs n b _ Hl Hk Hx Hlx. destruct vs; [|done]. injection Hx as <-.
    destruct Hk as [Hn _]. cbn in Hn. destruct n; [|lia]. exists b. split; [done|apply writes_nil].
  - (* FCons *) intros g t IH fs IHf Hwf any vs xs n b Ht Hl Hk Hx Hlx. destruct vs as [|v vs]; [done|]. cbn in Hl.
    assert (length vs = num_fields fs) as Hl' by lia.
    assert (wf_ty t = true /\ wf_fields fs = true) as [Hwt Hwf'].
    { destruct g; cbn [wf_fields] in Hwf; rewrite !andb_true_iff in Hwf; tauto. }
    assert (match g with FPlain => any = false | FOpt => True | FTail => fs = FNil end) as Hg.
    { destruct g; cbn [tags_ok] in Ht; [by destruct any|done|by destruct fs]. }
    assert (tags_ok (match g with FOpt => true | _ => any end) fs = true) as Ht'.
    { destruct g; cbn [tags_ok] in Ht; [by destruct any|done|by subst fs]. }
    destruct n as [|n].
    + exists b. split; [by destruct (FCons g t fs)|].
      assert (xs = []) as ->; [|apply writes_nil].
      assert (are_zero (FCons g t fs) (v :: vs) = true) as Hz by (apply (keeps_all_zero any); [exact Hl|exact Hk]). destruct g; cbn [to_items] in Hx.
      * subst any. destruct Hk as (_&_&[Hk _]). cbn in Hk. lia.
      * rewrite Hz in Hx. congruence.
      * subst fs. destruct vs; [|done]. cbn in Hz. destruct v; try done. cbn in Hx. congruence.
    + pose proof (keeps_cons _ _ _ _ _ _ _ Hl' Hg Hk) as Hk'.
      assert ((exists x ys, to_item t v = Some x /\ to_items fs vs = Some ys /\ xs = x :: ys /\ g <> FTail) \/ g = FTail) as [(x & ys & Ex & Ey & -> & Hgt)| ->].
      { destruct g; [| |by right]; left; cbn [to_items] in Hx.
        - destruct (to_item t v); [|done]. destruct (to_items fs vs); [|done]. injection Hx as <-. eauto 10.
        - destruct (are_zero (FCons FOpt t fs) (v :: vs)) eqn:Hz.
          + exfalso. assert (default false (zero_flags (FCons FOpt t fs) (v :: vs) !! n) = false) as Hf.
            { destruct Hk as (_ & _ & Hk). cbn [first_opt] in Hk. destruct any; [destruct Hk as [?|[_ ?]]; [lia|done]|destruct Hk as [_ [?|[_ ?]]]; [lia|done]]. }
            apply nonzero_flag in Hf; [congruence| |exact Hl]. destruct Hk as [Hk _]. lia.
          + destruct (to_item t v); [|done]. destruct (to_items fs vs); [|done]. injection Hx as <-. eauto 10. }
      * cbn [rlps] in *. rewrite lenN_app in Hlx.
        destruct (IH Hwt v x b Ex) as (b1 & Hw & Hs1); [lia|].
        destruct (IHf Hwf' _ vs ys n b1 Ht' Hl' Hk' Ey) as (b2 & Hw2 & Hs2); [lia|].
        exists b2. split; [destruct g; [| |done]; cbn [w_fields]; by rewrite Hw|]. by eapply writes_trans.
      * cbn [to_items] in Hx. cbn [w_fields].
        destruct (match v with VNil => Some [] | VList ws => mapM (to_item t) ws | _ => None end) as [ws|] eqn:Ew; [|done].
        destruct (to_items fs vs) as [ys|] eqn:Ey; [|done]. injection Hx as <-. rewrite rlps_app, lenN_app in *.
        assert (exists b1, match v with VNil => Some b | VList ws => w_elems (w_ty t) ws b | _ => None end = Some b1 /\ writes b b1 (rlps ws)) as (b1 & -> & Hs1).
        { destruct v; try done; [injection Ew as <-; exists b; split; [done|apply writes_nil]|].
          apply (w_elems_spec t (IH Hwt)); [done|lia]. }
        destruct (IHf Hwf' _ vs ys n b1 Ht' Hl' Hk' Ey) as (b2 & Hw2 & Hs2); [lia|].
        exists b2. split; [done|]. by eapply writes_trans.
Qed.

(* ---------------------------------------------------------- decoders: basic facts *)
Lemma Kind_stack0 s st : st_kind s = None -> st_stack s = 0 :: st -> Kind s = (inl EEOL, s).
Proof. intros Hk Hs. unfold Kind. by rewrite Hk, Hs. Qed.

Lemma d_after_Kind F t : (0 < F)%nat -> forall s x s1, Kind s = (inr x, s1) -> d_ty F t s1 = d_ty F t s.
Proof.
  intros HF. induction t; intros s x s1 HK;
    pose proof (Kind_idem _ _ _ HK) as HK1;
    cbn [d_ty]; unfold st_Bool, st_uint, st_BigInt, st_Uint256, st_Bytes, d_bytearray, d_slice, st_List; rewrite ?HK, ?HK1; try done.
  - by erewrite IHt.
  - destruct F as [|F]; [lia|]. cbn [dec_iface]. by rewrite HK, HK1.
Qed.

Lemma d_eol F t : (0 < F)%nat -> forall s st, st_kind s = None -> st_stack s = 0 :: st -> d_ty F t s = (inl EEOL, s).
Proof.
  intros HF. induction t; intros s st Hk Hs;
    pose proof (Kind_stack0 _ _ Hk Hs) as HK;
    cbn [d_ty]; unfold st_Bool, st_uint, st_BigInt, st_Uint256, st_Bytes, d_bytearray, d_slice, st_List; rewrite ?HK; try done.
  - by erewrite IHt.
  - destruct F as [|F]; [lia|]. cbn [dec_iface]. by rewrite HK.
Qed.

Lemma d_map_inl {A B} (f : A -> B) r e s : d_map f r = (inl e, s) -> r = (inl e, s).
Proof. destruct r as [[|] ?]; cbn; congruence. Qed.
Lemma d_map_inr {A B} (f : A -> B) r v s : d_map f r = (inr v, s) -> exists w, r = (inr w, s) /\ v = f w.
Proof. destruct r as [[|] ?]; cbn; [congruence|]. intros [= <- <-]. eauto. Qed.

(** End of list is reported only by Kind at the end of a list. *)
Definition bad_err (e : rerr) : Prop := e = EEOL \/ e = EOutOfFuel.
Lemma readFull_bad s n e s' : readFull s n = (inl e, s') -> bad_err e -> False.
Proof. intros H [-> | ->]; apply readFull_err in H; naive_solver. Qed.
Lemma readUint_bad s n e s' : readUint s n = (inl e, s') -> bad_err e -> False.
Proof. intros H [-> | ->]; apply readUint_err in H; naive_solver. Qed.

Lemma st_uint_err s b e s' : st_uint s b = (inl e, s') -> bad_err e -> Kind s = (inl e, s').
Proof.
  intros H Hb. unfold st_uint in H. destruct (Kind s) as [[e0|[k sz]] s1]; [by injection H as -> ->|]. exfalso.
  destruct k; [| |by injection H as <- <-; destruct Hb].
  - case_match; [|done]. injection H as <- <-. by destruct Hb.
  - case_match; [injection H as <- <-; by destruct Hb|]. destruct (readUint s1 (byte_of sz)) as [[e0|v] s2] eqn:Hr.
    + assert (bad_err e0) as Hb'; [|by apply (readUint_bad _ _ _ _ Hr)]. destruct e0; injection H as <- <-; try done; by destruct Hb.
    + case_match; [|done]. injection H as <- <-. by destruct Hb.
Qed.
Lemma st_Bool_err s e s' : st_Bool s = (inl e, s') -> bad_err e -> Kind s = (inl e, s').
Proof.
  unfold st_Bool. destruct (st_uint s 8) as [[e0|v] s1] eqn:Hu.
  - intros [= -> ->]. by apply (st_uint_err _ 8).
  - intros H Hb. exfalso. destruct v as [|[]]; try done; injection H as <- <-; by destruct Hb.
Qed.
Lemma st_BigInt_err s e s' : st_BigInt s = (inl e, s') -> bad_err e -> Kind s = (inl e, s').
Proof.
  intros H Hb. unfold st_BigInt in H. destruct (Kind s) as [[e0|[k sz]] s1]; [by injection H as -> ->|]. exfalso.
  destruct k; [| |by injection H as <- <-; destruct Hb].
  - case_match; [|done]. injection H as <- <-. by destruct Hb.
  - destruct (sz =? 0); [done|]. destruct (sz <=? 32); destruct (readFull s1 sz) as [[e0|b] s2] eqn:Hr;
      try (injection H as -> ->; by apply (readFull_bad _ _ _ _ Hr));
      repeat case_match; simplify_eq; by destruct Hb.
Qed.
Lemma st_Uint256_err s e s' : st_Uint256 s = (inl e, s') -> bad_err e -> Kind s = (inl e, s').
Proof.
  intros H Hb. unfold st_Uint256 in H. destruct (Kind s) as [[e0|[k sz]] s1]; [by injection H as -> ->|]. exfalso.
  destruct k; [| |by injection H as <- <-; destruct Hb].
  - case_match; [|done]. injection H as <- <-. by destruct Hb.
  - destruct (sz =? 0); [done|]. destruct (sz <=? 32); [|injection H as <- <-; by destruct Hb].
    destruct (readFull s1 sz) as [[e0|b] s2] eqn:Hr;
      try (injection H as -> ->; by apply (readFull_bad _ _ _ _ Hr));
      repeat case_match; simplify_eq; by destruct Hb.
Qed.
Lemma st_Bytes_err s e s' : st_Bytes s = (inl e, s') -> bad_err e -> Kind s = (inl e, s').
Proof.
  intros H Hb. unfold st_Bytes in H. destruct (Kind s) as [[e0|[k sz]] s1]; [by injection H as -> ->|]. exfalso.
  destruct k; [done| |by injection H as <- <-; destruct Hb].
  destruct (readFull s1 sz) as [[e0|b] s2] eqn:Hr;
      try (injection H as -> ->; by apply (readFull_bad _ _ _ _ Hr));
      repeat case_match; simplify_eq; by destruct Hb.
Qed.
Lemma d_bytearray_err n s e s' : d_bytearray n s = (inl e, s') -> bad_err e -> Kind s = (inl e, s').
Proof.
  intros H Hb. unfold d_bytearray in H. destruct (Kind s) as [[e0|[k sz]] s1]; [by injection H as -> ->|]. exfalso.
  destruct k; [| |by injection H as <- <-; destruct Hb].
  - repeat case_match; simplify_eq; by destruct Hb.
  - do 2 (case_match; [injection H as <- <-; by destruct Hb|]).
    destruct (readFull s1 (N.of_nat n)) as [[e0|b] s2] eqn:Hr;
      [injection H as -> ->; by apply (readFull_bad _ _ _ _ Hr)|].
    case_match; simplify_eq; by destruct Hb.
Qed.
Lemma st_List_err s e s' : st_List s = (inl e, s') -> bad_err e -> Kind s = (inl e, s').
Proof.
  intros H Hb. unfold st_List in H. destruct (Kind s) as [[e0|[k sz]] s1]; [by injection H as -> ->|]. exfalso.
  destruct k; simplify_eq; by destruct Hb.
Qed.
Lemma d_end_err vs s e s' : d_end vs s = (inl e, s') -> bad_err e -> False.
Proof. unfold d_end, st_ListEnd. repeat case_match; intros ? [-> | ->]; simplify_eq. Qed.
Lemma st_List_kind s sz s1 : st_List s = (inr sz, s1) -> st_kind s1 = None.
Proof. unfold st_List. repeat case_match; intros; simplify_eq; done. Qed.

Lemma d_elems_noeol d f : forall s s', d_elems d f s <> (inl EEOL, s').
Proof.
  induction f as [|f IH]; intros s s'; [done|]. cbn [d_elems]. destruct (d s) as [[e|v] s1]; [destruct e; done|].
  destruct (d_elems d f s1) as [[e|vs] s2] eqn:He; [|done]. intros [= -> ->]. by apply IH in He.
Qed.
Lemma d_array_noeol d n : forall s s', d_array d n s <> (inl EEOL, s').
Proof.
  induction n as [|n IH]; intros s s'; [done|]. cbn [d_array]. destruct (d s) as [[e|v] s1]; [destruct e; done|].
  destruct (d_array d n s1) as [[e|vs] s2] eqn:He; [|done]. intros [= -> ->]. by apply IH in He.
Qed.
Lemma d_fields_noeol F fs : forall s s', d_fields F fs s <> (inl EEOL, s').
Proof.
  induction fs as [|g t fs IH]; intros s s'; [done|]. cbn [d_fields].
  assert (forall v s1, d_map (cons v) (d_fields F fs s1) <> (inl EEOL, s')) as Hm.
  { intros v s1 H%d_map_inl. by apply IH in H. }
  destruct g.
  - destruct (d_ty F t s) as [[e|v] s1]; [destruct e; done|apply Hm].
  - destruct (d_ty F t s) as [[e|v] s1]; [destruct e; done|apply Hm].
  - destruct (d_elems (d_ty F t) F s) as [[e|vs] s1] eqn:He; [|apply Hm]. intros [= -> ->]. by apply d_elems_noeol in He.
Qed.

Lemma d_noeol F t : (0 < F)%nat -> forall s s', st_kind s = None -> d_ty F t s = (inl EEOL, s') -> s' = s /\ exists st, st_stack s = 0 :: st.
Proof.
  intros HF. assert (bad_err EEOL) as Hb by (by left).
  induction t; intros s s' Hk Hd; cbn [d_ty] in Hd.
  - apply d_map_inl, st_uint_err, Kind_eol in Hd; done.
  - apply d_map_inl, st_Bool_err, Kind_eol in Hd; done.
  - apply d_map_inl, st_BigInt_err, Kind_eol in Hd; done.
  - apply d_map_inl, st_BigInt_err, Kind_eol in Hd; done.
  - apply d_map_inl, st_Uint256_err, Kind_eol in Hd; done.
  - apply d_map_inl, st_Uint256_err, Kind_eol in Hd; done.
  - apply d_map_inl, st_Bytes_err, Kind_eol in Hd; done.
  - apply d_map_inl, st_Bytes_err, Kind_eol in Hd; done.
  - apply d_bytearray_err, Kind_eol in Hd; done.
  - unfold d_slice in Hd. destruct (st_List s) as [[e|sz] s1] eqn:HL.
    { injection Hd as -> ->. apply st_List_err, Kind_eol in HL; done. }
    destruct (sz =? 0); [by apply d_end_err in Hd|].
    destruct (d_elems (d_ty F t) F s1) as [[e|vs] s2] eqn:He; [|by apply d_end_err in Hd].
    injection Hd as -> ->. by apply d_elems_noeol in He.
  - destruct (st_List s) as [[e|sz] s1] eqn:HL.
    { injection Hd as -> ->. apply st_List_err, Kind_eol in HL; done. }
    destruct (d_array (d_ty F t) n s1) as [[e|vs] s2] eqn:He; [|by apply d_end_err in Hd].
    injection Hd as -> ->. by apply d_array_noeol in He.
  - destruct (st_List s) as [[e|sz] s1] eqn:HL.
    { injection Hd as -> ->. apply st_List_err, Kind_eol in HL; done. }
    destruct (d_fields F _ s1) as [[e|vs] s2] eqn:He; [|by apply d_end_err in Hd].
    injection Hd as -> ->. by apply d_fields_noeol in He.
  - apply d_map_inl in Hd. by apply IHt.
  - destruct (Kind s) as [[e|[kk sz]] s1] eqn:HK; [injection Hd as -> ->; by apply Kind_eol|].
    assert (d_map VPtr (d_ty F t s1) <> (inl EEOL, s')) as Hn.
    { intros H%d_map_inl. rewrite (d_after_Kind _ _ HF _ _ _ HK) in H. apply IHt in H as [-> [st Hst]]; [|done].
      rewrite (Kind_stack0 _ _ Hk Hst) in HK. done. }
    repeat case_match; simplify_eq; by destruct Hn.
  - apply d_map_inl in Hd. by apply (proj1 (dec_noeol F)).
Qed.

(* ---------------------------------------------------------- numbers *)
Lemma num_of_be n : num_of (be_bytes n) = Some n.
Proof.
  unfold num_of. pose proof (be_bytes_no_lead0 n) as H. pose proof (be_num_bytes n) as E.
  destruct (be_bytes n) as [|[|p] l]; [by rewrite E|done|by rewrite E].
Qed.
Lemma num_of_Some s n : is_bytes s -> num_of s = Some n -> s = be_bytes n.
Proof.
  intros Hb H. unfold num_of in H. destruct s as [|[|p] l]; [by injection H as <-|done|].
  injection H as <-. symmetry. by apply be_bytes_num.
Qed.

Lemma Uint256_BigInt s v s' : st_Uint256 s = (inr v, s') -> st_BigInt s = (inr v, s').
Proof.
  unfold st_Uint256, st_BigInt. destruct (Kind s) as [[e|[[] sz]] s1]; try done.
  destruct (sz =? 0); [done|]. by destruct (sz <=? 32).
Qed.
Lemma Uint256_bound s v s' : Inv s -> st_kind s = None -> st_Uint256 s = (inr v, s') -> v < 2 ^ 256.
Proof.
  intros HI Hk H. unfold st_Uint256 in H. destruct (Kind s) as [[e|[k sz]] s1] eqn:HK; [done|].
  destruct (Kind_bwd _ _ _ _ HI Hk HK) as (hdr & Ha & _ & _ & _ & Hh & _).
  assert (Inv s1) as HI1 by apply Ha.
  destruct k; [| |done].
  - destruct Hh as (_ & Hb & _). case_match; [done|]. injection H as <- _.
    change (be_num [st_byteval s1]) with (0 * 256 + st_byteval s1).
    apply (N.lt_trans _ 128); [lia|done].
  - destruct (sz =? 0); [injection H as <- _; done|]. destruct (N.leb_spec sz 32) as [Hle|]; [|done].
    destruct (readFull s1 sz) as [[e|b] s2] eqn:Hr; [done|].
    destruct (readFull_bwd _ _ _ _ HI1 Hr) as (Ha2 & Hlen & _).
    assert (be_num b < 2 ^ 256).
    { change (2 ^ 256) with (256 ^ 32). eapply N.lt_le_trans; [apply be_num_bound; by apply (adv_bytes _ _ _ HI1 Ha2)|].
      apply N.pow_le_mono_r; [done|]. by rewrite Hlen. }
    repeat case_match; simplify_eq; done.
Qed.
Lemma BigInt_Uint256 s v s' : Inv s -> st_kind s = None -> v < 2 ^ 256 -> st_BigInt s = (inr v, s') -> st_Uint256 s = (inr v, s').
Proof.
  intros HI Hk Hv H. unfold st_Uint256. unfold st_BigInt in H. destruct (Kind s) as [[e|[k sz]] s1] eqn:HK; [done|].
  destruct (Kind_bwd _ _ _ _ HI Hk HK) as (hdr & Ha & _ & _ & _ & Hh & _).
  assert (Inv s1) as HI1 by apply Ha.
  destruct k; [done| |done].
  destruct (sz =? 0); [done|]. destruct (N.leb_spec sz 32) as [Hle|Hgt]; [done|]. exfalso.
  destruct (readFull s1 sz) as [[e|b] s2] eqn:Hr; [done|].
  destruct (readFull_bwd _ _ _ _ HI1 Hr) as (Ha2 & Hlen & _).
  case_match; [done|]. injection H as <- _.
  assert (is_bytes b) as Hb by apply (adv_bytes _ _ _ HI1 Ha2).
  assert (lenN (be_bytes (be_num b)) <= 32) as Hle.
  { assert (length (be_bytes (be_num b)) <= 32)%nat; [|unfold lenN; lia].
    apply be_bytes_length_le. exact Hv. }
  rewrite be_bytes_num in Hle; [lia|done|]. destruct b as [|x b]; [done|]. cbn. by apply N.eqb_neq.
Qed.

Lemma d_bytearray_bwd n s v s' : Inv s -> st_kind s = None -> d_bytearray n s = (inr v, s') ->
  exists b, v = VStr b /\ length b = n /\ st_Bytes s = (inr b, s').
Proof.
  intros HI Hk H. unfold d_bytearray in H. unfold st_Bytes. destruct (Kind s) as [[e|[k sz]] s1] eqn:HK; [done|].
  destruct (Kind_bwd _ _ _ _ HI Hk HK) as (hdr & Ha & _). assert (Inv s1) as HI1 by apply Ha.
  destruct k; [| |done].
  - destruct (Nat.eqb_spec n 0); [done|]. destruct (Nat.ltb_spec 1 n); [done|]. injection H as <- <-.
    eexists. split; [done|]. split; [cbn; lia|done].
  - destruct (N.ltb_spec (N.of_nat n) sz); [done|]. destruct (N.ltb_spec sz (N.of_nat n)); [done|].
    assert (sz = N.of_nat n) as -> by lia.
    destruct (readFull s1 (N.of_nat n)) as [[e|b] s2] eqn:Hr; [done|].
    destruct (readFull_bwd _ _ _ _ HI1 Hr) as (Ha2 & Hlen & _).
    destruct (N.eqb_spec (N.of_nat n) 1) as [E|E]; cbn [andb] in H.
    + destruct b as [|x [|y b]]; [unfold lenN in Hlen; cbn in Hlen; lia| |unfold lenN in Hlen; cbn in Hlen; lia].
      destruct (x <? 128); [done|]. injection H as <- <-. exists [x]. split; [done|]. split; [cbn; lia|done].
    + injection H as <- <-. exists b. split; [done|]. unfold lenN in Hlen. split; [lia|].
      destruct b as [|x [|y b]]; [done|cbn in Hlen; lia|done].
Qed.
Lemma d_bytearray_fwd s b s' : Inv s -> st_kind s = None -> st_Bytes s = (inr b, s') -> d_bytearray (length b) s = (inr (VStr b), s').
Proof.
  intros HI Hk H. unfold d_bytearray. unfold st_Bytes in H. destruct (Kind s) as [[e|[k sz]] s1] eqn:HK; [done|].
  destruct (Kind_bwd _ _ _ _ HI Hk HK) as (hdr & Ha & _). assert (Inv s1) as HI1 by apply Ha.
  destruct k; [| |done].
  - by injection H as <- <-.
  - destruct (readFull s1 sz) as [[e|b'] s2] eqn:Hr; [done|].
    assert (b' = b) as -> by (destruct b' as [|x [|]]; [congruence| |congruence]; case_match; congruence).
    destruct (readFull_bwd _ _ _ _ HI1 Hr) as (Ha2 & Hlen & _). unfold lenN in Hlen. subst sz.
    rewrite N.ltb_irrefl, Hr. destruct b as [|x [|]]; cbn [length].
    + cbn. by injection H as <-.
    + cbn. destruct (x <? 128); [done|]. by injection H as <-.
    + injection H as <-. destruct (N.eqb_spec (N.of_nat (S (S (length l)))) 1); [lia|]. done.
Qed.

(* ---------------------------------------------------------- lists on the stream *)
Lemma st_List_bwd s sz s1 : Inv s -> st_kind s = None -> st_List s = (inr sz, s1) ->
  Inv s1 /\ st_kind s1 = None /\ (exists st, st_stack s1 = sz :: st) /\
  (length (st_in s1) < length (st_in s))%nat /\
  forall xs s2 s3, adv s1 (rlps xs) s2 -> st_ListEnd s2 = (None, s3) ->
    adv s (rlp (Lst xs)) s3 /\ st_kind s3 = None.
Proof.
  intros HI Hk HL. destruct (Kind s) as [[e|[k sz']] s0] eqn:HK; [unfold st_List in HL; by rewrite HK in HL|].
  assert (k = KList) as -> by (unfold st_List in HL; rewrite HK in HL; by destruct k).
  pose proof (st_List_after_Kind _ _ _ HK) as HL'.
  assert (st_List s0 = st_List s) as E by (unfold st_List; by rewrite HK, (Kind_idem _ _ _ HK)).
  rewrite E, HL in HL'. injection HL' as -> ->.
  destruct (Kind_List_adv _ _ _ HI Hk HK) as (Ha & Hsz & Hsz2).
  assert (Inv s0) as HI0 by apply Ha.
  set (s2 := Stream _ _ _ _ _ _ _ _).
  assert (Inv s2) as HI2.
  { destruct s0. eapply Inv_fields; [exact HI0|done|]. by apply (stack_after_List _ _ HI0). }
  split; [done|]. split; [done|]. split; [unfold s2; cbn; destruct (st_stack s0); eauto|].
  split.
  { change (st_in s2) with (st_in s0). destruct Ha as (-> & _). rewrite app_length.
    pose proof (rlp_head_len_pos 0xC0 0xF7 sz') as Hp. unfold lenN in Hp. lia. }
  intros xs s3 s4 (Hi2 & HI3 & Hst3) HE. unfold st_ListEnd in HE.
  destruct (st_stack s3) as [|l st] eqn:Hst; [done|]. destruct (N.ltb_spec 0 l); [done|]. assert (l = 0) as -> by lia.
  injection HE as <-. destruct (Inv_drop _ _ _ HI2 Hi2) as (_&_&Hlx&_&_).
  assert (sz' = lenN (rlps xs)) as Hszx.
  { unfold s2 in Hst3; cbn in Hst3.
    destruct (st_stack s0); cbn in Hst3; injection Hst3 as Hz _; symmetry in Hz; by apply sub64_eq0 in Hz. }
  rewrite rlp_Lst. split; [|done].
  destruct Ha as (Hi & _ & Hs1). split; [|split].
  * cbn. rewrite Hi. change (st_in s0) with (st_in s2). rewrite Hi2, Hszx, app_assoc. done.
  * destruct s3. eapply Inv_fields; [exact HI3|done|]. cbn in *.
    destruct HI3 as (_&_&_&_&HF). cbn in HF. rewrite Hst in HF. by inversion HF.
  * cbn. unfold s2 in Hst3; cbn in Hst3.
    rewrite lenN_app, <- dec_top_dec_top, <- Hszx, <- Hs1.
    destruct (st_stack s0); cbn in Hst3 |- *; injection Hst3 as _ ->; done.
Qed.

Lemma d_end_inr vs s v s' : d_end vs s = (inr v, s') -> v = VList vs /\ st_ListEnd s = (None, s').
Proof. unfold d_end. destruct (st_ListEnd s) as [[e|] s1]; [done|]. by intros [= <- <-]. Qed.

(* ---------------------------------------------------------- what a decoder accepted *)
Definition bwd_ty F (t : rty) : Prop := forall s v s', Inv s -> st_kind s = None -> d_ty F t s = (inr v, s') ->
  exists x, adv s (rlp x) s' /\ st_kind s' = None /\ item_ok x /\ of_item t x = Some v.

Lemma d_elems_bwd F t : (0 < F)%nat -> bwd_ty F t -> forall f s vs s', Inv s -> st_kind s = None ->
  d_elems (d_ty F t) f s = (inr vs, s') ->
  exists xs, adv s (rlps xs) s' /\ st_kind s' = None /\ items_ok xs /\ mapM (of_item t) xs = Some vs /\ exists st, st_stack s' = 0 :: st.
Proof.
  intros HF IH. induction f as [|f IHf]; intros s vs s' HI Hk He; [done|]. cbn [d_elems] in He.
  destruct (d_ty F t s) as [[e|v] s1] eqn:Hd.
  - assert (e = EEOL) as -> by (by destruct e). injection He as <- <-.
    destruct (d_noeol F t HF _ _ Hk Hd) as [-> Hst]. exists []. split; [by apply adv_nil|]. split; [done|]. split; [constructor|done].
  - destruct (d_elems (d_ty F t) f s1) as [[e|ws] s2] eqn:He2; [done|]. injection He as <- <-.
    destruct (IH _ _ _ HI Hk Hd) as (x & Ha1 & Hk1 & Hok1 & Hof). assert (Inv s1) as HI1 by apply Ha1.
    destruct (IHf _ _ _ HI1 Hk1 He2) as (xs & Ha2 & Hk2 & Hok2 & Hm & Hst).
    exists (x :: xs). cbn [rlps]. split; [by eapply adv_trans|]. split; [done|]. split; [by constructor|]. split; [|done].
    apply mapM_Some. constructor; [done|]. by apply mapM_Some.
Qed.

Lemma d_array_bwd F t : (0 < F)%nat -> bwd_ty F t -> forall n s vs s', Inv s -> st_kind s = None ->
  d_array (d_ty F t) n s = (inr vs, s') ->
  exists xs, adv s (rlps xs) s' /\ st_kind s' = None /\ items_ok xs /\ mapM (of_item t) xs = Some vs /\ length xs = n.
Proof.
  intros HF IH. induction n as [|n IHn]; intros s vs s' HI Hk He; cbn [d_array] in He.
  - injection He as <- <-. exists []. split; [by apply adv_nil|]. split; [done|]. split; [constructor|done].
  - destruct (d_ty F t s) as [[e|v] s1] eqn:Hd; [by destruct e|].
    destruct (d_array (d_ty F t) n s1) as [[e|ws] s2] eqn:He2; [done|]. injection He as <- <-.
    destruct (IH _ _ _ HI Hk Hd) as (x & Ha1 & Hk1 & Hok1 & Hof). assert (Inv s1) as HI1 by apply Ha1.
    destruct (IHn _ _ _ HI1 Hk1 He2) as (xs & Ha2 & Hk2 & Hok2 & Hm & Hst).
    exists (x :: xs). cbn [rlps]. split; [by eapply adv_trans|]. split; [done|]. split; [by constructor|]. split; [|cbn; lia].
    apply mapM_Some. constructor; [done|]. by apply mapM_Some.
Qed.

Lemma be_bytes_ok n : is_bytes (be_bytes n).
Proof. apply be_bytes_bytes. Qed.
Lemma item_ok_Str b : is_bytes b -> item_ok (Str b).
Proof. intros. cbn [item_ok]. done. Qed.

Lemma d_bwd F : (0 < F)%nat ->
  (forall t, wf_ty t = true -> bwd_ty F t) /\
  (forall fs, wf_fields fs = true -> forall any s vs s', tags_ok any fs = true -> Inv s -> st_kind s = None -> d_fields F fs s = (inr vs, s') ->
     exists xs, adv s (rlps xs) s' /\ st_kind s' = None /\ items_ok xs /\ of_items fs xs = Some vs).
Proof.
  intros HF.
  assert (forall (d : stream -> (rerr + N) * stream) f t, (forall s n s', Inv s -> st_kind s = None -> d s = (inr n, s') -> adv s (rlp_nat n) s' /\ st_kind s' = None /\ of_item t (Str (be_bytes n)) = Some (f n)) ->
    forall s v s', Inv s -> st_kind s = None -> d_map f (d s) = (inr v, s') -> exists x, adv s (rlp x) s' /\ st_kind s' = None /\ item_ok x /\ of_item t x = Some v) as Hnum.
  { intros d f t Hd s v s' HI Hk Hv. apply d_map_inr in Hv as (n & Hn & ->). destruct (Hd _ _ _ HI Hk Hn) as (Ha & Hk' & Hf).
    exists (Str (be_bytes n)). rewrite <- rlp_nat_eq. split; [done|]. split; [done|]. split; [apply item_ok_Str, be_bytes_ok|done]. }
  apply rty_fields_ind.
  - (* RUint *) intros bits Hwf s v s' HI Hk. cbn [d_ty]. revert s v s' HI Hk. apply (Hnum (fun s => st_uint s bits)).
    intros s n s' HI Hk Hu. apply wf_uint in Hwf.
    destruct (st_uint_bwd s bits n s' HI Hk) as (Ha & Hk' & Hb); [|done|].
    { destruct Hwf as [-> | [-> | [-> | ->]]]; done. }
    split; [done|]. split; [done|]. cbn [of_item]. rewrite num_of_be.
    destruct (N.ltb_spec n (2 ^ bits)) as [|Hge]; [done|]. exfalso.
    assert (256 ^ N.max 1 (bits / 8) = 2 ^ bits) as E by (destruct Hwf as [-> | [-> | [-> | ->]]]; reflexivity).
    rewrite E in Hb. exact (N.lt_irrefl _ (N.lt_le_trans _ _ _ Hb Hge)).
  - (* RBool *) intros _ s v s' HI Hk Hd. cbn [d_ty] in Hd. apply d_map_inr in Hd as (b & Hb & ->). unfold st_Bool in Hb.
    destruct (st_uint s 8) as [[e|n] s1] eqn:Hu; [done|].
    destruct (st_uint_bwd s 8 n s1 HI Hk) as (Ha & Hk' & _); [done|done|].
    destruct n as [|[]]; try done; injection Hb as <- <-; [exists (Str [])|exists (Str [1])]; (split; [done|]); (split; [done|]); (split; [by apply item_ok_Str, is_bytesb_spec|done]).
  - intros _ s v s' HI Hk. cbn [d_ty]. revert s v s' HI Hk. apply Hnum. intros s n s' HI Hk Hu.
    destruct (st_BigInt_bwd s n s' HI Hk Hu) as (Ha & Hk'). split; [done|]. split; [done|]. cbn [of_item]. by rewrite num_of_be.
  - intros _ s v s' HI Hk. cbn [d_ty]. revert s v s' HI Hk. apply Hnum. intros s n s' HI Hk Hu.
    destruct (st_BigInt_bwd s n s' HI Hk Hu) as (Ha & Hk'). split; [done|]. split; [done|]. cbn [of_item]. by rewrite num_of_be.
  - intros _ s v s' HI Hk. cbn [d_ty]. revert s v s' HI Hk. apply Hnum. intros s n s' HI Hk Hu.
    destruct (st_BigInt_bwd s n s' HI Hk (Uint256_BigInt _ _ _ Hu)) as (Ha & Hk'). split; [done|]. split; [done|]. cbn [of_item]. rewrite num_of_be.
    apply Uint256_bound in Hu; [|done..]. by destruct (N.ltb_spec n (2 ^ 256)); [|lia].
  - intros _ s v s' HI Hk. cbn [d_ty]. revert s v s' HI Hk. apply Hnum. intros s n s' HI Hk Hu.
    destruct (st_BigInt_bwd s n s' HI Hk (Uint256_BigInt _ _ _ Hu)) as (Ha & Hk'). split; [done|]. split; [done|]. cbn [of_item]. rewrite num_of_be.
    apply Uint256_bound in Hu; [|done..]. by destruct (N.ltb_spec n (2 ^ 256)); [|lia].
  - intros _ s v s' HI Hk Hd. apply d_map_inr in Hd as (b & Hb & ->). apply st_Bytes_bwd in Hb as (Ha & Hk' & Hb); [|done..].
    exists (Str b). split; [done|]. split; [done|]. split; [by apply item_ok_Str|done].
  - intros _ s v s' HI Hk Hd. apply d_map_inr in Hd as (b & Hb & ->). apply st_Bytes_bwd in Hb as (Ha & Hk' & Hb); [|done..].
    exists (Str b). split; [done|]. split; [done|]. split; [by apply item_ok_Str|done].
  - intros n _ s v s' HI Hk Hd. cbn [d_ty] in Hd. apply d_bytearray_bwd in Hd as (b & -> & Hn & Hb); [|done..].
    apply st_Bytes_bwd in Hb as (Ha & Hk' & Hb); [|done..].
    exists (Str b). split; [done|]. split; [done|]. split; [by apply item_ok_Str|]. cbn [of_item]. by rewrite Hn, Nat.eqb_refl.
  - (* RSlice *) intros t IH Hwf s v s' HI Hk Hd. cbn [wf_ty] in Hwf. apply andb_true_iff in Hwf as [_ Hwf]. cbn [d_ty] in Hd.
    unfold d_slice in Hd. destruct (st_List s) as [[e|sz] s1] eqn:HL; [done|].
    destruct (st_List_bwd _ _ _ HI Hk HL) as (HI1 & Hk1 & [st Hst] & _ & Hend).
    destruct (N.eqb_spec sz 0) as [->|].
    + apply d_end_inr in Hd as [-> HE]. destruct (Hend [] s1 s' (adv_nil _ HI1) HE) as [Ha Hk'].
      exists (Lst []). split; [done|]. split; [done|]. split; [apply item_ok_Lst; constructor|done].
    + destruct (d_elems (d_ty F t) F s1) as [[e|vs] s2] eqn:He; [done|]. apply d_end_inr in Hd as [-> HE].
      destruct (d_elems_bwd F t HF (IH Hwf) _ _ _ _ HI1 Hk1 He) as (xs & Ha & Hk2 & Hok & Hm & _).
      destruct (Hend xs s2 s' Ha HE) as [Ha' Hk']. exists (Lst xs). split; [done|]. split; [done|]. split; [by apply item_ok_Lst|].
      cbn [of_item]. by rewrite Hm.
  - (* RArr *) intros n t IH Hwf s v s' HI Hk Hd. cbn [wf_ty] in Hwf. apply andb_true_iff in Hwf as [_ Hwf]. cbn [d_ty] in Hd.
    destruct (st_List s) as [[e|sz] s1] eqn:HL; [done|].
    destruct (st_List_bwd _ _ _ HI Hk HL) as (HI1 & Hk1 & _ & _ & Hend).
    destruct (d_array (d_ty F t) n s1) as [[e|vs] s2] eqn:He; [done|]. apply d_end_inr in Hd as [-> HE].
    destruct (d_array_bwd F t HF (IH Hwf) _ _ _ _ HI1 Hk1 He) as (xs & Ha & Hk2 & Hok & Hm & Hn).
    destruct (Hend xs s2 s' Ha HE) as [Ha' Hk']. exists (Lst xs). split; [done|]. split; [done|]. split; [by apply item_ok_Lst|].
    cbn [of_item]. by rewrite Hn, Nat.eqb_refl, Hm.
  - (* RStruct *) intros fs IH Hwf s v s' HI Hk Hd. cbn [wf_ty] in Hwf. apply andb_true_iff in Hwf as [Ht Hwf]. cbn [d_ty] in Hd.
    destruct (st_List s) as [[e|sz] s1] eqn:HL; [done|].
    destruct (st_List_bwd _ _ _ HI Hk HL) as (HI1 & Hk1 & _ & _ & Hend).
    destruct (d_fields F fs s1) as [[e|vs] s2] eqn:He; [done|]. apply d_end_inr in Hd as [-> HE].
    destruct (IH Hwf _ _ _ _ Ht HI1 Hk1 He) as (xs & Ha & Hk2 & Hok & Hm).
    destruct (Hend xs s2 s' Ha HE) as [Ha' Hk']. exists (Lst xs). split; [done|]. split; [done|]. split; [by apply item_ok_Lst|].
    cbn [of_item]. by rewrite Hm.
  - (* RPtr *) intros t IH Hwf s v s' HI Hk Hd. cbn [d_ty] in Hd. apply d_map_inr in Hd as (w & Hw & ->).
    destruct (IH Hwf _ _ _ HI Hk Hw) as (x & Ha & Hk' & Hok & Hof). exists x. split; [done|]. split; [done|]. split; [done|].
    cbn [of_item]. by rewrite Hof.
  - (* RNilPtr *) intros nk t IH Hwf s v s' HI Hk Hd. cbn [d_ty] in Hd.
    destruct (Kind s) as [[e|[k sz]] s1] eqn:HK; [done|].
    destruct (Kind_bwd _ _ _ _ HI Hk HK) as (hdr & Ha & _ & _ & _ & Hh & _).
    assert (forall k0 : kind, sz = 0 -> k = k0 -> k0 <> KByte -> rlp (nil_item (match k0 with KList => NKList | _ => NKString end)) = hdr) as Hnil.
    { intros k0 -> -> Hne. destruct k0; [done| |]; cbn in Hh; by subst hdr. }
    assert (adv s hdr (set_kind s1 None)) as Ha' by (eapply adv_same; [exact Ha|repeat split]).
    assert (d_map VPtr (d_ty F t s1) = (inr v, s') -> ~ (sz = 0 /\ k <> KByte) ->
       exists x, adv s (rlp x) s' /\ st_kind s' = None /\ item_ok x /\ of_item (RNilPtr nk t) x = Some v) as Hptr.
    { intros Hm Hne. apply d_map_inr in Hm as (w & Hw & ->). rewrite (d_after_Kind _ _ HF _ _ _ HK) in Hw.
      destruct (IH Hwf _ _ _ HI Hk Hw) as (x & Hax & Hk' & Hok & Hof). exists x. split; [done|]. split; [done|]. split; [done|].
      assert (x <> Str [] /\ x <> Lst []) as [Hx1 Hx2].
      { assert (forall k0, k0 <> KByte -> x = nil_item (match k0 with KList => NKList | _ => NKString end) -> False) as Hq.
        { intros k0 Hk0 ->. destruct Hax as (Hi & _ & Hst). destruct (Kind_fwd s k0 [match k0 with KList => 0xC0 | _ => 0x80 end] 0 0 (st_in s')) as [s9 HK9].
          - done. - done. - rewrite Hi. by destruct k0. - by destruct k0. - lia.
          - destruct Ha as (Hia & _). destruct (Kind_bwd _ _ _ _ HI Hk HK) as (hdr' & _ & _ & _ & _ & _ & _ & _ & Hl1). exact Hl1.
          - rewrite HK in HK9. injection HK9 as -> -> ->. by apply Hne. }
        split; intros ->; [by apply (Hq KString)|by apply (Hq KList)]. }
      cbn [of_item]. destruct nk, x as [[|]|[|]]; by rewrite ?Hof. }
    destruct k.
    + apply Hptr; [done|]. by intros [_ ?].
    + destruct sz as [|sz]; [|apply Hptr; [done|]; by intros [? _]]. destruct nk; [|done]. injection Hd as <- <-.
      exists (Str []). change (rlp (Str [])) with (rlp (nil_item NKString)). rewrite (Hnil KString) by done. split; [done|]. split; [done|]. split; [by apply item_ok_Str, is_bytesb_spec|done].
    + destruct sz as [|sz]; [|apply Hptr; [done|]; by intros [? _]]. destruct nk; [done|]. injection Hd as <- <-.
      exists (Lst []). change (rlp (Lst [])) with (rlp (nil_item NKList)). rewrite (Hnil KList) by done. split; [done|]. split; [done|]. split; [apply item_ok_Lst; constructor|done].
  - (* RIface *) intros _ s v s' HI Hk Hd. cbn [d_ty] in Hd. apply d_map_inr in Hd as (x & Hx & ->).
    destruct (proj1 (dec_canon F) _ _ _ HI Hk Hx) as (Ha & Hk' & Hok). exists x. by split.
  - (* FNil *) intros _ any s vs s' _ HI Hk Hd. injection Hd as <- <-. exists []. split; [by apply adv_nil|]. split; [done|]. split; [constructor|done].
  - (* FCons *) intros g t IH fs IHf Hwf any s vs s' Ht HI Hk Hd.
    assert (wf_ty t = true /\ wf_fields fs = true) as [Hwt Hwf'].
    { destruct g; cbn [wf_fields] in Hwf; rewrite !andb_true_iff in Hwf; tauto. }
    assert (g = FTail \/ g <> FTail) as [-> | Hg] by (destruct g; (by left) || (by right)).
    + cbn [tags_ok] in Ht. destruct fs; [|done]. cbn [d_fields] in Hd.
      destruct (d_elems (d_ty F t) F s) as [[e|ws] s1] eqn:He; [done|]. injection Hd as <- <-.
      destruct (d_elems_bwd F t HF (IH Hwt) _ _ _ _ HI Hk He) as (xs & Ha & Hk2 & Hok & Hm & _).
      exists xs. split; [done|]. split; [done|]. split; [done|]. cbn [of_items]. by rewrite Hm.
    + assert (match d_ty F t s with
              | (inl EEOL, s1) => match g with FOpt => (inr (zero_fields (FCons g t fs)), s1) | _ => (inl EWrongSize, s1) end
              | (inl e, s1) => (inl e, s1)
              | (inr v, s1) => d_map (cons v) (d_fields F fs s1) end = (inr vs, s')) as Hd' by (destruct g; [exact Hd|exact Hd|done]).
      clear Hd. destruct (d_ty F t s) as [[e|v] s1] eqn:Hd.
      * assert (e = EEOL) as -> by (by destruct e). destruct g; [done| |done]. injection Hd' as <- <-.
        destruct (d_noeol F t HF _ _ Hk Hd) as [-> _]. exists []. split; [by apply adv_nil|]. split; [done|]. split; [constructor|done].
      * apply d_map_inr in Hd' as (ws & Hf & ->). destruct (IH Hwt _ _ _ HI Hk Hd) as (x & Ha & Hk1 & Hok & Hof).
        assert (Inv s1) as HI1 by apply Ha.
        assert (exists any', tags_ok any' fs = true) as [any' Ht'].
        { destruct g; cbn [tags_ok] in Ht; [apply andb_true_iff in Ht as [_ Ht]; eauto|eauto|done]. }
        destruct (IHf Hwf' _ _ _ _ Ht' HI1 Hk1 Hf) as (xs & Ha2 & Hk2 & Hok2 & Hof2).
        exists (x :: xs). cbn [rlps]. split; [by eapply adv_trans|]. split; [done|]. split; [by constructor|].
        destruct g; [| |done]; cbn [of_items]; by rewrite Hof, Hof2.
Qed.

(* ---------------------------------------------------------- what a decoder must accept *)
Lemma st_List_fwd s xs r : Inv s -> st_kind s = None -> st_in s = rlp (Lst xs) ++ r ->
  lim_ge (st_stack s) (lenN (rlp (Lst xs))) ->
  exists s1, st_List s = (inr (lenN (rlps xs)), s1) /\ st_in s1 = rlps xs ++ r.
Proof.
  intros HI Hk Hi Hlim. rewrite rlp_Lst in *. rewrite <- app_assoc in Hi. rewrite lenN_app in Hlim.
  destruct (Kind_fwd s KList (rlp_head 0xC0 0xF7 (lenN (rlps xs))) (lenN (rlps xs)) 0 (rlps xs ++ r)) as [s1 HK];
      [done..|rewrite lenN_app; lia|done|].
  destruct (Kind_List_adv _ _ _ HI Hk HK) as ((Hi1 & _) & _). rewrite Hi in Hi1. apply app_inv_head in Hi1.
  unfold st_List. rewrite HK. eexists. split; [done|]. by cbn.
Qed.

Definition fwd_ty F (t : rty) : Prop := forall s x v r, of_item t x = Some v -> item_ok x -> Inv s -> st_kind s = None ->
  st_in s = rlp x ++ r -> lim_ge (st_stack s) (lenN (rlp x)) -> (2 * length (st_in s) + 2 <= F)%nat ->
  exists s', d_ty F t s = (inr v, s').

Lemma fwd_adv F t s x v r : (0 < F)%nat -> wf_ty t = true -> fwd_ty F t -> of_item t x = Some v -> item_ok x -> Inv s -> st_kind s = None ->
  st_in s = rlp x ++ r -> lim_ge (st_stack s) (lenN (rlp x)) -> (2 * length (st_in s) + 2 <= F)%nat ->
  exists s', d_ty F t s = (inr v, s') /\ adv s (rlp x) s' /\ st_kind s' = None.
Proof.
  intros HF Hwf Hfw Hof Hok HI Hk Hi Hlim Hf. destruct (Hfw s x v r Hof Hok HI Hk Hi Hlim Hf) as [s' Hd].
  exists s'. split; [done|]. destruct (proj1 (d_bwd F HF) t Hwf _ _ _ HI Hk Hd) as (x' & Ha & Hk' & Hok' & _).
  split; [|done]. assert (x = x') as ->; [|done]. destruct Ha as (Hi' & _).
  destruct HI as (_ & _ & HB & HT & _). rewrite Hi in HB, HT. apply is_bytes_app in HB as [_ HB].
  refine (proj1 (C04_rlp_self_delimiting x x' r (st_in s') Hok Hok' HB HT _)). by rewrite <- Hi, <- Hi'.
Qed.

Lemma stack_step n m st : n + m < two64 -> dec_top ((n + m) :: st) n = m :: st.
Proof. intros. cbn. f_equal. rewrite sub64_le; lia. Qed.

Lemma items_len xs : (length xs <= length (rlps xs))%nat.
Proof.
  induction xs as [|x xs IH]; [done|]. cbn [rlps length]. rewrite app_length.
  pose proof (rlp_len_pos x) as Hp. unfold lenN in Hp. lia.
Qed.

Lemma d_elems_fwd F t : (0 < F)%nat -> wf_ty t = true -> fwd_ty F t ->
  forall xs vs s f r st, mapM (of_item t) xs = Some vs -> items_ok xs -> Inv s -> st_kind s = None ->
    st_in s = rlps xs ++ r -> st_stack s = lenN (rlps xs) :: st -> (length xs < f)%nat -> (2 * length (st_in s) + 2 <= F)%nat ->
    exists s', d_elems (d_ty F t) f s = (inr vs, s') /\ adv s (rlps xs) s' /\ st_kind s' = None.
Proof.
  intros HF Hwf IH. induction xs as [|x xs IHx]; intros vs s f r st Hm Hok HI Hk Hi Hst Hlt Hf; (destruct f as [|f]; [cbn in Hlt; lia|]); cbn [d_elems].
  - injection Hm as <-. rewrite (d_eol F t HF s st Hk Hst). eexists. split; [done|]. split; [by apply adv_nil|done].
  - apply mapM_Some in Hm. inversion Hm as [|? v ? ws Hv Hvs]; subst. inversion Hok; subst.
    cbn [rlps] in Hi, Hst |- *. rewrite <- app_assoc in Hi. rewrite lenN_app in Hst.
    assert (lenN (rlp x) + lenN (rlps xs) < two64) as Hb.
    { destruct HI as (_&_&_&_&HFa). rewrite Hst in HFa. by inversion HFa. }
    destruct (fwd_adv F t s x v (rlps xs ++ r) HF Hwf IH Hv ltac:(done) HI Hk Hi) as (s1 & -> & Ha & Hk1); [rewrite Hst; cbn; lia|done|].
    assert (Inv s1) as HI1 by apply Ha. pose proof Ha as (Hi1 & _ & Hs1). rewrite Hst, stack_step in Hs1 by done.
    rewrite Hi in Hi1. apply app_inv_head in Hi1.
    destruct (IHx ws s1 f r st) as (s2 & -> & Ha2 & Hk2); [by apply mapM_Some|done|done|done|by symmetry|done|cbn in Hlt; lia| |].
    { rewrite <- Hi1. rewrite Hi, app_length in Hf. lia. }
    eexists. split; [done|]. split; [by eapply adv_trans|done].
Qed.

Lemma d_array_fwd F t : (0 < F)%nat -> wf_ty t = true -> fwd_ty F t ->
  forall xs vs s r st, mapM (of_item t) xs = Some vs -> items_ok xs -> Inv s -> st_kind s = None ->
    st_in s = rlps xs ++ r -> st_stack s = lenN (rlps xs) :: st -> (2 * length (st_in s) + 2 <= F)%nat ->
    exists s', d_array (d_ty F t) (length xs) s = (inr vs, s') /\ adv s (rlps xs) s' /\ st_kind s' = None.
Proof.
  intros HF Hwf IH. induction xs as [|x xs IHx]; intros vs s r st Hm Hok HI Hk Hi Hst Hf; cbn [d_array length].
  - injection Hm as <-. eexists. split; [done|]. split; [by apply adv_nil|done].
  - apply mapM_Some in Hm. inversion Hm as [|? v ? ws Hv Hvs]; subst. inversion Hok; subst.
    cbn [rlps] in Hi, Hst |- *. rewrite <- app_assoc in Hi. rewrite lenN_app in Hst.
    assert (lenN (rlp x) + lenN (rlps xs) < two64) as Hb.
    { destruct HI as (_&_&_&_&HFa). rewrite Hst in HFa. by inversion HFa. }
    destruct (fwd_adv F t s x v (rlps xs ++ r) HF Hwf IH Hv ltac:(done) HI Hk Hi) as (s1 & -> & Ha & Hk1); [rewrite Hst; cbn; lia|done|].
    assert (Inv s1) as HI1 by apply Ha. pose proof Ha as (Hi1 & _ & Hs1). rewrite Hst, stack_step in Hs1 by done.
    rewrite Hi in Hi1. apply app_inv_head in Hi1.
    destruct (IHx ws s1 r st) as (s2 & -> & Ha2 & Hk2); [by apply mapM_Some|done|done|done|by symmetry|done| |].
    { rewrite <- Hi1. rewrite Hi, app_length in Hf. lia. }
    eexists. split; [done|]. split; [by eapply adv_trans|done].
Qed.

Lemma d_end_fwd vs s1 xs s2 st : st_stack s1 = lenN (rlps xs) :: st -> Inv s1 -> adv s1 (rlps xs) s2 -> exists s3, d_end vs s2 = (inr (VList vs), s3).
Proof.
  intros Hst (_&_&_&_&HF) (_ & _ & Hs2). rewrite Hst in *. inversion HF; subst. cbn in Hs2. rewrite sub64_le in Hs2 by lia.
  rewrite N.sub_diag in Hs2. unfold d_end, st_ListEnd. rewrite Hs2. cbn. eauto.
Qed.

Lemma d_fwd F : (0 < F)%nat ->
  (forall t, wf_ty t = true -> fwd_ty F t) /\
  (forall fs, wf_fields fs = true -> forall any s xs vs r st, tags_ok any fs = true -> of_items fs xs = Some vs -> items_ok xs -> Inv s -> st_kind s = None ->
     st_in s = rlps xs ++ r -> st_stack s = lenN (rlps xs) :: st -> (2 * length (st_in s) + 2 <= F)%nat ->
     exists s', d_fields F fs s = (inr vs, s') /\ adv s (rlps xs) s' /\ st_kind s' = None).
Proof.
  intros HF.
  assert (forall (d : stream -> (rerr + N) * stream) f (Q : N -> Prop) t,
    (forall s n r, Inv s -> st_kind s = None -> Q n -> st_in s = rlp_nat n ++ r -> lim_ge (st_stack s) (lenN (rlp_nat n)) -> exists s', d s = (inr n, s')) ->
    (forall s, d_ty F t s = d_map f (d s)) ->
    (forall x v, of_item t x = Some v -> exists b n, x = Str b /\ num_of b = Some n /\ v = f n /\ Q n) -> fwd_ty F t) as Hnum.
  { intros d f Q t Hd Hdt Hof s x v r Hx Hok HI Hk Hi Hlim _. destruct (Hof x v Hx) as (b & n & -> & Hn & -> & HQ).
    apply num_of_Some in Hn; [|exact Hok]. subst b. rewrite <- rlp_nat_eq in *. destruct (Hd s n r HI Hk HQ Hi Hlim) as [s' Hq].
    rewrite Hdt, Hq. eauto. }
  apply rty_fields_ind.
  - (* RUint *) intros bits Hwf. apply wf_uint in Hwf.
    apply (Hnum (fun s => st_uint s bits) (fun n => VNum (Z.of_N n)) (fun n => n < 2 ^ bits)); [|done|].
    + intros s n r HI Hk Hn Hi Hlim. apply (st_uint_fwd s bits n r HI Hk); [| |done|done].
      * destruct Hwf as [-> | [-> | [-> | ->]]]; done.
      * assert (length (be_bytes n) <= N.to_nat (bits / 8))%nat; [|unfold lenN; lia]. apply be_bytes_length_le. rewrite N2Nat.id.
        assert (256 ^ (bits / 8) = 2 ^ bits) as -> by (destruct Hwf as [-> | [-> | [-> | ->]]]; reflexivity). done.
    + intros [b|] v; [|done]. cbn [of_item]. destruct (num_of b) as [n|] eqn:En; [|done]. destruct (N.ltb_spec n (2 ^ bits)); [|done].
      intros [= <-]. eauto 10.
  - (* RBool *) intros _ s x v r Hx Hok HI Hk Hi Hlim _. cbn [d_ty]. unfold st_Bool.
    assert (exists n, x = Str (be_bytes n) /\ ((n = 0 /\ v = VBool false) \/ (n = 1 /\ v = VBool true))) as (n & -> & Hn).
    { cbn [of_item] in Hx. destruct x as [b|]; [|done]. destruct b as [|b [|]].
      - injection Hx as <-. exists 0. split; [by rewrite be_bytes_0|auto].
      - destruct b as [|[]]; try done. injection Hx as <-. exists 1. split; [reflexivity|auto].
      - destruct b as [|[]]; done. }
    rewrite <- rlp_nat_eq in *. destruct (st_uint_fwd s 8 n r HI Hk) as [s' ->]; [done| |done|done|].
    { destruct Hn as [[-> _]|[-> _]]; cbv; done. }
    destruct Hn as [[-> ->]|[-> ->]]; cbn; eauto.
  - intros _. apply (Hnum st_BigInt (fun n => VNum (Z.of_N n)) (fun _ => True)); [intros; by eapply st_BigInt_fwd|done|].
    intros [b|] v; [|done]. cbn [of_item]. intros (n & ? & ->)%fmap_Some. eauto 10.
  - intros _. apply (Hnum st_BigInt (fun n => VPtr (VNum (Z.of_N n))) (fun _ => True)); [intros; by eapply st_BigInt_fwd|done|].
    intros [b|] v; [|done]. cbn [of_item]. intros (n & ? & ->)%fmap_Some. eauto 10.
  - intros _. apply (Hnum st_Uint256 (fun n => VNum (Z.of_N n)) (fun n => n < 2 ^ 256)); [|done|].
    + intros s n r HI Hk Hn Hi Hlim. destruct (st_BigInt_fwd s n r HI Hk Hi Hlim) as [s' Hq]. exists s'. by apply BigInt_Uint256.
    + intros [b|] v; [|done]. cbn [of_item]. destruct (num_of b) as [n|] eqn:En; [|done]. destruct (N.ltb_spec n (2 ^ 256)); [|done].
      intros [= <-]. eauto 10.
  - intros _. apply (Hnum st_Uint256 (fun n => VPtr (VNum (Z.of_N n))) (fun n => n < 2 ^ 256)); [|done|].
    + intros s n r HI Hk Hn Hi Hlim. destruct (st_BigInt_fwd s n r HI Hk Hi Hlim) as [s' Hq]. exists s'. by apply BigInt_Uint256.
    + intros [b|] v; [|done]. cbn [of_item]. destruct (num_of b) as [n|] eqn:En; [|done]. destruct (N.ltb_spec n (2 ^ 256)); [|done].
      intros [= <-]. eauto 10.
  - intros _ s x v r Hx Hok HI Hk Hi Hlim _. destruct x as [b|]; [|done]. injection Hx as <-.
    destruct (st_Bytes_fwd s b r HI Hk Hi Hlim) as (k & sz & s1 & s2 & _ & _ & HB). cbn [d_ty]. rewrite HB. cbn. eauto.
  - intros _ s x v r Hx Hok HI Hk Hi Hlim _. destruct x as [b|]; [|done]. injection Hx as <-.
    destruct (st_Bytes_fwd s b r HI Hk Hi Hlim) as (k & sz & s1 & s2 & _ & _ & HB). cbn [d_ty]. rewrite HB. cbn. eauto.
  - intros n _ s x v r Hx Hok HI Hk Hi Hlim _. destruct x as [b|]; [|done]. cbn [of_item] in Hx.
    destruct (Nat.eqb_spec (length b) n) as [<-|]; [|done]. injection Hx as <-.
    destruct (st_Bytes_fwd s b r HI Hk Hi Hlim) as (k & sz & s1 & s2 & _ & _ & HB). cbn [d_ty]. exists s2. by apply d_bytearray_fwd.
  - (* RSlice *) intros t IH Hwf s x v r Hx Hok HI Hk Hi Hlim Hf. cbn [wf_ty] in Hwf. apply andb_true_iff in Hwf as [_ Hwf].
    destruct x as [|xs]; [done|]. cbn [of_item] in Hx. apply fmap_Some in Hx as (vs & Hm & ->). apply item_ok_Lst in Hok.
    destruct (st_List_fwd s xs r HI Hk Hi Hlim) as (s1 & HL & Hi1).
    destruct (st_List_bwd _ _ _ HI Hk HL) as (HI1 & Hk1 & [st Hst] & Hlt & _).
    cbn [d_ty]. unfold d_slice. rewrite HL.
    destruct (N.eqb_spec (lenN (rlps xs)) 0) as [E|E].
    + assert (xs = []) as -> by (pose proof (items_len xs) as Hl; unfold lenN in E; destruct xs; [done|cbn [length] in Hl; lia]).
      injection Hm as <-. eapply (d_end_fwd [] s1 []); [done|done|by apply adv_nil].
    + destruct (d_elems_fwd F t HF Hwf (IH Hwf) xs vs s1 F r st Hm Hok HI1 Hk1 Hi1 Hst) as (s2 & -> & Ha & _).
      * pose proof (items_len xs). rewrite Hi1, app_length in Hlt. lia.
      * lia.
      * by eapply (d_end_fwd vs s1 xs).
  - (* RArr *) intros n t IH Hwf s x v r Hx Hok HI Hk Hi Hlim Hf. cbn [wf_ty] in Hwf. apply andb_true_iff in Hwf as [_ Hwf].
    destruct x as [|xs]; [done|]. cbn [of_item] in Hx. destruct (Nat.eqb_spec (length xs) n) as [<-|]; [|done].
    apply fmap_Some in Hx as (vs & Hm & ->). apply item_ok_Lst in Hok.
    destruct (st_List_fwd s xs r HI Hk Hi Hlim) as (s1 & HL & Hi1).
    destruct (st_List_bwd _ _ _ HI Hk HL) as (HI1 & Hk1 & [st Hst] & Hlt & _).
    cbn [d_ty]. rewrite HL.
    destruct (d_array_fwd F t HF Hwf (IH Hwf) xs vs s1 r st Hm Hok HI1 Hk1 Hi1 Hst) as (s2 & -> & Ha & _); [lia|].
    by eapply (d_end_fwd vs s1 xs).
  - (* RStruct *) intros fs IH Hwf s x v r Hx Hok HI Hk Hi Hlim Hf. cbn [wf_ty] in Hwf. apply andb_true_iff in Hwf as [Ht Hwf].
    destruct x as [|xs]; [done|]. cbn [of_item] in Hx. apply fmap_Some in Hx as (vs & Hm & ->). apply item_ok_Lst in Hok.
    destruct (st_List_fwd s xs r HI Hk Hi Hlim) as (s1 & HL & Hi1).
    destruct (st_List_bwd _ _ _ HI Hk HL) as (HI1 & Hk1 & [st Hst] & Hlt & _).
    cbn [d_ty]. rewrite HL.
    destruct (IH Hwf _ s1 xs vs r st Ht Hm Hok HI1 Hk1 Hi1 Hst) as (s2 & -> & Ha & _); [lia|].
    by eapply (d_end_fwd vs s1 xs).
  - (* RPtr *) intros t IH Hwf s x v r Hx Hok HI Hk Hi Hlim Hf. cbn [of_item] in Hx. apply fmap_Some in Hx as (w & Hw & ->).
    destruct (IH Hwf s x w r Hw Hok HI Hk Hi Hlim Hf) as [s' Hd]. cbn [d_ty]. rewrite Hd. cbn. eauto.
  - (* RNilPtr *) intros nk t IH Hwf s x v r Hx Hok HI Hk Hi Hlim Hf. cbn [d_ty].
    assert (x = Str [] \/ x = Lst [] \/ (x <> Str [] /\ x <> Lst [])) as Hc.
    { destruct x as [[|]|[|]]; [by left| |right; by left|]; right; right; by split. }
    assert (forall k, k <> KByte -> x = nil_item (match k with KList => NKList | _ => NKString end) -> exists s1, Kind s = (inr (k, 0), s1)) as Hnil.
    { intros k Hkb ->. apply (Kind_fwd s k [match k with KList => 0xC0 | _ => 0x80 end] 0 0 r); [done|done| | |lia|].
      - rewrite Hi. by destruct k.
      - by destruct k.
      - by destruct k. }
    destruct Hc as [-> | [-> | [Hx1 Hx2]]].
    + destruct (Hnil KString) as [s1 ->]; [done|done|]. cbn [of_item] in Hx. destruct nk; [|done]. injection Hx as <-. eauto.
    + destruct (Hnil KList) as [s1 ->]; [done|done|]. cbn [of_item] in Hx. destruct nk; [done|]. injection Hx as <-. eauto.
    + assert (VPtr <$> of_item t x = Some v) as Hx' by (cbn [of_item] in Hx; destruct nk, x as [[|]|[|]]; done).
      apply fmap_Some in Hx' as (w & Hw & ->).
      destruct (IH Hwf s x w r Hw Hok HI Hk Hi Hlim Hf) as [s' Hd].
      assert (exists k sz s1, Kind s = (inr (k, sz), s1) /\ ~ (sz = 0 /\ k <> KByte)) as (k & sz & s1 & HK & Hne).
      { destruct x as [b|xs].
        - destruct (st_Bytes_fwd s b r HI Hk Hi Hlim) as (k & sz & s1 & s2 & HK & Hkl & HB). exists k, sz, s1. split; [done|].
          intros [-> Hkb]. destruct k; [done| |done]. unfold st_Bytes in HB. rewrite HK in HB.
          destruct (readFull s1 0) as [[e|b'] s3] eqn:Hr; [done|].
          destruct (Kind_bwd _ _ _ _ HI Hk HK) as (hdr & Ha & _). apply readFull_bwd in Hr as (_ & Hlen & _); [|apply Ha].
          apply lenN_0 in Hlen. subst b'. congruence.
        - destruct (st_List_fwd s xs r HI Hk Hi Hlim) as (s1 & HL & _). unfold st_List in HL.
          destruct (Kind s) as [[e|[k sz]] s0]; [done|]. exists k, sz, s0. split; [done|]. intros [-> _].
          destruct k; [done|done|]. injection HL as E _. pose proof (items_len xs) as Hl. unfold lenN in E. destruct xs; [done|cbn [length] in Hl; lia]. }
      rewrite HK. rewrite <- (d_after_Kind _ _ HF _ _ _ HK) in Hd. rewrite Hd.
      destruct k; [cbn; eauto| |]; (destruct sz; [exfalso; by apply Hne|cbn; eauto]).
  - (* RIface *) intros _ s x v r Hx Hok HI Hk Hi Hlim Hf. injection Hx as <-. cbn [d_ty].
    destruct (dec_iface_fwd x s F r Hok HI Hk Hi Hlim) as [s' ->]; [rewrite Hi, app_length in Hf; lia|]. cbn. eauto.
  - (* FNil *) intros _ any s xs vs r st _ Hof Hok HI Hk Hi Hst Hf. destruct xs; [|done]. injection Hof as <-.
    eexists. split; [done|]. split; [by apply adv_nil|done].
  - (* FCons *) intros g t IH fs IHf Hwf any s xs vs r st Ht Hof Hok HI Hk Hi Hst Hf.
    assert (wf_ty t = true /\ wf_fields fs = true) as [Hwt Hwf'].
    { destruct g; cbn [wf_fields] in Hwf; rewrite !andb_true_iff in Hwf; tauto. }
    assert (g = FTail \/ g <> FTail) as [-> | Hg] by (destruct g; (by left) || (by right)).
    + cbn [tags_ok] in Ht. destruct fs; [|done]. cbn [d_fields]. cbn [of_items] in Hof.
      destruct (mapM (of_item t) xs) as [ws|] eqn:Hm; [|done]. injection Hof as <-.
      destruct (d_elems_fwd F t HF Hwt (IH Hwt) xs ws s F r st Hm Hok HI Hk Hi Hst) as (s2 & -> & Ha & Hk2); [|done|].
      { pose proof (items_len xs). rewrite Hi, app_length in Hf. lia. }
      cbn. eauto.
    + destruct xs as [|x xs].
      * destruct g; [done| |done]. injection Hof as <-. cbn [d_fields]. rewrite (d_eol F t HF s st Hk Hst).
        eexists. split; [done|]. split; [by apply adv_nil|done].
      * inversion Hok; subst.
        assert (exists v ws, of_item t x = Some v /\ of_items fs xs = Some ws /\ vs = v :: ws) as (v & ws & Hv & Hws & ->).
        { destruct g; [| |done]; cbn [of_items] in Hof; (destruct (of_item t x); [|done]); (destruct (of_items fs xs); [|done]); injection Hof as <-; eauto. }
        cbn [rlps] in Hi, Hst |- *. rewrite <- app_assoc in Hi. rewrite lenN_app in Hst.
        assert (lenN (rlp x) + lenN (rlps xs) < two64) as Hb.
        { destruct HI as (_&_&_&_&HFa). rewrite Hst in HFa. by inversion HFa. }
        destruct (fwd_adv F t s x v (rlps xs ++ r) HF Hwt (IH Hwt) Hv ltac:(done) HI Hk Hi) as (s1 & Hd & Ha & Hk1); [rewrite Hst; cbn; lia|done|].
        assert (Inv s1) as HI1 by apply Ha. pose proof Ha as (Hi1 & _ & Hs1). rewrite Hst, stack_step in Hs1 by done.
        rewrite Hi in Hi1. apply app_inv_head in Hi1.
        assert (exists any', tags_ok any' fs = true) as [any' Ht'].
        { destruct g; cbn [tags_ok] in Ht; [apply andb_true_iff in Ht as [_ Ht]; eauto|eauto|done]. }
        destruct (IHf Hwf' any' s1 xs ws r st Ht' Hws) as (s2 & Hd2 & Ha2 & Hk2); [done|done|done|by symmetry|done| |].
        { rewrite <- Hi1. rewrite Hi, app_length in Hf. lia. }
        exists s2. split; [destruct g; [| |done]; cbn [d_fields]; rewrite Hd, Hd2; done|]. split; [by eapply adv_trans|done].
Qed.

(* ---------------------------------------------------------- decoders end *)
Lemma d_elems_nofuel F t : (0 < F)%nat -> wf_ty t = true ->
  (forall s s', Inv s -> st_kind s = None -> (2 * length (st_in s) + 2 <= F)%nat -> d_ty F t s <> (inl EOutOfFuel, s')) ->
  forall f s s', Inv s -> st_kind s = None -> (2 * length (st_in s) + 2 <= F)%nat -> (length (st_in s) < f)%nat ->
    d_elems (d_ty F t) f s <> (inl EOutOfFuel, s').
Proof.
  intros HF Hwf IH. induction f as [|f IHf]; intros s s' HI Hk Hf Hlt; [lia|]. cbn [d_elems].
  destruct (d_ty F t s) as [[e|v] s1] eqn:Hd.
  - assert (e <> EOutOfFuel) by (intros ->; by apply IH in Hd). by destruct e.
  - destruct (proj1 (d_bwd F HF) t Hwf _ _ _ HI Hk Hd) as (x & Ha & Hk1 & _). destruct Ha as (Hi & HI1 & _).
    rewrite Hi, app_length in Hf, Hlt. pose proof (rlp_len_pos x) as Hp. unfold lenN in Hp.
    destruct (d_elems (d_ty F t) f s1) as [[e|vs] s2] eqn:He; [|done]. intros [= -> ->].
    apply IHf in He; [done|done|done|lia|lia].
Qed.
Lemma d_array_nofuel F t : (0 < F)%nat -> wf_ty t = true ->
  (forall s s', Inv s -> st_kind s = None -> (2 * length (st_in s) + 2 <= F)%nat -> d_ty F t s <> (inl EOutOfFuel, s')) ->
  forall n s s', Inv s -> st_kind s = None -> (2 * length (st_in s) + 2 <= F)%nat ->
    d_array (d_ty F t) n s <> (inl EOutOfFuel, s').
Proof.
  intros HF Hwf IH. induction n as [|n IHn]; intros s s' HI Hk Hf; [done|]. cbn [d_array].
  destruct (d_ty F t s) as [[e|v] s1] eqn:Hd.
  - assert (e <> EOutOfFuel) by (intros ->; by apply IH in Hd). by destruct e.
  - destruct (proj1 (d_bwd F HF) t Hwf _ _ _ HI Hk Hd) as (x & Ha & Hk1 & _). destruct Ha as (Hi & HI1 & _).
    rewrite Hi, app_length in Hf.
    destruct (d_array (d_ty F t) n s1) as [[e|vs] s2] eqn:He; [|done]. intros [= -> ->].
    apply IHn in He; [done|done|done|lia].
Qed.

Lemma d_nofuel F : (0 < F)%nat ->
  (forall t, wf_ty t = true -> forall s s', Inv s -> st_kind s = None -> (2 * length (st_in s) + 2 <= F)%nat -> d_ty F t s <> (inl EOutOfFuel, s')) /\
  (forall fs, wf_fields fs = true -> forall any s s', tags_ok any fs = true -> Inv s -> st_kind s = None -> (2 * length (st_in s) + 2 <= F)%nat -> d_fields F fs s <> (inl EOutOfFuel, s')).
Proof.
  intros HF. assert (bad_err EOutOfFuel) as Hb by (by right).
  apply rty_fields_ind.
  - intros bits _ s s' HI Hk Hf Hd. apply d_map_inl, st_uint_err, Kind_nofuel in Hd; done.
  - intros _ s s' HI Hk Hf Hd. apply d_map_inl, st_Bool_err, Kind_nofuel in Hd; done.
  - intros _ s s' HI Hk Hf Hd. apply d_map_inl, st_BigInt_err, Kind_nofuel in Hd; done.
  - intros _ s s' HI Hk Hf Hd. apply d_map_inl, st_BigInt_err, Kind_nofuel in Hd; done.
  - intros _ s s' HI Hk Hf Hd. apply d_map_inl, st_Uint256_err, Kind_nofuel in Hd; done.
  - intros _ s s' HI Hk Hf Hd. apply d_map_inl, st_Uint256_err, Kind_nofuel in Hd; done.
  - intros _ s s' HI Hk Hf Hd. apply d_map_inl, st_Bytes_err, Kind_nofuel in Hd; done.
  - intros _ s s' HI Hk Hf Hd. apply d_map_inl, st_Bytes_err, Kind_nofuel in Hd; done.
  - intros n _ s s' HI Hk Hf Hd. apply d_bytearray_err, Kind_nofuel in Hd; done.
  - intros t IH Hwf s s' HI Hk Hf Hd. cbn [wf_ty] in Hwf. apply andb_true_iff in Hwf as [_ Hwf]. cbn [d_ty] in Hd. unfold d_slice in Hd.
    destruct (st_List s) as [[e|sz] s1] eqn:HL.
    { injection Hd as -> ->. apply st_List_err, Kind_nofuel in HL; done. }
    destruct (st_List_bwd _ _ _ HI Hk HL) as (HI1 & Hk1 & _ & Hlt & _).
    destruct (sz =? 0); [by apply d_end_err in Hd|].
    destruct (d_elems (d_ty F t) F s1) as [[e|vs] s2] eqn:He; [|by apply d_end_err in Hd].
    injection Hd as -> ->. apply d_elems_nofuel in He; [done|done|done|by apply IH|done|done|lia|lia].
  - intros n t IH Hwf s s' HI Hk Hf Hd. cbn [wf_ty] in Hwf. apply andb_true_iff in Hwf as [_ Hwf]. cbn [d_ty] in Hd.
    destruct (st_List s) as [[e|sz] s1] eqn:HL.
    { injection Hd as -> ->. apply st_List_err, Kind_nofuel in HL; done. }
    destruct (st_List_bwd _ _ _ HI Hk HL) as (HI1 & Hk1 & _ & Hlt & _).
    destruct (d_array (d_ty F t) n s1) as [[e|vs] s2] eqn:He; [|by apply d_end_err in Hd].
    injection Hd as -> ->. apply d_array_nofuel in He; [done|done|done|by apply IH|done|done|lia].
  - intros fs IH Hwf s s' HI Hk Hf Hd. cbn [wf_ty] in Hwf. apply andb_true_iff in Hwf as [Ht Hwf]. cbn [d_ty] in Hd.
    destruct (st_List s) as [[e|sz] s1] eqn:HL.
    { injection Hd as -> ->. apply st_List_err, Kind_nofuel in HL; done. }
    destruct (st_List_bwd _ _ _ HI Hk HL) as (HI1 & Hk1 & _ & Hlt & _).
    destruct (d_fields F fs s1) as [[e|vs] s2] eqn:He; [|by apply d_end_err in Hd].
    injection Hd as -> ->. apply (IH Hwf false) in He; [done|done|done|done|lia].
  - intros t IH Hwf s s' HI Hk Hf Hd. apply d_map_inl in Hd. by apply (IH Hwf) in Hd.
  - intros nk t IH Hwf s s' HI Hk Hf Hd. cbn [d_ty] in Hd.
    destruct (Kind s) as [[e|[kk sz]] s1] eqn:HK; [injection Hd as -> ->; by apply Kind_nofuel in HK|].
    assert (d_map VPtr (d_ty F t s1) <> (inl EOutOfFuel, s')) as Hn.
    { intros H%d_map_inl. rewrite (d_after_Kind _ _ HF _ _ _ HK) in H. by apply (IH Hwf) in H. }
    repeat case_match; simplify_eq; by destruct Hn.
  - intros _ s s' HI Hk Hf Hd. apply d_map_inl in Hd. revert Hd. apply (proj1 (dec_nofuel F)); [done|done|lia].
  - done.
  - intros g t IH fs IHf Hwf any s s' Ht HI Hk Hf Hd.
    assert (wf_ty t = true /\ wf_fields fs = true) as [Hwt Hwf'].
    { destruct g; cbn [wf_fields] in Hwf; rewrite !andb_true_iff in Hwf; tauto. }
    assert (g = FTail \/ g <> FTail) as [-> | Hg] by (destruct g; (by left) || (by right)).
    + cbn [tags_ok] in Ht. destruct fs; [|done]. cbn [d_fields] in Hd.
      destruct (d_elems (d_ty F t) F s) as [[e|ws] s1] eqn:He; [|done]. injection Hd as -> ->.
      apply d_elems_nofuel in He; [done|done|done|by apply IH|done|done|lia|lia].
    + assert (match d_ty F t s with
              | (inl EEOL, s1) => match g with FOpt => (inr (zero_fields (FCons g t fs)), s1) | _ => (inl EWrongSize, s1) end
              | (inl e, s1) => (inl e, s1)
              | (inr v, s1) => d_map (cons v) (d_fields F fs s1) end = (inl EOutOfFuel, s')) as Hd' by (destruct g; [exact Hd|exact Hd|done]).
      clear Hd. destruct (d_ty F t s) as [[e|v] s1] eqn:Hd.
      * assert (e <> EOutOfFuel) by (intros ->; by apply (IH Hwt) in Hd). destruct e, g; simplify_eq.
      * apply d_map_inl in Hd'. destruct (proj1 (d_bwd F HF) t Hwt _ _ _ HI Hk Hd) as (x & Ha & Hk1 & _).
        destruct Ha as (Hi & HI1 & _). rewrite Hi, app_length in Hf.
        assert (exists any', tags_ok any' fs = true) as [any' Ht'].
        { destruct g; cbn [tags_ok] in Ht; [apply andb_true_iff in Ht as [_ Ht]; eauto|eauto|done]. }
        apply (IHf Hwf' any') in Hd'; [done|done|done|done|lia].
Qed.

(* ---------------------------------------------------------- values that cannot be written *)
Lemma w_elems_none t :
  (forall v b, to_item t v = None -> w_ty t v b = None) ->
  forall vs b, mapM (to_item t) vs = None -> w_elems (w_ty t) vs b = None.
Proof.
  intros IH. induction vs as [|v vs IHv]; intros b Hm; [done|]. cbn [w_elems].
  destruct (w_ty t v b) as [b'|] eqn:Hw; [|done]. apply IHv. cbn in Hm.
  destruct (to_item t v) eqn:E; [|by rewrite IH in Hw]. cbn in Hm. by destruct (mapM (to_item t) vs).
Qed.
Lemma w_list_none t :
  (forall v b, to_item t v = None -> w_ty t v b = None) ->
  forall vs b, mapM (to_item t) vs = None -> w_list (w_ty t) vs b = None.
Proof.
  intros IH vs b Hm. unfold w_list. destruct vs as [|v vs]; [done|]. cbn [eb_list].
  by rewrite (w_elems_none t IH).
Qed.

Lemma w_none :
  (forall t, wf_ty t = true -> forall v b, to_item t v = None -> w_ty t v b = None) /\
  (forall fs, wf_fields fs = true -> forall any vs n b, tags_ok any fs = true -> length vs = num_fields fs -> keeps any fs vs n ->
     to_items fs vs = None -> w_fields fs n vs b = None).
Proof.
  apply rty_fields_ind.
  - intros bits _ v b. destruct v; try done. cbn [to_item w_ty].
    change ((0 <=? z) && (z <? 2 ^ Z.of_N bits))%Z with (below bits z). by destruct (below bits z).
  - intros _ v b. by destruct v.
  - intros _ v b. destruct v; try done. cbn [to_item w_ty]. by destruct (z <? 0)%Z.
  - intros _ v b. destruct v as [| | | | |[]|]; try done. cbn [to_item w_ty]. by destruct (z <? 0)%Z.
  - intros _ v b. destruct v; try done. cbn [to_item w_ty].
    change ((0 <=? z) && (z <? 2 ^ 256))%Z with (below 256 z). by destruct (below 256 z).
  - intros _ v b. destruct v as [| | | | |[]|]; try done. cbn [to_item w_ty].
    change ((0 <=? z) && (z <? 2 ^ 256))%Z with (below 256 z). by destruct (below 256 z).
  - intros _ v b. by destruct v.
  - intros _ v b. by destruct v.
  - intros n _ v b. destruct v; try done. cbn [to_item w_ty]. by destruct (length bs =? n)%nat.
  - intros t IH Hwf v b Hx. cbn [wf_ty] in Hwf. apply andb_true_iff in Hwf as [_ Hwf]. destruct v; try done.
    cbn [to_item] in Hx. apply fmap_None in Hx. by apply (w_list_none t (IH Hwf)).
  - intros n t IH Hwf v b Hx. cbn [wf_ty] in Hwf. apply andb_true_iff in Hwf as [_ Hwf]. destruct v; try done.
    cbn [to_item] in Hx. cbn [w_ty]. destruct (length vs =? n)%nat; [|done]. apply fmap_None in Hx. by apply (w_list_none t (IH Hwf)).
  - intros fs IH Hwf v b Hx. cbn [wf_ty] in Hwf. apply andb_true_iff in Hwf as [Ht Hwf]. destruct v; try done.
    cbn [to_item] in Hx. cbn [w_ty]. destruct (Nat.eqb_spec (length vs) (num_fields fs)) as [E|]; [|done].
    apply fmap_None in Hx. cbn [eb_list]. by rewrite (IH Hwf false vs _ _ Ht E (struct_keeps fs vs E) Hx).
  - intros t IH Hwf v b. destruct v; try done. by apply IH.
  - intros k t IH Hwf v b. destruct v; try done. by apply IH.
  - intros _ v b. by destruct v.
  - intros _ any vs n b _ Hl Hk Hx. by destruct vs.
  - intros g t IH fs IHf Hwf any vs n b Ht Hl Hk Hx. destruct vs as [|v vs]; [done|]. cbn in Hl.
    assert (length vs = num_fields fs) as Hl' by lia.
    assert (wf_ty t = true /\ wf_fields fs = true) as [Hwt Hwf'].
    { destruct g; cbn [wf_fields] in Hwf; rewrite !andb_true_iff in Hwf; tauto. }
    assert (match g with FPlain => any = false | FOpt => True | FTail => fs = FNil end) as Hg.
    { destruct g; cbn [tags_ok] in Ht; [by destruct any|done|by destruct fs]. }
    assert (tags_ok (match g with FOpt => true | _ => any end) fs = true) as Ht'.
    { destruct g; cbn [tags_ok] in Ht; [by destruct any|done|by subst fs]. }
    destruct n as [|n].
    + exfalso. assert (are_zero (FCons g t fs) (v :: vs) = true) as Hz by (apply (keeps_all_zero any); [exact Hl|exact Hk]).
      destruct g; cbn [to_items] in Hx.
      * subst any. destruct Hk as (_&_&[Hk _]). cbn in Hk. lia.
      * by rewrite Hz in Hx.
      * subst fs. destruct vs; [|done]. cbn in Hz. by destruct v.
    + pose proof (keeps_cons _ _ _ _ _ _ _ Hl' Hg Hk) as Hk'.
      assert (g <> FTail -> to_item t v = None \/ to_items fs vs = None) as Hc.
      { intros Hgt. destruct g; [| |done]; cbn [to_items] in Hx.
        - destruct (to_item t v); [|by left]. destruct (to_items fs vs); [done|by right].
        - destruct (are_zero _ _); [done|]. destruct (to_item t v); [|by left]. destruct (to_items fs vs); [done|by right]. }
      destruct g; cbn [w_fields].
      1,2: destruct (w_ty t v b) as [b'|] eqn:Hw; [|done]; (destruct Hc as [Hc|Hc]; [done| |by eapply IHf]); by rewrite (IH Hwt) in Hw.
      cbn [to_items] in Hx. subst fs. destruct vs; [|done]. cbn [to_items] in Hx.
      assert (match v with VNil => Some b | VList ws => w_elems (w_ty t) ws b | _ => None end = None) as ->; [|done].
      destruct v; try done. apply (w_elems_none t (IH Hwt)). by destruct (mapM (to_item t) vs).
Qed.

(* ---------------------------------------------------------- values come back *)
Lemma replicate_forallb n : forallb (fun b => b =? 0) (replicate n 0) = true.
Proof. induction n; [done|]. cbn. by rewrite IHn. Qed.
Lemma zero_is_zero :
  (forall t, is_zero t (zero_ty t) = true) /\ (forall fs, are_zero fs (zero_fields fs) = true).
Proof.
  apply rty_fields_ind; try done.
  - intros n. cbn. apply replicate_forallb.
  - intros n t IH. cbn [zero_ty is_zero]. induction n; [done|]. cbn [replicate forallb]. by rewrite IH, IHn.
  - intros g t IH fs IHf. destruct g; cbn [zero_fields are_zero]; by rewrite ?IH, IHf.
Qed.
Lemma zero_fields_length fs : length (zero_fields fs) = num_fields fs.
Proof. induction fs as [|[] t fs IH]; [done|..]; cbn; by rewrite IH. Qed.

Lemma zero_bytes bs : forallb (fun b => b =? 0) bs = true -> bs = replicate (length bs) 0.
Proof.
  induction bs as [|b bs IH]; [done|]. cbn. intros [Hb Hbs]%andb_true_iff. apply N.eqb_eq in Hb as ->. by rewrite <- IH.
Qed.

Lemma clean_zero :
  (forall t v, clean t v -> is_zero t v = true -> v = zero_ty t) /\
  (forall fs vs, length vs = num_fields fs -> clean_fields fs vs -> are_zero fs vs = true -> vs = zero_fields fs).
Proof.
  apply rty_fields_ind; try (intros; by destruct v).
  - intros bits v Hc Hz. destruct v; try done. cbn in Hz. apply Z.eqb_eq in Hz as ->. done.
  - intros v Hc Hz. destruct v as [|[]| | | | |]; done.
  - intros v Hc Hz. destruct v; try done. cbn in Hz. apply Z.eqb_eq in Hz as ->. done.
  - intros v Hc Hz. destruct v; try done. cbn in Hz. apply Z.eqb_eq in Hz as ->. done.
  - intros v Hc Hz. destruct v; try done. by destruct bs.
  - intros n v Hc Hz. destruct v; try done. destruct Hc as [<- _]. cbn in Hz |- *. f_equal. by apply zero_bytes.
  - intros n t IH v Hc Hz. destruct v; try done. destruct Hc as [<- Hc]. cbn [is_zero zero_ty] in *. f_equal.
    induction Hc as [|v vs Hv Hvs IHv]; [done|]. cbn in Hz. apply andb_true_iff in Hz as [Hz1 Hz2]. cbn. rewrite <- IHv by done. f_equal. by apply IH.
  - intros fs IH v Hc Hz. destruct v; try done. destruct Hc as [Hl Hc]. cbn in Hz |- *. f_equal. by apply IH.
  - intros vs Hl _ _. by destruct vs.
  - intros g t IH fs IHf vs Hl Hc Hz. destruct vs as [|v vs]; [done|]. cbn in Hl.
    destruct g; cbn [clean_fields are_zero zero_fields] in *; apply andb_true_iff in Hz as [Hz1 Hz2].
    + destruct Hc as [Hc1 Hc2]. f_equal; [by apply IH|by apply IHf; [lia|..]].
    + destruct Hc as [Hc|[Hc1 Hc2]]; [done|]. f_equal; [by apply IH|by apply IHf; [lia|..]].
    + destruct Hc as [_ Hc2]. destruct v; try done. f_equal. by apply IHf; [lia|..].
Qed.

Lemma num_of_item bits z : below bits z = true -> exists n, num_item z = Str (be_bytes n) /\ n < 2 ^ bits /\ z = Z.of_N n.
Proof. intros Hb. exists (Z.to_N z). split; [done|]. split; [by apply below_N|]. apply below_spec in Hb. rewrite Z2N.id; lia. Qed.

Definition back (t : rty) (v : rval) : Prop :=
  exists x v', to_item t v = Some x /\ item_ok x /\ of_item t x = Some v' /\ fill t v' = fill t v.
Lemma back_elems t vs : (forall v, clean t v -> back t v) -> Forall (clean t) vs ->
  exists xs vs', mapM (to_item t) vs = Some xs /\ items_ok xs /\ mapM (of_item t) xs = Some vs' /\ map (fill t) vs' = map (fill t) vs.
Proof.
  intros IH. induction 1 as [|v vs Hv _ (xs & vs' & H1 & H2 & H3 & H4)].
  - exists [], []. repeat split; constructor.
  - destruct (IH v Hv) as (x & v' & E1 & E2 & E3 & E4). exists (x :: xs), (v' :: vs').
    split; [apply mapM_Some; constructor; [done|by apply mapM_Some]|]. split; [by constructor|].
    split; [apply mapM_Some; constructor; [done|by apply mapM_Some]|]. cbn. by rewrite E4, H4.
Qed.

Lemma clean_back :
  (forall t, wf_ty t = true -> forall v, clean t v -> back t v) /\
  (forall fs, wf_fields fs = true -> forall any vs, tags_ok any fs = true -> length vs = num_fields fs -> clean_fields fs vs ->
     exists xs vs', to_items fs vs = Some xs /\ items_ok xs /\ of_items fs xs = Some vs' /\ fills fs vs' = fills fs vs).
Proof.
  assert (forall b, is_bytes b -> item_ok (Str b)) as HS by apply item_ok_Str.
  apply rty_fields_ind.
  - intros bits _ v Hc. destruct v; try done. cbn [clean] in Hc. destruct (num_of_item _ _ Hc) as (n & En & Hn & ->).
    exists (Str (be_bytes n)), (VNum (Z.of_N n)). cbn [to_item of_item]. rewrite Hc, num_of_be. apply N.ltb_lt in Hn. rewrite Hn.
    split; [by rewrite En|]. split; [apply HS, be_bytes_ok|done].
  - intros _ v Hc. destruct v as [|[]| | | | |]; try done; eexists _, _; (split; [done|]); (split; [by apply HS, is_bytesb_spec|]); done.
  - intros _ v Hc. destruct v; try done. cbn [clean] in Hc. exists (num_item z), (VNum z). cbn [to_item]. destruct (Z.ltb_spec z 0); [lia|].
    split; [done|]. split; [apply HS, be_bytes_ok|]. split; [|done]. cbn [of_item num_item]. rewrite num_of_be. cbn. by rewrite Z2N.id.
  - intros _ v Hc. destruct v as [| | | | |[]|]; try done. cbn [clean] in Hc. exists (num_item z), (VPtr (VNum z)). cbn [to_item]. destruct (Z.ltb_spec z 0); [lia|].
    split; [done|]. split; [apply HS, be_bytes_ok|]. split; [|done]. cbn [of_item num_item]. rewrite num_of_be. cbn. by rewrite Z2N.id.
  - intros _ v Hc. destruct v; try done. cbn [clean] in Hc. destruct (num_of_item _ _ Hc) as (n & En & Hn & ->).
    exists (Str (be_bytes n)), (VNum (Z.of_N n)). cbn [to_item of_item]. rewrite Hc, num_of_be. apply N.ltb_lt in Hn. rewrite Hn.
    split; [by rewrite En|]. split; [apply HS, be_bytes_ok|done].
  - intros _ v Hc. destruct v as [| | | | |[]|]; try done. cbn [clean] in Hc. destruct (num_of_item _ _ Hc) as (n & En & Hn & ->).
    exists (Str (be_bytes n)), (VPtr (VNum (Z.of_N n))). cbn [to_item of_item]. rewrite Hc, num_of_be. apply N.ltb_lt in Hn. rewrite Hn.
    split; [by rewrite En|]. split; [apply HS, be_bytes_ok|done].
  - intros _ v Hc. destruct v; try done. exists (Str bs), (VStr bs). split; [done|]. split; [by apply HS|done].
  - intros _ v Hc. destruct v; try done.
    + exists (Str []), (VStr []). split; [done|]. split; [by apply HS, is_bytesb_spec|done].
    + exists (Str bs), (VStr bs). split; [done|]. split; [by apply HS|done].
  - intros n _ v Hc. destruct v; try done. destruct Hc as [Hl Hb]. exists (Str bs), (VStr bs). cbn [to_item of_item]. rewrite Hl, Nat.eqb_refl.
    split; [done|]. split; [by apply HS|done].
  - intros t IH Hwf v Hc. cbn [wf_ty] in Hwf. apply andb_true_iff in Hwf as [_ Hwf]. destruct v; try done.
    + exists (Lst []), (VList []). split; [done|]. split; [apply item_ok_Lst; constructor|done].
    + destruct (back_elems t vs (IH Hwf) Hc) as (xs & vs' & H1 & H2 & H3 & H4). exists (Lst xs), (VList vs'). cbn [to_item of_item fill].
      rewrite H1, H3, H4. split; [done|]. split; [by apply item_ok_Lst|done].
  - intros n t IH Hwf v Hc. cbn [wf_ty] in Hwf. apply andb_true_iff in Hwf as [_ Hwf]. destruct v; try done. destruct Hc as [Hl Hc].
    destruct (back_elems t vs (IH Hwf) Hc) as (xs & vs' & H1 & H2 & H3 & H4). exists (Lst xs), (VList vs'). cbn [to_item of_item fill].
    rewrite Hl, Nat.eqb_refl. assert (length xs = n) as -> by (apply mapM_length in H1; lia).
    rewrite Nat.eqb_refl, H1, H3, H4. split; [done|]. split; [by apply item_ok_Lst|done].
  - intros fs IH Hwf v Hc. cbn [wf_ty] in Hwf. apply andb_true_iff in Hwf as [Ht Hwf]. destruct v; try done. destruct Hc as [Hl Hc].
    destruct (IH Hwf false vs Ht Hl Hc) as (xs & vs' & H1 & H2 & H3 & H4). exists (Lst xs), (VList vs'). cbn [to_item of_item fill].
    rewrite Hl, Nat.eqb_refl. rewrite H1, H3, H4. split; [done|]. split; [by apply item_ok_Lst|done].
  - intros t IH Hwf v Hc. destruct v; try done. destruct (IH Hwf v Hc) as (x & v' & H1 & H2 & H3 & H4).
    exists x, (VPtr v'). cbn [to_item of_item fill]. rewrite H1, H3, H4. done.
  - intros k t IH Hwf v Hc. destruct v; try done.
    + exists (nil_item k), VNil. split; [done|]. split; [destruct k; [by apply HS, is_bytesb_spec|apply item_ok_Lst; constructor]|]. by destruct k.
    + destruct Hc as (Hc & Hn1 & Hn2). destruct (IH Hwf v Hc) as (x & v' & H1 & H2 & H3 & H4). rewrite H1 in Hn1, Hn2.
      exists x, (VPtr v'). cbn [to_item of_item fill]. rewrite H1, H4. split; [done|]. split; [done|]. split; [|done].
      destruct k, x as [[|]|[|]]; try done; by rewrite H3.
  - intros _ v Hc. destruct v; try done. exists x, (VItem x). done.
  - intros _ any vs _ Hl _. destruct vs; [|done]. exists [], []. split; [done|]. split; [constructor|done].
  - intros g t IH fs IHf Hwf any vs Ht Hl Hc. destruct vs as [|v vs]; [done|]. cbn in Hl. assert (length vs = num_fields fs) as Hl' by lia.
    assert (wf_ty t = true /\ wf_fields fs = true) as [Hwt Hwf'].
    { destruct g; cbn [wf_fields] in Hwf; rewrite !andb_true_iff in Hwf; tauto. }
    assert (g <> FTail -> exists any', tags_ok any' fs = true) as Ht'.
    { intros _. destruct g; cbn [tags_ok] in Ht; [apply andb_true_iff in Ht as [_ Ht]; eauto|eauto|]. destruct fs; [by exists false|done]. }
    destruct g.
    + destruct Hc as [Hc1 Hc2]. destruct Ht' as [any' Ht']; [done|].
      destruct (IH Hwt v Hc1) as (x & v' & E1 & E2 & E3 & E4). destruct (IHf Hwf' any' vs Ht' Hl' Hc2) as (xs & vs' & H1 & H2 & H3 & H4).
      exists (x :: xs), (v' :: vs'). cbn [to_items of_items fills]. rewrite E1, H1, E3, H3, E4, H4. split; [done|]. split; [by constructor|done].
    + destruct (are_zero (FCons FOpt t fs) (v :: vs)) eqn:Hz.
      * exists [], (zero_fields (FCons FOpt t fs)). cbn [to_items]. rewrite Hz. split; [done|]. split; [constructor|]. split; [done|].
        by rewrite <- (proj2 clean_zero (FCons FOpt t fs) (v :: vs)).
      * destruct Hc as [Hc|[Hc1 Hc2]]; [rewrite Hc, (proj2 zero_is_zero) in Hz; done|]. destruct Ht' as [any' Ht']; [done|].
        destruct (IH Hwt v Hc1) as (x & v' & E1 & E2 & E3 & E4). destruct (IHf Hwf' any' vs Ht' Hl' Hc2) as (xs & vs' & H1 & H2 & H3 & H4).
        exists (x :: xs), (v' :: vs'). cbn [to_items of_items fills]. rewrite Hz, E1, H1, E3, H3, E4, H4. split; [done|]. split; [by constructor|done].
    + cbn [tags_ok] in Ht. destruct fs; [|done]. destruct vs; [|done]. destruct Hc as [[-> | (ws & -> & Hc)] _].
      * exists [], [VList []]. split; [done|]. split; [constructor|done].
      * destruct (back_elems t ws (IH Hwt) Hc) as (xs & ws' & H1 & H2 & H3 & H4).
        exists xs, [VList ws']. cbn [to_items of_items fills]. rewrite H1, H3, H4, app_nil_r. done.
Qed.

(* ---------------------------------------------------------- decoded values are written back *)
Lemma exact_elems t : (forall x v, item_ok x -> of_item t x = Some v -> to_item t v = Some x) ->
  forall xs vs, items_ok xs -> mapM (of_item t) xs = Some vs -> mapM (to_item t) vs = Some xs.
Proof.
  intros IH. induction xs as [|x xs IHx]; intros vs Hok Hm; [by injection Hm as <-|].
  apply mapM_Some in Hm. inversion Hm as [|? v ? ws Hv Hvs]; subst. inversion Hok; subst.
  apply mapM_Some. constructor; [by apply IH|]. apply mapM_Some. apply IHx; [done|by apply mapM_Some].
Qed.

Lemma exact_back :
  (forall t, wf_ty t = true -> no_optional t = true -> forall x v, item_ok x -> of_item t x = Some v -> to_item t v = Some x) /\
  (forall fs, wf_fields fs = true -> no_optionals fs = true -> forall xs vs, tags_ok false fs = true -> items_ok xs -> of_items fs xs = Some vs ->
     length vs = num_fields fs /\ to_items fs vs = Some xs).
Proof.
  assert (forall b n, is_bytes b -> num_of b = Some n -> num_item (Z.of_N n) = Str b) as Hnum.
  { intros b n Hb Hn. unfold num_item. rewrite N2Z.id. by rewrite <- (num_of_Some b n). }
  assert (forall bits n, n < 2 ^ bits -> below bits (Z.of_N n) = true) as Hbel.
  { intros bits n Hn. apply below_spec. split; [lia|]. apply N2Z.inj_lt in Hn. by rewrite N2Z.inj_pow in Hn. }
  apply rty_fields_ind.
  - intros bits _ _ [b|] v Hok; [|done]. cbn [of_item]. destruct (num_of b) as [n|] eqn:En; [|done]. destruct (N.ltb_spec n (2 ^ bits)) as [Hn|]; [|done].
    intros [= <-]. cbn [to_item]. by rewrite Hbel, (Hnum b).
  - intros _ _ [b|] v Hok; [|done]. cbn [of_item]. destruct b as [|[|[]] [|]]; try done; by intros [= <-].
  - intros _ _ [b|] v Hok; [|done]. cbn [of_item]. intros (n & Hn & ->)%fmap_Some. cbn [to_item]. destruct (Z.ltb_spec (Z.of_N n) 0); [lia|]. by rewrite (Hnum b).
  - intros _ _ [b|] v Hok; [|done]. cbn [of_item]. intros (n & Hn & ->)%fmap_Some. cbn [to_item]. destruct (Z.ltb_spec (Z.of_N n) 0); [lia|]. by rewrite (Hnum b).
  - intros _ _ [b|] v Hok; [|done]. cbn [of_item]. destruct (num_of b) as [n|] eqn:En; [|done]. destruct (N.ltb_spec n (2 ^ 256)) as [Hn|]; [|done].
    intros [= <-]. cbn [to_item]. by rewrite Hbel, (Hnum b).
  - intros _ _ [b|] v Hok; [|done]. cbn [of_item]. destruct (num_of b) as [n|] eqn:En; [|done]. destruct (N.ltb_spec n (2 ^ 256)) as [Hn|]; [|done].
    intros [= <-]. cbn [to_item]. by rewrite Hbel, (Hnum b).
  - intros _ _ [b|] v Hok; [|done]. by intros [= <-].
  - intros _ _ [b|] v Hok; [|done]. by intros [= <-].
  - intros n _ _ [b|] v Hok; [|done]. cbn [of_item]. destruct (length b =? n)%nat eqn:E; [|done]. intros [= <-]. cbn [to_item]. by rewrite E.
  - intros t IH Hwf Hno [|xs] v Hok; [done|]. cbn [wf_ty] in Hwf. apply andb_true_iff in Hwf as [_ Hwf].
    cbn [of_item]. intros (vs & Hm & ->)%fmap_Some. cbn [to_item]. apply item_ok_Lst in Hok. by rewrite (exact_elems t (IH Hwf Hno) xs vs).
  - intros n t IH Hwf Hno [|xs] v Hok; [done|]. cbn [wf_ty] in Hwf. apply andb_true_iff in Hwf as [_ Hwf].
    cbn [of_item]. destruct (Nat.eqb_spec (length xs) n) as [<-|]; [|done]. intros (vs & Hm & ->)%fmap_Some. cbn [to_item]. apply item_ok_Lst in Hok.
    rewrite (mapM_length _ _ _ Hm), Nat.eqb_refl. by rewrite (exact_elems t (IH Hwf Hno) xs vs).
  - intros fs IH Hwf Hno [|xs] v Hok; [done|]. cbn [wf_ty] in Hwf. apply andb_true_iff in Hwf as [Ht Hwf].
    cbn [of_item]. intros (vs & Hm & ->)%fmap_Some. cbn [to_item]. apply item_ok_Lst in Hok.
    destruct (IH Hwf Hno xs vs Ht Hok Hm) as [Hl Hi]. by rewrite Hl, Nat.eqb_refl, Hi.
  - intros t IH Hwf Hno x v Hok. cbn [of_item]. intros (w & Hw & ->)%fmap_Some. by apply IH.
  - intros k t IH Hwf Hno x v Hok Hof. cbn [of_item] in Hof.
    assert ((v = VNil /\ x = nil_item k) \/ exists w, of_item t x = Some w /\ v = VPtr w) as [[-> ->]|(w & Hw & ->)]; [|by destruct k|by apply IH].
    destruct k, x as [[|]|[|]]; try done; try (right; apply fmap_Some in Hof as (w & Hw & ->); eauto; fail); left; by injection Hof as <-.
  - intros _ _ x v Hok [= <-]. done.
  - intros _ _ xs vs _ _ Hof. destruct xs; [|done]. by injection Hof as <-.
  - intros g t IH fs IHf Hwf Hno xs vs Ht Hok Hof.
    destruct g; [|done|].
    + cbn [wf_fields no_optionals tags_ok] in Hwf, Hno, Ht. apply andb_true_iff in Hwf as [Hwt Hwf']. apply andb_true_iff in Hno as [Hno1 Hno2].
      destruct xs as [|x xs]; [done|]. cbn [of_items] in Hof. inversion Hok; subst.
      destruct (of_item t x) as [v|] eqn:Ev; [|done]. destruct (of_items fs xs) as [ws|] eqn:Ew; [|done]. injection Hof as <-.
      destruct (IHf Hwf' Hno2 xs ws Ht) as [Hl Hi]; [done|done|]. cbn [to_items length num_fields]. rewrite (IH Hwt Hno1 x v) by done. rewrite Hi, Hl. done.
    + cbn [wf_fields no_optionals tags_ok] in Hwf, Hno, Ht. destruct fs; [|done]. rewrite !andb_true_iff in Hwf. destruct Hwf as [[_ Hwt] _].
      apply andb_true_iff in Hno as [Hno1 _]. cbn [of_items] in Hof. destruct (mapM (of_item t) xs) as [ws|] eqn:Em; [|done]. injection Hof as <-.
      cbn [to_items]. by rewrite (exact_elems t (IH Hwt Hno1) xs ws), app_nil_r.
Qed.

(** Decoded values that are zero are the zero value. *)
Lemma of_zero :
  (forall t, wf_ty t = true -> forall x v, of_item t x = Some v -> is_zero t v = true -> v = zero_ty t) /\
  (forall fs, wf_fields fs = true -> forall any xs vs, tags_ok any fs = true -> of_items fs xs = Some vs ->
     length vs = num_fields fs /\ (are_zero fs vs = true -> vs = zero_fields fs)).
Proof.
  apply rty_fields_ind.
  - intros bits _ [b|] v; [|done]. cbn [of_item]. repeat case_match; try done. intros [= <-] Hz. cbn in Hz. apply Z.eqb_eq in Hz. cbn. congruence.
  - intros _ [b|] v; [|done]. cbn [of_item]. destruct b as [|[|[]] [|]]; try done; by intros [= <-].
  - intros _ [b|] v; [|done]. cbn [of_item]. intros (n & Hn & ->)%fmap_Some Hz. cbn in Hz. apply Z.eqb_eq in Hz. cbn. congruence.
  - intros _ [b|] v; [|done]. cbn [of_item]. by intros (n & Hn & ->)%fmap_Some Hz.
  - intros _ [b|] v; [|done]. cbn [of_item]. repeat case_match; try done. intros [= <-] Hz. cbn in Hz. apply Z.eqb_eq in Hz. cbn. congruence.
  - intros _ [b|] v; [|done]. cbn [of_item]. repeat case_match; try done. by intros [= <-] Hz.
  - intros _ [b|] v; [|done]. intros [= <-] Hz. by destruct b.
  - intros _ [b|] v; [|done]. by intros [= <-] Hz.
  - intros n _ [b|] v; [|done]. cbn [of_item]. destruct (Nat.eqb_spec (length b) n) as [<-|]; [|done]. intros [= <-] Hz. cbn in Hz |- *. f_equal. by apply zero_bytes.
  - intros t _ _ [|xs] v; [done|]. cbn [of_item]. by intros (vs & Hm & ->)%fmap_Some.
  - intros n t IH Hwf [|xs] v; [done|]. cbn [wf_ty] in Hwf. apply andb_true_iff in Hwf as [_ Hwf].
    cbn [of_item]. destruct (Nat.eqb_spec (length xs) n) as [<-|]; [|done]. intros (vs & Hm & ->)%fmap_Some Hz. cbn [is_zero zero_ty] in *. f_equal.
    apply mapM_Some in Hm. induction Hm as [|x v xs vs Hx _ IHx]; [done|]. cbn in Hz. apply andb_true_iff in Hz as [Hz1 Hz2]. cbn. rewrite <- IHx by done. f_equal. by eapply IH.
  - intros fs IH Hwf [|xs] v; [done|]. cbn [wf_ty] in Hwf. apply andb_true_iff in Hwf as [Ht Hwf].
    cbn [of_item]. intros (vs & Hm & ->)%fmap_Some Hz. cbn in Hz |- *. f_equal. destruct (IH Hwf false xs vs Ht Hm) as [_ H]. by apply H.
  - intros t _ _ x v. cbn [of_item]. by intros (w & Hw & ->)%fmap_Some.
  - intros k t _ _ x v Hof Hz. by destruct v.
  - intros _ x v [= <-]. done.
  - intros _ any xs vs _ Hof. destruct xs; [|done]. by injection Hof as <-.
  - intros g t IH fs IHf Hwf any xs vs Ht Hof.
    assert (wf_ty t = true /\ wf_fields fs = true) as [Hwt Hwf'].
    { destruct g; cbn [wf_fields] in Hwf; rewrite !andb_true_iff in Hwf; tauto. }
    assert (g = FTail \/ g <> FTail) as [-> | Hg] by (destruct g; (by left) || (by right)).
    + cbn [tags_ok] in Ht. destruct fs; [|done]. cbn [of_items] in Hof. destruct (mapM (of_item t) xs); [|done]. by injection Hof as <-.
    + assert (exists any', tags_ok any' fs = true) as [any' Ht'].
      { destruct g; cbn [tags_ok] in Ht; [apply andb_true_iff in Ht as [_ Ht]; eauto|eauto|done]. }
      destruct xs as [|x xs].
      * destruct g; [done| |done]. injection Hof as <-. split; [|done]. exact (zero_fields_length (FCons FOpt t fs)).
      * assert (exists v ws, of_item t x = Some v /\ of_items fs xs = Some ws /\ vs = v :: ws) as (v & ws & Hv & Hws & ->).
        { destruct g; [| |done]; cbn [of_items] in Hof; (destruct (of_item t x); [|done]); (destruct (of_items fs xs); [|done]); injection Hof as <-; eauto. }
        destruct (IHf Hwf' any' xs ws Ht' Hws) as [Hl Hz]. split; [cbn; lia|]. intros Hq.
        assert (is_zero t v = true /\ are_zero fs ws = true) as [Hq1 Hq2] by (destruct g; [| |done]; cbn [are_zero] in Hq; by apply andb_true_iff).
        destruct g; [| |done]; cbn [zero_fields]; (f_equal; [by eapply IH|by apply Hz]).
Qed.

Lemma rlp_head_len_mono a b n m : n <= m -> lenN (rlp_head a b n) <= lenN (rlp_head a b m).
Proof.
  intros Hle. unfold rlp_head. destruct (N.ltb_spec n 56), (N.ltb_spec m 56); rewrite ?lenN_cons; change (lenN (@nil N)) with 0; try lia.
  assert (length (be_bytes n) <= length (be_bytes m))%nat; [|unfold lenN; lia]. apply be_bytes_length_le.
  eapply N.le_lt_trans; [exact Hle|]. rewrite <- (be_num_bytes m) at 1. apply be_num_bound, be_bytes_ok.
Qed.
Lemma rlp_Lst_mono xs ys : lenN (rlps xs) <= lenN (rlps ys) -> lenN (rlp (Lst xs)) <= lenN (rlp (Lst ys)).
Proof. intros H. rewrite !rlp_Lst, !lenN_app. pose proof (rlp_head_len_mono 0xC0 0xF7 _ _ H). lia. Qed.

(** What is written for a decoded value: a shorter item that decodes to the same value. *)
Definition again (t : rty) (x : item) (v : rval) : Prop :=
  exists x', to_item t v = Some x' /\ item_ok x' /\ lenN (rlp x') <= lenN (rlp x) /\ of_item t x' = Some v.
Lemma again_elems t : (forall x v, item_ok x -> of_item t x = Some v -> again t x v) ->
  forall xs vs, items_ok xs -> mapM (of_item t) xs = Some vs ->
    exists ys, mapM (to_item t) vs = Some ys /\ items_ok ys /\ lenN (rlps ys) <= lenN (rlps xs) /\ mapM (of_item t) ys = Some vs.
Proof.
  intros IH. induction xs as [|x xs IHx]; intros vs Hok Hm.
  - injection Hm as <-. exists []. split; [done|]. split; [constructor|done].
  - apply mapM_Some in Hm. inversion Hm as [|? v ? ws Hv Hvs]; subst. inversion Hok; subst.
    destruct (IH x v ltac:(done) Hv) as (y & E1 & E2 & E3 & E4). destruct (IHx ws) as (ys & H1' & H2' & H3' & H4'); [done|by apply mapM_Some|].
    exists (y :: ys). split; [apply mapM_Some; constructor; [done|by apply mapM_Some]|]. split; [by constructor|].
    split; [cbn [rlps]; rewrite !lenN_app; lia|]. apply mapM_Some. constructor; [done|by apply mapM_Some].
Qed.

Lemma again_back :
  (forall t, wf_ty t = true -> nil_exact t = true -> forall x v, item_ok x -> of_item t x = Some v -> again t x v) /\
  (forall fs, wf_fields fs = true -> nil_exacts fs = true -> forall any xs vs, tags_ok any fs = true -> items_ok xs -> of_items fs xs = Some vs ->
     exists ys, to_items fs vs = Some ys /\ items_ok ys /\ lenN (rlps ys) <= lenN (rlps xs) /\ of_items fs ys = Some vs).
Proof.
  assert (forall t, wf_ty t = true -> no_optional t = true -> forall x v, item_ok x -> of_item t x = Some v -> again t x v) as Hex.
  { intros t Hwf Hno x v Hok Hof. exists x. split; [by apply (proj1 exact_back)|]. split; [done|]. split; [lia|done]. }
  apply rty_fields_ind; try (intros; by apply Hex).
  - intros t IH Hwf Hne [|xs] v Hok; [done|]. cbn [wf_ty] in Hwf. apply andb_true_iff in Hwf as [_ Hwf].
    cbn [of_item]. intros (vs & Hm & ->)%fmap_Some. apply item_ok_Lst in Hok.
    destruct (again_elems t (IH Hwf Hne) xs vs Hok Hm) as (ys & E1 & E2 & E3 & E4). exists (Lst ys). cbn [to_item of_item]. rewrite E1, E4.
    split; [done|]. split; [by apply item_ok_Lst|]. split; [by apply rlp_Lst_mono|done].
  - intros n t IH Hwf Hne [|xs] v Hok; [done|]. cbn [wf_ty] in Hwf. apply andb_true_iff in Hwf as [_ Hwf].
    cbn [of_item]. destruct (Nat.eqb_spec (length xs) n) as [<-|]; [|done]. intros (vs & Hm & ->)%fmap_Some. apply item_ok_Lst in Hok.
    destruct (again_elems t (IH Hwf Hne) xs vs Hok Hm) as (ys & E1 & E2 & E3 & E4). exists (Lst ys). cbn [to_item of_item].
    pose proof (mapM_length _ _ _ Hm) as L1. pose proof (mapM_length _ _ _ E1) as L2.
    rewrite (proj2 (Nat.eqb_eq (length vs) (length xs))) by lia. rewrite (proj2 (Nat.eqb_eq (length ys) (length xs))) by lia. rewrite E1, E4.
    split; [done|]. split; [by apply item_ok_Lst|]. split; [by apply rlp_Lst_mono|done].
  - intros fs IH Hwf Hne [|xs] v Hok; [done|]. cbn [wf_ty] in Hwf. apply andb_true_iff in Hwf as [Ht Hwf].
    cbn [of_item]. intros (vs & Hm & ->)%fmap_Some. apply item_ok_Lst in Hok.
    destruct (IH Hwf Hne false xs vs Ht Hok Hm) as (ys & E1 & E2 & E3 & E4). exists (Lst ys). cbn [to_item of_item].
    destruct (proj2 of_zero fs Hwf false xs vs Ht Hm) as [Hl _]. rewrite Hl, Nat.eqb_refl, E1, E4.
    split; [done|]. split; [by apply item_ok_Lst|]. split; [by apply rlp_Lst_mono|done].
  - intros t IH Hwf Hne x v Hok. cbn [of_item]. intros (w & Hw & ->)%fmap_Some. destruct (IH Hwf Hne x w Hok Hw) as (x' & E1 & E2 & E3 & E4).
    exists x'. split; [done|]. split; [done|]. split; [done|]. cbn [of_item]. by rewrite E4.
  - intros _ _ any xs vs _ _ Hof. destruct xs; [|done]. injection Hof as <-. exists []. split; [done|]. split; [constructor|done].
  - intros g t IH fs IHf Hwf Hne any xs vs Ht Hok Hof. cbn [nil_exacts] in Hne. apply andb_true_iff in Hne as [Hne1 Hne2].
    assert (wf_ty t = true /\ wf_fields fs = true) as [Hwt Hwf'].
    { destruct g; cbn [wf_fields] in Hwf; rewrite !andb_true_iff in Hwf; tauto. }
    assert (g = FTail \/ g <> FTail) as [-> | Hg] by (destruct g; (by left) || (by right)).
    + cbn [tags_ok] in Ht. destruct fs; [|done]. cbn [of_items] in Hof. destruct (mapM (of_item t) xs) as [ws|] eqn:Em; [|done]. injection Hof as <-.
      destruct (again_elems t (IH Hwt Hne1) xs ws Hok Em) as (ys & E1 & E2 & E3 & E4). exists ys. cbn [to_items of_items]. rewrite E1, E4, app_nil_r. done.
    + assert (exists any', tags_ok any' fs = true) as [any' Ht'].
      { destruct g; cbn [tags_ok] in Ht; [apply andb_true_iff in Ht as [_ Ht]; eauto|eauto|done]. }
      pose proof (proj2 of_zero (FCons g t fs) Hwf any xs vs Ht Hof) as [Hl Hz].
      destruct (are_zero (FCons g t fs) vs) eqn:Haz.
      * assert (g = FPlain \/ g = FOpt) as [-> | ->] by (destruct g; auto; done).
        -- destruct xs as [|x xs]; [done|]. cbn [of_items] in Hof. inversion Hok; subst.
           destruct (of_item t x) as [v|] eqn:Ev; [|done]. destruct (of_items fs xs) as [ws|] eqn:Ew; [|done]. injection Hof as <-.
           destruct (IH Hwt Hne1 x v) as (y & E1 & E2 & E3 & E4); [done|done|].
           destruct (IHf Hwf' Hne2 any' xs ws Ht') as (ys & H1' & H2' & H3' & H4'); [done|done|].
           exists (y :: ys). cbn [to_items of_items rlps]. rewrite E1, H1', E4, H4', !lenN_app. split; [done|]. split; [by constructor|]. split; [lia|done].
        -- exists []. specialize (Hz eq_refl). subst vs. cbn [zero_fields to_items]. change (zero_ty t :: zero_fields fs) with (zero_fields (FCons FOpt t fs)).
           rewrite Haz. split; [done|]. split; [constructor|]. split; [change (lenN (rlps [])) with 0; lia|done].
      * destruct xs as [|x xs].
        { destruct g; [done| |done]. injection Hof as <-. change (zero_ty t :: zero_fields fs) with (zero_fields (FCons FOpt t fs)) in Haz. by rewrite (proj2 zero_is_zero) in Haz. }
        inversion Hok; subst.
        assert (exists v ws, of_item t x = Some v /\ of_items fs xs = Some ws /\ vs = v :: ws) as (v & ws & Hv & Hws & ->).
        { destruct g; [| |done]; cbn [of_items] in Hof; (destruct (of_item t x); [|done]); (destruct (of_items fs xs); [|done]); injection Hof as <-; eauto. }
        destruct (IH Hwt Hne1 x v) as (y & E1 & E2 & E3 & E4); [done|done|].
        destruct (IHf Hwf' Hne2 any' xs ws Ht') as (ys & H1' & H2' & H3' & H4'); [done|done|].
        exists (y :: ys). split; [|split; [by constructor|split; [cbn [rlps]; rewrite !lenN_app; lia|]]].
        -- destruct g; [| |done]; cbn [to_items]; rewrite ?Haz; by rewrite E1, H1'.
        -- destruct g; [| |done]; cbn [of_items]; by rewrite E4, H4'.
Qed.
