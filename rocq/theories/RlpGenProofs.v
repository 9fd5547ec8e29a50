(** Proofs about generated encoders and decoders. *)
From Verif Require Import Base RlpSpec RlpModel RlpProofs RlpDecProofs RlpRawProofs RlpProps RlpTypeModel RlpTypeSpec RlpTypeProofs RlpGenModel RlpGenSpec.

(* ---------------------------------------------------------- writers *)
Lemma nil_opts_length fs : forall vs, length (nil_opts fs vs) = length vs.
Proof. induction fs as [|[] t fs IH]; intros [|v vs]; try done; cbn [nil_opts length]; by rewrite IH. Qed.

Lemma comparable_zero :
  (forall t, comparable t = true -> forall v, is_zero t (nil_opt t v) = is_zero t v) /\
  (forall fs, comparables fs = true -> forall vs, are_zero fs (nil_opts fs vs) = are_zero fs vs).
Proof.
  apply rty_fields_ind; try done.
  - intros fs IH Hc v. destruct v; try done. cbn [nil_opt is_zero]. by apply IH.
  - intros t IH Hc v. by destruct v.
  - intros k t IH Hc v. by destruct v.
  - intros g t IH fs IHf Hc vs. destruct vs as [|v vs]; [by destruct g|].
    destruct g; [| |done]; cbn [comparables] in Hc; apply andb_true_iff in Hc as [Ht Hfs].
    + cbn [nil_opts are_zero]. by rewrite (IH Ht), (IHf Hfs).
    + cbn [nil_opts are_zero]. rewrite (IHf Hfs). f_equal. destruct t; try (by apply IH); done.
Qed.

Definition opt_ok (t : rty) : bool := match t with RBytes | RSlice _ => true | _ => comparable t end.
Definition opt_val (t : rty) (v : rval) : rval :=
  match t, v with
  | RBytes, VStr [] => VNil
  | RSlice _, VList [] => VNil
  | _, _ => nil_opt t v
  end.
Lemma opt_zero t v : opt_ok t = true -> is_zero t (opt_val t v) = negb (nonZeroCheck t v).
Proof.
  intros Hc.
  assert (match t with RBytes | RSlice _ => True | _ => is_zero t (nil_opt t v) = negb (negb (is_zero t v)) end) as H.
  { destruct t; try done; rewrite negb_involutive; by apply (proj1 comparable_zero). }
  destruct t; try exact H.
  - destruct v as [| | |[]| | |]; done.
  - destruct v as [| | | |[]| |]; done.
Qed.

Lemma gen_ws_opt t fs : gen_ws (FCons FOpt t fs) = true -> opt_ok t = true /\ gen_w t = true /\ gen_ws fs = true.
Proof. cbn [gen_ws]. rewrite !andb_true_iff. unfold opt_ok. tauto. Qed.

Lemma cond_spec fs : tags_ok true fs = true -> gen_ws fs = true -> forall vs, length vs = num_fields fs ->
  are_zero fs (nil_opts fs vs) = negb (cond fs vs).
Proof.
  induction fs as [|g t fs IH]; intros Ht Hg vs Hl; [by destruct vs|]. destruct vs as [|v vs]; [done|]. cbn in Hl.
  destruct g; [done| |done]. apply gen_ws_opt in Hg as (Ho & _ & Hg).
  change (is_zero t (opt_val t v) && are_zero fs (nil_opts fs vs) = negb (nonZeroCheck t v || cond fs vs)).
  rewrite (opt_zero _ _ Ho), IH by (try done; lia). by rewrite negb_orb.
Qed.
Lemma cond_false fs : tags_ok true fs = true -> gen_ws fs = true -> forall vs b, cond fs vs = false -> g_wfields fs vs b = Some b.
Proof.
  induction fs as [|g t fs IH]; intros Ht Hg vs b Hc; [by destruct vs|]. destruct vs as [|v vs]; [by destruct g|].
  destruct g; [done| |done]. apply gen_ws_opt in Hg as (Ho & _ & Hg). cbn [g_wfields]. rewrite Hc.
  cbn [cond] in Hc. apply orb_false_iff in Hc as [_ Hc]. by apply IH.
Qed.

(** The writer of an optional field sees the value that reflection sees. *)
Lemma opt_item t v : to_item t (opt_val t v) = to_item t (nil_opt t v).
Proof. destruct t; try done; by destruct v as [| | |[]|[]| |]. Qed.

Lemma gw_elems t :
  (forall v x b, to_item t (nil_opt t v) = Some x -> lenN (rlp x) < two64 -> exists b', g_w t v b = Some b' /\ writes b b' (rlp x)) ->
  forall vs xs b, mapM (to_item t) (map (nil_opt t) vs) = Some xs -> lenN (rlps xs) < two64 ->
    exists b', w_elems (g_w t) vs b = Some b' /\ writes b b' (rlps xs).
Proof.
  intros IH. induction vs as [|v vs IHv]; intros xs b Hm Hl.
  - injection Hm as <-. exists b. split; [done|apply writes_nil].
  - apply mapM_Some in Hm. inversion Hm as [|? x ? ys Hx Hxs]; subst. cbn [rlps] in *. rewrite lenN_app in Hl.
    destruct (IH v x b Hx) as (b1 & Hw1 & Hs1); [lia|]. cbn [w_elems]. rewrite Hw1.
    destruct (IHv ys b1) as (b2 & Hw2 & Hs2); [by apply mapM_Some|lia|]. exists b2. split; [done|]. by eapply writes_trans.
Qed.

Lemma gw_spec :
  (forall t, wf_ty t = true -> gen_w t = true -> forall v x b, to_item t (nil_opt t v) = Some x -> lenN (rlp x) < two64 ->
     exists b', g_w t v b = Some b' /\ writes b b' (rlp x)) /\
  (forall fs, wf_fields fs = true -> gen_ws fs = true -> forall any vs xs b, tags_ok any fs = true -> length vs = num_fields fs ->
     to_items fs (nil_opts fs vs) = Some xs -> lenN (rlps xs) < two64 ->
     exists b', g_wfields fs vs b = Some b' /\ writes b b' (rlps xs)).
Proof.
  apply rty_fields_ind.
  - (* RUint *) intros bits Hwf _ v x b Hx Hl. destruct v; try done. cbn [to_item nil_opt] in Hx. cbn [g_w].
    change ((0 <=? z) && (z <? 2 ^ Z.of_N bits))%Z with (below bits z). destruct (below bits z) eqn:Hb; [|done].
    injection Hx as <-. eexists. split; [done|]. apply writeUint64_spec. apply below_N in Hb.
    eapply N.lt_le_trans; [exact Hb|]. change two64 with (2 ^ 64). apply N.pow_le_mono_r; [done|].
    apply wf_uint in Hwf. lia.
  - (* RBool *) intros _ _ v x b Hx Hl. destruct v; try done. injection Hx as <-. eexists. split; [done|]. apply writeBool_spec.
  - (* RBig *) intros _ _ v x b Hx Hl. destruct v; try done. cbn [to_item nil_opt] in Hx. cbn [g_w]. destruct (z <? 0)%Z; [done|].
    injection Hx as <-. eexists. split; [done|]. apply writeBigInt_spec. by apply rlp_str_len.
  - (* RBigPtr *) intros _ _ v x b Hx Hl. destruct v as [| | | | |[]|]; try done.
    + injection Hx as <-. eexists. split; [done|]. apply writes_append.
    + cbn [to_item nil_opt] in Hx. cbn [g_w]. destruct (z <? 0)%Z; [done|].
      injection Hx as <-. eexists. split; [done|]. apply writeBigInt_spec. by apply rlp_str_len.
  - (* RU256 *) intros _ _ v x b Hx Hl. destruct v; try done. cbn [to_item nil_opt] in Hx. cbn [g_w].
    change ((0 <=? z) && (z <? 2 ^ 256))%Z with (below 256 z). destruct (below 256 z) eqn:Hb; [|done].
    injection Hx as <-. eexists. split; [done|]. apply writeUint256_spec. by apply below_N in Hb.
  - intros _ _ v x b Hx Hl. destruct v as [| | | | |[]|]; try done.
    + injection Hx as <-. eexists. split; [done|]. apply writes_append.
    + cbn [to_item nil_opt] in Hx. cbn [g_w].
      change ((0 <=? z) && (z <? 2 ^ 256))%Z with (below 256 z). destruct (below 256 z) eqn:Hb; [|done].
      injection Hx as <-. eexists. split; [done|]. apply writeUint256_spec. by apply below_N in Hb.
  - (* RString *) intros _ _ v x b Hx Hl. destruct v; try done. injection Hx as <-. eexists. split; [done|].
    apply writeBytes_spec. by apply rlp_str_len.
  - intros _ _ v x b Hx Hl. destruct v; try done; injection Hx as <-; eexists; (split; [done|]); apply writeBytes_spec; by apply rlp_str_len.
  - (* RByteArr *) intros n _ _ v x b Hx Hl. destruct v; try done. cbn [to_item nil_opt] in Hx. cbn [g_w].
    destruct (Nat.eqb_spec (length bs) n) as [E|]; [|done]. injection Hx as <-. eexists. split; [done|].
    apply writeBytes_spec. by apply rlp_str_len.
  - (* RSlice *) intros t IH Hwf Hg v x b Hx Hl. cbn [wf_ty gen_w] in Hwf, Hg. apply andb_true_iff in Hwf as [_ Hwf]. destruct v; try done.
    + injection Hx as <-. eexists. split; [done|].
      change (rlp (Lst [])) with (rlp_head 0xC0 0xF7 (lenN (rlps [])) ++ rlps []).
      eapply writes_list; [reflexivity|apply writes_nil|done].
    + cbn [to_item nil_opt] in Hx. apply fmap_Some in Hx as (xs & Hm & ->). cbn [g_w eb_list]. rewrite rlp_Lst in *. rewrite lenN_app in Hl.
      destruct (gw_elems t (IH Hwf Hg) vs xs (EncBuf (eb_str b) (eb_heads b ++ [(lenN (eb_str b), eb_lhsize b)]) (eb_lhsize b)) Hm) as (b2 & -> & Hs); [lia|].
      eexists. split; [done|]. eapply writes_list; [reflexivity|exact Hs|lia].
  - done.
  - (* RStruct *) intros fs IH Hwf Hg v x b Hx Hl. cbn [wf_ty gen_w] in Hwf, Hg. apply andb_true_iff in Hwf as [Ht Hwf]. destruct v; try done.
    cbn [to_item nil_opt] in Hx. cbn [g_w]. rewrite nil_opts_length in Hx. destruct (Nat.eqb_spec (length vs) (num_fields fs)) as [E|]; [|done].
    apply fmap_Some in Hx as (xs & Hm & ->). rewrite rlp_Lst in *. rewrite lenN_app in Hl. cbn [eb_list].
    destruct (IH Hwf Hg false vs xs (EncBuf (eb_str b) (eb_heads b ++ [(lenN (eb_str b), eb_lhsize b)]) (eb_lhsize b)) Ht E Hm) as (b2 & -> & Hs); [lia|].
    eexists. split; [done|]. eapply writes_list; [reflexivity|exact Hs|lia].
  - (* RPtr *) intros t IH Hwf Hg v x b Hx Hl. destruct v; try done.
    + injection Hx as <-. eexists. split; [done|]. apply nil_item_writes.
    + by apply IH.
  - intros k t IH Hwf Hg v x b Hx Hl. destruct v; try done.
    + injection Hx as <-. eexists. split; [done|]. apply nil_item_writes.
    + by apply IH.
  - done.
  - (* FNil *) intros _ _ any vs xs b _ Hl Hx Hlx. destruct vs; [|done]. injection Hx as <-. exists b. split; [done|apply writes_nil].
  - (* FCons *) intros g t IH fs IHf Hwf Hg any vs xs b Ht Hl Hx Hlx. destruct vs as [|v vs]; [done|]. cbn in Hl.
    assert (length vs = num_fields fs) as Hl' by lia.
    destruct g; [| |done].
    + cbn [wf_fields gen_ws tags_ok] in *. rewrite !andb_true_iff in Hwf, Hg, Ht. destruct Hwf as [Hwt Hwf], Hg as [Hgt Hgf], Ht as [_ Ht].
      cbn [nil_opts to_items] in Hx. destruct (to_item t (nil_opt t v)) as [x|] eqn:Ex; [|done].
      destruct (to_items fs (nil_opts fs vs)) as [ys|] eqn:Ey; [|done]. injection Hx as <-. cbn [rlps] in *. rewrite lenN_app in Hlx.
      destruct (IH Hwt Hgt v x b Ex) as (b1 & Hw & Hs1); [lia|].
      destruct (IHf Hwf Hgf any vs ys b1 Ht Hl' Ey) as (b2 & Hw2 & Hs2); [lia|].
      exists b2. cbn [g_wfields]. rewrite Hw. split; [done|]. by eapply writes_trans.
    + pose proof Hg as Hg0. apply gen_ws_opt in Hg as (Ho & Hgt & Hgf). cbn [tags_ok] in Ht.
      pose proof (cond_spec (FCons FOpt t fs) Ht Hg0 (v :: vs) Hl) as Hc.
      destruct (cond (FCons FOpt t fs) (v :: vs)) eqn:Hcv.
      * change (nil_opts (FCons FOpt t fs) (v :: vs)) with (opt_val t v :: nil_opts fs vs) in *.
        cbn [to_items] in Hx. rewrite Hc in Hx. cbn [negb] in Hx. rewrite opt_item in Hx.
        cbn [wf_fields] in Hwf. rewrite !andb_true_iff in Hwf. destruct Hwf as [[_ Hwt] Hwf].
        destruct (to_item t (nil_opt t v)) as [x|] eqn:Ex; [|done].
        destruct (to_items fs (nil_opts fs vs)) as [ys|] eqn:Ey; [|done]. injection Hx as <-. cbn [rlps] in *. rewrite lenN_app in Hlx.
        destruct (IH Hwt Hgt v x b Ex) as (b1 & Hw & Hs1); [lia|].
        destruct (IHf Hwf Hgf true vs ys b1 Ht Hl' Ey) as (b2 & Hw2 & Hs2); [lia|].
        exists b2. cbn [g_wfields]. rewrite Hcv, Hw. split; [done|]. by eapply writes_trans.
      * rewrite (cond_false (FCons FOpt t fs)) by done. exists b. split; [done|].
        change (nil_opts (FCons FOpt t fs) (v :: vs)) with (opt_val t v :: nil_opts fs vs) in *.
        cbn [to_items] in Hx. rewrite Hc in Hx. injection Hx as <-. apply writes_nil.
Qed.

Lemma gw_elems_none t :
  (forall v b, to_item t (nil_opt t v) = None -> g_w t v b = None) ->
  forall vs b, mapM (to_item t) (map (nil_opt t) vs) = None -> w_elems (g_w t) vs b = None.
Proof.
  intros IH. induction vs as [|v vs IHv]; intros b Hm; [done|]. cbn [w_elems].
  destruct (g_w t v b) as [b'|] eqn:Hw; [|done]. apply IHv. cbn in Hm.
  destruct (to_item t (nil_opt t v)) eqn:E; [|by rewrite IH in Hw]. cbn in Hm. by destruct (mapM (to_item t) (map (nil_opt t) vs)).
Qed.

Lemma gw_none :
  (forall t, wf_ty t = true -> gen_w t = true -> forall v b, to_item t (nil_opt t v) = None -> g_w t v b = None) /\
  (forall fs, wf_fields fs = true -> gen_ws fs = true -> forall any vs b, tags_ok any fs = true -> length vs = num_fields fs ->
     to_items fs (nil_opts fs vs) = None -> g_wfields fs vs b = None).
Proof.
  apply rty_fields_ind; try done.
  - intros bits _ _ v b. destruct v; try done. cbn [to_item nil_opt g_w].
    change ((0 <=? z) && (z <? 2 ^ Z.of_N bits))%Z with (below bits z). by destruct (below bits z).
  - intros _ _ v b. by destruct v.
  - intros _ _ v b. destruct v; try done. cbn [to_item nil_opt g_w]. by destruct (z <? 0)%Z.
  - intros _ _ v b. destruct v as [| | | | |[]|]; try done. cbn [to_item nil_opt g_w]. by destruct (z <? 0)%Z.
  - intros _ _ v b. destruct v; try done. cbn [to_item nil_opt g_w].
    change ((0 <=? z) && (z <? 2 ^ 256))%Z with (below 256 z). by destruct (below 256 z).
  - intros _ _ v b. destruct v as [| | | | |[]|]; try done. cbn [to_item nil_opt g_w].
    change ((0 <=? z) && (z <? 2 ^ 256))%Z with (below 256 z). by destruct (below 256 z).
  - intros _ _ v b. by destruct v.
  - intros _ _ v b. by destruct v.
  - intros n _ _ v b. destruct v; try done. cbn [to_item nil_opt g_w]. by destruct (length bs =? n)%nat.
  - intros t IH Hwf Hg v b Hx. cbn [wf_ty gen_w] in Hwf, Hg. apply andb_true_iff in Hwf as [_ Hwf]. destruct v; try done.
    cbn [to_item nil_opt] in Hx. cbn [g_w eb_list]. destruct (mapM (to_item t) (map (nil_opt t) vs)) eqn:Em; [done|].
    by rewrite (gw_elems_none t (IH Hwf Hg)).
  - intros fs IH Hwf Hg v b Hx. cbn [wf_ty gen_w] in Hwf, Hg. apply andb_true_iff in Hwf as [Ht Hwf]. destruct v; try done.
    cbn [to_item nil_opt] in Hx. cbn [g_w eb_list]. rewrite nil_opts_length in Hx.
    destruct (Nat.eqb_spec (length vs) (num_fields fs)) as [E|]; [|done].
    destruct (to_items fs (nil_opts fs vs)) eqn:Em; [done|]. by rewrite (IH Hwf Hg false).
  - intros t IH Hwf Hg v b Hx. destruct v; try done. by apply IH.
  - intros k t IH Hwf Hg v b Hx. destruct v; try done. by apply IH.
  - intros g t IH fs IHf Hwf Hg any vs b Ht Hl Hx. destruct vs as [|v vs]; [done|]. cbn in Hl.
    assert (length vs = num_fields fs) as Hl' by lia.
    destruct g; [| |done].
    + cbn [wf_fields gen_ws tags_ok] in *. rewrite !andb_true_iff in Hwf, Hg, Ht. destruct Hwf as [Hwt Hwf], Hg as [Hgt Hgf], Ht as [_ Ht].
      cbn [nil_opts to_items] in Hx. cbn [g_wfields]. destruct (g_w t v b) as [b1|] eqn:Hw; [|done].
      destruct (to_item t (nil_opt t v)) as [x|] eqn:Ex; [|by rewrite (IH Hwt Hgt) in Hw].
      destruct (to_items fs (nil_opts fs vs)) as [ys|] eqn:Ey; [done|]. by apply (IHf Hwf Hgf any).
    + pose proof Hg as Hg0. apply gen_ws_opt in Hg as (Ho & Hgt & Hgf). cbn [tags_ok] in Ht.
      pose proof (cond_spec (FCons FOpt t fs) Ht Hg0 (v :: vs) Hl) as Hc.
      change (nil_opts (FCons FOpt t fs) (v :: vs)) with (opt_val t v :: nil_opts fs vs) in *.
      cbn [to_items] in Hx. rewrite Hc, opt_item in Hx.
      cbn [g_wfields]. destruct (cond (FCons FOpt t fs) (v :: vs)); [|done]. cbn [negb] in Hx.
      cbn [wf_fields] in Hwf. rewrite !andb_true_iff in Hwf. destruct Hwf as [[_ Hwt] Hwf].
      destruct (g_w t v b) as [b1|] eqn:Hw; [|done].
      destruct (to_item t (nil_opt t v)) as [x|] eqn:Ex; [|by rewrite (IH Hwt Hgt) in Hw].
      destruct (to_items fs (nil_opts fs vs)) as [ys|] eqn:Ey; [done|]. by apply (IHf Hwf Hgf true).
Qed.

(* ---------------------------------------------------------- decoders *)
Lemma zero_nil_slices :
  (forall t, nil_slices t (zero_ty t) = zero_ty t) /\ (forall fs, nil_slicess fs (zero_fields fs) = zero_fields fs).
Proof.
  apply rty_fields_ind; try done.
  - intros fs IH. cbn [zero_ty nil_slices]. by rewrite IH.
  - intros g t IH fs IHf. destruct g; cbn [zero_fields nil_slicess]; rewrite ?IH, IHf; [done|done|by destruct t].
Qed.

Definition sim_ty F (t : rty) : Prop := forall s, Inv s -> st_kind s = None ->
  match d_ty F t s with
  | (inr v, s') => g_d F t s = (inr (nil_slices t v), s')
  | (inl e, _) => exists e' s', g_d F t s = (inl e', s') /\ (e' = EOutOfFuel -> e = EOutOfFuel)
  end.

Lemma sim_map {A} F t (f : A -> rval) r :
  (forall x, nil_slices t (f x) = f x) ->
  (forall s, d_ty F t s = d_map f (r s)) -> (forall s, g_d F t s = d_map f (r s)) -> sim_ty F t.
Proof.
  intros Hf Hd Hg s _ _. rewrite Hd, Hg. destruct (r s) as [[e|v] s']; cbn [d_map]; [eauto|]. by rewrite Hf.
Qed.

Lemma ReadBytes_eq n s : d_map VStr (st_ReadBytes n s) = d_bytearray n s \/
  (exists s1 s2, d_map VStr (st_ReadBytes n s) = (inl EWrongSize, s1) /\ d_bytearray n s = (inl EWrongSize, s2)).
Proof.
  unfold st_ReadBytes, d_bytearray. destruct (Kind s) as [[e|[[] sz]] s1]; try (by left).
  - destruct (Nat.eqb_spec n 1) as [->|]; [by left|]. right. destruct (Nat.eqb_spec n 0); [cbn; eauto 10|].
    destruct (Nat.ltb_spec 1 n); [cbn; eauto 10|lia].
  - destruct (N.eqb_spec (N.of_nat n) sz) as [<-|Hn].
    + rewrite N.ltb_irrefl. cbn [negb]. destruct (readFull s1 (N.of_nat n)) as [[e|b] s2]; [by left|]. left.
      destruct ((N.of_nat n =? 1) && _); done.
    + right. cbn [negb]. destruct (N.ltb_spec (N.of_nat n) sz); [cbn; eauto 10|].
      destruct (N.ltb_spec sz (N.of_nat n)); [cbn; eauto 10|lia].
Qed.

(** After a value the stream is still in the same list. *)
Lemma d_stack F t s v s' l st : (0 < F)%nat -> wf_ty t = true -> Inv s -> st_kind s = None -> st_stack s = l :: st ->
  d_ty F t s = (inr v, s') -> Inv s' /\ st_kind s' = None /\ exists l', st_stack s' = l' :: st.
Proof.
  intros HF Hwf HI Hk Hs Hd. destruct (proj1 (d_bwd F HF) t Hwf _ _ _ HI Hk Hd) as (x & (_ & HI' & Hst) & Hk' & _).
  split; [done|]. split; [done|]. rewrite Hst, Hs. cbn. eauto.
Qed.
Lemma MoreData_spec s l st : st_stack s = l :: st -> MoreDataInList s = (0 <? l).
Proof. intros H. unfold MoreDataInList. by rewrite H. Qed.

Lemma sim_elems F t : (0 < F)%nat -> wf_ty t = true -> sim_ty F t ->
  forall f s l st, Inv s -> st_kind s = None -> st_stack s = l :: st ->
  match d_elems (d_ty F t) f s with
  | (inr vs, s') => g_elems (g_d F t) f s = (inr (map (nil_slices t) vs), s')
  | (inl e, _) => exists e' s', g_elems (g_d F t) f s = (inl e', s') /\ (e' = EOutOfFuel -> e = EOutOfFuel)
  end.
Proof.
  intros HF Hwf Hsim. induction f as [|f IH]; intros s l st HI Hk Hs; [cbn; eauto|].
  cbn [d_elems g_elems]. rewrite (MoreData_spec _ _ _ Hs). destruct (N.ltb_spec 0 l) as [Hl|Hl].
  - pose proof (Hsim s HI Hk) as Hv. destruct (d_ty F t s) as [[e|v] s1] eqn:Hd.
    + destruct Hv as (e' & s' & -> & He').
      assert (e <> EEOL) as He.
      { intros ->. destruct (d_noeol F t HF _ _ Hk Hd) as (_ & st' & Hs'). rewrite Hs in Hs'. injection Hs' as -> _. lia. }
      destruct e; eauto 6; done.
    + rewrite Hv. destruct (d_stack _ _ _ _ _ _ _ HF Hwf HI Hk Hs Hd) as (HI1 & Hk1 & l1 & Hs1).
      pose proof (IH s1 l1 st HI1 Hk1 Hs1) as Hr. destruct (d_elems (d_ty F t) f s1) as [[e|vs] s2].
      * destruct Hr as (e' & s' & -> & He'). cbn. eauto.
      * rewrite Hr. done.
  - assert (l = 0) as -> by lia. by rewrite (d_eol F t HF s st Hk Hs).
Qed.

Lemma end_sim vs v s : match d_end vs s with
  | (inr _, s') => g_end v s = (inr v, s')
  | (inl e, s') => g_end v s = (inl e, s') end.
Proof. unfold d_end, g_end. by destruct (st_ListEnd s) as [[e|] s']. Qed.

Lemma slice_nil t vs : slice_of (map (nil_slices t) vs) = nil_slices (RSlice t) (VList vs).
Proof. by destruct vs. Qed.

Lemma sim_all F : (0 < F)%nat ->
  (forall t, wf_ty t = true -> gen_d t = true -> no_nil_tag t = true -> sim_ty F t) /\
  (forall fs, wf_fields fs = true -> gen_ds fs = true -> no_nil_tags fs = true -> 
     forall s l st, Inv s -> st_kind s = None -> st_stack s = l :: st ->
     match d_fields F fs s with
     | (inr vs, s') => g_dfields F fs s = (inr (nil_slicess fs vs), s')
     | (inl e, _) => exists e' s', g_dfields F fs s = (inl e', s') /\ (e' = EOutOfFuel -> e = EOutOfFuel)
     end).
Proof.
  intros HF. apply rty_fields_ind; try done.
  - intros bits _ _ _. by apply (sim_map _ _ (fun n => VNum (Z.of_N n)) (fun s => st_uint s bits)).
  - intros _ _ _. by apply (sim_map _ _ VBool st_Bool).
  - intros _ _ _. by apply (sim_map _ _ (fun n => VNum (Z.of_N n)) st_BigInt).
  - intros _ _ _. by apply (sim_map _ _ (fun n => VPtr (VNum (Z.of_N n))) st_BigInt).
  - intros _ _ _. by apply (sim_map _ _ (fun n => VNum (Z.of_N n)) st_Uint256).
  - intros _ _ _. by apply (sim_map _ _ (fun n => VPtr (VNum (Z.of_N n))) st_Uint256).
  - intros _ _ _. by apply (sim_map _ _ VStr st_Bytes).
  - intros n _ _ _ s _ _. cbn [d_ty g_d]. destruct (ReadBytes_eq n s) as [<-|(s1 & s2 & -> & ->)]; [|eauto].
    destruct (st_ReadBytes n s) as [[e|v] s']; cbn; eauto.
  - intros t IH Hwf Hg Hn s HI Hk. cbn [wf_ty gen_d no_nil_tag] in *. apply andb_true_iff in Hwf as [_ Hwf].
    cbn [d_ty g_d]. unfold d_slice. destruct (st_List s) as [[e|sz] s1] eqn:HL; [eauto|].
    destruct (st_List_bwd _ _ _ HI Hk HL) as (HI1 & Hk1 & (st & Hs1) & _).
    destruct (N.eqb_spec sz 0) as [->|Hsz].
    + destruct F as [|F]; [lia|]. cbn [g_elems]. rewrite (MoreData_spec _ _ _ Hs1). cbn.
      pose proof (end_sim [] VNil s1) as HE. destruct (d_end [] s1) as [[e|v] s2] eqn:Hd; [eauto|].
      apply d_end_inr in Hd as [-> _]. done.
    + pose proof (sim_elems F t HF Hwf (IH Hwf Hg Hn) F s1 sz st HI1 Hk1 Hs1) as Hr.
      destruct (d_elems (d_ty F t) F s1) as [[e|vs] s2]; [destruct Hr as (e' & s' & -> & He'); eauto|]. rewrite Hr.
      pose proof (end_sim vs (slice_of (map (nil_slices t) vs)) s2) as HE. destruct (d_end vs s2) as [[e|v] s3] eqn:Hd; [eauto|].
      apply d_end_inr in Hd as [-> _]. rewrite <- slice_nil. done.
  - intros fs IH Hwf Hg Hn s HI Hk. cbn [wf_ty gen_d no_nil_tag] in *. apply andb_true_iff in Hwf as [_ Hwf].
    cbn [d_ty g_d]. destruct (st_List s) as [[e|sz] s1] eqn:HL; [eauto|].
    destruct (st_List_bwd _ _ _ HI Hk HL) as (HI1 & Hk1 & (st & Hs1) & _).
    pose proof (IH Hwf Hg Hn s1 sz st HI1 Hk1 Hs1) as Hr.
    destruct (d_fields F fs s1) as [[e|vs] s2]; [destruct Hr as (e' & s' & -> & He'); eauto|]. rewrite Hr.
    pose proof (end_sim vs (VList (nil_slicess fs vs)) s2) as HE. destruct (d_end vs s2) as [[e|v] s3] eqn:Hd; [eauto|].
    apply d_end_inr in Hd as [-> _]. done.
  - intros t IH Hwf Hg Hn s HI Hk. cbn [wf_ty gen_d no_nil_tag] in *. cbn [d_ty g_d].
    pose proof (IH Hwf Hg Hn s HI Hk) as Hv. destruct (d_ty F t s) as [[e|v] s1].
    + destruct Hv as (e' & s' & -> & He'). cbn. eauto.
    + rewrite Hv. done.
  - intros g t IH fs IHf Hwf Hg Hn s l st HI Hk Hs.
    assert (wf_ty t = true /\ wf_fields fs = true) as [Hwt Hwf'].
    { destruct g; cbn [wf_fields] in Hwf; rewrite !andb_true_iff in Hwf; tauto. }
    destruct g; [| |done]; cbn [gen_ds no_nil_tags] in Hg, Hn; apply andb_true_iff in Hg as [Hgt Hg], Hn as [Hnt Hn].
    + cbn [d_fields g_dfields]. pose proof (IH Hwt Hgt Hnt s HI Hk) as Hv. destruct (d_ty F t s) as [[e|v] s1] eqn:Hd.
      * destruct Hv as (e' & s' & -> & He'). destruct e; do 2 eexists; (split; [done|]); intros E; by specialize (He' E).
      * rewrite Hv. destruct (d_stack _ _ _ _ _ _ _ HF Hwt HI Hk Hs Hd) as (HI1 & Hk1 & l1 & Hs1).
        pose proof (IHf Hwf' Hg Hn s1 l1 st HI1 Hk1 Hs1) as Hr. destruct (d_fields F fs s1) as [[e|vs] s2].
        -- destruct Hr as (e' & s' & -> & He'). cbn. eauto.
        -- rewrite Hr. done.
    + cbn [d_fields g_dfields]. rewrite (MoreData_spec _ _ _ Hs). destruct (N.ltb_spec 0 l) as [Hl|Hl].
      * pose proof (IH Hwt Hgt Hnt s HI Hk) as Hv. destruct (d_ty F t s) as [[e|v] s1] eqn:Hd.
        -- destruct Hv as (e' & s' & -> & He').
           assert (e <> EEOL) as He.
           { intros ->. destruct (d_noeol F t HF _ _ Hk Hd) as (_ & st' & Hs'). rewrite Hs in Hs'. injection Hs' as -> _. lia. }
           destruct e; eauto 6; done.
        -- rewrite Hv. destruct (d_stack _ _ _ _ _ _ _ HF Hwt HI Hk Hs Hd) as (HI1 & Hk1 & l1 & Hs1).
           pose proof (IHf Hwf' Hg Hn s1 l1 st HI1 Hk1 Hs1) as Hr. destruct (d_fields F fs s1) as [[e|vs] s2].
           ++ destruct Hr as (e' & s' & -> & He'). cbn. eauto.
           ++ rewrite Hr. done.
      * assert (l = 0) as -> by lia. rewrite (d_eol F t HF s st Hk Hs).
        rewrite (proj2 zero_nil_slices (FCons FOpt t fs)). done.
Qed.

(* ---------------------------------------------------------- round trips *)
Lemma nil_opt_nil t : nil_opt t VNil = VNil. Proof. by destruct t. Qed.
Lemma zero_nil_opt :
  (forall t, nil_opt t (zero_ty t) = zero_ty t) /\ (forall fs, nil_opts fs (zero_fields fs) = zero_fields fs).
Proof.
  apply rty_fields_ind; try done.
  - intros fs IH. cbn [zero_ty nil_opt]. by rewrite IH.
  - intros g t IH fs IHf. destruct g; cbn [zero_fields nil_opts]; rewrite ?IH, IHf; [done| |by rewrite nil_opt_nil].
    f_equal. by destruct t.
Qed.

Lemma clean_nil_opt :
  (forall t, no_nil_tag t = true -> gen_w t = true -> forall v, clean t v -> clean t (nil_opt t v)) /\
  (forall fs, no_nil_tags fs = true -> gen_ws fs = true -> forall vs, clean_fields fs vs -> clean_fields fs (nil_opts fs vs)).
Proof.
  apply rty_fields_ind; try done.
  - intros t IH Hn Hg v Hc. cbn [no_nil_tag gen_w] in *. destruct v; try done. cbn [nil_opt clean] in *.
    apply Forall_map. eapply Forall_impl; [exact Hc|]. cbn. intros v Hv. by apply IH.
  - intros fs IH Hn Hg v Hc. cbn [no_nil_tag gen_w] in *. destruct v; try done. cbn [nil_opt clean] in *.
    destruct Hc as [Hl Hc]. rewrite nil_opts_length. split; [done|]. by apply IH.
  - intros t IH Hn Hg v Hc. cbn [no_nil_tag gen_w] in *. destruct v; try done. cbn [nil_opt clean] in *. by apply IH.
  - intros g t IH fs IHf Hn Hg vs Hc. cbn [no_nil_tags] in Hn. apply andb_true_iff in Hn as [Hnt Hn].
    destruct vs as [|v vs]; [by destruct g|]. destruct g; [| |done].
    + cbn [gen_ws] in Hg. apply andb_true_iff in Hg as [Hgt Hg]. cbn [nil_opts clean_fields] in *. destruct Hc. split; [by apply IH|by apply IHf].
    + apply gen_ws_opt in Hg as (_ & Hgt & Hg). cbn [clean_fields] in Hc. destruct Hc as [Hz|[Hc Hcs]].
      * rewrite Hz, (proj2 zero_nil_opt). cbn [clean_fields zero_fields]. by left.
      * change (clean_fields (FCons FOpt t fs) (opt_val t v :: nil_opts fs vs)). cbn [clean_fields]. right. split; [|by apply IHf].
        pose proof (IH Hnt Hgt v Hc) as Hv. destruct t; try done; by destruct v as [| | |[]|[]| |].
Qed.

Lemma fill_nil_opt :
  (forall t, gen_w t = true -> forall v, fill t (nil_opt t v) = fill t v) /\
  (forall fs, gen_ws fs = true -> forall vs, fills fs (nil_opts fs vs) = fills fs vs).
Proof.
  apply rty_fields_ind; try done.
  - intros t IH Hg v. destruct v; try done. cbn [nil_opt fill]. f_equal. rewrite map_map. apply map_ext. by apply IH.
  - intros fs IH Hg v. destruct v; try done. cbn [nil_opt fill]. f_equal. by apply IH.
  - intros t IH Hg v. destruct v; try done. cbn [nil_opt fill]. f_equal. by apply IH.
  - intros k t IH Hg v. destruct v; try done. cbn [nil_opt fill]. f_equal. by apply IH.
  - intros g t IH fs IHf Hg vs. destruct vs as [|v vs]; [by destruct g|]. destruct g; [| |done].
    + cbn [gen_ws] in Hg. apply andb_true_iff in Hg as [Hgt Hg]. cbn [nil_opts fills]. by rewrite IH, IHf.
    + apply gen_ws_opt in Hg as (_ & Hgt & Hg). 
      change (fill t (opt_val t v) :: fills fs (nil_opts fs vs) = fill t v :: fills fs vs). rewrite IHf by done. f_equal.
      rewrite <- (IH Hgt v). destruct t; try done; by destruct v as [| | |[]|[]| |].
Qed.
Lemma fill_nil_slices :
  (forall t, gen_d t = true -> forall v, fill t (nil_slices t v) = fill t v) /\
  (forall fs, gen_ds fs = true -> forall vs, fills fs (nil_slicess fs vs) = fills fs vs).
Proof.
  apply rty_fields_ind; try done.
  - intros t IH Hg v. destruct v as [| | | |[|v vs]| |]; try done. cbn [nil_slices fill]. f_equal. rewrite map_map. apply map_ext. by apply IH.
  - intros fs IH Hg v. destruct v; try done. cbn [nil_slices fill]. f_equal. by apply IH.
  - intros t IH Hg v. destruct v; try done. cbn [nil_slices fill]. f_equal. by apply IH.
  - intros k t IH Hg v. destruct v; try done. cbn [nil_slices fill]. f_equal. by apply IH.
  - intros g t IH fs IHf Hg vs. destruct vs as [|v vs]; [by destruct g|]. destruct g; [| |done];
      cbn [gen_ds] in Hg; apply andb_true_iff in Hg as [Hgt Hg]; cbn [nil_slicess fills]; by rewrite IH, IHf.
Qed.

(* ---------------------------------------------------------- types with nil tags *)
Lemma g_after_Kind F t : forall s x s1, gen_d t = true -> Kind s = (inr x, s1) -> g_d F t s1 = g_d F t s.
Proof.
  induction t; intros s x s1 Hg HK;
    pose proof (Kind_idem _ _ _ HK) as HK1; try done;
    cbn [g_d]; unfold st_Bool, st_uint, st_BigInt, st_Uint256, st_Bytes, st_ReadBytes, st_List; rewrite ?HK, ?HK1; try done.
  by erewrite IHt.
Qed.

Definition dense_ty F (t : rty) : Prop := forall s v s', Inv s -> st_kind s = None -> d_ty F t s = (inr v, s') -> no_nils t v ->
  g_d F t s = (inr (nil_slices t v), s').

Lemma dense_elems F t : (0 < F)%nat -> wf_ty t = true -> dense_ty F t ->
  forall f s l st vs s', Inv s -> st_kind s = None -> st_stack s = l :: st ->
  d_elems (d_ty F t) f s = (inr vs, s') -> Forall (no_nils t) vs -> g_elems (g_d F t) f s = (inr (map (nil_slices t) vs), s').
Proof.
  intros HF Hwf Hsim. induction f as [|f IH]; intros s l st vs s' HI Hk Hs Hd Hn; [done|].
  cbn [d_elems g_elems] in *. rewrite (MoreData_spec _ _ _ Hs). destruct (N.ltb_spec 0 l) as [Hl|Hl].
  - destruct (d_ty F t s) as [[e|v] s1] eqn:Hv.
    + exfalso. destruct e; try done.
      destruct (d_noeol F t HF _ _ Hk Hv) as (_ & st' & Hs'). rewrite Hs in Hs'. injection Hs' as -> _. lia.
    + destruct (d_stack _ _ _ _ _ _ _ HF Hwf HI Hk Hs Hv) as (HI1 & Hk1 & l1 & Hs1).
      destruct (d_elems (d_ty F t) f s1) as [[e|ws] s2] eqn:Hr; [done|]. injection Hd as <- <-.
      rewrite (Hsim s v s1 HI Hk Hv (Forall_inv Hn)). by rewrite (IH s1 l1 st ws s2 HI1 Hk1 Hs1 Hr (Forall_inv_tail Hn)).
  - assert (l = 0) as -> by lia. rewrite (d_eol F t HF s st Hk Hs) in Hd. by injection Hd as <- <-.
Qed.

Lemma g_end_dense vs v w s s' : d_end vs s = (inr v, s') -> g_end w s = (inr w, s').
Proof. unfold d_end, g_end. by destruct (st_ListEnd s) as [[e|] s1]; [|intros [= _ <-]]. Qed.

Lemma dense_all F : (0 < F)%nat ->
  (forall t, wf_ty t = true -> gen_d t = true -> dense_ty F t) /\
  (forall fs, wf_fields fs = true -> gen_ds fs = true ->
     forall s l st vs s', Inv s -> st_kind s = None -> st_stack s = l :: st ->
     d_fields F fs s = (inr vs, s') -> no_nilss fs vs -> g_dfields F fs s = (inr (nil_slicess fs vs), s')).
Proof.
  intros HF.
  assert (forall t, wf_ty t = true -> gen_d t = true -> no_nil_tag t = true -> dense_ty F t) as Hold.
  { intros t Hwf Hg Hn s v s' HI Hk Hd _. pose proof (proj1 (sim_all F HF) t Hwf Hg Hn s HI Hk) as Hs. by rewrite Hd in Hs. }
  apply rty_fields_ind; try (intros; by apply Hold).
  - intros t IH Hwf Hg s v s' HI Hk Hd Hn. cbn [wf_ty gen_d] in *. apply andb_true_iff in Hwf as [_ Hwf].
    cbn [d_ty g_d] in *. unfold d_slice in Hd. destruct (st_List s) as [[e|sz] s1] eqn:HL; [done|].
    destruct (st_List_bwd _ _ _ HI Hk HL) as (HI1 & Hk1 & (st & Hs1) & _).
    destruct (N.eqb_spec sz 0) as [->|Hsz].
    + destruct F as [|F]; [lia|]. cbn [g_elems]. rewrite (MoreData_spec _ _ _ Hs1). cbn.
      rewrite (g_end_dense _ _ VNil _ _ Hd). apply d_end_inr in Hd as [-> _]. done.
    + destruct (d_elems (d_ty F t) F s1) as [[e|vs] s2] eqn:He; [done|].
      pose proof (g_end_dense _ _ (slice_of (map (nil_slices t) vs)) _ _ Hd) as HE. apply d_end_inr in Hd as [-> _].
      rewrite (dense_elems F t HF Hwf (IH Hwf Hg) F s1 sz st vs s2 HI1 Hk1 Hs1 He Hn). by rewrite HE, <- slice_nil.
  - intros fs IH Hwf Hg s v s' HI Hk Hd Hn. cbn [wf_ty gen_d] in *. apply andb_true_iff in Hwf as [_ Hwf].
    cbn [d_ty g_d] in *. destruct (st_List s) as [[e|sz] s1] eqn:HL; [done|].
    destruct (st_List_bwd _ _ _ HI Hk HL) as (HI1 & Hk1 & (st & Hs1) & _).
    destruct (d_fields F fs s1) as [[e|vs] s2] eqn:He; [done|].
    pose proof (g_end_dense _ _ (VList (nil_slicess fs vs)) _ _ Hd) as HE. apply d_end_inr in Hd as [-> _].
    rewrite (IH Hwf Hg s1 sz st vs s2 HI1 Hk1 Hs1 He Hn). done.
  - intros t IH Hwf Hg s v s' HI Hk Hd Hn. cbn [wf_ty gen_d d_ty g_d] in *. apply d_map_inr in Hd as (w & Hd & ->).
    by rewrite (IH Hwf Hg s w s' HI Hk Hd Hn).
  - intros nk t IH Hwf Hg s v s' HI Hk Hd Hn. cbn [wf_ty gen_d d_ty g_d] in *.
    destruct (Kind s) as [[e|[k sz]] s1] eqn:HK; [done|].
    assert (d_map VPtr (d_ty F t s1) = (inr v, s') -> d_map VPtr (g_d F t s1) = (inr (nil_slices (RNilPtr nk t) v), s')) as Hp.
    { rewrite (d_after_Kind F t HF _ _ _ HK), (g_after_Kind F t _ _ _ Hg HK). intros H. apply d_map_inr in H as (w & H & ->).
      by rewrite (IH Hwf Hg s w s' HI Hk H Hn). }
    destruct (N.eqb_spec sz 0) as [->|Hsz]; cbn [negb orb].
    + destruct k; [by destruct nk; apply Hp|destruct nk; [by injection Hd as <- <-|done]|destruct nk; [done|by injection Hd as <- <-]].
    + apply Hp. destruct sz; [done|]. by destruct k.
  - intros _ _ s l st vs s' HI Hk Hs Hd Hn. cbn in *. by injection Hd as <- <-.
  - intros g t IH fs IHf Hwf Hg s l st vs s' HI Hk Hs Hd Hn.
    assert (wf_ty t = true /\ wf_fields fs = true) as [Hwt Hwf'].
    { destruct g; cbn [wf_fields] in Hwf; rewrite !andb_true_iff in Hwf; tauto. }
    destruct g; [| |done]; cbn [gen_ds] in Hg; apply andb_true_iff in Hg as [Hgt Hg]; cbn [d_fields g_dfields] in *.
    + destruct (d_ty F t s) as [[e|v] s1] eqn:Hv; [by destruct e|]. apply d_map_inr in Hd as (ws & Hd & ->). destruct Hn as [Hn1 Hn2].
      destruct (d_stack _ _ _ _ _ _ _ HF Hwt HI Hk Hs Hv) as (HI1 & Hk1 & l1 & Hs1).
      rewrite (IH Hwt Hgt s v s1 HI Hk Hv Hn1). by rewrite (IHf Hwf' Hg s1 l1 st ws s' HI1 Hk1 Hs1 Hd Hn2).
    + rewrite (MoreData_spec _ _ _ Hs). destruct (N.ltb_spec 0 l) as [Hl|Hl].
      * destruct (d_ty F t s) as [[e|v] s1] eqn:Hv.
        { exfalso. destruct e; try done.
          destruct (d_noeol F t HF _ _ Hk Hv) as (_ & st' & Hs'). rewrite Hs in Hs'. injection Hs' as -> _. lia. }
        apply d_map_inr in Hd as (ws & Hd & ->). destruct Hn as [Hn1 Hn2].
        destruct (d_stack _ _ _ _ _ _ _ HF Hwt HI Hk Hs Hv) as (HI1 & Hk1 & l1 & Hs1).
        rewrite (IH Hwt Hgt s v s1 HI Hk Hv Hn1). by rewrite (IHf Hwf' Hg s1 l1 st ws s' HI1 Hk1 Hs1 Hd Hn2).
      * assert (l = 0) as -> by lia. rewrite (d_eol F t HF s st Hk Hs) in Hd. injection Hd as <- <-.
        change (zero_ty t :: zero_fields fs) with (zero_fields (FCons FOpt t fs)).
        by rewrite (proj2 zero_nil_slices (FCons FOpt t fs)).
Qed.
