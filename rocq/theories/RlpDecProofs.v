(** Proofs about the RLP stream decoder. *)
From Verif Require Export RlpProofs.

(* ---------------------------------------------------------- sub64 *)
Lemma sub64_lt a b : sub64 a b < two64.
Proof. unfold sub64. apply N.mod_lt. done. Qed.

Lemma sub64_le a b : a < two64 -> b <= a -> sub64 a b = a - b.
Proof.
  intros Ha Hb. unfold sub64. rewrite (N.mod_small b) by lia.
  replace (a + (two64 - b)) with ((a - b) + 1 * two64) by (unfold two64 in *; lia).
  rewrite N.mod_add by done. apply N.mod_small. lia.
Qed.

Lemma sub64_0 a : a < two64 -> sub64 a 0 = a.
Proof. intros Ha. rewrite sub64_le by lia. lia. Qed.

Lemma sub64_sub64 l a b : sub64 (sub64 l a) b = sub64 l (a + b).
Proof. unfold sub64, two64. lia. Qed.

Lemma sub64_eq0 a b : a < two64 -> b < two64 -> sub64 a b = 0 -> a = b.
Proof. unfold sub64, two64. lia. Qed.

(* ---------------------------------------------------------- invariants *)
Definition Inv (s : stream) : Prop :=
  st_limited s = true /\ st_rem s = lenN (st_in s) /\ is_bytes (st_in s)
  /\ lenN (st_in s) < two64 /\ Forall (fun l => l < two64) (st_stack s).

Definition dec_top (st : list N) (n : N) : list N :=
  match st with l :: r => sub64 l n :: r | [] => [] end.

Definition lim_ge (st : list N) (n : N) : Prop :=
  match st with l :: _ => n <= l | [] => True end.

(** [s'] is [s] after consuming exactly the bytes [p]. *)
Definition adv (s : stream) (p : list N) (s' : stream) : Prop :=
  st_in s = p ++ st_in s' /\ Inv s' /\ st_stack s' = dec_top (st_stack s) (lenN p).

Lemma dec_top_dec_top st a b : dec_top (dec_top st a) b = dec_top st (a + b).
Proof. destruct st; simpl; [done|]. rewrite sub64_sub64. done. Qed.

Lemma dec_top_0 st : Forall (fun l => l < two64) st -> dec_top st 0 = st.
Proof. destruct 1; simpl; [done|]. rewrite sub64_0; done. Qed.

Lemma adv_trans s1 s2 s3 p q : adv s1 p s2 -> adv s2 q s3 -> adv s1 (p ++ q) s3.
Proof.
  intros (H1 & _ & Hs1) (H2 & HI & Hs2). split; [rewrite H1, H2, app_assoc; done|].
  split; [done|]. rewrite Hs2, Hs1, dec_top_dec_top, lenN_app. done.
Qed.

Lemma adv_nil s : Inv s -> adv s [] s.
Proof. intros HI. split; [done|]. split; [done|]. rewrite lenN_nil. destruct HI as (_&_&_&_&HI). rewrite dec_top_0; done. Qed.

(** Fields that reading does not look at. *)
Definition same_io (s s' : stream) : Prop :=
  st_in s' = st_in s /\ st_rem s' = st_rem s /\ st_stack s' = st_stack s /\ st_limited s' = st_limited s.

Lemma adv_same s p s1 s2 : adv s p s1 -> same_io s1 s2 -> adv s p s2.
Proof.
  intros (Hi & (HL & HR & HB & HT & HF) & Hs) (E1 & E2 & E3 & E4).
  unfold adv, Inv. rewrite E1, E2, E3, E4. done.
Qed.

Lemma Inv_drop s p r : Inv s -> st_in s = p ++ r ->
  is_bytes p /\ is_bytes r /\ lenN p < two64 /\ lenN r < two64 /\ lenN (st_in s) = lenN p + lenN r.
Proof.
  intros (HL & HR & HB & HT & HF) Hi. rewrite Hi in *. apply is_bytes_app in HB as [? ?].
  rewrite lenN_app in *. repeat split; try done; lia.
Qed.

Lemma Forall_dec_top st n : Forall (fun l => l < two64) st -> Forall (fun l => l < two64) (dec_top st n).
Proof. destruct 1; simpl; constructor; auto using sub64_lt. Qed.

(** willRead when everything fits. *)
Lemma willRead_ok s n :
  Inv s -> n <= lenN (st_in s) -> lim_ge (st_stack s) n ->
  willRead s n = (None, Stream (st_in s) (st_rem s - n) (st_size s) (st_kerr s)
                        (dec_top (st_stack s) n) None (st_byteval s) (st_limited s)).
Proof.
  intros (HL & HR & HB & HT & HF) Hn Hlim. unfold willRead.
  destruct s as [i r sz ke st k bv lim]; cbn in *. subst lim.
  destruct st as [|l st]; cbn in *.
  - destruct (N.ltb_spec r n); [lia|]. done.
  - destruct (N.ltb_spec l n); [lia|]. destruct (N.ltb_spec r n); [lia|]. done.
Qed.

Lemma willRead_inv s n s' :
  Inv s -> willRead s n = (None, s') -> n <= lenN (st_in s) /\ lim_ge (st_stack s) n.
Proof.
  intros (HL & HR & HB & HT & HF) Hw. unfold willRead in Hw.
  destruct s as [i r sz ke st k bv lim]; cbn in *. subst lim.
  destruct st as [|l st]; cbn in *.
  - destruct (N.ltb_spec r n); [done|]. split; [lia|done].
  - destruct (N.ltb_spec l n); [done|]. cbn in Hw. destruct (N.ltb_spec r n); [done|]. split; lia.
Qed.

Lemma willRead_err s n e s' : willRead s n = (Some e, s') -> e = EElemTooLarge \/ e = EValueTooLarge.
Proof.
  unfold willRead. destruct (st_stack (set_kind s None)) as [|l st].
  - repeat case_match; intros ?; simplify_eq; auto.
  - repeat case_match; intros ?; simplify_eq; auto.
Qed.

Lemma readFull_fwd s n p r :
  Inv s -> st_in s = p ++ r -> lenN p = n -> lim_ge (st_stack s) n ->
  readFull s n = (inr p, Stream r (st_rem s - n) (st_size s) (st_kerr s)
                   (dec_top (st_stack s) n) None (st_byteval s) (st_limited s)).
Proof.
  intros HI Hi Hp Hlim. unfold readFull.
  rewrite willRead_ok; [|done|rewrite Hi, lenN_app; lia|done]. cbn.
  destruct (N.ltb_spec (lenN (st_in s)) n) as [Hlt|Hge]; [rewrite Hi, lenN_app in Hlt; lia|].
  rewrite Hi. replace (N.to_nat n) with (length p) by (unfold lenN in Hp; lia).
  rewrite take_app, drop_app. done.
Qed.

Lemma adv_read s p r :
  Inv s -> st_in s = p ++ r -> lim_ge (st_stack s) (lenN p) ->
  adv s p (Stream r (st_rem s - lenN p) (st_size s) (st_kerr s)
            (dec_top (st_stack s) (lenN p)) None (st_byteval s) (st_limited s)).
Proof.
  intros HI Hi Hlim. destruct (Inv_drop _ _ _ HI Hi) as (?&?&?&?&Hlen).
  destruct HI as (HL & HR & HB & HT & HF). split; [done|]. split; [|done].
  unfold Inv; cbn. repeat split; auto using Forall_dec_top. lia.
Qed.

Lemma readFull_bwd s n p s' :
  Inv s -> readFull s n = (inr p, s') ->
  adv s p s' /\ lenN p = n /\ st_kind s' = None /\ lim_ge (st_stack s) n /\
  st_byteval s' = st_byteval s.
Proof.
  intros HI Hr. unfold readFull in Hr. destruct (willRead s n) as [[e|] s0] eqn:Hw; [done|].
  destruct (willRead_inv _ _ _ HI Hw) as [Hn Hlim].
  rewrite willRead_ok in Hw by done. injection Hw as <-. cbn in Hr.
  destruct (N.ltb_spec (lenN (st_in s)) n); [done|]. injection Hr as <- <-.
  set (p := take (N.to_nat n) (st_in s)).
  assert (lenN p = n) as Hp by (unfold p, lenN in *; rewrite take_length; lia).
  split; [|done]. rewrite <- Hp. unfold set_in; cbn.
  replace (N.to_nat (lenN p)) with (N.to_nat n) by lia.
  apply adv_read; [done|unfold p; rewrite take_drop; done|]. rewrite Hp. done.
Qed.

Lemma readFull_err s n e s' : readFull s n = (inl e, s') ->
  e = EElemTooLarge \/ e = EValueTooLarge \/ e = EUnexpectedEOF.
Proof.
  unfold readFull. destruct (willRead s n) as [[e0|] s0] eqn:Hw.
  - intros [= <- <-]. apply willRead_err in Hw. naive_solver.
  - case_match; intros; simplify_eq; auto.
Qed.

Lemma readByte_fwd s b r :
  Inv s -> st_in s = b :: r -> lim_ge (st_stack s) 1 ->
  readByte s = (inr b, Stream r (st_rem s - 1) (st_size s) (st_kerr s)
                   (dec_top (st_stack s) 1) None (st_byteval s) (st_limited s)).
Proof.
  intros HI Hi Hlim. unfold readByte.
  rewrite willRead_ok; [|done|rewrite Hi, lenN_cons; lia|done]. cbn. rewrite Hi. done.
Qed.

Lemma readByte_bwd s b s' :
  Inv s -> readByte s = (inr b, s') ->
  adv s [b] s' /\ st_kind s' = None /\ lim_ge (st_stack s) 1.
Proof.
  intros HI Hr. unfold readByte in Hr. destruct (willRead s 1) as [[e|] s0] eqn:Hw; [done|].
  destruct (willRead_inv _ _ _ HI Hw) as [Hn Hlim].
  rewrite willRead_ok in Hw by done. injection Hw as <-. cbn in Hr.
  destruct (st_in s) as [|b0 r] eqn:Hi; [done|]. injection Hr as <- <-.
  split; [|done]. unfold set_in; cbn. change 1 with (lenN [b0]). apply adv_read; done.
Qed.

Lemma readByte_err s e s' : readByte s = (inl e, s') ->
  e = EElemTooLarge \/ e = EValueTooLarge \/ e = EUnexpectedEOF.
Proof.
  unfold readByte. destruct (willRead s 1) as [[e0|] s0] eqn:Hw.
  - intros [= <- <-]. apply willRead_err in Hw. naive_solver.
  - case_match; intros; simplify_eq; auto.
Qed.

Definition lead0 (l : list N) : bool := match l with x :: _ => x =? 0 | [] => false end.
Lemma lead0_false l : lead0 l = false <-> no_lead0 l.
Proof. destruct l as [|x l]; simpl; [done|]. rewrite N.eqb_neq. done. Qed.

Lemma readUint_bwd s n v s' :
  Inv s -> 0 < n -> readUint s n = (inr v, s') ->
  exists bs, adv s bs s' /\ lenN bs = n /\ v = be_num bs /\ (n = 1 \/ no_lead0 bs)
             /\ st_kind s' = None.
Proof.
  intros HI Hn Hr. unfold readUint in Hr. destruct (N.eqb_spec n 0); [lia|].
  destruct (N.eqb_spec n 1) as [->|Hn1].
  - destruct (readByte_bwd _ _ _ HI Hr) as (Ha & Hk & _).
    exists [v]. split; [exact Ha|]. split; [done|]. split; [done|]. split; [by left|done].
  - destruct (readFull s n) as [[e|bs] s1] eqn:Hf; [done|].
    destruct (readFull_bwd _ _ _ _ HI Hf) as (Ha & Hl & Hk & _).
    change (match bs with [] => false | x :: _ => x =? 0 end) with (lead0 bs) in Hr.
    destruct (lead0 bs) eqn:H0; [done|]. injection Hr as <- <-. apply lead0_false in H0.
    exists bs. auto 10.
Qed.

Lemma readUint_fwd s bs r :
  Inv s -> bs <> [] -> no_lead0 bs -> st_in s = bs ++ r -> lim_ge (st_stack s) (lenN bs) ->
  exists s', readUint s (lenN bs) = (inr (be_num bs), s').
Proof.
  intros HI Hnil H0 Hi Hlim. unfold readUint.
  destruct (N.eqb_spec (lenN bs) 0) as [E|_]; [apply lenN_0 in E; done|].
  destruct (N.eqb_spec (lenN bs) 1) as [E|_].
  - destruct bs as [|b [|]]; [done| |rewrite !lenN_cons in E; lia].
    rewrite (readByte_fwd s b r); [|done|done|done]. eauto.
  - rewrite (readFull_fwd s (lenN bs) bs r) by done.
    change (match bs with [] => false | x :: _ => x =? 0 end) with (lead0 bs).
    rewrite (proj2 (lead0_false bs) H0). eauto.
Qed.

Lemma readUint_err s n e s' : readUint s n = (inl e, s') ->
  e = EElemTooLarge \/ e = EValueTooLarge \/ e = EUnexpectedEOF \/ e = ECanonSize.
Proof.
  unfold readUint. case_match; [done|]. case_match.
  - intros Hr%readByte_err. naive_solver.
  - destruct (readFull s n) as [[e0|bs] s1] eqn:Hf.
    + intros [= <- <-]. apply readFull_err in Hf. naive_solver.
    + destruct bs as [|x ?]; [done|]. case_match; intros; simplify_eq; auto.
Qed.

(* ---------------------------------------------------------- Kind *)
Definition hdr_ok (k : kind) (hdr : list N) (sz bv : N) : Prop :=
  match k with
  | KByte => hdr = [bv] /\ bv < 128 /\ sz = 0
  | KString => hdr = rlp_head 0x80 0xB7 sz
  | KList => hdr = rlp_head 0xC0 0xF7 sz
  end.

Lemma long_head tag bs :
  is_bytes bs -> no_lead0 bs -> 56 <= be_num bs ->
  (tag + lenN bs) :: bs = rlp_head (tag - 55) tag (be_num bs).
Proof.
  intros Hb H0 H56. unfold rlp_head. destruct (N.ltb_spec (be_num bs) 56); [lia|].
  rewrite be_bytes_num by done. done.
Qed.

Lemma st_readKind_bwd s k sz s' :
  Inv s -> st_readKind s = ((k, sz, None), s') ->
  exists hdr, adv s hdr s' /\ st_kind s' = None /\ hdr_ok k hdr sz (st_byteval s') /\ sz < two64
   /\ lim_ge (st_stack s) 1.
Proof.
  intros HI Hr. unfold st_readKind in Hr.
  destruct (readByte s) as [[e|b] s1] eqn:Hb; [done|].
  destruct (readByte_bwd _ _ _ HI Hb) as (Ha & Hk & Hlim).
  assert (b < 256) as Hb256.
  { destruct Ha as (Hi & _). destruct HI as (_&_&HB&_). rewrite Hi in HB.
    apply is_bytes_app in HB as [HB _]. apply is_bytes_cons in HB as [HB _]. done. }
  assert (adv s [b] (set_byteval s1 0)) as Ha0 by (eapply adv_same; [exact Ha|repeat split]).
  assert (Inv (set_byteval s1 0)) as HI0 by apply Ha0.
  destruct (N.ltb_spec b 0x80).
  { injection Hr as <- <- <-. exists [b]. split; [eapply adv_same; [exact Ha|repeat split]|].
    cbn. repeat split; try done; lia. }
  destruct (N.ltb_spec b 0xB8).
  { injection Hr as <- <- <-. exists [b]. split; [done|]. cbn. split; [done|]. split; [|split; [unfold two64; lia|done]].
    unfold rlp_head. destruct (N.ltb_spec (b - 0x80) 56); [|lia]. do 2 f_equal. lia. }
  assert (forall tag k' sm, sm = tag - 55 -> tag < b -> b <= tag + 8 ->
    match readUint (set_byteval s1 0) (b - tag) with
        | (inl e, s2) => ((k', 0, Some e), s2)
        | (inr sz, s2) => ((k', sz, if sz <? 56 then Some ECanonSize else None), s2)
        end = ((k, sz, None), s') ->
    k = k' /\ exists hdr, adv s hdr s' /\ st_kind s' = None /\ hdr = rlp_head sm tag sz /\ sz < two64) as Hlong.
  { intros tag k' sm -> Ht1 Ht2 Hq.
    destruct (readUint (set_byteval s1 0) (b - tag)) as [[e|v] s2] eqn:Hu; [done|].
    assert (0 < b - tag) as Hpos by lia.
    destruct (readUint_bwd _ _ _ _ HI0 Hpos Hu) as (bs & Hab & Hlen & Hv & H01 & Hk2).
    destruct (N.ltb_spec v 56); [done|]. injection Hq as <- <- <-. split; [done|].
    exists (b :: bs). split; [apply (adv_trans _ _ _ [b] bs Ha0 Hab)|].
    split; [done|].
    assert (is_bytes bs) as Hbs.
    { destruct Hab as (Hi & _). destruct HI0 as (_&_&HB&_). rewrite Hi in HB.
      apply is_bytes_app in HB as [HB _]. done. }
    assert (no_lead0 bs) as Hnl0.
    { destruct H01 as [Hone|]; [|done]. destruct bs as [|x [|]]; [done| |rewrite !lenN_cons in *; lia].
      simpl. subst v. cbn in *. unfold be_num in *; cbn in *. lia. }
    subst v. split.
    - rewrite <- long_head by done. f_equal. lia.
    - pose proof (be_num_bound bs Hbs) as Hbd. eapply N.lt_le_trans; [exact Hbd|].
      change two64 with (256 ^ 8). apply N.pow_le_mono_r; lia. }
  destruct (N.ltb_spec b 0xC0).
  { apply (Hlong 0xB7 KString 0x80) in Hr; [|done|lia|lia].
    destruct Hr as [-> (hdr & ? & ? & ? & ?)]. exists hdr. auto 10. }
  destruct (N.ltb_spec b 0xF8).
  { injection Hr as <- <- <-. exists [b]. split; [done|]. cbn. split; [done|]. split; [|split; [unfold two64; lia|done]].
    unfold rlp_head. destruct (N.ltb_spec (b - 0xC0) 56); [|lia]. do 2 f_equal. lia. }
  apply (Hlong 0xF7 KList 0xC0) in Hr; [|done|lia|lia].
  destruct Hr as [-> (hdr & ? & ? & ? & ?)]. exists hdr. auto 10.
Qed.

Lemma Kind_bwd s k sz s' :
  Inv s -> st_kind s = None -> Kind s = (inr (k, sz), s') ->
  exists hdr, adv s hdr s' /\ st_kind s' = Some k /\ st_size s' = sz /\ st_kerr s' = None
   /\ hdr_ok k hdr sz (st_byteval s') /\ sz <= lenN (st_in s') /\ lim_ge (st_stack s) sz
   /\ lim_ge (st_stack s) 1.
Proof.
  intros HI Hk HK. unfold Kind in HK. rewrite Hk in HK.
  assert (exists st', st' = st_stack s /\
    (let '(k0, sz0, e, s'0) := st_readKind s in
          let e' :=
            match e with
            | Some e => Some e
            | None =>
                match st' with
                | limit :: _ =>
                    if limit <? sz0 then Some EElemTooLarge
                    else if st_limited s'0 && (st_rem s'0 <? sz0) then Some EValueTooLarge else None
                | [] => if st_limited s'0 && (st_rem s'0 <? sz0) then Some EValueTooLarge else None
                end
            end in
          (match e' with Some e => inl e | None => inr (k0, sz0) end, set_ahead s'0 (Some k0) sz0 e')) = (inr (k, sz), s'))
   as (st' & Hst & HK').
  { exists (st_stack s). split; [done|]. destruct (st_stack s) as [|[|p] st]; [done|done|done]. }
  clear HK. destruct (st_readKind s) as [[[k0 sz0] e] s1] eqn:Hr. cbn in HK'.
  destruct e as [e|]; [done|].
  destruct (st_readKind_bwd _ _ _ _ HI Hr) as (hdr & Ha & Hk1 & Hh & Hsz & Hl1).
  assert (st_limited s1 = true /\ st_rem s1 = lenN (st_in s1)) as [HL HR] by (split; apply Ha).
  rewrite HL, HR in HK'. cbn in HK'.
  assert (adv s hdr (set_ahead s1 (Some k0) sz0 None)) as Ha' by (eapply adv_same; [exact Ha|repeat split]).
  destruct st' as [|limit st'].
  - destruct (N.ltb_spec (lenN (st_in s1)) sz0); [done|]. injection HK' as <- <- <-.
    exists hdr. rewrite <- Hst. cbn. repeat split; try done; apply Ha'.
  - destruct (N.ltb_spec limit sz0); [done|].
    destruct (N.ltb_spec (lenN (st_in s1)) sz0); [done|]. injection HK' as <- <- <-.
    exists hdr. rewrite <- Hst in *. cbn. repeat split; try done; apply Ha'.
Qed.

Lemma Kind_idem s x s' : Kind s = (inr x, s') -> Kind s' = (inr x, s').
Proof.
  unfold Kind at 1. destruct (st_kind s) as [k|] eqn:Hk.
  - destruct (st_kerr s) eqn:He; [done|]. intros [= <- <-]. unfold Kind. rewrite Hk, He. done.
  - intros HK.
    assert (forall s1 k0 sz0 e', (match e' with Some e => inl e | None => inr (k0, sz0) end, set_ahead s1 (Some k0) sz0 e') = (inr x, s') -> Kind s' = (inr x, s')) as Hgo.
    { intros s1 k0 sz0 [e|] Hq; [done|]. injection Hq as <- <-. done. }
    destruct (st_stack s) as [|[|p] st]; [|done|].
    + destruct (st_readKind s) as [[[k0 sz0] e] s1]. eapply Hgo; exact HK.
    + destruct (st_readKind s) as [[[k0 sz0] e] s1]. eapply Hgo; exact HK.
Qed.

Lemma st_readKind_noeol s k sz s' : st_readKind s <> ((k, sz, Some EEOL), s').
Proof.
  unfold st_readKind. destruct (readByte s) as [[e|b] s1] eqn:Hb.
  - apply readByte_err in Hb. intros [= <- <- He <-].
    destruct (st_stack s1); destruct e; naive_solver.
  - repeat case_match; intros ?; simplify_eq;
    match goal with H : readUint _ _ = (inl _, _) |- _ => apply readUint_err in H; naive_solver end.
Qed.

Lemma Kind_eol s s' : st_kind s = None -> Kind s = (inl EEOL, s') -> s' = s /\ exists st, st_stack s = 0 :: st.
Proof.
  intros Hk. unfold Kind. rewrite Hk.
  destruct (st_stack s) as [|[|p] st].
  - destruct (st_readKind s) as [[[k0 sz0] e] s1] eqn:Hr. destruct e as [e|]; cbn.
    + intros [= -> <-]. apply st_readKind_noeol in Hr as [].
    + repeat case_match; intros ?; simplify_eq.
  - intros [= <-]. eauto.
  - destruct (st_readKind s) as [[[k0 sz0] e] s1] eqn:Hr. destruct e as [e|]; cbn.
    + intros [= -> <-]. apply st_readKind_noeol in Hr as [].
    + repeat case_match; intros ?; simplify_eq.
Qed.

(** Forward direction of Kind. *)
Lemma rlp_head_long_inv sm lg n : 56 <= n -> rlp_head sm lg n = (lg + lenN (be_bytes n)) :: be_bytes n.
Proof. intros. unfold rlp_head. destruct (N.ltb_spec n 56); [lia|done]. Qed.
Lemma rlp_head_short sm lg n : n < 56 -> rlp_head sm lg n = [sm + n].
Proof. intros. unfold rlp_head. destruct (N.ltb_spec n 56); [done|lia]. Qed.

Lemma lim_ge_dec st a b :
  Forall (fun l => l < two64) st -> lim_ge st (a + b) -> lim_ge (dec_top st a) b.
Proof. destruct 1; simpl; [done|]. intros. rewrite sub64_le by lia. lia. Qed.

Lemma lim_ge_mono st a b : a <= b -> lim_ge st b -> lim_ge st a.
Proof. destruct st; simpl; [done|lia]. Qed.

Lemma st_readKind_fwd s k hdr sz bv r :
  Inv s -> st_in s = hdr ++ r -> hdr_ok k hdr sz bv -> sz < two64 -> lim_ge (st_stack s) (lenN hdr) ->
  exists s', st_readKind s = ((k, sz, None), s').
Proof.
  intros HI Hi Hh Hsz Hlim. unfold st_readKind.
  assert (exists b0 hdr', hdr = b0 :: hdr') as (b0 & hdr' & ->).
  { destruct k; cbn in Hh; [destruct Hh as [-> _]; eauto|subst hdr..];
    (destruct (N.lt_ge_cases sz 56); [rewrite rlp_head_short by done|rewrite rlp_head_long_inv by done]; eauto). }
  rewrite lenN_cons in Hlim.
  assert (lim_ge (st_stack s) 1) as Hlim1 by (eapply lim_ge_mono; [|exact Hlim]; lia).
  cbn [app] in Hi.
  pose proof (readByte_fwd s b0 (hdr' ++ r) HI Hi Hlim1) as Hrb.
  rewrite Hrb. destruct (readByte_bwd _ _ _ HI Hrb) as (Ha & _ & _).
  set (s1 := Stream _ _ _ _ _ _ _ _) in *.
  assert (adv s [b0] (set_byteval s1 0)) as Ha0 by (eapply adv_same; [exact Ha|repeat split]).
  assert (Inv (set_byteval s1 0)) as HI0 by apply Ha0.
  assert (Hlong : forall tag sm (k' : kind), 55 <= tag -> 56 <= sz -> b0 :: hdr' = rlp_head sm tag sz ->
    exists s',
    match readUint (set_byteval s1 0) (b0 - tag) with
        | (inl e, s2) => ((k', 0, Some e), s2)
        | (inr sz, s2) => ((k', sz, if sz <? 56 then Some ECanonSize else None), s2)
        end = ((k', sz, None), s')).
  { intros tag sm k' Ht H56 Heq. rewrite rlp_head_long_inv in Heq by done. injection Heq as -> ->.
    replace (tag + lenN (be_bytes sz) - tag) with (lenN (be_bytes sz)) by lia.
    destruct (readUint_fwd (set_byteval s1 0) (be_bytes sz) r) as [s2 Hu].
    - done.
    - intros E. apply be_bytes_nil in E. lia.
    - apply be_bytes_no_lead0.
    - done.
    - cbn. apply lim_ge_dec; [apply HI|done].
    - rewrite Hu, be_num_bytes. destruct (N.ltb_spec sz 56); [lia|]. eauto. }
  pose proof (lenN_be_bytes_le8 sz Hsz) as Hb8.
  pose proof (lenN_be_bytes_pos sz) as Hb0.
  destruct k; cbn in Hh.
  - destruct Hh as ([= <- _] & Hb & ->). destruct (N.ltb_spec b0 0x80); [|lia]. eauto.
  - destruct (N.lt_ge_cases sz 56) as [Hs|Hs].
    + rewrite rlp_head_short in Hh by done. injection Hh as -> _.
      destruct (N.ltb_spec (0x80 + sz) 0x80); [lia|].
      destruct (N.ltb_spec (0x80 + sz) 0xB8); [|lia].
      replace (0x80 + sz - 0x80) with sz by lia. eauto.
    + destruct (Hlong 0xB7 0x80 KString) as [s' Hs']; [lia|done|done|].
      rewrite rlp_head_long_inv in Hh by done. injection Hh as Hb _.
      destruct (N.ltb_spec b0 0x80); [lia|]. destruct (N.ltb_spec b0 0xB8); [lia|].
      destruct (N.ltb_spec b0 0xC0); [|lia]. eauto.
  - destruct (N.lt_ge_cases sz 56) as [Hs|Hs].
    + rewrite rlp_head_short in Hh by done. injection Hh as -> _.
      destruct (N.ltb_spec (0xC0 + sz) 0x80); [lia|].
      destruct (N.ltb_spec (0xC0 + sz) 0xB8); [lia|].
      destruct (N.ltb_spec (0xC0 + sz) 0xC0); [lia|].
      destruct (N.ltb_spec (0xC0 + sz) 0xF8); [|lia].
      replace (0xC0 + sz - 0xC0) with sz by lia. eauto.
    + destruct (Hlong 0xF7 0xC0 KList) as [s' Hs']; [lia|done|done|].
      rewrite rlp_head_long_inv in Hh by done. injection Hh as Hb _.
      destruct (N.ltb_spec b0 0x80); [lia|]. destruct (N.ltb_spec b0 0xB8); [lia|].
      destruct (N.ltb_spec b0 0xC0); [lia|]. destruct (N.ltb_spec b0 0xF8); [lia|]. eauto.
Qed.

Lemma hdr_ok_len_pos k hdr sz bv : hdr_ok k hdr sz bv -> 0 < lenN hdr.
Proof.
  destruct k; cbn; [intros [-> _]; done|intros ->; apply rlp_head_len_pos..].
Qed.

Lemma Kind_fwd s k hdr sz bv r :
  Inv s -> st_kind s = None -> st_in s = hdr ++ r -> hdr_ok k hdr sz bv ->
  sz <= lenN r -> lim_ge (st_stack s) (lenN hdr + sz) ->
  exists s', Kind s = (inr (k, sz), s').
Proof.
  intros HI Hk Hi Hh Hsz Hlim.
  destruct (Inv_drop _ _ _ HI Hi) as (_&_&Hh2&Hr2&Hlen).
  destruct (st_readKind_fwd s k hdr sz bv r) as [s1 Hr]; [done|done|done|lia| |].
  { eapply lim_ge_mono; [|exact Hlim]. lia. }
  destruct (st_readKind_bwd _ _ _ _ HI Hr) as (hdr1 & Ha & Hk1 & Hh1 & _ & _).
  assert (st_limited s1 = true /\ st_rem s1 = lenN (st_in s1)) as [HL HR] by (split; apply Ha).
  assert (lenN hdr1 = lenN hdr) as Hhl.
  { destruct k; cbn in Hh, Hh1; [destruct Hh as [-> _], Hh1 as [-> _]; done|congruence..]. }
  assert (lenN (st_in s1) = lenN r) as Hin.
  { destruct Ha as (Hi1 & _). assert (lenN (st_in s) = lenN hdr1 + lenN (st_in s1)) by (rewrite Hi1, lenN_app; done). lia. }
  pose proof (hdr_ok_len_pos _ _ _ _ Hh) as Hpos.
  unfold Kind. rewrite Hk. rewrite Hr, HL, HR, Hin. cbn [andb].
  destruct (N.ltb_spec (lenN r) sz); [lia|].
  destruct (st_stack s) as [|[|p] st].
  - eauto.
  - cbn in Hlim. lia.
  - cbn in Hlim. destruct (N.ltb_spec (N.pos p) sz); [lia|]. eauto.
Qed.

(* ---------------------------------------------------------- Bytes *)
Lemma str_hdr bs : (forall b, bs = [b] -> 128 <= b) -> rlp (Str bs) = rlp_head 0x80 0xB7 (lenN bs) ++ bs.
Proof.
  intros Hb. destruct bs as [|b [|b2 bs]]; [done| |done]. cbn [rlp].
  destruct (N.ltb_spec b 128); [|done]. specialize (Hb b eq_refl). lia.
Qed.

Lemma adv_bytes s p s' : Inv s -> adv s p s' -> is_bytes p.
Proof. intros HI (Hi & _). by apply (Inv_drop _ _ _ HI Hi). Qed.

Lemma st_Bytes_bwd s b s' :
  Inv s -> st_kind s = None -> st_Bytes s = (inr b, s') ->
  adv s (rlp (Str b)) s' /\ st_kind s' = None /\ is_bytes b.
Proof.
  intros HI Hk. unfold st_Bytes. destruct (Kind s) as [[e|[k sz]] s1] eqn:HK; [done|].
  destruct (Kind_bwd _ _ _ _ HI Hk HK) as (hdr & Ha & Hk1 & Hs1 & He1 & Hh & Hsz & Hlim & _).
  assert (Inv s1) as HI1 by apply Ha.
  destruct k; cbn in Hh.
  - intros [= <- <-]. destruct Hh as (-> & Hb & _). cbn [rlp].
    destruct (N.ltb_spec (st_byteval s1) 128); [|lia]. split; [eapply adv_same; [exact Ha|repeat split]|].
    split; [done|]. apply is_bytes_cons; split; [lia|apply is_bytes_nil].
  - destruct (readFull s1 sz) as [[e|bs] s2] eqn:Hf; [done|].
    destruct (readFull_bwd _ _ _ _ HI1 Hf) as (Ha2 & Hl2 & Hk2 & _).
    pose proof (adv_bytes _ _ _ HI1 Ha2) as Hbs.
    intros Hq. assert (b = bs /\ s' = s2 /\ (forall x, bs = [x] -> 128 <= x)) as (-> & -> & Hx).
    { destruct bs as [|x [|y bs]]; [by simplify_eq| |by simplify_eq].
      destruct (N.ltb_spec x 128); simplify_eq. split; [done|]. split; [done|]. intros ? [= <-]; done. }
    split; [|done]. rewrite str_hdr by done. rewrite Hl2, <- Hh. eapply adv_trans; [exact Ha|exact Ha2].
  - done.
Qed.

Lemma st_Bytes_fwd s b r :
  Inv s -> st_kind s = None -> st_in s = rlp (Str b) ++ r ->
  lim_ge (st_stack s) (lenN (rlp (Str b))) ->
  exists k sz s1 s2, Kind s = (inr (k, sz), s1) /\ k <> KList /\ st_Bytes s = (inr b, s2).
Proof.
  intros HI Hk Hi Hlim. assert ((exists x, b = [x] /\ x < 128) \/ (forall x, b = [x] -> 128 <= x)) as [(x & -> & Hx)|Hx].
  { destruct b as [|x [|y b]]; [right; intros ? [=]| |right; intros ? [=]].
    destruct (N.lt_ge_cases x 128); [left; eauto|right; intros ? [= <-]; done]. }
  - cbn [rlp] in *. destruct (N.ltb_spec x 128); [|lia].
    destruct (Kind_fwd s KByte [x] 0 x r) as [s1 HK]; [done..|cbn;lia|done|].
    exists KByte, 0, s1. unfold st_Bytes. rewrite HK.
    destruct (Kind_bwd _ _ _ _ HI Hk HK) as (hdr & Ha & _ & _ & _ & Hh & _). cbn in Hh.
    destruct Hh as (-> & _ & _). destruct Ha as (Hi' & _). rewrite Hi in Hi'. injection Hi' as <- _.
    eauto.
  - rewrite str_hdr in * by done. rewrite <- app_assoc in Hi. rewrite lenN_app in Hlim.
    destruct (Kind_fwd s KString (rlp_head 0x80 0xB7 (lenN b)) (lenN b) 0 (b ++ r)) as [s1 HK]; [done..|rewrite lenN_app; lia|done|].
    destruct (Kind_bwd _ _ _ _ HI Hk HK) as (hdr & Ha & _ & _ & _ & Hh & _). cbn in Hh. subst hdr.
    exists KString, (lenN b), s1. unfold st_Bytes. rewrite HK.
    destruct Ha as (Hi' & HI1 & Hst). rewrite Hi in Hi'. apply app_inv_head in Hi'.
    erewrite (readFull_fwd s1 (lenN b) b r); [|done|done|done|].
    2:{ rewrite Hst. apply lim_ge_dec; [apply HI|done]. }
    destruct b as [|x [|y b]]; [eauto| |eauto]. specialize (Hx x eq_refl).
    destruct (N.ltb_spec x 128); [lia|]. eauto.
Qed.

Lemma st_Bytes_after_Kind s x s1 : Kind s = (inr x, s1) -> st_Bytes s1 = st_Bytes s.
Proof. intros HK. unfold st_Bytes. rewrite (Kind_idem _ _ _ HK), HK. done. Qed.

Lemma st_List_after_Kind s sz s1 :
  Kind s = (inr (KList, sz), s1) ->
  st_List s1 = (inr sz, Stream (st_in s1) (st_rem s1) 0 (st_kerr s1)
     (match st_stack s1 with limit :: st => sz :: sub64 limit sz :: st | [] => [sz] end)
     None (st_byteval s1) (st_limited s1)).
Proof. intros HK. unfold st_List. rewrite (Kind_idem _ _ _ HK). done. Qed.

Lemma Inv_fields i r sz e st k bv l r' sz' e' st' k' bv' :
  Inv (Stream i r sz e st k bv l) -> r' = r -> Forall (fun x => x < two64) st' ->
  Inv (Stream i r' sz' e' st' k' bv' l).
Proof. intros (?&?&?&?&?) -> ?. repeat split; done. Qed.

Lemma stack_after_List s1 sz :
  Inv s1 -> sz < two64 ->
  Forall (fun x => x < two64) (match st_stack s1 with limit :: st => sz :: sub64 limit sz :: st | [] => [sz] end).
Proof.
  intros (_&_&_&_&HF) Hsz. destruct (st_stack s1) as [|l st]; [repeat constructor; done|].
  inversion HF; subst. repeat constructor; auto using sub64_lt.
Qed.

(* ---------------------------------------------------------- no spurious EOL *)
Lemma st_Bytes_noeol s x s1 s2 : Kind s = (inr x, s1) -> st_Bytes s1 <> (inl EEOL, s2).
Proof.
  intros HK. unfold st_Bytes. rewrite (Kind_idem _ _ _ HK). destruct x as [k sz].
  destruct k; [done| |done].
  destruct (readFull s1 sz) as [[e|bs] s3] eqn:Hf.
  - intros [= -> <-]. apply readFull_err in Hf. naive_solver.
  - destruct bs as [|a [|]]; [done| |done]. case_match; done.
Qed.

Lemma dec_noeol f :
  (forall s s', st_kind s = None -> dec_iface f s = (inl EEOL, s') -> s' = s /\ exists st, st_stack s = 0 :: st) /\
  (forall s s', dec_elems f s <> (inl EEOL, s')).
Proof.
  induction f as [|f [IH1 IH2]]; [split; done|]. split.
  - intros s s' Hk. cbn [dec_iface]. destruct (Kind s) as [[e|[k sz]] s1] eqn:HK.
    { intros [= -> <-]. by apply Kind_eol. }
    destruct k.
    + destruct (st_Bytes s1) as [[e|b] s2] eqn:Hb; [|done]. intros [= -> <-].
      by apply (st_Bytes_noeol _ _ _ _ HK) in Hb.
    + destruct (st_Bytes s1) as [[e|b] s2] eqn:Hb; [|done]. intros [= -> <-].
      by apply (st_Bytes_noeol _ _ _ _ HK) in Hb.
    + rewrite (st_List_after_Kind _ _ _ HK). set (s2 := Stream _ _ _ _ _ _ _ _).
      case_match.
      * unfold st_ListEnd. repeat case_match; intros ?; simplify_eq.
      * destruct (dec_elems f s2) as [[e|xs] s3] eqn:He.
        { intros [= -> <-]. by apply IH2 in He. }
        unfold st_ListEnd. repeat case_match; intros ?; simplify_eq.
  - intros s s'. cbn [dec_elems]. destruct (dec_iface f s) as [[e|x] s1] eqn:Hd.
    + destruct e; done.
    + destruct (dec_elems f s1) as [[e|xs] s2] eqn:He; [|done]. intros [= -> <-]. by apply IH2 in He.
Qed.

(* ---------------------------------------------------------- canonicity *)
Lemma Kind_List_adv s sz s1 :
  Inv s -> st_kind s = None -> Kind s = (inr (KList, sz), s1) ->
  adv s (rlp_head 0xC0 0xF7 sz) s1 /\ sz < two64 /\ sz <= lenN (st_in s1).
Proof.
  intros HI Hk HK. destruct (Kind_bwd _ _ _ _ HI Hk HK) as (hdr & Ha & _ & _ & _ & Hh & Hsz & _).
  cbn in Hh. subst hdr. split; [done|]. assert (Inv s1) as (_&_&_&?&_) by apply Ha. lia.
Qed.

Lemma dec_canon f :
  (forall s v s', Inv s -> st_kind s = None -> dec_iface f s = (inr v, s') ->
     adv s (rlp v) s' /\ st_kind s' = None /\ item_ok v) /\
  (forall s xs s', Inv s -> st_kind s = None -> dec_elems f s = (inr xs, s') ->
     adv s (rlps xs) s' /\ st_kind s' = None /\ items_ok xs /\ exists st, st_stack s' = 0 :: st).
Proof.
  induction f as [|f [IH1 IH2]]; [split; done|]. split.
  - intros s v s' HI Hk. cbn [dec_iface]. destruct (Kind s) as [[e|[k sz]] s1] eqn:HK; [done|].
    assert (forall r, match st_Bytes s1 with (inl e, s2) => (inl e, s2) | (inr b, s2) => (inr (Str b), s2) end = (r, s') ->
       r = inr v -> adv s (rlp v) s' /\ st_kind s' = None /\ item_ok v) as Hstr.
    { intros r Hq ->. rewrite (st_Bytes_after_Kind _ _ _ HK) in Hq.
      destruct (st_Bytes s) as [[e|b] s2] eqn:Hb; [done|]. injection Hq as <- <-.
      by apply st_Bytes_bwd. }
    destruct k; [intros; by eapply Hstr|intros; by eapply Hstr|]. clear Hstr.
    rewrite (st_List_after_Kind _ _ _ HK).
    destruct (Kind_List_adv _ _ _ HI Hk HK) as (Ha & Hsz & Hsz2).
    assert (Inv s1) as HI1 by apply Ha.
    destruct (N.eqb_spec sz 0) as [->|Hsz0].
    + unfold st_ListEnd. cbn [st_stack].
      destruct (st_stack s1) as [|l st] eqn:Hst.
      * cbn. intros [= <- <-]. cbn [rlp lenN length]. change (N.of_nat 0) with 0. rewrite app_nil_r.
        split; [|done]. eapply adv_same; [exact Ha|]. repeat split; done.
      * cbn. intros [= <- <-]. cbn [rlp lenN length]. change (N.of_nat 0) with 0. rewrite app_nil_r.
        split; [|done]. eapply adv_same; [exact Ha|]. repeat split; try done. cbn.
        rewrite Hst. rewrite sub64_0; [done|]. destruct HI1 as (_&_&_&_&HF). rewrite Hst in HF.
        by inversion HF.
    + set (s2 := Stream _ _ _ _ _ _ _ _).
      destruct (dec_elems f s2) as [[e|xs] s3] eqn:He; [done|].
      assert (Inv s2) as HI2.
      { destruct s1. eapply Inv_fields; [exact HI1|done|]. by apply (stack_after_List _ _ HI1). }
      destruct (IH2 _ _ _ HI2 eq_refl He) as (Ha2 & Hk3 & Hok & st & Hst).
      destruct Ha2 as (Hi2 & HI3 & Hst3).
      unfold st_ListEnd. rewrite Hst. cbn. intros [= <- <-].
      destruct (Inv_drop _ _ _ HI2 Hi2) as (_&_&Hlx&_&_).
      assert (sz = lenN (rlps xs)) as Hszx.
      { rewrite Hst in Hst3. unfold s2 in Hst3; cbn in Hst3.
        destruct (st_stack s1); cbn in Hst3; injection Hst3 as Hz _; symmetry in Hz;
          by apply sub64_eq0 in Hz. }
      rewrite rlp_Lst. split; [|split; [done|by apply item_ok_Lst]].
      destruct Ha as (Hi & _ & Hs1). split; [|split].
      * cbn. rewrite Hi. change (st_in s1) with (st_in s2). rewrite Hi2, Hszx, app_assoc. done.
      * destruct s3. eapply Inv_fields; [exact HI3|done|]. cbn in *.
        destruct HI3 as (_&_&_&_&HF). cbn in HF. rewrite Hst in HF. by inversion HF.
      * cbn. rewrite Hst in Hst3. unfold s2 in Hst3; cbn in Hst3.
        rewrite lenN_app, <- dec_top_dec_top, <- Hszx, <- Hs1.
        destruct (st_stack s1); cbn in Hst3 |- *; injection Hst3 as _ ->; done.
  - intros s xs s' HI Hk. cbn [dec_elems]. destruct (dec_iface f s) as [[e|x] s1] eqn:Hd.
    + assert (e = EEOL \/ e <> EEOL) as [->|Hne] by (destruct e; (by left) || (by right)).
      * intros [= <- <-]. destruct (proj1 (dec_noeol f) _ _ Hk Hd) as [-> Hst].
        split; [apply adv_nil; done|]. split; [done|]. split; [constructor|done].
      * destruct e; done.
    + destruct (dec_elems f s1) as [[e|ys] s2] eqn:He; [done|]. intros [= <- <-].
      destruct (IH1 _ _ _ HI Hk Hd) as (Ha1 & Hk1 & Hok1).
      assert (Inv s1) as HI1 by apply Ha1.
      destruct (IH2 _ _ _ HI1 Hk1 He) as (Ha2 & Hk2 & Hok2 & Hst).
      cbn [rlps]. split; [by eapply adv_trans|]. split; [done|]. split; [by constructor|done].
Qed.

Lemma Inv_new b : is_bytes b -> lenN b < two64 -> Inv (st_new b).
Proof. intros. repeat split; try done. cbn. constructor. Qed.

Lemma decode_bytes_canon b v :
  is_bytes b -> lenN b < two64 -> decode_bytes b = inr v -> b = rlp v /\ item_ok v.
Proof.
  intros Hb Hlen. unfold decode_bytes.
  destruct (dec_iface (2 * length b + 2) (st_new b)) as [[e|w] s] eqn:Hd; [done|].
  destruct (proj1 (dec_canon _) _ _ _ (Inv_new b Hb Hlen) eq_refl Hd) as (Ha & _ & Hok).
  destruct Ha as (Hi & _). cbn in Hi. destruct (st_in s) eqn:Hs; [|done].
  intros [= <-]. rewrite app_nil_r in Hi. done.
Qed.

(* ---------------------------------------------------------- round trip *)
Lemma dec_elems_fwd_from xs :
  Forall (fun v => forall s f r, item_ok v -> Inv s -> st_kind s = None -> st_in s = rlp v ++ r ->
     lim_ge (st_stack s) (lenN (rlp v)) -> (2 * length (rlp v) + 1 <= f)%nat ->
     exists s', dec_iface f s = (inr v, s')) xs ->
  forall s f r st, items_ok xs -> Inv s -> st_kind s = None -> st_in s = rlps xs ++ r ->
     st_stack s = lenN (rlps xs) :: st -> (2 * length (rlps xs) + 2 <= f)%nat ->
     exists s', dec_elems f s = (inr xs, s').
Proof.
  induction 1 as [|x xs Hx _ IH]; intros s f r st Hok HI Hk Hi Hst Hf.
  - destruct f as [|[|f]]; [simpl in Hf; lia..|]. cbn [rlps] in *. change (lenN []) with 0 in Hst.
    cbn [dec_elems dec_iface]. unfold Kind. rewrite Hk, Hst. eauto.
  - inversion Hok as [|? ? Hokx Hokxs]; subst. cbn [rlps] in *. rewrite <- app_assoc in Hi.
    rewrite lenN_app in Hst. rewrite app_length in Hf.
    destruct f as [|f]; [lia|].
    destruct (Hx s f (rlps xs ++ r)) as [s1 Hd]; [done|done|done|done|rewrite Hst; cbn; lia|lia|].
    cbn [dec_elems]. rewrite Hd.
    destruct (proj1 (dec_canon _) _ _ _ HI Hk Hd) as (Ha & Hk1 & _).
    destruct Ha as (Hi1 & HI1 & Hst1). rewrite Hi in Hi1. apply app_inv_head in Hi1.
    pose proof (rlp_len_pos x) as Hpos. unfold lenN in Hpos.
    destruct (IH s1 f r st) as [s2 He]; [done|done|done|done| |lia|].
    { rewrite Hst1, Hst. cbn. rewrite sub64_le; [f_equal; lia| |lia].
      destruct HI as (_&_&_&_&HF). rewrite Hst in HF. by inversion HF. }
    rewrite He. eauto.
Qed.

Lemma dec_iface_fwd v : forall s f r, item_ok v -> Inv s -> st_kind s = None -> st_in s = rlp v ++ r ->
     lim_ge (st_stack s) (lenN (rlp v)) -> (2 * length (rlp v) + 1 <= f)%nat ->
     exists s', dec_iface f s = (inr v, s').
Proof.
  induction v as [bs|xs IH] using item_rect'; intros s f r Hok HI Hk Hi Hlim Hf.
  - destruct f as [|f]; [lia|]. cbn [dec_iface].
    destruct (st_Bytes_fwd s bs r HI Hk Hi Hlim) as (k & sz & s1 & s2 & HK & Hkl & HB).
    rewrite HK. rewrite <- (st_Bytes_after_Kind _ _ _ HK) in HB. rewrite HB.
    destruct k; [eauto|eauto|done].
  - apply item_ok_Lst in Hok. rewrite rlp_Lst in *. set (n := lenN (rlps xs)) in *.
    rewrite <- app_assoc in Hi. rewrite lenN_app in Hlim. rewrite app_length in Hf.
    pose proof (rlp_head_len_pos 0xC0 0xF7 n) as Hpos. unfold lenN in Hpos.
    destruct f as [|f]; [lia|]. cbn [dec_iface].
    destruct (Kind_fwd s KList (rlp_head 0xC0 0xF7 n) n 0 (rlps xs ++ r)) as [s1 HK];
      [done..|rewrite lenN_app; lia|done|].
    rewrite HK, (st_List_after_Kind _ _ _ HK).
    destruct (Kind_List_adv _ _ _ HI Hk HK) as (Ha & Hsz & Hsz2).
    destruct Ha as (Hi1 & HI1 & Hst1). rewrite Hi in Hi1. apply app_inv_head in Hi1.
    destruct (N.eqb_spec n 0) as [Hn0|Hn0].
    + assert (xs = []) as ->.
      { destruct xs as [|x xs]; [done|]. unfold n in Hn0. cbn [rlps] in Hn0. rewrite lenN_app in Hn0.
        pose proof (rlp_len_pos x). lia. }
      unfold st_ListEnd; cbn. rewrite Hn0. destruct (st_stack s1); eauto.
    + set (s2 := Stream _ _ _ _ _ _ _ _).
      assert (Inv s2) as HI2.
      { destruct s1. eapply Inv_fields; [exact HI1|done|]. by apply (stack_after_List _ _ HI1). }
      destruct (dec_elems_fwd_from xs IH s2 f r (match st_stack s1 with l :: st => sub64 l n :: st | [] => [] end)) as [s3 He];
        [done|done|done|exact (eq_sym Hi1)| |lia|].
      { unfold s2; cbn. destruct (st_stack s1); done. }
      rewrite He. destruct (proj2 (dec_canon _) _ _ _ HI2 eq_refl He) as (_ & _ & _ & st & Hst).
      unfold st_ListEnd. rewrite Hst. cbn. eauto.
Qed.

Lemma rlp_bytes v : item_ok v -> lenN (rlp v) < two64 -> is_bytes (rlp v).
Proof.
  assert (forall tag n, tag <= 0xF7 -> 55 <= tag -> n < two64 -> is_bytes (rlp_head (tag - 55) tag n)) as Hh.
  { intros tag n Ht Ht2 Hn. unfold rlp_head. destruct (N.ltb_spec n 56).
    - apply is_bytes_cons. split; [lia|apply is_bytes_nil].
    - apply is_bytes_cons. split; [|apply be_bytes_bytes]. pose proof (lenN_be_bytes_le8 n Hn). lia. }
  induction v as [bs|xs IH] using item_rect'; intros Hok Hl.
  - cbn [item_ok] in Hok. destruct bs as [|b [|b2 bs]]; [by apply is_bytesb_spec| |].
    + cbn [rlp]. destruct (b <? 128); [done|]. apply is_bytes_app. split; [|done].
      by apply is_bytesb_spec.
    + rewrite str_hdr in * by (intros ? [=]). rewrite lenN_app in Hl. apply is_bytes_app. split; [|done].
      apply (Hh 0xB7); lia.
  - rewrite rlp_Lst in *. rewrite lenN_app in Hl. apply is_bytes_app.
    split; [apply (Hh 0xF7); lia|]. apply item_ok_Lst in Hok.
    assert (lenN (rlps xs) < two64) as Hl2 by lia. clear Hl.
    induction IH as [|x xs Hx _ IHxs]; [apply is_bytes_nil|].
    inversion Hok; subst. cbn [rlps] in *. rewrite lenN_app in Hl2.
    apply is_bytes_app. split; [apply Hx; [done|lia]|apply IHxs; [done|lia]].
Qed.

Lemma decode_encode v :
  item_ok v -> lenN (rlp v) < two64 -> decode_bytes (rlp v) = inr v.
Proof.
  intros Hok Hl. pose proof (rlp_bytes v Hok Hl) as Hb. unfold decode_bytes.
  destruct (dec_iface_fwd v (st_new (rlp v)) (2 * length (rlp v) + 2) [] Hok (Inv_new _ Hb Hl)) as [s' Hd];
    [done|by rewrite app_nil_r|done|lia|].
  rewrite Hd. destruct (proj1 (dec_canon _) _ _ _ (Inv_new _ Hb Hl) eq_refl Hd) as ((Hi & _) & _).
  cbn in Hi. rewrite <- (app_nil_r (rlp v)) in Hi at 1. apply app_inv_head in Hi. rewrite <- Hi. done.
Qed.

(* ---------------------------------------------------------- termination of the decoder *)
Lemma st_readKind_nofuel s k sz s' : st_readKind s <> ((k, sz, Some EOutOfFuel), s').
Proof.
  unfold st_readKind. destruct (readByte s) as [[e|b] s1] eqn:Hb.
  - apply readByte_err in Hb. intros [= <- <- He <-].
    destruct (st_stack s1); destruct e; naive_solver.
  - repeat case_match; intros ?; simplify_eq;
    match goal with H : readUint _ _ = (inl _, _) |- _ => apply readUint_err in H; naive_solver end.
Qed.

Lemma Kind_nofuel s s' : st_kind s = None -> Kind s <> (inl EOutOfFuel, s').
Proof.
  intros Hk. unfold Kind. rewrite Hk.
  destruct (st_stack s) as [|[|p] st]; [| done |];
  destruct (st_readKind s) as [[[k0 sz0] e] s1] eqn:Hr; (destruct e as [e|]; cbn;
    [intros [= -> <-]; apply st_readKind_nofuel in Hr as []
    |repeat case_match; intros ?; simplify_eq]).
Qed.

Lemma dec_nofuel f :
  (forall s s', Inv s -> st_kind s = None -> (2 * length (st_in s) + 1 <= f)%nat -> dec_iface f s <> (inl EOutOfFuel, s')) /\
  (forall s s', Inv s -> st_kind s = None -> (2 * length (st_in s) + 2 <= f)%nat -> dec_elems f s <> (inl EOutOfFuel, s')).
Proof.
  induction f as [|f [IH1 IH2]]; [split; intros; lia|]. split.
  - intros s s' HI Hk Hf. cbn [dec_iface]. destruct (Kind s) as [[e|[k sz]] s1] eqn:HK.
    { intros [= -> <-]. by apply Kind_nofuel in HK. }
    assert (forall s2, match st_Bytes s1 with (inl e, s2) => (inl e, s2) | (inr b, s2) => (inr (Str b), s2) end <> (inl EOutOfFuel : rerr + item, s2)) as Hs.
    { intros s2. unfold st_Bytes. rewrite (Kind_idem _ _ _ HK). destruct k; [done| |done].
      destruct (readFull s1 sz) as [[e|bs] s3] eqn:Hr.
      - intros [= -> <-]. apply readFull_err in Hr. naive_solver.
      - destruct bs as [|a [|]]; [done| |done]. destruct (a <? 128); done. }
    destruct k; [apply Hs|apply Hs|].
    rewrite (st_List_after_Kind _ _ _ HK). set (s2 := Stream _ _ _ _ _ _ _ _).
    destruct (Kind_List_adv _ _ _ HI Hk HK) as (Ha & Hsz & Hsz2).
    destruct Ha as (Hi1 & HI1 & Hst1).
    clear Hs. destruct (sz =? 0).
    + unfold st_ListEnd. repeat case_match; intros ?; simplify_eq.
    + destruct (dec_elems f s2) as [[e|xs] s3] eqn:He.
      * intros [= -> <-]. revert He. apply IH2; [|done|].
        -- destruct s1. eapply Inv_fields; [exact HI1|done|]. by apply (stack_after_List _ _ HI1).
        -- unfold s2; cbn. rewrite Hi1, app_length in Hf.
           pose proof (rlp_head_len_pos 0xC0 0xF7 sz) as Hp. unfold lenN in Hp. lia.
      * unfold st_ListEnd. repeat case_match; intros ?; simplify_eq.
  - intros s s' HI Hk Hf. cbn [dec_elems]. destruct (dec_iface f s) as [[e|x] s1] eqn:Hd.
    + assert (e = EOutOfFuel \/ e <> EOutOfFuel) as [->|Hne] by (destruct e; (by left) || (by right)).
      * exfalso. revert Hd. apply IH1; [done|done|lia].
      * destruct e; done.
    + destruct (proj1 (dec_canon _) _ _ _ HI Hk Hd) as ((Hi & HI1 & _) & Hk1 & _).
      destruct (dec_elems f s1) as [[e|xs] s2] eqn:He; [|done]. intros [= -> <-]. revert He.
      apply IH2; [done|done|]. rewrite Hi, app_length in Hf.
      pose proof (rlp_len_pos x) as Hp. unfold lenN in Hp. lia.
Qed.

Lemma decode_bytes_nofuel b : is_bytes b -> lenN b < two64 -> decode_bytes b <> inl EOutOfFuel.
Proof.
  intros Hb Hl. unfold decode_bytes. destruct (dec_iface (2 * length b + 2) (st_new b)) as [[e|v] s] eqn:Hd.
  - intros [= ->]. revert Hd. apply (proj1 (dec_nofuel _)); [by apply Inv_new|done|cbn; lia].
  - case_match; done.
Qed.

(* ---------------------------------------------------------- integers through the stream *)
Lemma rlp_nat_eq n : rlp_nat n = rlp (Str (be_bytes n)). Proof. reflexivity. Qed.

Lemma st_uint_bwd s maxbits v s' :
  Inv s -> st_kind s = None -> maxbits / 8 <= 255 -> st_uint s maxbits = (inr v, s') ->
  adv s (rlp_nat v) s' /\ st_kind s' = None /\ v < 256 ^ (N.max 1 (maxbits / 8)).
Proof.
  intros HI Hk Hmb. unfold st_uint. destruct (Kind s) as [[e|[k sz]] s1] eqn:HK; [done|].
  destruct (Kind_bwd _ _ _ _ HI Hk HK) as (hdr & Ha & Hk1 & Hs1 & He1 & Hh & Hsz & Hlim & _).
  assert (Inv s1) as HI1 by apply Ha.
  destruct k; cbn in Hh; [| |done].
  - destruct Hh as (-> & Hb & _). destruct (N.eqb_spec (st_byteval s1) 0); [done|]. intros [= <- <-].
    rewrite rlp_nat_eq. rewrite (be_bytes_fixed 0) by (change (256 ^ N.of_nat 0) with 1; change (256 ^ N.of_nat 1) with 256; lia).
    cbn [be_fixed app]. rewrite N.mod_small by lia. cbn [rlp].
    destruct (N.ltb_spec (st_byteval s1) 128); [|lia].
    split; [eapply adv_same; [exact Ha|repeat split]|]. split; [done|].
    apply N.lt_le_trans with 256; [lia|]. change 256 with (256 ^ 1) at 1. apply N.pow_le_mono_r; lia.
  - destruct (N.ltb_spec (maxbits / 8) sz); [done|]. unfold byte_of. rewrite (N.mod_small sz) by lia.
    destruct (N.eq_dec sz 0) as [->|Hsz0].
    + unfold readUint. cbn. intros [= <- <-]. rewrite Hh in Ha.
      split; [eapply adv_same; [exact Ha|repeat split]|]. split; [done|].
      pose proof (pow256_pos (N.max 1 (maxbits / 8))). lia.
    + destruct (readUint s1 sz) as [[e|w] s2] eqn:Hu.
      { destruct e; done. }
      assert (0 < sz) as Hpos by lia.
      destruct (readUint_bwd _ _ _ _ HI1 Hpos Hu) as (bs & Hab & Hlen & Hv & H01 & Hk2).
      destruct (N.ltb_spec 0 sz); [|lia]. destruct (N.ltb_spec w 128) as [|Hw]; [done|]. cbn [andb].
      intros [= <- <-]. pose proof (adv_bytes _ _ _ HI1 Hab) as Hbs.
      assert (no_lead0 bs) as Hnl0.
      { destruct H01 as [Hone|]; [|done]. destruct bs as [|x [|]]; [done| |rewrite !lenN_cons in *; lia].
        simpl. subst w. unfold be_num in *; cbn in *. lia. }
      assert (be_bytes w = bs) as Hbw by (subst w; by apply be_bytes_num).
      split; [|split; [done|]].
      * rewrite rlp_nat_eq. rewrite Hbw. rewrite str_hdr.
        -- rewrite Hlen, <- Hh. eapply adv_trans; [exact Ha|done].
        -- intros b ->. subst w. unfold be_num in Hw; cbn in Hw. lia.
      * subst w. eapply N.lt_le_trans; [by apply be_num_bound|]. rewrite Hlen. apply N.pow_le_mono_r; lia.
Qed.

Lemma st_uint_fwd s maxbits v r :
  Inv s -> st_kind s = None -> maxbits / 8 <= 255 -> lenN (be_bytes v) <= maxbits / 8 ->
  st_in s = rlp_nat v ++ r -> lim_ge (st_stack s) (lenN (rlp_nat v)) ->
  exists s', st_uint s maxbits = (inr v, s').
Proof.
  intros HI Hk Hmb Hv Hi Hlim. unfold st_uint. rewrite rlp_nat_eq in *.
  destruct (N.lt_ge_cases v 128) as [Hsm|Hbig].
  - destruct (N.eq_dec v 0) as [->|Hv0].
    + rewrite be_bytes_0 in *. cbn [rlp] in *.
      destruct (Kind_fwd s KString [0x80] 0 0 r) as [s1 HK]; [done..|cbn;lia|done|].
      rewrite HK. destruct (N.ltb_spec (maxbits / 8) 0); [lia|]. cbn. eauto.
    + assert (be_bytes v = [v]) as Hbv.
      { rewrite (be_bytes_fixed 0) by (change (256 ^ N.of_nat 0) with 1; change (256 ^ N.of_nat 1) with 256; lia).
        cbn [be_fixed app]. rewrite N.mod_small by lia. done. }
      rewrite Hbv in *. cbn [rlp] in *. destruct (N.ltb_spec v 128); [|lia].
      destruct (Kind_fwd s KByte [v] 0 v r) as [s1 HK]; [done..|cbn;lia|done|].
      rewrite HK. destruct (Kind_bwd _ _ _ _ HI Hk HK) as (hdr & (Hi' & _) & _ & _ & _ & Hh & _). cbn in Hh.
      destruct Hh as (-> & _ & _). rewrite Hi in Hi'. injection Hi' as <- _.
      destruct (N.eqb_spec v 0); [lia|]. eauto.
  - rewrite str_hdr in *.
    2,3: intros b Hb; rewrite <- (be_num_bytes v), Hb in Hbig; unfold be_num in Hbig; cbn in Hbig; lia.
    set (b := be_bytes v) in *. rewrite <- app_assoc in Hi. rewrite lenN_app in Hlim.
    destruct (Kind_fwd s KString (rlp_head 0x80 0xB7 (lenN b)) (lenN b) 0 (b ++ r)) as [s1 HK]; [done..|rewrite lenN_app; lia|done|].
    destruct (Kind_bwd _ _ _ _ HI Hk HK) as (hdr & Ha & _ & _ & _ & Hh & _). cbn in Hh. subst hdr.
    rewrite HK. destruct (N.ltb_spec (maxbits / 8) (lenN b)); [lia|].
    unfold byte_of. rewrite N.mod_small by lia.
    destruct Ha as (Hi' & HI1 & Hst). rewrite Hi in Hi'. apply app_inv_head in Hi'.
    destruct (readUint_fwd s1 b r) as [s2 Hu]; [done| | |done| |].
    { intros E. apply be_bytes_nil in E. lia. }
    { apply be_bytes_no_lead0. }
    { rewrite Hst. apply lim_ge_dec; [apply HI|done]. }
    rewrite Hu. unfold b. rewrite be_num_bytes. destruct (N.ltb_spec v 128); [lia|].
    rewrite andb_false_r. eauto.
Qed.

Lemma decode_with_canon {A} (dec : stream -> (rerr + A) * stream) (enc : A -> list N) b v :
  (forall s v s', Inv s -> st_kind s = None -> dec s = (inr v, s') -> adv s (enc v) s') ->
  is_bytes b -> lenN b < two64 -> decode_bytes_with dec b = inr v -> b = enc v.
Proof.
  intros Hd Hb Hl. unfold decode_bytes_with. destruct (dec (st_new b)) as [[e|w] s] eqn:Hq; [done|].
  apply Hd in Hq; [|by apply Inv_new|done]. destruct Hq as (Hi & _). cbn in Hi.
  destruct (st_in s); [|done]. intros [= <-]. rewrite app_nil_r in Hi. done.
Qed.

Lemma decode_with_fwd {A} (dec : stream -> (rerr + A) * stream) (enc : A -> list N) v :
  (forall s v s', Inv s -> st_kind s = None -> dec s = (inr v, s') -> adv s (enc v) s') ->
  (exists s', dec (st_new (enc v)) = (inr v, s')) ->
  is_bytes (enc v) -> lenN (enc v) < two64 -> decode_bytes_with dec (enc v) = inr v.
Proof.
  intros Hd [s' Hq] Hb Hl. unfold decode_bytes_with. rewrite Hq.
  apply Hd in Hq; [|by apply Inv_new|done]. destruct Hq as (Hi & _). cbn in Hi.
  rewrite <- (app_nil_r (enc v)) in Hi at 1. apply app_inv_head in Hi. rewrite <- Hi. done.
Qed.

(* ---------------------------------------------------------- big integers *)
Lemma st_BigInt_bwd s v s' :
  Inv s -> st_kind s = None -> st_BigInt s = (inr v, s') -> adv s (rlp_nat v) s' /\ st_kind s' = None.
Proof.
  intros HI Hk. unfold st_BigInt. destruct (Kind s) as [[e|[k sz]] s1] eqn:HK; [done|].
  destruct (Kind_bwd _ _ _ _ HI Hk HK) as (hdr & Ha & Hk1 & Hs1 & He1 & Hh & Hsz & Hlim & _).
  assert (Inv s1) as HI1 by apply Ha.
  destruct k; cbn in Hh; [| |done].
  - destruct Hh as (-> & Hb & _). destruct (N.eqb_spec (st_byteval s1) 0); [done|]. intros [= <- <-].
    rewrite rlp_nat_eq. rewrite be_bytes_num; [|apply is_bytes_cons; split; [lia|apply is_bytes_nil]|done].
    cbn [rlp]. destruct (N.ltb_spec (st_byteval s1) 128); [|lia].
    split; [eapply adv_same; [exact Ha|repeat split]|done].
  - subst hdr. destruct (N.eqb_spec sz 0) as [->|Hsz0].
    + intros [= <- <-]. split; [eapply adv_same; [exact Ha|repeat split]|done].
    + assert (forall b s2, readFull s1 sz = (inr b, s2) -> (forall x, b = [x] -> 128 <= x) ->
         (if match b with x :: _ => x =? 0 | [] => false end then (inl ECanonInt, s2) else (inr (be_num b), s2)) = (inr v, s') ->
         adv s (rlp_nat v) s' /\ st_kind s' = None) as Hfin.
      { intros b s2 Hf Hx Hq. destruct (readFull_bwd _ _ _ _ HI1 Hf) as (Ha2 & Hl2 & Hk2 & _).
        change (match b with [] => false | x :: _ => x =? 0 end) with (lead0 b) in Hq.
        destruct (lead0 b) eqn:H0; [done|]. apply lead0_false in H0. injection Hq as <- <-.
        split; [|done]. rewrite rlp_nat_eq. rewrite be_bytes_num; [|by eapply adv_bytes|done].
        rewrite str_hdr by done. rewrite Hl2. by eapply adv_trans. }
      destruct (N.leb_spec sz 32).
      * destruct (readFull s1 sz) as [[e|b] s2] eqn:Hf; [done|]. intros Hq.
        destruct b as [|x [|y b]].
        -- eapply Hfin; [done| |exact Hq]. intros ? [=].
        -- destruct (N.ltb_spec x 128); [done|]. eapply Hfin; [done| |exact Hq]. intros ? [= <-]. done.
        -- eapply Hfin; [done| |exact Hq]. intros ? [=].
      * destruct (readFull s1 sz) as [[e|b] s2] eqn:Hf; [done|]. intros Hq.
        eapply Hfin; [done| |exact Hq]. intros x ->.
        destruct (readFull_bwd _ _ _ _ HI1 Hf) as (_ & Hl2 & _). change (lenN [x]) with 1 in Hl2. lia.
Qed.

Lemma st_BigInt_fwd s v r :
  Inv s -> st_kind s = None -> st_in s = rlp_nat v ++ r -> lim_ge (st_stack s) (lenN (rlp_nat v)) ->
  exists s', st_BigInt s = (inr v, s').
Proof.
  intros HI Hk Hi Hlim. unfold st_BigInt. rewrite rlp_nat_eq in *.
  destruct (N.lt_ge_cases v 128) as [Hsm|Hbig].
  - destruct (N.eq_dec v 0) as [->|Hv0].
    + rewrite be_bytes_0 in *. cbn [rlp] in *.
      destruct (Kind_fwd s KString [0x80] 0 0 r) as [s1 HK]; [done..|cbn;lia|done|].
      rewrite HK. cbn. eauto.
    + assert (be_bytes v = [v]) as Hbv.
      { rewrite (be_bytes_fixed 0) by (change (256 ^ N.of_nat 0) with 1; change (256 ^ N.of_nat 1) with 256; lia).
        cbn [be_fixed app]. rewrite N.mod_small by lia. done. }
      rewrite Hbv in *. cbn [rlp] in *. destruct (N.ltb_spec v 128); [|lia].
      destruct (Kind_fwd s KByte [v] 0 v r) as [s1 HK]; [done..|cbn;lia|done|].
      rewrite HK. destruct (Kind_bwd _ _ _ _ HI Hk HK) as (hdr & (Hi' & _) & _ & _ & _ & Hh & _). cbn in Hh.
      destruct Hh as (-> & _ & _). rewrite Hi in Hi'. injection Hi' as <- _.
      destruct (N.eqb_spec v 0); [lia|]. unfold be_num; cbn. eauto.
  - assert (forall b, be_bytes v = [b] -> 128 <= b) as H1.
    { intros b Hb; rewrite <- (be_num_bytes v), Hb in Hbig; unfold be_num in Hbig; cbn in Hbig; lia. }
    rewrite str_hdr in * by done.
    pose proof (be_bytes_no_lead0 v) as H0. pose proof (be_num_bytes v) as Hnum.
    assert (be_bytes v <> []) as Hnn by (intros E; apply be_bytes_nil in E; lia).
    set (b := be_bytes v) in *. rewrite <- app_assoc in Hi. rewrite lenN_app in Hlim.
    destruct (Kind_fwd s KString (rlp_head 0x80 0xB7 (lenN b)) (lenN b) 0 (b ++ r)) as [s1 HK]; [done..|rewrite lenN_app; lia|done|].
    destruct (Kind_bwd _ _ _ _ HI Hk HK) as (hdr & Ha & _ & _ & _ & Hh & _). cbn in Hh. subst hdr.
    rewrite HK. destruct Ha as (Hi' & HI1 & Hst). rewrite Hi in Hi'. apply app_inv_head in Hi'.
    destruct (N.eqb_spec (lenN b) 0) as [E|_]; [by apply lenN_0 in E|].
    rewrite (readFull_fwd s1 (lenN b) b r); [|done|done|done|rewrite Hst; apply lim_ge_dec; [apply HI|done]].
    apply lead0_false in H0. unfold lead0 in H0.
    destruct (lenN b <=? 32).
    + destruct b as [|x [|y b]]; [done| |rewrite H0, Hnum; eauto].
      specialize (H1 x eq_refl). destruct (N.ltb_spec x 128); [lia|]. rewrite H0, Hnum. eauto.
    + rewrite H0, Hnum. eauto.
Qed.
