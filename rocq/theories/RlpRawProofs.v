(** Proofs about raw.go, iterator.go and the integer writers. *)
From Verif Require Export RlpDecProofs.

(** A parsed item: header [hdr], content [c]. *)
Definition item_shape (k : kind) (hdr c : list N) : Prop :=
  match k with
  | KByte => hdr = [] /\ exists x, c = [x] /\ x < 128
  | KString => hdr = rlp_head 0x80 0xB7 (lenN c) /\ (forall x, c = [x] -> 128 <= x)
  | KList => hdr = rlp_head 0xC0 0xF7 (lenN c)
  end.

Lemma item_shape_str k hdr c : item_shape k hdr c -> k <> KList -> hdr ++ c = rlp (Str c).
Proof.
  destruct k; cbn [item_shape]; [| |done].
  - intros (-> & x & -> & Hx) _. cbn. destruct (N.ltb_spec x 128); [done|lia].
  - intros (-> & Hx) _. rewrite str_hdr by done. done.
Qed.

Lemma readSize_bwd b n v :
  is_bytes b -> 0 < n <= 8 -> readSize b n = inr v ->
  exists bs r, b = bs ++ r /\ lenN bs = n /\ no_lead0 bs /\ v = be_num bs /\ 56 <= v < two64.
Proof.
  intros Hb Hn. unfold readSize. destruct (N.ltb_spec (lenN b) n); [done|].
  destruct (N.ltb_spec (be_num (take (N.to_nat n) b)) 56); [done|]. cbn [orb].
  destruct b as [|x b'] eqn:Eb; [rewrite lenN_nil in *; lia|].
  destruct (N.eqb_spec x 0); [done|]. intros [= <-]. rewrite <- Eb in *.
  exists (take (N.to_nat n) b), (drop (N.to_nat n) b).
  assert (lenN (take (N.to_nat n) b) = n) as Hl by (unfold lenN in *; rewrite take_length; lia).
  split; [by rewrite take_drop|]. split; [done|].
  split.
  { rewrite Eb. destruct (N.to_nat n) eqn:En; [lia|]. done. }
  split; [done|]. split; [done|].
  eapply N.lt_le_trans; [apply be_num_bound, is_bytes_take; done|]. rewrite Hl.
  change two64 with (256 ^ 8). apply N.pow_le_mono_r; lia.
Qed.

Lemma readSize_fwd n r : 56 <= n -> readSize (be_bytes n ++ r) (lenN (be_bytes n)) = inr n.
Proof.
  intros Hn. unfold readSize. destruct (N.ltb_spec (lenN (be_bytes n ++ r)) (lenN (be_bytes n))) as [Hlt|_].
  { rewrite lenN_app in Hlt. lia. }
  rewrite lenN_to_nat, take_app, be_num_bytes.
  destruct (N.ltb_spec n 56); [lia|]. cbn [orb].
  pose proof (be_bytes_no_lead0 n) as H0. destruct (be_bytes n) as [|x l] eqn:E.
  { apply be_bytes_nil in E. lia. }
  cbn [app]. simpl in H0. destruct (N.eqb_spec x 0); [done|]. done.
Qed.

Lemma readKind_bwd b k ts cs :
  is_bytes b -> readKind b = inr (k, ts, cs) ->
  exists hdr c r, b = hdr ++ c ++ r /\ lenN hdr = ts /\ lenN c = cs /\ item_shape k hdr c /\ cs < two64.
Proof.
  intros Hb Hr. destruct b as [|x rest]; [done|]. unfold readKind in Hr.
  apply is_bytes_cons in Hb as [Hx Hrest].
  assert (forall hdr rest' k' sz, x :: rest = hdr ++ rest' -> sz <= lenN rest' ->
     (forall c, lenN c = sz -> c = take (N.to_nat sz) rest' -> item_shape k' hdr c) -> sz < two64 ->
     exists h c r, x :: rest = h ++ c ++ r /\ lenN h = lenN hdr /\ lenN c = sz /\ item_shape k' h c /\ sz < two64) as Hgo.
  { intros hdr rest' k' sz Heq Hle Hsh H64. exists hdr, (take (N.to_nat sz) rest'), (drop (N.to_nat sz) rest').
    rewrite take_drop. assert (lenN (take (N.to_nat sz) rest') = sz) by (unfold lenN in *; rewrite take_length; lia).
    repeat split; try done. by apply Hsh. }
  assert (forall tag sm k', sm = tag - 55 -> tag < x -> x <= tag + 8 ->
    (match (match readSize rest (x - tag) with inl e => inl e | inr cs => inr (k', x - tag + 1, cs) end) with
     | inl e => inl e
     | inr (k, ts, cs) => if lenN (x :: rest) - ts <? cs then inl EValueTooLarge else inr (k, ts, cs)
     end) = inr (k, ts, cs) ->
    exists bs r, k = k' /\ rest = bs ++ r /\ x :: bs = rlp_head sm tag cs /\ ts = lenN (x :: bs) /\ cs <= lenN r /\ 56 <= cs < two64) as Hlong.
  { intros tag sm k' -> Ht1 Ht2 Hq. destruct (readSize rest (x - tag)) as [e|v] eqn:Hrs; [done|].
    assert (0 < x - tag <= 8) as Hrange by lia.
    destruct (readSize_bwd _ _ _ Hrest Hrange Hrs) as (bs & r & Hbs & Hlen & H0 & Hv & Hr56).
    destruct (N.ltb_spec (lenN (x :: rest) - (x - tag + 1)) v) as [|Hle]; [done|].
    injection Hq as <- <- <-. exists bs, r. split; [done|]. split; [done|].
    subst rest. apply is_bytes_app in Hrest as [Hbb _].
    split.
    { rewrite Hv. rewrite <- long_head; [|done|done|lia]. f_equal. lia. }
    split; [rewrite lenN_cons; lia|]. split; [|done].
    rewrite lenN_cons, lenN_app in Hle. lia. }
  destruct (N.ltb_spec x 0x80).
  { destruct (N.ltb_spec (lenN (x :: rest) - 0) 1) as [|Hle]; [done|]. injection Hr as <- <- <-.
    destruct (Hgo [] (x :: rest) KByte 1) as (h & c & r & ?); [done|lia| |done|exists h, c, r; done].
    intros c _ ->. cbn. split; [done|]. exists x. done. }
  destruct (N.ltb_spec x 0xB8).
  { destruct (_ && _) eqn:Hcond; [done|].
    destruct (N.ltb_spec (lenN (x :: rest) - 1) (x - 0x80)) as [|Hle]; [done|]. injection Hr as <- <- <-.
    rewrite lenN_cons in Hle.
    destruct (Hgo [x] rest KString (x - 0x80)) as (h & c & r & ?); [done|lia| |unfold two64; lia|exists h, c, r; done].
    intros c Hlc ->. cbn. rewrite Hlc. split.
    - rewrite rlp_head_short by lia. f_equal. lia.
    - intros y Hy. rewrite Hy in Hlc. change (lenN [y]) with 1 in Hlc. rewrite <- Hlc in Hy, Hcond.
      destruct rest as [|z rest]; [done|]. change (N.to_nat 1) with 1%nat in Hy. cbn in Hy. injection Hy as <-.
      cbn in Hcond. lia. }
  destruct (N.ltb_spec x 0xC0).
  { apply (Hlong 0xB7 0x80 KString) in Hr; [|done|lia|lia].
    destruct Hr as (bs & r & -> & Hrr & Hh & -> & Hle & Hsz).
    destruct (Hgo (x :: bs) r KString cs) as (h & c & r' & Hg); [by rewrite Hrr|done| |lia|].
    - intros c Hlc _. cbn. rewrite Hlc. split; [done|]. intros y ->. change (lenN [y]) with 1 in Hlc. lia.
    - exists h, c, r'. done. }
  destruct (N.ltb_spec x 0xF8).
  { destruct (N.ltb_spec (lenN (x :: rest) - 1) (x - 0xC0)) as [|Hle]; [done|]. injection Hr as <- <- <-.
    rewrite lenN_cons in Hle.
    destruct (Hgo [x] rest KList (x - 0xC0)) as (h & c & r & ?); [done|lia| |unfold two64; lia|exists h, c, r; done].
    intros c Hlc ->. cbn. rewrite Hlc. rewrite rlp_head_short by lia. f_equal. lia. }
  apply (Hlong 0xF7 0xC0 KList) in Hr; [|done|lia|lia].
  destruct Hr as (bs & r & -> & Hrr & Hh & -> & Hle & Hsz).
  destruct (Hgo (x :: bs) r KList cs) as (h & c & r' & Hg); [by rewrite Hrr|done| |lia|].
  - intros c Hlc _. cbn. rewrite Hlc. done.
  - exists h, c, r'. done.
Qed.

Lemma readKind_fwd k hdr c r :
  item_shape k hdr c -> lenN c < two64 -> readKind (hdr ++ c ++ r) = inr (k, lenN hdr, lenN c).
Proof.
  intros Hsh Hc. pose proof (lenN_be_bytes_le8 _ Hc) as H8. pose proof (lenN_be_bytes_pos (lenN c)) as Hp.
  destruct k; cbn in Hsh.
  - destruct Hsh as (-> & x & -> & Hx). cbn [app]. unfold readKind.
    destruct (N.ltb_spec x 0x80); [|lia]. change (lenN [x]) with 1.
    destruct (N.ltb_spec (lenN (x :: r) - 0) 1) as [Hlt|]; [rewrite lenN_cons in Hlt; lia|]. done.
  - destruct Hsh as (-> & Hx). destruct (N.lt_ge_cases (lenN c) 56) as [Hs|Hs].
    + rewrite rlp_head_short by done. cbn [app]. unfold readKind. set (x := 0x80 + lenN c).
      destruct (N.ltb_spec x 0x80); [lia|]. destruct (N.ltb_spec x 0xB8); [|lia].
      replace (x - 0x80) with (lenN c) by lia.
      assert ((lenN c =? 1) && (match c ++ r with y :: _ => y <? 128 | [] => false end) = false) as ->.
      { destruct c as [|y [|z c]]; [done| |].
        - specialize (Hx y eq_refl). cbn [app]. destruct (N.ltb_spec y 128); [lia|]. apply andb_false_r.
        - destruct (N.eqb_spec (lenN (y :: z :: c)) 1) as [E|_]; [rewrite !lenN_cons in E; lia|done]. }
      destruct (N.ltb_spec (lenN (x :: c ++ r) - 1) (lenN c)) as [Hlt|]; [rewrite lenN_cons, lenN_app in Hlt; lia|]. done.
    + rewrite rlp_head_long_inv by done. cbn [app]. unfold readKind. set (x := 0xB7 + _).
      destruct (N.ltb_spec x 0x80); [lia|]. destruct (N.ltb_spec x 0xB8); [lia|].
      destruct (N.ltb_spec x 0xC0); [|lia].
      replace (x - 0xB7) with (lenN (be_bytes (lenN c))) by lia.
      rewrite readSize_fwd by done.
      destruct (N.ltb_spec (lenN (x :: be_bytes (lenN c) ++ c ++ r) - (lenN (be_bytes (lenN c)) + 1)) (lenN c)) as [Hlt|].
      { rewrite lenN_cons, !lenN_app in Hlt; lia. }
      rewrite lenN_cons. f_equal. f_equal. f_equal. lia.
  - subst hdr. destruct (N.lt_ge_cases (lenN c) 56) as [Hs|Hs].
    + rewrite rlp_head_short by done. cbn [app]. unfold readKind. set (x := 0xC0 + lenN c).
      destruct (N.ltb_spec x 0x80); [lia|]. destruct (N.ltb_spec x 0xB8); [lia|].
      destruct (N.ltb_spec x 0xC0); [lia|]. destruct (N.ltb_spec x 0xF8); [|lia].
      replace (x - 0xC0) with (lenN c) by lia.
      destruct (N.ltb_spec (lenN (x :: c ++ r) - 1) (lenN c)) as [Hlt|]; [rewrite lenN_cons, lenN_app in Hlt; lia|]. done.
    + rewrite rlp_head_long_inv by done. cbn [app]. unfold readKind. set (x := 0xF7 + _).
      destruct (N.ltb_spec x 0x80); [lia|]. destruct (N.ltb_spec x 0xB8); [lia|].
      destruct (N.ltb_spec x 0xC0); [lia|]. destruct (N.ltb_spec x 0xF8); [lia|].
      replace (x - 0xF7) with (lenN (be_bytes (lenN c))) by lia.
      rewrite readSize_fwd by done.
      destruct (N.ltb_spec (lenN (x :: be_bytes (lenN c) ++ c ++ r) - (lenN (be_bytes (lenN c)) + 1)) (lenN c)) as [Hlt|].
      { rewrite lenN_cons, !lenN_app in Hlt; lia. }
      rewrite lenN_cons. f_equal. f_equal. f_equal. lia.
Qed.

Lemma subslice_mid (h c r : list N) : subslice (h ++ c ++ r) (lenN h) (lenN h + lenN c) = c.
Proof.
  unfold subslice. rewrite lenN_to_nat, drop_app.
  replace (N.to_nat (lenN h + lenN c - lenN h)) with (length c) by (unfold lenN; lia).
  apply take_app.
Qed.
Lemma drop_mid (h c r : list N) : drop (N.to_nat (lenN h + lenN c)) (h ++ c ++ r) = r.
Proof.
  rewrite app_assoc. replace (N.to_nat (lenN h + lenN c)) with (length (h ++ c)) by (unfold lenN; rewrite app_length; lia).
  apply drop_app.
Qed.

Lemma Split_bwd b k c r :
  is_bytes b -> Split b = inr (k, c, r) ->
  exists hdr, b = hdr ++ c ++ r /\ item_shape k hdr c /\ lenN c < two64.
Proof.
  intros Hb. unfold Split. destruct (readKind b) as [e|[[k' ts] cs]] eqn:Hr; [done|].
  destruct (readKind_bwd _ _ _ _ Hb Hr) as (hdr & c' & r' & -> & <- & <- & Hsh & H64).
  intros [= <- <- <-]. rewrite subslice_mid, drop_mid. eauto.
Qed.

Lemma Split_fwd k hdr c r :
  item_shape k hdr c -> lenN c < two64 -> Split (hdr ++ c ++ r) = inr (k, c, r).
Proof.
  intros Hsh Hc. unfold Split. rewrite (readKind_fwd k hdr c r Hsh Hc), subslice_mid, drop_mid. done.
Qed.

Definition str_kind (bs : list N) : kind :=
  match bs with [b] => if b <? 128 then KByte else KString | _ => KString end.

Lemma item_shape_of_str bs : exists hdr, item_shape (str_kind bs) hdr bs /\ rlp (Str bs) = hdr ++ bs.
Proof.
  destruct bs as [|b [|b2 bs]].
  - eexists. split; [split; [reflexivity|intros ? [=]]|]. done.
  - cbn. destruct (N.ltb_spec b 128).
    + exists []. split; [|done]. cbn. eauto.
    + eexists. split; [split; [reflexivity|intros ? [= <-]; done]|]. done.
  - eexists. split; [split; [reflexivity|intros ? [=]]|]. done.
Qed.

Lemma Split_str bs r : lenN bs < two64 -> Split (rlp (Str bs) ++ r) = inr (str_kind bs, bs, r).
Proof.
  intros Hl. destruct (item_shape_of_str bs) as (hdr & Hsh & ->). rewrite <- app_assoc. by apply Split_fwd.
Qed.

Lemma Split_lst xs r : lenN (rlps xs) < two64 -> Split (rlp (Lst xs) ++ r) = inr (KList, rlps xs, r).
Proof. intros Hl. rewrite rlp_Lst, <- app_assoc. by apply Split_fwd. Qed.

Lemma rlp_shape v : lenN (rlp v) < two64 ->
  exists k hdr c, item_shape k hdr c /\ rlp v = hdr ++ c /\ lenN c < two64.
Proof.
  intros Hl. destruct v as [bs|xs].
  - destruct (item_shape_of_str bs) as (hdr & Hsh & Heq). exists (str_kind bs), hdr, bs.
    rewrite Heq, lenN_app in Hl. split; [done|]. split; [done|lia].
  - exists KList, (rlp_head 0xC0 0xF7 (lenN (rlps xs))), (rlps xs). rewrite rlp_Lst in *.
    rewrite lenN_app in Hl. split; [done|]. split; [done|lia].
Qed.

Lemma shape_pos k hdr c : item_shape k hdr c -> (0 < length (hdr ++ c))%nat.
Proof.
  destruct k; cbn.
  - intros (-> & x & -> & _). cbn. lia.
  - intros (-> & _). pose proof (rlp_head_len_pos 0x80 0xB7 (lenN c)). unfold lenN at 1 in H. rewrite app_length. lia.
  - intros ->. pose proof (rlp_head_len_pos 0xC0 0xF7 (lenN c)). unfold lenN at 1 in H. rewrite app_length. lia.
Qed.

(* ---------------------------------------------------------- CountValues *)
Definition is_item (p : list N) : Prop := exists k hdr c, item_shape k hdr c /\ p = hdr ++ c /\ lenN c < two64.

Lemma is_item_readKind p r : is_item p ->
  exists k ts cs, readKind (p ++ r) = inr (k, ts, cs) /\ N.to_nat (ts + cs) = length p.
Proof.
  intros (k & hdr & c & Hsh & -> & Hc). exists k, (lenN hdr), (lenN c).
  rewrite <- app_assoc, (readKind_fwd k) by done. split; [done|]. rewrite app_length. unfold lenN. lia.
Qed.

Lemma is_item_pos p : is_item p -> (0 < length p)%nat.
Proof. intros (k & hdr & c & Hsh & -> & _). by eapply shape_pos. Qed.

Lemma readKind_is_item b k ts cs : is_bytes b -> readKind b = inr (k, ts, cs) ->
  is_item (take (N.to_nat (ts + cs)) b) /\ N.to_nat (ts + cs) = length (take (N.to_nat (ts + cs)) b).
Proof.
  intros Hb Hr. destruct (readKind_bwd _ _ _ _ Hb Hr) as (hdr & c & r & -> & <- & <- & Hsh & H64).
  rewrite app_assoc. replace (N.to_nat (lenN hdr + lenN c)) with (length (hdr ++ c)) by (unfold lenN; rewrite app_length; lia).
  rewrite take_app. split; [|done]. exists k, hdr, c. done.
Qed.

Lemma count_values_fwd ps : forall f i, Forall is_item ps -> (length (concat ps) <= f)%nat ->
  count_values f (concat ps) i = inr (i + lenN ps).
Proof.
  induction ps as [|p ps IH]; intros f i Hps Hf.
  - destruct f; cbn; f_equal; unfold lenN; cbn; lia.
  - inversion Hps as [|? ? Hp Hps']; subst. cbn [concat] in *. rewrite app_length in Hf.
    pose proof (is_item_pos p Hp) as Hpos. destruct f as [|f]; [lia|].
    destruct (is_item_readKind p (concat ps) Hp) as (k & ts & cs & Hr & Hlen).
    cbn [count_values]. rewrite Hr, Hlen, drop_app. destruct (p ++ concat ps) eqn:E.
    { apply (f_equal length) in E. rewrite app_length in E. simpl in E. lia. }
    rewrite IH by (done || lia). rewrite lenN_cons. f_equal. lia.
Qed.

Lemma count_values_bwd f : forall b i n, is_bytes b -> count_values f b i = inr n ->
  exists ps, Forall is_item ps /\ b = concat ps /\ n = i + lenN ps.
Proof.
  induction f as [|f IH]; intros b i n Hb; cbn [count_values].
  - destruct b; [|done]. intros [= <-]. exists []. repeat split; [constructor|]. unfold lenN; cbn; lia.
  - destruct b as [|x b0] eqn:Eb.
    { intros [= <-]. exists []. repeat split; [constructor|]. unfold lenN; cbn; lia. }
    rewrite <- Eb in *. clear Eb. destruct (readKind b) as [e|[[k ts] cs]] eqn:Hr; [done|]. intros Hc.
    destruct (readKind_is_item _ _ _ _ Hb Hr) as [Hit _].
    apply IH in Hc; [|by apply is_bytes_drop]. destruct Hc as (ps & Hps & Hd & ->).
    exists (take (N.to_nat (ts + cs)) b :: ps). split; [by constructor|]. cbn [concat]. rewrite <- Hd, take_drop.
    split; [done|]. rewrite lenN_cons. lia.
Qed.

Lemma count_values_nofuel f : forall b i, is_bytes b -> (length b <= f)%nat -> count_values f b i <> inl EOutOfFuel.
Proof.
  assert (forall b, readKind b <> inl EOutOfFuel) as Hk.
  { intros [|x r]; [done|]. unfold readKind, readSize. repeat case_match; simplify_eq; done. }
  induction f as [|f IH]; intros b i Hb Hf; cbn [count_values].
  - destruct b; [done|]. simpl in Hf. lia.
  - destruct b as [|x b0] eqn:Eb; [done|]. rewrite <- Eb in *.
    destruct (readKind b) as [e|[[k ts] cs]] eqn:Hr.
    { intros [= ->]. by apply Hk in Hr. }
    destruct (readKind_is_item _ _ _ _ Hb Hr) as [Hit Hl]. apply is_item_pos in Hit.
    apply IH; [by apply is_bytes_drop|]. rewrite drop_length. lia.
Qed.

Lemma rlps_concat xs : rlps xs = concat (map rlp xs).
Proof. induction xs as [|x xs IH]; [done|]. cbn. rewrite IH. done. Qed.

Lemma rlps_items xs : lenN (rlps xs) < two64 -> Forall is_item (map rlp xs).
Proof.
  induction xs as [|x xs IH]; [constructor|]. cbn [rlps map]. rewrite lenN_app. intros Hl.
  constructor; [|apply IH; lia]. apply rlp_shape. lia.
Qed.

Lemma CountValues_rlps xs : lenN (rlps xs) < two64 -> CountValues (rlps xs) = inr (lenN xs).
Proof.
  intros Hl. unfold CountValues. rewrite rlps_concat.
  rewrite count_values_fwd; [|by apply rlps_items|lia]. unfold lenN. rewrite map_length. done.
Qed.

(* ---------------------------------------------------------- iterator *)
Lemma it_collect_S n it : it_collect (S n) it =
  match it_Next it with
  | (false, _) => Some []
  | (true, it') => match it_collect n it' with None => None | Some vs => Some (it_next it' :: vs) end
  end.
Proof. reflexivity. Qed.

Lemma it_collect_fwd ps : forall e nx, Forall is_item ps ->
  it_collect (S (length ps)) (ListIter (concat ps) nx e) = Some ps.
Proof.
  induction ps as [|p ps IH]; intros e nx Hps; [done|].
  inversion Hps as [|? ? Hp Hps']; subst. change (length (p :: ps)) with (S (length ps)). cbn [concat]. rewrite it_collect_S. unfold it_Next. cbn [it_data].
  destruct (is_item_readKind p (concat ps) Hp) as (k & ts & cs & Hr & Hlen).
  pose proof (is_item_pos p Hp) as Hpos.
  destruct (p ++ concat ps) as [|x0 l0] eqn:E.
  { apply (f_equal length) in E. rewrite app_length in E. simpl in E. lia. }
  rewrite <- E in *. rewrite Hr, Hlen, drop_app, take_app. rewrite (IH None p Hps'). done.
Qed.

Lemma it_stuck d e0 : d <> [] -> readKind d = inl e0 -> forall m nx e, it_collect m (ListIter d nx e) = None.
Proof.
  intros Hd Hr. induction m as [|m IHm]; intros nx e; [done|]. rewrite it_collect_S. unfold it_Next; cbn [it_data].
  destruct d as [|y d1]; [done|]. rewrite Hr. rewrite drop_0. rewrite IHm. done.
Qed.

Lemma it_collect_bwd n : forall d nx e vs, is_bytes d ->
  it_collect n (ListIter d nx e) = Some vs -> Forall is_item vs /\ d = concat vs.
Proof.
  induction n as [|n IH]; intros d nx e vs Hd; [done|]. rewrite it_collect_S. unfold it_Next; cbn [it_data].
  destruct d as [|x d0] eqn:Ed.
  - intros [= <-]. split; [constructor|done].
  - assert (d <> []) as Hdn by (by rewrite Ed). rewrite <- Ed in *. clear Ed. destruct (readKind d) as [er|[[k ts] cs]] eqn:Hr.
    + rewrite drop_0, (it_stuck d er) by done. done.
    + destruct (readKind_is_item _ _ _ _ Hd Hr) as [Hit _].
      destruct (it_collect n _) as [vs'|] eqn:Hc; [|done]. intros [= <-]. cbn [it_next].
      apply IH in Hc; [|by apply is_bytes_drop]. destruct Hc as [Hv Hcat].
      split; [by constructor|]. cbn [concat]. rewrite <- Hcat, take_drop. done.
Qed.

(* ---------------------------------------------------------- sizes *)
Lemma BytesSize_spec b : lenN b < two64 -> BytesSize b = lenN (rlp (Str b)).
Proof.
  intros Hl. destruct b as [|x [|y b]]; [done| |].
  - cbn. destruct (N.leb_spec x 0x7f), (N.ltb_spec x 128); try lia; done.
  - unfold BytesSize. cbn [rlp]. rewrite lenN_app, <- headsize_spec by done. done.
Qed.
Lemma ListSize_spec xs : lenN (rlps xs) < two64 -> ListSize (lenN (rlps xs)) = lenN (rlp (Lst xs)).
Proof. intros Hl. rewrite rlp_Lst, lenN_app, <- headsize_spec by done. done. Qed.

Lemma be_bytes_small v : 0 < v < 256 -> be_bytes v = [v].
Proof.
  intros Hv. rewrite (be_bytes_fixed 0) by (change (256 ^ N.of_nat 0) with 1; change (256 ^ N.of_nat 1) with 256; lia).
  cbn [be_fixed app]. rewrite N.mod_small by lia. done.
Qed.

Lemma rlp_nat_0 : rlp_nat 0 = [0x80]. Proof. reflexivity. Qed.
Lemma rlp_nat_small v : 0 < v < 128 -> rlp_nat v = [v].
Proof. intros Hv. rewrite rlp_nat_eq, be_bytes_small by lia. cbn. destruct (N.ltb_spec v 128); [done|lia]. Qed.
Lemma rlp_nat_big v : 128 <= v -> rlp_nat v = rlp_head 0x80 0xB7 (lenN (be_bytes v)) ++ be_bytes v.
Proof.
  intros Hv. rewrite rlp_nat_eq, str_hdr; [done|]. intros b Hb.
  rewrite <- (be_num_bytes v), Hb in Hv. unfold be_num in Hv; cbn in Hv. lia.
Qed.
Lemma rlp_nat_u64 v : 128 <= v < two64 -> rlp_nat v = (0x80 + lenN (be_bytes v)) :: be_bytes v.
Proof.
  intros Hv. rewrite rlp_nat_big by lia. pose proof (lenN_be_bytes_le8 v). rewrite rlp_head_short by lia. done.
Qed.

Lemma IntSize_spec x : x < two64 -> IntSize x = lenN (rlp_nat x).
Proof.
  intros Hx. unfold IntSize. destruct (N.ltb_spec x 0x80).
  - destruct (N.eq_dec x 0) as [->|]; [done|]. rewrite rlp_nat_small by lia. done.
  - rewrite rlp_nat_u64 by lia. rewrite intsize_spec by lia. rewrite lenN_cons. done.
Qed.

(* ---------------------------------------------------------- uint64 writers *)
Lemma writeUint64_spec b i : i < two64 -> writes b (writeUint64 b i) (rlp_nat i).
Proof.
  intros Hi. unfold writeUint64, byte_of. destruct (N.eqb_spec i 0) as [->|H0]; [apply writes_append|].
  destruct (N.ltb_spec i 128).
  - rewrite N.mod_small by lia. rewrite rlp_nat_small by lia. apply writes_append.
  - rewrite putint_be by lia. rewrite rlp_nat_u64 by lia. apply writes_append.
Qed.

Lemma AppendUint64_spec b i : i < two64 -> AppendUint64 b i = b ++ rlp_nat i.
Proof.
  intros Hi. unfold AppendUint64. destruct (N.eqb_spec i 0) as [->|H0]; [done|].
  destruct (N.ltb_spec i 128).
  { unfold byte_of. rewrite N.mod_small by lia. rewrite rlp_nat_small by lia. done. }
  rewrite rlp_nat_u64 by lia. rewrite <- putint_be by lia. unfold putint.
  destruct (i <? 2 ^ 8); [done|]. destruct (i <? 2 ^ 16); [done|]. destruct (i <? 2 ^ 24); [done|].
  destruct (i <? 2 ^ 32); [done|]. destruct (i <? 2 ^ 40); [done|]. destruct (i <? 2 ^ 48); [done|].
  destruct (i <? 2 ^ 56); done.
Qed.

Lemma SplitUint64_fwd x r : x < two64 -> SplitUint64 (rlp_nat x ++ r) = inr (x, r).
Proof.
  intros Hx. unfold SplitUint64, SplitString. rewrite rlp_nat_eq.
  pose proof (lenN_be_bytes_le8 x Hx) as H8.
  rewrite Split_str by (unfold two64; lia).
  assert (match str_kind (be_bytes x) with KList => False | _ => True end) as Hk.
  { unfold str_kind. destruct (be_bytes x) as [|c0 [|]]; [done| |done]. destruct (c0 <? 128); done. }
  assert (be_bytes x = [] \/ (exists c, be_bytes x = [c]) \/ 2 <= lenN (be_bytes x)) as Hcases.
  { destruct (be_bytes x) as [|c [|]]; [by left|right; left; eauto|right; right; rewrite !lenN_cons; lia]. }
  assert (match be_bytes x with
      | [] => inr (0, r)
      | [c] => if c =? 0 then inl ECanonInt else inr (c, r)
      | _ =>
          if 8 <? lenN (be_bytes x) then inl EUintOverflow
          else match readSize (be_bytes x) (lenN (be_bytes x)) with
               | inl _ => inl ECanonInt
               | inr x => inr (x, r)
               end
      end = inr (x, r)) as Hm.
  { destruct Hcases as [E|[[c E]|H2]].
    - rewrite E. apply be_bytes_nil in E. subst. done.
    - rewrite E. pose proof (be_bytes_hd x c [] E). destruct (N.eqb_spec c 0); [done|].
      rewrite <- (be_num_bytes x), E. unfold be_num; cbn. done.
    - destruct (N.ltb_spec 8 (lenN (be_bytes x))); [lia|].
      assert (256 <= x) as Hx56.
      { destruct (N.lt_ge_cases x 256) as [Hlt|]; [|done]. exfalso.
        pose proof (be_bytes_length_le x 1 Hlt) as Hl1. unfold lenN in H2. lia. }
      pose proof (readSize_fwd x [] ltac:(lia)) as Hrs. rewrite app_nil_r in Hrs. rewrite Hrs.
      destruct (be_bytes x) as [|c [|c2 l]]; [rewrite lenN_nil in H2; lia|rewrite lenN_cons, lenN_nil in H2; lia|done]. }
  destruct (str_kind (be_bytes x)); [exact Hm|exact Hm|done].
Qed.

Lemma SplitUint64_bwd b x r : is_bytes b -> SplitUint64 b = inr (x, r) -> b = rlp_nat x ++ r /\ x < two64.
Proof.
  intros Hb. unfold SplitUint64, SplitString. destruct (Split b) as [e|[[k c] r']] eqn:Hs; [done|].
  destruct (Split_bwd _ _ _ _ Hb Hs) as (hdr & -> & Hsh & H64).
  apply is_bytes_app in Hb as [_ Hb]. apply is_bytes_app in Hb as [Hc _].
  assert (k = KList \/ k <> KList) as [->|Hk] by (destruct k; auto); [done|].
  pose proof (item_shape_str _ _ _ Hsh Hk) as Hstr.
  assert (forall l, match k with KList => inl EExpectedString | _ => inr (l, r') end = inr (l, r') :> rerr + (list N * list N)) as Hkm
    by (destruct k; done).
  replace (match k with KByte => inr (c, r') | KString => inr (c, r') | KList => inl EExpectedString end)
    with (inr (c, r') : rerr + (list N * list N)) by (destruct k; done).
  destruct c as [|c0 [|c1 c]].
  - intros [= <- <-]. rewrite app_assoc, Hstr. done.
  - destruct (N.eqb_spec c0 0); [done|]. intros [= <- <-]. rewrite app_assoc, Hstr.
    apply is_bytes_cons in Hc as [Hc _]. rewrite rlp_nat_eq, be_bytes_small by lia. split; [done|unfold two64; lia].
  - set (cc := c0 :: c1 :: c) in *. destruct (N.ltb_spec 8 (lenN cc)); [done|].
    destruct (readSize cc (lenN cc)) as [e|v] eqn:Hrs; [done|]. intros [= <- <-].
    assert (0 < lenN cc <= 8) as Hrange by (split; [unfold cc; rewrite lenN_cons; lia|done]).
    destruct (readSize_bwd _ _ _ Hc Hrange Hrs) as (bs & r & Hcc & Hl & H0 & Hv & Hr).
    assert (r = []) as ->.
    { rewrite Hcc, lenN_app in Hl. apply lenN_0. lia. }
    rewrite app_nil_r in Hcc. subst bs. rewrite app_assoc, Hstr, rlp_nat_eq, Hv, be_bytes_num by done. split; [done|lia].
Qed.

(* ---------------------------------------------------------- big integer writer *)
Lemma bigint_len i : i <> 0 ->
  be_bytes i = be_fixed (N.to_nat ((N.size i + 7) / 8)) i /\ lenN (be_bytes i) = (N.size i + 7) / 8.
Proof.
  intros Hi. pose proof (N.size_gt i) as Hlt.
  assert (0 < N.size i) as Hs. { destruct i; [done|]. cbn. lia. }
  assert (2 ^ (N.size i - 1) <= i) as Hge.
  { rewrite N.size_log2 by done. replace (N.succ (N.log2 i) - 1) with (N.log2 i) by lia. apply N.log2_spec. lia. }
  set (L := (N.size i + 7) / 8). assert (0 < L) as HL by (unfold L; lia).
  assert (be_bytes i = be_fixed (N.to_nat L) i) as Hb.
  { replace (N.to_nat L) with (S (N.to_nat (L - 1))) by lia. apply be_bytes_fixed. change 256 with (2 ^ 8).
    rewrite <- !N.pow_mul_r. split.
    - eapply N.le_trans; [|exact Hge]. apply N.pow_le_mono_r; [lia|]. unfold L in *. lia.
    - eapply N.lt_le_trans; [exact Hlt|]. apply N.pow_le_mono_r; [lia|]. unfold L in *. lia. }
  split; [done|]. rewrite Hb. unfold lenN. rewrite be_fixed_length. lia.
Qed.

Lemma writeBigInt_spec b i : lenN (be_bytes i) < two64 -> writes b (writeBigInt b i) (rlp_nat i).
Proof.
  intros Hl. unfold writeBigInt. destruct (N.leb_spec (N.size i) 64) as [Hs|Hs].
  - apply writeUint64_spec. pose proof (N.size_gt i) as Hlt. eapply N.lt_le_trans; [exact Hlt|].
    change two64 with (2 ^ 64). apply N.pow_le_mono_r; lia.
  - assert (i <> 0) as Hi by (intros ->; cbn in Hs; lia).
    destruct (bigint_len i Hi) as [Hb HL].
    replace (N.shiftr (N.ldiff (N.size i + 7) 7) 3) with ((N.size i + 7) / 8).
    2:{ change 7 with (N.ones 3) at 3. rewrite N.ldiff_ones_r, N.shiftr_shiftl_l by lia.
        rewrite N.sub_diag, N.shiftl_0_r, N.shiftr_div_pow2. done. }
    rewrite <- Hb, <- HL. rewrite rlp_nat_big.
    2:{ destruct (N.lt_ge_cases i 128) as [Hlt|]; [|done]. exfalso.
        pose proof (be_bytes_length_le i 1 ltac:(change (256 ^ N.of_nat 1) with 256; lia)) as H1.
        unfold lenN in HL. lia. }
    eapply writes_trans; [apply encodeStringHeader_spec; done|apply writes_append].
Qed.
