(** Proofs about the RLP model. *)
From Verif Require Export RlpModel.

(* ---------------------------------------------------------- item induction *)
Section item_ind.
  Variable P : item -> Prop.
  Hypothesis HS : forall bs, P (Str bs).
  Hypothesis HL : forall xs, Forall P xs -> P (Lst xs).
  Fixpoint item_rect' (v : item) : P v :=
    match v with
    | Str bs => HS bs
    | Lst xs => HL xs ((fix go (l : list item) : Forall P l :=
        match l with
        | [] => Forall_nil_2 P
        | x :: l' => Forall_cons_2 P x l' (item_rect' x) (go l')
        end) xs)
    end.
End item_ind.

Lemma rlp_Lst xs : rlp (Lst xs) = rlp_head 0xC0 0xF7 (lenN (rlps xs)) ++ rlps xs.
Proof. reflexivity. Qed.

Lemma item_ok_Lst xs : item_ok (Lst xs) <-> items_ok xs.
Proof.
  unfold items_ok. induction xs as [|x xs IH]; [split; [constructor|done]|].
  rewrite Forall_cons, <- IH. done.
Qed.

Lemma rlps_app l1 l2 : rlps (l1 ++ l2) = rlps l1 ++ rlps l2.
Proof. induction l1 as [|x l1 IH]; [done|]. simpl. rewrite IH, app_assoc. done. Qed.

(* ---------------------------------------------------------- integers *)

Lemma shiftr_byte i k : N.shiftr i k = i / 2 ^ k. Proof. apply N.shiftr_div_pow2. Qed.

Lemma putint_be i : 0 < i < two64 -> putint i = be_bytes i.
Proof.
  intros [Hp Hi]. unfold two64 in Hi. unfold putint, byte_of.
  repeat match goal with
  | |- context [N.ltb i ?c] =>
      let k := eval vm_compute in c in
      change (N.ltb i c) with (N.ltb i k); destruct (N.ltb_spec i k)
  end; rewrite ?shiftr_byte; symmetry;
  [ rewrite (be_bytes_fixed 0) | rewrite (be_bytes_fixed 1) | rewrite (be_bytes_fixed 2)
  | rewrite (be_bytes_fixed 3) | rewrite (be_bytes_fixed 4) | rewrite (be_bytes_fixed 5)
  | rewrite (be_bytes_fixed 6) | rewrite (be_bytes_fixed 7) ];
  try (match goal with |- 256 ^ ?a <= _ < 256 ^ ?b =>
         let x := eval vm_compute in (256 ^ a) in let y := eval vm_compute in (256 ^ b) in
         change (256 ^ a) with x; change (256 ^ b) with y; lia end);
  cbn [be_fixed app]; rewrite ?N.div_div by lia; reflexivity.
Qed.

Lemma putint_zero : putint 0 = [0]. Proof. reflexivity. Qed.

Lemma be_bytes_div n : n <> 0 -> be_bytes n = be_bytes (n / 256) ++ [n mod 256].
Proof.
  intros Hn. rewrite <- (be_bytes_num (be_bytes (n / 256) ++ [n mod 256])).
  - rewrite be_num_snoc, be_num_bytes. f_equal. lia.
  - apply is_bytes_app; split; [apply be_bytes_bytes|].
    apply is_bytes_cons; split; [apply N.mod_lt; lia|apply is_bytes_nil].
  - destruct (be_bytes (n / 256)) as [|b l] eqn:Hq.
    + simpl. apply be_bytes_nil in Hq. lia.
    + simpl. eapply be_bytes_hd; exact Hq.
Qed.

Lemma intsize_loop_spec f i size :
  0 < i -> i < 256 ^ N.of_nat f ->
  intsize_loop f i size = size + lenN (be_bytes i) - 1.
Proof.
  revert i size; induction f as [|f IH]; intros i size Hp Hi.
  - change (256 ^ N.of_nat 0) with 1 in Hi. lia.
  - cbn [intsize_loop]. rewrite shiftr_byte. change (2 ^ 8) with 256.
    rewrite (be_bytes_div i) by lia. rewrite lenN_app.
    change (lenN [i mod 256]) with 1.
    destruct (N.eqb_spec (i / 256) 0) as [Hz|Hz].
    + rewrite Hz, be_bytes_0, lenN_nil. lia.
    + rewrite IH.
      * lia.
      * lia.
      * replace (N.of_nat (S f)) with (1 + N.of_nat f) in Hi by lia.
        rewrite N.pow_add_r in Hi. change (256 ^ 1) with 256 in Hi. lia.
Qed.

Lemma intsize_spec i : 0 < i < two64 -> intsize i = lenN (be_bytes i).
Proof.
  intros [Hp Hi]. unfold intsize. rewrite intsize_loop_spec; [lia|done|].
  change (256 ^ N.of_nat 8) with two64. done.
Qed.

Lemma lenN_be_bytes_pos n : 0 < n -> 0 < lenN (be_bytes n).
Proof. intros Hn. pose proof (be_bytes_length_pos n). unfold lenN. lia. Qed.

Lemma lenN_be_bytes_le8 n : n < two64 -> lenN (be_bytes n) <= 8.
Proof. intros Hn. pose proof (be_bytes_length_le n 8 Hn). unfold lenN. lia. Qed.

Lemma puthead_spec sm lg n : n < two64 -> puthead sm lg n = rlp_head sm lg n.
Proof.
  intros Hn. unfold puthead, rlp_head. destruct (N.ltb_spec n 56); [done|].
  rewrite putint_be by lia. done.
Qed.

Lemma headsize_spec sm lg n : n < two64 -> headsize n = lenN (rlp_head sm lg n).
Proof.
  intros Hn. unfold headsize, rlp_head. destruct (N.ltb_spec n 56); [done|].
  rewrite intsize_spec by lia. rewrite lenN_cons. done.
Qed.

Lemma rlp_head_len_pos sm lg n : 0 < lenN (rlp_head sm lg n).
Proof. unfold rlp_head. destruct (n <? 56); rewrite lenN_cons; lia. Qed.

Lemma rlp_len_pos v : 0 < lenN (rlp v).
Proof.
  destruct v as [bs|xs].
  - cbn [rlp]. destruct bs as [|b [|b2 bs]].
    + rewrite lenN_app. pose proof (rlp_head_len_pos 0x80 0xB7 (lenN (@nil N))). lia.
    + destruct (b <? 128); [rewrite lenN_cons; lia|].
      rewrite lenN_app. rewrite lenN_cons. lia.
    + rewrite lenN_app. pose proof (rlp_head_len_pos 0x80 0xB7 (lenN (b :: b2 :: bs))). lia.
  - rewrite rlp_Lst, lenN_app.
    pose proof (rlp_head_len_pos 0xC0 0xF7 (lenN (rlps xs))). lia.
Qed.

(* ---------------------------------------------------------- encoder buffer *)

Definition shift_heads (n : N) (hs : list (N * N)) : list (N * N) :=
  map (fun h => (n + fst h, snd h)) hs.

Fixpoint heads_ok (p n : N) (hs : list (N * N)) : Prop :=
  match hs with
  | [] => p <= n
  | (off, _) :: hs' => p <= off /\ heads_ok off n hs'
  end.

Lemma heads_ok_le p n hs : heads_ok p n hs -> p <= n.
Proof. revert p; induction hs as [|[off sz] hs IH]; simpl; intros p; [done|]. intros [? Hh]. apply IH in Hh. lia. Qed.

Lemma heads_ok_weaken p n n' hs : heads_ok p n hs -> n <= n' -> heads_ok p n' hs.
Proof. revert p; induction hs as [|[off sz] hs IH]; simpl; intros p; [lia|]. intros [? Hh] ?. split; [done|]. by apply IH. Qed.

Lemma heads_ok_app p q n hs1 hs2 :
  heads_ok p q hs1 -> heads_ok q n hs2 -> heads_ok p n (hs1 ++ hs2).
Proof.
  revert p; induction hs1 as [|[off sz] hs1 IH]; simpl; intros p.
  - intros Hpq. destruct hs2 as [|[off sz] hs2]; simpl; [lia|]. intros [? ?]; split; [lia|done].
  - intros [? ?] ?. split; [done|]. by apply IH.
Qed.

Lemma heads_ok_shift k p n hs : heads_ok p n hs -> heads_ok (k + p) (k + n) (shift_heads k hs).
Proof. revert p; induction hs as [|[off sz] hs IH]; simpl; intros p; [lia|]. intros [? ?]; split; [lia|]. by apply IH. Qed.

Lemma drop_app_N (s1 s2 : list N) q :
  drop (N.to_nat (lenN s1 + q)) (s1 ++ s2) = drop (N.to_nat q) s2.
Proof.
  rewrite N2Nat.inj_add, lenN_to_nat. rewrite <- drop_drop, drop_app. done.
Qed.

Lemma copy_out_shift s1 s2 q hs :
  copy_out (s1 ++ s2) (lenN s1 + q) (shift_heads (lenN s1) hs) = copy_out s2 q hs.
Proof.
  revert q; induction hs as [|[off sz] hs IH]; intros q; cbn [shift_heads map copy_out fst snd].
  - apply drop_app_N.
  - rewrite drop_app_N.
    replace (lenN s1 + off - (lenN s1 + q)) with (off - q) by lia.
    f_equal. f_equal. rewrite <- N.add_assoc. rewrite IH. done.
Qed.

Lemma copy_out_app s1 s2 p hs1 hs2 :
  heads_ok p (lenN s1) hs1 -> heads_ok 0 (lenN s2) hs2 ->
  copy_out (s1 ++ s2) p (hs1 ++ shift_heads (lenN s1) hs2)
  = copy_out s1 p hs1 ++ copy_out s2 0 hs2.
Proof.
  revert p; induction hs1 as [|[off sz] hs1 IH]; intros p Hok1 Hok2; cbn [app copy_out heads_ok] in *.
  - destruct hs2 as [|[off sz] hs2]; cbn [shift_heads map copy_out fst snd].
    + rewrite drop_app_le; [done|]. unfold lenN in Hok1. lia.
    + cbn [heads_ok] in Hok2. destruct Hok2 as [_ Hok2]. pose proof (heads_ok_le _ _ _ Hok2) as Hle.
      rewrite drop_app_le by (unfold lenN in Hok1; lia).
      change (N.to_nat 0) with 0%nat. rewrite !drop_0, N.sub_0_r, N.add_0_l.
      rewrite (N.min_l off (lenN s2)) by lia.
      replace (N.to_nat (lenN s1 + off - p)) with (length (drop (N.to_nat p) s1) + N.to_nat off)%nat.
      2:{ rewrite drop_length. unfold lenN in *. lia. }
      rewrite take_add_app by done. rewrite <- !app_assoc. f_equal. f_equal. f_equal.
      rewrite N.min_l.
      2:{ rewrite lenN_app. unfold lenN in *. rewrite drop_length. lia. }
      replace (p + (lenN s1 + off - p)) with (lenN s1 + off) by lia.
      fold (shift_heads (lenN s1) hs2). apply copy_out_shift.
  - destruct Hok1 as [Hp Hok1]. pose proof (heads_ok_le _ _ _ Hok1) as Hle.
    rewrite drop_app_le by (unfold lenN in Hle; lia).
    rewrite take_app_le.
    2:{ rewrite drop_length. unfold lenN in *. lia. }
    rewrite <- !app_assoc. f_equal. f_equal.
    rewrite !N.min_l.
    2:{ unfold lenN in *. rewrite drop_length. lia. }
    2:{ rewrite lenN_app. unfold lenN in *. rewrite drop_length. lia. }
    replace (p + (off - p)) with off by lia. apply IH; done.
Qed.

(** What writing [out] does to a buffer: [s] and [hs] are added so that the
    added segment flushes to [out]. *)
Definition writes (b b' : encbuf) (out : list N) : Prop :=
  exists s hs,
    eb_str b' = eb_str b ++ s /\
    eb_heads b' = eb_heads b ++ shift_heads (lenN (eb_str b)) hs /\
    eb_lhsize b' + lenN s = eb_lhsize b + lenN out /\
    heads_ok 0 (lenN s) hs /\
    copy_out s 0 hs = out.

Lemma shift_heads_app k l1 l2 : shift_heads k (l1 ++ l2) = shift_heads k l1 ++ shift_heads k l2.
Proof. apply map_app. Qed.
Lemma shift_heads_shift k j l : shift_heads k (shift_heads j l) = shift_heads (k + j) l.
Proof. unfold shift_heads. rewrite map_map. apply map_ext. intros [? ?]; simpl. f_equal. lia. Qed.

Lemma writes_trans b1 b2 b3 o1 o2 : writes b1 b2 o1 -> writes b2 b3 o2 -> writes b1 b3 (o1 ++ o2).
Proof.
  intros (s1 & h1 & Hs1 & Hh1 & Hl1 & Hok1 & Ho1) (s2 & h2 & Hs2 & Hh2 & Hl2 & Hok2 & Ho2).
  exists (s1 ++ s2), (h1 ++ shift_heads (lenN s1) h2).
  split; [rewrite Hs2, Hs1, app_assoc; done|].
  split.
  { rewrite Hh2, Hh1, shift_heads_app, shift_heads_shift, app_assoc, Hs1, lenN_app. done. }
  split; [rewrite !lenN_app; lia|].
  split.
  { rewrite lenN_app. apply heads_ok_app with (q := lenN s1); [done|].
    replace (lenN s1) with (lenN s1 + 0) at 1 by lia. by apply heads_ok_shift. }
  rewrite copy_out_app by done. rewrite Ho1, Ho2. done.
Qed.

Lemma writes_append b bs : writes b (eb_append b bs) bs.
Proof.
  exists bs, []. unfold eb_append; simpl. rewrite app_nil_r. repeat split; try done; try lia.
Qed.

Lemma encodeStringHeader_spec b n : n < two64 -> writes b (encodeStringHeader b n) (rlp_head 0x80 0xB7 n).
Proof.
  intros Hn. unfold encodeStringHeader, rlp_head, byte_of. destruct (N.ltb_spec n 56).
  - rewrite N.mod_small by lia. apply writes_append.
  - rewrite putint_be by lia. apply writes_append.
Qed.

Lemma writeBytes_spec b bs : lenN bs < two64 -> writes b (writeBytes b bs) (rlp (Str bs)).
Proof.
  intros Hlen. destruct bs as [|x [|y bs]]; cbn [writeBytes rlp].
  - eapply writes_trans; [apply encodeStringHeader_spec; done|apply writes_append].
  - destruct (N.leb_spec x 0x7F), (N.ltb_spec x 128); try lia.
    + apply writes_append.
    + change (lenN [x]) with 1 in *.
      eapply writes_trans; [apply encodeStringHeader_spec; done|apply writes_append].
  - eapply writes_trans; [apply encodeStringHeader_spec; done|apply writes_append].
Qed.

Fixpoint write_items (l : list item) (b : encbuf) : encbuf :=
  match l with [] => b | x :: l' => write_items l' (write_item x b) end.

Lemma write_item_Lst x xs b :
  write_item (Lst (x :: xs)) b =
  let '(b1, idx) := eb_list b in eb_listEnd (write_items (x :: xs) b1) idx.
Proof. reflexivity. Qed.

Lemma writes_list b1 b2 b out :
  fst (eb_list b) = b1 -> writes b1 b2 out -> lenN out < two64 ->
  writes b (eb_listEnd b2 (length (eb_heads b))) (rlp_head 0xC0 0xF7 (lenN out) ++ out).
Proof.
  intros <- (s & hs & Hs & Hh & Hl & Hok & Ho) Hlen. unfold eb_list in *. cbn [fst eb_str eb_heads eb_lhsize] in *.
  unfold eb_listEnd. rewrite Hh.
  rewrite <- app_assoc. cbn [app]. rewrite list_lookup_middle by done.
  set (n := lenN out).
  assert (eb_size b2 - lenN (eb_str b) - eb_lhsize b = n) as Hsz.
  { unfold eb_size. rewrite Hs, lenN_app. lia. }
  rewrite Hsz.
  exists s, ((0, n) :: hs). cbn [eb_str eb_heads eb_lhsize].
  split; [done|]. split.
  { rewrite insert_app_r_alt by done. rewrite Nat.sub_diag. cbn. f_equal. f_equal. f_equal. lia. }
  split.
  { rewrite lenN_app, <- (headsize_spec 0xC0 0xF7 n) by done. unfold headsize.
    destruct (N.ltb_spec n 56); subst n; lia. }
  split.
  { cbn [heads_ok]. split; [lia|done]. }
  cbn [copy_out]. change (N.to_nat (0-0)) with 0%nat. rewrite take_0. cbn [app].
  rewrite puthead_spec by done. f_equal. etransitivity; [|exact Ho]. f_equal. lia.
Qed.

Lemma write_item_writes v : forall b, lenN (rlp v) < two64 -> writes b (write_item v b) (rlp v).
Proof.
  induction v as [bs|xs IH] using item_rect'; intros b Hlen.
  - apply writeBytes_spec. cbn [rlp] in Hlen.
    destruct bs as [|x [|y bs]]; [done| |].
    + change (lenN [x]) with 1. done.
    + rewrite lenN_app in Hlen. lia.
  - destruct xs as [|x xs]; [apply writes_append|].
    rewrite write_item_Lst. cbn [eb_list].
    rewrite rlp_Lst in *. rewrite lenN_app in Hlen.
    eapply writes_list; [reflexivity| |lia].
    cbn [fst eb_list]. generalize (EncBuf (eb_str b) (eb_heads b ++ [(lenN (eb_str b), eb_lhsize b)]) (eb_lhsize b)).
    assert (lenN (rlps (x :: xs)) < two64) as Hl by lia. clear Hlen. revert IH Hl.
    generalize (x :: xs) as ys. clear x xs b.
    induction ys as [|y ys IHy]; intros IH Hl b.
    + cbn [write_items rlps]. exists [], []. rewrite !app_nil_r. repeat split; try done; try lia.
    + inversion IH as [|? ? Hy Hys]; subst. cbn [write_items rlps] in *. rewrite lenN_app in Hl.
      eapply writes_trans; [apply Hy; lia|]. apply IHy; [done|lia].
Qed.

Lemma makeBytes_writes b out : writes eb_empty b out -> makeBytes b = out /\ eb_size b = lenN out.
Proof.
  intros (s & hs & Hs & Hh & Hl & Hok & Ho). cbn [eb_empty eb_str eb_heads eb_lhsize app] in *.
  assert (shift_heads (lenN (@nil N)) hs = hs) as Hsh.
  { rewrite lenN_nil. unfold shift_heads. rewrite <- (map_id hs) at 2. apply map_ext. intros [? ?]; done. }
  rewrite Hsh in Hh.
  assert (eb_size b = lenN out) as Hsz by (unfold eb_size; rewrite Hs; lia).
  split; [|done]. unfold makeBytes. rewrite Hsz, Hs, Hh, Ho, lenN_to_nat.
  rewrite Nat.sub_diag. cbn [replicate]. rewrite app_nil_r. apply take_ge. lia.
Qed.

Lemma encode_to_bytes_spec v : lenN (rlp v) < two64 -> encode_to_bytes v = rlp v.
Proof. intros Hl. eapply (makeBytes_writes _ _ (write_item_writes v eb_empty Hl)). Qed.

Lemma encode_size_spec v : lenN (rlp v) < two64 -> fst (encode_to_reader v) = lenN (rlp v).
Proof. intros Hl. eapply (makeBytes_writes _ _ (write_item_writes v eb_empty Hl)). Qed.

(* ---------------------------------------------------------- encReader *)

Definition er_rest (r : encreader) : list N :=
  match er_buf r with
  | None => []
  | Some b => default [] (er_piece r) ++ copy_out (eb_str b) (er_strpos r) (drop (er_lhpos r) (eb_heads b))
  end.

Definition er_ok (r : encreader) : Prop :=
  match er_buf r with
  | None => True
  | Some b => heads_ok (er_strpos r) (lenN (eb_str b)) (drop (er_lhpos r) (eb_heads b))
              /\ er_piece r <> Some []
  end.

Lemma puthead_nonnil sm lg n : puthead sm lg n <> [].
Proof. unfold puthead. destruct (n <? 56); done. Qed.

Lemma er_next_some r p r' :
  er_ok r -> er_next r = (Some p, r') ->
  p <> [] /\ er_rest r = p ++ er_rest (EncReader (er_buf r') (er_lhpos r') (er_strpos r') None)
  /\ er_ok (EncReader (er_buf r') (er_lhpos r') (er_strpos r') None) /\ er_buf r' = er_buf r
  /\ is_Some (er_buf r).
Proof.
  destruct r as [[b|] lh sp pc]; unfold er_next, er_ok, er_rest; cbn [er_buf er_lhpos er_strpos er_piece]; [|done].
  intros [Hok Hpc]. destruct pc as [p0|].
  { intros [= <- <-]. cbn. split; [congruence|]. repeat split; eauto; done. }
  destruct (eb_heads b !! lh) as [[off sz]|] eqn:Hlk.
  - rewrite (drop_S _ _ _ Hlk) in *. cbn [heads_ok] in Hok. destruct Hok as [Hso Hok].
    pose proof (heads_ok_le _ _ _ Hok) as Hle.
    destruct (N.ltb_spec 0 (off - sp)) as [Hlt|Hge]; intros [= <- <-]; cbn [er_buf er_lhpos er_strpos er_piece default app].
    + split.
      { intros Hn. apply (f_equal length) in Hn. rewrite take_length, drop_length in Hn. unfold lenN in Hle. simpl in Hn. lia. }
      split.
      { rewrite (drop_S _ _ _ Hlk). cbn [copy_out app].
        replace (sp + (off - sp)) with off by lia.
        rewrite N.sub_diag. change (N.to_nat 0) with 0%nat. rewrite take_0. cbn [app].
        do 3 f_equal. rewrite N.min_l by (unfold lenN in *; rewrite drop_length; lia). lia. }
      split; [|eauto].
      split; [|done]. rewrite (drop_S _ _ _ Hlk). cbn [heads_ok]. split; [lia|done].
    + split; [apply puthead_nonnil|]. cbn [copy_out].
      replace (off - sp) with 0 by lia. change (N.to_nat 0) with 0%nat. rewrite take_0. cbn [app].
      split; [do 2 f_equal; lia|].
      split; [|eauto]. split; [|done]. replace sp with off by lia. done.
  - assert (drop lh (eb_heads b) = []) as Hd.
    { apply drop_ge. by apply lookup_ge_None in Hlk. }
    rewrite Hd in *. cbn [heads_ok copy_out] in *.
    destruct (N.ltb_spec sp (lenN (eb_str b))) as [Hlt|Hge]; [|done].
    intros [= <- <-]. cbn [er_buf er_lhpos er_strpos er_piece default app]. rewrite Hd. cbn [copy_out heads_ok].
    split.
    { intros Hn. apply (f_equal length) in Hn. rewrite drop_length in Hn. unfold lenN in *. simpl in Hn. lia. }
    split; [|eauto using N.le_refl].
    rewrite (drop_ge _ (N.to_nat (lenN (eb_str b)))) by (unfold lenN; lia). rewrite app_nil_r. done.
Qed.

Lemma er_next_none r r' : er_ok r -> er_next r = (None, r') -> er_rest r = [] /\ r' = r.
Proof.
  destruct r as [[b|] lh sp pc]; unfold er_next, er_ok, er_rest; cbn [er_buf er_lhpos er_strpos er_piece].
  2:{ intros _ [= <-]. done. }
  intros [Hok Hpc]. destruct pc as [p0|]; [done|].
  destruct (eb_heads b !! lh) as [[off sz]|] eqn:Hlk.
  - destruct (0 <? off - sp); done.
  - assert (drop lh (eb_heads b) = []) as Hd.
    { apply drop_ge. by apply lookup_ge_None in Hlk. }
    rewrite Hd in *. cbn [heads_ok copy_out default app] in *.
    destruct (N.ltb_spec sp (lenN (eb_str b))) as [Hlt|Hge]; [done|].
    intros [= <-]. split; [|done]. apply drop_ge. unfold lenN in *. lia.
Qed.


(** Number of pieces still to come. *)
Definition er_meas (r : encreader) : nat :=
  match er_buf r with
  | None => 0%nat
  | Some b =>
      ((match er_piece r with Some _ => 1 | None => 0 end)
       + (2 * (length (eb_heads b) - er_lhpos r)
          - (match eb_heads b !! er_lhpos r with
             | Some (off, _) => if (0 <? off - er_strpos r)%N then 0 else 1
             | None => 0 end))
       + (if (er_strpos r <? lenN (eb_str b))%N then 1 else 0))%nat
  end.

Lemma er_next_meas r p r' :
  er_ok r -> er_next r = (Some p, r') ->
  (er_meas (EncReader (er_buf r') (er_lhpos r') (er_strpos r') None) < er_meas r)%nat.
Proof.
  destruct r as [[b|] lh sp pc]; unfold er_next, er_ok, er_meas; cbn [er_buf er_lhpos er_strpos er_piece]; [|done].
  intros [Hok Hpc]. destruct pc as [p0|].
  { intros [= <- <-]. cbn [er_buf er_lhpos er_strpos er_piece]. lia. }
  destruct (eb_heads b !! lh) as [[off sz]|] eqn:Hlk.
  - rewrite (drop_S _ _ _ Hlk) in *. cbn [heads_ok] in Hok. destruct Hok as [Hso Hok].
    pose proof (lookup_lt_Some _ _ _ Hlk) as Hlt0.
    pose proof (heads_ok_le _ _ _ Hok) as Hle.
    destruct (N.ltb_spec 0 (off - sp)) as [Hlt|Hge]; intros [= <- <-]; cbn [er_buf er_lhpos er_strpos er_piece].
    + rewrite Hlk. replace (off - (sp + (off - sp))) with 0 by lia. change (0 <? 0) with false. cbn [andb].
      destruct (N.ltb_spec sp (lenN (eb_str b))), (N.ltb_spec (sp + (off - sp)) (lenN (eb_str b))); lia.
    + destruct (eb_heads b !! S lh) as [[off' sz']|]; [destruct (0 <? off' - sp)|]; destruct (sp <? lenN (eb_str b)); lia.
  - destruct (N.ltb_spec sp (lenN (eb_str b))) as [Hlt|Hge]; [|done].
    intros [= <- <-]. cbn [er_buf er_lhpos er_strpos er_piece]. rewrite Hlk.
    rewrite N.ltb_irrefl. lia.
Qed.

Lemma er_fuel_meas r : (er_meas r < er_fuel r)%nat.
Proof.
  unfold er_meas, er_fuel. destruct (er_buf r) as [b|]; [|lia].
  destruct (er_piece r); destruct (er_strpos r <? lenN (eb_str b)); lia.
Qed.

Lemma er_read_spec f r room bs eof r' :
  er_ok r -> (er_meas r < f)%nat -> er_read f r room = (bs, eof, r') ->
  bs = take room (er_rest r) /\ er_rest r' = drop room (er_rest r) /\ er_ok r'
  /\ (if eof then er_buf r' = None /\ er_rest r' = [] else (room < length (er_rest r))%nat).
Proof.
  revert r room bs eof r'. induction f as [|f IH]; intros r room bs eof r' Hok Hm; [lia|].
  cbn [er_read]. destruct (er_next r) as [[p|] rn] eqn:Hn.
  - pose proof (er_next_meas _ _ _ Hok Hn) as Hm'.
    destruct (er_next_some _ _ _ Hok Hn) as (Hp & Hrest & Hok' & Hbuf & [b Hb]).
    destruct (Nat.ltb_spec (Nat.min room (length p)) (length p)) as [Hlt|Hge].
    + intros [= <- <- <-]. rewrite Hrest.
      rewrite Nat.min_l by lia.
      rewrite take_app_le by lia. rewrite drop_app_le by lia.
      split; [done|].
      unfold er_rest, er_ok in *; cbn [er_buf er_lhpos er_strpos er_piece] in *. rewrite Hbuf, Hb in *.
      cbn [default app]. split; [done|]. split.
      * destruct Hok' as [Hh _]. split; [done|]. intros [= Hd]. apply (f_equal length) in Hd.
        rewrite drop_length in Hd. simpl in Hd. lia.
      * rewrite app_length. lia.
    + destruct (er_read f _ (room - Nat.min room (length p))) as [[bs2 eof2] r2] eqn:Hr.
      intros [= <- <- <-]. apply IH in Hr; [|done|lia]. destruct Hr as (Hbs & Hre & Hok2 & Heof).
      rewrite Hrest. assert (length p <= room)%nat as Hlr by lia. rewrite Nat.min_r in * by lia.
      rewrite take_app_ge, drop_app_ge by lia. subst bs2.
      split; [done|]. split; [done|]. split; [done|]. destruct eof2; [done|].
      rewrite app_length. lia.
  - destruct (er_next_none _ _ Hok Hn) as [Hrest ->]. intros [= <- <- <-].
    rewrite Hrest, take_nil, drop_nil. done.
Qed.

Lemma er_reads_spec r rooms out done_ :
  er_ok r -> er_reads r rooms = (out, done_) ->
  out = take (foldr Nat.add 0%nat rooms) (er_rest r) /\ (done_ = true -> out = er_rest r).
Proof.
  revert r out done_; induction rooms as [|n rooms IH]; intros r out d Hok; cbn [er_reads].
  - intros [= <- <-]. cbn. rewrite take_0. done.
  - destruct (er_read (er_fuel r) r n) as [[bs eof] r'] eqn:Hr.
    apply er_read_spec in Hr; [|done|apply er_fuel_meas].
    destruct Hr as (-> & Hrest & Hok' & Heof). destruct eof.
    + intros [= <- <-]. destruct Heof as [_ Hnil]. rewrite Hrest in Hnil.
      assert (er_rest r = take n (er_rest r)) as Heq.
      { rewrite <- (take_drop n (er_rest r)) at 1. rewrite Hnil, app_nil_r. done. }
      split; [|done]. symmetry. cbn [foldr].
      rewrite Heq at 1. rewrite take_take. f_equal. lia.
    + destruct (er_reads r' rooms) as [out' d'] eqn:Hrs.
      apply IH in Hrs; [|done]. destruct Hrs as [-> Hd]. intros [= <- <-].
      rewrite Hrest in *. split.
      * cbn. rewrite take_take_drop. done.
      * intros Ht. rewrite (Hd Ht). apply take_drop.
Qed.

Lemma encode_to_reader_rest v :
  lenN (rlp v) < two64 ->
  er_ok (snd (encode_to_reader v)) /\ er_rest (snd (encode_to_reader v)) = rlp v.
Proof.
  intros Hl. destruct (write_item_writes v eb_empty Hl) as (s & hs & Hs & Hh & Hlh & Hok & Ho).
  cbn [encode_to_reader snd]. unfold er_ok, er_rest; cbn [er_buf er_lhpos er_strpos er_piece default app].
  cbn [eb_empty eb_str eb_heads eb_lhsize app] in *.
  assert (shift_heads (lenN (@nil N)) hs = hs) as Hsh.
  { rewrite lenN_nil. unfold shift_heads. rewrite <- (map_id hs) at 2. apply map_ext. intros [? ?]; done. }
  rewrite Hsh in Hh. rewrite Hs, Hh, drop_0. done.
Qed.
