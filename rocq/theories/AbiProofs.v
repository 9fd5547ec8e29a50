(** Proofs about the ABI codec model. *)
From Verif Require Import NumProofs AbiModel AbiSpec NumProps BytesProps.
Global Open Scope N_scope.

Lemma aty_ind' (P : aty -> Prop) :
  (forall n, P (TInt n)) -> (forall n, P (TUint n)) -> P TBool -> P TString -> P TBytes ->
  P TAddress -> (forall n, P (TFixedBytes n)) -> P TFunction ->
  (forall e, P e -> P (TSlice e)) -> (forall e k, P e -> P (TArray e k)) ->
  (forall ts, Forall P ts -> P (TTuple ts)) -> forall t, P t.
Proof.
  intros H1 H2 H3 H4 H5 H6 H7 H8 H9 H10 H11. fix IH 1. intros [n|n| | | | |n| |e|e k|ts];
    [apply H1|apply H2|apply H3|apply H4|apply H5|apply H6|apply H7|apply H8|apply H9, IH|apply H10, IH|].
  apply H11. induction ts as [|t ts IHl]; constructor; [apply IH|exact IHl].
Qed.

(* ------------------------------------------------------------------ words *)
Lemma p256 : (2 ^ 256 = Z.of_N (256 ^ 32))%Z. Proof. reflexivity. Qed.
Lemma word_length z : length (word z) = 32%nat. Proof. apply be_fixed_length. Qed.
Lemma word_bytes z : is_bytes (word z). Proof. apply be_fixed_bytes. Qed.
Lemma num_of_word z : num_of (word z) = (z mod 2 ^ 256)%Z.
Proof.
  unfold word. rewrite be_num_fixed.
  pose proof (Z.mod_pos_bound z (2 ^ 256) ltac:(reflexivity)) as H.
  rewrite N.mod_small; [lia|]. change (256 ^ N.of_nat 32) with (Z.to_N (2 ^ 256)).
  apply Z2N.inj_lt; lia.
Qed.
Lemma num_of_word_small z : (0 <= z < 2 ^ 256)%Z -> num_of (word z) = z.
Proof. intros H. rewrite num_of_word. by apply Z.mod_small. Qed.
Lemma packNum_word wb z : (0 < wb)%nat -> packNum wb z = word z.
Proof.
  intros Hwb. unfold packNum. destruct (C46_U256Bytes wb z Hwb) as (Hl & Hb & Hn).
  apply be_num_inj_len; [done|apply word_bytes|by rewrite Hl, word_length|].
  pose proof (num_of_word z) as Hw. apply N2Z.inj. by rewrite Hn, Hw.
Qed.
Lemma padded_word wb z : (0 < wb)%nat -> (0 <= z < 2 ^ 256)%Z -> PaddedBigBytes wb z 32 = word z.
Proof.
  intros Hwb Hz. rewrite <- (packNum_word wb z Hwb). unfold packNum, U256Bytes. f_equal.
  rewrite U256_mod. symmetry. by apply Z.mod_small.
Qed.
Lemma num_of_bound l : is_bytes l -> (0 <= num_of l < 256 ^ Z.of_nat (length l))%Z.
Proof.
  intros H. pose proof (be_num_bound l H) as Hb. unfold lenN in Hb.
  split; [lia|]. rewrite <- nat_N_Z. change 256%Z with (Z.of_N 256). rewrite <- N2Z.inj_pow. lia.
Qed.
Lemma word_of_num l : is_bytes l -> length l = 32%nat -> word (num_of l) = l.
Proof.
  intros Hb Hl. apply be_num_inj_len; [apply word_bytes|done|by rewrite Hl, word_length|].
  pose proof (num_of_bound l Hb) as H. rewrite Hl in H.
  pose proof (num_of_word_small (num_of l) H) as Hw. apply N2Z.inj. exact Hw.
Qed.

(* ---------------------------------------------------------- type measures *)
Lemma dynamic_eq t : isDynamicType t = dynamic t.
Proof. by induction t using aty_ind'. Qed.
Lemma existsb_dynamic ts : existsb isDynamicType ts = existsb dynamic ts.
Proof. exact (dynamic_eq (TTuple ts)). Qed.

Lemma words_of_spec t : getTypeSize t = (32 * Z.of_nat (words_of t))%Z.
Proof.
  induction t as [n|n| | | | |n| |e IH|e k IH|ts IH] using aty_ind'; try done.
  - cbn [getTypeSize words_of]. rewrite dynamic_eq. destruct (dynamic e) eqn:D; [done|].
    destruct (is_array e || is_tuple e) eqn:A.
    + rewrite IH. lia.
    + assert (words_of e = 1%nat) as -> by (destruct e; try done; cbn in A; congruence). lia.
  - cbn [getTypeSize words_of]. rewrite existsb_dynamic. destruct (existsb dynamic ts); [done|].
    induction IH as [|t ts Ht _ IHl]; [done|]. cbn [fold_right]. rewrite Ht, IHl. lia.
Qed.
Lemma words_dynamic t : dynamic t = true -> words_of t = 1%nat.
Proof. destruct t; try done; cbn [dynamic words_of]; by intros ->. Qed.
Lemma words_plain t : is_array t = false -> is_tuple t = false -> words_of t = 1%nat.
Proof. by destruct t. Qed.
Lemma valid_tuple ts : valid_type (TTuple ts) <-> ts <> [] /\ Forall valid_type ts.
Proof.
  cbn [valid_type]. split; intros [H0 H]; (split; [done|]).
  - induction ts as [|t ts IH]; [constructor|]. cbn [fold_right] in H. destruct H as [H1 H2].
    constructor; [done|]. destruct ts; [constructor|]. by apply IH.
  - clear H0. induction H as [|t ts Ht _ IH]; [done|]. by cbn [fold_right].
Qed.
Lemma valid_words t : valid_type t -> (1 <= words_of t)%nat.
Proof.
  induction t as [n|n| | | | |n| |e IH|e k IH|ts IH] using aty_ind'; try (cbn; lia).
  - intros [Hv Hd]. cbn [words_of]. destruct (dynamic e) eqn:D; [lia|].
    destruct Hd as [Hd|Hd]; [done|]. specialize (IH Hv). nia.
  - intros Hv. apply valid_tuple in Hv as [H0 Hv]. cbn [words_of]. destruct (existsb dynamic ts); [lia|].
    destruct ts as [|t ts]; [done|]. cbn [fold_right]. apply Forall_cons in IH as [IH _]. apply Forall_cons in Hv as [Hv _].
    specialize (IH Hv). lia.
Qed.

(* ----------------------------------------------------------------- layout *)
Definition parts (ts : list aty) (vs : list val) : list (bool * list N) :=
  zip_with (fun t v => (dynamic t, enc t v)) ts vs.
Lemma enc_tuple ts vs : enc (TTuple ts) (VTuple vs) = layout (parts ts vs).
Proof. reflexivity. Qed.
Lemma parts_replicate e vs : map (fun v => (dynamic e, enc e v)) vs = parts (replicate (length vs) e) vs.
Proof. unfold parts. induction vs as [|v vs IH]; [done|]. cbn [map length replicate zip_with]. by rewrite IH. Qed.
Lemma enc_slice e vs : enc (TSlice e) (VList vs)
  = word (Z.of_nat (length vs)) ++ layout (parts (replicate (length vs) e) vs).
Proof. cbn [enc]. by rewrite parts_replicate. Qed.
Lemma enc_array e k vs : enc (TArray e k) (VList vs) = layout (parts (replicate (length vs) e) vs).
Proof. cbn [enc]. by rewrite parts_replicate. Qed.

Lemma heads_length off ps : length (heads off ps) = sum_list (map head_len ps).
Proof.
  revert off. induction ps as [|[[] x] ps IH]; intros off; [done| |]; cbn [heads map sum_list];
    rewrite app_length, IH; unfold head_len; cbn [fst snd]; [by rewrite word_length|done].
Qed.
Lemma tails_cons p ps : tails (p :: ps) = tail_of p ++ tails ps.
Proof. done. Qed.
Lemma heads_static off off' ps : Forall (fun p => p.1 = false) ps -> heads off ps = heads off' ps /\ tails ps = [].
Proof.
  induction 1 as [|[[] x] ps Hp _ [IH1 IH2]]; [done|done|]. cbn [heads]. rewrite tails_cons, IH1, IH2. done.
Qed.
Lemma layout_length ps : length (layout ps) = (sum_list (map head_len ps) + length (tails ps))%nat.
Proof. unfold layout. by rewrite app_length, heads_length. Qed.

Lemma pad_right_length s : exists k, length (pad_right s) = (32 * k)%nat.
Proof.
  unfold pad_right. rewrite app_length, replicate_length.
  exists (length s / 32 + (if decide (length s mod 32 = 0) then 0 else 1))%nat.
  destruct (decide _); lia.
Qed.

Lemma parts_length ts vs :
  Forall2 (fun t v => (dynamic t = false -> length (enc t v) = (32 * words_of t)%nat) /\
                      exists k, length (enc t v) = (32 * k)%nat) ts vs ->
  sum_list (map head_len (parts ts vs)) = (32 * sum_list (map words_of ts))%nat /\
  exists b, length (tails (parts ts vs)) = (32 * b)%nat.
Proof.
  induction 1 as [|t v ts vs [Hs [k Hk]] _ [IH1 [b IH2]]]; [split; [done|by exists 0%nat]|].
  cbn [parts zip_with map sum_list]. fold (parts ts vs). rewrite tails_cons, app_length, IH1, IH2.
  unfold head_len, tail_of; cbn [fst snd]. destruct (dynamic t) eqn:D.
  - rewrite (words_dynamic t D), Hk. split; [cbn; lia|exists (k + b)%nat; lia].
  - rewrite Hs by done. split; [cbn; lia|exists b; cbn; lia].
Qed.
Lemma parts_static ts vs : existsb dynamic ts = false -> Forall (fun p => p.1 = false) (parts ts vs).
Proof.
  revert vs. induction ts as [|t ts IH]; intros [|v vs] H; try constructor.
  - cbn [existsb] in H. by apply orb_false_iff in H as [-> _].
  - apply IH. cbn [existsb] in H. by apply orb_false_iff in H as [_ ->].
Qed.
Lemma existsb_replicate (e : aty) n : dynamic e = false -> existsb dynamic (replicate n e) = false.
Proof. intros D. induction n as [|n IH]; [done|]. cbn [replicate existsb]. by rewrite D, IH. Qed.
Lemma Forall2_replicate {A B} (P : A -> B -> Prop) e vs : Forall (P e) vs -> Forall2 P (replicate (length vs) e) vs.
Proof. induction 1; constructor; done. Qed.
Lemma sum_words_replicate e n : sum_list (map words_of (replicate n e)) = (n * words_of e)%nat.
Proof. induction n as [|n IH]; [done|]. cbn [replicate map sum_list]. rewrite IH. unfold id. lia. Qed.
Lemma words_tuple ts : existsb dynamic ts = false -> words_of (TTuple ts) = sum_list (map words_of ts).
Proof. intros D. cbn [words_of]. rewrite D. clear D. induction ts as [|t ts IH]; [done|]. cbn [fold_right map sum_list]. by rewrite IH. Qed.
(** Lengths: multiples of 32, and the exact size for static types. *)
Lemma enc_length t v : valid_type t -> value_of t v ->
  (dynamic t = false -> length (enc t v) = (32 * words_of t)%nat) /\
  (exists k, length (enc t v) = (32 * k)%nat).
Proof.
  revert v. induction t as [n|n| | | | |n| |e IH|e k IH|ts IH] using aty_ind'; intros v Hv Ho;
    inversion Ho as [n' z Hr|n' z Hr|b|s Hs|s Hs|s Hs Hl|n' s Hs Hl|s Hs Hl|e' vs Hvs|e' vs Hvs|ts' vs Hvs]; subst.
  - cbn [enc]. rewrite word_length. split; [done|by exists 1%nat].
  - cbn [enc]. rewrite word_length. split; [done|by exists 1%nat].
  - cbn [enc]. rewrite word_length. split; [done|by exists 1%nat].
  - cbn [enc]. split; [done|]. destruct (pad_right_length s) as [k Hk]. exists (1 + k)%nat.
    rewrite app_length, word_length, Hk. lia.
  - cbn [enc]. split; [done|]. destruct (pad_right_length s) as [k Hk]. exists (1 + k)%nat.
    rewrite app_length, word_length, Hk. lia.
  - cbn [enc]. unfold pad_left. rewrite app_length, replicate_length, Hl. split; [done|by exists 1%nat].
  - cbn [valid_type] in Hv. cbn [enc]. unfold pad_right. rewrite app_length, replicate_length.
    assert (length s + (32 - length s mod 32) mod 32 = 32)%nat as ->.
    { destruct (decide (length s = 32%nat)) as [->|]; [done|]. rewrite (Nat.mod_small (length s)) by lia. rewrite Nat.mod_small; lia. }
    split; [done|by exists 1%nat].
  - cbn [enc]. unfold pad_right. rewrite app_length, replicate_length, Hl. split; [done|by exists 1%nat].
  - split; [done|]. rewrite enc_slice, app_length, word_length, layout_length. cbn [valid_type] in Hv.
    destruct (parts_length (replicate (length vs) e) vs) as [-> [b ->]].
    { apply Forall2_replicate. eapply Forall_impl; [exact Hvs|]. intros v Hvo. by apply IH. }
    exists (1 + sum_list (map words_of (replicate (length vs) e)) + b)%nat. lia.
  - rewrite enc_array, layout_length. cbn [valid_type] in Hv. destruct Hv as [Hv Hk].
    destruct (parts_length (replicate (length vs) e) vs) as [-> [b Hb]].
    { apply Forall2_replicate. eapply Forall_impl; [exact Hvs|]. intros v Hvo. by apply IH. }
    split; [|rewrite Hb; exists (sum_list (map words_of (replicate (length vs) e)) + b)%nat; lia].
    intros D. cbn [dynamic] in D. cbn [words_of]. rewrite D, sum_words_replicate.
    destruct (heads_static 0 0 (parts (replicate (length vs) e) vs)) as [_ ->]; [by apply parts_static, existsb_replicate|].
    cbn [length]. lia.
  - apply valid_tuple in Hv as [_ Hv]. rewrite enc_tuple, layout_length.
    destruct (parts_length ts vs) as [-> [b Hb]].
    { clear Ho. induction Hvs as [|t v ts vs Hvo _ IHl]; [constructor|]. apply Forall_cons in IH as [IH1 IH2]. apply Forall_cons in Hv as [Hv1 Hv2].
      constructor; [by apply IH1|by apply IHl]. }
    split; [|rewrite Hb; exists (sum_list (map words_of ts) + b)%nat; lia].
    intros D. rewrite words_tuple by done.
    destruct (heads_static 0 0 (parts ts vs)) as [_ ->]; [by apply parts_static|].
    cbn [length]. lia.
Qed.

(* ----------------------------------------------------------- pack = enc *)
Lemma machine_kind_eq u n : reflectIntType u n = machine_kind u n.
Proof.
  unfold reflectIntType, machine_kind.
  destruct (N.eqb_spec n 8) as [->|]; [by destruct u|].
  destruct (N.eqb_spec n 16) as [->|]; [by destruct u|].
  destruct (N.eqb_spec n 32) as [->|]; [by destruct u|].
  destruct (N.eqb_spec n 64) as [->|]; [by destruct u|].
  rewrite !andb_false_r. destruct n as [|p]; [done|].
  repeat (destruct p as [p|p|]; try done).
Qed.

Lemma pack_elems_fields wb e vs off :
  pack_elems wb (pack wb e) (isDynamicType e) vs off = pack_fields wb (pack wb) (replicate (length vs) e) vs off.
Proof.
  revert off. induction vs as [|v vs IH]; intros off; [done|].
  cbn [pack_elems length replicate pack_fields]. destruct (pack wb e v) as [x| |]; [|done|done]. cbn [rbind].
  destruct (isDynamicType e); by rewrite IH.
Qed.

Lemma pack_fields_ok wb ts vs off : (0 < wb)%nat ->
  Forall2 (fun t v => pack wb t v = Ok (enc t v)) ts vs ->
  pack_fields wb (pack wb) ts vs (Z.of_nat off) = Ok (heads off (parts ts vs), tails (parts ts vs)).
Proof.
  intros Hwb H. revert off. induction H as [|t v ts vs E _ IH]; intros off; [done|].
  cbn [pack_fields]. rewrite E. cbn [rbind parts zip_with heads]. fold (parts ts vs). rewrite tails_cons.
  rewrite dynamic_eq. unfold tail_of. cbn [fst snd]. destruct (dynamic t).
  - replace (Z.of_nat off + Z.of_nat (length (enc t v)))%Z with (Z.of_nat (off + length (enc t v))) by lia.
    rewrite IH. cbn [rbind]. by rewrite packNum_word.
  - rewrite IH. done.
Qed.

Lemma head_size_words ts : head_size ts = (32 * Z.of_nat (sum_list (map words_of ts)))%Z.
Proof. unfold head_size. induction ts as [|t ts IH]; [done|]. cbn [fold_right map sum_list]. rewrite IH, words_of_spec. unfold id. lia. Qed.

Lemma fields_lengths ts vs : Forall valid_type ts -> Forall2 value_of ts vs ->
  Forall2 (fun t v => (dynamic t = false -> length (enc t v) = (32 * words_of t)%nat) /\
                      exists k, length (enc t v) = (32 * k)%nat) ts vs.
Proof.
  intros Hv Ho. induction Ho as [|t v ts vs Hvo _ IH]; [constructor|].
  apply Forall_cons in Hv as [Hv1 Hv2]. constructor; [by apply enc_length|by apply IH].
Qed.

(** Packing a sequence of fields with the declared head size gives the layout. *)
Lemma pack_fields_layout wb ts vs : (0 < wb)%nat -> Forall valid_type ts -> Forall2 value_of ts vs ->
  Forall2 (fun t v => pack wb t v = Ok (enc t v)) ts vs ->
  exists h tl, pack_fields wb (pack wb) ts vs (head_size ts) = Ok (h, tl) /\ h ++ tl = layout (parts ts vs).
Proof.
  intros Hwb Hv Ho H. pose proof (parts_length ts vs (fields_lengths ts vs Hv Ho)) as [Hh _].
  eexists _, _. split; [|reflexivity].
  rewrite head_size_words.
  replace (32 * Z.of_nat (sum_list (map words_of ts)))%Z with (Z.of_nat (sum_list (map head_len (parts ts vs)))) by lia.
  by apply pack_fields_ok.
Qed.

Lemma pack_list_layout wb e vs : (0 < wb)%nat -> valid_type e -> Forall (value_of e) vs ->
  Forall (fun v => pack wb e v = Ok (enc e v)) vs ->
  exists h tl,
    pack_elems wb (pack wb e) (isDynamicType e) vs
      (if isDynamicType e then (getTypeSize e * Z.of_nat (length vs))%Z else 0%Z) = Ok (h, tl) /\
    h ++ tl = layout (parts (replicate (length vs) e) vs).
Proof.
  intros Hwb Hv Ho H. rewrite pack_elems_fields.
  destruct (isDynamicType e) eqn:D.
  - replace (getTypeSize e * Z.of_nat (length vs))%Z with (head_size (replicate (length vs) e)).
    + apply pack_fields_layout; [done|by apply Forall_replicate|by apply Forall2_replicate|by apply (Forall2_replicate (fun t v => pack wb t v = Ok (enc t v)))].
    + rewrite head_size_words, sum_words_replicate, words_of_spec. lia.
  - change 0%Z with (Z.of_nat 0). eexists _, _. split.
    + apply pack_fields_ok; [done|]. by apply (Forall2_replicate (fun t v => pack wb t v = Ok (enc t v))).
    + unfold layout. f_equal. apply heads_static. apply parts_static, existsb_replicate. by rewrite <- dynamic_eq.
Qed.

Lemma pad_right_ceil s : RightPadBytes s ((Z.of_nat (length s) + 31) / 32 * 32)%Z = pad_right s.
Proof.
  destruct (C55_pad s ((Z.of_nat (length s) + 31) / 32 * 32)%Z) as [-> _]. unfold pad_right. do 2 f_equal.
  generalize (length s); intros n.
  pose proof (Nat.div_mod n 32 ltac:(lia)) as E. pose proof (Nat.mod_upper_bound n 32 ltac:(lia)) as B.
  set (q := (n / 32)%nat) in *. set (r := (n mod 32)%nat) in *. clearbody q r. subst n.
  destruct (decide (r = 0)%nat) as [->|].
  - replace ((Z.of_nat (32 * q + 0) + 31) / 32)%Z with (Z.of_nat q) by (apply Z.div_unique with 31%Z; lia).
    change ((32 - 0) mod 32)%nat with 0%nat. lia.
  - replace ((Z.of_nat (32 * q + r) + 31) / 32)%Z with (Z.of_nat q + 1)%Z by (apply Z.div_unique with (Z.of_nat r - 1)%Z; lia).
    rewrite Nat.mod_small; lia.
Qed.
Lemma pad_right_32 s : (1 <= length s <= 32)%nat -> RightPadBytes s 32 = pad_right s.
Proof.
  intros H. rewrite <- pad_right_ceil. f_equal. symmetry.
  assert ((Z.of_nat (length s) + 31) / 32 = 1)%Z as ->; [|done].
  symmetry. apply Z.div_unique with (Z.of_nat (length s) - 1)%Z; lia.
Qed.

Lemma pack_enc wb t v : (0 < wb)%nat -> valid_type t -> value_of t v -> pack wb t v = Ok (enc t v).
Proof.
  intros Hwb. revert v. induction t as [n|n| | | | |n| |e IH|e k IH|ts IH] using aty_ind'; intros v Hv Ho;
    inversion Ho as [n' z Hr|n' z Hr|b|s Hs|s Hs|s Hs Hl|n' s Hs Hl|s Hs Hl|e' vs Hvs|e' vs Hvs|ts' vs Hvs]; subst.
  - cbn [pack packElement enc]. rewrite machine_kind_eq, decide_True by done. by rewrite packNum_word.
  - cbn [pack packElement enc]. rewrite machine_kind_eq, decide_True by done. by rewrite packNum_word.
  - cbn [pack packElement enc]. destruct b; by rewrite padded_word.
  - cbn [pack packElement enc]. unfold packBytesSlice. by rewrite packNum_word, pad_right_ceil.
  - cbn [pack packElement enc]. unfold packBytesSlice. by rewrite packNum_word, pad_right_ceil.
  - cbn [pack packElement enc]. destruct (C55_pad s 32) as [_ ->]. done.
  - cbn [pack packElement enc]. rewrite Nat.eqb_refl. cbn [valid_type] in Hv. by rewrite pad_right_32.
  - cbn [pack packElement enc]. rewrite pad_right_32; [done|lia].
  - cbn [pack]. cbn [valid_type] in Hv.
    destruct (pack_list_layout wb e vs Hwb Hv Hvs) as (h & tl & -> & Hl).
    { eapply Forall_impl; [exact Hvs|]. intros v Hvo. by apply IH. }
    cbn [rbind]. by rewrite enc_slice, packNum_word, Hl.
  - cbn [pack]. rewrite Nat.eqb_refl. cbn [valid_type] in Hv. destruct Hv as [Hv _].
    destruct (pack_list_layout wb e vs Hwb Hv Hvs) as (h & tl & -> & Hl).
    { eapply Forall_impl; [exact Hvs|]. intros v Hvo. by apply IH. }
    cbn [rbind]. by rewrite enc_array, Hl.
  - apply valid_tuple in Hv as [_ Hv]. cbn [pack].
    destruct (pack_fields_layout wb ts vs Hwb Hv Hvs) as (h & tl & -> & Hl).
    { clear Ho. induction Hvs as [|t v ts vs Hvo _ IHl]; [constructor|]. apply Forall_cons in IH as [IH1 IH2].
      apply Forall_cons in Hv as [Hv1 Hv2]. constructor; [by apply IH1|by apply IHl]. }
    cbn [rbind]. by rewrite enc_tuple, Hl.
Qed.

(* ------------------------------------------------------------- slicing *)
Lemma sl_app pre x post : sl (pre ++ x ++ post) (zlen pre) (zlen pre + zlen x)%Z = Ok x.
Proof.
  unfold sl, zlen. rewrite !app_length.
  destruct (0 <=? Z.of_nat (length pre))%Z eqn:E1; [|lia]. cbn [andb].
  destruct (Z.of_nat (length pre) <=? Z.of_nat (length pre) + Z.of_nat (length x))%Z eqn:E2; [|lia]. cbn [andb].
  destruct (Z.of_nat (length pre) + Z.of_nat (length x) <=? Z.of_nat (length pre + (length x + length post)))%Z eqn:E3; [|lia].
  rewrite Nat2Z.id, drop_app. replace (Z.to_nat _) with (length x) by lia. by rewrite take_app.
Qed.
Lemma sl_at out pre x post a b : out = pre ++ x ++ post -> a = zlen pre -> b = (zlen pre + zlen x)%Z ->
  sl out a b = Ok x.
Proof. intros -> -> ->. apply sl_app. Qed.
Lemma sl_from_at out pre x a : out = pre ++ x -> a = zlen pre -> sl_from out a = Ok x.
Proof.
  intros -> ->. unfold sl_from. apply sl_at with pre []; [by rewrite app_nil_r|done|].
  unfold zlen. rewrite app_length. lia.
Qed.
Lemma zlen_app {A} (a b : list A) : zlen (a ++ b) = (zlen a + zlen b)%Z.
Proof. unfold zlen. rewrite app_length. lia. Qed.
Lemma zlen_word z : zlen (word z) = 32%Z. Proof. unfold zlen. by rewrite word_length. Qed.
Lemma zlen_nonneg {A} (l : list A) : (0 <= zlen l)%Z. Proof. unfold zlen. lia. Qed.

Lemma be_fixed_split a b n : be_fixed (a + b) n = be_fixed a (n / 256 ^ N.of_nat b) ++ be_fixed b n.
Proof.
  revert n. induction b as [|b IH]; intros n.
  - rewrite Nat.add_0_r, app_nil_r. change (256 ^ N.of_nat 0) with 1. by rewrite N.div_1_r.
  - rewrite Nat.add_succ_r. cbn [be_fixed]. rewrite IH, <- app_assoc. f_equal. f_equal.
    replace (N.of_nat (S b)) with (1 + N.of_nat b) by lia. rewrite N.pow_add_r, N.pow_1_r.
    rewrite N.div_div; [done|done|]. pose proof (pow256_pos (N.of_nat b)) as Hp. intros E. rewrite E in Hp. by apply N.lt_irrefl in Hp.
Qed.

Lemma last_word (k : nat) (kz : Z) z : (k <= 32)%nat -> kz = Z.of_nat k ->
  exists w, sl (word z) (zlen (word z) - kz)%Z (zlen (word z)) = Ok w /\ num_of w = (z mod 256 ^ kz)%Z.
Proof.
  intros Hk ->. set (m := Z.to_N (z mod 2 ^ 256)).
  exists (be_fixed k m). split.
  - apply sl_at with (be_fixed (32 - k) (m / 256 ^ N.of_nat k)) [].
    + rewrite app_nil_r, <- be_fixed_split. replace (32 - k + k)%nat with 32%nat by lia. done.
    + unfold zlen. rewrite word_length, be_fixed_length. lia.
    + unfold zlen. rewrite word_length, !be_fixed_length. lia.
  - rewrite be_num_fixed, N2Z.inj_mod, N2Z.inj_pow, nat_N_Z.
    unfold m. rewrite Z2N.id by (apply Z.mod_pos_bound; reflexivity). change (Z.of_N 256) with 256%Z.
    symmetry. replace (2 ^ 256)%Z with (256 ^ Z.of_nat k * 256 ^ (32 - Z.of_nat k))%Z.
    + pose proof (Z.pow_pos_nonneg 256 (Z.of_nat k) ltac:(lia) ltac:(lia)) as P1.
      pose proof (Z.pow_pos_nonneg 256 (32 - Z.of_nat k) ltac:(lia) ltac:(lia)) as P2.
      rewrite Z.rem_mul_r by (clear - P1 P2; intros; first [lia | (intro; lia)]).
      rewrite Z.add_mod, Z.mul_comm, Z.mod_mul, Z.add_0_r, !Z.mod_mod by (clear - P1; lia). done.
    + rewrite <- Z.pow_add_r by lia. replace (Z.of_nat k + (32 - Z.of_nat k))%Z with 32%Z by lia. reflexivity.
Qed.

Lemma to_signed_mod w z : (1 <= w) -> (- 2 ^ (Z.of_N w - 1) <= z < 2 ^ (Z.of_N w - 1))%Z ->
  to_signed w (z mod 2 ^ Z.of_N w)%Z = z.
Proof.
  intros Hw Hz. unfold to_signed.
  assert (2 ^ Z.of_N w = 2 * 2 ^ (Z.of_N w - 1))%Z as E.
  { rewrite <- Z.pow_succ_r by lia. f_equal. lia. }
  rewrite E. set (h := (2 ^ (Z.of_N w - 1))%Z) in *. clearbody h. clear E Hw.
  destruct (Z.lt_ge_cases z 0) as [Hn|Hp].
  - assert (z mod (2 * h) = z + 2 * h)%Z as ->.
    { symmetry. apply Z.mod_unique with (-1)%Z; lia. }
    destruct (Z.ltb_spec (z + 2 * h) h); lia.
  - rewrite Z.mod_small by lia. destruct (Z.ltb_spec z h); lia.
Qed.

Lemma testbit_255 x : (0 <= x < 2 ^ 256)%Z -> Z.testbit x 255 = (2 ^ 255 <=? x)%Z.
Proof.
  intros Hx. apply Bool.eq_iff_eq_true. rewrite Z.testbit_true by lia. rewrite Z.leb_le.
  assert (2 ^ 256 = 2 * 2 ^ 255)%Z as E by reflexivity. rewrite E in Hx.
  assert (0 < 2 ^ 255)%Z as P by reflexivity.
  set (h := (2 ^ 255)%Z) in *. clearbody h. clear E.
  destruct (Z.lt_ge_cases x h) as [Hl|Hg].
  - rewrite Z.div_small by lia. split; [discriminate|lia].
  - replace (x / h)%Z with 1%Z by (apply Z.div_unique with (x - h)%Z; lia). done.
Qed.

Lemma read_integer u n z : in_range u (value_bits n) z ->
  ReadInteger u n (word z) = Ok (VNum (machine_kind u n) z).
Proof.
  intros Hr. unfold ReadInteger.
  assert (n = 8 \/ n = 16 \/ n = 32 \/ n = 64 \/
    (n =? 8) = false /\ (n =? 16) = false /\ (n =? 32) = false /\ (n =? 64) = false) as Hn by lia.
  destruct Hn as [->|[->|[->|[->|(E1 & E2 & E3 & E4)]]]].
  - destruct (last_word 1 1%Z z ltac:(lia) eq_refl) as (w & Hw & Hnw). cbn [N.eqb Pos.eqb]. rewrite Hw. cbn [rbind].
    rewrite Hnw. destruct u; cbn [value_bits in_range machine_kind] in *; do 2 f_equal.
    + by apply Z.mod_small.
    + by apply (to_signed_mod 8).
  - destruct (last_word 2 2%Z z ltac:(lia) eq_refl) as (w & Hw & Hnw). cbn [N.eqb Pos.eqb]. rewrite Hw. cbn [rbind].
    rewrite Hnw. destruct u; cbn [value_bits in_range machine_kind] in *; do 2 f_equal.
    + by apply Z.mod_small.
    + by apply (to_signed_mod 16).
  - destruct (last_word 4 4%Z z ltac:(lia) eq_refl) as (w & Hw & Hnw). cbn [N.eqb Pos.eqb]. rewrite Hw. cbn [rbind].
    rewrite Hnw. destruct u; cbn [value_bits in_range machine_kind] in *; do 2 f_equal.
    + by apply Z.mod_small.
    + by apply (to_signed_mod 32).
  - destruct (last_word 8 8%Z z ltac:(lia) eq_refl) as (w & Hw & Hnw). cbn [N.eqb Pos.eqb]. rewrite Hw. cbn [rbind].
    rewrite Hnw. destruct u; cbn [value_bits in_range machine_kind] in *; do 2 f_equal.
    + by apply Z.mod_small.
    + by apply (to_signed_mod 64).
  - assert (machine_kind u n = KBig) as ->.
    { rewrite <- machine_kind_eq. unfold reflectIntType. by rewrite E1, E2, E3, E4, !andb_false_r. }
    assert (value_bits n = 256)%Z as Hb.
    { clear Hr. destruct n as [|p]; [done|]. repeat (destruct p as [p|p|]; try done). }
    rewrite E1, E2, E3, E4. rewrite Hb in Hr. destruct u; cbn [in_range] in Hr.
    + by rewrite num_of_word_small.
    + rewrite num_of_word. pose proof (Z.mod_pos_bound z (2 ^ 256) ltac:(reflexivity)) as Hm.
      rewrite testbit_255 by done.
      change (256 - 1)%Z with 255%Z in Hr. unfold tt256m1.
      assert (2 ^ 256 = 2 * 2 ^ 255)%Z as E by reflexivity. rewrite E in *.
      set (h := (2 ^ 255)%Z) in *. clearbody h. clear E.
      destruct (Z.lt_ge_cases z 0) as [Hneg|Hpos].
      * assert (z mod (2 * h) = z + 2 * h)%Z as -> by (symmetry; apply Z.mod_unique with (-1)%Z; lia).
        destruct (Z.leb_spec h (z + 2 * h)); [|lia]. do 2 f_equal. lia.
      * rewrite Z.mod_small by lia. destruct (Z.leb_spec h z); [lia|done].
Qed.

Lemma read_bool (b : bool) : readBool (word (if b then 1 else 0)%Z) = Ok (VBool b).
Proof. by destruct b. Qed.
Lemma read_function s : length s = 24%nat -> readFunctionType (pad_right s) = Ok (VArr s).
Proof.
  intros H. unfold readFunctionType, pad_right. rewrite H. change ((32 - 24 mod 32) mod 32)%nat with 8%nat.
  rewrite (sl_at _ s (replicate 8 0) []); [|by rewrite app_nil_r|unfold zlen; lia|unfold zlen; rewrite H; done].
  cbn [rbind]. change (be_num (replicate 8 0) =? 0) with true. cbn match.
  rewrite (sl_at _ [] s (replicate 8 0)); [done|done|done|unfold zlen; rewrite H; done].
Qed.
Lemma read_fixed n s : length s = n -> ReadFixedBytes n (pad_right s) = Ok (VArr s).
Proof.
  intros H. unfold ReadFixedBytes, pad_right.
  rewrite (sl_at _ [] s (replicate ((32 - length s mod 32) mod 32) 0)); [done|done|done|unfold zlen; cbn [length]; lia].
Qed.
Lemma read_address s : length s = 20%nat -> BytesToAddress (pad_left s) = s.
Proof.
  intros H. unfold BytesToAddress, pad_left. rewrite app_length, replicate_length, H.
  change (32 - 20 + 20)%nat with 32%nat. change (20 <? 32)%nat with true. cbn match. change (32 - 20)%nat with 12%nat.
  rewrite (drop_app_alt (replicate 12 0) s) by done. rewrite H. rewrite buf_put_all; [done|by rewrite H].
Qed.

(* -------------------------------------------------------------- decoding *)
Lemma sum_cons x l : sum_list (x :: l) = (x + sum_list l)%nat. Proof. done. Qed.

(** The encoding [x] of a value of type [t] can be found from position [index]. *)
Definition placed (t : aty) (x : list N) (index : nat) (out : list N) : Prop :=
  if dynamic t then
    exists off pre post pre2 post2, out = pre ++ word (Z.of_nat off) ++ post /\ length pre = index /\
      out = pre2 ++ x ++ post2 /\ length pre2 = off
  else exists pre post, out = pre ++ x ++ post /\ length pre = index.

Definition decodes (t : aty) : Prop := forall v out index,
  valid_type t -> value_of t v -> (zlen out < 2 ^ 63)%Z -> placed t (enc t v) index out ->
  toGoType t (Z.of_nat index) out = Ok v.

Lemma fields_decode ts vs : Forall decodes ts -> Forall valid_type ts -> Forall2 value_of ts vs ->
  forall out hp tp post off idx virt, (zlen out < 2 ^ 63)%Z ->
  out = hp ++ heads off (parts ts vs) ++ tp ++ tails (parts ts vs) ++ post ->
  off = (length hp + sum_list (map head_len (parts ts vs)) + length tp)%nat ->
  ((idx + virt) * 32 = zlen hp)%Z ->
  fields_loop toGoType out ts idx virt = Ok vs.
Proof.
  intros Hd Hv Ho. induction Ho as [|t v ts vs Hvo Hvs IH]; intros out hp tp post off idx virt Hlen Hout Hoff Hidx; [done|].
  apply Forall_cons in Hd as [Hd1 Hd2]. apply Forall_cons in Hv as [Hv1 Hv2]. specialize (IH Hd2 Hv2).
  cbn [fields_loop]. rewrite Hidx. unfold zlen at 1.
  destruct (enc_length t v Hv1 Hvo) as [Hst _].
  cbn [parts zip_with] in Hout, Hoff. fold (parts ts vs) in Hout, Hoff. cbn [map] in Hoff. rewrite sum_cons in Hoff.
  rewrite tails_cons in Hout. unfold head_len in Hoff at 1. unfold tail_of in Hout at 1. cbn [fst snd heads] in Hout, Hoff.
  rewrite dynamic_eq. destruct (dynamic t) eqn:D.
  - rewrite (Hd1 v out (length hp) Hv1 Hvo Hlen); cycle 1.
    { unfold placed. rewrite D. eexists off, hp, _, (hp ++ word (Z.of_nat off) ++ heads (off + length (enc t v)) (parts ts vs) ++ tp), _.
      split; [rewrite Hout, <- app_assoc; reflexivity|]. split; [done|]. split.
      - rewrite Hout. rewrite <- !app_assoc. reflexivity.
      - rewrite !app_length, word_length, heads_length. lia. }
    cbn [rbind]. rewrite !andb_false_r.
    rewrite (IH out (hp ++ word (Z.of_nat off)) (tp ++ enc t v) post (off + length (enc t v))%nat); [done|done| | |].
    + rewrite Hout. by rewrite <- !app_assoc.
    + rewrite !app_length, word_length. lia.
    + rewrite zlen_app, zlen_word. lia.
  - rewrite (Hd1 v out (length hp) Hv1 Hvo Hlen); cycle 1.
    { unfold placed. rewrite D. exists hp, (heads off (parts ts vs) ++ tp ++ tails (parts ts vs) ++ post).
      split; [rewrite Hout, <- !app_assoc; reflexivity|done]. }
    cbn [rbind]. cbn [negb]. rewrite !andb_true_r.
    erewrite (IH out (hp ++ enc t v) tp post off); [done|done| | |].
    + rewrite Hout. by rewrite <- !app_assoc.
    + rewrite !app_length. lia.
    + rewrite zlen_app. unfold zlen at 2. rewrite Hst by done. rewrite words_of_spec.
      replace (32 * Z.of_nat (words_of t) / 32)%Z with (Z.of_nat (words_of t)) by (rewrite Z.mul_comm, Z.div_mul; lia).
      destruct (is_array t) eqn:A; [lia|]. destruct (is_tuple t) eqn:T; [lia|].
      rewrite (words_plain t A T). lia.
Qed.

Lemma each_fields e out n : forall idx virt,
  each_loop (toGoType e) (getTypeSize e) out n ((idx + virt) * 32)%Z
  = fields_loop toGoType out (replicate n e) idx virt.
Proof.
  induction n as [|n IH]; intros idx virt; [done|]. cbn [each_loop replicate fields_loop].
  destruct (toGoType e _ out) as [v| |]; [|done|done]. cbn [rbind].
  rewrite <- IH. do 2 f_equal. rewrite dynamic_eq, words_of_spec.
  replace (32 * Z.of_nat (words_of e) / 32)%Z with (Z.of_nat (words_of e)) by (rewrite Z.mul_comm, Z.div_mul; lia).
  destruct (dynamic e) eqn:D.
  - rewrite (words_dynamic e D), !andb_false_r. lia.
  - cbn [negb]. rewrite !andb_true_r. destruct (is_array e) eqn:A; [lia|]. destruct (is_tuple e) eqn:T; [lia|].
    rewrite (words_plain e A T). lia.
Qed.

Lemma list_decode e vs out post : decodes e -> valid_type e -> Forall (value_of e) vs ->
  (zlen out < 2 ^ 63)%Z -> out = layout (parts (replicate (length vs) e) vs) ++ post ->
  forEachUnpack (toGoType e) (getTypeSize e) out 0 (zlen vs) = Ok (VList vs).
Proof.
  intros Hd Hv Ho Hlen Hout. unfold forEachUnpack. pose proof (zlen_nonneg vs).
  destruct (Z.ltb_spec (zlen vs) 0); [lia|].
  pose proof (parts_length (replicate (length vs) e) vs) as [Hh _].
  { apply fields_lengths; [by apply Forall_replicate|by apply Forall2_replicate]. }
  destruct (Z.ltb_spec (zlen out) (0 + 32 * zlen vs)) as [Hsh|_].
  { exfalso. rewrite Hout, zlen_app in Hsh. unfold zlen at 1 in Hsh. rewrite layout_length, Hh, sum_words_replicate in Hsh.
    pose proof (valid_words e Hv). pose proof (zlen_nonneg post). unfold zlen in Hsh at 2. nia. }
  change 0%Z with ((0 + 0) * 32)%Z at 1. rewrite each_fields.
  replace (Z.to_nat (zlen vs)) with (length vs) by (unfold zlen; lia).
  erewrite (fields_decode _ vs) with (hp := []) (tp := []); [reflexivity| | | |done| |reflexivity|done].
  - by apply Forall_replicate.
  - by apply Forall_replicate.
  - by apply Forall2_replicate.
  - rewrite Hout. unfold layout. cbn [app length]. rewrite <- app_assoc. do 2 f_equal. lia.
Qed.

Lemma tuple_decode ts vs out post : Forall decodes ts -> Forall valid_type ts -> Forall2 value_of ts vs ->
  (zlen out < 2 ^ 63)%Z -> out = layout (parts ts vs) ++ post ->
  fields_loop toGoType out ts 0 0 = Ok vs.
Proof.
  intros Hd Hv Ho Hlen Hout.
  erewrite (fields_decode _ vs) with (hp := []) (tp := []); [reflexivity|done|done|done|done| |reflexivity|done].
  rewrite Hout. unfold layout. cbn [app length]. rewrite <- app_assoc. do 2 f_equal. lia.
Qed.

Lemma length_prefix out pre post pre2 rest off len :
  (zlen out < 2 ^ 63)%Z -> out = pre ++ word (Z.of_nat off) ++ post ->
  out = pre2 ++ word len ++ rest -> length pre2 = off -> (0 <= len <= zlen rest)%Z ->
  lengthPrefixPointsTo (zlen pre) out = Ok (Z.of_nat off + 32, len)%Z.
Proof.
  intros Hlen H1 H2 Hoff Hl. unfold lengthPrefixPointsTo.
  assert (2 ^ 63 < 2 ^ 256)%Z as Hp by reflexivity.
  assert (zlen out = Z.of_nat off + 32 + zlen rest)%Z as Hz.
  { rewrite H2, !zlen_app, zlen_word. unfold zlen at 1. lia. }
  pose proof (zlen_nonneg rest).
  rewrite (sl_at out pre (word (Z.of_nat off)) post) by (done || by rewrite ?zlen_word). cbn [rbind].
  rewrite num_of_word_small by lia. rewrite Hz.
  destruct (Z.ltb_spec (Z.of_nat off + 32 + zlen rest) (Z.of_nat off + 32)); [lia|].
  destruct (Z.leb_spec (2 ^ 63) (Z.of_nat off + 32)); [lia|].
  rewrite (sl_at out pre2 (word len) rest); [|done|unfold zlen; lia|rewrite zlen_word; unfold zlen; lia]. cbn [rbind].
  rewrite num_of_word_small by lia.
  destruct (Z.leb_spec (2 ^ 63) (Z.of_nat off + 32 + len)); [lia|].
  destruct (Z.ltb_spec (Z.of_nat off + 32 + zlen rest) (Z.of_nat off + 32 + len)); [lia|]. done.
Qed.

Lemma toGo_enough index (out : list N) (x : res val) : (index + 32 <= zlen out)%Z ->
  (if (zlen out <? index + 32)%Z then Err else x) = x.
Proof. intros H. destruct (Z.ltb_spec (zlen out) (index + 32)); [lia|done]. Qed.

Lemma decode t : decodes t.
Proof.
  induction t as [n|n| | | | |n| |e IH|e k IH|ts IH] using aty_ind'; intros v out index Hv Ho Hlen Hpl;
    pose proof (enc_length _ _ Hv Ho) as [Hst _];
    inversion Ho as [n' z Hr|n' z Hr|b|s Hs|s Hs|s Hs Hl|n' s Hs Hl|s Hs Hl|e' vs Hvs|e' vs Hvs|ts' vs Hvs]; subst;
    unfold placed in Hpl; cbn [dynamic] in Hpl, Hst.
  (* static leaves *)
  1,2,3,6,7,8: destruct Hpl as (pre & post & Hout & Hi); specialize (Hst eq_refl);
    cbn [words_of] in Hst; rewrite Nat.mul_1_r in Hst;
    cbn [toGoType]; rewrite toGo_enough by (rewrite Hout, !zlen_app; unfold zlen; rewrite Hst; lia);
    erewrite (sl_at out pre _ post) by (first [exact Hout | unfold zlen; lia | unfold zlen; rewrite Hst; lia]);
    cbn [rbind enc].
  - by apply read_integer.
  - by apply read_integer.
  - by apply read_bool.
  - by rewrite read_address.
  - by rewrite read_fixed.
  - by rewrite read_function.
  - (* string *)
    destruct Hpl as (off & pre & post & pre2 & post2 & H1 & Hi & H2 & Hoff). cbn [toGoType].
    rewrite toGo_enough by (rewrite H1, !zlen_app, zlen_word; pose proof (zlen_nonneg post); unfold zlen; lia).
    cbn [enc] in H2. unfold pad_right in H2. rewrite <- !app_assoc in H2.
    replace (Z.of_nat index) with (zlen pre) by (unfold zlen; lia).
    erewrite length_prefix; [|exact Hlen|exact H1|exact H2|exact Hoff|].
    + cbn [rbind]. rewrite (sl_at out (pre2 ++ word (Z.of_nat (length s))) s
        (replicate ((32 - length s mod 32) mod 32) 0 ++ post2)); [done| | |].
      * rewrite H2. by rewrite <- !app_assoc.
      * rewrite zlen_app, zlen_word. unfold zlen. lia.
      * rewrite zlen_app, zlen_word. unfold zlen. lia.
    + rewrite zlen_app. unfold zlen. lia.
  - (* bytes *)
    destruct Hpl as (off & pre & post & pre2 & post2 & H1 & Hi & H2 & Hoff). cbn [toGoType].
    rewrite toGo_enough by (rewrite H1, !zlen_app, zlen_word; pose proof (zlen_nonneg post); unfold zlen; lia).
    cbn [enc] in H2. unfold pad_right in H2. rewrite <- !app_assoc in H2.
    replace (Z.of_nat index) with (zlen pre) by (unfold zlen; lia).
    erewrite length_prefix; [|exact Hlen|exact H1|exact H2|exact Hoff|].
    + cbn [rbind]. rewrite (sl_at out (pre2 ++ word (Z.of_nat (length s))) s
        (replicate ((32 - length s mod 32) mod 32) 0 ++ post2)); [done| | |].
      * rewrite H2. by rewrite <- !app_assoc.
      * rewrite zlen_app, zlen_word. unfold zlen. lia.
      * rewrite zlen_app, zlen_word. unfold zlen. lia.
    + rewrite zlen_app. unfold zlen. lia.
  - (* slice *)
    destruct Hpl as (off & pre & post & pre2 & post2 & H1 & Hi & H2 & Hoff). cbn [toGoType].
    rewrite toGo_enough by (rewrite H1, !zlen_app, zlen_word; pose proof (zlen_nonneg post); unfold zlen; lia).
    rewrite enc_slice, <- !app_assoc in H2.
    replace (Z.of_nat index) with (zlen pre) by (unfold zlen; lia). cbn [valid_type] in Hv.
    erewrite length_prefix; [|exact Hlen|exact H1|exact H2|exact Hoff|].
    + cbn [rbind]. rewrite (sl_from_at out (pre2 ++ word (Z.of_nat (length vs)))
        (layout (parts (replicate (length vs) e) vs) ++ post2)).
      * cbn [rbind]. fold (zlen vs). eapply list_decode; [done|done|done| |reflexivity].
        revert Hlen. rewrite H2, !zlen_app. pose proof (zlen_nonneg pre2). pose proof (zlen_nonneg (word (Z.of_nat (length vs)))). lia.
      * rewrite H2. by rewrite <- !app_assoc.
      * rewrite zlen_app, zlen_word. unfold zlen. lia.
    + pose proof (parts_length (replicate (length vs) e) vs) as [Hh _].
      { apply fields_lengths; [by apply Forall_replicate|by apply Forall2_replicate]. }
      rewrite zlen_app. unfold zlen. rewrite layout_length, Hh, sum_words_replicate.
      pose proof (valid_words e Hv). nia.
  - (* array *)
    cbn [valid_type] in Hv. destruct Hv as [Hv Hk]. destruct (dynamic e) eqn:D.
    + destruct Hpl as (off & pre & post & pre2 & post2 & H1 & Hi & H2 & Hoff). cbn [toGoType].
      rewrite toGo_enough by (rewrite H1, !zlen_app, zlen_word; pose proof (zlen_nonneg post); unfold zlen; lia).
      rewrite enc_array in H2.
      erewrite (sl_at out pre _ post) by (first [exact H1 | unfold zlen; lia | rewrite zlen_word; unfold zlen; lia]).
      cbn [rbind]. rewrite dynamic_eq, D.
      destruct (last_word 8 8%Z (Z.of_nat off) ltac:(lia) eq_refl) as (w & -> & Hnw). cbn [rbind]. rewrite Hnw.
      pose proof (zlen_nonneg (layout (parts (replicate (length vs) e) vs))) as N1. pose proof (zlen_nonneg post2) as N2.
      assert (zlen out = Z.of_nat off + zlen (layout (parts (replicate (length vs) e) vs)) + zlen post2)%Z as Hz.
      { rewrite H2, !zlen_app. unfold zlen at 1. lia. }
      assert (2 ^ 63 < 256 ^ 8)%Z as Hp by reflexivity.
      rewrite Z.mod_small by lia.
      destruct (Z.ltb_spec (zlen out) (Z.of_nat off)); [lia|].
      rewrite (sl_from_at out pre2 (layout (parts (replicate (length vs) e) vs) ++ post2)); [|done|unfold zlen; lia].
      cbn [rbind]. fold (zlen vs). eapply list_decode; [done|done|done| |reflexivity]. rewrite zlen_app. lia.
    + destruct Hpl as (pre & post & Hout & Hi). cbn [toGoType]. specialize (Hst eq_refl).
      destruct Hk as [Hk|Hk]; [done|].
      assert (32 <= zlen (enc (TArray e (length vs)) (VList vs)))%Z as Hw.
      { unfold zlen. rewrite Hst. cbn [words_of]. rewrite D. pose proof (valid_words e Hv). nia. }
      assert (zlen out = zlen pre + zlen (enc (TArray e (length vs)) (VList vs)) + zlen post)%Z as Hz by (rewrite Hout, !zlen_app; lia).
      pose proof (zlen_nonneg post) as N1. replace (Z.of_nat index) with (zlen pre) by (unfold zlen; lia).
      rewrite toGo_enough by lia. pose proof (zlen_nonneg pre).
      assert (exists w, sl out (zlen pre) (zlen pre + 32)%Z = Ok w) as [w ->].
      { unfold sl. destruct (Z.leb_spec 0 (zlen pre)); [|lia]. destruct (Z.leb_spec (zlen pre) (zlen pre + 32)); [|lia].
        destruct (Z.leb_spec (zlen pre + 32) (zlen out)); [|lia]. by eexists. }
      cbn [rbind]. rewrite dynamic_eq, D. rewrite enc_array in Hout.
      rewrite (sl_from_at out pre (layout (parts (replicate (length vs) e) vs) ++ post)); [|done|done].
      cbn [rbind]. fold (zlen vs). eapply list_decode; [done|done|done| |reflexivity].
      rewrite zlen_app. rewrite enc_array in Hz. lia.
  - (* tuple *)
    pose proof (valid_words _ Hv) as Hw0.
    apply valid_tuple in Hv as [Hne Hv]. destruct (existsb dynamic ts) eqn:D.
    + destruct Hpl as (off & pre & post & pre2 & post2 & H1 & Hi & H2 & Hoff). cbn [toGoType].
      rewrite toGo_enough by (rewrite H1, !zlen_app, zlen_word; pose proof (zlen_nonneg post); unfold zlen; lia).
      rewrite enc_tuple in H2.
      rewrite (sl_at out pre (word (Z.of_nat off)) post) by (first [exact H1 | unfold zlen; lia | rewrite zlen_word; unfold zlen; lia]).
      cbn [rbind]. rewrite existsb_dynamic, D. unfold tuplePointsTo.
      rewrite (sl_at out pre (word (Z.of_nat off)) post) by (first [exact H1 | unfold zlen; lia | rewrite zlen_word; unfold zlen; lia]).
      cbn [rbind].
      pose proof (zlen_nonneg (layout (parts ts vs))) as N1. pose proof (zlen_nonneg post2) as N2.
      assert (zlen out = Z.of_nat off + zlen (layout (parts ts vs)) + zlen post2)%Z as Hz.
      { rewrite H2, !zlen_app. unfold zlen at 1. lia. }
      assert (2 ^ 63 < 2 ^ 256)%Z as Hp by reflexivity.
      rewrite num_of_word_small by lia.
      destruct (Z.ltb_spec (zlen out) (Z.of_nat off)); [lia|].
      destruct (Z.leb_spec (2 ^ 63) (Z.of_nat off)); [lia|]. cbn [rbind].
      rewrite (sl_from_at out pre2 (layout (parts ts vs) ++ post2)); [|done|unfold zlen; lia].
      cbn [rbind]. erewrite tuple_decode; [reflexivity|done|done|done| |reflexivity]. rewrite zlen_app. lia.
    + destruct Hpl as (pre & post & Hout & Hi). cbn [toGoType]. specialize (Hst eq_refl).
      assert (32 <= zlen (enc (TTuple ts) (VTuple vs)))%Z as Hw by (unfold zlen; rewrite Hst; lia).
      assert (zlen out = zlen pre + zlen (enc (TTuple ts) (VTuple vs)) + zlen post)%Z as Hz by (rewrite Hout, !zlen_app; lia).
      pose proof (zlen_nonneg post) as N1. replace (Z.of_nat index) with (zlen pre) by (unfold zlen; lia).
      rewrite toGo_enough by lia. pose proof (zlen_nonneg pre).
      assert (exists w, sl out (zlen pre) (zlen pre + 32)%Z = Ok w) as [w ->].
      { unfold sl. destruct (Z.leb_spec 0 (zlen pre)); [|lia]. destruct (Z.leb_spec (zlen pre) (zlen pre + 32)); [|lia].
        destruct (Z.leb_spec (zlen pre + 32) (zlen out)); [|lia]. by eexists. }
      cbn [rbind]. rewrite existsb_dynamic, D. rewrite enc_tuple in Hout.
      rewrite (sl_from_at out pre (layout (parts ts vs) ++ post)); [|done|done].
      cbn [rbind]. erewrite tuple_decode; [reflexivity|done|done|done| |reflexivity].
      rewrite zlen_app. rewrite enc_tuple in Hz. lia.
Qed.

(* ------------------------------------------------------- arbitrary data *)
Lemma sl_in b lo hi : (0 <= lo <= hi)%Z -> (hi <= zlen b)%Z ->
  exists x, sl b lo hi = Ok x /\ zlen x = (hi - lo)%Z /\ piece x b.
Proof.
  intros H1 H2. unfold sl. destruct (Z.leb_spec 0 lo); [|lia]. destruct (Z.leb_spec lo hi); [|lia].
  destruct (Z.leb_spec hi (zlen b)); [|lia]. cbn [andb]. eexists. split; [reflexivity|]. split.
  - unfold zlen in *. rewrite take_length, drop_length. lia.
  - exists (take (Z.to_nat lo) b), (drop (Z.to_nat (hi - lo)) (drop (Z.to_nat lo) b)).
    by rewrite take_drop, take_drop.
Qed.
Lemma sl_from_in b lo : (0 <= lo <= zlen b)%Z -> exists x, sl_from b lo = Ok x /\ piece x b.
Proof. intros H. destruct (sl_in b lo (zlen b)) as (x & E & _ & Hp); [lia|lia|]. by exists x. Qed.
Lemma piece_trans x y z : piece x y -> piece y z -> piece x z.
Proof.
  intros (p & q & ->) (p' & q' & ->). exists (p' ++ p), (q ++ q'). by rewrite <- !app_assoc.
Qed.
Lemma piece_refl x : piece x x. Proof. exists [], []. by rewrite app_nil_r. Qed.
Lemma piece_bytes x y : piece x y -> is_bytes y -> is_bytes x.
Proof. intros (p & q & ->) H. apply is_bytes_app in H as [_ H]. by apply is_bytes_app in H as [H _]. Qed.
Lemma piece_length x y : piece x y -> (length x <= length y)%nat.
Proof. intros (p & q & ->). rewrite !app_length. lia. Qed.
Lemma fits_tuple ts : fits (TTuple ts) <-> Forall fits ts.
Proof.
  cbn [fits]. split; intros H.
  - induction ts as [|t ts IH]; constructor; [apply H|apply IH, H].
  - induction H as [|t ts Ht _ IH]; [done|]. by cbn [fold_right].
Qed.

Definition safe (data : list N) (t : aty) (r : res val) : Prop :=
  match r with Panic => False | Err => True | Ok v => from_data data v /\ value_of t v end.
Definition safe_list (data : list N) (ts : list aty) (r : res (list val)) : Prop :=
  match r with Panic => False | Err => True | Ok vs => Forall (from_data data) vs /\ Forall2 value_of ts vs end.

Definition safe_type (data : list N) (t : aty) : Prop := forall index out,
  (0 <= index)%Z -> piece out data -> safe data t (toGoType t index out).

Lemma fields_safe data ts : Forall (safe_type data) ts -> forall out idx virt, piece out data ->
  (0 <= idx + virt)%Z -> safe_list data ts (fields_loop toGoType out ts idx virt).
Proof.
  induction 1 as [|t ts Ht _ IH]; intros out idx virt Hp Hi; [cbn; split; constructor|].
  cbn [fields_loop].
  match goal with |- context [fields_loop _ _ _ (idx + 1)%Z ?v] => set (virt' := v) end.
  assert (0 <= idx + 1 + virt')%Z as Hi'.
  { unfold virt'. rewrite words_of_spec.
    replace (32 * Z.of_nat (words_of t) / 32)%Z with (Z.of_nat (words_of t)) by (rewrite Z.mul_comm, Z.div_mul; lia).
    destruct (_ && _); [lia|]. destruct (_ && _); lia. }
  specialize (Ht ((idx + virt) * 32)%Z out ltac:(lia) Hp). unfold safe in Ht.
  destruct (toGoType t _ out) as [v| |]; [|done|done]. cbn [rbind].
  specialize (IH out (idx + 1)%Z virt' Hp Hi'). unfold safe_list in IH.
  destruct (fields_loop _ _ ts _ _) as [vs| |]; [|done|done]. cbn [rbind safe_list].
  destruct Ht as [Ht1 Ht2], IH as [IH1 IH2]. split; constructor; done.
Qed.

Lemma list_safe data e out size : safe_type data e -> piece out data ->
  match forEachUnpack (toGoType e) (getTypeSize e) out 0 size with
  | Panic => False | Err => True
  | Ok v => exists vs, v = VList vs /\ from_data data v /\ Forall (value_of e) vs /\ zlen vs = size
  end.
Proof.
  intros He Hp. unfold forEachUnpack. destruct (Z.ltb_spec size 0) as [|Hs]; [done|].
  destruct (Z.ltb_spec (zlen out) (0 + 32 * size)) as [|Hl]; [done|].
  change 0%Z with ((0 + 0) * 32)%Z at 1. rewrite each_fields.
  pose proof (fields_safe data (replicate (Z.to_nat size) e)) as Hf.
  specialize (Hf ltac:(by apply Forall_replicate) out 0%Z 0%Z Hp ltac:(lia)). unfold safe_list in Hf.
  destruct (fields_loop _ _ _ _ _) as [vs| |]; [|done|done]. cbn [rbind].
  destruct Hf as [H1 H2]. exists vs. pose proof (Forall2_length _ _ _ H2) as Hlen. rewrite replicate_length in Hlen.
  split; [done|]. split; [constructor; [|done]|split].
  - pose proof (piece_length _ _ Hp). unfold zlen in *. lia.
  - clear - H2. remember (replicate _ e) as l eqn:E. assert (Forall (eq e) l) as Hl by (subst; by apply Forall_replicate).
    clear E. induction H2; constructor; apply Forall_cons in Hl as [-> Hl]; auto.
  - unfold zlen. lia.
Qed.

Lemma length_prefix_safe index out : (0 <= index)%Z -> (index + 32 <= zlen out)%Z ->
  match lengthPrefixPointsTo index out with
  | Panic => False | Err => True
  | Ok (b, l) => (0 <= b)%Z /\ (0 <= l)%Z /\ (b + l <= zlen out)%Z
  end.
Proof.
  intros H0 H1. unfold lengthPrefixPointsTo.
  destruct (sl_in out index (index + 32)) as (w & -> & _ & _); [lia|lia|]. cbn [rbind].
  destruct (Z.ltb_spec (zlen out) (num_of w + 32)); [done|]. destruct (2 ^ 63 <=? _)%Z; [done|].
  destruct (sl_in out (num_of w + 32 - 32) (num_of w + 32)) as (lw & -> & _ & _); [lia|lia|]. cbn [rbind].
  destruct (2 ^ 63 <=? _)%Z; [done|].
  destruct (Z.ltb_spec (zlen out) (num_of w + 32 + num_of lw)); [done|]. lia.
Qed.

Lemma to_signed_range w x : 1 <= w -> (0 <= x < 2 ^ Z.of_N w)%Z ->
  (- 2 ^ (Z.of_N w - 1) <= to_signed w x < 2 ^ (Z.of_N w - 1))%Z.
Proof.
  intros Hw Hx. unfold to_signed.
  assert (2 ^ Z.of_N w = 2 * 2 ^ (Z.of_N w - 1))%Z as E.
  { rewrite <- Z.pow_succ_r by lia. f_equal. lia. }
  rewrite E in *. set (h := (2 ^ (Z.of_N w - 1))%Z) in *. clearbody h.
  destruct (Z.ltb_spec x h); lia.
Qed.
Lemma last_piece w k : is_bytes w -> zlen w = 32%Z -> (0 <= k <= 32)%Z ->
  exists x, sl w (zlen w - k)%Z (zlen w) = Ok x /\ (0 <= num_of x < 256 ^ k)%Z.
Proof.
  intros Hb Hl Hk. destruct (sl_in w (zlen w - k)%Z (zlen w)) as (x & -> & Hx & Hp); [lia|lia|].
  exists x. split; [done|]. pose proof (num_of_bound x (piece_bytes _ _ Hp Hb)) as Hx2.
  replace (Z.of_nat (length x)) with k in Hx2 by (unfold zlen in *; lia). exact Hx2.
Qed.

Lemma int_typed u n w : is_bytes w -> zlen w = 32%Z ->
  exists z, ReadInteger u n w = Ok (VNum (machine_kind u n) z) /\ in_range u (value_bits n) z.
Proof.
  intros Hb Hl. unfold ReadInteger.
  assert (n = 8 \/ n = 16 \/ n = 32 \/ n = 64 \/
    (n =? 8) = false /\ (n =? 16) = false /\ (n =? 32) = false /\ (n =? 64) = false) as Hn by lia.
  destruct Hn as [->|[->|[->|[->|(E1 & E2 & E3 & E4)]]]].
  - destruct (last_piece w 1 Hb Hl) as (x & Hx & Hr); [lia|]. cbn [N.eqb Pos.eqb]. rewrite Hx. cbn [rbind].
    destruct u; (eexists; split; [reflexivity|]); cbn [value_bits in_range]; [exact Hr|by apply (to_signed_range 8)].
  - destruct (last_piece w 2 Hb Hl) as (x & Hx & Hr); [lia|]. cbn [N.eqb Pos.eqb]. rewrite Hx. cbn [rbind].
    destruct u; (eexists; split; [reflexivity|]); cbn [value_bits in_range]; [exact Hr|by apply (to_signed_range 16)].
  - destruct (last_piece w 4 Hb Hl) as (x & Hx & Hr); [lia|]. cbn [N.eqb Pos.eqb]. rewrite Hx. cbn [rbind].
    destruct u; (eexists; split; [reflexivity|]); cbn [value_bits in_range]; [exact Hr|by apply (to_signed_range 32)].
  - destruct (last_piece w 8 Hb Hl) as (x & Hx & Hr); [lia|]. cbn [N.eqb Pos.eqb]. rewrite Hx. cbn [rbind].
    destruct u; (eexists; split; [reflexivity|]); cbn [value_bits in_range]; [exact Hr|by apply (to_signed_range 64)].
  - assert (machine_kind u n = KBig) as ->.
    { rewrite <- machine_kind_eq. unfold reflectIntType. by rewrite E1, E2, E3, E4, !andb_false_r. }
    assert (value_bits n = 256)%Z as ->.
    { destruct n as [|p]; [done|]. repeat (destruct p as [p|p|]; try done). }
    rewrite E1, E2, E3, E4. pose proof (num_of_bound w Hb) as Hr.
    assert (0 <= num_of w < 2 ^ 256)%Z as Hr2.
    { replace (Z.of_nat (length w)) with 32%Z in Hr by (unfold zlen in Hl; lia). exact Hr. }
    destruct u; [eexists; split; [reflexivity|exact Hr2]|].
    rewrite testbit_255 by done. cbn [in_range]. change (256 - 1)%Z with 255%Z. unfold tt256m1.
    assert (2 ^ 256 = 2 * 2 ^ 255)%Z as E by reflexivity. rewrite E in *.
    set (h := (2 ^ 255)%Z) in *. clearbody h. clear E Hr.
    destruct (Z.leb_spec h (num_of w)); (eexists; split; [reflexivity|]); lia.
Qed.

Lemma toGo_safe data t : is_bytes data -> fits t -> safe_type data t.
Proof.
  intros Hdb. induction t as [n|n| | | | |n| |e IH|e k IH|ts IH] using aty_ind'; intros Hf index out Hi Hp;
    cbn [toGoType]; (destruct (Z.ltb_spec (zlen out) (index + 32)) as [|Hlen]; [done|]).
  1,2,3,6,7,8,10,11: destruct (sl_in out index (index + 32)) as (w & Ew & Hw & Hpw); [lia|lia|]; rewrite Ew; cbn [rbind];
     pose proof (piece_trans _ _ _ Hpw Hp) as Hpd; pose proof (piece_bytes _ _ Hpd Hdb) as Hwb;
     assert (zlen w = 32%Z) as Hw32 by lia.
  - destruct (int_typed false n w Hwb Hw32) as (z & -> & Hr). split; [constructor|by constructor].
  - destruct (int_typed true n w Hwb Hw32) as (z & -> & Hr). split; [constructor|by constructor].
  - unfold readBool. destruct (sl_in w 0 31) as (x & -> & _ & _); [lia|lia|]. cbn [rbind].
    destruct (existsb _ x); [done|]. destruct (w !! 31%nat) as [b|] eqn:Eb.
    + destruct (b =? 0); [cbn; split; constructor|]. destruct (b =? 1); [cbn; split; constructor|done].
    + apply lookup_ge_None in Eb. unfold zlen in Hw32. lia.
  - cbn [safe]. assert (exists x, BytesToAddress w = x /\ length x = 20%nat /\ piece x w) as (x & -> & Hx & Hpx).
    { unfold BytesToAddress. assert (length w = 32%nat) as E by (unfold zlen in Hw32; lia). rewrite E.
      change (20 <? 32)%nat with true. cbn match. change (32 - 20)%nat with 12%nat.
      assert (length (drop 12 w) = 20%nat) as E2 by (rewrite drop_length; lia). rewrite E2.
      eexists. split; [reflexivity|]. rewrite buf_put_all by (rewrite E2; done). change (replicate (20 - 20) 0) with (@nil N).
      cbn [app]. split; [done|]. exists (take 12 w), []. by rewrite app_nil_r, take_drop. }
    pose proof (piece_trans _ _ _ Hpx Hpd) as Hpx'.
    split; [by constructor|constructor; [by eapply piece_bytes|done]].
  - cbn [fits] in Hf. unfold ReadFixedBytes. destruct (sl_in w 0 (Z.of_nat n)) as (x & -> & Hx & Hpx); [lia|lia|]. cbn [rbind safe].
    pose proof (piece_trans _ _ _ Hpx Hpd) as Hpx'.
    split; [by constructor|constructor; [by eapply piece_bytes|unfold zlen in Hx; lia]].
  - unfold readFunctionType. destruct (sl_in w 24 32) as (g & -> & _ & _); [lia|lia|]. cbn [rbind].
    destruct (be_num g =? 0); [|done]. destruct (sl_in w 0 24) as (x & -> & Hx & Hpx); [lia|lia|]. cbn [rbind safe].
    pose proof (piece_trans _ _ _ Hpx Hpd) as Hpx'.
    split; [by constructor|constructor; [by eapply piece_bytes|unfold zlen in Hx; lia]].
  - (* array *)
    cbn [fits] in Hf. specialize (IH Hf). destruct (isDynamicType e).
    + destruct (sl_in w (zlen w - 8) (zlen w)) as (o & -> & _ & _); [lia|lia|]. cbn [rbind].
      destruct (Z.ltb_spec (zlen out) (num_of o)) as [|Ho]; [done|].
      destruct (sl_from_in out (num_of o)) as (x & -> & Hx); [lia|]. cbn [rbind].
      pose proof (list_safe data e x (Z.of_nat k) IH (piece_trans _ _ _ Hx Hp)) as HL.
      destruct (forEachUnpack _ _ _ _ _) as [v| |]; [|done|done].
      destruct HL as (vs & -> & H1 & H2 & H3). cbn [safe]. split; [done|].
      replace k with (length vs) by (unfold zlen in H3; lia). by constructor.
    + destruct (sl_from_in out index) as (x & -> & Hx); [lia|]. cbn [rbind].
      pose proof (list_safe data e x (Z.of_nat k) IH (piece_trans _ _ _ Hx Hp)) as HL.
      destruct (forEachUnpack _ _ _ _ _) as [v| |]; [|done|done].
      destruct HL as (vs & -> & H1 & H2 & H3). cbn [safe]. split; [done|].
      replace k with (length vs) by (unfold zlen in H3; lia). by constructor.
  - (* tuple *)
    apply fits_tuple in Hf.
    assert (Forall (safe_type data) ts) as Hts.
    { clear - IH Hf. induction IH as [|t ts Ht _ IHl]; [constructor|]. apply Forall_cons in Hf as [H1 H2]. constructor; auto. }
    destruct (existsb isDynamicType ts).
    + unfold tuplePointsTo. rewrite Ew. cbn [rbind].
      destruct (Z.ltb_spec (zlen out) (num_of w)) as [|Ho]; [done|]. destruct (2 ^ 63 <=? num_of w)%Z; [done|]. cbn [rbind].
      destruct (sl_from_in out (num_of w)) as (x & -> & Hx); [lia|]. cbn [rbind].
      pose proof (fields_safe data ts Hts x 0%Z 0%Z (piece_trans _ _ _ Hx Hp) ltac:(lia)) as HL. unfold safe_list in HL.
      destruct (fields_loop _ _ _ _ _) as [vs| |]; [|done|done]. cbn [rbind safe].
      destruct HL. split; constructor; done.
    + destruct (sl_from_in out index) as (x & -> & Hx); [lia|]. cbn [rbind].
      pose proof (fields_safe data ts Hts x 0%Z 0%Z (piece_trans _ _ _ Hx Hp) ltac:(lia)) as HL. unfold safe_list in HL.
      destruct (fields_loop _ _ _ _ _) as [vs| |]; [|done|done]. cbn [rbind safe].
      destruct HL. split; constructor; done.
  - pose proof (length_prefix_safe index out Hi Hlen) as HL. destruct (lengthPrefixPointsTo index out) as [[b l]| |]; [|done|done].
    cbn [rbind]. destruct (sl_in out b (b + l)) as (x & -> & _ & Hx); [lia|lia|]. cbn [rbind safe].
    pose proof (piece_trans _ _ _ Hx Hp) as Hx'. split; [by constructor|constructor; by eapply piece_bytes].
  - pose proof (length_prefix_safe index out Hi Hlen) as HL. destruct (lengthPrefixPointsTo index out) as [[b l]| |]; [|done|done].
    cbn [rbind]. destruct (sl_in out b (b + l)) as (x & -> & _ & Hx); [lia|lia|]. cbn [rbind safe].
    pose proof (piece_trans _ _ _ Hx Hp) as Hx'. split; [by constructor|constructor; by eapply piece_bytes].
  - cbn [fits] in Hf. specialize (IH Hf).
    pose proof (length_prefix_safe index out Hi Hlen) as HL. destruct (lengthPrefixPointsTo index out) as [[b l]| |]; [|done|done].
    cbn [rbind]. destruct (sl_from_in out b) as (x & -> & Hx); [lia|]. cbn [rbind].
    pose proof (list_safe data e x l IH (piece_trans _ _ _ Hx Hp)) as HS.
    destruct (forEachUnpack _ _ _ _ _) as [v| |]; [|done|done].
    destruct HS as (vs & -> & H1 & H2 & H3). cbn [safe]. split; [done|]. by constructor.
Qed.

(* ---------------------------------------------------------- what is checked *)
Definition checks (wb : nat) (t : aty) : Prop := forall v,
  (shaped t v /\ exists b, pack wb t v = Ok b) \/ (~ shaped t v /\ pack wb t v = Err).
Lemma pack_fields_checked wb ts : Forall (checks wb) ts -> forall vs off,
  (Forall2 shaped ts vs /\ exists b, pack_fields wb (pack wb) ts vs off = Ok b) \/
  (~ Forall2 shaped ts vs /\ pack_fields wb (pack wb) ts vs off = Err).
Proof.
  induction 1 as [|t ts Ht _ IH]; intros vs off.
  - destruct vs as [|v vs]; cbn [pack_fields]; [left; split; [constructor|by eexists]|right; split; [intros H; by inversion H|done]].
  - destruct vs as [|v vs]; cbn [pack_fields]; [right; split; [intros H; by inversion H|done]|].
    destruct (Ht v) as [[Hs [b ->]]|[Hs ->]]; cbn [rbind]; cycle 1.
    { right. split; [|done]. intros H. by inversion H. }
    destruct (isDynamicType t).
    + destruct (IH vs (off + Z.of_nat (length b))%Z) as [[H1 [[h tl] ->]]|[H1 ->]]; cbn [rbind].
      * left. split; [by constructor|by eexists].
      * right. split; [|done]. intros H. by inversion H.
    + destruct (IH vs off) as [[H1 [[h tl] ->]]|[H1 ->]]; cbn [rbind].
      * left. split; [by constructor|by eexists].
      * right. split; [|done]. intros H. by inversion H.
Qed.
Lemma Forall2_replicate_inv {A B} (P : A -> B -> Prop) e vs : Forall2 P (replicate (length vs) e) vs -> Forall (P e) vs.
Proof. induction vs as [|v vs IH]; cbn [length replicate]; intros H; inversion H; constructor; auto. Qed.
Lemma pack_checked wb t : checks wb t.
Proof.
  induction t as [n|n| | | | |n| |e IH|e k IH|ts IH] using aty_ind'; intros v; cbn [pack].
  1-8: destruct v as [k z|b|s|s|s|l|l]; cbn [packElement];
    try (right; split; [intros H; by inversion H|done]).
  - rewrite machine_kind_eq. destruct (decide _) as [->|Hn].
    + left. split; [constructor|by eexists].
    + right. split; [|done]. intros H. inversion H; subst. done.
  - rewrite machine_kind_eq. destruct (decide _) as [->|Hn].
    + left. split; [constructor|by eexists].
    + right. split; [|done]. intros H. inversion H; subst. done.
  - left. split; [constructor|by eexists].
  - left. split; [constructor|by eexists].
  - left. split; [constructor|by eexists].
  - left. split; [constructor|by eexists].
  - destruct (Nat.eqb_spec (length s) n) as [<-|Hn].
    + left. split; [by constructor|by eexists].
    + right. split; [|done]. intros H. by inversion H.
  - left. split; [constructor|by eexists].
  - destruct v as [k z|b|s|s|s|vs|l]; try (right; split; [intros H; by inversion H|done]).
    rewrite pack_elems_fields.
    destruct (pack_fields_checked wb (replicate (length vs) e) ltac:(by apply Forall_replicate) vs
      (if isDynamicType e then (getTypeSize e * Z.of_nat (length vs))%Z else 0%Z)) as [[H1 [[h tl] ->]]|[H1 ->]]; cbn [rbind].
    + left. split; [constructor; by apply Forall2_replicate_inv|by eexists].
    + right. split; [|done]. intros H. inversion H; subst. apply H1. by apply Forall2_replicate.
  - destruct v as [k' z|b|s|s|s|vs|l]; try (right; split; [intros H; by inversion H|done]).
    destruct (Nat.eqb_spec (length vs) k) as [<-|Hn]; cycle 1.
    { right. split; [|done]. intros H. inversion H. congruence. }
    rewrite pack_elems_fields.
    destruct (pack_fields_checked wb (replicate (length vs) e) ltac:(by apply Forall_replicate) vs
      (if isDynamicType e then (getTypeSize e * Z.of_nat (length vs))%Z else 0%Z)) as [[H1 [[h tl] ->]]|[H1 ->]]; cbn [rbind].
    + left. split; [constructor; by apply Forall2_replicate_inv|by eexists].
    + right. split; [|done]. intros H. inversion H; subst. apply H1. by apply Forall2_replicate.
  - destruct v as [k' z|b|s|s|s|l|vs]; try (right; split; [intros H; by inversion H|done]).
    destruct (pack_fields_checked wb ts IH vs (head_size ts)) as [[H1 [[h tl] ->]]|[H1 ->]]; cbn [rbind].
    + left. split; [by constructor|by eexists].
    + right. split; [|done]. intros H. by inversion H.
Qed.
