(** C87, C88: fixed-size byte values. *)
From Verif Require Import Base RlpSpec RlpModel RlpProps HexModel HexProps TextSpec BytesModel FixedSpec FixedModel.
From Verif Require MerkleSpec.
From stdpp Require Import list.
Open Scope N_scope.

Lemma set_bytes_spec n old b : length old = n -> set_bytes n old b = take (n - length b) old ++ drop (length b - n) b.
Proof.
  intros Ho. unfold set_bytes. destruct (Nat.ltb_spec n (length b)) as [Hl|Hl].
  - unfold buf_put. rewrite drop_length. replace (n - (length b - (length b - n)))%nat with 0%nat by lia.
    replace (n - length b)%nat with 0%nat by lia. rewrite (drop_ge old) by lia. by rewrite app_nil_r.
  - unfold buf_put. replace (length b - n)%nat with 0%nat by lia. rewrite drop_0, (drop_ge old) by lia. by rewrite app_nil_r.
Qed.
Lemma be_num_zeros k : be_num (replicate k 0) = 0.
Proof. induction k as [|k IH]; [done|]. cbn [replicate]. rewrite be_num_cons, IH. lia. Qed.
Lemma be_num_drop b k : is_bytes b -> be_num (drop k b) = be_num b mod 256 ^ N.of_nat (length b - k).
Proof.
  intros Hb. rewrite <- (take_drop k b) at 2. rewrite be_num_app. unfold lenN. rewrite drop_length.
  rewrite N.add_comm, N.mod_add by (apply N.pow_nonzero; lia). symmetry. apply N.mod_small.
  assert (is_bytes (drop k b)) as Hd by (by apply Forall_drop). pose proof (be_num_bound _ Hd) as H. unfold lenN in H. by rewrite drop_length in H.
Qed.
(** The value made from any bytes has the right size and is, as a big-endian number, that of the
    bytes without what does not fit. *)
Theorem C87_bytes : forall n b, is_bytes b ->
  fixed n (BytesTo n b) /\ be_num (BytesTo n b) = be_num b mod 256 ^ N.of_nat n.
Proof.
  intros n b Hb. unfold BytesTo, fixed. rewrite set_bytes_spec by apply replicate_length. split; [split|].
  - rewrite app_length, take_length, replicate_length, drop_length. lia.
  - apply Forall_app. split; [apply Forall_take, Forall_replicate; lia|by apply Forall_drop].
  - rewrite take_replicate, be_num_app, be_num_zeros, N.mul_0_l, N.add_0_l, be_num_drop by done.
    destruct (Nat.le_gt_cases n (length b)) as [Hl|Hl]; [by replace (length b - (length b - n))%nat with n by lia|].
    replace (length b - (length b - n))%nat with (length b) by lia. pose proof (be_num_bound b Hb) as Hbd. unfold lenN in Hbd. rewrite !N.mod_small; [done| |done].
    eapply N.lt_le_trans; [exact Hbd|]. apply N.pow_le_mono_r; lia.
Qed.
Lemma fixed_num_inj n a b : fixed n a -> fixed n b -> be_num a = be_num b -> a = b.
Proof. intros [Ha1 Ha2] [Hb1 Hb2]. apply be_num_inj_len; [done|done|congruence]. Qed.
Lemma fixed_bound n a : fixed n a -> be_num a < 256 ^ N.of_nat n.
Proof. intros [<- H]. by apply be_num_bound. Qed.
Lemma bytes_to_id n a : fixed n a -> BytesTo n a = a.
Proof.
  intros H. destruct (C87_bytes n a (proj2 H)) as [Hf Hn]. apply (fixed_num_inj n); [done|done|]. rewrite Hn. apply N.mod_small. by apply fixed_bound.
Qed.
(** SetBytes with enough bytes does not depend on the value before. *)
Theorem C87_set : forall n old b, length old = n -> (n <= length b)%nat -> set_bytes n old b = BytesTo n b.
Proof.
  intros n old b Ho Hb. unfold BytesTo. rewrite !set_bytes_spec by (done || apply replicate_length). by replace (n - length b)%nat with 0%nat by lia.
Qed.
(** Finding: with fewer bytes the old leading bytes stay. *)
Theorem C87_set_short_refuted : forall n, (0 < n)%nat -> exists old b, fixed n old /\ is_bytes b /\ set_bytes n old b <> BytesTo n b.
Proof.
  intros n Hn. exists (replicate n 1), []. split; [split; [apply replicate_length|apply Forall_replicate; lia]|]. split; [constructor|].
  unfold BytesTo. rewrite !set_bytes_spec by apply replicate_length. cbn [length]. rewrite Nat.sub_0_r, drop_nil, !app_nil_r, !take_replicate, Nat.min_id. destruct n; [lia|]. cbn. intros H. injection H as H. done.
Qed.
(** Numbers: a value becomes a number and back, different values are different numbers, and a
    number becomes its last n bytes whatever its sign. *)
Theorem C87_big : forall n a b z, fixed n a -> fixed n b ->
  BigTo n (Big a) = a /\ (Big a = Big b -> a = b) /\ Big (BigTo n z) = (Z.abs z mod 256 ^ Z.of_nat n)%Z.
Proof.
  intros n a b z Ha Hb. assert (forall m, be_num (BytesTo n (be_bytes m)) = m mod 256 ^ N.of_nat n) as Hv.
  { intros m. destruct (C87_bytes n (be_bytes m) (be_bytes_bytes m)) as [_ ->]. by rewrite be_num_bytes. }
  split; [|split].
  - unfold BigTo, Big. apply (fixed_num_inj n); [apply C87_bytes, be_bytes_bytes|done|]. rewrite Hv. rewrite N.mod_small; [lia|]. pose proof (fixed_bound n a Ha). lia.
  - unfold Big. intros E. apply (fixed_num_inj n); [done|done|lia].
  - unfold Big, BigTo. rewrite Hv, N2Z.inj_mod, N2Z.inj_pow, N2Z.inj_abs_N, nat_N_Z by (apply N.pow_nonzero; lia). done.
Qed.
(** The hash of an address is the same number, and gives the address back. *)
Theorem C87_address_hash : forall a, fixed 20 a -> fixed 32 (AddressHash a) /\ be_num (AddressHash a) = be_num a /\ BytesTo 20 (AddressHash a) = a.
Proof.
  intros a Ha. destruct (C87_bytes 32 a (proj2 Ha)) as [Hf Hn]. fold (AddressHash a) in *. pose proof (fixed_bound 20 a Ha) as Hb.
  assert (be_num (AddressHash a) = be_num a) as He. { rewrite Hn. apply N.mod_small. eapply N.lt_le_trans; [exact Hb|]. apply N.pow_le_mono_r; lia. }
  split; [done|]. split; [done|]. destruct (C87_bytes 20 (AddressHash a) (proj2 Hf)) as [Hf2 Hn2]. apply (fixed_num_inj 20); [done|done|].
  rewrite Hn2, He. by apply N.mod_small.
Qed.
Print Assumptions C87_bytes. Print Assumptions C87_set. Print Assumptions C87_big. Print Assumptions C87_address_hash.
(* digits *)
Lemma digit_of_nibble c : digit_of 16 c = decodeNibble c.
Proof.
  unfold digit_of, decodeNibble. destruct ((48 <=? c) && (c <=? 57)) eqn:E1.
  - apply andb_true_iff in E1 as [E1 E2]. apply N.leb_le in E1, E2. destruct (N.ltb_spec (c - 48) 16); [done|lia].
  - destruct (N.leb_spec 97 c), (N.leb_spec c 122), (N.leb_spec 65 c), (N.leb_spec c 90), (N.leb_spec c 70), (N.leb_spec c 102); cbn [andb]; try lia; try done;
      try (destruct (N.ltb_spec (c - 87) 16); [f_equal; lia|lia] || (destruct (N.ltb_spec (c - 55) 16); [f_equal; lia|lia]) ); try (destruct (N.ltb_spec (c - 87) 16); [lia|done]); try (destruct (N.ltb_spec (c - 55) 16); [lia|done]).
Qed.
Lemma places_num s : places 16 s = match nibbles s with Some ds => Some (num16 0 ds) | None => None end.
Proof.
  induction s as [|c s IH]; [done|]. cbn [places]. rewrite nibbles_cons, digit_of_nibble, IH. destruct (decodeNibble c) as [d|]; [|done].
  destruct (nibbles s) as [ds|] eqn:E; [|done]. f_equal. apply nibbles_length in E. unfold num16 at 2. cbn [foldl]. fold (num16 (0 * 16 + d) ds). rewrite (num16_acc ds (0 * 16 + d)).
  unfold lenN. rewrite E. lia.
Qed.
(** Any hexadecimal digits, with or without 0x or 0X, give the number they write, without what
    does not fit. *)
Theorem C87_hex_value : forall n s v, places 16 s = Some v ->
  fixed n (HexTo n s) /\ be_num (HexTo n s) = v mod 256 ^ N.of_nat n /\
  HexTo n (48 :: 120 :: s) = HexTo n s /\ HexTo n (48 :: 88 :: s) = HexTo n s.
Proof.
  intros n s v Hs. rewrite places_num in Hs. destruct (nibbles s) as [ds|] eqn:E; [|done]. injection Hs as <-.
  destruct (C48_from_hex_value s ds E) as (b & H1 & H2 & H3 & Hb & _ & Hn). unfold HexTo. rewrite H1, H2, H3. destruct (C87_bytes n b Hb) as [Hf Hv].
  split; [done|]. split; [by rewrite Hv, Hn|done].
Qed.
Lemma lower_case hash i c d : d < 16 -> c = nib_char d -> lower (hex_case hash i c) = c.
Proof.
  intros Hd ->. unfold hex_case. destruct (7 <? _); [|rewrite andb_false_r; by apply lower_nib]. rewrite andb_true_r. destruct (N.ltb_spec 57 (nib_char d)) as [Hl|Hl]; [|by apply lower_nib].
  revert Hl. unfold lower, nib_char. destruct (N.ltb_spec d 10); [lia|]. intros _. replace (87 + d - 32) with (55 + d) by lia.
  destruct (N.leb_spec 65 (55 + d)); [|lia]. destruct (N.leb_spec (55 + d) 90); [|lia]. cbn [andb]. lia.
Qed.
Lemma lower_imap hash s : forall k, Forall (fun c => exists d, d < 16 /\ c = nib_char d) s -> map lower (imap (fun i => hex_case hash (k + i)) s) = s.
Proof.
  induction s as [|c s IH]; intros k Hs; [done|]. rewrite imap_cons. cbn [map]. destruct (Forall_inv Hs) as (d & Hd & Hc). rewrite (lower_case _ _ _ d) by done. f_equal.
  erewrite imap_ext; [apply (IH (S k)), (Forall_inv_tail Hs)|]. intros i x _. cbn. f_equal. lia.
Qed.
Lemma hex_encode_digits a : is_bytes a -> Forall (fun c => exists d, d < 16 /\ c = nib_char d) (hex_encode a).
Proof.
  induction a as [|x a IH]; intros Ha; [constructor|]. pose proof (Forall_inv Ha) as Hx. cbn beta in Hx. cbn [hex_encode]. constructor; [|constructor; [|by apply IH, (Forall_inv_tail Ha)]].
  - exists (x / 16). split; [apply N.div_lt_upper_bound; lia|done].
  - exists (x mod 16). split; [apply N.mod_lt; lia|done].
Qed.
Lemma hex_encode_len a : length (hex_encode a) = (2 * length a)%nat.
Proof. induction a as [|x a IH]; cbn [hex_encode length]; lia. Qed.
Lemma address_hex_lower H a : is_bytes a -> map lower (drop 2 (AddressHex H a)) = hex_encode a.
Proof. intros Ha. unfold AddressHex. cbn [drop]. rewrite drop_0. apply (lower_imap _ _ 0). by apply hex_encode_digits. Qed.
Lemma is_hex_char c : IsHexCharacter c = match decodeNibble c with Some _ => true | None => false end.
Proof. unfold IsHexCharacter, decodeNibble. by destruct ((48 <=? c) && (c <=? 57)), ((65 <=? c) && (c <=? 70)), ((97 <=? c) && (c <=? 102)). Qed.
Lemma is_hex_places s : forallb IsHexCharacter s = true <-> exists v, places 16 s = Some v.
Proof.
  induction s as [|c s IH]; [cbn; split; eauto|]. cbn [forallb places]. rewrite andb_true_iff, IH, is_hex_char, digit_of_nibble. destruct (decodeNibble c) as [d|]; split.
  - intros [_ [v ->]]. eauto.
  - intros [v Hv]. destruct (places 16 s); [eauto|done].
  - intros [H _]. done.
  - intros [v Hv]. done.
Qed.
Lemma unprefixed_spec s : unprefixed s = if has0xPrefix s then drop 2 s else s.
Proof.
  destruct (has0xPrefix s) eqn:E.
  - apply prefix_spec in E as (x & r & -> & [Hx|Hx]); rewrite Hx; cbn; by rewrite drop_0.
  - unfold unprefixed. destruct s as [|a [|b r]]; [done| |].
    + destruct a as [|p]; [done|]. repeat (destruct p as [p|p|]; try done).
    + cbn [has0xPrefix] in E. destruct (N.eqb_spec a 48) as [Ha|Ha].
      * rewrite Ha. destruct (N.eqb_spec b 120) as [Hb|Hb]; [done|]. destruct (N.eqb_spec b 88) as [Hc|Hc]; [done|].
        destruct b as [|p]; [done|]. repeat (destruct p as [p|p|]; try done).
      * destruct a as [|p]; [done|]. repeat (destruct p as [p|p|]; try done).
Qed.
(** IsHexAddress: exactly forty hexadecimal digits after an optional prefix, and then
    HexToAddress is the number they write. *)
Theorem C87_is_hex_address : forall s, IsHexAddress s = true <->
  length (unprefixed s) = 40%nat /\ exists v, places 16 (unprefixed s) = Some v /\ be_num (HexTo 20 s) = v.
Proof.
  intros s. unfold IsHexAddress. rewrite <- unprefixed_spec. rewrite andb_true_iff, Nat.eqb_eq. change (2 * 20)%nat with 40%nat. split.
  - intros [Hl Hx]. split; [done|]. unfold IsHex in Hx. apply andb_true_iff in Hx as [_ Hx]. apply is_hex_places in Hx as [v Hv]. exists v. split; [done|].
    destruct (C87_hex_value 20 _ _ Hv) as (_ & Hn & Hp1 & Hp2). assert (HexTo 20 s = HexTo 20 (unprefixed s)) as He.
    { rewrite unprefixed_spec in *. destruct (has0xPrefix s) eqn:E; [|done]. apply prefix_spec in E as (x & r & -> & [Hx2|Hx2]); rewrite Hx2 in *; cbn [drop] in *; by rewrite drop_0 in *. }
    rewrite He, Hn. apply N.mod_small. rewrite places_num in Hv. destruct (nibbles (unprefixed s)) as [ds|] eqn:E; [|done]. injection Hv as <-.
    assert (length ds = 40%nat) as Hd by (by rewrite (nibbles_length _ _ E)). apply nibbles_spec in E as [Hf _]. pose proof (num16_bound ds Hf) as Hb. unfold lenN in Hb. rewrite Hd in Hb. exact Hb.
  - intros [Hl (v & Hv & _)]. split; [done|]. unfold IsHex. rewrite Hl. cbn [Nat.modulo Nat.divmod Nat.eqb andb fst snd Nat.sub]. apply is_hex_places. eauto.
Qed.
Lemma nibbles_lower s l : map lower s = hex_encode l -> is_bytes l -> exists ds, nibbles s = Some ds /\ num16 0 ds = be_num l.
Proof.
  intros Hs Hl. pose proof (proj2 (hex_decode_iff s l) (conj Hl Hs)) as Hd. assert (length s = (2 * length l)%nat) as Hlen by (rewrite <- hex_encode_len, <- Hs; by rewrite map_length).
  assert (exists ds, nibbles s = Some ds) as [ds E].
  { clear Hd Hlen. revert s Hs. induction l as [|x l IH]; intros s Hs.
    - destruct s; [by exists []|done].
    - destruct s as [|c [|d s]]; try done. cbn [map hex_encode] in Hs. injection Hs as H1 H2 H3. destruct (IH (Forall_inv_tail Hl) s H3) as [ds E]. rewrite !nibbles_cons, E.
      pose proof (Forall_inv Hl) as Hx. cbn beta in Hx. rewrite (proj2 (decodeNibble_spec c (x / 16))), (proj2 (decodeNibble_spec d (x mod 16))); [eauto| |].
      + split; [apply N.mod_lt; lia|done].
      + split; [apply N.div_lt_upper_bound; lia|done]. }
  exists ds. split; [done|]. destruct (hex_decode_value (length s) s ds) as (b & Hb & _ & _ & Hv); [lia|rewrite Hlen; lia|done|]. rewrite Hd in Hb. injection Hb as <-. symmetry. apply (Hv 0).
Qed.
(** Every address is read back from each of its texts, whatever the hash function that chooses
    upper and lower case, and its texts are addresses for IsHexAddress; likewise for hashes. *)
Theorem C87_hex_round_trip : forall H a h, fixed 20 a -> fixed 32 h ->
  HexTo 20 (AddressHex H a) = a /\ IsHexAddress (AddressHex H a) = true /\ map lower (AddressHex H a) = Encode a /\
  HexTo 20 (AddressString a) = a /\ IsHexAddress (AddressString a) = true /\ HexTo 32 (HashHex h) = h.
Proof.
  intros H a h Ha Hh.
  assert (forall n x s, fixed n x -> map lower s = hex_encode x -> exists v, places 16 s = Some v /\ be_num x = v /\ HexTo n s = x /\ HexTo n (48 :: 120 :: s) = x) as Hk.
  { intros n x s Hx Hs. destruct (nibbles_lower s x Hs (proj2 Hx)) as (ds & E & Hv). assert (places 16 s = Some (be_num x)) as Hp by (by rewrite places_num, E, Hv).
    exists (be_num x). split; [done|]. split; [done|]. destruct (C87_hex_value n s _ Hp) as (Hf & Hn & -> & _). assert (HexTo n s = x) as ->; [|done]. apply (fixed_num_inj n); [done|done|]. rewrite Hn. apply N.mod_small. by apply fixed_bound. }
  pose proof (address_hex_lower H a (proj2 Ha)) as Hlo. set (t := drop 2 (AddressHex H a)) in *. assert (AddressHex H a = 48 :: 120 :: t) as ->. { unfold t, AddressHex. cbn [drop]. by rewrite drop_0. }
  assert (length t = 40%nat) as Hlt. { rewrite <- (map_length lower t), Hlo, hex_encode_len, (proj1 Ha). done. }
  destruct (Hk 20%nat a t Ha Hlo) as (v & Hp & Hv & H1 & H2). destruct (Hk 20%nat a (hex_encode a) Ha (lower_hex_encode a (proj2 Ha))) as (v' & Hp' & Hv' & H1' & H2').
  destruct (Hk 32%nat h (hex_encode h) Hh (lower_hex_encode h (proj2 Hh))) as (_ & _ & _ & _ & H2'').
  assert (unprefixed (hex_encode a) = hex_encode a) as Hu.
  { rewrite unprefixed_spec. assert (has0xPrefix (hex_encode a) = false) as ->; [|done]. apply not_true_iff_false. intros E. apply prefix_spec in E as (x & r & E & Hx).
    rewrite E in Hp'. cbn [places] in Hp'. destruct Hx as [Hx|Hx]; rewrite Hx in Hp'; cbn in Hp'; destruct (places 16 r); done. }
  split; [done|]. split; [apply C87_is_hex_address; cbn [unprefixed]; rewrite H2; eauto|]. split; [cbn [map]; by rewrite Hlo|]. split; [done|]. split; [|done].
  apply C87_is_hex_address. unfold AddressString. rewrite Hu, H1', hex_encode_len, (proj1 Ha). eauto.
Qed.
(** JSON and other text: a value is read from exactly the texts that are its hexadecimal text
    after 0x up to upper and lower case, in particular from its own. *)
Theorem C87_text : forall n a s, (0 < n)%nat ->
  (UnmarshalText n s = HOk a <-> fixed n a /\ map lower s = MarshalText a) /\
  (fixed n a -> UnmarshalText n (MarshalText a) = HOk a).
Proof.
  intros n a s Hn. unfold UnmarshalText, MarshalText, fixed. assert (forall s, UnmarshalFixed true s n = HOk a <-> (length a = n /\ is_bytes a) /\ map lower s = Encode a) as Hk.
  { intros t. destruct (C48_unmarshal_fixed t n a) as [-> _]. split; [|tauto]. intros (H1 & H2 & [H3|[_ H3]]); [done|]. rewrite H3 in H1. cbn in H1. lia. }
  split; [apply Hk|]. intros Hf. apply Hk. split; [done|]. unfold Encode. cbn [map]. rewrite lower_hex_encode by apply Hf. done.
Qed.
(** Node ids: text without prefix is read back; any even number of digits gives a node id. *)
Theorem C87_node_text : forall s a, (fixed 64 a -> ParseNodeID (NodeIDInfo a) = Some a) /\
  (ParseNodeID s = Some a <-> exists v, (length s mod 2 = 0)%nat /\ places 16 s = Some v /\ fixed 64 a /\ be_num a = v mod 256 ^ 64).
Proof.
  intros s a. assert (forall s a, ParseNodeID s = Some a <-> exists v, (length s mod 2 = 0)%nat /\ places 16 s = Some v /\ fixed 64 a /\ be_num a = v mod 256 ^ 64) as Hk.
  { clear s a. intros s a. unfold ParseNodeID. split.
    - destruct (hex_decode s) as [b [e|]] eqn:E; [done|]. intros Hs. injection Hs as <-. apply hex_decode_iff in E as [Hb Hl].
      destruct (nibbles_lower s b Hl Hb) as (ds & Ed & Hv). destruct (C87_bytes 64 b Hb) as [Hf Hn]. exists (be_num b). split; [|split; [|done]].
      + rewrite <- (map_length lower s), Hl, hex_encode_len. lia.
      + by rewrite places_num, Ed, Hv.
    - intros (v & Hl & Hp & Hf & Hn). rewrite places_num in Hp. destruct (nibbles s) as [ds|] eqn:E; [|done]. injection Hp as <-.
      destruct (hex_decode_value (length s) s ds) as (b & Hd & Hb & _ & Hv); [lia|done|done|]. rewrite Hd. f_equal. destruct (C87_bytes 64 b Hb) as [Hf2 Hn2].
      apply (fixed_num_inj 64); [done|done|]. rewrite Hn2, Hn. by rewrite <- (Hv 0). }
  split; [|apply Hk]. intros Ha. unfold ParseNodeID, NodeIDInfo. rewrite (proj2 (hex_decode_iff _ a)); [|split; [apply Ha|apply lower_hex_encode, Ha]]. by rewrite bytes_to_id.
Qed.
(** A list of texts gives node ids only if each of them does. *)
Theorem C87_strings : forall ss l, StringsToNodeIDs (Some ss) = Some (Some l) <-> Forall2 (fun s x => ParseNodeID s = Some x) ss l.
Proof.
  intros ss l. assert (forall ss l, parse_strings ss = Some l <-> Forall2 (fun s x => ParseNodeID s = Some x) ss l) as Hk.
  { clear. intros ss. induction ss as [|s ss IH]; intros l; cbn [parse_strings].
    - split; [intros [= <-]; constructor|]. intros H. by inversion H.
    - split.
      + destruct (ParseNodeID s) as [x|] eqn:E; [|done]. destruct (parse_strings ss) as [l'|]; [|done]. intros [= <-]. constructor; [done|]. by apply IH.
      + intros H. inversion H as [|? x ? l' Hx Hl]; subst. rewrite Hx. apply IH in Hl. by rewrite Hl. }
  unfold StringsToNodeIDs. rewrite <- Hk. destruct (parse_strings ss); split; congruence.
Qed.
(* lists of node ids *)
Lemma ids_loop_spec fuel : forall p s, (length s - p <= fuel * 64)%nat -> (p <= length s)%nat -> ((length s - p) mod 64 = 0)%nat -> is_bytes s ->
  Forall (fixed 64) (ids_loop fuel p s) /\ concat (ids_loop fuel p s) = drop p s /\ idbs_loop fuel p s = ids_loop fuel p s.
Proof.
  induction fuel as [|f IH]; intros p s Hf Hp Hm Hb; cbn [ids_loop idbs_loop].
  - rewrite drop_ge by lia. split; [constructor|done].
  - destruct (Nat.ltb_spec p (length s)) as [Hl|Hl]; [|rewrite drop_ge by lia; split; [constructor|done]].
    assert (64 <= length s - p)%nat as H64. { pose proof (Nat.div_mod (length s - p) 64 ltac:(lia)) as Hd. destruct ((length s - p) / 64)%nat; lia. }
    assert (fixed 64 (take 64 (drop p s))) as Hfx. { split; [rewrite take_length, drop_length; lia|by apply Forall_take, Forall_drop]. }
    destruct (IH (p + 64)%nat s) as (H1 & H2 & H3); [lia|lia| |done|].
    { replace (length s - p)%nat with ((length s - (p + 64)) + 1 * 64)%nat in Hm by lia. by rewrite Nat.mod_add in Hm by lia. }
    rewrite (bytes_to_id 64) by done. split; [by constructor|]. split.
    + cbn [concat]. rewrite H2, <- drop_drop. apply take_drop.
    + rewrite H3. f_equal. unfold buf_put. rewrite (drop_ge (replicate 64 0)) by (rewrite replicate_length, (proj1 Hfx); lia). cbn [take app]. by rewrite app_nil_r.
Qed.
Lemma pack_loop_spec ids : forall i bs, Forall (fixed 64) ids -> length bs = ((i + length ids) * 64)%nat -> pack_loop i ids bs = take (i * 64) bs ++ concat ids.
Proof.
  induction ids as [|x ids IH]; intros i bs Hf Hl; cbn [pack_loop concat].
  - rewrite app_nil_r, take_ge; [done|]. cbn [length] in Hl. lia.
  - destruct (Forall_inv Hf) as [Hx _]. cbn [length] in Hl. rewrite IH.
    + unfold buf_put. rewrite app_assoc, take_app_le by (rewrite app_length, take_length; lia). rewrite (take_ge (_ ++ x)) by (rewrite app_length, take_length; lia). by rewrite app_assoc.
    + by apply Forall_inv_tail in Hf.
    + unfold buf_put. rewrite !app_length, take_length, drop_length. lia.
Qed.
(** Node ids end to end: packing is concatenation, parsing refuses exactly the lengths that are
    no multiple of 64, and each undoes the other. *)
Theorem C87_node_list : forall ids s, Forall (fixed 64) ids -> is_bytes s ->
  PackNodeIdsToBytes ids = concat ids /\
  ParseBytesToNodeIds (PackNodeIdsToBytes ids) = Some ids /\
  (ParseBytesToNodeIds s = None <-> (length s mod 64 <> 0)%nat) /\
  (forall l, ParseBytesToNodeIds s = Some l -> Forall (fixed 64) l /\ PackNodeIdsToBytes l = s) /\
  ParseBytesToNodeIdBytes s = ParseBytesToNodeIds s.
Proof.
  intros ids s Hids Hs. assert (forall ids, Forall (fixed 64) ids -> PackNodeIdsToBytes ids = concat ids) as Hpack.
  { intros l Hl. unfold PackNodeIdsToBytes. destruct l as [|x l]; [done|]. rewrite pack_loop_spec; [done|done|]. by rewrite replicate_length. }
  assert (forall s, is_bytes s -> (length s mod 64 = 0)%nat -> Forall (fixed 64) (ids_loop (length s) 0 s) /\ concat (ids_loop (length s) 0 s) = s /\ idbs_loop (length s) 0 s = ids_loop (length s) 0 s) as Hloop.
  { intros t Ht Hm. destruct (ids_loop_spec (length t) 0 t) as (H1 & H2 & H3); [lia|lia|by rewrite Nat.sub_0_r|done|]. by rewrite drop_0 in H2. }
  assert (forall a b : list (list N), Forall (fixed 64) a -> Forall (fixed 64) b -> concat a = concat b -> a = b) as Hinj.
  { intros a. induction a as [|x a IH]; intros b Ha Hb E.
    - destruct b as [|y b]; [done|]. destruct (Forall_inv Hb) as [Hy _]. apply (f_equal length) in E. cbn [concat] in E. rewrite app_length in E. cbn in E. lia.
    - destruct b as [|y b].
      + destruct (Forall_inv Ha) as [Hx _]. apply (f_equal length) in E. cbn [concat] in E. rewrite app_length in E. cbn in E. lia.
      + destruct (Forall_inv Ha) as [Hx _]. destruct (Forall_inv Hb) as [Hy _]. cbn [concat] in E. apply app_inj_1 in E as [E1 E2]; [|congruence]. f_equal; [done|]. apply IH; [by apply Forall_inv_tail in Ha|by apply Forall_inv_tail in Hb|done]. }
  split; [by apply Hpack|]. split; [|split; [|split]].
  - rewrite Hpack by done. unfold ParseBytesToNodeIds. assert (is_bytes (concat ids) /\ length (concat ids) = (length ids * 64)%nat) as [Hb Hl].
    { clear -Hids. induction ids as [|x ids IH]; [split; [constructor|done]|]. destruct (Forall_inv Hids) as [Hx1 Hx2]. destruct IH as [H1 H2]; [by apply Forall_inv_tail in Hids|]. cbn [concat length]. split; [by apply Forall_app|rewrite app_length; lia]. }
    assert (length (concat ids) mod 64 = 0)%nat as Hm by (rewrite Hl; by apply Nat.mod_mul). rewrite Hm. cbn [Nat.eqb negb]. f_equal. destruct (Hloop _ Hb Hm) as (H1 & H2 & _). by apply Hinj.
  - unfold ParseBytesToNodeIds. destruct (Nat.eqb_spec (length s mod 64) 0); cbn [negb]; split; done.
  - intros l. unfold ParseBytesToNodeIds. destruct (Nat.eqb_spec (length s mod 64) 0) as [Hm|]; cbn [negb]; [|done]. intros [= <-]. destruct (Hloop s Hs Hm) as (H1 & H2 & _). split; [done|]. by rewrite Hpack.
  - unfold ParseBytesToNodeIds, ParseBytesToNodeIdBytes. destruct (Nat.eqb_spec (length s mod 64) 0) as [Hm|]; cbn [negb]; [|done]. f_equal. by apply Hloop.
Qed.
(** Comparison: nil comes first, then the values in the order of their big-endian numbers. *)
Lemma bytes_compare_spec n : forall a b, fixed n a -> fixed n b ->
  bytes_compare a b = match Z.compare (Z.of_N (be_num a)) (Z.of_N (be_num b)) with Lt => -1 | Eq => 0 | Gt => 1 end%Z.
Proof.
  induction n as [|n IH]; intros a b [Ha1 Ha2] [Hb1 Hb2].
  - destruct a; [|done]. destruct b; done.
  - destruct a as [|x a]; [done|]. destruct b as [|y b]; [done|]. cbn [bytes_compare]. injection Ha1 as Ha1. injection Hb1 as Hb1.
    assert (fixed n a) as Ha by (split; [done|by apply Forall_inv_tail in Ha2]). assert (fixed n b) as Hb by (split; [done|by apply Forall_inv_tail in Hb2]).
    rewrite !be_num_cons. unfold lenN. rewrite Ha1, Hb1. pose proof (fixed_bound n a Ha) as Hba. pose proof (fixed_bound n b Hb) as Hbb. set (B := 256 ^ N.of_nat n) in *.
    destruct (N.ltb_spec x y) as [Hxy|Hxy]; [|destruct (N.ltb_spec y x) as [Hyx|Hyx]].
    + destruct (Z.compare_spec (Z.of_N (x * B + be_num a)) (Z.of_N (y * B + be_num b))); [nia|done|nia].
    + destruct (Z.compare_spec (Z.of_N (x * B + be_num a)) (Z.of_N (y * B + be_num b))); [nia|nia|done].
    + assert (x = y) as Hxe by lia. rewrite Hxe, (IH a b Ha Hb).
      destruct (Z.compare_spec (Z.of_N (be_num a)) (Z.of_N (be_num b))), (Z.compare_spec (Z.of_N (y * B + be_num a)) (Z.of_N (y * B + be_num b))); try done; lia.
Qed.
Theorem C87_order : forall n a b, (forall x, a = Some x -> fixed n x) -> (forall x, b = Some x -> fixed n x) ->
  Cmp a b = match Z.compare (rank a) (rank b) with Lt => -1 | Eq => 0 | Gt => 1 end%Z /\
  (Cmp a b = 0%Z <-> a = b) /\ (Equal a b = true <-> a = b) /\
  (forall x y, a = Some x -> b = Some y -> (HashLess x y = true <-> be_num x < be_num y)).
Proof.
  intros n a b Ha Hb. assert (Cmp a b = match Z.compare (rank a) (rank b) with Lt => -1 | Eq => 0 | Gt => 1 end%Z) as Hc.
  { destruct a as [x|], b as [y|]; cbn [Cmp rank]; [apply (bytes_compare_spec n); auto| | |done]; by destruct (be_num _). }
  split; [done|]. split; [|split].
  - rewrite Hc. split.
    + destruct (Z.compare_spec (rank a) (rank b)) as [E| |]; [|done|done]. intros _. destruct a as [x|], b as [y|]; cbn [rank] in E; [|lia|lia|done]. f_equal. apply (fixed_num_inj n); auto. lia.
    + intros ->. by rewrite Z.compare_refl.
  - destruct a as [x|], b as [y|]; cbn [Equal]; [|split; done..]. rewrite bool_decide_eq_true. split; congruence.
  - intros x y -> ->. unfold HashLess. rewrite (bytes_compare_spec n) by auto. rewrite Z.ltb_lt. destruct (Z.compare_spec (Z.of_N (be_num x)) (Z.of_N (be_num y))); lia.
Qed.
(** The form for RLP: every pointer but one to the zero value survives. *)
Theorem C87_rlp_form : forall n p, FromRLP n (Some (ForRLP n p)) = if bool_decide (p = Some (replicate n 0)) then None else p.
Proof.
  intros n [a|]; cbn [ForRLP FromRLP]; [|by rewrite bool_decide_true].
  destruct (decide (a = replicate n 0)) as [->|Hn]; [by rewrite !bool_decide_true|]. rewrite !bool_decide_false; [done|congruence|done].
Qed.
Theorem C87_rlp_zero_refuted : forall n, exists p, FromRLP n (Some (ForRLP n p)) <> p.
Proof. intros n. exists (Some (replicate n 0)). rewrite C87_rlp_form, bool_decide_true by done. done. Qed.
Print Assumptions C87_hex_value. Print Assumptions C87_is_hex_address. Print Assumptions C87_hex_round_trip. Print Assumptions C87_text.
Print Assumptions C87_node_text. Print Assumptions C87_strings. Print Assumptions C87_node_list. Print Assumptions C87_order. Print Assumptions C87_rlp_form.
(* contract addresses *)
Section create.
Context (H : list N -> list N) (Hlen : forall x, fixed 32 (H x)).
Lemma tail20_fixed x : fixed 20 (tail20 H x).
Proof. destruct (Hlen x) as [H1 H2]. split; [unfold tail20; rewrite drop_length, H1; done|by apply Forall_drop]. Qed.
Lemma rlp_str_len bs : (length bs < 56)%nat -> (length (rlp (Str bs)) <= S (length bs))%nat.
Proof.
  intros Hl. assert (lenN bs <? 56 = true) as Hb by (unfold lenN; lia). destruct bs as [|x [|y bs]].
  - cbn [rlp]. unfold rlp_head. rewrite Hb. cbn. lia.
  - cbn [rlp]. destruct (x <? 128); cbn; lia.
  - cbn [rlp]. unfold rlp_head. rewrite Hb. cbn [length app]. lia.
Qed.
Lemma create_shape a n : fixed 20 a -> n < two64 -> item_ok (Lst [Str a; Str (be_bytes n)]) /\ lenN (create_input a n) < two64 /\ exists r, create_input a n = r /\ hd 0 r < 255.
Proof.
  intros [Ha1 Ha2] Hn. assert (length (be_bytes n) <= 8)%nat as Hl8 by (apply be_bytes_length_le; exact Hn).
  pose proof (rlp_str_len a ltac:(lia)) as L1. pose proof (rlp_str_len (be_bytes n) ltac:(lia)) as L2.
  split; [cbn; split; [done|]; split; [apply be_bytes_bytes|done]|]. unfold create_input. cbn [rlp]. fold (rlp (Str a)) (rlp (Str (be_bytes n))). set (p := rlp (Str a) ++ rlp (Str (be_bytes n)) ++ []).
  assert (length p <= 30)%nat as Hp by (unfold p; rewrite !app_length; cbn [length]; lia). unfold rlp_head. destruct (N.ltb_spec (lenN p) 56) as [H1|H1]; [|unfold lenN in H1; lia]. split.
  - unfold lenN. cbn [app length]. unfold two64. lia.
  - eexists. split; [reflexivity|]. cbn [app hd]. unfold lenN. lia.
Qed.
Lemma create_eq a n : fixed 20 a -> n < two64 -> CreateAddress H a n = tail20 H (create_input a n).
Proof.
  intros Ha Hn. destruct (create_shape a n Ha Hn) as (_ & Hl & _). unfold CreateAddress. rewrite C03_encoder_is_recursive_rlp by exact Hl. fold (create_input a n). fold (tail20 H (create_input a n)). apply bytes_to_id, tail20_fixed.
Qed.
Lemma create2_eq a s c : CreateAddress2 H a s c = tail20 H (create2_input a s c).
Proof. unfold CreateAddress2. fold (create2_input a s c). fold (tail20 H (create2_input a s c)). apply bytes_to_id, tail20_fixed. Qed.
(** The address of a contract is the tail of the hash of its input. Two contracts have the same
    address only if creator and nonce, or creator, salt and code hash, are the same, unless the
    hash function collides on the two inputs; and a contract created with a nonce never has the
    address of one created with a salt. *)
Theorem C87_create : forall a b n m s t c d, fixed 20 a -> fixed 20 b -> n < two64 -> m < two64 -> length s = 32%nat -> length t = 32%nat ->
  CreateAddress H a n = tail20 H (create_input a n) /\ CreateAddress2 H a s c = tail20 H (create2_input a s c) /\
  (MerkleSpec.inj_on (tail20 H) [create_input a n; create_input b m] -> CreateAddress H a n = CreateAddress H b m -> a = b /\ n = m) /\
  (MerkleSpec.inj_on (tail20 H) [create2_input a s c; create2_input b t d] -> CreateAddress2 H a s c = CreateAddress2 H b t d -> a = b /\ s = t /\ c = d) /\
  (MerkleSpec.inj_on (tail20 H) [create_input a n; create2_input b t d] -> CreateAddress H a n <> CreateAddress2 H b t d).
Proof.
  intros a b n m s t c d Ha Hb Hn Hm Hs Ht. rewrite !create_eq, !create2_eq by done. split; [done|]. split; [done|].
  destruct (create_shape a n Ha Hn) as (Oa & La & r & Hr & Hhd). destruct (create_shape b m Hb Hm) as (Ob & Lb & _). split; [|split].
  - intros Hinj E. apply Hinj in E; [|set_solver..]. unfold create_input in *. rewrite <- (C03_encoder_is_recursive_rlp _ La), <- (C03_encoder_is_recursive_rlp _ Lb) in E.
    apply (f_equal decode_bytes) in E. rewrite (C01_rlp_round_trip _ Oa La), (C01_rlp_round_trip _ Ob Lb) in E. injection E as E1 E2. split; [done|]. by rewrite <- (be_num_bytes n), <- (be_num_bytes m), E2.
  - intros Hinj E. apply Hinj in E; [|set_solver..]. unfold create2_input in E. injection E as E. apply app_inj_1 in E as [E1 E]; [|by rewrite (proj1 Ha), (proj1 Hb)]. apply app_inj_1 in E as [E2 E3]; [done|congruence].
  - intros Hinj E. apply Hinj in E; [|set_solver..]. rewrite Hr in E. rewrite E in Hhd. cbn in Hhd. lia.
Qed.
(** The address of a public key: only keys that begin with 4 have one. *)
Theorem C87_public_key : forall p q, 
  (AddressFromPubSlice H p = None <-> hd 0 p <> 4) /\
  (hd 0 p = 4 -> AddressFromPubSlice H p = Some (tail20 H (tail p))) /\
  (MerkleSpec.inj_on (tail20 H) [tail p; tail q] -> AddressFromPubSlice H p <> None -> AddressFromPubSlice H p = AddressFromPubSlice H q -> p = q).
Proof.
  assert (forall x, buf_put 0 (take 20 (drop 12 (H x))) (replicate 20 0) = tail20 H x) as Hp.
  { intros x. destruct (tail20_fixed x) as [H1 _]. fold (tail20 H x). rewrite take_ge by lia. unfold buf_put. rewrite (drop_ge (replicate 20 0)) by (rewrite replicate_length; lia). cbn [take app]. by rewrite app_nil_r. }
  intros p q. split; [|split].
  - destruct p as [|x p]; cbn [AddressFromPubSlice hd]; [split; done|]. destruct (N.eqb_spec x 4); split; done.
  - destruct p as [|x p]; cbn [AddressFromPubSlice hd tail]; [done|]. intros ->. by rewrite Hp.
  - intros Hinj Hn E. destruct p as [|x p]; [done|]. cbn [AddressFromPubSlice] in Hn, E. destruct (N.eqb_spec x 4) as [Hx|]; [|done]. destruct q as [|y q]; [done|]. cbn [AddressFromPubSlice] in E. destruct (N.eqb_spec y 4) as [Hy|]; [|done].
    rewrite !Hp in E. injection E as E. cbn [tail] in Hinj. apply Hinj in E; [congruence|set_solver..].
Qed.
End create.
Print Assumptions C87_create. Print Assumptions C87_public_key.
(** Non-vacuous: a toy hash function without collision on two contract inputs. *)
Example C87_examples :
  let a := BytesTo 20 [1; 2; 171] in
  fixed 20 a /\ BytesTo 2 [1; 2; 3] = [2; 3] /\ BytesTo 4 [1; 2; 3] = [0; 1; 2; 3] /\ set_bytes 4 [9; 9; 9; 9] [1; 2; 3] = [9; 1; 2; 3] /\
  drop 39 (AddressHex (fun _ => replicate 32 255) a) = [50; 65; 66] /\ drop 39 (AddressHex (fun _ => replicate 32 0) a) = [50; 97; 98] /\
  HexTo 20 [48; 120; 49; 48; 50; 97; 66] = a /\ IsHexAddress [48; 120; 49; 48; 50; 97; 66] = false /\
  Cmp (Some a) None = 1%Z /\ Cmp (Some [1; 2]) (Some [1; 3]) = (-1)%Z /\ ParseBytesToNodeIds [1; 2] = None.
Proof. cbv zeta. split; [apply C87_bytes; repeat constructor|]. repeat split; vm_compute; reflexivity. Qed.
Definition toy_H (x : list N) : list N := replicate 12 0 ++ BytesTo 20 (map (fun b => b mod 256) (drop 1 x)).
Example C87_create_example :
  let a := replicate 20 1 in let b := replicate 20 2 in
  (forall x, fixed 32 (toy_H x)) /\
  MerkleSpec.inj_on (tail20 toy_H) [create_input a 1; create_input b 1] /\ MerkleSpec.inj_on (tail20 toy_H) [create2_input a (replicate 32 3) []; create2_input a (replicate 32 4) []].
Proof.
  cbv zeta. split; [|split].
  - intros x. destruct (C87_bytes 20 (map (fun b => b mod 256) (drop 1 x))) as [[H1 H2] _]; [apply Forall_map, Forall_true; intros y; apply N.mod_lt; lia|]. unfold toy_H. split; [rewrite app_length, replicate_length, H1; done|]. apply Forall_app. split; [apply Forall_replicate; lia|done].
  - intros x y Hx Hy E. apply elem_of_cons in Hx as [Hx|Hx]; [|apply elem_of_list_singleton in Hx]; (apply elem_of_cons in Hy as [Hy|Hy]; [|apply elem_of_list_singleton in Hy]); subst; try done; exfalso; revert E; vm_compute; discriminate.
  - intros x y Hx Hy E. apply elem_of_cons in Hx as [Hx|Hx]; [|apply elem_of_list_singleton in Hx]; (apply elem_of_cons in Hy as [Hy|Hy]; [|apply elem_of_list_singleton in Hy]); subst; try done; exfalso; revert E; vm_compute; discriminate.
Qed.
(** C88: the hash of a header property. Chain, height and index are all in what is hashed. *)
Theorem C88_header_index : forall id h i id' h' i', id < 2 ^ 32 -> id' < 2 ^ 32 -> h < two64 -> h' < two64 -> i < 256 -> i' < 256 ->
  let x := HeaderIndexInput (ToHeaderPosHashBuffer id h) i in
  let y := HeaderIndexInput (ToHeaderPosHashBuffer id' h') i' in
  x = be_fixed 4 id ++ be_fixed 8 h ++ [i] /\ (x = y -> id = id' /\ h = h' /\ i = i') /\
  (forall H, MerkleSpec.inj_on H [x; y] -> H x = H y -> id = id' /\ h = h' /\ i = i').
Proof.
  intros id h i id' h' i' Hid Hid' Hh Hh' Hi Hi'.
  assert (forall id h i, HeaderIndexInput (ToHeaderPosHashBuffer id h) i = be_fixed 4 id ++ be_fixed 8 h ++ [i]) as Hk.
  { clear. intros id h i. unfold ToHeaderPosHashBuffer, HeaderIndexInput. generalize (be_fixed_length 4 id) (be_fixed_length 8 h). generalize (be_fixed 4 id) (be_fixed 8 h). intros p q Hp Hq.
    do 5 (destruct p as [|? p]; try done). do 9 (destruct q as [|? q]; try done). }
  intros x y. assert (x = y -> id = id' /\ h = h' /\ i = i') as Hi2.
  { unfold x, y. rewrite !Hk. intros E. apply app_inj_1 in E as [E1 E]; [|by rewrite !be_fixed_length]. apply app_inj_1 in E as [E2 E3]; [|by rewrite !be_fixed_length]. injection E3 as E3.
    apply (f_equal be_num) in E1, E2. rewrite !be_num_fixed in E1, E2. change (256 ^ N.of_nat 4) with (2 ^ 32) in E1. change (256 ^ N.of_nat 8) with two64 in E2. rewrite !N.mod_small in E1, E2 by done. done. }
  split; [apply Hk|]. split; [done|]. intros H Hinj E. apply Hi2. apply Hinj in E; [done|set_solver..].
Qed.
(** Hash comparison: nil, empty and the hash of nothing are one value, all others differ. *)
Theorem C88_hash_equals : forall nilhash a b p q,
  let norm x := if bool_decide (x = []) then nilhash else x in
  let normp x := default nilhash x in
  (HashSliceEquals nilhash a b = true <-> norm a = norm b) /\ (HashEquals nilhash p q = true <-> normp p = normp q).
Proof.
  intros nilhash a b p q norm normp. split.
  - unfold HashSliceEquals, IsNilHash, norm. assert (forall l : list N, (length l =? 0)%nat = bool_decide (l = [])) as He by (intros [|]; done). rewrite !He.
    repeat case_bool_decide; subst; cbn [andb orb negb]; split; try done; congruence.
  - unfold HashEquals, normp. destruct p as [x|], q as [y|]; cbn [default Equal]; repeat case_bool_decide; subst; cbn [andb]; split; try done; try congruence; unfold id in *; congruence.
Qed.
(** Finding: HashRipemd160 is its argument followed by the hash of the empty string, so for every
    hash function it is not the hash of its argument, from which it keeps every byte. *)
Theorem C88_ripemd_refuted : forall R, (forall x, length (R x) = 20%nat) -> forall data, data <> [] ->
  HashRipemd160 R data <> R data /\ take (length data) (HashRipemd160 R data) = data.
Proof.
  intros R HR data Hd. unfold HashRipemd160. split.
  - intros E. apply (f_equal length) in E. rewrite app_length, !HR in E. destruct data; [done|]. cbn [length] in E. lia.
  - apply take_app.
Qed.
Print Assumptions C88_header_index. Print Assumptions C88_hash_equals. Print Assumptions C88_ripemd_refuted.
Example C88_example : HeaderIndexInput (ToHeaderPosHashBuffer 258 3) 7 = [0; 0; 1; 2; 0; 0; 0; 0; 0; 0; 0; 3; 7] /\
  HashSliceEquals [5; 6] [] [5; 6] = true /\ HashSliceEquals [5; 6] [] [5; 7] = false /\ HashEquals [5; 6] None (Some [5; 6]) = true.
Proof. repeat split; vm_compute; reflexivity. Qed.
