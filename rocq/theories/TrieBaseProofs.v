(** Nibble encodings and node headers of the trie. *)
From Verif Require Export TrieModel.

(* ------------------------------------------------------------ nibbles *)
Lemma land15 x : N.land x 0xF = x mod 16.
Proof. change 0xF with (N.ones 4). by rewrite N.land_ones. Qed.
Lemma shr4 x : N.shiftr x 4 = x / 16.
Proof. by rewrite N.shiftr_div_pow2. Qed.
Lemma shl4 x : N.shiftl x 4 = x * 16.
Proof. by rewrite N.shiftl_mul_pow2. Qed.
Lemma lor_nib a b : b < 16 -> N.lor (a * 16) b = a * 16 + b.
Proof.
  intros Hb. rewrite <- shl4. rewrite <- N.lxor_lor.
  - symmetry. rewrite shl4. rewrite N.add_nocarry_lxor; [done|].
    apply N.bits_inj_0. intros k. rewrite N.land_spec.
    change 16 with (2 ^ 4). rewrite <- N.shiftl_mul_pow2.
    destruct (N.lt_ge_cases k 4).
    + by rewrite N.shiftl_spec_low.
    + rewrite andb_comm. replace b with (b mod 2 ^ 4) by (apply N.mod_small; done).
      by rewrite N.mod_pow2_bits_high.
  - apply N.bits_inj_0. intros k. rewrite N.land_spec.
    destruct (N.lt_ge_cases k 4).
    + by rewrite N.shiftl_spec_low.
    + rewrite andb_comm. replace b with (b mod 2 ^ 4) by (apply N.mod_small; done).
      by rewrite N.mod_pow2_bits_high.
Qed.

Lemma keyToPrefix_nibbles k : keyToPrefix k = nibbles k.
Proof. unfold keyToPrefix. induction k as [|b k IH]; [done|]. cbn -[N.shiftr N.land].
  by rewrite shr4, land15, IH. Qed.
Lemma split_bytes_nib_nibbles k : split_bytes_nib k = nibbles k.
Proof. apply keyToPrefix_nibbles. Qed.
Lemma nibbles_app a b : nibbles (a ++ b) = nibbles a ++ nibbles b.
Proof. unfold nibbles. by rewrite flat_map_app. Qed.
Lemma nibbles_cons b k : nibbles (b :: k) = b / 16 :: b mod 16 :: nibbles k.
Proof. done. Qed.
Lemma nibbles_length k : length (nibbles k) = (2 * length k)%nat.
Proof. induction k; [done|]. rewrite nibbles_cons. cbn [length]. lia. Qed.
Lemma nibbles_ok k : is_bytes k -> is_nibbles (nibbles k).
Proof. induction 1; [constructor|]. rewrite nibbles_cons. repeat constructor; [lia..|done]. Qed.
Lemma nibbles_inj a b : nibbles a = nibbles b -> a = b.
Proof.
  revert b. induction a as [|x a IH]; intros [|y b]; rewrite ?nibbles_cons; try done.
  intros [= H1 H2 H3]. f_equal; [lia|auto].
Qed.
Lemma nibbles_prefix a b : nibbles a `prefix_of` nibbles b -> a `prefix_of` b.
Proof.
  revert b. induction a as [|x a IH]; intros b; [intros; apply prefix_nil|].
  intros [s Hs]. destruct b as [|y b]; [done|]. rewrite !nibbles_cons in Hs.
  simplify_eq/=. assert (x = y) as -> by lia. apply prefix_cons. apply IH. by exists s.
Qed.
Lemma nibbles_prefix_free K : prefix_free K -> prefix_free (fun s => exists k, K k /\ s = nibbles k).
Proof. intros HK a b (k1&?&->) (k2&?&->) Hp%nibbles_prefix. f_equal. by apply HK. Qed.

Lemma nib_pair_ind (P : list N -> Prop) :
  P [] -> (forall x, P [x]) -> (forall x y l, P l -> P (x :: y :: l)) -> forall l, P l.
Proof.
  intros H0 H1 H2. fix IH 1. intros [|x [|y l]]; [done|done|]. apply H2, IH.
Qed.

Lemma keystring_loop_pack2 p : is_nibbles p -> keystring_loop p = pack2 p.
Proof.
  induction p as [| |a b p IH] using nib_pair_ind; [done..|].
  intros (Ha&Hb&Hp)%Forall_cons_1 || (intros Hall; inversion_clear Hall as [|?? Ha Hall']; inversion_clear Hall' as [|?? Hb Hp]).
  cbn [keystring_loop pack2]. rewrite !land15, shl4.
  rewrite (N.mod_small a 16), (N.mod_small b 16), (N.mod_small (a*16)) by lia.
  rewrite lor_nib by done. by rewrite IH.
Qed.
Lemma is_nibbles_tail p : is_nibbles p -> is_nibbles (tail p).
Proof. destruct 1; [constructor|done]. Qed.
Lemma prefixToKeystring_pack p : is_nibbles p -> prefixToKeystring p = pack p.
Proof.
  intros Hp. unfold prefixToKeystring, pack.
  replace (drop 1 p) with (tail p) by (destruct p; done).
  destruct (Nat.odd (length p)); apply keystring_loop_pack2; [by apply is_nibbles_tail|done].
Qed.
Lemma nibbles_pack2 p : is_nibbles p -> Nat.even (length p) = true -> nibbles (pack2 p) = p.
Proof.
  induction p as [| |a b p IH] using nib_pair_ind; [done..|].
  intros Hall; inversion_clear Hall as [|?? Ha Hall']; inversion_clear Hall' as [|?? Hb Hp].
  intros He. cbn [pack2]. rewrite nibbles_cons, IH by done. f_equal; [lia|]. f_equal. lia.
Qed.
Lemma pack2_nibbles k : pack2 (nibbles k) = k.
Proof. induction k as [|b k IH]; [done|]. rewrite nibbles_cons. cbn [pack2]. rewrite IH. f_equal. lia. Qed.
Lemma pack2_bytes p : is_nibbles p -> is_bytes (pack2 p).
Proof.
  induction p as [| |a b p IH] using nib_pair_ind; [constructor..|].
  intros Hall; inversion_clear Hall as [|?? Ha Hall']; inversion_clear Hall' as [|?? Hb Hp].
  cbn [pack2]. constructor; [lia|by apply IH].
Qed.
Lemma pack2_length p : (length (pack2 p) = length p / 2)%nat.
Proof.
  induction p as [| |a b p IH] using nib_pair_ind; [done..|]. cbn [pack2 length]. rewrite IH.
  replace (S (S (length p))) with (length p + 1 * 2)%nat by lia. rewrite Nat.div_add by done. lia.
Qed.
Lemma pack_length_le p : (length (pack p) <= length p / 2)%nat.
Proof.
  unfold pack. destruct (Nat.odd _); rewrite pack2_length; [|lia].
  apply Nat.div_le_mono; [done|]. destruct p; cbn; lia.
Qed.
Lemma pack_nibbles k : pack (nibbles k) = k.
Proof. unfold pack. rewrite nibbles_length, Nat.odd_mul. cbn. apply pack2_nibbles. Qed.

Lemma prefixToKey_loop_pack2 p : is_nibbles p -> Nat.even (length p) = true -> prefixToKey_loop p = pack2 p.
Proof.
  induction p as [| |a b p IH] using nib_pair_ind; [done..|].
  intros Hall; inversion_clear Hall as [|?? Ha Hall']; inversion_clear Hall' as [|?? Hb Hp].
  intros He. cbn [prefixToKey_loop pack2]. rewrite !land15. change (N.shiftl 0 4 mod 256) with 0.
  rewrite N.lor_0_l, shl4. rewrite (N.mod_small a 16), (N.mod_small b 16), (N.mod_small (a*16)) by lia.
  rewrite lor_nib by done. by rewrite IH.
Qed.

(* ------------------------------------------------------------ headers *)
Lemma odd_land l : (N.land (N.of_nat l) 1 =? 1) = Nat.odd l.
Proof.
  change 1 with (N.ones 1) at 1. rewrite N.land_ones. change (2 ^ 1) with 2.
  destruct (Nat.odd l) eqn:Ho.
  - apply Nat.odd_spec in Ho as [m ->]. lia.
  - assert (He : Nat.even l = true) by (by rewrite <- Nat.negb_odd, Ho).
    apply Nat.even_spec in He as [m ->]. lia.
Qed.
Definition nib_cases (x : N) : Prop := x ∈ nibs.
Lemma nib_in x : x < 16 -> x ∈ nibs.
Proof.
  intros Hx. assert (Hk: x = 0 \/ x = 1 \/ x = 2 \/ x = 3 \/ x = 4 \/ x = 5 \/ x = 6 \/ x = 7 \/ x = 8 \/ x = 9
    \/ x = 10 \/ x = 11 \/ x = 12 \/ x = 13 \/ x = 14 \/ x = 15) by lia.
  unfold nibs. repeat (destruct Hk as [->|Hk]; [repeat (try apply elem_of_list_here; apply elem_of_list_further); fail||
     (repeat first [apply elem_of_list_here | apply elem_of_list_further])|]).
  subst. repeat first [apply elem_of_list_here | apply elem_of_list_further].
Qed.
Lemma nib_forall (P : N -> bool) : forallb P nibs = true -> forall x, x < 16 -> P x = true.
Proof. intros HP x Hx. rewrite forallb_forall in HP. apply HP. apply elem_of_list_In. by apply nib_in. Qed.

Lemma ntype_spec pre pres hv : is_nibbles pre -> ntype pre (existsb id pres) hv = type_byte pre pres hv.
Proof.
  intros Hp. unfold ntype, type_byte. destruct pre as [|x pre'].
  - by destruct (existsb id pres), hv.
  - unfold lenN. rewrite odd_land. rewrite !land15.
    inversion_clear Hp as [|?? Hx _]. rewrite N.mod_small by done.
    clear -Hx. destruct (Nat.odd _), (existsb id pres), hv; try done.
    all: apply N.eqb_eq; revert x Hx; apply nib_forall; vm_compute; done.
Qed.

Lemma type_byte_bits pre pres hv : is_nibbles pre ->
  let t := type_byte pre pres hv in
  nt_HasPrefix t = (match pre with [] => false | _ => true end) /\
  nt_PrefixOddLength t = Nat.odd (length pre) /\
  (Nat.odd (length pre) = true -> [nt_FirstPrefix t] = take 1 pre) /\
  nt_HasChildren t = existsb id pres /\ nt_HasValue t = hv /\ t < 256.
Proof.
  intros Hp. cbn zeta. unfold type_byte. destruct pre as [|x pre'].
  - by destruct (existsb id pres), hv.
  - inversion_clear Hp as [|?? Hx _].
    set (f := fun x t => nt_HasPrefix t && nt_PrefixOddLength t && (nt_FirstPrefix t =? x)).
    destruct (Nat.odd _), (existsb id pres), hv; try done.
    all: cut (forall b c, forallb (fun x => let t := 0x90 + x + b + c in
       nt_HasPrefix t && nt_PrefixOddLength t && (nt_FirstPrefix t =? x) &&
       Bool.eqb (nt_HasChildren t) (0 <? b) && Bool.eqb (nt_HasValue t) (0 <? c) && (t <? 256)) nibs = true ->
       let t := 0x90 + x + b + c in
       nt_HasPrefix t = true /\ nt_PrefixOddLength t = true /\ (true = true -> [nt_FirstPrefix t] = take 1 (x :: pre'))
       /\ nt_HasChildren t = (0 <? b) /\ nt_HasValue t = (0 <? c) /\ t < 256);
      [intros Hc; apply Hc; vm_compute; done|].
    all: intros b c Hf; cbn zeta; apply (nib_forall _ Hf) in Hx; cbn zeta in Hx;
      repeat (apply andb_true_iff in Hx as [Hx ?]); repeat split; try done;
      try (apply eqb_prop; done); try (by apply N.ltb_lt);
      intros _; cbn [take]; f_equal; by apply N.eqb_eq.
Qed.

Lemma bits_num_lt l : bits_num l < 2 ^ lenN l.
Proof.
  induction l as [|b l IH]; [done|]. cbn [bits_num]. rewrite lenN_cons.
  replace (1 + lenN l) with (N.succ (lenN l)) by lia. rewrite N.pow_succ_r'.
  destruct b; cbn [N.b2n]; lia.
Qed.
Lemma bits_num_testbit l i : N.testbit (bits_num l) (N.of_nat i) = nth i l false.
Proof.
  revert i. induction l as [|b l IH]; intros i; [destruct i; apply N.bits_0|].
  cbn [bits_num]. destruct i as [|i].
  - rewrite N.add_b2n_double_bit0. done.
  - cbn [nth]. rewrite <- IH. rewrite Nat2N.inj_succ.
    rewrite <- N.div2_bits. f_equal. destruct b; cbn [N.b2n]; lia.
Qed.
Lemma bits_num_inj a b : length a = length b -> bits_num a = bits_num b -> a = b.
Proof.
  revert b. induction a as [|x a IH]; intros [|y b] Hl; try done. cbn [bits_num].
  intros He. destruct x, y; cbn [N.b2n] in He; try (exfalso; lia); f_equal; apply IH; cbn in Hl; lia.
Qed.

Lemma len16_split {A} (l : list A) : length l = 16%nat -> exists a b, l = a ++ b /\ length a = 8%nat /\ length b = 8%nat.
Proof. intros Hl. exists (take 8 l), (drop 8 l). rewrite take_drop, take_length, drop_length. split; [done|lia]. Qed.

Lemma flag_loop_half (l : list bool) : length l = 8%nat -> forall x,
  (forall r, flag_loop 0 (l ++ r) [0; x] = flag_loop 8 r [bits_num l; x]) /\
  flag_loop 8 l [x; 0] = [x; bits_num l].
Proof.
  destruct l as [|b0 [|b1 [|b2 [|b3 [|b4 [|b5 [|b6 [|b7 [|]]]]]]]]]; try discriminate. intros _ x.
  split; [intros r|]; destruct b0, b1, b2, b3, b4, b5, b6, b7; reflexivity.
Qed.
Lemma flag_loop_spec pres : length pres = 16%nat ->
  flag_loop 0 pres [0; 0] = [bits_num (take 8 pres); bits_num (drop 8 pres)].
Proof.
  intros (a&b&->&Ha&Hb)%len16_split.
  destruct (flag_loop_half a Ha 0) as [-> _].
  destruct (flag_loop_half b Hb (bits_num a)) as [_ ->].
  rewrite take_app_alt, drop_app_alt by done. done.
Qed.

Lemma newNodeHeader_ser {V} (E : env V) pre pres hv : is_nibbles pre -> length pres = 16%nat ->
  nh_ser E (newNodeHeader pre pres hv) = header_bytes (ertl E) pre pres hv.
Proof.
  intros Hp Hl. unfold nh_ser, newNodeHeader, header_bytes. cbn [nh_nt nh_key nh_flag].
  rewrite ntype_spec by done. pose proof (type_byte_bits pre pres hv Hp) as (->&_&_&->&_).
  f_equal. f_equal.
  - destruct pre; [done|]. by rewrite prefixToKeystring_pack.
  - rewrite flag_loop_spec by done. by destruct (existsb id pres).
Qed.

Lemma keystringToPrefix_header pre pres hv : is_nibbles pre ->
  keystringToPrefix (type_byte pre pres hv) (pack pre) = pre.
Proof.
  intros Hp. unfold keystringToPrefix.
  pose proof (type_byte_bits pre pres hv Hp) as (->&->&Hf&_).
  destruct pre as [|x pre']; [done|]. cbn [negb].
  rewrite split_bytes_nib_nibbles. unfold pack.
  destruct (Nat.odd (length (x :: pre'))) eqn:Ho.
  - rewrite (Hf eq_refl). cbn [take tail app]. f_equal. inversion_clear Hp.
    rewrite nibbles_pack2; [done|done|].
    cbn [length] in Ho. rewrite Nat.odd_succ in Ho. done.
  - cbn [app]. apply nibbles_pack2; [done|]. by rewrite <- Nat.negb_odd, Ho.
Qed.

(* HasChild on the flags built for [pres] *)
Lemma testbit_land f i : i < 8 -> (0 <? N.land f (N.shiftl 1 i mod 256)) = N.testbit f i.
Proof.
  intros Hi. rewrite N.shiftl_1_l. rewrite (N.mod_small (2 ^ i)) by (change 256 with (2^8); apply N.pow_lt_mono_r; lia).
  destruct (N.testbit f i) eqn:Ht.
  - apply N.ltb_lt. assert (N.land f (2 ^ i) <> 0); [|lia]. intros Hz.
    assert (Hc : N.testbit (N.land f (2^i)) i = false) by (rewrite Hz; apply N.bits_0).
    rewrite N.land_spec, Ht, N.pow2_bits_true in Hc. done.
  - apply N.ltb_ge. assert (N.land f (2 ^ i) = 0); [|lia]. apply N.bits_inj_0. intros k.
    rewrite N.land_spec. destruct (N.eq_dec k i) as [->|]; [by rewrite Ht|].
    rewrite N.pow2_bits_false by done. by rewrite andb_false_r.
Qed.
Lemma HasChild_spec nt key pres i : length pres = 16%nat -> (i < 16)%nat -> nt_HasChildren nt = true ->
  nh_HasChild (NH nt key [bits_num (take 8 pres); bits_num (drop 8 pres)]) (N.of_nat i) = nth i pres false.
Proof.
  intros Hl Hi Hnt. unfold nh_HasChild. cbn [nh_nt nh_flag]. rewrite Hnt. cbn [andb].
  rewrite testbit_land by lia.
  destruct (decide (i < 8)%nat).
  - replace (N.of_nat i / 8) with 0 by lia. replace (N.of_nat i mod 8) with (N.of_nat i) by lia.
    change (N.to_nat 0) with 0%nat. cbn [nth]. rewrite bits_num_testbit.
    rewrite <- (take_drop 8 pres) at 2. rewrite app_nth1; [done|]. rewrite take_length. lia.
  - replace (N.of_nat i / 8) with 1 by lia. replace (N.of_nat i mod 8) with (N.of_nat (i - 8)) by lia.
    change (N.to_nat 1) with 1%nat. cbn [nth]. rewrite bits_num_testbit.
    rewrite <- (take_drop 8 pres) at 2. rewrite app_nth2; rewrite take_length; [|lia].
    f_equal. lia.
Qed.

Lemma read_n_app n a b : length a = n -> read_n n (a ++ b) = Some (a, b).
Proof.
  intros Hl. unfold read_n. rewrite app_length.
  destruct (Nat.leb_spec n (length a + length b)); [|lia].
  by rewrite take_app_alt, drop_app_alt.
Qed.

Lemma nh_deser_ser {V} (E : env V) pre pres hv rest : env_ok E -> is_nibbles pre -> length pres = 16%nat ->
  exists hd, nh_deser E (header_bytes (ertl E) pre pres hv ++ rest) = Some (hd, rest) /\
    nh_nt hd = type_byte pre pres hv /\ nh_KeyToPrefix hd = pre /\
    hd = newNodeHeader pre pres hv /\
    (forall i, (i < 16)%nat -> nh_HasChild hd (N.of_nat i) = nth i pres false).
Proof.
  intros HE Hp Hl. pose proof (type_byte_bits pre pres hv Hp) as (HP&HO&HF&HC&HV&_).
  pose proof (keystringToPrefix_header pre pres hv Hp) as HK.
  assert (Hnew : newNodeHeader pre pres hv =
    NH (type_byte pre pres hv) (match pre with [] => [] | _ => pack pre end)
       (if existsb id pres then [bits_num (take 8 pres); bits_num (drop 8 pres)] else [0; 0])).
  { unfold newNodeHeader. rewrite ntype_spec by done. rewrite HP, HC.
    f_equal; [destruct pre; [done|by rewrite prefixToKeystring_pack]|].
    destruct (existsb id pres); [by apply flag_loop_spec|done]. }
  exists (newNodeHeader pre pres hv). split.
  { unfold nh_deser, header_bytes. rewrite Hnew.
    unfold read_n at 1. cbn [app length Nat.leb take drop]. rewrite HP, HC.
    rewrite <- app_assoc.
    assert (Hk : (if match pre with [] => false | _ => true end then
       ertl_dec E (match pre with [] => [] | _ => ertl E (pack pre) end ++
         (if existsb id pres then [bits_num (take 8 pres); bits_num (drop 8 pres)] else []) ++ rest)
       else Some ([], match pre with [] => [] | _ => ertl E (pack pre) end ++
         (if existsb id pres then [bits_num (take 8 pres); bits_num (drop 8 pres)] else []) ++ rest))
      = Some (match pre with [] => [] | _ => pack pre end,
         (if existsb id pres then [bits_num (take 8 pres); bits_num (drop 8 pres)] else []) ++ rest)).
    { destruct pre; [done|]. by rewrite (ok_rtl E HE). }
    rewrite take_0, !drop_0, Hk. destruct (existsb id pres); [|done]. by rewrite read_n_app. }
  split; [by rewrite Hnew|].
  split.
  { rewrite Hnew. unfold nh_KeyToPrefix. cbn [nh_nt nh_key].
    destruct pre; [|done]. unfold keystringToPrefix. by rewrite HP. }
  split; [done|].
  intros i Hi. rewrite Hnew. destruct (existsb id pres) eqn:He.
  - apply HasChild_spec; [done..|]. by rewrite HC.
  - unfold nh_HasChild. cbn [nh_nt]. rewrite HC. cbn [andb].
    symmetry. apply not_true_iff_false. intros Hn. rewrite <- not_true_iff_false in He. apply He.
    rewrite existsb_exists. exists true. split; [|done]. rewrite <- Hn. apply nth_In. lia.
Qed.
