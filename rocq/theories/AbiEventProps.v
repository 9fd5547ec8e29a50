(** C42 (topics) and C43 (events). *)
From Verif Require Import NumProofs BytesProps AbiModel AbiSpec AbiProofs AbiProps AbiEventModel.
Global Open Scope N_scope.

(** Value types: one word, stored in a topic as they are. *)
Definition value_type (t : aty) : Prop :=
  match t with TInt _ | TUint _ | TBool | TAddress | TFixedBytes _ | TFunction => True | _ => False end.

(* ------------------------------------------------------- making one topic *)
Lemma topic_put_at p s k : (p + length s + k = 32)%nat ->
  buf_put p s zero_topic = replicate p 0 ++ s ++ replicate k 0.
Proof.
  intros H. unfold buf_put, zero_topic. rewrite take_replicate, drop_replicate, Nat.min_l by lia.
  by replace (32 - (p + length s))%nat with k by lia.
Qed.
Lemma be_fixed_ones k : be_fixed k (256 ^ N.of_nat k - 1) = replicate k 255.
Proof.
  induction k as [|k IH]; [done|]. cbn [be_fixed].
  replace (N.of_nat (S k)) with (N.of_nat k + 1) by lia. rewrite N.pow_add_r, N.pow_1_r.
  pose proof (pow256_pos (N.of_nat k)) as Hp. set (x := 256 ^ N.of_nat k) in *.
  replace (x * 256 - 1) with ((x - 1) * 256 + 255) by lia.
  rewrite N.div_add_l by done. change (255 / 256) with 0. rewrite N.add_0_r, IH.
  replace (((x - 1) * 256 + 255) mod 256) with 255.
  - change (replicate (S k) 255) with (255 :: replicate k 255). by rewrite replicate_cons_app.
  - rewrite N.add_comm, N.mod_add by done. done.
Qed.
Lemma gen_loop_spec r f size : (size <= 32)%nat ->
  gen_loop r size (replicate 32 f) = replicate (32 - size) f ++ be_fixed size (Z.to_N (r mod 256 ^ Z.of_nat size)).
Proof.
  induction size as [|i IH]; intros Hs; [cbn [gen_loop be_fixed]; by rewrite app_nil_r|].
  cbn [gen_loop]. rewrite IH by lia.
  replace (32 - i)%nat with ((32 - S i) + 1)%nat by lia. rewrite replicate_add, <- app_assoc.
  rewrite insert_app_r_alt by (rewrite replicate_length; lia). rewrite replicate_length.
  replace (31 - i - (32 - S i))%nat with 0%nat by lia. cbn [replicate app]. cbn [insert list_insert].
  f_equal.
  replace (S i) with (1 + i)%nat at 1 by lia.
  pose proof (Z.pow_pos_nonneg 256 (Z.of_nat i) ltac:(lia) ltac:(lia)) as P.
  rewrite be_fixed_split. cbn [be_fixed app].
  set (m := Z.to_N (r mod 256 ^ Z.of_nat (S i))).
  assert (Z.of_N m = r mod 256 ^ Z.of_nat (S i))%Z as Hm.
  { unfold m. apply Z2N.id. apply Z.mod_pos_bound. apply Z.pow_pos_nonneg; lia. }
  replace (Z.of_nat (S i)) with (Z.of_nat i + 1)%Z in Hm by lia. rewrite Z.pow_add_r, Z.pow_1_r in Hm by lia.
  rewrite Z.rem_mul_r in Hm by lia.
  pose proof (Z.mod_pos_bound r (256 ^ Z.of_nat i) P) as Hb.
  f_equal.
  - rewrite Z.shiftr_div_pow2 by lia. change 2%Z with 2%Z. rewrite Z.pow_mul_r by lia. change (2 ^ 8)%Z with 256%Z.
    apply N2Z.inj. rewrite Z2N.id by (apply Z.mod_pos_bound; lia).
    rewrite N2Z.inj_mod, N2Z.inj_div, N2Z.inj_pow, nat_N_Z, Hm. change (Z.of_N 256) with 256%Z.
    rewrite Z.add_comm, Z.mul_comm, Z.div_add_l by lia. rewrite (Z.div_small (r mod _)) by lia.
    rewrite Z.add_0_r, Z.mod_mod by lia. done.
  - apply be_num_inj_len; [apply be_fixed_bytes|apply be_fixed_bytes|by rewrite !be_fixed_length|].
    rewrite !be_num_fixed. apply N2Z.inj. rewrite !N2Z.inj_mod, !N2Z.inj_pow, nat_N_Z, Hm. change (Z.of_N 256) with 256%Z.
    rewrite Z2N.id by lia. rewrite Z.mul_comm, Z.mod_add by lia. done.
Qed.
Lemma gen_word z size : (1 <= size <= 8)%nat -> (- 2 ^ (8 * Z.of_nat size - 1) <= z < 2 ^ (8 * Z.of_nat size - 1))%Z ->
  genIntType z size = word z.
Proof.
  intros Hs Hz. unfold genIntType.
  assert (forall f, gen_loop z size (replicate 32 f) = replicate (32 - size) f ++ be_fixed size (Z.to_N (z mod 256 ^ Z.of_nat size))) as G.
  { intros f. apply gen_loop_spec. lia. }
  replace (gen_loop z size (if (z <? 0)%Z then replicate 32 255 else replicate 32 0))
    with (gen_loop z size (replicate 32 (if (z <? 0)%Z then 255 else 0))) by (by destruct (z <? 0)%Z).
  rewrite G. clear G.
  unfold word. replace 32%nat with ((32 - size) + size)%nat at 2 by lia. rewrite be_fixed_split.
  assert (2 ^ 256 = 256 ^ (32 - Z.of_nat size) * 256 ^ Z.of_nat size)%Z as E.
  { rewrite <- Z.pow_add_r by lia. replace (32 - Z.of_nat size + Z.of_nat size)%Z with 32%Z by lia. reflexivity. }
  assert (256 ^ Z.of_nat size = 2 * 2 ^ (8 * Z.of_nat size - 1))%Z as E2.
  { change 256%Z with (2 ^ 8)%Z. rewrite <- Z.pow_mul_r, <- Z.pow_succ_r by lia. f_equal. lia. }
  pose proof (Z.pow_pos_nonneg 256 (32 - Z.of_nat size) ltac:(lia) ltac:(lia)) as P1.
  pose proof (Z.pow_pos_nonneg 2 (8 * Z.of_nat size - 1) ltac:(lia) ltac:(lia)) as P2.
  assert (Z.of_N (256 ^ N.of_nat size) = 256 ^ Z.of_nat size)%Z as E3 by (by rewrite N2Z.inj_pow, nat_N_Z).
  assert (Z.of_N (256 ^ N.of_nat (32 - size)) = 256 ^ (32 - Z.of_nat size))%Z as E4.
  { rewrite N2Z.inj_pow, nat_N_Z. f_equal. lia. }
  assert (0 <= z mod 2 ^ 256)%Z as P3 by (apply Z.mod_pos_bound; reflexivity).
  assert (0 <= z mod 256 ^ Z.of_nat size)%Z as P4 by (apply Z.mod_pos_bound; lia).
  f_equal.
  - destruct (Z.ltb_spec z 0) as [Hn|Hn].
    + rewrite <- be_fixed_ones. f_equal. apply N2Z.inj. rewrite N2Z.inj_div, Z2N.id by done. rewrite E3.
      rewrite N2Z.inj_sub by (pose proof (pow256_pos (N.of_nat (32 - size))); lia). rewrite E4. rewrite E.
      set (a := (256 ^ (32 - Z.of_nat size))%Z) in *. rewrite E2. set (h := (2 ^ (8 * Z.of_nat size - 1))%Z) in *.
      clearbody a h. clear - P1 P2 Hz Hn.
      assert (z mod (a * (2 * h)) = z + a * (2 * h))%Z as ->.
      { symmetry. apply Z.mod_unique with (-1)%Z; nia. }
      replace (z + a * (2 * h))%Z with ((a - 1) * (2 * h) + (z + 2 * h))%Z by nia.
      rewrite Z.div_add_l by lia. rewrite Z.div_small by lia. lia.
    + assert (Z.to_N (z mod 2 ^ 256) / 256 ^ N.of_nat size = 0) as ->; [|by rewrite be_fixed_zero].
      apply N2Z.inj. rewrite N2Z.inj_div, Z2N.id by done. rewrite E3, E.
      set (a := (256 ^ (32 - Z.of_nat size))%Z) in *. rewrite E2. set (h := (2 ^ (8 * Z.of_nat size - 1))%Z) in *.
      clearbody a h. clear - P1 P2 Hz Hn. rewrite Z.mod_small by nia. apply Z.div_small. lia.
  - apply be_num_inj_len; [apply be_fixed_bytes|apply be_fixed_bytes|by rewrite !be_fixed_length|].
    rewrite !be_num_fixed. apply N2Z.inj. rewrite !N2Z.inj_mod, !Z2N.id by done. rewrite E3, E.
    rewrite Z.mod_mod by lia. rewrite (Z.mul_comm (256 ^ (32 - Z.of_nat size))). rewrite Z.rem_mul_r by lia.
    rewrite Z.mul_comm, Z.mod_add by lia. by rewrite Z.mod_mod by lia.
Qed.
Lemma blob_word z : (0 <= z < 2 ^ 256)%Z ->
  topic_put (32 - zlen (be_bytes (Z.to_N z)))%Z (be_bytes (Z.to_N z)) zero_topic = Ok (word z).
Proof.
  intros Hz. assert (Z.to_N z < 256 ^ N.of_nat 32) as Hb.
  { apply N2Z.inj_lt. rewrite Z2N.id by lia. apply Hz. }
  pose proof (be_bytes_length_le (Z.to_N z) 32 Hb) as Hl. unfold topic_put.
  destruct (Z.ltb_spec (32 - zlen (be_bytes (Z.to_N z))) 0) as [H|_]; [unfold zlen in H; lia|].
  f_equal. rewrite (topic_put_at _ _ 0) by (unfold zlen; lia). cbn [replicate]. rewrite app_nil_r.
  unfold word. rewrite Z.mod_small by done. rewrite be_fixed_pad by done. do 2 f_equal. unfold zlen. lia.
Qed.

(* -------------------------------------------------------------------- C42 *)
(** The filter rule a caller writes for a value of a type. *)
Definition rule_for (t : aty) (v : val) : rule :=
  match t, v with TAddress, VArr s => RAddress s | _, _ => RVal v end.
Definition not_negative_big (v : val) : Prop :=
  match v with VNum KBig z => (0 <= z)%Z | _ => True end.

Lemma pad_right_put s : (1 <= length s <= 32)%nat -> topic_put 0 s zero_topic = Ok (pad_right s).
Proof.
  intros H. unfold topic_put. cbn [Z.ltb Z.compare]. f_equal. rewrite (topic_put_at _ _ (32 - length s)) by lia.
  change (replicate (Z.to_nat 0) 0) with (@nil N). cbn [app]. unfold pad_right. do 2 f_equal.
  destruct (decide (length s = 32%nat)) as [->|]; [done|]. rewrite (Nat.mod_small (length s)) by lia. rewrite Nat.mod_small; lia.
Qed.

(** A topic made from a value of a value type is the value's ABI word. *)
Theorem C42_make_topic : forall H t v, value_type t -> valid_type t -> value_of t v -> not_negative_big v ->
  MakeTopic H (rule_for t v) = Ok (enc t v).
Proof.
  intros H t v Ht Hv Ho Hn. inversion Ho as [n z Hr|n z Hr|b|s Hs|s Hs|s Hs Hl|n s Hs Hl|s Hs Hl|e vs Hvs|e vs Hvs|ts vs Hvs]; subst; try done.
  - cbn [rule_for enc].
    assert (n = 8 \/ n = 16 \/ n = 32 \/ n = 64 \/ (machine_kind false n = KBig /\ value_bits n = 256%Z)) as Hc.
    { clear. destruct n as [|p]; [by do 4 right|]. repeat (destruct p as [p|p|]; try (by do 4 right)).
      all: first [by left|by right; left|by do 2 right; left|by do 3 right; left]. }
    destruct Hc as [->|[->|[->|[->|[Ek Eb]]]]]; cbn [machine_kind value_bits in_range MakeTopic] in *.
    1-4: f_equal; apply gen_word; [lia|exact Hr].
    rewrite Ek in *. cbn [not_negative_big] in Hn. cbn [MakeTopic]. rewrite Eb in Hr. cbn [in_range] in Hr.
    assert (2 ^ (256 - 1) < 2 ^ 256)%Z by reflexivity.
    replace (Z.abs_N z) with (Z.to_N z) by lia. apply blob_word. lia.
  - cbn [rule_for enc].
    assert (n = 8 \/ n = 16 \/ n = 32 \/ n = 64 \/ (machine_kind true n = KBig /\ value_bits n = 256%Z)) as Hc.
    { clear. destruct n as [|p]; [by do 4 right|]. repeat (destruct p as [p|p|]; try (by do 4 right)).
      all: first [by left|by right; left|by do 2 right; left|by do 3 right; left]. }
    assert (0 <= z < 2 ^ 256)%Z as Hr2.
    { destruct Hc as [->|[->|[->|[->|[_ Eb]]]]]; [..|by rewrite Eb in Hr]; cbn [value_bits in_range] in Hr;
        (split; [lia|eapply Z.lt_trans; [apply Hr|reflexivity]]). }
    destruct Hc as [->|[->|[->|[->|[Ek Eb]]]]]; cbn [machine_kind MakeTopic].
    1-4: by apply blob_word.
    rewrite Ek. cbn [MakeTopic]. replace (Z.abs_N z) with (Z.to_N z) by lia. by apply blob_word.
  - cbn [rule_for enc MakeTopic]. by destruct b.
  - cbn [rule_for enc MakeTopic]. unfold topic_put. cbn [Z.ltb Z.compare]. change (Z.to_nat (32 - 20)) with 12%nat.
    destruct (32 - 20 <? 0)%Z eqn:E; [done|]. rewrite (topic_put_at _ _ 0) by lia. cbn [replicate]. rewrite app_nil_r. unfold pad_left. by rewrite Hl.
  - cbn [valid_type] in Hv. cbn [rule_for enc MakeTopic]. destruct (Nat.ltb_spec 32 (length s)); [lia|]. by apply pad_right_put.
  - cbn [rule_for enc MakeTopic]. destruct (Nat.ltb_spec 32 (length s)); [lia|]. apply pad_right_put. lia.
Qed.
Print Assumptions C42_make_topic.

Lemma one_word t v : value_type t -> valid_type t -> value_of t v ->
  dynamic t = false /\ zlen (enc t v) = 32%Z /\ toGoType t 0 (enc t v) = Ok v.
Proof.
  intros Ht Hv Ho. assert (dynamic t = false) as D by (by destruct t). split; [done|].
  destruct (enc_length t v Hv Ho) as [Hl _]. specialize (Hl D).
  assert (words_of t = 1%nat) as E by (by destruct t). rewrite E in Hl. unfold zlen. split; [lia|].
  apply (AbiProofs.decode t v (enc t v) 0%nat Hv Ho).
  - unfold zlen. rewrite Hl. reflexivity.
  - unfold placed. rewrite D. exists [], []. by rewrite app_nil_r.
Qed.

(** Topics made for a list of value-type arguments are parsed back to the values. *)
Theorem C42_round_trip : forall H ts vs, Forall value_type ts -> Forall valid_type ts ->
  Forall (fun t => t <> TFunction) ts -> Forall2 value_of ts vs -> Forall not_negative_big vs ->
  exists topics, MakeTopics H (zip_with rule_for ts vs) = Ok topics /\
    length topics = length ts /\ Forall (fun t => length t = 32%nat) topics /\
    ParseTopics (map (pair true) ts) topics = Ok vs.
Proof.
  intros H ts vs H1 H2 H3 Ho Hn.
  assert (exists topics, MakeTopics H (zip_with rule_for ts vs) = Ok topics /\ length topics = length ts /\
    Forall (fun t => length t = 32%nat) topics /\ parse_fields (map (pair true) ts) topics = Ok vs) as (topics & E1 & E2 & E3 & E4).
  { induction Ho as [|t v ts vs Hvo _ IH]; [by exists []|].
    apply Forall_cons in H1 as [H1 H1'], H2 as [H2 H2'], H3 as [H3 H3'], Hn as [Hn Hn'].
    destruct (IH H1' H2' H3' Hn') as (topics & E1 & E2 & E3 & E4).
    pose proof (C42_make_topic H t v H1 H2 Hvo Hn) as E. destruct (one_word t v H1 H2 Hvo) as (_ & E5 & E6).
    exists (enc t v :: topics). cbn [zip_with MakeTopics map parse_fields]. rewrite E. cbn [rbind]. rewrite E1. cbn [rbind].
    split; [done|]. split; [cbn; by rewrite E2|]. split; [constructor; [unfold zlen in E5; lia|done]|].
    assert (parseTopic (true, t) (enc t v) = Ok v) as ->.
    { unfold parseTopic. cbn [fst snd negb]. by destruct t. }
    cbn [rbind]. rewrite E4. done. }
  exists topics. split; [done|]. split; [done|]. split; [done|].
  unfold ParseTopics. rewrite map_length, E2, Nat.eqb_refl. done.
Qed.
Print Assumptions C42_round_trip.

(** Distinct values of a value type get distinct topics. *)
Theorem C42_injective : forall H t v v' x, value_type t -> valid_type t -> value_of t v -> value_of t v' ->
  not_negative_big v -> not_negative_big v' ->
  MakeTopic H (rule_for t v) = Ok x -> MakeTopic H (rule_for t v') = Ok x -> v = v'.
Proof.
  intros H t v v' x Ht Hv Ho Ho' Hn Hn' E E'. rewrite C42_make_topic in E, E' by done. injection E as <-. injection E' as E'.
  destruct (one_word t v Ht Hv Ho) as (_ & _ & D1). destruct (one_word t v' Ht Hv Ho') as (_ & _ & D2). congruence.
Qed.
Print Assumptions C42_injective.

(** Strings and byte strings are stored as their hash, which is what parsing returns. *)
Theorem C42_hashed : forall H s, is_bytes s ->
  MakeTopic H (RVal (VString s)) = Ok (H s) /\ MakeTopic H (RVal (VBytes s)) = Ok (H s) /\
  forall topic, ParseTopics [(true, TString); (true, TBytes)] [topic; topic] = Ok [VArr topic; VArr topic].
Proof. done. Qed.
Print Assumptions C42_hashed.

(** Parsing rejects a wrong number of topics, arguments that are not indexed, and
    tuples. *)
Theorem C42_rejects : forall fields topics vs, ParseTopics fields topics = Ok vs ->
  length fields = length topics /\ length vs = length fields /\
  Forall (fun f => f.1 = true /\ forall ts, f.2 <> TTuple ts) fields.
Proof.
  intros fields topics vs. unfold ParseTopics. destruct (Nat.eqb_spec (length fields) (length topics)) as [E|]; [|done].
  intros Hp. split; [done|]. revert topics vs E Hp.
  induction fields as [|[ix t] fs IH]; intros [|tp topics] vs E Hp; try done.
  - injection Hp as <-. split; [done|constructor].
  - cbn [parse_fields] in Hp. destruct (parseTopic (ix, t) tp) as [v| |] eqn:Ep; [|done|done]. cbn [rbind] in Hp.
    destruct (parse_fields fs topics) as [vs'| |] eqn:Ef; [|done|done]. injection Hp as <-.
    injection E as E. destruct (IH topics vs' E Ef) as [L F]. split; [cbn; by rewrite L|]. constructor; [|done].
    unfold parseTopic in Ep. cbn [fst snd] in *. destruct ix; [|done]. split; [done|]. intros ts ->. done.
Qed.
Print Assumptions C42_rejects.

(** A negative *big.Int gets the topic of its absolute value, not its ABI word. *)
Theorem C42_negative_refuted : forall H z, (0 < z)%Z ->
  MakeTopic H (RVal (VNum KBig (- z))) = MakeTopic H (RVal (VNum KBig z)).
Proof. intros H z Hz. cbn [MakeTopic]. by replace (Z.abs_N (- z)) with (Z.abs_N z) by lia. Qed.
Print Assumptions C42_negative_refuted.
Example C42_negative_refuted_case : forall H,
  MakeTopic H (RVal (VNum KBig (-1))) = Ok (word 1) /\ ParseTopics [(true, TInt 256)] [word 1] = Ok [VNum KBig 1].
Proof. intros H. split; reflexivity. Qed.

(** A *big.Int that needs more than 32 bytes makes MakeTopics panic. *)
Theorem C42_oversize_refuted : forall H z, (2 ^ 256 <= Z.abs z)%Z -> MakeTopic H (RVal (VNum KBig z)) = Panic.
Proof.
  intros H z Hz. cbn [MakeTopic]. unfold topic_put.
  destruct (Z.ltb_spec (32 - zlen (be_bytes (Z.abs_N z))) 0) as [|Hl]; [done|]. exfalso.
  pose proof (be_num_bound _ (be_bytes_bytes (Z.abs_N z))) as Hb. rewrite be_num_bytes in Hb.
  assert (256 ^ lenN (be_bytes (Z.abs_N z)) <= 256 ^ 32) as Hle by (apply N.pow_le_mono_r; [done|unfold lenN, zlen in *; lia]).
  assert (Z.of_N (Z.abs_N z) < Z.of_N (256 ^ 32))%Z as Hlt by lia. change (Z.of_N (256 ^ 32)) with (2 ^ 256)%Z in Hlt.
  clear Hb Hle Hl. lia.
Qed.
Print Assumptions C42_oversize_refuted.

(** Function values do not round trip, except the all-zero one: they are written at
    the front of the topic and read from its end. *)
Theorem C42_function_refuted : forall H s topic, is_bytes s -> length s = 24%nat ->
  MakeTopic H (RVal (VArr s)) = Ok topic ->
  (ParseTopics [(true, TFunction)] [topic] = Ok [VArr s] <-> s = replicate 24 0).
Proof.
  intros H s topic Hb Hl Hm. cbn [MakeTopic] in Hm. destruct (Nat.ltb_spec 32 (length s)); [lia|].
  rewrite pad_right_put in Hm by lia. injection Hm as <-. unfold pad_right. rewrite Hl.
  change ((32 - 24 mod 32) mod 32)%nat with 8%nat.
  do 24 (destruct s as [|? s]; [cbn in Hl; lia|]). destruct s; [|cbn in Hl; lia]. clear Hl.
  unfold ParseTopics. cbn [length Nat.eqb parse_fields parseTopic fst snd negb app replicate].
  split.
  - match goal with |- context [sl ?l 0 8] => assert (sl l 0 8 = Ok (take 8 l)) as -> by reflexivity end.
    cbn [take rbind]. destruct (N.eqb_spec (be_num [n; n0; n1; n2; n3; n4; n5; n6]) 0) as [E|]; [|done].
    match goal with |- context [sl ?l 8 32] => assert (sl l 8 32 = Ok (drop 8 l)) as -> by reflexivity end.
    cbn [drop rbind]. intros Hq. injection Hq as ? ? ? ? ? ? ? ? ? ? ? ? ? ? ? ? ? ? ? ? ? ? ? ?. subst. reflexivity.
  - intros Hq. injection Hq as ? ? ? ? ? ? ? ? ? ? ? ? ? ? ? ? ? ? ? ? ? ? ? ?. subst. reflexivity.
Qed.
Print Assumptions C42_function_refuted.

Example C42_example : forall H,
  MakeTopics H [RVal (VNum KI16 (-2)); RAddress (replicate 20 7); RVal (VArr [1; 2; 3])]
    = Ok [word (-2); pad_left (replicate 20 7); pad_right [1; 2; 3]] /\
  ParseTopics [(true, TInt 16); (true, TAddress); (true, TFixedBytes 3)]
    [word (-2); pad_left (replicate 20 7); pad_right [1; 2; 3]]
    = Ok [VNum KI16 (-2); VArr (replicate 20 7); VArr [1; 2; 3]].
Proof. intros H. split; reflexivity. Qed.

(* -------------------------------------------------------------------- C43 *)
(** The log a contract emits for an event: the id, one topic per indexed argument in
    order, and the encoding of the other arguments. *)
Definition log_topics (id : list N) (args : event) (vs : list val) : list (list N) :=
  id :: omap (fun '((ix, t), v) => if (ix : bool) then Some (enc t v) else None) (zip args vs).
Definition log_data (args : event) (vs : list val) : list N :=
  enc_args (NonIndexed args) (omap (fun '((ix, t), v) => if (ix : bool) then None else Some v) (zip args vs)).
Definition indexed_count (args : list (bool * aty)) : nat := length (filter (fun a : bool * aty => a.1 = true) args).

Lemma non_indexed_split its dts : NonIndexed (map (pair true) its ++ map (pair false) dts) = dts.
Proof.
  unfold NonIndexed. induction its as [|t its IH]; [|exact IH].
  cbn [map app]. induction dts as [|t dts IH]; [done|]. cbn. f_equal. exact IH.
Qed.
Lemma log_split id its dts ivs dvs : length its = length ivs -> length dts = length dvs ->
  log_topics id (map (pair true) its ++ map (pair false) dts) (ivs ++ dvs) = id :: zip_with enc its ivs /\
  log_data (map (pair true) its ++ map (pair false) dts) (ivs ++ dvs) = enc_args dts dvs.
Proof.
  intros H1 H2. unfold log_topics, log_data. rewrite non_indexed_split. split.
  - f_equal. revert ivs H1. induction its as [|t its IH]; intros [|v ivs] H1; try done.
    + cbn [map app zip_with]. clear H1. revert dvs H2. induction dts as [|t dts IH]; intros [|v dvs] H2; try done. cbn. apply IH. by injection H2.
    + cbn. f_equal. apply IH. by injection H1.
  - f_equal. revert ivs H1. induction its as [|t its IH]; intros [|v ivs] H1; try done.
    + cbn [map app]. clear H1. revert dvs H2. induction dts as [|t dts IH]; intros [|v dvs] H2; try done. cbn. f_equal. apply IH. by injection H2.
    + cbn. apply IH. by injection H1.
Qed.

Lemma data_values its dts dvs : Forall valid_type dts -> Forall2 value_of dts dvs ->
  (Z.of_nat (length (enc_args dts dvs)) < 2 ^ 63)%Z ->
  event_values (map (pair true) its ++ map (pair false) dts) (enc_args dts dvs) = Ok dvs.
Proof.
  intros Hv Ho Hl. unfold event_values. rewrite non_indexed_split.
  pose proof (C39_round_trip 8 dts dvs (enc_args dts dvs) [] ltac:(lia) Hv Ho (args_ok 8 _ _ ltac:(lia) Hv Ho)) as R.
  rewrite app_nil_r in R. specialize (R Hl (or_intror eq_refl)).
  pose proof (Forall2_length _ _ _ Ho) as HL.
  destruct (enc_args dts dvs) as [|b l] eqn:E.
  - unfold Unpack in R. destruct dts; [|done]. injection R as <-. done.
  - rewrite R. cbn [rbind]. by rewrite HL, Nat.eqb_refl.
Qed.

Lemma topic_values its ivs dts : Forall value_type its -> Forall valid_type its -> Forall2 value_of its ivs ->
  forall pre, event_topics (map (pair true) its ++ map (pair false) dts) (length pre)
    ([] :: pre ++ zip_with enc its ivs) = Ok ivs.
Proof.
  intros Ht Hv Ho. induction Ho as [|t v its ivs Hvo _ IH]; intros pre.
  - cbn [map app zip_with]. by destruct dts.
  - apply Forall_cons in Ht as [Ht Ht'], Hv as [Hv Hv'].
    cbn [map app event_topics zip_with].
    change (([] :: pre ++ enc t v :: zip_with enc its ivs) !! (1 + length pre)%nat)
      with ((pre ++ enc t v :: zip_with enc its ivs) !! length pre).
    rewrite list_lookup_middle by done. destruct (one_word t v Ht Hv Hvo) as (_ & _ & ->). cbn [rbind].
    specialize (IH Ht' Hv' (pre ++ [enc t v])). rewrite app_length in IH. cbn [length] in IH.
    rewrite Nat.add_1_r, <- app_assoc in IH. cbn [app] in IH. by rewrite IH.
Qed.
Lemma event_topics_id args i id id' topics : event_topics args i (id :: topics) = event_topics args i (id' :: topics).
Proof.
  revert i. induction args as [|[[] t] args IH]; intros i; try done. cbn [event_topics].
  change ((id :: topics) !! (1 + i)%nat) with (topics !! i). change ((id' :: topics) !! (1 + i)%nat) with (topics !! i).
  destruct (topics !! i); [|done]. destruct (toGoType t 0 l); [|done|done]. cbn [rbind]. by rewrite IH.
Qed.

Lemma string_data dts dvs i indexes topics pre : length dts = length dvs -> (i - indexes)%nat = length pre -> (indexes <= i)%nat ->
  event_string_loop (map (pair false) dts) i indexes topics (pre ++ dvs) = Ok dvs.
Proof.
  revert dvs i pre. induction dts as [|t dts IH]; intros [|v dvs] i pre H H0 H1; try done.
  cbn [map event_string_loop]. rewrite H0, list_lookup_middle by done.
  specialize (IH dvs (S i) (pre ++ [v]) ltac:(by injection H)). rewrite <- app_assoc in IH. cbn [app] in IH.
  rewrite IH; [done|rewrite app_length; cbn; lia|lia].
Qed.
Lemma string_values its ivs dts dvs id : Forall value_type its -> Forall valid_type its -> Forall2 value_of its ivs ->
  length dts = length dvs ->
  forall pre, event_string_loop (map (pair true) its ++ map (pair false) dts) (length pre) (length pre)
    (id :: pre ++ zip_with enc its ivs) dvs = Ok (ivs ++ dvs).
Proof.
  intros Ht Hv Ho Hd. induction Ho as [|t v its ivs Hvo _ IH]; intros pre.
  - cbn [map app zip_with]. apply (string_data dts dvs _ _ _ []); [done|cbn; lia|done].
  - apply Forall_cons in Ht as [Ht Ht'], Hv as [Hv Hv'].
    cbn [map app event_string_loop zip_with].
    change ((id :: pre ++ enc t v :: zip_with enc its ivs) !! (1 + length pre)%nat)
      with ((pre ++ enc t v :: zip_with enc its ivs) !! length pre).
    rewrite list_lookup_middle by done. destruct (one_word t v Ht Hv Hvo) as (_ & _ & ->). cbn [rbind].
    specialize (IH Ht' Hv' (pre ++ [enc t v])). rewrite app_length in IH. cbn [length] in IH.
    rewrite Nat.add_1_r, <- app_assoc in IH. cbn [app] in IH. by rewrite IH.
Qed.

(** The event of a log is one whose id is the first topic, the first such one; without one
    both decoders fail. *)
Theorem C43_event_of_topic : forall evs id,
  (forall e, EventByID evs id = Some e <-> exists l r, evs = l ++ (id, e) :: r /\ forall e', (id, e') ∉ l) /\
  ((forall e, (id, e) ∉ evs) -> forall topics data, UnpackEvent evs (id :: topics) data = Err /\ EventString evs (id :: topics) data = Err).
Proof.
  intros evs id.
  assert (H : forall e, EventByID evs id = Some e <-> exists l r, evs = l ++ (id, e) :: r /\ forall e', (id, e') ∉ l).
  { intros e. induction evs as [|[i e0] evs IH]; cbn [EventByID].
    - split; [done|]. intros (l & r & E & _). by destruct l.
    - destruct (decide (i = id)) as [->|Hn].
      + split.
        * intros [= ->]. exists [], evs. split; [done|]. intros e'. apply not_elem_of_nil.
        * intros ([|[i' e'] l] & r & E & Hl); [by injection E as -> _|]. injection E as -> -> _. exfalso. apply (Hl e'). left.
      + rewrite IH. split.
        * intros (l & r & -> & Hl). exists ((i, e0) :: l), r. split; [done|]. intros e' [[= -> _]|Hin]%elem_of_cons; [done|by apply (Hl e')].
        * intros ([|[i' e'] l] & r & E & Hl); [by injection E as -> _|]. injection E as -> -> ->. exists l, r. split; [done|].
          intros e1 Hin. apply (Hl e1). by right. }
  split; [exact H|]. intros Hno topics data. unfold UnpackEvent, EventString.
  destruct (EventByID evs id) as [e|] eqn:Ee; [|done]. destruct (proj1 (H e) eq_refl) as (l & r & -> & _). exfalso. apply (Hno e). apply elem_of_app. right. left.
Qed.
Print Assumptions C43_event_of_topic.

(** When the indexed arguments come first and are of value types, both decoders give
    each argument of the emitted log its own value. *)
Theorem C43_indexed_first : forall evs id its dts ivs dvs,
  let args := map (pair true) its ++ map (pair false) dts in
  EventByID evs id = Some args ->
  Forall value_type its -> Forall valid_type its -> Forall valid_type dts ->
  Forall2 value_of its ivs -> Forall2 value_of dts dvs ->
  (Z.of_nat (length (log_data args (ivs ++ dvs))) < 2 ^ 63)%Z ->
  UnpackEvent evs (log_topics id args (ivs ++ dvs)) (log_data args (ivs ++ dvs)) = Ok (ivs ++ dvs) /\
  EventString evs (log_topics id args (ivs ++ dvs)) (log_data args (ivs ++ dvs)) = Ok (ivs ++ dvs).
Proof.
  intros evs id its dts ivs dvs args He Ht Hvi Hvd Hoi Hod Hl.
  pose proof (Forall2_length _ _ _ Hoi) as L1. pose proof (Forall2_length _ _ _ Hod) as L2.
  destruct (log_split id its dts ivs dvs L1 L2) as [E1 E2]. fold args in E1, E2. rewrite E2 in Hl. rewrite E1, E2.
  unfold UnpackEvent, EventString. rewrite He. unfold args. rewrite data_values by done. cbn [rbind]. split.
  - rewrite (event_topics_id _ _ id []).
    pose proof (topic_values its ivs dts Ht Hvi Hoi []) as E. cbn [app length] in E. rewrite E. cbn [rbind].
    unfold CopyEvent. rewrite non_indexed_split, app_length, !map_length.
    destruct (ivs ++ dvs) as [|v vs] eqn:Ev.
    + apply app_nil in Ev as [-> ->]. destruct dts; [done|done].
    + assert (length (v :: vs) = (length its + length dts)%nat) as L by (rewrite <- Ev, app_length; lia).
      destruct (Nat.ltb_spec 1 (length its + length dts)).
      * rewrite L, Nat.ltb_irrefl. f_equal. apply take_ge. lia.
      * destruct vs; [done|]. cbn [length] in L. lia.
  - pose proof (string_values its ivs dts dvs id Ht Hvi Hoi L2 []) as E. exact E.
Qed.
Print Assumptions C43_indexed_first.

Lemma string_missing args : forall i indexes topics values k ix t, args !! k = Some (true, t) -> ix = (i + k)%nat ->
  (length topics <= 1 + ix)%nat -> forall vs, event_string_loop args i indexes topics values <> Ok vs.
Proof.
  induction args as [|[b ty] args IH]; intros i indexes topics values k ix t Hk Hix Hl vs; [done|].
  destruct k as [|k].
  - cbn in Hk. injection Hk as -> ->. cbn [event_string_loop].
    assert (topics !! (1 + i)%nat = None) as -> by (apply lookup_ge_None; lia). done.
  - cbn [lookup list_lookup] in Hk. cbn [event_string_loop]. destruct b.
    + destruct (topics !! _) as [tp|]; [|done]. destruct (toGoType ty 0 tp); [|done|done]. cbn [rbind].
      destruct (event_string_loop args (S i) _ topics values) as [vs'| |] eqn:E; [|done|done].
      exfalso. eapply (IH (S i) (S indexes) topics values k ix t Hk); [lia|lia|exact E].
    + destruct (values !! _) as [v|]; [|done].
      destruct (event_string_loop args (S i) _ topics values) as [vs'| |] eqn:E; [|done|done].
      exfalso. eapply (IH (S i) indexes topics values k ix t Hk); [lia|lia|exact E].
Qed.
Lemma count_all (l : event) : length l = (length (NonIndexed l) + indexed_count l)%nat.
Proof.
  induction l as [|[[] ty] l IH]; [done| |].
  - change (NonIndexed ((true, ty) :: l)) with (NonIndexed l). change (indexed_count ((true, ty) :: l)) with (S (indexed_count l)). cbn [length]. lia.
  - change (NonIndexed ((false, ty) :: l)) with (ty :: NonIndexed l). change (indexed_count ((false, ty) :: l)) with (indexed_count l). cbn [length]. lia.
Qed.
Lemma count_app (l l' : list (bool * aty)) : indexed_count (l ++ l') = (indexed_count l + indexed_count l')%nat.
Proof. unfold indexed_count. by rewrite list.filter_app, app_length. Qed.
Lemma non_indexed_app (l l' : list (bool * aty)) : NonIndexed (l ++ l') = NonIndexed l ++ NonIndexed l'.
Proof. unfold NonIndexed. apply omap_app. Qed.

Lemma prefix_values args topics i ret a t b u rest : args = a ++ (false, t) :: b ++ (true, u) :: rest ->
  event_topics args i topics = Ok ret -> (length ret <= indexed_count a)%nat.
Proof.
  intros -> . revert i ret. induction a as [|[[] ty] a IH]; intros i ret He; cbn [app event_topics] in He.
  - injection He as <-. done.
  - destruct (topics !! _); [|done]. destruct (toGoType ty 0 l); [|done|done]. cbn [rbind] in He.
    destruct (event_topics (a ++ _) (S i) topics) as [vs| |] eqn:E; [|done|done]. injection He as <-.
    specialize (IH _ _ E). change (indexed_count ((true, ty) :: a)) with (S (indexed_count a)). cbn [length]. lia.
  - injection He as <-. cbn. lia.
Qed.

(** As soon as an indexed argument follows one that is not indexed, neither decoder
    can decode any log with the right number of topics: EventString never returns a
    value, and UnpackEvent fails or panics. *)
Theorem C43_interleaved_refuted : forall evs id args a t b u rest topics data vs,
  EventByID evs id = Some args -> args = a ++ (false, t) :: b ++ (true, u) :: rest ->
  length topics = indexed_count args ->
  EventString evs (id :: topics) data <> Ok vs /\ UnpackEvent evs (id :: topics) data <> Ok vs.
Proof.
  intros evs id args a t b u rest topics data vs He Ha Hl. unfold EventString, UnpackEvent. rewrite He.
  destruct (event_values args data) as [values| |] eqn:Ev; [|done|done]. cbn [rbind]. split.
  - (* the last indexed argument *)
    assert (exists k w, args !! k = Some (true, w) /\ (indexed_count args <= k)%nat) as (k & w & Hk & Hc).
    { subst args. rewrite count_app. change (indexed_count ((false, t) :: b ++ (true, u) :: rest)) with (indexed_count (b ++ (true, u) :: rest)).
      rewrite count_app.
      (* last indexed one in (true,u)::rest *)
      assert (exists r1 w r2, (true, u) :: rest = r1 ++ (true, w) :: r2 /\ indexed_count r2 = 0%nat) as (r1 & w & r2 & Er & Hr2).
      { clear. revert u. induction rest as [|[[] x] rest IH]; intros u.
        - by exists [], u, [].
        - destruct (IH x) as (r1 & w & r2 & E & H). exists ((true, u) :: r1), w, r2. by rewrite E.
        - destruct (decide (indexed_count rest = 0%nat)) as [Hz|Hz].
          + exists [], u, ((false, x) :: rest). done.
          + destruct (IH u) as (r1 & w & r2 & E & H). destruct r1 as [|y r1].
            * injection E as <- <-. done.
            * injection E as <- E. exists ((true, u) :: (false, x) :: r1), w, r2. by rewrite E. }
      rewrite Er, count_app. change (indexed_count ((true, w) :: r2)) with (S (indexed_count r2)). rewrite Hr2.
      exists (length (a ++ (false, t) :: b ++ r1)), w. split.
      - replace (a ++ (false, t) :: b ++ r1 ++ (true, w) :: r2) with ((a ++ (false, t) :: b ++ r1) ++ (true, w) :: r2)
          by (rewrite <- app_assoc; cbn [app]; by rewrite <- app_assoc).
        by apply list_lookup_middle.
      - rewrite !app_length. cbn [length]. rewrite app_length.
        pose proof (count_all a). pose proof (count_all b). pose proof (count_all r1). lia. }
    eapply (string_missing args 0 0 _ values k k w Hk); [done|]. cbn [length]. lia.
  - destruct (event_topics args 0 (id :: topics)) as [ret| |] eqn:Et; [|done|done]. cbn [rbind].
    pose proof (prefix_values _ _ _ _ _ _ _ _ _ Ha Et) as Hret.
    assert (length values = length (NonIndexed args)) as Hvl.
    { unfold event_values in Ev. destruct (match data with [] => _ | _ => _ end) as [x| |]; [|done|done]. cbn [rbind] in Ev.
      destruct (Nat.eqb_spec (length (NonIndexed args)) (length x)); [|done]. injection Ev as <-. done. }
    assert (length args = length (NonIndexed args) + indexed_count args)%nat as Hall by apply count_all.
    assert (indexed_count a < indexed_count args)%nat as Hlt.
    { rewrite Ha, count_app. change (indexed_count ((false, t) :: b ++ (true, u) :: rest)) with (indexed_count (b ++ (true, u) :: rest)).
      rewrite count_app. change (indexed_count ((true, u) :: rest)) with (S (indexed_count rest)). lia. }
    assert (1 <= length (NonIndexed args))%nat as H1.
    { rewrite Ha, non_indexed_app. rewrite app_length. cbn. lia. }
    unfold CopyEvent. destruct (ret ++ values) as [|v vs'] eqn:Erv.
    + destruct (NonIndexed args); [cbn in H1; lia|done].
    + rewrite <- Erv, app_length. destruct (Nat.ltb_spec 1 (length args)); [|lia].
      destruct (Nat.ltb_spec (length ret + length values) (length args)); [done|lia].
Qed.
Print Assumptions C43_interleaved_refuted.

(** An indexed string or byte string stops both decoders unless its hash is zero. *)
Theorem C43_indexed_dynamic_refuted : forall evs id t args topic topics data vs,
  EventByID evs id = Some ((true, t) :: args) -> t = TString \/ t = TBytes ->
  is_bytes topic -> length topic = 32%nat -> topic <> replicate 32 0 ->
  EventString evs (id :: topic :: topics) data <> Ok vs /\ UnpackEvent evs (id :: topic :: topics) data <> Ok vs.
Proof.
  intros evs id t args topic topics data vs He Ht Hb Hl Hz. unfold EventString, UnpackEvent. rewrite He.
  destruct (event_values _ data) as [values| |]; [|done|done]. cbn [rbind].
  assert (toGoType t 0 topic = Err) as E.
  { assert (num_of topic <> 0)%Z as Hn.
    { intros E. apply Hz. rewrite <- (word_of_num topic Hb Hl). rewrite E. reflexivity. }
    assert (lengthPrefixPointsTo 0 topic = Err) as El.
    { unfold lengthPrefixPointsTo. rewrite (sl_at topic [] topic []); [|by rewrite app_nil_r|done|unfold zlen; rewrite Hl; done].
      cbn [rbind]. destruct (Z.ltb_spec (zlen topic) (num_of topic + 32)) as [|Hle]; [done|]. unfold zlen in Hle. lia. }
    destruct Ht as [-> | ->]; cbn [toGoType]; rewrite toGo_enough by (unfold zlen; lia); by rewrite El. }
  cbn [event_string_loop event_topics].
  change ((id :: topic :: topics) !! (1 + 0)%nat) with (Some topic). cbv iota beta. rewrite E. done.
Qed.
Print Assumptions C43_indexed_dynamic_refuted.

Example C43_example : let ev := [(true, TUint 8); (false, TString)] in
  UnpackEvent [(word 5, ev)] (log_topics (word 5) ev [VNum KU8 3; VString [65]]) (log_data ev [VNum KU8 3; VString [65]])
  = Ok [VNum KU8 3; VString [65]] /\
  let ev2 := [(false, TUint 8); (true, TUint 8)] in
  UnpackEvent [(word 5, ev2)] (log_topics (word 5) ev2 [VNum KU8 3; VNum KU8 4]) (log_data ev2 [VNum KU8 3; VNum KU8 4]) = Panic /\
  EventString [(word 5, ev2)] (log_topics (word 5) ev2 [VNum KU8 3; VNum KU8 4]) (log_data ev2 [VNum KU8 3; VNum KU8 4]) = Err.
Proof. repeat split; reflexivity. Qed.
