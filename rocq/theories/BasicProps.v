(** Property theorems for heights (C49), orders (C50), chain structures (C58),
    logging fields (C60), proposal shares (C61), address ranges (C64) and the
    watched heights (C65). *)
From Verif Require Import BasicProofs.

(* ------------------------------------------------------------------ C49 *)
(** B is BlocksInEpoch, a package variable (1000 by default). A block number is a
    uint32, hence B <= 2^32. *)
Lemma C49_B_small B : B <= 2 ^ 32 -> B < two64. Proof. change (2 ^ 32) with 4294967296. unfold two64. lia. Qed.

Theorem C49_split_height : forall B h, 0 < B <= 2 ^ 32 -> h < NilHeight ->
  exists e b, Height_Split B h = (e, b) /\ Height_EpochNum B h = e /\ Height_BlockNum B h = b /\
    Height_UsefulEpoch B h = e /\ Height_UsefulBlock B h = b /\
    h = e * B + b /\ b < B /\ ToHeight B e b = h /\
    (forall e' b', h = e' * B + b' -> b' < B -> e' = e /\ b' = b).
Proof.
  intros B h [HB0 HB] Hh. pose proof (C49_B_small B HB) as HB64.
  unfold Height_Split, Height_EpochNum, Height_BlockNum, Height_UsefulEpoch, Height_UsefulBlock.
  destruct (N.eqb_spec h NilHeight) as [->|Hne]; [lia|].
  pose proof (N.div_mod h B ltac:(lia)) as Hdm. pose proof (N.mod_lt h B ltac:(lia)) as Hlt.
  change (2 ^ 32) with 4294967296 in HB. rewrite N.mod_small by lia.
  exists (h / B), (h mod B). do 5 (split; [done|]).
  split; [lia|]. split; [done|].
  assert (h / B <= h) by (apply N.div_le_upper_bound; [lia|nia]).
  split.
  - unfold ToHeight, BlockNum_IsValid. unfold NilHeight, NilEpoch, MaxUint64 in *.
    destruct (N.eqb_spec (h / B) 18446744073709551615); [lia|].
    destruct (N.ltb_spec (h mod B) B); [|lia]. cbn [orb negb].
    assert (h / B * B + h mod B = h) as E by lia.
    set (q := h / B) in *. set (r := h mod B) in *. clearbody q r. clear Hdm.
    rewrite SafeMul_spec by (unfold two64 in *; lia).
    destruct (N.leb_spec two64 (q * B)); [unfold two64 in *; lia|].
    rewrite N.mod_small by done. rewrite SafeAdd_spec by (unfold two64 in *; lia).
    rewrite E. destruct (N.leb_spec two64 h); [unfold two64 in *; lia|]. rewrite N.mod_small by done. done.
  - intros e' b' He Hb. split.
    + apply N.div_unique with b'; lia.
    + apply N.mod_unique with e'; lia.
Qed.
Print Assumptions C49_split_height.

(** Converting any epoch and block number: the sum when it is a valid height, the
    nil height otherwise. *)
Theorem C49_to_height : forall B e b, 0 < B <= 2 ^ 32 -> e < 2 ^ 64 -> b < 2 ^ 32 ->
  (e <> NilEpoch -> b < B -> e * B + b < NilHeight -> ToHeight B e b = e * B + b) /\
  (e = NilEpoch \/ B <= b \/ NilHeight <= e * B + b -> ToHeight B e b = NilHeight).
Proof.
  change (2 ^ 64) with two64. change (2 ^ 32) with 4294967296. intros B e b [HB0 HB] He Hb.
  unfold ToHeight, BlockNum_IsValid, NilHeight, NilEpoch, MaxUint64 in *.
  destruct (N.eqb_spec e 18446744073709551615) as [->|Hne]; cbn [orb]; [split; [done|done]|].
  destruct (N.ltb_spec b B) as [HbB|HbB]; cbn [negb]; [|split; [lia|done]].
  rewrite SafeMul_spec by (unfold two64 in *; lia).
  destruct (N.leb_spec two64 (e * B)) as [Ho|Ho]; [split; [unfold two64 in *; lia|done]|].
  rewrite N.mod_small by done. rewrite SafeAdd_spec by (unfold two64 in *; lia).
  destruct (N.leb_spec two64 (e * B + b)) as [Ho2|Ho2]; [split; [unfold two64 in *; lia|done]|].
  rewrite N.mod_small by done. split; [done|]. unfold two64 in *. intros [?|[?|?]]; lia.
Qed.
Print Assumptions C49_to_height.

(** The heights of an epoch are exactly those between its first and its last height. *)
Theorem C49_epoch_bounds : forall B e h, 0 < B <= 2 ^ 32 -> e < 2 ^ 64 -> h < NilHeight ->
  (Height_EpochNum B h = e <-> FirstHeight B e <= h <= LastHeight B e).
Proof.
  change (2 ^ 64) with two64. change (2 ^ 32) with 4294967296. intros B e h [HB0 HB] He Hh.
  unfold FirstHeight, LastHeight, Height_EpochNum, NilHeight, NilEpoch, MaxUint64 in *.
  destruct (N.eqb_spec h 18446744073709551615); [lia|].
  pose proof (N.div_mod h B ltac:(lia)) as Hdm. pose proof (N.mod_lt h B ltac:(lia)) as Hlt.
  assert (h / B <= h) by (apply N.div_le_upper_bound; [lia|nia]).
  set (q := h / B) in *. set (r := h mod B) in *. clearbody q r.
  destruct (N.eqb_spec e 18446744073709551615); [lia|].
  rewrite SafeMul_spec by (unfold two64 in *; lia).
  rewrite (u64_sub_small B 1) by (unfold two64; lia).
  destruct (N.leb_spec two64 (e * B)) as [Ho|Ho].
  { unfold two64 in *. split; [intros <-; lia|lia]. }
  rewrite N.mod_small by done. rewrite SafeAdd_spec by (unfold two64 in *; lia).
  destruct (N.leb_spec two64 (e * B + (B - 1))) as [Ho2|Ho2].
  - unfold two64 in *. split; [intros <-; lia|]. intros [H1 _].
    assert (q < e + 1) by nia. assert (e < q + 1) by nia. lia.
  - rewrite N.mod_small by done. split; [intros <-; lia|]. intros [H1 H2].
    assert (q < e + 1) by nia. assert (e < q + 1) by nia. lia.
Qed.
Print Assumptions C49_epoch_bounds.

(** The first/last-of-epoch flags of a height and of its block number agree and mark
    exactly the ends of the epoch. *)
Theorem C49_first_last : forall B h, 0 < B <= 2 ^ 32 -> h < NilHeight ->
  (Height_IsFirstOfEpoch B h = true <-> h = FirstHeight B (Height_EpochNum B h)) /\
  (Height_IsLastOfEpoch B h = true <-> h = LastHeight B (Height_EpochNum B h)) /\
  BlockNum_IsFirstOfEpoch (Height_BlockNum B h) = Height_IsFirstOfEpoch B h /\
  BlockNum_IsLastOfEpoch B (Height_BlockNum B h) = Height_IsLastOfEpoch B h.
Proof.
  change (2 ^ 32) with 4294967296. intros B h [HB0 HB] Hh.
  unfold BlockNum_IsFirstOfEpoch, BlockNum_IsLastOfEpoch, Height_BlockNum, BlockNum_IsValid,
    Height_IsFirstOfEpoch, Height_IsLastOfEpoch, FirstHeight, LastHeight, Height_EpochNum,
    NilHeight, NilEpoch, MaxUint64 in *.
  destruct (N.eqb_spec h 18446744073709551615); [lia|]. cbn [negb andb].
  pose proof (N.div_mod h B ltac:(lia)) as Hdm. pose proof (N.mod_lt h B ltac:(lia)) as Hlt.
  rewrite (u64_add_small h 1) by (unfold two64; lia).
  rewrite (N.mod_small (h mod B) 4294967296) by lia.
  rewrite (u64_add_small (h mod B) 1) by (unfold two64; lia).
  assert (h / B <= h) by (apply N.div_le_upper_bound; [lia|nia]).
  assert ((h + 1) mod B = if h mod B + 1 =? B then 0 else h mod B + 1) as Hs.
  { destruct (N.eqb_spec (h mod B + 1) B) as [E|E].
    - symmetry. apply N.mod_unique with (h / B + 1); lia.
    - symmetry. apply N.mod_unique with (h / B); lia. }
  rewrite Hs. set (q := h / B) in *. set (r := h mod B) in *. clearbody q r. clear Hs.
  destruct (N.eqb_spec q 18446744073709551615); [lia|].
  rewrite SafeMul_spec by (unfold two64 in *; lia).
  rewrite (u64_sub_small B 1) by (unfold two64; lia).
  destruct (N.leb_spec two64 (q * B)) as [Ho|Ho]; [unfold two64 in *; lia|].
  rewrite N.mod_small by done. rewrite SafeAdd_spec by (unfold two64 in *; lia).
  destruct (N.ltb_spec r B); [|lia]. cbn [andb].
  split; [|split; [|split]].
  - rewrite N.eqb_eq. lia.
  - destruct (N.eqb_spec (r + 1) B) as [E|E].
    + destruct (N.leb_spec two64 (q * B + (B - 1))) as [Ho2|Ho2]; [unfold two64 in *; lia|].
      rewrite N.mod_small by done. split; [lia|done].
    + split; [intros Hz; apply N.eqb_eq in Hz; lia|].
      destruct (N.leb_spec two64 (q * B + (B - 1))) as [Ho2|Ho2]; [lia|].
      rewrite N.mod_small by done. lia.
  - done.
  - destruct (N.eqb_spec (r + 1) B) as [E|E]; [done|]. symmetry. apply N.eqb_neq. lia.
Qed.
Print Assumptions C49_first_last.

(** The era of a height is the era of its epoch. *)
Theorem C49_era : forall B EIE h, 0 < B -> 0 < EIE -> B * EIE < 2 ^ 64 -> h < NilHeight ->
  Height_EraNum B EIE h = Height_EpochNum B h / EIE.
Proof.
  change (2 ^ 64) with two64. intros B E h HB HE HBE Hh. unfold Height_EraNum, Height_EpochNum.
  destruct (N.eqb_spec h NilHeight); [lia|]. rewrite u64_mul_small by done. symmetry. apply N.div_div; lia.
Qed.
Print Assumptions C49_era.

(** RemoveRemainder rounds down to a multiple. *)
Theorem C49_remove_remainder : forall h n, h < NilHeight -> 0 < n ->
  let r := RemoveRemainder h n in r <= h /\ h < r + n /\ (n | r).
Proof.
  intros h n Hh Hn r. unfold r, RemoveRemainder.
  destruct (N.eqb_spec n 0) as [->|]; [lia|]. cbn [orb].
  destruct (N.eqb_spec n 1) as [->|]; [split; [lia|]; split; [lia|]; apply N.divide_1_l|].
  destruct (N.eqb_spec h NilHeight); [lia|].
  pose proof (N.div_mod h n ltac:(lia)). pose proof (N.mod_lt h n ltac:(lia)).
  rewrite u64_mul_small by (unfold NilHeight, MaxUint64, two64 in *; lia).
  split; [lia|]. split; [lia|]. exists (h / n). done.
Qed.
Print Assumptions C49_remove_remainder.

(** The 8-byte form of a height is lossless and sorts like the height; decoding reads
    the last 8 bytes of a longer string. *)
Theorem C49_height_bytes : forall h k, h < 2 ^ 64 -> k < 2 ^ 64 ->
  BytesToHeight (Height_Bytes h) = h /\ length (Height_Bytes h) = 8%nat /\
  (lex_lt (Height_Bytes h) (Height_Bytes k) <-> h < k) /\
  (forall bs, is_bytes bs -> BytesToHeight bs = be_num bs mod 2 ^ 64).
Proof.
  intros h k Hh Hk.
  assert (forall bs, is_bytes bs -> BytesToHeight bs = be_num bs mod 2 ^ 64) as Hgen.
  { intros bs Hbs. unfold BytesToHeight. change (2 ^ 64) with (256 ^ N.of_nat 8).
    destruct (Nat.leb_spec 8 (length bs)) as [Hl|Hl].
    - rewrite <- (take_drop (length bs - 8) bs) at 3. rewrite be_num_app.
      set (x := be_num (take _ _)). set (d := drop _ _).
      assert (is_bytes d) as Hd by (apply is_bytes_drop; done).
      pose proof (be_num_bound d Hd) as Hb.
      assert (lenN d = N.of_nat 8) as E by (unfold lenN, d; rewrite drop_length; f_equal; lia).
      rewrite E in *. rewrite N.add_comm, N.mod_add by done. by rewrite N.mod_small.
    - rewrite be_num_app. rewrite <- be_fixed_zero, be_num_fixed, N.mod_0_l by (apply N.pow_nonzero; lia).
      rewrite N.mul_0_l, N.add_0_l. symmetry. apply N.mod_small.
      eapply N.lt_le_trans; [apply be_num_bound; done|]. apply N.pow_le_mono_r; unfold lenN; lia. }
  assert (forall x, x < 2 ^ 64 -> be_num (Height_Bytes x) = x) as Hn.
  { intros x Hx. unfold Height_Bytes. rewrite be_num_fixed. by apply N.mod_small. }
  split; [|split; [apply be_fixed_length|split; [|done]]].
  - rewrite Hgen by apply be_fixed_bytes. rewrite Hn by done. by apply N.mod_small.
  - rewrite lex_lt_num; [by rewrite !Hn|by unfold Height_Bytes; rewrite !be_fixed_length|apply be_fixed_bytes..].
Qed.
Print Assumptions C49_height_bytes.

(** The 4-byte form of a chain id likewise. *)
Theorem C49_chain_id_bytes : forall id k, id < 2 ^ 32 -> k < 2 ^ 32 ->
  BytesToChainID (ChainID_Bytes id) = id /\ length (ChainID_Bytes id) = 4%nat /\
  (lex_lt (ChainID_Bytes id) (ChainID_Bytes k) <-> id < k) /\
  (forall bs, is_bytes bs -> BytesToChainID bs = be_num bs mod 2 ^ 32).
Proof.
  intros h k Hh Hk.
  assert (forall bs, is_bytes bs -> BytesToChainID bs = be_num bs mod 2 ^ 32) as Hgen.
  { intros bs Hbs. unfold BytesToChainID. change (2 ^ 32) with (256 ^ N.of_nat 4).
    destruct (Nat.ltb_spec 4 (length bs)) as [Hl|Hl]; [|destruct (Nat.ltb_spec (length bs) 4) as [Hl2|Hl2]].
    - rewrite <- (take_drop (length bs - 4) bs) at 3. rewrite be_num_app.
      set (x := be_num (take _ _)). set (d := drop _ _).
      assert (is_bytes d) as Hd by (apply is_bytes_drop; done).
      pose proof (be_num_bound d Hd) as Hb.
      assert (lenN d = N.of_nat 4) as E by (unfold lenN, d; rewrite drop_length; f_equal; lia).
      rewrite E in *. rewrite N.add_comm, N.mod_add by done. by rewrite N.mod_small.
    - rewrite be_num_app. rewrite <- be_fixed_zero, be_num_fixed, N.mod_0_l by (apply N.pow_nonzero; lia).
      rewrite N.mul_0_l, N.add_0_l. symmetry. apply N.mod_small.
      eapply N.lt_le_trans; [apply be_num_bound; done|]. apply N.pow_le_mono_r; unfold lenN; lia.
    - symmetry. apply N.mod_small. replace (N.of_nat 4) with (lenN bs) by (unfold lenN; f_equal; lia).
      by apply be_num_bound. }
  assert (forall x, x < 2 ^ 32 -> be_num (ChainID_Bytes x) = x) as Hn.
  { intros x Hx. unfold ChainID_Bytes. rewrite be_num_fixed. by apply N.mod_small. }
  split; [|split; [apply be_fixed_length|split; [|done]]].
  - rewrite Hgen by apply be_fixed_bytes. rewrite Hn by done. by apply N.mod_small.
  - rewrite lex_lt_num; [by rewrite !Hn|by unfold ChainID_Bytes; rewrite !be_fixed_length|apply be_fixed_bytes..].
Qed.
Print Assumptions C49_chain_id_bytes.

(** The nil height has the nil epoch, block and era, and counts as epoch and block 0
    where a number is needed. *)
Theorem C49_nil_height : forall B EIE,
  Height_EpochNum B NilHeight = NilEpoch /\ Height_BlockNum B NilHeight = NilBlock /\
  Height_EraNum B EIE NilHeight = NilEra /\ Height_Split B NilHeight = (NilEpoch, NilBlock) /\
  Height_UsefulEpoch B NilHeight = 0 /\ Height_UsefulBlock B NilHeight = 0 /\
  Height_IsFirstOfEpoch B NilHeight = false /\ Height_IsLastOfEpoch B NilHeight = false /\
  ToHeight B NilEpoch NilBlock = NilHeight /\
  NilEpoch = 2 ^ 64 - 1 /\ NilBlock = 2 ^ 32 - 1 /\ NilEra = 2 ^ 64 - 1.
Proof. intros B EIE. repeat split; reflexivity. Qed.
Print Assumptions C49_nil_height.
Theorem C49_useful : forall B h, h <> NilHeight ->
  Height_UsefulEpoch B h = Height_EpochNum B h /\ Height_UsefulBlock B h = Height_BlockNum B h /\
  Height_Split B h = (Height_EpochNum B h, Height_BlockNum B h).
Proof.
  intros B h Hh. unfold Height_UsefulEpoch, Height_EpochNum, Height_UsefulBlock, Height_BlockNum, Height_Split.
  destruct (N.eqb_spec h NilHeight); done.
Qed.
Print Assumptions C49_useful.

Example C49_examples :
  Height_Split 1000 123456789 = (123456, 789) /\ ToHeight 1000 123456 789 = 123456789 /\
  FirstHeight 1000 5 = 5000 /\ LastHeight 1000 5 = 5999 /\
  LastHeight 1000 18446744073709551 = NilHeight /\ FirstHeight 1000 18446744073709552 = NilHeight /\
  Height_EraNum 1000 36 100000 = 2.
Proof. repeat split; vm_compute; reflexivity. Qed.

(* ------------------------------------------------------------------ C50 *)
(** The intended order: the nil value first, then by number. *)
Definition before (nil a b : N) : Prop := a <> b /\ (a = nil \/ b <> nil /\ a < b).

Theorem C50_compare_total_order : forall nil,
  (forall a b, (nil_compare nil a b = 0%Z <-> a = b) /\
               (nil_compare nil a b = (-1)%Z <-> before nil a b) /\
               (nil_compare nil a b = 1%Z <-> before nil b a)) /\
  (* [before] is a strict total order with least element [nil] *)
  (forall a, ~ before nil a a) /\
  (forall a b c, before nil a b -> before nil b c -> before nil a c) /\
  (forall a b, before nil a b \/ a = b \/ before nil b a) /\
  (forall a, a <> nil -> before nil nil a).
Proof.
  intros nil. unfold before. split; [|repeat split; lia].
  intros a b. unfold nil_compare.
  destruct (N.eqb_spec a b); [repeat split; lia|].
  destruct (N.eqb_spec a nil); [repeat split; lia|].
  destruct (N.eqb_spec b nil); [repeat split; lia|].
  destruct (N.ltb_spec a b); repeat split; lia.
Qed.
Print Assumptions C50_compare_total_order.

(** All four types use it. *)
Theorem C50_instances : forall a b,
  (Height_Compare a b = (-1)%Z <-> before NilHeight a b) /\
  (EpochNum_Compare a b = (-1)%Z <-> before NilEpoch a b) /\
  (EraNum_Compare a b = (-1)%Z <-> before NilEra a b) /\
  (ChainID_Compare a b = (-1)%Z <-> before NilChainID a b).
Proof.
  intros a b. unfold Height_Compare, EpochNum_Compare, EraNum_Compare, ChainID_Compare.
  split; [|split; [|split]]; exact (proj1 (proj2 (proj1 (C50_compare_total_order _) a b))).
Qed.
Print Assumptions C50_instances.

(** Diff returns the comparison and the distance of the ranks, where nil has rank 0
    and a number x rank x+1. *)
Definition rank (nil a : N) : Z := if decide (a = nil) then 0%Z else (Z.of_N a + 1)%Z.
Theorem C50_diff : forall a b, a < 2 ^ 64 -> b < 2 ^ 64 ->
  nil_diff NilHeight a b = (Z.to_N (Z.abs (rank NilHeight a - rank NilHeight b)), Height_Compare a b).
Proof.
  change (2 ^ 64) with two64. intros a b Ha Hb. unfold nil_diff, Height_Compare, nil_compare, rank, NilHeight, MaxUint64.
  unfold two64 in *.
  destruct (N.eqb_spec a b) as [<-|Hab]; [f_equal; lia|].
  destruct (N.eqb_spec a 18446744073709551615) as [Ea|Ea].
  { rewrite (decide_True _ _ Ea), decide_False by lia. rewrite u64_add_small by (unfold two64; lia). f_equal. lia. }
  rewrite (decide_False _ _ Ea).
  destruct (N.eqb_spec b 18446744073709551615) as [Eb|Eb].
  { rewrite (decide_True _ _ Eb). rewrite u64_add_small by (unfold two64; lia). f_equal. lia. }
  rewrite (decide_False _ _ Eb).
  destruct (N.ltb_spec a b); rewrite u64_sub_small by (unfold two64; lia); f_equal; lia.
Qed.
Print Assumptions C50_diff.

(** The pointer comparison of eras and epochs is the same order extended by the nil
    pointer as least element. *)
Theorem C50_pointer_cmp : forall nil (e o : option N),
  let c := ptr_cmp (nil_compare nil) false e o in
  (c = 0%Z <-> e = o) /\
  (c = (-1)%Z <-> match e, o with None, Some _ => True | Some a, Some b => before nil a b | _, None => False end) /\
  ptr_cmp (nil_compare nil) false o e = (- c)%Z /\
  ptr_cmp (nil_compare nil) true e e = 0%Z.
Proof.
  intros nil e o c. unfold c, ptr_cmp.
  destruct (C50_compare_total_order nil) as [H _].
  destruct e as [a|], o as [b|]; try (repeat split; done || lia).
  destruct (H a b) as (H1 & H2 & H3). destruct (H b a) as (H1' & H2' & H3').
  split; [rewrite H1; split; [by intros ->|by intros [= ->]]|]. split; [done|]. split; [|done].
  unfold nil_compare in *. destruct (N.eqb_spec a b), (N.eqb_spec b a); try lia.
  destruct (N.eqb_spec a nil), (N.eqb_spec b nil); try lia. destruct (N.ltb_spec a b), (N.ltb_spec b a); lia.
Qed.
Print Assumptions C50_pointer_cmp.

Example C50_examples :
  ChainID_Compare NilChainID 5 = (-1)%Z /\ ChainID_Compare 2000000 NilChainID = 1%Z /\
  Height_Compare NilHeight 0 = (-1)%Z /\ nil_diff NilHeight NilHeight 7 = (8, (-1)%Z).
Proof. repeat split; vm_compute; reflexivity. Qed.

(* ------------------------------------------------------------------ C58 *)
Theorem C58_new_validates : forall id parent cs,
  NewChainStruct false id parent = Some cs -> (id = MainChainID -> parent = NilChainID) ->
  Validate cs = true /\ cs_id cs = id /\ cs_parent cs = parent /\
  (cs_mode cs = Root <-> id = MainChainID) /\
  (cs_mode cs = Branch <-> id <> MainChainID /\ parent = MainChainID) /\
  (cs_mode cs = Shard <-> id <> MainChainID /\ parent <> MainChainID).
Proof.
  intros id p cs H Hm. unfold NewChainStruct in H.
  destruct (N.eqb_spec id NilChainID); [done|].
  destruct (N.eqb_spec p NilChainID) as [->|Hp].
  - destruct (N.eqb_spec id MainChainID) as [->|]; [|done]. injection H as <-. unfold Validate; cbn.
    repeat split; try done; intros; try lia. all: destruct H; done.
  - assert (id <> MainChainID) as Hid by (intros E; auto). 
    destruct (N.eqb_spec p MainChainID) as [->|Hpm]; injection H as <-; unfold Validate; cbn [cs_mode cs_id cs_parent].
    + destruct (N.eqb_spec id MainChainID); [done|]. cbn. repeat split; try done. intros [_ ?]; done.
    + destruct (N.eqb_spec id MainChainID); [done|]. destruct (N.eqb_spec p NilChainID); [done|]. cbn.
      destruct (N.eqb_spec p MainChainID); [done|]. repeat split; try done. intros [_ ?]; done.
Qed.
Print Assumptions C58_new_validates.

(** Exactly which constructed chain structures are rejected by Validate: main chains
    with a parent, and stand-alone chains without one. *)
Theorem C58_rejected_iff : forall sa id parent cs, NewChainStruct sa id parent = Some cs ->
  (Validate cs = false <-> id = MainChainID /\ parent <> NilChainID \/
                           id <> MainChainID /\ parent = NilChainID).
Proof.
  intros sa id p cs H. unfold NewChainStruct in H.
  destruct (N.eqb_spec id NilChainID) as [->|Hid]; [done|].
  destruct (N.eqb_spec p NilChainID) as [->|Hp].
  - destruct (N.eqb_spec id MainChainID) as [->|Hm]; [injection H as <-; unfold Validate; cbn; split; [done|lia]|].
    destruct sa; [|done]. injection H as <-. unfold Validate; cbn [cs_mode cs_id cs_parent].
    destruct (N.eqb_spec id MainChainID); [done|]. cbn. split; [intros _; right; done|done].
  - destruct (N.eqb_spec p MainChainID) as [->|Hpm]; injection H as <-; unfold Validate; cbn [cs_mode cs_id cs_parent];
    destruct (N.eqb_spec id MainChainID) as [->|Hm]; cbn [orb].
    + split; [intros _; by left|done].
    + destruct (N.eqb_spec MainChainID NilChainID); [done|]. cbn. split; [done|]. intros [[? ?]|[? ?]]; done.
    + split; [intros _; by left|done].
    + destruct (N.eqb_spec p NilChainID); [done|]. destruct (N.eqb_spec p MainChainID); [done|]. cbn.
      split; [done|]. intros [[? ?]|[? ?]]; done.
Qed.
Print Assumptions C58_rejected_iff.

(** Finding: construction succeeds for structures that validation rejects. *)
Theorem C58_new_always_validates_refuted :
  ~ (forall sa id parent cs, NewChainStruct sa id parent = Some cs -> Validate cs = true).
Proof.
  intros H. specialize (H false 0 5 _ eq_refl). vm_compute in H. discriminate.
Qed.
Print Assumptions C58_new_always_validates_refuted.

(** Validate accepts exactly the three documented shapes, however the structure was made. *)
Theorem C58_validate_iff : forall cs, Validate cs = true <->
  cs_mode cs = Root /\ cs_id cs = MainChainID /\ cs_parent cs = NilChainID \/
  cs_mode cs = Branch /\ cs_id cs <> MainChainID /\ cs_parent cs = MainChainID \/
  cs_mode cs = Shard /\ cs_id cs <> MainChainID /\ cs_parent cs <> NilChainID /\ cs_parent cs <> MainChainID.
Proof.
  intros [id p m]. unfold Validate. cbn [cs_mode cs_id cs_parent].
  destruct m; destruct (N.eqb_spec id MainChainID), (N.eqb_spec p NilChainID), (N.eqb_spec p MainChainID); cbn;
    split; intros H; subst; try done; try tauto;
    repeat match goal with H : _ \/ _ |- _ => destruct H | H : _ /\ _ |- _ => destruct H end; try done.
Qed.
Print Assumptions C58_validate_iff.

Example C58_examples :
  NewChainStruct false 0 NilChainID = Some (ChainStruct 0 NilChainID Root) /\
  NewChainStruct false 3 0 = Some (ChainStruct 3 0 Branch) /\
  NewChainStruct false 103 3 = Some (ChainStruct 103 3 Shard) /\
  NewChainStruct true 5 NilChainID = Some (ChainStruct 5 NilChainID Branch) /\
  NewChainStruct false 5 NilChainID = None.
Proof. repeat split; reflexivity. Qed.

(* ------------------------------------------------------------------ C60 *)
(** The pairs of an argument list, dropping pairs whose key is no string. *)
Fixpoint field_pairs {A} (as_str : A -> option (list N)) (vs : list A) : list (list N * A) :=
  match vs with
  | k :: v :: r => match as_str k with Some s => (s, v) :: field_pairs as_str r | None => field_pairs as_str r end
  | _ => []
  end.

Lemma wf_loop_spec {A} (as_str : A -> option (list N)) : forall f i half vs,
  (2 * half <= length vs)%nat -> (half - i <= f)%nat ->
  wf_loop as_str f i half vs = field_pairs as_str (take (2 * ((half - i + 1) / 2)) (drop i vs)).
Proof.
  induction f as [|f IH]; intros i half vs Hh Hf; cbn [wf_loop].
  - replace (half - i)%nat with 0%nat by lia. done.
  - destruct (Nat.ltb_spec i half) as [Hi|Hi].
    + destruct (lookup_lt_is_Some_2 vs i ltac:(lia)) as [k Hk].
      destruct (lookup_lt_is_Some_2 vs (S i) ltac:(lia)) as [v Hv]. rewrite Hk, Hv.
      rewrite (drop_S vs k i Hk), (drop_S vs v (S i) Hv).
      assert ((half - i + 1) / 2 = S ((half - (i + 2) + 1) / 2))%nat as E.
      { destruct (Nat.eq_dec (half - i)%nat 1%nat) as [E1|]; [rewrite E1; replace (half - (i+2))%nat with 0%nat by lia; done|].
        replace (half - i + 1)%nat with ((half - (i + 2) + 1) + 1 * 2)%nat by lia. rewrite Nat.div_add by lia. lia. }
      rewrite E. replace (2 * S ((half - (i + 2) + 1) / 2))%nat with (S (S (2 * ((half - (i + 2) + 1) / 2)))) by lia.
      cbn [take field_pairs]. rewrite IH by lia. replace (S (S i)) with (i + 2)%nat by lia. done.
    + replace (half - i)%nat with 0%nat by lia. done.
Qed.

(** WithField keeps the pairs that start in the first half of the arguments: of n
    pairs, the first (n+1)/2. *)
Theorem C60_with_field : forall {A} (as_str : A -> option (list N)) vs n,
  length vs = (2 * n)%nat ->
  WithField as_str vs = field_pairs as_str (take (2 * ((n + 1) / 2)) vs).
Proof.
  intros A as_str vs n Hn. unfold WithField.
  destruct (Nat.leb_spec (length vs) 1) as [Hl|Hl].
  - assert (n = 0%nat) as -> by lia. destruct vs; done.
  - assert (length vs / 2 = n)%nat as Hh by (rewrite Hn, (Nat.mul_comm 2 n); apply Nat.div_mul; lia).
    rewrite Hh, wf_loop_spec by lia. rewrite Nat.sub_0_r. done.
Qed.
Print Assumptions C60_with_field.

Theorem C60_one_field : forall {A} (as_str : A -> option (list N)) k v s, as_str k = Some s ->
  WithField as_str [k; v] = [(s, v)].
Proof. intros A as_str k v s H. rewrite (C60_with_field as_str [k;v] 1 eq_refl). cbn. rewrite H. done. Qed.
Print Assumptions C60_one_field.

(** Finding: with two or more fields, some are dropped. *)
Theorem C60_keeps_every_field_refuted :
  ~ (forall (vs : list (list N)), Nat.even (length vs) = true -> WithField Some vs = field_pairs Some vs).
Proof. intros H. specialize (H [[1];[2];[3];[4]] eq_refl). vm_compute in H. discriminate. Qed.
Print Assumptions C60_keeps_every_field_refuted.

(* ------------------------------------------------------------------ C61 *)
Definition zsum (l : list Z) : Z := foldr Z.add 0%Z l.

Lemma zsum_app l1 l2 : zsum (l1 ++ l2) = (zsum l1 + zsum l2)%Z.
Proof. induction l1 as [|x l1 IH]; [done|]. simpl app. unfold zsum in *. cbn [foldr]. rewrite IH. lia. Qed.

Lemma shares_sum (q r : Z) : forall k, (0 <= r)%Z ->
  zsum (map (fun i => if (Z.of_nat i <? r)%Z then (q + 1)%Z else q) (seq 0 k)) =
    (q * Z.of_nat k + Z.min r (Z.of_nat k))%Z.
Proof.
  induction k as [|k IH]; intros Hr; [unfold zsum; cbn; lia|].
  rewrite seq_S, map_app, zsum_app, IH by done. cbn [map]. unfold zsum at 1. cbn [foldr].
  rewrite Nat.add_0_l. destruct (Z.ltb_spec (Z.of_nat k) r); lia.
Qed.

(** The members 0..n-1 of a committee of n share all B blocks of an epoch, and the
    shares differ by at most one. *)
Theorem C61_shares_cover_epoch : forall B n, (0 < n)%nat ->
  exists shares : list Z,
    Forall2 (fun i s => ShouldPropose B (Z.of_nat i) (Z.of_nat n) = Some s) (seq 0 n) shares /\
    zsum shares = Z.of_N B /\
    (forall s, s ∈ shares -> Z.of_N B / Z.of_nat n <= s <= Z.of_N B / Z.of_nat n + 1)%Z.
Proof.
  intros B n Hn. set (q := Z.quot (Z.of_N B) (Z.of_nat n)). set (r := Z.rem (Z.of_N B) (Z.of_nat n)).
  exists (map (fun i => if (Z.of_nat i <? r)%Z then (q + 1)%Z else q) (seq 0 n)).
  assert (0 <= r < Z.of_nat n)%Z as Hr by (apply Z.rem_bound_pos; lia).
  assert (Z.of_N B = Z.of_nat n * q + r)%Z as E by (apply Z.quot_rem; lia).
  assert (q = Z.of_N B / Z.of_nat n)%Z as Eq by (apply Z.quot_div_nonneg; lia).
  split; [|split].
  - apply Forall2_fmap_r, Forall_Forall2_diag, Forall_forall. intros i _. unfold ShouldPropose.
    destruct (Z.eqb_spec (Z.of_nat n) 0); [lia|]. fold q r. done.
  - rewrite shares_sum by lia. rewrite Z.min_l by lia. lia.
  - intros s Hs. apply elem_of_list_fmap in Hs as (i & -> & _). rewrite <- Eq.
    destruct (Z.of_nat i <? r)%Z; lia.
Qed.
Print Assumptions C61_shares_cover_epoch.

Theorem C61_empty_committee_panics : forall B i, ShouldPropose B i 0 = None.
Proof. done. Qed.
Print Assumptions C61_empty_committee_panics.

Example C61_example : map (fun i => ShouldPropose 1000 i 7) [0;1;5;6]%Z = [Some 143; Some 143; Some 143; Some 142]%Z.
Proof. reflexivity. Qed.

(* ------------------------------------------------------------------ C64 *)
(** [addr_bit bs i] is bit i of a byte string, counted from the highest bit of its
    first byte. An address range given by (index, value) contains exactly the
    addresses that agree with value on the first [shard_bits index] bits: index+1
    bits, except that at a byte boundary (index a multiple of 8) bit index itself is
    ignored. *)
Theorem C64_address_range : forall idx value addr, is_bytes value -> is_bytes addr ->
  (N.to_nat (idx / 8) < length addr)%nat -> (N.to_nat (idx / 8) < length value)%nat ->
  (AddressShard_IsIn idx value addr = true <->
     forall i, i < shard_bits idx -> addr_bit value i = addr_bit addr i).
Proof.
  intros idx value addr Hv Ha Hla Hlv. unfold AddressShard_IsIn. rewrite BytePos_div.
  destruct (Nat.leb_spec (length addr) (N.to_nat (idx / 8))); [lia|].
  rewrite isin_loop_spec.
  assert (forall l j b, is_bytes l -> l !! j = Some b -> b < 256) as Hby.
  { intros l j b Hl Hj. unfold is_bytes in Hl. rewrite Forall_forall in Hl. apply Hl. by eapply elem_of_list_lookup_2. }
  set (pos := N.to_nat (idx / 8)) in *.
  assert (forall j, (j <= pos)%nat -> exists b a, value !! j = Some b /\ addr !! j = Some a) as Hex.
  { intros j Hj. destruct (lookup_lt_is_Some_2 value j ltac:(lia)) as [b Hb].
    destruct (lookup_lt_is_Some_2 addr j ltac:(lia)) as [a Ha']. eauto. }
  assert (forall l j b i, l !! j = Some b -> N.to_nat (i / 8) = j -> addr_bit l i = N.testbit b (7 - i mod 8)) as Hbit.
  { intros l j b i Hj <-. unfold addr_bit. rewrite nth_lookup, Hj. done. }
  split.
  - intros H1 i Hi. assert (i / 8 <= idx / 8) as Hle.
    { apply N.div_le_mono; [lia|]. unfold shard_bits in Hi. destruct (idx mod 8 =? 0); lia. }
    destruct (H1 (N.to_nat (i / 8)) ltac:(lia)) as (b & a & Eb & Ea & Eq).
    rewrite (Hbit value _ b i Eb eq_refl), (Hbit addr _ a i Ea eq_refl).
    destruct (Nat.eqb_spec (N.to_nat (i / 8)) (0 + S pos - 1)) as [E|E]; [|by rewrite Eq].
    assert (i / 8 = idx / 8) as Ei by lia. pose proof (N.mod_lt i 8 ltac:(done)) as Hm.
    pose proof (f_equal (fun x => N.testbit x (7 - i mod 8)) Eq) as Et. cbn beta in Et.
    rewrite !Mask_bits in Et by eauto.
    pose proof (N.div_mod i 8 ltac:(done)). pose proof (N.div_mod idx 8 ltac:(done)).
    unfold shard_bits in Hi. destruct (N.eqb_spec (idx mod 8) 0) as [E0|E0]; [lia|].
    rewrite decide_False in Et by done. rewrite decide_True in Et by lia.
    rewrite decide_False in Et by done. by rewrite decide_True in Et by lia.
  - intros H1 j Hj. destruct (Hex j ltac:(lia)) as (b & a & Eb & Ea). exists b, a. do 2 (split; [done|]).
    pose proof (N.div_mod idx 8 ltac:(done)) as Hd.
    assert (forall i, i < 8 -> (N.of_nat j * 8 + i < shard_bits idx) -> N.testbit b (7 - i) = N.testbit a (7 - i)) as Hb.
    { intros i Hi Hs. specialize (H1 _ Hs).
      assert ((N.of_nat j * 8 + i) / 8 = N.of_nat j) as E1 by (symmetry; apply N.div_unique with i; lia).
      assert ((N.of_nat j * 8 + i) mod 8 = i) as E2 by (symmetry; apply N.mod_unique with (N.of_nat j); lia).
      rewrite (Hbit value j b), (Hbit addr j a) in H1 by (done || (rewrite E1; lia)). by rewrite E2 in H1. }
    destruct (Nat.eqb_spec j (0 + S pos - 1)) as [E|E].
    + apply byte_bits_eq; [apply Mask_lt; eauto..|]. intros i Hi. rewrite !Mask_bits by eauto.
      destruct (decide (idx mod 8 = 0)); [done|]. destruct (decide (i <= idx mod 8)); [|done].
      apply Hb; [done|]. unfold shard_bits. destruct (N.eqb_spec (idx mod 8) 0); [done|]. lia.
    + apply byte_bits_eq; [eauto..|]. intros i Hi. apply Hb; [done|].
      unfold shard_bits. destruct (N.eqb_spec (idx mod 8) 0); lia.
Qed.
Print Assumptions C64_address_range.

(** Too short a value, or an index beyond the address, contains nothing. *)
Theorem C64_out_of_range : forall idx value addr,
  (length addr <= N.to_nat (idx / 8))%nat \/ (length value <= N.to_nat (idx / 8))%nat ->
  AddressShard_IsIn idx value addr = false.
Proof.
  intros idx value addr H. unfold AddressShard_IsIn. rewrite BytePos_div.
  destruct (Nat.leb_spec (length addr) (N.to_nat (idx / 8))) as [|Hl]; [done|].
  destruct (isin_loop _ _ _ _ _) eqn:E; [|done]. rewrite isin_loop_spec in E.
  destruct (E (N.to_nat (idx / 8)) ltac:(lia)) as (b & a & Hb & _). apply lookup_lt_Some in Hb. lia.
Qed.
Print Assumptions C64_out_of_range.

(** Bit reads the same bits. *)
Theorem C64_bit : forall bs i, Bits_Bit bs i = addr_bit bs i.
Proof.
  intros bs i. unfold Bits_Bit, addr_bit. rewrite BytePos_div, BitPos_mod, nth_lookup.
  destruct (bs !! N.to_nat (i / 8)) as [b|]; cbn [default from_option id]; [|by rewrite N.bits_0].
  change (N.land (N.shiftr b (7 - i mod 8)) 1) with (N.land (N.shiftr b (7 - i mod 8)) (N.ones 1)).
  rewrite N.land_ones. change (2 ^ 1) with 2.
  rewrite <- N.bit0_mod. rewrite N.shiftr_spec', N.add_0_l.
  destruct (N.testbit b (7 - i mod 8)); done.
Qed.
Print Assumptions C64_bit.

(** Finding: Index is documented as the index of the last bit compared, but bit 8 is
    not compared for index 8. *)
Theorem C64_last_bit_compared_refuted :
  ~ (forall idx value addr, AddressShard_IsIn idx value addr = true ->
       forall i, i <= idx -> addr_bit value i = addr_bit addr i).
Proof.
  intros H. specialize (H 8 [1; 128] (1 :: 0 :: replicate 18 0) eq_refl 8 ltac:(lia)).
  vm_compute in H. discriminate.
Qed.
Print Assumptions C64_last_bit_compared_refuted.

Example C64_example :
  AddressShard_IsIn 9 [5; 128] (5 :: 129 :: replicate 18 0) = true /\
  AddressShard_IsIn 9 [5; 128] (5 :: 65 :: replicate 18 0) = false.
Proof. split; reflexivity. Qed.

(* ------------------------------------------------------------------ C65 *)
(** The watched height of a chain never goes down through CAS, CAS reports exactly
    whether it raised it, and Get returns the last stored value; other chains are not
    touched. The map after a history, key by key: *)
Fixpoint watched (k : N) (cur : option N) (os : list lbop) : option N :=
  match os with
  | [] => cur
  | LBSet k' v :: r => watched k (if decide (k = k') then Some v else cur) r
  | LBCAS k' v :: r => watched k (if decide (k = k') then Some (match cur with Some c => N.max c v | None => v end) else cur) r
  | LBGet _ :: r => watched k cur r
  end.
(** and the results *)
Fixpoint watched_obs (pre os : list lbop) : list lbres :=
  match os with
  | [] => []
  | o :: r =>
      match o with
      | LBSet _ _ => LBUnit
      | LBGet k => LBVal (watched k None pre)
      | LBCAS k v => LBBool (match watched k None pre with Some c => c <? v | None => true end)
      end :: watched_obs (pre ++ [o]) r
  end.

Lemma watched_app k os1 : forall cur os2, watched k cur (os1 ++ os2) = watched k (watched k cur os1) os2.
Proof. induction os1 as [|o os1 IH]; intros cur os2; [done|]. destruct o; cbn [app watched]; apply IH. Qed.

Theorem C65_watched_heights : forall os,
  exists m, lb_run ∅ os = (m, watched_obs [] os) /\ forall k, m !! k = watched k None os.
Proof.
  intros os.
  enough (forall pre m, (forall k, m !! k = watched k None pre) ->
    exists m', lb_run m os = (m', watched_obs pre os) /\ forall k, m' !! k = watched k None (pre ++ os)) as H.
  { destruct (H [] ∅) as (m & E & Hm); [done|]. exists m. done. }
  induction os as [|o os IH]; intros pre m Hm; cbn [lb_run watched_obs].
  { exists m. by rewrite app_nil_r. }
  assert (exists m1 r, lb_step m o = (m1, r) /\ (forall k, m1 !! k = watched k None (pre ++ [o])) /\
     r = match o with LBSet _ _ => LBUnit | LBGet k => LBVal (watched k None pre)
         | LBCAS k v => LBBool (match watched k None pre with Some c => c <? v | None => true end) end)
    as (m1 & r & E & Hm1 & ->).
  { destruct o as [k v|k|k v]; cbn [lb_step].
    - eexists _, _. split; [done|]. split; [|done]. intros k'. rewrite watched_app. cbn [watched].
      destruct (decide (k' = k)) as [->|]; [by rewrite lookup_insert|rewrite lookup_insert_ne by done; apply Hm].
    - eexists _, _. split; [done|]. split; [|by rewrite Hm]. intros k'. rewrite watched_app. apply Hm.
    - rewrite Hm. destruct (watched k None pre) as [c|] eqn:Ec.
      + destruct (N.leb_spec v c).
        * eexists _, _. split; [done|]. split.
          -- intros k'. rewrite watched_app. cbn [watched]. destruct (decide (k' = k)) as [->|]; [|apply Hm].
             rewrite Hm, Ec. f_equal. lia.
          -- f_equal. symmetry. apply N.ltb_ge. done.
        * eexists _, _. split; [done|]. split.
          -- intros k'. rewrite watched_app. cbn [watched].
             destruct (decide (k' = k)) as [->|]; [rewrite lookup_insert, Ec; f_equal; lia|rewrite lookup_insert_ne by done; apply Hm].
          -- f_equal. symmetry. apply N.ltb_lt. done.
      + eexists _, _. split; [done|]. split; [|done]. intros k'. rewrite watched_app. cbn [watched].
        destruct (decide (k' = k)) as [->|]; [by rewrite lookup_insert, Ec|rewrite lookup_insert_ne by done; apply Hm]. }
  rewrite E. destruct (IH (pre ++ [o]) m1 Hm1) as (m' & E' & Hm'). rewrite E'.
  exists m'. split; [done|]. intros k. rewrite Hm', <- app_assoc. done.
Qed.
Print Assumptions C65_watched_heights.

(** With CAS only, watched heights are the maximum seen. *)
Theorem C65_cas_is_max : forall k os v, Forall (fun o => match o with LBSet _ _ => False | _ => True end) os ->
  watched k None os = Some v ->
  In (LBCAS k v) os /\ forall w, In (LBCAS k w) os -> w <= v.
Proof.
  intros k os v Hos.
  enough (forall cur, watched k cur os = Some v ->
     (In (LBCAS k v) os \/ cur = Some v) /\ (forall w, In (LBCAS k w) os -> w <= v) /\ (forall c, cur = Some c -> c <= v)) as H.
  { intros Hw. destruct (H None Hw) as ([?|?] & ? & _); done. }
  induction Hos as [|o os Ho Hos IH]; intros cur Hw; cbn [watched In] in *.
  { subst cur. split; [by right|]. split; [done|]. intros c [= <-]. lia. }
  destruct o as [k' v'|k'|k' v']; [done| |].
  - destruct (IH _ Hw) as (H1 & H2 & H3). split; [tauto|]. split; [|done]. intros w [?|?]; [done|auto].
  - destruct (IH _ Hw) as (H1 & H2 & H3). destruct (decide (k = k')) as [<-|Hne].
    + specialize (H3 _ eq_refl). split; [|split].
      * destruct H1 as [H1|H1]; [tauto|]. injection H1 as H1.
        destruct cur as [c|]; [|left; left; congruence].
        destruct (N.max_spec c v') as [[_ E]|[_ E]]; rewrite E in H1; subst; tauto.
      * intros w [[= <-]|Hin]; [destruct cur; lia|auto].
      * intros c ->. lia.
    + split; [tauto|]. split; [|done]. intros w [[= <-]|Hin]; [done|auto].
Qed.
Print Assumptions C65_cas_is_max.

Example C65_example :
  (lb_run ∅ [LBCAS 1 5; LBCAS 1 4; LBGet 1; LBCAS 2 9; LBSet 1 2; LBCAS 1 3; LBGet 1]).2 =
    [LBBool true; LBBool false; LBVal (Some 5); LBBool true; LBUnit; LBBool true; LBVal (Some 3)].
Proof. vm_compute. reflexivity. Qed.
