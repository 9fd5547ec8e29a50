(** C48: hex encodings. *)
From Verif Require Import HexModel.
Global Open Scope N_scope.

(** Specification vocabulary: ASCII lower case. *)
Definition lower (c : N) : N := if (65 <=? c) && (c <=? 90) then c + 32 else c.

(* ----------------------------------------------------------------- digits *)
Ltac bcase := repeat match goal with
  | |- context [?a <=? ?b] => destruct (N.leb_spec a b)
  | |- context [?a <? ?b] => destruct (N.ltb_spec a b)
  | H : context [?a <=? ?b] |- _ => destruct (N.leb_spec a b)
  | H : context [?a <? ?b] |- _ => destruct (N.ltb_spec a b)
  end; cbn [andb orb negb] in *.

Lemma decodeNibble_spec c d : decodeNibble c = Some d <-> d < 16 /\ lower c = nib_char d.
Proof.
  unfold decodeNibble, lower, nib_char. split.
  - intros H. bcase; try lia; try discriminate; injection H as <-; lia.
  - intros [Hd H]. bcase; try lia; try discriminate; f_equal; lia.
Qed.
Lemma nib_char_inj a b : nib_char a = nib_char b -> a < 16 -> b < 16 -> a = b.
Proof. unfold nib_char. intros. bcase; lia. Qed.
Lemma lower_nib d : d < 16 -> lower (nib_char d) = nib_char d.
Proof. unfold lower, nib_char. intros. bcase; lia. Qed.
Lemma lower_48 c : lower c = 48 <-> c = 48.
Proof. unfold lower. split; intros; bcase; lia. Qed.
Lemma lower_120 c : lower c = 120 <-> c = 120 \/ c = 88.
Proof. unfold lower. split; intros; bcase; lia. Qed.

Definition nibbles (s : list N) : option (list N) := mapM decodeNibble s.
Definition num16 (a : N) (ds : list N) : N := foldl (fun a d => a * 16 + d) a ds.

Lemma nibbles_spec s : forall ds, nibbles s = Some ds <-> Forall (fun d => d < 16) ds /\ map lower s = map nib_char ds.
Proof.
  unfold nibbles. intros ds. rewrite mapM_Some. split.
  - induction 1 as [|c d s ds Hc H [IH1 IH2]]; [done|]. apply decodeNibble_spec in Hc as [Hd Hl].
    split; [by constructor|]. cbn [map]. by rewrite Hl, IH2.
  - intros [Hf Hm]. revert s Hm; induction Hf as [|d ds Hd Hf IH]; intros [|c s] Hm; try discriminate; [constructor|].
    cbn [map] in Hm. injection Hm as H1 H2. constructor; [|by apply IH]. by apply decodeNibble_spec.
Qed.
Lemma nibbles_cons c s : nibbles (c :: s) =
  match decodeNibble c with None => None | Some d => match nibbles s with None => None | Some ds => Some (d :: ds) end end.
Proof. unfold nibbles. cbn [mapM]. destruct (decodeNibble c); [|done]. cbn. by destruct (mapM decodeNibble s). Qed.
Lemma nibbles_length s ds : nibbles s = Some ds -> length ds = length s.
Proof. intros H. apply nibbles_spec in H as [_ H]. apply (f_equal length) in H. by rewrite !map_length in H. Qed.
Lemma nibbles_app s1 s2 : nibbles (s1 ++ s2) =
  match nibbles s1, nibbles s2 with Some a, Some b => Some (a ++ b) | _, _ => None end.
Proof.
  induction s1 as [|c s1 IH]; cbn [app].
  { change (nibbles []) with (Some (@nil N)). cbn. by destruct (nibbles s2). }
  rewrite !nibbles_cons, IH. destruct (decodeNibble c); [|done].
  destruct (nibbles s1), (nibbles s2); done.
Qed.

Lemma num16_app a l1 l2 : num16 a (l1 ++ l2) = num16 (num16 a l1) l2.
Proof. apply foldl_app. Qed.
Lemma num16_acc ds : forall a, num16 a ds = a * 16 ^ lenN ds + num16 0 ds.
Proof.
  induction ds as [|d ds IH]; intros a; cbn [num16 foldl]; [change (lenN []) with 0; rewrite N.pow_0_r; lia|].
  fold (num16 (a * 16 + d) ds). fold (num16 (0 * 16 + d) ds). rewrite IH, (IH (0 * 16 + d)).
  rewrite lenN_cons, N.pow_add_r. change (16 ^ 1) with 16. lia.
Qed.
Lemma num16_bound ds : Forall (fun d => d < 16) ds -> num16 0 ds < 16 ^ lenN ds.
Proof.
  induction ds as [|d ds IH] using rev_ind; intros H; [cbn; lia|].
  apply Forall_app in H as [H1 H2]. apply Forall_cons in H2 as [H2 _].
  rewrite num16_app. cbn [num16 foldl]. fold (num16 0 ds). specialize (IH H1).
  rewrite lenN_app, N.pow_add_r. change (lenN [d]) with 1. change (16 ^ 1) with 16. lia.
Qed.

(* ------------------------------------------------------ canonical digits *)
Fixpoint digs_f (fuel : nat) (n : N) : list N :=
  match fuel with O => [] | S f => if n =? 0 then [] else digs_f f (n / 16) ++ [n mod 16] end.
Lemma digits_digs f : forall n acc, digits_f f n acc = map nib_char (digs_f f n) ++ acc.
Proof.
  induction f as [|f IH]; intros n acc; cbn [digits_f digs_f]; [done|].
  destruct (n =? 0); [done|]. rewrite IH, map_app, <- app_assoc. done.
Qed.
Lemma digs_f_fuel f : forall f' n, n < 16 ^ N.of_nat f -> n < 16 ^ N.of_nat f' -> digs_f f n = digs_f f' n.
Proof.
  induction f as [|f IH]; intros f' n H H'.
  { assert (n = 0) as -> by (cbn in H; lia). by destruct f'. }
  destruct f' as [|f'].
  { assert (n = 0) as -> by (cbn in H'; lia). done. }
  cbn [digs_f]. destruct (n =? 0); [done|]. f_equal.
  rewrite Nat2N.inj_succ, N.pow_succ_r' in H, H'.
  apply IH; apply N.div_lt_upper_bound; lia.
Qed.
Lemma size16 n : n < 16 ^ N.of_nat (N.to_nat (N.size n)).
Proof.
  rewrite N2Nat.id. eapply N.lt_le_trans; [apply N_size_bound|]. apply N.pow_le_mono_l. lia.
Qed.
Definition digs (n : N) : list N := if n =? 0 then [0] else digs_f (N.to_nat (N.size n)) n.
Lemma hex_digits_digs n : hex_digits n = map nib_char (digs n).
Proof. unfold hex_digits, digs. destruct (n =? 0); [done|]. by rewrite digits_digs, app_nil_r. Qed.
Lemma digs_f_step n : n <> 0 -> digs_f (N.to_nat (N.size n)) n = digs_f (N.to_nat (N.size (n / 16))) (n / 16) ++ [n mod 16].
Proof.
  intros Hn. rewrite (digs_f_fuel _ (S (N.to_nat (N.size n))) n (size16 n)).
  - cbn [digs_f]. destruct (N.eqb_spec n 0); [done|]. f_equal. apply digs_f_fuel; [|apply size16].
    eapply N.le_lt_trans; [|apply size16]. apply N.div_le_upper_bound; lia.
  - eapply N.lt_le_trans; [apply size16|]. apply N.pow_le_mono_r; lia.
Qed.
Lemma digs_f_ok n : let ds := digs_f (N.to_nat (N.size n)) n in
  Forall (fun d => d < 16) ds /\ num16 0 ds = n /\ (n <> 0 -> exists d r, ds = d :: r /\ d <> 0).
Proof.
  induction n as [n IH] using (well_founded_induction N.lt_wf_0). cbn zeta.
  destruct (N.eq_dec n 0) as [->|Hn]; [split; [constructor|]; split; [done|]; intros; congruence|].
  rewrite digs_f_step by done. destruct (IH (n / 16)) as (A & B & C); [apply N.div_lt; lia|]. split; [|split].
  - apply Forall_app. split; [done|]. constructor; [|done]. apply N.mod_lt. lia.
  - rewrite num16_app, B. cbn. clear. lia.
  - intros _. destruct (N.eq_dec (n / 16) 0) as [E|E].
    + rewrite E. exists (n mod 16), []. split; [done|]. clear -E Hn. lia.
    + destruct (C E) as (d & r & -> & Hd). by exists d, (r ++ [n mod 16]).
Qed.
Definition canon (ds : list N) : Prop := ds <> [] /\ Forall (fun d => d < 16) ds /\ ((1 < length ds)%nat -> hd 0 ds <> 0).
Lemma digs_ok n : canon (digs n) /\ num16 0 (digs n) = n.
Proof.
  unfold digs, canon. destruct (N.eqb_spec n 0) as [->|Hn].
  { split; [|done]. split; [done|]. split; [by repeat constructor|]. cbn. lia. }
  destruct (digs_f_ok n) as (A & B & C). destruct (C Hn) as (d & r & E & Hd). rewrite E in *. done.
Qed.
Lemma canon_unique l1 : forall l2, canon l1 -> canon l2 -> num16 0 l1 = num16 0 l2 -> l1 = l2.
Proof.
  intros l2 (Hn1 & Hf1 & Hc1) (Hn2 & Hf2 & Hc2) E.
  assert (forall l, l <> [] -> (1 < length l)%nat -> hd 0 l <> 0 -> 16 ^ (lenN l - 1) <= num16 0 l) as Hlow.
  { intros [|d l] _ _ Hh; [done|]. cbn [hd] in Hh. cbn [num16 foldl]. fold (num16 (0 * 16 + d) l). rewrite num16_acc.
    rewrite lenN_cons. replace (1 + lenN l - 1) with (lenN l) by lia. nia. }
  assert (forall l, (length l <= 1)%nat -> Forall (fun d => d < 16) l -> num16 0 l < 16) as Hs.
  { intros l Hl Hf. eapply N.lt_le_trans; [by apply num16_bound|]. change 16 with (16 ^ 1) at 2. apply N.pow_le_mono_r; unfold lenN; lia. }
  assert (length l1 = length l2) as El.
  { assert (forall l l', l <> [] -> l' <> [] -> Forall (fun d => d < 16) l -> Forall (fun d => d < 16) l' ->
       ((1 < length l')%nat -> hd 0 l' <> 0) -> num16 0 l = num16 0 l' -> (length l' <= length l)%nat) as Hle.
    { intros l l' Hn Hn' Hf Hf' Hc' E'. destruct (Nat.le_gt_cases (length l') (length l)) as [|Hgt]; [done|]. exfalso.
      assert (1 < length l')%nat as H1 by (destruct l; [done|cbn [length] in Hgt; lia]).
      pose proof (Hlow l' Hn' H1 (Hc' H1)) as HL. pose proof (num16_bound l Hf) as HB.
      assert (16 ^ lenN l <= 16 ^ (lenN l' - 1)) by (apply N.pow_le_mono_r; unfold lenN; lia). lia. }
    apply Nat.le_antisymm; eapply Hle; eauto. }
  clear Hc1 Hc2 Hn1 Hn2 Hlow Hs. revert l2 El Hf2 E. induction l1 as [|a l1 IH] using rev_ind; intros l2 El Hf2 E.
  { by destruct l2. }
  destruct l2 as [|b l2 _] using rev_ind; [rewrite app_length in El; cbn in El; lia|].
  rewrite !app_length in El. cbn [length] in El. apply Forall_app in Hf1 as [Hf1 Ha]. apply Forall_app in Hf2 as [Hf2 Hb].
  apply Forall_cons in Ha as [Ha _]. apply Forall_cons in Hb as [Hb _].
  rewrite !num16_app in E. cbn [num16 foldl] in E. fold (num16 0 l1) in E. fold (num16 0 l2) in E.
  assert (a = b /\ num16 0 l1 = num16 0 l2) as [-> E'] by lia. f_equal. apply IH; [done|lia|done|done].
Qed.

(* --------------------------------------------------------- number strings *)
Lemma checkNumber_spec s raw : checkNumber s = HOk raw <->
  (exists x, s = 48 :: x :: raw /\ (x = 120 \/ x = 88)) /\ raw <> [] /\ ((1 < length raw)%nat -> hd 0 raw <> 48).
Proof.
  unfold checkNumber, has0xPrefix. split.
  - intros H. destruct s as [|a [|x r]]; [done|done|].
    destruct (N.eqb_spec a 48) as [->|]; [|done]. cbn [andb negb] in H.
    destruct ((x =? 120) || (x =? 88)) eqn:Hx; cbn [negb] in H; [|done].
    change (drop 2 (48 :: x :: r)) with r in H.
    apply orb_true_iff in Hx. rewrite !N.eqb_eq in Hx.
    destruct r as [|c r]; [done|]. destruct ((1 <? length (c :: r))%nat && (c =? 48)) eqn:E; [done|].
    injection H as <-. split; [exists x; auto|]. split; [done|]. intros Hl. cbn [hd].
    apply andb_false_iff in E as [E|E]; [apply Nat.ltb_ge in E; lia|by apply N.eqb_neq in E].
  - intros ((x & -> & Hx) & Hne & Hh). rewrite N.eqb_refl. cbn [andb].
    assert ((x =? 120) || (x =? 88) = true) as -> by (destruct Hx as [->| ->]; done). cbn [negb].
    change (drop 2 (48 :: x :: raw)) with raw.
    destruct raw as [|c r]; [done|]. destruct ((1 <? length (c :: r))%nat && (c =? 48)) eqn:E; [|done].
    apply andb_true_iff in E as [E1 E2]. apply Nat.ltb_lt in E1. apply N.eqb_eq in E2. by apply Hh in E1.
Qed.

(** the strings of numbers, up to case *)
Lemma number_string s n : map lower s = 48 :: 120 :: hex_digits n <->
  exists raw ds, checkNumber s = HOk raw /\ nibbles raw = Some ds /\ num16 0 ds = n.
Proof.
  rewrite hex_digits_digs. destruct (digs_ok n) as [(Hc1 & Hc2 & Hc3) Hn]. split.
  - intros H. destruct s as [|a [|b raw]]; try done. cbn [map] in H. injection H as Ha Hb Hr.
    apply lower_48 in Ha as ->. apply lower_120 in Hb.
    assert (nibbles raw = Some (digs n)) as Hnib by (by apply nibbles_spec).
    exists raw, (digs n). split; [|done]. apply checkNumber_spec. split; [eauto|].
    pose proof (nibbles_length _ _ Hnib) as Hl. split; [by intros ->; destruct (digs n)|].
    intros H1. rewrite <- Hl in H1. specialize (Hc3 H1). destruct raw as [|c raw]; [done|]. cbn [hd]. intros ->.
    rewrite nibbles_cons in Hnib. change (decodeNibble 48) with (Some 0) in Hnib. cbn iota beta in Hnib.
    destruct (nibbles raw); [|done]. injection Hnib as E. by rewrite <- E in Hc3.
  - intros (raw & ds & Hck & Hnib & Hnum). apply checkNumber_spec in Hck as ((x & -> & Hx) & Hne & Hh).
    cbn [map]. assert (lower x = 120) as -> by (by apply lower_120). change (lower 48) with 48.
    apply nibbles_spec in Hnib as Hsp. destruct Hsp as [Hf Hm]. rewrite Hm.
    assert (canon ds) as Hcan.
    { pose proof (nibbles_length _ _ Hnib) as Hl. split; [by intros ->; destruct raw|]. split; [done|].
      intros H1. rewrite Hl in H1. specialize (Hh H1). destruct raw as [|c raw]; [done|]. cbn [hd] in Hh.
      rewrite nibbles_cons in Hnib. destruct (decodeNibble c) as [d|] eqn:Ed; [|done]. destruct (nibbles raw); [|done].
      injection Hnib as <-. cbn [hd]. intros ->. apply decodeNibble_spec in Ed as [_ Ed]. apply Hh, lower_48, Ed. }
    rewrite (canon_unique ds (digs n)); [done|done|by split|by rewrite Hn].
Qed.

Lemma parse_loop_spec raw : forall a, a < two64 ->
  match nibbles raw with
  | Some ds => if num16 a ds <? two64 then parse_loop a raw = HOk (num16 a ds) else parse_loop a raw = HErr ErrUint64Range
  | None => exists e, parse_loop a raw = HErr e
  end.
Proof.
  induction raw as [|c raw IH]; intros a Ha.
  { cbn. destruct (N.ltb_spec a two64); [done|lia]. }
  rewrite nibbles_cons. cbn [parse_loop]. destruct (decodeNibble c) as [d|] eqn:Ed; [|eauto].
  assert (d < 16) as Hd by (apply decodeNibble_spec in Ed; tauto).
  assert (forall ds, num16 a (d :: ds) = num16 (a * 16 + d) ds) as Hcons by done.
  assert (forall ds x, x <= num16 x ds) as Hmono.
  { intros ds x. rewrite num16_acc. assert (16 ^ lenN ds <> 0) by (apply N.pow_nonzero; lia). nia. }
  change (2 ^ 60) with 1152921504606846976. unfold two64 in *.
  destruct (N.leb_spec 1152921504606846976 a).
  { destruct (nibbles raw) as [ds|]; [|eauto]. rewrite Hcons. pose proof (Hmono ds (a * 16 + d)).
    destruct (N.ltb_spec (num16 (a * 16 + d) ds) 18446744073709551616); [lia|done]. }
  destruct (N.leb_spec 18446744073709551616 (a * 16 + d)).
  { destruct (nibbles raw) as [ds|]; [|eauto]. rewrite Hcons. pose proof (Hmono ds (a * 16 + d)).
    destruct (N.ltb_spec (num16 (a * 16 + d) ds) 18446744073709551616); [lia|done]. }
  specialize (IH (a * 16 + d) ltac:(lia)). destruct (nibbles raw) as [ds|]; [|done]. by rewrite Hcons.
Qed.

(** DecodeUint64 accepts exactly the encodings of 64-bit numbers, in either case, and
    returns the number. *)
Theorem C48_uint64 : forall s n,
  DecodeUint64 s = HOk n <-> n < 2 ^ 64 /\ map lower s = EncodeUint64 n.
Proof.
  intros s n. unfold DecodeUint64, EncodeUint64. rewrite number_string. change (2 ^ 64) with two64. split.
  - intros H. destruct (checkNumber s) as [raw|] eqn:Ec; [|done].
    pose proof (parse_loop_spec raw 0 eq_refl) as P. destruct (nibbles raw) as [ds|] eqn:En.
    + destruct (N.ltb_spec (num16 0 ds) two64); [|congruence]. rewrite P in H. injection H as <-. split; [done|]. eauto.
    + destruct P as [e P]. congruence.
  - intros (Hn & raw & ds & -> & En & <-). pose proof (parse_loop_spec raw 0 eq_refl) as P. rewrite En in P.
    destruct (N.ltb_spec (num16 0 ds) two64); [done|lia].
Qed.
Print Assumptions C48_uint64.

Lemma word_loop_spec s : forall w, word_loop w s = match nibbles s with Some ds => Some (num16 w ds) | None => None end.
Proof.
  induction s as [|c s IH]; intros w; [done|]. rewrite nibbles_cons. cbn [word_loop].
  destruct (decodeNibble c); [|done]. rewrite IH. by destruct (nibbles s).
Qed.
Lemma words_loop_spec nibs raw : (0 < nibs)%nat -> forall k e, (e <= length raw)%nat -> (e <= k * nibs)%nat ->
  match nibbles (take e raw) with
  | Some ds => exists ws, words_loop nibs k e raw = Some ws /\ words_num nibs ws = num16 0 ds
  | None => words_loop nibs k e raw = None
  end.
Proof.
  intros Hn. induction k as [|k IH]; intros e He Hk.
  { assert (e = 0%nat) as -> by lia. cbn. by exists []. }
  cbn [words_loop]. set (st := (e - nibs)%nat).
  assert (take e raw = take st raw ++ take (e - st) (drop st raw)) as Et.
  { rewrite take_drop_commute. replace (st + (e - st))%nat with e by lia.
    assert (take st raw = take st (take e raw)) as -> by (rewrite take_take; f_equal; lia). by rewrite take_drop. }
  rewrite Et, nibbles_app, word_loop_spec. specialize (IH st ltac:(lia) ltac:(lia)).
  destruct (nibbles (take st raw)) as [hi|].
  2:{ rewrite IH. by destruct (nibbles (take (e - st) (drop st raw))). }
  destruct IH as (ws & Ew & Enum). destruct (nibbles (take (e - st) (drop st raw))) as [lo|] eqn:El; [|done].
  rewrite Ew. eexists. split; [done|]. cbn [words_num]. rewrite Enum, num16_app, (num16_acc lo (num16 0 hi)).
  apply nibbles_length in El. rewrite take_length, drop_length in El.
  destruct (Nat.le_gt_cases nibs e) as [Hge|Hlt].
  - assert (lenN lo = N.of_nat nibs) as -> by (unfold lenN; lia). lia.
  - assert (st = 0%nat) as E0 by lia. rewrite E0 in *. destruct k; cbn [words_loop] in Ew.
    + injection Ew as <-. cbn [words_num] in Enum. rewrite <- Enum. lia.
    + assert (words_num nibs ws = 0) as Hz.
      { clear -Ew Hn. assert (forall k ws, words_loop nibs k 0 raw = Some ws -> words_num nibs ws = 0) as H.
        { clear. induction k as [|k IH]; intros ws H; cbn [words_loop] in H; [by injection H as <-|].
          change (0 - nibs)%nat with 0%nat in H. change (word_loop 0 (take (0 - 0) (drop 0 raw))) with (Some 0) in H. cbn iota beta in H. destruct (words_loop nibs k 0 raw) as [ws'|] eqn:E; [|done].
          injection H as <-. cbn [words_num]. rewrite (IH ws' eq_refl). lia. }
        apply (H (S k) ws Ew). }
      rewrite Hz in Enum. rewrite <- Enum. lia.
Qed.

(** DecodeBig accepts exactly the encodings of numbers below 2^256, in either case,
    whatever the machine word size. *)
Lemma decode_big_raw_spec nibs raw n : (0 < nibs)%nat -> ((1 < length raw)%nat -> hd 0 raw <> 48) ->
  decode_big_raw nibs raw = HOk n <-> n < 2 ^ 256 /\ exists ds, nibbles raw = Some ds /\ num16 0 ds = n.
Proof.
  intros Hn Hh. unfold decode_big_raw.
  pose proof (words_loop_spec nibs raw Hn (length raw / nibs + 1) (length raw) ltac:(lia)) as H.
  rewrite take_ge in H by lia.
  assert ((length raw <= (length raw / nibs + 1) * nibs)%nat) as Hd.
  { pose proof (Nat.div_mod_eq (length raw) nibs). pose proof (Nat.mod_upper_bound (length raw) nibs ltac:(lia)). nia. }
  specialize (H Hd).
  assert (forall ds, nibbles raw = Some ds -> (num16 0 ds < 2 ^ 256 <-> (length raw <= 64)%nat)) as Hsz.
  { intros ds Hds. pose proof (nibbles_length _ _ Hds) as Hl. pose proof Hds as Hds'. apply nibbles_spec in Hds' as [Hf _].
    change (2 ^ 256) with (16 ^ 64). split.
    - intros Hlt. destruct (Nat.le_gt_cases (length raw) 64) as [|Hgt]; [done|]. exfalso.
      specialize (Hh ltac:(lia)). destruct raw as [|c raw]; [cbn in Hgt; lia|]. cbn [hd] in Hh.
      rewrite nibbles_cons in Hds. destruct (decodeNibble c) as [d|] eqn:Ed; [|done].
      destruct (nibbles raw) as [ds'|] eqn:Eds; [|done]. injection Hds as <-.
      assert (d <> 0) as Hd0 by (intros ->; apply decodeNibble_spec in Ed as [_ Ed]; by apply Hh, lower_48).
      cbn [num16 foldl] in Hlt. fold (num16 (0 * 16 + d) ds') in Hlt. rewrite num16_acc in Hlt.
      assert (16 ^ 64 <= 16 ^ lenN ds') as Hp.
      { apply N.pow_le_mono_r; [lia|]. unfold lenN. rewrite (nibbles_length _ _ Eds). cbn [length] in Hgt. lia. }
      generalize dependent (16 ^ lenN ds'). generalize (16 ^ 64). intros. nia.
    - intros Hle. eapply N.lt_le_trans; [by apply num16_bound|]. apply N.pow_le_mono_r; [lia|]. unfold lenN. lia. }
  destruct (Nat.ltb_spec 64 (length raw)) as [Hgt|Hle].
  - split; [done|]. intros (Hlt & ds & Hds & <-). apply (Hsz ds Hds) in Hlt. lia.
  - destruct (nibbles raw) as [ds|] eqn:En.
    + destruct H as (ws & -> & Hw). rewrite Hw. split.
      * intros [= <-]. split; [by apply (Hsz ds)|]. eauto.
      * intros (_ & ds' & [= <-] & <-). done.
    + rewrite H. split; [done|]. intros (_ & ds & ? & _). done.
Qed.

Theorem C48_big : forall nibs s n, (0 < nibs)%nat ->
  DecodeBig nibs s = HOk n <-> n < 2 ^ 256 /\ map lower s = EncodeBig (Z.of_N n).
Proof.
  intros nibs s n Hnibs.
  assert (EncodeBig (Z.of_N n) = 48 :: 120 :: hex_digits n) as ->.
  { unfold EncodeBig, bit_len. rewrite Zabs2N.id. destruct (N.eqb_spec (N.size n) 0) as [E|E].
    - destruct n; [done|]. destruct p; discriminate.
    - destruct (Z.ltb_spec (Z.of_N n) 0); [lia|done]. }
  rewrite number_string. unfold DecodeBig. split.
  - intros H. destruct (checkNumber s) as [raw|] eqn:Ec; [|done].
    apply checkNumber_spec in Ec as Hck. destruct Hck as (_ & _ & Hh).
    apply decode_big_raw_spec in H as (Hn & ds & A & B); [|done..]. split; [done|]. eauto.
  - intros (Hn & raw & ds & Ec & En & E). rewrite Ec. apply checkNumber_spec in Ec as (_ & _ & Hh).
    apply decode_big_raw_spec; [done..|]. split; [done|]. eauto.
Qed.
Print Assumptions C48_big.

(* ------------------------------------------------------------ byte strings *)
Lemma hex_decode_spec k : forall s b, (length s <= k)%nat -> (hex_decode s = (b, None) <-> is_bytes b /\ map lower s = hex_encode b).
Proof.
  induction k as [|k IH]; intros s b Hk.
  { destruct s; [|cbn in Hk; lia]. cbn. split; [intros [= <-]; split; [constructor|done]|].
    intros [_ H]. destruct b; [done|discriminate]. }
  destruct s as [|c [|d s]].
  - cbn. split; [intros [= <-]; split; [constructor|done]|]. intros [_ H]. destruct b; [done|discriminate].
  - cbn. split; [destruct (decodeNibble c); done|]. intros [_ H]. destruct b; done.
  - cbn [hex_decode map]. split.
    + intros H. destruct (decodeNibble c) as [x|] eqn:Ec; [|done]. destruct (decodeNibble d) as [y|] eqn:Ed; [|done].
      destruct (hex_decode s) as [l e] eqn:Es. injection H as <- ->.
      apply IH in Es as [Hb Hm]; [|cbn [length] in Hk; lia].
      apply decodeNibble_spec in Ec as [Hx Ec]. apply decodeNibble_spec in Ed as [Hy Ed].
      split; [constructor; [lia|done]|]. cbn [hex_encode].
      replace ((x * 16 + y) / 16) with x by lia. replace ((x * 16 + y) mod 16) with y by lia.
      by rewrite Ec, Ed, Hm.
    + intros [Hb Hm]. destruct b as [|x b]; [done|]. cbn [hex_encode] in Hm. injection Hm as Hc Hd Hm.
      apply is_bytes_cons in Hb as [Hx Hb].
      assert (decodeNibble c = Some (x / 16)) as -> by (apply decodeNibble_spec; split; [lia|done]).
      assert (decodeNibble d = Some (x mod 16)) as -> by (apply decodeNibble_spec; split; [lia|done]).
      assert (hex_decode s = (b, None)) as -> by (apply IH; [cbn [length] in Hk; lia|done]).
      do 2 f_equal. lia.
Qed.
Lemma hex_decode_iff s b : hex_decode s = (b, None) <-> is_bytes b /\ map lower s = hex_encode b.
Proof. by apply (hex_decode_spec (length s)). Qed.

Lemma prefix_spec s : has0xPrefix s = true <-> exists x r, s = 48 :: x :: r /\ (x = 120 \/ x = 88).
Proof.
  unfold has0xPrefix. destruct s as [|a [|b r]]; [split; [done|naive_solver]..|].
  rewrite andb_true_iff, orb_true_iff, !N.eqb_eq. split; [intros [-> H]; eauto|]. intros (x & r' & [= -> -> ->] & H). done.
Qed.
Lemma prefixed_spec s l : map lower s = 48 :: 120 :: l <-> exists x r, s = 48 :: x :: r /\ (x = 120 \/ x = 88) /\ map lower r = l.
Proof.
  split.
  - destruct s as [|a [|b r]]; try done. cbn [map]. intros [= Ha Hb Hr]. apply lower_48 in Ha as ->.
    apply lower_120 in Hb. eauto.
  - intros (x & r & -> & Hx & Hr). cbn [map]. apply lower_120 in Hx. rewrite Hx, Hr. done.
Qed.

(** Decode accepts exactly the encodings, in either case, and returns the bytes. *)
Theorem C48_bytes : forall s b, Decode s = HOk b <-> is_bytes b /\ map lower s = Encode b.
Proof.
  intros s b. unfold Decode, Encode. rewrite prefixed_spec. destruct s as [|a s]; [split; [done|]; intros (_ & x & r & ? & _); done|].
  destruct (has0xPrefix (a :: s)) eqn:E; cbn [negb].
  - apply prefix_spec in E as (x & r & E & Hx). rewrite E. change (drop 2 (48 :: x :: r)) with r. split.
    + intros H. destruct (hex_decode r) as [l [e|]] eqn:Eh; [done|]. injection H as ->.
      apply hex_decode_iff in Eh as [Hb Hm]. split; [done|]. eauto.
    + intros (Hb & x' & r' & [= <- <-] & _ & Hm). by rewrite (proj2 (hex_decode_iff r b) (conj Hb Hm)).
  - split; [done|]. intros (_ & x & r & Es & Hx & _). apply not_true_iff_false in E. exfalso. apply E, prefix_spec. eauto.
Qed.
Print Assumptions C48_bytes.

(** Encodings are already in lower case, so decoding inverts encoding. *)
Lemma lower_hex_encode b : is_bytes b -> map lower (hex_encode b) = hex_encode b.
Proof.
  induction b as [|x b IH]; intros H; [done|]. apply is_bytes_cons in H as [Hx Hb]. cbn [hex_encode map].
  rewrite !lower_nib by lia. by rewrite IH.
Qed.
Lemma lower_digits n : map lower (hex_digits n) = hex_digits n.
Proof.
  rewrite hex_digits_digs. destruct (digs_ok n) as [(_ & Hf & _) _]. induction Hf as [|d ds Hd Hf IH]; [done|].
  cbn [map]. by rewrite lower_nib, IH.
Qed.
Theorem C48_round_trip :
  (forall b, is_bytes b -> Decode (Encode b) = HOk b) /\
  (forall n, n < 2 ^ 64 -> DecodeUint64 (EncodeUint64 n) = HOk n) /\
  (forall nibs n, (0 < nibs)%nat -> n < 2 ^ 256 -> DecodeBig nibs (EncodeBig (Z.of_N n)) = HOk n).
Proof.
  assert (forall n, EncodeBig (Z.of_N n) = 48 :: 120 :: hex_digits n) as HE.
  { intros n. unfold EncodeBig, bit_len. rewrite Zabs2N.id. destruct (N.eqb_spec (N.size n) 0) as [E|E].
    - destruct n; [done|]. destruct p; discriminate.
    - destruct (Z.ltb_spec (Z.of_N n) 0); [lia|done]. }
  split; [|split].
  - intros b Hb. apply C48_bytes. split; [done|]. unfold Encode. cbn [map]. by rewrite lower_hex_encode.
  - intros n Hn. apply C48_uint64. split; [done|]. unfold EncodeUint64. cbn [map]. by rewrite lower_digits.
  - intros nibs n Hnibs Hn. apply C48_big; [done|]. split; [done|]. rewrite HE. cbn [map]. by rewrite lower_digits.
Qed.
Print Assumptions C48_round_trip.

(** Different numbers and different byte strings have different encodings. *)
Theorem C48_injective :
  (forall a b, is_bytes a -> is_bytes b -> Encode a = Encode b -> a = b) /\
  (forall m n, EncodeUint64 m = EncodeUint64 n -> m = n).
Proof.
  split.
  - intros a b Ha Hb E. pose proof (proj1 C48_round_trip a Ha) as A. rewrite E, (proj1 C48_round_trip b Hb) in A. congruence.
  - intros m n E. assert (map lower (EncodeUint64 m) = EncodeUint64 m) as Hl by (unfold EncodeUint64; cbn [map]; by rewrite lower_digits).
    assert (map lower (EncodeUint64 n) = 48 :: 120 :: hex_digits m) as H1 by (rewrite <- E; exact Hl).
    assert (map lower (EncodeUint64 n) = 48 :: 120 :: hex_digits n) as H2 by (rewrite <- E, Hl; exact E).
    apply number_string in H1 as (raw & ds & A & B & C). apply number_string in H2 as (raw' & ds' & A' & B' & C'). congruence.
Qed.
Print Assumptions C48_injective.

(* -------------------------------------------------------- text and JSON *)
(** UnmarshalText accepts exactly the same strings, and the empty string, which it
    reads as the empty byte string or zero. *)
Theorem C48_unmarshal_text :
  (forall s b, Bytes_UnmarshalText s = HOk b <-> (s = [] /\ b = []) \/ (is_bytes b /\ map lower s = Encode b)) /\
  (forall s n, Uint64_UnmarshalText s = HOk n <-> (s = [] /\ n = 0) \/ (n < 2 ^ 64 /\ map lower s = EncodeUint64 n)) /\
  (forall nibs s n, (0 < nibs)%nat -> Big_UnmarshalText nibs s = HOk n <->
     (s = [] /\ n = 0) \/ (n < 2 ^ 256 /\ map lower s = EncodeBig (Z.of_N n))).
Proof.
  split; [|split].
  - intros s b. unfold Bytes_UnmarshalText, checkText. destruct s as [|a s].
    + cbn. split; [intros [= <-]; by left|]. intros [[_ ->]|[_ H]]; [done|discriminate].
    + assert ((a :: s = [] /\ b = []) \/ (is_bytes b /\ map lower (a :: s) = Encode b) <-> is_bytes b /\ map lower (a :: s) = Encode b) as ->.
      { split; [|by right]. intros [[? _]|?]; done. }
      rewrite <- C48_bytes. unfold Decode. destruct (has0xPrefix (a :: s)); cbn [negb]; [|done].
      destruct (Nat.eqb_spec (length (drop 2 (a :: s)) mod 2) 0) as [E|E]; cbn [negb]; [done|]. split; [done|].
      intros H. exfalso. destruct (hex_decode (drop 2 (a :: s))) as [l [e|]] eqn:Eh; [done|].
      apply hex_decode_iff in Eh as [_ Hm]. apply (f_equal length) in Hm. rewrite map_length in Hm.
      assert (forall l, (length (hex_encode l) mod 2 = 0)%nat) as He.
      { clear. intros l. assert (length (hex_encode l) = (length l * 2)%nat) as -> by (induction l as [|x l IH]; cbn [hex_encode length]; lia).
        apply Nat.mod_mul. lia. }
      apply E. rewrite Hm. apply He.
  - intros s n. unfold Uint64_UnmarshalText, checkNumberText. destruct s as [|a s].
    + cbn. split; [intros [= <-]; by left|]. intros [[_ ->]|[_ H]]; [done|discriminate].
    + assert ((a :: s = [] /\ n = 0) \/ (n < 2 ^ 64 /\ map lower (a :: s) = EncodeUint64 n) <-> n < 2 ^ 64 /\ map lower (a :: s) = EncodeUint64 n) as ->.
      { split; [|by right]. intros [[? _]|?]; done. }
      rewrite <- C48_uint64. unfold DecodeUint64. destruct (checkNumber (a :: s)) as [raw|] eqn:Ec; [|done].
      apply checkNumber_spec in Ec as (_ & Hne & Hh).
      pose proof (parse_loop_spec raw 0 eq_refl) as P.
      assert (forall ds, nibbles raw = Some ds -> (num16 0 ds < two64 <-> (length raw <= 16)%nat)) as Hsz.
      { intros ds Hds. pose proof (nibbles_length _ _ Hds) as Hl. pose proof Hds as Hds'. apply nibbles_spec in Hds' as [Hf _].
        change two64 with (16 ^ 16). split.
        - intros Hlt. destruct (Nat.le_gt_cases (length raw) 16) as [|Hgt]; [done|]. exfalso.
          specialize (Hh ltac:(lia)). destruct raw as [|c raw]; [cbn in Hgt; lia|]. cbn [hd] in Hh.
          rewrite nibbles_cons in Hds. destruct (decodeNibble c) as [d|] eqn:Ed; [|done].
          destruct (nibbles raw) as [ds'|] eqn:Eds; [|done]. injection Hds as <-.
          assert (d <> 0) as Hd0 by (intros ->; apply decodeNibble_spec in Ed as [_ Ed]; by apply Hh, lower_48).
          cbn [num16 foldl] in Hlt. fold (num16 (0 * 16 + d) ds') in Hlt. rewrite num16_acc in Hlt.
          assert (16 ^ 16 <= 16 ^ lenN ds') as Hp.
          { apply N.pow_le_mono_r; [lia|]. unfold lenN. rewrite (nibbles_length _ _ Eds). cbn [length] in Hgt. lia. }
          generalize dependent (16 ^ lenN ds'). generalize (16 ^ 16). intros. nia.
        - intros Hle. eapply N.lt_le_trans; [by apply num16_bound|]. apply N.pow_le_mono_r; [lia|]. unfold lenN. lia. }
      assert (forall raw a, (forall ds, nibbles raw = Some ds -> num16 a ds < two64) ->
        u64_loop a raw = match nibbles raw with Some ds => HOk (num16 a ds) | None => HErr ErrSyntax end) as HU.
      { clear. induction raw as [|c raw IH]; intros a H; [done|]. cbn [u64_loop]. rewrite nibbles_cons in *.
        destruct (decodeNibble c) as [d|]; [|done]. destruct (nibbles raw) as [ds|] eqn:E.
        - specialize (H (d :: ds) eq_refl). cbn [num16 foldl] in H. fold (num16 (a * 16 + d) ds) in H.
          assert (a * 16 + d < two64) as Hb.
          { rewrite num16_acc in H. assert (16 ^ lenN ds <> 0) by (apply N.pow_nonzero; lia). nia. }
          unfold u64_add, u64_mul. rewrite (N.mod_small (a * 16)), (N.mod_small (a * 16 + d)) by lia.
          rewrite IH; [done|]. by intros ds' [= <-].
        - rewrite IH by done. done. }
      destruct (Nat.ltb_spec 16 (length raw)) as [Hgt|Hle].
      * split; [done|]. intros H. exfalso. destruct (nibbles raw) as [ds|] eqn:En; [|destruct P; congruence].
        destruct (N.ltb_spec (num16 0 ds) two64) as [Hlt|]; [|congruence]. apply (Hsz ds eq_refl) in Hlt. lia.
      * rewrite HU by (intros ds Hds; by apply Hsz). destruct (nibbles raw) as [ds|] eqn:En.
        -- destruct (N.ltb_spec (num16 0 ds) two64) as [Hlt|Hge]; [by rewrite P|]. apply (Hsz ds eq_refl) in Hle. lia.
        -- destruct P as [e ->]. done.
  - intros nibs s n Hnibs. unfold Big_UnmarshalText, checkNumberText. destruct s as [|a s].
    + rewrite (decode_big_raw_spec nibs [] n Hnibs) by (cbn; lia). split.
      * intros (_ & ds & [= <-] & <-). by left.
      * intros [[_ ->]|[_ H]]; [split; [done|]; by exists []|]. cbn [map] in H. unfold EncodeBig in H.
        destruct (bit_len _ =? 0); [done|]. destruct (Z.ltb_spec (Z.of_N n) 0); done.
    + rewrite <- (C48_big nibs) by done. unfold DecodeBig.
      split; [by right|]. intros [[? _]|?]; done.
Qed.
Print Assumptions C48_unmarshal_text.

(** Fixed-size values: exactly n bytes, with or without the prefix. (Without: an
    optional prefix.) *)
Theorem C48_unmarshal_fixed : forall s n b,
  (UnmarshalFixed true s n = HOk b <-> length b = n /\ is_bytes b /\ (map lower s = Encode b \/ (s = [] /\ b = []))) /\
  (UnmarshalFixed false s n = HOk b <-> length b = n /\ is_bytes b /\ (map lower s = Encode b \/ map lower s = hex_encode b)).
Proof.
  assert (forall l, length (hex_encode l) = (length l * 2)%nat) as Hlen.
  { clear. intros l. induction l as [|x l IH]; cbn [hex_encode length]; lia. }
  assert (forall raw n b, (length raw mod 2 = 0)%nat ->
    ((if negb (length raw / 2 =? n)%nat then HErr ErrLen
      else if negb (forallb (fun c => match decodeNibble c with Some _ => true | None => false end) raw) then HErr ErrSyntax
      else HOk (hex_decode raw).1) = HOk b <-> length b = n /\ is_bytes b /\ map lower raw = hex_encode b)) as Hcore.
  { intros raw n b He. split.
    - destruct (Nat.eqb_spec (length raw / 2) n) as [Hn|]; cbn [negb]; [|done].
      destruct (forallb _ raw) eqn:Ef; cbn [negb]; [|done].
      assert (exists l, hex_decode raw = (l, None)) as [l El].
      { clear Hn b n. remember (length raw) as k eqn:Ek. assert (length raw <= k)%nat as Hk by lia.
        assert (length raw mod 2 = 0)%nat as He' by (by rewrite <- Ek). clear Ek He. revert raw Hk Ef He'.
        induction k as [|k IH]; intros raw Hk Ef He.
        - destruct raw; [by exists []|cbn in Hk; lia].
        - destruct raw as [|c [|d raw]]; [by exists []|done|]. cbn [forallb] in Ef.
          destruct (decodeNibble c) as [x|] eqn:Ec; [|done]. cbn [andb] in Ef. destruct (decodeNibble d) as [y|] eqn:Ed; [|done]. cbn [andb] in Ef.
          destruct (IH raw) as [l El]; [cbn [length] in Hk; lia|done| |].
          { cbn [length] in He. clear -He. lia. }
          exists (x * 16 + y :: l). cbn [hex_decode]. by rewrite Ec, Ed, El. }
      rewrite El. cbn [fst]. intros [= <-]. apply hex_decode_iff in El as [Hb Hm]. split; [|done].
      apply (f_equal length) in Hm. rewrite map_length, Hlen in Hm. rewrite Hm in Hn. rewrite Nat.div_mul in Hn; done || lia.
    - intros (<- & Hb & Hm). pose proof (f_equal length Hm) as Hl. rewrite map_length, Hlen in Hl.
      rewrite Hl, Nat.div_mul by lia. rewrite Nat.eqb_refl. cbn [negb].
      assert (hex_decode raw = (b, None)) as E by (by apply hex_decode_iff). rewrite E.
      assert (forallb (fun c => match decodeNibble c with Some _ => true | None => false end) raw = true) as ->; [|done].
      apply forallb_forall. intros c Hc. apply elem_of_list_In in Hc.
      assert (lower c ∈ hex_encode b) as Hin by (rewrite <- Hm; by apply elem_of_list_fmap_1).
      assert (exists d, d < 16 /\ lower c = nib_char d) as (d & Hd & Hld).
      { clear -Hin Hb. induction b as [|x b IH]; cbn [hex_encode] in Hin; [inversion Hin|].
        apply is_bytes_cons in Hb as [Hx Hb]. apply elem_of_cons in Hin as [->|Hin]; [exists (x / 16); split; [lia|done]|].
        apply elem_of_cons in Hin as [->|Hin]; [exists (x mod 16); split; [lia|done]|]. by apply IH. }
      by rewrite (proj2 (decodeNibble_spec c d) (conj Hd Hld)). }
  intros s n b. unfold UnmarshalFixed, checkText. destruct s as [|a s].
  { split; rewrite (Hcore [] n b eq_refl); cbn [map]; split.
    - intros (H1 & H2 & H3). split; [done|]. split; [done|]. right. destruct b; done.
    - intros (H1 & H2 & [H3|[_ ->]]); done.
    - intros (H1 & H2 & H3). split; [done|]. split; [done|]. by right.
    - intros (H1 & H2 & [H3|H3]); done. }
  set (w := a :: s) in *.
  assert (w <> []) as Hw by done. clearbody w. clear a s.
  destruct (has0xPrefix w) eqn:E.
  - apply prefix_spec in E as (x & r & -> & Hx). change (drop 2 (48 :: x :: r)) with r.
    assert (map lower (48 :: x :: r) = Encode b <-> map lower r = hex_encode b) as HE.
    { unfold Encode. rewrite prefixed_spec. split; [intros (x' & r' & [= <- <-] & _ & H); done|]. eauto. }
    assert (~ map lower (48 :: x :: r) = hex_encode b) as HNE.
    { destruct b as [|y b]; [done|]. cbn [map hex_encode]. intros [= _ H _]. apply lower_120 in Hx. rewrite Hx in H.
      revert H. unfold nib_char. destruct (N.ltb_spec (y mod 16) 10); lia. }
    assert (~ (48 :: x :: r = [] /\ b = [])) as HNN by naive_solver.
    destruct (Nat.eqb_spec (length r mod 2) 0) as [Hev|Hod]; cbn [negb].
    + rewrite (Hcore r n b Hev). rewrite HE. split; tauto.
    + assert (~ map lower r = hex_encode b) as HH.
      { intros H. apply (f_equal length) in H. rewrite map_length, Hlen in H. apply Hod. rewrite H. apply Nat.mod_mul. lia. }
      rewrite HE. split; (split; [done|tauto]).
  - assert (~ map lower w = Encode b) as HNE.
    { unfold Encode. rewrite prefixed_spec. intros (x & r & -> & Hx & _). apply not_true_iff_false in E. apply E, prefix_spec. eauto. }
    split; [split; [done|naive_solver]|].
    destruct (Nat.eqb_spec (length w mod 2) 0) as [Hev|Hod]; cbn [negb].
    + rewrite (Hcore w n b Hev). tauto.
    + split; [done|]. intros (_ & _ & [H|H]); [done|]. exfalso.
      apply (f_equal length) in H. rewrite map_length, Hlen in H. apply Hod. rewrite H. apply Nat.mod_mul. lia.
Qed.
Print Assumptions C48_unmarshal_fixed.

(** JSON: the text form between double quotes, and nothing else. *)
Theorem C48_json : forall A (f : list N -> hres A) s a,
  UnmarshalJSON f s = HOk a <-> exists t, s = 34 :: t ++ [34] /\ f t = HOk a.
Proof.
  intros A f s a. unfold UnmarshalJSON, isString, unquote. split.
  - destruct (_ && _) eqn:E; cbn [negb]; [|done]. intros H. apply andb_true_iff in E as [E E3].
    apply andb_true_iff in E as [E1 E2]. apply Nat.leb_le in E1. apply N.eqb_eq in E2, E3.
    destruct s as [|q s]; [cbn in E1; lia|]. cbn [nth] in E2. subst q.
    destruct s as [|z s _] using rev_ind; [cbn in E1; lia|]. exists s.
    cbn [length drop] in *. rewrite app_length in *. cbn [length] in *.
    replace (S (length s + 1) - 1)%nat with (S (length s)) in E3 by lia. cbn [nth] in E3. rewrite nth_middle in E3. subst z.
    split; [done|]. replace (S (length s + 1) - 2)%nat with (length s) in H by lia. by rewrite drop_0, take_app in H.
  - intros (t & -> & H). cbn [length drop nth]. rewrite app_length. cbn [length].
    replace (S (length t + 1) - 1)%nat with (S (length t)) by lia. cbn [nth]. rewrite nth_middle.
    destruct (Nat.leb_spec 2 (S (length t + 1))); [|lia]. cbn [andb N.eqb Pos.eqb negb].
    replace (S (length t + 1) - 2)%nat with (length t) by lia. by rewrite drop_0, take_app.
Qed.
Print Assumptions C48_json.

(** IsHex and FromHex (package common). *)
Theorem C48_from_hex : forall b s, is_bytes b ->
  FromHex (Encode b) = b /\ FromHex (hex_encode b) = b /\ Hex2Bytes (hex_encode b) = b /\
  (IsHex s = true <-> (length s mod 2 = 0)%nat /\ exists ds, nibbles s = Some ds).
Proof.
  intros b s Hb.
  assert (forall l, length (hex_encode l) = (length l * 2)%nat) as Hlen.
  { clear. intros l. induction l as [|x l IH]; cbn [hex_encode length]; lia. }
  assert (Hex2Bytes (hex_encode b) = b) as H2.
  { unfold Hex2Bytes. by rewrite (proj2 (hex_decode_iff _ b) (conj Hb (lower_hex_encode b Hb))). }
  assert ((length (hex_encode b) mod 2 =? 1)%nat = false) as Hodd by (rewrite Hlen, Nat.mod_mul by lia; done).
  split; [|split; [|split; [done|]]].
  - unfold FromHex, Encode. cbn [has0xPrefix andb orb N.eqb Pos.eqb drop]. by rewrite !drop_0, Hodd.
  - unfold FromHex. assert (has0xPrefix (hex_encode b) = false) as ->; [|by rewrite Hodd].
    apply not_true_iff_false. intros H. apply prefix_spec in H as (x & r & E & Hx).
    destruct b as [|y b]; [done|]. cbn [hex_encode] in E. injection E as _ E _. subst x.
    revert Hx. unfold nib_char. destruct (N.ltb_spec (y mod 16) 10); lia.
  - unfold IsHex. rewrite andb_true_iff, Nat.eqb_eq. apply and_iff_compat_l.
    assert (forall c, IsHexCharacter c = true <-> exists d, decodeNibble c = Some d) as Hc.
    { intros c. unfold IsHexCharacter, decodeNibble. destruct ((48 <=? c) && (c <=? 57)), ((65 <=? c) && (c <=? 70)), ((97 <=? c) && (c <=? 102));
        cbn [orb]; split; intros H; eauto; try done; by destruct H. }
    induction s as [|c s IH]; cbn [forallb]; [split; [by exists []|done]|]. rewrite nibbles_cons, andb_true_iff, Hc, IH.
    split.
    + intros [[d ->] [ds ->]]. eauto.
    + intros [ds H]. destruct (decodeNibble c); [|done]. destruct (nibbles s); [|done]. eauto.
Qed.
Print Assumptions C48_from_hex.

Lemma hex_decode_value k : forall s ds, (length s <= k)%nat -> (length s mod 2 = 0)%nat -> nibbles s = Some ds ->
  exists b, hex_decode s = (b, None) /\ is_bytes b /\ (2 * length b = length s)%nat /\
            forall a, foldl (fun a x => a * 256 + x) a b = num16 a ds.
Proof.
  induction k as [|k IH]; intros s ds Hk Hev Hn.
  { destruct s; [|cbn [length] in Hk; lia]. injection Hn as <-. exists []. repeat split; try done. constructor. }
  destruct s as [|c [|d s]]; [injection Hn as <-; exists []; repeat split; try done; constructor|done|].
  rewrite !nibbles_cons in Hn. cbn [hex_decode].
  destruct (decodeNibble c) as [x|] eqn:Ex; [|done]. destruct (decodeNibble d) as [y|] eqn:Ey; [|done].
  destruct (nibbles s) as [es|] eqn:Es; [|done]. injection Hn as <-. cbn [length] in Hk, Hev.
  destruct (IH s es) as (b & Hd & Hb & Hl & Hv); [lia| |done|].
  { replace (S (S (length s))) with (length s + 1 * 2)%nat in Hev by lia. by rewrite Nat.mod_add in Hev. }
  apply decodeNibble_spec in Ex as [Hx _]. apply decodeNibble_spec in Ey as [Hy _].
  exists (x * 16 + y :: b). rewrite Hd. split; [done|]. split; [constructor; [lia|done]|]. split; [cbn [length]; lia|].
  intros a. cbn [foldl]. rewrite Hv. unfold num16. cbn [foldl]. f_equal. lia.
Qed.

(** FromHex of any string of hex digits, of even or odd length and with or without the
    prefix, is the number the digits write, in the fewest bytes that hold them all. *)
Theorem C48_from_hex_value : forall s ds, nibbles s = Some ds -> exists b,
  FromHex s = b /\ FromHex (48 :: 120 :: s) = b /\ FromHex (48 :: 88 :: s) = b /\
  is_bytes b /\ length b = ((length s + 1) / 2)%nat /\ be_num b = num16 0 ds.
Proof.
  intros s ds Hn.
  assert (has0xPrefix s = false) as Hp.
  { apply not_true_iff_false. intros H. apply prefix_spec in H as (x & r & -> & Hx).
    rewrite !nibbles_cons in Hn. destruct Hx as [-> | ->]; vm_compute in Hn; discriminate. }
  set (t := if (length s mod 2 =? 1)%nat then 48 :: s else s).
  assert (exists b, hex_decode t = (b, None) /\ is_bytes b /\ (length b = (length s + 1) / 2)%nat /\ be_num b = num16 0 ds)
    as (b & H1 & H2 & H3 & H4).
  { destruct (Nat.eqb_spec (length s mod 2) 1) as [Ho|He].
    - destruct (hex_decode_value (length t) t (0 :: ds)) as (b & H1 & H2 & H3 & H4); unfold t in *.
      + lia.
      + cbn [length]. lia.
      + rewrite nibbles_cons, Hn. done.
      + exists b. split; [done|]. split; [done|]. cbn [length] in H3. split; [lia|]. apply (H4 0).
    - destruct (hex_decode_value (length t) t ds) as (b & H1 & H2 & H3 & H4); unfold t in *; [lia|lia|done|].
      exists b. split; [done|]. split; [done|]. split; [lia|]. apply (H4 0). }
  exists b. unfold FromHex, Hex2Bytes. rewrite Hp. cbn [has0xPrefix andb orb N.eqb Pos.eqb drop]. fold t. rewrite drop_0. fold t. rewrite H1.
  repeat split; done.
Qed.
Print Assumptions C48_from_hex_value.
Example C48_from_hex_value_example :
  nibbles [97; 98; 99] = Some [10; 11; 12] /\ FromHex [97; 98; 99] = [10; 188] /\ be_num [10; 188] = num16 0 [10; 11; 12].
Proof. repeat split; vm_compute; reflexivity. Qed.

(** Finding: EncodeBig is documented to ignore the sign, and Big.MarshalText to fail on
    negative numbers; both write "-0x...", which no decoder accepts. *)
Theorem C48_negative_refuted : forall nibs z, (z < 0)%Z ->
  EncodeBig z = 45 :: EncodeBig (- z) /\ (exists e, DecodeBig nibs (EncodeBig z) = HErr e) /\
  (exists e, Big_UnmarshalText nibs (EncodeBig z) = HErr e).
Proof.
  intros nibs z Hz.
  assert (EncodeBig z = 45 :: EncodeBig (- z)) as E.
  { unfold EncodeBig, bit_len. rewrite Zabs2N.inj_opp. destruct (N.eqb_spec (N.size (Z.abs_N z)) 0) as [E|E].
    - exfalso. assert (Z.abs_N z <> 0) by lia. destruct (Z.abs_N z) as [|[]]; discriminate || done.
    - destruct (Z.ltb_spec z 0); [|lia]. destruct (Z.ltb_spec (- z) 0); [lia|done]. }
  split; [done|]. rewrite E. unfold DecodeBig, Big_UnmarshalText, checkNumberText, checkNumber.
  assert (has0xPrefix (45 :: EncodeBig (- z)) = false) as ->; [|cbn; eauto].
  unfold has0xPrefix. by destruct (EncodeBig (- z)).
Qed.
Print Assumptions C48_negative_refuted.

Example C48_example :
  Encode [0; 171; 255] = [48; 120; 48; 48; 97; 98; 102; 102] /\
  EncodeUint64 0 = [48; 120; 48] /\ EncodeBig 4096 = [48; 120; 49; 48; 48; 48] /\
  DecodeBig 16 [48; 88; 65; 98] = HOk 171 /\
  DecodeUint64 [48; 120; 48; 49] = HErr ErrLeadingZero /\
  DecodeUint64 (48 :: 120 :: 49 :: replicate 16 48) = HErr ErrUint64Range.
Proof. repeat split; vm_compute; reflexivity. Qed.
