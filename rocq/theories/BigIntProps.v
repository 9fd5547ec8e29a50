(** C83: BigInt variables behave as integers. *)
From Coq Require Import NArith ZArith Lia Zify.
From stdpp Require Import list.
From Verif Require Import Base NumModel HexModel HexProps BigIntModel BigIntSpec.
Open Scope Z_scope.

Lemma rd_wr h l z : (l < length h)%nat -> rd (wr h l z) l = z.
Proof. intros H. unfold rd, wr. by rewrite list_lookup_insert. Qed.
Lemma rd_wr_ne h l m z : l <> m -> rd (wr h l z) m = rd h m.
Proof. intros H. unfold rd, wr. by rewrite list_lookup_insert_ne. Qed.
Lemma rd_app h z l : (l < length h)%nat -> rd (h ++ z) l = rd h l.
Proof. intros H. unfold rd. by rewrite lookup_app_l. Qed.
Lemma rd_last h z : rd (h ++ [z]) (length h) = z.
Proof. unfold rd. rewrite lookup_app_r, Nat.sub_diag by lia. done. Qed.
Lemma len_wr h l z : length (wr h l z) = length h.
Proof. apply insert_length. Qed.
Lemma wr_app h z l y : (l < length h)%nat -> wr (h ++ z) l y = wr h l y ++ z.
Proof. intros H. unfold wr. by rewrite insert_app_l. Qed.
Lemma wr_last h z y : wr (h ++ [z]) (length h) y = h ++ [y].
Proof. unfold wr. rewrite insert_app_r_alt, Nat.sub_diag by lia. done. Qed.
Lemma euclid_ok x y : y <> 0 -> is_quotient x y (euclid x y).
Proof. intros H. unfold is_quotient, euclid. destruct (0 <? y) eqn:E; [apply Z.ltb_lt in E | apply Z.ltb_ge in E].
  - pose proof (Z.mod_pos_bound x y). pose proof (Z.div_mod x y). nia.
  - pose proof (Z.mod_pos_bound x (- y)). pose proof (Z.div_mod x (- y)). nia.
Qed.

Ltac fin := repeat split; cbn [fst snd value valid]; rewrite ?len_wr, ?app_length; cbn [length]; try lia; eauto 6.
Lemma does_same h b z : valid h b -> value h b = z -> does h b (h, b) z.
Proof. intros V E. unfold does. fin. Qed.
Lemma does_nil h b : does h b (h, None) 0.
Proof. unfold does. fin. Qed.
Lemma does_alloc h b z : does h b (alloc h z) z.
Proof. unfold does, alloc. fin. - apply rd_last. - intros. by apply rd_app. Qed.
Lemma does_wr h l z : (l < length h)%nat -> does h (Some l) (wr h l z, Some l) z.
Proof. intros H. unfold does. fin. - by apply rd_wr. - intros m Hm Hn. apply rd_wr_ne. congruence. Qed.

Theorem C83_new : forall h a b, does h b (NewBigInt h a) (value h a) /\ does h b (Clone h a) (value h a).
Proof. intros h a b. assert (does h b (NewBigInt h a) (value h a)); [|done].
  destruct a; cbn [NewBigInt value]; [apply does_alloc | apply does_nil]. Qed.
Theorem C83_clone_apart : forall h a, valid h a ->
  let r := Clone h a in r.2 = None /\ a = None \/ (exists l, r.2 = Some l /\ length h = l) /\ firstn (length h) r.1 = h.
Proof. intros h [l|] V; cbn; [right | by left]. rewrite take_app. eauto. Qed.

Theorem C83_add : forall h b a, valid h b -> valid h a -> does h b (AddInt h b a) (value h b + value h a).
Proof. intros h b [la|] Vb Va; cbn [AddInt].
  - destruct b as [lb|]; cbn [value]; [by apply does_wr | by apply does_alloc].
  - apply does_same; [done | cbn; lia]. Qed.
Theorem C83_sub : forall h b a, valid h b -> valid h a -> does h b (SubInt h b a) (value h b - value h a).
Proof. intros h b [la|] Vb Va; cbn [SubInt].
  - destruct b as [lb|]; cbn [value]; [by apply does_wr|].
    rewrite rd_last, rd_app, wr_last by done. apply does_alloc.
  - apply does_same; [done | cbn; lia]. Qed.
Theorem C83_mul : forall h b a, valid h b -> valid h a -> does h b (MulInt h b a) (value h b * value h a).
Proof. intros h [lb|] [la|] Vb Va; cbn [MulInt value]; rewrite ?Z.mul_0_r; try apply does_nil.
  destruct (Z.sgn (rd h la) =? 0) eqn:E; [|by apply does_wr].
  replace (rd h lb * rd h la) with 0 by nia. apply does_nil. Qed.
Theorem C83_div : forall h b a, valid h b -> valid h a ->
  match DivInt h b a with
  | None => value h a = 0
  | Some r => value h a <> 0 /\ exists q, is_quotient (value h b) (value h a) q /\ does h b r q
  end.
Proof. intros h b [la|] Vb Va; cbn [DivInt value]; [|done].
  destruct (Z.sgn (rd h la) =? 0) eqn:E; [lia|]. assert (rd h la <> 0) by lia.
  destruct b as [lb|]; (split; [done|]).
  - eexists. split; [by apply euclid_ok | by apply does_wr].
  - exists 0. split; [unfold is_quotient; cbn [value]; lia | apply does_nil]. Qed.
Theorem C83_mulrat : forall h b n d, valid h b ->
  (exists q, is_quotient (value h b * n) (Zpos d) q /\ does h b (MulRat h b (Some (n, d))) q) /\ does h b (MulRat h b None) 0.
Proof. intros h b n d V. destruct b as [lb|]; cbn [MulRat value]; (split; [|apply does_nil]).
  - destruct (Z.sgn n =? 0) eqn:E.
    + exists 0. split; [|apply does_nil]. unfold is_quotient. replace n with 0 by lia. lia.
    + eexists. split; [by apply euclid_ok|]. rewrite rd_wr by done. unfold wr. rewrite list_insert_insert. by apply does_wr.
  - exists 0. split; [unfold is_quotient; lia | apply does_nil]. Qed.
Theorem C83_set : forall h b a, valid h b -> valid h a -> does h b (SetInt h b a) (value h a).
Proof. intros h b [la|] Vb Va; cbn [SetInt value]; [|apply does_nil].
  destruct b; [by apply does_wr | apply does_alloc]. Qed.

(** AddInts adds up all its arguments, as long as the receiver is not one of them. *)
Lemma add_ints_ok is : forall h c, valid h c -> Forall (valid h) is -> (forall l, c = Some l -> Some l ∉ is) ->
  does h c (add_ints h c is) (value h c + foldr Z.add 0 (map (value h) is)).
Proof.
  induction is as [|i r IH]; intros h c Vc Vi Hn; cbn [add_ints map foldr].
  - apply does_same; [done | lia].
  - pose proof (Forall_inv Vi) as V1. pose proof (Forall_inv_tail Vi) as V2.
    assert (Hn' : forall l, c = Some l -> Some l ∉ r) by (intros l E HI; apply (Hn l E); by right).
    destruct i as [li|].
    2: { specialize (IH h c Vc V2 Hn'). cbn [value]. by replace (value h c + (0 + foldr Z.add 0 (map (value h) r))) with (value h c + foldr Z.add 0 (map (value h) r)) by lia. }
    destruct (Z.sgn (rd h li) =? 0) eqn:E.
    { specialize (IH h c Vc V2 Hn'). cbn [value]. replace (rd h li) with 0 by lia.
      by replace (value h c + (0 + foldr Z.add 0 (map (value h) r))) with (value h c + foldr Z.add 0 (map (value h) r)) by lia. }
    cbn [valid] in V1. destruct c as [lc|]; cbn [alloc].
    + assert (lc <> li) by (intros ->; apply (Hn li eq_refl); by left).
      set (h1 := wr h lc (rd h lc + rd h li)).
      assert (L : length h1 = length h) by apply len_wr.
      assert (M : map (value h1) r = map (value h) r).
      { apply map_ext_in. intros [m|] Hm; [|done]. cbn. apply rd_wr_ne. intros ->. apply (Hn' m eq_refl). by apply elem_of_list_In. }
      assert (D : does h1 (Some lc) (add_ints h1 (Some lc) r) (value h1 (Some lc) + foldr Z.add 0 (map (value h1) r))).
      { apply IH; [cbn in *; lia | | done]. eapply Forall_impl; [exact V2|]. intros [m|]; cbn; lia. }
      destruct D as (D1 & D2 & D3 & D4 & D5). rewrite M in D1. cbn [value] in D1 |- *. unfold h1 in D1 at 3.
      rewrite rd_wr in D1 by done. rewrite L in *. unfold does. split; [lia|]. split; [done|]. split; [done|]. split; [|done].
      intros m Hm Hne. rewrite D4 by done. apply rd_wr_ne. congruence.
    + set (h1 := h ++ [rd h li]).
      assert (L : length h1 = S (length h)) by (unfold h1; rewrite app_length; cbn; lia).
      assert (M : map (value h1) r = map (value h) r).
      { apply map_ext_in. intros [m|] Hm; [|done]. cbn. apply rd_app.
        apply elem_of_list_In in Hm. rewrite Forall_forall in V2. apply (V2 _ Hm). }
      assert (D : does h1 (Some (length h)) (add_ints h1 (Some (length h)) r) (value h1 (Some (length h)) + foldr Z.add 0 (map (value h1) r))).
      { apply IH; [cbn; lia | |].
        - eapply Forall_impl; [exact V2|]. intros [m|]; cbn; lia.
        - intros l [= <-] Hm. rewrite Forall_forall in V2. specialize (V2 _ Hm). cbn in V2. lia. }
      destruct D as (D1 & D2 & D3 & D4 & D5). rewrite M in D1. cbn [value] in D1 |- *. unfold h1 in D1 at 3.
      rewrite rd_last in D1. rewrite L in *. unfold does. split; [lia|]. split; [done|]. split; [lia|]. split.
      * intros m Hm _. rewrite D4 by (try lia; intros [= ->]; lia). by apply rd_app.
      * destruct D5 as [->|[->|(l & -> & Hl)]]; [right; right; eexists; split; [done|lia] | auto | right; right; eexists; split; [done|lia]].
Qed.
Theorem C83_addints : forall h b is, valid h b -> Forall (valid h) is -> (forall l, b = Some l -> Some l ∉ is) ->
  does h b (AddInts h b is) (value h b + foldr Z.add 0 (map (value h) is)).
Proof. intros h b is Vb Vi Hn. destruct is; [apply does_same; [done|cbn; lia]|]. by apply add_ints_ok. Qed.

(** SubIntNotLessZero takes away what is there and no more; nothing in memory changes. *)
Theorem C83_sub_floor : forall h b s, valid h b -> valid h s ->
  let '(h', l, t) := SubIntNotLessZero h b s in
  (exists new, h' = h ++ new) /\ valid h' l /\ valid h' t /\
  value h' t = (if (0 <? value h b) && (0 <? value h s) then Z.min (value h b) (value h s) else 0) /\
  value h' l = value h b - value h' t /\
  (l = b \/ l = None \/ exists m, l = Some m /\ (length h <= m)%nat) /\
  (t = None \/ exists m, t = Some m /\ (length h <= m)%nat /\ l <> t).
Proof.
  intros h b s Vb Vs. unfold SubIntNotLessZero.
  assert (K : (0 <? value h b) && (0 <? value h s) = false ->
    (exists new, h = h ++ new) /\ valid h b /\ valid h None /\
    value h None = (if (0 <? value h b) && (0 <? value h s) then Z.min (value h b) (value h s) else 0) /\
    value h b = value h b - value h None /\
    (b = b \/ b = None \/ exists m, b = Some m /\ (length h <= m)%nat) /\
    (@None nat = None \/ exists m, @None nat = Some m /\ (length h <= m)%nat /\ b <> @None nat)).
  { intros ->. split; [exists []; by rewrite app_nil_r|]. cbn [valid value]. split_and!; auto; lia. }
  destruct s as [ls|]; [|apply K; cbn; lia]. destruct (Z.sgn (rd h ls) <=? 0) eqn:E1; [apply K; cbn; lia|].
  destruct b as [lb|]; [|apply K; cbn; lia]. destruct (Sign h (Some lb) <=? 0) eqn:E2; [apply K; cbn in *; lia|]. clear K.
  cbn [Sign value valid] in *. replace ((0 <? rd h lb) && (0 <? rd h ls)) with true by lia.
  assert (C : (0 <? Compare h (Some lb) (Some ls)) = (rd h ls <? rd h lb)).
  { unfold Compare, CompareBigInt. cbn [IsZero Sign]. replace (Z.sgn (rd h lb) =? 0) with false by lia. cbn [andb].
    case_bool_decide as Q; [injection Q as ->; lia|]. destruct (Z.compare_spec (rd h lb) (rd h ls)); lia. }
  rewrite C. destruct (rd h ls <? rd h lb) eqn:E3; cbn [Clone NewBigInt alloc SubInt].
  - rewrite rd_last, (rd_app h [rd h lb] ls), wr_last by done. cbn [NewBigInt alloc]. rewrite (rd_app h _ ls) by done.
    split; [exists [rd h lb - rd h ls; rd h ls]; by rewrite <- app_assoc|]. cbn [value valid].
    rewrite !app_length; cbn [length].
    assert (T : rd ((h ++ [rd h lb - rd h ls]) ++ [rd h ls]) (length h + 1) = rd h ls).
    { replace (length h + 1)%nat with (length (h ++ [rd h lb - rd h ls])) by (rewrite app_length; cbn; lia). apply rd_last. }
    assert (U : rd ((h ++ [rd h lb - rd h ls]) ++ [rd h ls]) (length h) = rd h lb - rd h ls).
    { rewrite rd_app by (rewrite app_length; cbn; lia). apply rd_last. }
    rewrite T, U.
    split_and!; try lia.
    + right; right. eexists; split; [done|lia].
    + right. eexists. split; [done|]. split; [lia|]. intros [= Q]. lia.
  - split; [eexists; done|]. cbn [value valid]. rewrite rd_last, app_length; cbn [length]. split_and!; try lia; [auto|].
    right. eexists. split; [done|]. split; [lia|]. done.
Qed.

(** Observations. *)
Theorem C83_sign : forall h b,
  Sign h b = Z.sgn (value h b) /\ (Positive h b = true <-> 0 < value h b) /\ (Negative h b = true <-> value h b < 0) /\
  (IsZero h b = true <-> value h b = 0) /\ value h (MustPositive h b) = Z.max (value h b) 0 /\
  value h (Int h b) = value h b /\ (Int h b = None <-> value h b = 0) /\ value (MustInt h b).1 (MustInt h b).2 = value h b /\ (MustInt h b).2 <> None.
Proof.
  intros h b. unfold MustPositive, Positive, Negative, MustInt. destruct b as [l|]; cbn [Sign value IsZero Int alloc fst snd].
  - destruct (0 <? Z.sgn (rd h l)) eqn:E; destruct (Z.sgn (rd h l) =? 0) eqn:F; cbn [value]; split_and!; try done; try lia; try (split; try done; lia).
  - change (0 <? 0) with false. rewrite rd_last. cbn. split_and!; try done; split; try done; lia.
Qed.
(** Comparison is that of the integers, unless nil meets a negative number. *)
Theorem C83_compare : forall h a b, (a = None -> 0 <= value h b) -> (b = None -> 0 <= value h a) ->
  (Compare h a b = -1 <-> value h a < value h b) /\ (Compare h a b = 0 <-> value h a = value h b) /\ (Compare h a b = 1 <-> value h b < value h a).
Proof.
  intros h a b Ha Hb. unfold Compare. pose proof (C83_sign h a) as (_ & _ & _ & Za & _). pose proof (C83_sign h b) as (_ & _ & _ & Zb & _).
  destruct (IsZero h a) eqn:Ea, (IsZero h b) eqn:Eb; cbn [andb].
  { assert (value h a = 0) by tauto. assert (value h b = 0) by tauto. lia. }
  all: assert (Na : IsZero h a = false -> value h a <> 0) by (intros Q Q2; apply Za in Q2; congruence).
  all: assert (Nb : IsZero h b = false -> value h b <> 0) by (intros Q Q2; apply Zb in Q2; congruence).
  all: rewrite ?Ea, ?Eb in *.
  all: unfold CompareBigInt; case_bool_decide as Q; [subst b; try congruence; lia|].
  all: destruct a as [la|], b as [lb|]; cbn [value] in *; try (destruct (Z.compare_spec (rd h la) (rd h lb)); lia); try done.
  all: try specialize (Ha eq_refl); try specialize (Hb eq_refl); try specialize (Na eq_refl); try specialize (Nb eq_refl); lia.
Qed.
Theorem C83_compare_nil_refuted : exists h a b,
  valid h a /\ valid h b /\ value h b < value h a /\ Compare h a b = -1 /\ Compare h b a = 1.
Proof. exists [-5], None, (Some 0%nat). cbn. split_and!; try done; lia. Qed.
Theorem C83_uint64 : forall h b,
  (forall u, ToUint64 h b = (u, true) <-> b <> None /\ Z.of_N u = value h b /\ (u < 2 ^ 64)%N) /\
  (snd (ToUint64 h b) = false <-> b = None \/ value h b < 0 \/ 2 ^ 64 <= value h b).
Proof.
  intros h [l|]; cbn [ToUint64 value]; [|by split; [intros u; split; [done|naive_solver]|naive_solver]].
  change (Z.of_N MaxUint64) with (2 ^ 64 - 1).
  destruct ((Z.sgn (rd h l) <? 0) || (2 ^ 64 - 1 <? rd h l)) eqn:E; cbn [snd].
  - split.
    + intros u. split; [done|]. intros (_ & E1 & E2). exfalso. lia.
    + split; [|done]. intros _. right. lia.
  - split.
    + intros u. split.
      * intros [= <-]. split; [done|]. split; lia.
      * intros (_ & E1 & E2). f_equal. lia.
    + split; [done|]. intros [?|?]; [done|lia].
Qed.
Theorem C83_zero_uint64_refuted : exists h b, valid h b /\ value h b = 0 /\ IsZero h b = true /\ IsZero h None = true /\ ToUint64 h b = (0%N, true) /\ ToUint64 h None = (0%N, false).
Proof. exists [0], (Some 0%nat). cbn. split_and!; try done; lia. Qed.

(** Programs. *)
Lemma holds_get h xs vs i : holds h xs vs -> (i < length xs)%nat ->
  exists p, xs !! i = Some p /\ vs !! i = Some (value h p) /\ valid h p /\ default None (xs !! i) = p.
Proof. intros (L & V & G & _) Hi. destruct (lookup_lt_is_Some_2 xs i Hi) as [p E]. exists p. rewrite E.
  split; [done|]. split; [by apply G|]. split; [|done]. rewrite Forall_forall in V. apply V. by eapply elem_of_list_lookup_2. Qed.
Lemma holds_put h h' xs vs i p : holds h xs vs -> (i < length xs)%nat -> valid h' p -> (length h <= length h')%nat ->
  (forall j q, j <> i -> xs !! j = Some q -> value h' q = value h q) ->
  (forall j l, j <> i -> xs !! j = Some (Some l) -> p <> Some l) ->
  holds h' (<[i := p]> xs) (<[i := value h' p]> vs).
Proof.
  intros (L & V & G & A) Hi D2 D3 Keep One.
  assert (VV : forall j p, xs !! j = Some p -> valid h p).
  { intros j q Hp. rewrite Forall_forall in V. apply V. by eapply elem_of_list_lookup_2. }
  split; [by rewrite !insert_length|]. split; [|split].
  - apply Forall_lookup. intros j q Hp. destruct (decide (i = j)) as [<-|Hj].
    + rewrite list_lookup_insert in Hp by done. by injection Hp as <-.
    + rewrite list_lookup_insert_ne in Hp by done. specialize (VV _ _ Hp). destruct q; cbn in *; [lia|done].
  - intros j q Hp. destruct (decide (i = j)) as [<-|Hj].
    + rewrite list_lookup_insert in Hp by done. injection Hp as <-. by rewrite list_lookup_insert by lia.
    + rewrite list_lookup_insert_ne in Hp by done. rewrite list_lookup_insert_ne by done. rewrite (Keep j q) by done. by apply G.
  - intros j k l Hj Hk. destruct (decide (i = j)) as [<-|Nj], (decide (i = k)) as [<-|Nk]; [done| | |].
    + rewrite list_lookup_insert in Hj by done. rewrite list_lookup_insert_ne in Hk by done.
      exfalso. eapply (One k l); [done|done|congruence].
    + rewrite list_lookup_insert in Hk by done. rewrite list_lookup_insert_ne in Hj by done.
      exfalso. eapply (One j l); [done|done|congruence].
    + rewrite list_lookup_insert_ne in Hj by done. rewrite list_lookup_insert_ne in Hk by done. by eapply A.
Qed.
Lemma holds_set h xs vs i b r z : holds h xs vs -> (i < length xs)%nat -> xs !! i = Some b -> does h b r z ->
  holds r.1 (<[i := r.2]> xs) (<[i := z]> vs).
Proof.
  intros H Hi E (D1 & D2 & D3 & D4 & D5). pose proof H as (L & V & G & A).
  assert (VV : forall j p, xs !! j = Some p -> valid h p).
  { intros j q Hp. rewrite Forall_forall in V. apply V. by eapply elem_of_list_lookup_2. }
  rewrite <- D1. apply (holds_put h); try done.
  - intros j [l|] Hj Hp; [|done]. cbn. apply D4; [apply (VV _ _ Hp)|]. intros <-. apply Hj. by eapply A.
  - intros j l Hj Hp Q. pose proof (VV _ _ Hp) as Vl. cbn in Vl. destruct D5 as [F|[F|(m & F & Hm)]].
    + apply Hj. eapply A; [exact Hp|]. rewrite E. congruence.
    + congruence.
    + assert (m = l) by congruence. lia.
Qed.

Lemma step_ok h xs vs c : holds h xs vs -> proper (length xs) c ->
  match bstep h xs c with
  | None => int_step vs c None
  | Some (h', xs', o) => exists vs', int_step vs c (Some (vs', o)) /\ holds h' xs' vs'
  end.
Proof.
  intros H P.
  assert (S1 : forall i b r z, (i < length xs)%nat -> xs !! i = Some b -> does h b r z -> holds r.1 (<[i := r.2]> xs) (<[i := z]> vs))
    by (intros; by eapply holds_set).
  destruct c; cbn [bstep proper] in *.
  - destruct (holds_get _ _ _ i H P) as (p & E1 & E2 & E3 & E4). eexists. split; [constructor|]. eapply S1; [done|done|].
    cbn [NewBigInt alloc]. rewrite rd_last. unfold does, alloc. cbn [fst snd value valid].
    replace (length (h ++ [z])) with (length h + 1)%nat by (rewrite app_length; done).
    split_and!.
    + replace (length h + 1)%nat with (length (h ++ [z])) by (rewrite app_length; done). apply rd_last.
    + rewrite !app_length; cbn; lia.
    + rewrite !app_length; cbn; lia.
    + intros l Hl _. rewrite !rd_app; [done|done|rewrite app_length; lia].
    + right; right. eexists. split; [done|lia].
  - destruct (holds_get _ _ _ i H P) as (p & E1 & E2 & E3 & E4). eexists. split; [constructor|]. eapply (S1 _ _ (h, None)); [done|done|]. apply does_nil.
  - destruct P as [Pi Pj]. destruct (holds_get _ _ _ i H Pi) as (p & E1 & E2 & E3 & E4). destruct (holds_get _ _ _ j H Pj) as (q & F1 & F2 & F3 & F4).
    rewrite F4. eexists. split; [by constructor|]. eapply S1; [done|done|]. apply (C83_new h q).
  - destruct P as [Pi Pj]. destruct (holds_get _ _ _ i H Pi) as (p & E1 & E2 & E3 & E4). destruct (holds_get _ _ _ j H Pj) as (q & F1 & F2 & F3 & F4).
    rewrite E4, F4. eexists. split; [by constructor|]. eapply S1; [done|done|]. by apply C83_set.
  - destruct P as [Pi Pj]. destruct (holds_get _ _ _ i H Pi) as (p & E1 & E2 & E3 & E4). destruct (holds_get _ _ _ j H Pj) as (q & F1 & F2 & F3 & F4).
    rewrite E4, F4. eexists. split; [by constructor|]. eapply S1; [done|done|]. by apply C83_add.
  - destruct P as [Pi Pj]. destruct (holds_get _ _ _ i H Pi) as (p & E1 & E2 & E3 & E4). destruct (holds_get _ _ _ j H Pj) as (q & F1 & F2 & F3 & F4).
    rewrite E4, F4. eexists. split; [by constructor|]. eapply S1; [done|done|]. by apply C83_sub.
  - destruct P as [Pi Pj]. destruct (holds_get _ _ _ i H Pi) as (p & E1 & E2 & E3 & E4). destruct (holds_get _ _ _ j H Pj) as (q & F1 & F2 & F3 & F4).
    rewrite E4, F4. eexists. split; [by constructor|]. eapply S1; [done|done|]. by apply C83_mul.
  - destruct P as [Pi Pj]. destruct (holds_get _ _ _ i H Pi) as (p & E1 & E2 & E3 & E4). destruct (holds_get _ _ _ j H Pj) as (q & F1 & F2 & F3 & F4).
    rewrite E4, F4. pose proof (C83_div h p q E3 F3) as D. destruct (DivInt h p q) as [r|].
    + destruct D as (N0 & z & Q & D). eexists. split; [by econstructor|]. by eapply S1.
    + constructor. congruence.
  - destruct P as [Pi Pj]. destruct (holds_get _ _ _ i H Pi) as (p & E1 & E2 & E3 & E4). rewrite E4.
    set (ps := map (fun i => default None (xs !! i)) js).
    eexists. split.
    + apply (is_addints vs i js (value h p) (map (value h) ps)); [done|]. subst ps. clear E1 E2 E3 E4. induction Pj as [|j js [Pj _] _ IH]; [done|].
      destruct (holds_get _ _ _ j H Pj) as (q & F1 & F2 & F3 & F4). cbn [mapM map]. rewrite F2, IH, F4. done.
    + eapply S1; [done|done|]. apply C83_addints; [done| |].
      * subst ps. apply Forall_map. eapply Forall_impl; [exact Pj|]. intros j [Hj _]. cbn.
        destruct (holds_get _ _ _ j H Hj) as (q & F1 & F2 & F3 & F4). by rewrite F4.
      * intros l -> Hm. subst ps. apply elem_of_list_In, in_map_iff in Hm. destruct Hm as (j & F & Hj).
        apply elem_of_list_In in Hj. rewrite Forall_forall in Pj. destruct (Pj _ Hj) as [Lj Nj].
        destruct (holds_get _ _ _ j H Lj) as (q & F1 & F2 & F3 & F4). apply Nj.
        destruct H as (_ & _ & _ & A). eapply A; [|exact E1]. rewrite F1. congruence.
  - destruct (holds_get _ _ _ i H P) as (p & E1 & E2 & E3 & E4). rewrite E4. destruct r as [[n d]|].
    + destruct (C83_mulrat h p n d E3) as [(q & Q & D) _]. eexists. split; [by econstructor|]. by eapply S1.
    + destruct (C83_mulrat h p 0 1 E3) as [_ D]. eexists. split; [by econstructor|]. by eapply S1.
  - destruct P as (Pi & Pj & Pk & Nik). destruct (holds_get _ _ _ i H Pi) as (p & E1 & E2 & E3 & E4). destruct (holds_get _ _ _ j H Pj) as (q & F1 & F2 & F3 & F4).
    destruct (holds_get _ _ _ k H Pk) as (o & G1 & G2 & G3 & G4).
    rewrite E4, F4. pose proof (C83_sub_floor h p q E3 F3) as D. destruct (SubIntNotLessZero h p q) as [[h' l] t].
    destruct D as ((new & ->) & V1 & V2 & T & L & Fl & Ft). eexists. split; [by econstructor|].
    assert (D1 : does h p (h ++ new, l) (value h p - value (h ++ new) t)).
    { unfold does. cbn [fst snd]. rewrite app_length. split_and!; try done; [lia|]. intros m Hm _. by apply rd_app. }
    pose proof (S1 i p _ _ Pi E1 D1) as H1. cbn [fst snd] in H1. rewrite <- L in H1.
    apply (holds_put (h ++ new)); try done.
    + by rewrite insert_length.
    + intros m r Hm Hr -> . destruct Ft as [?|(m' & F & Hm' & Hne)]; [done|]. injection F as ->.
      destruct (decide (i = m)) as [<-|Ni].
      * rewrite list_lookup_insert in Hr by done. congruence.
      * rewrite list_lookup_insert_ne in Hr by done. destruct H as (_ & V & _). rewrite Forall_forall in V.
        specialize (V (Some m')). cbn in V. assert (m' < length h)%nat; [|lia]. apply V. by eapply elem_of_list_lookup_2.
  - destruct (holds_get _ _ _ i H P) as (p & E1 & E2 & E3 & E4). rewrite E4. eexists. split; [by constructor|].
    eapply (S1 _ _ (h, MustPositive h p)); [done|done|]. pose proof (C83_sign h p) as (_ & _ & _ & _ & M & _).
    unfold MustPositive in *. destruct (Positive h p); [by apply does_same|]. rewrite <- M. apply does_nil.
  - destruct (holds_get _ _ _ i H P) as (p & E1 & E2 & E3 & E4). rewrite E4. pose proof (C83_sign h p) as (-> & _). eexists. split; [by constructor|done].
  - destruct (holds_get _ _ _ i H P) as (p & E1 & E2 & E3 & E4). rewrite E4. pose proof (C83_sign h p) as (_ & _ & _ & Z0 & _). exists vs. split; [|done].
    replace (if IsZero h p then 1 else 0) with (if value h p =? 0 then 1 else 0); [by constructor|].
    destruct (IsZero h p), (value h p =? 0) eqn:Q; try done; [assert (value h p = 0) by tauto; lia|]. assert (value h p = 0) as Q2 by lia. apply Z0 in Q2. done.
Qed.
Lemma step_len h xs c h' xs' o : bstep h xs c = Some (h', xs', o) -> length xs' = length xs.
Proof.
  destruct c; cbn [bstep]; try (intros [= <- <- <-]; by rewrite ?insert_length).
  - destruct (DivInt _ _ _); [|done]. intros [= <- <- <-]. by rewrite insert_length.
  - destruct (SubIntNotLessZero _ _ _) as [[? ?] ?]. intros [= <- <- <-]. by rewrite !insert_length.
Qed.
(** Any program over variables that are not aliases computes what integer arithmetic does. *)
Theorem C83_program : forall cs h xs vs, holds h xs vs -> Forall (proper (length xs)) cs ->
  match brun h xs cs with
  | None => int_run vs cs None
  | Some (h', xs', os) => exists vs', int_run vs cs (Some (vs', os)) /\ holds h' xs' vs'
  end.
Proof.
  induction cs as [|c cs IH]; intros h xs vs H P; cbn [brun].
  - exists vs. split; [constructor|done].
  - pose proof (step_ok h xs vs c H (Forall_inv P)) as S. destruct (bstep h xs c) as [[[h1 xs1] o]|] eqn:E; [|by constructor].
    destruct S as (v1 & S & H1). pose proof (step_len _ _ _ _ _ _ E) as L.
    specialize (IH h1 xs1 v1 H1). rewrite L in IH. specialize (IH (Forall_inv_tail P)).
    destruct (brun h1 xs1 cs) as [[[h2 xs2] os]|].
    + destruct IH as (v2 & R & H2). exists v2. split; [by econstructor|done].
    + by eapply ir_later.
Qed.
(** Integer arithmetic has one result. *)
Lemma quotient_unique x y q q' : is_quotient x y q -> is_quotient x y q' -> q = q'.
Proof. unfold is_quotient. intros H1 H2. nia. Qed.
Lemma int_step_det v c r r' : int_step v c r -> int_step v c r' -> r = r'.
Proof.
  intros H1 H2; inversion H1; subst; inversion H2; subst; try congruence.
  - assert (a = a0 /\ b = b0) as [<- <-] by (split; congruence). by rewrite (quotient_unique a b q q0).
  - assert (a = a0) as <- by congruence. by rewrite (quotient_unique (a * n) (Zpos d) q q0).
  - assert (a = a0 /\ b = b0) as [<- <-] by (split; congruence). done.
  - assert (a = a0) as <- by congruence. done.
Qed.
Theorem C83_program_determined : forall cs v r r', int_run v cs r -> int_run v cs r' -> r = r'.
Proof.
  induction cs as [|c cs IH]; intros v r r' H1 H2; inversion H1; subst; inversion H2; subst; try done;
  match goal with A : int_step v c _, B : int_step v c _ |- _ => pose proof (int_step_det _ _ _ _ A B) as Q end;
  try discriminate; injection Q as <- <-;
  match goal with A : int_run _ cs _, B : int_run _ cs _ |- _ => pose proof (IH _ _ _ A B) as R end; congruence.
Qed.

(** A receiver among the arguments of AddInts is counted again after it has changed. *)
Theorem C83_addints_alias_refuted : exists h b,
  valid h b /\ value h b = 1 /\ let r := AddInts h b [b; b] in value r.1 r.2 = 4 /\ 4 <> 1 + (1 + 1).
Proof. exists [1], (Some 0%nat). cbn. split_and!; try done; lia. Qed.
(** A sum stored in another variable than its receiver changes the receiver too. *)
Theorem C83_receiver_changes_refuted : exists h b a,
  valid h b /\ valid h a /\ value h b = 1 /\ value h a = 2 /\ let r := AddInt h b a in value r.1 r.2 = 3 /\ value r.1 b = 3.
Proof. exists [1; 2], (Some 0%nat), (Some 1%nat). cbn. split_and!; try done; lia. Qed.
(** Multiplying by zero gives nil and leaves the receiver as it was, unlike other products. *)
Theorem C83_mul_zero_receiver_refuted : exists h b a,
  valid h b /\ valid h a /\ value h a = 0 /\ let r := MulInt h b a in r.2 = None /\ value r.1 b = 7.
Proof. exists [7; 0], (Some 0%nat), (Some 1%nat). cbn. split_and!; try done; lia. Qed.
(** HexString shows the sign and hexadecimal digits of the bytes without leading zero byte. *)
Theorem C83_hex : forall h l, exists s, HexString h (Some l) = Some s /\
  (rd h l = 0 -> s = [48%N]) /\
  (rd h l <> 0 -> exists d bs, s = (if rd h l <? 0 then [45%N] else []) ++ d /\ hex_decode d = (bs, None) /\
     Z.of_N (be_num bs) = Z.abs (rd h l) /\ head bs <> Some 0%N).
Proof.
  intros h l. cbn [HexString Sign]. unfold big_bytes. pose proof (be_num_bytes (Z.abs_N (rd h l))) as N1.
  pose proof (be_bytes_bytes (Z.abs_N (rd h l))) as B. pose proof (be_bytes_hd (Z.abs_N (rd h l))) as Hd.
  destruct (be_bytes (Z.abs_N (rd h l))) as [|x r].
  - cbn in N1. eexists. split; [done|]. split; [done|]. lia.
  - eexists. split; [done|]. split.
    + intros E. exfalso. rewrite E in *. specialize (Hd x r eq_refl). rewrite be_num_cons in N1. pose proof (pow256_pos (lenN r)). cbn in N1. nia.
    + intros _. exists (hex_encode (x :: r)), (x :: r).
      replace (Z.sgn (rd h l) <? 0) with (rd h l <? 0) by lia. split; [done|]. split; [|split].
      * apply hex_decode_iff. split; [done|]. by apply lower_hex_encode.
      * lia.
      * cbn. specialize (Hd x r eq_refl). congruence.
Qed.
Theorem C83_hex_nil_refuted : forall h, HexString h None = None /\ IsZero h None = true /\ forall l, HexString h (Some l) <> None.
Proof. intros h. split_and!; try done. intros l. cbn. by destruct (big_bytes (rd h l)). Qed.

Definition ex_prog : list stmt :=
  [SNew 0 7; SNew 1 2; SDiv 0 1; SSign 0; SClone 2 0; SAdd 0 0; SAddInts 1 [0; 2]%nat; SSubFloor 2 1 0; SMulRat 1 (Some (5, 3%positive)); SIsZero 0; SSubFloor 1 0 2; SPositive 0].
Example C83_holds_example : holds [] [None; None; None] [0; 0; 0].
Proof. split; [done|]. split; [by repeat apply Forall_cons_2|]. split.
  - intros [|[|[|i]]] p; cbn; try (by intros [= <-]); done.
  - intros [|[|[|i]]] j l; cbn; done. Qed.
Example C83_program_example : Forall (proper 3) ex_prog /\
  option_map (fun r => (map (value r.1.1) r.1.2, r.2)) (brun [] [None; None; None] ex_prog)
  = Some ([3; 15; 3], [None; None; None; Some 1; None; None; None; None; None; Some 0; None; None]).
Proof. split; [repeat (apply Forall_cons; split; [cbn; try lia|]); try done|]. 
 - split; [lia|]. repeat (apply Forall_cons; split; [lia|]). done.
 - vm_compute. reflexivity. Qed.
Print Assumptions C83_new.
Print Assumptions C83_clone_apart.
Print Assumptions C83_add.
Print Assumptions C83_sub.
Print Assumptions C83_mul.
Print Assumptions C83_div.
Print Assumptions C83_mulrat.
Print Assumptions C83_set.
Print Assumptions C83_addints.
Print Assumptions C83_sub_floor.
Print Assumptions C83_sign.
Print Assumptions C83_compare.
Print Assumptions C83_compare_nil_refuted.
Print Assumptions C83_uint64.
Print Assumptions C83_zero_uint64_refuted.
Print Assumptions C83_program.
Print Assumptions C83_program_determined.
Print Assumptions C83_addints_alias_refuted.
Print Assumptions C83_receiver_changes_refuted.
Print Assumptions C83_mul_zero_receiver_refuted.
Print Assumptions C83_hex.
Print Assumptions C83_hex_nil_refuted.
