(** C79: pairing the names of arguments with the fields of a struct, copying values into a
    struct, and taking the values of a tuple out of one. *)
From Coq Require Import NArith ZArith Lia Zify.
From stdpp Require Import list gmap.
From Verif Require Import Base AbiModel AbiTypeModel AbiFieldModel AbiFieldSpec AbiFieldProofs AbiSelProps AbiTypeProofs.

(** Names are paired exactly when the tags and the arguments satisfy the conditions of
    AbiFieldSpec.v. *)
Theorem C79_accepts : forall args st, go_struct st ->
  is_Some (mapArgNamesToStructFields args st) <-> tags_ok st args /\ args_ok st args.
Proof. intros args st H. apply (map_spec args st H). Qed.
Print Assumptions C79_accepts.

(** An argument is paired with the field that is tagged with its name; without such a field
    with the field that bears its name in camel case, if there is one; with no other. *)
Theorem C79_pairs : forall args st m, go_struct st -> mapArgNamesToStructFields args st = Some m ->
  (forall a f, m !! a = Some f <-> tagged st f a \/ (a ∈ args /\ own st a f)) /\
  (forall f t, tagged st f t -> t ∈ args) /\
  (forall a f, m !! a = Some f -> a ∈ args /\ field st f).
Proof.
  intros args st m H E. destruct (map_spec args st H) as [S1 S2]. split; [by apply S2|].
  assert (forall f t, tagged st f t -> t ∈ args) as Ht.
  { destruct (proj1 S1 (ex_intro _ m E)) as [[T1 _] _]. intros f t Hf. destruct (T1 _ _ Hf) as (_&l&r&->&_). set_solver. }
  split; [done|]. intros a f Hm. apply (S2 m E) in Hm as [Hm|(Hm&_&->&Hf)]; [|done]. split; [eauto|by eapply tagged_field].
Qed.
Print Assumptions C79_pairs.

(** No two arguments share a field. *)
Theorem C79_injective : forall args st m a b f, go_struct st -> mapArgNamesToStructFields args st = Some m ->
  m !! a = Some f -> m !! b = Some f -> a = b.
Proof.
  intros args st m a b f Hst E Ha Hb. destruct (map_spec args st Hst) as [S1 S2].
  destruct (proj1 S1 (ex_intro _ m E)) as [_ A]. specialize (S2 m E).
  assert (Hdis : distinct st args).
  { clear - A. induction args as [|x l IH] using rev_ind; [intros b Hb; by apply elem_of_nil in Hb|]. apply distinct_snoc.
    - apply IH. intros i a Hi. specialize (A i a). rewrite lookup_app_l in A by (by eapply lookup_lt_Some).
      specialize (A Hi). rewrite take_app_le in A; [done|]. apply lookup_lt_Some in Hi. lia.
    - specialize (A (length l) x). rewrite list_lookup_middle in A by done. specialize (A eq_refl). by rewrite take_app in A. }
  assert (Hone : forall a t, tagged st f a -> tagged st f t -> a = t).
  { intros a' t (x&Hx&E1&E2&_) (y&Hy&E3&E4&_). assert (x = y) as ->; [|congruence].
    apply elem_of_list_lookup in Hx as [i Hi]. apply elem_of_list_lookup in Hy as [j Hj].
    assert (i = j) as ->; [|congruence]. eapply (NoDup_lookup (map sf_name st)); [apply Hst|rewrite list_lookup_fmap, Hi; cbn; by rewrite E1|].
    rewrite list_lookup_fmap, Hj. cbn. by rewrite E3. }
  apply S2 in Ha, Hb. destruct Ha as [Ha|(Ha&Ua&Ea&_)], Hb as [Hb|(Hb&Ub&Eb&_)].
  - by apply Hone.
  - destruct (Hdis b Hb Ub) as [H _]. subst f. by destruct (H a).
  - destruct (Hdis a Ha Ua) as [H _]. subst f. by destruct (H b).
  - destruct (Hdis b Hb Ub) as [_ H]. apply H; [done|done|congruence].
Qed.
Print Assumptions C79_injective.

(** Without tags, and with camel case names that are distinct and not empty, every argument
    is paired with the field of its name, if there is one. *)
Theorem C79_untagged : forall args st, go_struct st -> Forall (fun x => sf_tag x = None) st ->
  NoDup (map ToCamelCase args) -> [] ∉ map ToCamelCase args ->
  exists m, mapArgNamesToStructFields args st = Some m /\
    forall a f, m !! a = Some f <-> a ∈ args /\ f = ToCamelCase a /\ field st f.
Proof.
  intros args st Hst Htag Hnd Hne. destruct (map_spec args st Hst) as [S1 S2].
  assert (Hno : forall f t, ~ tagged st f t).
  { intros f t (x&Hx&_&E&_). rewrite Forall_forall in Htag. rewrite (Htag x Hx) in E. done. }
  destruct (proj2 S1) as [m Em].
  - split; [split; [intros f t H; by destruct (Hno f t)|intros f g t H; by destruct (Hno f t)]|].
    intros i a Hi. split; [|split].
    + intros E. apply Hne. rewrite <- E. apply elem_of_list_fmap. exists a. split; [done|]. by eapply elem_of_list_lookup_2.
    + intros f H. by destruct (Hno f a).
    + intros _. split; [intros t; apply Hno|]. intros b Hb _ E. exfalso.
      apply elem_of_take in Hb as (j&Hj&Hlt). assert (j = i) as ->; [|lia].
      eapply (NoDup_lookup (map ToCamelCase args)); [done| |]; rewrite list_lookup_fmap; [rewrite Hj|rewrite Hi]; cbn; [by rewrite E|done].
  - exists m. split; [done|]. intros a f. rewrite (S2 m Em). unfold own. split.
    + intros [H|(H&_&->&H')]; [by destruct (Hno f a)|done].
    + intros (H1&->&H2). right. split; [done|]. split; [intros g; apply Hno|done].
Qed.
Print Assumptions C79_untagged.

Section copying.
  Context (assignable : list N -> val -> bool).
  (** the pairs of fields and values a copy writes, in order *)
  Lemma copy_loop_inv st m args : forall vs sv sv', copy_loop assignable st m args vs sv = Ok sv' ->
    (length args <= length vs)%nat /\
    (forall i a v, args !! i = Some a -> vs !! i = Some v -> field st (get m a) /\ assignable (get m a) v = true) /\
    (forall f, (forall a, a ∈ args -> get m a <> f) -> sv' f = sv f) /\
    (forall i a v, args !! i = Some a -> vs !! i = Some v -> (forall j b, (i < j)%nat -> args !! j = Some b -> get m b <> get m a) -> sv' (get m a) = v).
  Proof.
    induction args as [|arg r IH]; intros vs sv sv'; cbn [copy_loop].
    - intros [= <-]. split; [cbn; lia|]. split_and!; intros; try done.
    - destruct (has_field st (get m arg)) eqn:Ef; cbn [negb]; [|done]. destruct vs as [|v vs]; [done|].
      destruct (assignable (get m arg) v) eqn:Ea; [|done]. intros E. destruct (IH _ _ _ E) as (I1&I2&I3&I4).
      apply has_field_iff in Ef. split; [cbn; lia|]. split_and!.
      + intros [|i] a v'; cbn; [intros [= <-] [= <-]; done|apply I2].
      + intros f Hf. rewrite I3 by (intros; apply Hf; set_solver). unfold put. rewrite bool_decide_eq_false_2; [done|].
        intros ->. by apply (Hf arg); [set_solver|].
      + intros [|i] a v' Ha Hv Hlast; cbn in Ha, Hv.
        * injection Ha as <-. injection Hv as <-. rewrite I3.
          -- unfold put. by rewrite bool_decide_eq_true_2.
          -- intros b Hb. apply elem_of_list_lookup in Hb as [j Hj]. apply (Hlast (S j) b); [lia|done].
        * apply (I4 i a v' Ha Hv). intros j b Hlt Hb. apply (Hlast (S j) b); [lia|done].
  Qed.
  Lemma copy_loop_ok st m args : forall vs sv, (length args <= length vs)%nat ->
    (forall i a v, args !! i = Some a -> vs !! i = Some v -> field st (get m a) /\ assignable (get m a) v = true) ->
    exists sv', copy_loop assignable st m args vs sv = Ok sv'.
  Proof.
    induction args as [|arg r IH]; intros vs sv Hl H; cbn [copy_loop]; [by eexists|]. destruct vs as [|v vs]; [cbn in Hl; lia|].
    destruct (H 0%nat arg v eq_refl eq_refl) as [H1 H2]. apply has_field_iff in H1. rewrite H1, H2. cbn [negb].
    apply IH; [cbn in Hl; lia|]. intros i a v' Ha Hv. by apply (H (S i) a v').
  Qed.
End copying.

(** Copying succeeds exactly when the names can be paired, every argument has a field and
    every value is assignable to it; the rest of the values is not looked at. *)
Theorem C79_copy_ok : forall assignable args st vs sv, go_struct st -> (length args <= length vs)%nat ->
  (exists sv', copyTuple assignable st args vs sv = Ok sv') <->
  tags_ok st args /\ args_ok st args /\
  (forall i a v, args !! i = Some a -> vs !! i = Some v -> exists f, (tagged st f a \/ own st a f) /\ assignable f v = true).
Proof.
  intros assignable args st vs sv Hst Hlen. destruct (map_spec args st Hst) as [S1 S2]. unfold copyTuple. split.
  - intros [sv' E]. destruct (mapArgNamesToStructFields args st) as [m|] eqn:Em; [|done].
    destruct (proj1 S1 (ex_intro _ m eq_refl)) as [T A]. split; [done|]. split; [done|].
    apply copy_loop_inv in E as (_&I2&_). intros i a v Ha Hv. destruct (I2 i a v Ha Hv) as [(x&Hx&En) Has].
    exists (get m a). split; [|done]. unfold get in *. destruct (m !! a) as [f|] eqn:E; cbn in *.
    + apply (S2 m eq_refl) in E as [E|[_ E]]; [by left|by right].
    + destruct Hst as [_ Hne]. rewrite Forall_forall in Hne. by destruct (Hne x Hx).
  - intros (T&A&H). destruct (proj2 S1 (conj T A)) as [m Em]. rewrite Em. apply copy_loop_ok; [done|].
    intros i a v Ha Hv. destruct (H i a v Ha Hv) as (f&Hf&Has).
    assert (m !! a = Some f) as E. { apply (S2 m Em). destruct Hf as [Hf|Hf]; [by left|right]. split; [by eapply elem_of_list_lookup_2|done]. }
    rewrite (get_some _ _ _ E). split; [|done]. destruct Hf as [Hf|(_&->&Hf)]; [by eapply tagged_field|done].
Qed.
Print Assumptions C79_copy_ok.

(** After a copy every argument's value is in its field and the fields of no argument are as
    before. Argument names are distinct. *)
Theorem C79_copy : forall assignable args st vs sv sv', go_struct st -> NoDup args ->
  copyTuple assignable st args vs sv = Ok sv' ->
  (length args <= length vs)%nat /\
  (forall i a v f, args !! i = Some a -> vs !! i = Some v -> tagged st f a \/ own st a f -> sv' f = v) /\
  (forall f, (forall a, a ∈ args -> ~ (tagged st f a \/ own st a f)) -> field st f -> sv' f = sv f).
Proof.
  intros assignable args st vs sv sv' Hst Hnd. unfold copyTuple. destruct (mapArgNamesToStructFields args st) as [m|] eqn:Em; [|done].
  intros E. destruct (C79_pairs _ _ _ Hst Em) as (P1&P2&P3). apply copy_loop_inv in E as (I1&I2&I3&I4). split; [done|]. split.
  - intros i a v f Ha Hv Hf.
    assert (m !! a = Some f) as E. { apply P1. destruct Hf as [Hf|Hf]; [by left|right]. split; [by eapply elem_of_list_lookup_2|done]. }
    rewrite <- (get_some _ _ _ E). apply (I4 i a v Ha Hv). intros j b Hlt Hb Eg.
    rewrite (get_some _ _ _ E) in Eg. unfold get in Eg. destruct (m !! b) as [g|] eqn:Eb; cbn in Eg.
    + unfold id in Eg; subst g. assert (b = a) as -> by (eapply C79_injective; eauto).
      assert (i = j) by (by eapply NoDup_lookup). lia.
    + destruct (I2 i a v Ha Hv) as [(x&Hx&En) _]. rewrite (get_some _ _ _ E) in En. destruct Hst as [_ Hne]. rewrite Forall_forall in Hne.
      apply (Hne x Hx). congruence.
  - intros f Hf (x&Hx&En). apply I3. intros a Ha Eg. unfold get in Eg. destruct (m !! a) as [g|] eqn:E; cbn in Eg.
    + unfold id in Eg; subst g. apply (Hf a Ha). apply P1 in E as [E|[_ E]]; tauto.
    + destruct Hst as [_ Hne]. rewrite Forall_forall in Hne. apply (Hne x Hx). congruence.
Qed.
Print Assumptions C79_copy.

Lemma field_values_inv st m raws sv vs : field_values st m raws sv = Ok vs <->
  (forall a, a ∈ raws -> field st (get m a)) /\ vs = map (fun a => sv (get m a)) raws.
Proof.
  revert vs. induction raws as [|a r IH]; intros vs; cbn [field_values map].
  - split; [intros [= <-]; split; [|done]|intros [_ ->]; done]. intros a H. by apply elem_of_nil in H.
  - destruct (has_field st (get m a)) eqn:Ef; cbn [negb].
    + apply has_field_iff in Ef. destruct (field_values st m r sv) as [l| |] eqn:El; cbn [rbind].
      * destruct (proj1 (IH l) eq_refl) as [H1 ->]. split.
        -- intros [= <-]. split; [|done]. intros b Hb. apply elem_of_cons in Hb as [->|Hb]; auto.
        -- intros [_ ->]. done.
      * split; [done|]. intros [H1 ->]. assert (Err = Ok (map (fun a => sv (get m a)) r)) as Habs by (apply IH; split; [set_solver|done]). done.
      * split; [done|]. intros [H1 ->]. assert (Panic = Ok (map (fun a => sv (get m a)) r)) as Habs by (apply IH; split; [set_solver|done]). done.
    + split; [done|]. intros [H _]. specialize (H a). apply has_field_iff in H; [congruence|set_solver].
Qed.

(** A tuple is packed from the fields its components are paired with, in the order of the
    components. *)
Theorem C79_take : forall st raws sv vs, go_struct st -> tuple_values st raws sv = Ok vs ->
  length vs = length raws /\
  forall i a v, raws !! i = Some a -> vs !! i = Some v -> exists f, (tagged st f a \/ own st a f) /\ v = sv f.
Proof.
  intros st raws sv vs Hst. unfold tuple_values. destruct (mapArgNamesToStructFields raws st) as [m|] eqn:Em; [|done].
  intros E. apply field_values_inv in E as [E1 ->]. split; [apply map_length|]. intros i a v Ha Hv.
  rewrite list_lookup_fmap, Ha in Hv. injection Hv as <-. exists (get m a). split; [|done].
  destruct (C79_pairs _ _ _ Hst Em) as (P1&_). destruct (E1 a) as (x&Hx&En); [by eapply elem_of_list_lookup_2|].
  unfold get in *. destruct (m !! a) as [f|] eqn:E; cbn in *.
  - apply P1 in E as [E|[_ E]]; tauto.
  - destruct Hst as [_ Hne]. rewrite Forall_forall in Hne. by destruct (Hne x Hx).
Qed.
Print Assumptions C79_take.

(** Values copied into a struct are the values a tuple with these component names is packed
    from. *)
Theorem C79_round_trip : forall assignable st args vs sv sv', go_struct st -> NoDup args -> length vs = length args ->
  copyTuple assignable st args vs sv = Ok sv' -> tuple_values st args sv' = Ok vs.
Proof.
  intros assignable st args vs sv sv' Hst Hnd Hlen E. destruct (C79_copy _ _ _ _ _ _ Hst Hnd E) as (_&C1&_).
  unfold copyTuple in E. unfold tuple_values. destruct (mapArgNamesToStructFields args st) as [m|] eqn:Em; [|done].
  destruct (C79_pairs _ _ _ Hst Em) as (P1&_&P3). apply copy_loop_inv in E as (_&I2&_).
  assert (Hall : forall i a, args !! i = Some a -> exists v f, vs !! i = Some v /\ m !! a = Some f /\ sv' f = v /\ field st f).
  { intros i a Ha. destruct (lookup_lt_is_Some_2 vs i) as [v Hv]; [rewrite Hlen; by eapply lookup_lt_Some|].
    destruct (I2 i a v Ha Hv) as [(x&Hx&En) _]. destruct (m !! a) as [f|] eqn:Ef.
    - exists v, f. split; [done|]. split; [done|]. split; [|by apply (P3 a)]. apply (C1 i a v f Ha Hv). apply P1 in Ef as [Ef|[_ Ef]]; tauto.
    - unfold get in En. rewrite Ef in En. cbn in En. destruct Hst as [_ Hne]. rewrite Forall_forall in Hne. by destruct (Hne x Hx). }
  apply field_values_inv. split.
  - intros a Ha. apply elem_of_list_lookup in Ha as [i Hi]. destruct (Hall i a Hi) as (v&f&_&Ef&_&Hf). by rewrite (get_some _ _ _ Ef).
  - apply list_eq. intros i. rewrite list_lookup_fmap. destruct (args !! i) as [a|] eqn:Ha; cbn.
    + destruct (Hall i a Ha) as (v&f&Hv&Ef&Hs&_). rewrite Hv, (get_some _ _ _ Ef), Hs. done.
    + apply lookup_ge_None in Ha. apply lookup_ge_None. lia.
Qed.
Print Assumptions C79_round_trip.

Lemma tuple_loop_camel uvalid reflectable rec cs : forall used ts ns fs,
  tuple_loop uvalid reflectable rec used cs = Ok (ts, ns, fs) ->
  NoDup (map ToCamelCase ns) -> (forall n, n ∈ ns -> ToCamelCase n ∉ used) -> fs = map ToCamelCase ns /\ [] ∉ fs.
Proof.
  induction cs as [|[n ct ci cc] cs IH]; intros used ts ns fs; cbn [tuple_loop].
  - intros [= <- <- <-] _ _. split; [done|]. by apply not_elem_of_nil.
  - destruct (rec _) as [ty| |]; cbn [rbind]; [|done|done]. case_bool_decide as Ec; [done|].
    destruct (C45_fresh used (ToCamelCase n)) as (r&Hres&Hfresh&Hfree&_). cbn zeta in *. rewrite (Hres _ (le_n _)).
    destruct (negb _); [done|]. destruct (erase ty); [|done]. destruct (negb _); [done|].
    destruct (tuple_loop _ _ _ _ cs) as [[[ts' ns'] fs']| |] eqn:El; cbn [rbind]; [|done|done].
    intros [= <- <- <-] Hnd Hout. cbn [map] in *. apply NoDup_cons in Hnd as [Hn Hnd].
    assert (r = ToCamelCase n) as -> by (apply Hfree, Hout; set_solver).
    destruct (IH _ _ _ _ El Hnd) as [-> Hne].
    + intros n' Hn' Hin. apply elem_of_cons in Hin as [E|Hin]; [|apply (Hout n'); set_solver].
      apply Hn. rewrite <- E. apply elem_of_list_fmap. by exists n'.
    + split; [done|]. apply not_elem_of_cons. split; [congruence|done].
Qed.
Lemma new_type_tuple uvalid reflectable f t internal cs ty : new_type uvalid reflectable f t internal cs = Ok ty -> T ty = TupleTy ->
  exists f', tuple_loop uvalid reflectable (fun '(AM _ ct ci cc) => new_type uvalid reflectable f' ct ci cc) [] cs = Ok (TupleElems ty, TupleRawNames ty, TupleFields ty).
Proof.
  destruct f as [|f]; cbn [new_type]; [done|]. destruct (negb _); [done|]. destruct (negb _).
  - destruct (last_index 91 t) as [i|]; [|done]. destruct (new_type _ _ f _ _ cs) as [emb| |] eqn:E; cbn [rbind]; [|done|done].
    destruct (digit_runs _ _) as [|d [|]]; [|destruct (Atoi d); [|done]|done]; intros H; injection H as <-; done.
  - destruct (type_match t) as [[[[g0 g1] g2] g3]|]; [|done].
    destruct (match g3 with [] => _ | _ => _ end) as [v| |]; cbn [rbind]; [|done|done].
    repeat (match goal with |- (if ?b then _ else _) = _ -> _ => destruct b end; [try (intros H; injection H as <-; done)|]); try (intros H; injection H as <-; done); try done.
    + intros H; injection H as <-. by destruct (v =? 0).
    + destruct (tuple_loop _ _ _ _ cs) as [[[ts ns] fs]| |] eqn:El; cbn [rbind]; [|done|done]. intros H _; injection H as <-. cbn. eauto.
Qed.

(** The struct NewType makes for a tuple whose component names differ in camel case is read
    in the order of its fields: packing by name and unpacking by position agree. *)
Theorem C79_generated : forall uvalid reflectable t internal cs ty,
  NewType uvalid reflectable t internal cs = Ok ty -> T ty = TupleTy -> NoDup (map ToCamelCase (TupleRawNames ty)) ->
  TupleFields ty = map ToCamelCase (TupleRawNames ty) /\
  forall sv, tuple_values (tuple_struct ty) (TupleRawNames ty) sv = Ok (map sv (TupleFields ty)).
Proof.
  intros uvalid reflectable t internal cs ty E Et Hnd. apply new_type_tuple in E as [f' E]; [|done].
  destruct (tuple_loop_camel _ _ _ _ _ _ _ _ E Hnd) as [Ef Hne]; [intros n _ Hn; by apply elem_of_nil in Hn|].
  split; [done|]. intros sv.
  assert (Hst : go_struct (tuple_struct ty)).
  { unfold tuple_struct. split.
    - rewrite map_map. cbn. rewrite map_id, Ef. done.
    - apply Forall_forall. intros x Hx. apply elem_of_list_fmap in Hx as (n&->&Hn). cbn. by intros ->. }
  destruct (C79_untagged (TupleRawNames ty) (tuple_struct ty) Hst) as (m&Em&P).
  - apply Forall_forall. intros x Hx. apply elem_of_list_fmap in Hx as (n&->&_). done.
  - done.
  - by rewrite <- Ef.
  - assert (Hm : forall a, a ∈ TupleRawNames ty -> get m a = ToCamelCase a /\ field (tuple_struct ty) (ToCamelCase a)).
    { intros a Ha. assert (field (tuple_struct ty) (ToCamelCase a)) as Hf.
      { exists (SField (ToCamelCase a) None). split; [|done]. apply elem_of_list_fmap. exists (ToCamelCase a). split; [done|].
        rewrite Ef. apply elem_of_list_fmap. by exists a. }
      split; [|done]. apply get_some. by apply P. }
    unfold tuple_values. rewrite Em. apply field_values_inv. split.
    + intros a Ha. destruct (Hm a Ha) as [-> H]. done.
    + rewrite Ef, map_map. apply map_ext_in. intros a Ha. apply elem_of_list_In in Ha. destruct (Hm a Ha) as [-> _]. done.
Qed.
Print Assumptions C79_generated.

(** NewType accepts a tuple with two components of the same name, and makes the fields A and
    A0 for them; packing reads A twice and never A0. *)
Definition tuple_aa : list amarsh := [AM [97] s_bool [] []; AM [97] s_bool [] []].
Theorem C79_same_name_refuted : exists ty, NewType (fun _ => false) (fun _ => true) s_tuple [] tuple_aa = Ok ty /\
  TupleFields ty = [[65]; [65; 48]] /\
  forall sv, tuple_values (tuple_struct ty) (TupleRawNames ty) sv = Ok [sv [65]; sv [65]].
Proof. eexists. split; [vm_compute; reflexivity|]. split; [vm_compute; reflexivity|]. intros sv. vm_compute. reflexivity. Qed.
Print Assumptions C79_same_name_refuted.

(** With component names that differ but agree in camel case, a and _a, NewType accepts the
    tuple and no value of it can be packed. *)
Definition tuple_a_a : list amarsh := [AM [97] s_bool [] []; AM [95; 97] s_bool [] []].
Theorem C79_same_camel_refuted : exists ty, NewType (fun _ => false) (fun _ => true) s_tuple [] tuple_a_a = Ok ty /\
  forall sv, tuple_values (tuple_struct ty) (TupleRawNames ty) sv = Err.
Proof. eexists. split; [vm_compute; reflexivity|]. intros sv. vm_compute. reflexivity. Qed.
Print Assumptions C79_same_camel_refuted.

(** Whether names are accepted depends on the order of the arguments: with the fields Foo
    and X (tagged foo), the arguments _foo, foo are accepted and foo, _foo are not. *)
Definition st_order : list sfield := [SField [70; 111; 111] None; SField [88] (Some [102; 111; 111])].
Theorem C79_order_refuted :
  is_Some (mapArgNamesToStructFields [[95; 102; 111; 111]; [102; 111; 111]] st_order) /\
  mapArgNamesToStructFields [[102; 111; 111]; [95; 102; 111; 111]] st_order = None.
Proof. split; [|vm_compute; reflexivity]. vm_compute. by eexists. Qed.
Print Assumptions C79_order_refuted.

(** struct { A; my; Other `abi:"b_c"` } with the arguments b_c, a *)
Definition st_ex : list sfield := [SField [65] None; SField [109; 121] (Some [113]); SField [79; 116; 104] (Some [98; 95; 99])].
Definition args_ex : list (list N) := [[98; 95; 99]; [97]].
Example C79_example : go_struct st_ex /\ NoDup args_ex /\
  match copyTuple (fun _ _ => true) st_ex args_ex [VBool true; VBool false] (fun _ => VString []) with
  | Ok sv => map sv [[65]; [109; 121]; [79; 116; 104]] = [VBool false; VString []; VBool true]
  | _ => False end.
Proof.
  split; [|split].
  - split; [apply (bool_decide_eq_true_1 _); vm_compute; reflexivity|]. repeat constructor; done.
  - apply (bool_decide_eq_true_1 _). vm_compute. reflexivity.
  - vm_compute. reflexivity.
Qed.
Example C79_generated_example : exists ty, NewType (fun _ => false) (fun _ => true) s_tuple [] [AM [97; 95; 98] s_bool [] []; AM [97] s_bool [] []] = Ok ty /\
  T ty = TupleTy /\ NoDup (map ToCamelCase (TupleRawNames ty)) /\ TupleFields ty = [[65; 66]; [65]].
Proof. eexists. split; [vm_compute; reflexivity|]. split; [done|]. split; [|vm_compute; reflexivity]. apply (bool_decide_eq_true_1 _). vm_compute. reflexivity. Qed.
