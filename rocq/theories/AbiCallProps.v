(** C78: an ABI built from JSON entries, call data and lookups. *)
From Coq Require Import NArith ZArith Lia Zify.
From stdpp Require Import list gmap.
From Verif Require Import Base AbiModel AbiSpec AbiProofs AbiProps AbiSelModel AbiSelSpec AbiSelProps AbiTypeModel AbiTypeSpec AbiTypeProps AbiCallModel AbiCallSpec AbiCallProofs.
Global Open Scope N_scope.

(* ------------------------------------------------------------ construction *)
(** The entries are accepted exactly when all their types are, every kind is known, there
    is at most one fallback and at most one receive, and that one is payable. *)
Theorem C78_accepts : forall uvalid reflectable H l,
  (exists a, JSON uvalid reflectable H l = Ok a) <->
  exists fs, decode_entries uvalid reflectable l = Ok fs /\
    Forall (fun f => f_type f ∈ known_kinds) fs /\
    (length (of_kind k_fallback fs) <= 1)%nat /\ (length (of_kind k_receive fs) <= 1)%nat /\
    Forall (fun f => f_mut f = k_payable) (of_kind k_receive fs).
Proof.
  intros uvalid reflectable H l. unfold JSON, UnmarshalJSON.
  destruct (decode_entries uvalid reflectable l) as [fs| |]; cbn [rbind].
  - pose proof (add_accepts H fs zero_abi) as Ha. change (Abi _ _ _ _ _ _) with zero_abi.
    change (if HasFallback zero_abi then 0 else 1)%nat with 1%nat in Ha.
    change (if HasReceive zero_abi then 0 else 1)%nat with 1%nat in Ha. destruct (add_fields H zero_abi fs) as [a|].
    + split; [|by eauto]. intros _. exists fs. split; [done|]. by apply Ha.
    + split; [by intros [? ?]|]. intros (fs' & [= <-] & Hx). exfalso. by apply Ha in Hx.
  - split; [by intros [? ?]|]. by intros (? & ? & _).
  - split; [by intros [? ?]|]. by intros (? & ? & _).
Qed.
Print Assumptions C78_accepts.

(** What is read from the entries: one field for each, with all that the entry says. *)
Theorem C78_decoded : forall uvalid reflectable l fs,
  decode_entries uvalid reflectable l = Ok fs -> Forall2 (field_of uvalid reflectable) l fs.
Proof.
  intros uvalid reflectable.
  assert (forall l r, decode_list uvalid reflectable l = Ok r -> Forall2 (arg_of uvalid reflectable) l r) as Hl.
  { induction l as [|[[n t i cs] ix] l IH]; intros r E; cbn [decode_list] in E; [injection E as <-; constructor|].
    destruct (NewType uvalid reflectable t i cs) as [ty| |] eqn:Et; cbn [rbind] in E; try done.
    destruct (decode_list uvalid reflectable l) as [rest| |]; cbn [rbind] in E; try done. injection E as <-. constructor; [done|by apply IH]. }
  assert (forall o r, decode_args uvalid reflectable o = Ok r -> args_of uvalid reflectable o r) as Ho.
  { intros [l|] r E; cbn [decode_args] in E; [|by injection E as <-].
    destruct (decode_list uvalid reflectable l) as [rest| |] eqn:El; cbn [rbind] in E; try done. injection E as <-. by apply Hl. }
  induction l as [|e l IH]; intros fs E; cbn [decode_entries] in E; [injection E as <-; constructor|].
  unfold decode_entry in E.
  destruct (decode_args _ _ (e_inputs e)) as [ins| |] eqn:Ei; cbn [rbind] in E; try done.
  destruct (decode_args _ _ (e_outputs e)) as [outs| |] eqn:Eo; cbn [rbind] in E; try done.
  destruct (decode_entries _ _ l) as [fs'| |]; cbn [rbind] in E; try done. injection E as <-.
  constructor; [|by apply IH]. unfold field_of. cbn [f_type f_name f_in f_out f_mut f_const f_payable f_anon].
  split; [done|]. split; [done|]. split; [by apply Ho|]. split; [by apply Ho|]. done.
Qed.
Print Assumptions C78_decoded.

Lemma json_fields uvalid reflectable H l a : JSON uvalid reflectable H l = Ok a ->
  exists fs, decode_entries uvalid reflectable l = Ok fs /\ add_fields H zero_abi fs = Some a.
Proof.
  unfold JSON, UnmarshalJSON. destruct (decode_entries uvalid reflectable l) as [fs| |]; cbn [rbind]; try done.
  change (Abi _ _ _ _ _ _) with zero_abi. destruct (add_fields H zero_abi fs) as [a'|] eqn:E; [|done]. intros [= <-]. eauto.
Qed.

(** There is one method per function entry, and no other. They are named in order, each by
    its own name or, if an earlier one has that, by its name and the smallest free number;
    the signature and the id come from the name in the entry. *)
Theorem C78_methods : forall uvalid reflectable H l a, JSON uvalid reflectable H l = Ok a ->
  exists fs names, decode_entries uvalid reflectable l = Ok fs /\
    names_for [] (map f_name (of_kind k_function fs)) names /\ NoDup names /\
    length names = length (of_kind k_function fs) /\
    (forall n, is_Some (ab_methods a !! n) <-> n ∈ names) /\
    forall i f n, of_kind k_function fs !! i = Some f -> names !! i = Some n ->
      exists m, ab_methods a !! n = Some m /\ method_of H n f m.
Proof.
  intros uvalid reflectable H l a (fs & Hd & Ha)%json_fields.
  destruct (add_methods H fs zero_abi a [] Ha) as (names & H1 & H2 & _ & H4).
  { intros x. cbn. rewrite elem_of_nil, lookup_empty. split; [done|by intros [? ?]]. }
  exists fs, names. split; [done|]. split; [done|]. split; [by apply (names_fresh _ _ _ H1)|].
  split; [by rewrite (names_length _ _ _ H1), map_length|].
  split; [intros n; rewrite H2, elem_of_nil; tauto|].
  intros i f n Hf Hn. eexists. split; [by apply (H4 i)|]. unfold method_of, NewMethod. cbn. repeat split. apply sig_text_is.
Qed.
Print Assumptions C78_methods.

(** The same for events. *)
Theorem C78_events : forall uvalid reflectable H l a, JSON uvalid reflectable H l = Ok a ->
  exists fs names, decode_entries uvalid reflectable l = Ok fs /\
    names_for [] (map f_name (of_kind k_event fs)) names /\ NoDup names /\
    length names = length (of_kind k_event fs) /\
    (forall n, is_Some (ab_events a !! n) <-> n ∈ names) /\
    forall i f n, of_kind k_event fs !! i = Some f -> names !! i = Some n ->
      exists e, ab_events a !! n = Some e /\ event_of H n f e.
Proof.
  intros uvalid reflectable H l a (fs & Hd & Ha)%json_fields.
  destruct (add_events H fs zero_abi a [] Ha) as (names & H1 & H2 & _ & H4).
  { intros x. cbn. rewrite elem_of_nil, lookup_empty. split; [done|by intros [? ?]]. }
  exists fs, names. split; [done|]. split; [done|]. split; [by apply (names_fresh _ _ _ H1)|].
  split; [by rewrite (names_length _ _ _ H1), map_length|].
  split; [intros n; rewrite H2, elem_of_nil; tauto|].
  intros i f n Hf Hn. eexists. split; [by apply (H4 i)|]. unfold event_of, NewEvent. cbn. 
  split; [done|]. split; [done|]. split; [done|]. split; [apply sanitize_same|]. split; [apply sig_text_is|done].
Qed.
Print Assumptions C78_events.

(** An error is the last entry of its name. The constructor is the last one given. *)
Theorem C78_others : forall uvalid reflectable H l a, JSON uvalid reflectable H l = Ok a ->
  exists fs, decode_entries uvalid reflectable l = Ok fs /\
    (forall n, match last (filter (fun f => f_name f = n) (of_kind k_error fs)) with
               | Some f => exists e, ab_errors a !! n = Some e /\ error_of H f e
               | None => ab_errors a !! n = None
               end) /\
    match last (of_kind k_constructor fs) with
    | Some f => special_of FConstructor (f_in f) f (ab_constructor a)
    | None => ab_constructor a = zero_method
    end /\
    match of_kind k_fallback fs with
    | [f] => HasFallback a = true /\ special_of FFallback None f (ab_fallback a)
    | [] => HasFallback a = false
    | _ => False
    end /\
    match of_kind k_receive fs with
    | [f] => HasReceive a = true /\ special_of FReceive None f (ab_receive a)
    | [] => HasReceive a = false
    | _ => False
    end.
Proof.
  intros uvalid reflectable H l a (fs & Hd & Ha)%json_fields. exists fs. split; [done|]. split; [|split; [|split]].
  - intros n. pose proof (add_errors H fs _ _ Ha n) as E. destruct (last _) as [f|] eqn:El; [|by rewrite E].
    eexists. split; [exact E|]. unfold error_of, NewError. cbn. split; [done|]. split; [apply sanitize_same|]. split; [apply sig_text_is|done].
  - rewrite (add_constructor H fs _ _ Ha). destruct (last _) as [f|]; [|done]. repeat split.
  - destruct (add_fallback H fs _ _ Ha) as (_ & Hl & E). unfold HasFallback. rewrite E.
    destruct (of_kind k_fallback fs) as [|f [|g r]]; [done| |cbn in Hl; lia]. repeat split.
  - destruct (add_receive H fs _ _ Ha) as (_ & Hl & _ & E). unfold HasReceive. rewrite E.
    destruct (of_kind k_receive fs) as [|f [|g r]]; [done| |cbn in Hl; lia]. repeat split.
Qed.
Print Assumptions C78_others.

Lemma add_fields_app H fs1 fs2 : forall a, add_fields H a (fs1 ++ fs2) = match add_fields H a fs1 with Some a' => add_fields H a' fs2 | None => None end.
Proof. induction fs1 as [|f fs1 IH]; intros a; cbn [app add_fields]; [done|]. destruct (add_field H a f); [apply IH|done]. Qed.
Lemma decode_entries_app uvalid reflectable l1 l2 : decode_entries uvalid reflectable (l1 ++ l2) =
  rbind (decode_entries uvalid reflectable l1) (fun fs1 => rbind (decode_entries uvalid reflectable l2) (fun fs2 => Ok (fs1 ++ fs2))).
Proof.
  induction l1 as [|e l1 IH]; cbn [app decode_entries rbind]; [by destruct (decode_entries _ _ l2)|].
  destruct (decode_entry _ _ e) as [f| |]; cbn [rbind]; [|done|done]. rewrite IH.
  destruct (decode_entries _ _ l1) as [fs1| |]; cbn [rbind]; [|done|done]. by destruct (decode_entries _ _ l2).
Qed.
(** Entries added at the end leave every method and event as it was, under its name. *)
Theorem C78_stable : forall uvalid reflectable H l1 l2 a1 a, JSON uvalid reflectable H l1 = Ok a1 ->
  JSON uvalid reflectable H (l1 ++ l2) = Ok a ->
  (forall n m, ab_methods a1 !! n = Some m -> ab_methods a !! n = Some m) /\
  (forall n e, ab_events a1 !! n = Some e -> ab_events a !! n = Some e).
Proof.
  intros uvalid reflectable H l1 l2 a1 a (fs1 & Hd1 & Ha1)%json_fields (fs & Hd & Ha)%json_fields.
  rewrite decode_entries_app, Hd1 in Hd. cbn [rbind] in Hd.
  destruct (decode_entries uvalid reflectable l2) as [fs2| |]; try done. injection Hd as <-. rewrite add_fields_app, Ha1 in Ha.
  assert (forall A (m : gmap (list N) A) x, x ∈ (map_to_list m).*1 <-> is_Some (m !! x)) as Hk.
  { intros A m n. rewrite elem_of_list_fmap. split.
    - intros ([k v] & -> & Hin). apply elem_of_map_to_list in Hin. by exists v.
    - intros [v Hv]. exists (n, v). split; [done|]. by apply elem_of_map_to_list. }
  split.
  - destruct (add_methods H fs2 a1 a _ Ha (Hk _ _)) as (names & _ & _ & H3 & _). intros n m Hm. rewrite H3; [done|]. apply Hk. by eexists.
  - destruct (add_events H fs2 a1 a _ Ha (Hk _ _)) as (names & _ & _ & H3 & _). intros n m Hm. rewrite H3; [done|]. apply Hk. by eexists.
Qed.
Print Assumptions C78_stable.

(** Building panics only if a type description does. *)
Theorem C78_total : forall uvalid reflectable H l, (forall t, reflectable t = true) -> JSON uvalid reflectable H l <> Panic.
Proof.
  intros uvalid reflectable H l Hr.
  assert (forall l, decode_list uvalid reflectable l <> Panic) as Hl.
  { clear l. induction l as [|[[n t i cs] ix] l IH]; cbn [decode_list]; [done|].
    pose proof (C77_total uvalid reflectable t i cs Hr). destruct (NewType _ _ t i cs); cbn [rbind]; [|done|done].
    by destruct (decode_list _ _ l). }
  assert (forall o, decode_args uvalid reflectable o <> Panic) as Ho.
  { intros [o|]; cbn; [|done]. specialize (Hl o). by destruct (decode_list _ _ o). }
  assert (decode_entries uvalid reflectable l <> Panic) as Hd.
  { induction l as [|e l IH]; cbn [decode_entries]; [done|]. unfold decode_entry.
    pose proof (Ho (e_inputs e)). destruct (decode_args _ _ (e_inputs e)); cbn [rbind]; [|done|done].
    pose proof (Ho (e_outputs e)). destruct (decode_args _ _ (e_outputs e)); cbn [rbind]; [|done|done].
    by destruct (decode_entries _ _ l). }
  unfold JSON, UnmarshalJSON. destruct (decode_entries _ _ l); cbn [rbind]; [|done|done]. by destruct (add_fields _ _ _).
Qed.
Print Assumptions C78_total.

(** An ABI value that is read into again has the methods, events and errors of the new
    entries only. *)
Theorem C78_reuse : forall uvalid reflectable H a l a', UnmarshalJSON uvalid reflectable H a l = Ok a' ->
  exists b, JSON uvalid reflectable H l = Ok b /\
    ab_methods a' = ab_methods b /\ ab_events a' = ab_events b /\ ab_errors a' = ab_errors b.
Proof.
  intros uvalid reflectable H a l a'. unfold JSON, UnmarshalJSON. destruct (decode_entries uvalid reflectable l) as [fs| |]; cbn [rbind]; try done.
  assert (forall fs x y x', ab_methods x = ab_methods y -> ab_events x = ab_events y -> ab_errors x = ab_errors y ->
    (HasFallback y = true -> HasFallback x = true) -> (HasReceive y = true -> HasReceive x = true) ->
    add_fields H x fs = Some x' ->
    exists y', add_fields H y fs = Some y' /\ ab_methods x' = ab_methods y' /\ ab_events x' = ab_events y' /\ ab_errors x' = ab_errors y') as Hgo.
  { clear. induction fs as [|f fs IH]; intros x y x' Hm He Hr Hf Hc E; cbn [add_fields] in *; [injection E as <-; by exists y|].
    destruct x as [c ms es er fb rc], y as [c2 ms2 es2 er2 fb2 rc2]. cbn in Hm, He, Hr. subst ms2 es2 er2.
    unfold add_field in E |- *. unfold HasFallback, HasReceive in *. cbn [ab_fallback ab_receive] in *.
    repeat case_bool_decide; try done.
    - eapply IH; [..|exact E]; done.
    - destruct (ResolveNameConflict _ _ _); [|done]. eapply IH; [..|exact E]; done.
    - destruct (m_type fb), (m_type fb2); try done; try (eapply IH; [..|exact E]; done); by specialize (Hf eq_refl).
    - destruct (m_type rc), (m_type rc2); cbn [negb] in *; try done; try (eapply IH; [..|exact E]; done); by specialize (Hc eq_refl).
    - destruct (m_type rc), (m_type rc2); cbn [negb] in *; try done.
    - destruct (ResolveNameConflict _ _ _); [|done]. eapply IH; [..|exact E]; done.
    - eapply IH; [..|exact E]; done. }
  destruct (add_fields H (Abi (ab_constructor a) ∅ ∅ ∅ (ab_fallback a) (ab_receive a)) fs) as [x|] eqn:E; [|done]. intros [= <-].
  destruct (Hgo fs (Abi (ab_constructor a) ∅ ∅ ∅ (ab_fallback a) (ab_receive a)) zero_abi x eq_refl eq_refl eq_refl ltac:(done) ltac:(done) E) as (b & Hb & H1 & H2 & H3).
  exists b. change (Abi (ab_constructor zero_abi) ∅ ∅ ∅ (ab_fallback zero_abi) (ab_receive zero_abi)) with zero_abi. rewrite Hb. done.
Qed.
Print Assumptions C78_reuse.
(** Finding: an ABI value that is read into again keeps its constructor, and refuses a
    fallback if it had one. *)
Theorem C78_reuse_refuted : forall uvalid reflectable H,
  let fb := Entry k_fallback [] None None [] false false false in
  let co := Entry k_constructor [] (Some []) None [] false false false in
  exists a, JSON uvalid reflectable H [co; fb] = Ok a /\
    UnmarshalJSON uvalid reflectable H a [fb] = Err /\
    exists a', UnmarshalJSON uvalid reflectable H a [] = Ok a' /\ JSON uvalid reflectable H [] = Ok zero_abi /\
      m_in (ab_constructor a') <> m_in (ab_constructor zero_abi).
Proof. intros uvalid reflectable H. cbn zeta. eexists. split; [reflexivity|]. split; [reflexivity|]. eexists. split; [reflexivity|]. split; [reflexivity|]. done. Qed.
Print Assumptions C78_reuse_refuted.

(* --------------------------------------------------------------- call data *)
(** The values fit the arguments: their types are ABI types and the values are in range. *)
Definition fit (args : list argument) (ts : list aty) (vs : list val) : Prop :=
  types_of args = Ok ts /\ Forall (fun a => a_indexed a = false) args /\ Forall valid_type ts /\ Forall2 value_of ts vs.

Lemma not_indexed args : Forall (fun a => a_indexed a = false) args -> List.filter (fun a => negb (a_indexed a)) args = args.
Proof. induction 1 as [|a l Ha _ IH]; cbn; [done|]. by rewrite Ha, IH. Qed.
Lemma nonindexed_items o : items (NonIndexed o) = List.filter (fun a => negb (a_indexed a)) (items o).
Proof. unfold NonIndexed. by destruct (List.filter _ _). Qed.
Lemma fit_types o ts vs : fit (items o) ts vs -> types_of (items (NonIndexed o)) = Ok ts.
Proof. intros (H1 & H2 & _). by rewrite nonindexed_items, not_indexed. Qed.
Lemma fit_pack wb o ts vs : (0 < wb)%nat -> fit (items o) ts vs -> args_pack wb o vs = Ok (enc_args ts vs).
Proof. intros Hwb (H1 & H2 & H3 & H4). unfold args_pack. rewrite H1. cbn [rbind]. by apply C39_encoding. Qed.
Lemma fit_unpack wb o ts vs : (0 < wb)%nat -> fit (items o) ts vs -> (Z.of_nat (length (enc_args ts vs)) < 2 ^ 63)%Z ->
  args_unpack o (enc_args ts vs) = Ok vs.
Proof.
  intros Hwb Hf Hl. unfold args_unpack. rewrite (fit_types _ _ _ Hf). cbn [rbind]. destruct Hf as (H1 & H2 & H3 & H4).
  rewrite <- (app_nil_r (enc_args ts vs)). apply (C39_round_trip wb ts vs); [done..| |by rewrite app_nil_r|by right].
  by apply C39_encoding.
Qed.
Lemma find_first {A} (p : A -> bool) l : match List.find p l with Some x => x ∈ l /\ p x = true | None => forall x, x ∈ l -> p x = false end.
Proof.
  induction l as [|y l IH]; cbn; [by intros x ?%elem_of_nil|]. destruct (p y) eqn:E; [split; [by left|done]|].
  destruct (List.find p l); [destruct IH; split; [by right|done]|]. intros x [->|Hx]%elem_of_cons; [done|by apply IH].
Qed.
Lemma values_order {A} (m : gmap (list N) A) ms : ms ≡ₚ (map_to_list m).*2 -> forall x, x ∈ ms <-> exists n, m !! n = Some x.
Proof.
  intros Hp x. rewrite Hp, elem_of_list_fmap. split.
  - intros ([n v] & -> & Hin). exists n. by apply elem_of_map_to_list in Hin.
  - intros [n Hn]. exists (n, x). split; [done|]. by apply elem_of_map_to_list.
Qed.

(** MethodById finds a method whose id the data starts with, in whatever order the methods
    are visited, and fails only if there is none. *)
Theorem C78_method_by_id : forall (a : abi) ms data, ms ≡ₚ (map_to_list (ab_methods a)).*2 ->
  match MethodById ms data with
  | Ok m => (exists n, ab_methods a !! n = Some m) /\ (4 <= length data)%nat /\ m_id m = take 4 data
  | Err => (length data < 4)%nat \/ forall n m, ab_methods a !! n = Some m -> m_id m <> take 4 data
  | Panic => False
  end.
Proof.
  intros a ms data Hp. unfold MethodById. destruct (Nat.ltb_spec (length data) 4) as [Hl|Hl]; [by left|].
  pose proof (find_first (fun m => bool_decide (m_id m = take 4 data)) ms) as Hf.
  destruct (List.find _ ms) as [m|].
  - destruct Hf as [Hin Hb]. apply bool_decide_eq_true in Hb. split; [|done]. by apply (values_order _ _ Hp).
  - right. intros n m Hm E. specialize (Hf m). rewrite bool_decide_true in Hf by done.
    by discriminate Hf; apply (values_order _ _ Hp); eauto.
Qed.
Print Assumptions C78_method_by_id.
Theorem C78_event_by_id : forall (a : abi) es topic, es ≡ₚ (map_to_list (ab_events a)).*2 ->
  match EventByID es topic with
  | Ok e => (exists n, ab_events a !! n = Some e) /\ ev_id e = topic
  | Err => forall n e, ab_events a !! n = Some e -> ev_id e <> topic
  | Panic => False
  end.
Proof.
  intros a es topic Hp. unfold EventByID. pose proof (find_first (fun e => bool_decide (ev_id e = topic)) es) as Hf.
  destruct (List.find _ es) as [m|].
  - destruct Hf as [Hin Hb]. apply bool_decide_eq_true in Hb. split; [|done]. by apply (values_order _ _ Hp).
  - intros n m Hm E. specialize (Hf m). rewrite bool_decide_true in Hf by done.
    by discriminate Hf; apply (values_order _ _ Hp); eauto.
Qed.
Print Assumptions C78_event_by_id.

(** Two methods with one id have the same signature, unless the hash has a collision in its
    first four bytes on these two signatures; by C77 they then have the same name and the
    same argument types. *)
Theorem C78_ids : forall uvalid reflectable H l a n1 n2 m1 m2, JSON uvalid reflectable H l = Ok a ->
  ab_methods a !! n1 = Some m1 -> ab_methods a !! n2 = Some m2 ->
  (take 4 (H (m_sig m1)) = take 4 (H (m_sig m2)) -> m_sig m1 = m_sig m2) ->
  m_id m1 = m_id m2 -> m_sig m1 = m_sig m2.
Proof.
  intros uvalid reflectable H l a n1 n2 m1 m2 Ha H1 H2 Hinj E.
  destruct (C78_methods _ _ _ _ _ Ha) as (fs & names & _ & _ & _ & Hlen & Hdom & Hm).
  assert (forall n m, ab_methods a !! n = Some m -> m_id m = take 4 (H (m_sig m))) as Hid.
  { intros n m Hn. assert (n ∈ names) as Hin by (apply Hdom; by eexists). apply elem_of_list_lookup in Hin as (i & Hi).
    destruct (of_kind k_function fs !! i) as [f|] eqn:Ef.
    - destruct (Hm i f n Ef Hi) as (m' & Hm' & Hof). rewrite Hn in Hm'. injection Hm' as <-. apply Hof.
    - apply lookup_ge_None in Ef. apply lookup_lt_Some in Hi. lia. }
  rewrite (Hid _ _ H1), (Hid _ _ H2) in E. by apply Hinj.
Qed.
Print Assumptions C78_ids.

(** Calling a method by name: the data are its id and the encoding of the arguments; they
    are recognised as a call of a method with that id, of this very method if no other has
    the id; and the arguments are recovered from the data. *)
Theorem C78_call : forall uvalid reflectable H wb l a ms n m ts vs, (0 < wb)%nat -> (forall x, length (H x) = 32%nat) ->
  JSON uvalid reflectable H l = Ok a -> ms ≡ₚ (map_to_list (ab_methods a)).*2 ->
  n <> [] -> ab_methods a !! n = Some m -> fit (items (m_in m)) ts vs ->
  exists data shared, Pack wb a n vs = Ok (data, shared) /\
    data = take 4 (H (m_sig m)) ++ enc_args ts vs /\
    (exists m', MethodById ms data = Ok m' /\ m_id m' = m_id m) /\
    ((forall n' m', ab_methods a !! n' = Some m' -> m_id m' = m_id m -> n' = n) -> MethodById ms data = Ok m) /\
    ((Z.of_nat (length data) < 2 ^ 63)%Z -> args_unpack (m_in m) (drop 4 data) = Ok vs).
Proof.
  intros uvalid reflectable H wb l a ms n m ts vs Hwb HH Ha Hp Hn Hm Hf.
  assert (m_id m = take 4 (H (m_sig m))) as Hid.
  { destruct (C78_methods _ _ _ _ _ Ha) as (fs & names & _ & _ & _ & Hlen & Hdom & Hmm).
    assert (n ∈ names) as Hin by (apply Hdom; by eexists). apply elem_of_list_lookup in Hin as (i & Hi).
    destruct (of_kind k_function fs !! i) as [f|] eqn:Ef.
    - destruct (Hmm i f n Ef Hi) as (m' & Hm' & Hof). rewrite Hm in Hm'. injection Hm' as <-. apply Hof.
    - apply lookup_ge_None in Ef. apply lookup_lt_Some in Hi. lia. }
  assert (length (m_id m) = 4%nat) as Hl4 by (rewrite Hid, take_length, HH; done).
  exists (m_id m ++ enc_args ts vs), (length (m_id m) + length (enc_args ts vs) <=? 32)%nat.
  split.
  { unfold Pack. destruct n as [|c n]; [done|]. rewrite Hm. by rewrite (fit_pack _ _ _ _ Hwb Hf). }
  split; [by rewrite Hid|].
  assert (take 4 (m_id m ++ enc_args ts vs) = m_id m) as Et by (rewrite <- Hl4; apply take_app).
  assert (drop 4 (m_id m ++ enc_args ts vs) = enc_args ts vs) as Ed by (rewrite <- Hl4; apply drop_app).
  pose proof (C78_method_by_id a ms (m_id m ++ enc_args ts vs) Hp) as Hby.
  destruct (MethodById ms (m_id m ++ enc_args ts vs)) as [m'| |]; [|exfalso; destruct Hby as [Hby|Hby]; [rewrite app_length in Hby; lia|by apply (Hby n m Hm)]|done].
  destruct Hby as ((n' & Hn') & _ & E). rewrite Et in E. split; [by exists m'|]. split.
  - intros Hu. specialize (Hu n' m' Hn' E). subst n'. congruence.
  - intros Hl. rewrite Ed. rewrite app_length in Hl. apply (fit_unpack wb); [done|done|lia].
Qed.
Print Assumptions C78_call.

(** The data for the constructor, which is called by the empty name: the encoding alone, in
    memory of its own. *)
Theorem C78_constructor_call : forall wb a ts vs, (0 < wb)%nat -> fit (items (m_in (ab_constructor a))) ts vs ->
  Pack wb a [] vs = Ok (enc_args ts vs, false) /\
  ((Z.of_nat (length (enc_args ts vs)) < 2 ^ 63)%Z -> args_unpack (m_in (ab_constructor a)) (enc_args ts vs) = Ok vs).
Proof.
  intros wb a ts vs Hwb Hf. split; [unfold Pack; by rewrite (fit_pack _ _ _ _ Hwb Hf)|]. intros Hl. by apply (fit_unpack wb).
Qed.
Print Assumptions C78_constructor_call.

(** Finding: two function entries with the same signature (as inherited and overridden
    declarations give) make two methods with one id; which one MethodById returns depends on
    the order of map iteration, and they can differ in outputs and mutability. *)
Definition dup_entries : list entry :=
  let f mut := Entry k_function [102] (Some []) (Some []) mut false false false in [f k_payable; f []].
Theorem C78_ambiguous_refuted : forall uvalid reflectable H, (forall x, length (H x) = 32%nat) ->
  exists a ms1 ms2 data m1 m2, JSON uvalid reflectable H dup_entries = Ok a /\
    ms1 ≡ₚ (map_to_list (ab_methods a)).*2 /\ ms2 ≡ₚ (map_to_list (ab_methods a)).*2 /\
    Pack 8 a [102] [] = Ok (data, true) /\
    MethodById ms1 data = Ok m1 /\ MethodById ms2 data = Ok m2 /\ m_mut m1 = k_payable /\ m_mut m2 = [].
Proof.
  intros uvalid reflectable H HH. eexists.
  set (mA := NewMethod H [102] [102] FFunction k_payable false false (Some []) (Some [])).
  set (mB := NewMethod H [102; 48] [102] FFunction [] false false (Some []) (Some [])).
  exists [mA; mB], [mB; mA], (m_id mA), mA, mB.
  assert (length (m_id mA) = 4%nat) as Hl by (unfold mA; cbn [NewMethod m_id]; rewrite take_length, HH; done).
  assert (JSON uvalid reflectable H dup_entries =
    Ok (Abi zero_method (<[[102; 48] := mB]> (<[[102] := mA]> ∅)) ∅ ∅ zero_method zero_method)) as Ej by reflexivity.
  split; [exact Ej|]. cbn [ab_methods].
  assert ([mA; mB] ≡ₚ (map_to_list (<[[102; 48] := mB]> (<[[102] := mA]> (∅ : gmap (list N) method)))).*2) as Hp.
  { rewrite map_to_list_insert by (by rewrite lookup_insert_ne, lookup_empty). rewrite map_to_list_insert by apply lookup_empty.
    rewrite map_to_list_empty. cbn. constructor. }
  split; [done|]. split; [by rewrite <- Hp; constructor|].
  split.
  { unfold Pack. cbn [ab_methods]. rewrite lookup_insert_ne, lookup_insert by done.
    unfold args_pack, mA at 1. cbn [NewMethod m_in items default types_of rbind id]. cbn [AbiModel.Pack length Nat.eqb].
    change (rbind _ _) with (Ok (go_append 32 (m_id mA) [])). unfold go_append. rewrite app_nil_r, Hl. done. }
  unfold MethodById. rewrite Hl. cbn [Nat.ltb Nat.leb List.find]. rewrite take_ge by lia.
  rewrite !bool_decide_true by done. done.
Qed.
Print Assumptions C78_ambiguous_refuted.

(** Finding: the data of a call without arguments share memory with the method's id: a
    caller that writes into them changes the id, and later calls with it. All other call
    data are memory of their own. *)
Theorem C78_shared_iff : forall uvalid reflectable H wb l a n vs data shared, (forall x, length (H x) = 32%nat) ->
  JSON uvalid reflectable H l = Ok a -> n <> [] -> Pack wb a n vs = Ok (data, shared) ->
  (shared = true <-> (length data <= 32)%nat).
Proof.
  intros uvalid reflectable H wb l a n vs data shared HH Ha Hn. unfold Pack. destruct n as [|c n]; [done|].
  destruct (ab_methods a !! (c :: n)) as [m|]; [|done].
  destruct (args_pack wb (m_in m) vs) as [b| |]; cbn [rbind]; [|done|done]. unfold go_append. intros [= <- <-].
  rewrite app_length. apply Nat.leb_le.
Qed.
Print Assumptions C78_shared_iff.
Theorem C78_shared_refuted : forall uvalid reflectable H, (forall x, length (H x) = 32%nat) -> 
  exists a r, JSON uvalid reflectable H [Entry k_function [102] (Some []) (Some []) [] false false false] = Ok a /\
    Pack 8 a [102] [] = Ok r /\
    forall x, x <> hd 0 r.1 -> exists r', Pack 8 (store a [102] r 0 x).1 [102] [] = Ok r' /\ r'.1 <> r.1.
Proof.
  intros uvalid reflectable H HH.
  set (mA := NewMethod H [102] [102] FFunction [] false false (Some []) (Some [])).
  exists (Abi zero_method (<[[102] := mA]> ∅) ∅ ∅ zero_method zero_method), (m_id mA, true).
  assert (length (m_id mA) = 4%nat) as Hl by (unfold mA; cbn [NewMethod m_id]; rewrite take_length, HH; done).
  split; [reflexivity|]. split.
  { unfold Pack. cbn [ab_methods]. rewrite lookup_insert. unfold args_pack, mA at 1. 
    change (rbind _ _) with (Ok (go_append 32 (m_id mA) [])). unfold go_append. by rewrite app_nil_r, Hl. }
  intros x Hx. cbn [fst] in *. exists (<[0%nat := x]> (m_id mA), true). split.
  - unfold store. cbn [snd ab_methods fst]. rewrite lookup_insert. unfold Pack. cbn [ab_methods fst]. rewrite lookup_insert.
    cbn [m_in]. unfold args_pack. change (rbind _ _) with (Ok (go_append 32 (<[0%nat := x]> (m_id mA)) [])).
    unfold go_append. by rewrite app_nil_r, insert_length, Hl.
  - cbn [fst]. destruct (m_id mA) as [|y r]; [done|]. cbn in *. congruence.
Qed.
Print Assumptions C78_shared_refuted.

(* -------------------------------------------------------- results and maps *)
Lemma enc_whole ts vs : Forall valid_type ts -> Forall2 value_of ts vs -> (length (enc_args ts vs) mod 32 = 0)%nat.
Proof.
  intros Hv Ho. destruct ts as [|t0 ts0]; [by inversion Ho|]. set (ts := t0 :: ts0) in *. assert (valid_type (TTuple ts)) as Ht by (by apply valid_tuple).
  assert (value_of (TTuple ts) (VTuple vs)) as Hov by (by constructor).
  destruct (enc_length (TTuple ts) (VTuple vs) Ht Hov) as [_ [k Hk]]. unfold enc_args. rewrite Hk.
  rewrite (Nat.mul_comm 32 k). apply Nat.mod_mul. lia.
Qed.
Lemma enc_empty ts vs : Forall valid_type ts -> Forall2 value_of ts vs -> enc_args ts vs = [] -> ts = [].
Proof.
  intros Hv Ho E. destruct ts as [|t ts]; [done|]. exfalso.
  pose proof (parts_length (t :: ts) vs (fields_lengths _ _ Hv Ho)) as [Hh _].
  assert (length (enc_args (t :: ts) vs) = 0%nat) as E0 by (by rewrite E).
  unfold enc_args in E0. rewrite enc_tuple, layout_length, Hh in E0. cbn [map] in E0. rewrite sum_cons in E0.
  apply Forall_cons in Hv as [Hv _]. pose proof (valid_words _ Hv). lia.
Qed.

(** Results: Unpack by the name of a method reads what PackReturns wrote, provided the entry
    lists its outputs and no event has that name. *)
Theorem C78_returns : forall wb a n m outs ts vs, (0 < wb)%nat -> n <> [] ->
  ab_methods a !! n = Some m -> ab_events a !! n = None -> m_out m = Some outs -> fit outs ts vs ->
  (Z.of_nat (length (enc_args ts vs)) < 2 ^ 63)%Z ->
  PackReturns wb a n vs = Ok (enc_args ts vs) /\ Unpack a n (enc_args ts vs) = Ok vs.
Proof.
  intros wb a n m outs ts vs Hwb Hn Hm He Ho Hf Hl. split.
  - unfold PackReturns. destruct n as [|c n]; [done|]. rewrite Hm, Ho. by apply fit_pack.
  - unfold Unpack, getArguments. rewrite Hm, He, Ho. destruct Hf as (F1 & F2 & F3 & F4).
    rewrite (enc_whole _ _ F3 F4). cbn [Nat.eqb negb rbind]. apply (fit_unpack wb); done.
Qed.
Print Assumptions C78_returns.
(** Events: Unpack by the name of an event reads what PackEventArgs wrote, the values of the
    arguments that are not indexed. *)
Theorem C78_event_args : forall wb a n e ins ts vs, (0 < wb)%nat ->
  ab_events a !! n = Some e -> ab_methods a !! n = None -> ev_in e = Some ins ->
  fit (List.filter (fun x => negb (a_indexed x)) ins) ts vs -> ts <> [] ->
  (Z.of_nat (length (enc_args ts vs)) < 2 ^ 63)%Z ->
  PackEventArgs wb a n vs = Ok (enc_args ts vs) /\ Unpack a n (enc_args ts vs) = Ok vs.
Proof.
  intros wb a n e ins ts vs Hwb He Hm Hi Hf Hne Hl.
  assert (NonIndexed (Some ins) = Some (List.filter (fun x => negb (a_indexed x)) ins)) as En.
  { unfold NonIndexed. change (items (Some ins)) with ins. destruct (List.filter _ ins) eqn:E; [|done].
    destruct Hf as (F1 & _). cbn in F1. congruence. }
  split.
  - unfold PackEventArgs. rewrite He, Hi, En. by apply fit_pack.
  - unfold Unpack, getArguments. rewrite Hm, He, Hi. cbn [rbind]. unfold args_unpack. rewrite En.
    change (items (Some ?x)) with x. destruct Hf as (F1 & F2 & F3 & F4). rewrite F1. cbn [rbind].
    rewrite <- (app_nil_r (enc_args ts vs)). apply (C39_round_trip wb ts vs); [done..| |by rewrite app_nil_r|by right].
    by apply C39_encoding.
Qed.
Print Assumptions C78_event_args.

Lemma put_values_spec args : forall vs v, length args = length vs -> NoDup (map a_name args) ->
  (forall i x y, args !! i = Some x -> vs !! i = Some y -> put_values v args vs !! a_name x = Some y) /\
  (forall k, k ∉ map a_name args -> put_values v args vs !! k = v !! k).
Proof.
  induction args as [|x args IH]; intros [|y vs] v Hl Hnd; try done; cbn [put_values map] in *.
  inversion Hnd as [|? ? Hx Hnd']; subst. destruct (IH vs (<[a_name x := y]> v)) as [I1 I2]; [by injection Hl|done|]. split.
  - intros [|i] x' y' Hi Hy; cbn in Hi, Hy.
    + injection Hi as <-. injection Hy as <-. rewrite I2 by done. apply lookup_insert.
    + by apply (I1 i).
  - intros k Hk. rewrite I2 by (intros Hk'; apply Hk; by right). apply lookup_insert_ne. intros <-. apply Hk. by left.
Qed.
Lemma fit_map wb o ts vs v : (0 < wb)%nat -> fit (items o) ts vs -> ts <> [] -> NoDup (map a_name (items o)) ->
  (Z.of_nat (length (enc_args ts vs)) < 2 ^ 63)%Z ->
  enc_args ts vs <> [] /\ (length (enc_args ts vs) mod 32 = 0)%nat /\
  exists v', UnpackIntoMap o (Some v) (enc_args ts vs) = Ok v' /\
    (forall i x y, items o !! i = Some x -> vs !! i = Some y -> v' !! a_name x = Some y) /\
    (forall k, k ∉ map a_name (items o) -> v' !! k = v !! k).
Proof.
  intros Hwb Hf Hne Hnd Hl.
  pose proof (fit_types _ _ _ Hf) as Ht. pose proof (fit_unpack wb _ _ _ Hwb Hf Hl) as Hu. pose proof Hf as (F1 & F2 & F3 & F4).
  split; [by intros E; apply enc_empty in E|]. split; [by apply enc_whole|].
  exists (put_values v (items o) vs). split.
  - unfold UnpackIntoMap. destruct (enc_args ts vs) as [|c r] eqn:E; [by apply enc_empty in E|].
    unfold args_unpack in Hu. rewrite Ht in Hu |- *. cbn [rbind] in *. cbn [AbiModel.Unpack] in Hu. rewrite Hu. cbn [rbind].
    by rewrite nonindexed_items, not_indexed.
  - apply put_values_spec; [|done].
    assert (length (items o) = length ts) as ->; [|by eapply Forall2_length].
    clear -F1. revert ts F1. induction (items o) as [|x l IH]; intros ts F1; cbn in F1; [by injection F1 as <-|].
    destruct (erase (a_typ x)); [|done]. destruct (types_of l) as [ts'| |]; cbn in F1; try done. injection F1 as <-. cbn. by rewrite (IH ts').
Qed.
(** Arguments read into a map, when there are some and their names differ: each is under its
    name and the rest of the map is as before. *)
Theorem C78_input_map : forall wb a n m ts vs v, (0 < wb)%nat -> n <> [] ->
  ab_methods a !! n = Some m -> fit (items (m_in m)) ts vs -> ts <> [] -> NoDup (map a_name (items (m_in m))) ->
  (Z.of_nat (length (enc_args ts vs)) < 2 ^ 63)%Z ->
  PackInputWithoutID wb a n vs = Ok (enc_args ts vs) /\
  exists v', InputUnpack a (Some v) n (enc_args ts vs) = Ok v' /\
    (forall i x y, items (m_in m) !! i = Some x -> vs !! i = Some y -> v' !! a_name x = Some y) /\
    (forall k, k ∉ map a_name (items (m_in m)) -> v' !! k = v !! k).
Proof.
  intros wb a n m ts vs v Hwb Hn Hm Hf Hne Hnd Hl. split.
  { unfold PackInputWithoutID. destruct n as [|c n]; [done|]. rewrite Hm. by apply fit_pack. }
  destruct (fit_map wb _ _ _ v Hwb Hf Hne Hnd Hl) as (E & Ew & v' & Hv & Hr). exists v'. split; [|done].
  unfold InputUnpack. destruct (enc_args ts vs) as [|c r]; [done|]. rewrite Ew. cbn [Nat.eqb negb]. by rewrite Hm.
Qed.
Print Assumptions C78_input_map.
(** The same for results. *)
Theorem C78_returns_map : forall wb a n m ts vs v, (0 < wb)%nat -> n <> [] ->
  ab_methods a !! n = Some m -> fit (items (m_out m)) ts vs -> ts <> [] -> NoDup (map a_name (items (m_out m))) ->
  (Z.of_nat (length (enc_args ts vs)) < 2 ^ 63)%Z ->
  PackReturns wb a n vs = Ok (enc_args ts vs) /\
  exists v', UnpackReturnsMap a (Some v) n (enc_args ts vs) = Ok v' /\
    (forall i x y, items (m_out m) !! i = Some x -> vs !! i = Some y -> v' !! a_name x = Some y) /\
    (forall k, k ∉ map a_name (items (m_out m)) -> v' !! k = v !! k).
Proof.
  intros wb a n m ts vs v Hwb Hn Hm Hf Hne Hnd Hl. split.
  { unfold PackReturns. destruct n as [|c n]; [done|]. rewrite Hm. by apply fit_pack. }
  destruct (fit_map wb _ _ _ v Hwb Hf Hne Hnd Hl) as (E & Ew & v' & Hv & Hr). exists v'. split; [|done].
  unfold UnpackReturnsMap. destruct (enc_args ts vs) as [|c r]; [done|]. rewrite Ew. cbn [Nat.eqb negb]. by rewrite Hm.
Qed.
Print Assumptions C78_returns_map.
(** What is refused: a nil map; no data when there is an argument to read; data that are not
    whole words; names of no method. No data and nothing to read leave the map as it is. *)
Theorem C78_map_refuses : forall a o v n data,
  UnpackIntoMap o None data = Err /\
  UnpackIntoMap o (Some v) [] = (if existsb (fun x => negb (a_indexed x)) (items o) then Err else Ok v) /\
  (forall w, (length data mod 32 <> 0)%nat \/ data = [] \/ ab_methods a !! n = None ->
     InputUnpack a w n data = Err /\ UnpackReturnsMap a w n data = Err) /\
  InputUnpack a None n data = Err /\ UnpackReturnsMap a None n data = Err.
Proof.
  intros a o v n data. split; [done|]. split; [|split].
  - unfold UnpackIntoMap. rewrite nonindexed_items. induction (items o) as [|x l IH]; cbn [List.filter existsb]; [done|].
    destruct (a_indexed x); cbn [negb orb]; [exact IH|done].
  - intros w Hw. unfold InputUnpack, UnpackReturnsMap. destruct data as [|c d]; [done|].
    destruct (Nat.eqb_spec (length (c :: d) mod 32) 0) as [E|E]; cbn [negb]; [|done].
    destruct Hw as [Hw|[Hw|Hw]]; [done|done|]. by rewrite Hw.
  - unfold InputUnpack, UnpackReturnsMap. destruct data as [|c d]; [done|]. destruct (negb _); [done|].
    by destruct (ab_methods a !! n).
Qed.
Print Assumptions C78_map_refuses.

Definition ty_bool : typ := Typ BoolTy 0 s_bool None [] [] [] [].
Definition ty_string : typ := Typ StringTy 0 s_string None [] [] [] [].
Definition one_method (ins outs : arguments) : abi :=
  Abi zero_method {[ [102] := Method [102] [102] FFunction [] false false ins outs [] [] ]} ∅ ∅ zero_method zero_method.

(** Findings: an event shadows the method of the same name: its results are read as the
    event's arguments. *)
Theorem C78_shadow_refuted : forall ins outs e data, (length data mod 32 = 0)%nat -> ev_in e <> None ->
  let a := Abi zero_method (ab_methods (one_method ins outs)) {[ [102] := e ]} ∅ zero_method zero_method in
  getArguments a [102] data = Ok (ev_in e).
Proof.
  intros ins outs e data Hd He. unfold getArguments, one_method. cbn [ab_methods ab_events]. rewrite !lookup_singleton, Hd. cbn.
  by destruct (ev_in e).
Qed.
Print Assumptions C78_shadow_refuted.
(** A method whose entry lists no outputs cannot be found by Unpack, though Pack finds it. *)
Theorem C78_no_outputs_refuted : forall ins,
  Unpack (one_method ins None) [102] [] = Err /\ PackReturns 8 (one_method ins None) [102] [] = Ok [].
Proof. intros ins. split; vm_compute; reflexivity. Qed.
Print Assumptions C78_no_outputs_refuted.
(** The packed arguments of a method without any, and the packed results of one without any,
    are refused by InputUnpack and UnpackReturnsMap. *)
Theorem C78_empty_refuted : forall v,
  PackInputWithoutID 8 (one_method (Some []) (Some [])) [102] [] = Ok [] /\ InputUnpack (one_method (Some []) (Some [])) v [102] [] = Err /\
  PackReturns 8 (one_method (Some []) (Some [])) [102] [] = Ok [] /\ UnpackReturnsMap (one_method (Some []) (Some [])) v [102] [] = Err.
Proof. intros v. repeat split; vm_compute; reflexivity. Qed.
Print Assumptions C78_empty_refuted.
(** Of several arguments without a name only the last is in the map. *)
Theorem C78_unnamed_refuted : forall b1 b2,
  let a := one_method (Some [Argument [] ty_bool false; Argument [] ty_bool false]) None in
  exists data v, PackInputWithoutID 8 a [102] [VBool b1; VBool b2] = Ok data /\
    InputUnpack a (Some ∅) [102] data = Ok v /\ map_to_list v = [([], VBool b2)].
Proof.
  intros b1 b2. cbn zeta. destruct b1, b2; do 2 eexists; (split; [vm_compute; reflexivity|]); (split; [vm_compute; reflexivity|]); vm_compute; reflexivity.
Qed.
Print Assumptions C78_unnamed_refuted.
(** An event whose arguments are all indexed has no data to pack, and PackEventArgs says so
    with an error instead of packing nothing. *)
Theorem C78_event_pack_refuted : forall wb a n e ins, ab_events a !! n = Some e -> ev_in e = Some ins ->
  Forall (fun x => a_indexed x = true) ins -> PackEventArgs wb a n [] = Err.
Proof.
  intros wb a n e ins He Hi Hf. unfold PackEventArgs. rewrite He, Hi. unfold NonIndexed. change (items (Some ins)) with ins.
  assert (List.filter (fun x => negb (a_indexed x)) ins = []) as ->; [|done].
  clear Hi. induction Hf as [|x l Hx _ IH]; cbn; [done|]. by rewrite Hx.
Qed.
Print Assumptions C78_event_pack_refuted.

(* ------------------------------------------------------- reverts and errors *)
Lemma sel_split (s d : list N) : length s = 4%nat -> take 4 (s ++ d) = s /\ drop 4 (s ++ d) = d.
Proof. intros E. rewrite <- E. split; [apply take_app|apply drop_app]. Qed.
(** UnpackRevert returns the reason exactly of data that are the selector and an encoding
    that reads as one string; it never panics; and it inverts the encoding. *)
Theorem C78_revert : forall H, (forall x, length (H x) = 32%nat) ->
  (forall data s, UnpackRevert H data = Ok s <->
     exists d, data = take 4 (H revert_sig) ++ d /\ AbiModel.Unpack [TString] d = Ok [VString s]) /\
  (forall data, is_bytes data -> UnpackRevert H data <> Panic) /\
  (forall s, is_bytes s -> (Z.of_nat (length (enc_args [TString] [VString s])) < 2 ^ 63)%Z ->
     UnpackRevert H (take 4 (H revert_sig) ++ enc_args [TString] [VString s]) = Ok s).
Proof.
  intros H HH. assert (length (take 4 (H revert_sig)) = 4%nat) as H4 by (rewrite take_length, HH; done).
  assert (forall d vs, AbiModel.Unpack [TString] d = Ok vs -> exists s, vs = [VString s]) as Hshape.
  { intros d vs E. unfold AbiModel.Unpack in E. destruct d as [|c d]; [done|]. unfold UnpackValues in E. cbn in E.
    destruct (_ <? _)%Z; [done|]. destruct (lengthPrefixPointsTo _ _) as [[b len]| |]; cbn in E; try done.
    destruct (sl _ _ _) as [s| |]; cbn in E; try done. injection E as <-. by exists s. }
  assert (forall d, UnpackRevert H (take 4 (H revert_sig) ++ d) =
    rbind (AbiModel.Unpack [TString] d) (fun vs => match vs with VString s :: _ => Ok s | _ => Panic end)) as Hd.
  { intros d. unfold UnpackRevert, revertSelector. rewrite app_length, H4. cbn [Nat.add Nat.ltb Nat.leb].
    destruct (sel_split _ d H4) as [-> ->]. by rewrite bool_decide_true. }
  assert (forall data, UnpackRevert H data <> Err -> exists d, data = take 4 (H revert_sig) ++ d) as Hsel.
  { intros data. unfold UnpackRevert, revertSelector. destruct (Nat.ltb_spec (length data) 4); [done|].
    destruct (bool_decide_reflect (take 4 data = take 4 (H revert_sig))) as [E|E]; [|done]. intros _. exists (drop 4 data). by rewrite <- E, take_drop. }
  split; [|split].
  - intros data s. split.
    + intros E. destruct (Hsel data) as [d ->]; [by rewrite E|]. exists d. split; [done|]. rewrite Hd in E.
      destruct (AbiModel.Unpack [TString] d) as [vs| |] eqn:Eu; cbn in E; try done. destruct (Hshape _ _ Eu) as [s' ->]. congruence.
    + intros (d & -> & E). by rewrite Hd, E.
  - intros data Hb E. destruct (Hsel data) as [d ->]; [by rewrite E|]. rewrite Hd in E.
    pose proof (C40_unpack_total [TString] d ltac:(repeat constructor)) as Ht.
    destruct (AbiModel.Unpack [TString] d) as [vs| |] eqn:Eu; cbn in E; try done.
    + destruct (Hshape _ _ Eu) as [s ->]. done.
    + apply Ht. apply Forall_app in Hb. apply Hb.
  - intros s Hs Hl. rewrite Hd. rewrite <- (app_nil_r (enc_args _ _)).
    rewrite (C39_round_trip 8 [TString] [VString s] (enc_args [TString] [VString s]) []); [done|lia|by repeat constructor|by repeat constructor| |by rewrite app_nil_r|by right].
    apply C39_encoding; [lia|by repeat constructor|by repeat constructor].
Qed.
Print Assumptions C78_revert.
(** The same for the errors of the ABI. *)
Theorem C78_error : forall H e ts vs d, (forall x, length (H x) = 32%nat) -> er_id e = H (er_sig e) ->
  (Error_Unpack e d <> Err -> exists d', d = take 4 (H (er_sig e)) ++ d' /\ Error_Unpack e d = args_unpack (er_in e) d') /\
  (fit (items (er_in e)) ts vs -> (Z.of_nat (length (enc_args ts vs)) < 2 ^ 63)%Z ->
   Error_Unpack e (take 4 (H (er_sig e)) ++ enc_args ts vs) = Ok vs).
Proof.
  intros H e ts vs d HH He. assert (length (take 4 (H (er_sig e))) = 4%nat) as H4 by (rewrite take_length, HH; done).
  assert (forall d, Error_Unpack e (take 4 (H (er_sig e)) ++ d) = args_unpack (er_in e) d) as Hd.
  { intros x. unfold Error_Unpack. rewrite app_length, H4. cbn [Nat.add Nat.ltb Nat.leb]. rewrite He.
    destruct (sel_split _ x H4) as [-> ->]. by rewrite bool_decide_true. }
  split.
  - intros Hne. assert (exists d', d = take 4 (H (er_sig e)) ++ d') as [d' ->]; [|exists d'; split; [done|apply Hd]].
    unfold Error_Unpack in Hne. destruct (Nat.ltb_spec (length d) 4); [done|].
    destruct (bool_decide_reflect (take 4 d = take 4 (er_id e))) as [E|E]; [|done]. exists (drop 4 d). by rewrite <- He, <- E, take_drop.
  - intros Hf Hl. rewrite Hd. by apply (fit_unpack 8); [lia| |].
Qed.
Print Assumptions C78_error.

(* ------------------------------------------------------------------ example *)
(** f(bool), f(string) and an event f: the second method is f0, and a call of it is found. *)
Definition ex_entries : list entry :=
  [Entry k_function [102] (Some [(AM [97] s_bool [] [], false)]) (Some []) [] false false false;
   Entry k_event [102] (Some [(AM [] s_bool [] [], true); (AM [98] s_bool [] [], false)]) None [] false false false;
   Entry k_function [102] (Some [(AM [97] s_string [] [], false)]) (Some [(AM [] s_bool [] [], false)]) [] false false false;
   Entry k_receive [] None None k_payable false false false].
Example C78_example :
  match JSON (fun _ => true) (fun _ => true) (fun s => be_fixed 4 (be_num s mod 251) ++ replicate 28 0) ex_entries with
  | Ok a =>
      bool_decide (is_Some (ab_methods a !! [102])) && bool_decide (is_Some (ab_methods a !! [102; 48])) &&
      bool_decide (is_Some (ab_events a !! [102])) && HasReceive a && negb (HasFallback a) &&
      match Pack 8 a [102; 48] [VString [104; 105]] with
      | Ok (data, shared) =>
          negb shared && (length data =? 100)%nat &&
          match MethodById (map_to_list (ab_methods a)).*2 data with
          | Ok m => bool_decide (m_name m = [102; 48]) && match args_unpack (m_in m) (drop 4 data) with Ok [VString s] => bool_decide (s = [104; 105]) | _ => false end
          | _ => false
          end
      | _ => false
      end &&
      match ab_events a !! [102] with Some e => bool_decide (map a_name (items (ev_in e)) = [k_arg ++ [48]; [98]]) | None => false end
  | _ => false
  end = true.
Proof. vm_compute. reflexivity. Qed.
Example C78_fit_example : fit [Argument [97] ty_string false] [TString] [VString [104; 105]].
Proof. split; [reflexivity|]. split; [repeat constructor|]. split; repeat constructor. Qed.
