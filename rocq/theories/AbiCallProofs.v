(** Lemmas for C78. *)
From Coq Require Import NArith ZArith Lia Zify.
From stdpp Require Import list gmap.
From Verif Require Import Base AbiModel AbiSelModel AbiSelProps AbiTypeModel AbiCallModel AbiCallSpec.
Global Open Scope N_scope.

Lemma resolve_loop_ext raw u1 u2 : (forall s, u1 s = u2 s) -> forall fuel i, resolve_loop fuel i raw u1 = resolve_loop fuel i raw u2.
Proof. intros E fuel. induction fuel as [|fuel IH]; intros i; cbn; [done|]. by rewrite E, IH. Qed.
Lemma resolve_ext raw u1 u2 fuel : (forall s, u1 s = u2 s) -> ResolveNameConflict fuel raw u1 = ResolveNameConflict fuel raw u2.
Proof. intros E. unfold ResolveNameConflict. rewrite E. by rewrite (resolve_loop_ext raw u1 u2 E). Qed.

Lemma resolve_map {A} (m : gmap (list N) A) (used : list (list N)) raw :
  (forall n, n ∈ used <-> is_Some (m !! n)) ->
  exists r, ResolveNameConflict (size m) raw (fun s => bool_decide (is_Some (m !! s))) = Some r /\ fresh_name used raw r.
Proof.
  intros Hu. set (ks := (map_to_list m).*1).
  assert (Hk : forall n, n ∈ ks <-> is_Some (m !! n)).
  { intros n. unfold ks. rewrite elem_of_list_fmap. split.
    - intros ([k v] & -> & Hin). apply elem_of_map_to_list in Hin. by exists v.
    - intros [v Hv]. exists (n, v). split; [done|]. by apply elem_of_map_to_list. }
  destruct (C45_fresh ks raw) as (r & H1 & H2 & H3 & H4). exists r. split.
  - rewrite (resolve_ext raw _ (fun s => bool_decide (s ∈ ks))).
    + apply H1. unfold ks. rewrite fmap_length. unfold size, map_size. done.
    + intros s. apply bool_decide_ext. symmetry. apply Hk.
  - split; [|split].
    + rewrite Hu, <- Hk. done.
    + rewrite Hu, <- Hk. done.
    + rewrite Hu, <- Hk. intros Hin. destruct (H4 Hin) as (k & -> & Hj). exists k. split; [done|]. intros j Hl. rewrite Hu, <- Hk. by apply Hj.
Qed.

Lemma fresh_unique used raw n n' : fresh_name used raw n -> fresh_name used raw n' -> n = n'.
Proof.
  intros (A1 & A2 & A3) (B1 & B2 & B3). destruct (decide (raw ∈ used)) as [Hin|Hout]; [|by rewrite A2, B2].
  destruct (A3 Hin) as (k & -> & Hk). destruct (B3 Hin) as (k' & -> & Hk').
  destruct (Nat.lt_trichotomy k k') as [Hl|[->|Hl]]; [|done|].
  - exfalso. apply A1. by apply Hk'.
  - exfalso. apply B1. by apply Hk.
Qed.
Lemma names_unique raws : forall used names names', names_for used raws names -> names_for used raws names' -> names = names'.
Proof.
  induction raws as [|r raws IH]; intros used names names' H1 H2; inversion H1; inversion H2; subst; [done|].
  assert (n = n0) as -> by (by eapply fresh_unique). f_equal. by eapply IH.
Qed.
Lemma names_length used raws names : names_for used raws names -> length names = length raws.
Proof. induction 1; cbn; congruence. Qed.
Lemma names_fresh used raws names : names_for used raws names -> NoDup names /\ forall n, n ∈ names -> n ∉ used.
Proof.
  induction 1 as [used|used raw n raws names Hf Hn [IH1 IH2]]; [split; [constructor|by intros n ?%elem_of_nil]|].
  split.
  - constructor; [|done]. intros Hin. apply (IH2 n Hin). by left.
  - intros x [->|Hx]%elem_of_cons; [apply Hf|]. intros Hu. apply (IH2 x Hx). by right.
Qed.
Lemma names_prefix raws1 raws2 : forall used names, names_for used (raws1 ++ raws2) names ->
  exists names1 names2, names = names1 ++ names2 /\ names_for used raws1 names1.
Proof.
  induction raws1 as [|r raws1 IH]; intros used names Hn; [exists [], names; split; [done|constructor]|].
  inversion Hn; subst. destruct (IH _ _ H3) as (n1 & n2 & -> & Hn1). exists (n :: n1), n2. split; [done|]. by constructor.
Qed.

Lemma sanitize_lookup l : forall k i, sanitize k l !! i =
  (fun a => if bool_decide (a_name a = []) then Argument (k_arg ++ decimal (k + i)) (a_typ a) (a_indexed a) else a) <$> (l !! i).
Proof.
  induction l as [|a l IH]; intros k [|i]; cbn [sanitize]; try done.
  - cbn [lookup list_lookup fmap option_fmap option_map]. by rewrite Nat.add_0_r.
  - cbn [lookup list_lookup]. rewrite IH. by rewrite Nat.add_succ_comm.
Qed.
Lemma sanitize_length l : forall k, length (sanitize k l) = length l.
Proof. induction l as [|a l IH]; intros k; cbn; [done|]. by rewrite IH. Qed.
Lemma sanitize_same o : same_arguments o (option_map (sanitize 0) o).
Proof.
  destruct o as [l|]; cbn [option_map items default]; unfold same_arguments; cbn [items default].
  - change (default [] (Some l)) with l. change (id l) with l. change (id (sanitize 0 l)) with (sanitize 0 l).
    split; [done|]. split; [by rewrite sanitize_length|]. intros i a Hi. rewrite sanitize_lookup, Hi. cbn. eexists. split; [reflexivity|].
    destruct (bool_decide_reflect (a_name a = [])) as [E|E]; cbn; repeat split; done.
  - repeat split; try done.
Qed.

Lemma sig_text_is name args : is_signature name args (sig_text name args).
Proof. unfold is_signature, sig_text, signature. by rewrite map_map. Qed.

Section reads.
  Context (H : list N -> list N).
  Notation add_field := (add_field H). Notation add_fields := (add_fields H).

  Definition known (f : field) : Prop := f_type f ∈ known_kinds.

  Ltac kinds f :=
    destruct (bool_decide_reflect (f_type f = k_constructor)) as [Ek|Nk1];
    [|destruct (bool_decide_reflect (f_type f = k_function)) as [Ek|Nk2];
      [|destruct (bool_decide_reflect (f_type f = k_fallback)) as [Ek|Nk3];
        [|destruct (bool_decide_reflect (f_type f = k_receive)) as [Ek|Nk4];
          [|destruct (bool_decide_reflect (f_type f = k_event)) as [Ek|Nk5];
            [|destruct (bool_decide_reflect (f_type f = k_error)) as [Ek|Nk6]]]]]].

  Lemma kind_cons k f fs : of_kind k (f :: fs) = if decide (f_type f = k) then f :: of_kind k fs else of_kind k fs.
  Proof. unfold of_kind. by rewrite filter_cons. Qed.

  (** What one entry does, by kind. *)
  Lemma add_field_kind a f a' : add_field a f = Some a' ->
    f_type f = k_constructor /\ a' = Abi (NewMethod H [] [] FConstructor (f_mut f) (f_const f) (f_payable f) (f_in f) None) (ab_methods a) (ab_events a) (ab_errors a) (ab_fallback a) (ab_receive a) \/
    f_type f = k_function /\ (exists n, (forall used, (forall x, x ∈ used <-> is_Some (ab_methods a !! x)) -> fresh_name used (f_name f) n) /\
      a' = Abi (ab_constructor a) (<[n := NewMethod H n (f_name f) FFunction (f_mut f) (f_const f) (f_payable f) (f_in f) (f_out f)]> (ab_methods a)) (ab_events a) (ab_errors a) (ab_fallback a) (ab_receive a)) \/
    f_type f = k_fallback /\ HasFallback a = false /\ a' = Abi (ab_constructor a) (ab_methods a) (ab_events a) (ab_errors a) (NewMethod H [] [] FFallback (f_mut f) (f_const f) (f_payable f) None None) (ab_receive a) \/
    f_type f = k_receive /\ HasReceive a = false /\ f_mut f = k_payable /\ a' = Abi (ab_constructor a) (ab_methods a) (ab_events a) (ab_errors a) (ab_fallback a) (NewMethod H [] [] FReceive (f_mut f) (f_const f) (f_payable f) None None) \/
    f_type f = k_event /\ (exists n, (forall used, (forall x, x ∈ used <-> is_Some (ab_events a !! x)) -> fresh_name used (f_name f) n) /\
      a' = Abi (ab_constructor a) (ab_methods a) (<[n := NewEvent H n (f_name f) (f_anon f) (f_in f)]> (ab_events a)) (ab_errors a) (ab_fallback a) (ab_receive a)) \/
    f_type f = k_error /\ a' = Abi (ab_constructor a) (ab_methods a) (ab_events a) (<[f_name f := NewError H (f_name f) (f_in f)]> (ab_errors a)) (ab_fallback a) (ab_receive a).
  Proof.
    destruct a as [c ms es er fb rc]. unfold AbiCallModel.add_field. cbn [ab_constructor ab_methods ab_events ab_errors ab_fallback ab_receive].
    kinds f; intros E.
    - left. split; [done|]. congruence.
    - right; left. split; [done|].
      destruct (ResolveNameConflict _ _ _) as [n|] eqn:En; [|done]. exists n. split; [|congruence].
      intros used Hu. destruct (resolve_map ms used (f_name f) Hu) as (r & Hr & Hf). congruence.
    - do 2 right; left. split; [done|]. destruct (HasFallback _) eqn:Hb; [done|]. split; [done|]. congruence.
    - do 3 right; left. split; [done|]. destruct (HasReceive _) eqn:Hb; [done|]. split; [done|].
      destruct (bool_decide_reflect (f_mut f = k_payable)); [|done]. split; [done|]. cbn in E. congruence.
    - do 4 right; left. split; [done|].
      destruct (ResolveNameConflict _ _ _) as [n|] eqn:En; [|done]. exists n. split; [|congruence].
      intros used Hu. destruct (resolve_map es used (f_name f) Hu) as (r & Hr & Hf). congruence.
    - do 5 right. split; [done|]. congruence.
    - done.
  Qed.
  Lemma add_field_ok a f : add_field a f <> None <->
    known f /\ (f_type f = k_fallback -> HasFallback a = false) /\
    (f_type f = k_receive -> HasReceive a = false /\ f_mut f = k_payable).
  Proof.
    destruct a as [c ms es er fb rc]. unfold AbiCallModel.add_field, known, known_kinds. rewrite !elem_of_cons, elem_of_nil.
    kinds f.
    - rewrite Ek. split; [|done]. intros _. split; [by left|]. split; intros E; discriminate E.
    - rewrite Ek. destruct (resolve_map ms (map_to_list ms).*1 (f_name f)) as (r & -> & _).
      { intros n. rewrite elem_of_list_fmap. split.
        - intros ([k v] & -> & Hin). apply elem_of_map_to_list in Hin. by exists v.
        - intros [v Hv]. exists (n, v). split; [done|]. by apply elem_of_map_to_list. }
      split; [|done]. intros _. split; [tauto|]. split; intros E; discriminate E.
    - rewrite Ek. destruct (HasFallback _) eqn:Hb.
      + split; [done|]. intros (_ & Hx & _). by specialize (Hx eq_refl).
      + split; [|done]. intros _. split; [tauto|]. split; [done|]. intros E; discriminate E.
    - rewrite Ek. destruct (HasReceive _) eqn:Hb.
      + split; [done|]. intros (_ & _ & Hx). by specialize (Hx eq_refl) as [? _].
      + destruct (bool_decide_reflect (f_mut f = k_payable)) as [Em|Em]; cbn.
        * split; [|done]. intros _. split; [tauto|]. split; [intros E; discriminate E|done].
        * split; [done|]. intros (_ & _ & Hx). by specialize (Hx eq_refl) as [_ ?].
    - rewrite Ek. destruct (resolve_map es (map_to_list es).*1 (f_name f)) as (r & -> & _).
      { intros n. rewrite elem_of_list_fmap. split.
        - intros ([k v] & -> & Hin). apply elem_of_map_to_list in Hin. by exists v.
        - intros [v Hv]. exists (n, v). split; [done|]. by apply elem_of_map_to_list. }
      split; [|done]. intros _. split; [tauto|]. split; intros E; discriminate E.
    - rewrite Ek. split; [|done]. intros _. split; [tauto|]. split; intros E; discriminate E.
    - split; [done|]. intros (Hk & _). tauto.
  Qed.

  Ltac skip := first [rewrite decide_False by (intros E'; congruence) | rewrite decide_True by congruence].

  Lemma add_methods fs : forall a a' used, add_fields a fs = Some a' ->
    (forall x, x ∈ used <-> is_Some (ab_methods a !! x)) ->
    exists names, names_for used (map f_name (of_kind k_function fs)) names /\
      (forall n, is_Some (ab_methods a' !! n) <-> n ∈ used \/ n ∈ names) /\
      (forall n, n ∈ used -> ab_methods a' !! n = ab_methods a !! n) /\
      (forall i f n, of_kind k_function fs !! i = Some f -> names !! i = Some n ->
         ab_methods a' !! n = Some (NewMethod H n (f_name f) FFunction (f_mut f) (f_const f) (f_payable f) (f_in f) (f_out f))).
  Proof.
    induction fs as [|f fs IH]; intros a a' used E Hu; cbn [AbiCallModel.add_fields] in E.
    - injection E as <-. exists []. split; [constructor|]. split; [intros n; rewrite <- Hu, elem_of_nil; tauto|]. split; [done|].
      intros i f n Hf. done.
    - destruct (add_field a f) as [a1|] eqn:E1; [|done]. apply add_field_kind in E1. rewrite !kind_cons.
      destruct (decide (f_type f = k_function)) as [Ek|Nk].
      + destruct E1 as [[Ex _]|[[_ (n & Hf & ->)]|[[Ex _]|[[Ex _]|[[Ex _]|[Ex _]]]]]]; try (rewrite Ek in Ex; discriminate Ex).
        specialize (Hf used Hu).
        destruct (IH _ _ (n :: used) E) as (names & H1 & H2 & H3 & H4).
        { intros x. cbn [ab_methods]. rewrite elem_of_cons, Hu. destruct (decide (x = n)) as [->|Hne].
          - rewrite lookup_insert. split; [by eexists|by left].
          - rewrite lookup_insert_ne by done. tauto. }
        exists (n :: names). split; [cbn [map]; by constructor|]. split; [|split].
        * intros x. rewrite H2, !elem_of_cons. tauto.
        * intros x Hx. rewrite H3 by (by right). cbn [ab_methods]. apply lookup_insert_ne. intros ->. by apply (proj1 Hf).
        * intros [|i] g x Hg Hx; cbn [lookup list_lookup] in Hg, Hx.
          -- injection Hg as <-. injection Hx as <-. rewrite H3 by (by left). cbn [ab_methods]. apply lookup_insert.
          -- by apply (H4 i).
      + assert (ab_methods a1 = ab_methods a) as Em.
        { destruct E1 as [[_ ->]|[[Ex _]|[[_ [_ ->]]|[[_ (_ & _ & ->)]|[[_ (? & _ & ->)]|[_ ->]]]]]]; done. }
        rewrite <- Em in *. by apply (IH a1 a' used).
  Qed.
  Lemma add_events fs : forall a a' used, add_fields a fs = Some a' ->
    (forall x, x ∈ used <-> is_Some (ab_events a !! x)) ->
    exists names, names_for used (map f_name (of_kind k_event fs)) names /\
      (forall n, is_Some (ab_events a' !! n) <-> n ∈ used \/ n ∈ names) /\
      (forall n, n ∈ used -> ab_events a' !! n = ab_events a !! n) /\
      (forall i f n, of_kind k_event fs !! i = Some f -> names !! i = Some n ->
         ab_events a' !! n = Some (NewEvent H n (f_name f) (f_anon f) (f_in f))).
  Proof.
    induction fs as [|f fs IH]; intros a a' used E Hu; cbn [AbiCallModel.add_fields] in E.
    - injection E as <-. exists []. split; [constructor|]. split; [intros n; rewrite <- Hu, elem_of_nil; tauto|]. split; [done|].
      intros i f n Hf. done.
    - destruct (add_field a f) as [a1|] eqn:E1; [|done]. apply add_field_kind in E1. rewrite !kind_cons.
      destruct (decide (f_type f = k_event)) as [Ek|Nk].
      + destruct E1 as [[Ex _]|[[Ex _]|[[Ex _]|[[Ex _]|[[_ (n & Hf & ->)]|[Ex _]]]]]]; try (rewrite Ek in Ex; discriminate Ex).
        specialize (Hf used Hu).
        destruct (IH _ _ (n :: used) E) as (names & H1 & H2 & H3 & H4).
        { intros x. cbn [ab_events]. rewrite elem_of_cons, Hu. destruct (decide (x = n)) as [->|Hne].
          - rewrite lookup_insert. split; [by eexists|by left].
          - rewrite lookup_insert_ne by done. tauto. }
        exists (n :: names). split; [cbn [map]; by constructor|]. split; [|split].
        * intros x. rewrite H2, !elem_of_cons. tauto.
        * intros x Hx. rewrite H3 by (by right). cbn [ab_events]. apply lookup_insert_ne. intros ->. by apply (proj1 Hf).
        * intros [|i] g x Hg Hx; cbn [lookup list_lookup] in Hg, Hx.
          -- injection Hg as <-. injection Hx as <-. rewrite H3 by (by left). cbn [ab_events]. apply lookup_insert.
          -- by apply (H4 i).
      + assert (ab_events a1 = ab_events a) as Em.
        { destruct E1 as [[_ ->]|[[_ (? & _ & ->)]|[[_ [_ ->]]|[[_ (_ & _ & ->)]|[[Ex _]|[_ ->]]]]]]; done. }
        rewrite <- Em in *. by apply (IH a1 a' used).
  Qed.
  Lemma add_errors fs : forall a a', add_fields a fs = Some a' -> forall n,
    ab_errors a' !! n = match last (filter (fun f => f_name f = n) (of_kind k_error fs)) with
                        | Some f => Some (NewError H (f_name f) (f_in f))
                        | None => ab_errors a !! n
                        end.
  Proof.
    induction fs as [|f fs IH]; intros a a' E n; cbn [AbiCallModel.add_fields] in E; [by injection E as <-|].
    destruct (add_field a f) as [a1|] eqn:E1; [|done]. apply add_field_kind in E1. rewrite kind_cons, (IH a1 a' E n).
    destruct (decide (f_type f = k_error)) as [Ek|Nk].
    - destruct E1 as [[Ex _]|[[Ex _]|[[Ex _]|[[Ex _]|[[Ex _]|[_ ->]]]]]]; try (rewrite Ek in Ex; discriminate Ex).
      rewrite filter_cons. cbn [ab_errors]. destruct (decide (f_name f = n)) as [E0|Hne].
      + rewrite last_cons. destruct (last _); [done|]. rewrite <- E0. by rewrite lookup_insert.
      + by rewrite lookup_insert_ne.
    - replace (ab_errors a1) with (ab_errors a); [done|].
      destruct E1 as [[_ ->]|[[_ (? & _ & ->)]|[[_ [_ ->]]|[[_ (_ & _ & ->)]|[[_ (? & _ & ->)]|[Ex _]]]]]]; done.
  Qed.
  Lemma add_constructor fs : forall a a', add_fields a fs = Some a' ->
    ab_constructor a' = match last (of_kind k_constructor fs) with
                        | Some f => NewMethod H [] [] FConstructor (f_mut f) (f_const f) (f_payable f) (f_in f) None
                        | None => ab_constructor a
                        end.
  Proof.
    induction fs as [|f fs IH]; intros a a' E; cbn [AbiCallModel.add_fields] in E; [by injection E as <-|].
    destruct (add_field a f) as [a1|] eqn:E1; [|done]. apply add_field_kind in E1. rewrite kind_cons, (IH a1 a' E).
    destruct (decide (f_type f = k_constructor)) as [Ek|Nk].
    - destruct E1 as [[_ ->]|[[Ex _]|[[Ex _]|[[Ex _]|[[Ex _]|[Ex _]]]]]]; try (rewrite Ek in Ex; discriminate Ex).
      rewrite last_cons. by destruct (last _).
    - destruct E1 as [[Ex _]|[[_ (? & _ & ->)]|[[_ [_ ->]]|[[_ (_ & _ & ->)]|[[_ (? & _ & ->)]|[_ ->]]]]]]; done.
  Qed.
  Lemma add_fallback fs : forall a a', add_fields a fs = Some a' ->
    (HasFallback a = true -> of_kind k_fallback fs = []) /\ (length (of_kind k_fallback fs) <= 1)%nat /\
    ab_fallback a' = match of_kind k_fallback fs with
                     | f :: _ => NewMethod H [] [] FFallback (f_mut f) (f_const f) (f_payable f) None None
                     | [] => ab_fallback a
                     end.
  Proof.
    induction fs as [|f fs IH]; intros a a' E; cbn [AbiCallModel.add_fields] in E; [injection E as <-; cbn; split; [done|]; split; [lia|done]|].
    destruct (add_field a f) as [a1|] eqn:E1; [|done]. apply add_field_kind in E1. rewrite kind_cons. destruct (IH a1 a' E) as (I1 & I2 & I3).
    destruct (decide (f_type f = k_fallback)) as [Ek|Nk].
    - destruct E1 as [[Ex _]|[[Ex _]|[[_ [Hf ->]]|[[Ex _]|[[Ex _]|[Ex _]]]]]]; try (rewrite Ek in Ex; discriminate Ex).
      rewrite (I1 eq_refl) in *. split; [congruence|]. split; [cbn; lia|]. exact I3.
    - assert (ab_fallback a1 = ab_fallback a) as Ef.
      { destruct E1 as [[_ ->]|[[_ (? & _ & ->)]|[[Ex _]|[[_ (_ & _ & ->)]|[[_ (? & _ & ->)]|[_ ->]]]]]]; done. }
      unfold HasFallback in *. rewrite Ef in *. done.
  Qed.
  Lemma add_receive fs : forall a a', add_fields a fs = Some a' ->
    (HasReceive a = true -> of_kind k_receive fs = []) /\ (length (of_kind k_receive fs) <= 1)%nat /\
    Forall (fun f => f_mut f = k_payable) (of_kind k_receive fs) /\
    ab_receive a' = match of_kind k_receive fs with
                    | f :: _ => NewMethod H [] [] FReceive (f_mut f) (f_const f) (f_payable f) None None
                    | [] => ab_receive a
                    end.
  Proof.
    induction fs as [|f fs IH]; intros a a' E; cbn [AbiCallModel.add_fields] in E; [injection E as <-; cbn; split; [done|]; split; [lia|]; split; [constructor|done]|].
    destruct (add_field a f) as [a1|] eqn:E1; [|done]. apply add_field_kind in E1. rewrite kind_cons. destruct (IH a1 a' E) as (I1 & I2 & I3 & I4).
    destruct (decide (f_type f = k_receive)) as [Ek|Nk].
    - destruct E1 as [[Ex _]|[[Ex _]|[[Ex _]|[[_ (Hf & Hm & ->)]|[[Ex _]|[Ex _]]]]]]; try (rewrite Ek in Ex; discriminate Ex).
      rewrite (I1 eq_refl) in *. split; [congruence|]. split; [cbn; lia|]. split; [by constructor|]. exact I4.
    - assert (ab_receive a1 = ab_receive a) as Ef.
      { destruct E1 as [[_ ->]|[[_ (? & _ & ->)]|[[_ [_ ->]]|[[Ex _]|[[_ (? & _ & ->)]|[_ ->]]]]]]; done. }
      unfold HasReceive in *. rewrite Ef in *. done.
  Qed.

  (** When the entries are accepted. *)
  Lemma add_accepts fs : forall a, add_fields a fs <> None <->
    Forall known fs /\
    (length (of_kind k_fallback fs) <= (if HasFallback a then 0 else 1))%nat /\
    (length (of_kind k_receive fs) <= (if HasReceive a then 0 else 1))%nat /\
    Forall (fun f => f_mut f = k_payable) (of_kind k_receive fs).
  Proof.
    induction fs as [|f fs IH]; intros a; cbn [AbiCallModel.add_fields].
    { split; [|done]. intros _. cbn. split; [constructor|]. split; [lia|]. split; [lia|constructor]. }
    destruct (add_field a f) as [a1|] eqn:E1.
    - rewrite IH, Forall_cons, !kind_cons.
      assert (add_field a f <> None) as Hok by congruence. apply add_field_ok in Hok as (Hk & _).
      apply add_field_kind in E1.
      destruct E1 as [[Ek ->]|[[Ek (? & _ & ->)]|[[Ek [Hf ->]]|[[Ek (Hf & Hm & ->)]|[[Ek (? & _ & ->)]|[Ek ->]]]]]]; rewrite Ek in *;
        repeat first [rewrite decide_True by done | rewrite decide_False by (intros E'; discriminate E')];
        unfold HasFallback, HasReceive in *; cbn [ab_fallback ab_receive NewMethod m_type length] in *; try tauto.
      + rewrite Hf. rewrite <- Nat.succ_le_mono. tauto.
      + rewrite Hf, Forall_cons. rewrite <- Nat.succ_le_mono. tauto.
    - split; [done|]. intros (A1 & A2 & A3 & A4). apply Forall_cons in A1 as [A1 _]. rewrite !kind_cons in A2, A3, A4.
      exfalso. assert (add_field a f <> None); [|done]. apply add_field_ok. split; [done|]. split.
      + intros Ek. rewrite decide_True in A2 by done. cbn in A2. destruct (HasFallback a); [lia|done].
      + intros Ek. rewrite decide_True in A3, A4 by done. cbn in A3. apply Forall_cons in A4 as [A4 _]. destruct (HasReceive a); [lia|done].
  Qed.
End reads.
