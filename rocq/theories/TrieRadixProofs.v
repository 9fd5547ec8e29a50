(** Pure facts about radix trees: well-formedness, lookup, uniqueness, and the
    radix tree of a finite map. *)
From Verif Require Export TrieBaseProofs.

Section radix.
Context {V : Type}.
Implicit Types (U : list N -> Prop) (r c : radix V) (ch : list (option (radix V))) (es : list (list N * V)).

(* ------------------------------------------------- induction principle *)
Section ind.
Context (P : radix V -> Prop)
  (Hnode : forall pre ch v, (forall i c, ch !! i = Some (Some c) -> P c) -> P (Radix pre ch v)).
Lemma radix_ind' : forall r, P r.
Proof.
  fix IH 1. intros [pre ch v]. apply Hnode.
  induction ch as [|o ch IHch]; intros i c Hi; [destruct i; discriminate Hi|].
  destruct i as [|i]; [|exact (IHch i c Hi)].
  destruct o as [c'|]; [|discriminate Hi]. cbn in Hi. injection Hi as <-. exact (IH c').
Qed.
End ind.

(* --------------------------------------------------------------- lookup *)
Fixpoint rlook (r : radix V) (k : list N) {struct r} : option V :=
  match r with
  | Radix pre ch v =>
      match strip pre k with
      | None => None
      | Some [] => v
      | Some (i :: rest) =>
          (fix go (l : list (option (radix V))) (j : nat) : option V :=
             match l, j with
             | [], _ => None
             | o :: _, O => match o with Some c => rlook c rest | None => None end
             | _ :: l', S j' => go l' j'
             end) ch (N.to_nat i)
      end
  end.
Lemma rlook_eq pre ch v k : rlook (Radix pre ch v) k =
  match strip pre k with
  | None => None
  | Some [] => v
  | Some (i :: rest) => match nth (N.to_nat i) ch None with Some c => rlook c rest | None => None end
  end.
Proof.
  cbn [rlook]. destruct (strip pre k) as [[|i rest]|]; try done.
  generalize (N.to_nat i) as j. induction ch as [|o ch IH]; intros [|j]; try done. apply IH.
Qed.

Lemma strip_app p k : strip p (p ++ k) = Some k.
Proof. induction p; cbn; [done|]. by rewrite N.eqb_refl. Qed.
Lemma strip_Some p k s : strip p k = Some s <-> k = p ++ s.
Proof.
  split; [|intros ->; apply strip_app].
  revert k. induction p as [|x p IH]; intros k; cbn; [by intros [= ->]|].
  destruct k as [|y k]; [done|]. destruct (N.eqb_spec x y); [|done]. intros Hs. subst. f_equal. auto.
Qed.
Lemma strip_None p k : strip p k = None <-> ~ p `prefix_of` k.
Proof.
  split.
  - intros Hn [s ->]. by rewrite strip_app in Hn.
  - intros Hn. destruct (strip p k) as [s|] eqn:Hs; [|done]. apply strip_Some in Hs. destruct Hn. by exists s.
Qed.

(* -------------------------------------------------------- well-formedness *)
(** [wfr U r]: r is the canonical radix tree of a set of keys within [U]:
    values only at leaves, every inner node has two children at least. *)
Inductive wfr : (list N -> Prop) -> radix V -> Prop :=
| wfr_leaf (U : list N -> Prop) pre x : U pre -> is_nibbles pre -> wfr U (Radix pre (replicate 16 None) (Some x))
| wfr_branch (U : list N -> Prop) pre ch :
    length ch = 16%nat -> is_nibbles pre ->
    (exists i j, i <> j /\ (exists c, ch !! i = Some (Some c)) /\ (exists c, ch !! j = Some (Some c))) ->
    (forall i c, ch !! i = Some (Some c) -> wfr (fun s => U (pre ++ N.of_nat i :: s)) c) ->
    wfr U (Radix pre ch None).

Lemma wfr_ext U U' r : (forall k, U k -> U' k) -> wfr U r -> wfr U' r.
Proof.
  intros HU Hw. revert U' HU. induction Hw as [U pre x Hx Hn|U pre ch Hl Hn H2 Hc IH]; intros U' HU.
  - constructor; auto.
  - econstructor; eauto.
Qed.

Lemma lookup_nth_some ch i c : nth i ch None = Some c <-> ch !! i = Some (Some c).
Proof.
  split.
  - intros Hn. destruct (ch !! i) as [o|] eqn:Ho.
    + apply (nth_lookup_Some _ _ None) in Ho. congruence.
    + rewrite (nth_overflow ch) in Hn; [done|]. by apply lookup_ge_None in Ho.
  - intros Ho. by apply (nth_lookup_Some _ _ None) in Ho.
Qed.

(** Every well-formed tree holds a key. *)
Lemma wfr_inhabited U r : wfr U r -> exists k x, U k /\ is_nibbles k /\ rlook r k = Some x.
Proof.
  induction 1 as [U pre x Hx Hn|U pre ch Hl Hn (i&_&_&(c&Hi)&_) Hc IH].
  - exists pre, x. rewrite rlook_eq. rewrite <- (app_nil_r pre) at 4. rewrite strip_app. done.
  - destruct (IH i c Hi) as (k&x&HU&Hk&Hx). exists (pre ++ N.of_nat i :: k), x. split; [done|]. split.
    { apply Forall_app. split; [done|]. constructor; [|done].
      apply lookup_lt_Some in Hi. lia. }
    rewrite rlook_eq, strip_app, Nat2N.id.
    apply lookup_nth_some in Hi. by rewrite Hi.
Qed.
Lemma nth_repl_None (j : nat) : nth j (replicate 16 (@None (radix V))) None = None.
Proof.
  destruct (decide (j < 16)%nat).
  - by rewrite nth_lookup, lookup_replicate_2.
  - apply nth_overflow. rewrite replicate_length. lia.
Qed.
Lemma wfr_in U r k x : wfr U r -> rlook r k = Some x -> U k /\ is_nibbles k.
Proof.
  intros Hw. revert k. induction Hw as [U pre y Hx Hn|U pre ch Hl Hn H2 Hc IH]; intros k; rewrite rlook_eq.
  - destruct (strip pre k) as [s|] eqn:Hs; [|done]. apply strip_Some in Hs as ->.
    destruct s as [|i s]; [by rewrite app_nil_r|]. by rewrite nth_repl_None.
  - destruct (strip pre k) as [s|] eqn:Hs; [|done]. apply strip_Some in Hs as ->.
    destruct s as [|i s]; [done|]. destruct (nth _ ch None) as [c|] eqn:Hi; [|done].
    intros Hk. apply lookup_nth_some in Hi. destruct (IH _ _ Hi _ Hk) as [HU HN]. rewrite N2Nat.id in HU.
    split; [done|]. apply Forall_app. split; [done|]. constructor; [|done]. apply lookup_lt_Some in Hi. lia.
Qed.

Lemma prefix_free_sub U p i : prefix_free U -> prefix_free (fun s => U (p ++ i :: s)).
Proof.
  intros HU a b Ha Hb Hp. pose proof (HU _ _ Ha Hb) as He.
  feed specialize He; [by apply prefix_app, prefix_cons|]. by simplify_eq.
Qed.

(** With a prefix-free universe the empty suffix is only at a bare leaf. *)
Lemma wfr_nil U pre ch v : prefix_free U -> U [] -> wfr U (Radix pre ch v) ->
  pre = [] /\ is_Some v /\ ch = replicate 16 None.
Proof.
  intros HU H0 Hw. destruct (wfr_inhabited _ _ Hw) as (k&x&Hk&_&Hl).
  assert (k = []) as -> by (symmetry; apply HU; [done..|apply prefix_nil]).
  inversion Hw; subst.
  - split; [|by eauto]. symmetry. apply HU; [done..|apply prefix_nil].
  - rewrite rlook_eq in Hl. destruct (strip pre []) as [s|] eqn:Hs; [|done].
    apply strip_Some in Hs. destruct pre; [|done]. cbn in Hs. by subst.
Qed.

(** Uniqueness: trees with the same entries are equal. *)

Lemma rlook_prefix pre ch v k x : rlook (Radix pre ch v) k = Some x -> pre `prefix_of` k.
Proof.
  rewrite rlook_eq. destruct (strip pre k) as [s|] eqn:Hs; [|done].
  apply strip_Some in Hs as ->. intros _. by exists s.
Qed.

Lemma wfr_two U pre ch : prefix_free U -> wfr U (Radix pre ch None) ->
  exists i j k1 k2 x1 x2, i <> j /\
    rlook (Radix pre ch None) (pre ++ i :: k1) = Some x1 /\ rlook (Radix pre ch None) (pre ++ j :: k2) = Some x2.
Proof.
  intros HU Hw. inversion Hw as [|U' pre' ch' Hl Hn (i&j&Hij&(c&Hi)&(c'&Hj)) Hc]; subst.
  destruct (wfr_inhabited _ _ (Hc _ _ Hi)) as (k1&x1&_&_&H1).
  destruct (wfr_inhabited _ _ (Hc _ _ Hj)) as (k2&x2&_&_&H2).
  exists (N.of_nat i), (N.of_nat j), k1, k2, x1, x2. split; [lia|].
  rewrite !rlook_eq, !strip_app, !Nat2N.id.
  apply lookup_nth_some in Hi as ->. apply lookup_nth_some in Hj as ->. done.
Qed.

Lemma wfr_prefix_le U pre ch v pre' ch' v' : prefix_free U ->
  wfr U (Radix pre ch v) -> wfr U (Radix pre' ch' v') ->
  (forall k, rlook (Radix pre ch v) k = rlook (Radix pre' ch' v') k) -> pre' `prefix_of` pre.
Proof.
  intros HU Hw Hw' He. destruct v as [x|].
  - assert (Hk : rlook (Radix pre ch (Some x)) pre = Some x).
    { rewrite rlook_eq. rewrite <- (app_nil_r pre) at 2. by rewrite strip_app. }
    rewrite He in Hk. by apply rlook_prefix in Hk.
  - destruct (wfr_two _ _ _ HU Hw) as (i&j&k1&k2&x1&x2&Hij&H1&H2).
    rewrite He in H1, H2. apply rlook_prefix in H1, H2.
    clear -H1 H2 Hij. revert pre' H1 H2. induction pre as [|y pre IH]; intros pre' H1 H2.
    + destruct pre' as [|z pre']; [apply prefix_nil|]. cbn in H1, H2.
      apply prefix_cons_inv_1 in H1, H2. congruence.
    + destruct pre' as [|z pre']; [apply prefix_nil|]. cbn in H1, H2.
      pose proof (prefix_cons_inv_1 _ _ _ _ H1) as ->.
      apply prefix_cons. eapply IH; by eapply prefix_cons_inv_2.
Qed.

Lemma wfr_unique U r : wfr U r -> forall r', prefix_free U -> wfr U r' ->
  (forall k, rlook r k = rlook r' k) -> r = r'.
Proof.
  intros Hw. induction Hw as [U pre x Hx Hn|U pre ch Hl Hn H2 Hc IH]; intros [pre' ch' v'] HU Hw' He.
  - assert (Hp : pre = pre').
    { apply (anti_symm prefix).
      - eapply wfr_prefix_le; [done|exact Hw'|by constructor|done].
      - eapply wfr_prefix_le; [done|by constructor|exact Hw'|done]. }
    subst pre'. specialize (He pre) as Hek. rewrite !rlook_eq in Hek.
    rewrite <- (app_nil_r pre) in Hek at 2 4. rewrite strip_app in Hek.
    subst v'. inversion Hw'; subst. done.
  - assert (Hp : pre = pre').
    { apply (anti_symm prefix).
      - eapply wfr_prefix_le; [done|exact Hw'|by econstructor|done].
      - eapply wfr_prefix_le; [done|by econstructor|exact Hw'|done]. }
    subst pre'. inversion Hw' as [U' pre' x' HU' Hn'|U' pre' ch'' Hl' Hn' H2' Hc']; subst.
    { specialize (He pre). rewrite !rlook_eq in He.
      rewrite <- (app_nil_r pre) in He at 2 4. rewrite strip_app in He. done. }
    f_equal. apply list_eq. intros i.
    destruct (decide (i < 16)%nat) as [Hi|Hi].
    2:{ rewrite !lookup_ge_None_2 by lia. done. }
    destruct (lookup_lt_is_Some_2 ch i) as [o Ho]; [lia|].
    destruct (lookup_lt_is_Some_2 ch' i) as [o' Ho']; [lia|].
    rewrite Ho, Ho'. f_equal.
    assert (Hsub : forall k, match o with Some c => rlook c k | None => None end
                           = match o' with Some c => rlook c k | None => None end).
    { intros k. specialize (He (pre ++ N.of_nat i :: k)). rewrite !rlook_eq, !strip_app, !Nat2N.id in He.
      rewrite (nth_lookup_Some ch i None o Ho), (nth_lookup_Some ch' i None o' Ho') in He. done. }
    destruct o as [c|], o' as [c'|].
    + f_equal. eapply IH; [exact Ho|by apply prefix_free_sub|by apply Hc'|done].
    + destruct (wfr_inhabited _ _ (Hc _ _ Ho)) as (k&x&_&_&Hx). rewrite Hsub in Hx. done.
    + destruct (wfr_inhabited _ _ (Hc' _ _ Ho')) as (k&x&_&_&Hx). rewrite <- Hsub in Hx. done.
    + done.
Qed.

(* ------------------------------------------------ radix tree of a map *)
Definition eslook es (k : list N) : option V := exactly k es.

Lemma lcp2_prefix a b : lcp2 a b `prefix_of` a /\ lcp2 a b `prefix_of` b.
Proof.
  revert b. induction a as [|x a IH]; intros [|y b]; cbn; try (split; apply prefix_nil).
  destruct (N.eqb_spec x y) as [->|]; [|split; apply prefix_nil].
  destruct (IH b). split; by apply prefix_cons.
Qed.
Lemma lcp_cons k ks : ks <> [] -> lcp (k :: ks) = lcp2 k (lcp ks).
Proof. by destruct ks. Qed.
Lemma lcp_prefix ks k : k ∈ ks -> lcp ks `prefix_of` k.
Proof.
  induction ks as [|k0 ks IH]; [by intros ?%elem_of_nil|].
  destruct (decide (ks = [])) as [->|Hne].
  - intros ->%elem_of_list_singleton. done.
  - rewrite lcp_cons by done. intros [->|Hin]%elem_of_cons.
    + apply lcp2_prefix.
    + etrans; [apply lcp2_prefix|auto].
Qed.
Lemma lcp2_max a b p : p `prefix_of` a -> p `prefix_of` b -> p `prefix_of` lcp2 a b.
Proof.
  revert a b. induction p as [|x p IH]; intros a b Ha Hb; [apply prefix_nil|].
  destruct Ha as [sa ->], Hb as [sb ->]. cbn. rewrite N.eqb_refl. apply prefix_cons. apply IH; by eexists.
Qed.
Lemma lcp_max ks p : ks <> [] -> (forall k, k ∈ ks -> p `prefix_of` k) -> p `prefix_of` lcp ks.
Proof.
  induction ks as [|k0 ks IH]; [done|]. intros _ Hp.
  destruct (decide (ks = [])) as [->|Hne]; [apply Hp; set_solver|].
  rewrite lcp_cons by done. apply lcp2_max; [apply Hp; set_solver|]. apply IH; [done|]. intros k Hk. apply Hp. set_solver.
Qed.

Lemma elem_under p i es k x : (k, x) ∈ under p i es <-> (p ++ i :: k, x) ∈ es.
Proof.
  induction es as [|[k0 x0] es IH]; [set_solver|]. cbn [under].
  destruct (strip (p ++ [i]) k0) as [k'|] eqn:Hs.
  - apply strip_Some in Hs. rewrite <- app_assoc in Hs. cbn in Hs. subst.
    rewrite !elem_of_cons, IH. split; (intros [He|?]; [left|by right]); by simplify_eq.
  - rewrite elem_of_cons, IH. split; [by right|]. intros [He|?]; [|done]. simplify_eq.
    exfalso. apply strip_None in Hs. apply Hs. exists k. by rewrite <- app_assoc.
Qed.
Lemma elem_under_fst p i es k : k ∈ map fst (under p i es) -> p ++ i :: k ∈ map fst es.
Proof.
  rewrite !elem_of_list_In, !in_map_iff. intros ([k' x]&<-&Hin). exists (p ++ i :: k', x). split; [done|].
  apply elem_of_list_In. apply elem_under. by apply elem_of_list_In.
Qed.
Lemma nodup_under p i es : NoDup (map fst es) -> NoDup (map fst (under p i es)).
Proof.
  induction es as [|[k0 x0] es IH]; [done|]. cbn [under map fst]. intros Hnd. inversion_clear Hnd as [|?? Hni Hnd'].
  destruct (strip (p ++ [i]) k0) as [k'|] eqn:Hs; [|auto].
  cbn [map fst]. constructor; [|auto]. intros Hin%elem_under_fst.
  apply strip_Some in Hs. rewrite <- app_assoc in Hs. cbn in Hs. by subst.
Qed.
Lemma exactly_elem es k x : NoDup (map fst es) -> exactly k es = Some x <-> (k, x) ∈ es.
Proof.
  induction es as [|[k0 x0] es IH]; cbn [exactly map fst]; intros Hnd; [split; [done|by intros ?%elem_of_nil]|].
  inversion_clear Hnd as [|?? Hni Hnd']. rewrite elem_of_cons. case_bool_decide as Hk; subst.
  - split; [intros [= ->]; by left|]. intros [?|Hin]; [by simplify_eq|]. exfalso. apply Hni.
    apply elem_of_list_In, in_map_iff. exists (k, x). split; [done|]. by apply elem_of_list_In.
  - rewrite IH by done. split; [by right|]. intros [?|?]; [by simplify_eq|done].
Qed.
Lemma exactly_under p i es k : NoDup (map fst es) -> exactly k (under p i es) = exactly (p ++ i :: k) es.
Proof.
  intros Hnd. apply option_eq. intros x. rewrite !exactly_elem by auto using nodup_under. apply elem_under.
Qed.
Lemma exactly_None es k : k ∉ map fst es -> exactly k es = None.
Proof.
  induction es as [|[k0 x0] es IH]; [done|]. cbn [map fst exactly]. rewrite not_elem_of_cons. intros [? ?].
  rewrite bool_decide_eq_false_2 by done. auto.
Qed.

Lemma concat_len_in (l : list (list N)) x : x ∈ l -> (length x <= length (concat l))%nat.
Proof. induction 1; cbn; rewrite app_length; lia. Qed.
Lemma lookup_nibs (i : nat) : (i < 16)%nat -> nibs !! i = Some (N.of_nat i).
Proof. intros Hi. do 16 (destruct i as [|i]; [done|]). lia. Qed.

Lemma rbuild_S f es : es <> [] -> rbuild (S f) es =
  Some (Radix (lcp (map fst es)) (map (fun i => rbuild f (under (lcp (map fst es)) i es)) nibs) (exactly (lcp (map fst es)) es)).
Proof. by destruct es. Qed.

Lemma rbuild_spec fuel : forall U es,
  prefix_free U -> NoDup (map fst es) -> (forall k, k ∈ map fst es -> U k /\ is_nibbles k /\ (length k < fuel)%nat) ->
  match rbuild fuel es with
  | None => es = []
  | Some r => es <> [] /\ wfr U r /\ forall k, rlook r k = exactly k es
  end.
Proof.
  induction fuel as [|f IH]; intros U es HU Hnd Hk.
  { destruct es as [|[k x] es]; [done|]. destruct (Hk k) as (_&_&?); [cbn; set_solver|lia]. }
  destruct (decide (es = [])) as [->|Hne]; [done|]. rewrite rbuild_S by done.
  set (p := lcp (map fst es)). split; [done|].
  assert (Hpk : forall k, k ∈ map fst es -> p `prefix_of` k) by (intros; by apply lcp_prefix).
  assert (Hks : map fst es <> []) by (by destruct es as [|[]]).
  assert (Hex : exists k x, (k, x) ∈ es).
  { destruct es as [|[k x] ?]; [done|]. exists k, x. set_solver. }
  assert (Hfst : forall k x, (k, x) ∈ es -> k ∈ map fst es).
  { intros k x Hin. apply elem_of_list_In, in_map_iff. exists (k, x). split; [done|]. by apply elem_of_list_In. }
  assert (Hpn : is_nibbles p).
  { destruct Hex as (k&x&Hin). apply Hfst in Hin. destruct (Hpk _ Hin) as [s Hs].
    destruct (Hk _ Hin) as (_&Hn&_). rewrite Hs in Hn. by apply Forall_app in Hn as [? _]. }
  assert (Hchild : forall i, (i < 16)%nat ->
     match rbuild f (under p (N.of_nat i) es) with
     | None => under p (N.of_nat i) es = []
     | Some r => under p (N.of_nat i) es <> [] /\ wfr (fun s => U (p ++ N.of_nat i :: s)) r /\
                 forall k, rlook r k = exactly k (under p (N.of_nat i) es)
     end).
  { intros i Hi. apply IH; [by apply prefix_free_sub|by apply nodup_under|].
    intros k Hin%elem_under_fst. destruct (Hk _ Hin) as (?&Hn&Hlen). split; [done|].
    apply Forall_app in Hn as [_ Hn]. inversion_clear Hn. split; [done|]. rewrite app_length in Hlen. cbn in Hlen. lia. }
  assert (Hnth : forall i, (i < 16)%nat ->
     map (fun i => rbuild f (under p i es)) nibs !! i = Some (rbuild f (under p (N.of_nat i) es))).
  { intros i Hi. rewrite list_lookup_fmap, lookup_nibs by done. done. }
  assert (Hlook : forall k, rlook (Radix p (map (fun i => rbuild f (under p i es)) nibs) (exactly p es)) k = exactly k es).
  { intros k. rewrite rlook_eq. destruct (strip p k) as [s|] eqn:Hs.
    - apply strip_Some in Hs as ->. destruct s as [|i s]; [by rewrite app_nil_r|].
      destruct (decide (i < 16)) as [Hi|Hi].
      + rewrite (nth_lookup_Some _ _ None _ (Hnth (N.to_nat i) ltac:(lia))).
        rewrite N2Nat.id. specialize (Hchild (N.to_nat i) ltac:(lia)). rewrite N2Nat.id in Hchild.
        destruct (rbuild f (under p i es)) as [r|].
        * destruct Hchild as (_&_&Hr). rewrite Hr. by apply exactly_under.
        * rewrite <- (exactly_under p i es s Hnd), Hchild. done.
      + rewrite nth_overflow by (rewrite map_length; cbn; lia).
        symmetry. apply exactly_None. intros Hin. destruct (Hk _ Hin) as (_&Hn&_).
        apply Forall_app in Hn as [_ Hn]. inversion_clear Hn. lia.
    - symmetry. apply exactly_None. intros Hin. apply strip_None in Hs. by apply Hs, Hpk. }
  split; [|done].
  destruct (exactly p es) as [x|] eqn:Hx.
  - (* leaf: by prefix-freeness the only key is p *)
    assert (Honly : forall k y, (k, y) ∈ es -> k = p).
    { intros k y Hin. apply Hfst in Hin. symmetry. apply HU; [|by apply Hk|by apply Hpk].
      apply exactly_elem in Hx; [|done]. apply Hfst in Hx. by apply Hk. }
    assert (Hnone : map (fun i => rbuild f (under p i es)) nibs = replicate 16 None).
    { apply list_eq. intros i. destruct (decide (i < 16)%nat) as [Hi|Hi].
      - rewrite Hnth, lookup_replicate_2 by done. f_equal.
        specialize (Hchild i Hi). destruct (rbuild f (under p (N.of_nat i) es)) as [r|]; [|done].
        destruct Hchild as (Hu&_&_). destruct (under p (N.of_nat i) es) as [|[k y] l] eqn:He; [done|].
        exfalso. assert (Hin : (k, y) ∈ under p (N.of_nat i) es) by (rewrite He; set_solver).
        apply elem_under, Honly in Hin. apply (f_equal length) in Hin. rewrite app_length in Hin. cbn in Hin. lia.
      - rewrite !lookup_ge_None_2; [done| |]; rewrite ?map_length, ?replicate_length; cbn; lia. }
    rewrite Hnone. constructor; [|done]. apply exactly_elem in Hx; [|done]. apply Hfst in Hx. by apply Hk.
  - constructor; [by rewrite map_length|done| |].
    + (* two children: otherwise p could be extended *)
      destruct Hex as (k&x&Hin). pose proof (Hfst _ _ Hin) as Hin'. destruct (Hpk _ Hin') as [s Hs]. subst k.
      destruct s as [|a s].
      { exfalso. rewrite app_nil_r in Hin. apply exactly_elem in Hin; [|done]. congruence. }
      assert (Ha : a < 16). { destruct (Hk _ Hin') as (_&Hn&_). apply Forall_app in Hn as [_ Hn]. by inversion_clear Hn. }
      assert (Hsome : forall a k y, a < 16 -> (p ++ a :: k, y) ∈ es ->
         exists c, map (fun i => rbuild f (under p i es)) nibs !! N.to_nat a = Some (Some c)).
      { clear -Hnth Hchild. intros a k y Ha Hin. rewrite Hnth by lia. rewrite N2Nat.id.
        specialize (Hchild (N.to_nat a) ltac:(lia)). rewrite N2Nat.id in Hchild.
        destruct (rbuild f (under p a es)) as [c|]; [by eauto|].
        apply elem_under in Hin. rewrite Hchild in Hin. by apply elem_of_nil in Hin. }
      destruct (decide (Exists (fun k => ~ (p ++ [a]) `prefix_of` k) (map fst es))) as [Hd|Hd].
      * apply Exists_exists in Hd as (k'&Hk'&Hnp). destruct (Hpk _ Hk') as [s' Hs']. subst k'.
        apply elem_of_list_In, in_map_iff in Hk' as ([k'' y]&Heq&Hin2). cbn in Heq. subst k''.
        apply elem_of_list_In in Hin2.
        destruct s' as [|b s'].
        { exfalso. rewrite app_nil_r in Hin2. apply exactly_elem in Hin2; [|done]. congruence. }
        assert (Hb : b < 16). { destruct (Hk _ (Hfst _ _ Hin2)) as (_&Hn&_). apply Forall_app in Hn as [_ Hn]. by inversion_clear Hn. }
        exists (N.to_nat a), (N.to_nat b). split; [|split; eapply Hsome; eauto].
        intros Heq. assert (a = b) by lia. subst b. apply Hnp. exists s'. by rewrite <- app_assoc.
      * exfalso. assert (Hall : forall k, k ∈ map fst es -> (p ++ [a]) `prefix_of` k).
        { intros k Hkin. destruct (decide ((p ++ [a]) `prefix_of` k)) as [|Hn]; [done|].
          exfalso. apply Hd. apply Exists_exists. by exists k. }
        apply (lcp_max _ _ Hks) in Hall. fold p in Hall. apply prefix_length in Hall. rewrite app_length in Hall. cbn in Hall. lia.
    + intros i c Hi. assert (Hi16 : (i < 16)%nat) by (apply lookup_lt_Some in Hi; rewrite map_length in Hi; done).
      rewrite Hnth in Hi by done. injection Hi as Hi. specialize (Hchild i Hi16). rewrite Hi in Hchild. by destruct Hchild as (_&?&_).
Qed.

Definition nibU (K : list N -> Prop) : list N -> Prop := fun s => exists k, K k /\ s = nibbles k.

Lemma radix_of_spec (K : list N -> Prop) (m : gmap (list N) V) :
  prefix_free K -> (forall k x, m !! k = Some x -> K k /\ is_bytes k) ->
  (m = ∅ /\ radix_of m = empty_radix) \/
  (m <> ∅ /\ wfr (nibU K) (radix_of m) /\ forall k, rlook (radix_of m) (nibbles k) = m !! k).
Proof.
  intros HK Hm. unfold radix_of.
  set (es := map (fun '(k, v) => (nibbles k, v)) (map_to_list m)).
  assert (Hfst : map fst es = map nibbles (map fst (map_to_list m))).
  { unfold es. rewrite !map_map. apply map_ext. by intros []. }
  assert (Hnd : NoDup (map fst es)).
  { rewrite Hfst. apply (NoDup_fmap_2_strong nibbles); [intros; by apply nibbles_inj|].
    apply NoDup_fst_map_to_list. }
  assert (Hel : forall k x, (nibbles k, x) ∈ es <-> m !! k = Some x).
  { intros k x. rewrite <- elem_of_map_to_list. unfold es. rewrite !elem_of_list_In, in_map_iff. split.
    - intros ([k' x']&Heq&Hin). simplify_eq. apply nibbles_inj in H as ->. done.
    - intros Hin. by exists (k, x). }
  pose proof (rbuild_spec (S (length (concat (map fst es)))) (nibU K) es (nibbles_prefix_free K HK) Hnd) as Hb.
  feed specialize Hb.
  { intros k Hin. pose proof (concat_len_in _ _ Hin) as Hlen.
    rewrite Hfst in Hin. apply elem_of_list_In, in_map_iff in Hin as (k0&<-&Hin).
    apply in_map_iff in Hin as ([k1 x]&<-&Hin). apply elem_of_list_In, elem_of_map_to_list in Hin. cbn [fst] in *.
    destruct (Hm _ _ Hin). split; [by exists k1|]. split; [by apply nibbles_ok|lia]. }
  destruct (rbuild (S (length (concat (map fst es)))) es) as [r|] eqn:Hr; cbn [default].
  - right. destruct Hb as (Hne&Hw&Hl). split.
    { intros ->. apply Hne. unfold es. by rewrite map_to_list_empty. }
    split; [done|]. intros k. rewrite Hl. apply option_eq. intros x. rewrite exactly_elem by done. apply Hel.
  - left. split; [|done]. apply map_eq. intros k. rewrite lookup_empty.
    destruct (m !! k) as [x|] eqn:Hk; [|done]. apply Hel in Hk. rewrite Hb in Hk. by apply elem_of_nil in Hk.
Qed.

End radix.
