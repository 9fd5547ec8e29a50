(** Runs of operations on several tries sharing a database refine runs on
    finite maps. *)
From Verif Require Export TrieCommitProofs.

Section run.
Context {V : Type} (E : env V) (HE : env_ok E).
Local Notation rhash := (rhash (eH E) (ertl E) (evhash E)).
Local Notation rinputs := (rinputs (eH E) (ertl E) (evhash E)).
Local Notation root_of := (root_of (eH E) (ertl E) (evhash E)).
Local Notation root_inputs := (root_inputs (eH E) (ertl E) (evhash E)).
Local Notation node := (node V).
Local Notation rep := (rep E).
Local Notation EH := (EmptyNodeHash E).
Local Notation trie := (@trie V).
Implicit Types (m : gmap (list N) V) (K U : list N -> Prop) (a b r : radix V).

(* ----------------------------------------------------------- sub-trees *)

Inductive subr (a : radix V) : radix V -> Prop :=
| subr_refl : subr a a
| subr_child pre ch v i c : ch !! i = Some (Some c) -> subr a c -> subr a (Radix pre ch v).

Lemma subr_inputs a b x : subr a b -> x ∈ rinputs a -> x ∈ rinputs b.
Proof. induction 1; [done|]. intros Hx. eapply rinputs_child; eauto. Qed.
Lemma subr_values a b x : subr a b -> x ∈ rvalues a -> x ∈ rvalues b.
Proof. induction 1; [done|]. intros Hx. eapply rvalues_child; eauto. Qed.
Lemma subr_okr a b : subr a b -> okr b -> okr a.
Proof. induction 1; [done|]. intros (_&_&_&_&Hc)%okr_inv. eauto. Qed.
Lemma subr_closed p c v i a b : subr (Radix p c v) b -> c !! i = Some (Some a) -> subr a b.
Proof.
  remember (Radix p c v) as q eqn:Hq. induction 1 as [|pre ch w j d Hj Hs IH]; intros Hi.
  - subst. eapply subr_child; [done|constructor].
  - eapply subr_child; [done|]. by apply IH.
Qed.
Lemma rvalues_look U r x : wfr U r -> x ∈ rvalues r -> exists k, rlook r k = Some x.
Proof.
  induction 1 as [U pre y Hx Hn|U pre ch Hl Hn Htwo Hc IH]; cbn [rvalues].
  - rewrite elem_of_app. intros [Hx'|Hx'].
    + apply elem_of_list_singleton in Hx' as ->. exists pre. by rewrite rlook_leaf, decide_True.
    + exfalso. revert Hx'. cbn. apply not_elem_of_nil.
  - cbn [app]. intros Hx. apply elem_of_list_In, in_concat in Hx as (l&Hl'&Hx).
    apply elem_of_list_In in Hl', Hx. apply elem_somes in Hl' as (i&Hi).
    rewrite list_lookup_fmap in Hi. destruct (ch !! i) as [[c|]|] eqn:Hci; try done. injection Hi as <-.
    destruct (IH i c Hci Hx) as (k&Hk). exists (pre ++ N.of_nat i :: k). rewrite rlook_eq, strip_app, Nat2N.id.
    by rewrite (nth_lookup_Some _ _ None _ Hci).
Qed.

(* ------------------------------------------------------------- one trie *)

Definition dom_in K m : Prop := forall k x, m !! k = Some x -> K k /\ is_bytes k.

Definition nrep st (n : node) m : Prop :=
  m = ∅ /\ erep E n \/ m <> ∅ /\ rep st n (radix_of m).

Lemma nrep_mono st st' n m : st_le st st' -> nrep st n m -> nrep st' n m.
Proof. intros Hle [[? ?]|[? ?]]; [by left|right; split; [done|by eapply rep_mono]]. Qed.

Context (K : list N -> Prop) (HK : prefix_free K).
Local Notation U := (nibU K).

Lemma nibU_pf : (forall k, K k -> is_bytes k) -> prefix_free U.
Proof.
  intros Hb a b (ka&Ha&->) (kb&Hb'&->) Hp. f_equal. apply HK; [done..|]. by apply nibbles_prefix; auto.
Qed.
Context (HKb : forall k, K k -> is_bytes k).

Lemma radix_wfr m : dom_in K m -> m <> ∅ -> wfr U (radix_of m) /\ forall k, rlook (radix_of m) (nibbles k) = m !! k.
Proof. intros Hd Hm. by destruct (radix_of_spec K m HK Hd) as [[? _]|(_&?&?)]. Qed.
Lemma radix_empty : radix_of (∅ : gmap (list N) V) = empty_radix.
Proof. unfold radix_of. by rewrite map_to_list_empty. Qed.

(** A well-formed tree with the right lookups is the canonical one. *)
Lemma radix_canon m r : dom_in K m -> m <> ∅ -> wfr U r -> (forall k, K k -> rlook r (nibbles k) = m !! k) -> r = radix_of m.
Proof.
  intros Hd Hm Hw Hlk. destruct (radix_wfr m Hd Hm) as [Hw' Hlk'].
  apply (wfr_unique U); [done|by apply nibU_pf|done|]. intros k.
  destruct (rlook r k) as [x|] eqn:Hx.
  - destruct (wfr_in U r k x Hw Hx) as [(k0&HK0&->) _]. rewrite Hlk', <- Hlk by done. by rewrite Hx.
  - destruct (rlook (radix_of m) k) as [x|] eqn:Hx'; [|done].
    destruct (wfr_in U _ k x Hw' Hx') as [(k0&HK0&->) _]. rewrite Hlk' in Hx'. rewrite Hlk in Hx by done. congruence.
Qed.

Lemma updated_canon m m' k v r' : dom_in K m -> m <> ∅ -> dom_in K m' -> m' <> ∅ -> K k ->
  (forall k', m' !! k' = if decide (k' = k) then v else m !! k') ->
  wfr U r' -> updated (radix_of m) r' (nibbles k) v -> r' = radix_of m'.
Proof.
  intros Hd Hm Hd' Hm' HKk He Hw Hu. apply radix_canon; try done. intros k' HK'. rewrite Hu, He.
  destruct (radix_wfr m Hd Hm) as [_ Hlk]. rewrite Hlk.
  destruct (decide (k' = k)) as [->|Hne]; [by rewrite decide_True|]. rewrite decide_False; [done|].
  intros Hn. apply Hne. by apply nibbles_inj in Hn; auto.
Qed.

Lemma put_nrep st gen n m k v : nrep st n m -> dom_in K m -> K k ->
  exists n', TrieModel.insert E (S (length (keyToPrefix k))) st gen n (keyToPrefix k) (Some v) =
      Some (true, n', (zsize (<[k := v]> m) - zsize m)%Z) /\
    nrep st n' (<[k := v]> m) /\ dom_in K (<[k := v]> m).
Proof.
  intros Hr Hd HKk. pose proof (HKb k HKk) as Hkb. rewrite keyToPrefix_nibbles by done.
  assert (Hd' : dom_in K (<[k := v]> m)).
  { intros k' x. rewrite lookup_insert_Some. intros [[<- _]|[_ Hx]]; [done|by eapply Hd]. }
  assert (Hne' : <[k := v]> m <> ∅) by apply insert_non_empty.
  assert (HUk : U (nibbles k)) by by exists k.
  destruct Hr as [[-> He]|[Hm Hr]].
  - destruct (insert_empty E st gen n (nibbles k) v (length (nibbles k)) U He) as (n'&->&Hr'&Hw'); [by apply nibbles_ok|done|].
    exists n'. split; [|split; [|done]].
    + do 3 f_equal. unfold zsize. by rewrite map_size_insert_None, map_size_empty by done.
    + right. split; [done|]. rewrite <- (radix_canon _ _ Hd' Hne' Hw'); [done|]. intros k' HK'. rewrite rlook_leaf.
      destruct (decide (k' = k)) as [->|Hkk].
      * rewrite decide_True by done. by rewrite lookup_insert.
      * rewrite decide_False by (intros Hn; apply Hkk; by apply nibbles_inj in Hn; auto). by rewrite lookup_insert_ne.
  - destruct (radix_wfr m Hd Hm) as [Hw Hlk].
    destruct (insert_spec E HE (S (length (nibbles k))) st gen n (radix_of m) (nibbles k) v U) as (n'&r'&->&Hr'&Hw'&Hu);
      [done|done|by apply nibU_pf|done|by apply nibbles_ok|lia|].
    exists n'. rewrite Hlk. split; [|split; [|done]].
    + do 3 f_equal. unfold zsize. destruct (m !! k) as [x|] eqn:Hx; cbn [isS].
      * rewrite map_size_insert_Some by eauto. lia.
      * rewrite map_size_insert_None by done. lia.
    + right. split; [done|]. rewrite <- (updated_canon m (<[k := v]> m) k (Some v) r'); try done.
      intros k'. case_decide as Hkk; [subst; by rewrite lookup_insert|by rewrite lookup_insert_ne].
Qed.

Lemma delete_nrep st n m k t : nrep st n m -> dom_in K m -> K k -> t_root t = n ->
  exists t', TrieModel.Delete E st t k = Some (t', bool_decide (is_Some (m !! k)), m !! k) /\
    nrep st (t_root t') (delete k m) /\ dom_in K (delete k m) /\
    t_count t' = (t_count t + (zsize (delete k m) - zsize m))%Z /\ t_gen t' = t_gen t.
Proof.
  intros Hr Hd HKk Ht. pose proof (HKb k HKk) as Hkb.
  unfold TrieModel.Delete. rewrite keyToPrefix_nibbles, Ht by done.
  assert (Hd' : dom_in K (delete k m)).
  { intros k' x. rewrite lookup_delete_Some. intros [_ Hx]. by eapply Hd. }
  assert (HUk : U (nibbles k)) by by exists k.
  destruct Hr as [[-> He]|[Hm Hr]].
  - rewrite delete_empty by done. eexists. rewrite lookup_empty. split; [done|]. cbn [t_root t_count t_gen].
    assert (delete k (∅ : gmap (list N) V) = ∅) as Hde by apply fin_maps.delete_empty. rewrite Hde.
    split; [by left|]. rewrite Hde in Hd'. split; [done|]. split; [lia|done].
  - destruct (radix_wfr m Hd Hm) as [Hw Hlk].
    destruct (delete_spec E HE (S (length (nibbles k))) st (t_gen t) n (radix_of m) (nibbles k) U) as (res&->&Hdel);
      [done|done|by apply nibU_pf|done|by apply nibbles_ok|lia|].
    rewrite Hlk in Hdel. unfold deleted in Hdel. destruct (m !! k) as [y|] eqn:Hy.
    + assert (Hsz : (zsize (delete k m) - zsize m = -1)%Z).
      { unfold zsize. rewrite map_size_delete_Some by eauto.
        assert (size m <> 0)%nat; [|lia]. intros Hz%map_size_empty_inv. subst. done. }
      rewrite bool_decide_eq_true_2 by eauto. rewrite Hsz.
      destruct Hdel as [(pre&g&->&Honly)|(n'&r'&->&Hr'&Hw'&Hu)].
      * eexists. split; [done|]. cbn [t_root t_count t_gen].
        assert (Hde : delete k m = ∅).
        { apply map_eq. intros k'. rewrite lookup_empty. destruct (delete k m !! k') as [x|] eqn:Hx; [|done].
          apply lookup_delete_Some in Hx as [Hne Hx]. exfalso. apply Hne.
          assert (nibbles k' = nibbles k) as Hn. { apply (Honly _ x). by rewrite Hlk. }
          symmetry. by apply nibbles_inj in Hn. }
        split; [|done]. left. split; [done|]. unfold setPrefix. cbn [n_pre]. case_bool_decide as Hp.
        -- subst. constructor. by left.
        -- cbn. constructor. by left.
      * eexists. split; [done|]. cbn [t_root t_count t_gen]. split; [|done].
        assert (Hne : delete k m <> ∅).
        { intros Hde. destruct (wfr_inhabited U r' Hw') as (k'&x&(k0&HK0&->)&_&Hx). rewrite Hu in Hx.
          case_decide as Hkk; [done|]. rewrite Hlk in Hx.
          assert (delete k m !! k0 = Some x) as Hx'. { apply lookup_delete_Some. split; [|done]. intros ->. done. }
          rewrite Hde in Hx'. done. }
        right. split; [done|]. rewrite <- (updated_canon m (delete k m) k None r'); try done.
        intros k'. case_decide as Hkk; [subst; by rewrite lookup_delete|by rewrite lookup_delete_ne].
    + destruct Hdel as (n'&->&Hr'). eexists. split; [|cbn [t_root t_count t_gen]].
      { rewrite bool_decide_eq_false_2; [done|]. by intros [? ?]. }
      cbn [t_root t_count t_gen]. rewrite delete_notin by done. split; [by right|]. split; [done|]. split; [lia|done].
Qed.

Lemma get_nrep st gen n m k : nrep st n m -> dom_in K m -> K k ->
  exists n' tr, get E (S (length (keyToPrefix k))) st gen n (keyToPrefix k) = (n', m !! k, tr) /\ nrep st n' m.
Proof.
  intros Hr Hd HKk. pose proof (HKb k HKk) as Hkb. rewrite keyToPrefix_nibbles by done.
  assert (HUk : U (nibbles k)) by by exists k.
  destruct Hr as [[-> He]|[Hm Hr]].
  - cbn [get]. rewrite (erep_expand E) by done. rewrite lookup_empty.
    destruct (erep_empty E n He) as (Hem&_). exists n, []. split; [|by left].
    rewrite Hem. destruct He. by destruct (nibbles k).
  - destruct (radix_wfr m Hd Hm) as [Hw Hlk].
    destruct (get_spec E HE (S (length (nibbles k))) st gen n (radix_of m) (nibbles k) U) as (n'&tr&->&Hr');
      [done|done|by apply nibU_pf|done|by apply nibbles_ok|lia|].
    exists n', tr. rewrite Hlk. split; [done|by right].
Qed.

(* ----------------------------------------------------- the set of trees *)

Context (HKl : forall k, K k -> (length k <= 48)%nat).
Lemma root_okr m : dom_in K m -> m <> ∅ -> okr (radix_of m).
Proof.
  intros Hd Hm. destruct (radix_wfr m Hd Hm) as [Hw _]. eapply wfr_okr; [exact Hw|].
  intros s (k&HKk&->). rewrite nibbles_length. specialize (HKl k HKk). lia.
Qed.
Context (L : list (gmap (list N) V)) (HL : forall m, m ∈ L -> dom_in K m).
Context (Hinj : inj_on (eH E) (concat (map root_inputs (∅ :: L)))).
Context (vals : list V) (Hvals : forall m k x, m ∈ L -> m !! k = Some x -> x ∈ vals) (Hvinj : vinj E vals).

Definition QL (r : radix V) : Prop := exists m, m ∈ L /\ m <> ∅ /\ subr r (radix_of m).

Lemma root_inputs_in m x : m ∈ L -> x ∈ root_inputs m -> x ∈ concat (map root_inputs (∅ :: L)).
Proof.
  intros Hm Hx. apply elem_of_list_In, in_concat. exists (root_inputs m). rewrite <- !elem_of_list_In. split; [|done].
  apply elem_of_list_fmap. exists m. split; [done|]. by right.
Qed.
Lemma empty_inputs_in x : x ∈ rinputs empty_radix -> x ∈ concat (map root_inputs (∅ :: L)).
Proof.
  intros Hx. cbn [map concat]. apply elem_of_app. left. unfold TrieSpec.root_inputs. by rewrite radix_empty.
Qed.

Lemma QL_good : good E QL.
Proof.
  split.
  - intros pre ch v i c (m&Hm&Hne&Hs) Hi. exists m. split; [done|]. split; [done|]. by eapply subr_closed.
  - intros r (m&Hm&Hne&Hs). rewrite EH_eq. apply rhash_nonempty; [done|eapply subr_okr; [done|]; apply root_okr; [by apply HL|done]|].
    eapply inj_on_sub; [|exact Hinj]. intros x. rewrite elem_of_app. intros [Hx|Hx].
    + apply (root_inputs_in m); [done|]. by eapply subr_inputs.
    + by apply empty_inputs_in.
  - intros r r' (m&Hm&Hne&Hs) (m'&Hm'&Hne'&Hs') He.
    apply (rhash_inj E HE); [eapply subr_okr; [done|]; apply root_okr; [by apply HL|done]
      |eapply subr_okr; [done|]; apply root_okr; [by apply HL|done]| | |done].
    + eapply inj_on_sub; [|exact Hinj]. intros x. rewrite elem_of_app. intros [Hx|Hx].
      * apply (root_inputs_in m); [done|]. by eapply subr_inputs.
      * apply (root_inputs_in m'); [done|]. by eapply subr_inputs.
    + assert (Hv : forall m r x, m ∈ L -> m <> ∅ -> subr r (radix_of m) -> x ∈ rvalues r -> x ∈ vals).
      { intros m0 r0 x Hm0 Hne0 Hs0 Hx. apply (subr_values _ _ _ Hs0) in Hx.
        destruct (radix_wfr m0 (HL m0 Hm0) Hne0) as [Hw Hlk].
        destruct (rvalues_look U _ x Hw Hx) as (k&Hk). destruct (wfr_in U _ _ _ Hw Hk) as [(k0&_&->) _].
        rewrite Hlk in Hk. by eapply Hvals. }
      intros x y Hx Hy. apply Hvinj; [rewrite elem_of_app in Hx|rewrite elem_of_app in Hy].
      * destruct Hx; [by eapply (Hv m)|by eapply (Hv m')].
      * destruct Hy; [by eapply (Hv m)|by eapply (Hv m')].
  - intros p c x p' c' y (m&Hm&Hne&Hs) (m'&Hm'&Hne'&Hs') He. apply Hvinj; [| |done].
    + destruct (radix_wfr m (HL m Hm) Hne) as [Hw Hlk].
      destruct (rvalues_look U _ x Hw) as (k&Hk). { eapply subr_values; [done|]. cbn [rvalues]. set_solver. }
      destruct (wfr_in U _ _ _ Hw Hk) as [(k0&_&->) _]. rewrite Hlk in Hk. exact (Hvals m k0 x Hm Hk).
    + destruct (radix_wfr m' (HL m' Hm') Hne') as [Hw Hlk].
      destruct (rvalues_look U _ y Hw) as (k&Hk). { eapply subr_values; [done|]. cbn [rvalues]. set_solver. }
      destruct (wfr_in U _ _ _ Hw Hk) as [(k0&_&->) _]. rewrite Hlk in Hk. exact (Hvals m' k0 y Hm' Hk).
Qed.
Local Notation store_ok := (store_ok E QL).

Lemma QL_root m : m ∈ L -> m <> ∅ -> QL (radix_of m).
Proof. intros Hm Hne. exists m. split; [done|]. split; [done|constructor]. Qed.

Lemma hash_nrep st n m : nrep st n m -> m ∈ L -> exists n', node_hash E n = (n', root_of m) /\ nrep st n' m.
Proof.
  intros [[-> He]|[Hm Hr]] HmL.
  - destruct (erep_hash E n He) as (n'&->&He'&_). exists n'. rewrite EH_eq. unfold TrieSpec.root_of. rewrite radix_empty.
    split; [done|by left].
  - destruct (node_hash_spec E HE QL st n (radix_of m) (g_closed E QL QL_good) (g_no E QL QL_good) Hr (QL_root m HmL Hm)) as (n'&->&Hr'&_).
    exists n'. split; [done|by right].
Qed.

Definition kept st m : Prop := m = ∅ \/ stored E st (radix_of m).

Lemma commit_nrep st gen n m : nrep st n m -> m ∈ L -> store_ok st ->
  exists st' n', iterateSave E gen n st = (st', n', true) /\ st_le st st' /\ store_ok st' /\ nrep st' n' m /\ kept st' m /\ n_dirty n' = false.
Proof.
  intros [[-> He]|[Hm Hr]] HmL Hok.
  - destruct (iterateSave_empty E QL QL_good gen st n He Hok) as (st'&n'&->&?&?&?&?). do 2 eexists. split; [done|].
    split; [done|]. split; [done|]. split; [by left|]. split; [by left|done].
  - destruct (iterateSave_spec E HE QL QL_good gen st n _ Hr st (st_le_refl st) Hok (QL_root m HmL Hm)) as (st'&n'&->&?&?&?&?&?).
    do 2 eexists. split; [done|]. split; [done|]. split; [done|]. split; [by right|]. split; [by right|done].
Qed.

Lemma collapse_nrep st n m : nrep st n m -> canCollapse E n = true -> nrep st (collapse E n).2 m.
Proof.
  intros [[-> He]|[Hm Hr]] Hc; [left; split; [done|by apply collapse_erep]|right; split; [done|by apply collapse_rep]].
Qed.

Lemma open_nrep st m g : kept st m -> nrep st (new_node (Some (root_of m)) g) m.
Proof.
  intros [->|Hs].
  - left. split; [done|]. unfold new_node. unfold TrieSpec.root_of. rewrite radix_empty, <- (EH_eq E). constructor. by right.
  - right. split.
    + intros ->. rewrite radix_empty in Hs. destruct (stored_inv E _ _ _ _ Hs) as (_&_&_&_&_&[[? ?]|(i&c&Hi)]&_); [done|].
      by apply lookup_replicate in Hi as [? _].
    + by constructor.
Qed.

(* -------------------------------------------------------------- the pool *)

Definition trel (st : store) (t : trie) (mb : gmap (list N) V * Z) : Prop :=
  nrep st (t_root t) mb.1 /\ dom_in K mb.1 /\ t_count t = (zsize mb.1 - mb.2)%Z.
Definition rrel (st : store) (h : list N) m : Prop := h = root_of m /\ kept st m /\ dom_in K m.
Record prel (mp : mpool) (p : pool V) : Prop := PRel {
  pr_store : store_ok (mp_store mp);
  pr_tries : Forall2 (trel (mp_store mp)) (mp_tries mp) (p_maps p);
  pr_roots : Forall2 (rrel (mp_store mp)) (mp_roots mp) (p_roots p);
}.

Lemma kept_mono st st' m : st_le st st' -> kept st m -> kept st' m.
Proof. intros Hle [?|?]; [by left|right; by eapply stored_mono]. Qed.
Lemma trel_mono st st' t mb : st_le st st' -> trel st t mb -> trel st' t mb.
Proof. intros Hle (?&?&?). split; [by eapply nrep_mono|done]. Qed.
Lemma rrel_mono st st' h m : st_le st st' -> rrel st h m -> rrel st' h m.
Proof. intros Hle (?&?&?). split; [done|]. split; [by eapply kept_mono|done]. Qed.

Lemma IsEmpty_spec st n m : nrep st n m -> isEmpty E n = bool_decide (m = ∅).
Proof.
  intros [[-> He]|[Hm Hr]].
  - rewrite bool_decide_eq_true_2 by done. by apply erep_empty.
  - rewrite bool_decide_eq_false_2 by done. inversion Hr; subst.
    + match goal with A : stored _ _ _ |- _ => destruct (radix_of m) as [q c v] eqn:Hq; destruct (stored_inv E _ _ _ _ A) as (_&Hne&_) end.
      unfold isEmpty. cbn [n_hash]. rewrite (isEmptyNodeHash_some E); [by rewrite !andb_false_r|by apply rhash_len|done].
    + by eapply exp_not_empty.
Qed.

Lemma step_rel mp p j o : prel mp p -> (forall k, k ∈ tcall_keys o -> K k) ->
  (forall m, m ∈ map fst (p_maps p) -> m ∈ L) ->
  exists mp', mstep E mp (j, o) = Some (mp', (pstep root_of p (j, o)).2) /\ prel mp' (pstep root_of p (j, o)).1.
Proof.
  intros [Hst Htr Hro] Hk HinL. unfold mstep, pstep.
  destruct (p_maps p !! j) as [[m b]|] eqn:Hj.
  2:{ assert (mp_tries mp !! j = None) as ->.
      { apply lookup_ge_None in Hj. apply lookup_ge_None. by rewrite (Forall2_length _ _ _ Htr). }
      eexists. split; [done|]. done. }
  destruct (Forall2_lookup_r _ _ _ _ _ Htr Hj) as (t&Ht&(Hn&Hd&Hc)). rewrite Ht. cbn [fst snd] in *.
  assert (HmL : m ∈ L).
  { apply HinL. apply elem_of_list_fmap. exists (m, b). split; [done|]. by apply elem_of_list_lookup_2 in Hj. }
  assert (Hset : forall t' m', trel (mp_store mp) t' (m', b) -> prel (mp_set mp j t') (p_set p j m' b)).
  { intros t' m' Hr'. split; [done| |done]. cbn. by apply Forall2_insert. }
  assert (Hset' : forall t', trel (mp_store mp) t' (m, b) -> prel (mp_set mp j t') p).
  { intros t' Hr'. pose proof (Hset _ _ Hr') as [? Hx ?]. split; [done| |done].
    unfold p_set in Hx. cbn [p_maps] in Hx. by rewrite list_insert_id in Hx. }
  destruct o as [k v|k|k| | | | | | |i|i].
  - unfold Put. destruct (put_nrep (mp_store mp) (t_gen t) (t_root t) m k v) as (n'&->&Hn'&Hd'); [done|done|apply Hk; set_solver|].
    eexists. split; [done|]. cbn [fst]. apply Hset. split; [done|]. split; [done|]. cbn. lia.
  - destruct (delete_nrep (mp_store mp) (t_root t) m k t) as (t'&->&Hn'&Hd'&Hc'&_); [done|done|apply Hk; set_solver|done|].
    eexists. split; [done|]. cbn [fst]. apply Hset. split; [done|]. split; [done|]. cbn. lia.
  - unfold Get. destruct (get_nrep (mp_store mp) (t_gen t) (t_root t) m k) as (n'&tr&->&Hn'); [done|done|apply Hk; set_solver|].
    eexists. split; [done|]. cbn [fst]. apply Hset'. done.
  - unfold HashValue. destruct (hash_nrep (mp_store mp) (t_root t) m Hn HmL) as (n'&->&Hn').
    eexists. split; [done|]. cbn [fst]. apply Hset'. done.
  - unfold Commit. destruct (commit_nrep (mp_store mp) (t_gen t) (t_root t) m Hn HmL Hst) as (st'&n'&->&Hle&Hok'&Hn'&Hkept&_).
    unfold HashValue. cbn [t_root]. destruct (hash_nrep st' n' m Hn' HmL) as (n2&->&Hn2).
    eexists. split; [done|]. cbn [fst]. split; cbn [mp_store mp_tries mp_roots p_maps p_roots].
    + done.
    + rewrite <- (list_insert_id (p_maps p) j (m, b)) by done. apply Forall2_insert; [|done].
      eapply Forall2_impl; [done|]. intros. by eapply trel_mono.
    + apply Forall2_app; [|by constructor]. eapply Forall2_impl; [done|]. intros. by eapply rrel_mono.
  - eexists. split; [done|]. cbn [fst]. apply Hset'. unfold Collapse. destruct (canCollapse E (t_root t)) eqn:Hcc; [|done].
    split; [|done]. cbn. by apply collapse_nrep.
  - eexists. split; [|done]. cbn [snd]. unfold Count. by rewrite Hc.
  - eexists. split; [|done]. cbn [snd]. unfold IsEmpty. by erewrite IsEmpty_spec.
  - unfold Clone, Commit. destruct (commit_nrep (mp_store mp) (t_gen t) (t_root t) m Hn HmL Hst) as (st'&n'&->&Hle&Hok'&Hn'&Hkept&_).
    unfold HashValue. cbn [t_root t_gen t_count]. destruct (hash_nrep st' n' m Hn' HmL) as (n2&->&Hn2).
    eexists. split; [done|]. cbn [fst]. split; cbn [mp_store mp_tries mp_roots p_maps p_roots p_add].
    + done.
    + apply Forall2_app.
      * rewrite <- (list_insert_id (p_maps p) j (m, b)) by done. apply Forall2_insert; [|done].
        eapply Forall2_impl; [done|]. intros. by eapply trel_mono.
      * constructor; [|constructor]. split; [by apply open_nrep|]. split; [done|]. cbn. lia.
    + eapply Forall2_impl; [done|]. intros. by eapply rrel_mono.
  - destruct (p_roots p !! i) as [m'|] eqn:Hi.
    + destruct (Forall2_lookup_r _ _ _ _ _ Hro Hi) as (h&->&(->&Hk'&Hd')).
      eexists. split; [done|]. cbn [fst]. split; [done| |done]. cbn. apply Forall2_app; [done|]. constructor; [|constructor].
      split; [by apply open_nrep|]. split; [done|]. cbn. lia.
    + assert (mp_roots mp !! i = None) as ->.
      { apply lookup_ge_None in Hi. apply lookup_ge_None. by rewrite (Forall2_length _ _ _ Hro). }
      eexists. split; [done|]. done.
  - destruct (p_roots p !! i) as [m'|] eqn:Hi.
    + destruct (Forall2_lookup_r _ _ _ _ _ Hro Hi) as (h&->&(->&Hk'&Hd')).
      eexists. split; [done|]. cbn [fst]. split; [done| |done]. cbn. apply Forall2_app; [done|]. constructor; [|constructor].
      split; [by apply open_nrep|]. split; [done|]. cbn. lia.
    + assert (mp_roots mp !! i = None) as ->.
      { apply lookup_ge_None in Hi. apply lookup_ge_None. by rewrite (Forall2_length _ _ _ Hro). }
      eexists. split; [done|]. done.
Qed.

Lemma run_rel ops : forall mp p, prel mp p -> (forall j o k, (j, o) ∈ ops -> k ∈ tcall_keys o -> K k) ->
  (forall m, m ∈ pvisited root_of ops p -> m ∈ L) ->
  exists mp', mrun E ops mp = Some (mp', (prun root_of ops p).2) /\ prel mp' (prun root_of ops p).1.
Proof.
  induction ops as [|[j o] ops IH]; intros mp p Hrel Hk HinL; [by exists mp|].
  cbn [mrun prun pvisited] in *.
  destruct (step_rel mp p j o Hrel) as (mp1&Hm&Hrel1).
  { intros k Hko. eapply Hk; [|done]. by left. }
  { intros m Hm. apply HinL. apply elem_of_app. by left. }
  rewrite Hm. destruct (pstep root_of p (j, o)) as [p1 ob] eqn:Hp. cbn [fst snd] in *.
  destruct (IH mp1 p1 Hrel1) as (mp2&->&Hrel2).
  { intros j' o' k Hin. eapply Hk. by right. }
  { intros m Hm'. apply HinL. apply elem_of_app. by right. }
  destruct (prun root_of ops p1) as [p2 obs]. cbn [fst snd] in *. eauto.
Qed.

Lemma init_rel : prel mpool0 pool0.
Proof.
  split; [split; [done..|done]| |constructor]. constructor; [|constructor]. split; [|split; [done|done]].
  cbn. left. split; [done|]. constructor. by left.
Qed.

End run.

(* ------------------------------------------------ contents of spec runs *)
Section visited.
Context {V : Type} (root : gmap (list N) V -> list N).
Definition pool_all (P : gmap (list N) V -> Prop) (p : pool V) : Prop :=
  (forall m, m ∈ map fst (p_maps p) -> P m) /\ (forall m, m ∈ p_roots p -> P m).
Lemma pstep_all (P : gmap (list N) V -> Prop) p j o : pool_all P p ->
  (forall k v m, o = TPut k v -> P m -> P (<[k := v]> m)) -> (forall k m, o = TDel k -> P m -> P (delete k m)) ->
  pool_all P (pstep root p (j, o)).1.
Proof.
  intros [Hm Hr] Hput Hdel. unfold pstep. destruct (p_maps p !! j) as [[m b]|] eqn:Hj; [|done].
  assert (HPm : P m). { apply Hm. apply elem_of_list_fmap. exists (m, b). split; [done|]. by apply elem_of_list_lookup_2 in Hj. }
  assert (Hset : forall m', P m' -> pool_all P (p_set p j m' b)).
  { intros m' HP'. split; [|done]. intros x Hx. cbn in Hx. apply elem_of_list_fmap in Hx as ([y c]&->&Hy).
    apply elem_of_list_lookup in Hy as (i&Hi). destruct (decide (j = i)) as [<-|Hne].
    - rewrite list_lookup_insert in Hi by (by apply lookup_lt_Some in Hj). by injection Hi as <- <-.
    - rewrite list_lookup_insert_ne in Hi by done. apply Hm. apply elem_of_list_fmap. exists (y, c). split; [done|].
      by apply elem_of_list_lookup_2 in Hi. }
  assert (Hadd : forall m', P m' -> pool_all P (p_add p m')).
  { intros m' HP'. split; [|done]. intros x Hx. cbn in Hx. rewrite map_app in Hx. apply elem_of_app in Hx as [Hx|Hx]; [by apply Hm|].
    cbn in Hx. apply elem_of_list_singleton in Hx as ->. done. }
  destruct o as [k v|k|k| | | | | | |i|i]; cbn [fst]; try done.
  - apply Hset. by apply Hput.
  - apply Hset. by apply Hdel.
  - split; [done|]. intros x. cbn. rewrite elem_of_app. intros [Hx|Hx]; [by apply Hr|]. apply elem_of_list_singleton in Hx as ->. done.
  - by apply Hadd.
  - destruct (p_roots p !! i) as [m'|] eqn:Hi; [|done]. apply Hadd. apply Hr. by apply elem_of_list_lookup_2 in Hi.
  - destruct (p_roots p !! i) as [m'|] eqn:Hi; [|done]. apply Hadd. apply Hr. by apply elem_of_list_lookup_2 in Hi.
Qed.
Lemma pvisited_all (P : gmap (list N) V -> Prop) ops : forall p, pool_all P p ->
  (forall j o k v m, (j, o) ∈ ops -> o = TPut k v -> P m -> P (<[k := v]> m)) ->
  (forall j o k m, (j, o) ∈ ops -> o = TDel k -> P m -> P (delete k m)) ->
  forall m, m ∈ pvisited root ops p -> P m.
Proof.
  induction ops as [|[j o] ops IH]; intros p Hp Hput Hdel m; cbn [pvisited]; rewrite elem_of_app; intros [Hm|Hm].
  - by apply (proj1 Hp).
  - by apply elem_of_nil in Hm.
  - by apply (proj1 Hp).
  - eapply IH; [| | |exact Hm].
    + apply pstep_all; [done| |]; intros; [eapply Hput|eapply Hdel]; try done; by left.
    + intros. eapply Hput; [by right|done|done].
    + intros. eapply Hdel; [by right|done|done].
Qed.
End visited.

(** Main refinement: what the calls return is what the finite maps say. *)
Theorem trie_refines {V} (E : env V) (K : list N -> Prop) ops :
  env_ok E -> prefix_free K -> (forall k, K k -> is_bytes k /\ (length k <= 48)%nat) ->
  (forall j o k, (j, o) ∈ ops -> k ∈ tcall_keys o -> K k) ->
  let root := root_of (eH E) (ertl E) (evhash E) in
  inj_on (eH E) (concat (map (root_inputs (eH E) (ertl E) (evhash E)) (∅ :: pvisited root ops pool0))) ->
  (forall x y, x ∈ concat (map (fun jo => tcall_vals jo.2) ops) -> y ∈ concat (map (fun jo => tcall_vals jo.2) ops) ->
     evhash E x = evhash E y -> x = y) ->
  exists mp, mrun E ops mpool0 = Some (mp, (prun root ops pool0).2).
Proof.
  intros HE HK HKp Hkeys root Hinj Hv.
  set (vals := concat (map (fun jo => tcall_vals jo.2) ops)) in *.
  set (P := fun m : gmap (list N) V => dom_in K m /\ forall k x, m !! k = Some x -> x ∈ vals).
  assert (HP : forall m, m ∈ pvisited root ops pool0 -> P m).
  { apply pvisited_all.
    - split; [|intros m Hm; by apply elem_of_nil in Hm]. intros m Hm. cbn in Hm. apply elem_of_list_singleton in Hm as ->.
      split; intros k x Hx; by rewrite lookup_empty in Hx.
    - intros j o k v m Hin -> [Hd Hx]. split.
      + intros k' x. rewrite lookup_insert_Some. intros [[<- _]|[_ Hk']]; [|by eapply Hd].
        assert (K k) as HKk by (eapply Hkeys; [done|cbn; set_solver]). split; [done|by apply HKp].
      + intros k' x. rewrite lookup_insert_Some. intros [[_ <-]|[_ Hk']]; [|by eapply Hx].
        unfold vals. apply elem_of_list_In, in_concat. exists [v]. split; [|by left].
        apply in_map_iff. exists (j, TPut k v). split; [done|]. by apply elem_of_list_In.
    - intros j o k m Hin -> [Hd Hx]. split; intros k' x; rewrite lookup_delete_Some; intros [_ Hk']; [by eapply Hd|by eapply Hx]. }
  destruct (run_rel E HE K HK (fun k Hk => proj1 (HKp k Hk)) (fun k Hk => proj2 (HKp k Hk)) (pvisited root ops pool0)
     (fun m Hm => proj1 (HP m Hm)) Hinj vals (fun m k x Hm => proj2 (HP m Hm) k x) Hv ops mpool0 pool0) as (mp&Hm&_).
  - by apply init_rel.
  - done.
  - done.
  - by exists mp.
Qed.

(** Plain map calls need no assumption on the hash. *)
Lemma basic_run {V} (E : env V) K ops : env_ok E -> prefix_free K -> (forall k, K k -> is_bytes k) ->
  forall t m, nrep E (Store ∅ ∅ []) (t_root t) m -> dom_in K m -> t_count t = zsize m ->
  Forall basic ops -> (forall o k, o ∈ ops -> k ∈ tcall_keys o -> K k) ->
  exists t', mrun E (map (pair 0%nat) ops) (MPool (Store ∅ ∅ []) [t] []) = Some (MPool (Store ∅ ∅ []) [t'] [], map_obs ops m).
Proof.
  intros HE HK HKb. induction ops as [|o ops IH]; intros t m Hn Hd Hc Hb Hk; [by exists t|].
  apply Forall_cons in Hb as [Hb Hbs]. cbn [map mrun].
  assert (Hk' : forall o0 k, o0 ∈ ops -> k ∈ tcall_keys o0 -> K k) by (intros o0 k Ho; apply Hk; by right).
  assert (Hko : forall k, k ∈ tcall_keys o -> K k) by (intros k; apply Hk; by left).
  unfold mstep. cbn [mp_store mp_tries mp_roots]. change ([t] !! 0%nat) with (Some t). unfold mp_set.
  destruct o as [k v|k|k| | | | | | |i|i]; try done; cbn [map_obs].
  - unfold Put. destruct (put_nrep E HE K HK HKb (Store ∅ ∅ []) (t_gen t) (t_root t) m k v Hn Hd) as (n'&->&Hn'&Hd'); [apply Hko; set_solver|].
    destruct (IH (Trie n' (t_count t + (zsize (<[k := v]> m) - zsize m)) (t_gen t)) (<[k := v]> m)) as (t'&Ht'); try done; [cbn; lia|].
    cbn [mp_tries mp_store mp_roots]. cbn in *. rewrite Ht'. by exists t'.
  - destruct (delete_nrep E HE K HK HKb (Store ∅ ∅ []) (t_root t) m k t Hn Hd) as (t1&->&Hn'&Hd'&Hc'&_); [apply Hko; set_solver|done|].
    destruct (IH t1 (delete k m)) as (t'&Ht'); try done; [lia|]. cbn in *. rewrite Ht'. by exists t'.
  - unfold Get. destruct (get_nrep E HE K HK HKb (Store ∅ ∅ []) (t_gen t) (t_root t) m k Hn Hd) as (n'&tr&->&Hn'); [apply Hko; set_solver|].
    destruct (IH (Trie n' (t_count t) (t_gen t)) m) as (t'&Ht'); try done;[]. cbn in *. rewrite Ht'. by exists t'.
  - destruct (IH t m) as (t'&Ht'); try done;[]. rewrite Ht'. exists t'. unfold Count. by rewrite Hc.
  - destruct (IH t m) as (t'&Ht'); try done;[]. rewrite Ht'. exists t'. unfold IsEmpty.
    by erewrite IsEmpty_spec.
Qed.

Section specruns.
Context {V : Type} (root : gmap (list N) V -> list N).
Lemma prun_app ops1 ops2 : forall p, prun root (ops1 ++ ops2) p =
  ((prun root ops2 (prun root ops1 p).1).1, (prun root ops1 p).2 ++ (prun root ops2 (prun root ops1 p).1).2).
Proof.
  induction ops1 as [|o ops1 IH]; intros p; cbn [app prun fst snd]; [by destruct (prun root ops2 p)|].
  destruct (pstep root p o) as [p1 ob]. rewrite IH. destruct (prun root ops1 p1) as [p2 obs]. done.
Qed.
Lemma prun_cons o ops p : prun root (o :: ops) p =
  ((prun root ops (pstep root p o).1).1, (pstep root p o).2 :: (prun root ops (pstep root p o).1).2).
Proof. cbn [prun]. destruct (pstep root p o) as [p1 ob]. cbn [fst snd]. by destruct (prun root ops p1). Qed.
Lemma pvisited_step j o p m : m ∈ map fst (p_maps p) -> m ∈ pvisited root [(j, o)] p.
Proof. intros Hm. cbn [pvisited]. apply elem_of_app. by left. Qed.
Lemma pvisited_final ops : forall p m, m ∈ map fst (p_maps (prun root ops p).1) -> m ∈ pvisited root ops p.
Proof.
  induction ops as [|o ops IH]; intros p m; [cbn [prun pvisited fst]; rewrite app_nil_r; done|].
  rewrite prun_cons. cbn [fst pvisited]. intros Hm. apply elem_of_app. right. by apply IH.
Qed.
(** Handle 0 keeps the base it was created with. *)
Lemma base0 ops : forall p b, (exists m, p_maps p !! 0%nat = Some (m, b)) ->
  exists m, p_maps (prun root ops p).1 !! 0%nat = Some (m, b).
Proof.
  induction ops as [|[j o] ops IH]; intros p b Hp; [done|]. rewrite prun_cons. cbn [fst]. apply IH.
  destruct Hp as (m&Hm). unfold pstep. destruct (p_maps p !! j) as [[m' b']|] eqn:Hj; [|by exists m].
  assert (Hset : forall x, exists m, p_maps (p_set p j x b') !! 0%nat = Some (m, b)).
  { intros x. unfold p_set. cbn [p_maps]. destruct j as [|j].
    - exists x. rewrite list_lookup_insert by (by apply lookup_lt_Some in Hj). congruence.
    - exists m. by rewrite list_lookup_insert_ne. }
  assert (Hadd : forall x, exists m, p_maps (p_add p x) !! 0%nat = Some (m, b)).
  { intros x. exists m. unfold p_add. cbn [p_maps]. by apply lookup_app_l_Some. }
  destruct o as [k v|k|k| | | | | | |i|i]; cbn [fst p_maps]; eauto.
  - destruct (p_roots p !! i); cbn [fst]; eauto.
  - destruct (p_roots p !! i); cbn [fst]; eauto.
Qed.
Lemma gets_run n m b ks : forall p, p_maps p !! n = Some (m, b) ->
  (prun root (map (fun k => (n, TGet k)) ks) p).2 = map (fun k => OVal (m !! k)) ks.
Proof.
  induction ks as [|k ks IH]; intros p Hp; [done|]. cbn [map]. rewrite prun_cons. unfold pstep. rewrite Hp. cbn [fst snd]. by rewrite IH.
Qed.

(** Runs without their Collapse calls. *)
Lemma uncollapse_run ops : forall p,
  (prun root (uncollapse ops) p).1 = (prun root ops p).1 /\
  (prun root (uncollapse ops) p).2 = keep_obs ops (prun root ops p).2 /\
  forall m, m ∈ pvisited root ops p -> m ∈ pvisited root (uncollapse ops) p.
Proof.
  induction ops as [|[j o] ops IH]; intros p; [done|]. rewrite prun_cons.
  destruct (IH (pstep root p (j, o)).1) as (H1&H2&H3).
  assert (o = TCollapse \/ is_collapse o = false) as [->|Ho] by (destruct o; auto).
  - cbn [uncollapse keep_obs is_collapse]. cbn [fst snd].
    assert (Hp : (pstep root p (j, TCollapse)).1 = p). { unfold pstep. by destruct (p_maps p !! j) as [[? ?]|]. }
    rewrite Hp in *. split; [done|]. split; [done|]. intros m. cbn [pvisited]. rewrite elem_of_app, Hp. intros [Hm|Hm]; [|by apply H3].
    destruct (uncollapse ops); cbn [pvisited]; apply elem_of_app; by left.
  - cbn [uncollapse keep_obs]. rewrite Ho. rewrite prun_cons. cbn [fst snd]. split; [done|]. split; [by rewrite H2|].
    intros m. cbn [pvisited]. rewrite !elem_of_app. intros [Hm|Hm]; [by left|right; by apply H3].
Qed.
Lemma uncollapse_visited ops m : forall p, m ∈ pvisited root (uncollapse ops) p -> m ∈ pvisited root ops p.
Proof.
  induction ops as [|[j o] ops IH]; intros p; [done|]. cbn [uncollapse].
  assert (o = TCollapse \/ is_collapse o = false) as [->|Ho] by (destruct o; auto).
  - cbn [is_collapse]. intros Hm. cbn [pvisited]. apply elem_of_app. right. apply IH.
    assert (Hp : (pstep root p (j, TCollapse)).1 = p). { unfold pstep. by destruct (p_maps p !! j) as [[? ?]|]. }
    by rewrite Hp.
  - rewrite Ho. cbn [pvisited]. rewrite !elem_of_app. intros [Hm|Hm]; [by left|right; by apply IH].
Qed.
Lemma uncollapse_in ops x : x ∈ uncollapse ops -> x ∈ (ops : list (nat * tcall V)).
Proof.
  induction ops as [|[j o] ops IH]; [done|]. cbn [uncollapse]. destruct (is_collapse o); [intros; right; auto|].
  rewrite !elem_of_cons. intros [->|]; auto.
Qed.
End specruns.
