(** C97: a trie shared by threads. *)
From Coq Require Import Lia.
From stdpp Require Import gmap.
From Verif Require Import LockSpec LockModel LockProofs TrieModel TrieConcModel TrieRunProofs TrieProps.
Global Open Scope N_scope.

(* ---------------------------------------------------------------- specification *)
(** What a call does to the contents, and what it answers. *)
Definition map_after {V} (m : gmap (list N) V) (o : gcall V) : gmap (list N) V :=
  match o with
  | GPut k v | GPutValue k v => <[k := v]> m
  | GDelete k => delete k m
  | GGet _ | GHash | GCommit | GCommitAndHash => m
  end.
Definition map_answer {V} (root : gmap (list N) V -> list N) (m : gmap (list N) V) (o : gcall V) : tobs V :=
  match o with
  | GGet k => OVal (m !! k)
  | GPut _ _ | GPutValue _ _ => OChanged true
  | GDelete k => ODeleted (bool_decide (is_Some (m !! k))) (m !! k)
  | GHash | GCommitAndHash => OHash (root m)
  | GCommit => ODone
  end.
(** no call panics: the answer is never None *)
Definition sp_trie {V} (root : gmap (list N) V -> list N) (m : gmap (list N) V) (o : gcall V)
    (m' : gmap (list N) V) (a : option (tobs V)) : Prop :=
  m' = map_after m o /\ a = Some (map_answer root m o).

Definition top_keys {V} (o : gcall V) : list (list N) :=
  match o with GGet k | GPut k _ | GPutValue k _ | GDelete k => [k] | _ => [] end.
Definition top_vals {V} (o : gcall V) : list V := match o with GPut _ v | GPutValue _ v => [v] | _ => [] end.
Definition called {V A} (h : list (event (gcall V) A)) (o : gcall V) : Prop := exists i, EInv i o ∈ h.
(** the contents on the way through a sequence of calls *)
Fixpoint visits {V} (os : list (gcall V)) (m : gmap (list N) V) : list (gmap (list N) V) :=
  m :: match os with [] => [] | o :: os' => visits os' (map_after m o) end.

(* ---------------------------------------------------------------- proofs *)
Lemma lin_was_called {Op A} i o (a : A) g : forall t t', truns (Op:=Op) i t g t' -> HLin i o a ∈ g -> t = TCalled o \/ HInv i o ∈ g.
Proof.
  induction g as [|x g IH]; intros t t' Ht Hin; [by apply elem_of_nil in Hin|].
  inversion Ht as [|? ? t1 ? ? Hm Hr]; subst. apply elem_of_cons in Hin as [<-|Hin].
  - inversion Hm; subst; [by left|done].
  - destruct (IH _ _ Hr Hin) as [E|?]; [|right; by right]. subst.
    inversion Hm; subst; [right; by left|by left].
Qed.
Lemma chosen_called {Op A} (g : list (mark Op A)) o a :
  (forall i, exists t, truns i TIdle g t) -> (o, a) ∈ concat (map chosen g) -> exists i, EInv i o ∈ concat (map seen g).
Proof.
  intros Ht Hin. apply elem_of_list_In, in_concat in Hin as (l & Hl & Hin). apply in_map_iff in Hl as (x & <- & Hx).
  destruct x as [j o'|j o' a'|j a']; cbn in Hin; try done. destruct Hin as [[= <- <-]|[]].
  destruct (Ht j) as [t Hj]. destruct (lin_was_called _ _ _ _ _ _ Hj (proj2 (elem_of_list_In _ _) Hx)) as [?|Hi]; [done|].
  exists j. apply elem_of_list_In, in_concat. exists [EInv j o']. split; [|by left].
  apply in_map_iff. exists (HInv j o'). split; [done|]. by apply elem_of_list_In.
Qed.

Section proofs.
Context {V : Type} (E : env V).
Notation root := (root_of (eH E) (ertl E) (evhash E)).
Lemma alone_body s o s' a : alone (top_next E) s (Read o) s' a ->
  match top_body E s o with Some (s1, ob) => s' = s1 /\ a = Some ob | None => s' = s /\ a = None end.
Proof.
  intros H. inversion H as [c ? ? ? ? Hn|c ? ? s1 l1 ? ? Hn Ha]; subst; cbn in Hn.
  - destruct (top_body E s o) as [[s1 ob]|]; simplify_eq. done.
  - destruct (top_body E s o) as [[s2 ob]|]; simplify_eq.
    inversion Ha as [c' ? ? ? ? Hn'|c' ? ? ? ? ? ? Hn']; subst; cbn in Hn'; simplify_eq. done.
Qed.

Context (HE : env_ok E) (K : list N -> Prop) (HK : prefix_free K) (HKb : forall k, K k -> is_bytes k).

Definition plain (o : gcall V) : Prop := match o with GGet _ | GPut _ _ | GPutValue _ _ | GDelete _ => True | _ => False end.
Lemma plain_step st t m o : nrep E st (t_root t) m -> dom_in K m -> plain o -> (forall k, k ∈ top_keys o -> K k) ->
  exists t', top_body E (st, t) o = Some (st, t', map_answer root m o) /\ nrep E st (t_root t') (map_after m o) /\ dom_in K (map_after m o).
Proof.
  intros Hn Hd Hp Hk. destruct o as [k|k v|k v|k| | |]; try done; cbn [top_body map_after map_answer];
    assert (HKk : K k) by (apply Hk; cbn; set_solver).
  - unfold Get. destruct (get_nrep E HE K HK HKb st (t_gen t) (t_root t) m k Hn Hd HKk) as (n' & tr & -> & Hn').
    eexists. split; [done|]. done.
  - unfold Put. destruct (put_nrep E HE K HK HKb st (t_gen t) (t_root t) m k v Hn Hd HKk) as (n' & -> & Hn' & Hd').
    eexists. split; [done|]. done.
  - unfold Put. destruct (put_nrep E HE K HK HKb st (t_gen t) (t_root t) m k v Hn Hd HKk) as (n' & -> & Hn' & Hd').
    eexists. split; [done|]. done.
  - destruct (delete_nrep E HE K HK HKb st (t_root t) m k t Hn Hd HKk eq_refl) as (t' & -> & Hn' & Hd' & _).
    eexists. split; [done|]. done.
Qed.

Lemma plain_runs l : forall st t m s', nrep E st (t_root t) m -> dom_in K m ->
  (forall o a, (o, a) ∈ l -> plain o /\ forall k, k ∈ top_keys o -> K k) ->
  sruns (fun s o s' a => alone (top_next E) s (Read o) s' a) (st, t) l s' ->
  exists m', sruns (sp_trie root) m l m'.
Proof.
  induction l as [|[o a] l IH]; intros st t m s' Hn Hd Hl Hs; inversion Hs as [|? ? ? s1 ? ? H1 H2]; subst.
  - exists m. constructor.
  - apply alone_body in H1. destruct (Hl o a) as [Hp Hk]; [by left|].
    destruct (plain_step st t m o Hn Hd Hp Hk) as (t' & E1 & Hn' & Hd'). rewrite E1 in H1. destruct H1 as [-> ->].
    destruct (IH st t' (map_after m o) s' Hn' Hd') as [m' Hm']; [|done|].
    { intros o' a' Hin. apply (Hl o' a'). by right. }
    exists m'. econstructor; [|exact Hm']. done.
Qed.

Context (HKl : forall k, K k -> (length k <= 48)%nat).
Context (L : list (gmap (list N) V)) (HL : forall m, m ∈ L -> dom_in K m).
Context (Hinj : inj_on (eH E) (concat (map (root_inputs (eH E) (ertl E) (evhash E)) (∅ :: L)))).
Context (vals : list V) (Hvals : forall m k x, m ∈ L -> m !! k = Some x -> x ∈ vals) (Hvinj : vinj E vals).

Lemma any_step st t m o : store_ok E (QL L) st -> nrep E st (t_root t) m -> dom_in K m -> m ∈ L -> (forall k, k ∈ top_keys o -> K k) ->
  exists st' t', top_body E (st, t) o = Some (st', t', map_answer root m o) /\ store_ok E (QL L) st' /\
    nrep E st' (t_root t') (map_after m o) /\ dom_in K (map_after m o).
Proof.
  intros Hst Hn Hd HmL Hk.
  assert (Hp : plain o \/ ~ plain o) by (destruct o; cbn; tauto). destruct Hp as [Hp|Hp].
  { destruct (plain_step st t m o Hn Hd Hp Hk) as (t' & E1 & ? & ?). exists st, t'. done. }
  destruct o as [| | | | | |]; try (exfalso; apply Hp; exact I); cbn [top_body map_after map_answer].
  - unfold HashValue. destruct (hash_nrep E HE K HK HKb HKl L HL Hinj vals Hvals Hvinj st (t_root t) m Hn HmL) as (n' & -> & Hn').
    do 2 eexists. split; [done|]. done.
  - unfold Commit. destruct (commit_nrep E HE K HK HKb HKl L HL Hinj vals Hvals Hvinj st (t_gen t) (t_root t) m Hn HmL Hst) as (st' & n' & -> & Hle & Hok' & Hn' & _).
    do 2 eexists. split; [done|]. done.
  - unfold Commit. destruct (commit_nrep E HE K HK HKb HKl L HL Hinj vals Hvals Hvinj st (t_gen t) (t_root t) m Hn HmL Hst) as (st' & n' & -> & Hle & Hok' & Hn' & _).
    unfold HashValue. cbn [t_root]. destruct (hash_nrep E HE K HK HKb HKl L HL Hinj vals Hvals Hvinj st' n' m Hn' HmL) as (n2 & -> & Hn2).
    do 2 eexists. split; [done|]. done.
Qed.
Lemma any_runs l : forall st t m s', store_ok E (QL L) st -> nrep E st (t_root t) m -> dom_in K m ->
  (forall x, x ∈ visits (map fst l) m -> x ∈ L) -> (forall o a, (o, a) ∈ l -> forall k, k ∈ top_keys o -> K k) ->
  sruns (fun s o s' a => alone (top_next E) s (Read o) s' a) (st, t) l s' ->
  exists m', sruns (sp_trie root) m l m'.
Proof.
  induction l as [|[o a] l IH]; intros st t m s' Hst Hn Hd HvL Hl Hs; inversion Hs as [|? ? ? s1 ? ? H1 H2]; subst.
  - exists m. constructor.
  - apply alone_body in H1.
    destruct (any_step st t m o Hst Hn Hd) as (st' & t' & E1 & Hst' & Hn' & Hd').
    { apply HvL. cbn. by left. }
    { apply (Hl o a). by left. }
    rewrite E1 in H1. destruct H1 as [-> ->].
    destruct (IH st' t' (map_after m o) s' Hst' Hn' Hd') as [m' Hm']; [| |done|].
    { intros x Hx. apply HvL. cbn. by right. }
    { intros o' a' Hin. apply (Hl o' a'). by right. }
    exists m'. econstructor; [|exact Hm']. done.
Qed.
End proofs.

Lemma visits_all {V} (P : gmap (list N) V -> Prop) os : forall m, P m ->
  (forall o m, o ∈ os -> P m -> P (map_after m o)) -> forall x, x ∈ visits os m -> P x.
Proof.
  induction os as [|o os IH]; intros m Hm Hs x Hx; cbn in Hx; apply elem_of_cons in Hx as [->|Hx]; try done.
  - by apply elem_of_nil in Hx.
  - eapply (IH (map_after m o)); [|intros o' m' Ho'; apply Hs; by right|done]. apply Hs; [by left|done].
Qed.

(* ------------------------------------------------------------------- theorems *)
(** Get, Put, PutValue and Delete by any number of threads, in any interleaving: every
    call answers as a map does when the calls are made one after the other in some order
    that respects which call returned before which was made. No assumption on the hash. *)
Theorem C97_map : forall V (E : env V) (K : list N -> Prop) n c,
  env_ok E -> prefix_free K -> (forall k, K k -> is_bytes k) ->
  reaches top_kind Read (top_next E) (initial new_store_trie n) c ->
  (forall o, called (hist c) o -> plain o /\ forall k, k ∈ top_keys o -> K k) ->
  linearizable (sp_trie (root_of (eH E) (ertl E) (evhash E))) ∅ (hist c).
Proof.
  intros V E K n c HE HK HKb H Hcalls.
  pose proof (object_linearizable _ _ _ _ _ _ _ _ (mutex_ok top_kind Read (top_next E) (fun _ => eq_refl)) new_store_trie I n c H)
    as (g & Hg1 & Hg2 & m' & Hm).
  exists g. split; [done|]. split; [done|]. cbn in Hm.
  eapply (plain_runs E HE K HK HKb); [| | |exact Hm].
  - left. split; [done|]. constructor. by left.
  - intros k x Hx. by rewrite lookup_empty in Hx.
  - intros o a Hin. apply Hcalls. unfold called. rewrite <- Hg1. by eapply chosen_called.
Qed.
Print Assumptions C97_map.

(** With HashValue, Commit and CommitAndHash: these answer the root hash of the contents
    at their moment, and nothing fails. The hash must not collide on what is hashed for
    the contents that some order of the calls goes through. *)
Theorem C97_map_and_root : forall V (E : env V) (K : list N -> Prop) n c,
  let root := root_of (eH E) (ertl E) (evhash E) in
  env_ok E -> prefix_free K -> (forall k, K k -> is_bytes k /\ (length k <= 48)%nat) ->
  reaches top_kind Read (top_next E) (initial new_store_trie n) c ->
  (forall o k, called (hist c) o -> k ∈ top_keys o -> K k) ->
  (forall os, (forall o, o ∈ os -> called (hist c) o) ->
     inj_on (eH E) (concat (map (root_inputs (eH E) (ertl E) (evhash E)) (visits os ∅)))) ->
  (forall o p x y, called (hist c) o -> called (hist c) p -> x ∈ top_vals o -> y ∈ top_vals p -> evhash E x = evhash E y -> x = y) ->
  linearizable (sp_trie root) ∅ (hist c).
Proof.
  intros V E K n c root HE HK HKp H Hkeys Hinj Hv.
  pose proof (object_linearizable _ _ _ _ _ _ _ _ (mutex_ok top_kind Read (top_next E) (fun _ => eq_refl)) new_store_trie I n c H)
    as (g & Hg1 & Hg2 & m' & Hm).
  exists g. split; [done|]. split; [done|]. cbn in Hm.
  set (l := concat (map chosen g)) in *. set (os := map fst l).
  assert (Hos : forall o, o ∈ os -> called (hist c) o).
  { intros o Ho. unfold os in Ho. apply elem_of_list_fmap in Ho as ([o' a] & -> & Hin). unfold called. rewrite <- Hg1.
    by eapply chosen_called. }
  set (vals := concat (map top_vals os)).
  assert (Hval : forall o x, o ∈ os -> x ∈ top_vals o -> x ∈ vals).
  { intros o x Ho Hx. unfold vals. apply elem_of_list_In, in_concat. exists (top_vals o).
    split; [|by apply elem_of_list_In]. apply in_map. by apply elem_of_list_In. }
  assert (HP : forall m, m ∈ visits os ∅ -> dom_in K m /\ forall k x, m !! k = Some x -> x ∈ vals).
  { apply visits_all.
    - split; intros k x Hx; by rewrite lookup_empty in Hx.
    - intros o m Ho [Hd Hx].
      assert (Hi : forall k v, top_keys o = [k] -> top_vals o = [v] -> dom_in K (<[k:=v]> m) /\ forall k' x, <[k:=v]> m !! k' = Some x -> x ∈ vals).
      { intros k v Hko Hvo. split; intros k' x; rewrite lookup_insert_Some; intros [[<- <-]|[_ Hk']]; [|by eapply Hd| |by eapply Hx].
        - assert (HKk : K k) by (eapply Hkeys; [by apply Hos|rewrite Hko; set_solver]). split; [done|by apply HKp].
        - eapply Hval; [done|]. rewrite Hvo. set_solver. }
      destruct o as [k|k v|k v|k| | |]; cbn [map_after]; try done; try (by apply Hi).
      split; intros k' x; rewrite lookup_delete_Some; intros [_ Hk']; [by eapply Hd|by eapply Hx]. }
  assert (Hi1 : inj_on (eH E) (concat (map (root_inputs (eH E) (ertl E) (evhash E)) (∅ :: visits os ∅)))).
  { assert (Hsub : (∅ : gmap (list N) V) ∈ visits os ∅) by (destruct os; by left).
    intros x y Hx Hy. apply (Hinj os Hos).
    + apply elem_of_list_In, in_concat in Hx as (q & Hq & Hx). apply elem_of_list_In, in_concat. exists q. split; [|done].
      cbn [map In] in Hq. destruct Hq as [<-|Hq]; [|done]. apply in_map. by apply elem_of_list_In.
    + apply elem_of_list_In, in_concat in Hy as (q & Hq & Hy). apply elem_of_list_In, in_concat. exists q. split; [|done].
      cbn [map In] in Hq. destruct Hq as [<-|Hq]; [|done]. apply in_map. by apply elem_of_list_In. }
  assert (Hi2 : vinj E vals).
  { intros x y Hx Hy. unfold vals in Hx, Hy.
    apply elem_of_list_In, in_concat in Hx as (q & Hq & Hx). apply in_map_iff in Hq as (o & <- & Ho).
    apply elem_of_list_In, in_concat in Hy as (r & Hr & Hy). apply in_map_iff in Hr as (p & <- & Hp).
    apply (Hv o p); [apply Hos; by apply elem_of_list_In|apply Hos; by apply elem_of_list_In|by apply elem_of_list_In|by apply elem_of_list_In]. }
  eapply (any_runs E HE K HK (fun k Hk => proj1 (HKp k Hk)) (fun k Hk => proj2 (HKp k Hk)) (visits os ∅)
    (fun m Hm => proj1 (HP m Hm)) Hi1 vals (fun m k x Hm => proj2 (HP m Hm) k x) Hi2); [| | | | |exact Hm].
  - split; done.
  - left. split; [done|]. constructor. by left.
  - intros k x Hx. by rewrite lookup_empty in Hx.
  - done.
  - intros o a Hin k Hk. eapply Hkeys; [|done]. apply Hos. unfold os. apply elem_of_list_fmap. by exists (o, a).
Qed.
Print Assumptions C97_map_and_root.

(** No deadlock: if no new calls are made then every schedule comes to an end, and it can
    only end with every call returned. *)
Definition top_size {V} (l : @toplocal V) : nat := match l with Read _ => 1 | Write _ _ => 0 end.
Theorem C97_all_calls_return : forall V (E : env V) n c,
  reaches top_kind Read (top_next E) (initial new_store_trie n) c ->
  exists bound, forall sch c', Forall (fun x => not_call x.2) sch -> exec top_kind Read (top_next E) c sch = Some c' ->
    (length sch <= bound)%nat /\
    ((forall i p, thr c' !! i = Some p -> p = Idle) \/
     exists i l c'', not_call l /\ LockModel.step top_kind Read (top_next E) c' i l = Some c'').
Proof.
  intros V E n c [sch0 H0].
  assert (Hgo : forall s l, exists ch r, top_next E ch s l = Some r).
  { intros s [o|s' a]; exists 0%nat; cbn; [|by eexists]. destruct (top_body E s o) as [[]|]; by eexists. }
  assert (Hend : forall ch s l s' l', top_next E ch s l = Some (s', inl l') -> (top_size l' < top_size l)%nat).
  { intros ch s [o|s1 a] s' l' Hn; cbn in Hn; [|done]. destruct (top_body E s o) as [[]|]; simplify_eq. cbn. lia. }
  exists (work Read top_size c). intros sch c' Hf H. split.
  - pose proof (work_exec _ _ _ _ Hend _ _ _ Hf H). lia.
  - destruct (existsb busy (thr c')) eqn:He.
    + right. apply existsb_exists in He as (p & Hp & Hn). apply elem_of_list_In, elem_of_list_lookup in Hp as [i Hi].
      edestruct (can_go_on top_kind Read (top_next E) Hgo c' i p) as (j & l & c2 & Hl & Hs); [|exact Hi|by destruct p|].
      * eapply linv_exec; [|exact H]. eapply linv_exec; [|exact H0]. apply linv_initial; exact (top_next E).
      * exists j, l, c2. split; [exact Hl|exact Hs].
    + left. intros i p Hi. destruct (busy p) eqn:Hd; [|by destruct p].
      exfalso. assert (existsb busy (thr c') = true); [|congruence].
      apply existsb_exists. exists p. split; [|done]. by eapply elem_of_list_In, elem_of_list_lookup_2.
Qed.
Print Assumptions C97_all_calls_return.

(** What a sequence of calls answers, said without states: each call answers as the map
    that the calls before it have made. *)
Theorem C97_answers : forall V (root : gmap (list N) V -> list N) l m' i o a,
  sruns (sp_trie root) ∅ l m' -> l !! i = Some (o, a) ->
  a = Some (map_answer root (fold_left map_after (map fst (take i l)) ∅) o).
Proof.
  intros V root l m' i o a. generalize (∅ : gmap (list N) V) as m. revert i.
  induction l as [|[o1 a1] l IH]; intros i m Hs Hi; [done|].
  inversion Hs as [|? ? ? m1 ? ? [-> ->] H2]; subst. destruct i as [|i]; cbn in Hi; [by simplify_eq|].
  cbn. eapply IH; [exact H2|done].
Qed.
Print Assumptions C97_answers.

(** Two threads put, one waits for the other and both stay; a third asks for the root. *)
Definition ka : list N := [0x12].
Definition kb : list N := [0x34].
Definition two_puts : list (nat * @label (gcall N)) :=
  [(0, LInv (GPut ka 7%N)); (1, LInv (GPutValue kb 8%N)); (1, LAcq); (1, LEnter); (1, LStep 0);
   (2, LInv (GGet kb)); (1, LStep 0); (1, LUnlock); (0, LAcq); (0, LEnter); (0, LStep 0); (0, LStep 0); (0, LUnlock);
   (2, LAcq); (2, LEnter); (2, LStep 0); (2, LStep 0); (2, LUnlock); (2, LReturn); (1, LReturn); (0, LReturn);
   (0, LInv (GGet ka)); (0, LAcq); (0, LEnter); (0, LStep 0); (0, LStep 0); (0, LUnlock); (0, LReturn);
   (2, LInv GCommitAndHash); (2, LAcq); (2, LEnter)]%nat.
Definition then_root : list (nat * @label (gcall N)) := [(2, LStep 0); (2, LStep 0); (2, LUnlock); (2, LReturn)]%nat.
Example C97_example :
  exists c, reaches top_kind Read (top_next (demo_env idealH)) (initial new_store_trie 3) c /\
    hist c = [EInv 0 (GPut ka 7%N); EInv 1 (GPutValue kb 8%N); EInv 2 (GGet kb);
       ERet 2 (Some (OVal (Some 8))); ERet 1 (Some (OChanged true)); ERet 0 (Some (OChanged true));
       EInv 0 (GGet ka); ERet 0 (Some (OVal (Some 7)));
       EInv 2 GCommitAndHash] /\
    env_ok (demo_env idealH) /\ prefix_free (fun k => is_bytes k /\ length k = 1%nat) /\
    (forall o k, called (hist c) o -> k ∈ top_keys o -> is_bytes k /\ length k = 1%nat) /\
    (forall os, inj_on (eH (demo_env idealH)) (concat (map (root_inputs (eH (demo_env idealH)) (ertl (demo_env idealH)) (evhash (demo_env idealH))) (visits os ∅)))) /\
    (forall x y, evhash (demo_env idealH) x = evhash (demo_env idealH) y -> x = y).
Proof.
  destruct (exec top_kind Read (top_next (demo_env idealH)) (initial new_store_trie 3) two_puts) as [c|] eqn:X.
  2: { exfalso. revert X. vm_compute. discriminate. }
  exists c. split; [by exists two_puts|].
  match goal with |- hist c = ?h /\ _ => assert (Hh : hist c = h) end.
  { match goal with |- hist c = ?h => assert (Some (hist c) = Some h) as [=]; [|done];
      change (Some (hist c)) with (option_map hist (Some c)); rewrite <- X end. vm_compute. reflexivity. }
  clear X. split; [exact Hh|]. split; [by apply demo_env_ok|].
  split; [apply same_length_prefix_free|]. split; [|split].
  - intros o k [i Hi] Hk. rewrite Hh in Hi. repeat (apply elem_of_cons in Hi as [Hi|Hi]); try (by apply elem_of_nil in Hi);
      simplify_eq; cbn in Hk; try (by apply elem_of_nil in Hk); apply elem_of_list_singleton in Hk as ->; (split; [|done]);
      repeat constructor; lia.
  - intros os. apply idealH_inj.
  - intros x y Hxy. change (idealH [x] = idealH [y]) in Hxy. pose proof (idealH_inj [[x]; [y]] [x] [y]) as Hi.
    assert ([x] = [y]) as [=]; [|done]. apply Hi; [by left|right; by left|exact Hxy].
Qed.

(** and what is answered then, with a smaller hash *)
Example C97_example_root :
  let E := demo_env toyH in
  option_map (fun c => last (hist c)) (exec top_kind Read (top_next E) (initial new_store_trie 3) (two_puts ++ then_root))
  = Some (Some (ERet 2 (Some (OHash (root_of (eH E) (ertl E) (evhash E) (<[ka := 7]> (<[kb := 8]> ∅))))))).
Proof. vm_compute. reflexivity. Qed.

(** The mutex is what the theorems rest on: without it one of two puts can be lost. *)
Definition lost_put : list (nat * @label (gcall N)) :=
  [(0, LInv (GPut ka 7%N)); (1, LInv (GPut kb 8%N)); (0, LAcq); (1, LAcq); (0, LStep 0); (1, LStep 0);
   (0, LStep 0); (1, LStep 0); (0, LUnlock); (1, LUnlock); (0, LReturn); (1, LReturn);
   (0, LInv (GGet ka)); (0, LAcq); (0, LStep 0); (0, LStep 0); (0, LUnlock); (0, LReturn)]%nat.
Example C97_without_mutex :
  option_map (fun c => last (hist c)) (exec (fun _ => Shared) Read (top_next (demo_env toyH)) (initial new_store_trie 2) lost_put)
  = Some (Some (ERet 0 (Some (OVal None)))).
Proof. vm_compute. reflexivity. Qed.

(** Collapse does not take the mutex. A Put that comes between its test and its effect is
    lost, although Put answered that it changed the trie, and so are the entries that were
    there before; in either order one after the other nothing is lost. *)
Theorem C97_collapse_refuted :
  exists (st : store) (t : @trie N) (k1 k2 : list N) (v1 v2 : N),
    let E := demo_env toyH in
    let put t := match Put E st t k2 (Some v2) with Some (t', _) => t' | None => t end in
    let get t k := (Get E st t k).2 in
    (exists c, Put E st t k2 (Some v2) = Some (c, true)) /\
    get (Collapse E (put t)) k1 = Some v1 /\ get (Collapse E (put t)) k2 = Some v2 /\
    get (put (Collapse E t)) k1 = Some v1 /\ get (put (Collapse E t)) k2 = Some v2 /\
    get (Collapse_between E t put) k1 = None /\ get (Collapse_between E t put) k2 = None.
Proof.
  pose (p1 := match Put (demo_env toyH) (Store ∅ ∅ []) (NewTrie None) [0x12] (Some 7) with Some (t, _) => t | None => NewTrie None end).
  pose (r := Commit (demo_env toyH) (Store ∅ ∅ []) p1).
  exists r.1.1, r.1.2, [0x12], [0x34], 7, 8. cbn zeta. split; [eexists; vm_compute; reflexivity|].
  repeat split; vm_compute; reflexivity.
Qed.
Print Assumptions C97_collapse_refuted.
