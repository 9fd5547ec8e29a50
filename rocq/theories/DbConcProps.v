(** C72: the databases under concurrent use. Specification: LockSpec.v (linearizable) and
    [sp_store], [sp_cached] at the top of DbConcProofs.v over [s_step] of C33. *)
From Coq Require Import Lia.
From stdpp Require Import gmap.
From Verif Require Import LockSpec LockModel LockProofs DbModel DbProps DbConcModel DbConcProofs.
Global Open Scope N_scope.

(** A cached database over any open database: whatever the number of threads and however
    their calls interleave, the calls answer as if made one after the other on a store
    that starts with the contents of the database below. *)
Theorem C72_cached : forall cap b n c,
  readable b -> writable b -> uncached b -> batchable b ->
  reaches db_kind c_start (c_next cap) (initial (b, []) n) c ->
  linearizable (sp_cached (sk b) (sv b)) (view b) (hist c).
Proof.
  intros cap b n c Hr Hw Hu Hb H.
  refine (object_linearizable _ _ _ _ _ _ _ _ (cached_ok cap b) (b, []) _ n c H).
  split; cbn.
  - split_and!; auto. apply like_refl.
  - split; [constructor|]. intros k v Hin. inversion Hin.
Qed.
Print Assumptions C72_cached.

(** A temporary database over any open database that nobody writes. *)
Theorem C72_temporary : forall d n c,
  readable d -> uncached d ->
  reaches db_kind t_start t_next (initial (TS d ∅ ∅) n) c ->
  linearizable (sp_store true true) (view d) (hist c).
Proof.
  intros d n c Hr Hu H.
  pose proof (object_linearizable _ _ _ _ _ _ _ _ (temporary_ok d) (TS d ∅ ∅) (conj eq_refl (conj Hr Hu)) n c H) as (g & Hg1 & Hg2 & m' & Hm).
  exists g. split; [done|]. split; [done|]. revert Hm. generalize (concat (map chosen g)) as l.
  assert (Heq : forall k, tabs (TS d ∅ ∅) k = view d k).
  { intros k. unfold tabs. cbn [view t_read t_mem t_del]. rewrite decide_False by set_solver. by rewrite lookup_empty. }
  intros l Hl. destruct Hl as [m|m o a m1 l m2 [H1 H2] Hl].
  - exists (view d). constructor.
  - exists m2. econstructor; [|exact Hl].
    destruct (s_step_ext true true m (view d) o Heq) as [E1 E2].
    split; [congruence|]. intros k. by rewrite H2, E2.
Qed.
Print Assumptions C72_temporary.

(** The single-key calls of a MemDB, which takes no lock. *)
Inductive mop := MPut (k v : slice) | MGet (k : slice) | MHas (k : slice) | MDel (k : slice).
Definition op_of (o : mop) : op :=
  match o with MPut k v => OPut k v | MGet k => OGet k | MHas k => OHas k | MDel k => ODel k end.
Theorem C72_memdb : forall n c,
  reaches (fun o => m_kind (op_of o)) (fun o => m_start (op_of o)) m_next (initial ∅ n) c ->
  linearizable (fun m o => sp_store true true m (op_of o)) empty_store (hist c).
Proof.
  intros n c H.
  assert (O : object_ok (fun o => m_kind (op_of o)) (fun o => m_start (op_of o)) m_next
    (fun m o => sp_store true true m (op_of o)) (fun _ => True) (fun m => view (Mem m))
    (fun o l _ => l = MOp (op_of o)) (fun _ _ _ _ => False)).
  { split; try done.
    - intros [] s _ _; done.
    - intros o l s ch s' l' _ _ -> Hn. cbn [m_next] in Hn. destruct (step (Mem s) (op_of o)) as [[] r]; simplify_eq.
    - intros o l s ch s' a _ _ -> Hn. cbn [m_next] in Hn.
      destruct (step_ok (Mem s) (op_of o) I I (or_introl I) (or_introl I)) as (A & _ & _ & D).
      destruct (step (Mem s) (op_of o)) as [[] r]; simplify_eq. split; [done|]. split; [|done].
      split; [exact A|]. exact D. }
  pose proof (object_linearizable _ _ _ _ _ _ _ _ O ∅ I n c H) as (g & Hg1 & Hg2 & m' & Hm).
  exists g. split; [done|]. split; [done|]. revert Hm. generalize (concat (map chosen g)) as l.
  intros l Hl. cbn in Hl. inversion Hl as [m|m o a m1 l' m2 [H1 H2] Hl']; subst.
  - exists empty_store. constructor.
  - exists m'. econstructor; [|exact Hl'].
    destruct (s_step_ext true true (view (Mem ∅)) empty_store (op_of o) (fun k => lookup_empty k)) as [E1 E2].
    split; [rewrite <- E1; done|]. intros k. by rewrite H2, E2.
Qed.
Print Assumptions C72_memdb.

(** Batch of a MemDB is not one step for the other threads: a reader sees one key of the
    batch and then misses the other. *)
Definition kx : slice := Some [1].
Definition ky : slice := Some [2].
Definition torn_batch : op := OBatch [CPut kx (Some [7]); CPut ky (Some [7])].
Definition torn_schedule : list (nat * label) :=
  [(0, LInv torn_batch); (0, LAcq); (0, LStep 0);
   (1, LInv (OGet kx)); (1, LAcq); (1, LStep 0); (1, LUnlock); (1, LReturn);
   (1, LInv (OGet ky)); (1, LAcq); (1, LStep 0); (1, LUnlock); (1, LReturn);
   (0, LStep 0); (0, LStep 0); (0, LUnlock); (0, LReturn)]%nat.
Definition torn_history : list (event op out) :=
  [EInv 0 torn_batch; EInv 1 (OGet kx); ERet 1 (RVal (DOk (Some [7])));
   EInv 1 (OGet ky); ERet 1 (RVal (DOk None)); ERet 0 (RUnit (DOk tt))].

Ltac cl_leaf :=
  repeat match goal with H : sp_store _ _ _ _ _ _ |- _ => destruct H as [? ?] end;
  repeat match goal with H : context [(s_step _ _ _ _)] |- _ => progress cbn [s_step fst snd torn_batch refused kx ky str default] in H end;
  subst; simplify_eq;
  repeat match goal with H : forall k, ?m k = _, E : context [?m ?x] |- _ => rewrite (H x) in E end;
  match goal with E : _ = _ |- _ => discriminate E | E : _ = _ |- _ => vm_compute in E; discriminate E end.
Ltac cl_step H :=
  let E := fresh "E" in let Hs := fresh "Hs" in let H' := fresh "H" in
  inversion H as [?|? ? ? i ? ? ? E Hs H'|? ? ? ? ? E H'|? ? ? ? ? E H']; subst; clear H;
  unfold fset in E; repeat (destruct (decide _); subst); try discriminate; try (injection E as <-);
  try (exfalso; cl_leaf); try cl_step H'.
Theorem C72_memdb_batch_refuted :
  exists c, reaches m_kind m_start m_next (initial ∅ 2) c /\ hist c = torn_history /\
    ~ linearizable (sp_store true true) empty_store (hist c).
Proof.
  destruct (exec m_kind m_start m_next (initial ∅ 2) torn_schedule) as [c|] eqn:E.
  2: { exfalso. revert E. vm_compute. discriminate. }
  assert (Hh : hist c = torn_history).
  { assert (Some (hist c) = Some torn_history) as [=]; [|done].
    change (Some (hist c)) with (option_map hist (Some c)). rewrite <- E. vm_compute. reflexivity. }
  exists c. split; [by exists torn_schedule|]. split; [exact Hh|]. rewrite Hh. clear.
  intros H%linearizable_canlin. unfold torn_history in H.
  cl_step H.
Qed.
Print Assumptions C72_memdb_batch_refuted.

(** The micro-steps are those of the sequential model: a call that runs alone, from any
    state, does exactly what C33-C35 are about. *)
Theorem C72_cached_alone : forall cap b c o b' c' a,
  NoDup c.*1 -> batchable b ->
  alone (c_next cap) (b, c) (c_start o) (b', c') a ->
  step (Cached cap b c) o = (Cached cap b' c', a).
Proof. exact cached_alone. Qed.
Print Assumptions C72_cached_alone.
Theorem C72_temporary_alone : forall s o s' a,
  alone t_next s (t_start o) s' a ->
  step (Tmp (t_read s) (t_mem s) (t_del s)) o = (Tmp (t_read s') (t_mem s') (t_del s'), a).
Proof. exact temporary_alone. Qed.
Print Assumptions C72_temporary_alone.

(** No deadlock: whatever has happened, if no new calls are made then every call that is
    waiting or running can return ... *)
Definition all_idle {S L} (c : @conf S L op out) : Prop := forall i p, thr c !! i = Some p -> p = Idle.
Definition no_call (x : nat * @label op) : Prop := match x.2 with LInv _ => False | _ => True end.
Theorem C72_no_deadlock : forall cap b n c,
  reaches db_kind c_start (c_next cap) (initial (b, []) n) c ->
  exists sch c', Forall no_call sch /\ exec db_kind c_start (c_next cap) c sch = Some c' /\ all_idle c'.
Proof.
  intros cap b n c [sch H]. apply (all_return _ _ _ c_size (c_goes_on cap) (c_ends cap)).
  eapply linv_exec; [|exact H]. apply linv_initial; assumption || exact (c_next cap) || exact t_next.
Qed.
Print Assumptions C72_no_deadlock.
Theorem C72_no_deadlock_temporary : forall d n c,
  reaches db_kind t_start t_next (initial (TS d ∅ ∅) n) c ->
  exists sch c', Forall no_call sch /\ exec db_kind t_start t_next c sch = Some c' /\ all_idle c'.
Proof.
  intros d n c [sch H]. apply (all_return _ _ _ t_size t_goes_on t_ends).
  eapply linv_exec; [|exact H]. apply linv_initial; assumption || exact (c_next cap) || exact t_next.
Qed.
Print Assumptions C72_no_deadlock_temporary.
(** ... and does, under every schedule: a schedule without new calls either ends with
    every call returned or can be continued, and cannot go on for ever. *)
Theorem C72_all_calls_return : forall cap b n c,
  reaches db_kind c_start (c_next cap) (initial (b, []) n) c ->
  exists bound, forall sch c', Forall no_call sch -> exec db_kind c_start (c_next cap) c sch = Some c' ->
    (length sch <= bound)%nat /\
    (all_idle c' \/ exists i l c'', no_call (i, l) /\ LockModel.step db_kind c_start (c_next cap) c' i l = Some c'').
Proof.
  intros cap b n c [sch0 H0]. exists (work c_start c_size c). intros sch c' Hf H. split.
  - pose proof (work_exec _ _ _ _ (c_ends cap) _ _ _ Hf H). lia.
  - destruct (existsb busy (thr c')) eqn:He.
    + right. apply existsb_exists in He as (p & Hp & Hn).
      apply elem_of_list_In, elem_of_list_lookup in Hp as [i Hi].
      edestruct (can_go_on db_kind c_start (c_next cap) (c_goes_on cap) c' i p) as (j & l & c2 & Hl & Hs); [|exact Hi|by destruct p|].
      * eapply linv_exec; [|exact H]. eapply linv_exec; [|exact H0]. apply linv_initial; exact (c_next cap).
      * exists j, l, c2. split; [exact Hl|exact Hs].
    + left. intros i p Hi. destruct (busy p) eqn:Hd; [|by destruct p].
      exfalso. assert (existsb busy (thr c') = true); [|congruence].
      apply existsb_exists. exists p. split; [|done]. by eapply elem_of_list_In, elem_of_list_lookup_2.
Qed.
Print Assumptions C72_all_calls_return.

(** Any object whose methods all run inside one mutex (Trie, RevertableTrie, SyncTrie,
    LastBlockMap, reserved addresses: every method of the object that is used): one call
    at a time, each as if it ran alone. The methods may do anything. *)
Theorem C72_mutex : forall (S L Op A : Type) (kind : Op -> lkind) (start : Op -> L)
    (next : nat -> S -> L -> option (S * (L + A))) s0 n c,
  (forall o, kind o = Excl) ->
  reaches kind start next (initial s0 n) c ->
  linearizable (fun s o s' a => alone next s (start o) s' a) s0 (hist c).
Proof.
  intros S L Op A kind start next s0 n c Hk H.
  exact (object_linearizable _ _ _ _ _ _ _ _ (mutex_ok kind start next Hk) s0 I n c H).
Qed.
Print Assumptions C72_mutex.

(** Two readers that miss the cache for the same key at the same time, and a writer that
    comes between their calls and the next read. *)
Definition race : list (nat * label) :=
  [(0, LInv (OGet kx)); (0, LAcq); (0, LStep 0); (0, LStep 0);
   (1, LInv (OGet kx)); (1, LAcq); (1, LStep 0); (1, LStep 0);
   (2, LInv (OPut kx (Some [9%N]))); (2, LAcq);
   (0, LStep 0); (1, LStep 0); (0, LUnlock); (1, LUnlock);
   (2, LEnter); (2, LStep 0); (2, LStep 0); (2, LUnlock); (2, LReturn);
   (0, LReturn); (1, LReturn);
   (0, LInv (OGet kx)); (0, LAcq); (0, LStep 0); (0, LStep 0); (0, LStep 0); (0, LUnlock); (0, LReturn)]%nat.
Example C72_example :
  option_map hist (exec db_kind c_start (c_next 2) (initial (Ldb false {[ [1] := [7] ]}, []) 3) race) =
  Some [EInv 0 (OGet kx); EInv 1 (OGet kx); EInv 2 (OPut kx (Some [9%N])); ERet 2 (RUnit (DOk tt));
        ERet 0 (RVal (DOk (Some [7%N]))); ERet 1 (RVal (DOk (Some [7%N])));
        EInv 0 (OGet kx); ERet 0 (RVal (DOk (Some [9%N])))].
Proof. vm_compute. reflexivity. Qed.
(** a new reader waits for the writer that waits for the old reader *)
Example C72_waits :
  exec db_kind c_start (c_next 2) (initial (Ldb false ∅, []) 3)
    [(0, LInv (OGet kx)); (0, LAcq); (1, LInv (ODel kx)); (1, LAcq); (2, LInv (OGet kx)); (2, LAcq)]%nat = None /\
  exec db_kind c_start (c_next 2) (initial (Ldb false ∅, []) 3)
    [(0, LInv (OGet kx)); (0, LAcq); (1, LInv (ODel kx)); (1, LAcq); (1, LEnter)]%nat = None.
Proof. split; vm_compute; reflexivity. Qed.
(** a temporary database over one entry: a deletion, then concurrent reads *)
Example C72_temporary_example :
  option_map hist (exec db_kind t_start t_next (initial (TS (Mem {[ [1] := [7] ]}) ∅ ∅) 2)
    [(0, LInv (OBatch [CDel kx; CPut ky (Some [8%N])])); (0, LAcq); (0, LEnter); (0, LStep 0); (0, LStep 0);
     (1, LInv (OGet ky)); (0, LStep 0); (0, LStep 0); (0, LStep 0); (0, LUnlock); (1, LAcq); (1, LStep 0); (1, LStep 0); (1, LUnlock); (1, LReturn);
     (1, LInv (OHas kx)); (1, LAcq); (1, LStep 0); (1, LUnlock); (1, LReturn); (0, LReturn)]%nat) =
  Some [EInv 0 (OBatch [CDel kx; CPut ky (Some [8%N])]); EInv 1 (OGet ky); ERet 1 (RVal (DOk (Some [8%N])));
        EInv 1 (OHas kx); ERet 1 (RBool (DOk false)); ERet 0 (RUnit (DOk tt))].
Proof. vm_compute. reflexivity. Qed.
Example C72_memdb_example :
  option_map hist (exec (fun o => m_kind (op_of o)) (fun o => m_start (op_of o)) m_next (initial ∅ 2)
    [(0, LInv (MPut kx (Some [7%N]))); (1, LInv (MGet kx)); (1, LAcq); (0, LAcq); (0, LStep 0); (1, LStep 0); (1, LUnlock); (1, LReturn)]%nat) =
  Some [EInv 0 (MPut kx (Some [7%N])); EInv 1 (MGet kx); ERet 1 (RVal (DOk (Some [7%N])))].
Proof. vm_compute. reflexivity. Qed.
