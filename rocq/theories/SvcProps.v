(** C53 (service lifecycle) and C54 (LruMap). *)
From Verif Require Import BasicProofs.
Global Open Scope N_scope.

(* -------------------------------------------------------------------- C53 *)
(** Specification: hooks run in the cyclic order init, start, close, init, ... The
    state is the number of hooks run so far. A call runs its hook exactly when it is
    the next one in the cycle; it fails exactly when it is out of order or its hook
    fails. *)
Definition lifecycle (n : nat) : scall :=
  match (n mod 3)%nat with O => CInit | S O => CStart | _ => CClose end.
Definition scall_eqb (a b : scall) : bool :=
  match a, b with CInit, CInit | CStart, CStart | CClose, CClose => true | _, _ => false end.
(** hooks run, and for every call whether it failed *)
Fixpoint cycle_run (n : nat) (cs : list (scall * bool)) : nat * list bool :=
  match cs with
  | [] => (n, [])
  | (c, ok) :: r =>
      if scall_eqb c (lifecycle n)
      then let '(n', fs) := cycle_run (S n) r in (n', negb ok :: fs)
      else let '(n', fs) := cycle_run n r in (n', true :: fs)
  end.

Definition svc_rep (s : sstatus) (n : nat) : Prop :=
  match s with
  | SSCreated | SSStopped => (n mod 3 = 0)%nat
  | SSInitialized => (n mod 3 = 1)%nat
  | SSStarted => (n mod 3 = 2)%nat
  end.

Lemma mod3_S n : ((S n) mod 3 = if (n mod 3 =? 2)%nat then 0%nat else S (n mod 3))%nat.
Proof. destruct (Nat.eqb_spec (n mod 3) 2); lia. Qed.

Lemma svc_run_cycle cs : forall s n, svc_rep s n ->
  exists hs, (svc_run s cs).1.2 = hs /\ hs = map lifecycle (seq n (length hs)) /\
    cycle_run n cs = ((n + length hs)%nat, map (fun e => match e with Some _ => true | None => false end) (svc_run s cs).2) /\
    svc_rep (svc_run s cs).1.1 (n + length hs).
Proof.
  induction cs as [|[c ok] cs IH]; intros s n Hr; cbn [svc_run cycle_run].
  { exists []. cbn. by rewrite Nat.add_0_r. }
  destruct (svc_call s c ok) as [[s1 h] e] eqn:E.
  destruct (svc_run s1 cs) as [[s2 hs] es] eqn:E2. cbn [fst snd].
  assert (if scall_eqb c (lifecycle n)
          then h = Some c /\ c = lifecycle n /\ svc_rep s1 (S n) /\ e = (if ok then None else Some ErrHook)
          else h = None /\ s1 = s /\ e <> None) as Hstep.
  { unfold svc_call in E. unfold lifecycle. unfold svc_rep in *. rewrite mod3_S.
    destruct s; rewrite Hr; destruct c; cbn in E |- *; injection E as <- <- <-; repeat split; done. }
  destruct (scall_eqb c (lifecycle n)).
  - destruct Hstep as (-> & -> & Hr1 & ->).
    destruct (IH s1 (S n) Hr1) as (hs' & H1 & H2 & H3 & H4). rewrite E2 in H1, H3, H4. cbn [fst snd] in *. subst hs'.
    exists (lifecycle n :: hs). split; [done|]. split; [cbn [length seq map]; by f_equal|].
    rewrite H3. cbn [map length]. replace (n + S (length hs))%nat with (S n + length hs)%nat by lia.
    split; [by destruct ok|done].
  - destruct Hstep as (-> & -> & He).
    destruct (IH s n Hr) as (hs' & H1 & H2 & H3 & H4). rewrite E2 in H1, H3, H4. cbn [fst snd] in *. subst hs'.
    exists hs. split; [done|]. split; [done|]. rewrite H3. cbn [map]. split; [by destruct e|done].
Qed.

(** Under any sequence of Init, Start and Close calls and any hook outcomes, the hooks
    that run are a prefix of init, start, close, init, start, close, ...; and each
    call fails exactly when the specification says so. *)
Theorem C53_hooks_in_order : forall calls,
  let '(s, hooks, errs) := svc_run SSCreated calls in
  hooks = map lifecycle (seq 0 (length hooks)) /\
  cycle_run 0 calls = (length hooks, map (fun e => match e with Some _ => true | None => false end) errs).
Proof.
  intros cs. destruct (svc_run SSCreated cs) as [[s hs] es] eqn:E.
  destruct (svc_run_cycle cs SSCreated 0%nat eq_refl) as (hs' & H1 & H2 & H3 & _). rewrite E in *. cbn [fst snd] in *.
  subst hs'. done.
Qed.
Print Assumptions C53_hooks_in_order.

(** The status is the one the last hook leads to; a service whose hooks never ran is
    as created. *)
Theorem C53_status : forall calls,
  let '(s, hooks, errs) := svc_run SSCreated calls in
  s = match last hooks with
      | None => SSCreated
      | Some CInit => SSInitialized
      | Some CStart => SSStarted
      | Some CClose => SSStopped
      end.
Proof.
  intros calls. induction calls as [|[c ok] calls IH] using rev_ind; [done|].
  assert (forall a b s, svc_run s (a ++ b) =
    let '(s1, h1, e1) := svc_run s a in let '(s2, h2, e2) := svc_run s1 b in (s2, h1 ++ h2, e1 ++ e2)) as Happ.
  { clear. induction a as [|[c ok] a IH]; intros b s; cbn [app svc_run]; [by destruct (svc_run s b) as [[? ?] ?]|].
    destruct (svc_call s c ok) as [[s1 h] e]. rewrite IH. destruct (svc_run s1 a) as [[s2 hs] es].
    destruct (svc_run s2 b) as [[s3 hs3] es3]. by destruct h. }
  rewrite Happ. destruct (svc_run SSCreated calls) as [[s hs] es]. cbn [svc_run].
  destruct (svc_call s c ok) as [[s1 h] e] eqn:E. unfold svc_call in E.
  destruct c, s; cbn in E; injection E as <- <- <-; rewrite ?app_nil_r, ?last_snoc; done.
Qed.
Print Assumptions C53_status.

(** Which error an out-of-order call gets, and that it changes nothing. *)
Theorem C53_errors : forall s c ok s' h e,
  svc_call s c ok = (s', h, e) -> h = None ->
  s' = s /\
  e = Some (match c, s with
            | CInit, SSInitialized => ErrAlreadyInitialized
            | CInit, _ => ErrAlreadyStarted
            | CStart, _ => ErrNeedInitialization
            | CClose, SSStopped => ErrAlreadyStopped
            | CClose, _ => ErrNotStarted
            end).
Proof.
  intros s c ok s' h e H ->. unfold svc_call in H. destruct c, s; cbn in H; try discriminate; by inversion H.
Qed.
Print Assumptions C53_errors.

(** Finding: a stopped service can be initialised again, so a hook can run twice. *)
Theorem C53_at_most_once_refuted :
  ~ (forall calls, NoDup (svc_run SSCreated calls).1.2).
Proof.
  intros H. specialize (H [(CInit, true); (CStart, true); (CClose, true); (CInit, true)]). vm_compute in H.
  inversion H as [|x l Hn _ E]. apply Hn. do 2 right. left.
Qed.
Print Assumptions C53_at_most_once_refuted.

(** Finding: a failing hook still advances the state: after a failed Init, Start runs
    and Init is refused. *)
Theorem C53_failed_hook_advances :
  svc_run SSCreated [(CInit, false); (CInit, true); (CStart, true)] =
    (SSStarted, [CInit; CStart], [Some ErrHook; Some ErrAlreadyInitialized; None]).
Proof. reflexivity. Qed.
Print Assumptions C53_failed_hook_advances.

Theorem C53_failed_hook_keeps_state_refuted :
  ~ (forall s c s' h e, svc_call s c false = (s', h, e) -> s' = s).
Proof. intros H. discriminate (H SSCreated CInit _ _ _ eq_refl). Qed.
Print Assumptions C53_failed_hook_keeps_state_refuted.

Example C53_example :
  (svc_run SSCreated [(CStart, true); (CInit, true); (CClose, true); (CStart, false); (CClose, true); (CClose, true)]).1.2
    = [CInit; CStart; CClose].
Proof. reflexivity. Qed.

(* -------------------------------------------------------------------- C54 *)
Section lru.
  Context {V : Type}.

  (** Specification: a map from keys to a value and the time of its last use, where
      adding or successfully getting a key is a use. Adding to a full map evicts a
      key whose last use is earliest. *)
  Local Notation stamped := (gmap N (V * nat)).
  Inductive lspec (cap t : nat) (m : stamped) : lru_op V -> stamped -> lru_res V -> Prop :=
  | LsAddOld k v x : m !! k = Some x -> lspec cap t m (LAdd k v) m (LBool false)
  | LsAdd k v : m !! k = None -> (size m < cap)%nat ->
      lspec cap t m (LAdd k v) (<[k := (v, t)]> m) (LBool true)
  | LsEvict k v k0 x0 : m !! k = None -> (cap <= size m)%nat -> m !! k0 = Some x0 ->
      (forall k1 x1, m !! k1 = Some x1 -> k1 <> k0 -> (x0.2 < x1.2)%nat) ->
      lspec cap t m (LAdd k v) (<[k := (v, t)]> (base.delete k0 m)) (LBool true)
  | LsGet k v t0 : m !! k = Some (v, t0) -> lspec cap t m (LGet k) (<[k := (v, t)]> m) (LVal (Some v))
  | LsGetNone k : m !! k = None -> lspec cap t m (LGet k) m (LVal None)
  | LsContains k : lspec cap t m (LContains k) m (LBool (match m !! k with Some _ => true | None => false end))
  | LsRemove k : lspec cap t m (LRemove k) (base.delete k m) LNone
  | LsClear : lspec cap t m LClear ∅ LNone.
  Inductive lspec_run (cap : nat) : nat -> stamped -> list (lru_op V) -> stamped -> list (lru_res V) -> Prop :=
  | LrNil t m : lspec_run cap t m [] m []
  | LrCons t m o m1 r os m2 rs : lspec cap t m o m1 r -> lspec_run cap (S t) m1 os m2 rs ->
      lspec_run cap t m (o :: os) m2 (r :: rs).

  (** The list from most to least recently used. *)
  Inductive lrep : lru_state V -> stamped -> nat -> Prop :=
  | RepNil t : lrep [] ∅ t
  | RepCons k v t0 t l m : (t0 < t)%nat -> m !! k = None -> lrep l m t0 -> lrep ((k, v) :: l) (<[k := (v, t0)]> m) t.

  Lemma lrep_bound l m t : lrep l m t -> forall k x, m !! k = Some x -> (x.2 < t)%nat.
  Proof.
    induction 1 as [t|k v t0 t l m Ht Hk Hr IH]; intros k1 x H; [done|].
    apply lookup_insert_Some in H as [[<- <-]|[_ H]]; [done|]. specialize (IH _ _ H). lia.
  Qed.
  Lemma lrep_mono l m t t' : lrep l m t -> (t <= t')%nat -> lrep l m t'.
  Proof. destruct 1; intros; [constructor|]. constructor; [lia|done..]. Qed.
  Lemma lrep_size l m t : lrep l m t -> size m = length l.
  Proof.
    induction 1 as [t|k v t0 t l m Ht Hk Hr IH]; [apply map_size_empty|].
    rewrite map_size_insert_None by done. cbn [length]. lia.
  Qed.
  Lemma lrep_find l m t k : lrep l m t -> lru_find k l = fst <$> m !! k.
  Proof.
    induction 1 as [t|k' v t0 t l m Ht Hk Hr IH]; [done|]. cbn [lru_find].
    destruct (N.eqb_spec k k') as [->|]; [by rewrite lookup_insert|]. by rewrite lookup_insert_ne.
  Qed.
  Lemma lrep_drop l m t k : lrep l m t -> lrep (lru_drop k l) (base.delete k m) t.
  Proof.
    induction 1 as [t|k' v t0 t l m Ht Hk Hr IH]; [rewrite delete_empty; constructor|]. cbn [lru_drop].
    destruct (N.eqb_spec k k') as [->|].
    - rewrite delete_insert by done. eapply lrep_mono; [exact Hr|lia].
    - rewrite delete_insert_ne by done. constructor; [done| |done]. by rewrite lookup_delete_ne.
  Qed.
  (** dropping the last entry removes the key with the earliest stamp *)
  Lemma lrep_last l m t k v : lrep (l ++ [(k, v)]) m t ->
    exists t0, m !! k = Some (v, t0) /\ lrep l (base.delete k m) t /\
      forall k1 x1, m !! k1 = Some x1 -> k1 <> k -> (t0 < x1.2)%nat.
  Proof.
    revert m t; induction l as [|[k' v'] l IH]; intros m t H; cbn [app] in H;
      inversion H as [|a b t1 t2 l' m' Ht Hk Hr]; subst.
    - inversion Hr; subst. exists t1. rewrite lookup_insert. split; [done|].
      rewrite delete_insert by done. split; [constructor|]. intros k1 x1 H1 Hne. rewrite lookup_insert_ne in H1 by done. done.
    - destruct (IH _ _ Hr) as (t0 & H1 & H2 & H3). assert (k <> k') as Hne by congruence.
      exists t0. rewrite lookup_insert_ne by done. split; [done|]. split.
      + rewrite delete_insert_ne by done. constructor; [done| |done]. by rewrite lookup_delete_ne.
      + intros k1 x1 Hl Hn. apply lookup_insert_Some in Hl as [[<- <-]|[_ Hl]]; [|by eapply H3].
        cbn [snd]. exact (lrep_bound _ _ _ Hr _ _ H1).
  Qed.

  Lemma lru_step_spec cap l m t o : (0 < cap)%nat -> (length l <= cap)%nat -> lrep l m t ->
    exists m', lspec cap t m o m' (lru_step cap l o).2 /\ lrep (lru_step cap l o).1 m' (S t) /\
      (length (lru_step cap l o).1 <= cap)%nat.
  Proof.
    intros Hc Hl Hr. pose proof (lrep_size _ _ _ Hr) as Hs.
    assert (lrep l m (S t)) as Hr' by (eapply lrep_mono; [done|lia]).
    assert (forall k, (length (lru_drop k l) <= length l)%nat) as Hdl.
    { intros k. clear. induction l as [|[k' v'] l IH]; cbn [lru_drop]; [done|]. destruct (k =? k'); cbn [length]; lia. }
    destruct o as [k v|k|k|k|]; cbn [lru_step].
    - rewrite (lrep_find _ _ _ k Hr). destruct (m !! k) as [x|] eqn:Ek; cbn [fmap option_fmap option_map fst snd].
      { exists m. split; [by econstructor|]. done. }
      destruct (decide (length l < cap)%nat) as [Hlt|Hge].
      + rewrite take_ge by (cbn [length]; lia). exists (<[k := (v, t)]> m). split; [apply LsAdd; [done|lia]|].
        split; [by constructor; [lia|..]|]. cbn [length]. lia.
      + destruct l as [|p l0 _] using rev_ind; [cbn [length] in Hge; lia|]. destruct p as [k0 v0].
        destruct (lrep_last _ _ _ _ _ Hr) as (t0 & H1 & H2 & H3). rewrite app_length in Hl, Hge. cbn [length] in Hl, Hge.
        assert (take cap ((k, v) :: l0 ++ [(k0, v0)]) = (k, v) :: l0) as ->.
        { change ((k, v) :: l0 ++ [(k0, v0)]) with (((k, v) :: l0) ++ [(k0, v0)]). apply take_app_alt. cbn [length]. lia. }
        exists (<[k := (v, t)]> (base.delete k0 m)). rewrite app_length in Hs. cbn [length] in Hs.
        split; [eapply LsEvict; [done|lia|done|]; intros k1 x1 A B; cbn [snd]; by eapply H3|].
        assert (k0 <> k) by congruence.
        split; [constructor; [lia| |done]; by rewrite lookup_delete_ne|]. cbn [length]. lia.
    - rewrite (lrep_find _ _ _ k Hr). destruct (m !! k) as [[x t0]|] eqn:Ek; cbn [fmap option_fmap option_map fst snd].
      + exists (<[k := (x, t)]> m). split; [by econstructor|]. split.
        * rewrite <- insert_delete_insert. constructor; [lia|apply lookup_delete|by apply lrep_drop].
        * cbn [length]. assert (lru_find k l = Some x) as Hf by (by rewrite (lrep_find _ _ _ k Hr), Ek).
          enough (S (length (lru_drop k l)) <= length l)%nat by lia.
          clear -Hf. induction l as [|[k' v'] l IH]; cbn [lru_find] in Hf; [done|]. cbn [lru_drop].
          destruct (k =? k'); cbn [length]; [lia|]. specialize (IH Hf). lia.
      + exists m. split; [by constructor|]. done.
    - exists m. rewrite (lrep_find _ _ _ k Hr). split; [|done]. cbn [snd].
      replace (match fst <$> m !! k with Some _ => true | None => false end)
        with (match m !! k with Some _ => true | None => false end) by (by destruct (m !! k)).
      constructor.
    - exists (base.delete k m). split; [constructor|]. split; [by apply lrep_drop|]. cbn [fst]. specialize (Hdl k). lia.
    - exists ∅. split; [constructor|]. split; [constructor|]. cbn. lia.
  Qed.
End lru.

(** Every history of a map with capacity [cap] > 0 is one of the specification, with
    the same results; the number of entries never exceeds the capacity; and what the
    map finds afterwards is what the specification holds. *)
Theorem C54_lru : forall (V : Type) cap (os : list (lru_op V)), (0 < cap)%nat ->
  let '(l, rs) := lru_run cap [] os in
  exists m, lspec_run cap 0 ∅ os m rs /\ (length l <= cap)%nat /\ size m = length l /\
    forall k, lru_find k l = fst <$> m !! k.
Proof.
  intros V cap os Hc.
  assert (forall l m t, (length l <= cap)%nat -> lrep l m t ->
    exists m', lspec_run cap t m os m' (lru_run cap l os).2 /\ (length (lru_run cap l os).1 <= cap)%nat /\
      exists t', lrep (lru_run cap l os).1 m' t') as H.
  { induction os as [|o os IH]; intros l m t Hl Hr; cbn [lru_run].
    - exists m. cbn. split; [constructor|]. eauto.
    - destruct (lru_step_spec cap l m t o Hc Hl Hr) as (m1 & A & B & C).
      destruct (lru_step cap l o) as [l1 r]. cbn [fst snd] in *.
      destruct (IH l1 m1 (S t) C B) as (m2 & D & E & F). destruct (lru_run cap l1 os) as [l2 rs]. cbn [fst snd] in *.
      exists m2. split; [by econstructor|]. done. }
  destruct (H [] ∅ 0%nat (Nat.le_0_l _) (RepNil 0)) as (m & A & B & t' & C).
  destruct (lru_run cap [] os) as [l rs]. cbn [fst snd] in *. exists m. split; [done|]. split; [done|].
  split; [by eapply lrep_size|]. intros k. by eapply lrep_find.
Qed.
Print Assumptions C54_lru.

(** The specification determines the results: two runs agree. *)
Theorem C54_deterministic : forall (V : Type) cap (os : list (lru_op V)) t m m1 rs1 m2 rs2,
  lspec_run cap t m os m1 rs1 -> lspec_run cap t m os m2 rs2 -> m1 = m2 /\ rs1 = rs2.
Proof.
  intros V cap os t m m1 rs1 m2 rs2 H. revert m2 rs2.
  induction H as [t m|t m o m1 r os m2 rs Hs Hr IH]; intros n ns H'; inversion H' as [|? ? ? ? ? ? ? ? Hs' Hr']; subst; [done|].
  enough (m1 = m3 /\ r = r0) as [-> ->] by (destruct (IH _ _ Hr'); subst; done).
  clear -Hs Hs'. inversion Hs; subst; inversion Hs'; subst; try (split; congruence); try lia; try congruence.
  split; [|done].
  match goal with |- <[_ := _]> (base.delete ?a m) = <[_ := _]> (base.delete ?b m) =>
    enough (a = b) by congruence; destruct (decide (a = b)) as [|Hn]; [done|]; exfalso;
    match goal with A : forall k1 x1, m !! k1 = Some x1 -> k1 <> a -> _, B : m !! b = Some _ |- _ =>
      pose proof (A _ _ B ltac:(congruence)) end;
    match goal with A : forall k1 x1, m !! k1 = Some x1 -> k1 <> b -> _, B : m !! a = Some _ |- _ =>
      pose proof (A _ _ B ltac:(congruence)) end
  end. lia.
Qed.
Print Assumptions C54_deterministic.

(** Finding: eviction is by last use, not by insertion. *)
Theorem C54_insertion_order_refuted :
  ~ (forall ks, Forall (fun k => k = 1 \/ k = 2) ks ->
       lru_find 1 (lru_run 2 [] ([LAdd 1 10; LAdd 2 20] ++ map LGet ks ++ [LAdd 3 30])).1 = None).
Proof.
  intros H. specialize (H [1] ltac:(repeat constructor)). vm_compute in H. discriminate.
Qed.
Print Assumptions C54_insertion_order_refuted.

Example C54_example :
  (lru_run 2 [] [LAdd 1 10; LAdd 2 20; LGet 1; LAdd 3 30; LContains 2; LContains 1; LAdd 1 11; LGet 1]).2 =
    [LBool true; LBool true; LVal (Some 10); LBool true; LBool false; LBool true; LBool false; LVal (Some 10)].
Proof. reflexivity. Qed.
