(** C33-C38, C66, C67: the key-value databases of package db. *)
From Verif Require Import DbModel.
Global Open Scope N_scope.

(* ---------------------------------------------------------------- specification *)
(** The contents of a key-value store. *)
Definition store := list N -> option (list N).
Definition upd (m : store) (k : list N) (v : option (list N)) : store :=
  fun k' => if decide (k' = k) then v else m k'.

(** A store that refuses nil keys if [sk] and nil values if [sv] (MemDB does, leveldb
    does not), and where a batch is the sequence of its commands, refused ones being
    skipped. *)
Definition refused (sk sv : bool) (k v : slice) : bool :=
  (sk && match k with None => true | _ => false end) || (sv && match v with None => true | _ => false end).
Definition s_cmd (sk sv : bool) (m : store) (c : cmd) : store :=
  match c with
  | CPut k v => if refused sk sv k v then m else upd m (str k) (Some (str v))
  | CDel k => upd m (str k) None
  end.
Definition s_step (sk sv : bool) (m : store) (o : op) : store * out :=
  match o with
  | OPut k v => if refused sk sv k v then (m, RUnit (DErr ENil)) else (upd m (str k) (Some (str v)), RUnit (DOk tt))
  | OGet k => (m, RVal (DOk (m (str k))))
  | OHas k => (m, RBool (DOk (match m (str k) with Some _ => true | None => false end)))
  | ODel k => (upd m (str k) None, RUnit (DOk tt))
  | OBatch cs => (foldl (s_cmd sk sv) m cs, RUnit (DOk tt))
  end.
Fixpoint s_run (sk sv : bool) (m : store) (os : list op) : store * list out :=
  match os with
  | [] => (m, [])
  | o :: os' => let '(m1, r) := s_step sk sv m o in let '(m2, rs) := s_run sk sv m1 os' in (m2, r :: rs)
  end.
Definition empty_store : store := fun _ => None.

(** What a database object holds, looking through its wrappers. *)
Fixpoint view (d : db) : store :=
  match d with
  | Mem m | Ldb _ m => fun k => m !! k
  | RO d => view d
  | Tmp rd m del => fun k => if decide (k ∈ del) then None else match m !! k with Some v => Some v | None => view rd k end
  | Cached _ b _ => view b
  | Pref b p => fun k => view b (str p ++ k)
  end.

(** Nothing in it is closed, and cached values are those of the database below. This
    holds of everything the constructors make from open databases. *)
Definition coherent (c : cache) (m : store) : Prop := NoDup c.*1 /\ forall k v, (k, v) ∈ c -> v = m k.
Fixpoint readable (d : db) : Prop :=
  match d with
  | Mem _ => True
  | Ldb closed _ => closed = false
  | RO d => readable d
  | Tmp rd _ _ => readable rd
  | Cached _ b c => readable b /\ coherent c (view b)
  | Pref b _ => readable b
  end.
(** Not read-only. *)
Fixpoint writable (d : db) : Prop :=
  match d with Mem _ | Ldb _ _ | Tmp _ _ _ => True | RO _ => False | Cached _ b _ | Pref b _ => writable b end.
(** No cache in it. *)
Fixpoint uncached (d : db) : Prop :=
  match d with Mem _ | Ldb _ _ => True | RO d | Tmp d _ _ | Pref d _ => uncached d | Cached _ _ _ => False end.
(** Its batches can be committed: no key-prefixed adapter on the way. *)
Fixpoint batchable (d : db) : Prop :=
  match d with Mem _ | Ldb _ _ | Tmp _ _ _ => True | RO _ | Pref _ _ => False | Cached _ b _ => batchable b end.
Fixpoint sk (d : db) : bool :=
  match d with Mem _ | Tmp _ _ _ => true | Ldb _ _ => false | RO d => sk d | Cached _ b _ => sk b
             | Pref b None => sk b | Pref _ (Some _) => false end.
Fixpoint sv (d : db) : bool :=
  match d with Mem _ | Tmp _ _ _ => true | Ldb _ _ => false | RO d => sv d | Cached _ b _ => sv b | Pref b _ => sv b end.

(** Two databases of the same kind. *)
Fixpoint like (d d' : db) : Prop :=
  match d, d' with
  | Mem _, Mem _ => True
  | Ldb _ _, Ldb _ _ => True
  | RO d, RO d' => like d d'
  | Tmp d _ _, Tmp d' _ _ => like d d'
  | Cached c d _, Cached c' d' _ => c = c' /\ like d d'
  | Pref d p, Pref d' p' => p = p' /\ like d d'
  | _, _ => False
  end.
Lemma like_refl d : like d d.
Proof. induction d; cbn [like]; auto. Qed.
Lemma like_trans a : forall b c, like a b -> like b c -> like a c.
Proof. induction a; intros [] [] H1 H2; cbn [like] in *; try done; try (by eapply IHa); destruct H1, H2; subst; split; try done; by eapply IHa. Qed.
Lemma like_flags d : forall d', like d d' ->
  sk d = sk d' /\ sv d = sv d' /\ (writable d -> writable d') /\ (uncached d -> uncached d') /\ (batchable d -> batchable d') /\
  NewBatch d = NewBatch d'.
Proof.
  induction d; intros [] H; cbn [like] in H; try done; try (destruct H as [-> H]); try (destruct (IHd _ H) as (A & B & C & D & E & F));
    cbn [sk sv writable uncached batchable NewBatch]; rewrite ?A, ?B, ?F; try (by repeat split); repeat split; auto; try (by destruct keyPrefix0).
Qed.

(* ------------------------------------------------------------------- the cache *)
Lemma c_find_spec k c v : NoDup c.*1 -> (c_find k c = Some v <-> (k, v) ∈ c).
Proof.
  induction c as [|[k' v'] c IH]; intros Hn; cbn [c_find]; [split; [done|inversion 1]|].
  cbn in Hn. apply NoDup_cons in Hn as [Hn1 Hn2]. rewrite elem_of_cons. destruct (decide (k = k')) as [->|Hk].
  - split; [intros [= ->]; by left|]. intros [[= ->]|Hin]; [done|]. exfalso. apply Hn1. apply elem_of_list_fmap. by exists (k', v).
  - rewrite IH by done. split; [by right|]. intros [[= -> ->]|]; done.
Qed.
Lemma c_remove_in k c x : NoDup c.*1 -> (x ∈ c_remove k c <-> x ∈ c /\ x.1 <> k).
Proof.
  induction c as [|[k' v'] c IH]; intros Hn; cbn [c_remove]; [split; [inversion 1|intros [H _]; inversion H]|].
  cbn in Hn. apply NoDup_cons in Hn as [Hn1 Hn2]. destruct (decide (k = k')) as [->|Hk].
  - rewrite elem_of_cons. split.
    + intros Hx. split; [by right|]. intros E. apply Hn1. apply elem_of_list_fmap. eauto.
    + intros [[->|Hx] Hne]; done.
  - rewrite !elem_of_cons, IH by done. split; [|tauto]. intros [->|[H1 H2]]; [|tauto]. split; [by left|]. cbn. congruence.
Qed.
Lemma c_remove_nodup k c : NoDup c.*1 -> NoDup (c_remove k c).*1.
Proof.
  induction c as [|[k' v'] c IH]; intros Hn; cbn [c_remove]; [constructor|].
  pose proof Hn as Hn'. cbn in Hn. apply NoDup_cons in Hn as [Hn1 Hn2]. destruct (decide (k = k')); [done|].
  cbn. constructor; [|by apply IH]. intros Hin. apply elem_of_list_fmap in Hin as (x & -> & Hx).
  apply c_remove_in in Hx as [Hx _]; [|done]. apply Hn1. apply elem_of_list_fmap. eauto.
Qed.
Lemma coherent_remove k c m : coherent c m -> coherent (c_remove k c) m /\ (forall v, (k, v) ∉ c_remove k c).
Proof.
  intros [H1 H2]. split; [split|].
  - by apply c_remove_nodup.
  - intros k' v Hin. apply c_remove_in in Hin as [Hin _]; [|done]. by apply H2.
  - intros v Hin. apply c_remove_in in Hin as [_ Hin]; done.
Qed.
Lemma coherent_upd k c m v : coherent c m -> (forall v, (k, v) ∉ c) -> coherent c (upd m k v).
Proof.
  intros [H1 H2] Hk. split; [done|]. intros k' v' Hin. unfold upd. destruct (decide (k' = k)) as [->|]; [by apply Hk in Hin|]. by apply H2.
Qed.
Lemma coherent_ext c m m' : (forall k, m k = m' k) -> coherent c m -> coherent c m'.
Proof. intros E [H1 H2]. split; [done|]. intros. rewrite <- E. by apply H2. Qed.
Lemma coherent_touch k c m : coherent c m -> coherent (c_touch k c) m.
Proof.
  intros [H1 H2]. unfold c_touch. destruct (c_find k c) as [v|] eqn:E; [|done]. apply c_find_spec in E; [|done]. split.
  - cbn. constructor; [|by apply c_remove_nodup]. intros Hin. apply elem_of_list_fmap in Hin as (x & -> & Hx).
    apply c_remove_in in Hx as [_ Hx]; done.
  - intros k' v'. rewrite elem_of_cons. intros [[= -> ->]|Hin]; [by apply H2|]. apply c_remove_in in Hin as [Hin _]; [|done]. by apply H2.
Qed.
Lemma coherent_add cap k c m : coherent c m -> coherent (c_add cap k (m k) c) m.
Proof.
  intros Hc. unfold c_add. destruct (c_find k c) as [v|] eqn:E.
  - destruct Hc as [H1 H2]. apply c_find_spec in E; [|done]. rewrite <- (H2 k v E).
    pose proof (coherent_touch k c m (conj H1 H2)) as Ht. unfold c_touch in Ht. apply c_find_spec in E; [|done]. by rewrite E in Ht.
  - destruct Hc as [H1 H2]. split.
    + rewrite fmap_take. match goal with |- NoDup (take _ ?l) => assert (NoDup l) as Hnd end;
        [|rewrite <- (take_drop cap) in Hnd; apply NoDup_app in Hnd; tauto].
      cbn. constructor; [|done].
      intros Hin. apply elem_of_list_fmap in Hin as ([k' v] & -> & Hx). cbn in E. apply c_find_spec in Hx; [|done]. cbn in Hx. congruence.
    + intros k' v' Hin. apply elem_of_take in Hin as (i & Hi & _). apply elem_of_list_lookup_2 in Hi.
      apply elem_of_cons in Hi as [[= -> ->]|Hin]; [done|]. by apply H2.
Qed.

(* ---------------------------------------------------------------- operations *)
Lemma pkey_str p k : str (pkey p k) = str p ++ str k.
Proof. by destruct p. Qed.
Lemma upd_ext m m' k v : (forall k, m k = m' k) -> forall k', upd m k v k' = upd m' k v k'.
Proof. intros H k'. unfold upd. by destruct (decide _). Qed.
Lemma upd_prefix (m : store) p k v k' : upd m (p ++ k) v (p ++ k') = upd (fun x => m (p ++ x)) k v k'.
Proof. unfold upd. destruct (decide (k' = k)) as [->|H]; [by rewrite decide_True|]. rewrite decide_False; [done|]. by intros E%app_inv_head. Qed.

Lemma get_ok d : forall k, readable d ->
  (Get d k).2 = DOk (view d (str k)) /\ readable (Get d k).1 /\ like d (Get d k).1 /\ (forall k', view (Get d k).1 k' = view d k').
Proof.
  induction d as [m|cl m|d IH|rd IH m del|cap b IH c|b IH p]; intros k Hr; cbn [Get view readable] in *.
  - done.
  - subst cl. done.
  - destruct (IH k Hr) as (A & B & C & D). destruct (Get d k) as [d' r]. done.
  - destruct (decide (str k ∈ del)); [split; [done|]; split; [done|]; split; [apply like_refl|done]|].
    destruct (m !! str k) as [v|] eqn:E; [split; [done|]; split; [done|]; split; [apply like_refl|done]|].
    destruct (IH k Hr) as (A & B & C & D). destruct (Get rd k) as [d' r]. cbn [fst snd] in *.
    split; [done|]. split; [done|]. split; [done|]. intros k'. cbn [view]. by rewrite D.
  - destruct Hr as [Hr Hc]. destruct (c_find (str k) c) as [v|] eqn:E.
    + cbn [fst snd]. destruct Hc as [H1 H2]. apply c_find_spec in E; [|done]. rewrite (H2 _ _ E) at 1. split; [done|].
      split; [split; [done|by apply coherent_touch]|]. split; [split; [done|apply like_refl]|done].
    + destruct (IH k Hr) as (A & B & C & D). destruct (Get b k) as [b' r]. cbn [fst snd] in *. subst r. cbn [fst snd readable like view].
      split; [done|]. split; [|by split].
      split; [done|]. apply (coherent_ext _ (view b)); [by intros; rewrite D|]. by apply coherent_add.
  - destruct (IH (pkey p k) Hr) as (A & B & C & D). destruct (Get b (pkey p k)) as [b' r]. cbn [fst snd] in *. subst r.
    rewrite pkey_str. split; [done|]. split; [done|]. split; [done|]. intros. cbn [view]. by rewrite D.
Qed.

Lemma has_ok d : forall k, readable d -> uncached d ->
  (Has d k).2 = DOk (match view d (str k) with Some _ => true | None => false end) /\ readable (Has d k).1 /\ like d (Has d k).1 /\
  (forall k', view (Has d k).1 k' = view d k').
Proof.
  induction d as [m|cl m|d IH|rd IH m del|cap b IH c|b IH p]; intros k Hr Hu; cbn [Has view readable uncached] in *.
  - done.
  - subst cl. done.
  - destruct (IH k Hr Hu) as (A & B & C & D). destruct (Has d k) as [d' r]. done.
  - destruct (decide (str k ∈ del)); [split; [done|]; split; [done|]; split; [apply like_refl|done]|].
    destruct (m !! str k) as [v|] eqn:E; [split; [done|]; split; [done|]; split; [apply like_refl|done]|].
    destruct (IH k Hr Hu) as (A & B & C & D). destruct (Has rd k) as [d' r]. cbn [fst snd] in *.
    split; [done|]. split; [done|]. split; [done|]. intros k'. cbn [view]. by rewrite D.
  - done.
  - destruct (IH (pkey p k) Hr Hu) as (A & B & C & D). destruct (Has b (pkey p k)) as [b' r]. cbn [fst snd] in *. subst r.
    rewrite pkey_str. split; [done|]. split; [done|]. split; [done|]. intros. cbn [view]. by rewrite D.
Qed.

Lemma tmp_put_view m del rd k v : forall m' del' r, tmp_put m del k v = (m', del', r) ->
  r = (if refused true true k v then DErr ENil else DOk tt) /\
  forall k', view (Tmp rd m' del') k' = (if refused true true k v then view (Tmp rd m del) else upd (view (Tmp rd m del)) (str k) (Some (str v))) k'.
Proof.
  intros m' del' r. unfold tmp_put, mem_put, refused. destruct k as [k|], v as [v|]; cbn [andb orb]; intros [= <- <- <-]; try done.
  split; [done|]. intros k'. cbn [view]. unfold upd. change (str (Some k)) with k. change (str (Some v)) with v.
  destruct (decide (k' = k)) as [->|Hk].
  - rewrite decide_False by set_solver. by rewrite lookup_insert.
  - rewrite lookup_insert_ne by done. destruct (decide (k' ∈ del)); [rewrite decide_True by set_solver|rewrite decide_False by set_solver]; done.
Qed.
Lemma tmp_delete_view m del rd k : forall m' del', tmp_delete m del k = (m', del') ->
  forall k', view (Tmp rd m' del') k' = upd (view (Tmp rd m del)) (str k) None k'.
Proof.
  intros m' del' [= <- <-] k'. cbn [view]. unfold upd. destruct (decide (k' = str k)) as [->|Hk].
  - by rewrite decide_True by set_solver.
  - rewrite lookup_delete_ne by done. destruct (decide (k' ∈ del)); [rewrite decide_True by set_solver|rewrite decide_False by set_solver]; done.
Qed.

Lemma put_ok d : forall k v, readable d -> writable d ->
  (Put d k v).2 = (if refused (sk d) (sv d) k v then DErr ENil else DOk tt) /\ readable (Put d k v).1 /\ like d (Put d k v).1 /\
  (forall k', view (Put d k v).1 k' = (if refused (sk d) (sv d) k v then view d else upd (view d) (str k) (Some (str v))) k').
Proof.
  induction d as [m|cl m|d IH|rd IH m del|cap b IH c|b IH p]; intros k v Hr Hw; cbn [Put readable writable sk sv] in *.
  - unfold mem_put, refused. destruct k as [k|], v as [v|]; cbn [andb orb fst snd]; try done.
    split; [done|]. split; [done|]. split; [done|]. intros k'. cbn [view]. unfold upd. change (str (Some k)) with k. change (str (Some v)) with v.
    destruct (decide (k' = k)) as [->|]; [by rewrite lookup_insert|]. by rewrite lookup_insert_ne.
  - subst cl. cbn [fst snd]. unfold refused. cbn [andb orb]. split; [done|]. split; [done|]. split; [done|]. intros k'. cbn [view]. unfold upd.
    destruct (decide (k' = str k)) as [->|]; [by rewrite lookup_insert|]. by rewrite lookup_insert_ne.
  - done.
  - destruct (tmp_put m del k v) as [[m' del'] r] eqn:E. apply (tmp_put_view m del rd) in E as [-> E]. cbn [fst snd].
    split; [done|]. split; [done|]. split; [cbn [like]; apply like_refl|done].
  - destruct Hr as [Hr Hc]. destruct (IH k v Hr Hw) as (A & B & C & D). destruct (Put b k v) as [b' r]. cbn [fst snd] in *.
    destruct (refused (sk b) (sv b) k v); subst r; cbn [fst snd readable like view].
    + split; [done|]. split; [split; [done|]; apply (coherent_ext _ (view b)); [by intros; rewrite D|done]|]. by split.
    + split; [done|]. split; [|by split]. split; [done|]. destruct (coherent_remove (str k) c _ Hc) as [H1 H2].
      eapply coherent_ext; [intros; symmetry; apply D|]. by apply coherent_upd.
  - destruct (IH (pkey p k) v Hr Hw) as (A & B & C & D). destruct (Put b (pkey p k) v) as [b' r]. cbn [fst snd] in *.
    assert (refused (sk b) (sv b) (pkey p k) v = refused (match p with Some _ => false | None => sk b end) (sv b) k v) as E.
    { destruct p; [|done]. unfold refused. cbn. by rewrite andb_false_r. }
    rewrite E in *. subst r. split; [done|]. split; [done|]. split; [done|]. intros k'. cbn [view]. rewrite D.
    destruct (refused _ _ k v); [done|]. rewrite pkey_str, upd_prefix. done.
Qed.

Lemma delete_ok d : forall k, readable d -> writable d ->
  (Delete d k).2 = DOk tt /\ readable (Delete d k).1 /\ like d (Delete d k).1 /\
  (forall k', view (Delete d k).1 k' = upd (view d) (str k) None k').
Proof.
  induction d as [m|cl m|d IH|rd IH m del|cap b IH c|b IH p]; intros k Hr Hw; cbn [Delete readable writable] in *.
  - split; [done|]. split; [done|]. split; [done|]. intros k'. cbn [view fst]. unfold upd.
    destruct (decide (k' = str k)) as [->|]; [by rewrite lookup_delete|]. by rewrite lookup_delete_ne.
  - subst cl. split; [done|]. split; [done|]. split; [done|]. intros k'. cbn [view fst]. unfold upd.
    destruct (decide (k' = str k)) as [->|]; [by rewrite lookup_delete|]. by rewrite lookup_delete_ne.
  - done.
  - destruct (tmp_delete m del k) as [m' del'] eqn:E. pose proof (tmp_delete_view m del rd k _ _ E) as D. cbn [fst snd].
    split; [done|]. split; [done|]. split; [cbn [like]; apply like_refl|done].
  - destruct Hr as [Hr Hc]. destruct (IH k Hr Hw) as (A & B & C & D). destruct (Delete b k) as [b' r]. cbn [fst snd readable like view] in *.
    split; [done|]. split; [|by split]. split; [done|]. destruct (coherent_remove (str k) c _ Hc) as [H1 H2].
    eapply coherent_ext; [intros; symmetry; apply D|]. by apply coherent_upd.
  - destruct (IH (pkey p k) Hr Hw) as (A & B & C & D). destruct (Delete b (pkey p k)) as [b' r]. cbn [fst snd readable like view] in *.
    split; [done|]. split; [done|]. split; [done|]. intros k'. rewrite D, pkey_str, upd_prefix. done.
Qed.

(* ------------------------------------------------------------------- batches *)
(** the batch a database makes, holding the commands cs *)
Fixpoint own (d : db) (cs : list cmd) : batch :=
  match d with
  | Mem _ | Tmp _ _ _ => MemB cs
  | Ldb _ _ => LdbB cs
  | RO _ => NilB
  | Cached _ b _ => CacheB (own b cs) (rev (map (fun c => str (cmd_key c)) cs))
  | Pref b p => KeyB (own b (map (cmd_conv p) cs)) p
  end.
Lemma own_add d : batchable d -> forall cs c, batch_add (own d cs) c = Some (own d (cs ++ [c])).
Proof.
  induction d; intros Hb cs c'; cbn [own batch_add batchable] in *; try done. rewrite IHd by done.
  by rewrite map_app, rev_app_distr.
Qed.
Lemma own_adds d : batchable d -> forall cs1 cs, batch_adds (own d cs) cs1 = Some (own d (cs ++ cs1)).
Proof.
  intros Hb. induction cs1 as [|c cs1 IH]; intros cs; cbn [batch_adds]; [by rewrite app_nil_r|].
  rewrite own_add by done. by rewrite IH, <- app_assoc.
Qed.
Lemma own_new d : batchable d -> NewBatch d = own d [].
Proof. induction d; intros Hb; cbn [NewBatch own batchable] in *; try done. by rewrite IHd. Qed.

Lemma s_cmd_ext a b m m' c : (forall k, m k = m' k) -> forall k, s_cmd a b m c k = s_cmd a b m' c k.
Proof. intros H k'. destruct c; cbn [s_cmd]; [destruct (refused _ _ _ _); [done|]|]; by apply upd_ext. Qed.
Lemma s_cmds_ext a b cs : forall m m', (forall k, m k = m' k) -> forall k, foldl (s_cmd a b) m cs k = foldl (s_cmd a b) m' cs k.
Proof. induction cs as [|c cs IH]; intros m m' H k; cbn [foldl]; [done|]. apply IH. intros. by apply s_cmd_ext. Qed.

Lemma batch_ok d : forall cs, readable d -> batchable d ->
  (Batch d (own d cs)).2 = DOk tt /\ readable (Batch d (own d cs)).1 /\ like d (Batch d (own d cs)).1 /\
  (forall k', view (Batch d (own d cs)).1 k' = foldl (s_cmd (sk d) (sv d)) (view d) cs k').
Proof.
  induction d as [m|cl m|d IH|rd IH m del|cap b IH c|b IH p]; intros cs Hr Hb; cbn [Batch own readable batchable sk sv] in *; try done.
  - split; [done|]. split; [done|]. split; [done|]. cbn [fst view]. revert m. induction cs as [|c cs IH]; intros m k'; cbn [foldl]; [done|].
    rewrite IH. apply s_cmds_ext. intros k. destruct c as [k0 v0|k0]; cbn [mem_cmd s_cmd].
    + destruct (put_ok (Mem m) k0 v0 I I) as (_ & _ & _ & D). specialize (D k). cbn [Put] in D. by destruct (mem_put m k0 v0).
    + destruct (delete_ok (Mem m) k0 I I) as (_ & _ & _ & D). apply D.
  - subst cl. split; [done|]. split; [done|]. split; [done|]. cbn [fst view]. revert m. induction cs as [|c cs IH]; intros m k'; cbn [foldl]; [done|].
    rewrite IH. apply s_cmds_ext. intros k. destruct c as [k0 v0|k0]; cbn [ldb_cmd s_cmd].
    + destruct (put_ok (Ldb false m) k0 v0 eq_refl I) as (_ & _ & _ & D). apply D.
    + destruct (delete_ok (Ldb false m) k0 eq_refl I) as (_ & _ & _ & D). apply D.
  - destruct (foldl tmp_cmd (m, del) cs) as [m' del'] eqn:E. cbn [fst snd]. split; [done|]. split; [done|]. split; [cbn [like]; apply like_refl|].
    revert m del m' del' E. induction cs as [|c cs IHc]; intros m del m' del' E k'; cbn [foldl] in *; [by injection E as <- <-|].
    destruct (tmp_cmd (m, del) c) as [m1 del1] eqn:E1. rewrite (IHc _ _ _ _ E). apply s_cmds_ext. intros k.
    destruct c as [k0 v0|k0]; cbn [tmp_cmd s_cmd fst snd] in *.
    + destruct (tmp_put m del k0 v0) as [[a b] r] eqn:Ep. cbn [fst] in E1. injection E1 as -> ->. by apply (tmp_put_view m del rd) in Ep as [_ ->].
    + by apply tmp_delete_view.
  - destruct Hr as [Hr Hc]. destruct (IH cs Hr Hb) as (A & B & C & D). destruct (Batch b (own b cs)) as [b' r]. cbn [fst snd readable like view] in *.
    split; [done|]. split; [|by split]. split; [done|].
    assert (forall ks c, coherent c (view b) -> coherent (foldl (fun c k => c_remove k c) c ks) (view b) /\
      (forall k v, (k, v) ∈ foldl (fun c k => c_remove k c) c ks -> (k, v) ∈ c /\ k ∉ ks)) as Hrem.
    { clear. induction ks as [|k ks IH]; intros c Hc; cbn [foldl].
      - split; [done|]. intros k v H. split; [done|]. inversion 1.
      - destruct (coherent_remove k c _ Hc) as [H1 _]. destruct (IH _ H1) as [H2 H3]. split; [done|]. intros k' v Hin.
        apply H3 in Hin as [Hin Hn]. destruct Hc. apply c_remove_in in Hin as [Hin Hk]; [|done]. split; [done|].
        rewrite elem_of_cons. cbn in Hk. tauto. }
    destruct (Hrem (rev (map (fun c => str (cmd_key c)) cs)) c Hc) as [[H1 H2] H3]. split; [done|]. intros k v Hin.
    pose proof (H3 _ _ Hin) as [Hin' Hk]. rewrite D, (H2 _ _ Hin).
    assert (k ∉ map (fun c => str (cmd_key c)) cs) as Hk' by (intros H; apply Hk; rewrite elem_of_list_In, <- in_rev, <- elem_of_list_In; done).
    clear -Hk'. generalize (view b) as m. induction cs as [|c cs IH]; intros m; cbn [foldl]; [done|].
    cbn [map] in Hk'. rewrite not_elem_of_cons in Hk'. destruct Hk' as [Hk1 Hk2]. rewrite <- (IH Hk2).
    destruct c as [k0 v0|k0]; cbn [s_cmd cmd_key] in *; [destruct (refused _ _ _ _); [done|]|]; unfold upd; by rewrite decide_False.
Qed.

(* ------------------------------------------------------------------- histories *)
Definition no_batch (os : list op) : Prop := forall cs, OBatch cs ∉ os.
Definition no_has (os : list op) : Prop := forall k, OHas k ∉ os.

Lemma s_step_ext a b m m' o : (forall k, m k = m' k) ->
  (s_step a b m o).2 = (s_step a b m' o).2 /\ forall k, (s_step a b m o).1 k = (s_step a b m' o).1 k.
Proof.
  intros H. destruct o; cbn [s_step]; try destruct (refused _ _ _ _); cbn [fst snd]; rewrite ?H; split; try done; try (by apply upd_ext). by apply s_cmds_ext.
Qed.
Lemma s_run_ext a b os : forall m m', (forall k, m k = m' k) ->
  (s_run a b m os).2 = (s_run a b m' os).2 /\ forall k, (s_run a b m os).1 k = (s_run a b m' os).1 k.
Proof.
  induction os as [|o os IH]; intros m m' H; cbn [s_run]; [done|].
  destruct (s_step_ext a b m m' o H) as [H1 H2]. destruct (s_step a b m o) as [m1 r1], (s_step a b m' o) as [m2 r2]. cbn [fst snd] in *. subst r2.
  destruct (IH m1 m2 H2) as [H3 H4]. destruct (s_run a b m1 os), (s_run a b m2 os). cbn [fst snd] in *. by subst.
Qed.

Lemma step_ok d o : readable d -> writable d -> (uncached d \/ forall k, o <> OHas k) -> (batchable d \/ forall cs, o <> OBatch cs) ->
  (step d o).2 = (s_step (sk d) (sv d) (view d) o).2 /\ readable (step d o).1 /\ like d (step d o).1 /\
  (forall k, view (step d o).1 k = (s_step (sk d) (sv d) (view d) o).1 k).
Proof.
  intros Hr Hw Hu Hb. destruct o as [k v|k|k|k|cs]; cbn [step s_step].
  - destruct (put_ok d k v Hr Hw) as (A & B & C & D). destruct (Put d k v) as [d' r]. cbn [fst snd] in *. subst r.
    destruct (refused _ _ _ _); done.
  - destruct (get_ok d k Hr) as (A & B & C & D). destruct (Get d k) as [d' r]. cbn [fst snd] in *. subst r. done.
  - destruct Hu as [Hu|Hu]; [|by destruct (Hu k)].
    destruct (has_ok d k Hr Hu) as (A & B & C & D). destruct (Has d k) as [d' r]. cbn [fst snd] in *. subst r. done.
  - destruct (delete_ok d k Hr Hw) as (A & B & C & D). destruct (Delete d k) as [d' r]. cbn [fst snd] in *. subst r. done.
  - destruct Hb as [Hb|Hb]; [|by destruct (Hb cs)]. rewrite own_new, own_adds by done. cbn [app].
    destruct (batch_ok d cs Hr Hb) as (A & B & C & D). destruct (Batch d (own d cs)) as [d' r]. cbn [fst snd] in *. subst r. done.
Qed.
Lemma run_ok os : forall d, readable d -> writable d -> (uncached d \/ no_has os) -> (batchable d \/ no_batch os) ->
  (run d os).2 = (s_run (sk d) (sv d) (view d) os).2 /\ readable (run d os).1 /\ like d (run d os).1 /\
  (forall k, view (run d os).1 k = (s_run (sk d) (sv d) (view d) os).1 k).
Proof.
  induction os as [|o os IH]; intros d Hr Hw Hu Hb; cbn [run s_run]; [repeat split; [done|apply like_refl]|].
  destruct (step_ok d o Hr Hw) as (A & B & C & D).
  { destruct Hu as [|Hu]; [by left|right]. intros k ->. apply (Hu k). by left. }
  { destruct Hb as [|Hb]; [by left|right]. intros k ->. apply (Hb k). by left. }
  destruct (step d o) as [d1 r]. destruct (s_step (sk d) (sv d) (view d) o) as [m1 r']. cbn [fst snd] in *. subst r'.
  destruct (like_flags _ _ C) as (F1 & F2 & F3 & F4 & F5 & _).
  destruct (IH d1) as (A1 & B1 & C1 & D1); [done|by apply F3| | |].
  { destruct Hu as [|Hu]; [left; auto|right]. intros k Hk. apply (Hu k). by right. }
  { destruct Hb as [|Hb]; [left; auto|right]. intros k Hk. apply (Hb k). by right. }
  rewrite <- F1, <- F2 in *. destruct (s_run_ext (sk d) (sv d) os _ _ D) as [E1 E2].
  destruct (run d1 os) as [d2 rs]. destruct (s_run (sk d) (sv d) m1 os) as [m2 rs2]. cbn [fst snd] in *.
  split; [congruence|]. split; [done|]. split; [by eapply like_trans|]. intros k. by rewrite D1.
Qed.

(** ** C33 *)
Theorem C33_memdb : forall os, (run NewMemDB os).2 = (s_run true true empty_store os).2.
Proof.
  intros os. destruct (run_ok os NewMemDB I I (or_introl I) (or_introl I)) as (A & _ & _ & _). rewrite A.
  apply (s_run_ext true true os). intros k. apply lookup_empty.
Qed.
Print Assumptions C33_memdb.
(** the other base database, and any mixture of wrappers over the two *)
Theorem C33_leveldb : forall os, (run NewLDB os).2 = (s_run false false empty_store os).2.
Proof.
  intros os. destruct (run_ok os NewLDB eq_refl I (or_introl I) (or_introl I)) as (A & _ & _ & _). rewrite A.
  apply (s_run_ext false false os). intros k. apply lookup_empty.
Qed.
Print Assumptions C33_leveldb.
Example C33_example :
  (run NewMemDB [OPut (Some [1]) (Some []); OGet (Some [1]); OHas (Some [1]); OPut None (Some [2]); OGet None;
                 OBatch [CPut (Some [2]) (Some [7]); CDel (Some [1]); CPut (Some [3]) None; CPut (Some [2]) (Some [8])];
                 OGet (Some [1]); OGet (Some [2]); OHas (Some [3])]).2 =
  [RUnit (DOk tt); RVal (DOk (Some [])); RBool (DOk true); RUnit (DErr ENil); RVal (DOk None);
   RUnit (DOk tt); RVal (DOk None); RVal (DOk (Some [8])); RBool (DOk false)].
Proof. vm_compute. reflexivity. Qed.

(** ** C34 *)
(** A temporary database over any database d that is not itself temporary: it answers
    like a store that starts as d, and d keeps its contents. *)
Theorem C34_temporary : forall d os, readable d -> uncached d -> (forall rd m del, d <> Tmp rd m del) ->
  (run (Temporary d) os).2 = (s_run true true (view d) os).2 /\
  exists rd m del, (run (Temporary d) os).1 = Tmp rd m del /\ forall k, view rd k = view d k.
Proof.
  intros d os Hr Hu Hnt. assert (Temporary d = Tmp d ∅ ∅) as -> by (destruct d; try done; by destruct (Hnt d mem deleted)).
  destruct (run_ok os (Tmp d ∅ ∅) Hr I (or_introl Hu) (or_introl I)) as (A & B & C & D).
  split.
  - rewrite A. apply (s_run_ext true true os). intros k. cbn [view]. by rewrite decide_False, lookup_empty by set_solver.
  - clear -Hr Hu. revert os. assert (forall os rd0 m0 del0, readable rd0 -> uncached rd0 -> exists rd m del, (run (Tmp rd0 m0 del0) os).1 = Tmp rd m del /\ forall k, view rd k = view rd0 k) as H; [|intros; eauto].
    clear d Hr Hu. induction os as [|o os IH]; intros rd0 m0 del0 Hr Hu; cbn [run fst]; [by exists rd0, m0, del0|].
    assert (exists rd m del, (step (Tmp rd0 m0 del0) o).1 = Tmp rd m del /\ (forall k, view rd k = view rd0 k) /\ readable rd /\ uncached rd) as (rd & m & del & E & V & R & U).
    { destruct o as [k v|k|k|k|cs]; cbn [step].
      - cbn [Put]. destruct (tmp_put m0 del0 k v) as [[m' del'] r]. by exists rd0, m', del'.
      - cbn [Get]. destruct (decide _); [by exists rd0, m0, del0|]. destruct (m0 !! str k); [by exists rd0, m0, del0|].
        destruct (get_ok rd0 k Hr) as (A & B & C & D). destruct (Get rd0 k) as [d' r]. exists d', m0, del0. split; [done|]. split; [done|]. split; [done|]. by apply (like_flags _ _ C).
      - cbn [Has]. destruct (decide _); [by exists rd0, m0, del0|]. destruct (m0 !! str k); [by exists rd0, m0, del0|].
        destruct (has_ok rd0 k Hr Hu) as (A & B & C & D). destruct (Has rd0 k) as [d' r]. exists d', m0, del0. split; [done|]. split; [done|]. split; [done|]. by apply (like_flags _ _ C).
      - cbn [Delete tmp_delete fst]. eexists _, _, _. done.
      - cbn [NewBatch]. change (MemB []) with (own (Tmp rd0 m0 del0) []). rewrite own_adds by done. cbn [app own Batch].
        destruct (foldl tmp_cmd (m0, del0) cs) as [m' del']. by exists rd0, m', del'. }
    destruct (step (Tmp rd0 m0 del0) o) as [d1 r]. cbn [fst] in E. subst d1. destruct (IH rd m del R U) as (rd' & m' & del' & E' & V').
    destruct (run (Tmp rd m del) os) as [d2 rs]. cbn [fst] in *. subst d2. exists rd', m', del'. split; [done|]. intros. by rewrite V'.
Qed.
Print Assumptions C34_temporary.
Example C34_example : let d := Ldb false {[ [1] := [10]; [2] := [20] ]} in
  readable d /\ uncached d /\
  (run (Temporary d) [ODel (Some [1]); OGet (Some [1]); OHas (Some [2]); OPut (Some [1]) (Some [11]);
                      OBatch [CDel (Some [2]); CPut (Some [3]) (Some [30])]; OGet (Some [1]); OHas (Some [2]); OGet (Some [3])]).2 =
  [RUnit (DOk tt); RVal (DOk None); RBool (DOk true); RUnit (DOk tt); RUnit (DOk tt);
   RVal (DOk (Some [11])); RBool (DOk false); RVal (DOk (Some [30]))].
Proof. repeat split. Qed.
(** Finding: a temporary database over a temporary database is that same database, so
    its writes do reach the database it was made from. *)
Theorem C34_nested_refuted : forall rd m del k v,
  Temporary (Tmp rd m del) = Tmp rd m del /\
  view (Put (Temporary (Tmp rd m del)) (Some k) (Some v)).1 k = Some v.
Proof.
  intros rd m del k v. split; [done|]. cbn [Temporary Put].
  destruct (tmp_put m del (Some k) (Some v)) as [[m' del'] r] eqn:E. apply (tmp_put_view m del rd) in E as [_ E].
  cbn [fst]. rewrite E. cbn. unfold upd. by rewrite decide_True.
Qed.
Print Assumptions C34_nested_refuted.

(** ** C35 *)
(** Everything but Has answers exactly like the database below. *)
Theorem C35_cached : forall n d os, readable d -> writable d -> batchable d -> no_has os ->
  (run (NewCachedDB d n) os).2 = (s_run (sk d) (sv d) (view d) os).2 /\
  (forall k, view (run (NewCachedDB d n) os).1 k = (s_run (sk d) (sv d) (view d) os).1 k).
Proof.
  intros n d os Hr Hw Hb Hn. unfold NewCachedDB. destruct (n <=? 0)%Z.
  - destruct (run_ok os d Hr Hw (or_intror Hn) (or_introl Hb)) as (A & _ & _ & D). done.
  - assert (readable (Cached (Z.to_nat n) d [])) as Hr' by (split; [done|]; split; [constructor|]; intros ? ? H; inversion H).
    destruct (run_ok os (Cached (Z.to_nat n) d []) Hr' Hw (or_intror Hn) (or_introl Hb)) as (A & _ & _ & D). done.
Qed.
Print Assumptions C35_cached.

(** In every state Has is right about the keys that are present, and right when it
    answers no. *)
Theorem C35_has : forall n d os k, readable d -> writable d -> batchable d -> uncached d -> no_has os ->
  exists b, (Has (run (NewCachedDB d n) os).1 k).2 = DOk b /\
    ((s_run (sk d) (sv d) (view d) os).1 (str k) <> None -> b = true) /\
    (b = false -> (s_run (sk d) (sv d) (view d) os).1 (str k) = None).
Proof.
  intros n d os k Hr Hw Hb Hu Hn. unfold NewCachedDB. destruct (n <=? 0)%Z.
  - destruct (run_ok os d Hr Hw (or_intror Hn) (or_introl Hb)) as (A & B & C & D).
    destruct (like_flags _ _ C) as (_ & _ & _ & F & _). destruct (has_ok _ k B (F Hu)) as (E & _). rewrite E. eexists. split; [done|].
    rewrite <- D. destruct (view _ (str k)); naive_solver.
  - assert (readable (Cached (Z.to_nat n) d [])) as Hr' by (split; [done|]; split; [constructor|]; intros ? ? H; inversion H).
    destruct (run_ok os (Cached (Z.to_nat n) d []) Hr' Hw (or_intror Hn) (or_introl Hb)) as (A & B & C & D).
    cbn [sk sv view] in D. rewrite <- D. destruct (run _ os) as [d' rs]. cbn [fst] in *.
    destruct d' as [| | | |cap b c|]; try done. cbn [like readable] in *. destruct C as [_ C]. destruct B as [B1 B2].
    cbn [Has view]. destruct (c_find (str k) c) as [v|]; [eexists; split; [done|]; naive_solver|].
    destruct (like_flags _ _ C) as (_ & _ & _ & F & _). destruct (has_ok b k B1 (F Hu)) as (E & _). destruct (Has b k) as [b' r]. cbn [snd] in *. subst r.
    eexists. split; [done|]. destruct (view b (str k)); naive_solver.
Qed.
Print Assumptions C35_has.

(** Finding: reading an absent key makes Has answer that it is present. *)
Theorem C35_has_refuted : forall n d k, (0 < n)%Z -> readable d -> writable d -> batchable d -> view d (str k) = None ->
  (run (NewCachedDB d n) [OGet k; OHas k]).2 = [RVal (DOk None); RBool (DOk true)].
Proof.
  intros n d k Hn Hr Hw Hb Hk. unfold NewCachedDB. destruct (Z.leb_spec n 0); [lia|].
  cbn [run step Get c_find]. destruct (get_ok d k Hr) as (A & B & C & D). destruct (Get d k) as [d' r]. cbn [fst snd] in *. subst r. rewrite Hk.
  unfold c_add. cbn [c_find]. destruct (Z.to_nat n) as [|cap] eqn:E; [lia|]. cbn [take]. cbn [Has c_find]. by rewrite decide_True.
Qed.
Print Assumptions C35_has_refuted.

(** If every Get of a history finds its key, all answers are exact, Has included. *)
Lemma step_cache cap d c o d' c' : readable (Cached cap d c) ->
  (step (Cached cap d c) o).1 = Cached cap d' c' ->
  forall k v, (k, v) ∈ c' -> (k, v) ∈ c \/ exists k0, o = OGet k0 /\ k = str k0 /\ v = view d k.
Proof.
  intros [Hr [Hnd Hco]] E k v Hin.
  assert (forall k0, (k, v) ∈ c_remove k0 c -> (k, v) ∈ c) as Hrem by (intros k0 H; apply c_remove_in in H as [H _]; done).
  assert (forall k0, (k, v) ∈ c_touch k0 c -> (k, v) ∈ c) as Htou.
  { intros k0. unfold c_touch. destruct (c_find k0 c) as [v0|] eqn:Ef; [|done]. apply c_find_spec in Ef; [|done].
    rewrite elem_of_cons. intros [[= -> ->]|H]; [done|]. eauto. }
  destruct o as [k0 v0|k0|k0|k0|cs]; cbn [step] in E.
  - cbn [Put] in E. destruct (Put d k0 v0) as [d1 r]. destruct r; cbn [fst] in E; injection E as <- <-; eauto.
  - cbn [Get] in E. destruct (c_find (str k0) c) as [v0|] eqn:Ef.
    + cbn [fst] in E. injection E as <- <-. eauto.
    + destruct (get_ok d k0 Hr) as (A & _). destruct (Get d k0) as [d1 r]. cbn [snd] in A. subst r. cbn [fst] in E. injection E as <- <-.
      unfold c_add in Hin. rewrite Ef in Hin. apply elem_of_take in Hin as (i & Hi & _). apply elem_of_list_lookup_2 in Hi.
      apply elem_of_cons in Hi as [[= -> ->]|Hi]; [|by left]. right. eauto.
  - cbn [Has] in E. destruct (c_find (str k0) c) as [v0|] eqn:Ef.
    + cbn [fst] in E. injection E as <- <-. eauto.
    + destruct (Has d k0) as [d1 r]. cbn [fst] in E. injection E as <- <-. by left.
  - cbn [Delete] in E. destruct (Delete d k0) as [d1 r]. cbn [fst] in E. injection E as <- <-. eauto.
  - destruct (batch_adds _ cs) as [b|] eqn:Eb; [|cbn [fst] in E; injection E as <- <-; by left].
    cbn [Batch] in E.
    assert (forall ks c, NoDup c.*1 -> (k, v) ∈ foldl (fun c k => c_remove k c) c ks -> (k, v) ∈ c) as Hf.
    { clear. induction ks as [|k0 ks IH]; intros c Hnd H; cbn [foldl] in H; [done|]. apply IH in H; [|by apply c_remove_nodup].
      by apply c_remove_in in H as [H _]. }
    destruct b; cbn [fst] in E; destruct (Batch d _) as [d1 r]; cbn [fst] in E; injection E as <- <-; eauto.
Qed.
Lemma some_cache_ok os : forall cap d c, readable (Cached cap d c) -> writable d -> batchable d -> uncached d ->
  (forall k v, (k, v) ∈ c -> v <> None) ->
  RVal (DOk None) ∉ (s_run (sk d) (sv d) (view d) os).2 ->
  (run (Cached cap d c) os).2 = (s_run (sk d) (sv d) (view d) os).2.
Proof.
  induction os as [|o os IH]; intros cap d c Hr Hw Hb Hu Hs Hn; cbn [run s_run]; [done|].
  cbn [s_run] in Hn. destruct (s_step (sk d) (sv d) (view d) o) as [m1 r1] eqn:Es.
  assert (r1 <> RVal (DOk None)) as Hr1.
  { intros ->. apply Hn. destruct (s_run _ _ m1 os). by left. }
  assert ((step (Cached cap d c) o).2 = r1 /\ readable (step (Cached cap d c) o).1 /\ like (Cached cap d c) (step (Cached cap d c) o).1 /\
     (forall k, view (step (Cached cap d c) o).1 k = m1 k)) as (A & B & C & D).
  { assert ((exists k, o = OHas k) \/ forall k, o <> OHas k) as [[k ->]|Hno] by (destruct o; eauto).
    - cbn [s_step step Has] in *. injection Es as <- <-. destruct (c_find (str k) c) as [v|] eqn:Ef.
      + cbn [fst snd]. destruct Hr as [Hr [Hnd Hco]]. apply c_find_spec in Ef; [|done].
        rewrite <- (Hco _ _ Ef). pose proof (Hs _ _ Ef). destruct v; [|done]. split; [done|]. split; [split; [done|by apply coherent_touch]|].
        split; [split; [done|apply like_refl]|done].
      + destruct Hr as [Hr Hc]. destruct (has_ok d k Hr Hu) as (A & B & C & D). destruct (Has d k) as [d1 r]. cbn [fst snd] in *. subst r.
        split; [done|]. split; [split; [done|]; apply (coherent_ext _ (view d)); [by intros; rewrite D|done]|]. split; [by split|done].
    - destruct (step_ok (Cached cap d c) o Hr Hw) as (A & B & C & D); [by right|by left|].
      cbn [sk sv view] in *. rewrite Es in *. done. }
  destruct (step (Cached cap d c) o) as [d1 r] eqn:E. cbn [fst snd] in *. subst r.
  destruct d1 as [| | | |cap' d' c'|]; try done. destruct C as [<- C].
  destruct (like_flags _ _ C) as (F1 & F2 & F3 & F4 & F5 & _).
  destruct (s_run_ext (sk d) (sv d) os _ _ D) as [E1 _]. cbn [view] in E1.
  specialize (IH cap d' c' B (F3 Hw) (F5 Hb) (F4 Hu)).
  rewrite <- F1, <- F2, E1 in IH. destruct (s_run (sk d) (sv d) m1 os) as [m2 rs]. cbn [snd] in *.
  destruct (run (Cached cap d' c') os) as [d2 rs']. cbn [snd] in IH. rewrite IH; [done| |].
  - intros k v Hin. pose proof (step_cache cap d c o d' c' Hr ltac:(by rewrite E) k v Hin) as [Hold|(k0 & -> & -> & ->)]; [by eapply Hs|].
    cbn [s_step] in Es. injection Es as <- <-. intros Hnone. apply Hr1. by rewrite Hnone.
  - intros H. apply Hn. by right.
Qed.
Theorem C35_has_exact : forall n d os, readable d -> writable d -> batchable d -> uncached d ->
  RVal (DOk None) ∉ (s_run (sk d) (sv d) (view d) os).2 ->
  (run (NewCachedDB d n) os).2 = (s_run (sk d) (sv d) (view d) os).2.
Proof.
  intros n d os Hr Hw Hb Hu Hn. unfold NewCachedDB. destruct (n <=? 0)%Z.
  - by destruct (run_ok os d Hr Hw (or_introl Hu) (or_introl Hb)) as (A & _).
  - apply some_cache_ok; try done; [split; [done|]; split; [constructor|]|]; intros ? ? H; inversion H.
Qed.
Print Assumptions C35_has_exact.
(** Replace gives a cached database over the new database, with nothing left of the old. *)
Theorem C35_replace : forall cap b c nd d' old, Replace (Cached cap b c) nd = Some (d', old) ->
  old = b /\ (forall k, view d' k = view nd k) /\ (readable nd -> readable d').
Proof.
  intros cap b c nd d' old [= <- <-]. split; [done|]. split; [done|]. intros H. split; [done|]. split; [constructor|]. intros ? ? Hi; inversion Hi.
Qed.
Print Assumptions C35_replace.
(** Finding: a batch that was not made by the cached database itself (for instance one
    made by the leveldb database below it) is committed without clearing the cache. *)
Theorem C35_foreign_batch_refuted : exists d b k,
  readable d /\ NewBatch (Ldb false ∅) = LdbB [] /\ b = LdbB [CPut k (Some [2])] /\
  let d1 := (Get (NewCachedDB d 10) k).1 in
  let d2 := (Batch d1 b).1 in
  (Batch d1 b).2 = DOk tt /\ view d2 (str k) = Some [2] /\ (Get d2 k).2 = DOk (Some [1]).
Proof. exists (Ldb false {[ [7] := [1] ]}), (LdbB [CPut (Some [7]) (Some [2])]), (Some [7]). repeat split. Qed.
Print Assumptions C35_foreign_batch_refuted.
Example C35_example : let d := NewLDB in
  readable d /\ writable d /\ batchable d /\ uncached d /\
  (run (NewCachedDB d 1) [OPut (Some [1]) (Some [10]); OPut (Some [2]) (Some [20]); OGet (Some [1]); OGet (Some [2]); OHas (Some [1]);
     OBatch [CPut (Some [2]) (Some [21]); CDel (Some [1])]; OGet (Some [2]); OHas (Some [1])]).2 =
  [RUnit (DOk tt); RUnit (DOk tt); RVal (DOk (Some [10])); RVal (DOk (Some [20])); RBool (DOk true);
   RUnit (DOk tt); RVal (DOk (Some [21])); RBool (DOk false)].
Proof. repeat split. Qed.

(** ** C36 *)
(** Operations through two adapters over one database, [true] for the first. *)
Fixpoint run2 (d : db) (p1 p2 : slice) (os : list (bool * op)) : db * list (bool * out) :=
  match os with
  | [] => (d, [])
  | (w, o) :: os' =>
      let '(a, r) := step (NewKeyPrefixedDataAdapter d (if w then p1 else p2)) o in
      let d1 := match a with Pref d1 _ => d1 | _ => a end in
      let '(d2, rs) := run2 d1 p1 p2 os' in (d2, (w, r) :: rs)
  end.
Definition only {A} (w : bool) (l : list (bool * A)) : list A :=
  flat_map (fun x => if Bool.eqb x.1 w then [x.2] else []) l.
Lemma only_cons {A} w w' (x : A) l : only w ((w', x) :: l) = if Bool.eqb w' w then x :: only w l else only w l.
Proof. unfold only. cbn [flat_map fst snd]. by destruct (Bool.eqb w' w). Qed.
Definition incomparable (p q : list N) : Prop := ~ p `prefix_of` q /\ ~ q `prefix_of` p.

Lemma incomparable_app p q a b : incomparable p q -> p ++ a <> q ++ b.
Proof.
  intros [H1 H2] E. destruct (Nat.le_ge_cases (length p) (length q)) as [H|H].
  - apply H1. exists (take (length q - length p) a). apply (f_equal (take (length q))) in E. rewrite take_app in E.
    by rewrite take_app_ge in E by done.
  - apply H2. exists (take (length p - length q) b). apply (f_equal (take (length p))) in E. rewrite take_app in E.
    by rewrite take_app_ge in E by done.
Qed.
Lemma pref_frame d p o : readable d -> writable d -> uncached d -> (forall cs, o <> OBatch cs) ->
  exists d1, (step (Pref d p) o).1 = Pref d1 p /\ readable d1 /\ like d d1 /\
    forall k, ~ str p `prefix_of` k -> view d1 k = view d k.
Proof.
  intros Hr Hw Hu Hb.
  assert (forall k k0, ~ str p `prefix_of` k -> k <> str (pkey p k0)) as Hne.
  { intros k k0 Hp ->. apply Hp. rewrite pkey_str. by exists (str k0). }
  destruct o as [k v|k|k|k|cs]; cbn [step Put Get Has Delete].
  - destruct (put_ok d (pkey p k) v Hr Hw) as (_ & B & C & D). destruct (Put d (pkey p k) v) as [d1 r]. cbn [fst] in *.
    exists d1. split; [done|]. split; [done|]. split; [done|]. intros k' Hk'. rewrite D. destruct (refused _ _ _ _); [done|].
    unfold upd. rewrite decide_False; [done|]. by apply Hne.
  - destruct (get_ok d (pkey p k) Hr) as (_ & B & C & D). destruct (Get d (pkey p k)) as [d1 r]. exists d1. done.
  - destruct (has_ok d (pkey p k) Hr Hu) as (_ & B & C & D). destruct (Has d (pkey p k)) as [d1 r]. exists d1. done.
  - destruct (delete_ok d (pkey p k) Hr Hw) as (_ & B & C & D). destruct (Delete d (pkey p k)) as [d1 r]. cbn [fst] in *.
    exists d1. split; [done|]. split; [done|]. split; [done|]. intros k' Hk'. rewrite D.
    unfold upd. rewrite decide_False; [done|]. by apply Hne.
  - by destruct (Hb cs).
Qed.
(** The adapter's answers are those of a store of its own, whatever is done through the
    other adapter. *)
Theorem C36_isolated : forall d p1 p2 os, readable d -> writable d -> uncached d -> incomparable (str p1) (str p2) ->
  no_batch (map snd os) ->
  let rs := (run2 d p1 p2 os).2 in
  only true rs = (s_run false (sv d) (fun k => view d (str p1 ++ k)) (only true os)).2 /\
  only false rs = (s_run false (sv d) (fun k => view d (str p2 ++ k)) (only false os)).2.
Proof.
  intros d p1 p2 os Hr Hw Hu Hinc Hb. cbn zeta. revert d Hr Hw Hu. induction os as [|[w o] os IH]; intros d Hr Hw Hu; [done|].
  assert (forall p q, incomparable (str p) (str q) ->
    exists d1 r, step (NewKeyPrefixedDataAdapter d p) o = (Pref d1 (Some (str p)), r) /\ readable d1 /\ like d d1 /\
      r = (s_step false (sv d) (fun k => view d (str p ++ k)) o).2 /\
      (forall k, view d1 (str p ++ k) = (s_step false (sv d) (fun k => view d (str p ++ k)) o).1 k) /\
      (forall k, view d1 (str q ++ k) = view d (str q ++ k))) as Hone.
  { intros p q Hpq. assert (NewKeyPrefixedDataAdapter d p = Pref d (Some (str p))) as ->.
    { unfold NewKeyPrefixedDataAdapter. destruct (str p) as [|x l] eqn:E; [|done]. exfalso. destruct Hpq as [H _]. apply H. apply prefix_nil. }
    assert (forall cs, o <> OBatch cs) as Hob by (intros cs ->; apply (Hb cs); by left).
    destruct (pref_frame d (Some (str p)) o Hr Hw Hu Hob) as (d1 & E & R1 & L1 & F1).
    destruct (step_ok (Pref d (Some (str p))) o Hr Hw (or_introl Hu) (or_intror Hob)) as (A & B & C & D).
    destruct (step (Pref d (Some (str p))) o) as [a r]. cbn [fst snd] in *. subst a.
    exists d1, r. split; [done|]. split; [done|]. split; [done|]. split; [exact A|]. split; [exact D|].
    intros k. apply F1. intros [l El]. symmetry in El. by apply (incomparable_app _ _ l k Hpq). }
  assert (no_batch (map snd os)) as Hb' by (intros cs Hin; apply (Hb cs); by right).
  assert (incomparable (str p2) (str p1)) as Hinc' by (destruct Hinc; by split).
  rewrite !only_cons. cbn [run2]. destruct w.
  - destruct (Hone p1 p2 Hinc) as (d1 & r & -> & R1 & L1 & -> & V1 & V2).
    destruct (like_flags _ _ L1) as (_ & F2 & F3 & F4 & _). destruct (IH Hb' d1 R1 (F3 Hw) (F4 Hu)) as [I1 I2].
    destruct (run2 d1 p1 p2 os) as [d2 rs]. cbn [snd] in *. rewrite !only_cons. cbn [Bool.eqb]. rewrite <- F2 in *. split.
    + cbn [s_run]. rewrite I1. destruct (s_step _ _ _ o) as [m1 r1]. cbn [fst snd] in *.
      destruct (s_run_ext false (sv d) (only true os) _ _ V1) as [-> _]. by destruct (s_run _ _ m1 _).
    + rewrite I2. by apply s_run_ext.
  - destruct (Hone p2 p1 Hinc') as (d1 & r & -> & R1 & L1 & -> & V1 & V2).
    destruct (like_flags _ _ L1) as (_ & F2 & F3 & F4 & _). destruct (IH Hb' d1 R1 (F3 Hw) (F4 Hu)) as [I1 I2].
    destruct (run2 d1 p1 p2 os) as [d2 rs]. cbn [snd] in *. rewrite !only_cons. cbn [Bool.eqb]. rewrite <- F2 in *. split.
    + rewrite I1. by apply s_run_ext.
    + cbn [s_run]. rewrite I2. destruct (s_step _ _ _ o) as [m1 r1]. cbn [fst snd] in *.
      destruct (s_run_ext false (sv d) (only false os) _ _ V1) as [-> _]. by destruct (s_run _ _ m1 _).
Qed.
Print Assumptions C36_isolated.
(** PrefixKey and PrefixKey2 are concatenations; distinct keys stay distinct. *)
Theorem C36_prefix_key : forall p q k k',
  PrefixKey p k = Some (str p ++ str k) /\ PrefixKey2 p q k = Some (str p ++ str q ++ str k) /\
  (PrefixKey p k = PrefixKey p k' -> str k = str k').
Proof. intros p q k k'. split; [done|]. split; [done|]. intros [= H]. by apply app_inv_head in H. Qed.
Print Assumptions C36_prefix_key.
(** A rebased adapter has the same prefix over the other database. *)
Theorem C36_rebase : forall d nd p, Rebase (NewKeyPrefixedDataAdapter d p) nd = Some (NewKeyPrefixedDataAdapter nd p).
Proof. done. Qed.
Print Assumptions C36_rebase.
(** The condition is needed: a prefix of the other sees its entries. *)
Theorem C36_comparable_refuted : exists p1 p2 k, p1 <> p2 /\ str p1 <> [] /\
  only true (run2 NewMemDB p1 p2 [(false, OPut (Some [9]) (Some [5])); (true, OGet k)]).2 = [RVal (DOk (Some [5]))].
Proof. exists (Some [1]), (Some [1; 2]), (Some [2; 9]). by repeat split. Qed.
Print Assumptions C36_comparable_refuted.
Example C36_example :
  incomparable (str (Some [1; 2])) (str (Some [1; 3])) /\ readable NewMemDB /\ writable NewMemDB /\ uncached NewMemDB /\
  (run2 NewMemDB (Some [1; 2]) (Some [1; 3])
    [(true, OPut (Some [9]) (Some [5])); (false, OGet (Some [9])); (false, OPut None (Some [6])); (true, OHas (Some [])); (false, OHas (Some []))]).2 =
  [(true, RUnit (DOk tt)); (false, RVal (DOk None)); (false, RUnit (DOk tt)); (true, RBool (DOk false)); (false, RBool (DOk true))].
Proof.
  split; [split; intros [l E]; discriminate|]. by repeat split.
Qed.

(** ** C37 *)
(** A batch made by a key-prefixed adapter is never applied: over every database of the
    package, building or committing it panics or fails, and nothing changes. *)
Theorem C37_prefixed_batch_never_applies : forall d p cs,
  match batch_adds (NewBatch (Pref d p)) cs with
  | None => True (* a command on the batch panicked *)
  | Some b => (Batch (Pref d p) b).2 <> DOk tt /\ forall k, view (Batch (Pref d p) b).1 k = view (Pref d p) k
  end.
Proof.
  intros d p cs.
  assert (forall cs b p, match batch_adds (KeyB b p) cs with None => True | Some b' => exists b'', b' = KeyB b'' p end) as Hk.
  { clear. induction cs as [|c cs IH]; intros b p; cbn [batch_adds]; [eauto|]. cbn [batch_add].
    destruct (batch_add b (cmd_conv p c)); [apply IH|done]. }
  specialize (Hk cs (NewBatch d) p). cbn [NewBatch]. destruct (batch_adds _ cs) as [b'|]; [|done]. destruct Hk as [b ->].
  assert (forall d b p, (Batch d (KeyB b p)).2 <> DOk tt /\ forall k, view (Batch d (KeyB b p)).1 k = view d k) as H.
  { clear. induction d as [m|cl m|d IH|rd IH m del|cap b IH c|b IH p0]; intros b' p'; cbn [Batch fst snd]; try done.
    - destruct (IH b' p') as [H1 H2]. by destruct (Batch b (KeyB b' p')) as [d' r].
    - destruct (IH b' p') as [H1 H2]. destruct (Batch b (KeyB b' p')) as [d' r]. split; [done|]. intros k. cbn [fst view] in *. by rewrite H2. }
  destruct (H d b p) as [H1 H2]. cbn [Batch]. destruct (Batch d (KeyB b p)) as [d' r]. split; [done|]. intros k. cbn [fst view] in *. by rewrite H2.
Qed.
Print Assumptions C37_prefixed_batch_never_applies.
(** On MemDB the commit panics, on leveldb it returns an error. *)
Theorem C37_applied_refuted : forall p k v,
  (step (NewKeyPrefixedDataAdapter NewMemDB p) (OBatch [CPut k v])).2 = RUnit DPanic /\
  (step (NewKeyPrefixedDataAdapter NewLDB p) (OBatch [CPut k v])).2 = RUnit (DErr EBatchType).
Proof. done. Qed.
Print Assumptions C37_applied_refuted.
(** For the other databases a batch of their own applies its commands in order. *)
Theorem C37_own_batch : forall d cs, readable d -> batchable d ->
  exists d', step d (OBatch cs) = (d', RUnit (DOk tt)) /\ forall k, view d' k = foldl (s_cmd (sk d) (sv d)) (view d) cs k.
Proof.
  intros d cs Hr Hb. cbn [step]. rewrite own_new, own_adds by done. cbn [app].
  destruct (batch_ok d cs Hr Hb) as (A & B & C & D). destruct (Batch d (own d cs)) as [d' r]. cbn [fst snd] in *. subst r. eauto.
Qed.
Print Assumptions C37_own_batch.

(** ** C66, C67 *)
(** Finding: a batch committed to a closed leveldb database is lost without an error,
    although Put and Delete report one. *)
Theorem C66_closed_batch_refuted : forall m k v cs,
  let d := (Close (Ldb false m)).1 in
  (Put d k v).2 = DErr EClosed /\ (Delete d k).2 = DErr EClosed /\
  step d (OBatch cs) = (d, RUnit (DOk tt)).
Proof.
  intros m k v cs. cbn [Close fst Put Delete snd]. split; [done|]. split; [done|]. cbn [step].
  rewrite own_new, own_adds by done. done.
Qed.
Print Assumptions C66_closed_batch_refuted.

(** Closing keeps all contents. It closes a leveldb database reached directly or through
    caches, and nothing else: an adapter, a temporary or a read-only database leaves the
    one below open. *)
Fixpoint owns_leveldb (d : db) : Prop :=
  match d with Ldb _ _ => True | Cached _ b _ => owns_leveldb b | _ => False end.
Theorem C66_close : forall d, readable d ->
  (forall k, view (Close d).1 k = view d k) /\
  (owns_leveldb d -> ~ readable (Close d).1 /\ (Close d).2 = DOk tt /\
                     (Close (Close d).1).2 = DErr EAlreadyStopped) /\
  (~ owns_leveldb d -> (Close d).1 = d).
Proof.
  induction d as [m|cl m|d IH|rd IH m del|cap b IH c|b IH p]; cbn [readable owns_leveldb Close]; intros Hr.
  - repeat split; try done.
  - subst cl. repeat split; done.
  - repeat split; try done.
  - repeat split; try done.
  - destruct Hr as [Hr Hc]. destruct (IH Hr) as (H1 & H2 & H3). destruct (Close b) as [b' r] eqn:E. cbn [fst snd] in *.
    split; [intros k; cbn [view]; apply H1|]. split.
    + intros Ho. destruct (H2 Ho) as (A & B & C). split; [cbn [readable]; tauto|]. split; [done|].
      cbn [Close]. destruct (Close b') as [b2 r2]. done.
    + intros Ho. by rewrite (H3 Ho).
  - repeat split; try done.
Qed.
Print Assumptions C66_close.
Example C66_close_example :
  let d := NewKeyPrefixedDataAdapter NewLDB (Some [1]) in
  readable d /\ (Close d).1 = d /\ readable (Close d).1 /\ ~ readable (Close NewLDB).1.
Proof. repeat split; cbn; done. Qed.
Lemma batchable_dec d : batchable d \/ ~ batchable d.
Proof. induction d; cbn [batchable]; tauto. Qed.
Lemma unbatchable d : ~ batchable d -> forall cs,
  match batch_adds (NewBatch d) cs with
  | None => True
  | Some b => (Batch d b).2 <> DOk tt /\ forall k, view (Batch d b).1 k = view d k
  end.
Proof.
  induction d as [m|cl m|d IH|rd IH m del|cap b IH c|b IH p]; intros Hb cs; cbn [batchable] in Hb; try tauto.
  - by destruct cs.
  - assert (forall cs b ks, match batch_adds (CacheB b ks) cs, batch_adds b cs with
        | Some b1, Some b2 => exists ks', b1 = CacheB b2 ks' | None, None => True | _, _ => False end) as Hk.
    { clear. induction cs as [|c cs IH]; intros b ks; cbn [batch_adds]; [eauto|]. cbn [batch_add].
      destruct (batch_add b c) as [b'|]; [apply IH|done]. }
    specialize (IH Hb cs). specialize (Hk cs (NewBatch b) []). cbn [NewBatch].
    destruct (batch_adds (CacheB (NewBatch b) []) cs) as [b1|], (batch_adds (NewBatch b) cs) as [b2|]; try done.
    destruct Hk as [ks ->]. destruct IH as [I1 I2]. cbn [Batch]. by destruct (Batch b b2).
  - apply C37_prefixed_batch_never_applies.
Qed.
(** On an open database every write that reports success has been made, and one that
    reports an error has changed nothing. *)
Theorem C66_acknowledged : forall d o, readable d ->
  match o with
  | OPut k v => match step d o with
                | (d', RUnit (DOk _)) => forall k', view d' k' = upd (view d) (str k) (Some (str v)) k'
                | (d', _) => forall k', view d' k' = view d k'
                end
  | ODel k => match step d o with
              | (d', RUnit (DOk _)) => forall k', view d' k' = upd (view d) (str k) None k'
              | (d', _) => forall k', view d' k' = view d k'
              end
  | OBatch cs => match step d o with
                 | (d', RUnit (DOk _)) => forall k', view d' k' = foldl (s_cmd (sk d) (sv d)) (view d) cs k'
                 | (d', _) => forall k', view d' k' = view d k'
                 end
  | _ => True
  end.
Proof.
  assert (forall d, writable d \/ (forall k v, (Put d k v).2 = DErr EReadOnly /\ (Delete d k).2 = DErr EReadOnly /\
     (forall b, (Batch d b).2 = DErr EReadOnly /\ forall k', view (Batch d b).1 k' = view d k') /\
     (forall k', view (Put d k v).1 k' = view d k') /\ (forall k', view (Delete d k).1 k' = view d k'))) as Hd.
  { induction d as [m|cl m|d IH|rd IH m del|cap b IH c|b IH p]; cbn [writable]; try (by left).
    - right. by intros.
    - destruct IH as [|IH]; [by left|right]. intros k v. destruct (IH k v) as (A & B & C & D & E). cbn [Put Delete].
      destruct (Put b k v) as [b1 r1], (Delete b k) as [b2 r2]. cbn [fst snd] in *. subst r1 r2. split; [done|]. split; [done|].
      split; [|by split]. intros b'. cbn [Batch]. destruct b' as [cs|cs|b' ks|b' p|];
      match goal with |- context [Batch b ?x] => destruct (C x) as [C1 C2]; destruct (Batch b x) end; done.
    - destruct IH as [|IH]; [by left|right]. intros k v. destruct (IH (pkey p k) v) as (A & B & C & D & E). cbn [Put Delete].
      destruct (Put b (pkey p k) v) as [b1 r1], (Delete b (pkey p k)) as [b2 r2]. cbn [fst snd] in *. subst r1 r2. split; [done|]. split; [done|].
      split; [|split; intros; cbn [view]; by rewrite ?D, ?E].
      intros b'. cbn [Batch]. destruct (C b') as [C1 C2]. destruct (Batch b b'). split; [done|]. intros. cbn [fst view] in *. by rewrite C2. }
  intros d o Hr. destruct o as [k v|k|k|k|cs]; try done; cbn [step].
  - destruct (Hd d) as [Hw|Hro].
    + destruct (put_ok d k v Hr Hw) as (A & B & C & D). destruct (Put d k v) as [d' r]. cbn [fst snd] in *. subst r. by destruct (refused _ _ _ _).
    + destruct (Hro k v) as (A & _ & _ & B & _). destruct (Put d k v) as [d' r]. cbn [fst snd] in *. by subst r.
  - destruct (Hd d) as [Hw|Hro].
    + destruct (delete_ok d k Hr Hw) as (A & B & C & D). destruct (Delete d k) as [d' r]. cbn [fst snd] in *. by subst r.
    + destruct (Hro k None) as (_ & A & _ & _ & B). destruct (Delete d k) as [d' r]. cbn [fst snd] in *. by subst r.
  - destruct (batchable_dec d) as [Hb|Hb].
    + rewrite own_new, own_adds by done. cbn [app].
      destruct (batch_ok d cs Hr Hb) as (A & B & C & D). destruct (Batch d (own d cs)) as [d' r]. cbn [fst snd] in *. by subst r.
    + pose proof (unbatchable d Hb cs) as H. destruct (batch_adds (NewBatch d) cs) as [b|]; [|done].
      destruct H as [H1 H2]. destruct (Batch d b) as [d' r]. cbn [fst snd] in *. destruct r as [[]| |]; done.
Qed.
Print Assumptions C66_acknowledged.
Example C66_example : let d := Pref NewLDB (Some [1]) in readable d /\
  (step d (OPut (Some [2]) None)).2 = RUnit (DOk tt) /\ (step d (OBatch [CPut (Some [2]) None])).2 = RUnit (DErr EBatchType) /\
  (step NewMemDB (OPut (Some [2]) None)).2 = RUnit (DErr ENil).
Proof. by repeat split. Qed.

(** A read-only database reads like the one below it and never changes it. *)
Theorem C67_readonly : forall d os, readable d -> uncached d ->
  let d' := (run (ReadOnly d) os).1 in
  (forall k, view d' k = view d k) /\
  (run (ReadOnly d) os).2 = map (fun o => match o with
     | OGet k => RVal (DOk (view d (str k)))
     | OHas k => RBool (DOk (match view d (str k) with Some _ => true | None => false end))
     | OPut _ _ | ODel _ | OBatch [] => RUnit (DErr EReadOnly)
     | OBatch (_ :: _) => RUnit DPanic (* its NewBatch returns nil *)
     end) os.
Proof.
  intros d os Hr Hu. cbn zeta.
  assert (exists d0, ReadOnly d = RO d0 /\ readable d0 /\ uncached d0 /\ view d0 = view d) as (d0 & -> & Hr0 & Hu0 & HV).
  { destruct d; cbn [ReadOnly]; eexists; (split; [done|]); done. }
  rewrite <- HV. clear HV Hr Hu d. revert d0 Hr0 Hu0. induction os as [|o os IH]; intros d Hr Hu; [done|].
  assert (exists d1, step (RO d) o = (RO d1, match o with
     | OGet k => RVal (DOk (view d (str k)))
     | OHas k => RBool (DOk (match view d (str k) with Some _ => true | None => false end))
     | OPut _ _ | ODel _ | OBatch [] => RUnit (DErr EReadOnly)
     | OBatch (_ :: _) => RUnit DPanic
     end) /\ readable d1 /\ uncached d1 /\ forall k, view d1 k = view d k) as (d1 & E & R1 & U1 & V1).
  { destruct o as [k v|k|k|k|cs]; cbn [step Put Get Has Delete NewBatch]; eauto.
    - destruct (get_ok d k Hr) as (A & B & C & D). destruct (Get d k) as [d' r]. cbn [fst snd] in *. subst r. exists d'. split; [done|].
      split; [done|]. split; [by apply (like_flags _ _ C)|done].
    - destruct (has_ok d k Hr Hu) as (A & B & C & D). destruct (Has d k) as [d' r]. cbn [fst snd] in *. subst r. exists d'. split; [done|].
      split; [done|]. split; [by apply (like_flags _ _ C)|done].
    - destruct cs; cbn [batch_adds batch_add Batch]; eauto. }
  cbn [run map]. rewrite E. destruct (IH d1 R1 U1) as [I1 I2]. destruct (run (RO d1) os) as [d2 rs]. cbn [fst snd] in *. split.
  - intros k. by rewrite I1.
  - f_equal. rewrite I2. apply map_ext. intros o'. destruct o' as [| | | |[]]; by rewrite ?V1.
Qed.
Print Assumptions C67_readonly.

(** GetNilError: not found exactly when there is no entry or an empty one. *)
Theorem C67_get_nil_error : forall d k, readable d ->
  (GetNilError d k).2 = match view d (str k) with
                        | None | Some [] => DErr ENotFound
                        | Some v => DOk (Some v)
                        end.
Proof.
  intros d k Hr. unfold GetNilError. destruct (get_ok d k Hr) as (A & _). destruct (Get d k) as [d' r]. cbn [snd] in *. subst r.
  by destruct (view d (str k)) as [[]|].
Qed.
Print Assumptions C67_get_nil_error.
Example C67_example : let d := Ldb false {[ [1] := [10]; [2] := [] ]} in
  readable d /\ uncached d /\ (run (ReadOnly d) [OPut (Some [1]) None; OGet (Some [1]); ODel (Some [1]); OHas (Some [1])]).2 =
   [RUnit (DErr EReadOnly); RVal (DOk (Some [10])); RUnit (DErr EReadOnly); RBool (DOk true)] /\
  (GetNilError d (Some [2])).2 = DErr ENotFound.
Proof. by repeat split. Qed.

(** ** C38 *)
Section batch_write.
  Context (thr : Z) (len : nat) (write : nat -> list cmd * bool * option N).
  Definition cmds_of (i : nat) := (write i).1.1.
  Definition ok_of (i : nat) := (write i).1.2.
  Definition err_of (i : nat) := (write i).2.
  (** the commands of the first n callbacks, and how many of those returned ok *)
  Definition cmds (n : nat) : list cmd := flat_map cmds_of (seq 0 n).
  Definition oks (n : nat) : nat := length (List.filter ok_of (seq 0 n)).
  (** callbacks that return false issue no commands *)
  Definition quiet : Prop := forall i, ok_of i = false -> cmds_of i = [].

  Lemma cmds_S n : cmds (S n) = cmds n ++ cmds_of n.
  Proof. unfold cmds. rewrite seq_S, flat_map_app. cbn. by rewrite app_nil_r. Qed.
  Lemma oks_S n : oks (S n) = (oks n + if ok_of n then 1 else 0)%nat.
  Proof. unfold oks. rewrite seq_S, List.filter_app, app_length. cbn. by destruct (ok_of n). Qed.

  Definition post (d : db) (i : nat) (res : db * nat * dres unit) : Prop :=
    let '(d', count, r) := res in
    exists j, (j <= len)%nat /\ (forall k, view d' k = foldl (s_cmd (sk d) (sv d)) (view d) (cmds j) k) /\ count = oks j /\
      (r = DOk tt \/ exists i' e, (i <= i' < len)%nat /\ (j <= i')%nat /\ err_of i' = Some e /\ r = DErr (EUser e)) /\
      (r = DOk tt -> (forall i', (i <= i' < len)%nat -> err_of i' = None) /\ ((0 < len)%nat -> ok_of (len - 1) = true -> j = len) /\
         ((0 < thr)%Z -> (Z.of_nat (oks len - count) < thr)%Z)).

  Lemma bw_ok d0 (Hr0 : readable d0) (Hb0 : batchable d0) (Hq : quiet) :
    forall fuel i d b index count j pend,
    (i + fuel = len)%nat -> readable d -> like d0 d ->
    (j <= i)%nat -> (forall k, view d k = foldl (s_cmd (sk d0) (sv d0)) (view d0) (cmds j) k) -> cmds i = cmds j ++ pend -> count = oks j ->
    oks i = (count + index)%nat -> (index = 0%nat -> pend = []) -> (index <> 0%nat -> b = own d pend) ->
    ((0 < thr)%Z -> (Z.of_nat index < thr)%Z) ->
    (i = len -> (0 < len)%nat -> ok_of (len - 1) = true -> index = 0%nat) ->
    post d0 i (bw_loop thr len write fuel i d b index count).
  Proof.
    induction fuel as [|fuel IH]; intros i d b index count j pend Hi Hr Hl Hji HV Hc Hcnt Hoks Hp0 Hp1 Hthr Hlast; cbn [bw_loop].
    { assert (i = len) as -> by lia. destruct index as [|index].
      - exists len. rewrite (Hp0 eq_refl), app_nil_r in Hc. split; [done|]. split; [by rewrite Hc|]. split; [lia|]. split; [by left|].
        intros _. split; [intros; lia|]. split; [done|]. intros. replace (oks len - count)%nat with 0%nat by lia. done.
      - exists j. split; [done|]. split; [done|]. split; [done|]. split; [by left|]. intros _. split; [intros; lia|].
        split; [|intros Ht; specialize (Hthr Ht); lia]. intros H1 H2. by specialize (Hlast eq_refl H1 H2). }
    destruct (like_flags _ _ Hl) as (F1 & F2 & _ & _ & F5 & _).
    assert ((if (index =? 0)%nat then NewBatch d else b) = own d pend) as ->.
    { destruct (Nat.eqb_spec index 0) as [E|E]; [|by apply Hp1]. rewrite (Hp0 E). apply own_new. auto. }
    pose proof (Hq i) as Hqi. unfold cmds_of, ok_of in Hqi. pose proof (cmds_S i) as HcS. pose proof (oks_S i) as HoS.
    unfold cmds_of in HcS. unfold ok_of in HoS.
    assert (err_of i = (write i).2) as He by done.
    destruct (write i) as [[cs ok] err] eqn:Ew. cbn [fst snd] in *.
    rewrite own_adds by auto.
    destruct err as [e|].
    { exists j. split; [lia|]. split; [done|]. split; [done|]. split; [|done]. right. exists i, e. repeat split; lia || done. }
    assert (forall res, post d0 (S i) res -> post d0 i res) as Hpost.
    { intros [[d' c'] r'] (j' & P1 & P2 & P3 & P4 & P5). exists j'. split; [done|]. split; [done|]. split; [done|]. split.
      - destruct P4 as [|(i' & e & ? & ? & ? & ?)]; [by left|]. right. exists i', e. repeat split; lia || done.
      - intros Hok. destruct (P5 Hok) as [P6 P7]. split; [|done]. intros i' Hi'. destruct (decide (i' = i)) as [->|]; [by rewrite He|]. apply P6. lia. }
    apply Hpost. destruct ok; cbn [negb].
    - destruct ((Z.of_nat (S index) =? thr)%Z || (i =? len - 1)%nat) eqn:Ecommit.
      + destruct (batch_ok d (pend ++ cs) Hr (F5 Hb0)) as (A & B & C & D). destruct (Batch d (own d (pend ++ cs))) as [d' r]. cbn [fst snd] in *. subst r.
        apply (IH (S i) d' _ 0%nat (count + S index)%nat (S i) []); try done; try lia.
        * by eapply like_trans.
        * intros k. rewrite D, HcS, Hc, <- app_assoc, (foldl_app _ (cmds j)), <- F1, <- F2. by apply s_cmds_ext.
        * by rewrite app_nil_r.
      + apply orb_false_iff in Ecommit as [E1 E2]. apply Z.eqb_neq in E1. apply Nat.eqb_neq in E2.
        apply (IH (S i) d _ (S index) count j (pend ++ cs)); try done; try lia.
        by rewrite HcS, Hc, <- app_assoc.
    - specialize (Hqi eq_refl). subst cs. rewrite app_nil_r.
      apply (IH (S i) d _ index count j pend); try done; try lia.
      + by rewrite HcS, app_nil_r.
      + intros H1 H2 H3. exfalso. replace (len - 1)%nat with i in H3 by lia. unfold ok_of in H3. by rewrite Ew in H3.
  Qed.

  (** If callbacks that return false write nothing: what has been applied is all the
      commands of the first j callbacks, in order, and the count is the number of those
      that returned ok. A run without an error misses fewer than [thr] of the ok
      callbacks, and none if the last callback returned ok. *)
  Theorem C38_batch_write : forall d, readable d -> batchable d -> quiet ->
    post d 0 (BatchWrite thr len write d).
  Proof.
    intros d Hr Hb Hq. apply (bw_ok d Hr Hb Hq len 0 d NilB 0 0 0 []); try done; try lia. apply like_refl.
  Qed.
End batch_write.
Print Assumptions C38_batch_write.

(** Finding: when the last callback returns false, the callbacks since the last commit
    are not written, and no error is reported; for a threshold that is not positive this
    can be all of them. *)
Theorem C38_lost_refuted : forall thr d, (thr <= 0 \/ 1 < thr)%Z ->
  let write i := match i with O => ([CPut (Some [1]) (Some [2])], true, None) | _ => ([], false, None) end in
  quiet write /\ batchable d -> 
  BatchWrite thr 2 write d = (d, 0%nat, DOk tt).
Proof.
  intros thr d Ht write [Hq Hb]. unfold BatchWrite. cbn [bw_loop Nat.eqb]. rewrite own_new by done. cbn [write].
  rewrite own_adds by done. cbn [negb app Nat.eqb Nat.sub].
  destruct (Z.eqb_spec (Z.of_nat 1) thr) as [E|_]; [lia|]. done.
Qed.
Print Assumptions C38_lost_refuted.
Example C38_example :
  let write i := ([CPut (Some [N.of_nat i]) (Some [N.of_nat i])], true, if (i =? 4)%nat then Some 9 else None) in
  quiet write /\ (BatchWrite 2 3 write NewMemDB).1.2 = 3%nat /\ (BatchWrite 2 5 write NewMemDB).1.2 = 4%nat /\
  (BatchWrite 2 5 write NewMemDB).2 = DErr (EUser 9) /\
  view (BatchWrite 2 5 write NewMemDB).1.1 [3] = Some [3] /\ view (BatchWrite 2 5 write NewMemDB).1.1 [4] = None.
Proof. split; [done|]. by repeat split. Qed.
