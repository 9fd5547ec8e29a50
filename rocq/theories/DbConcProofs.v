(** Proofs about concurrent use of cachedDB, temporaryDB and MemDB. *)
From Coq Require Import Lia.
From stdpp Require Import gmap.
From Verif Require Import LockSpec LockModel LockProofs DbModel DbProps DbConcModel.
Global Open Scope N_scope.

(** ** Specification *)
(** the key-value store of C33 as a sequential object; two stores are the same when they
    hold the same values *)
Definition sp_store (sk sv : bool) (m : store) (o : op) (m' : store) (r : out) : Prop :=
  r = (s_step sk sv m o).2 /\ forall k, m' k = (s_step sk sv m o).1 k.
(** the same, except that Has may answer true for a key that is absent (C35_has_refuted
    shows that it does) *)
Definition sp_cached (sk sv : bool) (m : store) (o : op) (m' : store) (r : out) : Prop :=
  match o with
  | OHas k => (forall k', m' k' = m k') /\ exists b, r = RBool (DOk b) /\ (b = false -> m (str k) = None)
  | _ => sp_store sk sv m o m' r
  end.

(** ** Sequential facts *)
Lemma get_same d k : uncached d -> (Get d k).1 = d.
Proof.
  revert k. induction d as [m|cl m|d IH|rd IH m del|cap b IH c|b IH p]; intros k Hu; cbn [Get uncached] in *; try done.
  - by destruct cl.
  - specialize (IH k Hu). destruct (Get d k). cbn in *. by subst.
  - destruct (decide _); [done|]. destruct (m !! str k); [done|].
    specialize (IH k Hu). destruct (Get rd k). cbn in *. by subst.
  - specialize (IH (pkey p k) Hu). destruct (Get b (pkey p k)). cbn in *. by subst.
Qed.
Lemma has_same d k : uncached d -> (Has d k).1 = d.
Proof.
  revert k. induction d as [m|cl m|d IH|rd IH m del|cap b IH c|b IH p]; intros k Hu; cbn [Has uncached] in *; try done.
  - by destruct cl.
  - specialize (IH k Hu). destruct (Has d k). cbn in *. by subst.
  - destruct (decide _); [done|]. destruct (m !! str k); [done|].
    specialize (IH k Hu). destruct (Has rd k). cbn in *. by subst.
  - specialize (IH (pkey p k) Hu). destruct (Has b (pkey p k)). cbn in *. by subst.
Qed.
Lemma s_cmds_other a b cs : forall m k, k ∉ map (fun c => str (cmd_key c)) cs -> foldl (s_cmd a b) m cs k = m k.
Proof.
  induction cs as [|c cs IH]; intros m k Hk; cbn [foldl]; [done|].
  cbn [map] in Hk. apply not_elem_of_cons in Hk as [Hk1 Hk2]. rewrite (IH _ _ Hk2).
  destruct c as [k0 v0|k0]; cbn [s_cmd cmd_key] in *; [destruct (refused _ _ _ _); [done|]|];
    unfold upd; by rewrite decide_False.
Qed.

(** ** cachedDB *)
Section cached.
  Context (cap : nat) (b0 : db).
  Definition good (b : db) : Prop :=
    like b0 b /\ readable b /\ writable b /\ uncached b /\ batchable b.
  Lemma good_like b b' : good b -> readable b' -> like b b' -> good b'.
  Proof.
    intros (H1 & H2 & H3 & H4 & H5) Hr Hl. destruct (like_flags _ _ Hl) as (_ & _ & A & B & C & _).
    split_and!; auto. by eapply like_trans.
  Qed.
  Lemma good_flags b : good b -> sk b = sk b0 /\ sv b = sv b0.
  Proof. intros (H1 & _). destruct (like_flags _ _ H1) as (-> & -> & _). done. Qed.

  Definition cJ (s : db * cache) : Prop := good s.1 /\ coherent s.2 (view s.1).
  Definition cabs (s : db * cache) : store := view s.1.
  Definition cK (o : op) (l : clocal) (s : db * cache) : Prop :=
    match l with
    | CGet0 k | CGet1 k => o = OGet k
    | CGet2 k v => o = OGet k /\ v = view s.1 (str k)
    | CHas0 k | CHas1 k => o = OHas k
    | _ => False
    end.
  Definition cW (o : op) (l : clocal) (s : db * cache) (m : store) : Prop :=
    match l with
    | CPut0 k v => o = OPut k v /\ cJ s /\ m = cabs s
    | CPut1 k => exists v, o = OPut k v /\ refused (sk b0) (sv b0) k v = false /\ good s.1 /\ coherent s.2 m
                           /\ forall k', view s.1 k' = upd m (str k) (Some (str v)) k'
    | CDel0 k => o = ODel k /\ cJ s /\ m = cabs s
    | CDel1 k => o = ODel k /\ cJ s /\ m = cabs s /\ forall v, (str k, v) ∉ s.2
    | CBat ks cs => o = OBatch cs /\ cJ s /\ m = cabs s
                    /\ forall k, k ∈ map (fun c => str (cmd_key c)) cs -> k ∈ ks \/ forall v, (k, v) ∉ s.2
    | _ => False
    end.

  Lemma cached_ok :
    object_ok db_kind c_start (c_next cap) (sp_cached (sk b0) (sv b0)) cJ cabs cK cW.
  Proof.
    split.
    - intros [] s; cbn; try done.
    - (* readers, not the last step *)
      intros o l [b c] ch s' l' Hk [Hg Hc] HK Hn. cbn in Hg, Hc.
      destruct l; cbn in HK; try done; cbn [c_next] in Hn.
      + destruct (c_find (str k) c); simplify_eq. subst. by split_and!.
      + subst. destruct Hg as (Hg1 & Hg2 & Hg3 & Hg4 & Hg5).
        destruct (get_ok b k Hg2) as (A & B & C & D). pose proof (get_same b k Hg4) as E.
        destruct (Get b k) as [b' r]. cbn in *. subst. simplify_eq. by split_and!.
      + destruct (c_find (str k) c); simplify_eq. subst. by split_and!.
      + destruct (Has b k). simplify_eq.
    - intros o l [b c] ch s' a Hk [Hg Hc] HK Hn. cbn in Hg, Hc.
      destruct l; cbn in HK; try done; cbn [c_next] in Hn.
      + destruct (c_find (str k) c) as [v|] eqn:Hf; simplify_eq. subst. split_and!.
        * split; [done|]. by apply coherent_touch.
        * split; [|done]. cbn. f_equal. f_equal. pose proof Hc as [H1 H2]. apply c_find_spec in Hf; [|done].
          by apply H2.
        * intros o' []; cbn; done.
      + subst. destruct Hg as (Hg1 & Hg2 & Hg3 & Hg4 & Hg5).
        destruct (get_ok b k Hg2) as (A & B & C & D). destruct (Get b k) as [b' r]. cbn in *. subst. simplify_eq.
      + simplify_eq. destruct HK as [-> ->]. split_and!.
        * split; [done|]. by apply coherent_add.
        * done.
        * intros o' []; cbn; done.
      + destruct (c_find (str k) c) as [v|] eqn:Hf; simplify_eq. subst. split_and!.
        * split; [done|]. by apply coherent_touch.
        * split; [done|]. exists true. done.
        * intros o' []; cbn; done.
      + subst. destruct Hg as (Hg1 & Hg2 & Hg3 & Hg4 & Hg5).
        destruct (has_ok b k Hg2 Hg4) as (A & B & C & D). pose proof (has_same b k Hg4) as E.
        destruct (Has b k) as [b' r]. cbn in *. subst. simplify_eq. split_and!; try done.
        * eexists. split; [done|]. cbn. by destruct (view b (str k)).
    - (* writers *)
      intros [] s Hk HJ; cbn in *; try done.
      split_and!; auto. intros k Hk'. left. by apply elem_of_remove_dups.
    - intros o l [b c] m ch s' l' Hk HW Hn. destruct l; cbn in HW; try done; cbn [c_next] in Hn.
      + destruct HW as (-> & [Hg Hc] & ->). cbn in Hg, Hc. destruct (good_flags _ Hg) as [F1 F2].
        pose proof Hg as (_ & Hr & Hw & _). destruct (put_ok b k v Hr Hw) as (A & B & C & D).
        destruct (Put b k v) as [b' r]. cbn in A, B, C, D. rewrite F1, F2 in A, D.
        destruct (refused (sk b0) (sv b0) k v) eqn:Hrf; subst r; simplify_eq.
        exists v. split_and!; auto. by eapply good_like.
      + destruct HW as (-> & [Hg Hc] & ->). simplify_eq. cbn in *. destruct (coherent_remove (str k) c _ Hc).
        split_and!; auto. split; done.
      + destruct (Delete b k). simplify_eq.
      + destruct ks as [|k ks].
        { repeat (case_match; simplify_eq). }
        destruct HW as (-> & [Hg Hc] & -> & Hks). cbn in Hg, Hc.
        destruct ((k :: ks) !! ch) as [x|] eqn:Hx; simplify_eq.
        destruct (coherent_remove x c _ Hc) as [H1 H2]. cbn.
        split_and!; auto.
        * split; done.
        * intros k' Hk'. destruct (Hks _ Hk') as [Hin|Hin].
          -- apply elem_of_list_lookup in Hin as [j Hj]. destruct (decide (j = ch)) as [->|Hne].
             ++ right. rewrite Hx in Hj. injection Hj as ->. apply H2.
             ++ left. apply elem_of_app. destruct (decide (j < ch)%nat) as [Hlt|Hge].
                ** left. apply elem_of_list_lookup. exists j. by rewrite lookup_take.
                ** right. apply elem_of_list_lookup. exists (j - S ch)%nat. rewrite lookup_drop. cbn.
                   destruct j as [|j]; [lia|]. replace (ch + (S j - S ch))%nat with j by lia. done.
          -- right. intros v Hv. apply c_remove_in in Hv as [Hv _]; [|by destruct Hc]. by eapply Hin.
    - intros o l [b c] m ch s' a Hk HW Hn. destruct l; cbn in HW; try done; cbn [c_next] in Hn.
      + destruct HW as (-> & [Hg Hc] & ->). cbn in Hg, Hc. destruct (good_flags _ Hg) as [F1 F2].
        pose proof Hg as (_ & Hr & Hw & _). destruct (put_ok b k v Hr Hw) as (A & B & C & D).
        destruct (Put b k v) as [b' r]. cbn in A, B, C, D. rewrite F1, F2 in A, D.
        destruct (refused (sk b0) (sv b0) k v) eqn:Hrf; subst r; simplify_eq. split.
        * split; [by eapply good_like|]. cbn. eapply coherent_ext; [|exact Hc]. intros k'. by rewrite D.
        * unfold sp_cached, sp_store. cbn. rewrite Hrf. cbn. auto.
      + destruct HW as (v & -> & Hrf & Hg & Hc & Hv). simplify_eq. cbn in *.
        destruct (coherent_remove (str k) c _ Hc) as [H1 H2]. split.
        * split; [done|]. cbn. eapply coherent_ext; [symmetry; apply Hv|]. by apply coherent_upd.
        * unfold sp_store. cbn. rewrite Hrf. cbn. auto.
      + destruct HW as (-> & [Hg Hc] & -> & Hno). cbn in *.
        pose proof Hg as (_ & Hr & Hw & _). destruct (delete_ok b k Hr Hw) as (A & B & C & D).
        destruct (Delete b k) as [b' r]. cbn in A, B, C, D. simplify_eq. split.
        * split; [by eapply good_like|]. cbn. eapply coherent_ext; [symmetry; apply D|]. by apply coherent_upd.
        * unfold sp_store. cbn. auto.
      + destruct ks as [|k ks]; [|repeat (case_match; simplify_eq)].
        destruct HW as (-> & [Hg Hc] & -> & Hks). cbn in Hg, Hc, Hks. destruct (good_flags _ Hg) as [F1 F2].
        pose proof Hg as (_ & Hr & Hw & _ & Hb). rewrite own_new, own_adds in Hn by done. cbn [app] in Hn.
        destruct (batch_ok b cs Hr Hb) as (A & B & C & D).
        destruct (Batch b (own b cs)) as [b' r]. cbn in A, B, C, D. rewrite F1, F2 in D. simplify_eq. split.
        * split; [by eapply good_like|]. cbn. destruct Hc as [H1 H2]. split; [done|]. intros k' v' Hin.
          rewrite D, s_cmds_other; [by apply H2|]. intros Hk'. destruct (Hks _ Hk') as [Hx|Hx]; [inversion Hx|].
          by eapply Hx.
        * unfold sp_cached, sp_store. cbn. auto.
  Qed.
End cached.

Definition c_size (l : clocal) : nat :=
  match l with
  | CGet0 _ => 2 | CGet1 _ => 1 | CGet2 _ _ => 0 | CHas0 _ => 1 | CHas1 _ => 0
  | CPut0 _ _ => 1 | CPut1 _ => 0 | CDel0 _ => 1 | CDel1 _ => 0
  | CBat ks _ => length ks
  end.
Lemma c_goes_on cap s l : exists ch r, c_next cap ch s l = Some r.
Proof.
  exists 0%nat. destruct s as [b c]. destruct l; cbn [c_next]; try (repeat case_match; eauto; fail).
  destruct ks as [|k ks]; [|cbn; eauto]. repeat case_match; eauto.
Qed.
Lemma c_ends cap ch s l s' l' : c_next cap ch s l = Some (s', inl l') -> (c_size l' < c_size l)%nat.
Proof.
  destruct s as [b c]. destruct l; cbn [c_next]; intros H; try (repeat case_match; simplify_eq; cbn; lia).
  destruct ks as [|k ks]; [repeat case_match; simplify_eq|].
  destruct ((k :: ks) !! ch) as [x|] eqn:Hx; simplify_eq. apply lookup_lt_Some in Hx.
  cbn [c_size]. rewrite app_length, take_length, drop_length. lia.
Qed.

(** ** temporaryDB *)
Section temporary.
  Context (d : db).
  Definition tJ (s : tstate) : Prop := t_read s = d /\ readable d /\ uncached d.
  Definition tabs (s : tstate) : store := view (Tmp (t_read s) (t_mem s) (t_del s)).
  Definition tK (o : op) (l : tlocal) (s : tstate) : Prop :=
    match l with
    | TGet0 k => o = OGet k
    | TGet1 k => o = OGet k /\ str k ∉ t_del s
    | TGet2 k => o = OGet k /\ str k ∉ t_del s /\ t_mem s !! str k = None
    | THas0 k => o = OHas k
    | THas1 k => o = OHas k /\ str k ∉ t_del s
    | THas2 k => o = OHas k /\ str k ∉ t_del s /\ t_mem s !! str k = None
    | _ => False
    end.
  Definition after (m : store) (cs : list cmd) : store := foldl (s_cmd true true) m cs.
  Definition tW (o : op) (l : tlocal) (s : tstate) (m : store) : Prop :=
    tJ s /\
    match l with
    | TPut0 k v => o = OPut k v /\ m = tabs s
    | TPut1 k => exists v, o = OPut k v /\ refused true true k v = false
                   /\ forall k', upd m (str k) (Some (str v)) k' = tabs (TS (t_read s) (t_mem s) (t_del s ∖ {[str k]})) k'
    | TDel0 k => o = ODel k /\ m = tabs s
    | TDel1 k => o = ODel k
                   /\ forall k', upd m (str k) None k' = tabs (TS (t_read s) (base.delete (str k) (t_mem s)) (t_del s)) k'
    | TBat cs => exists cs0, o = OBatch (cs0 ++ cs) /\ forall k', tabs s k' = after m cs0 k'
    | TBatPut1 k cs => exists cs0, o = OBatch (cs0 ++ cs)
                   /\ forall k', tabs (TS (t_read s) (t_mem s) (t_del s ∖ {[str k]})) k' = after m cs0 k'
    | TBatDel1 k cs => exists cs0, o = OBatch (cs0 ++ cs)
                   /\ forall k', tabs (TS (t_read s) (base.delete (str k) (t_mem s)) (t_del s)) k' = after m cs0 k'
    | _ => False
    end.

  Lemma put_abs s k v m' :
    mem_put (t_mem s) k v = (m', DOk tt) ->
    refused true true k v = false /\
    forall k', tabs (TS (t_read s) m' (t_del s ∖ {[str k]})) k' = upd (tabs s) (str k) (Some (str v)) k'.
  Proof.
    intros H. destruct (tmp_put (t_mem s) (t_del s) k v) as [[a b] r] eqn:E.
    pose proof (tmp_put_view _ _ (t_read s) _ _ _ _ _ E) as [Hr Hv].
    unfold tmp_put in E. rewrite H in E. injection E as <- <- <-.
    destruct (refused true true k v) eqn:Hrf; [done|]. split; [done|]. exact Hv.
  Qed.
  Lemma put_refused s k v m' e :
    mem_put (t_mem s) k v = (m', e) -> e <> DOk tt -> m' = t_mem s /\ e = DErr ENil /\ refused true true k v = true.
  Proof. unfold mem_put. destruct k as [k|], v as [v|]; intros [= <- <-] Hne; done. Qed.
  Lemma after_snoc m cs c k : after m (cs ++ [c]) k = s_cmd true true (after m cs) c k.
  Proof. unfold after. by rewrite foldl_app. Qed.

  Lemma temporary_ok :
    object_ok db_kind t_start t_next (sp_store true true) tJ tabs tK tW.
  Proof.
    split.
    - intros [] s; cbn; try done.
    - intros o l s ch s' l' Hk HJ HK Hn. destruct l; cbn in HK; try done; cbn [t_next] in Hn.
      + case_decide; simplify_eq. by split_and!.
      + destruct HK as [-> HK]. destruct (t_mem s !! str k) eqn:E; simplify_eq. by split_and!.
      + destruct (Get (t_read s) k); simplify_eq.
      + case_decide; simplify_eq. by split_and!.
      + destruct HK as [-> HK]. destruct (t_mem s !! str k) eqn:E; simplify_eq. by split_and!.
      + destruct (Has (t_read s) k); simplify_eq.
    - intros o l s ch s' a Hk HJ HK Hn. destruct l; cbn in HK; try done; cbn [t_next] in Hn.
      + subst. case_decide; simplify_eq. split_and!; try done. split; [|done]. cbn. by rewrite decide_True.
      + destruct HK as [-> HK]. destruct (t_mem s !! str k) eqn:E; simplify_eq. split_and!; try done.
        split; [|done]. cbn. by rewrite decide_False, E.
      + destruct HK as (-> & HK1 & HK2). pose proof HJ as (E & Hr & Hu).
        destruct (get_ok _ k Hr) as (A & B & C & D). pose proof (get_same _ k Hu) as F.
        destruct s as [r m de]. cbn in E, HK1, HK2, Hn. subst r. destruct (Get d k) as [r' x].
        cbn in A, F. subst r' x. simplify_eq. split_and!; try done.
        split; [|done]. cbn. by rewrite decide_False, HK2.
      + subst. case_decide; simplify_eq. split_and!; try done. split; [|done]. cbn. by rewrite decide_True.
      + destruct HK as [-> HK]. destruct (t_mem s !! str k) eqn:E; simplify_eq. split_and!; try done.
        split; [|done]. cbn. by rewrite decide_False, E.
      + destruct HK as (-> & HK1 & HK2). pose proof HJ as (E & Hr & Hu).
        destruct (has_ok _ k Hr Hu) as (A & B & C & D). pose proof (has_same _ k Hu) as F.
        destruct s as [r m de]. cbn in E, HK1, HK2, Hn. subst r. destruct (Has d k) as [r' x].
        cbn in A, F. subst r' x. simplify_eq. split_and!; try done.
        split; [|done]. cbn. by rewrite decide_False, HK2.
    - intros [] s Hk HJ; cbn in *; try done. split; [done|]. exists []. done.
    - intros o l s m ch s' l' Hk [HJ HW] Hn. destruct l; cbn in HW; try done; cbn [t_next] in Hn.
      + destruct HW as [-> ->]. destruct (mem_put (t_mem s) k v) as [m' r] eqn:E.
        destruct r as [[]| |]; simplify_eq. split; [done|]. destruct (put_abs _ _ _ _ E) as [Hrf Hv].
        exists v. split_and!; auto.
      + simplify_eq. destruct HW as [-> ->]. split; [done|]. split; [done|].
        intros k'. symmetry. apply (tmp_delete_view (t_mem s) (t_del s) (t_read s) k). done.
      + destruct cs as [|[k v|k] cs]; simplify_eq.
        * destruct HW as (cs0 & -> & HW). destruct (mem_put (t_mem s) k v) as [m' r] eqn:E.
          destruct r as [[]|e|]; simplify_eq.
          -- destruct (put_abs _ _ _ _ E) as [Hrf Hv]. split; [done|]. exists (cs0 ++ [CPut k v]).
             rewrite <- app_assoc. split; [done|]. intros k'. rewrite after_snoc. cbn [t_read t_mem t_del s_cmd].
             rewrite Hrf, Hv. apply upd_ext. exact HW.
          -- destruct (put_refused _ _ _ _ _ E) as (-> & _ & Hrf); [done|]. split; [done|].
             exists (cs0 ++ [CPut k v]). rewrite <- app_assoc. split; [done|]. intros k'. rewrite after_snoc.
             cbn [s_cmd]. rewrite Hrf. apply HW.
          -- destruct (put_refused _ _ _ _ _ E) as (-> & ? & Hrf); done.
        * destruct HW as (cs0 & -> & HW). split; [done|]. exists (cs0 ++ [CDel k]). rewrite <- app_assoc.
          split; [done|]. intros k'. rewrite after_snoc. cbn [t_read t_mem t_del s_cmd].
          etransitivity; [apply (tmp_delete_view (t_mem s) (t_del s) (t_read s) k); done|].
          apply upd_ext. exact HW.
      + simplify_eq. destruct HW as (cs0 & -> & HW). split; [done|]. exists cs0. done.
      + simplify_eq. destruct HW as (cs0 & -> & HW). split; [done|]. exists cs0. done.
    - intros o l s m ch s' a Hk [HJ HW] Hn. destruct l; cbn in HW; try done; cbn [t_next] in Hn.
      + destruct HW as [-> ->]. destruct (mem_put (t_mem s) k v) as [m' r] eqn:E.
        destruct (put_refused _ _ _ _ _ E) as (-> & -> & Hrf); [by destruct r as [[]| |]|].
        simplify_eq. split; [done|]. unfold sp_store. cbn. rewrite Hrf. done.
      + simplify_eq. destruct HW as (v & -> & Hrf & HW). split; [done|]. unfold sp_store. cbn [s_step].
        rewrite Hrf. split; [done|]. intros k'. symmetry. apply HW.
      + simplify_eq. destruct HW as (-> & HW). split; [done|]. split; [done|]. intros k'. symmetry. apply HW.
      + destruct cs as [|[k v|k] cs]; simplify_eq.
        * destruct HW as (cs0 & -> & HW). split; [done|]. rewrite app_nil_r. split; [done|]. exact HW.
        * repeat (case_match; simplify_eq).
  Qed.
End temporary.

Definition t_size (l : tlocal) : nat :=
  match l with
  | TGet0 _ | THas0 _ => 2 | TGet1 _ | THas1 _ => 1 | TGet2 _ | THas2 _ => 0
  | TPut0 _ _ | TDel0 _ => 1 | TPut1 _ | TDel1 _ => 0
  | TBat cs => 2 * length cs
  | TBatPut1 _ cs | TBatDel1 _ cs => 2 * length cs + 1
  end%nat.
Lemma t_goes_on s l : exists ch r, t_next ch s l = Some r.
Proof.
  exists 0%nat. destruct l; cbn [t_next]; try (repeat case_match; eauto; fail).
Qed.
Lemma t_ends ch s l s' l' : t_next ch s l = Some (s', inl l') -> (t_size l' < t_size l)%nat.
Proof. destruct l; cbn [t_next]; intros H; repeat case_match; simplify_eq; cbn; lia. Qed.

(** ** a method that runs alone does what the sequential model says *)
Lemma c_remove_filter k (c : list (bkey * slice)) : NoDup c.*1 -> c_remove k c = filter (fun x => x.1 <> k) c.
Proof.
  induction c as [|[k' v] c IH]; intros Hn; cbn [c_remove]; [done|].
  cbn in Hn. apply NoDup_cons in Hn as [Hn1 Hn2]. rewrite list.filter_cons. cbn [fst].
  destruct (decide (k = k')) as [->|Hne].
  - rewrite decide_False by tauto. clear IH.
    induction c as [|[k2 v2] c IH]; [done|]. cbn in Hn1, Hn2. apply not_elem_of_cons in Hn1 as [Hne Hn1].
    rewrite list.filter_cons, decide_True by (cbn; congruence). f_equal. apply IH; [done|]. by apply NoDup_cons in Hn2 as [_ ?].
  - rewrite decide_True by congruence. f_equal. auto.
Qed.
Lemma filter_keys_nodup (P : bkey * slice -> Prop) `{!forall x, Decision (P x)} (c : list (bkey * slice)) : NoDup c.*1 -> NoDup (filter P c).*1.
Proof.
  induction c as [|x c IH]; intros Hn; [constructor|].
  rewrite list.filter_cons. cbn in Hn. apply NoDup_cons in Hn as [Hn1 Hn2].
  destruct (decide (P x)); [|auto]. cbn. constructor; [|auto]. intros Hin. apply Hn1.
  apply elem_of_list_fmap in Hin as (y & -> & Hy). apply elem_of_list_filter in Hy as [_ Hy].
  apply elem_of_list_fmap. eauto.
Qed.
Lemma c_removes ks : forall (c : list (bkey * slice)), NoDup c.*1 ->
  foldl (fun c k => c_remove k c) c ks = filter (fun x => x.1 ∉ ks) c.
Proof.
  induction ks as [|k ks IH]; intros c Hn; cbn [foldl].
  - symmetry. induction c as [|x c IH]; [done|]. rewrite list.filter_cons, decide_True by (inversion 1).
    f_equal. apply IH. cbn in Hn. by apply NoDup_cons in Hn as [_ ?].
  - rewrite c_remove_filter by done. rewrite IH by (by apply filter_keys_nodup).
    rewrite list_filter_filter. apply list_filter_iff. intros [k' v]. cbn. rewrite not_elem_of_cons. tauto.
Qed.

Lemma cbat_alone cap cs ks : forall b (c : list (bkey * slice)) b' (c' : list (bkey * slice)) a,
  alone (c_next cap) (b, c) (CBat ks cs) (b', c') a -> NoDup c.*1 ->
  c' = filter (fun x => x.1 ∉ ks) c /\ (b', a) = step b (OBatch cs).
Proof.
  remember (length ks) as n eqn:Hn. revert ks Hn. induction n as [|n IH]; intros ks Hn b c b' c' a H Hnd.
  - destruct ks; [|discriminate].
    inversion H as [ch s l s' a' Hs|ch s l s1 l1 s' a' Hs]; subst; cbn [c_next] in Hs.
    + assert (c = filter (fun x : bkey * slice => x.1 ∉ @nil bkey) c) as Hc.
      { rewrite <- (c_removes []) by done. done. }
      cbn [step]. destruct (batch_adds (NewBatch b) cs) as [bt|]; [|simplify_eq; by rewrite <- Hc].
      destruct (Batch b bt) as [d r]. simplify_eq. by rewrite <- Hc.
    + destruct (batch_adds (NewBatch b) cs) as [bt|]; [|simplify_eq]. destruct (Batch b bt). simplify_eq.
  - destruct ks as [|k ks]; [discriminate|].
    inversion H as [ch s l s' a' Hs|ch s l s1 l1 s' a' Hs Ha]; subst; cbn [c_next] in Hs;
      destruct ((k :: ks) !! ch) as [x|] eqn:Hx; simplify_eq.
    pose proof (lookup_lt_Some _ _ _ Hx) as Hlt.
    edestruct IH as [-> E]; [|exact Ha|..].
    { rewrite app_length, take_length, drop_length. cbn in Hlt, Hn |- *. lia. }
    { by apply c_remove_nodup. }
    split; [|exact E]. rewrite c_remove_filter by done. rewrite list_filter_filter. apply list_filter_iff.
    intros [k' v]. cbn [fst].
    assert (k' ∈ k :: ks <-> k' = x \/ k' ∈ take ch (k :: ks) ++ drop (S ch) (k :: ks)) as Hin.
    { rewrite <- (take_drop_middle _ _ _ Hx) at 1. rewrite !elem_of_app, elem_of_cons. tauto. }
    rewrite Hin. tauto.
Qed.
Lemma cached_batch_adds cs : forall b ks,
  batch_adds (CacheB b ks) cs =
  match batch_adds b cs with Some b' => Some (CacheB b' (rev (map (fun c => str (cmd_key c)) cs) ++ ks)) | None => None end.
Proof.
  induction cs as [|c cs IH]; intros b ks; cbn [batch_adds map rev]; [done|].
  cbn [batch_add]. destruct (batch_add b c); [|done]. rewrite IH. destruct (batch_adds b0 cs); [|done].
  by rewrite <- app_assoc.
Qed.

Ltac alone_step H :=
  let Hs := fresh "Hs" in let Ha := fresh "Ha" in
  inversion H as [? ? ? ? ? Hs|? ? ? ? ? ? ? Hs Ha]; subst; cbn [c_next t_next] in Hs; clear H.

Lemma cached_alone cap b c o b' c' a :
  NoDup c.*1 -> batchable b -> alone (c_next cap) (b, c) (c_start o) (b', c') a ->
  step (Cached cap b c) o = (Cached cap b' c', a).
Proof.
  intros Hnd Hbt H. destruct o as [k v|k|k|k|cs]; cbn [c_start] in H.
  - cbn [step Put]. alone_step H.
    + destruct (Put b k v) as [b1 r]. destruct r; simplify_eq; done.
    + destruct (Put b k v) as [b1 r]. destruct r; simplify_eq. alone_step Ha; simplify_eq. by destruct a0.
  - cbn [step Get]. alone_step H.
    + destruct (c_find (str k) c); simplify_eq. done.
    + destruct (c_find (str k) c); simplify_eq. alone_step Ha.
      * destruct (Get b k) as [b1 r]. destruct r; simplify_eq; done.
      * destruct (Get b k) as [b1 r]. destruct r; simplify_eq. alone_step Ha0; simplify_eq. done.
  - cbn [step Has]. alone_step H.
    + destruct (c_find (str k) c); simplify_eq. done.
    + destruct (c_find (str k) c); simplify_eq. alone_step Ha; destruct (Has b k); simplify_eq. done.
  - cbn [step Delete]. alone_step H; simplify_eq. alone_step Ha; destruct (Delete b k); simplify_eq. done.
  - apply cbat_alone in H as [-> E]; [|done]. cbn [step] in *. cbn [NewBatch]. rewrite cached_batch_adds.
    destruct (batch_adds (NewBatch b) cs) as [bt|] eqn:Eb.
    + cbn [Batch]. rewrite c_removes by done. destruct (Batch b bt) as [b1 r]. injection E as -> ->.
      f_equal. f_equal. apply list_filter_iff. intros [k v]. cbn [fst].
      rewrite app_nil_r, !elem_of_list_In, <- in_rev, <- !elem_of_list_In. unfold batch_keys. by rewrite elem_of_remove_dups.
    + by rewrite own_new, own_adds in Eb.
Qed.

Lemma tbat_alone cs : forall s s' a, alone t_next s (TBat cs) s' a ->
  t_read s' = t_read s /\ (t_mem s', t_del s') = foldl tmp_cmd (t_mem s, t_del s) cs /\ a = RUnit (DOk tt).
Proof.
  induction cs as [|[k v|k] cs IH]; intros s s' a H; alone_step H; simplify_eq; [done|..].
  - repeat case_match; simplify_eq.
  - cbn [foldl tmp_cmd fst snd]. unfold tmp_put. destruct (mem_put (t_mem s) k v) as [m' r].
    destruct r as [[]|e|]; simplify_eq.
    + alone_step Ha; simplify_eq. apply IH in Ha0 as (A & B & C). done.
    + apply IH in Ha as (A & B & C). done.
    + apply IH in Ha as (A & B & C). done.
  - alone_step Ha; simplify_eq. apply IH in Ha0 as (A & B & C). done.
Qed.
Lemma temporary_alone s o s' a :
  alone t_next s (t_start o) s' a ->
  step (Tmp (t_read s) (t_mem s) (t_del s)) o = (Tmp (t_read s') (t_mem s') (t_del s'), a).
Proof.
  intros H. destruct o as [k v|k|k|k|cs]; cbn [t_start] in H.
  - cbn [step Put]. unfold tmp_put. alone_step H.
    + destruct (mem_put (t_mem s) k v) as [m' r]. destruct r as [[]|e|]; simplify_eq; done.
    + destruct (mem_put (t_mem s) k v) as [m' r]. destruct r as [[]|e|]; simplify_eq. alone_step Ha; simplify_eq. done.
  - cbn [step Get]. alone_step H; case_decide; simplify_eq; [done|].
    alone_step Ha; match goal with |- context [t_mem ?x !! str k] => destruct (t_mem x !! str k) eqn:E end; simplify_eq; [done|].
    alone_step Ha0; match goal with |- context [Get ?x k] => destruct (Get x k) end; simplify_eq. done.
  - cbn [step Has]. alone_step H; case_decide; simplify_eq; [done|].
    alone_step Ha; match goal with |- context [t_mem ?x !! str k] => destruct (t_mem x !! str k) eqn:E end; simplify_eq; [done|].
    alone_step Ha0; match goal with |- context [Has ?x k] => destruct (Has x k) end; simplify_eq. done.
  - cbn [step Delete]. unfold tmp_delete. alone_step H; simplify_eq. alone_step Ha; simplify_eq. done.
  - apply tbat_alone in H as (A & B & ->). cbn [step NewBatch].
    pose proof (own_adds (Tmp (t_read s) (t_mem s) (t_del s)) I cs []) as E. cbn [own app] in E. rewrite E.
    cbn [Batch]. rewrite <- B, A. done.
Qed.
