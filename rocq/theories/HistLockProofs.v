(** Invariants of the goroutines calling one history tree. *)
From Verif Require Import Base HistSpec HistModel HistLockModel.
From stdpp Require Import gmap.
Open Scope N_scope.

Section proofs.
Context (E : henv).

(** Where a call can be. [wrote]: it took effect. *)
Inductive cl_ok (p : hpool) : lcall -> bool -> bool -> Prop :=   (* inside the lock; wrote *)
| CStart m : cl_ok p (LCall m (meth_prog m) None None) false false
| CIn o : cl_ok p (LCall (MCall o) [LRead; LWrite; LUnlock] None None) true false
| CRead o : cl_ok p (LCall (MCall o) [LWrite; LUnlock] (Some p) None) true false
| CWrote o rd a : cl_ok p (LCall (MCall o) [LUnlock] rd (Some a)) true true
| CEnd o rd a : cl_ok p (LCall (MCall o) [] rd (Some a)) false true
| CHas k : cl_ok p (LCall (MHas k) [LLock; LRead; LWrite; LUnlock; LUnlock] None None) true false.

Definition in_lock (t : thread) : bool :=
  match th_cur t with
  | None => false
  | Some cl => match cl_prog cl with [] => false | LLock :: LLock :: _ => false | LLock :: LRead :: LWrite :: [LUnlock] => false | _ => true end
  end.
Definition wrote (t : thread) : bool := match th_cur t with Some cl => match cl_ans cl with Some _ => true | None => false end | None => false end.
Definition th_ok (p : hpool) (i : nat) (log : list (nat * hcall * hobs)) (l : list hmeth) (t : thread) : Prop :=
  (forall cl, th_cur t = Some cl -> cl_ok p cl (in_lock t) (wrote t)) /\
  answers i log = th_done t ++ match th_cur t with Some cl => match cl_ans cl with Some a => [a] | None => [] end | None => [] end /\
  exists ret, length ret = length (th_done t) /\ Forall (fun m => no_has m = true) ret /\
    l = ret ++ (match th_cur t with Some cl => [cl_meth cl] | None => [] end) ++ th_todo t /\
    calls_of i log = map meth_call (ret ++ match th_cur t with Some cl => if wrote t then [cl_meth cl] else [] | None => [] end).

Definition linv (calls : list (list hmeth)) (c : lconf) : Prop :=
  length (lc_threads c) = length calls /\
  (forall i l t, calls !! i = Some l -> lc_threads c !! i = Some t -> th_ok (lc_pool c) i (lc_log c) l t) /\
  (forall i j t u, lc_threads c !! i = Some t -> lc_threads c !! j = Some u -> in_lock t = true -> in_lock u = true -> i = j) /\
  ((exists i t, lc_threads c !! i = Some t /\ in_lock t = true) <-> lc_locked c = true) /\
  hmrun E (log_ops (lc_log c)) hpool0 = Some (lc_pool c, map snd (lc_log c)).

Lemma linit_inv calls : linv calls (linit calls).
Proof.
  split; [by cbn; rewrite map_length|]. cbn [linit lc_threads lc_pool lc_log lc_locked].
  assert (forall i t, map (fun l => Thread l None []) calls !! i = Some t -> exists l, calls !! i = Some l /\ t = Thread l None []) as Hm.
  { intros i t Ht. rewrite list_lookup_fmap in Ht. destruct (calls !! i) as [l|]; [|done]. injection Ht as <-. eauto. }
  split; [|split; [|split; [|done]]].
  - intros i l t Hl Ht. apply Hm in Ht as (l' & Hl' & ->). rewrite Hl in Hl'. injection Hl' as <-.
    split; [done|]. split; [done|]. exists []. cbn. split; [done|]. split; [constructor|]. done.
  - intros i j t u Ht _ Hi _. apply Hm in Ht as (l & _ & ->). done.
  - split; [|done]. intros (i & t & Ht & Hi). apply Hm in Ht as (l & _ & ->). done.
Qed.

Lemma cl_ok_pool p p' cl b w : cl_ok p cl b w -> p' = p \/ b = false -> cl_ok p' cl b w.
Proof. intros Hc [->|Hb]; [done|]. subst b. inversion Hc; subst; constructor. Qed.
Lemma answers_app i a b : answers i (a ++ b) = answers i a ++ answers i b.
Proof. unfold answers. by rewrite flat_map_app. Qed.
Lemma calls_of_app i a b : calls_of i (a ++ b) = calls_of i a ++ calls_of i b.
Proof. unfold calls_of. by rewrite flat_map_app. Qed.
Lemma th_ok_other p p' i j log ext l u : th_ok p j log l u -> (p' = p \/ in_lock u = false) ->
  Forall (fun x => x.1.1 = i) ext -> i <> j -> th_ok p' j (log ++ ext) l u.
Proof.
  intros (Hc & Ha & ret & Hr & Hn & Hl & Ho) Hp He Hij.
  assert (answers j ext = [] /\ calls_of j ext = []) as [He1 He2].
  { induction He as [|x ext Hx He IH]; [done|]. cbn [answers calls_of flat_map]. destruct (decide (x.1.1 = j)); [congruence|]. exact IH. }
  split; [|split].
  - intros cl Hcl. eapply cl_ok_pool; [by apply Hc|done].
  - by rewrite answers_app, He1, app_nil_r.
  - exists ret. rewrite calls_of_app, He2, app_nil_r. done.
Qed.
Lemma linv_upd calls c i t l t' lk p' ext : linv calls c -> lc_threads c !! i = Some t -> calls !! i = Some l ->
  th_ok p' i (lc_log c ++ ext) l t' -> Forall (fun x => x.1.1 = i) ext ->
  (p' = lc_pool c \/ in_lock t = true) ->
  ((in_lock t' = in_lock t /\ lk = lc_locked c) \/ (lc_locked c = false /\ in_lock t' = true /\ lk = true) \/
   (in_lock t = true /\ in_lock t' = false /\ lk = false)) ->
  hmrun E (log_ops (lc_log c ++ ext)) hpool0 = Some (p', map snd (lc_log c ++ ext)) ->
  linv calls (LConf lk p' (<[i := t']> (lc_threads c)) (lc_log c ++ ext)).
Proof.
  intros (Hlen & Hth & Huni & Hlk & Hrun) Hi Hcl Hok He Hp Hcase Hrun'.
  assert (i < length (lc_threads c))%nat as Hlt by (apply lookup_lt_is_Some; eauto).
  split; [cbn; by rewrite insert_length|]. cbn [lc_threads lc_pool lc_log lc_locked]. split; [|split; [|split; [|done]]].
  - intros j l' u Hl' Hu. destruct (decide (i = j)) as [<-|Hij].
    + rewrite list_lookup_insert in Hu by done. injection Hu as <-. rewrite Hcl in Hl'. by injection Hl' as <-.
    + rewrite list_lookup_insert_ne in Hu by done. eapply th_ok_other; [by apply Hth| |done|done].
      destruct Hp as [->|Hp]; [by left|]. right. destruct (in_lock u) eqn:Hinu; [|done]. exfalso. apply Hij. by eapply Huni.
  - intros j k u v Hu Hv Hju Hkv. destruct (decide (i = j)) as [<-|Hij], (decide (i = k)) as [<-|Hik]; [done| | |].
    + rewrite list_lookup_insert in Hu by done. injection Hu as <-. rewrite list_lookup_insert_ne in Hv by done.
      destruct Hcase as [[Hin Hl]|[(Hl & Hin & _)|(Ht & Hin & _)]]; [|exfalso|congruence].
      * rewrite Hju in Hin. by eapply Huni.
      * assert (lc_locked c = true) by (apply Hlk; eauto). congruence.
    + rewrite list_lookup_insert in Hv by done. injection Hv as <-. rewrite list_lookup_insert_ne in Hu by done.
      destruct Hcase as [[Hin Hl]|[(Hl & Hin & _)|(Ht & Hin & _)]]; [|exfalso|congruence].
      * rewrite Hkv in Hin. symmetry. by eapply Huni.
      * assert (lc_locked c = true) by (apply Hlk; eauto). congruence.
    + rewrite list_lookup_insert_ne in Hu, Hv by done. by eapply Huni.
  - destruct Hcase as [[Hin ->]|[(Hl & Hin & ->)|(Ht & Hin & ->)]].
    + rewrite <- Hlk. split.
      * intros (j & u & Hu & Hju). destruct (decide (i = j)) as [<-|Hij].
        -- rewrite list_lookup_insert in Hu by done. injection Hu as <-. exists i, t. split; [done|congruence].
        -- rewrite list_lookup_insert_ne in Hu by done. eauto.
      * intros (j & u & Hu & Hju). destruct (decide (i = j)) as [<-|Hij].
        -- rewrite Hi in Hu. injection Hu as <-. exists i, t'. rewrite list_lookup_insert by done. split; [done|congruence].
        -- exists j, u. rewrite list_lookup_insert_ne by done. done.
    + split; [done|]. intros _. exists i, t'. by rewrite list_lookup_insert.
    + split; [|done]. intros (j & u & Hu & Hju). exfalso. destruct (decide (i = j)) as [<-|Hij].
      * rewrite list_lookup_insert in Hu by done. injection Hu as <-. congruence.
      * rewrite list_lookup_insert_ne in Hu by done. apply Hij. by eapply Huni.
Qed.
Lemma hmrun_app a b : forall p, hmrun E (a ++ b) p =
  match hmrun E a p with None => None | Some (p1, x) => match hmrun E b p1 with None => None | Some (p2, y) => Some (p2, x ++ y) end end.
Proof.
  induction a as [|o a IH]; intros p; cbn [app hmrun]; [by destruct (hmrun E b p) as [[? ?]|]|].
  destruct (hmstep E p o) as [[p1 x]|]; [|done]. rewrite IH. destruct (hmrun E a p1) as [[p2 y]|]; [|done].
  by destruct (hmrun E b p2) as [[p3 z]|].
Qed.

Lemma lstep_inv calls c i c' : linv calls c -> lstep E c i = Some c' -> linv calls c'.
Proof.
  intros Hinv Hs. pose proof Hinv as (Hlen & Hth & Huni & Hlk & Hrun). unfold lstep in Hs.
  destruct (lc_threads c !! i) as [t|] eqn:Ht; [|done].
  assert (is_Some (calls !! i)) as [l Hl] by (apply lookup_lt_is_Some; rewrite <- Hlen; apply lookup_lt_is_Some; eauto).
  pose proof (Hth i l t Hl Ht) as (Hc & Ha & ret & Hr & Hn & Hleq & Ho).
  destruct t as [todo cur dn]. cbn [th_cur th_todo th_done] in *.
  assert (forall lk t', Some (LConf lk (lc_pool c) (<[i := t']> (lc_threads c)) (lc_log c)) = Some c' ->
    th_ok (lc_pool c) i (lc_log c) l t' ->
    ((in_lock t' = in_lock (Thread todo cur dn) /\ lk = lc_locked c) \/ (lc_locked c = false /\ in_lock t' = true /\ lk = true) \/
     (in_lock (Thread todo cur dn) = true /\ in_lock t' = false /\ lk = false)) -> linv calls c') as Hplain.
  { intros lk t' [= <-] Hok Hcase. rewrite <- (app_nil_r (lc_log c)). eapply linv_upd; [done|done|done| |constructor|by left|done|];
      rewrite app_nil_r; done. }
  destruct cur as [[m prog rd a]|].
  2:{ destruct todo as [|m r]; [done|]. eapply Hplain; [exact Hs| |].
      - split; [|split].
        + intros cl [= <-]. destruct m; constructor.
        + exact Ha.
        + exists ret. cbn [th_cur th_done th_todo cl_meth wrote cl_ans] in *. done.
      - left. split; [by destruct m|done]. }
  pose proof (Hc _ eq_refl) as Hck. inversion Hck; subst; cbn [meth_prog] in *.
  - (* start *) destruct m as [o|k]; cbn [meth_prog] in *; destruct (lc_locked c) eqn:Hlc; try done;
      (eapply Hplain; [exact Hs| |by right; left]);
      (split; [intros cl [= <-]; constructor|]); (split; [exact Ha|]); exists ret; done.
  - (* read *) eapply Hplain; [exact Hs| |by left]. split; [intros cl [= <-]; constructor|]. split; [exact Ha|]. exists ret. done.
  - (* write *) destruct (hmstep E (lc_pool c) (0%nat, meth_call (MCall o))) as [[p' b]|] eqn:Hm; [|done]. injection Hs as <-.
    eapply linv_upd; [done|done|done| |by repeat constructor|by right|by left|].
    + split; [intros cl [= <-]; constructor|]. cbn [th_cur cl_ans] in *. split.
      * rewrite answers_app, Ha. cbn [answers flat_map fst snd th_done]. rewrite decide_True by done. by rewrite app_nil_r.
      * exists ret. split; [done|]. split; [done|]. split; [done|]. cbn [th_cur wrote cl_ans cl_meth] in *.
        rewrite calls_of_app, Ho. cbn [calls_of flat_map fst snd]. rewrite decide_True by done. rewrite app_nil_r, map_app. done.
    + unfold log_ops. rewrite map_app, hmrun_app. fold (log_ops (lc_log c)). rewrite Hrun. cbn [meth_call] in Hm. cbn [map hmrun fst snd]. rewrite Hm. by rewrite map_app.
  - (* unlock *) eapply Hplain; [exact Hs| |by right; right]. split; [intros cl [= <-]; constructor|]. split; [exact Ha|]. exists ret. done.
  - (* return *) eapply Hplain; [exact Hs| |by left]. split; [done|]. cbn [th_cur cl_ans th_done default] in *. split.
    + by rewrite Ha, app_nil_r.
    + exists (ret ++ [MCall o]). cbn [wrote th_cur cl_ans cl_meth th_todo] in *. rewrite !app_length, Hr. split; [done|].
      split; [apply Forall_app; split; [done|by repeat constructor]|]. split; [by rewrite <- app_assoc|]. by rewrite app_nil_r.
  - (* has *) destruct (lc_locked c) eqn:Hlc; [done|]. exfalso.
    assert (false = true); [|done]. apply Hlk. eauto.
Qed.
Lemma lexec_inv calls sched : forall c c', linv calls c -> lexec E sched c = Some c' -> linv calls c'.
Proof.
  induction sched as [|i sched IH]; intros c c' Hc Hs; cbn [lexec] in Hs; [by injection Hs as <-|].
  destruct (lstep E c i) as [c1|] eqn:H1; [|done]. eapply IH; [|done]. by eapply lstep_inv.
Qed.

(* ------------------------------------------------------------ every step brings the end nearer *)
Fixpoint tsum (l : list nat) : nat := match l with [] => 0 | x :: r => x + tsum r end.
Definition th_left (t : thread) : nat :=
  6 * length (th_todo t) + match th_cur t with Some cl => S (length (cl_prog cl)) | None => 0 end.
Definition lc_left (c : lconf) : nat := tsum (map th_left (lc_threads c)).
Lemma sum_insert (f : thread -> nat) ts : forall i t t', ts !! i = Some t ->
  (tsum (map f (<[i := t']> ts)) + f t = tsum (map f ts) + f t')%nat.
Proof.
  induction ts as [|u ts IH]; intros [|i] t t' Hi; [done|done| |].
  - injection Hi as ->. cbn. lia.
  - cbn in Hi. specialize (IH i t t' Hi). change (<[S i:=t']> (u :: ts)) with (u :: <[i:=t']> ts). cbn [map tsum]. lia.
Qed.
Lemma linv_nohas calls c i t cl : Forall (Forall (fun m => no_has m = true)) calls -> linv calls c ->
  lc_threads c !! i = Some t -> th_cur t = Some cl -> exists o, cl_meth cl = MCall o.
Proof.
  intros Hn (Hlen & Hth & _) Ht Hcl.
  assert (is_Some (calls !! i)) as [l Hl] by (apply lookup_lt_is_Some; rewrite <- Hlen; apply lookup_lt_is_Some; eauto).
  destruct (Hth i l t Hl Ht) as (_ & _ & ret & _ & _ & Hleq & _). rewrite Hcl in Hleq.
  assert (no_has (cl_meth cl) = true) as Hx.
  { rewrite Forall_lookup in Hn. specialize (Hn i l Hl). rewrite Forall_forall in Hn. apply Hn. rewrite Hleq.
    apply elem_of_app. right. apply elem_of_app. left. by left. }
  destruct (cl_meth cl); [eauto|done].
Qed.
Lemma linv_nohas_todo calls c i t m : Forall (Forall (fun m => no_has m = true)) calls -> linv calls c ->
  lc_threads c !! i = Some t -> m ∈ th_todo t -> no_has m = true.
Proof.
  intros Hn (Hlen & Hth & _) Ht Hm.
  assert (is_Some (calls !! i)) as [l Hl] by (apply lookup_lt_is_Some; rewrite <- Hlen; apply lookup_lt_is_Some; eauto).
  destruct (Hth i l t Hl Ht) as (_ & _ & ret & _ & _ & Hleq & _).
  rewrite Forall_lookup in Hn. specialize (Hn i l Hl). rewrite Forall_forall in Hn. apply Hn. rewrite Hleq.
  apply elem_of_app. right. apply elem_of_app. by right.
Qed.
Lemma lstep_left calls c i c' : Forall (Forall (fun m => no_has m = true)) calls -> linv calls c -> lstep E c i = Some c' ->
  lc_left c = S (lc_left c').
Proof.
  intros Hn Hinv Hs. unfold lstep in Hs. destruct (lc_threads c !! i) as [t|] eqn:Ht; [|done].
  assert (forall lk p t' log, Some (LConf lk p (<[i := t']> (lc_threads c)) log) = Some c' -> th_left t = S (th_left t') -> lc_left c = S (lc_left c')) as Hg.
  { intros lk p t' log [= <-] Hl. unfold lc_left. cbn [lc_threads]. pose proof (sum_insert th_left _ _ _ t' Ht). lia. }
  destruct t as [todo [[m prog rd a]|] dn]; cbn [th_cur th_todo th_done] in *.
  - destruct prog as [|[] r].
    + eapply Hg; [exact Hs|]. cbn. lia.
    + destruct (lc_locked c); [done|]. eapply Hg; [exact Hs|]. cbn. lia.
    + eapply Hg; [exact Hs|]. cbn. lia.
    + destruct rd; [|done]. destruct (hmstep E _ _) as [[p' b]|]; [|done]. eapply Hg; [exact Hs|]. cbn. lia.
    + eapply Hg; [exact Hs|]. cbn. lia.
  - destruct todo as [|m r]; [done|]. eapply Hg; [exact Hs|].
    assert (no_has m = true) as Hm by (eapply linv_nohas_todo; [done|done|done|by left]). destruct m; [|done]. cbn. lia.
Qed.
Lemma lexec_left calls sched : Forall (Forall (fun m => no_has m = true)) calls -> forall c c', linv calls c ->
  lexec E sched c = Some c' -> lc_left c = (length sched + lc_left c')%nat.
Proof.
  intros Hn. induction sched as [|i sched IH]; intros c c' Hc Hs; cbn [lexec] in Hs; [by injection Hs as <-|].
  destruct (lstep E c i) as [c1|] eqn:H1; [|done]. rewrite (lstep_left calls c i c1 Hn Hc H1). cbn [length].
  rewrite (IH c1 c'); [lia|by eapply lstep_inv|done].
Qed.
Lemma left_finished c : lc_left c = 0%nat <-> Forall (fun t => th_finished t = true) (lc_threads c).
Proof.
  unfold lc_left. induction (lc_threads c) as [|t ts IH]; cbn [map tsum]; [done|].
  rewrite Forall_cons, <- IH. unfold th_left, th_finished. cbn. destruct (th_todo t), (th_cur t); cbn [length]; lia || (split; [lia|intros [? ?]; congruence || lia]).
Qed.
Lemma linit_left calls : lc_left (linit calls) = (6 * tsum (map length calls))%nat.
Proof.
  unfold lc_left, linit. cbn [lc_threads]. induction calls as [|l calls IH]; cbn [map tsum]; [done|]. rewrite IH.
  change (th_left (Thread l None [])) with (6 * length l + 0)%nat. lia.
Qed.

(** Calls that did not take effect yet. *)
Definition th_pend (t : thread) : nat :=
  length (th_todo t) + match th_cur t with Some cl => match cl_ans cl with Some _ => 0 | None => 1 end | None => 0 end.
Definition lc_pend (c : lconf) : nat := tsum (map th_pend (lc_threads c)).
Lemma lstep_pend calls c i c' : linv calls c -> lstep E c i = Some c' ->
  (length (lc_log c') + lc_pend c' = length (lc_log c) + lc_pend c)%nat.
Proof.
  intros Hinv Hs. pose proof Hinv as (Hlen & Hth & _). unfold lstep in Hs. destruct (lc_threads c !! i) as [t|] eqn:Ht; [|done].
  assert (is_Some (calls !! i)) as [l Hl] by (apply lookup_lt_is_Some; rewrite <- Hlen; apply lookup_lt_is_Some; eauto).
  destruct (Hth i l t Hl Ht) as (Hck & _).
  assert (forall lk p t' log, Some (LConf lk p (<[i := t']> (lc_threads c)) log) = Some c' ->
    (length log + th_pend t' = length (lc_log c) + th_pend t)%nat -> (length (lc_log c') + lc_pend c' = length (lc_log c) + lc_pend c)%nat) as Hg.
  { intros lk p t' log [= <-] Hx. unfold lc_pend. cbn [lc_threads lc_log]. pose proof (sum_insert th_pend _ _ _ t' Ht). lia. }
  destruct t as [todo [[m prog rd a]|] dn]; cbn [th_cur th_todo th_done] in *.
  - specialize (Hck _ eq_refl). destruct prog as [|[] r].
    + eapply Hg; [exact Hs|]. inversion Hck; subst; [by destruct m|]. cbn. lia.
    + destruct (lc_locked c); [done|]. eapply Hg; [exact Hs|]. done.
    + eapply Hg; [exact Hs|]. done.
    + destruct rd; [|done]. destruct (hmstep E _ _) as [[p' b]|]; [|done]. eapply Hg; [exact Hs|].
      rewrite app_length. inversion Hck; subst. cbn. lia.
    + eapply Hg; [exact Hs|]. done.
  - destruct todo as [|m r]; [done|]. eapply Hg; [exact Hs|]. cbn. lia.
Qed.
Lemma lexec_pend calls sched : forall c c', linv calls c -> lexec E sched c = Some c' ->
  (length (lc_log c') + lc_pend c' = length (lc_log c) + lc_pend c)%nat.
Proof.
  induction sched as [|i sched IH]; intros c c' Hc Hs; cbn [lexec] in Hs; [by injection Hs as <-|].
  destruct (lstep E c i) as [c1|] eqn:H1; [|done]. rewrite <- (lstep_pend calls c i c1 Hc H1).
  apply IH; [by eapply lstep_inv|done].
Qed.
Lemma linit_pend calls : lc_pend (linit calls) = tsum (map length calls).
Proof.
  unfold lc_pend, linit. cbn [lc_threads]. induction calls as [|l calls IH]; cbn [map tsum]; [done|]. rewrite IH.
  change (th_pend (Thread l None [])) with (length l + 0)%nat. lia.
Qed.
Lemma pend_pos c i t cl : lc_threads c !! i = Some t -> th_cur t = Some cl -> cl_ans cl = None -> (0 < lc_pend c)%nat.
Proof.
  intros Ht Hc Ha. pose proof (sum_insert th_pend _ _ _ (Thread [] None []) Ht) as Hx. unfold lc_pend.
  change (th_pend (Thread [] None [])) with 0%nat in Hx. unfold th_pend at 2 in Hx. rewrite Hc, Ha in Hx. lia.
Qed.
(** The log holds calls of the goroutines. *)
Lemma lstep_log_in calls c i c' : linv calls c -> lstep E c i = Some c' ->
  (forall x, x ∈ lc_log c -> exists m, meth_call m = x.1.2 /\ In m (concat calls)) ->
  (forall x, x ∈ lc_log c' -> exists m, meth_call m = x.1.2 /\ In m (concat calls)).
Proof.
  intros (Hlen & Hth & _) Hs Hin. unfold lstep in Hs. destruct (lc_threads c !! i) as [t|] eqn:Ht; [|done].
  assert (is_Some (calls !! i)) as [l Hl] by (apply lookup_lt_is_Some; rewrite <- Hlen; apply lookup_lt_is_Some; eauto).
  destruct (Hth i l t Hl Ht) as (_ & _ & ret & _ & _ & Hleq & _).
  destruct t as [todo [[m prog rd a]|] dn]; cbn [th_cur th_todo th_done cl_meth] in *.
  - destruct prog as [|[] r].
    + by injection Hs as <-.
    + destruct (lc_locked c); [done|]. by injection Hs as <-.
    + by injection Hs as <-.
    + destruct rd; [|done]. destruct (hmstep E _ _) as [[p' b]|]; [|done]. injection Hs as <-. cbn [lc_log].
      intros x [Hx|Hx]%elem_of_app; [by apply Hin|]. apply elem_of_list_singleton in Hx as ->. exists m. split; [done|].
      apply in_concat. exists l. split; [apply elem_of_list_In; by eapply elem_of_list_lookup_2|]. rewrite Hleq. apply in_app_iff. right. by left.
    + by injection Hs as <-.
  - destruct todo as [|m r]; [done|]. by injection Hs as <-.
Qed.
Lemma lexec_log_in calls sched : forall c c', linv calls c -> lexec E sched c = Some c' ->
  (forall x, x ∈ lc_log c -> exists m, meth_call m = x.1.2 /\ In m (concat calls)) ->
  (forall x, x ∈ lc_log c' -> exists m, meth_call m = x.1.2 /\ In m (concat calls)).
Proof.
  induction sched as [|i sched IH]; intros c c' Hc Hs Hin; cbn [lexec] in Hs; [by injection Hs as <-|].
  destruct (lstep E c i) as [c1|] eqn:H1; [|done]. eapply IH; [by eapply lstep_inv|done|]. by eapply lstep_log_in.
Qed.

(* ------------------------------------------------------------ somebody can run *)
Lemma progress calls c : Forall (Forall (fun m => no_has m = true)) calls -> linv calls c ->
  (forall i t cl, lc_threads c !! i = Some t -> th_cur t = Some cl -> is_Some (hmstep E (lc_pool c) (0%nat, meth_call (cl_meth cl)))) ->
  ~ Forall (fun t => th_finished t = true) (lc_threads c) -> exists i, is_Some (lstep E c i).
Proof.
  intros Hn Hinv Hpan Hnf. pose proof Hinv as (Hlen & Hth & Huni & Hlk & Hrun).
  assert (forall i t, lc_threads c !! i = Some t -> exists l, calls !! i = Some l) as Hcl.
  { intros i t Ht. apply lookup_lt_is_Some. rewrite <- Hlen. apply lookup_lt_is_Some; eauto. }
  assert (forall i t cl, lc_threads c !! i = Some t -> th_cur t = Some cl -> lc_locked c = false \/ in_lock t = true ->
    is_Some (lstep E c i)) as Hrunnable.
  { intros i t cl Ht Hc Hor. destruct (Hcl i t Ht) as [l Hl]. destruct (Hth i l t Hl Ht) as (Hck & _).
    destruct (linv_nohas calls c i t cl Hn Hinv Ht Hc) as [o Ho]. pose proof (Hpan i t cl Ht Hc) as [[p' b] Hp].
    unfold lstep. rewrite Ht, Hc. specialize (Hck cl Hc). destruct Hor as [Hor|Hor].
    - rewrite Hor. inversion Hck; subst; cbn [cl_meth meth_prog] in *; subst; cbn [meth_prog] in *; try done; eauto. rewrite Hp. eauto.
    - rewrite Hor in Hck. inversion Hck; subst; cbn [cl_meth] in *; try done; eauto. rewrite Hp. eauto. }
  destruct (lc_locked c) eqn:Hlc.
  - destruct (proj2 Hlk eq_refl) as (i & t & Ht & Hin). exists i. destruct (th_cur t) as [cl|] eqn:Hc; [|by unfold in_lock in Hin; rewrite Hc in Hin].
    eapply Hrunnable; [done|done|by right].
  - apply not_Forall_Exists in Hnf; [|intros t; apply _]. apply Exists_exists in Hnf as (t & Hin & Hf).
    apply elem_of_list_lookup in Hin as [i Ht]. exists i. destruct (th_cur t) as [cl|] eqn:Hc; [eapply Hrunnable; [done|done|by left]|].
    unfold lstep. rewrite Ht, Hc. destruct (th_todo t) eqn:Htd; [|eauto]. exfalso. apply Hf. unfold th_finished. by rewrite Htd, Hc.
Qed.

(* ------------------------------------------------------------ Has *)
Lemma done_before_has calls c i l t : linv calls c -> calls !! i = Some l -> lc_threads c !! i = Some t ->
  (length (th_done t) <= length (before_has l))%nat.
Proof.
  intros (Hlen & Hth & _) Hl Ht. destruct (Hth i l t Hl Ht) as (_ & _ & ret & Hr & Hn & Hleq & _).
  rewrite <- Hr, Hleq. clear -Hn. induction Hn as [|m ret Hm Hn IH]; cbn [app before_has length]; [lia|]. rewrite Hm. cbn [length]. lia.
Qed.
(** A goroutine inside Has holds the lock and waits for it. *)
Lemma has_stuck calls c i t k rd a : linv calls c -> lc_threads c !! i = Some t ->
  th_cur t = Some (LCall (MHas k) [LLock; LRead; LWrite; LUnlock; LUnlock] rd a) ->
  forall j c', lstep E c j = Some c' -> lc_threads c' !! i = Some t /\ lc_log c' = lc_log c /\ lc_locked c' = true.
Proof.
  intros Hinv Ht Hc j c' Hs. pose proof (lstep_inv _ _ _ _ Hinv Hs) as Hinv'. pose proof Hinv as (Hlen & Hth & Huni & Hlk & _).
  assert (in_lock t = true) as Hin by (unfold in_lock; rewrite Hc; done).
  assert (lc_locked c = true) as Hl by (apply Hlk; eauto).
  destruct (decide (i = j)) as [<-|Hij].
  { unfold lstep in Hs. rewrite Ht, Hc, Hl in Hs. done. }
  unfold lstep in Hs. destruct (lc_threads c !! j) as [u|] eqn:Hu; [|done].
  assert (in_lock u = false) as Hou by (destruct (in_lock u) eqn:Hx; [exfalso; apply Hij; by eapply Huni|done]).
  assert (is_Some (calls !! j)) as [l Hl'] by (apply lookup_lt_is_Some; rewrite <- Hlen; apply lookup_lt_is_Some; eauto).
  destruct (Hth j l u Hl' Hu) as (Hck & _). destruct (th_cur u) as [cl|] eqn:Hcu.
  - specialize (Hck cl eq_refl). rewrite Hou in Hck. inversion Hck; subst.
    + destruct m; cbn [meth_prog] in Hs; rewrite Hl in Hs; done.
    + injection Hs as <-. cbn. by rewrite list_lookup_insert_ne.
  - destruct (th_todo u); [done|]. injection Hs as <-. cbn. by rewrite list_lookup_insert_ne.
Qed.
Lemma has_stuck_exec calls i t k rd a : forall sched c c', linv calls c -> lc_threads c !! i = Some t ->
  th_cur t = Some (LCall (MHas k) [LLock; LRead; LWrite; LUnlock; LUnlock] rd a) ->
  lexec E sched c = Some c' -> lc_threads c' !! i = Some t /\ lc_log c' = lc_log c.
Proof.
  induction sched as [|j sched IH]; intros c c' Hinv Ht Hc Hs; cbn [lexec] in Hs; [by injection Hs as <-|].
  destruct (lstep E c j) as [c1|] eqn:H1; [|done]. destruct (has_stuck _ _ _ _ _ _ _ Hinv Ht Hc _ _ H1) as (Ht1 & Hl1 & _).
  destruct (IH c1 c') as [? Hl2]; [by eapply lstep_inv|done|done|done|]. split; [done|congruence].
Qed.
(** The log only grows. *)
Lemma log_grows sched : forall c c', lexec E sched c = Some c' -> exists ext, lc_log c' = lc_log c ++ ext.
Proof.
  induction sched as [|i sched IH]; intros c c' Hs; cbn [lexec] in Hs; [injection Hs as <-; exists []; by rewrite app_nil_r|].
  destruct (lstep E c i) as [c1|] eqn:H1; [|done]. destruct (IH c1 c' Hs) as [ext ->].
  assert (exists e, lc_log c1 = lc_log c ++ e) as [e ->]; [|exists (e ++ ext); by rewrite app_assoc].
  unfold lstep in H1. destruct (lc_threads c !! i) as [t|]; [|done].
  destruct (th_cur t) as [[m [|[] r] rd a]|].
  - injection H1 as <-. exists []. by rewrite app_nil_r.
  - destruct (lc_locked c); [done|]. injection H1 as <-. exists []. by rewrite app_nil_r.
  - injection H1 as <-. exists []. by rewrite app_nil_r.
  - destruct rd; [|done]. destruct (hmstep E _ _) as [[? ?]|]; [|done]. injection H1 as <-. eauto.
  - injection H1 as <-. exists []. by rewrite app_nil_r.
  - destruct (th_todo t); [done|]. injection H1 as <-. exists []. by rewrite app_nil_r.
Qed.
End proofs.
