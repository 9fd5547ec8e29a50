(** Goroutines sharing one history tree (C28). *)
From Verif Require Import Base HistSpec HistModel HistLockModel HistLockProofs HistRunProofs HistProps TrieProps.
From stdpp Require Import gmap.
Open Scope N_scope.

(** At every moment of every schedule: the tree is what the calls that took effect make of
    it one after the other, and gave the answers of that sequential run; each goroutine's
    calls took effect in its own order, calls that returned did take effect with the answer
    returned, and calls not begun did not. *)
Theorem C28_serialised : forall E calls sched c, lexec E sched (linit calls) = Some c ->
  hmrun E (log_ops (lc_log c)) hpool0 = Some (lc_pool c, map snd (lc_log c)) /\
  forall i l t, calls !! i = Some l -> lc_threads c !! i = Some t ->
    th_done t `prefix_of` answers i (lc_log c) /\
    calls_of i (lc_log c) `prefix_of` map meth_call l /\
    (length (calls_of i (lc_log c)) + length (th_todo t) <= length l)%nat.
Proof.
  intros E calls sched c Hs. pose proof (lexec_inv E calls sched _ _ (linit_inv E calls) Hs) as (Hlen & Hth & _ & _ & Hrun).
  split; [done|]. intros i l t Hl Ht. destruct (Hth i l t Hl Ht) as (_ & Ha & ret & Hr & _ & -> & ->).
  split; [by rewrite Ha; apply prefix_app_r|].
  split.
  - rewrite !map_app. apply prefix_app. destruct (th_cur t) as [cl|]; [|apply prefix_nil].
    destruct (wrote t); cbn [map app]; [|apply prefix_nil]. exists (map meth_call (th_todo t)). done.
  - rewrite !map_length, !app_length. destruct (th_cur t) as [cl|]; [|cbn [length]; lia]. destruct (wrote t); cbn [length]; lia.
Qed.
Print Assumptions C28_serialised.
(** What took effect stays in front of what takes effect later: with the theorem above, a
    call that returned before another began comes first. *)
Theorem C28_real_time_order : forall E calls sched c sched' c', lexec E sched (linit calls) = Some c -> lexec E sched' c = Some c' ->
  lc_log c `prefix_of` lc_log c'.
Proof. intros E calls sched c sched' c' _ Hs. destruct (log_grows E sched' c c' Hs) as [ext ->]. by apply prefix_app_r. Qed.
Print Assumptions C28_real_time_order.
(** Together with C25: the answers are those of a list of values. *)
Theorem C28_answers_from_the_log : forall E calls sched c, henv_ok E -> lexec E sched (linit calls) = Some c ->
  hist_ok (hH E) (log_ops (lc_log c)) ->
  map snd (lc_log c) = (hrun (hist_root (hH E)) (log_ops (lc_log c)) hlogs0).2.
Proof.
  intros E calls sched c HE Hs Ho. destruct (C28_serialised E calls sched c Hs) as [Hr _].
  destruct (C25_history_is_log E _ HE Ho) as [p Hp]. rewrite Hr in Hp. by injection Hp.
Qed.
Print Assumptions C28_answers_from_the_log.

Lemma tsum_concat {A} (calls : list (list A)) : tsum (map length calls) = length (concat calls).
Proof. induction calls as [|l calls IH]; cbn [map tsum concat]; [done|]. rewrite app_length, IH. done. Qed.

(** Without Has: as long as the calls, made in some order one after the other, do not
    panic (C25 shows that, see below), no schedule gets stuck before every call has
    returned, and every schedule ends. *)
Definition some_order (calls : list (list hmeth)) (ops : list (nat * hcall)) : Prop :=
  (length ops <= length (concat calls))%nat /\
  Forall (fun jo => exists m, jo = (0%nat, meth_call m) /\ In m (concat calls)) ops.
Theorem C28_all_calls_return : forall E calls sched c,
  Forall (Forall (fun m => no_has m = true)) calls ->
  (forall ops, some_order calls ops -> hmrun E ops hpool0 <> None) ->
  lexec E sched (linit calls) = Some c ->
  (length sched <= 6 * length (concat calls))%nat /\
  ((forall i, lstep E c i = None) -> forall i l, calls !! i = Some l ->
     exists t, lc_threads c !! i = Some t /\ th_finished t = true /\ th_done t = answers i (lc_log c) /\
               calls_of i (lc_log c) = map meth_call l).
Proof.
  intros E calls sched c Hn Hpan Hs. pose proof (linit_inv E calls) as Hi0.
  pose proof (lexec_inv E calls sched _ _ Hi0 Hs) as Hinv. pose proof Hinv as (Hlen & Hth & _ & _ & Hrun).
  pose proof (lexec_left E calls sched Hn _ _ Hi0 Hs) as Hleft. rewrite linit_left, tsum_concat in Hleft.
  pose proof (lexec_pend E calls sched _ _ Hi0 Hs) as Hpend. rewrite linit_pend, tsum_concat in Hpend. cbn [linit lc_log length Nat.add] in Hpend.
  split; [lia|]. intros Hstuck i l Hl.
  assert (Forall (fun t => th_finished t = true) (lc_threads c)) as Hfin.
  { destruct (decide (Forall (fun t => th_finished t = true) (lc_threads c))) as [Hd|Hd]; [done|]. exfalso.
    destruct (progress E calls c Hn Hinv) as [j [c' Hj]]; [|done|by rewrite Hstuck in Hj].
    intros j t cl Ht Hc.
    assert (forall x, x ∈ lc_log c -> exists m, meth_call m = x.1.2 /\ In m (concat calls)) as Hlog.
    { eapply lexec_log_in; [exact Hi0|exact Hs|]. intros x Hx. by apply elem_of_nil in Hx. }
    destruct (Hth j) with (t := t) (l := default [] (calls !! j)) as (Hck & _ & ret & _ & _ & Hleq & _); [|done|].
    { destruct (lookup_lt_is_Some_2 calls j) as [l' ->]; [rewrite <- Hlen; apply lookup_lt_is_Some; eauto|done]. }
    assert (In (cl_meth cl) (concat calls)) as Hincl.
    { destruct (calls !! j) as [l'|] eqn:Hlj; cbn [default] in Hleq.
      - apply in_concat. exists l'. split; [apply elem_of_list_In; by eapply elem_of_list_lookup_2|]. rewrite Hc in Hleq. change (id l') with l' in Hleq.
        rewrite Hleq. apply in_app_iff. right. by left.
      - exfalso. apply lookup_ge_None in Hlj. rewrite <- Hlen in Hlj. apply lookup_lt_Some in Ht. lia. }
    specialize (Hck cl Hc). destruct (cl_ans cl) as [a|] eqn:Ha.
    - (* it took effect already: any run does *)
      exfalso. specialize (Hstuck j). unfold lstep in Hstuck. rewrite Ht, Hc in Hstuck.
      inversion Hck; subst; cbn [cl_ans] in Ha; done.
    - assert (hmrun E (log_ops (lc_log c) ++ [(0%nat, meth_call (cl_meth cl))]) hpool0 <> None) as Hne.
      { apply Hpan. split.
        - rewrite app_length. unfold log_ops. rewrite map_length. cbn [length]. pose proof (pend_pos c j t cl Ht Hc Ha). lia.
        - apply Forall_app. split; [|constructor; [exists (cl_meth cl); done|constructor]]. apply Forall_forall. intros [j' o] Hjo.
          unfold log_ops in Hjo. apply elem_of_list_In, in_map_iff in Hjo as (x & [= <- <-] & Hx). apply elem_of_list_In in Hx.
          destruct (Hlog x Hx) as (m & Hm & Hmin). exists m. by rewrite Hm. }
      rewrite hmrun_app, Hrun in Hne. cbn [hmrun] in Hne. destruct (hmstep E (lc_pool c) (0%nat, meth_call (cl_meth cl))) as [[p' b]|]; [eauto|done]. }
  destruct (lookup_lt_is_Some_2 (lc_threads c) i) as [t Ht]; [rewrite Hlen; by eapply lookup_lt_Some|]. exists t.
  assert (th_finished t = true) as Hf by (rewrite Forall_lookup in Hfin; by apply (Hfin i)).
  destruct (Hth i l t Hl Ht) as (_ & Ha & ret & Hr & _ & Hleq & Ho). unfold th_finished in *.
  destruct (th_todo t), (th_cur t); try done. rewrite app_nil_r in *. subst l. done.
Qed.
Print Assumptions C28_all_calls_return.

(** The hypothesis holds for calls in memory: nothing is asked of the hash. *)
Theorem C28_in_memory_calls_return : forall E calls sched c, henv_ok E ->
  Forall (Forall (fun m => no_has m = true /\ mem_call (meth_call m) = true /\ hcall_key (meth_call m) < two64)) calls ->
  lenN (concat calls) < two64 ->
  lexec E sched (linit calls) = Some c -> (forall i, lstep E c i = None) ->
  map snd (lc_log c) = (hrun (hist_root (hH E)) (log_ops (lc_log c)) hlogs0).2 /\
  forall i l, calls !! i = Some l ->
     exists t, lc_threads c !! i = Some t /\ th_finished t = true /\ th_done t = answers i (lc_log c) /\
               calls_of i (lc_log c) = map meth_call l.
Proof.
  intros E calls sched c HE Hc Hl Hs Hstuck.
  assert (forall ops, some_order calls ops -> exists p, hmrun E ops hpool0 = Some (p, (hrun (hist_root (hH E)) ops hlogs0).2)) as Hrun.
  { intros ops [Hlen Hin]. apply C25_in_memory; [done| |].
    - eapply Forall_impl; [exact Hin|]. intros jo (m & -> & Hm). cbn [snd]. apply in_concat in Hm as (l & Hl1 & Hl2).
      rewrite Forall_forall in Hc. apply elem_of_list_In in Hl1. specialize (Hc l Hl1). rewrite Forall_forall in Hc.
      apply elem_of_list_In in Hl2. specialize (Hc m Hl2). by destruct Hc as (_ & ? & ?).
    - apply Forall_forall. intros vs Hvs. apply visited_length in Hvs. unfold lenN in *. lia. }
  pose proof (linit_inv E calls) as Hi0.
  assert (some_order calls (log_ops (lc_log c))) as Hso.
  { split.
    - pose proof (lexec_pend E calls sched _ _ Hi0 Hs) as Hpend. rewrite linit_pend, tsum_concat in Hpend. cbn [linit lc_log length Nat.add] in Hpend.
      unfold log_ops. rewrite map_length. lia.
    - apply Forall_forall. intros jo Hjo. unfold log_ops in Hjo. apply elem_of_list_In, in_map_iff in Hjo as (x & <- & Hx). apply elem_of_list_In in Hx.
      destruct (lexec_log_in E calls sched _ _ Hi0 Hs) with (x := x) as (m & Hm & Hmin); [intros y Hy; by apply elem_of_nil in Hy|done|].
      exists m. by rewrite Hm. }
  split.
  - destruct (Hrun _ Hso) as [p Hp]. destruct (C28_serialised E calls sched c Hs) as [Hr _]. rewrite Hr in Hp. by injection Hp.
  - apply (C28_all_calls_return E calls sched c); [| |done|done].
    + eapply Forall_impl; [exact Hc|]. intros l Hl'. eapply Forall_impl; [exact Hl'|]. by intros m [? _].
    + intros ops Hops. destruct (Hrun ops Hops) as [p Hp]. by rewrite Hp.
Qed.
Print Assumptions C28_in_memory_calls_return.

(** Has never returns: whatever the goroutines and the schedule, a goroutine returns at
    most from the calls before its first Has. *)
Theorem C28_has_never_returns : forall E calls sched c i l t, lexec E sched (linit calls) = Some c ->
  calls !! i = Some l -> lc_threads c !! i = Some t -> (length (th_done t) <= length (before_has l))%nat.
Proof.
  intros E calls sched c i l t Hs Hl Ht. eapply done_before_has; [|exact Hl|exact Ht].
  exact (lexec_inv E calls sched _ _ (linit_inv E calls) Hs).
Qed.
Print Assumptions C28_has_never_returns.
(** And once it is entered, no call of any goroutine takes effect any more. *)
Theorem C28_has_blocks_all : forall E calls sched c i t k rd a sched' c', lexec E sched (linit calls) = Some c ->
  lc_threads c !! i = Some t -> th_cur t = Some (LCall (MHas k) [LLock; LRead; LWrite; LUnlock; LUnlock] rd a) ->
  lexec E sched' c = Some c' -> lc_log c' = lc_log c.
Proof.
  intros E calls sched c i t k rd a sched' c' Hs Ht Hc Hs'.
  by destruct (has_stuck_exec E calls i t k rd a sched' c c' (lexec_inv E calls sched _ _ (linit_inv E calls) Hs) Ht Hc Hs').
Qed.
Print Assumptions C28_has_blocks_all.
(** One goroutine is enough: "Has returns" is false for every tree of every environment. *)
Theorem C28_has_returns_refuted : forall E k,
  ~ (exists sched c t, lexec E sched (linit [[MHas k]]) = Some c /\ lc_threads c !! 0%nat = Some t /\ th_done t <> []) /\
  exists c, lexec E [0; 0]%nat (linit [[MHas k]]) = Some c /\ forall i, lstep E c i = None.
Proof.
  intros E k. split.
  - intros (sched & c & t & Hs & Ht & Hd). apply Hd. apply length_zero_iff_nil.
    pose proof (C28_has_never_returns E _ sched c 0%nat _ t Hs eq_refl Ht) as Hle. cbn [before_has no_has length] in Hle. lia.
  - eexists. split; [reflexivity|]. intros [|i]; reflexivity.
Qed.
Print Assumptions C28_has_returns_refuted.

(** The hypotheses are met: two goroutines, one schedule in which they alternate as far as
    the lock allows. *)
Definition lock_demo : list (list hmeth) :=
  [[MCall (HAppend 0 [7]); MCall (HGet 1)]; [MCall HExpecting; MCall (HAppend 1 [8])]].
Example C28_example :
  exists c, lexec (hdemo_env idealH) [0;1;0;0;0;0;1;0;1;1;0;1;1;1;1;1;1;1;1;0;0;0;0;0]%nat (linit lock_demo) = Some c /\
    (forall i, lstep (hdemo_env idealH) c i = None) /\
    map th_done (lc_threads c) = [[HvOk; HvVal (Some [8])]; [HvNum 1; HvOk]].
Proof. eexists. split; [vm_compute; reflexivity|]. split; [|reflexivity]. intros [|[|i]]; reflexivity. Qed.
