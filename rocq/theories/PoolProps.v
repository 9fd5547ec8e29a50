(** C71: the worker pool. All theorems are about every size of pool and queues, every
    keyGetter, every number of clients with any programs, and every execution. *)
From Verif Require Import Base PoolModel PoolSpec PoolProofs.
From stdpp Require Import gmap.
Open Scope N_scope.

Ltac sp := cbn [p_log p_gs p_high p_low p_keys p_quit p_started p_locked p_wg p_clients p_panic say set_g set_queues set_client set_keys].
Section props.
Context {V : Type}.
Context (n q : nat) (key : option (V -> list N)) (hasfunc : bool).
Local Notation pstep := (pstep n q key hasfunc).
Local Notation pexec := (pexec n q key hasfunc).
Implicit Types p : pool V.

Lemma begin_true p : hasfunc = true -> inv q key hasfunc p ->
  nonnil (taken true (p_log p)) ++ nonnil (taken false (p_log p)) ≡ₚ begun (p_log p) ++ omap (pend hasfunc) (p_gs p).
Proof. intros HF I. pose proof (i_begin _ _ _ _ I) as B. by destruct hasfunc. Qed.
Lemma begin_false p : hasfunc = false -> inv q key hasfunc p -> begun (p_log p) = [].
Proof. intros HF I. pose proof (i_begin _ _ _ _ I) as B. destruct hasfunc; [done|]. by destruct B. Qed.

(** Each queue delivers its events in the order they were posted, and neither loses nor
    invents one; it never holds more than its capacity. *)
Theorem C71_fifo cs acts p :
  pexec acts (NewRoutinePool n cs) = Some p ->
  posted true (p_log p) = taken true (p_log p) ++ p_high p /\
  posted false (p_log p) = taken false (p_log p) ++ p_low p /\
  (length (p_high p) <= q)%nat /\ (length (p_low p) <= q)%nat.
Proof. intros H. destruct (reach _ _ _ _ _ _ _ H) as [I _]. split_and!; apply I. Qed.

Lemma runs_live (gs : list (wstat V)) : (length (omap runs gs) + length (omap (pend hasfunc) gs) <= live gs)%nat.
Proof. unfold live. induction gs as [|[| |[v|]|v|v|v|] gs IH]; cbn in *; try lia. destruct hasfunc; cbn; lia. Qed.

(** workFunc is called exactly once for every event taken that is not nil, save for at
    most one per worker that was taken and not begun yet, and it returns as often as it
    was called, save for the calls in progress. *)
Theorem C71_exactly_once cs acts p :
  hasfunc = true ->
  pexec acts (NewRoutinePool n cs) = Some p ->
  exists waiting inwork,
    nonnil (taken true (p_log p)) ++ nonnil (taken false (p_log p)) ≡ₚ begun (p_log p) ++ waiting /\
    begun (p_log p) ≡ₚ ended (p_log p) ++ inwork /\ (length waiting + length inwork <= n)%nat.
Proof.
  intros HF H. destruct (reach _ _ _ _ _ _ _ H) as [I L].
  exists (omap (pend hasfunc) (p_gs p)), (omap runs (p_gs p)).
  split; [by apply begin_true|]. split; [apply I|].
  pose proof (runs_live (p_gs p)). pose proof (l_width _ _ L). lia.
Qed.
(** Without a workFunc nothing is called. *)
Theorem C71_no_workfunc cs acts p :
  hasfunc = false -> pexec acts (NewRoutinePool n cs) = Some p -> begun (p_log p) = [].
Proof.
  intros HF H. destruct (reach _ _ _ _ _ _ _ H) as [I L]. by apply begin_false.
Qed.

(** At most n calls of workFunc are in progress at any time, whatever the calls of Start
    and Stop were. *)
Theorem C71_width cs acts p :
  pexec acts (NewRoutinePool n cs) = Some p ->
  (length (ended (p_log p)) <= length (begun (p_log p)))%nat /\ (in_work (p_log p) <= n)%nat.
Proof.
  intros H. destruct (reach _ _ _ _ _ _ _ H) as [I L].
  pose proof (Permutation_length (i_run _ _ _ _ I)) as R. rewrite app_length in R.
  pose proof (runs_live (p_gs p)). pose proof (l_width _ _ L). unfold in_work. lia.
Qed.

(** A worker takes an event of low priority only after it has found, since its last
    event, the queue of high priority empty (and the pool not stopped). *)
Theorem C71_priority cs acts p a p' ob w v :
  pexec acts (NewRoutinePool n cs) = Some p -> pstep p a = Some p' ->
  p_log p' = p_log p ++ ob -> OTaken w false v ∈ ob ->
  worker_of a = Some w /\
  exists before after p0, acts = before ++ ADefault w :: after /\
    pexec before (NewRoutinePool n cs) = Some p0 /\ p_high p0 = [] /\ p_quit p0 = false /\
    (forall x, x ∈ after -> worker_of x <> Some w).
Proof.
  intros H HS EL HO. destruct (low_taken _ _ _ _ _ _ _ _ _ _ HS EL HO) as [A B]. split; [done|].
  apply (inner_history _ _ _ _ _ _ p w); auto.
Qed.

(** When Stop has returned no call of workFunc is in progress, and until the next Start
    no event is taken, begun or ended. *)
Theorem C71_stop cs acts p l1 l2 :
  pexec acts (NewRoutinePool n cs) = Some p ->
  p_log p = l1 ++ OStopped :: l2 -> List.filter is_start l2 = [] ->
  begun l1 ≡ₚ ended l1 /\ forall o, o ∈ l2 -> by_worker o = false.
Proof. intros H HL NS. destruct (reach _ _ _ _ _ _ _ H) as [I L]. by destruct (l_stop _ _ L _ _ HL NS) as (_ & A & B). Qed.

(** Stop can return: wherever the workers are, they can run on, with no other call, to
    a state in which the waiting Stop returns. *)
Theorem C71_stop_returns cs acts p k c :
  pexec acts (NewRoutinePool n cs) = Some p -> p_panic p = false ->
  p_clients p !! k = Some c -> cl_waiting c = true ->
  exists more p1 p2, Forall (fun a => is_Some (worker_of a)) more /\
    pexec more p = Some p1 /\ pstep p1 (AClient k) = Some p2 /\
    p_log p2 = p_log p1 ++ [OStopped] /\ p_panic p2 = false /\ p_locked p2 = false.
Proof.
  intros H HP HC HW. destruct (reach _ _ _ _ _ _ _ H) as [I L].
  pose proof (l_phase _ _ L HP) as PH.
  assert (p_quit p = true /\ starts (p_log p) = 1%nat /\ p_started p = false) as (HQ & HS & HT).
  { destruct PH; auto; by rewrite (H6 _ _ HC) in HW || by rewrite (H7 _ _ HC) in HW || by rewrite (H5 _ _ HC) in HW. }
  destruct (stop_drains n q key hasfunc (gmeas (p_gs p)) p) as (more & p1 & A1 & A2 & A3 & A4 & A5 & A6 & A7 & A8 & A9 & A10); auto.
  destruct c as [todo wt]. cbn in HW. subst wt. rewrite <- A6 in HC.
  exists more, p1. unfold PoolModel.pstep. rewrite A5, (c_step_waiting _ _ _ _ _ HC). unfold c_wait.
  assert (p_wg p1 = 0%Z) as ->.
  { pose proof (l_phase _ _ A4 A5) as PH1. destruct PH1; auto; try congruence. rewrite H4, A3. done. }
  cbn. eexists. split_and!; eauto.
Qed.

(** As long as Start has spawned workers at most once, nothing panics. *)
Theorem C71_no_panic cs acts p :
  pexec acts (NewRoutinePool n cs) = Some p ->
  (length (List.filter is_start (p_log p)) <= 1)%nat -> p_panic p = false.
Proof.
  intros H HS. destruct (reach _ _ _ _ _ _ _ H) as [I L]. destruct (p_panic p) eqn:E; [|done].
  pose proof (l_panic _ _ L E) as X. unfold starts in X. lia.
Qed.

(* ------------------------------------------------------------- starts and programs *)
Definition todo_starts (cs : list (client V)) : nat := start_calls (map cl_todo cs).
Lemma start_calls_cons l (cs : list (list (pcall V))) : start_calls (l :: cs) = (start_calls [l] + start_calls cs)%nat.
Proof. unfold start_calls. cbn. by rewrite app_nil_r, List.filter_app, app_length. Qed.
Lemma todo_insert cs k c r wt :
  cs !! k = Some c -> (todo_starts (<[k := Client r wt]> cs) + start_calls [cl_todo c] = todo_starts cs + start_calls [r])%nat.
Proof.
  unfold todo_starts. revert k. induction cs as [|x cs IH]; intros [|k] H; try done.
  - injection H as ->. cbn [insert list_insert map cl_todo]. rewrite (start_calls_cons r), (start_calls_cons (cl_todo c) (map cl_todo cs)). lia.
  - change (<[S k := Client r wt]> (x :: cs)) with (x :: <[k := Client r wt]> cs). cbn [map].
    rewrite (start_calls_cons (cl_todo x) (map cl_todo (<[k := _]> cs))), (start_calls_cons (cl_todo x) (map cl_todo cs)). specialize (IH _ H). lia.
Qed.
Lemma start_calls_one (c : pcall V) r :
  start_calls [c :: r] = ((match c with PStart => 1 | _ => 0 end) + start_calls [r])%nat.
Proof. unfold start_calls. cbn. rewrite !app_nil_r. by destruct c. Qed.

Lemma starts_step m p a p' :
  (starts (p_log p) + todo_starts (p_clients p) <= m)%nat -> pstep p a = Some p' ->
  (starts (p_log p') + todo_starts (p_clients p') <= m)%nat.
Proof.
  intros HM H. unfold PoolModel.pstep in H. destruct (p_panic p); [done|].
  assert (S1 : forall l (o : pobs V), starts (l ++ [o]) = (starts l + (if is_start o then 1 else 0))%nat).
  { intros l o. rewrite starts_app. f_equal. unfold starts. cbn. by destruct (is_start o). }
  assert (S2 : forall l (o o' : pobs V), starts (l ++ [o; o']) = (starts l + (if is_start o then 1 else 0) + (if is_start o' then 1 else 0))%nat).
  { intros l o o'. change [o; o'] with ([o] ++ [o']). by rewrite app_assoc, !S1. }
  destruct a as [w|w|w|w|w|w k|k].
  - unfold g_quit in H. destruct (p_gs p !! w) as [s|]; [|done]. destruct (selecting s && p_quit p); [|done]. by injection H as <-.
  - unfold g_high in H. destruct (p_gs p !! w) as [s|]; [|done]. destruct (p_high p); [done|]. destruct (selecting s); [|done].
    injection H as <-. sp. rewrite S1. cbn [is_start]. lia.
  - unfold g_low in H. destruct (p_gs p !! w) as [s|]; [|done]. destruct s; try done. destruct (p_low p); [done|].
    injection H as <-. sp. rewrite S1. cbn [is_start]. lia.
  - unfold g_default in H. destruct (p_gs p !! w) as [s|]; [|done]. destruct s; try done. destruct (p_high p); [|done].
    destruct (p_quit p); [done|]. by injection H as <-.
  - unfold g_go in H. destruct (p_gs p !! w) as [s|] eqn:E; [|done].
    destruct s as [| |[u|]|u|u|u|]; try done; try destruct hasfunc; injection H as <-; try destruct (length (key_of key u) =? 0)%nat;
      sp; rewrite ?S1; cbn [is_start]; lia.
  - unfold g_pass in H. destruct (negb (q =? 0)%nat); [done|]. destruct (p_gs p !! w) as [s|]; [|done].
    destruct (p_clients p !! k) as [[[|[| |u|u] r] [|]]|] eqn:EC; try (by destruct s);
      pose proof (todo_insert _ _ _ r false EC) as T; cbn [cl_todo] in T; rewrite start_calls_one in T;
      destruct s; try done; injection H as <-; cbn [say set_client set_g p_log p_clients]; rewrite S2; cbn [is_start]; lia.
  - destruct (p_clients p !! k) as [[todo wt]|] eqn:EC; [|unfold c_step in H; by rewrite EC in H].
    destruct wt; [rewrite (c_step_waiting _ _ _ _ _ EC) in H|unfold c_step in H; rewrite EC in H].
    + unfold c_wait in H. destruct (p_wg p =? 0)%Z; [|done]. injection H as <-. cbn [p_log p_clients]. rewrite S1. cbn [is_start].
      pose proof (todo_insert _ _ _ todo false EC) as T. cbn [cl_todo] in T. lia.
    + destruct todo as [|c r]; [done|].
      pose proof (todo_insert _ _ _ r false EC) as T. cbn [cl_todo] in T. rewrite start_calls_one in T.
      pose proof (todo_insert _ _ _ r true EC) as T'. cbn [cl_todo] in T'. rewrite start_calls_one in T'.
      destruct c as [| |v|v].
      * unfold c_start in H. destruct (p_locked p); [done|]. destruct (p_started p); injection H as <-; cbn [p_log p_clients set_client];
          rewrite ?S1; cbn [is_start]; lia.
      * unfold c_stop in H. destruct (p_locked p); [done|]. destruct (p_started p); injection H as <-; cbn [p_log p_clients set_client]; lia.
      * destruct (length (p_high p) <? q)%nat; [|done]. injection H as <-. cbn [p_log p_clients set_client say set_queues]. rewrite S1. cbn [is_start]. lia.
      * destruct (length (p_low p) <? q)%nat; [|done]. injection H as <-. cbn [p_log p_clients set_client say set_queues]. rewrite S1. cbn [is_start]. lia.
Qed.

(** So clients that call Start at most once in total never see a panic, however often
    they call Stop. *)
Theorem C71_start_once_no_panic cs acts p :
  pexec acts (NewRoutinePool n cs) = Some p -> (start_calls cs <= 1)%nat -> p_panic p = false.
Proof.
  intros H HS. eapply C71_no_panic; [done|].
  assert (X : (starts (p_log p) + todo_starts (p_clients p) <= 1)%nat); [|unfold starts in X; lia].
  eapply (pexec_inv n q key hasfunc (fun p => (starts (p_log p) + todo_starts (p_clients p) <= 1)%nat)); [| |exact H].
  - intros p0 a p1 A B. by eapply starts_step.
  - cbn [NewRoutinePool p_log p_clients]. unfold todo_starts. rewrite List.map_map, List.map_id. unfold starts. cbn. lia.
Qed.

Lemma kcount_handling k gs : k <> [] -> kcount key k gs = handling key k gs.
Proof.
  intros HK. unfold kcount, handling. induction gs as [|s gs IH]; [done|].
  assert (X : forall v, (if (length (key_of key v) =? 0)%nat then None else Some (key_of key v)) = Some k <-> key_of key v = k).
  { intros v. destruct (length (key_of key v) =? 0)%nat eqn:E; split; intros Y; try done; try congruence.
    apply Nat.eqb_eq, nil_length_inv in E. congruence. }
  assert (Z : forall v, length (filter (fun k' => k' = k) (omap (keyed key) (WCounted v :: gs))) =
     ((if bool_decide (key_of key v = k) then 1 else 0) + length (filter (fun k' => k' = k) (omap (keyed key) gs)))%nat).
  { intros v. cbn [omap list_omap keyed]. specialize (X v).
    destruct (length (key_of key v) =? 0)%nat.
    - rewrite bool_decide_false; [done|]. intros Y. by apply X in Y.
    - destruct (decide (key_of key v = k)) as [Y|Y].
      + rewrite bool_decide_true by done. rewrite filter_cons_True by done. done.
      + rewrite bool_decide_false by done. rewrite filter_cons_False by done. done. }
  unfold key_of in *.
  destruct s as [| |v|v|v|v|]; cbn [List.filter]; try exact IH;
    (etransitivity; [exact (Z v)|]); destruct (bool_decide _); cbn [length]; rewrite IH; done.
Qed.

(** The count kept for a key is the number of workers that are handling an event with
    that key; a key no worker is handling has no entry, and the empty key never has. *)
Theorem C71_key_counts cs acts p k :
  pexec acts (NewRoutinePool n cs) = Some p ->
  (k <> [] -> p_keys p !! k = if (handling key k (p_gs p) =? 0)%nat then None else Some (handling key k (p_gs p))) /\
  (p_keys p !! [] = None) /\ (handling key k (p_gs p) <= n)%nat.
Proof.
  intros H. destruct (reach _ _ _ _ _ _ _ H) as [I L]. split_and!.
  - intros HK. rewrite <- kcount_handling by done. apply I.
  - rewrite (i_keys _ _ _ _ I). replace (kcount key [] (p_gs p)) with 0%nat; [done|].
    unfold kcount. clear. induction (p_gs p) as [|[| |v|v|v|v|] gs IH]; cbn; auto;
      (destruct (key_of key v) as [|x t] eqn:E; cbn; [done|]; by rewrite decide_False by done).
  - etransitivity; [|apply (l_width _ _ L)]. unfold handling, live. clear.
    induction (p_gs p) as [|[| |v|v|v|v|] gs IH]; cbn; try lia; destruct (bool_decide _); cbn; lia.
Qed.

(** A running pool of at least one worker comes to rest only when everything posted has
    been handled: if no worker can do anything, both queues are empty, workFunc has
    returned for every event posted that was not nil, and no key has a count. *)
Theorem C71_drains cs acts p :
  (1 <= n)%nat -> pexec acts (NewRoutinePool n cs) = Some p -> running p ->
  (forall a w, worker_of a = Some w -> pstep p a = None) ->
  p_high p = [] /\ p_low p = [] /\ p_keys p = ∅ /\
  (hasfunc = true -> ended (p_log p) ≡ₚ nonnil (posted true (p_log p)) ++ nonnil (posted false (p_log p))).
Proof.
  intros N1 H (R1 & R2 & R3) ST. destruct (reach _ _ _ _ _ _ _ H) as [I L].
  destruct (stuck_empty n q key hasfunc p N1 (l_phase _ _ L R3) R1 R2 R3 ST) as (A & B & C & D & E & _).
  split_and!; auto.
  - apply map_eq. intros k. rewrite lookup_empty, (i_keys _ _ _ _ I). unfold kcount. by rewrite E.
  - intros HF. pose proof (begin_true _ HF I) as X. rewrite D, app_nil_r in X.
    pose proof (i_run _ _ _ _ I) as Y. rewrite C, app_nil_r in Y.
    rewrite (i_fifo_h _ _ _ _ I), (i_fifo_l _ _ _ _ I), A, B, !app_nil_r, X, Y. done.
Qed.

(** And a client that wants to post to it is never stuck: it can send, or some worker
    can go on. *)
Theorem C71_post_progress cs acts p k v r high :
  (1 <= n)%nat -> pexec acts (NewRoutinePool n cs) = Some p -> running p ->
  p_clients p !! k = Some (Client ((if high : bool then PHigh v else PLow v) :: r) false) ->
  exists a p', pstep p a = Some p' /\ (a = AClient k \/ is_Some (worker_of a)).
Proof.
  intros N1 H R HC. pose proof R as (R1 & R2 & R3). destruct (reach _ _ _ _ _ _ _ H) as [I L].
  pose proof (l_phase _ _ L R3) as PH.
  destruct (pstep p (AClient k)) as [p1|] eqn:EA; [exists (AClient k), p1; auto|].
  assert (Q : if high then (q <= length (p_high p))%nat else (q <= length (p_low p))%nat).
  { unfold PoolModel.pstep in EA. rewrite R3 in EA. unfold c_step in EA. rewrite HC in EA.
    destruct high.
    - destruct (length (p_high p) <? q)%nat eqn:X; [done|]. by apply Nat.ltb_ge in X.
    - destruct (length (p_low p) <? q)%nat eqn:X; [done|]. by apply Nat.ltb_ge in X. }
  assert (G : exists g0, p_gs p !! 0%nat = Some g0 /\ exited g0 = false).
  { assert (length (p_gs p) = n /\ live (p_gs p) = n) as [LG LV] by (destruct PH; try congruence; auto).
    destruct (p_gs p) as [|g0 gs] eqn:EG; [cbn in LG; lia|]. exists g0. split; [done|].
    apply (live_full (g0 :: gs)); [congruence|by left]. }
  destruct G as (g0 & E0 & X0).
  unfold PoolModel.pstep. rewrite R3.
  destruct g0 as [| |[u|]|u|u|u|]; try done.
  - destruct (p_high p) as [|u h] eqn:EH.
    + exists (ADefault 0%nat). unfold g_default. rewrite E0, EH, R2. eauto.
    + exists (AHigh 0%nat). unfold g_high. rewrite E0, EH. cbn. eauto.
  - destruct (p_high p) as [|u h] eqn:EH.
    2: { exists (AHigh 0%nat). unfold g_high. rewrite E0, EH. cbn. eauto. }
    destruct (p_low p) as [|u h] eqn:EL.
    2: { exists (ALow 0%nat). unfold g_low. rewrite E0, EL. cbn. eauto. }
    assert (q = 0%nat) as Q0 by (destruct high; cbn in Q; lia).
    exists (APass 0%nat k). unfold g_pass. rewrite E0, HC, Q0. cbn. destruct high; cbn; eauto.
  - exists (AGo 0%nat). unfold g_go. rewrite E0. destruct hasfunc; eauto.
  - exists (AGo 0%nat). unfold g_go. rewrite E0. eauto.
  - exists (AGo 0%nat). unfold g_go. rewrite E0. eauto.
  - exists (AGo 0%nat). unfold g_go. rewrite E0. eauto.
  - exists (AGo 0%nat). unfold g_go. rewrite E0. eauto.
Qed.
End props.

(* ------------------------------------------------------------- examples *)
(* two workers, a queue of one; events are byte strings, their own keys *)
Definition kf : option (list N -> list N) := Some (fun v => v).
Local Notation exec := (pexec 2 1 kf true).
Definition clients1 : list (list (pcall (list N))) :=
  [[PStart; PHigh (Some [1]); PHigh None; PLow (Some [2]); PStop]; [PLow (Some [1]); PStop]].
Definition run1 : list pact :=
  [AClient 0; AClient 0; AHigh 0; AClient 0; AHigh 1; AGo 0; AGo 1; ADefault 1; AClient 1; ALow 1; AClient 0; AGo 0; AGo 1; AGo 1]%nat.

Definition at_end {A} (n q : nat) (acts : list pact) (cs : list (list (pcall (list N)))) (f : pool (list N) -> A) : option A :=
  match pexec n q kf true acts (NewRoutinePool n cs) with Some p => Some (f p) | None => None end.
Lemma at_end_ex {A} n0 q0 acts cs (f : pool (list N) -> A) x :
  at_end n0 q0 acts cs f = Some x -> exists p, pexec n0 q0 kf true acts (NewRoutinePool n0 cs) = Some p /\ f p = x.
Proof. unfold at_end. destruct (pexec n0 q0 kf true acts (NewRoutinePool n0 cs)) as [p|]; [|done]. intros [= E]. by exists p. Qed.

(* here two events with the key [1] are in the hands of the two workers, both in work *)
Example C71_ex_running :
  exists p, exec run1 (NewRoutinePool 2 clients1) = Some p /\ running p /\
    posted true (p_log p) = [Some [1]; None] /\ taken true (p_log p) = [Some [1]; None] /\
    posted false (p_log p) = [Some [1]; Some [2]] /\ taken false (p_log p) = [Some [1]] /\
    begun (p_log p) = [[1]; [1]] /\ ended (p_log p) = [] /\ in_work (p_log p) = 2%nat /\
    p_keys p !! [1] = Some 2%nat /\ p_low p = [Some [2]].
Proof.
  destruct (at_end_ex 2 1 run1 clients1 (fun p => (((p_started p, p_quit p, p_panic p), (posted true (p_log p), taken true (p_log p),
     posted false (p_log p), taken false (p_log p))), (begun (p_log p), ended (p_log p), in_work (p_log p), p_keys p !! [1], p_low p)))
     (((true, false, false), ([Some [1]; None], [Some [1]; None], [Some [1]; Some [2]], [Some [1]])), ([[1]; [1]], [], 2%nat, Some 2%nat, [Some [2]])))
    as (p & A & B); [vm_compute; reflexivity|].
  injection B as B1 B2 B3 B4 B5 B6 B7 B8 B9 B10 B11 B12. exists p. split; [exact A|]. clear A. unfold running. split_and!; assumption.
Qed.
Definition run2 : list pact := run1 ++ [AGo 0; AGo 0; AGo 1; AGo 1; ADefault 0; ADefault 1; ALow 0; AGo 0; AGo 0; AGo 0; AGo 0; ADefault 0]%nat.
(* the hypotheses of C71_drains are met *)
Example C71_ex_drains :
  exists p, exec run2 (NewRoutinePool 2 clients1) = Some p /\ running p /\
    (forall a w, worker_of a = Some w -> pstep 2 1 kf true p a = None) /\
    ended (p_log p) = [[1]; [1]; [2]].
Proof.
  destruct (at_end_ex 2 1 run2 clients1 (fun p => ((p_started p, p_quit p, p_panic p), (p_gs p, p_high p, p_low p, ended (p_log p))))
     ((true, false, false), ([WInner; WInner], [], [], [[1]; [1]; [2]]))) as (p & A & B); [vm_compute; reflexivity|].
  injection B as B1 B2 B3 C D E F. exists p. split; [exact A|]. split; [exact (conj B1 (conj B2 B3))|]. split; [|exact F]. clear A.
  intros a w HW. unfold pstep. destruct (p_panic p); [done|].
  destruct a as [x|x|x|x|x|x k|k]; cbn in HW; try done; injection HW as ->.
  - unfold g_quit. rewrite C, B2. destruct w as [|[|w]]; done.
  - unfold g_high. rewrite C, D. destruct w as [|[|w]]; done.
  - unfold g_low. rewrite C, E. destruct w as [|[|w]]; done.
  - unfold g_default. rewrite C. destruct w as [|[|w]]; done.
  - unfold g_go. rewrite C. destruct w as [|[|w]]; done.
Qed.
(* both Stop calls of the clients return; the second finds the pool stopped *)
Example C71_ex_stop :
  exists p, exec (run2 ++ [AClient 0; AQuit 1; AQuit 0; AClient 0; AClient 1])%nat (NewRoutinePool 2 clients1) = Some p /\
    last (p_log p) = Some OStopped /\ p_panic p = false /\ p_clients p = [Client [] false; Client [] false] /\ start_calls clients1 = 1%nat.
Proof.
  destruct (at_end_ex 2 1 (run2 ++ [AClient 0; AQuit 1; AQuit 0; AClient 0; AClient 1])%nat clients1 (fun p => (last (p_log p), p_panic p, p_clients p))
    (Some OStopped, false, [Client [] false; Client [] false])) as (p & A & B); [vm_compute; reflexivity|].
  injection B as B1 B2 B3. exists p. split; [exact A|]. clear A. split_and!; assumption || reflexivity.
Qed.
(* a client waits in Stop while both workers are in workFunc: C71_stop_returns applies *)
Example C71_ex_stop_waits :
  exists p, exec (run1 ++ [AClient 1])%nat (NewRoutinePool 2 clients1) = Some p /\ p_panic p = false /\
    p_clients p !! 1%nat = Some (Client [] true) /\ in_work (p_log p) = 2%nat.
Proof.
  destruct (at_end_ex 2 1 (run1 ++ [AClient 1])%nat clients1 (fun p => (p_panic p, p_clients p !! 1%nat, in_work (p_log p)))
    (false, Some (Client [] true), 2%nat)) as (p & A & B); [vm_compute; reflexivity|].
  injection B as B1 B2 B3. exists p. split; [exact A|]. clear A. split_and!; assumption || reflexivity.
Qed.
(* a client whose send has to wait: C71_post_progress applies *)
Example C71_ex_post_blocked :
  exists p, exec [AClient 0; AClient 0]%nat (NewRoutinePool 2 [[PStart; PHigh (Some [1]); PHigh (Some [2])]]) = Some p /\ running p /\
    p_clients p !! 0%nat = Some (Client [PHigh (Some [2])] false) /\ length (p_high p) = 1%nat.
Proof.
  destruct (at_end_ex 2 1 [AClient 0; AClient 0]%nat [[PStart; PHigh (Some [1]); PHigh (Some [2])]]
    (fun p => ((p_started p, p_quit p, p_panic p), (p_clients p !! 0%nat, length (p_high p))))
    ((true, false, false), (Some (Client [PHigh (Some [2])] false), 1%nat))) as (p & A & B); [vm_compute; reflexivity|].
  injection B as B1 B2 B3 B4 B5. exists p. split; [exact A|]. clear A. unfold running. split_and!; assumption.
Qed.
(* a channel without buffer *)
Example C71_ex_unbuffered :
  exists p, pexec 1 0 kf true [AClient 0; ADefault 0; APass 0 0; AGo 0; AGo 0; AGo 0; AGo 0]%nat
      (NewRoutinePool 1 [[PStart; PLow (Some [7])]]) = Some p /\ ended (p_log p) = [[7]] /\ posted false (p_log p) = [Some [7]].
Proof.
  destruct (at_end_ex 1 0 [AClient 0; ADefault 0; APass 0 0; AGo 0; AGo 0; AGo 0; AGo 0]%nat [[PStart; PLow (Some [7])]]
    (fun p => (ended (p_log p), posted false (p_log p))) ([[7]], [Some [7]])) as (p & A & B); [vm_compute; reflexivity|].
  injection B as B1 B2. exists p. split; [exact A|]. clear A. split_and!; assumption || reflexivity.
Qed.

(* ------------------------------------------------------------- what does not hold *)
(** It is not so that a low event is taken only when no high one waits: the high one may
    come between the two selects. *)
Theorem C71_high_always_first_refuted :
  ~ (forall (cs : list (list (pcall (list N)))) acts p a p' ob w v,
       exec acts (NewRoutinePool 2 cs) = Some p -> pstep 2 1 kf true p a = Some p' ->
       p_log p' = p_log p ++ ob -> OTaken w false v ∈ ob -> p_high p = []).
Proof.
  intros H.
  destruct (at_end_ex 2 1 [AClient 0; ADefault 0; AClient 0; AClient 0]%nat [[PStart; PHigh (Some [1]); PLow (Some [2])]]
    (fun p => (p_panic p, p_gs p !! 0%nat, p_low p, p_high p)) (false, Some WInner, [Some [2]], [Some [1]])) as (p & A & E); [vm_compute; reflexivity|].
  injection E as E1 E2 E3 E4.
  assert (exists p', pstep 2 1 kf true p (ALow 0) = Some p' /\ p_log p' = p_log p ++ [OTaken 0%nat false (Some [2])]) as (p' & B & C).
  { unfold pstep. rewrite E1. unfold g_low. rewrite E2, E3. eexists. split; [reflexivity|done]. }
  assert (D : p_high p <> []) by (by rewrite E4).
  apply D. eapply H; [exact A|exact B|exact C|]. by left.
Qed.
(** It is not so that a pool can be started again after Stop: the process panics. *)
Theorem C71_restart_refuted :
  ~ (forall (cs : list (list (pcall (list N)))) acts p, exec acts (NewRoutinePool 2 cs) = Some p -> p_panic p = false).
Proof.
  intros H.
  destruct (at_end_ex 2 1 [AClient 0; AClient 0; AQuit 0; AQuit 1; AClient 0; AClient 0; AQuit 2]%nat [[PStart; PStop; PStart]]
    p_panic true) as (p & A & B); [vm_compute; reflexivity|].
  rewrite (H _ _ _ A) in B. done.
Qed.
(** It is not so that every event posted before Stop is handled. *)
Theorem C71_stop_handles_all_refuted :
  ~ (forall (cs : list (list (pcall (list N)))) acts p l1, exec acts (NewRoutinePool 2 cs) = Some p ->
       p_log p = l1 ++ [OStopped] -> ended l1 ≡ₚ nonnil (posted true l1) ++ nonnil (posted false l1)).
Proof.
  intros H.
  destruct (at_end_ex 2 1 [AClient 0; AClient 0; AClient 0; AQuit 0; AQuit 1; AClient 0]%nat [[PStart; PHigh (Some [1]); PStop]]
    p_log ([OStarted; OPosted true (Some [1])] ++ [OStopped])) as (p & A & B); [vm_compute; reflexivity|].
  pose proof (Permutation_length (H _ _ _ _ A B)) as X. vm_compute in X. lia.
Qed.
(** It is not so that a Post always completes: after Stop, with the queue full, nothing
    can ever take from it. Here client 0 is blocked and no action at all is possible. *)
Theorem C71_post_completes_refuted :
  exists p, exec [AClient 0; AClient 0; AQuit 0; AQuit 1; AClient 0; AClient 0]%nat
      (NewRoutinePool 2 [[PStart; PStop; PHigh (Some [1]); PHigh (Some [2])]]) = Some p /\
    p_clients p = [Client [PHigh (Some [2])] false] /\ forall a, pstep 2 1 kf true p a = None.
Proof.
  destruct (at_end_ex 2 1 [AClient 0; AClient 0; AQuit 0; AQuit 1; AClient 0; AClient 0]%nat [[PStart; PStop; PHigh (Some [1]); PHigh (Some [2])]]
    (fun p => (p_clients p, p_gs p, p_high p)) ([Client [PHigh (Some [2])] false], [WExited; WExited], [Some [1]])) as (p & A & B); [vm_compute; reflexivity|].
  injection B as B1 B2 B3. exists p. split; [exact A|]. split; [exact B1|]. clear A.
  intros a. unfold pstep. destruct (p_panic p); [done|].
  destruct a as [w|w|w|w|w|w k|k].
  - unfold g_quit. rewrite B2. by destruct w as [|[|w]].
  - unfold g_high. rewrite B2, B3. by destruct w as [|[|w]].
  - unfold g_low. rewrite B2. by destruct w as [|[|w]].
  - unfold g_default. rewrite B2. by destruct w as [|[|w]].
  - unfold g_go. rewrite B2. by destruct w as [|[|w]].
  - done.
  - unfold c_step. rewrite B1. destruct k as [|k]; [by rewrite B3|done].
Qed.

Print Assumptions C71_fifo.
Print Assumptions C71_exactly_once.
Print Assumptions C71_no_workfunc.
Print Assumptions C71_width.
Print Assumptions C71_priority.
Print Assumptions C71_stop.
Print Assumptions C71_stop_returns.
Print Assumptions C71_no_panic.
Print Assumptions C71_start_once_no_panic.
Print Assumptions C71_key_counts.
Print Assumptions C71_drains.
Print Assumptions C71_post_progress.
Print Assumptions C71_high_always_first_refuted.
Print Assumptions C71_restart_refuted.
Print Assumptions C71_stop_handles_all_refuted.
Print Assumptions C71_post_completes_refuted.
