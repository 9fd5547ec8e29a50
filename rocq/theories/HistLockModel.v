(** The lock of the history tree: goroutines calling the exported methods of one tree. *)
From Verif Require Import Base HistSpec HistModel.
From stdpp Require Import gmap.
Open Scope N_scope.

(** What a method does: historytree.go:44 is a sync.Mutex, not reentrant. The work
    between Lock and Unlock is not one step: the state is read, then what was computed
    from it is written, and other goroutines may run in between. *)
Inductive lact := LLock | LRead | LWrite | LUnlock.

(** The exported methods. Every one takes the lock, works and releases it by defer:
    historytree.go:47-51 Expecting, 304-315 Clone, 325-330 HashValue, 331-342
    CommitAndHash, 344-379 CollapseBefore, 382-412 Append, 423-434 Get, 436-470
    GetProof (opening a root, 71-103, is a call on the new tree: its lock is taken
    by String only, while nobody else knows the tree). Has, 415-421, takes
    the lock and calls Get, which takes it again. *)
Inductive hmeth := MCall (o : hcall) | MHas (k : N).
Definition meth_prog (m : hmeth) : list lact :=
  match m with
  | MCall _ => [LLock; LRead; LWrite; LUnlock]
  | MHas _ => [LLock; LLock; LRead; LWrite; LUnlock; LUnlock]
  end.
(** The work done under the lock: Has answers from Get. *)
Definition meth_call (m : hmeth) : hcall := match m with MCall o => o | MHas k => HGet k end.

(** The call a goroutine is in: what is left of it, the state it has read, its answer. *)
Record lcall := LCall { cl_meth : hmeth; cl_prog : list lact; cl_read : option hpool; cl_ans : option hobs }.
(** A goroutine: the calls it has still to make, the one it is in, the answers returned. *)
Record thread := Thread { th_todo : list hmeth; th_cur : option lcall; th_done : list hobs }.
(** The mutex (held or not), the tree with its database, the goroutines, and, for the
    statements only, the calls that took effect so far: goroutine, call and answer. *)
Record lconf := LConf {
  lc_locked : bool; lc_pool : hpool; lc_threads : list thread; lc_log : list (nat * hcall * hobs) }.

Section model.
Context (E : henv).

(** One step of goroutine i; None: it cannot run (finished or waiting for the lock), or the
    body panics. *)
Definition lstep (c : lconf) (i : nat) : option lconf :=
  match lc_threads c !! i with
  | None => None
  | Some t =>
      let cont l p t' log := Some (LConf l p (<[i := t']> (lc_threads c)) log) in
      match th_cur t with
      | None => match th_todo t with
                | [] => None
                | m :: r => cont (lc_locked c) (lc_pool c) (Thread r (Some (LCall m (meth_prog m) None None)) (th_done t)) (lc_log c)
                end
      | Some (LCall m prog rd a) =>
          let next r rd a := Thread (th_todo t) (Some (LCall m r rd a)) (th_done t) in
          match prog with
          | [] => cont (lc_locked c) (lc_pool c) (Thread (th_todo t) None (th_done t ++ [default HvOk a])) (lc_log c)
          | LLock :: r => if lc_locked c then None else cont true (lc_pool c) (next r rd a) (lc_log c)
          | LUnlock :: r => cont false (lc_pool c) (next r rd a) (lc_log c)
          | LRead :: r => cont (lc_locked c) (lc_pool c) (next r (Some (lc_pool c)) a) (lc_log c)
          | LWrite :: r =>
              match rd with
              | None => None
              | Some p => match hmstep E p (0%nat, meth_call m) with
                          | None => None
                          | Some (p', b) => cont (lc_locked c) p' (next r rd (Some b)) (lc_log c ++ [(i, meth_call m, b)])
                          end
              end
          end
      end
  end.
(** A schedule names the goroutine of each step; None: it names one that cannot run. *)
Fixpoint lexec (sched : list nat) (c : lconf) : option lconf :=
  match sched with
  | [] => Some c
  | i :: r => match lstep c i with None => None | Some c' => lexec r c' end
  end.
Definition linit (calls : list (list hmeth)) : lconf :=
  LConf false hpool0 (map (fun l => Thread l None []) calls) [].
End model.

(** Nothing left to do. *)
Definition th_finished (t : thread) : bool :=
  match th_todo t, th_cur t with [], None => true | _, _ => false end.
(** The calls and the answers of goroutine i in a log. *)
Definition answers (i : nat) (log : list (nat * hcall * hobs)) : list hobs :=
  flat_map (fun x => if decide (x.1.1 = i) then [x.2] else []) log.
Definition calls_of (i : nat) (log : list (nat * hcall * hobs)) : list hcall :=
  flat_map (fun x => if decide (x.1.1 = i) then [x.1.2] else []) log.
Definition log_ops (log : list (nat * hcall * hobs)) : list (nat * hcall) := map (fun x => (0%nat, x.1.2)) log.
Definition no_has (m : hmeth) : bool := match m with MCall _ => true | MHas _ => false end.
(** The calls before the first Has. *)
Fixpoint before_has (l : list hmeth) : list hmeth :=
  match l with [] => [] | m :: r => if no_has m then m :: before_has r else [] end.
