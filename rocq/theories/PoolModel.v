(** Model of routinepool.go: a pool of goroutines serving a high and a low priority
    queue, its clients, and the counts of events in work by key.

    Every atomic action (a select that fires, a channel send, a section under a mutex,
    the beginning and the end of workFunc) is one step, and any goroutine may run
    next: an execution is a list of actions. What is simplified:
    - Start spawns its goroutines at once (129-139); they run independently anyway;
    - workFunc is a beginning and an end: what it does to the pool itself (posting,
      stopping) is left out, and so is a workFunc that panics;
    - the key counts are global to the package (75-82); here they are those of one
      pool;
    - a send that meets a receiver on a channel without buffer (queueSize 0) is one
      step of both. The default case of the first select is then possible also when
      the sender is ready: this adds executions, it removes none;
    - reading the map returned by KeyCount (188-190) without its lock is a data race
      and is left out. *)
From Verif Require Export Base.
From stdpp Require Export gmap.
Global Open Scope N_scope.

Section model.
Context {V : Type}.

(** Where a goroutine running work (50-73) is: at the first select, at the second,
    it has received an event, it has counted the key, workFunc is running, workFunc
    has returned, it has returned. *)
Inductive wstat :=
| WOuter | WInner | WGot (v : option V) | WCounted (v : V) | WRun (v : V) | WFin (v : V) | WExited.

(** Calls of clients; a nil event is None. *)
Inductive pcall := PStart | PStop | PHigh (v : option V) | PLow (v : option V).
(** A client: the calls it has still to make; whether it is in Stop waiting for the
    workers. *)
Record client := Client { cl_todo : list pcall; cl_waiting : bool }.

(** What can be seen from outside, in order. *)
Inductive pobs :=
| OPosted (high : bool) (v : option V)      (* a send was done *)
| OTaken (w : nat) (high : bool) (v : option V)
| OBegin (w : nat) (v : V) | OEnd (w : nat) (v : V)
| OStarted | OStopped.                      (* Start spawned; Stop returns after waiting *)

(* routinepool.go:84-94; [p_gs] are the goroutines spawned so far, [p_keys] is
   routinePoolKeyCountMap, [p_panic] says that some goroutine panicked *)
Record pool := Pool {
  p_high : list (option V); p_low : list (option V);
  p_quit : bool;            (* the quit channel is closed *)
  p_started : bool; p_locked : bool; p_wg : Z;
  p_gs : list wstat; p_clients : list client;
  p_keys : gmap (list N) nat; p_panic : bool; p_log : list pobs }.

(** The size of the pool, of its queues, keyGetter and whether there is a workFunc. *)
Context (n q : nat) (key : option (V -> list N)) (hasfunc : bool).

(* routinepool.go:96-119 *)
Definition NewRoutinePool (clients : list (list pcall)) : pool :=
  Pool [] [] false false false (Z.of_nat n) [] (map (fun l => Client l false) clients) ∅ false [].

Definition set_g (p : pool) (w : nat) (s : wstat) : pool :=
  Pool (p_high p) (p_low p) (p_quit p) (p_started p) (p_locked p) (p_wg p)
       (<[w := s]> (p_gs p)) (p_clients p) (p_keys p) (p_panic p) (p_log p).
Definition set_keys (p : pool) (m : gmap (list N) nat) : pool :=
  Pool (p_high p) (p_low p) (p_quit p) (p_started p) (p_locked p) (p_wg p)
       (p_gs p) (p_clients p) m (p_panic p) (p_log p).
Definition say (p : pool) (o : list pobs) : pool :=
  Pool (p_high p) (p_low p) (p_quit p) (p_started p) (p_locked p) (p_wg p)
       (p_gs p) (p_clients p) (p_keys p) (p_panic p) (p_log p ++ o).
Definition set_queues (p : pool) (h l : list (option V)) : pool :=
  Pool h l (p_quit p) (p_started p) (p_locked p) (p_wg p)
       (p_gs p) (p_clients p) (p_keys p) (p_panic p) (p_log p).
Definition set_client (p : pool) (k : nat) (c : client) : pool :=
  Pool (p_high p) (p_low p) (p_quit p) (p_started p) (p_locked p) (p_wg p)
       (p_gs p) (<[k := c]> (p_clients p)) (p_keys p) (p_panic p) (p_log p).

(* routinepool.go:36-39: the key of an event, nil without keyGetter *)
Definition key_of (v : V) : list N := match key with Some f => f v | None => [] end.
(* routinepool.go:162-172 *)
Definition incKeyCount (k : list N) (m : gmap (list N) nat) : gmap (list N) nat :=
  match m !! k with None => <[k := 1%nat]> m | Some c => <[k := (c + 1)%nat]> m end.
(* routinepool.go:174-186 *)
Definition decKeyCount (k : list N) (m : gmap (list N) nat) : gmap (list N) nat :=
  match m !! k with
  | Some c => if (c <=? 1)%nat then delete k m else <[k := (c - 1)%nat]> m
  | None => m
  end.

(** Actions: goroutine [w] takes the quit, higher, lower or default case of the select
    it is at; goes on inside event; hands over from client [k] without buffer; client
    [k] goes on. *)
Inductive pact := AQuit (w : nat) | AHigh (w : nat) | ALow (w : nat) | ADefault (w : nat) | AGo (w : nat)
                | APass (w k : nat) | AClient (k : nat).

Definition selecting (s : wstat) : bool := match s with WOuter | WInner => true | _ => false end.

(* routinepool.go:51, 54-55, 62-63: return and the deferred wg.Done, which panics below 0 *)
Definition g_quit (p : pool) (w : nat) : option pool :=
  match p_gs p !! w with
  | Some s => if selecting s && p_quit p
              then let wg := (p_wg p - 1)%Z in
                   Some (Pool (p_high p) (p_low p) (p_quit p) (p_started p) (p_locked p) wg
                              (<[w := WExited]> (p_gs p)) (p_clients p) (p_keys p) (p_panic p || (wg <? 0)%Z) (p_log p))
              else None
  | None => None
  end.
(* routinepool.go:56-58, 64-66 *)
Definition g_high (p : pool) (w : nat) : option pool :=
  match p_gs p !! w, p_high p with
  | Some s, v :: h => if selecting s
                      then Some (say (set_g (set_queues p h (p_low p)) w (WGot v)) [OTaken w true v]) else None
  | _, _ => None
  end.
(* routinepool.go:67-69 *)
Definition g_low (p : pool) (w : nat) : option pool :=
  match p_gs p !! w, p_low p with
  | Some WInner, v :: l => Some (say (set_g (set_queues p (p_high p) l) w (WGot v)) [OTaken w false v])
  | _, _ => None
  end.
(* routinepool.go:59-61: default, when no other case is ready *)
Definition g_default (p : pool) (w : nat) : option pool :=
  match p_gs p !! w, p_high p with
  | Some WOuter, [] => if p_quit p then None else Some (set_g p w WInner)
  | _, _ => None
  end.
(* routinepool.go:34-48 event, one action at a time *)
Definition g_go (p : pool) (w : nat) : option pool :=
  match p_gs p !! w with
  | Some (WGot None) => Some (set_g p w WOuter)
  | Some (WGot (Some v)) =>
      if hasfunc
      then Some (set_g (if (length (key_of v) =? 0)%nat then p else set_keys p (incKeyCount (key_of v) (p_keys p))) w (WCounted v))
      else Some (set_g p w WOuter)
  | Some (WCounted v) => Some (say (set_g p w (WRun v)) [OBegin w v])
  | Some (WRun v) => Some (say (set_g p w (WFin v)) [OEnd w v])
  | Some (WFin v) =>
      Some (set_g (if (length (key_of v) =? 0)%nat then p else set_keys p (decKeyCount (key_of v) (p_keys p))) w WOuter)
  | _ => None
  end.
(** A send on a channel without buffer meets a receiver. *)
Definition g_pass (p : pool) (w k : nat) : option pool :=
  if negb (q =? 0)%nat then None
  else match p_gs p !! w, p_clients p !! k with
  | Some s, Some (Client (PHigh v :: r) false) =>
      if selecting s
      then Some (say (set_client (set_g p w (WGot v)) k (Client r false)) [OPosted true v; OTaken w true v]) else None
  | Some WInner, Some (Client (PLow v :: r) false) =>
      Some (say (set_client (set_g p w (WGot v)) k (Client r false)) [OPosted false v; OTaken w false v])
  | _, _ => None
  end.
(* routinepool.go:129-139 Start under the lock *)
Definition c_start (p : pool) (k : nat) (r : list pcall) : option pool :=
  if p_locked p then None
  else if p_started p then Some (set_client p k (Client r false))
  else Some (Pool (p_high p) (p_low p) (p_quit p) true (p_locked p) (p_wg p)
                  (p_gs p ++ replicate n WOuter) (<[k := Client r false]> (p_clients p)) (p_keys p) (p_panic p)
                  (p_log p ++ [OStarted])).
(* routinepool.go:141-149 Stop: up to wg.Wait, which it enters holding the lock; closing
   a closed channel panics *)
Definition c_stop (p : pool) (k : nat) (r : list pcall) : option pool :=
  if p_locked p then None
  else if negb (p_started p) then Some (set_client p k (Client r false))
  else Some (Pool (p_high p) (p_low p) true false true (p_wg p)
                  (p_gs p) (<[k := Client r true]> (p_clients p)) (p_keys p) (p_panic p || p_quit p) (p_log p)).
(* routinepool.go:149-150: wg.Wait returns at 0, the lock is released *)
Definition c_wait (p : pool) (k : nat) (r : list pcall) : option pool :=
  if (p_wg p =? 0)%Z
  then Some (Pool (p_high p) (p_low p) (p_quit p) (p_started p) false (p_wg p)
                  (p_gs p) (<[k := Client r false]> (p_clients p)) (p_keys p) (p_panic p) (p_log p ++ [OStopped]))
  else None.
(* routinepool.go:192-198 PostLower, PostHigher: a send on a buffered channel *)
Definition c_step (p : pool) (k : nat) : option pool :=
  match p_clients p !! k with
  | None => None
  | Some (Client r true) => c_wait p k r
  | Some (Client [] false) => None
  | Some (Client (PStart :: r) false) => c_start p k r
  | Some (Client (PStop :: r) false) => c_stop p k r
  | Some (Client (PHigh v :: r) false) =>
      if (length (p_high p) <? q)%nat
      then Some (say (set_client (set_queues p (p_high p ++ [v]) (p_low p)) k (Client r false)) [OPosted true v]) else None
  | Some (Client (PLow v :: r) false) =>
      if (length (p_low p) <? q)%nat
      then Some (say (set_client (set_queues p (p_high p) (p_low p ++ [v])) k (Client r false)) [OPosted false v]) else None
  end.

(** One action; None: it is not possible. A panic ends the process. *)
Definition pstep (p : pool) (a : pact) : option pool :=
  if p_panic p then None
  else match a with
  | AQuit w => g_quit p w | AHigh w => g_high p w | ALow w => g_low p w | ADefault w => g_default p w
  | AGo w => g_go p w | APass w k => g_pass p w k | AClient k => c_step p k
  end.
Fixpoint pexec (acts : list pact) (p : pool) : option pool :=
  match acts with
  | [] => Some p
  | a :: r => match pstep p a with None => None | Some p' => pexec r p' end
  end.
End model.
Arguments wstat : clear implicits.
Arguments pcall : clear implicits.
Arguments client : clear implicits.
Arguments pobs : clear implicits.
Arguments pool : clear implicits.
