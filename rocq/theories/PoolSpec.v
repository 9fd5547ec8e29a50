(** Specification vocabulary for the worker pool: what the observable events say. *)
From Verif Require Import Base PoolModel.
From stdpp Require Import gmap.
Open Scope N_scope.

Section spec.
Context {V : Type}.

(** The events posted to one of the queues, in the order of the sends. *)
Definition posted (high : bool) (log : list (pobs V)) : list (option V) :=
  omap (fun o => match o with OPosted h v => if Bool.eqb h high then Some v else None | _ => None end) log.
(** The events taken from one of the queues, in order. *)
Definition taken (high : bool) (log : list (pobs V)) : list (option V) :=
  omap (fun o => match o with OTaken _ h v => if Bool.eqb h high then Some v else None | _ => None end) log.
(** The events workFunc was called with, and those it has returned from. *)
Definition begun (log : list (pobs V)) : list V :=
  omap (fun o => match o with OBegin _ v => Some v | _ => None end) log.
Definition ended (log : list (pobs V)) : list V :=
  omap (fun o => match o with OEnd _ v => Some v | _ => None end) log.
(** The events that are not nil. *)
Definition nonnil (l : list (option V)) : list V := omap id l.
(** Observations made by workers. *)
Definition by_worker (o : pobs V) : bool :=
  match o with OTaken _ _ _ | OBegin _ _ | OEnd _ _ => true | _ => false end.
Definition is_start (o : pobs V) : bool := match o with OStarted => true | _ => false end.

(** The calls of workFunc that are in progress: begun and not ended. *)
Definition in_work (log : list (pobs V)) : nat := (length (begun log) - length (ended log))%nat.

(** The number of Start calls in the programs of the clients. *)
Definition start_calls (clients : list (list (pcall V))) : nat :=
  length (List.filter (fun c => match c with PStart => true | _ => false end) (concat clients)).

(** The goroutine an action belongs to. *)
Definition worker_of (a : pact) : option nat :=
  match a with
  | AQuit w | AHigh w | ALow w | ADefault w | AGo w | APass w _ => Some w
  | AClient _ => None
  end.

(** The goroutines that are in the handling of an event with key [k]. *)
Definition handling (key : option (V -> list N)) (k : list N) (gs : list (wstat V)) : nat :=
  length (List.filter (fun s => match s with
    | WCounted v | WRun v | WFin v => bool_decide (match key with Some f => f v | None => [] end = k)
    | _ => false end) gs).

(** Start has spawned the workers and Stop was not called. *)
Definition running (p : pool V) : Prop := p_started p = true /\ p_quit p = false /\ p_panic p = false.
End spec.
