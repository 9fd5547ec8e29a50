(** Threads that use one object through its sync.RWMutex.

    An object is a state, the local states of its methods while they hold the lock, and one
    micro-step of a method: one access to a component that is itself safe for concurrent
    use (sync.Map, golang-lru, goleveldb) or to a field. Between two micro-steps any other
    thread may run, as far as the lock lets it. Every method that is modelled this way
    takes the lock in its first line and releases it with defer.

    sync.RWMutex (Go standard library): Lock first keeps new readers and writers out, then
    waits for the readers inside; RLock waits while a writer is inside or waits inside
    Lock. A method that takes no lock at all is modelled as a [Shared] one of an object
    that has no [Excl] methods: nothing ever waits. *)
From Verif Require Import LockSpec.
From stdpp Require Import gmap.

Inductive lkind := Excl | Shared.

Section lock.
  Context {S L Op A : Type}.
  Context (kind : Op -> lkind).
  Context (start : Op -> L).
  (** [next c s l]: the next micro-step from local state l, with choice c where Go leaves
      one (the order of a map range); inr: the answer, the method is done but still holds
      the lock *)
  Context (next : nat -> S -> L -> option (S * (L + A))).

  Inductive phase :=
  | Idle
  | Want (o : Op)           (* called, before Lock or RLock *)
  | Ann (o : Op)            (* inside Lock, new readers and writers are kept out *)
  | Inside (o : Op) (l : L)     (* holds the lock *)
  | Done (o : Op) (a : A)   (* before the deferred unlock *)
  | Rel (a : A).            (* unlocked, before the return *)

  Record conf := Conf {
    st : S;
    wr : option nat;            (* the thread that is inside Lock or holds the lock *)
    rd : gset nat;              (* the threads that hold a read lock *)
    thr : list phase;
    hist : list (event Op A);   (* oldest first *)
  }.
  Definition initial (s : S) (n : nat) : conf := Conf s None ∅ (replicate n Idle) [].

  Inductive label := LInv (o : Op) | LAcq | LEnter | LStep (c : nat) | LUnlock | LReturn.

  Definition set_thr (i : nat) (p : phase) (c : conf) : conf :=
    Conf (st c) (wr c) (rd c) (<[i := p]> (thr c)) (hist c).

  Definition step (c : conf) (i : nat) (b : label) : option conf :=
    match thr c !! i, b with
    | Some Idle, LInv o =>
        Some (Conf (st c) (wr c) (rd c) (<[i := Want o]> (thr c)) (hist c ++ [EInv i o]))
    | Some (Want o), LAcq =>
        match kind o, wr c with
        | Excl, None => Some (Conf (st c) (Some i) (rd c) (<[i := Ann o]> (thr c)) (hist c))
        | Shared, None => Some (Conf (st c) None ({[i]} ∪ rd c) (<[i := Inside o (start o)]> (thr c)) (hist c))
        | _, _ => None
        end
    | Some (Ann o), LEnter =>
        if decide (rd c = ∅) then Some (set_thr i (Inside o (start o)) c) else None
    | Some (Inside o l), LStep ch =>
        match next ch (st c) l with
        | Some (s', inl l') => Some (Conf s' (wr c) (rd c) (<[i := Inside o l']> (thr c)) (hist c))
        | Some (s', inr a) => Some (Conf s' (wr c) (rd c) (<[i := Done o a]> (thr c)) (hist c))
        | None => None
        end
    | Some (Done o a), LUnlock =>
        match kind o with
        | Excl => Some (Conf (st c) None (rd c) (<[i := Rel a]> (thr c)) (hist c))
        | Shared => Some (Conf (st c) (wr c) (rd c ∖ {[i]}) (<[i := Rel a]> (thr c)) (hist c))
        end
    | Some (Rel a), LReturn =>
        Some (Conf (st c) (wr c) (rd c) (<[i := Idle]> (thr c)) (hist c ++ [ERet i a]))
    | _, _ => None
    end.

  Fixpoint exec (c : conf) (sch : list (nat * label)) : option conf :=
    match sch with
    | [] => Some c
    | (i, b) :: r => match step c i b with Some c' => exec c' r | None => None end
    end.
  (** a method that runs alone from local state l *)
  Inductive alone : S -> L -> S -> A -> Prop :=
  | al_done c s l s' a : next c s l = Some (s', inr a) -> alone s l s' a
  | al_step c s l s1 l1 s' a : next c s l = Some (s1, inl l1) -> alone s1 l1 s' a -> alone s l s' a.
  Definition reaches (c c' : conf) : Prop := exists sch, exec c sch = Some c'.
End lock.
Arguments Idle {L Op A}. Arguments Want {L Op A} o. Arguments Ann {L Op A} o.
Arguments Inside {L Op A} o l. Arguments Done {L Op A} o a. Arguments Rel {L Op A} a.
Arguments LInv {Op} o. Arguments LAcq {Op}. Arguments LEnter {Op}. Arguments LStep {Op} c.
Arguments LUnlock {Op}. Arguments LReturn {Op}.
Arguments st {S L Op A} c. Arguments wr {S L Op A} c. Arguments rd {S L Op A} c.
Arguments thr {S L Op A} c. Arguments hist {S L Op A} c.
