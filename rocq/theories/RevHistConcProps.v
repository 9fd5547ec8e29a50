(** C103: a revertable history tree shared by threads. *)
From Coq Require Import Lia.
From stdpp Require Import gmap.
From Verif Require Import LockSpec LockModel LockProofs MerkleSpec HistSpec HistModel HistRepProofs HistRunProofs HistProps HistFindProps.
From Verif Require Import TrieProps.
From Verif Require Import RevHistSpec RevHistModel RevHistProofs RevHistProps RevHistConcModel.
Global Open Scope N_scope.

(* ---------------------------------------------------------------- specification *)
(** One call on a committed and a working list; no call panics. *)
Definition sp_rev (root : list (list N) -> list N) (s : rlogs) (c : rhcall) (s' : rlogs) (a : option hobs) : Prop :=
  s' = (rstep root s c).1 /\ a = Some (rstep root s c).2.
(** the calls in the order of the chosen moments *)
Definition in_order {Op A} (g : list (mark Op A)) : list Op := map fst (concat (map chosen g)).

(* ---------------------------------------------------------------- proofs *)
Lemma rh_alone E r c r' a : alone (rh_next E) r (RRead c) r' a ->
  match rhstep E r c with Some (r1, ob) => r' = r1 /\ a = Some ob | None => r' = r /\ a = None end.
Proof.
  intros H. inversion H as [ch ? ? ? ? Hn|ch ? ? s1 l1 ? ? Hn Ha]; subst; cbn in Hn.
  - destruct (rhstep E r c) as [[s1 ob]|]; simplify_eq. done.
  - destruct (rhstep E r c) as [[s2 ob]|]; simplify_eq.
    inversion Ha as [c' ? ? ? ? Hn'|c' ? ? ? ? ? ? Hn']; subst; cbn in Hn'; simplify_eq. done.
Qed.
Lemma rh_runs E root l : forall r r' s r2, 
  sruns (fun r c r' a => alone (rh_next E) r (RRead c) r' a) r l r' ->
  rhrun E (map fst l) r = Some (r2, (rrun root (map fst l) s).2) -> exists s', sruns (sp_rev root) s l s'.
Proof.
  induction l as [|[c a] l IH]; intros r r' s r2 Hs Hr; [exists s; constructor|].
  inversion Hs as [|? ? ? r1 ? ? Ha Hl]; subst. apply rh_alone in Ha. cbn [map fst rhrun rrun] in Hr.
  destruct (rhstep E r c) as [[r1' b]|]; [|done]. destruct Ha as [-> ->].
  destruct (rstep root s c) as [s1 b'] eqn:Es. destruct (rrun root (map fst l) s1) as [s2 bs] eqn:Er.
  destruct (rhrun E (map fst l) r1') as [[r3 bs']|] eqn:Eh; [|done]. cbn [snd] in Hr. injection Hr as -> -> ->.
  destruct (IH r1' r' s1 r2) as [s' Hs']; [done|by rewrite Er, Eh|].
  exists s'. econstructor; [|exact Hs']. split; by rewrite Es.
Qed.

(* ------------------------------------------------------------------- theorems *)
(** Any number of threads, any calls, any interleaving: there is an order of the calls that
    respects which call returned before which was made, and if that sequence of calls meets
    the conditions of C80 then every call answers in it as a committed and a working list do. *)
Theorem C103_logs : forall E n c, henv_ok E ->
  reaches rh_kind RRead (rh_next E) (initial rhtree0 n) c ->
  exists g, concat (map LockSpec.seen g) = hist c /\ (forall i, exists t, truns i TIdle g t) /\
    (rev_ok (hH E) (in_order g) -> exists s', sruns (sp_rev (hist_root (hH E))) rlogs0 (concat (map chosen g)) s').
Proof.
  intros E n c HE H.
  pose proof (object_linearizable _ _ _ _ _ _ _ _ (mutex_ok rh_kind RRead (rh_next E) (fun _ => eq_refl)) rhtree0 I n c H)
    as (g & Hg1 & Hg2 & m' & Hm).
  exists g. split; [done|]. split; [done|]. intros Hok. cbn in Hm.
  destruct (C80_refines E _ HE Hok) as [r2 Hr]. by eapply rh_runs; [exact Hm|exact Hr].
Qed.
Print Assumptions C103_logs.
(** No deadlock: if no new calls are made then every schedule comes to an end, and it can only
    end with every call returned. *)
Definition rh_size (l : rhlocal) : nat := match l with RRead _ => 1 | RWrite _ _ => 0 end.
Theorem C103_all_calls_return : forall E n c,
  reaches rh_kind RRead (rh_next E) (initial rhtree0 n) c ->
  exists bound, forall sch c', Forall (fun x => not_call x.2) sch -> exec rh_kind RRead (rh_next E) c sch = Some c' ->
    (length sch <= bound)%nat /\
    ((forall i p, thr c' !! i = Some p -> p = Idle) \/
     exists i l c'', not_call l /\ LockModel.step rh_kind RRead (rh_next E) c' i l = Some c'').
Proof.
  intros E n c [sch0 H0].
  assert (Hgo : forall s l, exists ch r, rh_next E ch s l = Some r).
  { intros s [o|s' a]; exists 0%nat; cbn; [|by eexists]. destruct (rhstep E s o) as [[]|]; by eexists. }
  assert (Hend : forall ch s l s' l', rh_next E ch s l = Some (s', inl l') -> (rh_size l' < rh_size l)%nat).
  { intros ch s [o|s1 a] s' l' Hn; cbn in Hn; [|done]. destruct (rhstep E s o) as [[]|]; simplify_eq. cbn. lia. }
  exists (work RRead rh_size c). intros sch c' Hf H. split.
  - pose proof (work_exec _ _ _ _ Hend _ _ _ Hf H). lia.
  - destruct (existsb busy (thr c')) eqn:He.
    + right. apply existsb_exists in He as (p & Hp & Hn). apply elem_of_list_In, elem_of_list_lookup in Hp as [i Hi].
      edestruct (can_go_on rh_kind RRead (rh_next E) Hgo c' i p) as (j & l & c2 & Hl & Hs); [|exact Hi|by destruct p|].
      * eapply linv_exec; [|exact H]. eapply linv_exec; [|exact H0]. apply linv_initial; exact (rh_next E).
      * exists j, l, c2. split; [exact Hl|exact Hs].
    + left. intros i p Hi. destruct (busy p) eqn:Hd; [|by destruct p].
      exfalso. assert (existsb busy (thr c') = true); [|congruence].
      apply existsb_exists. exists p. split; [|done]. by eapply elem_of_list_In, elem_of_list_lookup_2.
Qed.
Print Assumptions C103_all_calls_return.

(** Two threads append at place 0 at the same time; the one that took the mutex second is
    refused. One of them reads place 0 and gets the value of the other; the last call has the
    mutex. *)
Definition two_appends : list (nat * @label rhcall) :=
  [(0, LInv (RAppend 0%N (replicate 32 1%N))); (1, LInv (RAppend 0%N (replicate 32 2%N)));
   (1, LAcq); (1, LEnter); (1, LStep 0); (1, LStep 0); (1, LUnlock);
   (0, LAcq); (0, LEnter); (0, LStep 0); (1, LReturn); (0, LStep 0); (0, LUnlock); (0, LReturn);
   (1, LInv RCommit); (1, LAcq); (1, LEnter); (1, LStep 0); (1, LStep 0); (1, LUnlock); (1, LReturn);
   (0, LInv (RGet 0%N)); (0, LAcq); (0, LEnter); (0, LStep 0); (0, LStep 0); (0, LUnlock); (0, LReturn);
   (1, LInv RRollback); (1, LAcq); (1, LEnter)]%nat.
Definition v1 : list N := replicate 32 1.
Definition v2 : list N := replicate 32 2.
Example C103_example_run :
  option_map hist (exec rh_kind RRead (rh_next (hdemo_env toyH)) (initial rhtree0 2) two_appends) = Some
    [EInv 0 (RAppend 0 v1); EInv 1 (RAppend 0 v2); ERet 1 (Some HvOk); ERet 0 (Some HvErr);
     EInv 1 RCommit; ERet 1 (Some HvOk); EInv 0 (RGet 0); ERet 0 (Some (HvVal (Some v2))); EInv 1 RRollback]%nat.
Proof. vm_compute. reflexivity. Qed.
(** The order of the first two of these calls and what it asks of the hash function. *)
Example C103_example :
  (exists c, reaches rh_kind RRead (rh_next (hdemo_env idealH)) (initial rhtree0 2) c /\
     hist c = [EInv 0 (RAppend 0 v1); EInv 1 (RAppend 0 v2); ERet 1 (Some HvOk); ERet 0 (Some HvErr)]%nat) /\
  henv_ok (hdemo_env idealH) /\
  let g := [HInv 0 (RAppend 0 v1); HInv 1 (RAppend 0 v2); HLin 1 (RAppend 0 v2) (Some HvOk);
            HLin 0 (RAppend 0 v1) (Some HvErr); HRet 1 (Some HvOk); HRet 0 (Some HvErr)]%nat in
  in_order g = [RAppend 0 v2; RAppend 0 v1] /\ rev_ok (hH (hdemo_env idealH)) (in_order g) /\
  rev_ok (hH (hdemo_env idealH)) [RAppend 0 v2; RAppend 0 v1; RCommit; RGet 0; RRollback].
Proof.
  split; [|split; [exact hdemo_ok|split; [reflexivity|]]].
  - destruct (exec rh_kind RRead (rh_next (hdemo_env idealH)) (initial rhtree0 2) (firstn 14 two_appends)) as [c|] eqn:X.
    2: { exfalso. revert X. vm_compute. discriminate. }
    exists c. split; [by exists (firstn 14 two_appends)|].
    assert (option_map hist (Some c) = option_map hist (exec rh_kind RRead (rh_next (hdemo_env idealH)) (initial rhtree0 2) (firstn 14 two_appends))) as Y by (by rewrite X).
    cbn [option_map] in Y. apply (inj Some). rewrite Y. vm_compute. reflexivity.
  - split; (apply rev_ok_ideal; [|reflexivity]); repeat constructor; cbn; try (vm_compute; reflexivity); discriminate.
Qed.
(** The mutex is what the theorems rest on: without it both appends at place 0 are accepted. *)
Definition both_append : list (nat * @label rhcall) :=
  [(0, LInv (RAppend 0%N v1)); (1, LInv (RAppend 0%N v2)); (0, LAcq); (1, LAcq); (0, LStep 0); (1, LStep 0);
   (0, LStep 0); (1, LStep 0); (0, LUnlock); (1, LUnlock); (0, LReturn); (1, LReturn)]%nat.
Example C103_without_mutex :
  option_map hist (exec (fun _ => Shared) RRead (rh_next (hdemo_env toyH)) (initial rhtree0 2) both_append) = Some
    [EInv 0 (RAppend 0 v1); EInv 1 (RAppend 0 v2); ERet 0 (Some HvOk); ERet 1 (Some HvOk)]%nat.
Proof. vm_compute. reflexivity. Qed.
