(** Properties of the revertable history tree (C80). *)
From Verif Require Import Base MerkleSpec MerkleModel TrieSpec TrieModel TrieProofModel TrieProps ToyHash.
From Verif Require Import HistSpec HistModel HistRepProofs HistRunProofs HistProps HistFindProps RevHistSpec RevHistModel RevHistProofs.
From stdpp Require Import gmap.
Open Scope N_scope.

(** What is asked of a run, as in HistProps.v: keys are uint64, fewer than 2^64 values of
    32 bytes, no collision on the strings hashed, no value that is one of these hashes. *)
Record rev_ok (H : list N -> list N) (cs : list rhcall) : Prop := RevOk {
  ro_keys : Forall (fun c => rcall_key c < two64) cs;
  ro_len : Forall (fun vs => lenN vs < two64) (rvisited (hist_root H) cs rlogs0);
  ro_val : Forall (Forall (fun v => length v = 32%nat)) (rvisited (hist_root H) cs rlogs0);
  ro_inj : inj_on H (flat_map (hist_inputs H) (rvisited (hist_root H) cs rlogs0));
  ro_new : forall vs v x, vs ∈ rvisited (hist_root H) cs rlogs0 -> v ∈ vs ->
             x ∈ flat_map (hist_inputs H) (rvisited (hist_root H) cs rlogs0) -> v <> H x;
}.

(** Any calls, restarts included, answer as a committed and a working list do: without
    panic, reads see the committed list, PreHashValue and PreCommit the working list, Commit
    makes the working list the committed one, Rollback forgets it, and every root handed out
    by PreCommit or CommitAndHash can be opened later and holds the list it stood for. *)
Theorem C80_refines : forall E cs, henv_ok E -> rev_ok (hH E) cs ->
  exists r, rhrun E cs rhtree0 = Some (r, (rrun (hist_root (hH E)) cs rlogs0).2).
Proof.
  intros E cs HE [Hk Hl Hv Hi Hn]. set (H := hH E) in *. set (V := rvisited (hist_root H) cs rlogs0) in *.
  assert (forall vs x, vs ∈ V -> x ∈ hist_inputs H vs -> x ∈ flat_map (hist_inputs H) V) as Hin.
  { intros vs x Hvs Hx. apply elem_of_list_In, in_flat_map. exists vs. by rewrite <- !elem_of_list_In. }
  destruct (rrun_ok E HE (fun vs => vs ∈ V)) with (cs := cs) (r := rhtree0) (s := rlogs0) as (p & Hp & _).
  - intros vs Hvs. by apply (proj1 (Forall_forall _ _) Hv).
  - intros vs Hvs. by apply (proj1 (Forall_forall _ _) Hl).
  - intros vs vs' x y Hvs Hvs' Hx Hy He. exact (Hi x y (Hin vs x Hvs Hx) (Hin vs' y Hvs' Hy) He).
  - intros vs vs' v x Hvs Hvs' Hv' Hx. exact (Hn vs v x Hvs Hv' (Hin vs' x Hvs' Hx)).
  - split; [|split; [done|constructor]]. exists (HTree 0 None). split; [done|]. split; [|split; [done|by left]].
    unfold V. destruct cs; cbn [rvisited]; by left.
  - exact Hk.
  - done.
  - eauto.
Qed.
Print Assumptions C80_refines.

Lemma rrun_app root a : forall b s, rrun root (a ++ b) s =
  let '(s1, x) := rrun root a s in let '(s2, y) := rrun root b s1 in (s2, x ++ y).
Proof.
  induction a as [|o a IH]; intros b s; cbn [app rrun]; [by destruct (rrun root b s)|].
  destruct (rstep root s o) as [s1 x]. rewrite IH. destruct (rrun root a s1) as [s2 y]. by destruct (rrun root b s2).
Qed.
Lemma rhrun_app E a : forall b r, rhrun E (a ++ b) r =
  match rhrun E a r with None => None | Some (r1, x) => match rhrun E b r1 with None => None | Some (r2, y) => Some (r2, x ++ y) end end.
Proof.
  induction a as [|o a IH]; intros b r; cbn [app rhrun]; [by destruct (rhrun E b r) as [[??]|]|].
  destruct (rhstep E r o) as [[r1 x]|]; [|done]. rewrite IH. destruct (rhrun E a r1) as [[r2 y]|]; [|done].
  by destruct (rhrun E b r2) as [[??]|].
Qed.
Lemma rrun_length root cs : forall s, length (rrun root cs s).2 = length cs.
Proof.
  induction cs as [|c cs IH]; intros s; cbn [rrun]; [done|]. destruct (rstep root s c) as [s1 b].
  specialize (IH s1). destruct (rrun root cs s1) as [s2 bs]. cbn [snd length] in *. by rewrite IH.
Qed.

(** Calls that do not decide about the working list. *)
Definition working_call (c : rhcall) : bool :=
  match c with RCommit | RCommitHash | RRestart _ => false | _ => true end.
Definition reading_call (c : rhcall) : bool :=
  match c with RExpecting | RHash | RGet _ | RProof _ => true | _ => false end.
Lemma working_done root cs : Forall (fun c => working_call c = true) cs -> forall s, rs_done (rrun root cs s).1 = rs_done s.
Proof.
  induction 1 as [|c cs Hc Hcs IH]; intros s; cbn [rrun]; [done|].
  assert (rs_done (rstep root s c).1 = rs_done s) as E by (destruct c; try done; cbn [rstep]; by destruct (_ && _)).
  destruct (rstep root s c) as [s1 b]. specialize (IH s1). destruct (rrun root cs s1) as [s2 bs]. cbn [fst] in *. congruence.
Qed.

(** Appends, PreCommits, collapses and rollbacks are not seen by reads: a read answers as
    it would have before them. *)
Theorem C80_isolation : forall E cs ws c, henv_ok E -> rev_ok (hH E) (cs ++ ws ++ [c]) -> rev_ok (hH E) (cs ++ [c]) ->
  Forall (fun c => working_call c = true) ws -> reading_call c = true ->
  exists r1 r2 x y a, rhrun E (cs ++ ws ++ [c]) rhtree0 = Some (r1, x ++ [a]) /\ rhrun E (cs ++ [c]) rhtree0 = Some (r2, y ++ [a]).
Proof.
  intros E cs ws c HE H1 H2 Hw Hc. destruct (C80_refines E _ HE H1) as [r1 R1]. destruct (C80_refines E _ HE H2) as [r2 R2].
  rewrite R1, R2, app_assoc, !rrun_app. destruct (rrun _ cs rlogs0) as [s x] eqn:Es.
  pose proof (working_done (hist_root (hH E)) ws Hw s) as Hd. destruct (rrun _ ws s) as [s1 y] eqn:Ew. cbn [fst] in Hd.
  cbn [rrun]. exists r1, r2, (x ++ y), x.
  destruct c; try discriminate Hc; cbn [rstep snd]; rewrite Hd; eexists; done.
Qed.
Print Assumptions C80_isolation.

(** Rolling back makes the tree behave as if the appends since the last commit had not been
    made: all later answers are the same, except that roots handed out by PreCommit count
    for restarts, so there are no restarts in what follows. *)
Definition no_restart (c : rhcall) : bool := match c with RRestart _ => false | _ => true end.
Lemma run_same_lists root cs : Forall (fun c => no_restart c = true) cs -> forall d w s1 s2,
  (rrun root cs (RLogs d w s1)).2 = (rrun root cs (RLogs d w s2)).2.
Proof.
  induction 1 as [|c cs Hc Hcs IH]; intros d w s1 s2; cbn [rrun]; [done|].
  assert (exists d' w' t1 t2 b, rstep root (RLogs d w s1) c = (RLogs d' w' t1, b) /\ rstep root (RLogs d w s2) c = (RLogs d' w' t2, b))
    as (d' & w' & t1 & t2 & b & -> & ->).
  { destruct c; try discriminate Hc; cbn [rstep]; unfold working; cbn [rs_done rs_work rs_saved].
    all: try destruct (_ && _); eexists _, _, _, _, _; split; reflexivity. }
  specialize (IH d' w' t1 t2). destruct (rrun root cs (RLogs d' w' t1)), (rrun root cs (RLogs d' w' t2)). cbn [snd] in *. by rewrite IH.
Qed.
Theorem C80_rollback : forall E cs ws zs, henv_ok E ->
  rev_ok (hH E) (cs ++ (ws ++ [RRollback]) ++ zs) -> rev_ok (hH E) (cs ++ [RRollback] ++ zs) ->
  Forall (fun c => working_call c = true) ws -> Forall (fun c => no_restart c = true) zs ->
  exists r1 r2 x y z, length z = length zs /\
    rhrun E (cs ++ (ws ++ [RRollback]) ++ zs) rhtree0 = Some (r1, x ++ z) /\ rhrun E (cs ++ [RRollback] ++ zs) rhtree0 = Some (r2, y ++ z).
Proof.
  intros E cs ws zs HE H1 H2 Hw Hz. destruct (C80_refines E _ HE H1) as [r1 R1]. destruct (C80_refines E _ HE H2) as [r2 R2].
  rewrite R1, R2, !rrun_app. destruct (rrun _ cs rlogs0) as [s x] eqn:Es. rewrite <- app_assoc, !rrun_app.
  pose proof (working_done (hist_root (hH E)) ws Hw s) as Hd. destruct (rrun _ ws s) as [s1 y] eqn:Ew. cbn [fst] in Hd.
  cbn [app rrun rstep]. rewrite Hd. pose proof (run_same_lists (hist_root (hH E)) zs Hz (rs_done s) None (rs_saved s1) (rs_saved s)) as Eq.
  pose proof (rrun_length (hist_root (hH E)) zs (RLogs (rs_done s) None (rs_saved s1))) as Hlen.
  destruct (rrun _ zs (RLogs (rs_done s) None (rs_saved s1))) as [sa za], (rrun _ zs (RLogs (rs_done s) None (rs_saved s))) as [sb zb].
  cbn [snd] in *. subst zb. exists r1, r2, (x ++ y ++ [HvOk]), (x ++ [HvOk]), za. rewrite <- !app_assoc. done.
Qed.
Print Assumptions C80_rollback.

(** Without a tree: appends are refused, reads answer nothing, but Get and Commit panic. *)
Theorem C80_nil_refuted : forall E st k v,
  let r := RHTree st None None [] in
  rhstep E r (RAppend k v) = Some (r, HvErr) /\ rhstep E r RExpecting = Some (r, HvNum (two64 - 1)) /\
  rhstep E r RHash = Some (r, HvHash []) /\ rhstep E r (RProof k) = Some (r, HvProof None) /\
  rhstep E r (RGet k) = None /\ rhstep E r RCommit = None /\ rhstep E r RCommitHash = None.
Proof. intros. done. Qed.
Print Assumptions C80_nil_refuted.

(** PreCommit of a tree that was handed over with uncommitted values and has had no append
    since returns a root without saving it: the root cannot be opened. *)
Definition unsaved_tree : htree := (append (hdemo_env exH) ∅ (HTree 0 None) 0 (replicate 32 7)).1.
Theorem C80_unsaved_refuted :
  henv_ok (hdemo_env exH) /\
  exists r h, rhrun (hdemo_env exH) [RGet 0; RPreCommit; RRestart 0] (RHTree ∅ (Some unsaved_tree) None []) =
    Some (r, [HvVal (Some (replicate 32 7)); HvHash h; HvErr]).
Proof.
  split; [apply hdemo_env_ok, exH_len|].
  assert (match rhrun (hdemo_env exH) [RGet 0; RPreCommit; RRestart 0] (RHTree ∅ (Some unsaved_tree) None []) with
          | Some (_, [a; HvHash _; HvErr]) => a = HvVal (Some (replicate 32 7)) | _ => False end) as H by (vm_compute; reflexivity).
  destruct (rhrun _ _ _) as [[r l]|]; [|done]. destruct l as [|a [|b [|c [|]]]]; try done; [destruct b; done| |destruct b, c; done].
  destruct b; try done. destruct c; try done. subst a. by eexists _, _.
Qed.
Print Assumptions C80_unsaved_refuted.

(* ------------------------------------------------------------ the hypotheses can be met *)
Definition plain_rcall (c : rhcall) : Prop :=
  match c with RAppend _ v => length v = 32%nat /\ last v <> Some 0 | _ => True end.
Lemma rstep_plain root s c n : plain_rcall c -> plain_list n (rs_done s) -> plain_list n (working s) -> Forall (plain_list n) (rs_saved s) ->
  plain_list (S n) (rs_done (rstep root s c).1) /\ plain_list (S n) (working (rstep root s c).1) /\ Forall (plain_list (S n)) (rs_saved (rstep root s c).1).
Proof.
  intros Hc Hd Hw Hs. assert (up : forall vs, plain_list n vs -> plain_list (S n) vs) by (intros vs [? ?]; split; [lia|done]).
  assert (Forall (plain_list (S n)) (rs_saved s)) as Hs' by (eapply Forall_impl; [exact Hs|exact up]).
  assert (Forall (plain_list (S n)) (rs_saved s ++ [working s])) as Hs'' by (apply Forall_app; split; [done|]; constructor; [by apply up|constructor]).
  destruct c as [k v| | | | | |k|k| |k|k| |i]; cbn [rstep fst]; try (split; [by apply up|]; split; [by apply up|done]).
  - destruct (_ && _); cbn [fst rs_done working rs_work rs_saved]; (split; [by apply up|]; split; [|done]); [|by apply up].
    destruct Hw as [Hw1 Hw2]. split; [rewrite app_length; cbn [length]; lia|]. apply Forall_app. split; [done|]. constructor; [exact Hc|constructor].
  - destruct (rs_saved s !! i) as [vs|] eqn:Ei; cbn [fst rs_done working rs_work rs_saved]; [|split; [by apply up|]; split; [by apply up|done]].
    rewrite Forall_lookup in Hs. pose proof (up _ (Hs i vs Ei)). split; [done|]. split; [done|done].
Qed.
Lemma rvisited_plain root cs : forall s n, Forall plain_rcall cs ->
  plain_list n (rs_done s) -> plain_list n (working s) -> Forall (plain_list n) (rs_saved s) ->
  Forall (plain_list (n + length cs)) (rvisited root cs s).
Proof.
  induction cs as [|c cs IH]; intros s n Hc Hd Hw Hs; cbn [rvisited length].
  - rewrite Nat.add_0_r. constructor; [done|constructor].
  - inversion Hc; subst. constructor; [destruct Hw; split; [lia|done]|].
    destruct (rstep_plain root s c n) as (G1&G2&G3); [done|done|done|done|].
    specialize (IH _ (S n) ltac:(done) G1 G2 G3). by rewrite Nat.add_succ_r, <- Nat.add_succ_l.
Qed.
Example rev_ok_ideal cs : Forall (fun c => rcall_key c < two64 /\ plain_rcall c) cs -> lenN cs < two64 -> rev_ok idealH cs.
Proof.
  intros Ho Hl. apply Forall_and in Ho as [Hk Hc].
  assert (Forall (plain_list (length cs)) (rvisited (hist_root idealH) cs rlogs0)) as Hp.
  { change (length cs) with (0 + length cs)%nat. apply rvisited_plain; [done|split; [done|constructor]|split; [done|constructor]|constructor]. }
  split; [done| | |apply idealH_inj|].
  - eapply Forall_impl; [exact Hp|]. intros vs [Hn _]. unfold lenN in *. lia.
  - eapply Forall_impl; [exact Hp|]. intros vs [_ Hf]. eapply Forall_impl; [exact Hf|]. by intros v [? _].
  - intros vs v x Hvs Hv _ ->. rewrite Forall_forall in Hp. destruct (Hp vs Hvs) as [_ Hf]. rewrite Forall_forall in Hf.
    destruct (Hf _ Hv) as [_ Hne]. by rewrite ideal_last in Hne.
Qed.
(** Commit one value, append and precommit a second, roll back, append another, restart on
    the root of the precommit. *)
Definition rev_demo : list rhcall :=
  [RAppend 0 (replicate 32 1); RCommitHash; RAppend 1 (replicate 32 2); RPreCommit; RGet 1; RRollback;
   RAppend 1 (replicate 32 3); RCommit; RGet 1; RRestart 1; RGet 1].
Example C80_example : rev_ok idealH rev_demo /\ henv_ok (hdemo_env idealH) /\
  (rrun (hist_root idealH) rev_demo rlogs0).2 !! 4%nat = Some (HvVal None) /\
  (rrun (hist_root idealH) rev_demo rlogs0).2 !! 8%nat = Some (HvVal (Some (replicate 32 3))) /\
  (rrun (hist_root idealH) rev_demo rlogs0).2 !! 10%nat = Some (HvVal (Some (replicate 32 2))).
Proof.
  split; [|split; [exact hdemo_ok|done]]. apply rev_ok_ideal; [|reflexivity].
  repeat constructor; cbn; try (vm_compute; reflexivity); discriminate.
Qed.
