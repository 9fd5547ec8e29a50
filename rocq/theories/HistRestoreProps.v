(** Properties of trees restored from a proof (C82). *)
From Verif Require Import Base MerkleSpec MerkleModel TrieSpec TrieModel TrieProofModel.
From Verif Require Import HistFindProps TrieProps ToyHash.
From Verif Require Import HistSpec HistModel HistRepProofs HistRunProofs HistProps HistChopProps HistRestoreSpec HistRestoreModel HistRestoreRunProofs.
From stdpp Require Import gmap.
Open Scope N_scope.

(** Any calls on a family of trees, then GetProof of the key [k] of tree [j], then
    RestoreTreeFromProofs from that proof on any database [st2], which need not hold
    anything of the first: both succeed. If [k] is the last key, the restored tree answers
    appends, hashing, Expecting and reads from [k] on exactly as the list of all values does;
    if it is any key, hashing and reads of [k]. *)
Theorem C82_restore : forall E ops j k vs v calls st2, henv_ok E ->
  Forall (fun jo => hcall_key jo.2 < two64) ops -> Forall (fun o => hcall_key o < two64) calls ->
  let s := (hrun (hist_root (hH E)) ops hlogs0).1 in
  logs_ok (hH E) (hvisited (hist_root (hH E)) ops hlogs0) ->
  hl_logs s !! j = Some vs -> k < lenN vs -> vs !! N.to_nat k = Some v ->
  Forall (fun ws => lenN ws < two64 /\ Forall (fun w => length w = 32%nat) ws)
    (hvisited (hist_root (hH E)) (map (pair 0%nat) calls) (HLogs [vs] [])) ->
  (lenN vs = k + 1 /\ Forall (fun o => tail_call k o = true) calls) \/ Forall (fun o => key_call k o = true) calls ->
  exists p t t' c r p2, hmrun E ops hpool0 = Some (p, (hrun (hist_root (hH E)) ops hlogs0).2) /\
    hp_trees p !! j = Some t /\ get_proof E (hp_store p) t k = (t', Some (v, c)) /\
    restore_tree E st2 k v c = Some r /\
    hmrun E (map (pair 0%nat) calls) (HPool st2 [r] []) =
      Some (p2, (hrun (hist_root (hH E)) (map (pair 0%nat) calls) (HLogs [vs] [])).2).
Proof.
  intros E ops j k vs v calls st2 HE Hk1 Hk2 s [Hl Hv Hi Hn] Hj Hk Hkv Hvis Hc. set (H := hH E) in *.
  set (V := hvisited (hist_root H) ops hlogs0) in *.
  assert (forall ws x, ws ∈ V -> x ∈ hist_inputs H ws -> x ∈ flat_map (hist_inputs H) V) as Hin.
  { intros ws x Hvs Hx. apply elem_of_list_In, in_flat_map. exists ws. by rewrite <- !elem_of_list_In. }
  assert (forall ws, ws ∈ V -> Forall (fun v => length v = 32%nat) ws) as G1 by (intros ws Hvs; by apply (proj1 (Forall_forall _ _) Hv)).
  assert (forall ws, ws ∈ V -> lenN ws < two64) as G2 by (intros ws Hvs; by apply (proj1 (Forall_forall _ _) Hl)).
  assert (forall ws ws' x y, ws ∈ V -> ws' ∈ V -> x ∈ hist_inputs H ws -> y ∈ hist_inputs H ws' -> H x = H y -> x = y) as G3.
  { intros ws ws' x y Hvs Hvs' Hx Hy He. exact (Hi x y (Hin ws x Hvs Hx) (Hin ws' y Hvs' Hy) He). }
  assert (forall ws ws' v x, ws ∈ V -> ws' ∈ V -> v ∈ ws -> x ∈ hist_inputs H ws' -> v <> H x) as G4.
  { intros ws ws' w x Hvs Hvs' Hv' Hx. exact (Hn ws w x Hvs Hv' (Hin ws' x Hvs' Hx)). }
  destruct (run_ok E HE (fun ws => ws ∈ V) G1 G2 G3 G4 ops hpool0 hlogs0) as (p & Hp & Hprep).
  { split; [|constructor]. cbn. constructor; [|constructor]. split; [|done].
    unfold V. destruct ops; cbn [hvisited hlogs0 hl_logs]; apply elem_of_app; left; by left. }
  { exact Hk1. }
  { done. }
  destruct Hprep as [Hpt _]. fold H s in Hpt.
  destruct (Forall2_lookup_r _ _ _ _ _ Hpt Hj) as (t & Htj & Hrep).
  destruct Hrep as [HgV Hrep].
  assert (hget vs k = Some v) as Hget by (unfold hget; by rewrite (proj2 (N.ltb_lt _ _) Hk)).
  destruct (restore_ok E HE (fun ws => ws ∈ V) G1 G2 G3 G4 (hp_store p) t vs k v st2 HgV Hrep Hget) as (t' & c & r & Hpr & Hr & Hex & Htail).
  destruct Hc as [[Hlast Hc]|Hc].
  - destruct (Htail true (fun _ => Hlast)) as (st' & r' & Hrel & Hrep').
    destruct (part_run E HE (fun i => (N.to_nat k <= i)%nat) true (N.to_nat k) st2 st' (fun i => iff_refl _) calls r r' vs) as (p2 & Hrun).
    + exact Hrel.
    + intros _. pose proof Hrep' as [He _]. rewrite Hex, He. split; [by rewrite Hlast|]. unfold lenN in Hk. lia.
    + exact Hrep'.
    + rewrite N2Nat.id. apply Forall_and. split; [exact Hc|exact Hk2].
    + exact Hvis.
    + exists p, t, t', c, r, p2. split_and!; [done..|exact Hrun].
  - destruct (Htail false ltac:(done)) as (st' & r' & Hrel & Hrep').
    destruct (part_run E HE (fun i => i = N.to_nat k) false (N.to_nat k) st2 st' (fun i => iff_refl _) calls r r' vs) as (p2 & Hrun).
    + exact Hrel.
    + done.
    + exact Hrep'.
    + rewrite N2Nat.id. apply Forall_and. split; [exact Hc|exact Hk2].
    + exact Hvis.
    + exists p, t, t', c, r, p2. split_and!; [done..|exact Hrun].
Qed.
Print Assumptions C82_restore.

(** The root and the value alone, from the proof of any key; and from the proof of the last
    key the history goes on: every further list of values is accepted and the root is the
    one of the whole list. *)
Definition append_calls (k : N) (ws : list (list N)) : list hcall := map snd (hist_appends k ws).
Lemma append_calls_eq ws : forall k, map (pair 0%nat) (append_calls k ws) = hist_appends k ws.
Proof. unfold append_calls. induction ws as [|w ws IH]; intros k; [done|]. cbn [hist_appends map snd]. f_equal. apply IH. Qed.
Lemma visited_extend root ws : forall vs k n, k = lenN vs -> Forall (fun w => length w = 32%nat) (vs ++ ws) -> (length (vs ++ ws) <= n)%nat ->
  Forall (fun x => (length x <= n)%nat /\ Forall (fun w => length w = 32%nat) x) (hvisited root (hist_appends k ws ++ [(0%nat, HHash)]) (HLogs [vs] [])).
Proof.
  induction ws as [|w ws IH]; intros vs k n -> H32 Hn.
  - rewrite app_nil_r in *. cbn. by repeat constructor.
  - cbn [hist_appends app hvisited hl_logs]. constructor.
    + apply Forall_app in H32 as [? ?]. rewrite app_length in Hn. split; [lia|done].
    + cbn [hstep hl_logs hl_saved]. change ([vs] !! 0%nat) with (Some vs). cbv iota.
      assert (length w = 32%nat) as Hw by (apply Forall_app in H32 as [_ H32]; by apply Forall_inv in H32).
      rewrite N.eqb_refl, bool_decide_eq_false_2 by (intros ->; done). cbn [andb negb fst]. change (<[0%nat:=vs ++ [w]]> [vs]) with [vs ++ [w]].
      apply IH; [unfold lenN; rewrite app_length; cbn [length]; lia| |]; rewrite <- app_assoc; cbn [app]; done.
Qed.
Theorem C82_extend : forall E ops j k vs v ws st2, henv_ok E ->
  Forall (fun jo => hcall_key jo.2 < two64) ops ->
  let s := (hrun (hist_root (hH E)) ops hlogs0).1 in
  logs_ok (hH E) (hvisited (hist_root (hH E)) ops hlogs0) ->
  hl_logs s !! j = Some vs -> lenN vs = k + 1 -> vs !! N.to_nat k = Some v ->
  Forall (fun w => length w = 32%nat) ws -> lenN vs + lenN ws < two64 ->
  exists p t t' c r p2, hmrun E ops hpool0 = Some (p, (hrun (hist_root (hH E)) ops hlogs0).2) /\
    hp_trees p !! j = Some t /\ get_proof E (hp_store p) t k = (t', Some (v, c)) /\
    restore_tree E st2 k v c = Some r /\
    hmrun E (hist_appends (k + 1) ws ++ [(0%nat, HHash)]) (HPool st2 [r] []) =
      Some (p2, replicate (length ws) HvOk ++ [HvHash (hist_root (hH E) (vs ++ ws))]).
Proof.
  intros E ops j k vs v ws st2 HE Hk1 s Hlo Hj Hlast Hkv Hws Hlen.
  assert (Forall (fun w => length w = 32%nat) vs) as Hvs.
  { assert (vs ∈ hl_logs s) as Hin by (by eapply elem_of_list_lookup_2). destruct Hlo as [_ Hv _ _]. rewrite Forall_forall in Hv. apply Hv.
    unfold s in Hin. clear -Hin. revert Hin. generalize hlogs0. induction ops as [|o ops IH]; intros s0 Hin; cbn [hrun fst hvisited] in *.
    - apply elem_of_app. by left.
    - apply elem_of_app. right. apply IH. destruct (hstep _ s0 o) as [s1 b]. cbn [fst]. by destruct (hrun _ ops s1). }
  destruct (C82_restore E ops j k vs v (append_calls (k + 1) ws ++ [HHash]) st2 HE Hk1) as (p & t & t' & c & r & p2 & H1 & H2 & H3 & H4 & H5).
  - apply Forall_app. split; [|by repeat constructor]. unfold append_calls. apply Forall_map.
    eapply Forall_impl; [apply (keys_appends ws (k + 1)); lia|]. by intros x [_ ?].
  - exact Hlo.
  - exact Hj.
  - lia.
  - exact Hkv.
  - rewrite map_app, append_calls_eq. eapply Forall_impl; [apply (visited_extend _ ws vs (k + 1) (length (vs ++ ws))); [lia| |done]|].
    + by apply Forall_app.
    + intros x [Hx ?]. split; [|done]. rewrite app_length in Hx. unfold lenN in *. lia.
  - left. split; [done|]. apply Forall_app. split; [|by repeat constructor]. clear. generalize (k + 1). intros m. revert m.
    induction ws as [|w ws IH]; intros m; [constructor|]. unfold append_calls. cbn [hist_appends map snd]. constructor; [done|apply IH].
  - exists p, t, t', c, r, p2. split_and!; [exact H1|exact H2|exact H3|exact H4|]. rewrite map_app, append_calls_eq in H5. cbn [map] in H5. rewrite H5.
    f_equal. f_equal. rewrite hrun_app, hrun_appends.
    + done.
    + eapply Forall_impl; [exact Hws|]. intros w Hw ->. done.
    + lia.
Qed.
Print Assumptions C82_extend.

(* ------------------------------------------------------------ findings *)
Definition restore_values (n : nat) : list (list N) := map (fun i => replicate 32 (N.of_nat i + 1)) (seq 0 n).
(** [n] values, the tree restored from the proof of [k] on an empty database, then calls. *)
Definition restored_run (n : nat) (k : N) (calls : list hcall) : option (list hobs) :=
  let E := hdemo_env exH in
  match hmrun E (hist_appends 0 (restore_values n)) hpool0 with
  | Some (p, _) =>
      match hp_trees p !! 0%nat with
      | Some t => match get_proof E (hp_store p) t k with
                  | (_, Some (v, c)) =>
                      match restore_tree E ∅ k v c with
                      | Some r => match hmrun E (map (pair 0%nat) calls) (HPool ∅ [r] []) with Some (_, l) => Some l | None => None end
                      | None => None end
                  | _ => None end
      | None => None end
  | None => None end.

(** Nothing is compared with a root: with the proof of another value the tree is built too,
    and has another root. *)
Theorem C82_unchecked_refuted :
  henv_ok (hdemo_env exH) /\
  exists p t t' v c r obs, hmrun (hdemo_env exH) (hist_appends 0 (restore_values 3)) hpool0 = Some (p, obs) /\
    hp_trees p !! 0%nat = Some t /\ get_proof (hdemo_env exH) (hp_store p) t 2 = (t', Some (v, c)) /\
    v <> replicate 32 9 /\ restore_tree (hdemo_env exH) ∅ 2 (replicate 32 9) c = Some r.
Proof.
  split; [apply hdemo_env_ok, exH_len|].
  set (m := hmrun (hdemo_env exH) (hist_appends 0 (restore_values 3)) hpool0).
  assert (match m with Some (p, _) => match hp_trees p !! 0%nat with Some t => match get_proof (hdemo_env exH) (hp_store p) t 2 with
    | (_, Some (v, c)) => bool_decide (v = replicate 32 9) = false /\ match restore_tree (hdemo_env exH) ∅ 2 (replicate 32 9) c with Some _ => True | None => False end
    | _ => False end | None => False end | None => False end) as Hm by (vm_compute; done).
  destruct m as [[p obs]|]; [|done]. destruct (hp_trees p !! 0%nat) as [t|] eqn:Ht; [|done].
  destruct (get_proof (hdemo_env exH) (hp_store p) t 2) as [t' [[v c]|]] eqn:Hp; [|done]. destruct Hm as [Hv Hm].
  destruct (restore_tree (hdemo_env exH) ∅ 2 (replicate 32 9) c) as [r|] eqn:Hr; [|done].
  exists p, t, t', v, c, r, obs. apply bool_decide_eq_false in Hv. done.
Qed.
Print Assumptions C82_unchecked_refuted.

(** The other keys are not there, and Get says so without an error. *)
Theorem C82_other_key_refuted :
  restored_run 3 2 [HGet 0; HGet 1; HGet 2] = Some [HvVal None; HvVal None; HvVal (Some (replicate 32 3))].
Proof. vm_compute. reflexivity. Qed.
Print Assumptions C82_other_key_refuted.

(** From the proof of a key that is not the last, the tree expects the next key and takes a
    value for it although the history has one already: the value of key 2 was
    [replicate 32 3]. *)
Theorem C82_not_last_refuted :
  restored_run 3 1 [HExpecting; HAppend 2 (replicate 32 7); HGet 2] = Some [HvNum 2; HvOk; HvVal (Some (replicate 32 7))].
Proof. vm_compute. reflexivity. Qed.
Print Assumptions C82_not_last_refuted.

(** A Get of a key that the tree does not have spoils it: with 17 values and the tree
    restored from the last key, HashValue works after an append, but not if key 0 was asked
    for before. *)
Theorem C82_get_spoils_refuted :
  (exists h, restored_run 17 16 [HAppend 17 (replicate 32 7); HHash] = Some [HvOk; HvHash h]) /\
  restored_run 17 16 [HGet 0; HAppend 17 (replicate 32 7); HHash] = Some [HvVal None; HvOk; HvErr].
Proof. split; [eexists|]; vm_compute; reflexivity. Qed.
Print Assumptions C82_get_spoils_refuted.

(** CommitAndHash of a restored tree returns the root, but the root cannot be opened with
    the check of the preceding values. *)
Theorem C82_commit_refuted :
  exists h, restored_run 3 2 [HCommit; HOpen 0 true] = Some [HvHash h; HvErr].
Proof. eexists. vm_compute. reflexivity. Qed.
Print Assumptions C82_commit_refuted.

(* ------------------------------------------------------------ the hypotheses can be met *)
Definition restore_pre : list (nat * hcall) := hist_appends 0 chop_values ++ [(0%nat, HClone); (1%nat, HAppend 3 (replicate 32 4))].
Definition restore_calls : list hcall := [HHash; HAppend 4 (replicate 32 5); HGet 4; HGet 3; HAppend 4 (replicate 32 5); HExpecting; HHash].
Example C82_example : henv_ok (hdemo_env idealH) /\
  let s := (hrun (hist_root idealH) restore_pre hlogs0).1 in
  let vs := chop_values ++ [replicate 32 4] in
  Forall (fun jo => hcall_key jo.2 < two64) restore_pre /\ Forall (fun o => hcall_key o < two64) restore_calls /\
  logs_ok idealH (hvisited (hist_root idealH) restore_pre hlogs0) /\
  hl_logs s !! 1%nat = Some vs /\ lenN vs = 3 + 1 /\ vs !! 3%nat = Some (replicate 32 4) /\
  Forall (fun ws => lenN ws < two64 /\ Forall (fun w => length w = 32%nat) ws)
    (hvisited (hist_root idealH) (map (pair 0%nat) restore_calls) (HLogs [vs] [])) /\
  Forall (fun o => tail_call 3 o = true) restore_calls /\ Forall (fun o => key_call 1 o = true) [HGet 1; HHash] /\
  (hrun (hist_root idealH) (map (pair 0%nat) restore_calls) (HLogs [vs] [])).2 =
    [HvHash (hist_root idealH vs); HvOk; HvVal (Some (replicate 32 5)); HvVal (Some (replicate 32 4)); HvErr; HvNum 5;
     HvHash (hist_root idealH (vs ++ [replicate 32 5]))].
Proof.
  split; [exact hdemo_ok|]. cbv zeta.
  split; [repeat constructor|]. split; [repeat constructor|]. split.
  { apply (logs_ok_ideal _ (0 + length restore_pre)); [|reflexivity].
    apply visited_plain; [|constructor; [split; [done|constructor]|constructor]|constructor]. repeat constructor; cbn; discriminate. }
  split; [reflexivity|]. split; [reflexivity|]. split; [reflexivity|]. split.
  { cbn. repeat (constructor; [split; [reflexivity|by repeat constructor]|]). constructor. }
  split; [by repeat constructor|]. split; [by repeat constructor|]. reflexivity.
Qed.
