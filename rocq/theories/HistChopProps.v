(** Properties of Chop (C81). *)
From Verif Require Import Base MerkleSpec MerkleModel TrieSpec TrieModel TrieProofModel.
From Verif Require Import HistFindProps TrieProps ToyHash.
From Verif Require Import HistSpec HistModel HistRepProofs HistRunProofs HistProps HistChopSpec HistChopModel HistChopProofs HistChopRunProofs.
From stdpp Require Import gmap.
Open Scope N_scope.

(* ------------------------------------------------------------ hypotheses *)
(** Asked of all the lists reached before and after the Chop, as in C25. *)
Record logs_ok (H : list N -> list N) (V : list (list (list N))) : Prop := LogsOk {
  lo_len : Forall (fun vs => lenN vs < two64) V;
  lo_val : Forall (Forall (fun v => length v = 32%nat)) V;
  lo_inj : inj_on H (flat_map (hist_inputs H) V);
  lo_new : forall vs v x, vs ∈ V -> v ∈ vs -> x ∈ flat_map (hist_inputs H) V -> v <> H x;
}.

(* ------------------------------------------------------------ C81 *)

(** Any calls on a family of trees, then a Chop of tree [j] at key [k], then calls as in
    [after_chop]: the tree had been committed as it is; Chop succeeds exactly if [k] is in
    the tree; the new tree answers as if only the values up to [k] had been appended, and
    all the others as if there had been no Chop. *)
Theorem C81_chop : forall E ops j k post, henv_ok E -> k < two64 ->
  Forall (fun jo => hcall_key jo.2 < two64) (ops ++ post) ->
  let s := (hrun (hist_root (hH E)) ops hlogs0).1 in
  logs_ok (hH E) (hvisited (hist_root (hH E)) ops hlogs0 ++ hvisited (hist_root (hH E)) post (hchop s j k).1) ->
  (forall vs, hl_logs s !! j = Some vs -> k < lenN vs -> vs ∈ hl_saved s) ->
  after_chop s j k post ->
  exists p p1 p2, hmrun E ops hpool0 = Some (p, (hrun (hist_root (hH E)) ops hlogs0).2) /\
    hmchop E p j k = (p1, (hchop s j k).2) /\
    hmrun E post p1 = Some (p2, (hrun (hist_root (hH E)) post (hchop s j k).1).2).
Proof.
  intros E ops j k post HE Hk Hkeys s [Hl Hv Hi Hn] Hsv Hpost. set (H := hH E) in *. apply Forall_app in Hkeys as [Hk1 Hk2].
  set (V := hvisited (hist_root H) ops hlogs0 ++ hvisited (hist_root H) post (hchop s j k).1) in *.
  assert (forall vs x, vs ∈ V -> x ∈ hist_inputs H vs -> x ∈ flat_map (hist_inputs H) V) as Hin.
  { intros vs x Hvs Hx. apply elem_of_list_In, in_flat_map. exists vs. by rewrite <- !elem_of_list_In. }
  assert (forall vs, vs ∈ V -> Forall (fun v => length v = 32%nat) vs) as G1 by (intros vs Hvs; by apply (proj1 (Forall_forall _ _) Hv)).
  assert (forall vs, vs ∈ V -> lenN vs < two64) as G2 by (intros vs Hvs; by apply (proj1 (Forall_forall _ _) Hl)).
  assert (forall vs vs' x y, vs ∈ V -> vs' ∈ V -> x ∈ hist_inputs H vs -> y ∈ hist_inputs H vs' -> H x = H y -> x = y) as G3.
  { intros vs vs' x y Hvs Hvs' Hx Hy He. exact (Hi x y (Hin vs x Hvs Hx) (Hin vs' y Hvs' Hy) He). }
  assert (forall vs vs' v x, vs ∈ V -> vs' ∈ V -> v ∈ vs -> x ∈ hist_inputs H vs' -> v <> H x) as G4.
  { intros vs vs' v x Hvs Hvs' Hv' Hx. exact (Hn vs v x Hvs Hv' (Hin vs' x Hvs' Hx)). }
  destruct (run_ok E HE (fun vs => vs ∈ V) G1 G2 G3 G4 ops hpool0 hlogs0) as (p & Hp & Hprep).
  - split; [|constructor]. cbn. constructor; [|constructor]. split; [|done].
    unfold V. apply elem_of_app. left. destruct ops; cbn [hvisited hlogs0 hl_logs]; apply elem_of_app; left; by left.
  - exact Hk1.
  - intros vs Hvs. unfold V. apply elem_of_app. by left.
  - destruct (hmchop_ok E HE (fun vs => vs ∈ V) G1 G2 G3 G4 p s j k post Hprep Hk Hsv Hpost Hk2) as (p1 & p2 & H1 & H2).
    + intros vs Hvs. unfold V. apply elem_of_app. by right.
    + exists p, p1, p2. done.
Qed.
Print Assumptions C81_chop.

(** Spelled out for one call on the new tree. *)
Theorem C81_one_call : forall E ops j k o vs, henv_ok E ->
  Forall (fun jo => hcall_key jo.2 < two64) ops -> hcall_key o < two64 -> light_call o = true ->
  let s := (hrun (hist_root (hH E)) ops hlogs0).1 in
  let n := length (hl_logs s) in
  let ws := take (N.to_nat k + 1) vs in
  hl_logs s !! j = Some vs -> k < lenN vs -> vs ∈ hl_saved s ->
  logs_ok (hH E) (hvisited (hist_root (hH E)) ops hlogs0 ++ hvisited (hist_root (hH E)) [(n, o)] (hchop s j k).1) ->
  exists p p1 p2, hmrun E ops hpool0 = Some (p, (hrun (hist_root (hH E)) ops hlogs0).2) /\ hmchop E p j k = (p1, HvOk) /\
    hmstep E p1 (n, o) = Some (p2,
      match o with
      | HGet i => HvVal (if i <=? k then vs !! N.to_nat i else None)
      | HExpecting => HvNum (k + 1)
      | HHash => HvHash (hist_root (hH E) ws)
      | HProof i => HvProof (if i <=? k then match vs !! N.to_nat i with
                                             | Some v => Some (v, Some (hist_root (hH E) ws), Some i) | None => None end else None)
      | HAppend i v => if (i =? k + 1) && negb (bool_decide (v = [])) then HvOk else HvErr
      | _ => HvOk
      end).
Proof.
  intros E ops j k o vs HE Hkeys Hko Hlc s n ws Hj Hk Hsv Hlo.
  assert (k < two64) as Hk64.
  { pose proof (lo_len _ _ Hlo) as Hl. rewrite Forall_app in Hl. destruct Hl as [_ Hl]. unfold hchop in Hl. rewrite Hj in Hl.
    rewrite (proj2 (N.ltb_lt _ _) Hk) in Hl. cbn [hvisited fst hl_logs] in Hl. rewrite !Forall_app in Hl. destruct Hl as [[Hl _] _].
    rewrite Forall_lookup in Hl. specialize (Hl j vs Hj). cbn in Hl. lia. }
  destruct (C81_chop E ops j k [(n, o)] HE Hk64) as (p & p1 & p2 & H1 & H2 & H3).
  - apply Forall_app. split; [done|]. by repeat constructor.
  - exact Hlo.
  - intros vs' Hvs' _. change (hl_logs s !! j = Some vs') in Hvs'. rewrite Hj in Hvs'. by injection Hvs' as <-.
  - unfold after_chop. fold s. rewrite Hj. intros _. left. repeat constructor. done.
  - fold s in H2, H3. unfold hchop in H2, H3. rewrite Hj, (proj2 (N.ltb_lt _ _) Hk) in H2, H3. cbn [fst snd] in H2, H3.
    exists p, p1, p2. split; [done|]. split; [done|]. cbn [hmrun] in H3. destruct (hmstep E p1 (n, o)) as [[q b]|]; [|done].
    injection H3 as -> H3. f_equal. f_equal.
    cbn [hrun hstep hl_logs hl_saved] in H3. unfold n in H3. rewrite list_lookup_middle in H3 by done. fold ws in H3.
    assert (lenN ws = k + 1) as Hlw by (unfold ws, lenN in *; rewrite take_length; lia).
    assert (forall i, hget ws i = if i <=? k then vs !! N.to_nat i else None) as Hget.
    { intros i. unfold hget. rewrite Hlw. destruct (N.leb_spec i k), (N.ltb_spec i (k + 1)); try lia; [|done]. unfold ws. apply lookup_take. lia. }
    destruct o as [i v|i| | |i| |i| |i chk]; try discriminate Hlc; cbn [snd] in H3; rewrite ?Hget, ?Hlw in H3.
    + destruct ((i =? k + 1) && _); cbn [snd] in H3; congruence.
    + congruence.
    + congruence.
    + congruence.
    + destruct (i <=? k); [|congruence]. congruence.
Qed.
Print Assumptions C81_one_call.

(** CommitAndHash of a tree just chopped returns its root but saves nothing: the root
    cannot be opened. *)
Definition chop_values : list (list N) := [replicate 32 1; replicate 32 2; replicate 32 3].
Theorem C81_commit_refuted :
  henv_ok (hdemo_env exH) /\
  exists p p1 p2 h obs, hmrun (hdemo_env exH) (hist_appends 0 chop_values ++ [(0%nat, HCommit)]) hpool0 = Some (p, obs) /\
    hmchop (hdemo_env exH) p 0 1 = (p1, HvOk) /\
    hmrun (hdemo_env exH) [(1%nat, HCommit); (1%nat, HOpen 1 true)] p1 = Some (p2, [HvHash h; HvErr]).
Proof.
  split; [apply hdemo_env_ok, exH_len|].
  set (r := hmrun (hdemo_env exH) (hist_appends 0 chop_values ++ [(0%nat, HCommit)]) hpool0).
  assert (match r with Some (p, _) => let '(p1, o) := hmchop (hdemo_env exH) p 0 1 in
            o = HvOk /\ match hmrun (hdemo_env exH) [(1%nat, HCommit); (1%nat, HOpen 1 true)] p1 with
                        | Some (_, [HvHash _; HvErr]) => True | _ => False end | None => False end) as Hr by (vm_compute; done).
  destruct r as [[p obs]|]; [|done]. destruct (hmchop (hdemo_env exH) p 0 1) as [p1 o] eqn:Hc. destruct Hr as [-> Hr].
  destruct (hmrun (hdemo_env exH) [(1%nat, HCommit); (1%nat, HOpen 1 true)] p1) as [[p2 l]|] eqn:Hm; [|done].
  destruct l as [|a [|b [|]]]; try done; destruct a; try done; destruct b; try done. eauto 10.
Qed.
Print Assumptions C81_commit_refuted.

(** If the tree has values that were not committed, the new tree can miss values: with 17
    values and nothing committed, Chop at the last key succeeds and the value of key 0 is
    gone from the new tree. *)
Theorem C81_uncommitted_refuted :
  henv_ok (hdemo_env exH) /\
  exists p p1 p2 obs, hmrun (hdemo_env exH) (hist_appends 0 (replicate 17 (replicate 32 1))) hpool0 = Some (p, obs) /\
    hmchop (hdemo_env exH) p 0 16 = (p1, HvOk) /\
    hmrun (hdemo_env exH) [(0%nat, HGet 0); (1%nat, HGet 0); (1%nat, HGet 16)] p1 =
      Some (p2, [HvVal (Some (replicate 32 1)); HvVal None; HvVal (Some (replicate 32 1))]).
Proof.
  split; [apply hdemo_env_ok, exH_len|].
  set (r := hmrun (hdemo_env exH) (hist_appends 0 (replicate 17 (replicate 32 1))) hpool0).
  assert (match r with Some (p, _) => let '(p1, o) := hmchop (hdemo_env exH) p 0 16 in
            o = HvOk /\ match hmrun (hdemo_env exH) [(0%nat, HGet 0); (1%nat, HGet 0); (1%nat, HGet 16)] p1 with
                        | Some (_, l) => l = [HvVal (Some (replicate 32 1)); HvVal None; HvVal (Some (replicate 32 1))] | _ => False end | None => False end)
    as Hr by (vm_compute; done).
  destruct r as [[p obs]|]; [|done]. destruct (hmchop (hdemo_env exH) p 0 16) as [p1 o] eqn:Hc. destruct Hr as [-> Hr].
  destruct (hmrun (hdemo_env exH) [(0%nat, HGet 0); (1%nat, HGet 0); (1%nat, HGet 16)] p1) as [[p2 l]|] eqn:Hm; [|done]. subst l. eauto 10.
Qed.
Print Assumptions C81_uncommitted_refuted.

(* ------------------------------------------------------------ the hypotheses can be met *)
(** With an injective hash whose results end in 0, short runs that append 32-byte values not
    ending in 0 meet [logs_ok]. *)
Example logs_ok_ideal V n : Forall (plain_list n) V -> N.of_nat n < two64 -> logs_ok idealH V.
Proof.
  intros Hp Hn. split; [| |apply idealH_inj|].
  - eapply Forall_impl; [exact Hp|]. intros vs [Hl _]. unfold lenN. lia.
  - eapply Forall_impl; [exact Hp|]. intros vs [_ Hf]. eapply Forall_impl; [exact Hf|]. by intros v [? _].
  - intros vs v x Hvs Hv _ ->. rewrite Forall_forall in Hp. destruct (Hp vs Hvs) as [_ Hf]. rewrite Forall_forall in Hf.
    destruct (Hf _ Hv) as [_ Hne]. by rewrite ideal_last in Hne.
Qed.
(** Three values committed, Chop at key 1; the new tree is read, or appended to and then
    committed and reopened. *)
Definition chop_pre : list (nat * hcall) := hist_appends 0 chop_values ++ [(0%nat, HCommit)].
Definition chop_read : list (nat * hcall) := [(1%nat, HGet 2); (1%nat, HHash); (0%nat, HCommit); (1%nat, HAppend 2 (replicate 32 7)); (0%nat, HGet 2); (1%nat, HGet 2)].
Definition chop_write : list (nat * hcall) := [(1%nat, HAppend 2 (replicate 32 7)); (1%nat, HCommit); (0%nat, HOpen 1 true); (2%nat, HGet 2)].
Example C81_example : henv_ok (hdemo_env idealH) /\
  let s := (hrun (hist_root idealH) chop_pre hlogs0).1 in
  hl_logs s !! 0%nat = Some chop_values /\ chop_values ∈ hl_saved s /\ 1 < lenN chop_values /\
  after_chop s 0 1 chop_read /\ after_chop s 0 1 chop_write /\
  logs_ok idealH (hvisited (hist_root idealH) chop_pre hlogs0 ++ hvisited (hist_root idealH) chop_read (hchop s 0 1).1) /\
  logs_ok idealH (hvisited (hist_root idealH) chop_pre hlogs0 ++ hvisited (hist_root idealH) chop_write (hchop s 0 1).1) /\
  (hrun (hist_root idealH) chop_read (hchop s 0 1).1).2 !! 0%nat = Some (HvVal None) /\
  (hrun (hist_root idealH) chop_read (hchop s 0 1).1).2 !! 4%nat = Some (HvVal (Some (replicate 32 3))) /\
  (hrun (hist_root idealH) chop_read (hchop s 0 1).1).2 !! 5%nat = Some (HvVal (Some (replicate 32 7))) /\
  (hrun (hist_root idealH) chop_write (hchop s 0 1).1).2 !! 3%nat = Some (HvVal (Some (replicate 32 7))).
Proof.
  split; [exact hdemo_ok|]. cbv zeta.
  assert (forall post, Forall (fun jo => plain_call jo.2) post -> (length post <= 6)%nat ->
    logs_ok idealH (hvisited (hist_root idealH) chop_pre hlogs0 ++
      hvisited (hist_root idealH) post (hchop (hrun (hist_root idealH) chop_pre hlogs0).1 0 1).1)) as Hlo.
  { intros post Hc Hlen. apply (logs_ok_ideal _ 20); [|reflexivity].
    assert (forall m V, (m <= 20)%nat -> Forall (plain_list m) V -> Forall (plain_list 20) V) as Hup.
    { intros m V Hm Hf. eapply Forall_impl; [exact Hf|]. intros vs [? ?]. split; [lia|done]. }
    apply Forall_app. split.
    - apply (Hup (0 + length chop_pre)%nat); [cbn; lia|]. apply visited_plain; [|constructor; [split; [done|constructor]|constructor]|constructor].
      repeat constructor; cbn; discriminate.
    - apply (Hup (3 + length post)%nat); [lia|]. apply visited_plain; [done| |].
      + repeat constructor; cbn; discriminate.
      + repeat constructor; cbn; discriminate. }
  split; [reflexivity|]. split; [by left|]. split; [reflexivity|].
  split; [intros _; left; repeat constructor; cbn; discriminate|].
  split; [intros _; right; right; by eexists _, _|].
  split; [apply Hlo; [repeat constructor; cbn; discriminate|cbn; lia]|].
  split; [apply Hlo; [repeat constructor; cbn; discriminate|cbn; lia]|].
  split; [reflexivity|]. split; [reflexivity|]. split; reflexivity.
Qed.
