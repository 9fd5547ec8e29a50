(** Properties of the history tree (C25-C27, C69, C70). *)
From Verif Require Import Base MerkleSpec MerkleModel TrieSpec TrieModel TrieProofModel.
From Verif Require Import TrieProps ToyHash.
From Verif Require Import HistSpec HistModel HistRepProofs HistRunProofs.
From stdpp Require Import gmap.
Open Scope N_scope.

(* ------------------------------------------------------------ hypotheses *)

(** What is asked of a run: keys are uint64, fewer than 2^64 values, every value
    has 32 bytes, the hash does not collide on the strings hashed for the lists of
    this run, and no appended value equals one of those hashes (in particular not
    the hash of the empty string). *)
Record hist_ok (H : list N -> list N) (ops : list (nat * hcall)) : Prop := HistOk {
  ho_keys : Forall (fun jo => hcall_key jo.2 < two64) ops;
  ho_len : Forall (fun vs => lenN vs < two64) (hvisited (hist_root H) ops hlogs0);
  ho_val : Forall (Forall (fun v => length v = 32%nat)) (hvisited (hist_root H) ops hlogs0);
  ho_inj : inj_on H (flat_map (hist_inputs H) (hvisited (hist_root H) ops hlogs0));
  ho_new : forall vs v x, vs ∈ hvisited (hist_root H) ops hlogs0 -> v ∈ vs ->
             x ∈ flat_map (hist_inputs H) (hvisited (hist_root H) ops hlogs0) -> v <> H x;
}.

Lemma hist_run E ops : henv_ok E -> hist_ok (hH E) ops ->
  exists p, hmrun E ops hpool0 = Some (p, (hrun (hist_root (hH E)) ops hlogs0).2).
Proof.
  intros HE [Hk Hl Hv Hi Hn]. set (H := hH E) in *. set (V := hvisited (hist_root H) ops hlogs0) in *.
  assert (forall vs x, vs ∈ V -> x ∈ hist_inputs H vs -> x ∈ flat_map (hist_inputs H) V) as Hin.
  { intros vs x Hvs Hx. apply elem_of_list_In, in_flat_map. exists vs. by rewrite <- !elem_of_list_In. }
  destruct (run_ok E HE (fun vs => vs ∈ V)) with (ops := ops) (p := hpool0) (s := hlogs0) as (p & Hp & _).
  - intros vs Hvs. by apply (proj1 (Forall_forall _ _) Hv).
  - intros vs Hvs. by apply (proj1 (Forall_forall _ _) Hl).
  - intros vs vs' x y Hvs Hvs' Hx Hy He. exact (Hi x y (Hin vs x Hvs Hx) (Hin vs' y Hvs' Hy) He).
  - intros vs vs' v x Hvs Hvs' Hv' Hx. exact (Hn vs v x Hvs Hv' (Hin vs' x Hvs' Hx)).
  - split; [|constructor]. cbn. constructor; [|constructor]. split; [|done].
    unfold V. destruct ops; cbn [hvisited hlogs0 hl_logs]; apply elem_of_app; left; by left.
  - exact Hk.
  - done.
  - eauto.
Qed.

(* ------------------------------------------------------------ example environments *)
Definition hdemo_env (H : list N -> list N) : henv :=
  HEnv H (fun a => [Npos (encode a)]) (fun b => match b with [Npos x] => @decode slots _ _ x | _ => None end)
    (fun s => [Npos (encode s)]) (fun b => match b with [Npos x] => @decode (bool * branches * slots) _ _ x | _ => None end).
Lemma hdemo_env_ok H : (forall x, length (H x) = 32%nat) -> henv_ok (hdemo_env H).
Proof.
  intros HL. split; cbn; [done|intros a _; apply decode_encode|].
  intros l b a _ _ _. apply decode_encode.
Qed.

(* ------------------------------------------------------------ C25 *)

(** Any calls on a family of trees sharing a database (appends, gets, hashes, proofs,
    commits, collapses, clones, reopened roots) answer as a list of values does: no
    panic, no other answer. *)
Theorem C25_history_is_log : forall E ops, henv_ok E -> hist_ok (hH E) ops ->
  exists p, hmrun E ops hpool0 = Some (p, (hrun (hist_root (hH E)) ops hlogs0).2).
Proof. exact hist_run. Qed.
Print Assumptions C25_history_is_log.

(** In memory (no commit) nothing is asked of the hash or of the size of the values. *)
Theorem C25_in_memory : forall E ops, henv_ok E ->
  Forall (fun jo => mem_call jo.2 = true /\ hcall_key jo.2 < two64) ops ->
  Forall (fun vs => lenN vs < two64) (hvisited (hist_root (hH E)) ops hlogs0) ->
  exists p, hmrun E ops hpool0 = Some (p, (hrun (hist_root (hH E)) ops hlogs0).2).
Proof.
  intros E ops HE Hops Hl. apply (mem_run_ok E HE); [|done|by apply Forall_forall].
  split; [done|]. constructor; [done|constructor].
Qed.
Print Assumptions C25_in_memory.

(** Spelled out for one tree: after appending vs, Get and Expecting answer from vs and
    any other key is refused. *)
Fixpoint hist_appends (k : N) (vs : list (list N)) : list (nat * hcall) :=
  match vs with [] => [] | v :: r => (0%nat, HAppend k v) :: hist_appends (k + 1) r end.
Lemma hrun_app root a : forall b s, hrun root (a ++ b) s =
  let '(s1, x) := hrun root a s in let '(s2, y) := hrun root b s1 in (s2, x ++ y).
Proof.
  induction a as [|o a IH]; intros b s; cbn [app hrun]; [by destruct (hrun root b s)|].
  destruct (hstep root s o) as [s1 x]. rewrite IH. destruct (hrun root a s1) as [s2 y]. by destruct (hrun root b s2).
Qed.
Lemma hrun_appends root vs : forall ws k, Forall (fun v => v <> []) vs -> k = lenN ws ->
  hrun root (hist_appends k vs) (HLogs [ws] []) = (HLogs [ws ++ vs] [], replicate (length vs) HvOk).
Proof.
  induction vs as [|v vs IH]; intros ws k Hne ->; cbn [hist_appends hrun length replicate]; [by rewrite app_nil_r|].
  inversion Hne as [|? ? Hv Hne']; subst. cbn [hstep hl_logs hl_saved]. change ([ws] !! 0%nat) with (Some ws). cbv iota.
  rewrite N.eqb_refl, bool_decide_eq_false_2 by done. cbn [andb negb]. change (<[0%nat:=ws ++ [v]]> [ws]) with [ws ++ [v]].
  rewrite IH; [by rewrite <- app_assoc|done|]. unfold lenN. rewrite app_length. cbn [length]. lia.
Qed.
Lemma hvisited_appends root vs : forall ws k x, Forall (fun v => v <> []) vs -> k = lenN ws ->
  x ∈ hvisited root (hist_appends k vs) (HLogs [ws] []) -> (length x <= length ws + length vs)%nat.
Proof.
  induction vs as [|v vs IH]; intros ws k x Hne -> Hx; cbn [hist_appends hvisited] in Hx.
  - cbn in Hx. apply elem_of_list_singleton in Hx. subst. lia.
  - inversion Hne as [|? ? Hv Hne']; subst. cbn [hstep hl_logs hl_saved] in Hx. change ([ws] !! 0%nat) with (Some ws) in Hx. cbv iota in Hx.
    rewrite N.eqb_refl, bool_decide_eq_false_2 in Hx by done. cbn [andb negb fst] in Hx. change (<[0%nat:=ws ++ [v]]> [ws]) with [ws ++ [v]] in Hx.
    apply elem_of_app in Hx as [Hx|Hx]; [apply elem_of_list_singleton in Hx; subst; cbn [length]; lia|].
    apply IH in Hx; [rewrite app_length in Hx; cbn [length] in *; lia|done|]. unfold lenN. rewrite app_length. cbn [length]. lia.
Qed.
Lemma hvisited_snoc root a o : forall s, hvisited root (a ++ [o]) s = hvisited root a s ++ hl_logs (hstep root (hrun root a s).1 o).1.
Proof.
  induction a as [|p a IH]; intros s; cbn [app hvisited hrun].
  - by rewrite !app_nil_r.
  - rewrite IH. destruct (hstep root s p) as [s1 x]. cbn [fst]. destruct (hrun root a s1) as [s2 y]. cbn [fst]. by rewrite app_assoc.
Qed.
Lemma keys_appends vs : forall k, k + lenN vs <= two64 -> Forall (fun jo => mem_call jo.2 = true /\ hcall_key jo.2 < two64) (hist_appends k vs).
Proof.
  induction vs as [|v vs IH]; intros k Hk; cbn [hist_appends]; [constructor|]. unfold lenN in *. cbn [length] in Hk.
  constructor; [cbn; split; [done|lia]|]. apply IH. lia.
Qed.
(** A fresh tree, the appends, then one more call. *)
Theorem C25_append_then_call : forall E vs o, henv_ok E -> Forall (fun v => v <> []) vs -> lenN vs + 1 < two64 ->
  mem_call o = true -> hcall_key o < two64 ->
  exists p, hmrun E (hist_appends 0 vs ++ [(0%nat, o)]) hpool0 =
    Some (p, replicate (length vs) HvOk ++
      [match o with
       | HAppend k v => if (k =? lenN vs) && negb (bool_decide (v = [])) then HvOk else HvErr
       | HGet k => HvVal (if k <? lenN vs then vs !! N.to_nat k else None)
       | HExpecting => HvNum (lenN vs)
       | HHash => HvHash (hist_root (hH E) vs)
       | _ => HvOk
       end]).
Proof.
  intros E vs o HE Hne Hl Hm Hk.
  destruct (C25_in_memory E (hist_appends 0 vs ++ [(0%nat, o)]) HE) as [p Hp].
  - apply Forall_app. split; [apply keys_appends; lia|]. by constructor.
  - apply Forall_forall. intros x Hx. rewrite hvisited_snoc in Hx. unfold hlogs0 in Hx. rewrite hrun_appends in Hx by done. cbn [fst app] in Hx.
    apply elem_of_app in Hx as [Hx|Hx].
    + apply hvisited_appends in Hx; [|done|done]. unfold lenN in *. cbn [length] in Hx. lia.
    + assert (x = vs \/ exists v, x = vs ++ [v]) as Hor.
      { cbn [hstep hl_logs] in Hx. change ([vs] !! 0%nat) with (Some vs) in Hx. cbv iota in Hx.
        destruct o as [k v|k| | |k| |k| |i chk]; try discriminate Hm;
          cbn [fst hl_logs] in Hx; try (left; by apply elem_of_list_singleton in Hx).
        destruct (_ && _); cbn [fst hl_logs] in Hx; [|left; by apply elem_of_list_singleton in Hx].
        right. exists v. change (<[0%nat:=vs ++ [v]]> [vs]) with [vs ++ [v]] in Hx. by apply elem_of_list_singleton in Hx. }
      unfold lenN in *. destruct Hor as [->|[v ->]]; [lia|]. rewrite app_length. cbn [length]. lia.
  - exists p. rewrite Hp. unfold hlogs0. rewrite hrun_app, hrun_appends by done. cbn [app hrun]. do 2 f_equal.
    cbn [hstep hl_logs]. change ([vs] !! 0%nat) with (Some vs). cbv iota.
    destruct o as [k v|k| | |k| |k| |i chk]; try discriminate Hm; cbn [snd]; try done.
    by destruct (_ && _).
Qed.
Print Assumptions C25_append_then_call.


(* ------------------------------------------------------------ C26 *)

Lemma hmrun_snoc E a o : forall p p1 x, hmrun E a p = Some (p1, x) ->
  hmrun E (a ++ [o]) p = match hmstep E p1 o with None => None | Some (p2, b) => Some (p2, x ++ [b]) end.
Proof.
  induction a as [|q a IH]; intros p p1 x Hr; cbn [app hmrun] in *.
  - injection Hr as <- <-. by destruct (hmstep E p o) as [[p2 b]|].
  - destruct (hmstep E p q) as [[p2 b]|]; [|done]. destruct (hmrun E a p2) as [[p3 bs]|] eqn:Ha; [|done].
    injection Hr as <- <-. rewrite (IH p2 p3 bs Ha). by destruct (hmstep E p3 o) as [[p4 b']|].
Qed.
Lemma hvisited_prefix root a b : forall s vs, vs ∈ hvisited root a s -> vs ∈ hvisited root (a ++ b) s.
Proof.
  induction a as [|q a IH]; intros s vs Hv; cbn [app hvisited] in *.
  - rewrite app_nil_r in Hv. destruct b; cbn [hvisited]; apply elem_of_app; by left.
  - apply elem_of_app in Hv as [Hv|Hv]; apply elem_of_app; [by left|right; by apply IH].
Qed.
Lemma hist_ok_prefix H a b : hist_ok H (a ++ b) -> hist_ok H a.
Proof.
  intros [Hk Hl Hv Hi Hn]. apply Forall_app in Hk as [Hk _].
  assert (forall x, x ∈ flat_map (hist_inputs H) (hvisited (hist_root H) a hlogs0) ->
                    x ∈ flat_map (hist_inputs H) (hvisited (hist_root H) (a ++ b) hlogs0)) as Hin.
  { intros x Hx. apply elem_of_list_In, in_flat_map in Hx as (vs & Hvs & Hx). apply elem_of_list_In, in_flat_map.
    exists vs. split; [|done]. apply elem_of_list_In in Hvs. apply elem_of_list_In. by apply hvisited_prefix. }
  split; [done| | | |].
  - apply Forall_forall. intros vs Hvs. exact (proj1 (Forall_forall _ _) Hl vs (hvisited_prefix _ _ b _ _ Hvs)).
  - apply Forall_forall. intros vs Hvs. exact (proj1 (Forall_forall _ _) Hv vs (hvisited_prefix _ _ b _ _ Hvs)).
  - intros x y Hx Hy He. exact (Hi x y (Hin x Hx) (Hin y Hy) He).
  - intros vs v x Hvs Hv' Hx. exact (Hn vs v x (hvisited_prefix _ _ b _ _ Hvs) Hv' (Hin x Hx)).
Qed.
(** The last call of a run, from the values the tree holds before it. *)
Lemma hist_last E ops j o vs : henv_ok E -> hist_ok (hH E) (ops ++ [(j, o)]) ->
  hl_logs (hrun (hist_root (hH E)) ops hlogs0).1 !! j = Some vs ->
  exists p p' obs, hmrun E ops hpool0 = Some (p, obs) /\
    hmstep E p (j, o) = Some (p', (hstep (hist_root (hH E)) (hrun (hist_root (hH E)) ops hlogs0).1 (j, o)).2).
Proof.
  intros HE Ho Hj. destruct (hist_run E _ HE (hist_ok_prefix _ _ _ Ho)) as [p Hp].
  destruct (hist_run E _ HE Ho) as [p' Hp']. rewrite (hmrun_snoc E _ _ _ _ _ Hp) in Hp'. rewrite hrun_app in Hp'.
  destruct (hrun (hist_root (hH E)) ops hlogs0) as [s x] eqn:Hs. cbn [fst snd hrun] in *.
  destruct (hmstep E p (j, o)) as [[p2 b]|] eqn:Hm; [|done]. destruct (hstep (hist_root (hH E)) s (j, o)) as [s2 c]. cbn [snd] in Hp'.
  injection Hp' as <- He. apply app_inj_tail in He as [_ ->]. exists p, p2, x. by rewrite Hm.
Qed.

(** After any calls, on any of the trees: GetProof answers exactly for the keys below
    the length; the proof turns the value into the root, and its key is the key. *)
Theorem C26_proofs_verify : forall E ops j k vs, henv_ok E -> hist_ok (hH E) (ops ++ [(j, HProof k)]) ->
  hl_logs (hrun (hist_root (hH E)) ops hlogs0).1 !! j = Some vs ->
  exists p obs t, hmrun E ops hpool0 = Some (p, obs) /\ hp_trees p !! j = Some t /\
    match (get_proof E (hp_store p) t k).2 with
    | Some (v, chain) => k < lenN vs /\ vs !! N.to_nat k = Some v /\
        chain_proof E chain (bytes_to_hash v) = Some (hist_root (hH E) vs) /\
        option_map fst (chain_bigkey chain 0 0) = Some k
    | None => lenN vs <= k
    end.
Proof.
  intros E ops j k vs HE Ho Hj. destruct (hist_last E ops j (HProof k) vs HE Ho Hj) as (p & p' & obs & Hp & Hm).
  exists p, obs. cbn [hstep hmstep] in Hm. rewrite Hj in Hm. cbn [snd] in Hm.
  assert (is_Some (hp_trees p !! j)) as [t Ht].
  { destruct (hp_trees p !! j) eqn:Ht; [eauto|]. injection Hm. congruence. }
  exists t. rewrite Ht in Hm. split; [done|]. split; [done|]. unfold hget in Hm.
  destruct (get_proof E (hp_store p) t k) as [t' [[v c]|]]; cbn [snd].
  - injection Hm as _ Hm. destruct (k <? lenN vs) eqn:Hlt; [|discriminate]. destruct (vs !! N.to_nat k) as [v'|] eqn:Hv; [|discriminate].
    injection Hm as -> Hc Hb. apply N.ltb_lt in Hlt. auto.
  - injection Hm as _ Hm. destruct (k <? lenN vs) eqn:Hlt; [|by apply N.ltb_ge].
    apply N.ltb_lt in Hlt. destruct (vs !! N.to_nat k) as [v'|] eqn:Hv; [discriminate|].
    apply lookup_ge_None in Hv. unfold lenN in Hlt. lia.
Qed.
Print Assumptions C26_proofs_verify.

(* ------------------------------------------------------------ C27 *)

(** The root after any calls on any tree of the family is the root of the values
    appended to it; commits, collapses, clones and reopening do not change it. *)
Theorem C27_root_of_values : forall E ops j vs, henv_ok E -> hist_ok (hH E) (ops ++ [(j, HHash)]) ->
  hl_logs (hrun (hist_root (hH E)) ops hlogs0).1 !! j = Some vs ->
  exists p p' obs, hmrun E ops hpool0 = Some (p, obs) /\ hmstep E p (j, HHash) = Some (p', HvHash (hist_root (hH E) vs)).
Proof.
  intros E ops j vs HE Ho Hj. destruct (hist_last E ops j HHash vs HE Ho Hj) as (p & p' & obs & Hp & Hm).
  exists p, p', obs. split; [done|]. rewrite Hm. cbn [hstep]. by rewrite Hj.
Qed.
Print Assumptions C27_root_of_values.
(** Two histories that appended the same values give the same root. *)
Theorem C27_same_values_same_root : forall E ops j ops' j' vs, henv_ok E ->
  hist_ok (hH E) (ops ++ [(j, HHash)]) -> hist_ok (hH E) (ops' ++ [(j', HHash)]) ->
  hl_logs (hrun (hist_root (hH E)) ops hlogs0).1 !! j = Some vs ->
  hl_logs (hrun (hist_root (hH E)) ops' hlogs0).1 !! j' = Some vs ->
  exists h p p' q q' obs obs', hmrun E ops hpool0 = Some (p, obs) /\ hmrun E ops' hpool0 = Some (p', obs') /\
    hmstep E p (j, HHash) = Some (q, HvHash h) /\ hmstep E p' (j', HHash) = Some (q', HvHash h).
Proof.
  intros E ops j ops' j' vs HE Ho Ho' Hj Hj'.
  destruct (C27_root_of_values E ops j vs HE Ho Hj) as (p & q & obs & Hp & Hq).
  destruct (C27_root_of_values E ops' j' vs HE Ho' Hj') as (p' & q' & obs' & Hp' & Hq').
  exists (hist_root (hH E) vs), p, p', q, q', obs, obs'. auto.
Qed.
Print Assumptions C27_same_values_same_root.

(** And different values give different roots: two lists of at most 2^64 - 1 values of
    32 bytes with the same root are equal, unless the hash collides on the strings hashed
    for them or a value is one of their hashes. *)
Theorem C27_root_binds : forall E vs vs', henv_ok E ->
  Forall (fun v => length v = 32%nat) vs -> Forall (fun v => length v = 32%nat) vs' -> lenN vs < two64 -> lenN vs' < two64 ->
  inj_on (hH E) (hist_inputs (hH E) vs ++ hist_inputs (hH E) vs') ->
  (forall v x, v ∈ vs ++ vs' -> x ∈ hist_inputs (hH E) vs ++ hist_inputs (hH E) vs' -> v <> hH E x) ->
  hist_root (hH E) vs = hist_root (hH E) vs' -> vs = vs'.
Proof.
  intros E vs vs' HE Hv Hv' Hl Hl' Hi Hn He.
  assert (forall w x, w = vs \/ w = vs' -> x ∈ hist_inputs (hH E) w -> x ∈ hist_inputs (hH E) vs ++ hist_inputs (hH E) vs') as Hin.
  { intros w x [-> | ->] Hx; apply elem_of_app; auto. }
  apply (root_binds E HE (fun w => w = vs \/ w = vs')); [| | | |by left|by right|done].
  - by intros w [-> | ->].
  - by intros w [-> | ->].
  - intros w w' x y Hw Hw' Hx Hy Hxy. exact (Hi x y (Hin w x Hw Hx) (Hin w' y Hw' Hy) Hxy).
  - intros w w' v x Hw Hw' Hv1 Hx. apply (Hn v x); [|exact (Hin w' x Hw' Hx)]. destruct Hw as [-> | ->]; apply elem_of_app; auto.
Qed.
Print Assumptions C27_root_binds.

Lemma hstep_length root s jo n : Forall (fun vs => (length vs <= n)%nat) (hl_logs s) -> Forall (fun vs => (length vs <= n)%nat) (hl_saved s) ->
  Forall (fun vs => (length vs <= S n)%nat) (hl_logs (hstep root s jo).1) /\ Forall (fun vs => (length vs <= S n)%nat) (hl_saved (hstep root s jo).1).
Proof.
  intros Hl Hs.
  assert (Forall (fun vs => (length vs <= S n)%nat) (hl_logs s)) as Hl' by (eapply Forall_impl; [exact Hl|]; intros; cbn in *; lia).
  assert (Forall (fun vs => (length vs <= S n)%nat) (hl_saved s)) as Hs' by (eapply Forall_impl; [exact Hs|]; intros; cbn in *; lia).
  destruct jo as [j o]. cbn [hstep]. destruct (hl_logs s !! j) as [vs|] eqn:Hj; [|done].
  assert (length vs <= n)%nat as Hvs by (rewrite Forall_lookup in Hl; by apply (Hl j)).
  destruct o as [k v|k| | |k| |k| |i chk]; cbn [fst]; try done.
  - destruct (_ && _); cbn [fst hl_logs hl_saved]; [|done]. split; [|done]. apply Forall_insert; [done|]. rewrite app_length. cbn [length]. lia.
  - cbn [hl_logs hl_saved]. split; [done|]. apply Forall_app. split; [done|]. constructor; [lia|constructor].
  - cbn [hl_logs hl_saved]. split; [|done]. apply Forall_app. split; [done|]. constructor; [lia|constructor].
  - destruct (hl_saved s !! i) as [vs2|] eqn:Hi; cbn [fst hl_logs hl_saved]; [|done]. split; [|done]. apply Forall_app. split; [done|].
    constructor; [|constructor]. rewrite Forall_lookup in Hs'. by apply (Hs' i).
Qed.
Lemma visited_length_gen root ops : forall s n, Forall (fun vs => (length vs <= n)%nat) (hl_logs s) -> Forall (fun vs => (length vs <= n)%nat) (hl_saved s) ->
  Forall (fun vs => (length vs <= n + length ops)%nat) (hvisited root ops s).
Proof.
  induction ops as [|jo ops IH]; intros s n Hl Hs; cbn [hvisited length].
  - rewrite app_nil_r, Nat.add_0_r. done.
  - apply Forall_app. split; [eapply Forall_impl; [exact Hl|]; intros; cbn in *; lia|].
    destruct (hstep_length root s jo n Hl Hs) as [G1 G2]. specialize (IH _ (S n) G1 G2). by rewrite Nat.add_succ_r, <- Nat.add_succ_l.
Qed.
(** A list has at most as many values as there were calls. *)
Lemma visited_length root ops vs : vs ∈ hvisited root ops hlogs0 -> (length vs <= length ops)%nat.
Proof.
  intros Hv. pose proof (visited_length_gen root ops hlogs0 0 ltac:(by repeat constructor) ltac:(constructor)) as Hf.
  rewrite Forall_forall in Hf. by apply Hf in Hv.
Qed.

(* ------------------------------------------------------------ the hypotheses can be met *)

(** With an injective hash whose results end in 0, every history of fewer than 2^64 calls
    that appends 32-byte values not ending in 0 meets hist_ok. *)
Definition plain_call (o : hcall) : Prop :=
  match o with HAppend _ v => length v = 32%nat /\ last v <> Some 0 | _ => True end.
Definition plain_list (n : nat) (vs : list (list N)) : Prop :=
  (length vs <= n)%nat /\ Forall (fun v => length v = 32%nat /\ last v <> Some 0) vs.
Lemma hstep_plain root s jo n : plain_call jo.2 ->
  Forall (plain_list n) (hl_logs s) -> Forall (plain_list n) (hl_saved s) ->
  Forall (plain_list (S n)) (hl_logs (hstep root s jo).1) /\ Forall (plain_list (S n)) (hl_saved (hstep root s jo).1).
Proof.
  intros Hc Hl Hs.
  assert (Forall (plain_list (S n)) (hl_logs s)) as Hl'.
  { eapply Forall_impl; [exact Hl|]. intros vs [? ?]. split; [lia|done]. }
  assert (Forall (plain_list (S n)) (hl_saved s)) as Hs'.
  { eapply Forall_impl; [exact Hs|]. intros vs [? ?]. split; [lia|done]. }
  destruct jo as [j o]. cbn [hstep snd] in *. destruct (hl_logs s !! j) as [vs|] eqn:Hj; [|done].
  assert (plain_list n vs) as Hvs by (rewrite Forall_lookup in Hl; by apply (Hl j)).
  assert (plain_list (S n) vs) as Hvs' by (destruct Hvs; split; [lia|done]).
  destruct o as [k v|k| | |k| |k| |i chk]; cbn [fst]; try done.
  - destruct (_ && _); cbn [fst hl_logs hl_saved]; [|done]. split; [|done]. apply Forall_insert; [done|].
    destruct Hvs as [Hn Hf]. split; [rewrite app_length; cbn [length]; lia|]. apply Forall_app. split; [done|]. constructor; [exact Hc|constructor].
  - cbn [hl_logs hl_saved]. split; [done|]. apply Forall_app. split; [done|]. constructor; [done|constructor].
  - cbn [hl_logs hl_saved]. split; [|done]. apply Forall_app. split; [done|]. constructor; [done|constructor].
  - destruct (hl_saved s !! i) as [vs2|] eqn:Hi; cbn [fst hl_logs hl_saved]; [|done]. split; [|done]. apply Forall_app. split; [done|].
    constructor; [|constructor]. rewrite Forall_lookup in Hs'. by apply (Hs' i).
Qed.
Lemma visited_plain root ops : forall s n, Forall (fun jo => plain_call jo.2) ops ->
  Forall (plain_list n) (hl_logs s) -> Forall (plain_list n) (hl_saved s) ->
  Forall (plain_list (n + length ops)) (hvisited root ops s).
Proof.
  induction ops as [|jo ops IH]; intros s n Hc Hl Hs; cbn [hvisited length].
  - rewrite app_nil_r, Nat.add_0_r. done.
  - inversion Hc; subst. apply Forall_app. split.
    + eapply Forall_impl; [exact Hl|]. intros vs [? ?]. split; [lia|done].
    + destruct (hstep_plain root s jo n) as [G1 G2]; [done|done|done|].
      specialize (IH _ (S n) ltac:(done) G1 G2). by rewrite Nat.add_succ_r, <- Nat.add_succ_l.
Qed.
Lemma ideal_last x : last (idealH x) = Some 0.
Proof. reflexivity. Qed.
Example hist_ok_ideal ops : Forall (fun jo => hcall_key jo.2 < two64 /\ plain_call jo.2) ops -> lenN ops < two64 ->
  hist_ok idealH ops.
Proof.
  intros Ho Hl. apply Forall_and in Ho as [Hk Hc].
  assert (Forall (plain_list (length ops)) (hvisited (hist_root idealH) ops hlogs0)) as Hp.
  { change (length ops) with (0 + length ops)%nat. apply visited_plain; [done| |constructor]. constructor; [|constructor]. split; [done|constructor]. }
  split; [done| | |apply idealH_inj|].
  - eapply Forall_impl; [exact Hp|]. intros vs [Hn _]. unfold lenN in *. lia.
  - eapply Forall_impl; [exact Hp|]. intros vs [_ Hf]. eapply Forall_impl; [exact Hf|]. by intros v [? _].
  - intros vs v x Hvs Hv _ ->. rewrite Forall_forall in Hp. destruct (Hp vs Hvs) as [_ Hf]. rewrite Forall_forall in Hf.
    destruct (Hf _ Hv) as [_ Hne]. by rewrite ideal_last in Hne.
Qed.
Example hdemo_ok : henv_ok (hdemo_env idealH).
Proof. apply hdemo_env_ok. reflexivity. Qed.

(** A run with commits, a clone, a reopened root and a collapse that meets them. *)
Definition hist_demo_ops : list (nat * hcall) :=
  hist_appends 0 [replicate 32 1; replicate 32 2; replicate 32 1] ++
  [(0%nat, HCommit); (0%nat, HAppend 3 (replicate 32 4)); (0%nat, HClone); (0%nat, HOpen 0 true);
   (1%nat, HCollapse 256); (2%nat, HProof 1); (2%nat, HHash)].
Example hist_demo_meets : hist_ok idealH hist_demo_ops /\
  hl_logs (hrun (hist_root idealH) hist_demo_ops hlogs0).1 =
    [[replicate 32 1; replicate 32 2; replicate 32 1; replicate 32 4]; [replicate 32 1; replicate 32 2; replicate 32 1; replicate 32 4];
     [replicate 32 1; replicate 32 2; replicate 32 1]].
Proof.
  split; [|reflexivity]. apply hist_ok_ideal; [|reflexivity]. repeat constructor; cbn; try (vm_compute; reflexivity); discriminate.
Qed.
