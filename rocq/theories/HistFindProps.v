(** What the history tree does when the hypotheses of C25-C27 fail: the hypotheses are needed. *)
From Verif Require Import Base MerkleSpec MerkleModel TrieSpec TrieModel TrieProofModel.
From Verif Require Import HistSpec HistModel HistRunProofs HistProps.
From stdpp Require Import gmap.
Open Scope N_scope.

(** A 32-byte "hash" for examples, without collision on the strings used here. *)
Definition exH (x : list N) : list N :=
  replicate 27 0 ++ be_fixed 5 (foldl (fun a b => N.land (a * 257 + b + 1) 1099511627775) 1 x).
Lemma exH_len x : length (exH x) = 32%nat.
Proof. unfold exH. rewrite app_length, replicate_length, be_fixed_length. done. Qed.

(** Checking that there is no collision, with a table of the hashes seen. *)
Section check.
Context (H : list N -> list N).
Fixpoint inj_check (l : list (list N)) (m : gmap (list N) (list N)) : bool :=
  match l with
  | [] => true
  | x :: r => let h := H x in
              match m !! h with
              | Some y => bool_decide (x = y) && inj_check r m
              | None => inj_check r (<[h := x]> m)
              end
  end.
Lemma inj_check_ok l : forall m, inj_check l m = true -> (forall h y, m !! h = Some y -> H y = h) ->
  forall x y, (x ∈ l \/ m !! H x = Some x) -> (y ∈ l \/ m !! H y = Some y) -> H x = H y -> x = y.
Proof.
  induction l as [|z l IH]; intros m Hc Hm x y Hx Hy He.
  - destruct Hx as [Hx|Hx]; [by apply elem_of_nil in Hx|]. destruct Hy as [Hy|Hy]; [by apply elem_of_nil in Hy|]. congruence.
  - cbn [inj_check] in Hc. destruct (m !! H z) as [w|] eqn:Hz.
    + apply andb_true_iff in Hc as [Hw Hc]. apply bool_decide_eq_true in Hw. subst w.
      apply (IH m Hc Hm); [| |done].
      * destruct Hx as [[-> |Hx]%elem_of_cons|Hx]; auto.
      * destruct Hy as [[-> |Hy]%elem_of_cons|Hy]; auto.
    + assert (forall w, w ∈ z :: l \/ m !! H w = Some w -> w ∈ l \/ <[H z := z]> m !! H w = Some w) as Hg.
      { intros w [[-> |Hw]%elem_of_cons|Hw]; [right; by rewrite lookup_insert|by left|].
        right. rewrite lookup_insert_ne; [done|]. intros He'. rewrite He' in Hz. congruence. }
      apply (IH _ Hc); [|by apply Hg|by apply Hg|done].
      intros h w. destruct (decide (H z = h)) as [<-|Hn]; [rewrite lookup_insert; by intros [= <-]|].
      rewrite lookup_insert_ne by done. apply Hm.
Qed.
Lemma inj_check_inj l : inj_check l ∅ = true -> inj_on H l.
Proof. intros Hc x y Hx Hy He. apply (inj_check_ok l ∅ Hc); [intros h w Hw; by rewrite lookup_empty in Hw|by left|by left|done]. Qed.

(** The strings hashed, one layer after the other. *)
Fixpoint inputs_up (n : nat) (vs : list (list N)) : list (list N) :=
  match n with O => [] | S n' => layer_inputs H vs ++ inputs_up n' (layer H vs) end.
Lemma inputs_up_ok n : forall k vs, inputs_up n (layers H k vs) = flat_map (fun k => layer_inputs H (layers H k vs)) (seq k n).
Proof.
  induction n as [|n IH]; intros k vs; cbn [inputs_up seq flat_map]; [done|]. f_equal. apply (IH (S k)).
Qed.
Lemma inputs_eq vs : hist_inputs H vs = [] :: inputs_up 64 vs.
Proof. unfold hist_inputs. rewrite <- (inputs_up_ok 64 0 vs). reflexivity. Qed.
End check.

(* ------------------------------------------------------------ values that are hashes *)
(** Sixteen values are committed. The hash of their 16 leaves, appended as a value and committed,
    replaces a node of the first tree in the database: the first root can no longer be opened. *)
Definition clash_values : list (list N) := map (fun i => replicate 32 (N.of_nat i + 1)) (seq 0 16).
Definition clash_ops : list (nat * hcall) :=
  hist_appends 0 clash_values ++
  [(0%nat, HCommit); (0%nat, HAppend 16 (nth 0 (layers exH 4 clash_values) [])); (0%nat, HCommit); (0%nat, HOpen 0 true)].
Definition clash_visited := hvisited (hist_root exH) clash_ops hlogs0.
Theorem C25_values_that_are_hashes_refuted :
  henv_ok (hdemo_env exH) /\
  Forall (fun jo => hcall_key jo.2 < two64) clash_ops /\
  Forall (fun vs => lenN vs < two64) clash_visited /\
  Forall (Forall (fun v => length v = 32%nat)) clash_visited /\
  inj_on exH (flat_map (hist_inputs exH) clash_visited) /\
  last (hrun (hist_root exH) clash_ops hlogs0).2 = Some HvOk /\
  exists p obs, hmrun (hdemo_env exH) clash_ops hpool0 = Some (p, obs) /\ last obs = Some HvErr.
Proof.
  split; [apply hdemo_env_ok, exH_len|]. split; [apply (bool_decide_eq_true_1 _); vm_compute; reflexivity|].
  split; [apply (bool_decide_eq_true_1 _); vm_compute; reflexivity|]. split; [apply (bool_decide_eq_true_1 _); vm_compute; reflexivity|].
  split; [|split; [vm_compute; reflexivity|]].
  - rewrite (flat_map_ext _ (fun vs => [] :: inputs_up exH 64 vs)) by apply inputs_eq. apply inj_check_inj. vm_compute. reflexivity.
  - destruct (hmrun (hdemo_env exH) clash_ops hpool0) as [[p obs]|] eqn:Hr.
    + exists p, obs. split; [done|].
      assert (match hmrun (hdemo_env exH) clash_ops hpool0 with Some (_, o) => last o | None => None end = Some HvErr) as Hl by (vm_compute; reflexivity).
      by rewrite Hr in Hl.
    + exfalso. assert (match hmrun (hdemo_env exH) clash_ops hpool0 with Some _ => true | None => false end = true) as Hl by (vm_compute; reflexivity).
      by rewrite Hr in Hl.
Qed.
Print Assumptions C25_values_that_are_hashes_refuted.

(* ------------------------------------------------------------ values of other lengths *)
(** A one-byte value is accepted and returned, but its proof does not lead to the root. *)
Theorem C26_short_values_refuted :
  henv_ok (hdemo_env exH) /\
  exists p h h', h <> h' /\
  hmrun (hdemo_env exH) [(0%nat, HAppend 0 [1]); (0%nat, HHash); (0%nat, HProof 0)] hpool0 =
    Some (p, [HvOk; HvHash h; HvProof (Some ([1], Some h', Some 0))]).
Proof.
  split; [apply hdemo_env_ok, exH_len|]. eexists _, _, _. split; [|vm_compute; reflexivity]. discriminate.
Qed.
Print Assumptions C26_short_values_refuted.
(** And the root does not determine the values, whatever the hash. *)
Theorem C27_short_values_refuted : forall H, hist_root H [[1; 2]; [3]] = hist_root H [[1]; [2; 3]].
Proof. reflexivity. Qed.
Print Assumptions C27_short_values_refuted.
