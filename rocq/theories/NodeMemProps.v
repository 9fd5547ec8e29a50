(** C100: the list of data nodes in memory. *)
From Coq Require Import Lia Sorted.
From Verif Require Import Base CombinedModel CombinedProofs ChainInfoModel ChainInfoProps AttrMemModel AttrMemProps NodeMemModel.
From stdpp Require Import gmap sorting.
Global Open Scope N_scope.

(* -------------------------------------------------------------------- proofs *)
Lemma add_node_spec sp h o x h' o' b : good h o -> AddNodeMem sp h o x = (h', o', b) ->
  good h' o' /\ (contents h' o', b) = AddDataNode (contents h o) x /\ moves h o h' o'.
Proof.
  intros Hg. assert (Hn := len_contents _ _ Hg). unfold AddNodeMem, AddDataNode.
  destruct (Nat.eqb_spec (len o) 0) as [E0|E0].
  - rewrite E0 in Hn. apply nil_length_inv in Hn. intros E. destruct (append1 sp h o x) as [h1 o1] eqn:E1. injection E as <- <- <-.
    destruct (append_spec _ _ _ _ _ _ Hg E1) as (G1 & C1 & M1 & _). split; [done|]. split; [|done]. by rewrite C1, Hn.
  - destruct (contents h o) as [|c cs] eqn:Hc; [cbn in Hn; lia|]. rewrite <- Hc in *. clear c cs Hc. cbv zeta.
    case_bool_decide.
    + intros [= <- <- <-]. split; [done|]. split; [done|apply moves_refl].
    + destruct (append1 sp h o x) as [h1 o1] eqn:E1. intros [= <- <- <-].
      destruct (append_spec _ _ _ _ _ _ Hg E1) as (G1 & C1 & M1 & _). destruct (sort_at_spec h1 o1 G1) as (G2 & C2 & M2).
      split; [done|]. split; [by rewrite C2, C1|by eapply moves_trans].
Qed.
Lemma remove_node_spec h o x h' o' b : good h o -> RemoveNodeMem h o x = (h', o', b) ->
  good h' o' /\ (contents h' o', b) = RemoveDataNode (contents h o) x /\ moves h o h' o' /\
  (forall a l, h !! a = Some l -> h' !! a = Some l).
Proof.
  intros Hg. assert (Hn := len_contents _ _ Hg). unfold RemoveNodeMem, RemoveDataNode.
  destruct (Nat.eqb_spec (len o) 0) as [E0|E0].
  - rewrite E0 in Hn. apply nil_length_inv in Hn. intros [= <- <- <-]. rewrite Hn. split; [done|]. split; [done|]. split; [apply moves_refl|done].
  - destruct (contents h o) as [|c cs] eqn:Hc; [cbn in Hn; lia|]. rewrite <- Hc in *. clear c cs Hc. cbv zeta.
    case_bool_decide as Hk; [|intros [= <- <- <-]; split; [done|]; split; [done|]; split; [apply moves_refl|done]].
    intros [= <- <- <-]. assert (Hlt := lookup_lt_Some _ _ _ Hk).
    assert (Hlen : length (cut (search_strings (contents h o) x) (contents h o)) = (len o - 1)%nat).
    { unfold cut. rewrite app_length, take_length, drop_length. lia. }
    split; [|split; [|split; [by apply moves_fresh|]]].
    + eexists. split; [apply lookup_insert|]. cbn [s_len s_cap s_off]. lia.
    + f_equal. cbn [contents]. unfold read, array. cbn [s_len s_arr s_off]. rewrite lookup_insert. cbn [default id]. unfold id.
      rewrite drop_0. apply take_ge. lia.
    + intros a l Ha. pose proof (fresh_none h) as Hf. rewrite lookup_insert_ne; [done|]. intros <-. by rewrite Hf in Ha.
Qed.
Lemma mem_step_spec sp h o c h' o' x : good h o -> mem_step sp h o c = (h', o', x) ->
  good h' o' /\ dn_step (contents h o) c = (contents h' o', x) /\ moves h o h' o'.
Proof.
  intros Hg. destruct c as [y|y|y|y| |]; cbn [mem_step dn_step].
  - destruct (AddNodeMem sp h o y) as [[h1 o1] b] eqn:E. intros [= <- <- <-].
    destruct (add_node_spec _ _ _ _ _ _ _ Hg E) as (G & C & M). rewrite <- C. done.
  - destruct (RemoveNodeMem h o y) as [[h1 o1] b] eqn:E. intros [= <- <- <-].
    destruct (remove_node_spec _ _ _ _ _ _ Hg E) as (G & C & M & _). rewrite <- C. done.
  - intros [= <- <- <-]. split; [done|]. split; [done|apply moves_refl].
  - intros [= <- <- <-]. split; [done|]. split; [done|apply moves_refl].
  - intros [= <- <- <-]. split; [done|]. split; [done|apply moves_refl].
  - intros [= <- <- <-]. destruct (sort_at_spec h o Hg) as (G & C & M). split; [done|]. split; [by rewrite C|done].
Qed.

(* ------------------------------------------------------------------ theorems *)
(** Every sequence of calls gives the answers and the list that the same calls give on plain
    lists, and writes to no array that existed before but that of the list. *)
Theorem C100_calls : forall spare cs h o h' o' xs, good h o -> mem_run spare h o cs = (h', o', xs) ->
  dn_run (contents h o) cs = (contents h' o', xs) /\ good h' o' /\
  (forall a l, h !! a = Some l -> elsewhere o a -> h' !! a = Some l).
Proof.
  intros spare cs h o h' o' xs Hg E.
  assert (Gen : dn_run (contents h o) cs = (contents h' o', xs) /\ good h' o' /\ moves h o h' o').
  { revert h o h' o' xs Hg E. induction cs as [|c cs IH]; intros h o h' o' xs Hg E; cbn [mem_run dn_run] in *.
    - injection E as <- <- <-. split; [done|]. split; [done|apply moves_refl].
    - destruct (mem_step spare h o c) as [[h1 o1] x] eqn:E1. destruct (mem_run spare h1 o1 cs) as [[h2 o2] ys] eqn:E2. injection E as <- <- <-.
      destruct (mem_step_spec _ _ _ _ _ _ _ Hg E1) as (G1 & C1 & M1). destruct (IH _ _ _ _ _ G1 E2) as (C2 & G2 & M2).
      rewrite C1, C2. split; [done|]. split; [done|by eapply moves_trans]. }
  destruct Gen as (C & G & M & _). done.
Qed.
Print Assumptions C100_calls.
(** So from an ascending list the calls are those of a set of nodes (C74). *)
Theorem C100_set : forall spare cs h o h' o' xs S, good h o -> ascending S (contents h o) -> mem_run spare h o cs = (h', o', xs) ->
  exists S', dnspec_run S cs S' xs /\ ascending S' (contents h' o').
Proof.
  intros spare cs h o h' o' xs S Hg Ha E. destruct (C100_calls _ _ _ _ _ _ _ Hg E) as (C & _).
  destruct (C74_data_nodes S (contents h o) cs Ha) as (S' & H1 & H2). rewrite C in H1, H2. by exists S'.
Qed.
Print Assumptions C100_set.
(** RemoveDataNode changes no list that anybody holds, that of GetDataNodes included;
    neither does AddDataNode if the list of data nodes has no room left. *)
Theorem C100_held : forall spare h o x p h' o' b, good h o -> good h p ->
  (RemoveNodeMem h o x = (h', o', b) -> contents h' p = contents h p) /\
  (len o = cap o -> AddNodeMem spare h o x = (h', o', b) -> contents h' p = contents h p).
Proof.
  intros spare h o x p h' o' b Hg Hp.
  assert (Keep : (forall a l, h !! a = Some l -> h' !! a = Some l) -> contents h' p = contents h p).
  { intros He. destruct p as [s|]; [|done]. destruct Hp as (l & Hl & _). cbn. unfold read, array. by rewrite Hl, (He _ _ Hl). }
  split.
  - intros E. apply Keep. by destruct (remove_node_spec _ _ _ _ _ _ Hg E) as (_ & _ & _ & F).
  - intros Hfull E. apply Keep. unfold AddNodeMem in E.
    assert (App : forall h1 o1, append1 spare h o x = (h1, o1) -> moves h None h1 o1).
    { intros h1 o1. unfold append1. destruct o as [s|]; [|intros [= <- <-]; by apply moves_fresh].
      cbn in Hfull. rewrite Hfull, Nat.ltb_irrefl. intros [= <- <-]. by apply moves_fresh. }
    destruct (len o =? 0)%nat.
    + destruct (append1 spare h o x) as [h1 o1] eqn:E1. injection E as <- <- <-. intros a l Ha. by apply (App h1 o1 eq_refl).
    + cbv zeta in E. case_bool_decide; [by injection E as <- <- <-|].
      destruct (append1 spare h o x) as [h1 o1] eqn:E1. injection E as <- <- <-.
      destruct (append_spec _ _ _ _ _ _ Hg E1) as (G1 & _). destruct (sort_at_spec h1 o1 G1) as (_ & _ & M2).
      intros a l Ha. by apply (moves_trans _ _ _ _ _ _ (App h1 o1 eq_refl) M2).
Qed.
Print Assumptions C100_held.
(** What is false: that a list obtained from GetDataNodes stays as it was. After AddDataNode
    it can show the new node and lack one that is still a data node. *)
Theorem C100_listed_refuted : exists spare h o x h' o',
  good h o /\ AddNodeMem spare h o x = (h', o', true) /\
  contents h o = [[5; 1]; [7; 2]] /\ x = [3; 9] /\ contents h' o' = [[3; 9]; [5; 1]; [7; 2]] /\ contents h' o = [[3; 9]; [5; 1]].
Proof.
  exists (fun _ => 0%nat), {[0%nat := [[5; 1]; [7; 2]; []]]}, (Some (Sl 0 0 2 3)), [3; 9].
  eexists _, _. split; [exists [[5; 1]; [7; 2]; []]; cbn; split; [done|lia]|].
  split; [vm_compute; reflexivity|]. split; [done|]. split; [done|]. split; vm_compute; reflexivity.
Qed.
Print Assumptions C100_listed_refuted.
(** It happens in a run that starts with no data nodes, if append leaves room as Go's does:
    three nodes are added, listed, and a fourth is added. *)
Theorem C100_listed_run_refuted : exists spare h1 o1 xs h2 o2 xs2,
  mem_run spare ∅ None [DNAdd [2]; DNAdd [3]; DNAdd [4]; DNList] = (h1, o1, xs) /\ last xs = Some (DNIds [[2]; [3]; [4]]) /\
  mem_run spare h1 o1 [DNAdd [1]] = (h2, o2, xs2) /\ contents h2 o1 = [[1]; [2]; [3]].
Proof.
  exists (fun n => if (n <=? 2)%nat then 0%nat else (n - 2)%nat). eexists _, _, _, _, _, _.
  split; [vm_compute; reflexivity|]. split; [done|]. split; [vm_compute; reflexivity|]. vm_compute. reflexivity.
Qed.
Print Assumptions C100_listed_run_refuted.

(* ------------------------------------------------------------------ examples *)
Example C100_ex_hypotheses : let h : mem := {[0%nat := [[9]; [5; 1]; [7; 2]; []]]} in
  good h (Some (Sl 0 1 2 3)) /\ good h (Some (Sl 0 1 2 2)) /\ ascending {[ [5; 1]; [7; 2] ]} (contents h (Some (Sl 0 1 2 3))).
Proof.
  cbv zeta. split; [exists [[9]; [5; 1]; [7; 2]; []]; cbn; split; [done|lia]|].
  split; [exists [[9]; [5; 1]; [7; 2]; []]; cbn; split; [done|lia]|].
  assert (contents ({[0%nat := [[9]; [5; 1]; [7; 2]; []]]} : mem) (Some (Sl 0 1 2 3)) = [[5; 1]; [7; 2]]) as -> by (vm_compute; reflexivity).
  split; [|intros x; set_solver]. repeat constructor; apply (bool_decide_eq_true_1 _); vm_compute; reflexivity.
Qed.
Example C100_ex_run :
  (let '(h, o, xs) := mem_run (fun n => n) {[0%nat := [[9]; [5; 1]; [7; 2]; []]]} (Some (Sl 0 1 2 3))
       [DNAdd [6]; DNRemove [5; 1]; DNAdd [6]; DNRemove [1]; DNList] in (contents h o, xs, h !! 0%nat)) =
  ([[6]; [7; 2]], [DNBool true; DNBool true; DNBool false; DNBool false; DNIds [[6]; [7; 2]]], Some [[9]; [5; 1]; [6]; [7; 2]]).
Proof. vm_compute. reflexivity. Qed.
