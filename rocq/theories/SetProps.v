(** C57: node id sets. *)
From Verif Require Import SetModel.
From Coq Require Import Sorting.Sorted.
Global Open Scope N_scope.

(* ---------------------------------------------------------- specification *)
(** Not greater, in the order of bytes.Compare. *)
Definition not_gt (a b : list N) : Prop := bytes_ltb b a = false.

(** The contract of sort.Sort: it makes swaps within range that leave the list sorted. *)
Definition swap_list (l : list (list N)) (i j : nat) : list (list N) :=
  match l !! i, l !! j with Some a, Some b => <[i := b]> (<[j := a]> l) | _, _ => l end.
Definition sort_ok (srt : list (list N) -> list (nat * nat)) : Prop :=
  forall l, Forall (fun w => (w.1 < length l)%nat /\ (w.2 < length l)%nat) (srt l) /\
    StronglySorted not_gt (foldl (fun l w => swap_list l w.1 w.2) l (srt l)).

(** What a call on a set [S] may return, and the set afterwards. Listing returns
    (a finding) as many zero ids as there are members, followed by the members in
    ascending order. *)
Inductive nspec (zero : list N) (S : gset (list N)) : nop -> gset (list N) -> nres -> Prop :=
| SpPutNil : nspec zero S (NPut None) S (NBool false)
| SpPut id : nspec zero S (NPut (Some id)) ({[id]} ∪ S) (NBool (bool_decide (id ∉ S)))
| SpDelNil : nspec zero S (NDelete None) S NUnit
| SpDel id : nspec zero S (NDelete (Some id)) (S ∖ {[id]}) NUnit
| SpGet i o : (forall x, o = Some x -> x ∈ S) -> (o = None <-> (i < 0 \/ Z.of_nat (size S) <= i)%Z) ->
    nspec zero S (NGet i) S (NId o)
| SpIdxNil : nspec zero S (NGetIndex None) S (NIdx 0 false)
| SpIdx id i : nspec zero S (NGetIndex (Some id)) S (NIdx i (bool_decide (id ∈ S)))
| SpLen : nspec zero S NLen S (NNum (size S))
| SpList l : StronglySorted not_gt l -> NoDup l -> (forall x, x ∈ l <-> x ∈ S) ->
    nspec zero S NList S (NIds (replicate (size S) zero ++ l)).
Inductive nspec_run (zero : list N) : gset (list N) -> list nop -> gset (list N) -> list nres -> Prop :=
| SrNil S : nspec_run zero S [] S []
| SrCons S o S1 r os S2 rs : nspec zero S o S1 r -> nspec_run zero S1 os S2 rs ->
    nspec_run zero S (o :: os) S2 (r :: rs).
(** The number of calls of a history that delete a member. *)
Fixpoint deletions (S : gset (list N)) (os : list nop) : nat :=
  match os with
  | [] => 0
  | NPut (Some id) :: r => deletions ({[id]} ∪ S) r
  | NDelete (Some id) :: r => ((if decide (id ∈ S) then 1 else 0) + deletions (S ∖ {[id]}) r)%nat
  | _ :: r => deletions S r
  end.

(* ----------------------------------------------------------------- proofs *)
(** ids and index agree *)
Definition ns_dom (s : nset) : Prop := NoDup (ns_l s) /\ forall x, is_Some (ns_m s !! x) <-> x ∈ ns_l s.
Definition ns_idx (s : nset) : Prop := forall x i, ns_m s !! x = Some i -> ns_l s !! i = Some x.

Lemma swap_perm l i j : swap_list l i j ≡ₚ l.
Proof.
  unfold swap_list. destruct (l !! i) as [a|] eqn:Ei; [|done]. destruct (l !! j) as [b|] eqn:Ej; [|done].
  destruct (decide (i = j)) as [->|Hne].
  { assert (b = a) as -> by congruence. rewrite (list_insert_id l j a) by done. by rewrite (list_insert_id l j a). }
  rewrite (Permutation_inj (<[i:=b]> (<[j:=a]> l)) l). split; [by rewrite !insert_length|].
  exists (fun k => if decide (k = i) then j else if decide (k = j) then i else k). split.
  - intros x y. repeat case_decide; subst; congruence.
  - intros k. assert ((i < length l)%nat /\ (j < length l)%nat) as [Hi Hj] by (split; eapply lookup_lt_Some; eauto).
    case_decide as H1; [subst|case_decide as H2; [subst|]].
    + rewrite list_lookup_insert; [done|by rewrite insert_length].
    + rewrite list_lookup_insert_ne by done. by rewrite list_lookup_insert.
    + rewrite !list_lookup_insert_ne by done. done.
Qed.

Lemma ns_Swap_ok s i j : ns_dom s -> (i < length (ns_l s))%nat -> (j < length (ns_l s))%nat ->
  exists s', ns_Swap s i j = Some s' /\ ns_l s' = swap_list (ns_l s) i j /\ ns_dom s' /\ (ns_idx s -> ns_idx s').
Proof.
  intros [Hnd Hd] Hi Hj. unfold ns_Swap.
  destruct (lookup_lt_is_Some_2 _ _ Hi) as [a Ea]. destruct (lookup_lt_is_Some_2 _ _ Hj) as [b Eb].
  rewrite Ea, Eb. eexists. split; [done|].
  assert (<[i:=b]> (<[j:=a]> (ns_l s)) = swap_list (ns_l s) i j) as El by (unfold swap_list; by rewrite Ea, Eb).
  cbn [ns_l]. split; [done|]. pose proof (swap_perm (ns_l s) i j) as HP. split.
  - split; cbn [ns_l ns_m]; rewrite El; [by rewrite HP|]. intros x. rewrite HP, <- Hd.
    destruct (decide (x = b)) as [->|Hb]; [rewrite lookup_insert|rewrite lookup_insert_ne by done].
    { split; [|eauto]. intros _. apply Hd. by eapply elem_of_list_lookup_2. }
    destruct (decide (x = a)) as [->|Ha]; [rewrite lookup_insert|by rewrite lookup_insert_ne].
    split; [|eauto]. intros _. apply Hd. by eapply elem_of_list_lookup_2.
  - intros Hidx x k. cbn [ns_l ns_m].
    destruct (decide (x = b)) as [->|Hb]; [rewrite lookup_insert|rewrite lookup_insert_ne by done].
    { intros [= <-]. rewrite list_lookup_insert; [done|by rewrite insert_length]. }
    destruct (decide (x = a)) as [->|Ha]; [rewrite lookup_insert|rewrite lookup_insert_ne by done].
    { intros [= <-]. assert (i <> j) by congruence. rewrite list_lookup_insert_ne by done. by rewrite list_lookup_insert. }
    intros H. apply Hidx in H. rewrite !list_lookup_insert_ne by congruence. done.
Qed.

Lemma ns_swaps_ok w : forall s, ns_dom s ->
  Forall (fun w => (w.1 < length (ns_l s))%nat /\ (w.2 < length (ns_l s))%nat) w ->
  exists s', ns_swaps s w = Some s' /\ ns_l s' = foldl (fun l w => swap_list l w.1 w.2) (ns_l s) w /\
    ns_dom s' /\ (ns_idx s -> ns_idx s').
Proof.
  induction w as [|[i j] w IH]; intros s Hd Hw; cbn [ns_swaps foldl fst snd]; [by eauto|].
  apply Forall_cons in Hw as [[Hi Hj] Hw]. cbn [fst snd] in *.
  destruct (ns_Swap_ok s i j Hd Hi Hj) as (s1 & -> & E1 & D1 & X1).
  assert (length (ns_l s1) = length (ns_l s)) as El by (rewrite E1; by rewrite swap_perm).
  destruct (IH s1 D1) as (s2 & E2 & L2 & D2 & X2); [by rewrite El|].
  exists s2. rewrite E1 in L2. split; [done|]. split; [done|]. split; [done|]. auto.
Qed.

Lemma foldl_swap_perm w : forall l, foldl (fun l w => swap_list l w.1 w.2) l w ≡ₚ l.
Proof. induction w as [|[i j] w IH]; intros l; cbn [foldl fst snd]; [done|]. by rewrite IH, swap_perm. Qed.

Lemma ns_Sort_ok srt s : sort_ok srt -> ns_dom s ->
  exists s', ns_Sort srt s = Some s' /\ ns_l s' ≡ₚ ns_l s /\ StronglySorted not_gt (ns_l s') /\
    ns_dom s' /\ (ns_idx s -> ns_idx s').
Proof.
  intros Hs Hd. destruct (Hs (ns_l s)) as [Hr Hso].
  destruct (ns_swaps_ok _ s Hd Hr) as (s' & E & L & D & X). exists s'. split; [done|].
  rewrite L. split; [apply foldl_swap_perm|]. done.
Qed.

Lemma ns_build_ok ids : forall m l, ns_dom (NSet m l) -> ns_idx (NSet m l) ->
  let s := ns_build m l ids in ns_dom s /\ ns_idx s /\ forall x, x ∈ ns_l s <-> x ∈ l \/ x ∈ ids.
Proof.
  induction ids as [|id ids IH]; intros m l Hd Hx; cbn [ns_build].
  { split; [done|]. split; [done|]. intros x. cbn [ns_l]. split; [by left|]. intros [?|H]; [done|inversion H]. }
  destruct Hd as [Hnd Hd]. cbn [ns_l ns_m] in *. destruct (m !! id) as [k|] eqn:E.
  - destruct (IH m l) as (A & B & C); [done|done|]. split; [done|]. split; [done|]. intros x. rewrite C.
    assert (id ∈ l) by (apply Hd; eauto). set_solver.
  - assert (id ∉ l) as Hn by (intros Hin; apply Hd in Hin as [? ?]; congruence).
    destruct (IH (<[id:=length l]> m) (l ++ [id])) as (A & B & C).
    + split; cbn [ns_l ns_m].
      * apply NoDup_app. split; [done|]. split; [|apply NoDup_singleton]. set_solver.
      * intros x. rewrite elem_of_app, elem_of_list_singleton, <- Hd.
        destruct (decide (x = id)) as [->|]; [rewrite lookup_insert; naive_solver|rewrite lookup_insert_ne by done; naive_solver].
    + intros x i. cbn [ns_l ns_m]. destruct (decide (x = id)) as [->|]; [rewrite lookup_insert|rewrite lookup_insert_ne by done].
      * intros [= <-]. by rewrite list_lookup_middle.
      * intros H. apply Hx in H. cbn [ns_l] in H. by apply lookup_app_l_Some.
    + split; [done|]. split; [done|]. intros x. rewrite C. set_solver.
Qed.

Definition ns_rep (s : nset) (S : gset (list N)) : Prop := ns_dom s /\ forall x, x ∈ ns_l s <-> x ∈ S.
Lemma ns_rep_size s S : ns_rep s S -> size S = length (ns_l s).
Proof.
  intros [[Hnd _] H]. assert (S = list_to_set (ns_l s)) as -> by (apply set_eq; intros x; rewrite elem_of_list_to_set; by rewrite H).
  by apply size_list_to_set.
Qed.

Lemma NoDup_delete_at (l : list (list N)) i x : NoDup l -> l !! i = Some x ->
  NoDup (take i l ++ drop (S i) l) /\ forall y, y ∈ take i l ++ drop (S i) l <-> y ∈ l /\ y <> x.
Proof.
  intros Hnd Hi. rewrite <- (take_drop_middle _ _ _ Hi) in Hnd.
  assert (forall y, y ∈ l <-> y ∈ take i l \/ y = x \/ y ∈ drop (S i) l) as Hm.
  { intros y. rewrite <- (take_drop_middle _ _ _ Hi) at 1. rewrite elem_of_app, elem_of_cons. done. }
  apply NoDup_app in Hnd as (H1 & H2 & H3). apply NoDup_cons in H3 as [H3 H4]. split.
  - apply NoDup_app. split; [done|]. split; [|done]. intros y Hy Hy2. eapply H2; [done|]. by right.
  - intros y. rewrite Hm, elem_of_app. specialize (H2 y). rewrite elem_of_cons in H2. split.
    + intros [Hy|Hy]; [split; [by left|]; intros ->; apply H2; [done|by left]|split; [by right; right|]; intros ->; done].
    + intros [[Hy|[->|Hy]] Hne]; [by left|done|by right].
Qed.

(** One step; only a deletion spoils the index. *)
Lemma ns_step_ok srt zero s S o : sort_ok srt -> ns_rep s S ->
  (forall id, o = NDelete (Some id) -> id ∈ S -> ns_idx s) ->
  exists s' S' r, ns_step srt zero s o = Some (s', r) /\ nspec zero S o S' r /\ ns_rep s' S' /\
    (ns_idx s -> deletions S [o] = 0%nat -> ns_idx s') /\ forall os, deletions S (o :: os) = (deletions S [o] + deletions S' os)%nat.
Proof.
  intros Hsrt [Hd Hm] Hdel. pose proof (ns_rep_size s S (conj Hd Hm)) as Hsz. destruct Hd as [Hnd Hd].
  destruct o as [[id|]|[id|]|i|[id|]| |]; cbn [ns_step].
  - destruct (ns_m s !! id) as [k|] eqn:E.
    + assert (id ∈ S) as Hin by (apply Hm, Hd; eauto). exists s, ({[id]} ∪ S), (NBool false).
      split; [done|]. split.
      { pose proof (SpPut zero S id) as P. rewrite bool_decide_eq_false_2 in P by tauto. done. }
      split; [|done]. split; [done|]. intros x. rewrite Hm. set_solver.
    + assert (id ∉ S) as Hn by (intros Hin; apply Hm, Hd in Hin as [? ?]; congruence).
      assert (id ∉ ns_l s) as Hnl by (by rewrite Hm).
      eexists _, ({[id]} ∪ S), (NBool true). split; [done|]. split.
      { pose proof (SpPut zero S id) as P. by rewrite bool_decide_eq_true_2 in P. }
      split; [|split; [|done]].
      * split; [split|]; cbn [ns_l ns_m].
        -- apply NoDup_app. split; [done|]. split; [|apply NoDup_singleton]. set_solver.
        -- intros x. rewrite elem_of_app, elem_of_list_singleton, <- Hd.
           destruct (decide (x = id)) as [->|]; [rewrite lookup_insert; naive_solver|rewrite lookup_insert_ne by done; naive_solver].
        -- intros x. rewrite elem_of_app, elem_of_list_singleton, Hm. set_solver.
      * intros Hx _ x i. cbn [ns_l ns_m]. destruct (decide (x = id)) as [->|]; [rewrite lookup_insert|rewrite lookup_insert_ne by done].
        -- intros [= <-]. by rewrite list_lookup_middle.
        -- intros H. apply Hx in H. by apply lookup_app_l_Some.
  - exists s, S, (NBool false). split; [done|]. split; [constructor|]. done.
  - cbn [deletions]. destruct (ns_m s !! id) as [i|] eqn:E.
    + assert (id ∈ S) as Hin by (apply Hm, Hd; eauto). pose proof (Hdel id eq_refl Hin) as Hx.
      apply Hx in E as El. pose proof (lookup_lt_Some _ _ _ El) as Hlt.
      destruct (Nat.leb_spec (Datatypes.S i) (length (ns_l s))); [|lia].
      destruct (NoDup_delete_at _ _ _ Hnd El) as [N1 N2].
      eexists _, (S ∖ {[id]}), NUnit. split; [done|]. split; [constructor|]. split; [|split].
      * split; [split|]; cbn [ns_l ns_m]; [done| |].
        -- intros x. rewrite N2, <- Hd. destruct (decide (x = id)) as [->|Hne].
           ++ rewrite lookup_delete. split; [intros [? ?]; done|tauto].
           ++ rewrite lookup_delete_ne by done. tauto.
        -- intros x. rewrite N2, Hm. set_solver.
      * rewrite decide_True by done. intros. lia.
      * intros os. lia.
    + assert (id ∉ S) as Hn by (intros Hin; apply Hm, Hd in Hin as [? ?]; congruence).
      exists s, (S ∖ {[id]}), NUnit. split; [done|]. split; [constructor|]. split; [|split; [done|]].
      * split; [done|]. intros x. rewrite Hm. set_solver.
      * intros os. lia.
  - exists s, S, NUnit. split; [done|]. split; [constructor|]. done.
  - exists s, S, (NId (if (i <? 0)%Z then None else ns_l s !! Z.to_nat i)). split; [done|]. split; [|done].
    constructor.
    + intros x. destruct (i <? 0)%Z; [done|]. intros H. apply Hm. by eapply elem_of_list_lookup_2.
    + destruct (Z.ltb_spec i 0); [split; [by left|done]|]. rewrite lookup_ge_None, Hsz. lia.
  - eexists s, S, _. split; [done|]. split; [|done]. destruct (ns_m s !! id) as [k|] eqn:E.
    + pose proof (SpIdx zero S id k) as P. rewrite bool_decide_eq_true_2 in P by (apply Hm, Hd; eauto). done.
    + pose proof (SpIdx zero S id 0) as P. rewrite bool_decide_eq_false_2 in P; [done|].
      intros Hin. apply Hm, Hd in Hin as [? ?]. congruence.
  - exists s, S, (NIdx 0 false). split; [done|]. split; [constructor|]. done.
  - eexists s, S, _. split; [done|]. split; [rewrite <- Hsz; constructor|]. done.
  - destruct (ns_l s) as [|x0 l0] eqn:El.
    + exists s, S, (NIds []). split; [done|]. split; [|split; [split; [split|]; by rewrite El|done]].
      pose proof (SpList zero S []) as P. rewrite Hsz in P. apply P; [constructor|constructor|]. intros x. by rewrite Hm.
    + rewrite <- El in *. destruct (ns_Sort_ok srt s Hsrt (conj Hnd Hd)) as (s' & -> & HP & Hso & Hd' & Hx').
      exists s', S, (NIds (replicate (length (ns_l s)) zero ++ ns_l s')). split; [done|]. split; [|split; [|split; [auto|done]]].
      * rewrite <- Hsz. constructor; [done|apply Hd'|]. intros x. by rewrite HP, Hm.
      * split; [done|]. intros x. by rewrite HP, Hm.
Qed.

Lemma ns_run_ok srt zero os : forall s S, sort_ok srt -> ns_rep s S -> (deletions S os <= 1)%nat ->
  (ns_idx s \/ deletions S os = 0%nat) ->
  exists s' S' rs, ns_run srt zero s os = Some (s', rs) /\ nspec_run zero S os S' rs /\ ns_rep s' S' /\
    (ns_idx s -> deletions S os = 0%nat -> ns_idx s').
Proof.
  induction os as [|o os IH]; intros s S Hsrt Hr Hle Hx; cbn [ns_run].
  { exists s, S, []. split; [done|]. split; [constructor|]. done. }
  destruct (ns_step_ok srt zero s S o Hsrt Hr) as (s1 & S1 & r & -> & Hsp & Hr1 & Hx1 & Hdel).
  { intros id -> Hin. cbn [deletions] in Hx, Hle. rewrite decide_True in Hx by done. destruct Hx as [|Hx]; [done|lia]. }
  rewrite Hdel in Hle, Hx.
  destruct (IH s1 S1 Hsrt Hr1) as (s2 & S2 & rs & -> & Hrun & Hr2 & Hx2); [lia| |].
  { destruct Hx as [Hx|Hx]; [|right; lia]. destruct (deletions S [o]) as [|k]; [left; by apply Hx1|right; lia]. }
  exists s2, S2, (r :: rs). split; [done|]. split; [by econstructor|]. split; [done|].
  rewrite Hdel. intros Hi H0. apply Hx2; [apply Hx1; [done|lia]|lia].
Qed.

Lemma NewNodeIDSet_ok srt ids : sort_ok srt ->
  exists s, NewNodeIDSet srt ids = Some s /\ ns_rep s (list_to_set ids) /\ ns_idx s.
Proof.
  intros Hsrt. unfold NewNodeIDSet.
  assert (ns_dom (NSet ∅ []) /\ ns_idx (NSet ∅ [])) as [D X].
  { split; [split; [constructor|]; intros x; cbn; rewrite lookup_empty; split; [intros [? ?]; done|intros H; inversion H]|].
    intros x i. cbn. by rewrite lookup_empty. }
  destruct ids as [|id ids]; [exists (NSet ∅ []); split; [done|]; split; [|done]; split; [done|]; cbn; set_solver|].
  destruct (ns_build_ok (id :: ids) ∅ [] D X) as (A & B & C).
  destruct (ns_Sort_ok srt _ Hsrt A) as (s & -> & HP & _ & Hd & Hx). exists s. split; [done|].
  split; [|auto]. split; [done|]. intros x. rewrite HP, C, elem_of_list_to_set. set_solver.
Qed.

(* --------------------------------------------------------------- theorems *)
(** For every list of ids and every history in which at most one member is deleted,
    nothing panics and every call returns what the set of members determines. *)
Theorem C57_set_semantics : forall srt zero ids os, sort_ok srt ->
  (deletions (list_to_set ids) os <= 1)%nat ->
  exists s0 s S rs, NewNodeIDSet srt ids = Some s0 /\ ns_run srt zero s0 os = Some (s, rs) /\
    nspec_run zero (list_to_set ids) os S rs.
Proof.
  intros srt zero ids os Hs Hd. destruct (NewNodeIDSet_ok srt ids Hs) as (s0 & E & Hr & Hx).
  destruct (ns_run_ok srt zero os s0 _ Hs Hr Hd (or_introl Hx)) as (s & S & rs & E2 & Hrun & _).
  by exists s0, s, S, rs.
Qed.
Print Assumptions C57_set_semantics.

(** As long as no member was deleted, GetIndex and Get are inverse. *)
Theorem C57_index : forall srt zero ids os id s0 s rs i, sort_ok srt ->
  deletions (list_to_set ids) os = 0%nat ->
  NewNodeIDSet srt ids = Some s0 -> ns_run srt zero s0 os = Some (s, rs) ->
  ns_step srt zero s (NGetIndex (Some id)) = Some (s, NIdx i true) ->
  ns_step srt zero s (NGet (Z.of_nat i)) = Some (s, NId (Some id)).
Proof.
  intros srt zero ids os id s0 s rs i Hs Hd E0 E1 E. destruct (NewNodeIDSet_ok srt ids Hs) as (s0' & E0' & Hr & Hx).
  assert (s0' = s0) as -> by congruence.
  destruct (ns_run_ok srt zero os s0 _ Hs Hr ltac:(lia) (or_introl Hx)) as (s' & S & rs' & E2 & _ & _ & X).
  assert (s' = s) as -> by congruence. specialize (X Hx Hd). cbn [ns_step] in *.
  destruct (ns_m s !! id) as [k|] eqn:Ek; [|done]. assert (k = i) as -> by congruence.
  apply X in Ek. destruct (Z.ltb_spec (Z.of_nat i) 0); [lia|]. by rewrite Nat2Z.id, Ek.
Qed.
Print Assumptions C57_index.

(** A sorter that meets the contract: selection sort. *)
Fixpoint min_index (best : nat) (bx : list N) (i : nat) (l : list (list N)) : nat :=
  match l with
  | [] => best
  | y :: r => if bytes_ltb y bx then min_index i y (S i) r else min_index best bx (S i) r
  end.
Fixpoint sel_sort (fuel i : nat) (l : list (list N)) : list (nat * nat) :=
  match fuel with
  | O => []
  | S f => match l !! i with
           | None => []
           | Some x => let j := min_index i x (S i) (drop (S i) l) in
                       (i, j) :: sel_sort f (S i) (swap_list l i j)
           end
  end.
Definition selection (l : list (list N)) : list (nat * nat) := sel_sort (length l) 0 l.

Lemma bytes_ltb_asym a : forall b, bytes_ltb a b = true -> bytes_ltb b a = false.
Proof.
  induction a as [|x a IH]; intros [|y b] H; cbn in *; try done.
  destruct (N.eqb_spec x y) as [->|Hne]; [rewrite N.eqb_refl; by apply IH|].
  destruct (N.eqb_spec y x); [congruence|]. apply N.ltb_lt in H. apply N.ltb_ge. lia.
Qed.
Lemma not_gt_trans a : forall b c, not_gt a b -> not_gt b c -> not_gt a c.
Proof.
  unfold not_gt. induction a as [|x a IH]; intros [|y b] [|z c] H1 H2; cbn in *; try done.
  destruct (N.eqb_spec y x) as [->|]; destruct (N.eqb_spec z x) as [->|].
  - rewrite ?N.eqb_refl in *. by eapply IH.
  - destruct (N.eqb_spec z x); [congruence|]. done.
  - destruct (N.eqb_spec x y); [congruence|]. apply N.ltb_ge in H1, H2. lia.
  - destruct (N.eqb_spec z y) as [->|].
    + done.
    + apply N.ltb_ge in H1, H2. apply N.ltb_ge. lia.
Qed.
Lemma not_gt_refl a : not_gt a a.
Proof. unfold not_gt. induction a as [|x a IH]; cbn; [done|]. by rewrite N.eqb_refl. Qed.

Lemma min_index_spec l r : forall best bx i, l !! best = Some bx -> (best < i)%nat -> drop i l = r ->
  exists m, l !! min_index best bx i r = Some m /\ (best <= min_index best bx i r)%nat /\
    not_gt m bx /\ Forall (not_gt m) r.
Proof.
  induction r as [|y r IH]; intros best bx i Hb Hlt Hr; cbn [min_index].
  { exists bx. split; [done|]. split; [lia|]. split; [apply not_gt_refl|constructor]. }
  assert (l !! i = Some y) as Hi by (rewrite <- (Nat.add_0_r i), <- lookup_drop, Hr; done).
  assert (drop (S i) l = r) as Hr' by (replace (S i) with (i + 1)%nat by lia; rewrite <- drop_drop, Hr; done).
  destruct (bytes_ltb y bx) eqn:E.
  - destruct (IH i y (S i) Hi ltac:(lia) Hr') as (m & A & B & C & D). exists m. split; [done|]. split; [lia|].
    split; [|by constructor]. eapply not_gt_trans; [done|]. by apply bytes_ltb_asym.
  - destruct (IH best bx (S i) Hb ltac:(lia) Hr') as (m & A & B & C & D). exists m. split; [done|]. split; [lia|].
    split; [done|]. constructor; [|done]. by eapply not_gt_trans.
Qed.

Lemma swap_list_len l i j : length (swap_list l i j) = length l.
Proof. by rewrite swap_perm. Qed.

Lemma sel_sort_ok fuel : forall i l, (length l <= fuel + i)%nat ->
  StronglySorted not_gt (take i l) -> (forall a b, a ∈ take i l -> b ∈ drop i l -> not_gt a b) ->
  Forall (fun w => (w.1 < length l)%nat /\ (w.2 < length l)%nat) (sel_sort fuel i l) /\
  StronglySorted not_gt (foldl (fun l w => swap_list l w.1 w.2) l (sel_sort fuel i l)).
Proof.
  induction fuel as [|f IH]; intros i l Hf Hs Hle; cbn [sel_sort].
  { split; [constructor|]. cbn [foldl]. rewrite take_ge in Hs by lia. done. }
  destruct (l !! i) as [x|] eqn:Ei.
  2:{ split; [constructor|]. cbn [foldl]. apply lookup_ge_None in Ei. rewrite take_ge in Hs by lia. done. }
  set (j := min_index i x (S i) (drop (S i) l)).
  destruct (min_index_spec l (drop (S i) l) i x (S i) Ei ltac:(lia) eq_refl) as (m & Hj & Hij & Hmx & Hall).
  fold j in Hj, Hij. pose proof (lookup_lt_Some _ _ _ Ei) as Hil. pose proof (lookup_lt_Some _ _ _ Hj) as Hjl.
  cbn [foldl fst snd]. set (l' := swap_list l i j).
  assert (take i l' = take i l) as Et.
  { unfold l', swap_list. rewrite Ei, Hj. rewrite take_insert by lia. by rewrite take_insert by lia. }
  assert (l' !! i = Some m) as Ei'.
  { unfold l', swap_list. rewrite Ei, Hj. apply list_lookup_insert. by rewrite insert_length. }
  assert (drop i l' ≡ₚ drop i l) as HPd.
  { pose proof (swap_perm l i j) as HP. fold l' in HP. rewrite <- (take_drop i l'), <- (take_drop i l) in HP at 1.
    rewrite Et in HP. by apply Permutation_app_inv_l in HP. }
  assert (forall b, b ∈ drop i l -> not_gt m b) as Hmin.
  { intros b Hb. rewrite (drop_S l x i Ei) in Hb. apply elem_of_cons in Hb as [->|Hb]; [done|].
    rewrite Forall_forall in Hall. by apply Hall. }
  assert (m ∈ drop i l) as Hmd.
  { rewrite <- HPd, (drop_S l' m i Ei'). constructor. }
  destruct (IH (S i) l') as [A B].
  - unfold l'. rewrite swap_list_len. lia.
  - rewrite (take_S_r l' i m Ei'), Et.
    assert (Forall (fun a => not_gt a m) (take i l)) as Hf' by (apply Forall_forall; intros a Ha; by apply Hle).
    clear -Hs Hf'. revert Hs Hf'. generalize (take i l). intros lt Hs Hf'. induction Hs as [|a lt Hs IH Ha]; cbn [app]; [repeat constructor|].
    apply Forall_cons in Hf' as [? ?]. constructor; [by apply IH|]. apply Forall_app. split; [done|]. by constructor.
  - intros a b Ha Hb. rewrite (take_S_r l' i m Ei'), Et in Ha.
    assert (b ∈ drop i l) as Hb' by (rewrite <- HPd, (drop_S l' m i Ei'); by right).
    apply elem_of_app in Ha as [Ha|Ha]; [by apply Hle|]. apply elem_of_list_singleton in Ha as ->. by apply Hmin.
  - split; [|done]. constructor; [done|]. eapply Forall_impl; [exact A|]. unfold l'. rewrite swap_list_len. done.
Qed.

Theorem C57_sorter_exists : sort_ok selection.
Proof.
  intros l. unfold selection. apply sel_sort_ok; [lia|rewrite take_0; constructor|]. rewrite take_0. intros a b H. inversion H.
Qed.
Print Assumptions C57_sorter_exists.

(** Finding: deleting leaves the indexes of the later ids one too high. The second
    deletion may then remove the wrong id from the list, or panic. *)
Theorem C57_second_delete_wrong_id : forall srt zero a b c,
  a <> b -> a <> c -> b <> c ->
  exists s, ns_run srt zero (NSet ∅ [])
    [NPut (Some a); NPut (Some b); NPut (Some c); NDelete (Some a); NDelete (Some b); NGet 0; NGetIndex (Some b)]
    = Some (s, [NBool true; NBool true; NBool true; NUnit; NUnit; NId (Some b); NIdx 0 false]).
Proof.
  intros srt zero a b c Hab Hac Hbc. cbn [ns_run ns_step ns_m ns_l app length]. rewrite lookup_empty.
  cbn [ns_run ns_step ns_m ns_l app length]. rewrite (lookup_insert_ne _ a b), lookup_empty by done.
  cbn [ns_run ns_step ns_m ns_l app length]. rewrite (lookup_insert_ne _ b c), (lookup_insert_ne _ a c), lookup_empty by done.
  cbn [ns_run ns_step ns_m ns_l app length]. rewrite (lookup_insert_ne _ c a), (lookup_insert_ne _ b a), lookup_insert by done.
  cbn [ns_run ns_step ns_m ns_l app length Nat.leb take drop].
  rewrite (lookup_delete_ne _ a b), (lookup_insert_ne _ c b), lookup_insert by done.
  cbn [ns_run ns_step ns_m ns_l app length Nat.leb take drop]. rewrite lookup_delete.
  eexists. reflexivity.
Qed.
Print Assumptions C57_second_delete_wrong_id.

Theorem C57_second_delete_panics : forall srt zero a b, a <> b ->
  ns_run srt zero (NSet ∅ []) [NPut (Some a); NPut (Some b); NDelete (Some a); NDelete (Some b)] = None.
Proof.
  intros srt zero a b Hab. cbn [ns_run ns_step ns_m ns_l app length]. rewrite lookup_empty.
  cbn [ns_run ns_step ns_m ns_l app length]. rewrite (lookup_insert_ne _ a b), lookup_empty by done.
  cbn [ns_run ns_step ns_m ns_l app length]. rewrite (lookup_insert_ne _ b a), lookup_insert by done.
  cbn [ns_run ns_step ns_m ns_l app length Nat.leb take drop].
  rewrite (lookup_delete_ne _ a b), lookup_insert by done. reflexivity.
Qed.
Print Assumptions C57_second_delete_panics.

(** Finding: listing returns extra zero ids. *)
Theorem C57_listing_exact_refuted : forall srt zero id, sort_ok srt ->
  exists s, ns_run srt zero (NSet ∅ []) [NPut (Some id); NList] = Some (s, [NBool true; NIds [zero; id]]).
Proof.
  intros srt zero id Hs. cbn [ns_run ns_step ns_m ns_l app length]. rewrite lookup_empty.
  cbn [ns_run ns_step ns_m ns_l app length].
  destruct (ns_Sort_ok srt (NSet (<[id := 0%nat]> ∅) [id]) Hs) as (s & -> & HP & _).
  { split; cbn [ns_l ns_m]; [apply NoDup_singleton|]. intros x. rewrite elem_of_list_singleton.
    destruct (decide (x = id)) as [->|]; [rewrite lookup_insert; naive_solver|].
    rewrite lookup_insert_ne, lookup_empty by done. split; [intros [? ?]; done|done]. }
  cbn [ns_l] in HP. apply Permutation_singleton_r in HP. rewrite HP. eexists. reflexivity.
Qed.
Print Assumptions C57_listing_exact_refuted.

(* ------------------------------------------------------ NodeIDs operations *)
Lemma foldl_union (l : list (list N)) : forall m x, x ∈ foldl (fun m x => {[x]} ∪ m) m l <-> x ∈ (m : gset (list N)) \/ x ∈ l.
Proof. induction l as [|a l IH]; intros m x; cbn [foldl]; [set_solver|]. rewrite IH. set_solver. Qed.
Lemma foldl_minus (l : list (list N)) : forall m x, x ∈ foldl (fun m x => m ∖ {[x]}) m l <-> x ∈ (m : gset (list N)) /\ x ∉ l.
Proof. induction l as [|a l IH]; intros m x; cbn [foldl]; [set_solver|]. rewrite IH. set_solver. Qed.

(** Union and Remove return the union and the difference, without repetition, in the
    order in which the map happens to be iterated; Contains is membership and Equal
    is equality. *)
Theorem C57_node_ids : forall (iter : gset (list N) -> list (list N)) ns os id,
  (forall S, NoDup (iter S) /\ forall x, x ∈ iter S <-> x ∈ S) ->
  (NodeIDs_Contains ns id = true <-> id ∈ ns) /\
  (NoDup (NodeIDs_Union iter ns os) /\ forall x, x ∈ NodeIDs_Union iter ns os <-> x ∈ ns \/ x ∈ os) /\
  (NoDup (NodeIDs_Remove iter ns os) /\ forall x, x ∈ NodeIDs_Remove iter ns os <-> x ∈ ns /\ x ∉ os) /\
  (NodeIDs_Equal ns os = true <-> ns = os).
Proof.
  intros iter ns os id Hi. split; [|split; [|split]].
  - induction ns as [|x ns IH]; cbn [NodeIDs_Contains]; [split; [done|intros H; inversion H]|].
    rewrite elem_of_cons. case_decide; [naive_solver|]. rewrite IH. naive_solver.
  - unfold NodeIDs_Union. split; [apply Hi|]. intros x. rewrite (proj2 (Hi _)), !foldl_union. set_solver.
  - unfold NodeIDs_Remove. destruct ns as [|n ns]; [split; [constructor|]; set_solver|].
    split; [apply Hi|]. intros x. rewrite (proj2 (Hi _)), foldl_minus, foldl_union. set_solver.
  - unfold NodeIDs_Equal. destruct ns as [|n ns], os as [|o os]; try done.
    cbn [length Nat.eqb andb]. destruct (Nat.eqb_spec (length ns) (length os)) as [El|Hn].
    + cbn [negb]. generalize (o :: os), (n :: ns), (f_equal S El : length (n :: ns) = length (o :: os)). clear.
      intros os ns. revert os. induction ns as [|x ns IH]; intros [|y os] El; try done. cbn [ids_eq_loop].
      injection El as El. case_decide; [|naive_solver]. rewrite IH by done. naive_solver.
    + cbn [negb]. split; [done|]. intros E. apply (f_equal length) in E. cbn in E. congruence.
Qed.
Print Assumptions C57_node_ids.

Example C57_iter_example : forall S : gset (list N), NoDup (elements S) /\ forall x, x ∈ elements S <-> x ∈ S.
Proof. intros S. split; [apply NoDup_elements|]. intros x. apply elem_of_elements. Qed.

(** A concrete history within the hypotheses of C57_set_semantics. *)
Example C57_example :
  exists s0 s, NewNodeIDSet selection [[3]; [1]; [2]; [1]] = Some s0 /\
    deletions (list_to_set [[3]; [1]; [2]; [1]]) [NPut (Some [0]); NDelete (Some [2]); NLen; NGetIndex (Some [2]); NList] = 1%nat /\
    ns_run selection [9] s0 [NPut (Some [0]); NDelete (Some [2]); NLen; NGetIndex (Some [2]); NList] =
      Some (s, [NBool true; NUnit; NNum 3; NIdx 0 false; NIds [[9]; [9]; [9]; [0]; [1]; [3]]]).
Proof. eexists _, _. split; [vm_compute; reflexivity|]. split; [vm_compute; reflexivity|]. vm_compute. reflexivity. Qed.
