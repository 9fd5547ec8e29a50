(** C99: attribute lists in memory. *)
From Coq Require Import Lia Sorted.
From Verif Require Import Base CombinedModel CombinedProofs ChainInfoModel ChainInfoProps AttrMemModel.
From stdpp Require Import gmap sorting.
Global Open Scope N_scope.

(* ------------------------------------------------------------- specification *)
(** A slice lies, with its capacity, inside an array that exists. *)
Definition good (h : mem) (o : option sl) : Prop :=
  match o with
  | None => True
  | Some s => exists l, h !! s_arr s = Some l /\ (s_len s <= s_cap s)%nat /\ (s_off s + s_cap s <= length l)%nat
  end.
(** The array of a slice is not number a. *)
Definition elsewhere (o : option sl) (a : nat) : Prop := match o with None => True | Some s => s_arr s <> a end.

(* -------------------------------------------------------------------- proofs *)
(** from (h, o) to (h', o'): only the array of o is written to, o' has that array or a new one *)
Definition moves (h : mem) (o : option sl) (h' : mem) (o' : option sl) : Prop :=
  (forall a l, h !! a = Some l -> elsewhere o a -> h' !! a = Some l) /\
  (forall a, h !! a <> None -> h' !! a <> None) /\
  (forall a, h !! a <> None -> elsewhere o a -> elsewhere o' a).
Lemma moves_refl h o : moves h o h o.
Proof. by split; [|split]. Qed.
Lemma moves_trans h o h1 o1 h2 o2 : moves h o h1 o1 -> moves h1 o1 h2 o2 -> moves h o h2 o2.
Proof.
  intros (A1 & B1 & C1) (A2 & B2 & C2). split; [|split].
  - intros a l Ha He. apply A2; [by apply A1|]. apply C1; [by rewrite Ha|done].
  - intros a Ha. by apply B2, B1.
  - intros a Ha He. apply C2; [by apply B1|by apply C1].
Qed.
Lemma fresh_none (h : mem) : h !! (fresh (dom h) : nat) = None.
Proof. apply not_elem_of_dom, is_fresh. Qed.
Lemma moves_fresh (h : mem) o l s : s_arr s = fresh (dom h) -> moves h o (<[fresh (dom h) := l]> h) (Some s).
Proof.
  intros Hs. pose proof (fresh_none h) as Hf. split; [|split].
  - intros a x Ha _. rewrite lookup_insert_ne; [done|]. intros <-. by rewrite Hf in Ha.
  - intros a Ha. destruct (decide (fresh (dom h) = a)) as [<-|]; [by rewrite lookup_insert|by rewrite lookup_insert_ne].
  - intros a Ha _. cbn. rewrite Hs. intros <-. by rewrite Hf in Ha.
Qed.
Lemma moves_same (h : mem) s s' l : s_arr s' = s_arr s -> moves h (Some s) (<[s_arr s := l]> h) (Some s').
Proof.
  intros Hs. split; [|split].
  - intros a x Ha He. by rewrite lookup_insert_ne.
  - intros a Ha. destruct (decide (s_arr s = a)) as [<-|]; [by rewrite lookup_insert|by rewrite lookup_insert_ne].
  - intros a Ha He. cbn in *. by rewrite Hs.
Qed.
Lemma len_contents h o : good h o -> length (contents h o) = len o.
Proof.
  destruct o as [s|]; [|done]. intros (l & Hl & H1 & H2). cbn. unfold read, array. rewrite Hl. cbn. rewrite take_length, drop_length. lia.
Qed.
Lemma append_spec sp h o x h' o' : good h o -> append1 sp h o x = (h', o') ->
  good h' o' /\ contents h' o' = contents h o ++ [x] /\ moves h o h' o' /\ o' <> None.
Proof.
  intros Hg. unfold append1.
  assert (Grow : forall l, (<[fresh (dom h) := l ++ x :: replicate (sp (S (length l))) []]> h,
            Some (Sl (fresh (dom h)) 0 (S (length l)) (S (length l) + sp (S (length l))))) = (h', o') ->
            good h' o' /\ contents h' o' = l ++ [x] /\ moves h o h' o' /\ o' <> None).
  { intros l [= <- <-]. split; [|split; [|split; [by apply moves_fresh|done]]].
    - eexists. split; [apply lookup_insert|]. cbn. rewrite app_length. cbn. rewrite replicate_length. lia.
    - cbn. unfold read, array. cbn. rewrite lookup_insert. cbn. rewrite drop_0.
      change (x :: replicate (sp (S (length l))) []) with ([x] ++ replicate (sp (S (length l))) []). rewrite app_assoc.
      apply take_app_alt. rewrite app_length. cbn. lia. }
  destruct o as [s|]; [|apply (Grow [])].
  destruct (s_len s <? s_cap s)%nat eqn:E; [|apply Grow]. clear Grow. apply Nat.ltb_lt in E.
  destruct Hg as (l & Hl & H1 & H2). intros [= <- <-]. unfold array. rewrite Hl. cbn [default].
  split; [|split; [|split; [by apply moves_same|done]]].
  - eexists. split; [apply lookup_insert|]. cbn. rewrite insert_length. lia.
  - cbn. unfold read, array. cbn. rewrite lookup_insert, Hl. cbn.
    rewrite drop_insert_le by lia. replace (s_off s + s_len s - s_off s)%nat with (s_len s) by lia.
    rewrite (take_S_r _ (s_len s) x).
    + rewrite take_insert by lia. done.
    + apply list_lookup_insert. rewrite drop_length. lia.
Qed.
Lemma sort_length l : length (sort_strings l) = length l.
Proof. unfold sort_strings. by rewrite merge_sort_Permutation. Qed.
Lemma sort_at_spec h o : good h o ->
  good (sort_at h o) o /\ contents (sort_at h o) o = sort_strings (contents h o) /\ moves h o (sort_at h o) o.
Proof.
  intros Hg. destruct o as [s|]; [|split; [done|split; [done|apply moves_refl]]].
  assert (Hn := len_contents _ _ Hg). cbn [contents len] in Hn.
  destruct Hg as (l & Hl & H1 & H2). cbn [sort_at contents].
  assert (Ha : array h s = l) by (unfold array; by rewrite Hl).
  split; [|split; [|by apply moves_same]].
  - eexists. split; [apply lookup_insert|]. rewrite Ha, !app_length, sort_length, Hn, take_length, drop_length. lia.
  - unfold read at 1, array at 1. rewrite lookup_insert. cbn [default id]. unfold id. rewrite Ha.
    rewrite drop_app_alt by (rewrite take_length; lia). apply take_app_alt. by rewrite sort_length, Hn.
Qed.
Lemma add_loop_spec sp attrs : forall h o h' o', good h o -> add_loop sp h o attrs = (h', o') ->
  good h' o' /\ contents h' o' = attrs_loop (contents h o) attrs /\ moves h o h' o'.
Proof.
  induction attrs as [|a r IH]; intros h o h' o' Hg E; cbn [add_loop] in E.
  - injection E as <- <-. split; [done|]. split; [done|apply moves_refl].
  - assert (Hn := len_contents _ _ Hg). cbn [attrs_loop].
    destruct (Nat.eqb_spec (len o) 0) as [E0|E0].
    + rewrite E0 in Hn. apply nil_length_inv in Hn. rewrite Hn.
      destruct (append1 sp h o a) as [h1 o1] eqn:E1. destruct (append_spec _ _ _ _ _ _ Hg E1) as (G1 & C1 & M1 & _).
      destruct (IH _ _ _ _ G1 E) as (G2 & C2 & M2). split; [done|]. split; [|by eapply moves_trans].
      rewrite C2, C1, Hn. done.
    + destruct (contents h o) as [|c cs] eqn:Hc; [cbn in Hn; lia|]. rewrite <- Hc in *. clear c cs Hc.
      destruct (if Attrs_Contains (contents h o) a then (h, o) else append1 sp h o a) as [h1 o1] eqn:E1.
      assert (good h1 o1 /\ contents h1 o1 = (if Attrs_Contains (contents h o) a then contents h o else contents h o ++ [a]) /\ moves h o h1 o1)
        as (G1 & C1 & M1).
      { destruct (Attrs_Contains (contents h o) a).
        - injection E1 as <- <-. split; [done|]. split; [done|apply moves_refl].
        - by destruct (append_spec _ _ _ _ _ _ Hg E1) as (G1 & C1 & M1 & _). }
      destruct (sort_at_spec h1 o1 G1) as (G2 & C2 & M2). destruct (IH _ _ _ _ G2 E) as (G3 & C3 & M3).
      split; [done|]. split; [|eapply moves_trans; [exact M1|by eapply moves_trans]].
      by rewrite C3, C2, C1.
Qed.
Lemma append_loop_spec sp l : forall h o h' o', good h o -> append_loop sp h o l = (h', o') ->
  good h' o' /\ contents h' o' = contents h o ++ l /\ moves h o h' o' /\ (o <> None -> o' <> None).
Proof.
  induction l as [|x r IH]; intros h o h' o' Hg E; cbn [append_loop] in E.
  - injection E as <- <-. split; [done|]. split; [by rewrite app_nil_r|]. split; [apply moves_refl|done].
  - destruct (append1 sp h o x) as [h1 o1] eqn:E1. destruct (append_spec _ _ _ _ _ _ Hg E1) as (G1 & C1 & M1 & N1).
    destruct (IH _ _ _ _ G1 E) as (G2 & C2 & M2 & N2). split; [done|]. split; [rewrite C2, C1; by rewrite <- app_assoc|].
    split; [by eapply moves_trans|auto].
Qed.

(* ------------------------------------------------------------------ theorems *)
(** Add in memory is Add on lists, whatever the capacity and however append grows, and
    it writes to no array but that of its receiver. *)
Theorem C99_add : forall spare h o attrs h' o' ok, good h o -> AddMem spare h o attrs = (h', o', ok) ->
  (contents h' o', ok) = Attrs_Add (contents h o) attrs /\ good h' o' /\
  (forall a l, h !! a = Some l -> elsewhere o a -> h' !! a = Some l) /\
  (ok = false -> h' = h /\ o' = o).
Proof.
  intros spare h o attrs h' o' ok Hg. unfold AddMem, Attrs_Add. destruct (forallb Attr_IsValid attrs).
  - intros E. destruct (add_loop spare h o attrs) as [h1 o1] eqn:E1. injection E as <- <- <-.
    destruct (add_loop_spec _ _ _ _ _ _ Hg E1) as (G & C & M & _). rewrite C. split; [done|]. split; [done|]. split; [done|done].
  - intros [= <- <- <-]. done.
Qed.
Print Assumptions C99_add.

(** FromMap gives the attributes of the map, each once and in ascending order, whatever the
    order in which Go ranges over the map and whatever the receiver; nil for no attributes.
    It writes to no array but that of its receiver, and to none at all if the receiver is
    too small. *)
Theorem C99_from_map : forall spare iter h o m h' o', (forall s, iter s ≡ₚ elements s) -> good h o ->
  FromMap spare iter h o m = (h', o') ->
  StronglySorted bytes_lt (contents h' o') /\ (forall x, x ∈ contents h' o' <-> x ∈ m) /\ (o' = None <-> m = ∅) /\ good h' o' /\
  (forall a l, h !! a = Some l -> elsewhere o a \/ (cap o < size m)%nat -> h' !! a = Some l).
Proof.
  intros spare iter h o m h' o' Hit Hg. unfold FromMap.
  destruct (Nat.eqb_spec (size m) 0) as [E0|E0].
  { intros [= <- <-]. apply size_empty_inv in E0. apply leibniz_equiv in E0. subst m.
    split; [constructor|]. split; [intros x; cbn; rewrite elem_of_nil; set_solver|]. done. }
  destruct (match o with Some s => if (size m <=? s_cap s)%nat then (h, Some (Sl (s_arr s) (s_off s) 0 (s_cap s))) else make0 h (size m)
                       | None => make0 h (size m) end) as [h1 o1] eqn:E1.
  assert (Start : good h1 o1 /\ contents h1 o1 = [] /\ o1 <> None /\
            (forall a l, h !! a = Some l -> elsewhere o a \/ (cap o < size m)%nat -> h1 !! a = Some l /\ elsewhere o1 a)).
  { assert (Fresh : make0 h (size m) = (h1, o1) -> good h1 o1 /\ contents h1 o1 = [] /\ o1 <> None /\
              (forall a l, h !! a = Some l -> elsewhere o a \/ (cap o < size m)%nat -> h1 !! a = Some l /\ elsewhere o1 a)).
    { unfold make0. intros [= <- <-]. split; [|split; [done|split; [done|]]].
      - eexists. split; [apply lookup_insert|]. cbn. rewrite replicate_length. lia.
      - intros a l Ha _. pose proof (fresh_none h) as Hf. assert (fresh (dom h) <> a) by (intros <-; by rewrite Hf in Ha).
        by rewrite lookup_insert_ne. }
    destruct o as [s|]; [|by apply Fresh]. destruct (Nat.leb_spec (size m) (s_cap s)); [|by apply Fresh]. clear Fresh.
    injection E1 as <- <-. destruct Hg as (l & Hl & H1 & H2). split; [|split; [done|split; [done|]]].
    - exists l. cbn. split; [done|]. lia.
    - intros a x Ha [He|He]; [done|]. cbn in He. lia. }
  clear E1. destruct Start as (G1 & C1 & N1 & F1).
  destruct (append_loop spare h1 o1 (iter m)) as [h2 o2] eqn:E2.
  destruct (append_loop_spec _ _ _ _ _ _ G1 E2) as (G2 & C2 & M2 & N2). rewrite C1 in C2. cbn [app] in C2.
  destruct (sort_at_spec h2 o2 G2) as (G3 & C3 & M3). assert (L2 := len_contents _ _ G2).
  intros [= <- <-].
  assert (Hnd : NoDup (iter m)) by (rewrite Hit; apply NoDup_elements).
  assert (Hel : forall x, x ∈ iter m <-> x ∈ m) by (intros x; rewrite Hit; apply elem_of_elements).
  assert (Cs : contents (if (1 <? len o2)%nat then sort_at h2 o2 else h2) o2 = sort_strings (iter m)).
  { destruct (Nat.ltb_spec 1 (len o2)); [by rewrite C3, C2|]. rewrite C2 in *.
    symmetry. apply sort_id. destruct (iter m) as [|x [|y l]]; [constructor|repeat constructor|cbn in L2; lia]. }
  rewrite Cs. split; [by apply sort_sorted|]. split; [intros x; by rewrite elem_sort|]. split; [|split].
  - split; [intros E; by destruct (N2 N1)|]. intros ->. by rewrite size_empty in E0.
  - by destruct (1 <? len o2)%nat.
  - intros a l Ha He. destruct (F1 a l Ha He) as [Ha1 He1]. destruct M2 as (A2 & B2 & D2). destruct M3 as (A3 & _).
    assert (He2 : elsewhere o2 a) by (apply D2; [by rewrite Ha1|done]). assert (Ha2 := A2 a l Ha1 He1).
    destruct (1 <? len o2)%nat; [by apply A3|done].
Qed.
Print Assumptions C99_from_map.
(** So the result does not depend on the order of ranging, and ToMap then FromMap sorts and
    removes duplicates. *)
Theorem C99_to_from_map : forall spare iter spare' iter' h o h' o' p h1 o1,
  (forall s, iter s ≡ₚ elements s) -> (forall s, iter' s ≡ₚ elements s) -> good h o -> good h p ->
  FromMap spare iter h p (ToMap h o) = (h', o') ->
  (forall x, x ∈ contents h' o' <-> x ∈ contents h o) /\ StronglySorted bytes_lt (contents h' o') /\
  (FromMap spare' iter' h None (ToMap h o) = (h1, o1) -> contents h1 o1 = contents h' o').
Proof.
  intros spare iter spare' iter' h o h' o' p h1 o1 Hi Hi' Ho Hp E.
  destruct (C99_from_map _ _ _ _ _ _ _ Hi Hp E) as (S1 & M1 & _).
  assert (Hm : forall x, x ∈ ToMap h o <-> x ∈ contents h o).
  { intros x. unfold ToMap. assert (Hgen : forall l (s : gset (list N)), x ∈ foldl (fun m x => {[x]} ∪ m) s l <-> x ∈ s \/ x ∈ l).
    { intros l. induction l as [|y l IH]; intros s; cbn [foldl]; [rewrite elem_of_nil; tauto|].
      rewrite IH, elem_of_union, elem_of_singleton, elem_of_cons. tauto. }
    rewrite Hgen, elem_of_empty. tauto. }
  split; [intros x; by rewrite M1|]. split; [done|]. intros E'.
  destruct (C99_from_map _ _ _ _ _ _ _ Hi' (I : good h None) E') as (S2 & M2 & _).
  assert (Hsort : forall l, StronglySorted bytes_lt l -> NoDup l).
  { intros l Hs. by apply sorted_lt_nodup. }
  rewrite <- (sort_id _ S1), <- (sort_id _ S2). rewrite !sort_strings_eq.
  apply (StronglySorted_unique bytes_le); [apply (StronglySorted_merge_sort bytes_le)|apply (StronglySorted_merge_sort bytes_le)|].
  rewrite !merge_sort_Permutation. apply NoDup_Permutation; [by apply Hsort|by apply Hsort|]. intros x. by rewrite M1, M2.
Qed.
Print Assumptions C99_to_from_map.

Definition a_poc : list N := [80; 79; 67].
Definition a_reward : list N := [82; 69; 87; 65; 82; 68].
Definition a_nogas : list N := [78; 79; 71; 65; 83].
(** What is false: that FromMap, whose receiver is a value, leaves the list it is called on
    as it was. *)
Theorem C99_receiver_refuted : exists spare iter h o m h' o',
  (forall s, iter s ≡ₚ elements s) /\ good h o /\ FromMap spare iter h o m = (h', o') /\
  contents h o = [a_poc; a_reward] /\ m = {[a_nogas]} /\ contents h' o' = [a_nogas] /\ contents h' o = [a_nogas; a_reward].
Proof.
  exists (fun _ => 0%nat), elements, {[0%nat := [a_poc; a_reward]]}, (Some (Sl 0 0 2 2)), {[a_nogas]}.
  eexists _, _. split; [done|]. split; [exists [a_poc; a_reward]; cbn; split; [done|lia]|].
  split; [vm_compute; reflexivity|]. split; [done|]. split; [done|]. split; vm_compute; reflexivity.
Qed.
Print Assumptions C99_receiver_refuted.
(** What is false: that Add leaves alone a list that was assigned, not cloned, before. It
    shows an attribute that was not added to it and has lost one of its own. *)
Theorem C99_assigned_refuted : exists spare h o attrs h' o',
  good h o /\ AddMem spare h o attrs = (h', o', true) /\
  contents h o = [a_poc; a_reward] /\ attrs = [a_nogas] /\ contents h' o' = [a_nogas; a_poc; a_reward] /\ contents h' o = [a_nogas; a_poc].
Proof.
  exists (fun _ => 0%nat), {[0%nat := [a_poc; a_reward; []]]}, (Some (Sl 0 0 2 3)), [a_nogas].
  eexists _, _. split; [exists [a_poc; a_reward; []]; cbn; split; [done|lia]|].
  split; [vm_compute; reflexivity|]. split; [done|]. split; [done|]. split; vm_compute; reflexivity.
Qed.
Print Assumptions C99_assigned_refuted.

(* ------------------------------------------------------------------ examples *)
(** A list in the middle of an array with room for one more, and a full one. *)
Definition ex_mem : mem := {[0%nat := [a_nogas; a_reward; a_poc; a_reward; []]; 1%nat := [a_poc]]}.
Example C99_ex_good : good ex_mem (Some (Sl 0 1 3 4)) /\ good ex_mem (Some (Sl 1 0 1 1)) /\ (forall s : gset (list N), elements s ≡ₚ elements s).
Proof.
  split; [exists [a_nogas; a_reward; a_poc; a_reward; []]; cbn; split; [done|lia]|].
  split; [exists [a_poc]; cbn; split; [done|lia]|done].
Qed.
Example C99_ex_runs :
  (let '(h, o) := FromMap (fun n => n) elements ex_mem (Some (Sl 1 0 1 1)) (ToMap ex_mem (Some (Sl 0 1 3 4))) in (contents h o, contents h (Some (Sl 1 0 1 1)))) =
    ([a_poc; a_reward], [a_poc]) /\
  (let '(h, o, ok) := AddMem (fun n => n) ex_mem (Some (Sl 1 0 1 1)) [a_reward; a_nogas; a_poc] in (contents h o, contents h (Some (Sl 1 0 1 1)), ok)) =
    ([a_nogas; a_poc; a_reward], [a_poc], true) /\
  (let '(h, o, ok) := AddMem (fun n => n) ex_mem None [a_reward; [1]] in (contents h o, ok)) = ([], false).
Proof. split; [|split]; vm_compute; reflexivity. Qed.
