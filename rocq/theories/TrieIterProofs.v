(** The iterators against the entries of the radix tree. *)
From Verif Require Export TrieIterSpec TrieIterModel TrieProofProofs.

(* ----------------------------------------------------- the order of keys *)

Lemma bytes_lt_app p a b : bytes_lt (p ++ a) (p ++ b) <-> bytes_lt a b.
Proof.
  induction p as [|x p IH]; [done|]. cbn [app bytes_lt]. rewrite IH. split; [intros [?|[_ ?]]; [lia|done]|by right].
Qed.
Lemma bytes_lt_irrefl a : ~ bytes_lt a a.
Proof. induction a as [|x a IH]; [by intros []|]. cbn. intros [?|[_ ?]]; [lia|done]. Qed.
Lemma nibbles_lt a b : is_bytes a -> is_bytes b -> bytes_lt (nibbles a) (nibbles b) <-> bytes_lt a b.
Proof.
  intros Ha. revert b. induction Ha as [|x a Hx Ha IH]; intros b Hb.
  - destruct Hb as [|y b Hy Hb]; [done|]. rewrite nibbles_cons. done.
  - destruct Hb as [|y b Hy Hb]; [by rewrite nibbles_cons|]. rewrite !nibbles_cons. cbn [bytes_lt]. rewrite IH by done.
    assert (x / 16 = y / 16 /\ x mod 16 = y mod 16 <-> x = y).
    { split; [|by intros ->]. intros [H1 H2]. rewrite (N.div_mod x 16), (N.div_mod y 16) by done. by rewrite H1, H2. }
    assert (x < y <-> x / 16 < y / 16 \/ x / 16 = y / 16 /\ x mod 16 < y mod 16) as -> by lia.
    split; [intros [?|[? [?|[? ?]]]]; [by left; left|left; right; done|right; split; [|done]; apply H; done]|].
    intros [[?|[? ?]]|[-> ?]]; [by left|right; split; [done|by left]|right; split; [done|right; done]].
Qed.

Section entries.
Context {V : Type}.
Implicit Types (r c : radix V) (ch : list (option (radix V))).

(** The children at or after position [i], with their paths. *)
Fixpoint kids (pre : list N) ch (j i : N) : list (list N * radix V) :=
  match ch with
  | [] => []
  | o :: ch' => (if i <=? j then match o with Some c => [(pre ++ [j], c)] | None => [] end else []) ++ kids pre ch' (j + 1) i
  end.

(** The entries of a tree in key order. *)
Fixpoint rents (r : radix V) (pre : list N) : list (list N * V) :=
  match r with
  | Radix p ch v =>
      (match v with Some x => [(pre ++ p, x)] | None => [] end) ++
      (fix go (l : list (option (radix V))) (j : N) : list (list N * V) :=
         match l with
         | [] => []
         | o :: l' => (match o with Some c => rents c ((pre ++ p) ++ [j]) | None => [] end) ++ go l' (j + 1)
         end) ch 0
  end.
Definition wents (W : list (list N * radix V)) : list (list N * V) := flat_map (fun qc => rents qc.2 qc.1) W.

Lemma kids_low pre ch : forall j i i', i <= j -> i' <= j -> kids pre ch j i = kids pre ch j i'.
Proof.
  induction ch as [|o ch IH]; intros j i i' H1 H2; [done|]. cbn [kids].
  rewrite (proj2 (N.leb_le i j)), (proj2 (N.leb_le i' j)) by done. f_equal. apply IH; lia.
Qed.
Lemma rents_eq p ch v pre : rents (Radix p ch v) pre =
  (match v with Some x => [(pre ++ p, x)] | None => [] end) ++ wents (kids (pre ++ p) ch 0 0).
Proof.
  cbn [rents]. f_equal. generalize 0 at 1 2 as j. induction ch as [|o ch IH]; intros j; [done|].
  cbn [kids]. unfold wents. rewrite flat_map_app. fold (wents (kids (pre ++ p) ch (j + 1) 0)). rewrite <- IH.
  rewrite (proj2 (N.leb_le 0 j)) by lia. f_equal. destruct o; [|done]. cbn. by rewrite app_nil_r.
Qed.
Lemma wents_app a b : wents (a ++ b) = wents a ++ wents b.
Proof. apply flat_map_app. Qed.
Lemma wents_cons q c W : wents ((q, c) :: W) = rents c q ++ wents W.
Proof. done. Qed.

Lemma elem_kids pre ch q c : forall j i, (q, c) ∈ kids pre ch j i <->
  exists k, i <= j + N.of_nat k /\ ch !! k = Some (Some c) /\ q = pre ++ [j + N.of_nat k].
Proof.
  induction ch as [|o ch IH]; intros j i; cbn [kids].
  - split; [by intros ?%elem_of_nil|]. intros (k&_&Hk&_). by destruct k.
  - rewrite elem_of_app, IH. split.
    + intros [Hx|(k&H1&H2&->)].
      * exists O. rewrite N.add_0_r. destruct (N.leb_spec i j); [|by apply elem_of_nil in Hx].
        destruct o as [c'|]; [|by apply elem_of_nil in Hx]. apply elem_of_list_singleton in Hx as [= -> ->]. done.
      * exists (S k). rewrite Nat2N.inj_succ. split; [lia|]. split; [done|]. do 2 f_equal. lia.
    + intros ([|k]&H1&H2&->).
      * left. rewrite N.add_0_r in *. rewrite (proj2 (N.leb_le i j)) by done. cbn in H2. injection H2 as ->. by left.
      * right. exists k. rewrite Nat2N.inj_succ in *. split; [lia|]. split; [done|]. do 2 f_equal. lia.
Qed.

(** Entries are lookups. *)
Lemma elem_wents_kids pre ch s x : (s, x) ∈ wents (kids pre ch 0 0) <->
  exists i c, ch !! i = Some (Some c) /\ (s, x) ∈ rents c (pre ++ [N.of_nat i]).
Proof.
  unfold wents. rewrite elem_of_list_In, in_flat_map. split.
  - intros ((q&c)&Hq&Hs). cbn [fst snd] in Hs. apply elem_of_list_In in Hq, Hs. apply elem_kids in Hq as (k&_&Hk&->). by exists k, c.
  - intros (i&c&Hi&Hs). exists (pre ++ [N.of_nat i], c). rewrite <- !elem_of_list_In. split; [|done].
    apply elem_kids. exists i. split; [lia|done].
Qed.
Lemma elem_rents r : forall pre s x, (s, x) ∈ rents r pre <-> exists k, s = pre ++ k /\ rlook r k = Some x.
Proof.
  induction r as [p ch v IH] using radix_ind'. intros pre s x. rewrite rents_eq, elem_of_app, elem_wents_kids. split.
  - intros [Hx|(i&c&Hi&Hs)].
    + destruct v as [y|]; [|by apply elem_of_nil in Hx]. apply elem_of_list_singleton in Hx as [= -> ->].
      exists p. split; [done|]. rewrite rlook_eq. rewrite <- (app_nil_r p) at 2. by rewrite strip_app.
    + apply (IH i c Hi) in Hs as (k&->&Hk). exists (p ++ N.of_nat i :: k). split; [by rewrite <- !app_assoc|].
      rewrite rlook_eq, strip_app, Nat2N.id. by rewrite (nth_lookup_Some _ _ None _ Hi).
  - intros (k&->&Hk). rewrite rlook_eq in Hk. destruct (strip p k) as [[|i rest]|] eqn:Hs; [| |done].
    + apply strip_Some in Hs as ->. left. rewrite app_nil_r, Hk. by left.
    + apply strip_Some in Hs as ->. right. destruct (nth (N.to_nat i) ch None) as [c|] eqn:Hn; [|done].
      apply nth_some_lookup in Hn. exists (N.to_nat i), c. split; [done|]. apply (IH _ c Hn).
      exists rest. rewrite N2Nat.id, <- !app_assoc. done.
Qed.

Lemma sorted_app (R : list N -> list N -> Prop) l1 l2 : StronglySorted R l1 -> StronglySorted R l2 ->
  (forall a b, a ∈ l1 -> b ∈ l2 -> R a b) -> StronglySorted R (l1 ++ l2).
Proof.
  intros H1 H2. induction H1 as [|a l1 Hs IH Ha]; intros Hab; [done|]. cbn. constructor.
  - apply IH. intros x y Hx. apply Hab. by right.
  - apply Forall_app. split; [done|]. apply Forall_forall. intros y Hy. apply Hab; [by left|done].
Qed.

Lemma sorted_rents r : forall pre, StronglySorted bytes_lt (map fst (rents r pre)).
Proof.
  induction r as [p ch v IH] using radix_ind'. intros pre. rewrite rents_eq, map_app.
  assert (Hk : forall q c, (q, c) ∈ kids (pre ++ p) ch 0 0 -> StronglySorted bytes_lt (map fst (rents c q))).
  { intros q c Hq. apply elem_kids in Hq as (k&_&Hk&->). by eapply IH. }
  assert (Hin : forall W a, a ∈ map fst (wents W) -> exists q c k, (q, c) ∈ W /\ a = q ++ k).
  { intros W a Ha. apply elem_of_list_fmap in Ha as ([s x]&->&Ha). unfold wents in Ha.
    apply elem_of_list_In, in_flat_map in Ha as ((q&c)&Hq&Hs). apply elem_of_list_In in Hq, Hs. cbn [fst snd] in *.
    apply elem_rents in Hs as (k&->&_). by exists q, c, k. }
  apply sorted_app.
  - destruct v; repeat constructor.
  - revert Hk. clear IH. generalize 0 at 1 3 as j. induction ch as [|o ch IHc]; intros j Hk; [constructor|].
    cbn [kids] in Hk |- *. rewrite wents_app, map_app.
    rewrite (proj2 (N.leb_le 0 j)) in Hk |- * by lia. apply sorted_app.
    + destruct o as [c|]; [|constructor]. cbn. rewrite app_nil_r. apply Hk. by left.
    + apply IHc. intros q c Hq. apply Hk. apply elem_of_app. by right.
    + intros a b Ha Hb. apply Hin in Ha as (q&c&k&Hq&->). apply Hin in Hb as (q'&c'&k'&Hq'&->).
      destruct o as [c0|]; [|by apply elem_of_nil in Hq]. apply elem_of_list_singleton in Hq as [= -> ->].
      apply elem_kids in Hq' as (n&_&_&->). rewrite <- !app_assoc. do 2 apply bytes_lt_app. left. lia.
  - intros a b Ha Hb. destruct v as [x|]; [|by apply elem_of_nil in Ha]. apply elem_of_list_singleton in Ha as ->.
    apply Hin in Hb as (q'&c'&k'&Hq'&->). apply elem_kids in Hq' as (n&_&_&->). cbn [fst].
    rewrite <- (app_nil_r p) at 1. rewrite <- !app_assoc. do 2 apply bytes_lt_app. done.
Qed.

Fixpoint rsize (r : radix V) : nat :=
  match r with Radix p ch v => S (sum_list (map (fun o => match o with Some c => rsize c | None => O end) ch)) end.
Definition wsize (W : list (list N * radix V)) : nat := sum_list (map (fun qc => rsize qc.2) W).
Lemma wsize_app a b : wsize (a ++ b) = (wsize a + wsize b)%nat.
Proof. unfold wsize. by rewrite map_app, sum_list_with_app || (induction a as [|x a IH]; cbn; [done|]; rewrite IH; lia). Qed.
Lemma rsize_kids p ch v pre : rsize (Radix p ch v) = S (wsize (kids pre ch 0 0)).
Proof.
  cbn [rsize]. f_equal. generalize 0 at 1 as j. induction ch as [|o ch IH]; intros j; [done|]. cbn [kids map].
  rewrite wsize_app, (proj2 (N.leb_le 0 j)) by lia. cbn [sum_list]. rewrite <- IH. by destruct o; cbn; lia.
Qed.
End entries.

(* ------------------------------------------------------ forward iteration *)

Section fwd.
Context {V : Type} (E : env V) (HE : env_ok E).
Local Notation node := (node V).
Implicit Types (st : store) (n c : node) (rch : list (option (radix V))).

Lemma loaded_mono st st' n r : st_le st st' -> loaded E st n r -> loaded E st' n r.
Proof.
  intros Hle. destruct 1 as [pre ch x d h vh vs g rch H1 H2 H3 H4 H5 H6 H7 H8 H9]. constructor; try done.
  - intros i c rc Hi Hrc. eapply rep_mono; [done|by eapply H6].
  - by eapply vrep_mono.
  - intros Hd. destruct (H9 Hd). split; [done|]. by eapply stored_mono.
Qed.
Lemma loaded_expand st st' gen n r : loaded E st n r -> it_expand E st' gen n = n.
Proof. intros Hl. unfold it_expand, expandNode. by rewrite (loaded_not_collapsed E HE _ _ _ Hl). Qed.

Lemma loaded_child st n p rch x i : loaded E st n (Radix p rch x) ->
  match n_child n i with
  | Some c => exists rc, rch !! N.to_nat i = Some (Some rc) /\ rep E st c rc
  | None => forall rc, rch !! N.to_nat i <> Some (Some rc)
  end.
Proof.
  intros Hl. apply loaded_inv in Hl as (pre&ch&x'&d&h&vh&vs&g&rch'&->&[= -> -> ->]&H1&H2&H3&H4&Hp&H6&H7).
  unfold n_child. cbn [n_ch]. destruct (nth (N.to_nat i) ch None) as [c|] eqn:Hn.
  - apply nth_some_lookup in Hn. destruct (present_child _ _ _ _ Hp Hn) as (rc&Hrc). exists rc. split; [done|]. by eapply H6.
  - intros rc Hrc. destruct (present_child_r _ _ _ _ Hp Hrc) as (c&Hc). apply nth_some_lookup in Hc. congruence.
Qed.
Lemma loaded_fields st n p rch x : loaded E st n (Radix p rch x) -> n_pre n = p /\ n_val n = x /\ length rch = 16%nat /\
  length (n_ch n) = 16%nat /\ is_nibbles p /\ present_n (n_ch n) = present rch.
Proof. intros Hl. by apply loaded_inv in Hl as (pre&ch&x'&d&h&vh&vs&g&rch'&->&[= -> -> ->]&H1&H2&H3&H4&Hp&H6&H7). Qed.

Lemma selector_spec st gen c p rch x : rep E st c (Radix p rch x) ->
  exists c', selector E st gen c = (c', bool_decide (is_Some x)) /\ loaded E st c' (Radix p rch x).
Proof.
  intros Hr. destruct (fullExpand_spec E HE st gen c _ Hr) as (c'&Hf&Hl). exists c'. split; [|done].
  assert (Hv : hasValue c' = bool_decide (is_Some x)).
  { apply loaded_fields in Hl as (_&Hv&_). unfold hasValue. rewrite Hv. by destruct x. }
  rewrite <- Hv. unfold fullExpand in Hf. destruct (expandNode E st gen c) as [c1|] eqn:He; [|done].
  unfold selector, it_expand, it_expandValue. rewrite He.
  assert (H1 : (if isCollapsed E c then c1 else c) = c1).
  { destruct (isCollapsed E c) eqn:Hc; [done|]. unfold expandNode in He. rewrite Hc in He. by injection He. }
  change (default c (Some c1)) with c1. rewrite H1. clear He H1. destruct (isValueCollapsed c1) eqn:Hvc; [|by injection Hf as ->].
  assert (isCollapsed E c1 = false) as ->.
  { unfold isValueCollapsed in Hvc. unfold isCollapsed. destruct (isEmptyNodeHash E (n_hash c1)); [done|].
    destruct (n_vh c1) as [[|a l]|]; [done|by rewrite andb_false_r|done]. }
  rewrite Hf. done.
Qed.

Lemma first_from_spec pre st (ch : list (option node)) : forall rch j i,
  present_n ch = present rch -> (forall k c rc, ch !! k = Some (Some c) -> rch !! k = Some (Some rc) -> rep E st c rc) ->
  match first_from ch j i with
  | None => kids pre rch j i = []
  | Some (k, c) => exists rc q, k = j + N.of_nat q /\ i <= k /\ ch !! q = Some (Some c) /\ rch !! q = Some (Some rc) /\ rep E st c rc /\
      kids pre rch j i = (pre ++ [k], rc) :: kids pre rch j (k + 1)
  end.
Proof.
  induction ch as [|o ch IH]; intros [|o' rch] j i Hp Hr; [done..|]. cbn in Hp. injection Hp as Ho Hp. cbn [first_from kids].
  destruct (N.leb_spec i j) as [Hij|Hij].
  - destruct o as [c|], o' as [rc|]; try done.
    + exists rc, O. split; [lia|]. split; [done|]. split; [done|]. split; [done|]. split; [by apply (Hr O)|].
      rewrite (proj2 (N.leb_gt (j + 1) j)) by lia. cbn [app]. f_equal. apply kids_low; lia.
    + specialize (IH rch (j + 1) i Hp (fun k => Hr (S k))). destruct (first_from ch (j + 1) i) as [[k c]|]; [|done].
      destruct IH as (rc&q&->&?&?&?&?&->). exists rc, (S q). rewrite Nat2N.inj_succ. split; [lia|]. split; [done|]. split; [done|].
      split; [done|]. split; [done|]. cbn [app]. by destruct (N.leb_spec (j + 1 + N.of_nat q + 1) j).
  - specialize (IH rch (j + 1) i Hp (fun k => Hr (S k))).
    destruct (first_from ch (j + 1) i) as [[k c]|]; [|done].
    destruct IH as (rc&q&->&?&?&?&?&->). exists rc, (S q). rewrite Nat2N.inj_succ. split; [lia|]. split; [done|]. split; [done|].
    split; [done|]. split; [done|]. cbn [app]. destruct (N.leb_spec (j + 1 + N.of_nat q + 1) j); [lia|done].
Qed.

(** [stack] leads to a node with path [pre] that represents [r]; [W] is what
    remains to be visited after the tree below it. *)
Inductive zpos st : list (N * node) -> list N -> radix V -> list (list N * radix V) -> Prop :=
| zp_root r : zpos st [] [] r []
| zp_kid i n p rch x rc stack pre W : loaded E st n (Radix p rch x) -> rch !! N.to_nat i = Some (Some rc) -> i < 16 ->
    zpos st stack pre (Radix p rch x) W ->
    zpos st ((i, n) :: stack) ((pre ++ p) ++ [i]) rc (kids (pre ++ p) rch 0 (i + 1) ++ W).

Lemma moveToNext_spec st gen i n p rch x pre : loaded E st n (Radix p rch x) -> i < 16 \/ i = 17 ->
  let j := if i =? 17 then 0 else i + 1 in
  match moveToNext E st gen (i, n) with
  | ((i', n'), Some c) => i' < 16 /\ loaded E st n' (Radix p rch x) /\ n_child n' i' = Some c /\
      exists rc, rch !! N.to_nat i' = Some (Some rc) /\ rep E st c rc /\
        kids pre rch 0 j = (pre ++ [i'], rc) :: kids pre rch 0 (i' + 1)
  | ((_, n'), None) => loaded E st n' (Radix p rch x) /\ kids pre rch 0 j = []
  end.
Proof.
  intros Hl Hi j. unfold moveToNext. rewrite (loaded_expand _ _ _ _ _ Hl).
  set (n1 := if 16 <? i then n else match n_child n i with
          | Some c => if canCollapse E c then put_child n i (Some (collapse E c).2) else n
          | None => n end).
  assert (Hl1 : loaded E st n1 (Radix p rch x)).
  { unfold n1. destruct (16 <? i); [done|]. pose proof (loaded_child st n p rch x i Hl) as Hc. destruct (n_child n i) as [c|]; [|done].
    destruct Hc as (rc&Hrc&Hrep). destruct (canCollapse E c) eqn:Hcc; [|done]. eapply put_child_same; [done|done|].
    by apply collapse_rep. }
  assert (Hnj : exists i0, (if 16 <? i then (0, 0, n) else if i =? 16 then (i, 0, n) else
      (i, i + 1, match n_child n i with
          | Some c => if canCollapse E c then put_child n i (Some (collapse E c).2) else n
          | None => n end)) = (i0, j, n1)).
  { unfold j, n1. destruct (N.ltb_spec 16 i), (N.eqb_spec i 17), (N.eqb_spec i 16); try lia; eauto. }
  destruct Hnj as (i0&->). pose proof (loaded_fields _ _ _ _ _ Hl1) as (_&_&Hlr&Hlc&_&Hp).
  pose proof (first_from_spec pre st (n_ch n1) rch 0 j Hp) as Hff.
  assert (Hr1 : forall k c rc, n_ch n1 !! k = Some (Some c) -> rch !! k = Some (Some rc) -> rep E st c rc).
  { intros k c rc Hk Hrc. pose proof (loaded_child st n1 p rch x (N.of_nat k) Hl1) as Hc. unfold n_child in Hc. rewrite Nat2N.id in Hc.
    rewrite (nth_lookup_Some _ _ None _ Hk) in Hc. destruct Hc as (rc'&Hrc'&?). congruence. }
  specialize (Hff Hr1). destruct (first_from (n_ch n1) 0 j) as [[k c]|]; [|done].
  destruct Hff as (rc&q&->&Hj&Hq&Hrq&Hrep&Hk). rewrite N.add_0_l in *. split.
  { apply lookup_lt_Some in Hq. lia. }
  split; [done|]. split; [unfold n_child; rewrite Nat2N.id; by apply nth_some_lookup|]. exists rc. rewrite Nat2N.id. done.
Qed.

Lemma breadth_spec st gen stack : forall i n p rch x pre W, loaded E st n (Radix p rch x) -> i < 16 \/ i = 17 ->
  zpos st stack pre (Radix p rch x) W ->
  let W' := kids (pre ++ p) rch 0 (if i =? 17 then 0 else i + 1) ++ W in
  match breadth E st gen (i, n) stack with
  | inl _ => W' = []
  | inr ((i', n'), stack', c) => exists pre' rc W'', W' = (pre', rc) :: W'' /\
      zpos st ((i', n') :: stack') pre' rc W'' /\ n_child n' i' = Some c /\ rep E st c rc
  end.
Proof.
  induction stack as [|[pi pn] stack IH]; intros i n p rch x pre W Hl Hi Hz; cbn [breadth];
    pose proof (moveToNext_spec st gen i n p rch x (pre ++ p) Hl Hi) as Hm; cbv zeta in Hm |- *;
    destruct (moveToNext E st gen (i, n)) as [[i' n'] [c|]].
  - destruct Hm as (Hi'&Hl'&Hc&rc&Hrc&Hrep&->). exists ((pre ++ p) ++ [i']), rc, (kids (pre ++ p) rch 0 (i' + 1) ++ W).
    split; [done|]. split; [by econstructor|done].
  - destruct Hm as (Hl'&->). inversion Hz; subst. done.
  - destruct Hm as (Hi'&Hl'&Hc&rc&Hrc&Hrep&->). exists ((pre ++ p) ++ [i']), rc, (kids (pre ++ p) rch 0 (i' + 1) ++ W).
    split; [done|]. split; [by econstructor|done].
  - destruct Hm as (Hl'&->). inversion Hz as [|i0 n0 pp prch px rc stack0 ppre pW Hpl Hprc Hpi Hpz]; subst. cbn [app].
    assert (Hl2 : loaded E st (put_child pn pi (Some n')) (Radix pp prch px)) by (eapply put_child_same; [done|done|by apply loaded_rep]).
    specialize (IH pi _ pp prch px ppre pW Hl2 (or_introl Hpi) Hpz). cbv zeta in IH.
    destruct (N.eqb_spec pi 17) as [->|]; [lia|]. exact IH.
Qed.

(** The state after a successful Next. *)
Definition istate st (stack : list (N * node)) (pre : list N) (r : radix V) (W : list (list N * radix V)) : Prop :=
  exists i n stack', stack = (i, n) :: stack' /\
    (i = 17 /\ stack' = [] /\ pre = [] /\ W = [] /\ loaded E st n r \/
     zpos st stack pre r W /\ exists c, n_child n i = Some c /\ loaded E st c r).

Definition wkids (pre : list N) (r : radix V) (W : list (list N * radix V)) : list (list N * radix V) :=
  let 'Radix p rch x := r in kids (pre ++ p) rch 0 0 ++ W.
Definition rval (r : radix V) : option V := let 'Radix _ _ x := r in x.
Definition rpre (r : radix V) : list N := let 'Radix p _ _ := r in p.

Lemma zpos_put st i n stack pre r W c : zpos st ((i, n) :: stack) pre r W -> rep E st c r ->
  zpos st ((i, put_child n i (Some c)) :: stack) pre r W.
Proof.
  inversion 1; subst. intros Hr. econstructor; [|done..]. by eapply put_child_same.
Qed.
Lemma child_put st i n stack pre r W c : zpos st ((i, n) :: stack) pre r W -> n_child (put_child n i (Some c)) i = Some c.
Proof.
  inversion 1 as [|i0 n0 p rch x rc stack0 pre0 W0 Hl Hrc Hi Hz]; subst. apply loaded_fields in Hl as (_&_&_&Hlc&_&_).
  unfold n_child. destruct n. cbn [put_child n_ch] in *. apply nth_some_lookup, list_lookup_insert. lia.
Qed.

(** One iteration of the outer loop: the next frame and the child to look at. *)
Definition dstep st gen (f : N * node) (stack : list (N * node)) : node + ((N * node) * list (N * node) * node) :=
  let '(index, n) := f in
  let '(n, cur) := if 16 <=? index then (n, None) else let n := it_expand E st gen n in (n, n_child n index) in
  match match cur with Some c => option_map (pair c) (first_from (n_ch c) 0 0) | None => None end with
  | Some (c, (i, cc)) => inr ((i, c), (index, n) :: stack, cc)
  | None => breadth E st gen (index, n) stack
  end.
Lemma depth_next_S fuel st gen f stack : depth_next E (S fuel) st gen f stack =
  match dstep st gen f stack with
  | inl root => Some (inl root)
  | inr ((i, n), stack, c) =>
      let '(c, sel) := selector E st gen c in
      if sel then Some (inr ((i, put_child n i (Some c)) :: stack)) else depth_next E fuel st gen (i, put_child n i (Some c)) stack
  end.
Proof.
  destruct f as [index n]. cbn [depth_next]. unfold dstep.
  destruct (if 16 <=? index then (n, None) else let n0 := it_expand E st gen n in (n0, n_child n0 index)) as [n1 cur].
  destruct (match cur with Some c => option_map (pair c) (first_from (n_ch c) 0 0) | None => None end) as [[c [i cc]]|]; [done|].
  by destruct (breadth E st gen (index, n1) stack) as [?|[[[? ?] ?] ?]].
Qed.
Lemma loaded_reps st n p rch x : loaded E st n (Radix p rch x) ->
  forall k c rc, n_ch n !! k = Some (Some c) -> rch !! k = Some (Some rc) -> rep E st c rc.
Proof.
  intros Hl k c0 rc Hk Hrc. pose proof (loaded_child st n p rch x (N.of_nat k) Hl) as Hcc. unfold n_child in Hcc.
  rewrite Nat2N.id, (nth_lookup_Some _ _ None _ Hk) in Hcc. destruct Hcc as (rc'&Hrc'&?). congruence.
Qed.
Lemma dstep_spec st gen i n stack pre r W : istate st ((i, n) :: stack) pre r W ->
  match dstep st gen (i, n) stack with
  | inl _ => wkids pre r W = []
  | inr ((i', n'), stack', c) => exists pre' rc W', wkids pre r W = (pre', rc) :: W' /\
      zpos st ((i', n') :: stack') pre' rc W' /\ rep E st c rc
  end.
Proof.
  destruct r as [p rch x]. intros (i0&n0&stack0&[= <- <- <-]&[(->&->&->&->&Hl)|(Hz&c&Hc&Hl)]); unfold dstep.
  - pose proof (breadth_spec st gen [] 17 n p rch x [] [] Hl (or_intror eq_refl) (zp_root _ _)) as Hb.
    cbv zeta in Hb. change (16 <=? 17) with true. cbv iota. unfold wkids. change (if 17 =? 17 then 0 else 17 + 1) with 0 in Hb.
    destruct (breadth E st gen (17, n) []) as [?|[[[i' n'] stack'] c]]; [done|].
    destruct Hb as (pre'&rc&W'&?&?&_&?). eauto 6.
  - inversion Hz as [|i0 n0 pp prch px rc stack0 ppre pW Hpl Hprc Hpi Hpz]; subst.
    rewrite (proj2 (N.leb_gt 16 i)) by lia. cbv zeta. rewrite (loaded_expand _ _ _ _ _ Hpl), Hc.
    pose proof (loaded_fields _ _ _ _ _ Hl) as (_&_&Hlr&Hlc&_&Hp).
    pose proof (first_from_spec (((ppre ++ pp) ++ [i]) ++ p) st (n_ch c) rch 0 0 Hp (loaded_reps _ _ _ _ _ Hl)) as Hff.
    destruct (first_from (n_ch c) 0 0) as [[k cc]|]; cbn [option_map]; unfold wkids.
    + destruct Hff as (rc&q&->&_&Hq&Hrq&Hrep&->). rewrite N.add_0_l in *. do 3 eexists. split; [reflexivity|]. split; [|done].
      cbn [app]. econstructor; [exact Hl|by rewrite Nat2N.id|apply lookup_lt_Some in Hq; lia|by econstructor].
    + rewrite Hff. cbn [app]. pose proof (breadth_spec st gen stack i n pp prch px ppre pW Hpl (or_introl Hpi) Hpz) as Hb.
      cbv zeta in Hb. destruct (N.eqb_spec i 17); [lia|].
      destruct (breadth E st gen (i, n) stack) as [?|[[[i' n'] stack'] c']]; [done|].
      destruct Hb as (pre'&rc&W'&?&?&_&?). eauto 6.
Qed.

Lemma wents_wkids pre r W : wents ((pre, r) :: W) = (match rval r with Some x => [(pre ++ rpre r, x)] | None => [] end) ++ wents (wkids pre r W).
Proof. destruct r as [p rch x]. rewrite wents_cons, rents_eq. unfold wkids. rewrite wents_app. cbn [rval rpre]. by rewrite <- app_assoc. Qed.
Lemma wsize_wkids pre r W : wsize ((pre, r) :: W) = S (wsize (wkids pre r W)).
Proof. destruct r as [p rch x]. unfold wkids. rewrite wsize_app. change (wsize ((pre, Radix p rch x) :: W)) with (rsize (Radix p rch x) + wsize W)%nat. rewrite (rsize_kids _ _ _ (pre ++ p)). done. Qed.

Lemma depth_next_spec sz : forall st gen i n stack pre r W,
  istate st ((i, n) :: stack) pre r W -> (wsize (wkids pre r W) <= sz)%nat ->
  forall fuel, (sz < fuel)%nat -> exists res, depth_next E fuel st gen (i, n) stack = Some res /\
    match res with
    | inl _ => wents (wkids pre r W) = []
    | inr s => exists pre' r' W' v, istate st s pre' r' W' /\ rval r' = Some v /\ (wsize (wkids pre' r' W') <= sz)%nat /\
        wents (wkids pre r W) = (pre' ++ rpre r', v) :: wents (wkids pre' r' W')
    end.
Proof.
  induction sz as [|sz IH]; intros st gen i n stack pre r W Hst Hsz [|fuel] Hf; try lia; rewrite depth_next_S;
    pose proof (dstep_spec st gen i n stack pre r W Hst) as Hd;
    destruct (dstep st gen (i, n) stack) as [root|[[[i' n'] stack'] c]].
  - exists (inl root). split; [done|]. by rewrite Hd.
  - exfalso. destruct Hd as (pre'&rc&W'&Hw&_). rewrite Hw, wsize_wkids in Hsz. lia.
  - exists (inl root). split; [done|]. by rewrite Hd.
  - destruct Hd as (pre'&rc&W'&Hw&Hz&Hrep). rewrite Hw, wsize_wkids in Hsz. destruct rc as [p rch x].
    destruct (selector_spec st gen c p rch x Hrep) as (c'&->&Hl).
    assert (Hst' : istate st ((i', put_child n' i' (Some c')) :: stack') pre' (Radix p rch x) W').
    { exists i', (put_child n' i' (Some c')), stack'. split; [done|]. right. split; [eapply zpos_put; [done|by apply loaded_rep]|].
      exists c'. split; [by eapply child_put|done]. }
    rewrite Hw, wents_wkids. cbn [rval rpre]. destruct x as [v|]; rewrite ?bool_decide_eq_true_2, ?bool_decide_eq_false_2 by (eauto; by intros [? ?]).
    + eexists. split; [done|]. exists pre', (Radix p rch (Some v)), W', v. split; [done|]. split; [done|]. split; [lia|]. done.
    + destruct (IH st gen i' _ stack' pre' _ W' Hst' ltac:(lia) fuel ltac:(lia)) as (res&->&Hres). exists res. split; [done|].
      destruct res as [?|s]; [done|]. destruct Hres as (pre2&r2&W2&v&?&?&?&?). exists pre2, r2, W2, v. split; [done|]. split; [done|]. split; [lia|done].
Qed.

Lemma zpos_mono st st' stack pre r W : st_le st st' -> zpos st stack pre r W -> zpos st' stack pre r W.
Proof. intros Hle. induction 1; econstructor; try done. by eapply loaded_mono. Qed.
Lemma istate_mono st st' stack pre r W : st_le st st' -> istate st stack pre r W -> istate st' stack pre r W.
Proof.
  intros Hle (i&n&stack'&->&[(Hi&Hs&Hp&HW&Hl)|(Hz&c&Hc&Hl)]); exists i, n, stack'; (split; [done|]).
  - left. split; [done|]. split; [done|]. split; [done|]. split; [done|]. by eapply loaded_mono.
  - right. split; [by eapply zpos_mono|]. exists c. split; [done|]. by eapply loaded_mono.
Qed.

(** The path of the current node. *)
Lemma trace_prefix_app a b : trace_prefix (a ++ b) = trace_prefix (V:=V) a ++ trace_prefix b.
Proof. induction a as [|[i n] a IH]; [done|]. cbn [app trace_prefix]. by rewrite IH, app_assoc. Qed.
Lemma zpos_prefix st stack pre r W : zpos st stack pre r W -> trace_prefix (rev stack) = pre.
Proof.
  induction 1 as [|i n p rch x rc stack pre W Hl Hrc Hi Hz IH]; [done|]. cbn [rev]. rewrite trace_prefix_app, IH. cbn [trace_prefix].
  apply loaded_fields in Hl as (->&_). rewrite (proj2 (N.ltb_lt i 16)) by done. by rewrite app_nil_r, app_assoc.
Qed.
Lemma fcurrent_spec st root gen s pre r W : istate st s pre r W -> fcurrent (FIter root gen s false) =
  let k := pre ++ rpre r in
  match k with [] => Some ([], rval r) | _ => if Nat.odd (length k) then None else Some (prefixToKeystring k, rval r) end.
Proof.
  destruct r as [p rch x]. intros (i&n&stack'&->&[(->&->&->&->&Hl)|(Hz&c&Hc&Hl)]); unfold fcurrent; cbn [f_ended f_stack].
  - cbn. apply loaded_fields in Hl as (->&->&_). done.
  - assert (i < 16) as Hi by (by inversion Hz). rewrite (proj2 (N.ltb_lt i 16)) by done. rewrite Hc, (zpos_prefix _ _ _ _ _ Hz).
    apply loaded_fields in Hl as (->&->&_). done.
Qed.

(** The driver of the forward iterator. *)
Definition even_key (e : list N * V) : Prop := is_nibbles e.1 /\ Nat.odd (length e.1) = false.
Definition out (e : list N * V) : list N * option V := (pack e.1, Some e.2).

Lemma key_out (k : list N) (x : V) : even_key (k, x) ->
  match k with [] => Some ([], Some x) | _ => if Nat.odd (length k) then None else Some (prefixToKeystring k, Some x) end = Some (out (k, x)).
Proof.
  intros [Hn Ho]. cbn [fst] in *. unfold out. cbn [fst snd]. rewrite Ho, prefixToKeystring_pack by done. by destruct k.
Qed.

Lemma fdrive_spec body sts : (forall i, st_le (sts i) (sts (S i))) -> forall ents i root gen s pre r W sz,
  istate (sts i) s pre r W -> wents (wkids pre r W) = ents -> Forall even_key ents -> (wsize (wkids pre r W) <= sz)%nat ->
  forall fuel calls, (sz < fuel)%nat -> (length ents < calls)%nat ->
  drive (fnext E) fcurrent body fuel calls sts i (FIter root gen s false) = Some (upto body (map out ents)).
Proof.
  intros Hle. induction ents as [|[k x] ents IH]; intros i root gen s pre r W sz Hst He Hev Hsz fuel [|calls] Hf Hc; try (cbn in Hc; lia);
    cbn [drive fnext]; pose proof Hst as (i0&n0&stack'&->&_);
    destruct (depth_next_spec sz (sts i) gen i0 n0 stack' pre r W Hst Hsz fuel Hf) as (res&->&Hres); rewrite He in Hres.
  - destruct res as [?|s']; [done|]. by destruct Hres as (?&?&?&?&_&_&_&Hbad).
  - destruct res as [?|s']; [done|]. destruct Hres as (pre'&r'&W'&v&Hst'&Hv&Hsz'&[= -> -> Hents]).
    apply Forall_cons in Hev as [Hk Hev]. rewrite (fcurrent_spec _ _ _ _ _ _ _ Hst'). cbv zeta. rewrite Hv, key_out by done.
    cbn [map upto]. destruct (body (out (pre' ++ rpre r', v))); [|done].
    rewrite (IH (S i) root gen s' pre' r' W' sz); [done|by eapply istate_mono|done|done|done|done|cbn in Hc; lia].
Qed.

Lemma fdrive_root body sts t r : (forall i, st_le (sts i) (sts (S i))) -> rep E (sts O) (t_root t) r -> Forall even_key (rents r []) ->
  forall fuel, (rsize r + length (rents r []) < fuel)%nat ->
  drive (fnext E) fcurrent body fuel fuel sts 0 (NewValueIterator t) = Some (upto body (map out (rents r []))).
Proof.
  intros Hle Hrep Hev fuel Hf. destruct r as [p rch x]. set (r := Radix p rch x) in *.
  destruct (selector_spec (sts O) (t_gen t) (t_root t) p rch x Hrep) as (n&Hsel&Hl).
  assert (Hst : istate (sts O) [(17, n)] [] r []) by (exists 17, n, []; split; [done|]; by left).
  pose proof (wents_wkids [] r []) as Hw. rewrite wents_cons in Hw. cbn [app] in Hw.
  change (wents (V:=V) []) with (@nil (list N * V)) in Hw. rewrite app_nil_r in Hw.
  pose proof (wsize_wkids [] r []) as Hs. change (wsize [([], r)]) with (rsize r + 0)%nat in Hs.
  destruct fuel as [|fuel]; [lia|]. unfold NewValueIterator. rewrite Hw in Hf, Hev |- *. rewrite app_length in Hf.
  cbn [drive fnext]. rewrite Hsel. destruct x as [v|]; cbn [rval r] in *; rewrite ?bool_decide_eq_true_2, ?bool_decide_eq_false_2 by (eauto; by intros [? ?]).
  - cbn [app] in Hev |- *. apply Forall_cons in Hev as [Hk Hev]. rewrite (fcurrent_spec _ _ _ _ _ _ _ Hst). cbv zeta. cbn [rval r].
    cbn [app] in *. rewrite key_out by done. cbn [map upto]. destruct (body _); [|done]. cbn [length] in Hf.
    rewrite (fdrive_spec body sts Hle _ 1 n (t_gen t) [(17, n)] [] r [] (wsize (wkids [] r [])) (istate_mono _ _ _ _ _ _ (Hle O) Hst) eq_refl Hev); [done|done|lia|].
    cbn [length] in Hf. lia.
  - cbn [app] in *.
    pose proof (fdrive_spec body sts Hle _ 0 n (t_gen t) [(17, n)] [] r [] (wsize (wkids [] r [])) Hst eq_refl Hev ltac:(lia) (S fuel) (S fuel)) as Hd.
    cbn [length] in Hf. rewrite <- Hd by lia. cbn [drive fnext]. done.
Qed.

Lemma fdrive_empty body sts t : erep E (t_root t) -> forall fuel, (0 < fuel)%nat ->
  drive (fnext E) fcurrent body fuel fuel sts 0 (NewValueIterator t) = Some [].
Proof.
  intros He [|fuel] Hf; [lia|]. unfold NewValueIterator. cbn [drive fnext].
  assert (Hsel : selector E (sts O) (t_gen t) (t_root t) = (t_root t, false)).
  { destruct (erep_empty E _ He) as (_&Hc&Hv). unfold selector. rewrite Hc, Hv. by destruct He. }
  assert (Hexp : it_expand E (sts O) (t_gen t) (t_root t) = t_root t).
  { destruct (erep_empty E _ He) as (_&Hc&_). unfold it_expand, expandNode. rewrite Hc. done. }
  assert (Hm : moveToNext E (sts O) (t_gen t) (17, t_root t) = ((0, t_root t), None)).
  { unfold moveToNext. rewrite Hexp. clear Hsel Hexp. revert He. generalize (t_root t). by intros n [d h g Hh]. }
  rewrite Hsel. cbn [depth_next]. change (16 <=? 17) with true. cbv iota zeta. cbn [breadth]. rewrite Hm. done.
Qed.
End fwd.

(* ----------------------------------------------------- reversed iteration *)

Section rkids.
Context {V : Type}.
Implicit Types (ch : list (option (radix V))).
Fixpoint rkids (pre : list N) ch (i : nat) : list (list N * radix V) :=
  match i with
  | O => []
  | S i' => (match nth i' ch None with Some c => [(pre ++ [N.of_nat i'], c)] | None => [] end) ++ rkids pre ch i'
  end.
Definition rwents (W : list (list N * radix V)) : list (list N * V) := flat_map (fun qc => rev (rents qc.2 qc.1)) W.
Lemma rwents_app a b : rwents (a ++ b) = rwents a ++ rwents b.
Proof. apply flat_map_app. Qed.
Lemma rkids_take pre ch o i : (i <= length ch)%nat -> rkids pre (ch ++ [o]) i = rkids pre ch i.
Proof. induction i as [|i IH]; intros Hi; [done|]. cbn [rkids]. rewrite app_nth1 by lia. rewrite IH by lia. done. Qed.
Lemma kids_snoc pre ch o : forall j, kids pre (ch ++ [o]) j 0 =
  kids pre ch j 0 ++ match o with Some c => [(pre ++ [j + N.of_nat (length ch)], c)] | None => [] end.
Proof.
  induction ch as [|o' ch IH]; intros j; cbn [app kids length].
  - rewrite (proj2 (N.leb_le 0 j)), N.add_0_r by lia. by rewrite app_nil_r.
  - rewrite IH, <- app_assoc. do 2 f_equal. rewrite Nat2N.inj_succ. by replace (j + 1 + N.of_nat (length ch)) with (j + N.succ (N.of_nat (length ch))) by lia.
Qed.
Lemma rev_wents_kids pre ch : rev (wents (kids pre ch 0 0)) = rwents (rkids pre ch (length ch)).
Proof.
  induction ch as [|o ch IH] using rev_ind; [done|]. rewrite kids_snoc, wents_app, rev_app_distr, IH, app_length, Nat.add_comm.
  cbn [length Nat.add rkids]. rewrite app_nth2, Nat.sub_diag by lia. cbn [nth]. rewrite rwents_app, rkids_take by done. f_equal.
  destruct o as [c|]; [|done]. unfold wents, rwents. cbn [flat_map fst snd]. rewrite !app_nil_r, N.add_0_l. done.
Qed.
Definition vent (q : list N) (x : option V) : list (list N * V) := match x with Some v => [(q, v)] | None => [] end.
Lemma rev_rents p ch x pre : length ch = 16%nat -> rev (rents (Radix p ch x) pre) = rwents (rkids (pre ++ p) ch 16) ++ vent (pre ++ p) x.
Proof. intros Hl. rewrite rents_eq, rev_app_distr, rev_wents_kids, Hl. by destruct x. Qed.

Fixpoint rwork (r : radix V) : nat :=
  match r with Radix p ch v => (3 + sum_list (map (fun o => match o with Some c => rwork c | None => O end) ch))%nat end.
Definition kwork (W : list (list N * radix V)) : nat := sum_list (map (fun qc => rwork qc.2) W).
Lemma sum_rev_app (a b : list nat) : sum_list (a ++ b) = (sum_list a + sum_list b)%nat.
Proof. induction a as [|x a IH]; cbn; [done|]. rewrite IH. lia. Qed.
Lemma kwork_rkids pre ch : forall i, (length ch <= i)%nat ->
   kwork (rkids pre ch i) = sum_list (map (fun o => match o with Some c => rwork c | None => O end) ch).
Proof.
  induction ch as [|o ch IH] using rev_ind; intros i Hi.
  - clear. induction i as [|i IH]; [done|]. cbn [rkids]. by rewrite nth_overflow by (cbn; lia).
  - rewrite app_length in Hi. cbn in Hi. rewrite map_app, sum_rev_app. cbn [map sum_list].
    assert (Hgo : forall k, kwork (rkids pre (ch ++ [o]) (k + S (length ch))) = kwork (rkids pre (ch ++ [o]) (S (length ch)))).
    { induction k as [|k IHk]; [done|]. cbn [Nat.add rkids]. rewrite nth_overflow by (rewrite app_length; cbn; lia). done. }
    replace i with (i - S (length ch) + S (length ch))%nat by lia. rewrite Hgo. cbn [rkids]. rewrite app_nth2, Nat.sub_diag by lia. cbn [nth].
    rewrite rkids_take by done. unfold kwork at 1. rewrite map_app, sum_rev_app. fold (kwork (rkids pre ch (length ch))). rewrite IH by done.
    destruct o; cbn; lia.
Qed.
Lemma rwork_eq p ch x pre : length ch = 16%nat -> rwork (Radix p ch x) = (3 + kwork (rkids pre ch 16))%nat.
Proof. intros Hl. rewrite kwork_rkids by lia. done. Qed.
End rkids.

Section bwd.
Context {V : Type} (E : env V) (HE : env_ok E).
Local Notation node := (node V).
Implicit Types (st : store) (n c : node) (rch : list (option (radix V))).

(** No dirty nodes. *)
Inductive clean : node -> Prop :=
| clean_intro p ch v h vh vs g : (forall i c, ch !! i = Some (Some c) -> clean c) -> clean (Node p ch v false h vh vs g).
Lemma clean_new h g : clean (new_node h g).
Proof. constructor. intros i c Hi. apply lookup_replicate in Hi as [? _]. done. Qed.
Lemma clean_put n i c : clean n -> clean c -> clean (put_child n i (Some c)).
Proof.
  destruct 1 as [p ch v h vh vs g Hc]. intros Hcc. constructor. intros j c' Hj. apply list_lookup_insert_Some in Hj as [(_&[= ->]&_)|(_&Hj)]; eauto.
Qed.
Lemma clean_child n i c : clean n -> n_child n i = Some c -> clean c.
Proof. destruct 1 as [p ch v h vh vs g Hc]. unfold n_child. cbn [n_ch]. intros Hi%nth_some_lookup. eauto. Qed.
Lemma clean_dirty n : clean n -> n_dirty n = false. Proof. by destruct 1. Qed.
Lemma read_children_clean hd g : forall is b ch b', read_children (V:=V) hd is g b = Some (ch, b') -> forall i c, ch !! i = Some (Some c) -> clean c.
Proof.
  induction is as [|k is IH]; intros b ch b'; cbn [read_children]; [by intros [= <- <-]|].
  destruct (nh_HasChild hd k).
  - destruct (read_n 32 b) as [[h b1]|]; [|done]. destruct (read_children hd is g b1) as [[r b2]|] eqn:Hr; [|done].
    intros [= <- <-] [|i] c Hi; cbn in Hi; [injection Hi as <-; apply clean_new|by eapply IH].
  - destruct (read_children hd is g b) as [[r b2]|] eqn:Hr; [|done].
    intros [= <- <-] [|i] c Hi; cbn in Hi; [done|by eapply IH].
Qed.
Lemma clean_deser n b n' : clean n -> node_deser E n b = Some n' -> clean n'.
Proof.
  destruct 1 as [p ch v h vh vs g Hc]. unfold node_deser. destruct (nh_deser E b) as [[hd b1]|]; [|done].
  destruct (nt_HasChildren (nh_nt hd)).
  - destruct (read_children hd nibs g b1) as [[ch' b2]|] eqn:Hr; [|done]. pose proof (read_children_clean _ _ _ _ _ _ Hr).
    destruct (nt_HasValue (nh_nt hd)); [destruct (read_n 32 b2) as [[? ?]|]; [|done]|]; intros [= <-]; by constructor.
  - destruct (nt_HasValue (nh_nt hd)); [destruct (read_n 32 b1) as [[? ?]|]; [|done]|]; intros [= <-]; by constructor.
Qed.
Lemma clean_expandValue st n n' : clean n -> expandValue E st n = Some n' -> clean n'.
Proof.
  destruct 1 as [p ch v h vh vs g Hc]. unfold expandValue. cbn [n_vh]. destruct vh as [x|]; [|intros [= <-]; by constructor].
  destruct (hash_len x); [|intros [= <-]; by constructor]. destruct (st_vals st !! x); [|done]. destruct (evdec E _); [|done].
  intros [= <-]. by constructor.
Qed.
Lemma clean_expandNode st gen n n' : clean n -> expandNode E st gen n = Some n' -> clean n'.
Proof.
  intros Hc. unfold expandNode. destruct (isCollapsed E n); [|by intros [= <-]]. cbn [negb].
  assert (Hc2 : clean (set_gen n gen)) by (destruct Hc; by constructor).
  destruct (n_hash (set_gen n gen)) as [h|]; [|by intros [= <-]]. destruct (st_nodes st !! h); [|done].
  destruct (node_deser E (set_gen n gen) l) as [n1|] eqn:Hd; [|done]. pose proof (clean_deser _ _ _ Hc2 Hd) as Hc1.
  set (n2 := if inErrorStatus E n1 then _ else n1).
  assert (Hcn2 : clean n2) by (unfold n2; destruct (inErrorStatus E n1); [|done]; destruct Hc1; by constructor).
  clearbody n2. destruct (isCollapsed E n2); [done|]. destruct (isValueCollapsed n2); [by apply clean_expandValue|by intros [= <-]].
Qed.
Lemma clean_selector st gen n : clean n -> clean (selector E st gen n).1.
Proof.
  intros Hc. unfold selector. cbn [fst].
  set (n1 := if isCollapsed E n then it_expand E st gen n else n).
  assert (Hc1 : clean n1).
  { unfold n1, it_expand. destruct (isCollapsed E n); [|done]. destruct (expandNode E st gen n) eqn:He; [by eapply clean_expandNode|done]. }
  clearbody n1. unfold it_expandValue. destruct (isValueCollapsed n1); [|done]. destruct (isCollapsed E n1).
  - destruct (expandNode E st gen n1) eqn:He; [by eapply clean_expandNode|done].
  - destruct (expandValue E st n1) eqn:He; [by eapply clean_expandValue|done].
Qed.
Lemma collapse_clean st n r : loaded E st n r -> clean n -> rep E st (collapse E n).2 r /\ clean (collapse E n).2.
Proof.
  intros Hl Hc. assert (Hcc : canCollapse E n = true).
  { unfold canCollapse. rewrite (loaded_not_collapsed E HE _ _ _ Hl), (clean_dirty _ Hc). cbn.
    destruct Hl as [pre ch x d h vh vs g rch H1 H2 H3 H4 H5 H6 H7 H8 H9]. cbn [n_hash n_dirty] in *. apply clean_dirty in Hc. cbn in Hc. subst d.
    destruct (H9 eq_refl) as [-> _]. destruct H8 as [?|[_ Hne]]; [done|]. rewrite andb_true_r. apply negb_true_iff, bool_decide_eq_false_2. intros [= Hx]. by apply Hne. }
  split; [by apply collapse_rep; [apply loaded_rep|]|].
  unfold collapse. rewrite (loaded_not_collapsed E HE _ _ _ Hl).
  destruct Hl as [pre ch x d h vh vs g rch H1 H2 H3 H4 H5 H6 H7 H8 H9]. apply clean_dirty in Hc. cbn in Hc. subst d.
  destruct (H9 eq_refl) as [-> _]. cbn [node_hash snd]. constructor. intros i c Hi. rewrite list_lookup_fmap in Hi. by destruct (ch !! i).
Qed.

Lemma last_below_spec st n p rch x pre : loaded E st n (Radix p rch x) -> forall i,
  match last_below (n_ch n) i with
  | Some (k, c) => exists rc, (N.to_nat k < i)%nat /\ n_child n k = Some c /\ rch !! N.to_nat k = Some (Some rc) /\ rep E st c rc /\
      rkids pre rch i = (pre ++ [k], rc) :: rkids pre rch (N.to_nat k)
  | None => rkids pre rch i = []
  end.
Proof.
  intros Hl. induction i as [|i IH]; [done|]. cbn [last_below rkids].
  pose proof (loaded_child E st n p rch x (N.of_nat i) Hl) as Hc. unfold n_child in Hc. rewrite Nat2N.id in Hc.
  destruct (nth i (n_ch n) None) as [c|] eqn:Hn.
  - destruct Hc as (rc&Hrc&Hrep). exists rc. rewrite Nat2N.id. split; [lia|]. split; [unfold n_child; by rewrite Nat2N.id|]. split; [done|]. split; [done|].
    by rewrite (nth_lookup_Some _ _ None _ Hrc).
  - assert (nth i rch None = None) as ->.
    { destruct (nth i rch None) as [rc|] eqn:Hr; [|done]. apply nth_some_lookup in Hr. by destruct (Hc rc). }
    cbn [app]. destruct (last_below (n_ch n) i) as [[k c]|]; [|done]. destruct IH as (rc&?&?&?&?&->). exists rc. split; [lia|done].
Qed.

(** [stack] leads to a node with path [pre] that represents [r]; [R] are the
    entries that come after the tree below it, [w] a bound on the work left. *)
Inductive rz st : list (node * Z) -> list N -> radix V -> list (list N * V) -> nat -> Prop :=
| rz_root r : rz st [] [] r [] 0
| rz_kid n i p rch rc stack pre R w : loaded E st n (Radix p rch None) -> clean n -> rshape (Radix p rch None) ->
    rch !! i = Some (Some rc) -> (i < 16)%nat -> rz st stack pre (Radix p rch None) R w ->
    rz st ((n, Z.of_nat i) :: stack) ((pre ++ p) ++ [N.of_nat i]) rc (rwents (rkids (pre ++ p) rch i) ++ R)
       (w + 2 + kwork (rkids (pre ++ p) rch i)).

Inductive rstate st : list (node * Z) -> list (list N * V) -> nat -> Prop :=
| rs_end : rstate st [] [] 0
| rs_in n i p rch x stack pre R w : rep E st n (Radix p rch x) -> clean n -> rshape (Radix p rch x) ->
    (i <= 16)%nat -> (i = 16%nat \/ loaded E st n (Radix p rch x) /\ x = None) ->
    rz st stack pre (Radix p rch x) R w ->
    rstate st ((n, Z.of_nat i) :: stack) (rwents (rkids (pre ++ p) rch i) ++ vent (pre ++ p) x ++ R) (w + 2 + kwork (rkids (pre ++ p) rch i))
| rs_out n p rch x stack pre R w : loaded E st n (Radix p rch x) -> clean n -> rshape (Radix p rch x) ->
    rz st stack pre (Radix p rch x) R w -> rstate st ((n, (-1)%Z) :: stack) R (w + 1).

Lemma rshape_leaf p rch x v : rshape (Radix p rch x) -> x = Some v -> forall (i : nat) (c : radix V), rch !! i <> Some (Some c).
Proof.
  intros (U&Hw) -> i c Hi. apply wfr_inv in Hw as [(?&_&->&_)|(?&_)]; [|done]. apply lookup_replicate in Hi as [? _]. done.
Qed.

Lemma rpop_spec st n p rch x stack pre R w : rz st stack pre (Radix p rch x) R w -> loaded E st n (Radix p rch x) -> clean n ->
  exists w', (w' <= w)%nat /\ rstate st (rpop (collapse E n).2 stack) R w'.
Proof.
  intros Hz Hl Hc. destruct (collapse_clean st n _ Hl Hc) as [Hr' Hc']. inversion Hz as [|n0 i p0 rch0 rc stack0 pre0 R0 w0 Hl0 Hc0 Hs0 Hi0 Hlt Hz0]; subst.
  - exists O. split; [lia|]. constructor.
  - cbn [rpop]. eexists. split; [done|].
    assert (Hl1 : loaded E st (put_child n0 (Z.to_N (Z.of_nat i)) (Some (collapse E n).2)) (Radix p0 rch0 None)).
    { eapply put_child_same; [done| |done]. replace (N.to_nat (Z.to_N (Z.of_nat i))) with i by lia. done. }
    apply (rs_in st _ i p0 rch0 None stack0 pre0 R0 w0); [by apply loaded_rep|by apply clean_put|done|lia|by right|done].
Qed.

Lemma rloop_spec w : forall st gen stack P w', rstate st stack P w' -> (w' <= w)%nat -> forall fuel, (w < fuel)%nat ->
  exists s b, rloop E fuel st gen stack = Some (s, b) /\
    if b then exists n p rch v stack' pre R w2, s = (n, (-1)%Z) :: stack' /\ P = (pre ++ p, v) :: R /\
       loaded E st n (Radix p rch (Some v)) /\ rz st stack' pre (Radix p rch (Some v)) R w2 /\ (w2 + 1 <= w)%nat /\ rstate st s R (w2 + 1)
    else P = [].
Proof.
  induction w as [|w IH0]; intros st gen stack P w' Hst Hw [|fuel] Hf; try lia.
  - inversion Hst; subst; try lia. exists [], false. done.
  - assert (IH : forall stack P w', rstate st stack P w' -> (w' <= w)%nat ->
      exists s b, rloop E fuel st gen stack = Some (s, b) /\
      if b then exists n p rch v stack' pre R w2, s = (n, (-1)%Z) :: stack' /\ P = (pre ++ p, v) :: R /\
       loaded E st n (Radix p rch (Some v)) /\ rz st stack' pre (Radix p rch (Some v)) R w2 /\ (w2 + 1 <= S w)%nat /\ rstate st s R (w2 + 1)
      else P = []).
    { intros stack1 P1 w1 Hst1 Hw1. destruct (IH0 st gen _ _ _ Hst1 Hw1 fuel ltac:(lia)) as (s&b&->&Hb). exists s, b. split; [done|].
      destruct b; [|done]. destruct Hb as (n3&p3&rch3&v3&st3&pre3&R3&w3&?&?&?&?&?&?). exists n3, p3, rch3, v3, st3, pre3, R3, w3.
      split; [done|]. split; [done|]. split; [done|]. split; [done|]. split; [lia|done]. }
    cbn [rloop]. inversion Hst as [|n i p rch x stack' pre R w0 Hrep Hc Hs Hi Hor Hz|n p rch x stack' pre R w0 Hl Hc Hs Hz]; subst.
    + exists [], false. done.
    + destruct (Z.ltb_spec (Z.of_nat i) 0) as [?|_]; [lia|].
      set (n2 := let n1 := if isCollapsed E n then it_expand E st gen n else n in if isValueCollapsed n1 then it_expandValue E st gen n1 else n1).
      change (let n0 := if isCollapsed E n then it_expand E st gen n else n in
              let n1 := if isValueCollapsed n0 then it_expandValue E st gen n0 else n0 in ?F n1) with (F n2).
      destruct (selector_spec E HE st gen n p rch x Hrep) as (n'&Hsel&Hl).
      assert (Hn2 : n2 = n') by (unfold selector in Hsel; by injection Hsel).
      assert (Hc2 : clean n') by (pose proof (clean_selector st gen n Hc) as Hcs; by rewrite Hsel in Hcs).
      match goal with |- exists s b, ?T = _ /\ _ => assert (HT : T = 
        (if (Z.of_nat i =? 0)%Z then rloop E fuel st gen ((n', (-1)%Z) :: stack')
            else match last_below (n_ch n') (Z.to_nat (Z.of_nat i)) with
                 | Some (i, c) => rloop E fuel st gen ((c, 16%Z) :: (n', Z.of_N i) :: stack')
                 | None => if hasValue n' then Some ((n', (-1)%Z) :: stack', true)
                           else rloop E fuel st gen (rpop (collapse E n').2 stack')
                 end)) by (rewrite <- Hn2; reflexivity); rewrite HT; clear HT end.
      clear Hn2 n2 Hsel. pose proof (loaded_fields E _ _ _ _ _ Hl) as (Hpre&Hval&Hlr&Hlc&Hnib&_).
      destruct (Z.eqb_spec (Z.of_nat i) 0) as [Hi0|Hi0].
      * assert (i = O) as -> by lia. destruct Hor as [?|[_ ->]]; [lia|]. cbn [rkids vent app] in *.
        change (rwents (V:=V) []) with (@nil (list N * V)). cbn [app]. apply (IH _ R (w0 + 1)%nat); [by econstructor|change (kwork (V:=V) []) with O in Hw; lia].
      * rewrite Nat2Z.id. pose proof (last_below_spec st n' p rch x (pre ++ p) Hl i) as Hlb.
        destruct (last_below (n_ch n') i) as [[k c]|].
        -- destruct Hlb as (rc&Hk&Hck&Hrck&Hrepc&Hrk).
           assert (x = None) as ->.
           { destruct x as [v|]; [|done]. exfalso. by eapply (rshape_leaf _ _ _ v Hs eq_refl). }
           assert (Hsc : rshape rc) by (by eapply rshape_child).
           assert (Hz2 : rz st ((n', Z.of_N k) :: stack') ((pre ++ p) ++ [k]) rc (rwents (rkids (pre ++ p) rch (N.to_nat k)) ++ R)
              (w0 + 2 + kwork (rkids (pre ++ p) rch (N.to_nat k)))).
           { replace (Z.of_N k) with (Z.of_nat (N.to_nat k)) by lia. rewrite <- (N2Nat.id k) at 2. constructor; try done. lia. }
           destruct rc as [pc chc xc].
           assert (Hst2 : rstate st ((c, 16%Z) :: (n', Z.of_N k) :: stack')
              (rwents (rkids (((pre ++ p) ++ [k]) ++ pc) chc 16) ++ vent (((pre ++ p) ++ [k]) ++ pc) xc ++ (rwents (rkids (pre ++ p) rch (N.to_nat k)) ++ R))
              (w0 + 2 + kwork (rkids (pre ++ p) rch (N.to_nat k)) + 2 + kwork (rkids (((pre ++ p) ++ [k]) ++ pc) chc 16))).
           { apply (rs_in st c 16); [done|by eapply clean_child|done|lia|by left|done]. }
           assert (Hlch : length chc = 16%nat) by (by destruct (rshape_shape _ Hsc)).
           assert (HP : rwents (rkids (pre ++ p) rch i) ++ vent (pre ++ p) None ++ R =
             rwents (rkids (((pre ++ p) ++ [k]) ++ pc) chc 16) ++ vent (((pre ++ p) ++ [k]) ++ pc) xc ++ (rwents (rkids (pre ++ p) rch (N.to_nat k)) ++ R)).
           { rewrite Hrk. change (rwents (((pre ++ p) ++ [k], Radix pc chc xc) :: rkids (pre ++ p) rch (N.to_nat k))) with
               (rev (rents (Radix pc chc xc) ((pre ++ p) ++ [k])) ++ rwents (rkids (pre ++ p) rch (N.to_nat k))).
             rewrite rev_rents by done. cbn [vent app]. by rewrite <- !app_assoc. }
           rewrite HP. rewrite Hrk in Hw. change (kwork (((pre ++ p) ++ [k], Radix pc chc xc) :: rkids (pre ++ p) rch (N.to_nat k))) with
               (rwork (Radix pc chc xc) + kwork (rkids (pre ++ p) rch (N.to_nat k)))%nat in Hw.
           rewrite (rwork_eq pc chc xc (((pre ++ p) ++ [k]) ++ pc)) in Hw by done.
           apply (IH _ _ _ Hst2). lia.
        -- rewrite Hlb in *. change (rwents (V:=V) []) with (@nil (list N * V)) in *. change (kwork (V:=V) []) with O in *. cbn [app] in *. unfold hasValue. rewrite Hval. destruct x as [v|]; cbn [is_some vent app].
           ++ do 2 eexists. split; [reflexivity|]. cbv iota. exists n', p, rch, v, stack', pre, R, w0. split; [done|]. split; [done|]. split; [done|]. split; [done|].
              cbn in Hw. split; [lia|]. by econstructor.
           ++ destruct (rpop_spec st n' p rch None stack' pre R w0 Hz Hl Hc2) as (w4&Hw4&Hst4). cbn in Hw.
              apply (IH _ R w4 Hst4). lia.
    + change (-1 <? 0)%Z with true. cbv iota. destruct (rpop_spec st n p rch x stack' pre P w0 Hz Hl Hc) as (w4&Hw4&Hst4).
      apply (IH _ P w4 Hst4). lia.
Qed.

Lemma rz_mono st st' stack pre r R w : st_le st st' -> rz st stack pre r R w -> rz st' stack pre r R w.
Proof. intros Hle. induction 1; econstructor; try done. by eapply loaded_mono. Qed.
Lemma rstate_mono st st' s P w : st_le st st' -> rstate st s P w -> rstate st' s P w.
Proof.
  intros Hle. destruct 1 as [|n i p rch x stack pre R w Hrep Hc Hs Hi Hor Hz|n p rch x stack pre R w Hl Hc Hs Hz].
  - constructor.
  - constructor; [by eapply rep_mono|done..| |by eapply rz_mono]. destruct Hor as [?|[? ?]]; [by left|right; split; [by eapply loaded_mono|done]].
  - econstructor; [by eapply loaded_mono|done..|by eapply rz_mono].
Qed.

Lemma rtrace_snoc (l : list (node * Z)) n i : rtrace_prefix (l ++ [(n, i)]) =
  concat (map (fun f => n_pre f.1 ++ (if (0 <=? f.2)%Z && (f.2 <? 16)%Z then [Z.to_N f.2] else [])) l) ++ n_pre n.
Proof.
  induction l as [|[n0 i0] l IH]; [done|]. cbn [app map concat fst snd].
  assert (Hne : exists a b, l ++ [(n, i)] = a :: b) by (destruct l; cbn; eauto). destruct Hne as (a&b&Hab).
  rewrite Hab in *. change (rtrace_prefix ((n0, i0) :: a :: b)) with
    (n_pre n0 ++ (if (0 <=? i0)%Z && (i0 <? 16)%Z then [Z.to_N i0] else []) ++ rtrace_prefix (a :: b)).
  rewrite IH. by rewrite <- !app_assoc.
Qed.
Lemma rz_prefix st stack pre r R w : rz st stack pre r R w ->
  concat (map (fun f => n_pre f.1 ++ (if (0 <=? f.2)%Z && (f.2 <? 16)%Z then [Z.to_N f.2] else [])) (rev stack)) = pre.
Proof.
  induction 1 as [|n i p rch rc stack pre R w Hl Hc Hs Hi Hlt Hz IH]; [done|]. cbn [rev]. rewrite map_app, concat_app, IH. cbn [map concat fst snd].
  apply loaded_fields in Hl as (->&_). rewrite (proj2 (Z.leb_le 0 (Z.of_nat i))), (proj2 (Z.ltb_lt (Z.of_nat i) 16)) by lia. cbn [andb].
  rewrite app_nil_r, app_assoc. do 2 f_equal. lia.
Qed.

Lemma rdrive_spec body sts : (forall i, st_le (sts i) (sts (S i))) -> forall ents i root gen s w,
  rstate (sts i) s ents w -> Forall (fun e => even_key e) ents ->
  forall fuel calls, (w < fuel)%nat -> (length ents < calls)%nat ->
  drive (rnext E) rcurrent body fuel calls sts i (RIter root gen s 1) = Some (upto body (map out ents)).
Proof.
  intros Hle. induction ents as [|[k x] ents IH]; intros i root gen s w Hst Hev fuel [|calls] Hf Hc; try (cbn in Hc; lia);
    cbn [drive rnext]; change (1 <? 1) with false; cbv iota; change (1 =? 0) with false; cbv iota;
    destruct (rloop_spec w (sts i) gen s _ w Hst ltac:(done) fuel Hf) as (s'&b&->&Hb).
  - destruct b; [|done]. by destruct Hb as (?&?&?&?&?&?&?&?&_&?&_).
  - destruct b; [|done]. destruct Hb as (n&p&rch&v&stack'&pre&R&w2&->&[= -> -> ->]&Hl&Hz&Hw2&Hst').
    apply Forall_cons in Hev as [Hk Hev].
    assert (Hcur : rcurrent (RIter root gen ((n, (-1)%Z) :: stack') 1) = Some (pack (pre ++ p), Some v)).
    { unfold rcurrent. cbn [r_status r_stack]. change (negb (1 =? 1)) with false. cbv iota.
      cbn [rev]. rewrite rtrace_snoc, (rz_prefix _ _ _ _ _ _ Hz). apply loaded_fields in Hl as (->&->&_).
      destruct Hk as [Hn Ho]. cbn [fst] in *. by rewrite prefixToKeystring_pack. }
    rewrite Hcur. cbn [map upto]. change (out (pre ++ p, v)) with (pack (pre ++ p), Some v). destruct (body _); [|done].
    rewrite (IH (S i) root gen _ (w2 + 1)%nat); [done|by eapply rstate_mono|done|lia|cbn in Hc; lia].
Qed.

Lemma rdrive_root body sts t r : (forall i, st_le (sts i) (sts (S i))) -> rep E (sts O) (t_root t) r -> clean (t_root t) -> rshape r ->
  Forall even_key (rents r []) -> forall fuel, (rwork r + length (rents r []) < fuel)%nat ->
  drive (rnext E) rcurrent body fuel fuel sts 0 (newReversedValueIterator t) = Some (upto body (map out (rev (rents r [])))).
Proof.
  intros Hle Hrep Hc Hs Hev fuel Hf. destruct r as [p rch x].
  assert (Hlr : length rch = 16%nat) by (by destruct (rshape_shape _ Hs)).
  assert (Hst : rstate (sts O) [(t_root t, 16%Z)] (rev (rents (Radix p rch x) [])) (0 + 2 + kwork (rkids ([] ++ p) rch 16))).
  { rewrite rev_rents by done. rewrite <- (app_nil_r (vent ([] ++ p) x)). apply (rs_in (sts O) _ 16); [done..|by left|constructor]. }
  rewrite (rwork_eq p rch x ([] ++ p)) in Hf by done.
  assert (Hrl : length (rev (rents (Radix p rch x) [])) = length (rents (Radix p rch x) [])) by apply rev_length.
  assert (Hev' : Forall even_key (rev (rents (Radix p rch x) []))) by (by apply Forall_rev).
  pose proof (rdrive_spec body sts Hle _ 0 (t_root t) (t_gen t) _ _ Hst Hev' fuel fuel ltac:(lia) ltac:(lia)) as Hd.
  rewrite <- Hd. unfold newReversedValueIterator. destruct fuel as [|fuel]; [lia|]. cbn [drive rnext]. done.
Qed.

Lemma rdrive_empty body sts t : erep E (t_root t) -> forall fuel, (1 < fuel)%nat ->
  drive (rnext E) rcurrent body fuel fuel sts 0 (newReversedValueIterator t) = Some [].
Proof.
  intros He [|[|fuel]] Hf; [lia..|]. unfold newReversedValueIterator. cbn [drive rnext]. change (1 <? 0) with false. cbv iota.
  change (0 =? 0) with true. cbv iota. destruct (erep_empty E _ He) as (_&Hc&Hv). destruct (t_root t) as [? ? ? ? ? ? ? ?] eqn:Hr.
  cbn [rloop]. change (16 <? 0)%Z with false. cbv iota. rewrite Hc, Hv. inversion He; subst. reflexivity.
Qed.
End bwd.
