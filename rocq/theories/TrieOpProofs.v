(** Get, insert and delete on represented trees. *)
From Verif Require Export TrieRepProofs.

Section ops.
Context {V : Type} (E : env V) (HE : env_ok E).
Implicit Types (rch : list (option (radix V))) (U : list N -> Prop).
Local Notation node := (node V).
Local Notation rep := (rep E).
Local Notation loaded := (loaded E).

Lemma matchPrefix_app p s : matchPrefix p (p ++ s) = length p.
Proof. induction p as [|x p IH]; [by destruct s|]. cbn. by rewrite N.eqb_refl, IH. Qed.
Lemma matchPrefix_le p s : (matchPrefix p s <= length p)%nat.
Proof. revert s. induction p as [|x p IH]; intros [|y s]; cbn; try lia. destruct (x =? y); [|lia]. specialize (IH s). lia. Qed.
Lemma matchPrefix_neq p s : ~ p `prefix_of` s ->
  (exists x p', p = s ++ x :: p' /\ matchPrefix p s = length s) \/
  (exists c x y p' s', x <> y /\ p = c ++ x :: p' /\ s = c ++ y :: s' /\ matchPrefix p s = length c).
Proof.
  revert s. induction p as [|x p IH]; intros s Hn; [by destruct Hn; apply prefix_nil|].
  destruct s as [|y s]; [left; by exists x, p|]. cbn. destruct (N.eqb_spec x y) as [->|Hxy].
  - destruct (IH s) as [(x'&p'&->&Hm)|(c&x'&y'&p'&s'&Hxy&->&->&Hm)].
    + intros Hp. apply Hn. by apply prefix_cons.
    + left. exists x', p'. cbn. by rewrite Hm.
    + right. exists (y :: c), x', y', p', s'. cbn. by rewrite Hm.
  - right. exists [], x, y, p, s. done.
Qed.

Lemma drop_app_len {A} (p s : list A) : drop (length p) (p ++ s) = s.
Proof. apply drop_app. Qed.

(* ------------------------------------------------------------- helpers *)

Lemma loaded_inv st n r : loaded st n r -> exists pre ch x d h vh vs g rch,
  n = Node pre ch x d h vh vs g /\ r = Radix pre rch x /\
  length ch = 16%nat /\ length rch = 16%nat /\ is_nibbles pre /\
  (is_Some x \/ exists i c, rch !! i = Some (Some c)) /\
  present_n ch = present rch /\
  (forall i c rc, ch !! i = Some (Some c) -> rch !! i = Some (Some rc) -> rep st c rc) /\
  vrep E st d x vh vs x.
Proof. destruct 1. do 9 eexists. split; [done|]. done. Qed.

Lemma present_insert_n (ch : list (option node)) i c : present_n (<[i := c]> ch) = <[i := is_some c]> (present_n ch).
Proof. unfold present_n. exact (list_fmap_insert is_some ch i c). Qed.
Lemma present_insert rch i c : present (<[i := c]> rch) = <[i := is_some c]> (present rch).
Proof. unfold present. exact (list_fmap_insert _ rch i c). Qed.

Lemma children_insert st (ch : list (option node)) rch i o ro :
  present_n ch = present rch ->
  (forall j c rc, ch !! j = Some (Some c) -> rch !! j = Some (Some rc) -> rep st c rc) ->
  match o, ro with Some c, Some rc => rep st c rc | None, None => True | _, _ => False end ->
  present_n (<[i := o]> ch) = present (<[i := ro]> rch) /\
  (forall j c rc, <[i := o]> ch !! j = Some (Some c) -> <[i := ro]> rch !! j = Some (Some rc) -> rep st c rc).
Proof.
  intros Hp Hc Ho. split.
  - rewrite present_insert_n, present_insert, Hp. f_equal. by destruct o, ro.
  - intros j c rc. destruct (decide (i = j)) as [->|Hij].
    + intros H1 H2. destruct (decide (j < length ch)%nat) as [Hj|Hj].
      * rewrite list_lookup_insert in H1 by done. injection H1 as ->.
        destruct (decide (j < length rch)%nat) as [Hj'|Hj'].
        -- rewrite list_lookup_insert in H2 by done. injection H2 as ->. done.
        -- apply lookup_lt_Some in H2. rewrite insert_length in H2. lia.
      * apply lookup_lt_Some in H1. rewrite insert_length in H1. lia.
    + rewrite !list_lookup_insert_ne by done. apply Hc.
Qed.

Lemma put_child_same st n pre rch x i c rc : loaded st n (Radix pre rch x) ->
  rch !! N.to_nat i = Some (Some rc) -> rep st c rc -> loaded st (put_child n i (Some c)) (Radix pre rch x).
Proof.
  inversion 1; subst. intros Hi Hr. cbn [put_child].
  edestruct (children_insert st ch rch (N.to_nat i) (Some c) (Some rc)) as [Hp' Hc']; [done|done|done|].
  rewrite (list_insert_id rch) in Hp', Hc' by done.
  constructor; try done. by rewrite insert_length.
Qed.

Lemma vrep_dirty st d x vh vs : vrep E st d x vh vs x -> vrep E st true x vh vs x.
Proof. inversion 1; subst; by constructor. Qed.

Lemma wfr_inv U pre rch x : wfr U (Radix pre rch x) ->
  (exists x', x = Some x' /\ rch = replicate 16 None /\ U pre /\ is_nibbles pre) \/
  (x = None /\ length rch = 16%nat /\ is_nibbles pre /\
   (exists i j, i <> j /\ (exists c, rch !! i = Some (Some c)) /\ (exists c, rch !! j = Some (Some c))) /\
   (forall i c, rch !! i = Some (Some c) -> wfr (fun s => U (pre ++ N.of_nat i :: s)) c)).
Proof.
  intros Hw. remember (Radix pre rch x) as r eqn:Hr. destruct Hw; injection Hr as <- <- <-; [left; eauto|by right].
Qed.

Lemma wfr_child U pre rch x i rc : wfr U (Radix pre rch x) -> rch !! N.to_nat i = Some (Some rc) ->
  wfr (fun s => U (pre ++ i :: s)) rc /\ x = None.
Proof.
  intros Hw Hi. apply wfr_inv in Hw as [(x'&->&->&_)|(->&_&_&_&Hc)].
  - apply lookup_replicate in Hi as [? _]. done.
  - split; [|done]. specialize (Hc _ _ Hi). by rewrite N2Nat.id in Hc.
Qed.

(* ------------------------------------------------------------------ get *)

Lemma get_spec fuel : forall st gen n r suffix U,
  rep st n r -> wfr U r -> prefix_free U -> U suffix -> is_nibbles suffix -> (length suffix < fuel)%nat ->
  exists n' tr, get E fuel st gen n suffix = (n', rlook r suffix, tr) /\ rep st n' r.
Proof.
  induction fuel as [|fuel IH]; intros st gen n r suffix U Hrep Hw Hpf HU Hns Hf; [lia|].
  cbn [get]. destruct (fullExpand_spec E HE st gen n r Hrep) as (n1&->&Hl).
  pose proof (loaded_not_empty E HE _ _ _ Hl) as Hne.
  destruct (loaded_inv _ _ _ Hl) as (pre&ch&x&d&h&vh&vs&g&rch&Hn1&->&Hlc&Hlr&Hnib&Hcont&Hpres&Hch&Hv).
  destruct suffix as [|s0 suf].
  { destruct (wfr_nil U pre rch x) as (->&_&_); [done..|]. exists n1, []. rewrite rlook_eq. cbn [strip]. subst n1. cbn.
    split; [done|by apply loaded_rep]. }
  set (suffix := s0 :: suf) in *. rewrite Hne.
  assert (Hpre : n_pre n1 = pre) by by subst n1. rewrite Hpre. rewrite rlook_eq.
  destruct (strip pre suffix) as [s|] eqn:Hs.
  - apply strip_Some in Hs. rewrite Hs. rewrite matchPrefix_app, Nat.sub_diag. cbn [Nat.eqb]. rewrite drop_app_len.
    destruct s as [|i rest].
    { exists n1, []. subst n1. cbn. split; [done|by apply loaded_rep]. }
    assert (Hi16 : i < 16).
    { unfold is_nibbles in Hns. rewrite Hs in Hns. apply Forall_app in Hns as [_ Hns]. by inversion Hns. }
    assert (Hnc : n_child n1 i = nth (N.to_nat i) ch None) by by subst n1. rewrite Hnc.
    pose proof (present_lookup _ _ (N.to_nat i) Hpres) as Hpi.
    destruct (nth (N.to_nat i) ch None) as [c|] eqn:Hc, (nth (N.to_nat i) rch None) as [rc|] eqn:Hrc; try done.
    2:{ exists n1, []. split; [done|by apply loaded_rep]. }
    apply nth_some_lookup in Hc, Hrc.
    destruct (wfr_child _ _ _ _ _ _ Hw Hrc) as [Hwc ->].
    assert (Hrepc : rep st c rc) by by eapply Hch.
    assert (Hexp : exists c1, (if isCollapsed E c then expandNode E st gen c else Some c) = Some c1 /\ rep st c1 rc).
    { destruct (isCollapsed E c); [by apply expandNode_spec|eauto]. }
    destruct Hexp as (c1&->&Hr1).
    destruct (IH st gen c1 rc rest (fun s => U (pre ++ i :: s))) as (c'&tr&->&Hr'); [done|done|by apply prefix_free_sub|by rewrite <- Hs| | |].
    { unfold is_nibbles in Hns. rewrite Hs in Hns. apply Forall_app in Hns as [_ Hns]. by inversion Hns. }
    { apply (f_equal length) in Hs. rewrite app_length in Hs. cbn [length] in Hs. lia. }
    do 2 eexists. split; [done|]. apply loaded_rep. by eapply put_child_same.
  - apply strip_None in Hs. destruct (Nat.eqb_spec (length pre - matchPrefix pre suffix) 0) as [He|_].
    + exfalso. apply matchPrefix_neq in Hs as [(y&p'&->&Hm)|(c&y&z&p'&s'&_&->&_&Hm)]; rewrite Hm in He; rewrite app_length in He; cbn in He; lia.
    + exists n1, []. split; [done|by apply loaded_rep].
Qed.

(* --------------------------------------------------------------- insert *)

Definition isS {A} (o : option A) : bool := match o with Some _ => true | None => false end.

Lemma rep_leaf st pre g y : is_nibbles pre ->
  rep st (Node pre (replicate 16 None) (Some y) true None None [] g) (Radix pre (replicate 16 None) (Some y)).
Proof.
  intros Hn. constructor; try done; [by left|intros i c rc Hi; by apply lookup_replicate in Hi as [? _]|constructor; by left|by left].
Qed.

Lemma createNode_leaf n rest (y : V) : exists d, setValue (createNode n rest) (Some y) =
  (true, None, d, Node rest (replicate 16 None) (Some y) true None None [] (n_gen n)) /\ d = 1%Z.
Proof.
  unfold createNode. destruct rest as [|a rest].
  - cbn. eauto.
  - unfold setPrefix, new_node. cbn [n_pre]. rewrite bool_decide_eq_false_2 by done. cbn. eauto.
Qed.

Lemma rlook_leaf pre (y : V) k : rlook (Radix pre (replicate 16 None) (Some y)) k = if decide (k = pre) then Some y else None.
Proof.
  rewrite rlook_eq. destruct (strip pre k) as [s|] eqn:Hs.
  - apply strip_Some in Hs as ->. destruct s as [|i s].
    + rewrite app_nil_r. by rewrite decide_True.
    + rewrite nth_repl_None. rewrite decide_False; [done|]. intros He. apply (f_equal length) in He. rewrite app_length in He. cbn in He. lia.
  - apply strip_None in Hs. rewrite decide_False; [done|]. intros ->. apply Hs. done.
Qed.

Lemma repl_lookup16 {A} (i : nat) : (i < 16)%nat -> replicate 16 (@None A) !! i = Some None.
Proof. intros. by apply lookup_replicate_2. Qed.

Lemma wfr_lift U pre j p rch x : wfr (fun s => U (pre ++ j :: s)) (Radix p rch x) -> is_nibbles pre -> j < 16 ->
  wfr U (Radix (pre ++ j :: p) rch x).
Proof.
  intros Hw Hn Hj. apply wfr_inv in Hw as [(x'&->&->&?&?)|(->&?&?&?&?)].
  - constructor; [done|]. apply Forall_app. split; [done|]. by constructor.
  - constructor; [done| |done|].
    + apply Forall_app. split; [done|]. by constructor.
    + intros i c Hi. eapply wfr_ext; [|eauto]. intros k. cbn. by rewrite <- app_assoc.
Qed.

Lemma wfr_chop U c x p' rch v : wfr U (Radix (c ++ x :: p') rch v) ->
  wfr (fun s => U (c ++ x :: s)) (Radix p' rch v) /\ x < 16 /\ is_nibbles c.
Proof.
  intros Hw.
  assert (Hn : is_nibbles (c ++ x :: p')) by by (apply wfr_inv in Hw as [(x'&?&?&?&?)|(?&?&?&?&?)]).
  apply Forall_app in Hn as [Hn1 Hn2]. inversion_clear Hn2 as [|?? Hx Hp].
  split; [|done]. apply wfr_inv in Hw as [(x'&->&->&?&?)|(->&?&?&?&?)].
  - by constructor.
  - constructor; [done|done|done|]. intros i c0 Hi. eapply wfr_ext; [|eauto]. intros k. cbn. by rewrite <- app_assoc.
Qed.

Lemma rlook_chop c x p' rch v k : rlook (Radix (c ++ x :: p') rch v) (c ++ x :: k) = rlook (Radix p' rch v) k.
Proof.
  rewrite !rlook_eq.
  assert (strip (c ++ x :: p') (c ++ x :: k) = strip p' k) as ->; [|done].
  induction c as [|a c IH]; cbn; rewrite N.eqb_refl; done.
Qed.
Lemma rlook_chop_None c x p' rch v k : (forall k', k <> c ++ x :: k') -> rlook (Radix (c ++ x :: p') rch v) k = None.
Proof.
  intros Hk. rewrite rlook_eq. destruct (strip _ k) as [s|] eqn:Hs; [|done]. apply strip_Some in Hs. exfalso.
  apply (Hk (p' ++ s)). by rewrite Hs, <- app_assoc.
Qed.

Definition updated (r r' : radix V) (k : list N) (v : option V) : Prop :=
  forall k', rlook r' k' = if decide (k' = k) then v else rlook r k'.

Lemma updated_child pre rch (i : N) o rest v :
  (N.to_nat i < length rch)%nat ->
  (forall k', match o with Some rc' => rlook rc' k' | None => None end =
     if decide (k' = rest) then v else match nth (N.to_nat i) rch None with Some rc => rlook rc k' | None => None end) ->
  updated (Radix pre rch None) (Radix pre (<[N.to_nat i := o]> rch) None) (pre ++ i :: rest) v.
Proof.
  intros Hlt Ho k'. rewrite !rlook_eq. destruct (strip pre k') as [s|] eqn:Hs.
  - apply strip_Some in Hs as ->. destruct s as [|j s].
    + rewrite decide_False; [done|]. rewrite app_nil_r. intros He. apply (f_equal length) in He.
      rewrite app_length in He. cbn in He. lia.
    + destruct (decide (i = j)) as [<-|Hij].
      * assert (nth (N.to_nat i) (<[N.to_nat i := o]> rch) None = o) as ->.
        { erewrite nth_lookup_Some; [|by apply list_lookup_insert]. done. }
        destruct (decide (pre ++ i :: s = pre ++ i :: rest)) as [He|Hne].
        -- apply app_inv_head in He. injection He as ->. specialize (Ho rest). rewrite decide_True in Ho by done. done.
        -- specialize (Ho s). rewrite decide_False in Ho; [done|]. by intros ->.
      * rewrite decide_False by (intros He; apply app_inv_head in He; congruence).
        assert (nth (N.to_nat j) (<[N.to_nat i := o]> rch) None = nth (N.to_nat j) rch None) as ->; [|done].
        assert (<[N.to_nat i := o]> rch !! N.to_nat j = rch !! N.to_nat j) as He by (apply list_lookup_insert_ne; lia).
        destruct (rch !! N.to_nat j) as [q|] eqn:Hq.
        -- by rewrite (nth_lookup_Some _ _ None _ He), (nth_lookup_Some _ _ None _ Hq).
        -- apply lookup_ge_None in Hq. rewrite !nth_overflow; [done|done|]. by rewrite insert_length.
  - rewrite decide_False; [done|]. intros ->. by rewrite strip_app in Hs.
Qed.

Lemma insert_spec fuel : forall st gen n r suffix (y : V) U,
  rep st n r -> wfr U r -> prefix_free U -> U suffix -> is_nibbles suffix -> (length suffix < fuel)%nat ->
  exists n' r', TrieModel.insert E fuel st gen n suffix (Some y) = Some (true, n', if isS (rlook r suffix) then 0%Z else 1%Z) /\
    rep st n' r' /\ wfr U r' /\ updated r r' suffix (Some y).
Proof.
  induction fuel as [|fuel IH]; intros st gen n r suffix y U Hrep Hw Hpf HU Hns Hf; [lia|].
  cbn [TrieModel.insert]. destruct (fullExpand_spec E HE st gen n r Hrep) as (n0&->&Hl0).
  pose proof (loaded_set_gen E st n0 r gen Hl0) as Hl. set (n1 := set_gen n0 gen) in *. clearbody n1. clear Hl0 n0 Hrep.
  pose proof (loaded_not_empty E HE _ _ _ Hl) as Hne.
  destruct (loaded_inv _ _ _ Hl) as (pre&ch&x&d&h&vh&vs&g&rch&Hn1&->&Hlc&Hlr&Hnib&Hcont&Hpres&Hch&Hv).
  (* overwriting the value of a leaf *)
  assert (Hleaf : suffix = pre -> exists n' r',
     (let '(c, _, d0, n') := setValue n1 (Some y) in Some (c, n', d0)) = Some (true, n', if isS (rlook (Radix pre rch x) suffix) then 0%Z else 1%Z) /\
     rep st n' r' /\ wfr U r' /\ updated (Radix pre rch x) r' suffix (Some y)).
  { intros ->. assert (exists x', rch = replicate 16 None /\ x = Some x') as (x'&->&->).
    { destruct (wfr_inv _ _ _ _ Hw) as [(x'&->&->&?&?)|(->&_)]; [eauto|]. exfalso. destruct (wfr_inhabited _ _ Hw) as (k&z&HUk&_&Hk).
      pose proof (rlook_prefix _ _ _ _ _ Hk) as Hp. pose proof (Hpf _ _ HU HUk Hp) as <-.
      rewrite rlook_eq in Hk. rewrite <- (app_nil_r pre) in Hk at 2. by rewrite strip_app in Hk. }
    rewrite rlook_leaf, decide_True by done. subst n1. unfold setValue. cbn [n_val put_value valueChanged isS].
    exists (Node pre ch (Some y) true None None [] g), (Radix pre (replicate 16 None) (Some y)).
    split; [done|]. split; [|split].
    - constructor; try done; [by left|constructor; by left|by left].
    - by constructor.
    - intros k'. rewrite !rlook_leaf. by case_decide. }
  destruct suffix as [|s0 suf].
  { destruct (wfr_nil U pre rch x) as (->&_&_); [done..|]. by apply Hleaf. }
  set (suffix := s0 :: suf) in *. rewrite Hne.
  assert (Hpre : n_pre n1 = pre) by by subst n1. rewrite Hpre.
  destruct (strip pre suffix) as [s|] eqn:Hs.
  - apply strip_Some in Hs.
    assert (matchPrefix pre suffix = length pre) as -> by (rewrite Hs; apply matchPrefix_app).
    rewrite Nat.sub_diag. cbn [Nat.eqb].
    assert (drop (length pre) suffix = s) as -> by (rewrite Hs; apply drop_app_len).
    destruct s as [|i rest]; [apply Hleaf; by rewrite Hs, app_nil_r|].
    assert (Hi : i < 16 /\ is_nibbles rest).
    { unfold is_nibbles in Hns. rewrite Hs in Hns. apply Forall_app in Hns as [_ Hns]. by inversion Hns. }
    destruct Hi as [Hi16 Hnr].
    assert (Hx : x = None).
    { destruct (wfr_inv _ _ _ _ Hw) as [(x'&->&->&HUp&?)|(->&_)]; [|done]. exfalso.
      assert (pre = suffix) as He by (apply Hpf; [done..|rewrite Hs; by apply prefix_app_r]).
      rewrite Hs in He. apply (f_equal length) in He. rewrite app_length in He. cbn in He. lia. }
    subst x.
    assert (Hnc : n_child n1 i = nth (N.to_nat i) ch None) by by subst n1. rewrite Hnc.
    pose proof (present_lookup _ _ (N.to_nat i) Hpres) as Hpi.
    assert (Hbr : (exists i j, i <> j /\ (exists c, rch !! i = Some (Some c)) /\ (exists c, rch !! j = Some (Some c))) /\
        (forall i c, rch !! i = Some (Some c) -> wfr (fun s => U (pre ++ N.of_nat i :: s)) c)) by (by apply wfr_inv in Hw as [(x'&?&_)|(_&_&_&?&?)]).
    destruct Hbr as [Htwo Hwc].
    assert (Hrl : rlook (Radix pre rch None) suffix = match nth (N.to_nat i) rch None with Some c => rlook c rest | None => None end).
    { rewrite rlook_eq, Hs, strip_app. done. }
    (* the branch with child i replaced by a tree rc' *)
    assert (Hbranch : forall rc', wfr (fun s => U (pre ++ i :: s)) rc' -> wfr U (Radix pre (<[N.to_nat i := Some rc']> rch) None)).
    { intros rc' Hw'. constructor; [by rewrite insert_length|done| |].
      - destruct Htwo as (a&b&Hab&(ca&Ha)&(cb&Hb)). exists a, b. split; [done|].
        split; [destruct (decide (N.to_nat i = a)) as [<-|]|destruct (decide (N.to_nat i = b)) as [<-|]];
          [eexists; apply list_lookup_insert; lia|exists ca; by rewrite list_lookup_insert_ne
          |eexists; apply list_lookup_insert; lia|exists cb; by rewrite list_lookup_insert_ne].
      - intros j c Hj. destruct (decide (N.to_nat i = j)) as [<-|].
        + rewrite list_lookup_insert in Hj by lia. injection Hj as <-. by rewrite N2Nat.id.
        + rewrite list_lookup_insert_ne in Hj by done. by apply Hwc. }
    destruct (nth (N.to_nat i) ch None) as [c|] eqn:Hc, (nth (N.to_nat i) rch None) as [rc|] eqn:Hrc; try done.
    + pose proof Hrc as Hrcn. apply nth_some_lookup in Hc, Hrc.
      destruct (wfr_child _ _ _ _ _ _ Hw Hrc) as [Hwrc _].
      destruct (fullExpand_spec E HE st gen c rc) as (c1&->&Hlc1%loaded_rep); [by eapply Hch|].
      destruct (IH st gen c1 rc rest y (fun s => U (pre ++ i :: s))) as (c'&rc'&->&Hr'&Hw'&Hu); [done|done|by apply prefix_free_sub|by rewrite <- Hs|done| |].
      { apply (f_equal length) in Hs. rewrite app_length in Hs. cbn [length] in Hs. lia. }
      rewrite Hrl. cbn iota.
      exists (childChanged (put_child n1 i (Some c'))), (Radix pre (<[N.to_nat i := Some rc']> rch) None).
      split; [done|]. split; [|split].
      * subst n1. cbn [put_child childChanged].
        destruct (children_insert st ch rch (N.to_nat i) (Some c') (Some rc') Hpres Hch Hr') as [Hp' Hc'].
        constructor; try done; [by rewrite insert_length|by rewrite insert_length| |by eapply vrep_dirty|by left].
        right. exists (N.to_nat i), rc'. apply list_lookup_insert. lia.
      * by apply Hbranch.
      * rewrite Hs. apply updated_child; [lia|]. intros k'. rewrite Hrcn. apply Hu.
    + destruct (createNode_leaf n1 rest y) as (d0&->&->). rewrite Hrl. cbn iota.
      set (vn := Node rest (replicate 16 None) (Some y) true None None [] (n_gen n1)).
      exists (setChild n1 i (Some vn)), (Radix pre (<[N.to_nat i := Some (Radix rest (replicate 16 None) (Some y))]> rch) None).
      split; [done|]. split; [|split].
      * subst n1. cbn [setChild put_child childChanged].
        destruct (children_insert st ch rch (N.to_nat i) (Some vn) (Some (Radix rest (replicate 16 None) (Some y))) Hpres Hch (rep_leaf st rest _ y Hnr)) as [Hp' Hc'].
        constructor; try done; [by rewrite insert_length|by rewrite insert_length| |by eapply vrep_dirty|by left].
        right. eexists (N.to_nat i), _. apply list_lookup_insert. lia.
      * apply Hbranch. constructor; [by rewrite <- Hs|done].
      * rewrite Hs. apply updated_child; [lia|]. intros k'. rewrite Hrc. apply rlook_leaf.
  - apply strip_None in Hs.
    assert (Hrl : rlook (Radix pre rch x) suffix = None).
    { rewrite rlook_eq. by rewrite (proj2 (strip_None pre suffix)). }
    apply matchPrefix_neq in Hs as [(a&p'&Hp&Hm)|(c&a&b&p'&s'&Hab&Hp&Hsf&Hm)].
    { exfalso. destruct (wfr_inhabited _ _ Hw) as (k&z&HUk&_&Hk). pose proof (rlook_prefix _ _ _ _ _ Hk) as [t ->].
      assert (suffix = pre ++ t) as He. { apply Hpf; [done..|]. rewrite Hp, <- app_assoc. by apply prefix_app_r. }
      rewrite Hp in He. apply (f_equal length) in He. rewrite !app_length in He. cbn in He. lia. }
    rewrite Hm. destruct (Nat.eqb_spec (length pre - length c) 0) as [He|_].
    { exfalso. rewrite Hp, app_length in He. cbn in He. lia. }
    assert (n_pre n1 !! length c = Some a) as Hlk.
    { rewrite Hpre, Hp. rewrite lookup_app_r by lia. by rewrite Nat.sub_diag. }
    rewrite Hpre in Hlk. rewrite Hlk.
    assert (chopPrefixHead n1 (length c + 1) = Some (childChanged (put_prefix n1 p'))) as ->.
    { unfold chopPrefixHead. rewrite Hpre. destruct (Nat.ltb_spec (length pre) (length c + 1)) as [Hlt|_].
      { rewrite Hp, app_length in Hlt. cbn in Hlt. lia. }
      destruct pre as [|q0 pre']; [by destruct c|]. do 3 f_equal. rewrite Hp. rewrite <- drop_drop, drop_app. done. }
    assert (drop (length c) suffix = b :: s') as -> by (rewrite Hsf; apply drop_app).
    assert (take (length c) suffix = c) as -> by (rewrite Hsf; apply take_app).
    assert (Hb : b < 16 /\ is_nibbles s').
    { unfold is_nibbles in Hns. rewrite Hsf in Hns. apply Forall_app in Hns as [_ Hns]. by inversion Hns. }
    destruct Hb as [Hb16 Hns'].
    rewrite Hp in Hw. destruct (wfr_chop _ _ _ _ _ _ Hw) as (Hwch&Ha16&Hnc).
    set (oldn := childChanged (put_prefix n1 p')).
    set (nn := setChild (createNode n1 c) a (Some oldn)).
    destruct (createNode_leaf nn s' y) as (d0&->&->). rewrite Hrl. cbn iota.
    set (vn := Node s' (replicate 16 None) (Some y) true None None [] (n_gen nn)).
    set (rold := Radix p' rch x). set (rnew := Radix s' (replicate 16 None) (Some y)).
    assert (Hold : rep st oldn rold).
    { unfold oldn, rold. subst n1. cbn [put_prefix childChanged]. constructor; try done; [|by eapply vrep_dirty|by left].
      rewrite Hp in Hnib. apply Forall_app in Hnib as [_ Hnib]. by inversion Hnib. }
    assert (Hnn : exists g', nn = Node c (<[N.to_nat a := Some oldn]> (replicate 16 None)) None true None None [] g').
    { unfold nn, createNode, setChild. destruct c as [|c0 c'].
      - cbn. eauto.
      - unfold setPrefix, new_node. cbn [n_pre]. rewrite bool_decide_eq_false_2 by done. cbn. eauto. }
    destruct Hnn as (g'&Hnn).
    exists (setChild nn b (Some vn)), (Radix c (<[N.to_nat b := Some rnew]> (<[N.to_nat a := Some rold]> (replicate 16 None))) None).
    split; [done|]. split; [|split].
    + rewrite Hnn at 1. cbn [setChild put_child childChanged].
      destruct (children_insert st (replicate 16 None) (replicate 16 None) (N.to_nat a) (Some oldn) (Some rold) present_n_repl) as [Hp1 Hc1];
        [intros ? ? ? Hr; by apply lookup_replicate in Hr as [? _]|done|].
      destruct (children_insert st _ _ (N.to_nat b) (Some vn) (Some rnew) Hp1 Hc1 (rep_leaf st s' _ y Hns')) as [Hp2 Hc2].
      constructor; try done; [by rewrite !insert_length|by rewrite !insert_length| |constructor|by left].
      right. eexists (N.to_nat b), _. apply list_lookup_insert. rewrite insert_length, replicate_length. lia.
    + constructor; [by rewrite !insert_length|done| |].
      * exists (N.to_nat a), (N.to_nat b). split; [lia|]. split.
        -- exists rold. rewrite list_lookup_insert_ne by lia. apply list_lookup_insert. rewrite replicate_length. lia.
        -- exists rnew. apply list_lookup_insert. rewrite insert_length, replicate_length. lia.
      * intros j q Hj. destruct (decide (N.to_nat b = j)) as [<-|Hjb].
        -- rewrite list_lookup_insert in Hj by (rewrite insert_length, replicate_length; lia). injection Hj as <-.
           rewrite N2Nat.id. constructor; [by rewrite <- Hsf|done].
        -- rewrite list_lookup_insert_ne in Hj by done. destruct (decide (N.to_nat a = j)) as [<-|Hja].
           ++ rewrite list_lookup_insert in Hj by (rewrite replicate_length; lia). injection Hj as <-. by rewrite N2Nat.id.
           ++ rewrite list_lookup_insert_ne in Hj by done. by apply lookup_replicate in Hj as [? _].
    + intros k'. rewrite Hsf, Hp.
      set (base := <[N.to_nat a := Some rold]> (replicate 16 None)).
      assert (Hb2 : updated (Radix c base None) (Radix c (<[N.to_nat b := Some rnew]> base) None) (c ++ b :: s') (Some y)).
      { apply updated_child; [unfold base; rewrite insert_length, replicate_length; lia|]. intros k.
        assert (nth (N.to_nat b) base None = None) as ->.
        { erewrite nth_lookup_Some; [|unfold base; rewrite list_lookup_insert_ne by lia; apply repl_lookup16; lia]. done. }
        apply rlook_leaf. }
      rewrite Hb2. case_decide; [done|].
      rewrite rlook_eq. destruct (strip c k') as [s|] eqn:Hs.
      * apply strip_Some in Hs as ->. destruct s as [|j s].
        -- rewrite app_nil_r. symmetry. apply rlook_chop_None. intros q Hq. apply (f_equal length) in Hq. rewrite app_length in Hq. cbn in Hq. lia.
        -- destruct (decide (j = a)) as [->|Hja].
           ++ assert (nth (N.to_nat a) base None = Some rold) as ->.
              { erewrite nth_lookup_Some; [|unfold base; apply list_lookup_insert; rewrite replicate_length; lia]. done. }
              by rewrite rlook_chop.
           ++ rewrite rlook_chop_None by (intros q Hq; apply app_inv_head in Hq; congruence).
              assert (nth (N.to_nat j) base None = None) as ->; [|done].
              destruct (decide (N.to_nat j < 16)%nat).
              ** erewrite nth_lookup_Some; [|unfold base; rewrite list_lookup_insert_ne by lia; by apply repl_lookup16]. done.
              ** apply nth_overflow. unfold base. rewrite insert_length, replicate_length. lia.
      * rewrite rlook_chop_None; [done|]. intros q ->. by rewrite strip_app in Hs.
Qed.

Lemma insert_empty st gen n suffix (y : V) fuel U : erep E n -> is_nibbles suffix -> U suffix ->
  exists n', TrieModel.insert E (S fuel) st gen n suffix (Some y) = Some (true, n', 1%Z) /\
    rep st n' (Radix suffix (replicate 16 None) (Some y)) /\ wfr U (Radix suffix (replicate 16 None) (Some y)).
Proof.
  intros He Hn HU. cbn [TrieModel.insert]. rewrite (erep_expand E) by done.
  assert (Hw : wfr U (Radix suffix (replicate 16 None) (Some y))) by by constructor.
  destruct He as [d h g Hh]. cbn [set_gen]. destruct suffix as [|s0 suf].
  - cbn. eexists. split; [done|]. split; [|done]. by apply rep_leaf.
  - assert (isEmpty E (Node [] (replicate 16 (@None node)) (@None V) d h None [] gen) = true) as ->.
    { apply erep_empty. by constructor. }
    unfold setPrefix. cbn [n_pre]. rewrite bool_decide_eq_false_2 by done. cbn. eexists. split; [done|]. split; [|done].
    by apply rep_leaf.
Qed.

(* --------------------------------------------------------------- delete *)

Lemma existsb_some_lookup (ch : list (option node)) : existsb is_some ch = true <-> exists i c, ch !! i = Some (Some c).
Proof.
  rewrite existsb_exists. split.
  - intros (o&Ho&Hs). apply elem_of_list_In, elem_of_list_lookup in Ho as [i Hi]. destruct o as [c|]; [eauto|done].
  - intros (i&c&Hi). exists (Some c). split; [|done]. apply elem_of_list_In, elem_of_list_lookup. eauto.
Qed.

Lemma another_child (ch : list (option node)) j : (exists k ck, ch !! k = Some (Some ck) /\ k <> j) \/
  (forall k ck, ch !! k = Some (Some ck) -> k = j).
Proof.
  destruct (existsb is_some (<[j := None]> ch)) eqn:He.
  - left. apply existsb_some_lookup in He as (k&ck&Hk). exists k, ck. destruct (decide (j = k)) as [<-|Hjk].
    + exfalso. assert (Hlt := Hk). apply lookup_lt_Some in Hlt. rewrite insert_length in Hlt.
      by rewrite list_lookup_insert in Hk.
    + rewrite list_lookup_insert_ne in Hk by done. done.
  - right. intros k ck Hk. destruct (decide (k = j)) as [|Hkj]; [done|].
    exfalso. apply not_true_iff_false in He. apply He. apply existsb_some_lookup. exists k, ck.
    by rewrite list_lookup_insert_ne.
Qed.

Lemma only_child_two (ch : list (option node)) : forall k i j ci cj, i <> j ->
  ch !! i = Some (Some ci) -> ch !! j = Some (Some cj) -> only_child k ch = None.
Proof.
  induction ch as [|o ch IH]; intros k i j ci cj Hij Hi Hj; [done|].
  destruct o as [c|]; cbn [only_child].
  - assert (existsb is_some ch = true) as ->; [|done]. apply existsb_some_lookup.
    destruct i as [|i]; [destruct j as [|j]; [done|]; exists j, cj; done|]. exists i, ci; done.
  - destruct i as [|i]; [done|]. destruct j as [|j]; [done|]. eapply (IH (k + 1) i j); eauto.
Qed.
Lemma only_child_one (ch : list (option node)) : forall k i ci, ch !! i = Some (Some ci) ->
  (forall j cj, ch !! j = Some (Some cj) -> j = i) -> only_child k ch = Some (k + N.of_nat i).
Proof.
  induction ch as [|o ch IH]; intros k i ci Hi Hu; [done|].
  destruct o as [c|]; cbn [only_child].
  - assert (i = O) as -> by (symmetry; by apply (Hu O c)).
    assert (existsb is_some ch = false) as ->.
    { apply not_true_iff_false. intros (j&cj&Hj)%existsb_some_lookup. by specialize (Hu (S j) cj Hj). }
    f_equal. lia.
  - destruct i as [|i]; [done|]. rewrite (IH (k + 1) i ci); [f_equal; lia|done|].
    intros j cj Hj. specialize (Hu (S j) cj Hj). lia.
Qed.

Lemma merge_children_nones (a b : list (option node)) : length a = length b ->
  (forall i c, a !! i <> Some (Some c)) -> merge_children a b = b.
Proof.
  revert b. induction a as [|x a IH]; intros [|y b] Hl Hn; try done. cbn [merge_children]. f_equal.
  - destruct y; [done|]. destruct x as [c|]; [|done]. by destruct (Hn O c).
  - apply IH; [cbn in Hl; lia|]. intros i c Hi. by apply (Hn (S i) c).
Qed.

(** A node without value and with at least two children is not merged. *)
Lemma merge_two st gen pre ch d h vh vs g i j ci cj : i <> j ->
  ch !! i = Some (Some ci) -> ch !! j = Some (Some cj) ->
  mergeTheLastChild E st gen (Node pre ch None d h vh vs g) = Some (false, Node pre ch None d h vh vs g).
Proof.
  intros Hij Hi Hj. unfold mergeTheLastChild, hasValue. cbn [n_val is_some n_ch].
  by rewrite (only_child_two ch 0 i j ci cj).
Qed.

(** A node whose only content is child [j] absorbs it. *)
Lemma merge_one st gen pre ch d h vh vs g j cj rcj U :
  length ch = 16%nat -> ch !! j = Some (Some cj) -> (forall k ck, ch !! k = Some (Some ck) -> k = j) ->
  is_nibbles pre -> rep st cj rcj -> wfr (fun s => U (pre ++ N.of_nat j :: s)) rcj ->
  vh = None -> vs = [] ->
  exists n' r', mergeTheLastChild E st gen (Node pre ch None d h vh vs g) = Some (true, n') /\
    rep st n' r' /\ wfr U r' /\
    (forall k, rlook r' (pre ++ N.of_nat j :: k) = rlook rcj k) /\
    (forall k, (forall k', k <> pre ++ N.of_nat j :: k') -> rlook r' k = None).
Proof.
  intros Hl Hj Hu Hn Hrep Hw -> ->.
  assert (Hj16 : (j < 16)%nat) by (apply lookup_lt_Some in Hj; lia).
  unfold mergeTheLastChild, hasValue. cbn [n_val is_some n_ch].
  rewrite (only_child_one ch 0 j cj) by done. rewrite N.add_0_l.
  unfold n_child. cbn [n_ch]. rewrite Nat2N.id. rewrite (nth_lookup_Some _ _ None _ Hj).
  destruct (fullExpand_spec E HE st gen cj rcj Hrep) as (c1&->&Hlc).
  destruct (loaded_inv _ _ _ Hlc) as (p&chj&x&dj&hj&vhj&vsj&gj&rch&->&->&Hlcj&Hlr&Hnib&Hcont&Hpres&Hch&Hv).
  cbn [put_child n_pre n_ch put_prefix childChanged]. rewrite Nat2N.id, <- app_assoc. cbn [app].
  rewrite merge_children_nones.
  2:{ by rewrite insert_length, Hl, Hlcj. }
  2:{ intros k c Hk. destruct (decide (j = k)) as [<-|Hjk].
      - rewrite list_lookup_insert in Hk by lia. done.
      - rewrite list_lookup_insert_ne in Hk by done. by apply Hu in Hk. }
  exists (Node (pre ++ N.of_nat j :: p) chj x true None None [] g), (Radix (pre ++ N.of_nat j :: p) rch x).
  split.
  { do 2 f_equal. unfold hasChildren. cbn [n_ch n_val]. destruct (existsb is_some chj), x; done. }
  split; [|split; [|split]].
  - constructor; try done; [|destruct x; constructor; by left|by left].
    apply Forall_app. split; [done|]. constructor; [lia|done].
  - apply wfr_lift; [done|done|lia].
  - intros k. apply rlook_chop.
  - intros k Hk. by apply rlook_chop_None.
Qed.

(** What deleting [k] leaves behind. *)
Definition deleted st (r : radix V) U (k : list N) (o : option V) (res : bool * bool * option V * node * Z) : Prop :=
  match o with
  | None => exists n', res = (false, false, None, n', 0%Z) /\ rep st n' r
  | Some y =>
      (exists pre g, res = (true, true, Some y, Node pre (replicate 16 None) None true None None [] g, (-1)%Z) /\
         (forall k' x, rlook r k' = Some x -> k' = k)) \/
      (exists n' r', res = (true, false, Some y, n', (-1)%Z) /\ rep st n' r' /\ wfr U r' /\ updated r r' k None)
  end.

Lemma nones_present (ch : list (option node)) : length ch = 16%nat ->
  present_n ch = present (replicate 16 (@None (radix V))) -> ch = replicate 16 None.
Proof.
  intros Hl Hp. apply list_eq. intros i. destruct (decide (i < 16)%nat) as [Hi|Hi].
  - rewrite repl_lookup16 by done. destruct (lookup_lt_is_Some_2 ch i) as [o Ho]; [lia|]. rewrite Ho. f_equal.
    destruct o as [c|]; [|done]. destruct (present_child _ _ _ _ Hp Ho) as [rc Hrc]. by apply lookup_replicate in Hrc as [? _].
  - rewrite !lookup_ge_None_2; [done|rewrite replicate_length; lia|lia].
Qed.

Lemma delete_spec fuel : forall st gen n r suffix U,
  rep st n r -> wfr U r -> prefix_free U -> U suffix -> is_nibbles suffix -> (length suffix < fuel)%nat ->
  exists res, TrieModel.delete E fuel st gen n suffix = Some res /\ deleted st r U suffix (rlook r suffix) res.
Proof.
  induction fuel as [|fuel IH]; intros st gen n r suffix U Hrep Hw Hpf HU Hns Hf; [lia|].
  cbn [TrieModel.delete]. destruct (fullExpand_spec E HE st gen n r Hrep) as (n0&->&Hl0).
  pose proof (loaded_not_empty E HE _ _ _ Hl0) as Hne. rewrite Hne.
  pose proof (loaded_set_gen E st n0 r gen Hl0) as Hl. set (n1 := set_gen n0 gen) in *. clearbody n1. clear Hl0 Hne n0 Hrep.
  destruct (loaded_inv _ _ _ Hl) as (pre&ch&x&d&h&vh&vs&g&rch&Hn1&->&Hlc&Hlr&Hnib&Hcont&Hpres&Hch&Hv).
  assert (Hleaf : suffix = pre -> exists res, removeValue E st gen n1 = Some res /\
     deleted st (Radix pre rch x) U suffix (rlook (Radix pre rch x) suffix) res).
  { intros ->. assert (exists x', rch = replicate 16 None /\ x = Some x') as (x'&->&->).
    { destruct (wfr_inv _ _ _ _ Hw) as [(x'&->&->&?&?)|(->&_)]; [eauto|]. exfalso. destruct (wfr_inhabited _ _ Hw) as (k&z&HUk&_&Hk).
      pose proof (rlook_prefix _ _ _ _ _ Hk) as Hp. pose proof (Hpf _ _ HU HUk Hp) as <-.
      rewrite rlook_eq in Hk. rewrite <- (app_nil_r pre) in Hk at 2. by rewrite strip_app in Hk. }
    rewrite rlook_leaf, decide_True by done. apply nones_present in Hpres; [|done]. subst n1 ch.
    unfold removeValue, setValue. cbn [n_val put_value valueChanged]. unfold hasChildren. cbn [n_ch].
    eexists. split; [done|]. left. do 2 eexists. split; [done|].
    intros k' z. rewrite rlook_leaf. by case_decide. }
  assert (Hsplit : suffix = [] \/ suffix <> []) by (destruct suffix; [by left|by right]).
  assert (Hres : forall (A : Type) (a b : A), suffix <> [] -> match suffix with [] => a | _ => b end = b) by (intros; by destruct suffix).
  destruct Hsplit as [->|Hsne].
  { destruct (wfr_nil U pre rch x) as (->&_&_); [done..|]. by apply Hleaf. }
  rewrite Hres by done. clear Hres.
  assert (Hpre : n_pre n1 = pre) by by subst n1. rewrite Hpre.
  assert (Hsame : exists res, Some (false, false, None, n1, 0%Z) = Some res /\ deleted st (Radix pre rch x) U suffix None res).
  { eexists. split; [done|]. exists n1. split; [done|by apply loaded_rep]. }
  destruct (strip pre suffix) as [s|] eqn:Hs.
  2:{ rewrite rlook_eq, Hs. apply strip_None in Hs.
      destruct (Nat.eqb_spec (length pre - matchPrefix pre suffix) 0) as [He|_]; [|done].
      exfalso. apply matchPrefix_neq in Hs as [(a&p'&->&Hm)|(c&a&b&p'&s'&_&->&_&Hm)]; rewrite Hm in He; rewrite app_length in He; cbn in He; lia. }
  pose proof Hs as Hstr. apply strip_Some in Hs.
  assert (matchPrefix pre suffix = length pre) as -> by (rewrite Hs; apply matchPrefix_app).
  rewrite Nat.sub_diag. cbn [Nat.eqb].
  assert (drop (length pre) suffix = s) as -> by (rewrite Hs; apply drop_app_len).
  destruct s as [|i rest]; [apply Hleaf; by rewrite Hs, app_nil_r|].
  assert (Hi : i < 16 /\ is_nibbles rest).
  { unfold is_nibbles in Hns. rewrite Hs in Hns. apply Forall_app in Hns as [_ Hns]. by inversion Hns. }
  destruct Hi as [Hi16 Hnr].
  assert (Hx : x = None).
  { destruct (wfr_inv _ _ _ _ Hw) as [(x'&->&->&HUp&?)|(->&_)]; [|done]. exfalso.
    assert (pre = suffix) as He by (apply Hpf; [done..|rewrite Hs; by apply prefix_app_r]).
    rewrite Hs in He. apply (f_equal length) in He. rewrite app_length in He. cbn in He. lia. }
  subst x.
  assert (Hvn : vh = None /\ vs = []) by (inversion Hv; done). destruct Hvn as [-> ->].
  assert (Hnc : n_child n1 i = nth (N.to_nat i) ch None) by by subst n1. rewrite Hnc.
  pose proof (present_lookup _ _ (N.to_nat i) Hpres) as Hpi.
  rewrite rlook_eq, Hstr.
  destruct (wfr_inv _ _ _ _ Hw) as [(x'&?&_)|(_&_&_&Htwo&Hwc)]; [done|].
  destruct (nth (N.to_nat i) ch None) as [c|] eqn:Hc, (nth (N.to_nat i) rch None) as [rc|] eqn:Hrc; try done.
  pose proof Hrc as Hrcn. apply nth_some_lookup in Hc, Hrc.
  destruct (wfr_child _ _ _ _ _ _ Hw Hrc) as [Hwrc _].
  destruct (IH st gen c rc rest (fun s => U (pre ++ i :: s))) as (res&->&Hdel); [by eapply Hch|done|by apply prefix_free_sub|by rewrite <- Hs|done| |].
  { apply (f_equal length) in Hs. rewrite app_length in Hs. cbn [length] in Hs. lia. }
  destruct Htwo as (a&b&Hab&(ra&Hra)&(rb&Hrb)).
  destruct (present_child_r _ _ _ _ Hpres Hra) as (na&Hna).
  destruct (present_child_r _ _ _ _ Hpres Hrb) as (nb&Hnb).
  (* putting back a child keeps two children *)
  assert (Hkeep : forall c', (exists ca, <[N.to_nat i := Some c']> ch !! a = Some (Some ca)) /\ (exists cb, <[N.to_nat i := Some c']> ch !! b = Some (Some cb))).
  { intros c'. split; [destruct (decide (N.to_nat i = a)) as [<-|]|destruct (decide (N.to_nat i = b)) as [<-|]];
      try (rewrite list_lookup_insert by lia; by eauto); rewrite list_lookup_insert_ne by done; eauto. }
  assert (Hkeepr : forall rc', (exists ca, <[N.to_nat i := Some rc']> rch !! a = Some (Some ca)) /\ (exists cb, <[N.to_nat i := Some rc']> rch !! b = Some (Some cb))).
  { intros c'. split; [destruct (decide (N.to_nat i = a)) as [<-|]|destruct (decide (N.to_nat i = b)) as [<-|]];
      try (rewrite list_lookup_insert by lia; by eauto); rewrite list_lookup_insert_ne by done; eauto. }
  assert (Hhc : forall chx, (exists i c, chx !! i = Some (Some c)) -> existsb is_some chx = true) by (intros; by apply existsb_some_lookup).
  unfold deleted in Hdel. destruct (rlook rc rest) as [y|] eqn:Hlk.
  - (* the key was there *)
    destruct Hdel as [(cp&cg&->&Honly)|(c'&rc'&->&Hrep'&Hwc'&Hupd)].
    + (* the child disappears *)
      subst n1. cbn [put_child childChanged setChild]. rewrite list_insert_insert.
      set (ch' := <[N.to_nat i := None]> ch).
      assert (Hother : exists j cj, ch' !! j = Some (Some cj) /\ j <> N.to_nat i).
      { destruct (decide (N.to_nat i = a)) as [<-|Ha].
        - exists b, nb. split; [unfold ch'; by rewrite list_lookup_insert_ne|done].
        - exists a, na. split; [unfold ch'; by rewrite list_lookup_insert_ne|done]. }
      destruct Hother as (j&cj&Hj&Hji).
      unfold hasChildren at 1. cbn [n_ch]. rewrite Hhc by eauto. cbn [negb andb].
      destruct (children_insert st ch rch (N.to_nat i) None None Hpres Hch I) as [Hp' Hc']. fold ch' in Hp', Hc'.
      set (rch' := <[N.to_nat i := None]> rch) in *.
      assert (Hl' : length ch' = 16%nat) by (unfold ch'; by rewrite insert_length).
      assert (Hlr' : length rch' = 16%nat) by (unfold rch'; by rewrite insert_length).
      assert (Hupd : updated (Radix pre rch None) (Radix pre rch' None) (pre ++ i :: rest) None).
      { apply updated_child; [lia|]. intros k'. rewrite Hrcn. case_decide; [done|].
        destruct (rlook rc k') as [z|] eqn:Hz; [|done]. by apply Honly in Hz. }
      assert (Hwc' : forall k ck, rch' !! k = Some (Some ck) -> wfr (fun s => U (pre ++ N.of_nat k :: s)) ck).
      { intros k ck Hk. unfold rch' in Hk. destruct (decide (N.to_nat i = k)) as [<-|].
        - rewrite list_lookup_insert in Hk by lia. done.
        - rewrite list_lookup_insert_ne in Hk by done. by apply Hwc. }
      destruct (another_child ch' j) as [(k&ck&Hk&Hkj)|Hu].
      * rewrite (merge_two st gen pre ch' true None None [] g j k cj ck) by done.
        eexists. split; [done|]. right. eexists _, (Radix pre rch' None). split; [done|]. split; [|split].
        -- econstructor; try done; [|constructor|by left].
           right. destruct (present_child _ _ _ _ Hp' Hj) as (rj&Hrj). eauto.
        -- constructor; [done|done| |done].
           destruct (present_child _ _ _ _ Hp' Hj) as (rj&Hrj). destruct (present_child _ _ _ _ Hp' Hk) as (rk&Hrk).
           exists j, k. split; [done|]. split; eauto.
        -- by rewrite Hs.
      * destruct (present_child _ _ _ _ Hp' Hj) as (rj&Hrj).
        destruct (merge_one st gen pre ch' true None None [] g j cj rj U) as (n'&r'&->&Hr'&Hw'&Hlk1&Hlk2); try done.
        { by eapply Hc'. }
        { by apply Hwc'. }
        eexists. split; [done|]. right. do 2 eexists. split; [done|]. split; [done|]. split; [done|].
        intros k'. rewrite Hs. rewrite <- Hupd. rewrite rlook_eq. destruct (strip pre k') as [s|] eqn:Hsk.
        -- apply strip_Some in Hsk as ->. destruct s as [|q s].
           ++ rewrite Hlk2; [done|]. intros k'' Hq. apply app_inv_head in Hq. done.
           ++ destruct (decide (q = N.of_nat j)) as [->|Hqj].
              ** rewrite Hlk1, Nat2N.id. by rewrite (nth_lookup_Some _ _ None _ Hrj).
              ** rewrite Hlk2 by (intros k'' Hq; apply app_inv_head in Hq; congruence).
                 destruct (nth (N.to_nat q) rch' None) as [rq|] eqn:Hrq; [|done]. exfalso.
                 apply nth_some_lookup in Hrq. destruct (present_child_r _ _ _ _ Hp' Hrq) as (cq&Hcq).
                 apply Hu in Hcq. lia.
        -- rewrite Hlk2; [done|]. intros k'' ->. by rewrite strip_app in Hsk.
    + (* the child shrinks *)
      subst n1. cbn [put_child childChanged].
      destruct (Hkeep c') as [(ca&Hca)(cb&Hcb)].
      unfold hasChildren at 1. cbn [n_ch]. rewrite Hhc by eauto. cbn [negb andb].
      rewrite (merge_two st gen pre _ true None None [] g a b ca cb) by done.
      eexists. split; [done|]. right. eexists _, (Radix pre (<[N.to_nat i := Some rc']> rch) None). split; [done|].
      destruct (children_insert st ch rch (N.to_nat i) (Some c') (Some rc') Hpres Hch Hrep') as [Hp' Hc'].
      destruct (Hkeepr rc') as [(rca&Hrca)(rcb&Hrcb)].
      split; [|split].
      * econstructor; try done; [by rewrite insert_length|by rewrite insert_length|by eauto|constructor|by left].
      * constructor; [by rewrite insert_length|done|by exists a, b; eauto|].
        intros k ck Hk. destruct (decide (N.to_nat i = k)) as [<-|].
        -- rewrite list_lookup_insert in Hk by lia. injection Hk as <-. by rewrite N2Nat.id.
        -- rewrite list_lookup_insert_ne in Hk by done. by apply Hwc.
      * rewrite Hs. apply updated_child; [lia|]. intros k'. rewrite Hrcn. apply Hupd.
  - (* the key was not there *)
    destruct Hdel as (c'&->&Hrep').
    pose proof (put_child_same st n1 pre rch None i c' rc Hl Hrc Hrep') as Hl'.
    destruct (Hkeep c') as [(ca&Hca)(cb&Hcb)].
    assert (Hnp : put_child n1 i (Some c') = Node pre (<[N.to_nat i := Some c']> ch) None d h None [] g) by by subst n1.
    rewrite Hnp. unfold hasChildren at 1. cbn [n_ch]. rewrite Hhc by eauto. cbn [negb andb].
    rewrite (merge_two st gen pre _ d h None [] g a b ca cb) by done.
    eexists. split; [done|]. eexists. split; [done|]. rewrite <- Hnp. by apply loaded_rep.
Qed.

Lemma delete_empty fuel st gen n suffix : erep E n ->
  TrieModel.delete E (S fuel) st gen n suffix = Some (false, false, None, n, 0%Z).
Proof.
  intros He. cbn [TrieModel.delete]. rewrite (erep_expand E) by done.
  destruct (erep_empty E _ He) as [-> _]. done.
Qed.

End ops.
