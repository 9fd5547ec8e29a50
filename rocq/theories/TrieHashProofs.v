(** The hash of a radix tree determines the tree. *)
From Verif Require Export TrieRadixProofs MerkleBindProofs.

Section hash.
Context {V : Type} (E : env V) (HE : env_ok E).
Implicit Types (r : radix V) (ch : list (option (radix V))).
Local Notation H := (eH E).
Local Notation rhash := (rhash (eH E) (ertl E) (evhash E)).
Local Notation rinputs := (rinputs (eH E) (ertl E) (evhash E)).
Local Notation hbytes := (header_bytes (ertl E)).

(** Shape of the trees that are hashed: 16 children slots, nibble prefixes of
    bounded length, no empty nodes. *)
Inductive okr : radix V -> Prop :=
| okr_node pre ch v : length ch = 16%nat -> is_nibbles pre -> (length pre <= 96)%nat ->
    (is_Some v \/ exists i c, ch !! i = Some (Some c)) ->
    (forall i c, ch !! i = Some (Some c) -> okr c) -> okr (Radix pre ch v).

Lemma okr_inv pre ch v : okr (Radix pre ch v) ->
  length ch = 16%nat /\ is_nibbles pre /\ (length pre <= 96)%nat /\
  (is_Some v \/ exists i c, ch !! i = Some (Some c)) /\ (forall i c, ch !! i = Some (Some c) -> okr c).
Proof. inversion 1; subst. done. Qed.

Lemma wfr_okr U r : wfr U r -> (forall k, U k -> (length k <= 96)%nat) -> okr r.
Proof.
  induction 1 as [U pre x Hx Hn|U pre ch Hl Hn (i&j&Hij&Hi&Hj) Hc IH]; intros HU.
  - constructor; [done..|by apply HU|by left; eauto|]. intros i c Hi.
    apply lookup_replicate in Hi as [? _]. done.
  - constructor; [done..| | |].
    + destruct Hi as [c Hi]. destruct (wfr_inhabited _ _ (Hc _ _ Hi)) as (k&x&HUk&_). apply HU in HUk.
      rewrite app_length in HUk. lia.
    + right. eauto.
    + intros i' c Hi'. eapply IH; [done|]. intros k HUk%HU. rewrite app_length in HUk. cbn in HUk. lia.
Qed.

Definition chashes ch : list (list N) := somes (map (option_map rhash) ch).
Definition lefti pre ch (v : option V) : list N :=
  H (hbytes pre (present ch) (bool_decide (is_Some v))) ++
  match v with Some x => evhash E x | None => nilhash H end.

Lemma rhash_eq pre ch v : rhash (Radix pre ch v) =
  match chashes ch with [] => H (lefti pre ch v) | hs => H (H (lefti pre ch v) ++ proot H hs) end.
Proof. done. Qed.
Lemma rinputs_eq pre ch v : rinputs (Radix pre ch v) =
  [hbytes pre (present ch) (bool_decide (is_Some v)); lefti pre ch v] ++
  (match chashes ch with [] => [] | hs => (H (lefti pre ch v) ++ proot H hs) :: ptree_inputs H hs (mdepth (length hs)) end) ++
  concat (somes (map (option_map rinputs) ch)).
Proof. cbn [TrieSpec.rinputs]. fold (chashes ch). by destruct (chashes ch). Qed.

Lemma elem_somes {A} (l : list (option A)) x : x ∈ somes l <-> exists i, l !! i = Some (Some x).
Proof.
  induction l as [|o l IH]; cbn [somes].
  - split; [by intros ?%elem_of_nil|by intros [? ?]].
  - destruct o as [a|].
    + rewrite elem_of_cons, IH. split.
      * intros [->|[i Hi]]; [by exists O|by exists (S i)].
      * intros [[|i] Hi]; [left; by injection Hi as ->|right; by exists i].
    + rewrite IH. split; [intros [i Hi]; by exists (S i)|intros [[|i] Hi]; [done|by exists i]].
Qed.
Lemma somes_map_length {A B} (f : A -> B) (l : list (option A)) : length (somes (map (option_map f) l)) = length (somes l).
Proof. induction l as [|[a|] l IH]; cbn; congruence. Qed.
Lemma somes_nil {A} (l : list (option A)) : somes l = [] <-> forall i x, l !! i <> Some (Some x).
Proof.
  split.
  - intros Hn i x Hi. assert (x ∈ somes l) as Hx by (apply elem_somes; eauto). rewrite Hn in Hx. by apply elem_of_nil in Hx.
  - intros Hn. destruct (somes l) as [|x s] eqn:Hs; [done|]. exfalso.
    assert (x ∈ somes l) as Hx by (rewrite Hs; set_solver). apply elem_somes in Hx as [i Hi]. by apply Hn in Hi.
Qed.

Lemma chashes_nil ch : chashes ch = [] <-> existsb id (present ch) = false.
Proof.
  unfold chashes, present. induction ch as [|[c|] ch IH]; cbn; done.
Qed.
Lemma chashes_nil_repl ch : length ch = 16%nat -> chashes ch = [] -> ch = replicate 16 None.
Proof.
  intros Hl Hn. apply list_eq. intros i. destruct (ch !! i) as [o|] eqn:Hi.
  - rewrite lookup_replicate_2 by (apply lookup_lt_Some in Hi; lia). f_equal.
    destruct o as [c|]; [|done]. exfalso. unfold chashes in Hn. rewrite somes_nil in Hn. apply (Hn i (rhash c)).
    by rewrite list_lookup_fmap, Hi.
  - apply lookup_ge_None in Hi. by rewrite lookup_ge_None_2 by (rewrite replicate_length; lia).
Qed.
Lemma present_eq_count ch ch' : present ch = present ch' -> length (chashes ch) = length (chashes ch').
Proof.
  unfold chashes. rewrite !somes_map_length. revert ch'. induction ch as [|[c|] ch IH]; intros [|[c'|] ch'] He; try done; cbn in *.
  - injection He as He. by rewrite (IH _ He).
  - injection He as He. by apply IH.
Qed.

Lemma rhash_len r : length (rhash r) = 32%nat.
Proof. destruct r as [pre ch v]. rewrite rhash_eq. destruct (chashes ch); apply (ok_H E HE). Qed.
Lemma chashes_len ch : Forall (fun l => length l = 32%nat) (chashes ch).
Proof.
  apply Forall_forall. intros x (i&Hi)%elem_somes. rewrite list_lookup_fmap in Hi.
  destruct (ch !! i) as [[c|]|]; try done. injection Hi as <-. apply rhash_len.
Qed.

Lemma header_bytes_inj pre pres hv pre' pres' hv' :
  is_nibbles pre -> is_nibbles pre' -> length pres = 16%nat -> length pres' = 16%nat ->
  hbytes pre pres hv = hbytes pre' pres' hv' -> pre = pre' /\ pres = pres' /\ hv = hv'.
Proof.
  intros Hp Hp' Hl Hl' He.
  destruct (nh_deser_ser E pre pres hv [] HE Hp Hl) as (hd&Hd&Hnt&Hk&_&Hc).
  destruct (nh_deser_ser E pre' pres' hv' [] HE Hp' Hl') as (hd'&Hd'&Hnt'&Hk'&_&Hc').
  rewrite He in Hd. rewrite Hd' in Hd. injection Hd as <-.
  split; [congruence|]. split.
  - apply list_eq. intros i. destruct (decide (i < 16)%nat) as [Hi|Hi].
    + specialize (Hc i Hi). rewrite Hc' in Hc by done.
      destruct (lookup_lt_is_Some_2 pres i) as [o Ho]; [lia|].
      destruct (lookup_lt_is_Some_2 pres' i) as [o' Ho']; [lia|].
      rewrite (nth_lookup_Some _ _ false _ Ho), (nth_lookup_Some _ _ false _ Ho') in Hc. congruence.
    + rewrite !lookup_ge_None_2 by lia. done.
  - destruct (type_byte_bits pre pres hv Hp) as (_&_&_&_&Hv&_).
    destruct (type_byte_bits pre' pres' hv' Hp') as (_&_&_&_&Hv'&_). congruence.
Qed.
Lemma header_bytes_len pre pres hv : (length pre <= 96)%nat -> (length (hbytes pre pres hv) < 64)%nat.
Proof.
  intros Hl. unfold header_bytes. cbn [length]. rewrite app_length.
  assert (length (match pre with [] => [] | _ => ertl E (pack pre) end) <= 60)%nat.
  { destruct pre as [|x pre']; [cbn; lia|]. apply (ok_rtl_len E HE).
    etrans; [apply pack_length_le|]. apply Nat.div_le_upper_bound; [done|]. lia. }
  destruct (existsb id pres); cbn [length]; lia.
Qed.
Lemma lefti_len pre ch v : length (lefti pre ch v) = 64%nat.
Proof.
  unfold lefti. rewrite app_length, (ok_H E HE). destruct v; [rewrite (ok_vhash E HE)|unfold nilhash; rewrite (ok_H E HE)]; done.
Qed.

Fixpoint rvalues r : list V :=
  match r with Radix _ ch v => match v with Some x => [x] | None => [] end ++ concat (somes (map (option_map rvalues) ch)) end.

Definition vinj (l : list V) : Prop := forall x y, x ∈ l -> y ∈ l -> evhash E x = evhash E y -> x = y.

(** Inputs of a child are inputs of the tree. *)
Lemma elem_concat_child {A B} (f : A -> list B) (l : list (option A)) i c x :
  l !! i = Some (Some c) -> x ∈ f c -> x ∈ concat (somes (map (option_map f) l)).
Proof.
  intros Hi Hx. apply elem_of_list_In, in_concat. exists (f c).
  rewrite <- !elem_of_list_In. split; [|done]. apply elem_somes. exists i.
  by rewrite list_lookup_fmap, Hi.
Qed.
Lemma rinputs_child pre ch v i c x : ch !! i = Some (Some c) -> x ∈ rinputs c -> x ∈ rinputs (Radix pre ch v).
Proof.
  intros Hi Hx. rewrite rinputs_eq, !elem_of_app. right; right. by eapply elem_concat_child.
Qed.
Lemma rvalues_child pre ch v i c x : ch !! i = Some (Some c) -> x ∈ rvalues c -> x ∈ rvalues (Radix pre ch v).
Proof. intros Hi Hx. cbn [rvalues]. apply elem_of_app. right. by eapply elem_concat_child. Qed.

Lemma somes_lookup_eq {A B} (f : A -> B) (l l' : list (option A)) :
  map (fun o => match o with Some _ => true | None => false end) l =
  map (fun o => match o with Some _ => true | None => false end) l' ->
  somes (map (option_map f) l) = somes (map (option_map f) l') ->
  Forall2 (fun o o' => match o, o' with Some a, Some b => f a = f b | None, None => True | _, _ => False end) l l'.
Proof.
  revert l'. induction l as [|[a|] l IH]; intros [|[b|] l']; cbn; intros Hp Hs; try done; try constructor; try done.
  - injection Hs as ? ?. done.
  - injection Hs as ? ?. injection Hp as ?. auto.
  - injection Hp as ?. auto.
Qed.

Theorem rhash_inj r : forall r', okr r -> okr r' ->
  inj_on H (rinputs r ++ rinputs r') -> vinj (rvalues r ++ rvalues r') ->
  rhash r = rhash r' -> r = r'.
Proof.
  induction r as [pre ch v IH] using radix_ind'. intros [pre' ch' v'] Hok Hok' Hinj Hv He.
  destruct (okr_inv _ _ _ Hok) as (Hl&Hn&Hlen&_&Hc). destruct (okr_inv _ _ _ Hok') as (Hl'&Hn'&Hlen'&_&Hc').
  set (I1 := rinputs (Radix pre ch v)) in *. set (I2 := rinputs (Radix pre' ch' v')) in *.
  assert (Hin1 : forall x, x ∈ [hbytes pre (present ch) (bool_decide (is_Some v)); lefti pre ch v] -> x ∈ I1 ++ I2).
  { intros x Hx. apply elem_of_app. left. unfold I1. rewrite rinputs_eq. apply elem_of_app. by left. }
  assert (Hin2 : forall x, x ∈ [hbytes pre' (present ch') (bool_decide (is_Some v')); lefti pre' ch' v'] -> x ∈ I1 ++ I2).
  { intros x Hx. apply elem_of_app. right. unfold I2. rewrite rinputs_eq. apply elem_of_app. by left. }
  assert (Hmain : lefti pre ch v = lefti pre' ch' v' ->
     pre = pre' /\ present ch = present ch' /\ v = v').
  { intros Hle. unfold lefti in Hle. apply app_inj32 in Hle as [Hh Hvh]; [|apply (ok_H E HE)..].
    apply Hinj in Hh; [|apply Hin1; set_solver|apply Hin2; set_solver].
    apply header_bytes_inj in Hh as (->&Hp&Hb); [|done|done|unfold present; by rewrite map_length..].
    split; [done|]. split; [done|].
    destruct v as [x|], v' as [x'|]; try done.
    f_equal. apply Hv; [apply elem_of_app; left; set_solver|apply elem_of_app; right; set_solver|done]. }
  rewrite !rhash_eq in He.
  destruct (chashes ch) as [|h0 hs] eqn:Hch, (chashes ch') as [|h0' hs'] eqn:Hch'.
  - apply Hinj in He; [|apply Hin1; set_solver|apply Hin2; set_solver].
    apply Hmain in He as (->&_&->). f_equal. rewrite (chashes_nil_repl ch), (chashes_nil_repl ch') by done. done.
  - exfalso. apply Hinj in He; [|apply Hin1; set_solver|].
    2:{ apply elem_of_app. right. unfold I2. rewrite rinputs_eq, Hch', !elem_of_app. right; left. set_solver. }
    unfold lefti at 1 in He. apply app_inj32 in He as [He _]; [|apply (ok_H E HE)..].
    apply Hinj in He; [|apply Hin1; set_solver|apply Hin2; set_solver].
    apply (f_equal length) in He. rewrite lefti_len in He. pose proof (header_bytes_len pre (present ch) (bool_decide (is_Some v)) Hlen). lia.
  - exfalso. symmetry in He. apply Hinj in He; [|apply Hin2; set_solver|].
    2:{ apply elem_of_app. left. unfold I1. rewrite rinputs_eq, Hch, !elem_of_app. right; left. set_solver. }
    unfold lefti at 1 in He. apply app_inj32 in He as [He _]; [|apply (ok_H E HE)..].
    apply Hinj in He; [|apply Hin2; set_solver|apply Hin1; set_solver].
    apply (f_equal length) in He. rewrite lefti_len in He. pose proof (header_bytes_len pre' (present ch') (bool_decide (is_Some v')) Hlen'). lia.
  - rewrite <- Hch, <- Hch' in He. apply Hinj in He.
    2:{ apply elem_of_app. left. unfold I1. rewrite rinputs_eq, Hch, !elem_of_app. right; left. set_solver. }
    2:{ apply elem_of_app. right. unfold I2. rewrite rinputs_eq, Hch', !elem_of_app. right; left. set_solver. }
    apply app_inj32 in He as [Hle Hpr]; [|apply (ok_H E HE)..].
    apply Hinj in Hle; [|apply Hin1; set_solver|apply Hin2; set_solver].
    apply Hmain in Hle as (<-&Hpres&<-).
    apply proot_binds in Hpr; [|apply (ok_H E HE)|apply chashes_len|apply chashes_len|by apply present_eq_count|].
    2:{ eapply inj_on_sub; [|exact Hinj]. intros x. rewrite !elem_of_app. intros [Hx|Hx]; [left|right].
        - unfold I1. rewrite rinputs_eq, Hch, !elem_of_app. rewrite Hch in Hx. right; left. set_solver.
        - unfold I2. rewrite rinputs_eq, Hch', !elem_of_app. rewrite Hch' in Hx. right; left. set_solver. }
    f_equal. unfold chashes in Hpr. apply somes_lookup_eq in Hpr; [|done].
    apply list_eq. intros i. destruct (ch !! i) as [o|] eqn:Hi.
    + destruct (Forall2_lookup_l _ _ _ _ _ Hpr Hi) as (o'&Hi'&Ho). rewrite Hi'. f_equal.
      destruct o as [c|], o' as [c'|]; try done. f_equal. apply (IH i c Hi); [by eapply Hc|by eapply Hc'| | |done].
      * eapply inj_on_sub; [|exact Hinj]. intros x. rewrite !elem_of_app.
        intros [Hx|Hx]; [left; by eapply rinputs_child|right; by eapply rinputs_child].
      * intros x y Hx Hy. apply Hv; [rewrite elem_of_app in Hx |- *; destruct Hx; [left|right]; by eapply rvalues_child|].
        rewrite elem_of_app in Hy |- *; destruct Hy; [left|right]; by eapply rvalues_child.
    + apply lookup_ge_None in Hi. rewrite lookup_ge_None_2; [done|]. lia.
Qed.

(** The hash of a non-empty tree differs from the hash of the empty node. *)
Definition empty_in : list N := lefti [] (replicate 16 None) None.
Lemma rhash_empty : rhash empty_radix = H empty_in.
Proof. done. Qed.
Lemma rhash_nonempty r : okr r -> inj_on H (rinputs r ++ rinputs empty_radix) -> rhash r <> rhash empty_radix.
Proof.
  intros Hok Hinj He. destruct r as [pre ch v]. destruct (okr_inv _ _ _ Hok) as (Hl&Hn&Hlen&Hne&_).
  assert (Hin1 : forall x, x ∈ [hbytes pre (present ch) (bool_decide (is_Some v)); lefti pre ch v] -> x ∈ rinputs (Radix pre ch v) ++ rinputs empty_radix).
  { intros x Hx. apply elem_of_app. left. rewrite rinputs_eq. apply elem_of_app. by left. }
  assert (Hin2 : forall x, x ∈ [hbytes [] (present (V:=V) (replicate 16 None)) (bool_decide (is_Some (@None V))); empty_in] -> x ∈ rinputs (Radix pre ch v) ++ rinputs empty_radix).
  { intros x Hx. apply elem_of_app. right. unfold empty_radix. rewrite rinputs_eq. apply elem_of_app. left. done. }
  rewrite rhash_empty, rhash_eq in He. destruct (chashes ch) as [|h0 hs] eqn:Hch.
  - apply Hinj in He; [|apply Hin1; set_solver|apply Hin2; set_solver].
    unfold empty_in, lefti in He. apply app_inj32 in He as [He _]; [|apply (ok_H E HE)..].
    apply Hinj in He; [|apply Hin1; set_solver|apply Hin2; set_solver].
    apply header_bytes_inj in He as (_&_&Hb); [|done|constructor|unfold present; by rewrite map_length|done].
    rewrite (bool_decide_eq_false_2 (is_Some (@None V))) in Hb by (intros [? ?]; done).
    apply bool_decide_eq_false in Hb. destruct Hne as [Hne|(i&c&Hi)]; [done|].
    unfold chashes in Hch. rewrite somes_nil in Hch. apply (Hch i (rhash c)). by rewrite list_lookup_fmap, Hi.
  - apply Hinj in He; [| |apply Hin2; set_solver].
    2:{ apply elem_of_app. left. rewrite rinputs_eq, Hch, !elem_of_app. right; left. set_solver. }
    unfold empty_in in He. unfold lefti in He at 2. apply app_inj32 in He as [He _]; [|apply (ok_H E HE)..].
    apply Hinj in He; [|apply Hin1; set_solver|apply Hin2; set_solver].
    apply (f_equal length) in He. rewrite lefti_len in He. cbn in He. done.
Qed.

End hash.
