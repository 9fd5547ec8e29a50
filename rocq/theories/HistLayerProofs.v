(** Arithmetic of the layers of a history tree and of the positions in it. *)
From Verif Require Import Base MerkleSpec MerkleModel TrieSpec TrieModel HistSpec HistModel.
From stdpp Require Import gmap.
Open Scope N_scope.

(** The position [k] layers above position [n]. *)
Fixpoint up (k n : nat) : nat := match k with O => n | S k' => (up k' n / 2)%nat end.
(** Positions below position [j]: by bits, by nibbles. *)
Fixpoint bidx (j : nat) (p : list N) : nat :=
  match p with [] => j | b :: r => bidx (2 * j + N.to_nat b) r end.
Fixpoint npos (j : nat) (p : list N) : nat :=
  match p with [] => j | x :: r => npos (16 * j + N.to_nat x) r end.
Definition bits (p : list N) : Prop := Forall (fun b => b < 2) p.
Definition nibs (p : list N) : Prop := Forall (fun b => b < 16) p.

Lemma up_add a b n : up (a + b) n = up a (up b n).
Proof. induction a as [|a IH]; cbn [up Nat.add]; [done|]. by rewrite IH. Qed.
Lemma up_4 k n : up (4 + k) n = (up k n / 16)%nat.
Proof. cbn [up Nat.add]. rewrite !Nat.div_div by lia. done. Qed.
Lemma bidx_app j p q : bidx j (p ++ q) = bidx (bidx j p) q.
Proof. revert j; induction p as [|b p IH]; intros j; cbn [bidx app]; [done|]. apply IH. Qed.
Lemma npos_app j p q : npos j (p ++ q) = npos (npos j p) q.
Proof. revert j; induction p as [|b p IH]; intros j; cbn [npos app]; [done|]. apply IH. Qed.
Lemma bits_app p q : bits (p ++ q) <-> bits p /\ bits q.
Proof. apply Forall_app. Qed.

Lemma bidx_up p : forall k n j, bits p -> up k n = bidx j p -> up (length p + k) n = j.
Proof.
  induction p as [|b p IH] using rev_ind; intros k n j Hb He; [done|].
  apply bits_app in Hb as [Hb1 Hb2]. inversion Hb2 as [|? ? Hlt _]; subst.
  rewrite bidx_app in He. cbn [bidx] in He. rewrite app_length. cbn [length].
  replace (length p + 1 + k)%nat with (length p + S k)%nat by lia.
  apply IH; [done|]. cbn [up]. rewrite He. lia.
Qed.
Lemma bidx_inj p q : forall j, bits p -> bits q -> length p = length q -> bidx j p = bidx j q -> p = q.
Proof.
  assert (forall p i j, bits p -> forall q, bits q -> length p = length q -> bidx i p = bidx j q -> i = j /\ p = q) as Hg.
  { clear. induction p as [|b p IH]; intros i j Hp q Hq Hl He; destruct q as [|c q]; try discriminate Hl; [done|].
    inversion Hp; inversion Hq; subst. cbn [bidx] in He.
    destruct (IH _ _ ltac:(done) q ltac:(done) ltac:(by injection Hl) He) as [Hi ->].
    split; [lia|]. f_equal. lia. }
  intros j Hp Hq Hl He. by apply (Hg p j j Hp q Hq Hl He).
Qed.
Lemma npos_up p : forall k n j, nibs p -> up k n = npos j p -> up (4 * length p + k) n = j.
Proof.
  induction p as [|b p IH] using rev_ind; intros k n j Hb He; [done|].
  apply Forall_app in Hb as [Hb1 Hb2]. inversion Hb2 as [|? ? Hlt _]; subst.
  rewrite npos_app in He. cbn [npos] in He. rewrite app_length. cbn [length].
  replace (4 * (length p + 1) + k)%nat with (4 * length p + (4 + k))%nat by lia.
  apply IH; [done|]. rewrite up_4, He. lia.
Qed.

(* ------------------------------------------------------------ bits of a nibble *)
Lemma nib_cases x : x < 16 -> x ∈ [0;1;2;3;4;5;6;7;8;9;10;11;12;13;14;15].
Proof. intros Hx. rewrite !elem_of_cons. lia. Qed.
Ltac nib x Hx :=
  apply nib_cases in Hx; rewrite !elem_of_cons, elem_of_nil in Hx;
  repeat match type of Hx with _ \/ _ => destruct Hx as [Hx|Hx] end; [..|done]; subst x.
Lemma to_binary_len x k : length (to_binary x k) = k.
Proof. revert x; induction k as [|k IH]; intros x; cbn [to_binary]; [done|]. rewrite app_length, IH. cbn. lia. Qed.
Lemma to_binary_bits x k : bits (to_binary x k).
Proof.
  revert x; induction k as [|k IH]; intros x; cbn [to_binary]; [constructor|]. apply bits_app. split; [apply IH|].
  constructor; [|constructor]. change 1 with (N.ones 1). rewrite N.land_ones. change (2 ^ 1) with 2. lia.
Qed.
Lemma bidx_binary j x : x < 16 -> bidx j (to_binary x 4) = (16 * j + N.to_nat x)%nat.
Proof. intros Hx. nib x Hx; vm_compute to_binary; cbn [bidx]; lia. Qed.
Lemma to_byte_binary x : x < 16 -> to_byte (to_binary x 4) = x.
Proof. intros Hx. nib x Hx; reflexivity. Qed.
Lemma bits_4 p : bits p -> length p = 4%nat -> to_byte p < 16 /\ p = to_binary (to_byte p) 4.
Proof.
  intros Hp Hl. destruct p as [|a [|b [|c [|d [|]]]]]; try discriminate Hl.
  repeat match goal with H : bits (_ :: _) |- _ => inversion H; subst; clear H
         | H : Forall _ (_ :: _) |- _ => inversion H; subst; clear H end.
  assert (forall z, z < 2 -> z = 0 \/ z = 1) as Hz by lia.
  destruct (Hz a), (Hz b), (Hz c), (Hz d); try done; subst; done.
Qed.
Lemma bidx_byte j p : bits p -> length p = 4%nat -> bidx j p = (16 * j + N.to_nat (to_byte p))%nat.
Proof. intros Hp Hl. destruct (bits_4 p Hp Hl) as [Hx He]. rewrite He at 1. by apply bidx_binary. Qed.

(* ------------------------------------------------------------ layers *)
Section layers.
Context (H : list N -> list N).
Local Notation nilhash := (nilhash H).
Local Notation look vs k i := (layers H k vs !! i).

Lemma layer_lookup vs : forall i, layer H vs !! i =
  match vs !! (2 * i)%nat with None => None | Some a => Some (H (a ++ default nilhash (vs !! (2 * i + 1)%nat))) end.
Proof.
  assert (forall m vs, (length vs <= m)%nat -> forall i, layer H vs !! i =
    match vs !! (2 * i)%nat with None => None | Some a => Some (H (a ++ default nilhash (vs !! (2 * i + 1)%nat))) end) as Hg.
  { clear vs. induction m as [|m IH]; intros vs Hl i.
    - destruct vs; [|cbn in Hl; lia]. done.
    - destruct vs as [|a [|b r]]; cbn [layer]; [done| |].
      + destruct i as [|i]; [done|]. replace (2 * S i)%nat with (S (2 * i + 1)) by lia. cbn [lookup list_lookup]. destruct i; done.
      + destruct i as [|i]; [done|]. cbn [length] in Hl. replace (2 * S i + 1)%nat with (S (S (2 * i + 1))) by lia.
        replace (2 * S i)%nat with (S (S (2 * i))) by lia. cbn [lookup list_lookup].
        rewrite IH by lia. done. }
  apply (Hg (length vs)). lia.
Qed.
Lemma look_S vs k i : look vs (S k) i =
  match look vs k (2 * i)%nat with None => None | Some a => Some (H (a ++ default nilhash (look vs k (2 * i + 1)%nat))) end.
Proof. cbn [layers]. apply layer_lookup. Qed.
Lemma look_mono vs k i j : (i <= j)%nat -> look vs k i = None -> look vs k j = None.
Proof. rewrite !lookup_ge_None. lia. Qed.
Lemma look_some_le vs k i j : (i <= j)%nat -> is_Some (look vs k j) -> is_Some (look vs k i).
Proof. rewrite !lookup_lt_is_Some. lia. Qed.
Lemma look_S_some vs k i : is_Some (look vs (S k) i) <-> is_Some (look vs k (2 * i)%nat).
Proof. rewrite look_S. destruct (look vs k (2 * i)%nat); split; intros [? ?]; eauto; done. Qed.
Lemma look_S_none vs k i : look vs (S k) i = None <-> look vs k (2 * i)%nat = None.
Proof. rewrite look_S. destruct (look vs k (2 * i)%nat); done. Qed.
Lemma look_none_bits vs b : forall k i, look vs (b + k) i = None <-> look vs k (Nat.pow 2 b * i)%nat = None.
Proof.
  induction b as [|b IH]; intros k i; [cbn [Nat.add Nat.pow]; replace (1 * i)%nat with i by lia; done|].
  cbn [Nat.add]. rewrite look_S_none, IH. cbn [Nat.pow].
  replace (2 ^ b * (2 * i))%nat with (2 * 2 ^ b * i)%nat by lia. done.
Qed.
Lemma look_none_16 vs k i : look vs (4 + k) i = None <-> look vs k (16 * i)%nat = None.
Proof. apply look_none_bits. Qed.
Lemma look_some_16 vs k i : is_Some (look vs (4 + k) i) <-> is_Some (look vs k (16 * i)%nat).
Proof.
  rewrite <- !not_eq_None_Some. rewrite look_none_16. done.
Qed.

(** Appending a value only changes the positions above it. *)
Lemma look_frame vs v k : forall i, i <> up k (length vs) -> look (vs ++ [v]) k i = look vs k i.
Proof.
  induction k as [|k IH]; intros i Hi; cbn [up] in Hi.
  - cbn [layers]. destruct (decide (i < length vs)%nat); [by rewrite lookup_app_l|].
    rewrite !(proj2 (lookup_ge_None _ _)); [done|lia|rewrite app_length; cbn; lia].
  - rewrite !look_S, !IH; [done|lia|lia].
Qed.
Lemma look_new vs v k : is_Some (look (vs ++ [v]) k (up k (length vs))).
Proof.
  induction k as [|k IH]; cbn [up]; [cbn [layers]; rewrite list_lookup_middle by done; eauto|].
  apply look_S_some. eapply look_some_le; [|exact IH]. lia.
Qed.
Lemma look_above vs k i : (up k (length vs) < i)%nat -> look vs k i = None.
Proof.
  revert i; induction k as [|k IH]; intros i Hi; cbn [up] in Hi.
  - cbn [layers]. apply lookup_ge_None. lia.
  - apply look_S_none. apply IH. lia.
Qed.
Lemma look_below vs k i : (i < up k (length vs))%nat -> is_Some (look vs k i).
Proof.
  revert i; induction k as [|k IH]; intros i Hi; cbn [up] in Hi.
  - cbn [layers]. apply lookup_lt_is_Some. lia.
  - apply look_S_some. apply IH. lia.
Qed.
(** The last position of a layer is above the last value. *)
Lemma look_last vs k i : (0 < length vs)%nat -> is_Some (look vs k i) -> look vs k (S i) = None -> i = up k (length vs - 1).
Proof.
  intros Hl. revert i. induction k as [|k IH]; intros i Hs Hn; cbn [up].
  - cbn [layers] in *. apply lookup_lt_is_Some in Hs. apply lookup_ge_None in Hn. lia.
  - apply look_S_some in Hs. apply look_S_none in Hn.
    destruct (look vs k (2 * i + 1)%nat) eqn:He.
    + specialize (IH (2 * i + 1)%nat ltac:(eauto)). replace (S (2 * i + 1)) with (2 * S i)%nat in IH by lia.
      rewrite <- IH by done. lia.
    + specialize (IH (2 * i)%nat Hs). replace (S (2 * i)) with (2 * i + 1)%nat in IH by lia. rewrite <- IH by done. lia.
Qed.
Lemma look_nil k i : look [] k i = None.
Proof. revert i; induction k as [|k IH]; intros i; [done|]. apply look_S_none, IH. Qed.

Lemma hist_root_look vs : hist_root H vs = default nilhash (look vs 64 0%nat).
Proof. unfold hist_root. destruct (layers H 64 vs); done. Qed.

Lemma layer_inputs_in vs i a : vs !! (2 * i)%nat = Some a -> a ++ default nilhash (vs !! (2 * i + 1)%nat) ∈ layer_inputs H vs.
Proof.
  assert (forall m vs, (length vs <= m)%nat -> forall i a, vs !! (2 * i)%nat = Some a ->
    a ++ default nilhash (vs !! (2 * i + 1)%nat) ∈ layer_inputs H vs) as Hg.
  { clear. induction m as [|m IH]; intros vs Hl i x.
    - destruct vs; [done|cbn in Hl; lia].
    - destruct vs as [|a [|b r]]; cbn [layer_inputs]; [done| |].
      + destruct i as [|i]; [|replace (2 * S i)%nat with (S (2 * i + 1)) by lia; cbn [lookup list_lookup]; destruct i; done].
        intros [= ->]. apply elem_of_list_here.
      + destruct i as [|i]; [intros [= ->]; apply elem_of_list_here|]. cbn [length] in Hl.
        replace (2 * S i + 1)%nat with (S (S (2 * i + 1))) by lia. replace (2 * S i)%nat with (S (S (2 * i))) by lia.
        cbn [lookup list_lookup]. intros Hx. apply elem_of_list_further. apply IH; [lia|done]. }
  apply (Hg (length vs)). lia.
Qed.
Lemma hist_inputs_in vs k i a : (k < 64)%nat -> look vs k (2 * i)%nat = Some a ->
  a ++ default nilhash (look vs k (2 * i + 1)%nat) ∈ hist_inputs H vs.
Proof.
  intros Hk Ha. apply elem_of_list_further. apply elem_of_list_In, in_flat_map.
  exists k. split; [apply in_seq; lia|]. apply elem_of_list_In. by apply layer_inputs_in.
Qed.
Lemma hist_inputs_nil vs : [] ∈ hist_inputs H vs.
Proof. apply elem_of_list_here. Qed.

Lemma look_len vs k i h : (forall x, length (H x) = 32%nat) -> Forall (fun v => length v = 32%nat) vs ->
  look vs k i = Some h -> length h = 32%nat.
Proof.
  intros HH Hv. revert i h. induction k as [|k IH]; intros i h.
  - cbn [layers]. intros Hi. by apply (proj1 (Forall_lookup _ _) Hv i).
  - rewrite look_S. destruct (look vs k (2 * i)%nat); [|done]. intros [= <-]. apply HH.
Qed.
End layers.
