(** Binding and soundness of Merkle trees, equality of the two complete versions. *)
From Verif Require Export MerkleTreeProofs.

Lemma app_inj32 (a b c d : list N) : length a = 32%nat -> length c = 32%nat -> a ++ b = c ++ d -> a = c /\ b = d.
Proof. intros Ha Hc He. apply app_inj_1 in He; [done|congruence]. Qed.

Section bind.
Context (H : list N -> list N).
Context (HL : forall x, length (H x) = 32%nat).
Notation nilhash := (nilhash H).

Lemma ptree_inputs_in leaves D d i : (d < D)%nat -> (i < 2 ^ (D - 1 - d))%nat ->
  pnode H leaves d (2 * i) ++ pnode H leaves d (2 * i + 1) ∈ ptree_inputs H leaves D.
Proof.
  intros Hd Hi. unfold ptree_inputs. apply elem_of_list_In, in_flat_map. exists d.
  split; [apply in_seq; lia|]. apply in_map_iff. exists i. split; [done|]. apply in_seq. lia.
Qed.

Lemma stree_inputs_in leaves D d i : (d < D)%nat -> (i < lsize (length leaves) (S d))%nat ->
  snode' H leaves d (2 * i) ++ snode' H leaves d (2 * i + 1) ∈ stree_inputs H leaves D.
Proof.
  intros Hd Hi. unfold stree_inputs. apply elem_of_list_In, in_flat_map. exists d.
  split; [apply in_seq; lia|]. apply in_map_iff. exists i. split; [|apply in_seq; lia].
  unfold snode'. cbn [lsize] in Hi. apply half_lt in Hi.
  destruct (Nat.ltb_spec (2 * i) (lsize (length leaves) d)); [done|lia].
Qed.

(** Generic descent: two node families that agree at the top agree everywhere. *)
Lemma bind_levels (f g : nat -> nat -> list N) (sz : nat -> nat) (ins : list (list N)) D :
  (forall k i, (k < D)%nat -> (i < sz (S k))%nat -> f (S k) i = H (f k (2 * i)%nat ++ f k (2 * i + 1)%nat)) ->
  (forall k i, (k < D)%nat -> (i < sz (S k))%nat -> g (S k) i = H (g k (2 * i)%nat ++ g k (2 * i + 1)%nat)) ->
  (forall k i, (k < D)%nat -> (i < sz (S k))%nat -> f k (2 * i)%nat ++ f k (2 * i + 1)%nat ∈ ins) ->
  (forall k i, (k < D)%nat -> (i < sz (S k))%nat -> g k (2 * i)%nat ++ g k (2 * i + 1)%nat ∈ ins) ->
  (forall k i, length (f k i) = 32%nat) -> (forall k i, length (g k i) = 32%nat) ->
  (forall k i, (k < D)%nat -> (i < sz k)%nat -> (i / 2 < sz (S k))%nat) ->
  inj_on H ins ->
  (forall i, (i < sz D)%nat -> f D i = g D i) ->
  forall e k, (k + e = D)%nat -> forall i, (i < sz k)%nat -> f k i = g k i.
Proof.
  intros Hf Hg If Ig Lf Lg Hsz Hinj Htop e. induction e as [|e IH]; intros k Hk i Hi.
  - rewrite Nat.add_0_r in Hk. subst k. auto.
  - assert (f (S k) (i / 2)%nat = g (S k) (i / 2)%nat) as He by (apply IH; [lia|apply Hsz; [lia|done]]).
    assert (i / 2 < sz (S k))%nat as Hi2 by (apply Hsz; [lia|done]).
    rewrite Hf, Hg in He by (lia || done).
    apply Hinj in He; [|apply If; [lia|done]|apply Ig; [lia|done]].
    apply app_inj32 in He as [E1 E2]; [|done|done].
    destruct (odd_cases i) as [[_ Ht]|[_ Ht]]; rewrite Ht; done.
Qed.

Lemma inj_on_sub a b : (forall x, x ∈ a -> x ∈ b) -> inj_on H b -> inj_on H a.
Proof. intros Hs Hb x y Hx Hy. apply Hb; auto. Qed.

Lemma proot_binds l1 l2 :
  Forall (fun l => length l = 32%nat) l1 -> Forall (fun l => length l = 32%nat) l2 ->
  length l1 = length l2 ->
  inj_on H (ptree_inputs H l1 (mdepth (length l1)) ++ ptree_inputs H l2 (mdepth (length l2))) ->
  proot H l1 = proot H l2 -> l1 = l2.
Proof.
  intros F1 F2 Hlen Hinj Hroot.
  destruct l1 as [|a1 r1] eqn:E1; [destruct l2; [done|simpl in Hlen; lia]|].
  destruct l2 as [|a2 r2] eqn:E2; [simpl in Hlen; lia|].
  rewrite <- E1, <- E2 in *.
  assert (pnode H l1 (mdepth (length l1)) 0 = pnode H l2 (mdepth (length l2)) 0) as Hr.
  { unfold proot in Hroot. rewrite E1, E2 in *. exact Hroot. }
  rewrite <- Hlen in Hr. set (D := mdepth (length l1)) in *.
  assert (forall i, (i < 2 ^ D)%nat -> nth i l1 nilhash = nth i l2 nilhash) as Hn.
  { intros i Hi. apply (bind_levels (pnode H l1) (pnode H l2) (fun k => 2 ^ (D - k))%nat
      (ptree_inputs H l1 D ++ ptree_inputs H l2 (mdepth (length l2))) D) with (e := D) (k := O).
    - done.
    - done.
    - intros k j Hk Hj. apply elem_of_app; left. apply ptree_inputs_in; [done|].
      replace (D - 1 - k)%nat with (D - S k)%nat by lia. done.
    - intros k j Hk Hj. apply elem_of_app; right. rewrite <- Hlen. fold D. apply ptree_inputs_in; [done|].
      replace (D - 1 - k)%nat with (D - S k)%nat by lia. done.
    - by apply node_len.
    - by apply node_len.
    - intros k j Hk Hj. apply Nat.div_lt_upper_bound; [lia|]. rewrite <- Nat.pow_succ_r'.
      replace (S (D - S k)) with (D - k)%nat by lia. done.
    - done.
    - intros j Hj. rewrite Nat.sub_diag in Hj. simpl in Hj. assert (j = 0)%nat as -> by lia. exact Hr.
    - done.
    - rewrite Nat.sub_0_r. done. }
  apply (list_eq_same_length _ _ (length l1)); [done|done|].
  intros i x y Hi Hx Hy. pose proof (mdepth_bound (length l1)). specialize (Hn i ltac:(unfold D; lia)).
  rewrite !nth_lookup, Hx, Hy in Hn. done.
Qed.

Lemma sroot_binds l1 l2 :
  Forall (fun l => length l = 32%nat) l1 -> Forall (fun l => length l = 32%nat) l2 ->
  length l1 = length l2 ->
  inj_on H (stree_inputs H l1 (mdepth (length l1)) ++ stree_inputs H l2 (mdepth (length l2))) ->
  sroot H l1 = sroot H l2 -> l1 = l2.
Proof.
  intros F1 F2 Hlen Hinj Hroot.
  destruct l1 as [|a1 r1] eqn:E1; [destruct l2; [done|simpl in Hlen; lia]|].
  destruct l2 as [|a2 r2] eqn:E2; [simpl in Hlen; lia|].
  rewrite <- E1, <- E2 in *.
  assert (0 < length l1)%nat as Hpos by (rewrite E1; simpl; lia).
  assert (snode H l1 (mdepth (length l1)) 0 = snode H l2 (mdepth (length l2)) 0) as Hr.
  { unfold sroot in Hroot. rewrite E1, E2 in *. exact Hroot. }
  rewrite <- Hlen in Hr. set (D := mdepth (length l1)) in *.
  assert (forall i, (i < length l1)%nat -> snode' H l1 0 i = snode' H l2 0 i) as Hn.
  { intros i Hi. apply (bind_levels (snode' H l1) (snode' H l2) (lsize (length l1))
      (stree_inputs H l1 D ++ stree_inputs H l2 (mdepth (length l2))) D) with (e := D) (k := O).
    - intros. by apply snode'_step.
    - intros. rewrite Hlen in *. by apply snode'_step.
    - intros k j Hk Hj. apply elem_of_app; left. by apply stree_inputs_in.
    - intros k j Hk Hj. apply elem_of_app; right. rewrite <- Hlen. fold D. apply stree_inputs_in; [done|].
      rewrite <- Hlen. done.
    - by apply snode'_len.
    - by apply snode'_len.
    - intros k j Hk Hj. cbn [lsize]. apply half_lt. destruct (odd_cases j) as [[_ ?]|[_ ?]]; lia.
    - done.
    - intros j Hj. unfold D in Hj. rewrite lsize_top in Hj by done. assert (j = 0)%nat as -> by lia.
      unfold snode'. rewrite <- Hlen. fold D in Hr |- *. destruct (_ <? _)%nat; done.
    - done.
    - done. }
  apply (list_eq_same_length _ _ (length l1)); [done|done|].
  intros i x y Hi Hx Hy. specialize (Hn i Hi).
  unfold snode' in Hn. cbn [lsize snode] in Hn. rewrite <- Hlen in Hn.
  destruct (Nat.ltb_spec i (length l1)); [|lia].
  rewrite !nth_lookup, Hx, Hy in Hn. done.
Qed.

(* ------------------------------------------------------------ soundness *)
Lemma dirs_cons d t b r : dirs (S d) t = b :: r -> b = N.odd t /\ r = dirs d (t / 2).
Proof.
  unfold dirs. cbn [seq map]. intros [= <- <-]. split; [apply N.bit0_odd|].
  rewrite <- seq_shift, map_map. apply map_ext. intros j.
  replace (N.of_nat (S j)) with (N.succ (N.of_nat j)) by lia. rewrite <- N.div2_bits. done.
Qed.

Lemma climb_inputs_cons h s o r :
  climb_inputs H h ((s, o) :: r) =
  (if o : bool then s ++ h else h ++ s) :: climb_inputs H (H (if o then s ++ h else h ++ s)) r.
Proof. destruct o; done. Qed.
Lemma climb_cons h s (o : bool) r :
  climb H h ((s, o) :: r) = climb H (H (if o then s ++ h else h ++ s)) r.
Proof. destruct o; done. Qed.

Lemma climb_sound (node : nat -> nat -> list N) (sz : nat -> nat) (ins : list (list N)) D :
  (forall k i, (k < D)%nat -> (i < sz (S k))%nat -> node (S k) i = H (node k (2 * i)%nat ++ node k (2 * i + 1)%nat)) ->
  (forall k i, (k < D)%nat -> (i < sz (S k))%nat -> node k (2 * i)%nat ++ node k (2 * i + 1)%nat ∈ ins) ->
  (forall k i, length (node k i) = 32%nat) ->
  (forall k i, (k < D)%nat -> (i < sz k)%nat -> (i / 2 < sz (S k))%nat) ->
  inj_on H ins -> sz D = 1%nat ->
  forall its k h t, (k + length its = D)%nat -> (t < sz k)%nat -> length h = 32%nat ->
    Forall (fun it => length it.1 = 32%nat) its -> map snd its = dirs (length its) (N.of_nat t) ->
    (forall x, x ∈ climb_inputs H h its -> x ∈ ins) ->
    climb H h its = node D O ->
    h = node k t.
Proof.
  intros Hnode Hins L32 Hsz Hinj HD its. induction its as [|[s o] r IH]; intros k h t Hk Ht Hh Hits Hdir Hin Hc.
  - cbn [length] in Hk. rewrite Nat.add_0_r in Hk. subst k. cbn in Hc. assert (t = 0)%nat as -> by lia. done.
  - cbn [length] in Hk. rewrite climb_cons in Hc. rewrite climb_inputs_cons in Hin.
    apply Forall_cons in Hits as [Hs Hits]. simpl in Hs. cbn [map length snd] in Hdir.
    symmetry in Hdir. apply dirs_cons in Hdir as [Ho Hdir].
    assert (t / 2 < sz (S k))%nat as Ht2 by (apply Hsz; [lia|done]).
    assert (H (if o then s ++ h else h ++ s) = node (S k) (t / 2)%nat) as He.
    { apply IH; [lia|done|apply HL|done| |intros; apply Hin; by apply elem_of_cons; right|done].
      rewrite Hdir. f_equal. rewrite Nat2N.inj_div. done. }
    rewrite Hnode in He by (lia || done).
    apply Hinj in He; [|apply Hin; by apply elem_of_cons; left|apply Hins; [lia|done]].
    assert (o = Nat.odd t) as Ho'.
    { rewrite Ho. destruct (odd_cases t) as [[-> Htt]|[-> Htt]].
      - apply N.odd_spec. exists (N.of_nat (t / 2)). lia.
      - rewrite <- N.negb_even. apply negb_false_iff. apply N.even_spec. exists (N.of_nat (t / 2)). lia. }
    destruct (odd_cases t) as [[Ho2 Htt]|[Ho2 Htt]]; rewrite Ho2 in Ho'; rewrite Ho' in He.
    + apply app_inj32 in He as [_ E2]; [|done|apply L32]. rewrite Htt. done.
    + apply app_inj32 in He as [E1 _]; [|done|apply L32]. rewrite Htt. done.
Qed.

Lemma proot_sound leaves its h t :
  Forall (fun l => length l = 32%nat) leaves -> leaves <> [] ->
  (t < 2 ^ mdepth (length leaves))%nat -> length h = 32%nat -> Forall (fun it => length it.1 = 32%nat) its ->
  length its = mdepth (length leaves) -> map snd its = dirs (mdepth (length leaves)) (N.of_nat t) ->
  inj_on H (ptree_inputs H leaves (mdepth (length leaves)) ++ climb_inputs H h its) ->
  climb H h its = proot H leaves -> h = nth t leaves nilhash.
Proof.
  intros F Hne Ht Hh Hits Hlen Hdir Hinj Hc. set (D := mdepth (length leaves)) in *.
  assert (proot H leaves = pnode H leaves D 0) as Hr by (destruct leaves; done).
  apply (climb_sound (pnode H leaves) (fun k => 2 ^ (D - k))%nat (ptree_inputs H leaves D ++ climb_inputs H h its) D) with (its := its) (k := O).
  - done.
  - intros k j Hk Hj. apply elem_of_app; left. apply ptree_inputs_in; [done|].
    replace (D - 1 - k)%nat with (D - S k)%nat by lia. done.
  - by apply node_len.
  - intros k j Hk Hj. apply Nat.div_lt_upper_bound; [lia|]. rewrite <- Nat.pow_succ_r'.
    replace (S (D - S k)) with (D - k)%nat by lia. done.
  - done.
  - rewrite Nat.sub_diag. done.
  - lia.
  - rewrite Nat.sub_0_r. done.
  - done.
  - done.
  - rewrite Hlen. done.
  - intros x Hx. apply elem_of_app; by right.
  - congruence.
Qed.

Lemma sroot_sound leaves its h t :
  Forall (fun l => length l = 32%nat) leaves ->
  (t < length leaves)%nat -> length h = 32%nat -> Forall (fun it => length it.1 = 32%nat) its ->
  length its = mdepth (length leaves) -> map snd its = dirs (mdepth (length leaves)) (N.of_nat t) ->
  inj_on H (stree_inputs H leaves (mdepth (length leaves)) ++ climb_inputs H h its) ->
  climb H h its = sroot H leaves -> h = nth t leaves nilhash.
Proof.
  intros F Ht Hh Hits Hlen Hdir Hinj Hc. set (D := mdepth (length leaves)) in *.
  assert (0 < length leaves)%nat as Hpos by lia.
  assert (sroot H leaves = snode' H leaves D 0) as Hr.
  { unfold snode', D. rewrite lsize_top by done. destruct leaves; [simpl in Hpos; lia|done]. }
  assert (h = snode' H leaves 0 t) as ->.
  2:{ unfold snode'. cbn [lsize snode]. destruct (Nat.ltb_spec t (length leaves)); [done|lia]. }
  apply (climb_sound (snode' H leaves) (lsize (length leaves)) (stree_inputs H leaves D ++ climb_inputs H h its) D) with (its := its) (k := O).
  - intros. by apply snode'_step.
  - intros k j Hk Hj. apply elem_of_app; left. by apply stree_inputs_in.
  - by apply snode'_len.
  - intros k j Hk Hj. cbn [lsize]. apply half_lt. destruct (odd_cases j) as [[_ ?]|[_ ?]]; lia.
  - done.
  - by apply lsize_top.
  - lia.
  - done.
  - done.
  - done.
  - rewrite Hlen. done.
  - intros x Hx. apply elem_of_app; by right.
  - congruence.
Qed.
End bind.

(* ------------------------------- MerkleHashCompleteOld = MerkleHashComplete *)
Section old.
Context (H : list N -> list N).
Notation nilhash := (nilhash H).

Lemma mho_inner_eq n : forall i src b l t ps,
  (i + n <= length b)%nat ->
  (forall p, (2 * i <= p < 2 * (i + n))%nat -> nth p (match src with Some l => l | None => b end) nilhash = nth p l []) ->
  match mhc_inner H n i src b t ps with
  | None => mho_inner H n i l t ps = None
  | Some (b', ps') => exists b2, mho_inner H n i l t ps = Some (b2, ps') /\ length b2 = n /\ length b' = length b /\
      (forall j, (j < i)%nat -> nth j b' [] = nth j b []) /\
      (forall j, (j < n)%nat -> nth (i + j) b' [] = nth j b2 [])
  end.
Proof.
  induction n as [|n IH]; intros i src b l t ps Hlen Hv; cbn [mhc_inner mho_inner].
  - exists []. repeat split; auto. intros; lia.
  - rewrite !Hv by lia. destruct (add_proof _ _ _ _ _ _) as [ps1|]; [|done].
    set (x := hash_pair H _ _).
    specialize (IH (S i) src (<[i:=x]> b) l t ps1). rewrite insert_length in IH.
    specialize (IH ltac:(lia)).
    destruct (mhc_inner H n (S i) src (<[i:=x]> b) t ps1) as [[b' ps']|] eqn:E.
    + destruct IH as (b2 & -> & L2 & Lb & Hlow & Hhigh).
      { intros p Hp. destruct src; [apply Hv; lia|]. rewrite nth_insert by lia. destruct (Nat.eqb_spec p i); [lia|apply Hv; lia]. }
      exists (x :: b2). split; [done|]. split; [simpl; lia|]. split; [done|]. split.
      * intros j Hj. rewrite Hlow by lia. rewrite nth_insert by lia. destruct (Nat.eqb_spec j i); [lia|done].
      * intros [|j] Hj.
        -- rewrite Nat.add_0_r, Hlow by lia. rewrite nth_insert by lia. rewrite Nat.eqb_refl. done.
        -- cbn [nth]. rewrite <- Hhigh by lia. f_equal. lia.
    + rewrite IH; [done|].
      intros p Hp. destruct src; [apply Hv; lia|]. rewrite nth_insert by lia. destruct (Nat.eqb_spec p i); [lia|apply Hv; lia].
Qed.

Lemma mho_layers_eq d : forall src b l t ps,
  (2 ^ (d - 1) <= length b)%nat ->
  (forall p, (p < 2 ^ d)%nat -> nth p (match src with Some l => l | None => b end) nilhash = nth p l []) ->
  (d = 0%nat -> src = None) ->
  match mhc_layers H d src b t ps with
  | None => mho_layers H d l t ps = None
  | Some (b', t', ps') => exists b2, mho_layers H d l t ps = Some (b2, t', ps') /\ nth 0 b' [] = nth 0 b2 []
  end.
Proof.
  induction d as [|d IH]; intros src b l t ps Hlen Hv Hs; cbn [mhc_layers mho_layers].
  - exists l. split; [done|]. rewrite Hs in Hv by done. rewrite (nth0_default b [] nilhash) by (simpl in Hlen; lia).
    apply Hv. simpl; lia.
  - replace (S d - 1)%nat with d in Hlen by lia.
    pose proof (mho_inner_eq (2 ^ d) 0 src b l t ps ltac:(lia)) as Hin.
    specialize (Hin ltac:(intros p Hp; apply Hv; simpl; lia)).
    destruct (mhc_inner H (2 ^ d) 0 src b t ps) as [[b' ps']|].
    + destruct Hin as (b2 & -> & L2 & Lb & _ & Hhi). apply IH.
      * rewrite Lb. etrans; [|exact Hlen]. apply Nat.pow_le_mono_r; lia.
      * intros p Hp. rewrite <- (Hhi p Hp). rewrite Nat.add_0_l. apply nth_indep. lia.
      * done.
    + rewrite Hin. done.
Qed.

Lemma mho_eq leaves t ps : merkle_hash_complete_old H leaves t ps = merkle_hash_complete H leaves t ps.
Proof.
  unfold merkle_hash_complete_old, merkle_hash_complete. destruct leaves as [|l0 ls] eqn:E; [done|].
  rewrite <- E. assert (0 < length leaves)%nat as Hpos by (rewrite E; simpl; lia). clear E.
  rewrite find_depth_mdepth by done. set (D := mdepth (length leaves)).
  pose proof (mho_layers_eq D (Some leaves) (replicate (2 ^ (D - 1)) []) (leaves ++ replicate (2 ^ D - length leaves) nilhash) t ps) as Hq.
  rewrite replicate_length in Hq. specialize (Hq ltac:(lia)).
  assert (forall p, (p < 2 ^ D)%nat -> nth p leaves nilhash = nth p (leaves ++ replicate (2 ^ D - length leaves) nilhash) []) as Hp.
  { intros p Hp. destruct (decide (p < length leaves)%nat) as [Hlt|Hge].
    - rewrite app_nth1 by done. apply nth_indep. done.
    - rewrite app_nth2 by lia. rewrite nth_overflow by lia. rewrite nth_lookup, lookup_replicate_2 by lia. done. }
  specialize (Hq Hp). specialize (Hq ltac:(pose proof (mdepth_pos (length leaves)); unfold D; lia)).
  destruct (mhc_layers H D (Some leaves) _ t ps) as [[[b' t'] ps']|].
  - destruct Hq as (b2 & -> & ->). done.
  - rewrite Hq. done.
Qed.
End old.
