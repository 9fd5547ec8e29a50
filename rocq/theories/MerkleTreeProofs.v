(** The layer loops compute the specified trees and append the sibling path. *)
From Verif Require Export MerkleProofs.

Lemma pow2_pos d : (0 < 2 ^ d)%nat.
Proof. induction d; simpl; lia. Qed.

Lemma find_depth_spec fuel d n :
  (n <= fuel + 2 ^ d)%nat -> (0 < n)%nat ->
  find_depth fuel d (2 ^ d) n = Nat.max d (Nat.log2_up n).
Proof.
  revert d; induction fuel as [|f IH]; intros d Hn H0; cbn [find_depth].
  - assert (Nat.log2_up n <= d)%nat by (apply Nat.log2_up_le_pow2; lia). lia.
  - destruct (Nat.ltb_spec (2 ^ d) n) as [Hlt|Hge].
    + pose proof (pow2_pos d). change (2 * 2 ^ d)%nat with (2 ^ S d)%nat. rewrite IH; [|simpl; lia|done].
      apply Nat.log2_up_lt_pow2 in Hlt; lia.
    + apply Nat.log2_up_le_pow2 in Hge; lia.
Qed.

Lemma find_depth_mdepth n : (0 < n)%nat -> find_depth n 1 2 n = mdepth n.
Proof. intros Hn. apply (find_depth_spec n 1 n); simpl; lia. Qed.

Lemma mdepth_bound n : (n <= 2 ^ mdepth n)%nat.
Proof.
  destruct (decide (n = 0)%nat) as [->|]; [simpl; lia|].
  apply Nat.log2_up_le_pow2; [lia|]. unfold mdepth. lia.
Qed.
Lemma mdepth_pos n : (0 < mdepth n)%nat.
Proof. unfold mdepth. lia. Qed.

Lemma bytes_to_hash_id b : length b = 32%nat -> bytes_to_hash b = b.
Proof. intros Hb. unfold bytes_to_hash. rewrite Hb. simpl. rewrite drop_0, Hb. done. Qed.

(** Sibling of node number t and the side it is on. *)
Definition sib (t : nat) : nat := if Nat.odd t then (t - 1)%nat else (t + 1)%nat.
Definition sib_item (v : nat -> list N) (t : nat) : list N * bool := (v (sib t), Nat.odd t).

Lemma odd_cases t : (Nat.odd t = true /\ t = 2 * (t / 2) + 1)%nat \/ (Nat.odd t = false /\ t = 2 * (t / 2))%nat.
Proof.
  destruct (Nat.odd t) eqn:Ho.
  - left. split; [done|]. apply Nat.odd_spec in Ho as [k ->].
    replace ((2 * k + 1) / 2)%nat with k; [lia|]. rewrite Nat.mul_comm, Nat.div_add_l; simpl; lia.
  - right. split; [done|]. rewrite <- Nat.negb_even in Ho. apply negb_false_iff, Nat.even_spec in Ho as [k ->].
    rewrite (Nat.mul_comm 2 k), Nat.div_mul by lia. lia.
Qed.

Section proofs.
Context (H : list N -> list N).
Notation nilhash := (nilhash H).

(** Effect of one pair on the proofs. *)
Definition proofs_rel (ps : option mproofs) (its : list (list N * bool)) : Prop :=
  match ps with None => True | Some p => mp_rep p its end.

Lemma add_proof_spec ps its (v : nat -> list N) t i ba bb :
  proofs_rel ps its -> ba = v (2 * i)%nat -> bb = v (2 * i + 1)%nat ->
  length ba = 32%nat -> length bb = 32%nat ->
  exists ps', add_proof ps (Z.of_nat t) (2 * i) (S (2 * i)) ba bb = Some ps' /\
    (ps' = None <-> ps = None) /\
    proofs_rel ps' (its ++ (if (t / 2 =? i)%nat then [sib_item v t] else [])).
Proof.
  intros Hrel Ha Hb La Lb. unfold add_proof. destruct ps as [p|]; [|exists None; done].
  destruct (Z.leb_spec 0 (Z.of_nat t)); [|lia].
  destruct (odd_cases t) as [[Ho Ht]|[Ho Ht]].
  - destruct (Z.eqb_spec (Z.of_nat t) (Z.of_nat (2 * i))); [lia|].
    destruct (Z.eqb_spec (Z.of_nat t) (Z.of_nat (S (2 * i)))) as [He|Hne].
    + destruct (Nat.eqb_spec (t / 2) i); [|lia].
      rewrite bytes_to_hash_id by done. destruct (mp_rep_append p its ba true Hrel) as (p' & -> & Hp').
      exists (Some p'). split; [done|]. split; [done|]. unfold sib_item, sib. rewrite Ho, Ha in *.
      replace (t - 1)%nat with (2 * i)%nat by lia. done.
    + destruct (Nat.eqb_spec (t / 2) i); [lia|]. exists (Some p). rewrite app_nil_r. done.
  - destruct (Z.eqb_spec (Z.of_nat t) (Z.of_nat (2 * i))) as [He|Hne].
    + destruct (Nat.eqb_spec (t / 2) i); [|lia].
      rewrite bytes_to_hash_id by done. destruct (mp_rep_append p its bb false Hrel) as (p' & -> & Hp').
      exists (Some p'). split; [done|]. split; [done|]. unfold sib_item, sib. rewrite Ho, Hb in *.
      replace (t + 1)%nat with (2 * i + 1)%nat by lia. done.
    + destruct (Z.eqb_spec (Z.of_nat t) (Z.of_nat (S (2 * i)))); [lia|].
      destruct (Nat.eqb_spec (t / 2) i); [lia|]. exists (Some p). rewrite app_nil_r. done.
Qed.

Lemma add_proof_neg ps its t p1 p2 ba bb : (t < 0)%Z ->
  proofs_rel ps its -> add_proof ps t p1 p2 ba bb = Some ps.
Proof. intros Ht Hrel. unfold add_proof. destruct ps; [|done]. destruct (Z.leb_spec 0 t); [lia|done]. Qed.

Lemma nth_insert {A} (b : list A) i j x d :
  (i < length b)%nat -> nth j (<[i:=x]> b) d = if (j =? i)%nat then x else nth j b d.
Proof.
  intros Hi. rewrite !nth_lookup. destruct (Nat.eqb_spec j i) as [->|Hne].
  - rewrite list_lookup_insert by done. done.
  - rewrite list_lookup_insert_ne by done. done.
Qed.

(** Inner loop of MerkleHashComplete. [tt] is None when no index is asked (t<0). *)
Definition tproof (v : nat -> list N) (t : Z) (lo hi : nat) : list (list N * bool) :=
  if (0 <=? t)%Z then
    let k := (Z.to_nat t / 2)%nat in if (lo <=? k)%nat && (k <? hi)%nat then [sib_item v (Z.to_nat t)] else []
  else [].

Lemma mhc_inner_spec n : forall i src b t ps its (v : nat -> list N),
  (i + n <= length b)%nat ->
  (forall p, (2 * i <= p < 2 * (i + n))%nat -> length (v p) = 32%nat /\
     nth p (match src with Some l => l | None => b end) nilhash = v p) ->
  proofs_rel ps its ->
  exists b' ps', mhc_inner H n i src b t ps = Some (b', ps') /\ length b' = length b /\
    (forall j d, nth j b' d = if (i <=? j)%nat && (j <? i + n)%nat then H (v (2 * j)%nat ++ v (2 * j + 1)%nat) else nth j b d) /\
    (ps' = None <-> ps = None) /\ proofs_rel ps' (its ++ tproof v t i (i + n)).
Proof.
  induction n as [|n IH]; intros i src b t ps its v Hlen Hv Hrel; cbn [mhc_inner].
  - exists b, ps. split; [done|]. split; [done|]. split.
    { intros j d. destruct (Nat.leb_spec i j), (Nat.ltb_spec j (i + 0)); simpl; try done. lia. }
    split; [done|]. unfold tproof. destruct (0 <=? t)%Z; [|by rewrite app_nil_r].
    cbn zeta. destruct (Nat.leb_spec i (Z.to_nat t / 2)), (Nat.ltb_spec (Z.to_nat t / 2) (i + 0)); cbn [andb]; try (by rewrite app_nil_r). lia.
  - destruct (Hv (2 * i)%nat) as [L1 E1]; [lia|]. destruct (Hv (2 * i + 1)%nat) as [L2 E2]; [lia|].
    replace (S (2 * i)) with (2 * i + 1)%nat by lia. rewrite E1, E2.
    assert (exists ps', add_proof ps t (2 * i) (2 * i + 1) (v (2 * i)%nat) (v (2 * i + 1)%nat) = Some ps' /\
      (ps' = None <-> ps = None) /\ proofs_rel ps' (its ++ tproof v t i (i + 1))) as (ps1 & -> & Hn1 & Hr1).
    { unfold tproof. destruct (Z.leb_spec 0 t) as [Ht|Ht].
      - destruct (add_proof_spec ps its v (Z.to_nat t) i (v (2 * i)%nat) (v (2 * i + 1)%nat)) as (ps' & Ha & Hn & Hr); try done.
        rewrite Z2Nat.id in Ha by done. replace (S (2 * i)) with (2 * i + 1)%nat in Ha by lia.
        exists ps'. split; [done|]. split; [done|]. cbn zeta.
        destruct (Nat.eqb_spec (Z.to_nat t / 2) i), (Nat.leb_spec i (Z.to_nat t / 2)), (Nat.ltb_spec (Z.to_nat t / 2) (i + 1)); cbn [andb]; (done || lia).
      - exists ps. rewrite (add_proof_neg ps its) by done. rewrite app_nil_r. done. }
    destruct (IH (S i) src (<[i:=hash_pair H (v (2 * i)%nat) (v (2 * i + 1)%nat)]> b) t ps1 (its ++ tproof v t i (i + 1)) v)
      as (b' & ps' & -> & Hl & Hb & Hn2 & Hr2).
    + rewrite insert_length. lia.
    + intros p Hp. destruct (Hv p) as [Lp Ep]; [lia|]. split; [done|]. destruct src; [done|].
      rewrite nth_insert by lia. destruct (Nat.eqb_spec p i); [lia|done].
    + done.
    + exists b', ps'. split; [done|]. rewrite insert_length in Hl. split; [done|]. split.
      { intros j d. rewrite Hb, nth_insert by lia.
        destruct (Nat.leb_spec (S i) j), (Nat.ltb_spec j (S i + n)), (Nat.leb_spec i j), (Nat.ltb_spec j (i + S n)), (Nat.eqb_spec j i); cbn [andb]; try (done || lia).
        subst j. done. }
      split; [by rewrite Hn2|].
      rewrite <- app_assoc in Hr2.
      assert (tproof v t i (i + 1) ++ tproof v t (S i) (S i + n) = tproof v t i (i + S n)) as <-; [|done].
      unfold tproof. destruct (Z.leb_spec 0 t); [|done]. cbn zeta.
      set (k := (Z.to_nat t / 2)%nat).
      destruct (Nat.leb_spec i k), (Nat.ltb_spec k (i + 1)), (Nat.leb_spec (S i) k), (Nat.ltb_spec k (S i + n)), (Nat.ltb_spec k (i + S n)); cbn [andb app]; (done || lia).
Qed.

(** The sibling path from level k, d levels up. *)
Fixpoint path (node : nat -> nat -> list N) (k d t : nat) : list (list N * bool) :=
  match d with
  | O => []
  | S d' => sib_item (node k) t :: path node (S k) d' (t / 2)
  end.
Definition zpath node k d (t : Z) : list (list N * bool) :=
  if (0 <=? t)%Z then path node k d (Z.to_nat t) else [].

Lemma zdiv2 t : (0 <= t)%Z -> Z.to_nat (t / 2) = (Z.to_nat t / 2)%nat.
Proof. intros Ht. rewrite Z2Nat.inj_div by lia. done. Qed.

Lemma mhc_layers_spec d : forall k src b t ps its (node : nat -> nat -> list N),
  (2 ^ (d - 1) <= length b)%nat ->
  (forall k i, node (S k) i = H (node k (2 * i)%nat ++ node k (2 * i + 1)%nat)) ->
  (forall p, (p < 2 ^ d)%nat -> nth p (match src with Some l => l | None => b end) nilhash = node k p) ->
  (forall k p, length (node k p) = 32%nat) ->
  (d = 0 -> src = None)%nat ->
  ((0 <= t)%Z -> (Z.to_nat t < 2 ^ d)%nat) ->
  proofs_rel ps its ->
  exists b' t' ps', mhc_layers H d src b t ps = Some (b', t', ps') /\
    nth 0 b' nilhash = node (k + d)%nat O /\ length b' = length b /\ ((t < 0)%Z <-> (t' < 0)%Z) /\
    (ps' = None <-> ps = None) /\ proofs_rel ps' (its ++ zpath node k d t).
Proof.
  induction d as [|d IH]; intros k src b t ps its node Hlen Hnode Hp L32 Hs Ht Hrel; cbn [mhc_layers].
  - exists b, t, ps. split; [done|]. rewrite Hs in Hp by done. split; [rewrite Nat.add_0_r; apply Hp; simpl; lia|].
    split; [done|]. split; [done|]. split; [done|]. unfold zpath. cbn [path]. destruct (0 <=? t)%Z; by rewrite app_nil_r.
  - replace (S d - 1)%nat with d in Hlen by lia.
    destruct (mhc_inner_spec (2 ^ d) 0 src b t ps its (node k)) as (b' & ps' & -> & Hl & Hb & Hn1 & Hr1).
    + lia.
    + intros p Hpp. split; [apply L32|]. apply Hp. simpl. lia.
    + done.
    + destruct (IH (S k) None b' (if (0 <=? t)%Z then (t / 2)%Z else t) ps' (its ++ tproof (node k) t 0 (0 + 2 ^ d)) node)
        as (b'' & t' & ps'' & -> & E & Hne & Htt & Hn2 & Hr2).
      * rewrite Hl. etrans; [|exact Hlen]. apply Nat.pow_le_mono_r; lia.
      * done.
      * intros p Hpp. rewrite Hb. destruct (Nat.leb_spec 0 p), (Nat.ltb_spec p (0 + 2 ^ d)); cbn [andb]; try lia.
        rewrite Hnode. done.
      * done.
      * done.
      * destruct (Z.leb_spec 0 t); [|lia]. intros _. rewrite zdiv2 by done.
        apply Nat.div_lt_upper_bound; [lia|]. rewrite <- Nat.pow_succ_r'. auto.
      * done.
      * exists b'', t', ps''. split; [done|]. split; [rewrite E; f_equal; lia|].
        split; [congruence|].
        split; [rewrite <- Htt; destruct (Z.leb_spec 0 t); lia|]. split; [by rewrite Hn2|].
        rewrite <- app_assoc in Hr2.
        assert (tproof (node k) t 0 (0 + 2 ^ d) ++ zpath node (S k) d (if (0 <=? t)%Z then (t / 2)%Z else t) = zpath node k (S d) t) as <-; [|done].
        unfold tproof, zpath. destruct (Z.leb_spec 0 t) as [Ht0|]; [|destruct (Z.leb_spec 0 t); [lia|done]].
        destruct (Z.leb_spec 0 (t / 2)); [|lia]. cbn zeta. rewrite zdiv2 by done.
        assert (Z.to_nat t / 2 < 2 ^ d)%nat.
        { apply Nat.div_lt_upper_bound; [lia|]. rewrite <- Nat.pow_succ_r'. auto. }
        destruct (Nat.leb_spec 0 (Z.to_nat t / 2)), (Nat.ltb_spec (Z.to_nat t / 2) (0 + 2 ^ d)); cbn [andb]; try lia. done.
Qed.

Lemma node_len leaves : (forall x, length (H x) = 32%nat) -> Forall (fun l => length l = 32%nat) leaves ->
  forall k p, length (pnode H leaves k p) = 32%nat.
Proof.
  intros HL Hl k p. destruct k; cbn [pnode]; [|apply HL].
  rewrite nth_lookup. destruct (leaves !! p) eqn:Hp; simpl; [|apply HL].
  eapply Forall_lookup_1 in Hl; eauto.
Qed.

Lemma nth0_default {A} (l : list A) d1 d2 : (0 < length l)%nat -> nth 0 l d1 = nth 0 l d2.
Proof. destruct l; simpl; [lia|done]. Qed.

Definition final_item (t : Z) (root : list N) : list (list N * bool) :=
  if (t <? 0)%Z then [(root, false)] else [].

Lemma mhc_spec leaves t ps its :
  (forall x, length (H x) = 32%nat) -> Forall (fun l => length l = 32%nat) leaves -> leaves <> [] ->
  ((0 <= t)%Z -> (Z.to_nat t < 2 ^ mdepth (length leaves))%nat) ->
  proofs_rel ps its ->
  exists ps', merkle_hash_complete H leaves t ps = Some (proot H leaves, ps') /\
    (ps' = None <-> ps = None) /\
    proofs_rel ps' (its ++ zpath (pnode H leaves) 0 (mdepth (length leaves)) t ++ final_item t (proot H leaves)).
Proof.
  intros HL Hl Hne Ht Hrel. pose proof (node_len leaves HL Hl) as L32.
  assert (proot H leaves = pnode H leaves (mdepth (length leaves)) 0) as Hroot by (destruct leaves; done).
  assert (0 < length leaves)%nat as Hpos by (destruct leaves; simpl; [done|lia]).
  unfold merkle_hash_complete. destruct leaves as [|l0 ls] eqn:Hls; [done|]. rewrite <- Hls in *. clear Hls Hne.
  rewrite find_depth_mdepth by done.
  destruct (mhc_layers_spec (mdepth (length leaves)) 0 (Some leaves) (replicate (2 ^ (mdepth (length leaves) - 1)) []) t ps its (pnode H leaves))
    as (b' & t' & ps' & -> & E & Hlb & Htt & Hn & Hr).
  - rewrite replicate_length. lia.
  - done.
  - done.
  - done.
  - pose proof (mdepth_pos (length leaves)). lia.
  - done.
  - done.
  - rewrite replicate_length in Hlb. pose proof (pow2_pos (mdepth (length leaves) - 1)).
    rewrite (nth0_default b' [] nilhash) by lia. rewrite E, Nat.add_0_l, <- Hroot.
    destruct ps' as [p'|].
    + unfold final_item. destruct (Z.ltb_spec t' 0) as [Ht'|Ht'].
      * rewrite bytes_to_hash_id by (rewrite Hroot; apply L32).
        destruct (mp_rep_append p' _ (proot H leaves) false Hr) as (p'' & -> & Hr'').
        exists (Some p''). split; [done|]. split; [rewrite <- Hn; done|].
        destruct (Z.ltb_spec t 0); [|lia]. rewrite app_assoc. done.
      * exists (Some p'). split; [done|]. split; [done|]. destruct (Z.ltb_spec t 0); [lia|]. rewrite app_nil_r. done.
    + exists None. split; [done|]. split; [done|]. done.
Qed.

(* ------------------------------------------- climbing a sibling path *)
Lemma climb_path (node : nat -> nat -> list N) (ok : nat -> nat -> Prop) d : forall k t,
  (forall k i, ok (S k) i -> node (S k) i = H (node k (2 * i)%nat ++ node k (2 * i + 1)%nat)) ->
  (forall k i, ok k i -> ok (S k) (i / 2)%nat) -> ok k t ->
  climb H (node k t) (path node k d t) = node (k + d)%nat (t / 2 ^ d)%nat.
Proof.
  induction d as [|d IH]; intros k t Hnode Hok Hk; cbn [path].
  - cbn [climb]. rewrite Nat.add_0_r, Nat.div_1_r. done.
  - assert (climb H (node k t) (sib_item (node k) t :: path node (S k) d (t / 2)) =
            climb H (node (S k) (t / 2)%nat) (path node (S k) d (t / 2))) as ->.
    { unfold sib_item, sib. destruct (odd_cases t) as [[Ho Ht]|[Ho Ht]]; rewrite Ho; cbn [climb].
      - rewrite (Hnode k (t / 2)%nat) by auto. f_equal. f_equal. f_equal; f_equal; lia.
      - rewrite (Hnode k (t / 2)%nat) by auto. f_equal. f_equal. f_equal; f_equal; lia. }
    rewrite IH by auto. f_equal; [lia|]. rewrite Nat.div_div by (try lia; pose proof (pow2_pos d); lia). done.
Qed.

Lemma path_length node k d t : length (path node k d t) = d.
Proof. revert k t; induction d as [|d IH]; intros k t; cbn [path length]; [done|]. by rewrite IH. Qed.

Lemma path_dirs node k d t : map snd (path node k d t) = dirs d (N.of_nat t).
Proof.
  revert k t; induction d as [|d IH]; intros k t; [done|].
  cbn [path map]. unfold dirs. cbn [seq map]. f_equal.
  - unfold sib_item; cbn [snd]. rewrite N.bit0_odd. destruct (odd_cases t) as [[-> Ht]|[-> Ht]].
    + symmetry. apply N.odd_spec. exists (N.of_nat (t / 2)). lia.
    + symmetry. rewrite <- N.negb_even. apply negb_false_iff. apply N.even_spec. exists (N.of_nat (t / 2)). lia.
  - rewrite IH. unfold dirs. rewrite <- seq_shift, map_map. apply map_ext. intros j.
    replace (N.of_nat (S j)) with (N.succ (N.of_nat j)) by lia. rewrite <- N.div2_bits.
    f_equal. rewrite Nat2N.inj_div. done.
Qed.

Lemma climb_foldl h its :
  foldl (fun acc '(v, order) => hash_pair_order H order v acc) h its = climb H h its.
Proof. revert h; induction its as [|[s []] r IH]; intros h; cbn [foldl climb]; [done| |]; apply IH. Qed.

Lemma mp_proof_spec p its h : mp_rep p its -> mp_proof H p h = Some (climb H h its).
Proof. intros Hp. unfold mp_proof. rewrite (mp_rep_items p its Hp), climb_foldl. done. Qed.

(* --------------------------------------------------- MerkleHash (sparse) *)
Definition snode' (leaves : list (list N)) (k i : nat) : list N :=
  if (i <? lsize (length leaves) k)%nat then snode H leaves k i else nilhash.

Lemma snode'_step leaves k i : (i < lsize (length leaves) (S k))%nat ->
  snode' leaves (S k) i = H (snode' leaves k (2 * i) ++ snode' leaves k (2 * i + 1)).
Proof.
  intros Hi. unfold snode'. destruct (Nat.ltb_spec i (lsize (length leaves) (S k))); [|lia].
  cbn [snode lsize] in *. destruct (Nat.ltb_spec (2 * i) (lsize (length leaves) k)) as [_|Hge]; [done|].
  exfalso. assert ((lsize (length leaves) k + 1) / 2 <= i)%nat; [|lia].
  apply Nat.div_le_upper_bound; lia.
Qed.

Lemma snode'_len leaves : (forall x, length (H x) = 32%nat) -> Forall (fun l => length l = 32%nat) leaves ->
  forall k p, length (snode' leaves k p) = 32%nat.
Proof.
  intros HL Hl k p. unfold snode'. destruct (_ <? _)%nat; [|apply HL]. destruct k; cbn [snode]; [|apply HL].
  rewrite nth_lookup. destruct (leaves !! p) eqn:Hp; simpl; [|apply HL].
  eapply Forall_lookup_1 in Hl; eauto.
Qed.

Lemma lsize_le n k d : (n <= 2 ^ (k + d))%nat -> (lsize n k <= 2 ^ d)%nat.
Proof.
  revert d; induction k as [|k IH]; intros d Hn; cbn [lsize]; [done|].
  assert (lsize n k <= 2 ^ S d)%nat by (apply IH; replace (k + S d)%nat with (S k + d)%nat by lia; done).
  apply Nat.lt_succ_r, Nat.div_lt_upper_bound; [lia|]. simpl in *. lia.
Qed.
Lemma lsize_pos n k : (0 < n)%nat -> (0 < lsize n k)%nat.
Proof.
  intros Hn. induction k as [|k IH]; cbn [lsize]; [done|]. apply Nat.div_str_pos. lia.
Qed.
Lemma lsize_top n : (0 < n)%nat -> lsize n (mdepth n) = 1%nat.
Proof.
  intros Hn. pose proof (lsize_pos n (mdepth n) Hn). pose proof (lsize_le n (mdepth n) 0).
  rewrite Nat.add_0_r in *. pose proof (mdepth_bound n). simpl in *. lia.
Qed.
Lemma half_lt i len : (i < (len + 1) / 2 <-> 2 * i < len)%nat.
Proof. pose proof (Nat.div_mod (len + 1) 2). pose proof (Nat.mod_upper_bound (len + 1) 2). lia. Qed.

Lemma mh_inner_spec n : forall i0 len b t ps its (v : nat -> list N),
  (i0 + n = (len + 1) / 2)%nat -> (len <= length b)%nat ->
  (forall p, length (v p) = 32%nat) ->
  (forall p, (2 * i0 <= p < len)%nat -> nth p b [] = v p) ->
  (forall p, (len <= p)%nat -> v p = nilhash) ->
  proofs_rel ps its ->
  exists b' ps', mh_inner H n (2 * i0) len b t ps = Some (b', ps') /\ length b' = length b /\
    (forall j d, nth j b' d = if (i0 <=? j)%nat && (j <? i0 + n)%nat then H (v (2 * j)%nat ++ v (2 * j + 1)%nat) else nth j b d) /\
    (ps' = None <-> ps = None) /\ proofs_rel ps' (its ++ tproof v t i0 (i0 + n)).
Proof.
  induction n as [|n IH]; intros i src b t ps its v Hlen Hlb HL Hv Hnil Hrel; cbn [mh_inner].
  - exists b, ps. split; [done|]. split; [done|]. split.
    { intros j d. destruct (Nat.leb_spec i j), (Nat.ltb_spec j (i + 0)); simpl; try done. lia. }
    split; [done|]. unfold tproof. destruct (0 <=? t)%Z; [|by rewrite app_nil_r].
    cbn zeta. destruct (Nat.leb_spec i (Z.to_nat t / 2)), (Nat.ltb_spec (Z.to_nat t / 2) (i + 0)); cbn [andb]; try (by rewrite app_nil_r). lia.
  - assert (2 * i < src)%nat as Hi by (apply half_lt; lia).
    rewrite (Hv (2 * i)%nat) by lia. replace (S (2 * i)) with (2 * i + 1)%nat by lia.
    assert ((if (2 * i + 1 <? src)%nat then nth (2 * i + 1) b [] else nilhash) = v (2 * i + 1)%nat) as ->.
    { destruct (Nat.ltb_spec (2 * i + 1) src); [apply Hv; lia|symmetry; apply Hnil; lia]. }
    assert (exists ps', add_proof ps t (2 * i) (2 * i + 1) (v (2 * i)%nat) (v (2 * i + 1)%nat) = Some ps' /\
      (ps' = None <-> ps = None) /\ proofs_rel ps' (its ++ tproof v t i (i + 1))) as (ps1 & -> & Hn1 & Hr1).
    { unfold tproof. destruct (Z.leb_spec 0 t) as [Ht|Ht].
      - destruct (add_proof_spec ps its v (Z.to_nat t) i (v (2 * i)%nat) (v (2 * i + 1)%nat)) as (ps' & Ha & Hn & Hr); try done.
        rewrite Z2Nat.id in Ha by done. replace (S (2 * i)) with (2 * i + 1)%nat in Ha by lia.
        exists ps'. split; [done|]. split; [done|]. cbn zeta.
        destruct (Nat.eqb_spec (Z.to_nat t / 2) i), (Nat.leb_spec i (Z.to_nat t / 2)), (Nat.ltb_spec (Z.to_nat t / 2) (i + 1)); cbn [andb]; (done || lia).
      - exists ps. rewrite (add_proof_neg ps its) by done. rewrite app_nil_r. done. }
    replace ((2 * i) / 2)%nat with i by (rewrite Nat.mul_comm, Nat.div_mul; lia).
    replace (2 * i + 2)%nat with (2 * S i)%nat by lia.
    destruct (IH (S i) src (<[i:=hash_pair H (v (2 * i)%nat) (v (2 * i + 1)%nat)]> b) t ps1 (its ++ tproof v t i (i + 1)) v)
      as (b' & ps' & -> & Hl & Hb & Hn2 & Hr2).
    + lia.
    + rewrite insert_length. lia.
    + done.
    + intros p Hp. rewrite nth_insert by lia. destruct (Nat.eqb_spec p i); [lia|]. apply Hv. lia.
    + done.
    + done.
    + exists b', ps'. split; [done|]. rewrite insert_length in Hl. split; [done|]. split.
      { intros j d. rewrite Hb, nth_insert by lia.
        destruct (Nat.leb_spec (S i) j), (Nat.ltb_spec j (S i + n)), (Nat.leb_spec i j), (Nat.ltb_spec j (i + S n)), (Nat.eqb_spec j i); cbn [andb]; try (done || lia).
        subst j. done. }
      split; [by rewrite Hn2|].
      rewrite <- app_assoc in Hr2.
      assert (tproof v t i (i + 1) ++ tproof v t (S i) (S i + n) = tproof v t i (i + S n)) as <-; [|done].
      unfold tproof. destruct (Z.leb_spec 0 t); [|done]. cbn zeta.
      set (k := (Z.to_nat t / 2)%nat).
      destruct (Nat.leb_spec i k), (Nat.ltb_spec k (i + 1)), (Nat.leb_spec (S i) k), (Nat.ltb_spec k (S i + n)), (Nat.ltb_spec k (i + S n)); cbn [andb app]; (done || lia).
Qed.

Lemma mh_layers_spec leaves (HL : forall x, length (H x) = 32%nat) (Hl : Forall (fun l => length l = 32%nat) leaves) d :
  forall k b t ps its,
  (lsize (length leaves) k <= length b)%nat ->
  (forall p, (p < lsize (length leaves) k)%nat -> nth p b [] = snode' leaves k p) ->
  ((0 <= t)%Z -> (Z.to_nat t < lsize (length leaves) k)%nat) -> (0 < length leaves)%nat ->
  proofs_rel ps its ->
  exists b' ps', mh_layers H d (lsize (length leaves) k) b t ps = Some (b', ps') /\
    nth 0 b' [] = snode' leaves (k + d) O /\
    (ps' = None <-> ps = None) /\ proofs_rel ps' (its ++ zpath (snode' leaves) k d t).
Proof.
  induction d as [|d IH]; intros k b t ps its Hlen Hp Ht Hpos Hrel; cbn [mh_layers].
  - exists b, ps. split; [done|]. split; [rewrite Nat.add_0_r; apply Hp; by apply lsize_pos|].
    split; [done|]. unfold zpath. cbn [path]. destruct (0 <=? t)%Z; by rewrite app_nil_r.
  - pose proof (lsize_pos (length leaves) k Hpos) as Hkp.
    destruct (mh_inner_spec ((lsize (length leaves) k + 1) / 2) 0 (lsize (length leaves) k) b t ps its (snode' leaves k))
      as (b' & ps' & Heq & Hlb & Hb & Hn1 & Hr1).
    + lia.
    + done.
    + by apply snode'_len.
    + intros p Hpp. apply Hp. lia.
    + intros p Hpp. unfold snode'. destruct (Nat.ltb_spec p (lsize (length leaves) k)); [lia|done].
    + done.
    + rewrite Nat.mul_0_r in Heq. rewrite Heq. change ((lsize (length leaves) k + 1) / 2)%nat with (lsize (length leaves) (S k)) in *.
      destruct (IH (S k) b' (if (0 <=? t)%Z then (t / 2)%Z else t) ps' (its ++ tproof (snode' leaves k) t 0 (0 + lsize (length leaves) (S k))))
        as (b'' & ps'' & -> & E & Hn2 & Hr2).
      * rewrite Hlb. etrans; [|exact Hlen]. cbn [lsize]. apply Nat.div_le_upper_bound; lia.
      * intros p Hpp. rewrite Hb. destruct (Nat.leb_spec 0 p), (Nat.ltb_spec p (0 + lsize (length leaves) (S k))); cbn [andb]; try lia.
        rewrite snode'_step by done. done.
      * destruct (Z.leb_spec 0 t); [|lia]. intros _. rewrite zdiv2 by done. cbn [lsize]. apply half_lt.
        specialize (Ht H0). destruct (odd_cases (Z.to_nat t)) as [[_ ?]|[_ ?]]; lia.
      * done.
      * done.
      * exists b'', ps''. split; [done|]. split; [rewrite E; f_equal; lia|]. split; [by rewrite Hn2|].
        rewrite <- app_assoc in Hr2.
        assert (tproof (snode' leaves k) t 0 (0 + lsize (length leaves) (S k)) ++ zpath (snode' leaves) (S k) d (if (0 <=? t)%Z then (t / 2)%Z else t) = zpath (snode' leaves) k (S d) t) as <-; [|done].
        unfold tproof, zpath. destruct (Z.leb_spec 0 t) as [Ht0|]; [|destruct (Z.leb_spec 0 t); [lia|done]].
        destruct (Z.leb_spec 0 (t / 2)); [|lia]. cbn zeta. rewrite zdiv2 by done.
        assert (Z.to_nat t / 2 < lsize (length leaves) (S k))%nat.
        { cbn [lsize]. apply half_lt. specialize (Ht Ht0). destruct (odd_cases (Z.to_nat t)) as [[_ ?]|[_ ?]]; lia. }
        destruct (Nat.leb_spec 0 (Z.to_nat t / 2)), (Nat.ltb_spec (Z.to_nat t / 2) (0 + lsize (length leaves) (S k))); cbn [andb]; try lia. done.
Qed.

Lemma mh_spec leaves t ps its :
  (forall x, length (H x) = 32%nat) -> Forall (fun l => length l = 32%nat) leaves -> leaves <> [] ->
  ((0 <= t)%Z -> (Z.to_nat t < length leaves)%nat) ->
  proofs_rel ps its ->
  exists ps', merkle_hash H leaves t ps = Some (sroot H leaves, ps') /\
    (ps' = None <-> ps = None) /\
    proofs_rel ps' (its ++ zpath (snode' leaves) 0 (mdepth (length leaves)) t).
Proof.
  intros HL Hl Hne Ht Hrel.
  assert (0 < length leaves)%nat as Hpos by (destruct leaves; simpl; [done|lia]).
  assert (sroot H leaves = snode' leaves (mdepth (length leaves)) 0) as Hroot.
  { unfold snode'. rewrite lsize_top by done. destruct leaves; done. }
  unfold merkle_hash. destruct leaves as [|l0 ls] eqn:Hls; [done|]. rewrite <- Hls in *. clear Hls Hne.
  rewrite find_depth_mdepth by done.
  destruct (mh_layers_spec leaves HL Hl (mdepth (length leaves)) 0 leaves t ps its) as (b' & ps' & Heq & E & Hn & Hr).
  - cbn [lsize]. lia.
  - cbn [lsize]. intros p Hp. unfold snode'. cbn [lsize snode]. destruct (Nat.ltb_spec p (length leaves)); [|lia].
    apply nth_indep. done.
  - done.
  - done.
  - done.
  - cbn [lsize] in Heq. rewrite Heq, E, Nat.add_0_l, <- Hroot. exists ps'. done.
Qed.
End proofs.
