(** Calls on a restored tree. *)
From Verif Require Import Base MerkleSpec MerkleModel TrieSpec TrieModel TrieProofModel MerkleProofs MerkleTreeProofs HistSpec HistModel HistLayerProofs
  HistRepProofs HistOpProofs HistPathProofs HistCommitProofs HistRunProofs HistChopProofs HistRestoreModel HistPartProofs HistRestoreProofs HistRestoreSpec.
From stdpp Require Import gmap.
Open Scope N_scope.

Section run.
Context (E : henv) (EOK : henv_ok E).
Local Notation H := (hH E).
Local Notation nilhash := (nilhash H).
Local Notation look vs k i := (layers H k vs !! i).
Local Notation len32 := (Forall (fun v : list N => length v = 32%nat)).

(* ------------------------------------------------------------ the positions called *)
Lemma only_key vs k d j x l pos y : (l <= 3)%nat -> x < 16 -> y < 16 -> up (4 * d) k = (16 * j + N.to_nat x)%nat ->
  pos = k -> up (4 * d) pos = (16 * j + N.to_nat y)%nat ->
  is_Some (look vs (4 * d + (3 - l)) (bidx j (tog x l))) -> tog x l <> take (S l) (to_binary y 4).
Proof.
  intros Hl Hx Hy Hk -> Hu _ He. assert (y = x) as -> by lia. destruct (tog_fin x l Hx Hl) as (b & Hb & Ht & Hf).
  rewrite Ht, Hf in He. apply app_inj_tail in He as [_ He]. lia.
Qed.
Lemma from_last vs k d j x l pos y : k = (length vs - 1)%nat -> (0 < length vs)%nat -> (l <= 3)%nat -> x < 16 -> y < 16 ->
  up (4 * d) k = (16 * j + N.to_nat x)%nat -> (k <= pos)%nat -> up (4 * d) pos = (16 * j + N.to_nat y)%nat ->
  is_Some (look vs (4 * d + (3 - l)) (bidx j (tog x l))) -> tog x l <> take (S l) (to_binary y 4).
Proof.
  intros Hk Hlen Hl Hx Hy Hkx Hle Hu Hs He. pose proof (up_le (4 * d) k pos Hle) as Hxy. rewrite Hkx, Hu in Hxy.
  destruct (tog_fin x l Hx Hl) as (b & Hb & Ht & Hf).
  pose proof (bidx_take j x (S l) Hx ltac:(lia)) as Hbx. pose proof (bidx_take j y (S l) Hy ltac:(lia)) as Hby.
  pose proof (up_le (4 - S l) _ _ Hxy) as Huu. rewrite <- Hbx, <- Hby in Huu. rewrite <- He in Huu. rewrite Ht, Hf, !bidx_app in Huu. cbn [bidx] in Huu.
  assert (b = 0) as -> by lia. rewrite Hf, bidx_app in Hs. cbn [bidx] in Hs. rewrite (look_edge E vs) in Hs by done.
  rewrite <- Hk in Hs. replace (4 * d + (3 - l))%nat with ((4 - S l) + 4 * d)%nat in Hs by lia. rewrite up_add, Hkx in Hs.
  rewrite <- Hbx, Ht, bidx_app in Hs. cbn [bidx] in Hs. lia.
Qed.

(* ------------------------------------------------------------ everything is stored *)
Lemma stored_all st vs : lenN vs < two64 -> stored E st vs 15 0 -> forall e d J, (d + e = 15)%nat -> is_Some (look vs (4 * d + 4) J) -> stored E st vs d J.
Proof.
  intros Hlen Hst. induction e as [|e IH]; intros d J Hd Hs.
  - assert (d = 15%nat) as -> by lia.
    assert (0 < length vs)%nat as Hpos.
    { destruct vs; [|cbn; lia]. rewrite look_nil in Hs. by destruct Hs. }
    rewrite (look_edge E vs) in Hs by done. change (4 * 15 + 4)%nat with 64%nat in Hs. unfold lenN in Hlen.
    rewrite (up_zero 64) in Hs by (change (2 ^ N.of_nat 64) with two64; lia). by replace J with 0%nat by lia.
  - pose proof (look_up_some E vs _ _ 4 Hs) as Hs'. replace (4 + (4 * d + 4))%nat with (4 * S d + 4)%nat in Hs' by lia.
    pose proof (IH (S d) (up 4 J) ltac:(lia) Hs') as Hp. change 4%nat with (4 + 0)%nat in Hp at 1. rewrite up_4 in Hp. cbn [up] in Hp.
    pose proof (stored_kid E st vs d (J / 16) (J mod 16) ltac:(apply Nat.mod_upper_bound; lia) Hp) as Hk.
    rewrite <- (Nat.div_mod J 16) in Hk by lia. apply Hk. by replace (4 * S d)%nat with (4 * d + 4)%nat by lia.
Qed.

(* ------------------------------------------------------------ calls *)
Definition prel (A : nat -> Prop) (t t' : htree) : Prop :=
  exists n n', ht_root t = Some n /\ ht_root t' = Some n' /\ psub A 15 0 n n'.
Lemma hash_prefix_psub A d j n n' m' r : psub A d j n n' -> hash_prefix E n' [] = (m', Some r) ->
  exists m, hash_prefix E n [] = (m, Some r) /\ psub A d j m m'.
Proof.
  unfold hash_prefix. generalize hash_fuel. intros f Hs He.
  destruct (hash_psub E A f d j n n' [] m' r Hs) as (m & Hm & Hm' & _); [constructor|cbn; lia|cbn; lia|exact He|].
  exists m. split; [exact Hm|exact Hm'].
Qed.
Lemma hash_part A st' t t' vs : prel A t t' -> trep E st' t' vs ->
  exists u u', hash_value E t = (u, Some (hist_root H vs)) /\ prel A u u' /\ trep E st' u' vs /\ ht_exp u = ht_exp t.
Proof.
  intros (n & n' & Hn & Hn' & Hs) Ht. destruct (hash_ok E st' t' vs Ht) as (u' & Hh & Hu').
  unfold hash_value in *. rewrite Hn. rewrite Hn' in Hh.
  destruct (hash_prefix E n' []) as [m' r] eqn:He. destruct r as [[[o f1] f2]|]; [|discriminate Hh]. injection Hh as <- Ho.
  destruct (hash_prefix_psub A 15 0 n n' m' (o, f1, f2) Hs He) as (m & Hm & Hm'). rewrite Hm.
  exists (HTree (ht_exp t) (Some m)), (HTree (ht_exp t') (Some m')). split; [by rewrite <- Ho|].
  split; [exists m, m'; split; [reflexivity|]; split; [reflexivity|exact Hm']|]. split; [exact Hu'|reflexivity].
Qed.
Lemma get_part (A : nat -> Prop) st st' t t' vs i : prel A t t' -> (st' <> ∅ -> len32 vs) -> trep E st' t' vs -> i < two64 -> A (N.to_nat i) ->
  exists u u', get_tree E st t i = (u, hget vs i) /\ prel A u u' /\ trep E st' u' vs /\ ht_exp u = ht_exp t.
Proof.
  intros (n & n' & Hn & Hn' & Hs) Hv Ht Hi HA. destruct (get_ok E EOK st' t' vs i Hv Ht Hi) as (u' & Hh & Hu').
  unfold get_tree in *. rewrite Hn. rewrite Hn' in Hh. destruct (heightToPrefix_ok i Hi) as (Hp1 & Hp2 & Hp3).
  destruct (trace_get E EOK st' vs Hv 15 0 n' (heightToPrefix i)) as (m' & He & _); [|done|done|].
  { destruct Ht as [_ Ht]. by rewrite Hn' in Ht. }
  destruct (trace_psub E A st st' None 15 0 n n' (heightToPrefix i) m' _ (or_introl Hs) (fun _ => Hs) Hp1 Hp2 ltac:(by rewrite Hp3) He) as (m & -> & Hm).
  rewrite He in Hh. apply pair_equal_spec in Hh as [<- Hr].
  exists (HTree (ht_exp t) (Some m)), (HTree (ht_exp t') (Some m')). split; [by rewrite <- Hr|].
  split; [exists m, m'; split; [reflexivity|]; split; [reflexivity|exact Hm]|]. split; [exact Hu'|reflexivity].
Qed.
Lemma append_part (A : nat -> Prop) st st' t t' vs v : prel A t t' -> (st' <> ∅ -> len32 vs) -> trep E st' t' vs -> ht_exp t = ht_exp t' ->
  v <> [] -> lenN vs + 1 < two64 -> A (length vs) ->
  exists u u', append E st t (lenN vs) v = (u, true) /\ prel A u u' /\ trep E st' u' (vs ++ [v]) /\ ht_exp u = ht_exp u'.
Proof.
  intros (n & n' & Hn & Hn' & Hs) Hv Ht Hex Hne Hl HA. destruct (append_ok E EOK st' t' vs v Hv Ht Hne Hl) as (u' & Hh & Hu').
  unfold append in *. rewrite Hex. destruct (negb (lenN vs =? ht_exp t')); [done|]. destruct (bool_decide (v = [])); [done|].
  rewrite Hn. rewrite Hn' in Hh. cbn [default] in *. change (id n) with n. change (id n') with n' in Hh.
  destruct (heightToPrefix_ok (lenN vs) ltac:(lia)) as (Hp1 & Hp2 & Hp3).
  destruct (trace E st' n' (heightToPrefix (lenN vs)) (Some v)) as [m' [[[b w] e]|]] eqn:He; [|done].
  assert (npos 0 (heightToPrefix (lenN vs)) = length vs) as Hpos by (rewrite Hp3; unfold lenN; lia).
  destruct (trace_psub E A st st' (Some v) 15 0 n n' (heightToPrefix (lenN vs)) m' (b, w, e) (or_introl Hs) ltac:(done) Hp1 Hp2 ltac:(by rewrite Hpos) He) as (m & -> & Hm).
  apply pair_equal_spec in Hh as [Hu _]. exists (HTree (if b then (ht_exp t' + 1) mod two64 else ht_exp t') (Some m)), u'.
  split; [reflexivity|]. rewrite <- Hu in *.
  split; [exists m, m'; split; [reflexivity|]; split; [reflexivity|exact Hm]|]. split; [exact Hu'|reflexivity].
Qed.
(** The list that a tree has after a call. *)
Lemma part_run (A : nat -> Prop) (tail : bool) k st st' : (forall i, A i <-> if tail then (k <= i)%nat else i = k) ->
  forall calls t t' vs, prel A t t' -> (tail = true -> ht_exp t = ht_exp t' /\ (k <= length vs)%nat) -> trep E st' t' vs ->
  Forall (fun o => (if tail then tail_call (N.of_nat k) o else key_call (N.of_nat k) o) = true /\ hcall_key o < two64) calls ->
  Forall (fun ws => lenN ws < two64 /\ len32 ws) (hvisited (hist_root H) (map (pair 0%nat) calls) (HLogs [vs] [])) ->
  exists p, hmrun E (map (pair 0%nat) calls) (HPool st [t] []) = Some (p, (hrun (hist_root H) (map (pair 0%nat) calls) (HLogs [vs] [])).2).
Proof.
  intros HA. induction calls as [|o calls IH]; intros t t' vs Hp Hex Ht Hc Hvis; [by eexists|].
  inversion Hc as [|? ? [Ho Hk] Hc']; subst. cbn [map hvisited hl_logs] in Hvis. apply Forall_app in Hvis as [Hv1 Hvis].
  apply Forall_inv in Hv1 as [Hlen H32].
  assert (forall u u' vs1 ob, hmstep E (HPool st [t] []) (0%nat, o) = Some (HPool st [u] [], ob) ->
    hstep (hist_root H) (HLogs [vs] []) (0%nat, o) = (HLogs [vs1] [], ob) ->
    prel A u u' -> (tail = true -> ht_exp u = ht_exp u' /\ (k <= length vs1)%nat) -> trep E st' u' vs1 ->
    exists p, hmrun E ((0%nat, o) :: map (pair 0%nat) calls) (HPool st [t] []) =
      Some (p, (hrun (hist_root H) ((0%nat, o) :: map (pair 0%nat) calls) (HLogs [vs] [])).2)) as Hgo.
  { intros u u' vs1 ob H1 H2 Hu Hux Hut. rewrite H2 in Hvis. cbn [fst] in Hvis.
    destruct (IH u u' vs1 Hu Hux Hut Hc' Hvis) as (p & Hr). cbn [hmrun hrun]. rewrite H1, H2, Hr. destruct (hrun _ _ _) as [? ?]. by eexists. }
  cbn [map]. unfold hmstep, hstep in Hgo. cbn [hp_trees hl_logs hp_store hp_roots hl_saved lookup list_lookup] in Hgo.
  destruct o as [i v|i| | |i| |i| |i chk]; try (by destruct tail).
  - destruct tail; [|done]. destruct (Hex eq_refl) as [He Hkl]. pose proof Ht as [He' _].
    destruct ((i =? lenN vs) && negb (bool_decide (v = []))) eqn:Hcond.
    + apply andb_true_iff in Hcond as [Hi Hne]. apply N.eqb_eq in Hi as ->. apply negb_true_iff, bool_decide_eq_false in Hne.
      assert (lenN vs + 1 < two64) as Hl1.
      { unfold hstep in Hvis. cbn [hl_logs hl_saved lookup list_lookup] in Hvis. rewrite N.eqb_refl, bool_decide_eq_false_2 in Hvis by done.
        cbn [andb negb fst] in Hvis.
        assert (Forall (fun ws => lenN ws < two64 /\ len32 ws) [vs ++ [v]]) as Hf.
        { destruct calls; cbn [map hvisited hl_logs] in Hvis; cbn in Hvis; by (inversion Hvis; subst; constructor). }
        apply Forall_inv in Hf as [Hf _]. unfold lenN in *. rewrite app_length in Hf. cbn [length] in Hf. lia. }
      destruct (append_part A st st' t t' vs v Hp (fun _ => H32) Ht He Hne Hl1 (proj2 (HA _) Hkl)) as (u & u' & Hu & Hu1 & Hu2 & Hu3).
      rewrite Hu in Hgo. eapply Hgo; [reflexivity|reflexivity|done| |exact Hu2]. intros _. split; [done|]. rewrite app_length. lia.
    + assert (append E st t i v = (t, false)) as Hap.
      { unfold append. rewrite He, He'. destruct (N.eqb_spec i (lenN vs)); cbn [negb andb] in *; [|done].
        destruct (bool_decide (v = [])); [done|done]. }
      rewrite Hap in Hgo. eapply Hgo; [reflexivity|reflexivity|done|done|done].
  - cbn [hcall_key] in Hk. assert (A (N.to_nat i)) as HAi.
    { apply HA. destruct tail; cbn [tail_call key_call] in Ho; [apply N.leb_le in Ho; lia|apply N.eqb_eq in Ho; lia]. }
    destruct (get_part A st st' t t' vs i Hp (fun _ => H32) Ht Hk HAi) as (u & u' & Hu & Hu1 & Hu2 & Hu3).
    rewrite Hu in Hgo. eapply Hgo; [reflexivity|reflexivity|done| |exact Hu2]. intros Htl. destruct (Hex Htl) as [? ?]. split; [|done].
    destruct Ht as [Ht _]. destruct Hu2 as [Hu2 _]. congruence.
  - destruct tail; [|done]. destruct (Hex eq_refl) as [He Hkl]. pose proof Ht as [He' _]. rewrite He, He' in Hgo.
    eapply Hgo; [reflexivity|reflexivity|done|done|done].
  - destruct (hash_part A st' t t' vs Hp Ht) as (u & u' & Hu & Hu1 & Hu2 & Hu3).
    rewrite Hu in Hgo. eapply Hgo; [reflexivity|reflexivity|done| |exact Hu2]. intros Htl. destruct (Hex Htl) as [? ?]. split; [|done].
    destruct Ht as [Ht _]. destruct Hu2 as [Hu2 _]. congruence.
Qed.

(* ------------------------------------------------------------ the proof of a key *)
Lemma proof_items st t vs k v : len32 vs -> trep E st t vs -> lenN vs < two64 -> look vs 0 (N.to_nat k) = Some v -> k < two64 ->
  exists t' c, get_proof E st t k = (t', Some (v, c)) /\ chain_items c = Some (path_items E vs 0 64 (N.to_nat k)).
Proof.
  intros Hv [He Hr] Hlen Hl Hk. unfold get_proof. destruct (ht_root t) as [n|] eqn:Hn.
  2:{ subst vs. by rewrite look_nil in Hl. }
  destruct (heightToPrefix_ok k Hk) as (Hp1 & Hp2 & Hp3).
  destruct (locate_ok E EOK st vs (fun _ => Hv) 15 0 n _ Hr Hp1 ltac:(lia)) as (n1 & r & -> & Hn1 & _ & Hres).
  rewrite Hp2, Hp3 in Hres. replace (4 * (16 - 16))%nat with 0%nat in Hres by lia. rewrite Hl in Hres.
  destruct Hres as [[i ->] Hop]. cbn [Nat.eqb].
  destruct (proof_path_ok E EOK st vs Hv (heightToPrefix k) 15 0 n1 mp_new [] ltac:(lia) Hp1 Hp2 Hop) as (n2 & mp & -> & Hn2 & Hmp);
    [rewrite Hp3; eauto|apply MerkleProofs.mp_rep_new|].
  rewrite Hp3 in Hmp. change (4 * 16)%nat with 64%nat in Hmp. cbn [app] in Hmp.
  eexists. eexists. split; [reflexivity|]. unfold chain_items, merkle_only. cbn [np_type np_child].
  change (IsProofMerkleOnly ProofMerkleOnly) with true. cbn [mpo_items]. rewrite (mp_rep_items _ _ Hmp). by rewrite app_nil_r.
Qed.

Section db.
Context (good : list (list N) -> Prop).
Context (G32 : forall vs, good vs -> len32 vs).
Context (Glen : forall vs, good vs -> lenN vs < two64).
Context (Ginj : forall vs vs' x y, good vs -> good vs' -> x ∈ hist_inputs H vs -> y ∈ hist_inputs H vs' -> H x = H y -> x = y).
Context (Gval : forall vs vs' v x, good vs -> good vs' -> v ∈ vs -> x ∈ hist_inputs H vs' -> v <> H x).

Lemma restore_ok st t vs k v st2 : good vs -> trep E st t vs -> hget vs k = Some v ->
  exists t' c r, get_proof E st t k = (t', Some (v, c)) /\ restore_tree E st2 k v c = Some r /\ ht_exp r = k + 1 /\
    forall tail : bool, (tail = true -> lenN vs = k + 1) ->
      exists st' r', prel (fun i => if tail then (N.to_nat k <= i)%nat else i = N.to_nat k) r r' /\ trep E st' r' vs.
Proof.
  intros Hg Ht Hk. pose proof (G32 _ Hg) as H32. pose proof (Glen _ Hg) as Hlen. pose proof Ht as [_ Hr].
  assert (k < lenN vs) as Hkl. { unfold hget in Hk. destruct (N.ltb_spec k (lenN vs)); [done|done]. }
  assert (look vs 0 (N.to_nat k) = Some v) as Hl by (by rewrite <- hget_look).
  destruct (proof_items st t vs k v H32 Ht Hlen Hl ltac:(lia)) as (t' & c & Hpr & Hit).
  assert (length v = 32%nat) as Hv32 by (eapply look_len; [apply (hok_H _ EOK)|exact H32|exact Hl]).
  destruct (commit_tree_ok E EOK good G32 Glen Ginj Gval st t vs Hg Ht) as (st' & t1 & _ & _ & _ & Hsv).
  destruct Hsv as [->|Hst]; [by rewrite look_nil in Hl|].
  destruct (heightToPrefix_ok k ltac:(lia)) as (Hp1 & Hp2 & Hp3).
  assert (forall l i h, (l <= 64)%nat -> look vs l i = Some h -> h <> nilhash) as Hnil.
  { intros l i h Hl64 Hh. by eapply (look_ne_nil E EOK good G32 Ginj Gval vs l i). }
  assert (map (fun it : list N * bool => bytes_to_hash it.1) (path_items E vs 0 64 (N.to_nat k)) = map fst (path_items E vs 0 64 (N.to_nat k))) as Hmap.
  { assert (forall c l i, map (fun it : list N * bool => bytes_to_hash it.1) (path_items E vs l c i) = map fst (path_items E vs l c i)) as Hg'; [|apply Hg'].
    assert (forall l i, bytes_to_hash (default nilhash (look vs l i)) = default nilhash (look vs l i)) as Hb.
    { intros l i. apply bytes_to_hash_id. destruct (look vs l i) eqn:Hx; cbn [default]; [|apply (hok_H _ EOK)].
      eapply look_len; [apply (hok_H _ EOK)|exact H32|exact Hx]. }
    induction c0 as [|c0 IH]; intros l i; cbn [path_items map]; [done|]. rewrite IH. f_equal. destruct (Nat.odd i); cbn [fst]; apply Hb. }
  assert (exists r, restore_nodes E st2 (reverse (heightToPrefix k)) v None (map fst (path_items E vs 0 64 (N.to_nat k))) = Some r /\
    forall tail : bool, (tail = true -> lenN vs = k + 1) ->
      exists n', psub (fun i => if tail then (N.to_nat k <= i)%nat else i = N.to_nat k) 15 0 r n' /\ rep E st' vs 15 0 n') as (n & Hn & Hfull).
  { assert (forall tail : bool, (tail = true -> lenN vs = k + 1) -> exists n n',
      restore_nodes E st2 (reverse (heightToPrefix k)) v None (map fst (path_items E vs 0 64 (N.to_nat k))) = Some n /\
      psub (fun i => if tail then (N.to_nat k <= i)%nat else i = N.to_nat k) 15 0 n n' /\ rep E st' vs 15 0 n') as Hall.
    { intros tail Htl. eapply (restore_all E EOK _ st' vs (N.to_nat k) Hnil); [| |exact Hp1|exact Hp2|exact Hp3|exact Hl|exact Hv32].
      - intros d j x l pos y _ Hl3 Hx Hy Hu HA Hu2 Hs. destruct tail.
        + specialize (Htl eq_refl). unfold lenN in *. apply (from_last vs (N.to_nat k) d j x l pos y); try done; lia.
        + apply (only_key vs (N.to_nat k) d j x l pos y); try done.
      - intros d j Hd Hs. eapply (stored_all st' vs Hlen Hst (15 - d)); [lia|done]. }
    destruct (Hall false ltac:(done)) as (n & _ & Hn & _). exists n. split; [done|]. intros tail Htl.
    destruct (Hall tail Htl) as (n1 & n' & Hn1 & ?). rewrite Hn in Hn1. injection Hn1 as <-. eauto. }
  exists t', c, (HTree ((k + 1) mod two64) (Some n)). split; [done|]. split.
  { unfold restore_tree. rewrite Hv32, Hit. cbn [Nat.eqb negb]. rewrite path_items_len. cbn [Nat.ltb Nat.leb]. rewrite Hmap, Hn. done. }
  split; [cbn [ht_exp]; rewrite N.mod_small by lia; done|]. intros tail Htl. destruct (Hfull tail Htl) as (n' & Hs & Hrep).
  exists st', (HTree (lenN vs) (Some n')). split; [exists n, n'; done|]. done.
Qed.
End db.
End run.
