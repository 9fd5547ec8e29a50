(** RevertableTrie refines maps with checkpoints. *)
From Verif Require Export MerkleModel RevertSpec RevertModel TrieRunProofs TrieProps.

Section revert.
Context {V : Type} (E : env V) (HE : env_ok E).
Local Notation root := (root_of (eH E) (ertl E) (evhash E)).
Context (K : list N -> Prop) (HK : prefix_free K).
Context (HKb : forall k, K k -> is_bytes k) (HKl : forall k, K k -> (length k <= 48)%nat).
Context (L : list (gmap (list N) V)) (HL : forall m, m ∈ L -> dom_in K m).
Context (Hinj : inj_on (eH E) (concat (map (root_inputs (eH E) (ertl E) (evhash E)) (∅ :: L)))).
Context (vals : list V) (Hvals : forall m k x, m ∈ L -> m !! k = Some x -> x ∈ vals) (Hvinj : vinj E vals).
Local Notation store_ok := (store_ok E (QL L)).

Definition okt st (t : @trie V) m : Prop := nrep E st (t_root t) m.
Lemma okt_mono st st' t m : st_le st st' -> okt st t m -> okt st' t m.
Proof. apply nrep_mono. Qed.

Record rinv (r : rtrie) (s : rmap V) : Prop := RInv {
  ri_store : store_ok (rt_store r);
  ri_origin : exists t, rt_origin r = Some t /\ okt (rt_store r) t (a_origin s);
  ri_live : match rt_live r, a_live s with
            | Some t, Some m => okt (rt_store r) t m /\ Forall (kept E (rt_store r)) (a_chk s)
            | None, None => Forall (fun m => m = a_origin s) (a_chk s)
            | _, _ => False end;
  ri_chk : rt_chk r = map root (a_chk s);
}.

Lemma root_len m : length (root m) = 32%nat.
Proof. unfold root_of. apply rhash_len, HE. Qed.
Lemma bth32 h : length h = 32%nat -> bytes_to_hash h = h.
Proof. intros Hl. unfold bytes_to_hash. rewrite Hl, Nat.sub_diag, drop_0, Hl. done. Qed.

Lemma Put_okt st t m k v : okt st t m -> m ∈ L -> K k -> exists t', Put E st t k (Some v) = Some (t', true) /\ okt st t' (<[k := v]> m).
Proof.
  intros Hn Hm HKk. unfold Put. destruct (put_nrep E HE K HK HKb st (t_gen t) (t_root t) m k v Hn (HL m Hm) HKk) as (n'&->&Hn'&_). by eexists.
Qed.
Lemma Delete_okt st t m k : okt st t m -> m ∈ L -> K k ->
  exists t', TrieModel.Delete E st t k = Some (t', bool_decide (is_Some (m !! k)), m !! k) /\ okt st t' (delete k m).
Proof.
  intros Hn Hm HKk. destruct (delete_nrep E HE K HK HKb st (t_root t) m k t Hn (HL m Hm) HKk eq_refl) as (t'&->&Hn'&_). by eexists.
Qed.
Lemma Get_okt st t m k : okt st t m -> m ∈ L -> K k -> exists t', Get E st t k = (t', m !! k) /\ okt st t' m.
Proof.
  intros Hn Hm HKk. unfold Get. destruct (get_nrep E HE K HK HKb st (t_gen t) (t_root t) m k Hn (HL m Hm) HKk) as (n'&tr&->&Hn'). by eexists.
Qed.
Lemma Hash_okt st t m : okt st t m -> m ∈ L -> exists t', HashValue E t = (t', root m) /\ okt st t' m.
Proof.
  intros Hn Hm. unfold HashValue. destruct (hash_nrep E HE K HK HKb HKl L HL Hinj vals Hvals Hvinj st (t_root t) m Hn Hm) as (n'&->&Hn'). by eexists.
Qed.
Lemma Commit_okt st t m : okt st t m -> m ∈ L -> store_ok st ->
  exists st' t', Commit E st t = (st', t', true) /\ st_le st st' /\ store_ok st' /\ okt st' t' m /\ kept E st' m.
Proof.
  intros Hn Hm Hst. unfold Commit.
  destruct (commit_nrep E HE K HK HKb HKl L HL Hinj vals Hvals Hvinj st (t_gen t) (t_root t) m Hn Hm Hst) as (st'&n'&->&Hle&Hok'&Hn'&Hkept&_).
  do 2 eexists. split; [done|]. done.
Qed.
Lemma Clone_okt st t m : okt st t m -> m ∈ L -> store_ok st ->
  exists st' t' c, Clone E st t = (st', t', c) /\ st_le st st' /\ store_ok st' /\ okt st' t' m /\ okt st' c m /\ kept E st' m.
Proof.
  intros Hn Hm Hst. unfold Clone. destruct (Commit_okt st t m Hn Hm Hst) as (st'&t1&->&Hle&Hok&Hn1&Hk).
  destruct (Hash_okt st' t1 m Hn1 Hm) as (t2&->&Hn2). do 3 eexists. split; [done|]. split; [done|]. split; [done|]. split; [done|].
  split; [|done]. by apply open_nrep.
Qed.

Lemma checkLive_spec r s : rinv r s -> (forall m, m ∈ amaps s -> m ∈ L) ->
  exists r', checkLive E r = (r', true) /\ rinv r' (RMap (a_origin s) (Some (current s)) (a_chk s)).
Proof.
  intros [Hst (t&Ht&Hn) Hl Hc] HinL. unfold checkLive. unfold current. destruct (rt_live r) as [lt|] eqn:Hrl, (a_live s) as [m|] eqn:Hal; try done.
  - eexists. split; [done|]. split; cbn; [done|by exists t|by rewrite Hrl|done].
  - rewrite Ht. destruct (Clone_okt _ _ _ Hn) as (st'&t'&c&->&Hle&Hok&H1&H2&Hk); [apply HinL; by left|done|].
    eexists. split; [done|]. cbn [default]. split; cbn [rt_store rt_origin rt_live rt_chk a_origin a_live a_chk]; [done|by exists c| |done].
    split; [done|]. eapply Forall_impl; [done|]. by intros ? ->.
Qed.

Lemma rstep_spec r s c : rinv r s -> (forall k, k ∈ rcall_keys c -> K k) ->
  (forall m, m ∈ amaps s -> m ∈ L) -> (forall i h, c = RRevert i h -> h = [] \/ length h = 32%nat) ->
  exists r', rstep E r c = Some (r', (astep root s c).2) /\ rinv r' (astep root s c).1.
Proof.
  intros Hr Hk HinL H32.
  assert (HoL : a_origin s ∈ L) by (apply HinL; by left).
  assert (HcL : current s ∈ L) by (apply HinL; right; by left).
  pose proof Hr as [Hst (t&Ht&Hn) Hl Hc].
  assert (Hset : forall t', okt (rt_store r) t' (a_origin s) -> rinv (set_origin r t') s).
  { intros t' Ht'. split; [done|by exists t'|done|done]. }
  assert (HHash : exists r', rt_HashValue E r = (r', root (a_origin s)) /\ rinv r' s /\ rt_live r' = rt_live r /\ rt_chk r' = rt_chk r).
  { unfold rt_HashValue. rewrite Ht. destruct (Hash_okt _ _ _ Hn HoL) as (t'&->&Hn'). eexists. split; [done|]. split; [by apply Hset|done]. }
  assert (HGet : forall k, K k -> exists r', rt_Get E r k = (r', a_origin s !! k) /\ rinv r' s).
  { intros k HKk. unfold rt_Get. rewrite Ht. destruct (Get_okt _ _ _ k Hn HoL HKk) as (t'&->&Hn'). eexists. split; [done|]. by apply Hset. }
  assert (HPre : exists r', preCommit E r = (r', Some (root (current s))) /\ rinv r' s /\
             Forall (fun m => match a_live s with Some _ => kept E (rt_store r') m | None => m = a_origin s end) (a_chk s ++ [current s])).
  { unfold preCommit, current. destruct (rt_live r) as [lt|] eqn:Hrl, (a_live s) as [m|] eqn:Hal; try done; cbn [default].
    - destruct Hl as [Hn' Hkept]. unfold current in HcL. rewrite Hal in HcL. cbn in HcL.
      destruct (Commit_okt _ _ _ Hn' HcL Hst) as (st'&t1&->&Hle&Hok&Hn1&Hk1). destruct (Hash_okt _ _ _ Hn1 HcL) as (t2&->&Hn2).
      eexists. split; [done|]. assert (Hkept' : Forall (kept E st') (a_chk s)) by (eapply Forall_impl; [done|]; intros; by eapply kept_mono).
      split.
      + split; cbn [rt_store rt_origin rt_live rt_chk]; [done|exists t; split; [done|by eapply okt_mono]| |done]. by rewrite Hal.
      + cbn [rt_store]. apply Forall_app. split; [done|]. by constructor.
    - destruct HHash as (r'&->&Hr'&_&_). eexists. split; [done|]. split; [done|]. apply Forall_app. split; [done|]. by constructor. }
  assert (HCommit : exists r', rt_Commit E r = Some (r', true) /\ rinv r' (RMap (current s) None [])).
  { unfold rt_Commit, prepareCommit. cbn [rt_origin rt_store rt_live rt_chk].
    assert (exists t0, match rt_live r with Some t => Some t | None => rt_origin r end = Some t0 /\ okt (rt_store r) t0 (current s)) as (t0&->&Hn0).
    { unfold current. destruct (rt_live r) as [lt|] eqn:Hrl, (a_live s) as [m|] eqn:Hal; try done; [|by exists t]. exists lt. by destruct Hl. }
    destruct (Commit_okt _ _ _ Hn0 HcL Hst) as (st'&t1&->&Hle&Hok&Hn1&Hk1). eexists. split; [done|].
    split; cbn; [done|by exists t1|constructor|done]. }
  destruct c as [k v|k|k|k| | | | | |i h| | | |]; cbn [rstep astep snd fst].
  - unfold rt_Put. destruct (checkLive_spec r s Hr HinL) as (r'&->&[Hst' (t'&Ht'&Hn') Hl' Hc']). cbn [a_live] in *.
    destruct (rt_live r') as [lt|] eqn:Hrl; [|done]. destruct Hl' as [Hnl Hkept].
    destruct (Put_okt _ _ _ k v Hnl HcL) as (t2&->&Hn2); [apply Hk; set_solver|]. eexists. split; [done|].
    split; cbn [set_live rt_store rt_origin rt_live rt_chk a_origin a_live a_chk]; [done|by exists t'|done|done].
  - unfold rt_Delete. destruct (checkLive_spec r s Hr HinL) as (r'&->&[Hst' (t'&Ht'&Hn') Hl' Hc']). cbn [a_live] in *.
    destruct (rt_live r') as [lt|] eqn:Hrl; [|done]. destruct Hl' as [Hnl Hkept].
    destruct (Delete_okt _ _ _ k Hnl HcL) as (t2&->&Hn2); [apply Hk; set_solver|]. eexists. split; [done|].
    split; cbn [set_live rt_store rt_origin rt_live rt_chk a_origin a_live a_chk]; [done|by exists t'|done|done].
  - destruct (HGet k) as (r'&->&?); [apply Hk; set_solver|]. by eexists.
  - unfold rt_GetLive, current in *. destruct (rt_live r) as [lt|] eqn:Hrl, (a_live s) as [m|] eqn:Hal; try done; cbn [default] in *.
    + destruct Hl as [Hnl Hkept]. destruct (Get_okt _ _ _ k Hnl HcL) as (t2&->&Hn2); [apply Hk; set_solver|]. eexists. split; [done|].
      split; cbn [set_live rt_store rt_origin rt_live rt_chk]; [done|by exists t|by rewrite Hal|done].
    + destruct (HGet k) as (r'&->&?); [apply Hk; set_solver|]. by eexists.
  - destruct HHash as (r'&->&?&_). by eexists.
  - unfold rt_PreHashValue, current in *. destruct (rt_live r) as [lt|] eqn:Hrl, (a_live s) as [m|] eqn:Hal; try done; cbn [default] in *.
    + destruct Hl as [Hnl Hkept]. destruct (Hash_okt _ _ _ Hnl HcL) as (t2&->&Hn2). eexists. split; [done|].
      split; cbn [set_live rt_store rt_origin rt_live rt_chk]; [done|by exists t|by rewrite Hal|done].
    + rewrite Ht. destruct HHash as (r'&->&?&_). by eexists.
  - destruct HPre as (r'&->&?&_). by eexists.
  - eexists. split; [|done]. unfold rt_IsDirty. destruct (rt_live r) as [lt|], (a_live s) as [m|]; try done.
  - unfold rt_CheckPoint. destruct HPre as (r'&->&[Hst' (t'&Ht'&Hn') Hl' Hc']&Hall). rewrite bth32 by apply root_len. rewrite Hc', app_length, map_length.
    replace (Z.of_nat (length (a_chk s) + length [root (current s)]) - 1)%Z with (Z.of_nat (length (a_chk s))) by (cbn; lia).
    eexists. split; [done|]. split; cbn [rt_store rt_origin rt_live rt_chk a_origin a_live a_chk]; [done|by exists t'| |by rewrite map_app].
    destruct (rt_live r') as [lt|], (a_live s) as [m|]; try done. split; [by destruct Hl'|done].
  - unfold rt_RevertTo. assert (Hz : (lenN h =? 0) = bool_decide (h = [])).
    { destruct h; [by rewrite bool_decide_eq_true_2|]. rewrite bool_decide_eq_false_2 by done. apply N.eqb_neq. unfold lenN. cbn [length]. lia. }
    rewrite Hz. destruct ((i <? 0)%Z || bool_decide (h = [])) eqn:Hbad; [by eexists|].
    apply orb_false_iff in Hbad as [Hi Hh]. apply Z.ltb_ge in Hi. apply bool_decide_eq_false in Hh.
    destruct (H32 i h eq_refl) as [?|Hlh]; [done|]. rewrite Hc, map_length.
    destruct (a_chk s !! Z.to_nat i) as [m|] eqn:Hm.
    + assert (Hlt : (Z.to_nat i < length (a_chk s))%nat) by (by eapply lookup_lt_Some). rewrite (proj2 (Z.leb_gt _ _)) by lia.
      rewrite bth32 by done. assert (nth (Z.to_nat i) (map root (a_chk s)) [] = root m) as ->.
      { apply nth_lookup_Some. by rewrite list_lookup_fmap, Hm. }
      destruct (decide (h = root m)) as [->|Hne]; [rewrite bool_decide_eq_true_2 by done|rewrite bool_decide_eq_false_2 by done; by eexists].
      cbn [negb]. rewrite firstn_map. destruct (Z.eqb_spec i 0) as [->|Hi0].
      * cbn [Z.to_nat take map]. eexists. split; [done|]. split; cbn; [done|by exists t|constructor|done].
      * assert (Hmap : exists x y, map root (take (Z.to_nat i) (a_chk s)) = x :: y).
        { destruct (a_chk s) as [|m0 l]; [cbn in Hlt; lia|]. destruct (Z.to_nat i) eqn:Hzi; [lia|]. cbn. eauto. }
        destruct Hmap as (x&y&Hxy). rewrite Hxy. eexists. split; [done|]. cbn [fst].
        split; cbn [rt_store rt_origin rt_live rt_chk a_origin a_live a_chk]; [done|by exists t| |by rewrite Hxy].
        destruct (rt_live r) as [lt|], (a_live s) as [m1|]; try done; cbn [option_map].
        -- destruct Hl as [_ Hkept]. split; [|by apply Forall_take]. unfold okt, Inherit. cbn [t_root]. apply open_nrep; try done.
           rewrite Forall_forall in Hkept. apply Hkept. by eapply elem_of_list_lookup_2.
        -- by apply Forall_take.
    + apply lookup_ge_None in Hm. rewrite (proj2 (Z.leb_le _ _)) by lia. by eexists.
  - eexists. split; [done|]. split; cbn; [done|by exists t|constructor|done].
  - destruct HCommit as (r'&->&?). by eexists.
  - unfold rt_CommitAndHash. destruct HCommit as (r'&->&[Hst' (t'&Ht'&Hn') Hl' Hc']). cbn [a_origin] in *. unfold rt_HashValue. rewrite Ht'.
    destruct (Hash_okt _ _ _ Hn' HcL) as (t2&->&Hn2). eexists. split; [done|]. split; cbn; [done|by exists t2|done|done].
  - unfold rt_Copy. rewrite Ht. destruct (Clone_okt _ _ _ Hn HoL Hst) as (st'&t'&c&->&Hle&Hok&H1&H2&Hk').
    eexists. split; [done|]. split; cbn; [done|by exists c|constructor|done].
Qed.

Lemma rrun_spec cs : forall r s, rinv r s -> (forall c k, c ∈ cs -> k ∈ rcall_keys c -> K k) ->
  (forall m, m ∈ avisited root cs s -> m ∈ L) -> (forall i h, RRevert i h ∈ cs -> h = [] \/ length h = 32%nat) ->
  exists r', rrun E cs r = Some (r', (arun root cs s).2) /\ rinv r' (arun root cs s).1.
Proof.
  induction cs as [|c cs IH]; intros r s Hr Hk HinL H32; [by exists r|]. cbn [rrun arun avisited] in *.
  destruct (rstep_spec r s c Hr) as (r1&->&Hr1).
  - intros k. apply Hk. by left.
  - intros m Hm. apply HinL, elem_of_app. by left.
  - intros i h ->. apply (H32 i h). by left.
  - destruct (astep root s c) as [s1 o]. cbn [fst snd] in *. destruct (IH r1 s1 Hr1) as (r2&->&Hr2).
    + intros c' k Hc'. apply Hk. by right.
    + intros m Hm. apply HinL, elem_of_app. by right.
    + intros i h Hi. apply (H32 i h). by right.
    + destruct (arun root cs s1) as [s2 os]. by eexists.
Qed.
End revert.
