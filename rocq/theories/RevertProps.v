(** C21: checkpoints of RevertableTrie. *)
From Verif Require Import RevertProofs ToyHash.

(** The hypotheses on a history: keys of at most 48 bytes that are not prefixes
    of each other, root arguments of RevertTo that are empty or 32 bytes long, no
    hash collision among the strings hashed for the contents on the way, and
    different values have different hashes. *)
Record revert_ok {V} (E : env V) (K : list N -> Prop) (cs : list (rcall V)) : Prop := RevertOk {
  vo_env : env_ok E;
  vo_pf : prefix_free K;
  vo_key : forall k, K k -> is_bytes k /\ (length k <= 48)%nat;
  vo_keys : forall c k, c ∈ cs -> k ∈ rcall_keys c -> K k;
  vo_roots : forall i h, RRevert i h ∈ cs -> h = [] \/ length h = 32%nat;
  vo_inj : inj_on (eH E) (concat (map (root_inputs (eH E) (ertl E) (evhash E))
             (∅ :: avisited (root_of (eH E) (ertl E) (evhash E)) cs amap0)));
  vo_vinj : forall x y, x ∈ concat (map rcall_vals cs) -> y ∈ concat (map rcall_vals cs) -> evhash E x = evhash E y -> x = y;
}.

Section visited.
Context {V : Type} (root : gmap (list N) V -> list N).
Lemma avisited_all (P : gmap (list N) V -> Prop) cs : forall s, (forall m, m ∈ amaps s -> P m) ->
  (forall k v m, RPut k v ∈ cs -> P m -> P (<[k := v]> m)) -> (forall k m, RDel k ∈ cs -> P m -> P (delete k m)) ->
  forall m, m ∈ avisited root cs s -> P m.
Proof.
  induction cs as [|c cs IH]; intros s Hs Hp Hd m; cbn [avisited]; rewrite elem_of_app.
  - intros [?|Hx]; [by apply Hs|by apply elem_of_nil in Hx].
  - intros [?|Hx]; [by apply Hs|]. revert m Hx. apply IH; [|intros; apply Hp; [by right|done]|intros; apply Hd; [by right|done]].
    assert (Ho : P (a_origin s)) by (apply Hs; by left). assert (Hc : P (current s)) by (apply Hs; right; by left).
    assert (Hchk : forall m, m ∈ a_chk s -> P m) by (intros; apply Hs; by do 2 right).
    assert (Hgo : forall o c chk m, P o -> P c -> (forall m, m ∈ chk -> P m) -> m ∈ o :: c :: chk -> P m).
    { intros o c0 chk m ? ? ?. rewrite !elem_of_cons. intros [->|[->|?]]; auto. }
    intros m. unfold amaps.
    destruct c as [k v|k|k|k| | | | | |i h| | | |]; cbn [astep fst a_origin a_live a_chk current default]; try (by apply Hs); try (apply Hgo; done).
    + apply Hgo; [done|apply Hp; [by left|done]|done].
    + apply Hgo; [done|apply Hd; [by left|done]|done].
    + apply Hgo; [done..|]. intros m'. rewrite elem_of_app, elem_of_list_singleton. intros [?| ->]; auto.
    + destruct (_ || _); [by apply Hs|]. destruct (a_chk s !! Z.to_nat i) as [m1|] eqn:Hm1; [|by apply Hs].
      destruct (decide _); [|by apply Hs]. cbn [fst a_origin a_live a_chk current]. apply Hgo; [done| |].
      * destruct (i =? 0)%Z; [done|]. destruct (a_live s); [|done]. cbn. apply Hchk. by eapply elem_of_list_lookup_2.
      * intros m' Hm'. apply Hchk. by eapply elem_of_take in Hm' as (?&?%elem_of_list_lookup_2&_).
    + apply Hgo; [done..|]. intros m' Hx. by apply elem_of_nil in Hx.
    + apply Hgo; [done..|]. intros m' Hx. by apply elem_of_nil in Hx.
    + apply Hgo; [done..|]. intros m' Hx. by apply elem_of_nil in Hx.
    + apply Hgo; [done..|]. intros m' Hx. by apply elem_of_nil in Hx.
Qed.
Lemma arun_app cs1 cs2 s : arun root (cs1 ++ cs2) s =
  ((arun root cs2 (arun root cs1 s).1).1, (arun root cs1 s).2 ++ (arun root cs2 (arun root cs1 s).1).2).
Proof.
  revert s. induction cs1 as [|c cs1 IH]; intros s; cbn [app arun].
  - cbn [fst snd app]. by destruct (arun root cs2 s).
  - destruct (astep root s c) as [s1 o]. rewrite IH. by destruct (arun root cs1 s1).
Qed.
End visited.

(** Every history of calls on a RevertableTrie answers as the map with
    checkpoints does. *)
Theorem C21_refines : forall V (E : env V) K cs, revert_ok E K cs ->
  exists r, rrun E cs rtrie0 = Some (r, (arun (root_of (eH E) (ertl E) (evhash E)) cs amap0).2).
Proof.
  intros V E K cs [HE HK HKp Hkeys H32 Hinj Hv]. set (root := root_of _ _ _) in *.
  set (P := fun m : gmap (list N) V => dom_in K m /\ forall k x, m !! k = Some x -> x ∈ concat (map rcall_vals cs)).
  assert (HP : forall m, m ∈ avisited root cs amap0 -> P m).
  { apply avisited_all.
    - intros m Hm. assert (m = ∅) as -> by (cbn in Hm; set_solver). split; intros k x Hx; by rewrite lookup_empty in Hx.
    - intros k v m Hin [Hd Hx]. split.
      + intros k' x. rewrite lookup_insert_Some. intros [[<- _]|[_ Hk']]; [|by eapply Hd].
        assert (K k) as HKk by (eapply Hkeys; [done|cbn; set_solver]). split; [done|by apply HKp].
      + intros k' x. rewrite lookup_insert_Some. intros [[_ <-]|[_ Hk']]; [|by eapply Hx].
        apply elem_of_list_In, in_concat. exists [v]. split; [|by left]. apply in_map_iff. exists (RPut k v). split; [done|]. by apply elem_of_list_In.
    - intros k m Hin [Hd Hx]. split; intros k' x; rewrite lookup_delete_Some; intros [_ Hk']; [by eapply Hd|by eapply Hx]. }
  destruct (rrun_spec E HE K HK (fun k Hk => proj1 (HKp k Hk)) (fun k Hk => proj2 (HKp k Hk)) _
     (fun m Hm => proj1 (HP m Hm)) Hinj _ (fun m k x Hm => proj2 (HP m Hm) k x) Hv cs rtrie0 amap0) as (r&Hr&_); [|done|done|done|by exists r].
  split; cbn; [split; [done..|done]| |constructor|done]. exists (NewTrie None). split; [done|]. left. split; [done|]. constructor. by left.
Qed.
Print Assumptions C21_refines.

(** In the map with checkpoints: CheckPoint, then calls that leave that
    checkpoint in place, then RevertTo with the number and root it returned. The
    state is as before the checkpoint, if there were uncommitted changes then and
    an earlier checkpoint. *)
Section restore.
Context {V : Type} (root : gmap (list N) V -> list N).
Implicit Types s : rmap V.
Lemma keeps_step i s c rest m : keeps_checkpoint i c -> a_chk s = take (Z.to_nat i) (a_chk s) ++ m :: rest -> (0 <= i)%Z ->
  (Z.to_nat i <= length (a_chk s))%nat ->
  let s' := (astep root s c).1 in
  a_origin s' = a_origin s /\ (is_Some (a_live s) -> (0 <= i)%Z -> is_Some (a_live s')) /\
  exists rest', a_chk s' = take (Z.to_nat i) (a_chk s) ++ m :: rest'.
Proof.
  intros Hk Hc Hi Hlen s'. unfold s'.
  destruct c as [k v|k|k|k| | | | | |i' h| | | |]; cbn [keeps_checkpoint] in Hk; try done; cbn [astep fst a_origin a_live a_chk];
    try (split; [done|]; split; [done|]; by exists rest); try (split; [done|]; split; [by eexists|]; by exists rest).
  - split; [done|]. split; [done|]. exists (rest ++ [current s]). rewrite Hc at 1. rewrite <- app_assoc. done.
  - destruct (_ || _) eqn:Hb; [split; [done|]; split; [done|]; by exists rest|].
    destruct (a_chk s !! Z.to_nat i') as [m1|] eqn:Hm1; [|split; [done|]; split; [done|]; by exists rest].
    destruct (decide _); [|split; [done|]; split; [done|]; by exists rest]. cbn [fst a_origin a_live a_chk].
    split; [done|]. split.
    + intros [x Hx] _. rewrite (proj2 (Z.eqb_neq i' 0)) by lia. rewrite Hx. by eexists.
    + assert (Ht : exists rest', take (Z.to_nat i') (take (Z.to_nat i) (a_chk s) ++ m :: rest) = take (Z.to_nat i) (a_chk s) ++ m :: rest'); [|by rewrite <- Hc in Ht].
      rewrite take_app_ge by (rewrite take_length; lia). rewrite take_length, Nat.min_l by done.
      destruct (Z.to_nat i' - Z.to_nat i)%nat eqn:Hd; [lia|]. cbn [take]. eauto.
Qed.
Lemma keeps_run cs : forall s i rest m, Forall (keeps_checkpoint i) cs -> a_chk s = take (Z.to_nat i) (a_chk s) ++ m :: rest -> (0 <= i)%Z ->
  (Z.to_nat i <= length (a_chk s))%nat ->
  let s' := (arun root cs s).1 in
  a_origin s' = a_origin s /\ (is_Some (a_live s) -> is_Some (a_live s')) /\
  exists rest', a_chk s' = take (Z.to_nat i) (a_chk s) ++ m :: rest'.
Proof.
  induction cs as [|c cs IH]; intros s i rest m Hk Hc Hi Hlen; cbn [arun fst].
  - split; [done|]. split; [done|]. by exists rest.
  - apply Forall_cons in Hk as [Hk Hks]. destruct (keeps_step i s c rest m Hk Hc Hi Hlen) as (Ho&Hl&rest'&Hc').
    destruct (astep root s c) as [s1 o]. cbn [fst] in *.
    assert (Ht : take (Z.to_nat i) (a_chk s1) = take (Z.to_nat i) (a_chk s)).
    { rewrite Hc'. rewrite take_app_le by (rewrite take_length; lia). by rewrite take_take, Nat.min_id. }
    destruct (IH s1 i rest' m Hks) as (Ho'&Hl'&rest''&Hc''); [by rewrite Ht|done| |].
    { rewrite Hc', app_length, take_length. cbn. lia. }
    destruct (arun root cs s1) as [s2 os]. cbn [fst] in *. rewrite Ho', Ho. split; [done|]. split; [auto|]. rewrite Ht in Hc''. eauto.
Qed.
Lemma revert_state s cs : let i := Z.of_nat (length (a_chk s)) in let h := root (current s) in
  Forall (keeps_checkpoint i) cs -> h <> [] ->
  let s' := (arun root (RCheck :: cs ++ [RRevert i h]) s).1 in
  (arun root (RCheck :: cs ++ [RRevert i h]) s).2 =
    VCheck i h :: (arun root cs (astep root s RCheck).1).2 ++ [VDone] /\
  a_origin s' = a_origin s /\ a_chk s' = a_chk s /\
  (is_Some (a_live s) -> i <> 0%Z -> a_live s' = a_live s) /\
  (i <> 0%Z -> current s' = current s) /\ (i = 0%Z -> a_live s' = None).
Proof.
  intros i h Hk Hh s'. unfold s'. cbn [arun astep]. rewrite arun_app. cbn [fst].
  set (s1 := RMap (a_origin s) (a_live s) (a_chk s ++ [current s])).
  assert (Hli : Z.to_nat i = length (a_chk s)) by (unfold i; lia).
  destruct (keeps_run cs s1 i [] (current s) Hk) as (Ho&Hl&rest&Hc).
  - cbn [a_chk s1]. rewrite Hli, take_app. done.
  - lia.
  - cbn [a_chk s1]. rewrite app_length. lia.
  - cbn [a_chk s1] in Hc. rewrite Hli, take_app in Hc. set (s2 := (arun root cs s1).1) in *. cbn [arun astep].
    rewrite (proj2 (Z.ltb_ge i 0)) by lia. rewrite bool_decide_eq_false_2 by done. cbn [orb].
    assert (a_chk s2 !! Z.to_nat i = Some (current s)) as ->.
    { rewrite Hc, Hli, lookup_app_r, Nat.sub_diag by lia. done. }
    rewrite decide_True by done. cbn [fst snd a_origin a_live a_chk]. split; [done|]. split; [done|].
    split; [rewrite Hc, Hli; apply take_app|]. cbn [a_live s1] in Hl.
    split; [|split].
    + intros [m Hm] Hi. rewrite (proj2 (Z.eqb_neq i 0)) by done. destruct (Hl ltac:(by exists m)) as [m' ->]. unfold current. by rewrite Hm.
    + intros Hi. unfold current at 1. cbn [a_live a_origin]. rewrite (proj2 (Z.eqb_neq i 0)) by done.
      destruct (a_live s2) as [m2|] eqn:H2; [done|]. cbn. unfold current. destruct (a_live s) as [m|]; [|done].
      destruct (Hl ltac:(by exists m)) as [? ?]. done.
    + intros Hi. by rewrite Hi.
Qed.
End restore.

Lemma root_not_nil {V} (E : env V) m : env_ok E -> root_of (eH E) (ertl E) (evhash E) m <> [].
Proof. intros HE He. pose proof (root_len E HE m) as Hl. by rewrite He in Hl. Qed.

(** After any history [cs1], CheckPoint returns a number [i] and a root [h]; then
    come calls [cs2] that do not discard checkpoint [i], RevertTo(i, h), which
    succeeds, and further calls [cs3]. If there was a checkpoint before and there
    were uncommitted changes, [cs3] answers exactly as if the calls from
    CheckPoint to RevertTo had not been made. *)
Theorem C21_revert_restores : forall V (E : env V) K cs1 cs2 cs3,
  let root := root_of (eH E) (ertl E) (evhash E) in
  let s := (arun root cs1 amap0).1 in
  let i := Z.of_nat (length (a_chk s)) in
  let h := root (current s) in
  let cs := cs1 ++ (RCheck :: cs2 ++ [RRevert i h]) ++ cs3 in
  revert_ok E K cs -> revert_ok E K (cs1 ++ cs3) -> Forall (keeps_checkpoint i) cs2 -> i <> 0%Z -> is_Some (a_live s) ->
  exists r r' obs1 obs2 obs3, length obs1 = length cs1 /\ length obs2 = length cs2 /\
    rrun E cs rtrie0 = Some (r, obs1 ++ (VCheck i h :: obs2 ++ [VDone]) ++ obs3) /\
    rrun E (cs1 ++ cs3) rtrie0 = Some (r', obs1 ++ obs3).
Proof.
  intros V E K cs1 cs2 cs3 root s i h cs Hok Hok' Hk Hi Hlive.
  destruct (C21_refines V E K _ Hok) as (r&->). destruct (C21_refines V E K _ Hok') as (r'&->). fold root.
  destruct (revert_state root s cs2 Hk (root_not_nil E _ (vo_env _ _ _ Hok))) as (Hobs&Ho&Hc&Hl&_&_). fold i h in Hobs, Ho, Hc, Hl.
  assert (Hlen : forall cs s, length (arun root cs s).2 = length cs).
  { clear. induction cs as [|c cs IH]; intros s; [done|]. cbn [arun]. destruct (astep root s c) as [s1 o]. specialize (IH s1).
    destruct (arun root cs s1). cbn in *. by rewrite IH. }
  exists r, r', (arun root cs1 amap0).2, (arun root cs2 (astep root s RCheck).1).2, (arun root cs3 s).2.
  split; [apply Hlen|]. split; [apply Hlen|]. unfold cs. rewrite !arun_app. cbn [fst snd]. fold s. rewrite Hobs. split; [|done].
  do 4 f_equal. f_equal. specialize (Hl Hlive Hi). destruct (arun root (RCheck :: cs2 ++ [RRevert i h]) s).1 as [o l c]. cbn in *. subst. by destruct s.
Qed.
Print Assumptions C21_revert_restores.

(** In general (i > 0): the contents seen by GetLive and built on by Put and
    Delete are those at the checkpoint, the committed contents are unchanged, and
    checkpoint [i] and the later ones are gone. *)
Theorem C21_revert_contents : forall V (E : env V) K cs1 cs2 cs3,
  let root := root_of (eH E) (ertl E) (evhash E) in
  let s := (arun root cs1 amap0).1 in
  let i := Z.of_nat (length (a_chk s)) in
  let h := root (current s) in
  let cs := cs1 ++ (RCheck :: cs2 ++ [RRevert i h]) ++ cs3 in
  revert_ok E K cs -> Forall (keeps_checkpoint i) cs2 -> i <> 0%Z ->
  exists r obs s', length obs = (length cs1 + length cs2 + 2)%nat /\
    rrun E cs rtrie0 = Some (r, obs ++ (arun root cs3 s').2) /\ last obs = Some VDone /\
    current s' = current s /\ a_origin s' = a_origin s /\ a_chk s' = a_chk s.
Proof.
  intros V E K cs1 cs2 cs3 root s i h cs Hok Hk Hi.
  destruct (C21_refines V E K _ Hok) as (r&->). fold root.
  destruct (revert_state root s cs2 Hk (root_not_nil E _ (vo_env _ _ _ Hok))) as (Hobs&Ho&Hc&_&Hcur&_). fold i h in Hobs, Ho, Hc, Hcur.
  assert (Hlen : forall cs s, length (arun root cs s).2 = length cs).
  { clear. induction cs as [|c cs IH]; intros s; [done|]. cbn [arun]. destruct (astep root s c) as [s1 o]. specialize (IH s1).
    destruct (arun root cs s1). cbn in *. by rewrite IH. }
  exists r, ((arun root cs1 amap0).2 ++ (arun root (RCheck :: cs2 ++ [RRevert i h]) s).2), (arun root (RCheck :: cs2 ++ [RRevert i h]) s).1.
  split; [rewrite app_length, !Hlen; cbn [length]; rewrite app_length; cbn; lia|].
  unfold cs. rewrite !arun_app. cbn [fst snd]. fold s. rewrite <- app_assoc. split; [done|]. split; [|by auto].
  rewrite Hobs, app_comm_cons, app_assoc. apply last_snoc.
Qed.
Print Assumptions C21_revert_contents.

(** RevertTo the first checkpoint (number 0) restores the committed contents, not
    the contents at the checkpoint: uncommitted changes made before it are lost. *)
Theorem C21_first_checkpoint_discards : forall V (E : env V) K cs1 cs2 cs3,
  let root := root_of (eH E) (ertl E) (evhash E) in
  let s := (arun root cs1 amap0).1 in
  let h := root (current s) in
  let cs := cs1 ++ (RCheck :: cs2 ++ [RRevert 0 h]) ++ cs3 in
  revert_ok E K cs -> Forall (keeps_checkpoint 0) cs2 -> a_chk s = [] ->
  exists r obs, length obs = (length cs1 + length cs2 + 2)%nat /\
    rrun E cs rtrie0 = Some (r, obs ++ (arun root cs3 (RMap (a_origin s) None [])).2) /\ last obs = Some VDone.
Proof.
  intros V E K cs1 cs2 cs3 root s h cs Hok Hk Hnil.
  destruct (C21_refines V E K _ Hok) as (r&->). fold root.
  assert (Hi : 0%Z = Z.of_nat (length (a_chk s))) by (by rewrite Hnil).
  assert (Hk' : Forall (keeps_checkpoint (V:=V) (Z.of_nat (length (a_chk s)))) cs2) by (by rewrite <- Hi).
  destruct (revert_state root s cs2 Hk' (root_not_nil E _ (vo_env _ _ _ Hok))) as (Hobs&Ho&Hc&_&_&Hl). rewrite <- Hi in Hobs, Ho, Hc, Hl. fold h in Hobs, Ho, Hc, Hl.
  assert (Hlen : forall cs s, length (arun root cs s).2 = length cs).
  { clear. induction cs as [|c cs IH]; intros s; [done|]. cbn [arun]. destruct (astep root s c) as [s1 o]. specialize (IH s1).
    destruct (arun root cs s1). cbn in *. by rewrite IH. }
  exists r, ((arun root cs1 amap0).2 ++ (arun root (RCheck :: cs2 ++ [RRevert 0 h]) s).2).
  split; [rewrite app_length, !Hlen; cbn [length]; rewrite app_length; cbn; lia|].
  unfold cs. rewrite !arun_app. cbn [fst snd]. fold s. rewrite <- app_assoc. split.
  - do 4 f_equal. specialize (Hl eq_refl). destruct (arun root (RCheck :: cs2 ++ [RRevert 0 h]) s).1 as [o l c]. cbn in *. subst. by rewrite Hnil.
  - rewrite Hobs, app_comm_cons, app_assoc. apply last_snoc.
Qed.
Print Assumptions C21_first_checkpoint_discards.

(* ------------------------------------------------------------ examples *)

Lemma demo_revert_ok n cs : (n <= 48)%nat ->
  Forall (fun c => Forall (fun k => is_bytesb k = true /\ length k = n) (rcall_keys c)) cs ->
  Forall (fun c => match c with RRevert _ h => h = [] \/ length h = 32%nat | _ => True end) cs ->
  revert_ok (demo_env idealH) (keys_of_length n) cs.
Proof.
  intros Hn Hk Hr. split.
  - by apply demo_env_ok.
  - apply same_length_prefix_free.
  - intros k [? ?]. split; [done|lia].
  - intros c k Ho Hk'. rewrite Forall_forall in Hk. specialize (Hk _ Ho). rewrite Forall_forall in Hk.
    destruct (Hk k Hk') as [? ?]. split; [by apply is_bytesb_spec|done].
  - intros i h Hin. rewrite Forall_forall in Hr. apply (Hr _ Hin).
  - apply idealH_inj.
  - intros x y _ _ He. cbn in He. assert ([x] = [y]) as Hxy; [|by injection Hxy].
    apply (idealH_inj [[x]; [y]]); [by left|right; by left|done].
Qed.

Definition rv_cs1 : list (rcall N) := [RPut [0x12; 0x34] 7; RCommit; RPut [0x92; 0x35] 9; RCheck; RDel [0x12; 0x34]].
Definition rv_cs2 : list (rcall N) := [RPut [0x92; 0x35] 1; RPut [0x12; 0x35] 8; RCheck; RPut [0x12; 0x34] 3].
Definition rv_cs3 : list (rcall N) := [RGetLive [0x12; 0x34]; RGetLive [0x92; 0x35]; RGetLive [0x12; 0x35]; RIsDirty; RCommit; RGet [0x92; 0x35]].
(** The hypotheses of C21_revert_restores hold for a history with a second
    checkpoint (number 1) and changes after it, and the calls after RevertTo see
    the contents at the checkpoint. *)
Example C21_example :
  let E := demo_env idealH in
  let root := root_of (eH E) (ertl E) (evhash E) in
  let s := (arun root rv_cs1 amap0).1 in
  let i := Z.of_nat (length (a_chk s)) in
  let cs := rv_cs1 ++ (RCheck :: rv_cs2 ++ [RRevert i (root (current s))]) ++ rv_cs3 in
  revert_ok E (keys_of_length 2) cs /\ revert_ok E (keys_of_length 2) (rv_cs1 ++ rv_cs3) /\
  Forall (keeps_checkpoint i) rv_cs2 /\ i = 1%Z /\ is_Some (a_live s) /\
  (arun root rv_cs3 s).2 = [VVal None; VVal (Some 9); VVal None; VBool true; VDone; VVal (Some 9)].
Proof.
  cbv zeta. split; [|split; [|split; [|split; [|split]]]].
  - apply demo_revert_ok; [lia|by repeat constructor|]. unfold rv_cs1, rv_cs2, rv_cs3. cbn [app].
    repeat (apply Forall_cons; split; [first [done | right; apply (root_len (demo_env idealH)), demo_env_ok; done]|]). constructor.
  - apply demo_revert_ok; [lia|by repeat constructor|by repeat constructor].
  - by repeat constructor.
  - reflexivity.
  - by eexists.
  - vm_compute. reflexivity.
Qed.

(** FINDING. "RevertTo(i, root) brings back the contents at checkpoint i" is false
    for the first checkpoint: Put(k, v); CheckPoint; Put(k, w); RevertTo(0, root)
    succeeds and k is gone, for every hash function without collisions on the
    strings hashed here. *)
Theorem C21_first_checkpoint_refuted : forall V (E : env V) K k v w,
  let root := root_of (eH E) (ertl E) (evhash E) in
  let h := root {[k := v]} in
  let cs := [RPut k v; RCheck; RPut k w; RRevert 0 h; RGetLive k] in
  revert_ok E K cs ->
  exists r, rrun E cs rtrie0 = Some (r, [VChanged true; VCheck 0 h; VChanged true; VDone; VVal None]).
Proof.
  intros V E K k v w root h cs Hok. destruct (C21_refines V E K _ Hok) as (r&->). exists r. fold root. do 2 f_equal. unfold cs, amap0.
  cbn [arun astep current default a_live a_origin a_chk length app fst snd Z.ltb Z.compare orb Z.of_nat Z.to_nat].
  change (id ?x) with x. change (<[k := v]> ∅) with ({[k := v]} : gmap (list N) V). fold h. rewrite bool_decide_eq_false_2 by apply root_not_nil, (vo_env _ _ _ Hok).
  change ([{[k := v]} : gmap (list N) V] !! Z.to_nat 0) with (Some ({[k := v]} : gmap (list N) V)). cbv iota. rewrite decide_True by done. cbn [arun astep current default a_live a_origin a_chk Z.eqb take]. by rewrite lookup_empty.
Qed.
Print Assumptions C21_first_checkpoint_refuted.
Example C21_first_checkpoint_example :
  let E := demo_env idealH in
  revert_ok E (keys_of_length 2)
    [RPut [1; 2] 3; RCheck; RPut [1; 2] 4; RRevert 0 (root_of (eH E) (ertl E) (evhash E) {[[1; 2] := 3]}); RGetLive [1; 2]].
Proof.
  apply demo_revert_ok; [lia|by repeat constructor|]. repeat (apply Forall_cons; split; [first [done | right; apply (root_len (demo_env idealH)), demo_env_ok; done]|]). constructor.
Qed.

(** FINDING. RevertTo compares only the last 32 bytes of its root argument with
    the checkpoint, but opens the trie at the whole argument: a root with a byte
    in front is accepted and the contents are lost (the live trie reads as empty). *)
Theorem C21_long_root_refuted :
  let E := demo_env toyH in
  let h := toyH [] in
  exists root0 root1,
    (exists r, rrun E [RPut [1; 2] 3; RCheck; RPut [1; 3] 4; RCheck; RPut [1; 2] 5; RRevert 1 root1; RGetLive [1; 2]] rtrie0 =
       Some (r, [VChanged true; VCheck 0 root0; VChanged true; VCheck 1 root1; VChanged true; VDone; VVal (Some 3)])) /\
    (exists r, rrun E [RPut [1; 2] 3; RCheck; RPut [1; 3] 4; RCheck; RPut [1; 2] 5; RRevert 1 (0 :: root1); RGetLive [1; 2]] rtrie0 =
       Some (r, [VChanged true; VCheck 0 root0; VChanged true; VCheck 1 root1; VChanged true; VDone; VVal None])).
Proof.
  cbv zeta. set (E := demo_env toyH).
  set (os := default [] (option_map snd (rrun E [RPut [1; 2] 3; RCheck; RPut [1; 3] 4; RCheck] rtrie0))).
  exists (match os !! 1%nat with Some (VCheck _ h) => h | _ => [] end), (match os !! 3%nat with Some (VCheck _ h) => h | _ => [] end).
  split; eexists; vm_compute; reflexivity.
Qed.
Print Assumptions C21_long_root_refuted.

(** SetTo puts another trie in place and discards uncommitted changes, whatever the
    state was: what can be read, live or committed, before and after a Rollback, and
    the hashes are those of the new trie, and there is nothing to commit. *)
Theorem C21_setto : forall V (E : env V) (r : @rtrie V) (t : trie) k,
  let r' := rt_SetTo r t in
  (rt_GetLive E r' k).2 = (Get E (rt_store r) t k).2 /\
  (rt_Get E r' k).2 = (Get E (rt_store r) t k).2 /\
  (rt_Get E (rt_Rollback r') k).2 = (Get E (rt_store r) t k).2 /\
  (rt_HashValue E r').2 = (HashValue E t).2 /\
  option_map snd (rt_PreHashValue E r') = Some (HashValue E t).2 /\
  rt_IsDirty r' = false.
Proof.
  intros V E r t k r'. unfold r', rt_SetTo, rt_GetLive, rt_Get, rt_Rollback, rt_HashValue, rt_PreHashValue.
  cbn [rt_live rt_origin rt_store]. unfold rt_HashValue. cbn [rt_origin rt_store].
  destruct (Get E (rt_store r) t k) as [t' v], (HashValue E t) as [t2 h]. done.
Qed.
Print Assumptions C21_setto.

(** FINDING. SetTo keeps the checkpoints of the contents it replaces: RevertTo the root
    of one of them is then accepted and changes nothing. Here k has the value 3 at
    checkpoint 1 and is absent from the trie set afterwards. *)
Theorem C21_setto_checkpoints_refuted :
  let E := demo_env toyH in
  exists r root0 root1,
    rrun E [RPut [1; 2] 3; RCheck; RCheck; RGetLive [1; 2]] rtrie0 =
      Some (r, [VChanged true; VCheck 0 root0; VCheck 1 root1; VVal (Some 3)]) /\
    option_map snd (rrun E [RRevert 1 root1; RGetLive [1; 2]] (rt_SetTo r (NewTrie None))) = Some [VDone; VVal None] /\
    option_map snd (rrun E [RRevert 1 root1; RGetLive [1; 2]] r) = Some [VDone; VVal (Some 3)].
Proof.
  cbv zeta. set (E := demo_env toyH).
  set (o := rrun E [RPut [1; 2] 3; RCheck; RCheck; RGetLive [1; 2]] rtrie0).
  set (os := default [] (option_map snd o)).
  exists (default rtrie0 (option_map fst o)), (match os !! 1%nat with Some (VCheck _ h) => h | _ => [] end), (match os !! 2%nat with Some (VCheck _ h) => h | _ => [] end).
  split; [vm_compute; reflexivity|]. split; vm_compute; reflexivity.
Qed.
Print Assumptions C21_setto_checkpoints_refuted.
