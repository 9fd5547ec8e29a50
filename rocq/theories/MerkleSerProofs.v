(** Serialization of MerkleProofs. *)
From Verif Require Export MerkleBindProofs.

Definition rdr (bs : list N) : reader := rd_norm [bs].

Lemma rd_norm_one bs : rd_norm [bs] = if decide (bs = []) then [] else [bs].
Proof. destruct bs; done. Qed.

Lemma rd_norm_idem r : rd_norm (rd_norm r) = rd_norm r.
Proof. induction r as [|[|x c] r IH]; cbn [rd_norm]; [done|done|]. by rewrite IH. Qed.

Lemma rd_read_one n bs : rd_read n [bs] = rd_read n (rdr bs).
Proof. unfold rd_read, rdr. rewrite rd_norm_idem. done. Qed.

Lemma rd_read_app n a rest : length a = n -> (0 < n)%nat -> rd_read n (rdr (a ++ rest)) = Some (a, rdr rest).
Proof.
  intros Ha Hn. unfold rd_read, rdr. rewrite rd_norm_idem, rd_norm_one.
  destruct (decide (a ++ rest = [])) as [He|]; [apply app_eq_nil in He as [-> _]; simpl in Ha; lia|].
  rewrite <- Ha, take_app, drop_app. done.
Qed.

Lemma rd_full_app n a rest : length a = n -> rd_full n (rdr (a ++ rest)) = Some (a, rdr rest).
Proof.
  intros Ha. unfold rd_full. destruct n as [|n]; [destruct a; [done|simpl in Ha; lia]|].
  cbn fix beta iota. rewrite rd_read_app by lia. rewrite Ha, Nat.sub_diag. destruct n; rewrite app_nil_r; done.
Qed.

Lemma u16_len z : length (u16 z) = 2%nat.
Proof. apply be_fixed_length. Qed.
Lemma u16_num z : (0 <= z < 65536)%Z -> be_num (u16 z) = Z.to_N z.
Proof.
  intros Hz. unfold u16. rewrite be_num_fixed. change (256 ^ N.of_nat 2) with 65536.
  rewrite Z.mod_small by lia. apply N.mod_small. lia.
Qed.

Lemma rd_hashes_app hs rest : Forall (fun l => length l = 32%nat) hs ->
  rd_hashes (length hs) (rdr (concat hs ++ rest)) = Some (hs, rdr rest).
Proof.
  induction hs as [|h hs IH]; intros Hh; cbn [rd_hashes length concat]; [done|].
  apply Forall_cons in Hh as [Hh Hhs]. rewrite <- app_assoc, rd_full_app by done. rewrite IH by done. done.
Qed.

Lemma rd_moretimes_app ms rest :
  Forall (fun m => 0 <= mt_index m < 65536 /\ 0 <= mt_times m < 65536)%Z ms ->
  rd_moretimes (length ms) (rdr (flat_map (fun m => u16 (mt_index m) ++ u16 (mt_times m)) ms ++ rest)) = Some (ms, rdr rest).
Proof.
  induction ms as [|m ms IH]; intros Hm; cbn [rd_moretimes length flat_map]; [done|].
  apply Forall_cons in Hm as [[H1 H2] Hms]. rewrite <- app_assoc.
  rewrite rd_full_app by (rewrite app_length, !u16_len; done). rewrite IH by done.
  rewrite take_app_alt, drop_app_alt by (rewrite u16_len; done).
  rewrite !u16_num by done. destruct m as [i t]; simpl in *. do 4 f_equal; lia.
Qed.

Lemma read_array_app old a rest : length old = 2%nat -> lenN a < 65536 ->
  read_array old (rdr (write_array a ++ rest)) = Some (a, rdr rest).
Proof.
  intros Ho Ha. unfold lenN in Ha. unfold read_array, write_array. rewrite <- app_assoc, rd_read_app by (rewrite ?u16_len; lia).
  rewrite u16_len, drop_ge, app_nil_r, u16_num by lia.
  replace (N.to_nat (Z.to_N (Z.of_nat (length a)))) with (length a) by lia.
  destruct (Nat.eqb_spec (length a) 0) as [Hz|Hz].
  - destruct a; [done|simpl in Hz; lia].
  - rewrite rd_read_app by lia. rewrite Nat.sub_diag, app_nil_r. done.
Qed.

(** Proof objects whose fields fit the 16-bit fields of the format. *)
Definition mp_fits (p : mproofs) : Prop :=
  Forall (fun l => length l = 32%nat) (mp_hashs p) /\ lenN (mp_hashs p) < 65536 /\
  (exists n, mp_paths p = Some n /\ lenN (be_bytes n) < 65536) /\
  lenN (mp_repeats p) < 65536 /\
  Forall (fun m => 0 <= mt_index m < 65536 /\ 0 <= mt_times m < 65536)%Z (mp_repeats p).

Lemma mp_deser_ser p rest : mp_fits p ->
  mp_deserialize [mp_serialize (Some p) ++ rest] = Some (Some p, rdr rest).
Proof.
  intros (Hh & Hhl & (n & Hn & Hnl) & Hrl & Hr). unfold lenN in Hhl, Hrl. unfold mp_deserialize. rewrite rd_read_one.
  unfold mp_serialize. rewrite Hn. set (fl := if bool_decide (mp_repeats p = []) then fl_notnil else fl_version0).
  rewrite <- app_assoc, rd_read_app by (simpl; lia). cbn [nth].
  assert (fl =? fl_nil = false) as ->.
  { unfold fl. destruct (bool_decide _); done. }
  rewrite <- !app_assoc. rewrite rd_full_app by apply u16_len. rewrite u16_num by lia.
  replace (N.to_nat (Z.to_N (Z.of_nat (length (mp_hashs p))))) with (length (mp_hashs p)) by lia.
  rewrite rd_hashes_app by done. rewrite read_array_app by (rewrite ?u16_len; done). rewrite be_num_bytes.
  unfold fl. destruct (bool_decide_reflect (mp_repeats p = [])) as [Hnil|Hnil].
  - cbn. destruct p; simpl in *. subst. done.
  - cbn [N.eqb fl_version0 Pos.eqb]. rewrite <- !app_assoc. rewrite rd_full_app by apply u16_len.
    rewrite u16_num by lia. replace (N.to_nat (Z.to_N (Z.of_nat (length (mp_repeats p))))) with (length (mp_repeats p)) by lia.
    rewrite rd_moretimes_app by done. destruct p; simpl in *. subst. done.
Qed.

Lemma mp_deser_nil rest : mp_deserialize [mp_serialize None ++ rest] = Some (None, rdr rest).
Proof. unfold mp_deserialize. rewrite rd_read_one. rewrite rd_read_app by (simpl; lia). done. Qed.

(* Built proofs fit. *)
Lemma reps_length lo n ms : reps_ok lo n ms -> (lo < n)%Z -> (lo + Z.of_nat (length ms) < n)%Z.
Proof.
  revert lo; induction ms as [|m r IH]; intros lo; cbn [reps_ok length]; [lia|].
  intros [(?&?&?) Hr] Hlo. specialize (IH _ Hr ltac:(lia)). lia.
Qed.
Lemma reps_times lo n ms : reps_ok lo n ms -> Forall (fun m => mt_times m <= mts_count ms)%Z ms /\ (0 <= mts_count ms)%Z.
Proof.
  revert lo; induction ms as [|m r IH]; intros lo; cbn [reps_ok]; [done|].
  intros [(?&?&?) Hr]. destruct (IH _ Hr) as [IH1 IH2]. rewrite mts_count_cons.
  destruct (Z.ltb_spec 0 (mt_times m)); [|lia]. split; [|lia].
  constructor; [lia|]. eapply Forall_impl; [exact IH1|]. intros m' Hm'. simpl in *. lia.
Qed.

Lemma expand_subset lo hs : forall i reps h, reps_ok lo (i + Z.of_nat (length hs)) reps ->
  h ∈ hs -> h ∈ expand hs i reps.
Proof.
  induction hs as [|v hs IH]; intros i reps h Hok Hin; [by apply elem_of_nil in Hin|].
  cbn [expand]. apply elem_of_app. apply elem_of_cons in Hin as [->|Hin].
  - left. apply elem_of_replicate. pose proof (rt_nonneg _ _ _ i Hok). split; [done|lia].
  - right. apply IH; [|done]. cbn [length] in Hok. eapply reps_ok_mono; [exact Hok|lia].
Qed.

Lemma withord_fst ord full l : map fst (withord ord full l) = l.
Proof. revert full; induction l as [|h l IH]; intros full; cbn [withord map fst]; [done|]. by rewrite IH. Qed.

Lemma mp_rep_fits p its : mp_rep p its -> lenN its < 65536 ->
  Forall (fun it => length it.1 = 32%nat) its -> mp_fits p.
Proof.
  unfold mp_fits, lenN. intros Hrep Hl Hits. pose proof (mp_rep_len _ _ Hrep) as Hlen. unfold mp_len in Hlen.
  destruct Hrep as (n & Hp & Hb & Hok & He).
  destruct (reps_times _ _ _ Hok) as [Ht Hc].
  assert (N.of_nat (length (mp_hashs p)) < 65536) as Hhl by lia.
  split; [|split; [done|split; [|split]]].
  - apply Forall_forall. intros h Hh. apply (expand_subset (-1) _ 0 (mp_repeats p)) in Hh; [|done].
    rewrite <- He in Hits. rewrite <- (withord_fst (fun i => N.testbit n (Z.to_N i)) 0 (expand _ _ _)) in Hh.
    apply elem_of_list_fmap in Hh as (it & -> & Hit). rewrite Forall_forall in Hits. auto.
  - exists n. split; [done|]. enough (length (be_bytes n) <= length its)%nat by lia.
    apply be_bytes_length_le. eapply N.lt_le_trans; [exact Hb|].
    apply N.pow_le_mono_l. lia.
  - pose proof (reps_length _ _ _ Hok ltac:(lia)).
    lia.
  - apply Forall_forall. intros m Hm. destruct (reps_ok_in _ _ _ _ Hok Hm).
    rewrite Forall_forall in Ht. specialize (Ht _ Hm). lia.
Qed.
