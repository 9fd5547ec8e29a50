(** Lemmas about the Merkle model. *)
From stdpp Require Export sets list_numbers.
From Verif Require Export MerkleModel.

(* ---------------------------------------------- run-length compression *)
Fixpoint reps_ok (lo n : Z) (reps : list moretime) : Prop :=
  match reps with
  | [] => True
  | m :: r => (lo < mt_index m /\ mt_index m < n /\ 0 < mt_times m)%Z /\ reps_ok (mt_index m) n r
  end.

Fixpoint rt (reps : list moretime) (i : Z) : Z :=
  match reps with
  | [] => 0%Z
  | m :: r => if (mt_index m =? i)%Z then mt_times m else rt r i
  end.

Fixpoint expand (hs : list (list N)) (i : Z) (reps : list moretime) : list (list N) :=
  match hs with
  | [] => []
  | v :: r => replicate (Z.to_nat (rt reps i + 1)) v ++ expand r (i + 1)%Z reps
  end.

Fixpoint withord (ord : Z -> bool) (full : Z) (l : list (list N)) : list (list N * bool) :=
  match l with [] => [] | h :: r => (h, ord full) :: withord ord (full + 1)%Z r end.

Lemma withord_app ord full l1 l2 :
  withord ord full (l1 ++ l2) = withord ord full l1 ++ withord ord (full + Z.of_nat (length l1))%Z l2.
Proof.
  revert full; induction l1 as [|h l1 IH]; intros full; cbn [withord app length].
  - f_equal. lia.
  - rewrite IH. do 3 f_equal. lia.
Qed.

Lemma withord_length ord full l : length (withord ord full l) = length l.
Proof. revert full; induction l as [|h l IH]; intros full; simpl; [done|]. by rewrite IH. Qed.

Lemma withord_ext o1 o2 full l :
  (forall k, (full <= k < full + Z.of_nat (length l))%Z -> o1 k = o2 k) ->
  withord o1 full l = withord o2 full l.
Proof.
  revert full; induction l as [|h l IH]; intros full Ho; cbn [withord]; [done|].
  cbn [length] in Ho. rewrite (Ho full) by lia. f_equal. apply IH. intros k Hk. apply Ho. lia.
Qed.

Lemma withord_lookup ord full l i :
  withord ord full l !! i = (fun h => (h, ord (full + Z.of_nat i)%Z)) <$> l !! i.
Proof.
  revert full i; induction l as [|h l IH]; intros full i; cbn [withord]; [done|].
  destruct i as [|i]; cbn [lookup list_lookup].
  - simpl. do 2 f_equal. f_equal. lia.
  - change (withord ord (full + 1) l !! i = (fun h0 => (h0, ord (full + Z.of_nat (S i))%Z)) <$> l !! i).
    rewrite IH. destruct (l !! i); simpl; [|done]. do 3 f_equal. lia.
Qed.

Lemma map_withord_replicate ord full v n :
  map (fun i => (v, ord (full + Z.of_nat i)%Z)) (seq 0 n) = withord ord full (replicate n v).
Proof.
  apply list_eq. intros i. rewrite withord_lookup, list_lookup_fmap.
  destruct (decide (i < n)%nat) as [Hi|Hi].
  - rewrite lookup_seq_lt, lookup_replicate_2 by lia. simpl. done.
  - rewrite lookup_seq_ge by lia. destruct (replicate n v !! i) eqn:Hl; [|done].
    apply lookup_replicate in Hl. lia.
Qed.

Lemma rt_below lo n reps i : reps_ok lo n reps -> (i <= lo)%Z -> rt reps i = 0%Z.
Proof.
  revert lo; induction reps as [|m r IH]; intros lo; cbn [reps_ok rt]; [done|].
  intros [(? & ? & ?) Hr] Hi. destruct (Z.eqb_spec (mt_index m) i); [lia|]. eapply IH; [exact Hr|lia].
Qed.

Lemma rt_nonneg lo n reps i : reps_ok lo n reps -> (0 <= rt reps i)%Z.
Proof.
  revert lo; induction reps as [|m r IH]; intros lo; cbn [reps_ok rt]; [lia|].
  intros [(? & ? & ?) Hr]. destruct (mt_index m =? i)%Z; [lia|]. eapply IH, Hr.
Qed.

Lemma expand_ext hs i r1 r2 :
  (forall k, (i <= k < i + Z.of_nat (length hs))%Z -> rt r1 k = rt r2 k) -> expand hs i r1 = expand hs i r2.
Proof.
  revert i; induction hs as [|v hs IH]; intros i Hr; cbn [expand]; [done|].
  cbn [length] in Hr. rewrite (Hr i) by lia. f_equal. apply IH. intros k Hk. apply Hr. lia.
Qed.

Lemma expand_app hs1 hs2 i reps :
  expand (hs1 ++ hs2) i reps = expand hs1 i reps ++ expand hs2 (i + Z.of_nat (length hs1))%Z reps.
Proof.
  revert i; induction hs1 as [|v hs1 IH]; intros i; cbn [expand app length].
  - f_equal. lia.
  - rewrite IH, app_assoc. do 2 f_equal. lia.
Qed.

Lemma skip_spec n i cursor it :
  (-1 <= mt_index cursor)%Z ->
  reps_ok (mt_index cursor) n it -> (i - 1 <= mt_index cursor)%Z \/ it = [] ->
  exists c' it', skip_moretimes i cursor it = Some (c', it') /\
    reps_ok (mt_index c') n it' /\ (-1 <= mt_index c')%Z /\
    ((i <= mt_index c')%Z \/ it' = []) /\
    (forall k, (i <= k)%Z -> rt (c' :: it') k = rt (cursor :: it) k) /\
    (c' = cursor \/ (0 < mt_times c')%Z).
Proof.
  intros Hc Hok Hi. destruct it as [|m r]; cbn [skip_moretimes].
  - exists cursor, []. repeat split; auto.
  - destruct Hi as [Hi|]; [|done]. cbn [reps_ok] in Hok. destruct Hok as [(Hlo & Hhi & Ht) Hr].
    destruct (Z.ltb_spec (mt_index cursor) i) as [Hlt|Hge].
    + assert (mt_valid m = true) as -> by (unfold mt_valid; lia).
      assert (skip_moretimes i m r = Some (m, r)) as ->.
      { destruct r; cbn [skip_moretimes]; [done|]. destruct (Z.ltb_spec (mt_index m) i); [lia|done]. }
      exists m, r. split; [done|]. split; [done|]. split; [lia|]. split; [lia|]. split; [|auto].
      intros k Hk. cbn [rt]. destruct (Z.eqb_spec (mt_index cursor) k); [lia|]. done.
    + exists cursor, (m :: r). repeat split; auto.
Qed.

Lemma hashs_iterate_spec ord hs i full cursor it :
  (-1 <= mt_index cursor)%Z -> (mt_index cursor = -1 \/ 0 < mt_times cursor)%Z -> (0 <= i)%Z ->
  reps_ok (mt_index cursor) (i + Z.of_nat (length hs)) it -> (i - 1 <= mt_index cursor)%Z \/ it = [] ->
  exists l, hashs_iterate hs i full cursor it = Some l /\
    flat_map (fun '(v, full, times) =>
       map (fun i => (v, ord (full + Z.of_nat i)%Z)) (seq 0 (Z.to_nat times))) l
    = withord ord full (expand hs i (cursor :: it)).
Proof.
  revert i full cursor it; induction hs as [|v hs IH]; intros i full cursor it Hc Ht H0 Hok Hi; cbn [hashs_iterate].
  - exists []. done.
  - cbn [length] in Hok.
    destruct (skip_spec _ i cursor it Hc Hok Hi) as (c' & it' & -> & Hok' & Hc' & Hi' & Hrt & Hct).
    set (times := if (mt_index c' =? i)%Z then (mt_times c' + 1)%Z else 1%Z).
    assert (times = rt (cursor :: it) i + 1)%Z as Htimes.
    { rewrite <- Hrt by lia. unfold times. cbn [rt]. destruct (Z.eqb_spec (mt_index c') i); [done|].
      assert (rt it' i = 0)%Z as ->; [|done].
      destruct Hi' as [Hge| ->]; [|done]. eapply rt_below; [exact Hok'|lia]. }
    assert (0 < times)%Z as Htp.
    { unfold times. destruct (Z.eqb_spec (mt_index c') i); [|lia].
      destruct Hct as [->|]; [destruct Ht|]; lia. }
    destruct (IH (i + 1)%Z (full + times)%Z c' it') as (l & -> & Hl).
    + done.
    + destruct Hct as [->|]; auto.
    + lia.
    + replace (i + 1 + Z.of_nat (length hs))%Z with (i + Z.of_nat (S (length hs)))%Z by lia. done.
    + destruct Hi' as [?|?]; [left; lia|by right].
    + exists ((v, full, times) :: l). split; [done|]. cbn [flat_map expand].
      rewrite Hl, map_withord_replicate, withord_app, replicate_length.
      rewrite <- Htimes. f_equal. f_equal; [lia|].
      apply expand_ext. intros k Hk. apply Hrt. lia.
Qed.

(** [p] represents the sequence [its]. *)
Definition mp_rep (p : mproofs) (its : list (list N * bool)) : Prop :=
  exists n, mp_paths p = Some n /\ n < 2 ^ N.of_nat (length its) /\
    reps_ok (-1) (Z.of_nat (length (mp_hashs p))) (mp_repeats p) /\
    withord (fun i => N.testbit n (Z.to_N i)) 0 (expand (mp_hashs p) 0 (mp_repeats p)) = its.

Lemma mp_rep_new : mp_rep mp_new [].
Proof. exists 0. repeat split. Qed.

Lemma mp_rep_items p its : mp_rep p its -> mp_items p = Some its.
Proof.
  intros (n & Hp & Hb & Hok & <-). unfold mp_items.
  destruct (hashs_iterate_spec (mp_order p) (mp_hashs p) 0 0 (MT (-1) 0) (mp_repeats p)) as (l & -> & Hl);
    [simpl; lia|simpl; lia|lia|done|simpl; lia|].
  f_equal. rewrite Hl.
  rewrite (expand_ext _ 0 (MT (-1) 0 :: mp_repeats p) (mp_repeats p)).
  - apply withord_ext. intros k Hk. unfold mp_order. rewrite Hp. done.
  - intros k Hk. cbn [rt mt_index]. destruct (Z.eqb_spec (-1) k); [lia|done].
Qed.

(* ------------------------------------------------------------- lengths *)
Lemma mts_count_acc c ms :
  foldl (fun c m => if (0 <? mt_times m)%Z then (c + mt_times m)%Z else c) c ms
  = (c + mts_count ms)%Z.
Proof.
  unfold mts_count. revert c; induction ms as [|m r IH]; intros c; cbn [foldl]; [lia|].
  rewrite IH. rewrite (IH (if (0 <? mt_times m)%Z then _ else _)). destruct (0 <? mt_times m)%Z; lia.
Qed.

Lemma mts_count_cons m r :
  mts_count (m :: r) = ((if 0 <? mt_times m then mt_times m else 0) + mts_count r)%Z.
Proof. unfold mts_count at 1. cbn [foldl]. rewrite mts_count_acc. destruct (0 <? mt_times m)%Z; lia. Qed.

Lemma mts_count_app a b : mts_count (a ++ b) = (mts_count a + mts_count b)%Z.
Proof.
  induction a as [|m a IH]; cbn [app]; [unfold mts_count at 2; simpl; lia|].
  rewrite !mts_count_cons, IH. lia.
Qed.

Lemma expand_nil_len hs i : length (expand hs i []) = length hs.
Proof. revert i; induction hs as [|v hs IH]; intros i; cbn [expand length]; [done|].
  rewrite app_length, IH. simpl. lia. Qed.

Lemma expand_length lo hs i reps :
  (lo < i)%Z \/ (lo <= i - 1)%Z -> (i <= lo + 1)%Z ->
  reps_ok lo (i + Z.of_nat (length hs)) reps ->
  Z.of_nat (length (expand hs i reps)) = (Z.of_nat (length hs) + mts_count reps)%Z.
Proof.
  revert lo i reps; induction hs as [|v hs IH]; intros lo i reps Hlo1 Hlo2 Hok; cbn [expand length].
  - destruct reps as [|m r]; [done|]. cbn [reps_ok length] in Hok. lia.
  - rewrite app_length, replicate_length. cbn [length] in Hok.
    destruct reps as [|m r].
    + rewrite expand_nil_len. cbn [rt]. unfold mts_count; simpl. lia.
    + cbn [reps_ok] in Hok. destruct Hok as [(H1 & H2 & H3) Hr].
      rewrite mts_count_cons. cbn [rt]. destruct (Z.eqb_spec (mt_index m) i) as [Heq|Hne].
      * rewrite (expand_ext _ _ (m :: r) r).
        2:{ intros k Hk. cbn [rt]. destruct (Z.eqb_spec (mt_index m) k); [lia|done]. }
        rewrite Nat2Z.inj_add, (IH i).
        -- destruct (0 <? mt_times m)%Z eqn:?; lia.
        -- lia.
        -- lia.
        -- rewrite <- Heq in *. replace (mt_index m + 1 + Z.of_nat (length hs))%Z with (mt_index m + Z.of_nat (S (length hs)))%Z by lia. done.
      * rewrite (rt_below (mt_index m) _ _ _ Hr) by lia.
        rewrite Nat2Z.inj_add, (IH i).
        -- rewrite mts_count_cons. lia.
        -- lia.
        -- lia.
        -- cbn [reps_ok]. replace (i + 1 + Z.of_nat (length hs))%Z with (i + Z.of_nat (S (length hs)))%Z by lia.
           split; [lia|done].
Qed.

Lemma mp_rep_len p its : mp_rep p its -> mp_len p = Z.of_nat (length its).
Proof.
  intros (n & Hp & Hb & Hok & <-). unfold mp_len. rewrite withord_length.
  rewrite (expand_length (-1)); [lia|lia|lia|done].
Qed.

(* -------------------------------------------------------------- append *)
Lemma reps_ok_mono lo n n' reps : reps_ok lo n reps -> (n <= n')%Z -> reps_ok lo n' reps.
Proof.
  revert lo; induction reps as [|m r IH]; intros lo; cbn [reps_ok]; [done|].
  intros [(?&?&?) Hr] Hn. split; [lia|]. eapply IH; eauto.
Qed.

Lemma reps_ok_snoc lo n ms m :
  reps_ok lo n (ms ++ [m]) <->
  reps_ok lo n ms /\ (match last ms with None => lo | Some l => mt_index l end < mt_index m < n)%Z /\ (0 < mt_times m)%Z.
Proof.
  revert lo; induction ms as [|a ms IH]; intros lo.
  - cbn [app reps_ok last]. split; intros; repeat split; intuition lia.
  - cbn [app reps_ok]. rewrite IH. destruct ms as [|b ms]; [cbn [last reps_ok]; intuition lia|].
    change (last (a :: b :: ms)) with (last (b :: ms)).
    destruct (last (b :: ms)) eqn:Hl; [|destruct ms; simpl in Hl; [done|]; apply last_None in Hl; done].
    tauto.
Qed.

Lemma reps_ok_in lo n ms m : reps_ok lo n ms -> m ∈ ms -> (lo < mt_index m < n)%Z /\ (0 < mt_times m)%Z.
Proof.
  revert lo; induction ms as [|a ms IH]; intros lo Hok Hin; [by apply elem_of_nil in Hin|].
  cbn [reps_ok] in Hok. destruct Hok as [(?&?&?) Hr]. apply elem_of_cons in Hin as [->|Hin]; [lia|].
  specialize (IH _ Hr Hin). lia.
Qed.

Lemma rt_snoc lo n ms m i : reps_ok lo n (ms ++ [m]) ->
  rt (ms ++ [m]) i = if (mt_index m =? i)%Z then mt_times m else rt ms i.
Proof.
  revert lo; induction ms as [|a ms IH]; intros lo; cbn [app reps_ok rt]; [done|].
  intros [(?&?&?) Hr]. rewrite (IH _ Hr).
  destruct (Z.eqb_spec (mt_index a) i), (Z.eqb_spec (mt_index m) i); try done.
  exfalso. destruct (reps_ok_in _ _ _ m Hr); [set_solver|lia].
Qed.

Lemma rt_above lo n ms i : reps_ok lo n ms -> (n <= i)%Z -> rt ms i = 0%Z.
Proof.
  revert lo; induction ms as [|a ms IH]; intros lo; cbn [reps_ok rt]; [done|].
  intros [(?&?&?) Hr] Hi. destruct (Z.eqb_spec (mt_index a) i); [lia|]. eapply IH; eauto.
Qed.

Lemma reps_ok_last lo n ms l : reps_ok lo n (ms ++ [l]) -> reps_ok lo (mt_index l) ms.
Proof.
  revert lo; induction ms as [|a ms IH]; intros lo; cbn [app reps_ok]; [done|].
  intros [(?&?&?) Hr]. destruct (reps_ok_in _ _ _ l Hr); [set_solver|]. split; [lia|]. eapply IH; eauto.
Qed.

Lemma last_split {A} (l : list A) x : last l = Some x -> l = take (length l - 1) l ++ [x].
Proof.
  intros Hl. destruct (last_Some l x) as [Hs _]. destruct (Hs Hl) as [l' ->].
  rewrite app_length, take_app_alt; [done|simpl; lia].
Qed.

(** Appending [h] when it equals the last stored hash. *)
Lemma mts_append_ok n ms :
  (0 < n)%Z -> reps_ok (-1) n ms ->
  reps_ok (-1) n (mts_append ms (n - 1)) /\
  (forall i, rt (mts_append ms (n - 1)) i = rt ms i + (if i =? n - 1 then 1 else 0))%Z /\
  mts_count (mts_append ms (n - 1)) = (mts_count ms + 1)%Z.
Proof.
  intros Hn Hok. unfold mts_append. destruct (Z.ltb_spec (n - 1) 0); [lia|].
  destruct (last ms) as [l|] eqn:Hl.
  - pose proof (last_split _ _ Hl) as Hs. set (ms0 := take (length ms - 1) ms) in *. clearbody ms0. subst ms.
    clear Hl. pose proof Hok as Hok0. apply reps_ok_snoc in Hok as (Hok & Hlt & Ht).
    destruct (Z.eqb_spec (mt_index l) (n - 1)) as [He|Hne].
    + assert (reps_ok (-1) n (ms0 ++ [MT (mt_index l) (mt_times l + 1)])) as Hok1.
      { apply reps_ok_snoc. simpl. split; [done|]. split; [|lia]. done. }
      split; [done|]. split.
      * intros i. rewrite (rt_snoc _ _ _ _ _ Hok1), (rt_snoc _ _ _ _ _ Hok0). cbn [mt_index mt_times].
        destruct (Z.eqb_spec (mt_index l) i), (Z.eqb_spec i (n - 1)); lia.
      * rewrite !mts_count_app, !mts_count_cons. cbn [mt_times].
        destruct (Z.ltb_spec 0 (mt_times l)), (Z.ltb_spec 0 (mt_times l + 1)); lia.
    + destruct (Z.ltb_spec (mt_index l) (n - 1)); [|lia].
      assert (reps_ok (-1) n ((ms0 ++ [l]) ++ [MT (n - 1) 1])) as Hok1.
      { apply reps_ok_snoc. rewrite last_snoc. simpl. split; [done|lia]. }
      split; [done|]. split.
      * intros i. rewrite (rt_snoc _ _ _ _ _ Hok1). cbn [mt_index mt_times].
        destruct (Z.eqb_spec (n - 1) i), (Z.eqb_spec i (n - 1)); try lia.
        subst i. rewrite (rt_snoc _ _ _ _ _ Hok0). destruct (Z.eqb_spec (mt_index l) (n - 1)); [lia|].
        rewrite (rt_above _ _ _ (n - 1)%Z (reps_ok_last _ _ _ _ Hok0)); lia.
      * rewrite mts_count_app, mts_count_cons. cbn [mt_times]. unfold mts_count at 2. simpl. lia.
  - apply last_None in Hl as ->. split; [simpl; lia|]. split.
    + intros i. cbn [rt mt_index mt_times]. destruct (Z.eqb_spec (n - 1) i), (Z.eqb_spec i (n - 1)); lia.
    + done.
Qed.

Lemma testbit_high n k m : n < 2 ^ m -> m <= k -> N.testbit n k = false.
Proof.
  intros Hn Hk. destruct (N.eq_dec n 0) as [->|Hz]; [apply N.bits_0|].
  apply N.bits_above_log2. apply N.log2_lt_pow2; [lia|].
  eapply N.lt_le_trans; [exact Hn|]. apply N.pow_le_mono_r; lia.
Qed.

Lemma bits_bound n m : (forall k, m <= k -> N.testbit n k = false) -> n < 2 ^ m.
Proof.
  intros Hk. destruct (N.eq_dec n 0) as [->|Hz]; [assert (2 ^ m <> 0) by (apply N.pow_nonzero; lia); lia|].
  apply N.log2_lt_pow2; [lia|].
  destruct (N.lt_ge_cases (N.log2 n) m) as [Hlt|Hge]; [done|].
  pose proof (N.bit_log2 n Hz). rewrite Hk in *; done.
Qed.

Lemma setbit_bound n m : n < 2 ^ m -> N.setbit n m < 2 ^ (m + 1).
Proof.
  intros Hn. apply bits_bound. intros k Hk. rewrite N.setbit_eqb.
  destruct (N.eqb_spec m k); [lia|]. simpl. apply (testbit_high n k m); [done|lia].
Qed.

Lemma mp_rep_append p its h o :
  mp_rep p its -> exists p', mp_append p h o = Some p' /\ mp_rep p' (its ++ [(h, o)]).
Proof.
  intros Hrep. pose proof (mp_rep_len _ _ Hrep) as Hlen. destruct Hrep as (n & Hp & Hb & Hok & Hits).
  assert (exists hs' reps',
    (match last (mp_hashs p) with
    | Some h' => if decide (h' = h)
                 then (mp_hashs p, mts_append (mp_repeats p) (Z.of_nat (length (mp_hashs p)) - 1)%Z)
                 else (mp_hashs p ++ [h], mp_repeats p)
    | None => (mp_hashs p ++ [h], mp_repeats p)
    end) = (hs', reps') /\ reps_ok (-1) (Z.of_nat (length hs')) reps' /\
    expand hs' 0 reps' = expand (mp_hashs p) 0 (mp_repeats p) ++ [h] /\
    (Z.of_nat (length hs') + mts_count reps' - 1 = Z.of_nat (length its))%Z) as (hs' & reps' & Heq & Hok' & Hex & Hl').
  { assert (reps_ok (-1) (Z.of_nat (length (mp_hashs p ++ [h]))) (mp_repeats p) /\
      expand (mp_hashs p ++ [h]) 0 (mp_repeats p) = expand (mp_hashs p) 0 (mp_repeats p) ++ [h] /\
      (Z.of_nat (length (mp_hashs p ++ [h])) + mts_count (mp_repeats p) - 1 = Z.of_nat (length its))%Z) as Hnew.
    { rewrite app_length. simpl. split; [eapply reps_ok_mono; [exact Hok|lia]|]. split.
      - rewrite expand_app. f_equal. cbn [expand]. rewrite (rt_above _ _ _ _ Hok) by lia. done.
      - unfold mp_len in Hlen. lia. }
    destruct (last (mp_hashs p)) as [h'|] eqn:Hl; [|eauto].
    destruct (decide (h' = h)) as [->|]; [|eauto].
    pose proof (last_split _ _ Hl) as Hs. set (hs0 := take _ _) in *. clearbody hs0.
    assert (length (mp_hashs p) = S (length hs0)) as Hlh by (rewrite Hs, app_length; simpl; lia).
    destruct (mts_append_ok (Z.of_nat (length (mp_hashs p))) (mp_repeats p)) as (A1 & A2 & A3); [lia|done|].
    do 2 eexists. split; [done|]. split; [done|]. split; [|unfold mp_len in Hlen; lia].
    rewrite Hs, !expand_app, <- app_assoc. f_equal.
    - rewrite <- Hs. apply expand_ext. intros k Hk. rewrite A2. destruct (Z.eqb_spec k (Z.of_nat (length (mp_hashs p)) - 1)); lia.
    - rewrite <- Hs. cbn [expand]. rewrite A2. destruct (Z.eqb_spec (0 + Z.of_nat (length hs0)) (Z.of_nat (length (mp_hashs p)) - 1)); [|lia].
      pose proof (rt_nonneg _ _ _ (0 + Z.of_nat (length hs0))%Z Hok).
      rewrite !app_nil_r, <- replicate_cons_app. change (h :: ?l) with (replicate 1 h ++ l).
      rewrite <- replicate_add. f_equal. lia. }
  unfold mp_append. rewrite Heq, Hp.
  assert (length (expand (mp_hashs p) 0 (mp_repeats p)) = length its) as Hle by (rewrite <- Hits, withord_length; done).
  destruct o.
  - eexists. split; [done|]. unfold mp_rep. cbn [mp_hashs mp_paths mp_repeats]. rewrite Hl'.
    eexists. split; [done|]. unfold set_bit.
    replace (Z.to_N (Z.of_nat (length its))) with (N.of_nat (length its)) by lia.
    split; [rewrite app_length; simpl; replace (N.of_nat (length its + 1)) with (N.of_nat (length its) + 1) by lia; by apply setbit_bound|].
    split; [done|]. rewrite Hex, withord_app, Hle. f_equal.
    + etrans; [|exact Hits]. apply withord_ext. intros k Hk. rewrite N.setbit_eqb.
      destruct (N.eqb_spec (N.of_nat (length its)) (Z.to_N k)); [lia|done].
    + cbn [withord]. rewrite N.setbit_eqb. destruct (N.eqb_spec (N.of_nat (length its)) (Z.to_N (0 + Z.of_nat (length its)))); [done|lia].
  - eexists. split; [done|]. unfold mp_rep. cbn [mp_hashs mp_paths mp_repeats].
    eexists. split; [done|].
    split; [eapply N.lt_le_trans; [exact Hb|]; apply N.pow_le_mono_r; [lia|]; rewrite app_length; lia|].
    split; [done|]. rewrite Hex, withord_app, Hle. f_equal; [done|].
    cbn [withord]. rewrite (testbit_high _ _ _ Hb) by lia. done.
Qed.

Lemma mp_rep_bits p its : mp_rep p its -> exists n, mp_paths p = Some n /\
  n < 2 ^ N.of_nat (length its) /\
  forall k, (k < length its)%nat -> exists h, its !! k = Some (h, N.testbit n (N.of_nat k)).
Proof.
  intros (n & Hp & Hb & Hok & Hits). exists n. split; [done|]. split; [done|]. intros k Hk.
  rewrite <- Hits, withord_lookup. rewrite <- Hits, withord_length in Hk.
  apply lookup_lt_is_Some_2 in Hk as [h ->]. exists h. simpl. do 3 f_equal. lia.
Qed.

Lemma bigkey_loop_spec n paths key s i :
  (0 <= i)%Z -> (0 <= s)%Z ->
  forall k, N.testbit (bigkey_loop n paths key s i) k =
    if (Z.to_N (s + i) <=? k) && (k <? Z.to_N (s + i + Z.of_nat n)) then N.testbit paths (k - Z.to_N s) else N.testbit key k.
Proof.
  revert key i; induction n as [|n IH]; intros key i Hi Hs k; cbn [bigkey_loop].
  - destruct (_ && _) eqn:Hc; [lia|done].
  - rewrite IH by lia.
    assert (N.testbit (set_bit key (i + s) (N.testbit paths (Z.to_N i))) k =
       if k =? Z.to_N (i + s) then N.testbit paths (Z.to_N i) else N.testbit key k) as ->.
    { unfold set_bit. destruct (N.testbit paths (Z.to_N i)) eqn:Ht.
      - rewrite N.setbit_eqb, N.eqb_sym. destruct (k =? _); done.
      - rewrite N.clearbit_eqb, N.eqb_sym. destruct (k =? _); simpl; [by rewrite andb_false_r|by rewrite andb_true_r]. }
    destruct (N.eqb_spec k (Z.to_N (i + s))) as [->|].
    + repeat match goal with |- context [?a <=? ?b] => destruct (N.leb_spec a b) | |- context [?a <? ?b] => destruct (N.ltb_spec a b) end;
      cbn [andb]; try (exfalso; lia). f_equal; lia.
    + repeat match goal with |- context [?a <=? ?b] => destruct (N.leb_spec a b) | |- context [?a <? ?b] => destruct (N.ltb_spec a b) end;
      cbn [andb]; (done || (exfalso; lia)).
Qed.

(* ---------------------------------------------------------------- Get *)
Lemma expand_nil hs i : expand hs i [] = hs.
Proof. revert i; induction hs as [|v hs IH]; intros i; cbn [expand]; [done|]. rewrite IH. done. Qed.

Lemma expand_zero hs i reps :
  (forall k, (i <= k < i + Z.of_nat (length hs))%Z -> rt reps k = 0%Z) -> expand hs i reps = hs.
Proof. intros Hr. rewrite (expand_ext _ _ reps []); [apply expand_nil|]. intros k Hk. rewrite Hr by done. done. Qed.

Lemma expand_split j hs m r :
  reps_ok j (j + 1 + Z.of_nat (length hs)) (m :: r) ->
  exists l1 v l2, hs = l1 ++ v :: l2 /\ Z.of_nat (length l1) = (mt_index m - j - 1)%Z /\
    expand hs (j + 1) (m :: r) = l1 ++ replicate (Z.to_nat (mt_times m + 1)) v ++ expand l2 (mt_index m + 1) r.
Proof.
  cbn [reps_ok]. intros [(H1 & H2 & H3) Hr].
  destruct (lookup_lt_is_Some_2 hs (Z.to_nat (mt_index m - j - 1))) as [v Hv]; [lia|].
  pose proof (take_drop_middle _ _ _ Hv) as Hs.
  set (l1 := take _ hs) in *. set (l2 := drop _ hs) in *.
  assert (Z.of_nat (length l1) = mt_index m - j - 1)%Z as Hl1.
  { unfold l1. rewrite take_length. lia. }
  exists l1, v, l2. split; [done|]. split; [done|].
  rewrite <- Hs, expand_app, expand_zero. 
  2:{ intros k Hk. cbn [rt]. destruct (Z.eqb_spec (mt_index m) k); [lia|]. eapply rt_below; [exact Hr|lia]. }
  f_equal. replace (j + 1 + Z.of_nat (length l1))%Z with (mt_index m) by lia. cbn [expand].
  f_equal; [cbn [rt]; rewrite Z.eqb_refl; done|].
  apply expand_ext. intros k Hk. cbn [rt]. destruct (Z.eqb_spec (mt_index m) k); [lia|done].
Qed.

Lemma mt_border_eq m last e :
  (mt_valid last = true \/ (mt_index last = 0 /\ e = 0))%Z ->
  forall a, mt_border m last (a, e) = (e + mt_index m - mt_index last, e + mt_index m - mt_index last + mt_times m)%Z.
Proof.
  intros [Hv|[Hz ->]] a; unfold mt_border.
  - rewrite Hv. cbn [negb fst snd]. done.
  - destruct (mt_valid last); cbn [negb snd]; f_equal; lia.
Qed.

Lemma ghi_spec reps : forall last a e hs k,
  (mt_valid last = true \/ (mt_index last = 0 /\ e = 0))%Z -> (0 <= mt_index last)%Z ->
  reps_ok (mt_index last) (mt_index last + 1 + Z.of_nat (length hs)) reps -> (e < k)%Z ->
  exists d, ghi_loop reps last (a, e) k = (mt_index last + 1 + Z.of_nat d)%Z /\
    expand hs (mt_index last + 1) reps !! Z.to_nat (k - e - 1) = hs !! d.
Proof.
  induction reps as [|m r IH]; intros last a e hs k Hv H0 Hok Hk.
  - exists (Z.to_nat (k - e - 1)). cbn [ghi_loop snd]. split; [lia|]. rewrite expand_nil. done.
  - destruct (expand_split _ _ _ _ Hok) as (l1 & v & l2 & -> & Hl1 & ->).
    cbn [reps_ok] in Hok. destruct Hok as [(H1 & H2 & H3) Hr].
    cbn [ghi_loop]. rewrite mt_border_eq by done. unfold border_compared. cbn [fst snd].
    destruct (Z.ltb_spec k (e + mt_index m - mt_index last)) as [Hlt|Hge].
    + cbn. exists (Z.to_nat (k - e - 1)). split; [lia|].
      rewrite !lookup_app_l by lia. done.
    + destruct (Z.leb_spec (e + mt_index m - mt_index last) k); [|lia]. cbn [andb].
      destruct (Z.leb_spec k (e + mt_index m - mt_index last + mt_times m)) as [Hle|Hgt].
      * cbn. exists (length l1). split; [lia|].
        rewrite lookup_app_r, lookup_app_l by (rewrite ?replicate_length; lia).
        rewrite lookup_replicate_2 by lia. rewrite lookup_app_r, Nat.sub_diag by lia. done.
      * cbn [Z.ltb Z.eqb Z.compare].
        destruct (IH m (e + mt_index m - mt_index last)%Z (e + mt_index m - mt_index last + mt_times m)%Z l2 k) as (d & Hd & Hlk).
        -- left. unfold mt_valid. lia.
        -- lia.
        -- rewrite app_length in Hr. cbn [length] in Hr.
           replace (mt_index last + 1 + Z.of_nat (length l1 + S (length l2)))%Z with (mt_index m + 1 + Z.of_nat (length l2))%Z in Hr by lia. done.
        -- lia.
        -- exists (S (length l1 + d)). rewrite Hd. split; [lia|].
           rewrite lookup_app_r by lia. rewrite lookup_app_r by (rewrite replicate_length; lia).
           rewrite replicate_length. rewrite lookup_app_r by lia.
           replace (S (length l1 + d) - length l1)%nat with (S d) by lia. cbn [lookup list_lookup].
           change (list_lookup ?a ?b) with (b !! a). etrans; [|exact Hlk]. f_equal. lia.
Qed.

Lemma get_hashs_index_spec hs reps k :
  reps_ok (-1) (Z.of_nat (length hs)) reps -> (0 <= k)%Z ->
  (0 <= get_hashs_index reps k)%Z /\
  expand hs 0 reps !! Z.to_nat k = hs !! Z.to_nat (get_hashs_index reps k).
Proof.
  intros Hok Hk. unfold get_hashs_index.
  destruct (bool_decide_reflect (reps = [])) as [->|Hne]; cbn [orb].
  { rewrite expand_nil. done. }
  destruct hs as [|v hs].
  { destruct reps as [|m r]; [done|]. cbn [reps_ok length] in Hok. lia. }
  destruct (Z.leb_spec k 0) as [Hk0|Hk0].
  { assert (k = 0)%Z as -> by lia. split; [done|]. cbn [expand Z.to_nat lookup list_lookup].
    pose proof (rt_nonneg _ _ _ 0%Z Hok). rewrite lookup_app_l by (rewrite replicate_length; lia).
    rewrite lookup_replicate_2 by lia. done. }
  destruct reps as [|m r]; [done|].
  destruct (Z.eqb_spec (mt_index m) 0) as [Hm0|Hm0].
  - cbn [reps_ok] in Hok. destruct Hok as [(H1 & H2 & H3) Hr].
    cbn [ghi_loop]. rewrite mt_border_eq by (cbn; auto). unfold border_compared. cbn [fst snd mt_index].
    destruct (Z.ltb_spec k (0 + mt_index m - 0)); [lia|].
    destruct (Z.leb_spec (0 + mt_index m - 0) k); [|lia]. cbn [andb expand rt]. rewrite Hm0. cbn [Z.eqb].
    destruct (Z.leb_spec k (0 + 0 - 0 + mt_times m)) as [Hle|Hgt].
    + cbn [Z.ltb Z.eqb Z.compare]. split; [lia|]. rewrite lookup_app_l by (rewrite replicate_length; lia).
      rewrite lookup_replicate_2 by lia. done.
    + cbn [Z.ltb Z.eqb Z.compare].
      destruct (ghi_spec r m (0 + 0 - 0)%Z (0 + 0 - 0 + mt_times m)%Z hs k) as (d & -> & Hlk).
      * left. unfold mt_valid. lia.
      * lia.
      * cbn [length] in Hr. replace (mt_index m + 1 + Z.of_nat (length hs))%Z with (Z.of_nat (S (length hs))) by lia. done.
      * lia.
      * split; [lia|]. rewrite lookup_app_r by (rewrite replicate_length; lia). rewrite replicate_length.
        replace (Z.to_nat (mt_index m + 1 + Z.of_nat d)) with (S d) by lia. cbn [lookup list_lookup].
        etrans; [|exact Hlk].
        rewrite (expand_ext _ _ (m :: r) r).
        2:{ intros i Hi. cbn [rt]. destruct (Z.eqb_spec (mt_index m) i); [lia|done]. }
        rewrite Hm0. f_equal. lia.
  - assert (reps_ok 0 (0 + 1 + Z.of_nat (length hs)) (m :: r)) as Hok0.
    { cbn [reps_ok length] in *. replace (0 + 1 + Z.of_nat (length hs))%Z with (Z.of_nat (S (length hs))) by lia.
      split; [lia|]. apply Hok. }
    destruct (ghi_spec (m :: r) (MT 0 0) 0%Z 0%Z hs k) as (d & -> & Hlk); [auto|done|done|lia|].
    split; [simpl; lia|]. cbn [mt_index] in *. replace (Z.to_nat (0 + 1 + Z.of_nat d)) with (S d) by lia.
    cbn [expand]. rewrite (rt_below 0 _ _ 0 Hok0) by lia. cbn [Z.add Z.to_nat Pos.to_nat Pos.iter_op replicate app lookup list_lookup].
    etrans; [|exact Hlk].
    replace (Z.to_nat k) with (S (Z.to_nat (k - 0 - 1))) by lia. done.
Qed.

Lemma mp_rep_get p its i : mp_rep p its -> (0 <= i)%Z -> mp_get p i = its !! Z.to_nat i.
Proof.
  intros (n & Hp & Hb & Hok & <-) Hi. unfold mp_get.
  destruct (Z.ltb_spec i 0); [lia|].
  destruct (get_hashs_index_spec _ _ i Hok Hi) as [Hg He].
  rewrite withord_lookup, He, Hp.
  destruct (Z.ltb_spec (get_hashs_index (mp_repeats p) i) 0); [lia|]. cbn [orb].
  destruct (Z.leb_spec (Z.of_nat (length (mp_hashs p))) (get_hashs_index (mp_repeats p) i)) as [Hle|Hlt].
  - rewrite lookup_ge_None_2 by lia. done.
  - destruct (mp_hashs p !! _); [|done]. simpl. do 3 f_equal. lia.
Qed.
