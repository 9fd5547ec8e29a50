From Coq Require Import Sorted.
From Verif Require Import Base RlpTypeModel RlpTagModel RlpTagSpec.

(** * Words of a tag *)
Lemma blank_spec c : isSpace c = true <-> c = 32 \/ 9 <= c <= 13.
Proof. unfold isSpace. rewrite orb_true_iff, andb_true_iff, N.eqb_eq, !N.leb_le. done. Qed.

Lemma blanks_nocomma s : blanks s -> 44 ∉ s.
Proof. intros H Hin. unfold blanks in H. rewrite Forall_forall in H. specialize (H _ Hin). lia. Qed.

Lemma Split_ne s : Split s <> [].
Proof. destruct s as [|c s]; cbn; [done|]. destruct (c =? 44); [done|]. by destruct (Split s). Qed.
Lemma Split_nocomma s : 44 ∉ s -> Split s = [s].
Proof.
  induction s as [|c s IH]; [done|]. intros H. apply not_elem_of_cons in H as [Hc Hs].
  cbn. destruct (N.eqb_spec c 44); [congruence|]. by rewrite IH.
Qed.
Lemma Split_app a b : Split (a ++ 44 :: b) = Split a ++ Split b.
Proof.
  induction a as [|c a IH]; [done|]. cbn [app Split]. destruct (c =? 44); rewrite IH; [done|].
  pose proof (Split_ne a). by destruct (Split a).
Qed.
Lemma Split_decomp s l1 w l2 : Split s = l1 ++ w :: l2 ->
  44 ∉ w /\ exists pre post, s = pre ++ w ++ post /\ (pre = [] \/ exists p, pre = p ++ [44]) /\
    ((post = [] /\ l2 = []) \/ exists q, post = 44 :: q /\ Split q = l2).
Proof.
  revert l1 w l2. induction s as [|c s IH]; intros l1 w l2 H.
  - cbn in H. destruct l1 as [|? l1]; [|destruct l1; done]. injection H as <- <-.
    split; [apply not_elem_of_nil|]. exists [], []. naive_solver.
  - cbn in H. destruct (N.eqb_spec c 44) as [->|Hc].
    + destruct l1 as [|x l1]; injection H as <- H.
      * split; [apply not_elem_of_nil|]. exists [], (44 :: s). split; [done|]. split; [by left|]. right. by exists s.
      * destruct (IH _ _ _ H) as (Hw & pre & post & -> & Hpre & Hpost). split; [done|].
        exists (44 :: pre), post. split; [done|]. split; [|done]. right.
        destruct Hpre as [Hp|[p Hp]]; subst pre; [by exists []|by exists (44 :: p)].
    + destruct (Split s) as [|w0 ws] eqn:Es; [by destruct (Split_ne s)|].
      destruct l1 as [|x l1].
      * injection H as <- <-. destruct (IH [] w0 ws eq_refl) as (Hw & pre & post & Hs & Hpre & Hpost).
        split; [apply not_elem_of_cons; split; [congruence|done]|].
        assert (pre = []) as Hp0.
        { destruct Hpre as [|[p Hp]]; [done|exfalso]. subst pre s. rewrite <- !app_assoc in Es. cbn in Es.
          rewrite Split_app in Es. 
          assert (Hl : length (Split p ++ Split (w0 ++ post)) = length (w0 :: ws)) by by rewrite Es.
          rewrite app_length in Hl. cbn in Hl.
          assert (length (Split (w0 ++ post)) = S (length ws)) as Hl2.
          { destruct Hpost as [[-> ->]|[q [-> Hq]]].
            - rewrite app_nil_r, Split_nocomma by done. done.
            - rewrite Split_app, Split_nocomma by done. rewrite Hq. done. }
          pose proof (Split_ne p). destruct (Split p); [done|cbn in Hl; lia]. }
        subst pre s. exists [], post. split; [done|]. split; [by left|done].
      * injection H as <- H. subst ws. destruct (IH (w0 :: l1) w l2 eq_refl) as (Hw & pre & post & Hs & Hpre & Hpost).
        split; [done|]. exists (c :: pre), post. split; [by subst s|]. split; [|done]. right.
        destruct Hpre as [Hp|[p Hp]]; subst pre; [|by exists (c :: p)].
        exfalso. subst s.
        assert (length (Split (w ++ post)) = S (length l2)) as Hl2.
        { destruct Hpost as [[-> ->]|[q [-> Hq]]].
          - cbn [app]. rewrite app_nil_r, Split_nocomma by done. done.
          - cbn [app]. rewrite Split_app, Split_nocomma by done. rewrite Hq. done. }
        cbn [app] in Es. rewrite Es in Hl2. cbn in Hl2. rewrite app_length in Hl2. cbn in Hl2. lia.
Qed.

Lemma trimLeft_split s : exists b, s = b ++ trimLeft s /\ blanks b /\ forall c, head (trimLeft s) = Some c -> ~ blanks [c].
Proof.
  induction s as [|c s IH]; [by exists []; cbn; split_and!; [done|constructor|]|].
  cbn. destruct (isSpace c) eqn:E.
  - destruct IH as (b & Hs & Hb & Hh). exists (c :: b). split; [cbn; by f_equal|]. split; [|done].
    constructor; [by apply blank_spec|done].
  - exists []. split; [done|]. split; [constructor|]. cbn. intros ? [= <-] Hbad.
    apply Forall_inv in Hbad. apply blank_spec in Hbad. congruence.
Qed.
Lemma trimLeft_blanks b s : blanks b -> trimLeft (b ++ s) = trimLeft s.
Proof.
  induction 1 as [|c b Hc Hb IH]; [done|]. cbn. apply blank_spec in Hc. by rewrite Hc.
Qed.
Lemma trimLeft_id s : (forall c, head s = Some c -> ~ blanks [c]) -> trimLeft s = s.
Proof.
  destruct s as [|c s]; [done|]. intros H. cbn. destruct (isSpace c) eqn:E; [|done].
  exfalso. apply (H c); [done|]. constructor; [by apply blank_spec|constructor].
Qed.
Lemma blanks_rev b : blanks b -> blanks (rev b).
Proof. intros H. unfold blanks in *. by apply Forall_rev. Qed.
Lemma head_rev_last (w : list N) : head (rev w) = last w.
Proof. destruct w as [|x w _] using rev_ind; [done|]. rewrite rev_app_distr, last_snoc. done. Qed.

Lemma TrimSpace_split s : exists b1 b2, s = b1 ++ TrimSpace s ++ b2 /\ blanks b1 /\ blanks b2 /\
  (forall c, head (TrimSpace s) = Some c -> ~ blanks [c]) /\ (forall c, last (TrimSpace s) = Some c -> ~ blanks [c]).
Proof.
  unfold TrimSpace. destruct (trimLeft_split s) as (b1 & H1 & Hb1 & Hh1).
  destruct (trimLeft_split (rev (trimLeft s))) as (b2 & H2 & Hb2 & Hh2).
  set (t := trimLeft (rev (trimLeft s))) in *.
  assert (trimLeft s = rev t ++ rev b2) as H3 by (rewrite <- rev_app_distr, <- H2; by rewrite rev_involutive).
  exists b1, (rev b2). split; [by rewrite <- H3|]. split; [done|]. split; [by apply blanks_rev|]. split.
  - intros c Hc. apply Hh1. rewrite H3. destruct (rev t); [done|]. done.
  - intros c Hc. rewrite <- head_rev_last, rev_involutive in Hc. by apply Hh2.
Qed.
Lemma TrimSpace_id b1 w b2 : blanks b1 -> blanks b2 -> plain_word w -> TrimSpace (b1 ++ w ++ b2) = w.
Proof.
  intros Hb1 Hb2 (_ & Hh & Hl). unfold TrimSpace. rewrite trimLeft_blanks by done.
  destruct w as [|c w].
  - cbn [app]. replace b2 with (b2 ++ []) by apply app_nil_r. by rewrite trimLeft_blanks.
  - rewrite (trimLeft_id ((c :: w) ++ b2)) by (intros x Hx; apply Hh; exact Hx).
    rewrite rev_app_distr, trimLeft_blanks by by apply blanks_rev.
    rewrite trimLeft_id; [by rewrite rev_involutive|]. intros x Hx. apply Hl. by rewrite <- head_rev_last.
Qed.

Definition wordsof (s : list N) : list (list N) := map TrimSpace (Split s).

Lemma wordsof_plain s w : w ∈ wordsof s -> plain_word w.
Proof.
  intros Hw. apply elem_of_list_fmap in Hw as (x & -> & Hx). apply elem_of_list_split in Hx as (l1 & l2 & Hx).
  apply Split_decomp in Hx as [Hc _]. destruct (TrimSpace_split x) as (b1 & b2 & Hs & _ & _ & H1 & H2).
  split; [|done]. rewrite Hs in Hc. intros Hin. apply Hc. apply elem_of_app. right. apply elem_of_app. by left.
Qed.

Lemma word_at_1 s w post : word_at s w post -> plain_word w ->
  exists l1, wordsof s = l1 ++ w :: match post with [] => [] | _ :: q => wordsof q end.
Proof.
  intros (pre & b1 & b2 & -> & Hb1 & Hb2 & Hpre & Hpost) Hw.
  assert (Hn : 44 ∉ b1 ++ w ++ b2).
  { rewrite !elem_of_app. intros [H|[H|H]]; [exact (blanks_nocomma _ Hb1 H)|destruct Hw as [Hw _]; exact (Hw H)|exact (blanks_nocomma _ Hb2 H)]. }
  assert (H1 : wordsof (b1 ++ w ++ b2 ++ post) = w :: match post with [] => [] | _ :: q => wordsof q end).
  { replace (b1 ++ w ++ b2 ++ post) with ((b1 ++ w ++ b2) ++ post) by by rewrite <- !app_assoc.
    destruct Hpost as [Hp|[q Hp]]; subst post.
    - rewrite app_nil_r. unfold wordsof. rewrite Split_nocomma by done. cbn [map]. by rewrite TrimSpace_id.
    - unfold wordsof. rewrite Split_app, Split_nocomma by done. cbn [map app]. by rewrite TrimSpace_id. }
  destruct Hpre as [Hp|[p Hp]]; subst pre.
  - exists []. exact H1.
  - exists (wordsof p). rewrite <- H1. rewrite <- app_assoc. cbn [app].
    unfold wordsof. by rewrite Split_app, map_app.
Qed.
Lemma word_at_2 s l1 w l2 : wordsof s = l1 ++ w :: l2 ->
  exists post, word_at s w post /\ match post with [] => l2 = [] | _ :: q => l2 = wordsof q end.
Proof.
  intros H. unfold wordsof in H. apply map_eq_app in H as (x1 & x2 & Hs & H1 & H2).
  apply map_eq_cons in H2 as (x & x3 & Hx2 & Hx & H3). rewrite Hx2 in Hs.
  apply Split_decomp in Hs as (Hn & pre & post & Hs & Hpre & Hpost).
  destruct (TrimSpace_split x) as (b1 & b2 & Hx' & Hb1 & Hb2 & _). rewrite Hx in Hx'.
  exists post. split.
  - exists pre, b1, b2. split_and!; [|done|done|done|].
    + rewrite Hs, Hx', <- !app_assoc. done.
    + destruct Hpost as [[Hp _]|(q & Hp & _)]; [by left|right; by exists q].
  - destruct Hpost as [[Hp Hl]|(q & Hp & Hl)]; subst post; [by subst x3|]. unfold wordsof. by rewrite Hl.
Qed.
Lemma word_at_in s w : plain_word w -> (exists post, word_at s w post) <-> w ∈ wordsof s.
Proof.
  intros Hw. split.
  - intros [post H]. apply word_at_1 in H as [l1 H]; [|done]. rewrite H. apply elem_of_app. right. by left.
  - intros H. apply elem_of_list_split in H as (l1 & l2 & H). apply word_at_2 in H as (post & H & _). by exists post.
Qed.

Lemma plainw (w : list N) : w ∈ [s_ignore; s_nil; s_nilString; s_nilList; s_optional; s_tail] -> plain_word w.
Proof.
  intros H. assert (Forall plain_word [s_ignore; s_nil; s_nilString; s_nilList; s_optional; s_tail]) as HF.
  { repeat apply Forall_cons_2; [..|constructor].
    all: split; [rewrite <- (bool_decide_eq_false (_ ∈ _)); vm_compute; reflexivity|].
    all: split; intros c [= <-] Hb; apply Forall_inv in Hb; lia. }
  rewrite Forall_forall in HF. by apply HF.
Qed.
Lemma plainw_nil w : asks_nil w -> plain_word w.
Proof. intros [H|[H|H]]; subst w; apply plainw; repeat ((by left) || right). Qed.

Lemma says_in f w : plain_word w -> says f w <-> w ∈ wordsof (f_tag f).
Proof. intros. by apply word_at_in. Qed.

(** * The parser *)
Definition nilw (w : list N) : bool := bool_decide (w = s_nil) || bool_decide (w = s_nilString) || bool_decide (w = s_nilList).
Lemma nilw_spec w : nilw w = true <-> asks_nil w.
Proof. unfold nilw, asks_nil. rewrite !orb_true_iff, !bool_decide_eq_true. tauto. Qed.
Definition nk_step (f : field) (k : N) (w : list N) : N :=
  if nilw w then
    if bool_decide (w = s_nil) then match f_type f with TPtr e => DefaultNilValue e | _ => 0 end
    else if bool_decide (w = s_nilString) then 0x80 else 0xC0
  else k.
Definition known (w : list N) : bool :=
  bool_decide (w = []) || bool_decide (w = s_ignore) || nilw w || bool_decide (w = s_optional) || bool_decide (w = s_tail).
Definition isptr (t : typ) : bool := match t with TPtr _ => true | _ => false end.
Definition isslice (t : typ) : bool := match t with TSlice _ => true | _ => false end.
Definition word_ok (f : field) (lp : nat) (w : list N) : bool :=
  known w && (negb (nilw w) || isptr (f_type f)) &&
  (negb (bool_decide (w = s_tail)) || ((f_index f =? lp)%nat && isslice (f_type f))).
Definition mem (w : list N) (ws : list (list N)) : bool := existsb (fun x => bool_decide (x = w)) ws.
Lemma mem_spec w ws : mem w ws = true <-> w ∈ ws.
Proof.
  unfold mem. rewrite existsb_exists. split.
  - intros (x & Hx & H). apply bool_decide_eq_true in H. subst. by apply elem_of_list_In.
  - intros H. exists w. split; [by apply elem_of_list_In|by apply bool_decide_eq_true].
Qed.
Definition final (f : field) (ws : list (list N)) (ts : tags) : tags :=
  Tags (fold_left (nk_step f) ws (t_nilkind ts)) (t_nilok ts || existsb nilw ws)
    (t_optional ts || mem s_optional ws) (t_tail ts || mem s_tail ws) (t_ignored ts || mem s_ignore ws).
Definition okw (f : field) (lp : nat) (ws : list (list N)) (ts : tags) : bool :=
  forallb (word_ok f lp) ws &&
  negb ((t_optional ts || mem s_optional ws) && (t_tail ts || mem s_tail ws)).

Lemma word_cases w : w = [] \/ w = s_ignore \/ w = s_nil \/ w = s_nilString \/ w = s_nilList \/ w = s_optional \/ w = s_tail \/
  (known w = false /\ nilw w = false /\ w <> [] /\ w <> s_ignore /\ w <> s_optional /\ w <> s_tail).
Proof.
  destruct (known w) eqn:E.
  - unfold known, nilw in E. rewrite !orb_true_iff, !bool_decide_eq_true in E. naive_solver.
  - do 7 right. split; [done|]. unfold known in E. rewrite !orb_false_iff, !bool_decide_eq_false in E. naive_solver.
Qed.

Lemma tag_words_spec f lp ws : forall ts, t_optional ts && t_tail ts = false ->
  match tag_words f lp ts ws with
  | inr ts' => okw f lp (map TrimSpace ws) ts = true /\ ts' = final f (map TrimSpace ws) ts
  | inl _ => okw f lp (map TrimSpace ws) ts = false
  end.
Proof.
  induction ws as [|w0 ws IH]; intros [nk nilok opt tail ign] Hts; cbn in Hts.
  - cbn. unfold okw, final. cbn. rewrite !orb_false_r, Hts. done.
  - cbn [tag_words map]. set (w := TrimSpace w0). clearbody w. set (W := map TrimSpace ws) in *.
    destruct (word_cases w) as [H|[H|[H|[H|[H|[H|[H|H]]]]]]].
    8: { destruct H as (Hk & Hn & H1 & H2 & H3 & H4). cbn [tag_word].
      rewrite (bool_decide_eq_false_2 _ H1), (bool_decide_eq_false_2 _ H2). unfold nilw in Hn. rewrite Hn.
      rewrite (bool_decide_eq_false_2 _ H3), (bool_decide_eq_false_2 _ H4).
      unfold okw. cbn [forallb]. unfold word_ok at 1. rewrite Hk. done. }
    all: subst w; cbn [tag_word].
    + change (bool_decide (([] : list N) = [])) with true. cbv iota.
      specialize (IH (Tags nk nilok opt tail ign) Hts).
      destruct (tag_words f lp _ ws); exact IH.
    + change (bool_decide (s_ignore = [])) with false. change (bool_decide (s_ignore = s_ignore)) with true. cbv iota.
      specialize (IH (Tags nk nilok opt tail true) Hts).
      destruct (tag_words f lp _ ws); [exact IH|]. destruct IH as [IH ->]. split; [exact IH|].
      unfold final. cbn. by rewrite orb_true_r.
    + change (bool_decide (s_nil = [])) with false. change (bool_decide (s_nil = s_ignore)) with false.
      change (bool_decide (s_nil = s_nil)) with true. cbv [orb]. cbv iota.
      destruct (f_type f) as [| e | |] eqn:Et; try (unfold okw; cbn [forallb]; unfold word_ok at 1; rewrite Et; reflexivity).
      specialize (IH (Tags (DefaultNilValue e) true opt tail ign) Hts).
      destruct (tag_words f lp _ ws).
      * revert IH. unfold okw. cbn [forallb]. unfold word_ok at 2. rewrite Et. exact id.
      * destruct IH as [IH ->]. split.
        -- revert IH. unfold okw. cbn [forallb]. unfold word_ok at 2. rewrite Et. exact id.
        -- assert (Hnk : nk_step f nk s_nil = DefaultNilValue e) by (unfold nk_step; rewrite Et; reflexivity).
           unfold final. cbn. rewrite Hnk. by rewrite orb_true_r.
    + change (bool_decide (s_nilString = [])) with false. change (bool_decide (s_nilString = s_ignore)) with false.
      change (bool_decide (s_nilString = s_nil)) with false. change (bool_decide (s_nilString = s_nilString)) with true.
      cbv [orb]. cbv iota.
      destruct (f_type f) as [| e | |] eqn:Et; try (unfold okw; cbn [forallb]; unfold word_ok at 1; rewrite Et; reflexivity).
      specialize (IH (Tags 0x80 true opt tail ign) Hts).
      destruct (tag_words f lp _ ws).
      * revert IH. unfold okw. cbn [forallb]. unfold word_ok at 2. rewrite Et. exact id.
      * destruct IH as [IH ->]. split.
        -- revert IH. unfold okw. cbn [forallb]. unfold word_ok at 2. rewrite Et. exact id.
        -- unfold final. cbn. by rewrite orb_true_r.
    + change (bool_decide (s_nilList = [])) with false. change (bool_decide (s_nilList = s_ignore)) with false.
      change (bool_decide (s_nilList = s_nil)) with false. change (bool_decide (s_nilList = s_nilString)) with false.
      change (bool_decide (s_nilList = s_nilList)) with true.
      cbv [orb]. cbv iota.
      destruct (f_type f) as [| e | |] eqn:Et; try (unfold okw; cbn [forallb]; unfold word_ok at 1; rewrite Et; reflexivity).
      specialize (IH (Tags 0xC0 true opt tail ign) Hts).
      destruct (tag_words f lp _ ws).
      * revert IH. unfold okw. cbn [forallb]. unfold word_ok at 2. rewrite Et. exact id.
      * destruct IH as [IH ->]. split.
        -- revert IH. unfold okw. cbn [forallb]. unfold word_ok at 2. rewrite Et. exact id.
        -- unfold final. cbn. by rewrite orb_true_r.
    + change (bool_decide (s_optional = [])) with false. change (bool_decide (s_optional = s_ignore)) with false.
      change (bool_decide (s_optional = s_nil)) with false. change (bool_decide (s_optional = s_nilString)) with false.
      change (bool_decide (s_optional = s_nilList)) with false. change (bool_decide (s_optional = s_optional)) with true.
      cbv [orb]. cbv iota. destruct tail.
      * unfold okw. cbn [t_optional t_tail]. replace (mem s_optional (s_optional :: W)) with true by reflexivity.
        rewrite orb_true_r. cbn. by rewrite andb_false_r.
      * specialize (IH (Tags nk nilok true false ign) eq_refl).
        destruct (tag_words f lp _ ws).
        -- revert IH. unfold okw. cbn. rewrite orb_true_r. cbn. exact id.
        -- destruct IH as [IH ->]. split.
           ++ revert IH. unfold okw. cbn. rewrite orb_true_r. cbn. exact id.
           ++ unfold final. cbn. by rewrite orb_true_r.
    + change (bool_decide (s_tail = [])) with false. change (bool_decide (s_tail = s_ignore)) with false.
      change (bool_decide (s_tail = s_nil)) with false. change (bool_decide (s_tail = s_nilString)) with false.
      change (bool_decide (s_tail = s_nilList)) with false. change (bool_decide (s_tail = s_optional)) with false.
      change (bool_decide (s_tail = s_tail)) with true. cbv [orb]. cbv iota.
      destruct (f_index f =? lp)%nat eqn:Ei; cbn [negb]; cbv iota.
      2: { unfold okw. cbn [forallb]. unfold word_ok at 1. rewrite Ei. cbn. reflexivity. }
      destruct opt.
      { unfold okw. cbn [t_optional t_tail]. replace (mem s_tail (s_tail :: W)) with true by reflexivity.
        rewrite orb_true_r. cbn. by rewrite andb_false_r. }
      destruct (f_type f) as [| |e|] eqn:Et; try (unfold okw; cbn [forallb]; unfold word_ok at 1; rewrite Et, Ei; reflexivity).
      specialize (IH (Tags nk nilok false true ign) eq_refl).
      destruct (tag_words f lp _ ws).
      * revert IH. unfold okw. cbn. unfold word_ok at 2. rewrite Et, Ei. destruct tail; exact id.
      * destruct IH as [IH ->]. split.
        -- revert IH. unfold okw. cbn. unfold word_ok at 2. rewrite Et, Ei. destruct tail; exact id.
        -- unfold final. cbn. by rewrite orb_true_r.
Qed.

Definition ts0 := Tags 0 false false false false.
Lemma parseTag_spec f lp :
  match parseTag f lp with
  | inr ts => okw f lp (wordsof (f_tag f)) ts0 = true /\ ts = final f (wordsof (f_tag f)) ts0
  | inl _ => okw f lp (wordsof (f_tag f)) ts0 = false
  end.
Proof. apply (tag_words_spec f lp (Split (f_tag f)) ts0). done. Qed.

Lemma nk_fold f ws : forall k, existsb nilw ws = true ->
  exists l1 w l2, ws = l1 ++ w :: l2 /\ nilw w = true /\ existsb nilw l2 = false /\
    fold_left (nk_step f) ws k = nk_step f 0 w.
Proof.
  induction ws as [|w ws IH]; [done|]. intros k H. cbn in H. cbn [fold_left].
  destruct (existsb nilw ws) eqn:E.
  - destruct (IH (nk_step f k w) eq_refl) as (l1 & w' & l2 & -> & H1 & H2 & H3).
    exists (w :: l1), w', l2. done.
  - rewrite orb_false_r in H. exists [], w, ws. split; [done|]. split; [done|]. split; [done|].
    assert (forall k, fold_left (nk_step f) ws k = k) as Hid.
    { clear -E. induction ws as [|x ws IH]; [done|]. cbn in E. apply orb_false_iff in E as [E1 E2]. intros k.
      cbn. unfold nk_step at 2. rewrite E1. by apply IH. }
    rewrite Hid. unfold nk_step. by rewrite H.
Qed.

Lemma existsb_nil ws : existsb nilw ws = true <-> exists w, asks_nil w /\ w ∈ ws.
Proof.
  rewrite existsb_exists. split; intros (w & H1 & H2); exists w.
  - split; [by apply nilw_spec|by apply elem_of_list_In].
  - split; [by apply elem_of_list_In|by apply nilw_spec].
Qed.

Lemma in6 (w : list N) : w = s_ignore \/ w = s_optional \/ w = s_tail -> plain_word w.
Proof. intros [H|[H|H]]; subst w; apply plainw; repeat ((by left) || right). Qed.

Lemma says_nil f : (exists w, asks_nil w /\ says f w) <-> existsb nilw (wordsof (f_tag f)) = true.
Proof.
  rewrite existsb_nil. split; intros (w & H1 & H2); exists w; split; try done.
  - apply says_in; [by apply plainw_nil|done].
  - apply says_in; [by apply plainw_nil|done].
Qed.
Lemma says_mem f w : w = s_ignore \/ w = s_optional \/ w = s_tail -> says f w <-> mem w (wordsof (f_tag f)) = true.
Proof. intros. rewrite mem_spec. apply says_in. by apply in6. Qed.

Lemma final_mean f lp : okw f lp (wordsof (f_tag f)) ts0 = true -> tags_mean f (final f (wordsof (f_tag f)) ts0).
Proof.
  intros Hok. constructor; cbn.
  - rewrite says_mem by tauto. done.
  - rewrite says_mem by tauto. done.
  - rewrite says_mem by tauto. done.
  - rewrite says_nil. done.
  - intros H. destruct (nk_fold f _ 0 H) as (l1 & w & l2 & Hw & Hn & Hl2 & ->).
    apply andb_true_iff in Hok as [Hok _]. rewrite Hw in Hok. rewrite forallb_app in Hok.
    apply andb_true_iff in Hok as [_ Hok]. cbn in Hok. apply andb_true_iff in Hok as [Hok _].
    unfold word_ok in Hok. rewrite Hn in Hok. cbn in Hok. rewrite !andb_true_iff in Hok. destruct Hok as [[_ Hp] _].
    destruct (f_type f) as [|e| |] eqn:Et; try done.
    apply word_at_2 in Hw as (post & Hw & Hpost). exists e, w, post. split; [done|]. split; [done|]. split.
    + unfold nk_step. rewrite Hn, Et. apply nilw_spec in Hn as [Hx|[Hx|Hx]]; subst w; cbn; constructor.
    + intros q w' post' -> Hw' Hasks. assert (w' ∈ wordsof q) as Hin.
      { apply word_at_in; [by apply plainw_nil|by exists post']. }
      rewrite <- Hpost in Hin. assert (existsb nilw l2 = true) by (apply existsb_nil; by exists w'). congruence.
Qed.

Definition later_hidden (fs : list field) (i : nat) := forall j g, (i < j)%nat -> fs !! j = Some g -> f_exported g = false.

Lemma lastPublic_spec fs i f : indexed fs -> fs !! i = Some f -> f_exported f = true ->
  (f_index f = lastPublicField fs <-> later_hidden fs i).
Proof.
  intros Hix Hf Hexp. rewrite (Hix _ _ Hf). unfold lastPublicField.
  generalize 0%nat as d. 
  induction fs as [|g fs IH] using rev_ind; [done|]. intros d.
  rewrite fold_left_app. cbn. 
  assert (Hix' : indexed fs) by (intros k h Hk; apply Hix; by apply lookup_app_l_Some).
  assert (Hg : f_index g = length fs) by (apply Hix; by apply list_lookup_middle).
  apply lookup_app_Some in Hf as [Hf|[Hle Hf]].
  - pose proof (lookup_lt_Some _ _ _ Hf) as Hlt. destruct (f_exported g) eqn:Eg.
    + split; [intros ->; lia|]. intros Hl. specialize (Hl (length fs) g Hlt). 
      rewrite list_lookup_middle in Hl by done. specialize (Hl eq_refl). congruence.
    + rewrite (IH Hix' Hf d). unfold later_hidden. split; intros Hl j h Hj Hjh.
      * apply lookup_app_Some in Hjh as [Hjh|[_ Hjh]]; [by eapply Hl|].
        apply list_lookup_singleton_Some in Hjh as [_ <-]. done.
      * eapply Hl; [exact Hj|]. by apply lookup_app_l_Some.
  - apply list_lookup_singleton_Some in Hf as [Hi <-]. rewrite Hexp, Hg. 
    split; [|lia]. intros _ j h Hj Hjh. apply lookup_lt_Some in Hjh. rewrite app_length in Hjh. cbn in Hjh. lia.
Qed.

Lemma okw_spec fs i f : indexed fs -> fs !! i = Some f -> f_exported f = true ->
  okw f (lastPublicField fs) (wordsof (f_tag f)) ts0 = true <-> tag_ok fs i f.
Proof.
  intros Hix Hf Hexp. pose proof (lastPublic_spec fs i f Hix Hf Hexp) as Hlp.
  unfold okw. cbn [t_optional t_tail ts0 orb]. rewrite andb_true_iff, negb_true_iff, forallb_forall. split.
  - intros [Hw Hot].
    assert (Hw' : forall w, w ∈ wordsof (f_tag f) -> word_ok f (lastPublicField fs) w = true) by (intros; by apply Hw, elem_of_list_In).
    constructor.
    + intros w post Hat Hp. assert (Hin : w ∈ wordsof (f_tag f)) by (apply word_at_in; [done|by exists post]).
      specialize (Hw' _ Hin). unfold word_ok, known in Hw'. rewrite !andb_true_iff, !orb_true_iff, !bool_decide_eq_true, nilw_spec in Hw'.
      tauto.
    + intros (w & Ha & Hs). apply says_in in Hs; [|by apply plainw_nil]. specialize (Hw' _ Hs).
      unfold word_ok in Hw'. apply nilw_spec in Ha. rewrite Ha in Hw'. cbn in Hw'. rewrite !andb_true_iff in Hw'.
      destruct Hw' as [[_ Hw'] _]. destruct (f_type f) as [|e| |]; try done. by exists e.
    + rewrite !says_mem by tauto. intros [H1 H2]. by rewrite H1, H2 in Hot.
    + intros Hs. apply says_in in Hs; [|apply in6; tauto]. specialize (Hw' _ Hs).
      unfold word_ok in Hw'. rewrite !andb_true_iff in Hw'. destruct Hw' as [_ Hw'].
      rewrite (bool_decide_eq_true_2 _ (eq_refl s_tail)) in Hw'. cbn in Hw'. apply andb_true_iff in Hw' as [Hi Hsl].
      apply Nat.eqb_eq in Hi. split; [|by apply Hlp]. destruct (f_type f) as [| |e|]; try done. by exists e.
  - intros [H1 H2 H3 H4]. split.
    + intros w Hin. apply elem_of_list_In in Hin. pose proof (wordsof_plain _ _ Hin) as Hp.
      assert (Hs : says f w) by by apply says_in. 
      unfold word_ok. rewrite !andb_true_iff. split_and!.
      * destruct Hs as [post Hs]. specialize (H1 w post Hs Hp). unfold known. 
        rewrite !orb_true_iff, !bool_decide_eq_true, nilw_spec. tauto.
      * destruct (nilw w) eqn:E; [|done]. apply nilw_spec in E. destruct H2 as [e ->]; [by exists w|done].
      * destruct (bool_decide (w = s_tail)) eqn:E; [|done]. apply bool_decide_eq_true in E. subst w.
        destruct (H4 Hs) as [[e ->] Hl]. cbn. rewrite andb_true_r. apply Nat.eqb_eq. by apply Hlp.
    + apply not_true_is_false. rewrite andb_true_iff, <- !says_mem by tauto. done.
Qed.

(** * The list of fields *)
Definition keptb (f : field) : bool := f_exported f && negb (mem s_ignore (wordsof (f_tag f))).
Lemma keptb_spec f : keptb f = true <-> encoded f.
Proof. unfold keptb, encoded. rewrite andb_true_iff, negb_true_iff, says_mem by tauto. by rewrite not_true_iff_false. Qed.

Definition pack (f : field) : field * tags := (f, final f (wordsof (f_tag f)) ts0).
Lemma gather_spec lp fs :
  match gather lp fs with
  | inr r => r = map pack (List.filter keptb fs) /\ Forall (fun f => f_exported f = true -> okw f lp (wordsof (f_tag f)) ts0 = true) fs
  | inl _ => ~ Forall (fun f => f_exported f = true -> okw f lp (wordsof (f_tag f)) ts0 = true) fs
  end.
Proof.
  induction fs as [|f fs IH]; [done|]. cbn [gather List.filter]. unfold keptb at 1.
  destruct (f_exported f) eqn:Ee; cbn [negb andb].
  2: { destruct (gather lp fs); [intros H; by apply Forall_inv_tail in H|]. destruct IH as [-> IH]. split; [done|].
       constructor; [congruence|done]. }
  pose proof (parseTag_spec f lp) as HP. destruct (parseTag f lp) as [e|ts].
  { intros H. apply Forall_inv in H. specialize (H Ee). congruence. }
  destruct HP as [Hok ->]. destruct (gather lp fs) as [e|r]; [intros H; by apply Forall_inv_tail in H|].
  destruct IH as [-> IH]. split; [|by constructor].
  change (t_ignored (final f (wordsof (f_tag f)) ts0)) with (mem s_ignore (wordsof (f_tag f))).
  by destruct (mem s_ignore (wordsof (f_tag f))).
Qed.

Definition maybe (f : field) : bool := mem s_optional (wordsof (f_tag f)) || mem s_tail (wordsof (f_tag f)).
Lemma maybe_spec f : maybe f = true <-> says f s_optional \/ says f s_tail.
Proof. unfold maybe. rewrite orb_true_iff, !says_mem by tauto. done. Qed.
Lemma consistent_spec l : forall any, consistent any (map pack l) = true <->
  (any = true -> Forall (fun f => maybe f = true) l) /\
  forall i j f g, (i < j)%nat -> l !! i = Some f -> l !! j = Some g -> maybe f = true -> maybe g = true.
Proof.
  induction l as [|f l IH]; intros any.
  - cbn. split; [|done]. intros _. split; [by constructor|]. intros i j ? ? _ H. by rewrite lookup_nil in H.
  - cbn [map consistent]. unfold pack at 1. cbv iota beta.
    change (t_optional (final f (wordsof (f_tag f)) ts0) || t_tail (final f (wordsof (f_tag f)) ts0)) with (maybe f).
    destruct (maybe f) eqn:E.
    + rewrite IH. split.
      * intros [H1 H2]. specialize (H1 eq_refl). split; [by constructor|].
        intros [|i] [|j] a b Hij Ha Hb Hm; cbn in *; try lia.
        -- rewrite Forall_lookup in H1. eauto.
        -- eapply (H2 i j); eauto; lia.
      * intros [H1 H2]. split.
        -- intros _. rewrite Forall_lookup. intros j b Hb. eapply (H2 0 (S j))%nat; [lia|done|done|done].
        -- intros i j a b Hij Ha Hb. eapply (H2 (S i) (S j)); [lia|done|done].
    + destruct any.
      * split; [done|]. intros [H1 _]. specialize (H1 eq_refl). apply Forall_inv in H1. congruence.
      * rewrite IH. split.
        -- intros [_ H2]. split; [done|]. intros [|i] [|j] a b Hij Ha Hb Hm; cbn in *; try lia.
           ++ injection Ha as <-. congruence.
           ++ eapply (H2 i j); eauto; lia.
        -- intros [_ H2]. split; [done|]. intros i j a b Hij Ha Hb. eapply (H2 (S i) (S j)); [lia|done|done].
Qed.

Lemma filter_sorted (fs : list field) (d : nat) : (forall i f, fs !! i = Some f -> f_index f = d + i)%nat ->
  StronglySorted (fun a b => (f_index a < f_index b)%nat) (List.filter keptb fs) /\
  Forall (fun f => (d <= f_index f)%nat) (List.filter keptb fs).
Proof.
  revert d. induction fs as [|f fs IH]; intros d H; [by split; constructor|].
  destruct (IH (S d)) as [H1 H2].
  { intros i g Hg. rewrite (H (S i) g Hg). lia. }
  pose proof (H 0%nat f eq_refl) as Hf. cbn. destruct (keptb f).
  - split.
    + constructor; [done|]. eapply Forall_impl; [exact H2|]. cbn. lia.
    + constructor; [lia|]. eapply Forall_impl; [exact H2|]. cbn. lia.
  - split; [done|]. eapply Forall_impl; [exact H2|]. cbn. lia.
Qed.
Lemma elem_of_filterb f fs : f ∈ List.filter keptb fs <-> f ∈ fs /\ keptb f = true.
Proof. rewrite !elem_of_list_In. apply filter_In. Qed.

Lemma sorted_lookup (l : list field) i j f g : StronglySorted (fun a b => (f_index a < f_index b)%nat) l ->
  l !! i = Some f -> l !! j = Some g -> ((i < j)%nat <-> (f_index f < f_index g)%nat).
Proof.
  intros Hs. assert (Hlt : forall i j f g, (i < j)%nat -> l !! i = Some f -> l !! j = Some g -> (f_index f < f_index g)%nat).
  { clear i j f g. induction Hs as [|x l Hs IH HF]; intros i j f g Hij Hi Hj; [by rewrite lookup_nil in Hi|].
    destruct i as [|i], j as [|j]; cbn in *; try lia.
    - injection Hi as <-. rewrite Forall_lookup in HF. eauto.
    - eapply (IH i j); eauto; lia. }
  intros Hi Hj. split; [intros; by eapply Hlt|]. intros H. destruct (decide (i < j)%nat); [done|].
  destruct (decide (i = j)) as [->|]; [rewrite Hi in Hj; injection Hj as <-; lia|].
  assert (j < i)%nat by lia. pose proof (Hlt j i g f ltac:(lia) Hj Hi). lia.
Qed.

Lemma process_spec fs : indexed fs ->
  match ProcessFields fs with
  | inr r => struct_ok fs /\
      StronglySorted (fun a b => (f_index a < f_index b)%nat) (map fst r) /\
      (forall f, f ∈ map fst r <-> f ∈ fs /\ encoded f) /\
      (forall f ts, (f, ts) ∈ r -> tags_mean f ts)
  | inl _ => ~ struct_ok fs
  end.
Proof.
  intros Hix. unfold ProcessFields. set (lp := lastPublicField fs).
  assert (Hall : Forall (fun f => f_exported f = true -> okw f lp (wordsof (f_tag f)) ts0 = true) fs <->
    forall i f, fs !! i = Some f -> f_exported f = true -> tag_ok fs i f).
  { rewrite Forall_lookup. split; intros H i f Hf He.
    - apply okw_spec; [done..|]. by eapply H.
    - eapply okw_spec; [done..|]. by apply H. }
  pose proof (gather_spec lp fs) as HG. destruct (gather lp fs) as [e|r].
  { intros [H _]. apply HG. by apply Hall. }
  destruct HG as [-> HF]. set (l := List.filter keptb fs).
  assert (Hfst : map fst (map pack l) = l) by (rewrite map_map; apply map_id).
  destruct (filter_sorted fs 0 Hix) as [Hso _]. fold l in Hso.
  assert (Hin : forall f, f ∈ l <-> f ∈ fs /\ encoded f) by (intros f; rewrite <- keptb_spec; apply elem_of_filterb).
  assert (Hcons : consistent false (map pack l) = true <-> forall i j f g, (i < j)%nat -> fs !! i = Some f -> fs !! j = Some g -> encoded f -> encoded g ->
     says f s_optional \/ says f s_tail -> says g s_optional \/ says g s_tail).
  { rewrite consistent_spec. split.
    - intros [_ H] i j f g Hij Hf Hg Ef Eg. rewrite <- !maybe_spec.
      assert (f ∈ l) as Hfl by (apply Hin; split; [by eapply elem_of_list_lookup_2|done]).
      assert (g ∈ l) as Hgl by (apply Hin; split; [by eapply elem_of_list_lookup_2|done]).
      apply elem_of_list_lookup_1 in Hfl as [a Ha], Hgl as [b Hb].
      apply (H a b); [|done|done]. eapply sorted_lookup; [exact Hso|done|done|].
      by rewrite (Hix _ _ Hf), (Hix _ _ Hg).
    - intros H. split; [done|]. intros a b f g Hab Ha Hb. rewrite !maybe_spec.
      pose proof (elem_of_list_lookup_2 _ _ _ Ha) as Hfl. pose proof (elem_of_list_lookup_2 _ _ _ Hb) as Hgl.
      apply Hin in Hfl as [Hfl Ef], Hgl as [Hgl Eg].
      apply elem_of_list_lookup_1 in Hfl as [i Hi], Hgl as [j Hj].
      apply (H i j); [|done..]. rewrite <- (Hix _ _ Hi), <- (Hix _ _ Hj).
      exact (proj1 (sorted_lookup l a b f g Hso Ha Hb) Hab). }
  destruct (consistent false (map pack l)) eqn:Ec.
  - rewrite Hfst. split; [split; [by apply Hall|by apply Hcons]|]. split; [done|]. split; [done|].
    intros f ts Hft. apply elem_of_list_fmap in Hft as (x & [= -> ->] & Hx). apply Hin in Hx as [Hx [He _]].
    rewrite Forall_forall in HF. eapply final_mean. by apply HF.
  - intros [_ H]. apply Hcons in H. congruence.
Qed.

(** * The order of tags that the encoder and decoder rely on *)
Lemma to_rfields_ok ty r : forall any, consistent any r = true ->
  (forall i f ts, r !! i = Some (f, ts) -> t_tail ts = true -> S i = length r) ->
  tags_ok any (to_rfields ty r) = true.
Proof.
  induction r as [|[f ts] r IH]; intros any Hc Ht; [done|]. cbn [consistent to_rfields] in *.
  assert (Ht' : forall i f ts, r !! i = Some (f, ts) -> t_tail ts = true -> S i = length r).
  { intros i g us Hi Hus. specialize (Ht (S i) g us Hi Hus). cbn in Ht. lia. }
  unfold tag_kind. destruct (t_tail ts) eqn:E1.
  - specialize (Ht 0%nat f ts eq_refl E1). destruct r; [done|cbn in Ht; lia].
  - destruct (t_optional ts); cbn in Hc; [by apply IH|].
    destruct any; [done|]. cbn. by apply IH.
Qed.

Lemma process_tags_ok fs r ty : indexed fs -> ProcessFields fs = inr r -> tags_ok false (to_rfields ty r) = true.
Proof.
  intros Hix Hr. pose proof (process_spec fs Hix) as Hs. rewrite Hr in Hs. destruct Hs as ([Hok _] & Hso & Hin & Hm).
  unfold ProcessFields in Hr. destruct (gather (lastPublicField fs) fs) as [|r'] eqn:Eg; [done|].
  destruct (consistent false r') eqn:Ec; [|done]. injection Hr as ->.
  apply to_rfields_ok; [done|]. intros i f ts Hi Ht.
  destruct (decide (S i < length r)%nat) as [Hlt|]; [|apply lookup_lt_Some in Hi; lia]. exfalso.
  apply lookup_lt_is_Some_2 in Hlt as [[g us] Hg].
  assert (Hi' : map fst r !! i = Some f) by (rewrite list_lookup_fmap, Hi; done).
  assert (Hg' : map fst r !! S i = Some g) by (rewrite list_lookup_fmap, Hg; done).
  pose proof (elem_of_list_lookup_2 _ _ _ Hi') as Hf. pose proof (elem_of_list_lookup_2 _ _ _ Hg') as Hgl.
  apply Hin in Hf as [Hf [Hfe _]], Hgl as [Hgl [Hge _]].
  apply elem_of_list_lookup_1 in Hf as [a Ha], Hgl as [b Hb].
  pose proof (Hm f ts (elem_of_list_lookup_2 _ _ _ Hi)) as [_ HT _ _ _]. apply HT in Ht.
  destruct (ok_tail _ _ _ (Hok a f Ha Hfe) Ht) as [_ Hl].
  assert ((f_index f < f_index g)%nat) as Hlt by (apply (proj1 (sorted_lookup _ i (S i) f g Hso Hi' Hg')); lia).
  rewrite (Hix _ _ Ha), (Hix _ _ Hb) in Hlt. rewrite (Hl b g Hlt Hb) in Hge. done.
Qed.

(** * Fields that are not exported *)
Lemma hidden_same fs fs' : Forall2 (fun f f' => f = f' \/ (f_exported f = false /\ f_exported f' = false)) fs fs' ->
  ProcessFields fs = ProcessFields fs'.
Proof.
  intros H. assert (Hlp : lastPublicField fs = lastPublicField fs').
  { unfold lastPublicField. generalize 0%nat as d. induction H as [|f f' fs fs' Hf H IH]; [done|]. intros d. cbn.
    destruct Hf as [->|[-> ->]]; apply IH. }
  unfold ProcessFields. rewrite Hlp. generalize (lastPublicField fs') as lp. intros lp. clear Hlp.
  replace (gather lp fs') with (gather lp fs); [done|].
  induction H as [|f f' fs fs' Hf H IH]; [done|]. cbn. destruct Hf as [->|[-> ->]]; by rewrite IH.
Qed.
