(** Proofs about objects used under a sync.RWMutex: linearizability, no deadlock,
    termination. *)
From Coq Require Import Lia.
From Verif Require Import LockSpec LockModel.
From stdpp Require Import gmap.

Section lemmas.
  Context {Op A M : Type} (sp : M -> Op -> M -> A -> Prop).
  Lemma truns_snoc i t g t' x t'' :
    truns i t g t' -> tmove i t' x t'' -> @truns Op A i t (g ++ [x]) t''.
  Proof.
    induction 1 as [t|t y t1 h t2 H1 H2 IH]; intros Hm; cbn.
    - econstructor; [exact Hm|constructor].
    - econstructor; [exact H1|auto].
  Qed.
  Lemma sruns_snoc m l m' o a m'' :
    sruns sp m l m' -> sp m' o m'' a -> sruns sp m (l ++ [(o, a)]) m''.
  Proof.
    induction 1 as [m|m o1 a1 m1 l m2 H1 H2 IH]; intros Hm; cbn.
    - econstructor; [exact Hm|constructor].
    - econstructor; [exact H1|auto].
  Qed.
  Lemma sruns_app m l1 l2 m' : sruns sp m (l1 ++ l2) m' -> exists m1, sruns sp m l1 m1 /\ sruns sp m1 l2 m'.
  Proof.
    revert m. induction l1 as [|[o a] l1 IH]; intros m H; cbn in H.
    - exists m. split; [constructor|exact H].
    - inversion H as [|? ? ? m1 ? ? H1 H2]; subst. destruct (IH _ H2) as (m2 & Ha & Hb).
      exists m2. split; [econstructor; eauto|exact Hb].
  Qed.
End lemmas.

Section lock.
  Context {S L Op A M : Type}.
  Context (kind : Op -> lkind) (start : Op -> L) (next : nat -> S -> L -> option (S * (L + A))).
  Context (sp : M -> Op -> M -> A -> Prop).
  Notation conf := (@conf S L Op A).
  Notation phase := (@phase L Op A).
  Notation step := (step kind start next).
  Notation exec := (exec kind start next).

  (** what has to be shown about the methods *)
  Record object_ok (J : S -> Prop) (abs : S -> M) (K : Op -> L -> S -> Prop)
      (W : Op -> L -> S -> M -> Prop) : Prop := {
    sh_start o s : kind o = Shared -> J s -> K o (start o) s;
    sh_step o l s c s' l' : kind o = Shared -> J s -> K o l s ->
      next c s l = Some (s', inl l') -> J s' /\ abs s' = abs s /\ K o l' s'
      /\ forall o' l', kind o' = Shared -> K o' l' s -> K o' l' s';
    sh_done o l s c s' a : kind o = Shared -> J s -> K o l s ->
      next c s l = Some (s', inr a) ->
      J s' /\ sp (abs s) o (abs s') a
      /\ forall o' l', kind o' = Shared -> K o' l' s -> K o' l' s';
    ex_start o s : kind o = Excl -> J s -> W o (start o) s (abs s);
    ex_step o l s m c s' l' : kind o = Excl -> W o l s m ->
      next c s l = Some (s', inl l') -> W o l' s' m;
    ex_done o l s m c s' a : kind o = Excl -> W o l s m ->
      next c s l = Some (s', inr a) -> J s' /\ sp m o (abs s') a;
  }.


  Definition tview (p : option phase) : @tstate Op A :=
    match p with
    | Some (Want o) | Some (Ann o) | Some (Inside o _) => TCalled o
    | Some (Done _ a) | Some (Rel a) => TDone a
    | _ => TIdle
    end.
  Definition holds_w (p : option phase) : Prop :=
    match p with
    | Some (Ann o) => True
    | Some (Inside o _) | Some (Done o _) => kind o = Excl
    | _ => False
    end.
  Definition holds_r (p : option phase) : Prop :=
    match p with
    | Some (Inside o _) | Some (Done o _) => kind o = Shared
    | _ => False
    end.
  Definition entered_w (p : option phase) : Prop :=
    match p with Some (Inside o _) | Some (Done o _) => kind o = Excl | _ => False end.
  Definition in_w (p : option phase) : Prop :=
    match p with Some (Inside o _) => kind o = Excl | _ => False end.

  Record linv (c : conf) : Prop := {
    i_w i : wr c = Some i <-> holds_w (thr c !! i);
    i_r i : i ∈ rd c <-> holds_r (thr c !! i);
    i_e i : entered_w (thr c !! i) -> rd c = ∅;
    i_a i o : thr c !! i = Some (Ann o) -> kind o = Excl;
  }.
  Lemma linv_initial s0 n : linv (initial s0 n).
  Proof.
    split; cbn; intros i; [..|intros o Ho];
      (destruct (replicate n Idle !! i) as [p|] eqn:E; [apply lookup_replicate in E as [-> _]|]); cbn;
      try set_solver; try done; try (split; [discriminate|tauto]); tauto.
  Qed.

  Lemma insert_cases (t : list phase) i p q j :
    t !! i = Some q -> (<[i := p]> t) !! j = if decide (j = i) then Some p else t !! j.
  Proof.
    intros Hi. case_decide as E.
    - subst. apply list_lookup_insert. by eapply lookup_lt_Some.
    - by rewrite list_lookup_insert_ne by done.
  Qed.

  Lemma linv_set c i q p wr' rd' s' h' :
    linv c -> thr c !! i = Some q ->
    (wr' = Some i <-> holds_w (Some p)) ->
    (forall j, j <> i -> wr' = Some j <-> wr c = Some j) ->
    (i ∈ rd' <-> holds_r (Some p)) ->
    (forall j, j <> i -> j ∈ rd' <-> j ∈ rd c) ->
    (entered_w (Some p) -> rd' = ∅) ->
    (forall j, j <> i -> entered_w (thr c !! j) -> rd' = ∅) ->
    (forall o, p = Ann o -> kind o = Excl) ->
    linv (Conf s' wr' rd' (<[i := p]> (thr c)) h').
  Proof.
    intros [IW IR IE IA] Hi Hw1 Hw2 Hr1 Hr2 He1 He2 Ha.
    split; cbn; intros j; [..|intros o]; rewrite (insert_cases _ _ _ _ j Hi);
      (destruct (decide (j = i)) as [->|Hne]); auto.
    - rewrite Hw2 by done. apply IW.
    - rewrite Hr2 by done. apply IR.
    - eauto.
    - intros [= ->]. auto.
    - apply IA.
  Qed.

  Lemma linv_step c i b c' : linv c -> step c i b = Some c' -> linv c'.
  Proof.
    intros I Hs. pose proof I as [IW IR IE IA]. unfold LockModel.step in Hs.
    pose proof (IW i) as Wi. pose proof (IR i) as Ri. pose proof (IE i) as Ei.
    destruct (thr c !! i) as [p|] eqn:Hi; [|discriminate].
    assert (NE : forall j, wr c = None -> entered_w (thr c !! j) -> False).
    { intros j Hn He. assert (wr c = Some j); [apply IW|congruence].
      destruct (thr c !! j) as [[]|]; cbn in *; done. }
    destruct p as [|o|o|o l|o a|a]; destruct b; try discriminate; cbn in Wi, Ri, Ei.
    - injection Hs as <-. eapply linv_set; [exact I|exact Hi|..]; cbn; try tauto; try done; eauto.
    - destruct (kind o) eqn:Hk; destruct (wr c) eqn:Hwr; try discriminate; injection Hs as <-.
      + eapply linv_set; [exact I|exact Hi|..]; cbn; rewrite ?Hwr.
        * tauto.
        * intros j Hne. split; [intros [= ->]; done|done].
        * tauto.
        * done.
        * done.
        * intros j _ He. by eapply IE.
        * by intros o' [= ->].
      + eapply linv_set; [exact I|exact Hi|..]; cbn; rewrite ?Hwr, ?Hk.
        * split; [done|done].
        * done.
        * set_solver.
        * set_solver.
        * done.
        * intros j _ He. exfalso. eauto.
        * done.
    - case_decide as Hrd; [|discriminate]. injection Hs as <-. unfold set_thr.
      pose proof (IA _ _ Hi) as Hk. eapply linv_set; [exact I|exact Hi|..]; cbn; rewrite ?Hk; try tauto; try done; eauto.
      rewrite Hrd. set_solver.
    - destruct (next c0 (st c) l) as [[s' [l'|a]]|]; try discriminate; injection Hs as <-;
        (eapply linv_set; [exact I|exact Hi|..]; cbn; try tauto; try done; eauto).
    - destruct (kind o) eqn:Hk; injection Hs as <-.
      + assert (Hw : wr c = Some i) by (apply Wi; done).
        eapply linv_set; [exact I|exact Hi|..]; cbn; try tauto; try done; eauto.
        * intros j Hne. rewrite Hw. split; [done|intros [= ->]; done].
        * split; [|done]. intros H. by apply Ri in H.
      + eapply linv_set; [exact I|exact Hi|..]; cbn; try tauto; try done; eauto.
        * split; [|done]. intros H. by apply Wi in H.
        * set_solver.
        * set_solver.
        * intros j _ He. apply IE in He. rewrite He. set_solver.
    - injection Hs as <-. eapply linv_set; [exact I|exact Hi|..]; cbn; try tauto; try done; eauto.
  Qed.

  (** no two threads write, and a writer inside excludes readers *)
  Lemma w_unique c i j : linv c -> holds_w (thr c !! i) -> holds_w (thr c !! j) -> i = j.
  Proof. intros I Hi Hj. apply (i_w _ I) in Hi, Hj. congruence. Qed.
  Lemma in_w_holds p : in_w p -> holds_w p.
  Proof. destruct p as [[]|]; cbn; done. Qed.
  Lemma no_readers c i j : linv c -> entered_w (thr c !! i) -> ~ holds_r (thr c !! j).
  Proof. intros I He Hr. apply (i_e _ I) in He. apply (i_r _ I) in Hr. set_solver. Qed.

  Context (J : S -> Prop) (abs : S -> M) (K : Op -> L -> S -> Prop) (W : Op -> L -> S -> M -> Prop).
  Context (ok : object_ok J abs K W).
  Context (s0 : S) (J0 : J s0).

  Record dinv (c : conf) (m : M) : Prop := {
    i_shared : (forall i, ~ in_w (thr c !! i)) ->
      J (st c) /\ m = abs (st c) /\
      forall i o l, thr c !! i = Some (Inside o l) -> kind o = Shared -> K o l (st c);
    i_excl i o l : thr c !! i = Some (Inside o l) -> kind o = Excl -> W o l (st c) m;
  }.
  Record ginv (c : conf) (g : list (mark Op A)) (m : M) : Prop := {
    i_seen : concat (map seen g) = hist c;
    i_thr i : truns i TIdle g (tview (thr c !! i));
    i_seq : sruns sp (abs s0) (concat (map chosen g)) m;
  }.

  Lemma ginv_set c g m i q p s' w' r' h' x m' :
    ginv c g m -> thr c !! i = Some q ->
    (match x with HInv j _ => j | HLin j _ _ => j | HRet j _ => j end = i) ->
    tmove i (tview (Some q)) x (tview (Some p)) ->
    h' = hist c ++ seen x ->
    (chosen x = [] /\ m' = m \/ exists o a, chosen x = [(o, a)] /\ sp m o m' a) ->
    ginv (Conf s' w' r' (<[i := p]> (thr c)) h') (g ++ [x]) m'.
  Proof.
    intros [G1 G2 G3] Hi Hx Ht -> Hs. split; cbn.
    - rewrite map_app, concat_app, G1. cbn. by rewrite app_nil_r.
    - intros j. rewrite (insert_cases _ _ _ _ j Hi). destruct (decide (j = i)) as [->|Hne].
      + eapply truns_snoc; [apply G2|]. by rewrite Hi.
      + eapply truns_snoc; [apply G2|]. apply tm_other. congruence.
    - rewrite map_app, concat_app. cbn. rewrite app_nil_r.
      destruct Hs as [[-> ->]|(o & a & -> & Hs)].
      + by rewrite app_nil_r.
      + by eapply sruns_snoc.
  Qed.
  Lemma ginv_same c g m i q p s' w' r' :
    ginv c g m -> thr c !! i = Some q -> tview (Some q) = tview (Some p) ->
    ginv (Conf s' w' r' (<[i := p]> (thr c)) (hist c)) g m.
  Proof.
    intros [G1 G2 G3] Hi Ht. split; cbn; auto.
    intros j. rewrite (insert_cases _ _ _ _ j Hi). destruct (decide (j = i)) as [->|Hne]; [|done].
    rewrite <- Ht, <- Hi. apply G2.
  Qed.

  (** the data part when a thread changes phase outside the methods *)
  Lemma dinv_set c m i q p w' r' h' :
    dinv c m -> thr c !! i = Some q -> (forall o l, q <> Inside o l) ->
    (forall o l, p = Inside o l -> l = start o) ->
    (forall o l, p = Inside o l -> kind o = Excl -> forall j, ~ in_w (thr c !! j)) ->
    dinv (Conf (st c) w' r' (<[i := p]> (thr c)) h') m.
  Proof.
    intros [D1 D2] Hi Hq Hp1 Hp2. split; cbn.
    - intros Hn. destruct D1 as (HJ & Hm & HK).
      { intros j. specialize (Hn j). rewrite (insert_cases _ _ _ _ j Hi) in Hn.
        destruct (decide (j = i)) as [->|Hne]; [|done]. rewrite Hi. cbn.
        destruct q; try tauto. exfalso. by eapply Hq. }
      split_and!; auto. intros j o l. rewrite (insert_cases _ _ _ _ j Hi).
      destruct (decide (j = i)) as [->|Hne]; [|eauto].
      intros [= ->] Hk. rewrite (Hp1 _ _ eq_refl). by apply (sh_start _ _ _ _ ok).
    - intros j o l. rewrite (insert_cases _ _ _ _ j Hi).
      destruct (decide (j = i)) as [->|Hne]; [|eauto].
      intros [= ->] Hk. rewrite (Hp1 _ _ eq_refl).
      destruct D1 as (HJ & -> & _); [by eapply Hp2|]. by apply (ex_start _ _ _ _ ok).
  Qed.

  Lemma all_step c g m i b c' :
    linv c -> dinv c m -> ginv c g m -> step c i b = Some c' ->
    exists g' m', dinv c' m' /\ ginv c' g' m'.
  Proof.
    intros I D G Hs. unfold LockModel.step in Hs.
    destruct (thr c !! i) as [p|] eqn:Hi; [|discriminate].
    destruct p as [|o|o|o l|o a|a]; destruct b as [o'| | |ch| |]; try discriminate.
    - injection Hs as <-. exists (g ++ [HInv i o']), m. split.
      + eapply dinv_set; eauto; done.
      + eapply ginv_set; [exact G|exact Hi|reflexivity|constructor|reflexivity|auto].
    - destruct (kind o) eqn:Hk; destruct (wr c) eqn:Hw; try discriminate; injection Hs as <-; exists g, m.
      + split; [eapply dinv_set; eauto; done|eapply ginv_same; eauto].
      + split; [|eapply ginv_same; eauto]. eapply dinv_set; [exact D|exact Hi|done|..].
        * intros o' l' [=]. by subst.
        * intros o' l' [=]. subst. congruence.
    - case_decide as Hrd; [|discriminate]. injection Hs as <-. exists g, m.
      split; [|eapply ginv_same; eauto]. eapply dinv_set; [exact D|exact Hi|done|..].
      + intros o' l' [=]. by subst.
      + intros o' l' [=] Hk j Hj. subst.
        assert (j = i) as ->. { eapply w_unique; eauto; [by apply in_w_holds|]. by rewrite Hi. }
        by rewrite Hi in Hj.
    - destruct (kind o) eqn:Hk.
      + (* the writer *)
        pose proof (i_excl _ _ D _ _ _ Hi Hk) as HW.
        assert (Huniq : forall j, j <> i -> ~ in_w (thr c !! j)).
        { intros j Hne Hj. apply Hne. eapply w_unique; eauto; [by apply in_w_holds|]. by rewrite Hi. }
        assert (Hnr : forall j, ~ holds_r (thr c !! j)).
        { intros j. eapply no_readers; eauto. rewrite Hi. exact Hk. }
        destruct (next ch (st c) l) as [[s' [l'|a]]|] eqn:Hn; try discriminate; injection Hs as <-.
        * exists g, m. split; [|eapply ginv_same; eauto].
          pose proof (ex_step _ _ _ _ ok _ _ _ _ _ _ _ Hk HW Hn) as HW'. split; cbn.
          -- intros Hno. exfalso. apply (Hno i). rewrite (insert_cases _ _ _ _ i Hi).
             rewrite decide_True by done. exact Hk.
          -- intros j o' l1. rewrite (insert_cases _ _ _ _ j Hi).
             destruct (decide (j = i)) as [->|Hne].
             ++ by intros [= <- <-] _.
             ++ intros Hj Hk'. exfalso. apply (Huniq j Hne). by rewrite Hj.
        * destruct (ex_done _ _ _ _ ok _ _ _ _ _ _ _ Hk HW Hn) as [HJ Hsp].
          exists (g ++ [HLin i o a]), (abs s'). split.
          -- split; cbn.
             ++ intros _. split_and!; auto. intros j o' l1. rewrite (insert_cases _ _ _ _ j Hi).
                destruct (decide (j = i)) as [->|Hne]; [done|].
                intros Hj Hk'. exfalso. apply (Hnr j). by rewrite Hj.
             ++ intros j o' l1. rewrite (insert_cases _ _ _ _ j Hi).
                destruct (decide (j = i)) as [->|Hne]; [done|].
                intros Hj Hk'. exfalso. apply (Huniq j Hne). by rewrite Hj.
          -- eapply ginv_set; [exact G|exact Hi|reflexivity|constructor|cbn; by rewrite app_nil_r|].
             right. exists o, a. auto.
      + (* a reader *)
        assert (Hnw : forall j, ~ in_w (thr c !! j)).
        { intros j Hj. eapply (no_readers c j i); eauto; [|by rewrite Hi].
          destruct (thr c !! j) as [[]|]; cbn in *; done. }
        destruct (i_shared _ _ D Hnw) as (HJ & -> & HK).
        destruct (next ch (st c) l) as [[s' [l'|a]]|] eqn:Hn; try discriminate; injection Hs as <-.
        * destruct (sh_step _ _ _ _ ok _ _ _ _ _ _ Hk HJ (HK _ _ _ Hi Hk) Hn) as (HJ' & Ha & HK' & HKst).
          exists g, (abs (st c)). split; [|eapply ginv_same; eauto]. split; cbn.
          -- intros _. split_and!; auto. intros j o' l1. rewrite (insert_cases _ _ _ _ j Hi).
             destruct (decide (j = i)) as [->|Hne]; [|eauto]. by intros [= <- <-] _.
          -- intros j o' l1. rewrite (insert_cases _ _ _ _ j Hi).
             destruct (decide (j = i)) as [->|Hne]; [intros [= <- <-]; congruence|].
             intros Hj Hk'. exfalso. apply (Hnw j). by rewrite Hj.
        * destruct (sh_done _ _ _ _ ok _ _ _ _ _ _ Hk HJ (HK _ _ _ Hi Hk) Hn) as (HJ' & Hsp & HKst).
          exists (g ++ [HLin i o a]), (abs s'). split.
          -- split; cbn.
             ++ intros _. split_and!; auto. intros j o' l1. rewrite (insert_cases _ _ _ _ j Hi).
                destruct (decide (j = i)) as [->|Hne]; [done|]. eauto.
             ++ intros j o' l1. rewrite (insert_cases _ _ _ _ j Hi).
                destruct (decide (j = i)) as [->|Hne]; [done|].
                intros Hj Hk'. exfalso. apply (Hnw j). by rewrite Hj.
          -- eapply ginv_set; [exact G|exact Hi|reflexivity|constructor|cbn; by rewrite app_nil_r|].
             right. exists o, a. auto.
    - destruct (kind o) eqn:Hk; injection Hs as <-; exists g, m;
        (split; [eapply dinv_set; eauto; done|eapply ginv_same; eauto]).
    - injection Hs as <-. exists (g ++ [HRet i a]), m. split.
      + eapply dinv_set; eauto; done.
      + eapply ginv_set; [exact G|exact Hi|reflexivity|constructor|reflexivity|auto].
  Qed.

  Lemma linv_exec c sch c' : linv c -> exec c sch = Some c' -> linv c'.
  Proof.
    revert c. induction sch as [|[i b] sch IH]; intros c I H; cbn in H; [by simplify_eq|].
    destruct (step c i b) as [c1|] eqn:E; [|discriminate].
    eapply IH; [|exact H]. by eapply linv_step.
  Qed.
  Lemma all_exec c g m sch c' :
    linv c -> dinv c m -> ginv c g m -> exec c sch = Some c' ->
    exists g' m', dinv c' m' /\ ginv c' g' m'.
  Proof.
    revert c g m. induction sch as [|[i b] sch IH]; intros c g m I D G H; cbn in H; [simplify_eq; eauto|].
    destruct (step c i b) as [c1|] eqn:E; [|discriminate].
    destruct (all_step _ _ _ _ _ _ I D G E) as (g1 & m1 & D1 & G1).
    eapply (IH c1); eauto. eapply linv_step; eauto.
  Qed.

  Lemma idle_lookup n i p : replicate n (@Idle L Op A) !! i = Some p -> p = Idle.
  Proof. intros H. by apply lookup_replicate in H as [-> _]. Qed.

  (** every execution has a linearizable history *)
  Lemma object_linearizable n c :
    reaches kind start next (initial s0 n) c -> linearizable sp (abs s0) (hist c).
  Proof.
    intros [sch H].
    destruct (all_exec (initial s0 n) [] (abs s0) sch c) as (g & m & D & G); auto.
    - apply linv_initial.
    - split; cbn.
      + intros _. split_and!; auto. intros i o l Hi. by apply idle_lookup in Hi.
      + intros i o l Hi. by apply idle_lookup in Hi.
    - split; cbn; [done| |constructor].
      intros i. destruct (replicate n Idle !! i) as [p|] eqn:E; [apply idle_lookup in E as ->|]; constructor.
    - destruct G as [G1 G2 G3]. exists g. split_and!; eauto.
  Qed.
End lock.

(** Progress, for methods whose micro-steps always can go on and come to an end. *)
Section progress.
  Context {S L Op A : Type}.
  Context (kind : Op -> lkind) (start : Op -> L) (next : nat -> S -> L -> option (S * (L + A))).
  Notation conf := (@conf S L Op A).
  Notation phase := (@phase L Op A).
  Notation step := (step kind start next).
  Notation exec := (exec kind start next).
  Context (size : L -> nat).
  Context (goes_on : forall s l, exists c r, next c s l = Some r).
  Context (ends : forall c s l s' l', next c s l = Some (s', inl l') -> size l' < size l).

  Definition pwork (p : phase) : nat :=
    match p with
    | Idle => 0
    | Want o => size (start o) + 6
    | Ann o => size (start o) + 5
    | Inside _ l => size l + 3
    | Done _ _ => 2
    | Rel _ => 1
    end.
  Definition work (c : conf) : nat := sum_list (pwork <$> thr c).

  Lemma sum_insert (t : list phase) i q p :
    t !! i = Some q -> sum_list (pwork <$> <[i := p]> t) + pwork q = sum_list (pwork <$> t) + pwork p.
  Proof.
    revert i. induction t as [|x t IH]; intros [|i] H; cbn in *; simplify_eq; [cbn; lia|].
    specialize (IH _ H). unfold fmap in IH. rewrite <- !Nat.add_assoc. f_equal. exact IH.
  Qed.

  Definition not_call (b : @label Op) : Prop := match b with LInv _ => False | _ => True end.

  Lemma work_step c i b c' : not_call b -> step c i b = Some c' -> work c' < work c.
  Proof.
    intros Hb Hs. unfold LockModel.step in Hs.
    destruct (thr c !! i) as [p|] eqn:Hi; [|discriminate].
    assert (Hset : forall q s w r h, pwork q < pwork p ->
      work (Conf s w r (<[i := q]> (thr c)) h) < work c).
    { intros q s w r h Hq. unfold work. cbn. pose proof (sum_insert _ _ _ q Hi). lia. }
    destruct p as [|o|o|o l|o a|a]; destruct b as [o'| | |ch| |]; try discriminate; try done.
    - destruct (kind o), (wr c); try discriminate; injection Hs as <-; apply Hset; cbn; lia.
    - case_decide; [|discriminate]. injection Hs as <-. apply Hset; cbn; lia.
    - destruct (next ch (st c) l) as [[s' [l'|a]]|] eqn:Hn; try discriminate; injection Hs as <-; apply Hset; cbn.
      + apply ends in Hn. lia.
      + lia.
    - destruct (kind o); injection Hs as <-; apply Hset; cbn; lia.
    - injection Hs as <-. apply Hset. cbn. lia.
  Qed.

  Lemma work_exec c sch c' :
    Forall (fun x => not_call x.2) sch -> exec c sch = Some c' -> length sch + work c' <= work c.
  Proof.
    revert c. induction sch as [|[i b] sch IH]; intros c Hf H; cbn in *; [simplify_eq; lia|].
    inversion Hf as [|? ? Hb Hf']; subst.
    destruct (step c i b) as [c1|] eqn:E; [|discriminate].
    apply (IH _ Hf') in H. apply work_step in E; [|exact Hb]. lia.
  Qed.

  Lemma can_go_on c i p :
    linv kind c -> thr c !! i = Some p -> p <> Idle ->
    exists j b c', not_call b /\ step c j b = Some c'.
  Proof.
    intros I Hi Hp.
    assert (Hin : forall j o l, thr c !! j = Some (Inside o l) -> exists j b c', not_call b /\ step c j b = Some c').
    { intros j o l Hj. destruct (goes_on (st c) l) as (ch & [s' [l'|a]] & Hn);
        exists j, (LStep ch); unfold LockModel.step; rewrite Hj, Hn; eauto; by eexists. }
    assert (Hdn : forall j o a, thr c !! j = Some (Done o a) -> exists j b c', not_call b /\ step c j b = Some c').
    { intros j o a Hj. exists j, LUnlock. unfold LockModel.step. rewrite Hj. destruct (kind o); by eexists. }
    assert (Hrd : rd c <> ∅ -> exists j b c', not_call b /\ step c j b = Some c').
    { intros Hne. apply set_choose_L in Hne as [j Hj]. apply (i_r _ _ I) in Hj.
      destruct (thr c !! j) as [[]|] eqn:E; try done; eauto. }
    assert (Han : forall j o, thr c !! j = Some (Ann o) -> exists j b c', not_call b /\ step c j b = Some c').
    { intros j o Hj. destruct (decide (rd c = ∅)) as [He|He]; [|auto].
      exists j, LEnter. unfold LockModel.step. rewrite Hj, decide_True by done. by eexists. }
    destruct p as [|o|o|o l|o a|a]; [done|..]; eauto.
    - destruct (wr c) as [j|] eqn:Hw.
      + apply (i_w _ _ I) in Hw. destruct (thr c !! j) as [[]|] eqn:E; try done; eauto.
      + exists i, LAcq. unfold LockModel.step. rewrite Hi, Hw. destruct (kind o); by eexists.
    - exists i, LReturn. unfold LockModel.step. rewrite Hi. by eexists.
  Qed.

  Definition busy (p : phase) : bool := match p with Idle => false | _ => true end.
  Lemma all_return c :
    linv kind c ->
    exists sch c', Forall (fun x => not_call x.2) sch /\ exec c sch = Some c'
                   /\ forall i p, thr c' !! i = Some p -> p = Idle.
  Proof.
    remember (work c) as w eqn:Hw. revert c Hw.
    induction w as [w IH] using lt_wf_ind. intros c -> I.
    destruct (existsb busy (thr c)) eqn:He.
    - apply existsb_exists in He as (p & Hp & Hn). apply elem_of_list_In, elem_of_list_lookup in Hp as [i Hi].
      destruct (can_go_on c i p I Hi) as (j & b & c1 & Hb & Hs); [by destruct p|].
      destruct (IH (work c1)) with (c := c1) as (sch & c' & Hf & He & Hid); auto.
      + by eapply work_step.
      + eapply linv_step; [exact I|exact Hs].
      + exists ((j, b) :: sch), c'. split_and!; auto. cbn. by rewrite Hs.
    - exists [], c. split_and!; auto. intros i p Hi.
      destruct (busy p) eqn:Hd; [|by destruct p].
      exfalso. assert (existsb busy (thr c) = true); [|congruence].
      apply existsb_exists. exists p. split; [|done]. by eapply elem_of_list_In, elem_of_list_lookup_2.
  Qed.
End progress.

(** A mutex: every method excludes every other one. *)
Section mutex.
  Context {S L Op A : Type}.
  Context (kind : Op -> lkind) (start : Op -> L) (next : nat -> S -> L -> option (S * (L + A))).
  Context (all_excl : forall o, kind o = Excl).
  Lemma mutex_ok :
    object_ok kind start next (fun s o s' a => alone next s (start o) s' a)
      (fun _ => True) (fun s => s) (fun _ _ _ => True)
      (fun o l s m => forall s' a, alone next s l s' a -> alone next m (start o) s' a).
  Proof.
    split; try (intros o; pose proof (all_excl o); intros; congruence); auto.
    - intros o l s m c s' l' _ H Hn s1 a Ha. apply H. by eapply al_step.
    - intros o l s m c s' a _ H Hn. split; [done|]. apply H. by eapply al_done.
  Qed.
End mutex.

(** Linearizability event by event, for refuting it. *)
Section search.
  Context {Op A M : Type} (sp : M -> Op -> M -> A -> Prop).
  Definition fset (f : nat -> @tstate Op A) (i : nat) (t : tstate) : nat -> tstate :=
    fun j => if decide (j = i) then t else f j.
  Inductive canlin : (nat -> @tstate Op A) -> M -> list (event Op A) -> Prop :=
  | cl_nil f m : canlin f m []
  | cl_lin f m h i o a m' : f i = TCalled o -> sp m o m' a -> canlin (fset f i (TDone a)) m' h -> canlin f m h
  | cl_inv f m h i o : f i = TIdle -> canlin (fset f i (TCalled o)) m h -> canlin f m (EInv i o :: h)
  | cl_ret f m h i a : f i = TDone a -> canlin (fset f i TIdle) m h -> canlin f m (ERet i a :: h).

  Lemma truns_cons_all f x g i t :
    (forall j, exists t', truns j (f j) (x :: g) t') ->
    match x with HInv j _ => j | HLin j _ _ => j | HRet j _ => j end = i ->
    tmove i (f i) x t -> (forall t', tmove i (f i) x t' -> t' = t) ->
    forall j, exists t', truns j (fset f i t j) g t'.
  Proof.
    intros H Hx Hm Hu j. destruct (H j) as [t' Ht]. inversion Ht as [|? ? t1 ? ? Hm1 Ht1]; subst.
    unfold fset. case_decide as E.
    - subst j. rewrite <- (Hu _ Hm1). eauto.
    - inversion Hm1; subst; eauto; done.
  Qed.
  Lemma canlin_of g : forall f m,
    (forall i, exists t, truns i (f i) g t) -> (exists m', sruns sp m (concat (map chosen g)) m') ->
    canlin f m (concat (map seen g)).
  Proof.
    induction g as [|x g IH]; intros f m HT [m' HS]; cbn; [constructor|].
    destruct x as [i o|i o a|i a]; destruct (HT i) as [t Ht];
      inversion Ht as [|? ? t1 ? ? Hm Ht1]; subst; inversion Hm as [? E|? ? E|? E|? ? Hne]; subst; try done; cbn in *.
    - apply cl_inv; [done|]. apply IH; [|eauto]. eapply truns_cons_all; [exact HT|done|by rewrite <- E; constructor|].
      rewrite <- E. intros t' Ht'. inversion Ht'; subst; done.
    - inversion HS as [|? ? ? m1 ? ? H1 H2]; subst.
      eapply cl_lin; [done|exact H1|]. apply IH; [|eauto].
      eapply truns_cons_all; [exact HT|done|by rewrite <- E; constructor|].
      rewrite <- E. intros t' Ht'. inversion Ht'; subst; done.
    - apply cl_ret; [done|]. apply IH; [|eauto]. eapply truns_cons_all; [exact HT|done|by rewrite <- E; constructor|].
      rewrite <- E. intros t' Ht'. inversion Ht'; subst; done.
  Qed.
  Lemma linearizable_canlin m h : linearizable sp m h -> canlin (fun _ => TIdle) m h.
  Proof. intros (g & <- & HT & HS). by apply canlin_of. Qed.
End search.
