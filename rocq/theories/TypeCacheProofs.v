(** The invariant of the type cache. *)
From Coq Require Import Lia.
From Verif Require Export TypeCacheModel.
From stdpp Require Import gmap.

Section proofs.
  Context (need : side -> nat -> option (list nat)).
  Notation unsupported := (unsupported need).
  Notation part_of := (part_of need).
  Notation not_recursive := (not_recursive need).

  Definition okfn (m : gmap nat nat) (s : side) (k : nat) (x : fn) : Prop :=
    ((x = HErr /\ unsupported s k) \/
     (exists ks ls, need s k = Some ks /\ x = HFun ls /\ Forall2 (fun k' l' => m !! k' = Some l') ks ls)) /\
    (unsupported s k -> not_recursive k -> x = HErr).

  Definition good (m : gmap nat nat) (h : list info) (k l : nat) : Prop :=
    exists e, h !! l = Some e /\ okfn m Dec k (i_dec e) /\ okfn m Wri k (i_wri e).

  Definition inj (m : gmap nat nat) : Prop := forall k k' l, m !! k = Some l -> m !! k' = Some l -> k = k'.

  Definition frame_ok (cu m : gmap nat nat) (h : list info) (f : frame) : Prop :=
    m !! f_key f = Some (f_loc f) /\ cu !! f_key f = None /\
    (exists e, h !! f_loc f = Some e /\ i_wri e = HNil /\
       match f_side f with Dec => i_dec e = HNil | Wri => okfn m Dec (f_key f) (i_dec e) end) /\
    match need (f_side f) (f_key f) with
    | None => f_todo f = [] /\ f_got f = []
    | Some ks => exists dn, ks = dn ++ f_todo f /\ Forall2 (fun k' l' => m !! k' = Some l') dn (f_got f)
    end.

  Fixpoint chain (fs : list frame) : Prop :=
    match fs with
    | f :: r => match r with
                | g :: _ => part_of (f_key f) (f_key g)
                | [] => True
                end /\ chain r
    | [] => True
    end.

  Record G (cu m : gmap nat nat) (h : list info) (k l : nat) (fs : list frame) : Prop := {
    G_sub : cu ⊆ m;
    G_inj : inj m;
    G_root : m !! k = Some l;
    G_all : forall k' l', m !! k' = Some l' -> (exists f, f ∈ fs /\ f_key f = k') \/ good m h k' l';
    G_fr : Forall (frame_ok cu m h) fs;
    G_nd : NoDup (f_key <$> fs);
    G_ch : chain fs;
    G_reach : Forall (fun f => rtc part_of (f_key f) k) fs;
  }.

  Lemma okfn_mono m m' s k x : m ⊆ m' -> okfn m s k x -> okfn m' s k x.
  Proof.
    intros Hs [[H|(ks & ls & H1 & H2 & H3)] Hc]; (split; [|done]); [by left|].
    right. exists ks, ls. split; [done|]. split; [done|].
    eapply Forall2_impl; [exact H3|]. cbn; intros a b E; by eapply lookup_weaken.
  Qed.
  Lemma good_mono m m' h h' k l : m ⊆ m' -> (forall e, h !! l = Some e -> h' !! l = Some e) -> good m h k l -> good m' h' k l.
  Proof. intros Hs Hh (e & E & H1 & H2). exists e. split; [auto|]. split; eapply okfn_mono; eauto. Qed.

  Lemma acc_irr k : not_recursive k -> ~ tc part_of k k.
  Proof.
    intros H. induction H as [k _ IH]. intros Ht.
    assert (exists y, part_of y k /\ tc part_of y y) as (y & Hy & Hyy).
    { clear IH. assert (forall a b, tc part_of a b -> exists y, part_of y b /\ rtc part_of a y) as Hl.
      { intros a b T. induction T as [a b T|a b c T T' IH']; [exists a; split; [done|apply rtc_refl]|].
        destruct IH' as (y & Hy & Hr). exists y. split; [done|]. by eapply rtc_l. }
      destruct (Hl _ _ Ht) as (y & Hy & Hr). exists y. split; [done|].
      eapply tc_rtc_r; [by apply tc_once|done]. }
    by apply (IH y).
  Qed.

  Lemma stack_reaches f fs g : chain (f :: fs) -> g ∈ f :: fs -> rtc part_of (f_key f) (f_key g).
  Proof.
    revert f. induction fs as [|f' fs IH]; intros f Hc Hg.
    - apply elem_of_list_singleton in Hg as ->. apply rtc_refl.
    - apply elem_of_cons in Hg as [->|Hg]; [apply rtc_refl|]. cbn [chain] in Hc. destruct Hc as [H1 H2].
      eapply rtc_l; [exact H1|]. by apply IH.
  Qed.

  Lemma has_err_true h s l e : h !! l = Some e -> half_of s e = HErr -> has_err h s l = true.
  Proof. intros E1 E2. unfold has_err. by rewrite E1, E2. Qed.

  (** Finishing a function. *)
  Lemma made_ok cu m h k l f fs :
    G cu m h k l (f :: fs) -> f_todo f = [] -> okfn m (f_side f) (f_key f) (made need h (f_side f) (f_key f) (f_got f)).
  Proof.
    intros HG Ht. destruct (Forall_inv (G_fr _ _ _ _ _ _ HG)) as (Hm & Hcu & (e & He & Hw & Hd) & Hn).
    unfold made. destruct (need (f_side f) (f_key f)) as [ks|] eqn:En.
    2: { split; [left; split; [done|by apply Uns_here]|done]. }
    destruct Hn as (dn & Hks & HF). rewrite Ht, app_nil_r in Hks. subst dn.
    destruct (existsb (has_err h (f_side f)) (f_got f)) eqn:Ex.
    - split; [|done]. left. split; [done|]. apply existsb_exists in Ex as (lx & Hin & Hx).
      apply elem_of_list_In in Hin. apply elem_of_list_lookup in Hin as (j & Hj).
      destruct (Forall2_lookup_r _ _ _ _ _ HF Hj) as (kx & Hkx & Hmx). cbn in Hmx.
      eapply Uns_in; [exact En|by eapply elem_of_list_lookup_2|].
      unfold has_err in Hx. destruct (h !! lx) as [ex|] eqn:Eex; [|done].
      destruct (half_of (f_side f) ex) eqn:Eh; [done| |done].
      destruct (G_all _ _ _ _ _ _ HG _ _ Hmx) as [(g & Hg & Hgk)|(e' & E' & H1 & H2)].
      + pose proof (proj1 (Forall_forall _ _) (G_fr _ _ _ _ _ _ HG) g Hg) as (Gm & _ & (eg & Eg & Gw & Gd) & _).
        rewrite Hgk in *. assert (f_loc g = lx) as El by congruence. rewrite El, Eex in Eg. injection Eg as <-.
        destruct (f_side f); cbn in Eh; [|congruence].
        destruct (f_side g); [congruence|]. destruct Gd as [[[_ ?]|(? & ? & _ & ? & _)] _]; [done|congruence].
      + rewrite Eex in E'. injection E' as <-.
        assert (okfn m (f_side f) kx (half_of (f_side f) ex)) as [[[_ ?]|(? & ? & _ & ? & _)] _]
          by (destruct (f_side f); done); [done|congruence].
    - split; [right; eauto 6|]. intros Hu Hr. exfalso.
      inversion Hu as [? E|? ks' k' E Hk' Hu']; subst; [congruence|].
      assert (ks' = ks) as -> by congruence.
      assert (part_of k' (f_key f)) as Hp by (exists (f_side f), ks; done).
      apply elem_of_list_lookup in Hk' as (j & Hj).
      destruct (Forall2_lookup_l _ _ _ _ _ HF Hj) as (l' & Hl' & Hml'). cbn in Hml'.
      destruct (G_all _ _ _ _ _ _ HG _ _ Hml') as [(g & Hg & Hgk)|(e' & E' & H1 & H2)].
      + apply (acc_irr (f_key f) Hr). eapply tc_rtc_l; [|by apply tc_once].
        rewrite <- Hgk. apply (stack_reaches f fs g); [apply (G_ch _ _ _ _ _ _ HG)|done].
      + assert (okfn m (f_side f) k' (half_of (f_side f) e')) as [_ Hc] by (destruct (f_side f); done).
        specialize (Hc Hu' (Acc_inv Hr Hp)).
        assert (existsb (has_err h (f_side f)) (f_got f) = true) as Ex'.
        { apply existsb_exists. exists l'. split; [apply elem_of_list_In; by eapply elem_of_list_lookup_2|].
          by eapply has_err_true. }
        congruence.
  Qed.

  Lemma G_bound cu m h k l fs k' l' : G cu m h k l fs -> m !! k' = Some l' -> l' < length h.
  Proof.
    intros HG E. destruct (G_all _ _ _ _ _ _ HG _ _ E) as [(g & Hg & Hgk)|(e & E' & _)].
    - pose proof (proj1 (Forall_forall _ _) (G_fr _ _ _ _ _ _ HG) g Hg) as (Gm & _ & (eg & Eg & _) & _).
      rewrite Hgk in Gm. assert (f_loc g = l') as <- by congruence. by eapply lookup_lt_Some.
    - by eapply lookup_lt_Some.
  Qed.

  Lemma frame_of_needs (m : gmap nat nat) s k : match need s k with
    | None => default [] (need s k) = [] /\ @nil nat = []
    | Some ks => exists dn, ks = dn ++ default [] (need s k) /\ Forall2 (fun k' l' => m !! k' = Some l') dn (@nil nat)
    end.
  Proof. destruct (need s k) as [ks|] eqn:E; [exists []; split; [done|constructor]|done]. Qed.

  Lemma chain_top f f' fs : f_key f = f_key f' -> chain (f :: fs) -> chain (f' :: fs).
  Proof. intros E. cbn [chain]. intros [H1 H2]. split; [|done]. destruct fs; [done|]. by rewrite <- E. Qed.

  Lemma gen_step_ok cu m h k l f fs m' h' fs' :
    G cu m h k l (f :: fs) -> gen_step need m h f fs = (m', h', fs') ->
    G cu m' h' k l fs' /\ (forall k0 l0, cu !! k0 = Some l0 -> h' !! l0 = h !! l0).
  Proof.
    intros HG. unfold gen_step. pose proof (G_fr _ _ _ _ _ _ HG) as HF.
    destruct (Forall_inv HF) as (Hm & Hcu & (e & He & Hw & Hd) & Hn). apply Forall_inv_tail in HF.
    destruct (f_todo f) as [|d r] eqn:Ht.
    - (* a function is finished *)
      set (x := made need h (f_side f) (f_key f) (f_got f)).
      pose proof (made_ok _ _ _ _ _ _ _ HG Ht) as Hx. fold x in Hx.
      set (h1 := alter (set_half (f_side f) x) (f_loc f) h).
      assert (h1 !! f_loc f = Some (set_half (f_side f) x e)) as Hh1 by (unfold h1; rewrite list_lookup_alter, He; done).
      assert (forall l0, l0 <> f_loc f -> h1 !! l0 = h !! l0) as Hother by (intros; unfold h1; by rewrite list_lookup_alter_ne).
      assert (forall k0 l0, m !! k0 = Some l0 -> k0 <> f_key f -> l0 <> f_loc f) as Hdiff.
      { intros k0 l0 E N ->. apply N. by apply (G_inj _ _ _ _ _ _ HG k0 (f_key f) (f_loc f)). }
      pose proof (G_nd _ _ _ _ _ _ HG) as Hnd. rewrite fmap_cons in Hnd. apply NoDup_cons in Hnd as [Hnin Hnd].
      assert (forall g, g ∈ fs -> f_key g <> f_key f) as Hgf.
      { intros g Hg E. apply Hnin. rewrite <- E. by apply elem_of_list_fmap_1. }
      assert (Forall (frame_ok cu m h1) fs) as HF1.
      { apply Forall_forall. intros g Hg. destruct (proj1 (Forall_forall _ _) HF g Hg) as (A & B & (eg & C1 & C2) & D).
        split; [done|]. split; [done|]. split; [|done]. exists eg. split; [|done]. rewrite Hother; [done|]. eauto. }
      assert (forall k0 l0, cu !! k0 = Some l0 -> h1 !! l0 = h !! l0) as Hfro.
      { intros k0 l0 E. apply Hother. apply (Hdiff k0); [by eapply lookup_weaken, (G_sub _ _ _ _ _ _ HG)|congruence]. }
      destruct (f_side f) eqn:Es; intros [= <- <- <-]; (split; [|exact Hfro]).
      + (* the decoder: the writer is next *)
        constructor.
        * apply (G_sub _ _ _ _ _ _ HG). * apply (G_inj _ _ _ _ _ _ HG). * apply (G_root _ _ _ _ _ _ HG).
        * intros k' l' E. destruct (decide (k' = f_key f)) as [->|N].
          { left. exists (frame_of need Wri (f_key f) (f_loc f)). split; [apply elem_of_list_here|done]. }
          destruct (G_all _ _ _ _ _ _ HG _ _ E) as [(g & Hg & Hgk)|Hgood].
          { left. exists g. split; [|done]. apply elem_of_cons in Hg as [->|Hg]; [congruence|]. by apply elem_of_list_further. }
          right. eapply good_mono; [done| |done]. intros e0 E0. rewrite Hother; [done|]. eauto.
        * constructor; [|done]. split; [done|]. split; [done|]. split; [|apply frame_of_needs].
          exists (set_half Dec x e). split; [done|]. cbn. split; [done|]. done.
        * rewrite fmap_cons. apply NoDup_cons. split; [done|done].
        * eapply chain_top; [|apply (G_ch _ _ _ _ _ _ HG)]. done.
        * pose proof (G_reach _ _ _ _ _ _ HG) as Hre. constructor; [apply (Forall_inv Hre)|apply (Forall_inv_tail Hre)].
      + (* the writer: the entry is finished *)
        constructor.
        * apply (G_sub _ _ _ _ _ _ HG). * apply (G_inj _ _ _ _ _ _ HG). * apply (G_root _ _ _ _ _ _ HG).
        * intros k' l' E. destruct (decide (k' = f_key f)) as [->|N].
          { right. assert (l' = f_loc f) as -> by congruence. exists (set_half Wri x e). split; [done|]. cbn. done. }
          destruct (G_all _ _ _ _ _ _ HG _ _ E) as [(g & Hg & Hgk)|Hgood].
          { left. exists g. split; [|done]. apply elem_of_cons in Hg as [->|Hg]; [congruence|]. done. }
          right. eapply good_mono; [done| |done]. intros e0 E0. rewrite Hother; [done|]. eauto.
        * done.
        * done.
        * pose proof (G_ch _ _ _ _ _ _ HG) as Hc. apply Hc.
        * apply (Forall_inv_tail (G_reach _ _ _ _ _ _ HG)).
    - (* one more type is looked up *)
      destruct (need (f_side f) (f_key f)) as [ks|] eqn:En; [|destruct Hn; congruence].
      destruct Hn as (dn & Hks & HFd).
      assert (part_of d (f_key f)) as Hp.
      { exists (f_side f), ks. split; [done|]. rewrite Hks. apply elem_of_app. right. apply elem_of_list_here. }
      unfold infoWhileGenerating. destruct (m !! d) as [ld|] eqn:Ed; intros [= <- <- <-].
      + split; [|done]. constructor.
        * apply (G_sub _ _ _ _ _ _ HG). * apply (G_inj _ _ _ _ _ _ HG). * apply (G_root _ _ _ _ _ _ HG).
        * intros k' l' E. destruct (G_all _ _ _ _ _ _ HG _ _ E) as [(g & Hg & Hgk)|Hgood]; [|by right].
          left. apply elem_of_cons in Hg as [->|Hg]; [eexists; split; [apply elem_of_list_here|done]|].
          exists g. split; [by apply elem_of_list_further|done].
        * constructor; [|done]. split; [done|]. split; [done|]. cbn. split; [by exists e|]. rewrite En. exists (dn ++ [d]).
          split; [by rewrite <- app_assoc|]. apply Forall2_app; [done|]. by constructor.
        * pose proof (G_nd _ _ _ _ _ _ HG) as Hnd. done.
        * eapply chain_top; [|apply (G_ch _ _ _ _ _ _ HG)]. done.
        * pose proof (G_reach _ _ _ _ _ _ HG) as Hre. constructor; [apply (Forall_inv Hre)|apply (Forall_inv_tail Hre)].
      + set (m1 := <[d := length h]> m). set (h1 := h ++ [Info HNil HNil]).
        assert (m ⊆ m1) as Hsub by (by apply insert_subseteq).
        assert (forall l0 e0, h !! l0 = Some e0 -> h1 !! l0 = Some e0) as Hh by (intros; unfold h1; by apply lookup_app_l_Some).
        assert (Forall (frame_ok cu m1 h1) fs) as HF1.
        { eapply Forall_impl; [exact HF|]. intros g (A & B & (eg & C1 & C2 & C3) & D).
          split; [by eapply lookup_weaken|]. split; [done|]. split.
          - exists eg. split; [by apply Hh|]. split; [done|]. destruct (f_side g); [done|by eapply okfn_mono].
          - destruct (need (f_side g) (f_key g)); [|done]. destruct D as (dn' & D1 & D2). exists dn'. split; [done|].
            eapply Forall2_impl; [exact D2|]. cbn; intros a b E; by eapply lookup_weaken. }
        split.
        2: { intros k0 l0 E. unfold h1. rewrite lookup_app_l; [done|].
             eapply G_bound; [exact HG|by eapply lookup_weaken, (G_sub _ _ _ _ _ _ HG)]. }
        assert (forall g, g ∈ f :: fs -> f_key g <> d) as Hgd.
        { intros g Hg E. destruct (proj1 (Forall_forall _ _) (G_fr _ _ _ _ _ _ HG) g Hg) as (A & _). congruence. }
        constructor.
        * etransitivity; [apply (G_sub _ _ _ _ _ _ HG)|done].
        * intros a b l0. unfold m1. rewrite !lookup_insert_Some. intros [[<- <-]|[N1 E1]] [[<- E2]|[N2 E2]]; [done| | |].
          -- pose proof (G_bound _ _ _ _ _ _ _ _ HG E2). lia.
          -- pose proof (G_bound _ _ _ _ _ _ _ _ HG E1). lia.
          -- by apply (G_inj _ _ _ _ _ _ HG a b l0).
        * eapply lookup_weaken; [apply (G_root _ _ _ _ _ _ HG)|done].
        * intros k' l'. unfold m1. rewrite lookup_insert_Some. intros [[<- <-]|[N E]].
          { left. eexists. split; [apply elem_of_list_here|done]. }
          destruct (G_all _ _ _ _ _ _ HG _ _ E) as [(g & Hg & Hgk)|Hgood].
          { left. apply elem_of_cons in Hg as [->|Hg].
            - eexists. split; [apply elem_of_list_further, elem_of_list_here|done].
            - exists g. split; [by do 2 apply elem_of_list_further|done]. }
          right. eapply good_mono; [done| |done]. apply Hh.
        * constructor; [|constructor; [|done]].
          -- split; [cbn; unfold m1; by rewrite lookup_insert|].
             split. { cbn. destruct (cu !! d) eqn:Ec; [|done]. pose proof (lookup_weaken _ _ _ _ Ec (G_sub _ _ _ _ _ _ HG)). congruence. }
             cbn [frame_of f_loc f_side f_key f_todo f_got]. split; [|apply frame_of_needs].
             exists (Info HNil HNil). split; [unfold h1; rewrite lookup_app_r, Nat.sub_diag by lia; done|]. done.
          -- split; [by eapply lookup_weaken|]. split; [done|]. cbn. split.
             { exists e. split; [by apply Hh|]. split; [done|]. destruct (f_side f); [done|by eapply okfn_mono]. }
             rewrite En. exists (dn ++ [d]). split; [by rewrite <- app_assoc|]. apply Forall2_app.
             ++ eapply Forall2_impl; [exact HFd|]. cbn; intros a b E; by eapply lookup_weaken.
             ++ constructor; [|constructor]. unfold m1. by rewrite lookup_insert.
        * cbn. apply NoDup_cons. split; [|apply (G_nd _ _ _ _ _ _ HG)]. intros Hin.
          assert (d ∈ f_key <$> f :: fs) as Hin' by done. apply elem_of_list_fmap in Hin' as (g & E & Hg). by apply (Hgd g Hg).
        * cbn [app chain]. split; [done|]. apply (chain_top f); [done|]. apply (G_ch _ _ _ _ _ _ HG).
        * pose proof (G_reach _ _ _ _ _ _ HG) as Hre. pose proof (Forall_inv Hre) as Hre1. cbn in Hre1.
          constructor; [by eapply rtc_l|]. constructor; [done|apply (Forall_inv_tail Hre)].
  Qed.

  Definition holds (t : tstate) : bool :=
    match t with TCheck _ | TGen _ _ _ | TUnlock _ _ => true | _ => false end.

  Record J (c : conf) : Prop := {
    J_mu : forall i t, thr c !! i = Some t -> holds t = true -> mu c = Some i;
    J_held : forall i, mu c = Some i -> exists t, thr c !! i = Some t /\ holds t = true;
    J_inj : inj (cur c);
    J_cur : forall k l, cur c !! k = Some l -> good (cur c) (heap c) k l;
    J_gen : forall i k l fs, thr c !! i = Some (TGen k l fs) -> G (cur c) (next c) (heap c) k l fs;
    J_done : forall i k l, thr c !! i = Some (TDone k l) \/ thr c !! i = Some (TUnlock k l) -> cur c !! k = Some l;
  }.

  Lemma J_initial n : J (initial n).
  Proof.
    constructor; cbn.
    - intros i t E. apply lookup_replicate in E as [-> _]. done.
    - done.
    - intros a b l E. by rewrite lookup_empty in E.
    - intros a b E. by rewrite lookup_empty in E.
    - intros i k l fs E. apply lookup_replicate in E as [E _]. done.
    - intros i k l [E|E]; apply lookup_replicate in E as [E _]; done.
  Qed.

  (** Steps that change only the thread and perhaps the mutex. *)
  Lemma J_light c i t t' mu' :
    J c -> thr c !! i = Some t ->
    (forall k l fs, t' <> TGen k l fs) ->
    (forall k l, t' = TDone k l \/ t' = TUnlock k l -> cur c !! k = Some l) ->
    ((mu' = mu c /\ holds t = holds t') \/
     (mu c = None /\ mu' = Some i /\ holds t' = true) \/
     (mu' = None /\ holds t = true /\ holds t' = false)) ->
    J (Conf (cur c) (next c) (heap c) mu' (<[i := t']> (thr c))).
  Proof.
    intros HJ Ht Hg Hd Hmu. pose proof (lookup_lt_Some _ _ _ Ht) as Hlt. constructor; cbn.
    - intros j u. rewrite list_lookup_insert_Some. intros [(<- & -> & _)|[N E]] Hh.
      + destruct Hmu as [[-> Hh']|[(_ & -> & _)|(_ & _ & Hf)]]; [|done|congruence].
        apply (J_mu _ HJ i t); [done|congruence].
      + pose proof (J_mu _ HJ j u E Hh) as Hj.
        destruct Hmu as [[-> _]|[(Hm & _ & _)|(-> & Hh' & _)]]; [done|congruence|].
        pose proof (J_mu _ HJ i t Ht Hh'). congruence.
    - intros j Hj. destruct Hmu as [[-> Hh']|[(_ & -> & Hh')|(-> & _ & _)]]; [| |done].
      + destruct (J_held _ HJ j Hj) as (u & Hu & Hhu). destruct (decide (j = i)) as [->|N].
        * exists t'. rewrite list_lookup_insert by done. split; [done|]. congruence.
        * exists u. by rewrite list_lookup_insert_ne.
      + injection Hj as <-. exists t'. by rewrite list_lookup_insert.
    - apply (J_inj _ HJ).
    - apply (J_cur _ HJ).
    - intros j k l fs. rewrite list_lookup_insert_Some. intros [(<- & E & _)|[N E]]; [by destruct (Hg k l fs)|].
      by apply (J_gen _ HJ j).
    - intros j k l [E|E]; rewrite list_lookup_insert_Some in E; destruct E as [(<- & E & _)|[N E]]; eauto using J_done.
  Qed.

  Definition grows (c c' : conf) : Prop :=
    forall k l, cur c !! k = Some l -> cur c' !! k = Some l /\ heap c' !! l = heap c !! l.

  Lemma step_ok c i b c' : J c -> step need c i b = Some c' -> J c' /\ grows c c'.
  Proof.
    intros HJ. unfold step. destruct (thr c !! i) as [t|] eqn:Ht; [|done].
    pose proof (lookup_lt_Some _ _ _ Ht) as Hlt.
    destruct t as [|k|k|k|k l fs|k l|k l], b as [k0| |]; try done.
    - intros [= <-]. split; [|done]. eapply J_light; [done|done|done|intros ? ? [?|?]; done|by left].
    - destruct (cur c !! k) as [l|] eqn:E; intros [= <-]; (split; [|done]).
      + eapply J_light; [done|done|done| |by left]. intros k' l' [[= <- <-]|?]; done.
      + eapply J_light; [done|done|done|intros ? ? [?|?]; done|by left].
    - destruct (mu c) eqn:Em; [done|]. intros [= <-]. split; [|done].
      eapply J_light; [done|done|done|intros ? ? [?|?]; done|]. right. left. done.
    - destruct (cur c !! k) as [l|] eqn:E.
      + intros [= <-]. split; [|done]. eapply J_light; [done|done|done| |by left]. intros k' l' [?|[= <- <-]]; done.
      + unfold infoWhileGenerating. rewrite E. intros [= <-].
        assert (forall k0 l0, cur c !! k0 = Some l0 -> l0 < length (heap c)) as Hb.
        { intros k0 l0 E0. destruct (J_cur _ HJ _ _ E0) as (e & He & _). by eapply lookup_lt_Some. }
        assert (forall l0 e0, heap c !! l0 = Some e0 -> (heap c ++ [Info HNil HNil]) !! l0 = Some e0) as Hh
          by (intros; by apply lookup_app_l_Some).
        pose proof (J_mu _ HJ i _ Ht eq_refl) as Hmu.
        split.
        2: { intros k0 l0 E0. cbn. split; [done|]. rewrite lookup_app_l; [done|eauto]. }
        constructor; cbn.
        * intros j u. rewrite list_lookup_insert_Some. intros [(<- & <- & _)|[N E']] Hh'; [done|]. by apply (J_mu _ HJ j u).
        * intros j Hj. destruct (J_held _ HJ j Hj) as (u & Hu & Hhu). assert (j = i) as -> by congruence.
          eexists. rewrite list_lookup_insert by done. done.
        * apply (J_inj _ HJ).
        * intros k0 l0 E0. eapply good_mono; [done| |by apply (J_cur _ HJ)]. apply Hh.
        * intros j k' l' fs. rewrite list_lookup_insert_Some. intros [(<- & [= <- <- <-] & _)|[N E']].
          2: { pose proof (J_mu _ HJ j _ E' eq_refl). congruence. }
          assert (cur c ⊆ <[k := length (heap c)]> (cur c)) as Hsub by (by apply insert_subseteq).
          constructor.
          -- done.
          -- intros a b l0. rewrite !lookup_insert_Some. intros [[<- <-]|[N1 E1]] [[<- E2]|[N2 E2]]; [done| | |].
             ++ apply Hb in E2. lia. ++ apply Hb in E1. lia. ++ by apply (J_inj _ HJ a b l0).
          -- by rewrite lookup_insert.
          -- intros k' l'. rewrite lookup_insert_Some. intros [[<- <-]|[N E']].
             ++ left. eexists. split; [apply elem_of_list_here|done].
             ++ right. eapply good_mono; [exact Hsub| |by apply (J_cur _ HJ)]. apply Hh.
          -- constructor; [|constructor]. split; [cbn; by rewrite lookup_insert|]. split; [done|].
             cbn [frame_of f_loc f_side f_key f_todo f_got]. split; [|apply frame_of_needs].
             exists (Info HNil HNil). split; [rewrite lookup_app_r, Nat.sub_diag by lia; done|]. done.
          -- cbn. apply NoDup_singleton.
          -- cbn. done.
          -- constructor; [apply rtc_refl|constructor].
        * intros j k' l' [E'|E']; rewrite list_lookup_insert_Some in E'; destruct E' as [(<- & E' & _)|[N E']]; try done; eauto using J_done.
    - by destruct fs.
    - destruct fs as [|f fs].
      + (* store *)
        intros [= <-]. pose proof (J_gen _ HJ _ _ _ _ Ht) as HG. pose proof (J_mu _ HJ i _ Ht eq_refl) as Hmu.
        split.
        2: { intros k0 l0 E0. cbn. split; [|done]. by eapply lookup_weaken, (G_sub _ _ _ _ _ _ HG). }
        constructor; cbn.
        * intros j u. rewrite list_lookup_insert_Some. intros [(<- & <- & _)|[N E']] Hh'; [done|]. by apply (J_mu _ HJ j u).
        * intros j Hj. destruct (J_held _ HJ j Hj) as (u & Hu & Hhu). assert (j = i) as -> by congruence.
          eexists. rewrite list_lookup_insert by done. done.
        * apply (G_inj _ _ _ _ _ _ HG).
        * intros k0 l0 E0. destruct (G_all _ _ _ _ _ _ HG _ _ E0) as [(g & Hg & _)|?]; [|done]. by apply elem_of_nil in Hg.
        * intros j k' l' fs. rewrite list_lookup_insert_Some. intros [(<- & ? & _)|[N E']]; [done|].
          pose proof (J_mu _ HJ j _ E' eq_refl). congruence.
        * intros j k' l' [E'|E']; rewrite list_lookup_insert_Some in E'; destruct E' as [(<- & E' & _)|[N E']]; try done.
          -- eapply lookup_weaken; [|apply (G_sub _ _ _ _ _ _ HG)]. eauto using J_done.
          -- injection E' as <- <-. apply (G_root _ _ _ _ _ _ HG).
          -- eapply lookup_weaken; [|apply (G_sub _ _ _ _ _ _ HG)]. eauto using J_done.
      + destruct (gen_step need (next c) (heap c) f fs) as [[nx h] fs'] eqn:Eg. intros [= <-].
        pose proof (J_mu _ HJ i _ Ht eq_refl) as Hmu.
        destruct (gen_step_ok _ _ _ _ _ _ _ _ _ _ (J_gen _ HJ _ _ _ _ Ht) Eg) as [HG Hf].
        split; [|intros k0 l0 E0; cbn; eauto].
        constructor; cbn.
        * intros j u. rewrite list_lookup_insert_Some. intros [(<- & <- & _)|[N E']] Hh'; [done|]. by apply (J_mu _ HJ j u).
        * intros j Hj. destruct (J_held _ HJ j Hj) as (u & Hu & Hhu). assert (j = i) as -> by congruence.
          eexists. rewrite list_lookup_insert by done. done.
        * apply (J_inj _ HJ).
        * intros k0 l0 E0. eapply good_mono; [done| |by apply (J_cur _ HJ)]. intros e0 E1. rewrite (Hf _ _ E0). done.
        * intros j k' l' fs0. rewrite list_lookup_insert_Some. intros [(<- & [= <- <- <-] & _)|[N E']]; [done|].
          pose proof (J_mu _ HJ j _ E' eq_refl). congruence.
        * intros j k' l' [E'|E']; rewrite list_lookup_insert_Some in E'; destruct E' as [(<- & E' & _)|[N E']]; try done; eauto using J_done.
    - destruct fs as [|f fs]; (intros [= <-]; split; [|done]);
      (eapply J_light; [done|done|done|intros ? ? [?|?]; done|]; right; right; done).
    - intros [= <-]. split; [|done]. eapply J_light; [done|done|done| |right; right; done].
      intros k' l' [[= <- <-]|?]; [|done]. apply (J_done _ HJ i). by right.
    - intros [= <-]. split; [|done]. eapply J_light; [done|done|done|intros ? ? [?|?]; done|by left].
  Qed.

  Lemma exec_ok sch c c' : J c -> exec need c sch = Some c' -> J c' /\ grows c c'.
  Proof.
    revert c. induction sch as [|[i b] r IH]; intros c HJ; cbn [exec].
    - intros [= <-]. split; [done|]. intros k l E. done.
    - destruct (step need c i b) as [c1|] eqn:E; [|done]. intros E'.
      destruct (step_ok _ _ _ _ HJ E) as [HJ1 H1]. destruct (IH _ HJ1 E') as [HJ2 H2].
      split; [done|]. intros k l Ek. destruct (H1 _ _ Ek) as [A B]. destruct (H2 _ _ A) as [C D]. split; [done|congruence].
  Qed.

  (** Following entries from a good map. *)
  Lemma follow_ok m h s :
    (forall k l, m !! k = Some l -> good m h k l) ->
    forall p k l k', m !! k = Some l -> ~ unsupported s k -> type_at need s k p = Some k' ->
    exists l', follow h s l p = Some l' /\ m !! k' = Some l' /\ ~ unsupported s k'.
  Proof.
    intros Hg. induction p as [|j p IH]; intros k l k' E Hu; cbn [type_at follow].
    - intros [= <-]. eauto.
    - destruct (Hg _ _ E) as (e & He & H1 & H2). rewrite He.
      assert (okfn m s k (half_of s e)) as [[[_ ?]|(ks & ls & En & -> & HF)] _] by (destruct s; done); [done|].
      rewrite En. destruct (ks !! j) as [kj|] eqn:Ekj; [|done]. intros Hp.
      destruct (Forall2_lookup_l _ _ _ _ _ HF Ekj) as (lj & -> & Hm). cbn in Hm.
      apply (IH kj lj k'); [done| |done]. intros Hkj. apply Hu. eapply Uns_in; [done|by eapply elem_of_list_lookup_2|done].
  Qed.

  Lemma follow_cur m h s :
    (forall k l, m !! k = Some l -> good m h k l) ->
    forall p k l l', m !! k = Some l -> follow h s l p = Some l' -> exists k', m !! k' = Some l'.
  Proof.
    intros Hg. induction p as [|j p IH]; intros k l l' E; cbn [follow].
    - intros [= <-]. eauto.
    - destruct (Hg _ _ E) as (e & He & H1 & H2). rewrite He.
      assert (okfn m s k (half_of s e)) as [[[-> _]|(ks & ls & En & -> & HF)] _] by (destruct s; done); [done|].
      destruct (ls !! j) as [lj|] eqn:Elj; [|done].
      destruct (Forall2_lookup_r _ _ _ _ _ HF Elj) as (kj & Ekj & Hm). cbn in Hm. by apply IH with kj.
  Qed.

  (** Every generation ends. *)
  Definition fcost (f : frame) : nat :=
    length (f_todo f) + 1 +
    match f_side f with Dec => length (default [] (need Wri (f_key f))) + 1 | Wri => 0 end.
  Definition kcost (k : nat) : nat :=
    length (default [] (need Dec k)) + 1 + (length (default [] (need Wri k)) + 1).
  Definition unseen (U : list nat) (m : gmap nat nat) : nat := length (filter (fun k => m !! k = None) U).
  Definition work (B : nat) (U : list nat) (m : gmap nat nat) (fs : list frame) : nat :=
    B * unseen U m + sum_list (fcost <$> fs).

  Lemma unseen_insert U m k l : k ∈ U -> m !! k = None -> unseen U (<[k := l]> m) < unseen U m.
  Proof.
    unfold unseen. intros Hin Hk. induction U as [|x U IH]; [by apply elem_of_nil in Hin|].
    assert (forall U, length (filter (fun k0 => <[k:=l]> m !! k0 = None) U) <= length (filter (fun k0 => m !! k0 = None) U)) as Hle.
    { clear. intros U. induction U as [|x U IH]; [done|]. rewrite !filter_cons.
      destruct (decide (<[k:=l]> m !! x = None)) as [E|E]; destruct (decide (m !! x = None)) as [E'|E']; cbn; try lia.
      apply lookup_insert_None in E as [E _]. done. }
    rewrite !filter_cons. destruct (decide (x = k)) as [->|N].
    - rewrite decide_False by (rewrite lookup_insert; done). rewrite decide_True by done. specialize (Hle U). cbn. lia.
    - apply elem_of_cons in Hin as [->|Hin]; [done|]. specialize (IH Hin).
      destruct (decide (<[k:=l]> m !! x = None)) as [E|E]; destruct (decide (m !! x = None)) as [E'|E']; cbn; try lia.
      apply lookup_insert_None in E as [E _]. done.
  Qed.

  Lemma gen_step_work B (U : list nat) cu m h k l f fs m' h' fs' :
    (forall k', rtc part_of k' k -> k' ∈ U) -> (forall k', k' ∈ U -> kcost k' <= B) ->
    G cu m h k l (f :: fs) -> gen_step need m h f fs = (m', h', fs') -> work B U m' fs' < work B U m (f :: fs).
  Proof.
    intros HU HB HG. unfold gen_step.
    destruct (Forall_inv (G_fr _ _ _ _ _ _ HG)) as (Hm & Hcu & _ & Hn). pose proof (Forall_inv (G_reach _ _ _ _ _ _ HG)) as Hre. cbn in Hre.
    unfold work. destruct (f_todo f) as [|d r] eqn:Ht.
    - unfold fcost at 2. destruct (f_side f) eqn:Es; intros [= <- <- <-]; cbn; rewrite ?Ht; unfold fcost; cbn; rewrite ?Es; cbn; lia.
    - unfold infoWhileGenerating. destruct (m !! d) as [ld|] eqn:Ed; intros [= <- <- <-]; cbn; unfold fcost; cbn; rewrite Ht; cbn; [lia|].
      destruct (need (f_side f) (f_key f)) as [ks|] eqn:En; [|destruct Hn; congruence].
      destruct Hn as (dn & Hks & _).
      assert (d ∈ U) as HdU.
      { apply HU. eapply rtc_l; [|exact Hre]. exists (f_side f), ks. split; [done|]. rewrite Hks. apply elem_of_app. right. apply elem_of_list_here. }
      pose proof (unseen_insert U m d (length h) HdU Ed) as Hlt. specialize (HB d HdU). unfold kcost in HB.
      assert (B * unseen U (<[d:=length h]> m) + B <= B * unseen U m) by nia. lia.
  Qed.

  Lemma exec_app c s1 s2 : exec need c (s1 ++ s2) = match exec need c s1 with Some c' => exec need c' s2 | None => None end.
  Proof. revert c. induction s1 as [|[i b] s1 IH]; intros c; cbn; [done|]. destruct (step need c i b); [apply IH|done]. Qed.

  Lemma kcost_bound (U : list nat) : exists B, forall k', k' ∈ U -> kcost k' <= B.
  Proof.
    induction U as [|x U [B IH]]; [exists 0; intros k' H; by apply elem_of_nil in H|].
    exists (B + kcost x). intros k' [->|H]%elem_of_cons; [lia|]. specialize (IH _ H). lia.
  Qed.

  Definition goes (i : nat) (s : list (nat * label)) : Prop := Forall (fun x => x = (i, LGo)) s.

  Lemma gen_finishes (U : list nat) c i k l fs :
    (forall k', rtc part_of k' k -> k' ∈ U) -> J c -> thr c !! i = Some (TGen k l fs) ->
    exists s c', goes i s /\ exec need c s = Some c' /\ thr c' !! i = Some (TDone k l) /\ mu c' = None /\
                 (forall j, j <> i -> thr c' !! j = thr c !! j).
  Proof.
    intros HU HJ Ht. destruct (kcost_bound U) as [B HB]. remember (work B U (next c) fs) as w eqn:Ew.
    revert c fs HJ Ht Ew. induction (lt_wf w) as [w _ IH]. intros c fs HJ Ht ->.
    pose proof (lookup_lt_Some _ _ _ Ht) as Hlt.
    destruct fs as [|f fs].
    - exists [(i, LGo); (i, LGo)]. eexists. split; [by repeat constructor|]. cbn [exec]. unfold step. rewrite Ht. cbn.
      rewrite list_lookup_insert by done. cbn. split; [done|]. cbn. rewrite list_lookup_insert by (by rewrite insert_length).
      split; [done|]. split; [done|]. intros j N. by rewrite !list_lookup_insert_ne by done.
    - destruct (gen_step need (next c) (heap c) f fs) as [[nx h] fs'] eqn:Eg.
      set (c1 := Conf (cur c) nx h (mu c) (<[i := TGen k l fs']> (thr c))).
      assert (step need c i LGo = Some c1) as Es by (unfold step; rewrite Ht, Eg; done).
      destruct (step_ok _ _ _ _ HJ Es) as [HJ1 _].
      assert (thr c1 !! i = Some (TGen k l fs')) as Ht1 by (cbn; by rewrite list_lookup_insert).
      pose proof (gen_step_work B U _ _ _ _ _ _ _ _ _ _ HU HB (J_gen _ HJ _ _ _ _ Ht) Eg) as Hw.
      destruct (IH _ Hw c1 fs' HJ1 Ht1 eq_refl) as (s & c' & Hs & He & Hd & Hm & Ho).
      exists ((i, LGo) :: s), c'. split; [by constructor|]. cbn [exec]. rewrite Es. split; [done|]. split; [done|]. split; [done|].
      intros j N. rewrite Ho by done. cbn. by rewrite list_lookup_insert_ne.
  Qed.

  (** The type a goroutine asks for. *)
  Definition asks (t : tstate) : option nat :=
    match t with
    | TIdle => None
    | TLook k | TLock k | TCheck k | TGen k _ _ | TUnlock k _ | TDone k _ => Some k
    end.

  Lemma holder_finishes (U : list nat) c i t k :
    (forall k', rtc part_of k' k -> k' ∈ U) -> J c -> thr c !! i = Some t -> holds t = true -> asks t = Some k ->
    exists s c' l, goes i s /\ exec need c s = Some c' /\ thr c' !! i = Some (TDone k l) /\ mu c' = None /\
                   (forall j, j <> i -> thr c' !! j = thr c !! j).
  Proof.
    intros HU HJ Ht Hh Ha. pose proof (lookup_lt_Some _ _ _ Ht) as Hlt.
    destruct t as [|k0|k0|k0|k0 l0 fs|k0 l0|k0 l0]; try done; injection Ha as ->.
    - destruct (cur c !! k) as [l|] eqn:E.
      + exists [(i, LGo); (i, LGo)]. eexists _, l. split; [by repeat constructor|]. cbn [exec]. unfold step. rewrite Ht, E. cbn.
        rewrite list_lookup_insert by done. cbn. split; [done|]. cbn. rewrite list_lookup_insert by (by rewrite insert_length).
        split; [done|]. split; [done|]. intros j N. by rewrite !list_lookup_insert_ne by done.
      + destruct (infoWhileGenerating need (cur c) (heap c) k) as [[[nx h] l] fs] eqn:Ei.
        set (c1 := Conf (cur c) nx h (mu c) (<[i := TGen k l fs]> (thr c))).
        assert (step need c i LGo = Some c1) as Es by (unfold step; rewrite Ht, E, Ei; done).
        destruct (step_ok _ _ _ _ HJ Es) as [HJ1 _].
        assert (thr c1 !! i = Some (TGen k l fs)) as Ht1 by (cbn; by rewrite list_lookup_insert).
        destruct (gen_finishes U c1 i k l fs HU HJ1 Ht1) as (s & c' & Hs & He & Hd & Hm & Ho).
        exists ((i, LGo) :: s), c', l. split; [by constructor|]. cbn [exec]. rewrite Es. split; [done|]. split; [done|]. split; [done|].
        intros j N. rewrite Ho by done. cbn. by rewrite list_lookup_insert_ne.
    - destruct (gen_finishes U c i k l0 fs HU HJ Ht) as (s & c' & H). exists s, c', l0. done.
    - exists [(i, LGo)]. eexists _, l0. split; [by repeat constructor|]. cbn [exec]. unfold step. rewrite Ht. cbn.
      split; [done|]. cbn. rewrite list_lookup_insert by done. split; [done|]. split; [done|]. intros j N. by rewrite list_lookup_insert_ne.
  Qed.
End proofs.
