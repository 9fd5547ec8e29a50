From Verif Require Import Base MerkleSpec MerkleModel TrieSpec TrieModel TrieProofModel.
From Verif Require Import HistSpec HistModel HistRepProofs HistCommitProofs HistRunProofs RevHistSpec RevHistModel.
From stdpp Require Import gmap.
Open Scope N_scope.

Section run.
Context (E : henv) (EOK : henv_ok E).
Local Notation H := (hH E).
Local Notation len32 := (Forall (fun v : list N => length v = 32%nat)).
Implicit Types (vs : list (list N)) (st : hstore).
Context (good : list (list N) -> Prop).
Context (G32 : forall vs, good vs -> len32 vs).
Context (Glen : forall vs, good vs -> lenN vs < two64).
Context (Ginj : forall vs vs' x y, good vs -> good vs' -> x ∈ hist_inputs H vs -> y ∈ hist_inputs H vs' -> H x = H y -> x = y).
Context (Gval : forall vs vs' v x, good vs -> good vs' -> v ∈ vs -> x ∈ hist_inputs H vs' -> v <> H x).
Local Notation stle := (stle E good).
Local Notation trep := (trep E).
Local Notation saved := (saved E).

Definition rrep (r : rhtree) (s : rlogs) : Prop :=
  (exists o, rh_origin r = Some o /\ good (rs_done s) /\ trep (rh_store r) o (rs_done s) /\ saved (rh_store r) (rs_done s)) /\
  match rh_live r, rs_work s with
  | None, None => True
  | Some l, Some w => good w /\ trep (rh_store r) l w
  | _, _ => False
  end /\
  Forall2 (fun h vs => good vs /\ h = hist_root H vs /\ saved (rh_store r) vs) (rh_roots r) (rs_saved s).

Lemma roots_mono st st' hs vss : stle st st' ->
  Forall2 (fun h vs => good vs /\ h = hist_root H vs /\ saved st vs) hs vss ->
  Forall2 (fun h vs => good vs /\ h = hist_root H vs /\ saved st' vs) hs vss.
Proof. by apply (saved_all_mono E good G32 Glen Ginj Gval). Qed.

Lemma rstep_ok r s c : rrep r s -> rcall_key c < two64 -> good (working (rstep (hist_root H) s c).1) ->
  exists r', rhstep E r c = Some (r', (rstep (hist_root H) s c).2) /\ rrep r' (rstep (hist_root H) s c).1.
Proof.
  intros ((o & Ho & Hgo & Hto & Hso) & Hl & Hr) Hk Hgood. destruct r as [st ro rl rr]. cbn [rh_origin rh_store rh_live rh_roots] in *. subst ro.
  assert (forall w, good w -> st <> ∅ -> len32 w) as G32' by auto.
  assert (mono : forall st' w t, stle st st' -> good w -> trep st t w -> trep st' t w).
  { intros. eapply (trep_mono E good G32 Glen Ginj Gval); eauto. }
  assert (smono : forall st' w, stle st st' -> good w -> saved st w -> saved st' w).
  { intros. eapply (saved_mono E good G32 Glen Ginj Gval); eauto. }
  destruct c as [k v| | | | | |k|k| |k|k| |i]; cbn [rcall_key] in Hk; unfold rhstep; cbn [rh_origin rh_store rh_live rh_roots].
  - (* append *)
    assert (exists st' o' l, check_live E (RHTree st (Some o) rl rr) = Some (RHTree st' (Some o') (Some l) rr, l) /\ stle st st' /\
      trep st' o' (rs_done s) /\ good (working s) /\ trep st' l (working s)) as (st' & o' & l & -> & Hle & Ho' & Hgw & Htl).
    { unfold check_live, working. cbn [rh_live rh_origin rh_store]. destruct rl as [l|], (rs_work s) as [w|]; try done.
      - exists st, o, l. split; [done|]. split; [apply stle_refl|]. by destruct Hl.
      - unfold clone. destruct (commit_tree_ok E EOK good G32 Glen Ginj Gval st o (rs_done s) Hgo Hto) as (st' & t1 & -> & Hle & Ht1 & Hsv).
        destruct (hash_ok E st' t1 _ Ht1) as (t2 & -> & Ht2). cbn [default]. change (id ?z) with z.
        destruct (open_ok E EOK good G32 Glen Ginj Gval st' (rs_done s) false Hgo Hsv) as (t3 & -> & Ht3).
        exists st', t3, t2. done. }
    cbn [rh_store]. cbn [rstep] in *. destruct ((k =? lenN (working s)) && negb (bool_decide (v = []))) eqn:Hc.
    + apply andb_true_iff in Hc as [->%N.eqb_eq Hv%negb_true_iff%bool_decide_eq_false]. cbn [fst working rs_work] in Hgood.
      destruct (append_ok E EOK st' l (working s) v (fun _ => G32 _ Hgw) Htl Hv) as (l' & -> & Hl').
      { pose proof (Glen _ Hgood) as Hl'. unfold lenN in *. rewrite app_length in Hl'. cbn [length] in Hl'. lia. }
      eexists. split; [done|]. split; [|split; [split; [done|exact Hl']|eapply roots_mono; eassumption]].
      exists o'. split; [done|]. split; [done|]. split; [exact Ho'|]. by apply smono.
    + rewrite (append_bad E st' l (working s) k v Htl Hc). eexists. split; [done|].
      split; [|split; [split; [done|exact Htl]|eapply roots_mono; eassumption]].
      exists o'. split; [done|]. split; [done|]. split; [exact Ho'|]. by apply smono.
  - eexists. split; [cbn [rstep snd]; by rewrite (proj1 Hto)|]. split; [by exists o|done].
  - destruct (hash_ok E st o _ Hto) as (o' & -> & Ho'). eexists. split; [done|]. split; [by exists o'|done].
  - (* commit and hash *)
    unfold prepare_commit. cbn [rh_live rh_store rh_roots].
    assert (exists o0, rh_origin match rl with Some l => RHTree st (Some l) None rr | None => RHTree st (Some o) rl rr end = Some o0 /\
      good (working s) /\ trep st o0 (working s)) as (o0 & Eo & Hgw & Ht0).
    { unfold working. destruct rl as [l|], (rs_work s); try done; eexists; split; [done|done|done|done]. }
    rewrite Eo. destruct (commit_tree_ok E EOK good G32 Glen Ginj Gval st o0 (working s) Hgw Ht0) as (st' & t1 & -> & Hle & Ht1 & Hsv).
    destruct (hash_ok E st' t1 _ Ht1) as (t2 & -> & Ht2). cbn [with_origin with_store rh_store rh_origin rh_live rh_roots].
    eexists. split; [done|]. cbn [rstep fst]. split; [exists t2; by destruct rl|]. cbn. split.
    + destruct rl; [done|]. done.
    + apply Forall2_app; [|by constructor]. destruct rl; cbn [rh_roots]; eapply roots_mono; eassumption.
  - (* prehash *)
    destruct rl as [l|].
    + cbn [rstep]. unfold working in *. destruct (rs_work s) as [w|] eqn:Ew; [|done]. destruct Hl as [Hgw Htl].
      destruct (hash_ok E st l _ Htl) as (l' & -> & Hl'). eexists. split; [done|]. split; [by exists o|]. cbn. rewrite Ew. done.
    + cbn [rstep]. unfold working in *. destruct (rs_work s) as [w|] eqn:Ew; [done|].
      destruct (hash_ok E st o _ Hto) as (o' & -> & Ho'). eexists. split; [done|]. split; [by exists o'|]. cbn. rewrite Ew. done.
  - (* precommit *)
    destruct rl as [l|].
    + cbn [rstep]. unfold working in *. destruct (rs_work s) as [w|] eqn:Ew; [|done]. destruct Hl as [Hgw Htl].
      destruct (commit_tree_ok E EOK good G32 Glen Ginj Gval st l w Hgw Htl) as (st' & t1 & -> & Hle & Ht1 & Hsv).
      destruct (hash_ok E st' t1 _ Ht1) as (t2 & -> & Ht2). eexists. split; [done|]. cbn [rs_done rs_work rs_saved fst].
      split; [exists o; split; [done|]; split; [done|]; split; [by apply mono|by apply smono]|]. cbn.
      split; [done|]. apply Forall2_app; [eapply roots_mono; eassumption|]. by constructor.
    + cbn [rstep]. unfold working in *. destruct (rs_work s) as [w|] eqn:Ew; [done|].
      destruct (hash_ok E st o _ Hto) as (o' & -> & Ho'). eexists. split; [done|]. split; [by exists o'|]. cbn.
      split; [done|]. apply Forall2_app; [done|]. by constructor.
  - (* precollapse *)
    destruct rl as [l|]; [|by eexists; split; [done|]; split; [by exists o|done]].
    destruct (rs_work s) as [w|] eqn:Ew; [|done]. destruct Hl as [Hgw Htl].
    destruct (collapse_before_ok E EOK st l w k (G32' _ Hgw) Htl Hk) as (l' & -> & Hl'). eexists. split; [done|].
    split; [by exists o|]. cbn. rewrite Ew. done.
  - destruct (collapse_before_ok E EOK st o _ k (G32' _ Hgo) Hto Hk) as (o' & -> & Ho'). eexists. split; [done|].
    split; [by exists o'|done].
  - (* commit *)
    unfold prepare_commit. cbn [rh_live rh_store rh_roots].
    assert (exists o0, rh_origin match rl with Some l => RHTree st (Some l) None rr | None => RHTree st (Some o) rl rr end = Some o0 /\
      good (working s) /\ trep st o0 (working s)) as (o0 & Eo & Hgw & Ht0).
    { unfold working. destruct rl as [l|], (rs_work s); try done; eexists; split; [done|done|done|done]. }
    rewrite Eo. destruct (commit_tree_ok E EOK good G32 Glen Ginj Gval st o0 (working s) Hgw Ht0) as (st' & t1 & -> & Hle & Ht1 & Hsv).
    eexists. split; [done|]. cbn [rstep fst]. split; [exists t1; by destruct rl|]. cbn. split; [by destruct rl|].
    destruct rl; cbn [rh_roots]; eapply roots_mono; eassumption.
  - destruct (get_ok E EOK st o _ k (G32' _ Hgo) Hto Hk) as (o' & -> & Ho'). eexists. split; [done|]. split; [by exists o'|done].
  - destruct (proof_ok E EOK st o _ k (G32 _ Hgo) Hto (Glen _ Hgo) Hk) as (o' & r' & -> & Ho' & ->). eexists. split; [done|]. split; [by exists o'|done].
  - eexists. split; [done|]. split; [by exists o|done].
  - cbn [rstep]. destruct (rr !! i) as [h|] eqn:Ei.
    + destruct (Forall2_lookup_l _ _ _ _ _ Hr Ei) as (vs' & Evs & Hgv & -> & Hsv). rewrite Evs.
      destruct (open_ok E EOK good G32 Glen Ginj Gval st vs' true Hgv Hsv) as (t3 & -> & Ht3). eexists. split; [done|]. split; [by exists t3|done].
    + apply lookup_ge_None in Ei. rewrite (Forall2_length _ _ _ Hr) in Ei. apply lookup_ge_None in Ei. rewrite Ei.
      eexists. split; [done|]. split; [by exists o|done].
Qed.

Lemma rrun_ok : forall cs r s, rrep r s -> Forall (fun c => rcall_key c < two64) cs ->
  (forall vs, vs ∈ rvisited (hist_root H) cs s -> good vs) ->
  exists r', rhrun E cs r = Some (r', (rrun (hist_root H) cs s).2) /\ rrep r' (rrun (hist_root H) cs s).1.
Proof.
  induction cs as [|c cs IH]; intros r s Hr Hk Hg; cbn [rhrun rrun]; [exists r; done|].
  inversion Hk as [|? ? Hk1 Hk2]; subst. cbn [rvisited] in Hg.
  assert (forall vs, vs ∈ rvisited (hist_root H) cs (rstep (hist_root H) s c).1 -> good vs) as Hg2
    by (intros vs Hv; apply Hg; by right).
  destruct (rstep_ok r s c Hr Hk1) as (r1 & -> & Hr1).
  { apply Hg2. destruct cs; cbn [rvisited]; by left. }
  destruct (rstep (hist_root H) s c) as [s1 b]. cbn [fst snd] in *.
  destruct (IH r1 s1 Hr1 Hk2 Hg2) as (r2 & -> & Hr2). destruct (rrun (hist_root H) cs s1) as [s2 bs]. exists r2. done.
Qed.
End run.
