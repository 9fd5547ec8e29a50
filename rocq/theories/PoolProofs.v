(** Proofs about the worker pool. *)
From Verif Require Import Base PoolModel PoolSpec.
From stdpp Require Import gmap.
Open Scope N_scope.

Section proofs.
Context {V : Type}.
Implicit Types p : pool V.
Context (n q : nat) (key : option (V -> list N)) (hasfunc : bool).
Local Notation pstep := (pstep n q key hasfunc).
Local Notation pexec := (pexec n q key hasfunc).

Lemma pexec_app a b p : pexec (a ++ b) p = match pexec a p with Some p' => pexec b p' | None => None end.
Proof. revert p; induction a as [|x a IH]; intros p; cbn; [done|]. destruct (pstep p x); [apply IH|done]. Qed.

(* log functions over append *)
Lemma posted_app h l1 l2 : posted (V:=V) h (l1 ++ l2) = posted h l1 ++ posted h l2.
Proof. apply omap_app. Qed.
Lemma taken_app h l1 l2 : taken (V:=V) h (l1 ++ l2) = taken h l1 ++ taken h l2.
Proof. apply omap_app. Qed.
Lemma begun_app l1 l2 : begun (V:=V) (l1 ++ l2) = begun l1 ++ begun l2.
Proof. apply omap_app. Qed.
Lemma ended_app l1 l2 : ended (V:=V) (l1 ++ l2) = ended l1 ++ ended l2.
Proof. apply omap_app. Qed.
Lemma nonnil_app l1 l2 : nonnil (V:=V) (l1 ++ l2) = nonnil l1 ++ nonnil l2.
Proof. apply omap_app. Qed.

(* projections of goroutine states *)
Definition pend (s : wstat V) : option V :=
  match s with WGot (Some v) => if hasfunc then Some v else None | WCounted v => Some v | _ => None end.
Definition runs (s : wstat V) : option V := match s with WRun v => Some v | _ => None end.
Definition keyed (s : wstat V) : option (list N) :=
  match s with
  | WCounted v | WRun v | WFin v => if (length (key_of key v) =? 0)%nat then None else Some (key_of key v)
  | _ => None
  end.
Definition exited (s : wstat V) : bool := match s with WExited => true | _ => false end.

Lemma omap_insert {A} (f : wstat V -> option A) gs w s s' :
  gs !! w = Some s ->
  omap f (<[w := s']> gs) ++ option_list (f s) ≡ₚ omap f gs ++ option_list (f s').
Proof.
  intros H. rewrite insert_take_drop by (by eapply lookup_lt_Some).
  pose proof (take_drop_middle gs w s H) as E. rewrite <- E at 3.
  rewrite !omap_app. cbn [omap list_omap]. destruct (f s), (f s'); cbn; solve_Permutation.
Qed.
Lemma omap_replicate_none {A} (f : wstat V -> option A) k s : f s = None -> omap f (replicate k s) = [].
Proof. intros H. induction k; cbn; [done|]. by rewrite H. Qed.

Definition kcount (k : list N) (gs : list (wstat V)) : nat := length (filter (fun k' => k' = k) (omap keyed gs)).
Arguments kcount : simpl never.

Record inv (p : pool V) : Prop := Inv {
  i_fifo_h : posted true (p_log p) = taken true (p_log p) ++ p_high p;
  i_fifo_l : posted false (p_log p) = taken false (p_log p) ++ p_low p;
  i_run : begun (p_log p) ≡ₚ ended (p_log p) ++ omap runs (p_gs p);
  i_begin : if hasfunc
            then nonnil (taken true (p_log p)) ++ nonnil (taken false (p_log p)) ≡ₚ begun (p_log p) ++ omap pend (p_gs p)
            else begun (p_log p) = [] /\ omap pend (p_gs p) = [];
  i_keys : forall k, p_keys p !! k = (if kcount k (p_gs p) =? 0 then None else Some (kcount k (p_gs p)))%nat;
  i_cap : (length (p_high p) <= q)%nat /\ (length (p_low p) <= q)%nat }.

Lemma inv_init cs : inv (NewRoutinePool n cs).
Proof.
  split; try done; try (cbn; lia).
  - cbn. by destruct hasfunc.
Qed.

Lemma keyed_count gs w s s' k :
  gs !! w = Some s ->
  (kcount k (<[w := s']> gs) + (if decide (keyed s = Some k) then 1 else 0) =
   kcount k gs + (if decide (keyed s' = Some k) then 1 else 0))%nat.
Proof.
  intros H. unfold kcount. pose proof (omap_insert keyed gs w s s' H) as P.
  apply (filter_Permutation (fun k' => k' = k)) in P. apply Permutation_length in P.
  rewrite !filter_app, !app_length in P.
  assert (F : forall o : option (list N), length (filter (fun k' => k' = k) (option_list o)) = (if decide (o = Some k) then 1 else 0)%nat).
  { intros [x|]; cbn; [|by rewrite decide_False by done].
    destruct (decide (x = k)); [subst; by rewrite decide_True|]. by rewrite decide_False by congruence. }
  rewrite !F in P. lia.
Qed.
Lemma keyed_same gs w s s' : gs !! w = Some s -> keyed s = keyed s' -> forall k, kcount k (<[w := s']> gs) = kcount k gs.
Proof. intros H E k. pose proof (keyed_count gs w s s' k H) as P. rewrite E in P. lia. Qed.
Lemma omap_insert_same {A} (f : wstat V -> option A) gs w s s' :
  gs !! w = Some s -> f s = f s' -> omap f (<[w := s']> gs) ≡ₚ omap f gs.
Proof.
  intros H E. pose proof (omap_insert f gs w s s' H) as P. rewrite E in P.
  by apply Permutation_app_inv_r in P.
Qed.

(* the effect of a step of a goroutine on the invariant's parts that depend on gs *)
Lemma inv_move p p' w s s' :
  inv p -> p_gs p !! w = Some s -> p_gs p' = <[w := s']> (p_gs p) ->
  keyed s = keyed s' -> p_keys p' = p_keys p ->
  (forall k, p_keys p' !! k = (if kcount k (p_gs p') =? 0 then None else Some (kcount k (p_gs p')))%nat).
Proof. intros I H E K EK k. rewrite E, EK, (keyed_same _ _ _ _ H K). apply I. Qed.

Lemma inc_spec k k' m : incKeyCount k m !! k' = if decide (k = k') then Some (default 0%nat (m !! k) + 1)%nat else m !! k'.
Proof.
  unfold incKeyCount. destruct (decide (k = k')) as [->|D].
  - destruct (m !! k') as [c|] eqn:E; by rewrite lookup_insert.
  - destruct (m !! k); by rewrite lookup_insert_ne.
Qed.
Lemma dec_spec k k' m : decKeyCount k m !! k' =
  if decide (k = k') then match m !! k with Some c => if (c <=? 1)%nat then None else Some (c - 1)%nat | None => None end else m !! k'.
Proof.
  unfold decKeyCount. destruct (decide (k = k')) as [->|D].
  - destruct (m !! k') as [c|] eqn:E; [|done]. destruct (c <=? 1)%nat; [by rewrite lookup_delete|by rewrite lookup_insert].
  - destruct (m !! k) as [c|]; [|done]. destruct (c <=? 1)%nat; [by rewrite lookup_delete_ne|by rewrite lookup_insert_ne].
Qed.

Lemma inv_begin_move p w s s' ob :
  inv p -> p_gs p !! w = Some s ->
  (if hasfunc then nonnil (taken true ob) ++ nonnil (taken false ob) ++ option_list (pend s) ≡ₚ begun ob ++ option_list (pend s')
   else begun ob = [] /\ pend s' = None) ->
  (if hasfunc
            then nonnil (taken true (p_log p ++ ob)) ++ nonnil (taken false (p_log p ++ ob)) ≡ₚ begun (p_log p ++ ob) ++ omap pend (<[w := s']> (p_gs p))
            else begun (p_log p ++ ob) = [] /\ omap pend (<[w := s']> (p_gs p)) = []).
Proof.
  intros I H C. pose proof (i_begin _ I) as B. pose proof (omap_insert pend _ _ _ s' H) as P.
  rewrite !taken_app, !nonnil_app, begun_app.
  remember (omap pend (<[w:=s']> (p_gs p))) as X eqn:EX. clear EX.
  remember (omap pend (p_gs p)) as Y eqn:EY. clear EY.
  remember (pend s) as ps eqn:E1. clear E1. remember (pend s') as ps' eqn:E2. clear E2.
  destruct hasfunc.
  - apply (Permutation_app_inv_r (option_list ps)). rewrite <- !app_assoc. rewrite P.
    transitivity ((nonnil (taken true (p_log p)) ++ nonnil (taken false (p_log p))) ++
      (nonnil (taken true ob) ++ nonnil (taken false ob) ++ option_list ps)).
    { solve_Permutation. }
    rewrite B, C. solve_Permutation.
  - destruct B as [B1 B2], C as [C1 C2]. split; [by rewrite B1, C1|].
    rewrite B2, C2 in P. cbn in P. symmetry in P. apply Permutation_nil in P. by apply app_eq_nil in P as [P _].
Qed.
Lemma inv_run_move p w s s' ob :
  inv p -> p_gs p !! w = Some s ->
  begun ob ++ option_list (runs s) ≡ₚ ended ob ++ option_list (runs s') ->
  begun (p_log p ++ ob) ≡ₚ ended (p_log p ++ ob) ++ omap runs (<[w := s']> (p_gs p)).
Proof.
  intros I H C. pose proof (i_run _ I) as B. pose proof (omap_insert runs _ _ _ s' H) as P.
  rewrite begun_app, ended_app.
  apply (Permutation_app_inv_r (option_list (runs s))). rewrite <- !app_assoc, P, C, B. solve_Permutation.
Qed.

Ltac sp := cbn [p_log p_gs p_high p_low p_keys p_quit p_started p_locked p_wg p_clients p_panic say set_g set_queues set_client set_keys].
Ltac fin := first [done | by rewrite app_nil_r | cbn; lia].

Lemma c_step_waiting p k todo : p_clients p !! k = Some (Client todo true) -> c_step n q p k = c_wait p k todo.
Proof. intros H. unfold c_step. rewrite H. by destruct todo as [|[]]. Qed.

Lemma inv_step p a p' : inv p -> pstep p a = Some p' -> inv p'.
Proof.
  intros I H. unfold PoolModel.pstep in H. destruct (p_panic p); [done|].
  destruct a as [w|w|w|w|w|w k|k].
  - (* quit *) unfold g_quit in H. destruct (p_gs p !! w) as [s|] eqn:E; [|done].
    destruct (selecting s) eqn:ES; [|done]. destruct (p_quit p); [|done]. cbn in H. injection H as <-.
    assert (keyed s = None /\ pend s = None /\ runs s = None) as (K1 & K2 & K3) by (by destruct s).
    split; sp; try apply I.
    + rewrite (omap_insert_same runs _ _ _ _ E) by done. apply I.
    + pose proof (i_begin _ I) as B. pose proof (omap_insert_same pend _ w s WExited E K2) as P.
      destruct hasfunc; [by rewrite P|]. destruct B as [B1 B2]. split; [done|]. rewrite B2 in P. by apply Permutation_nil_r in P.
    + intros k. rewrite (keyed_same _ _ _ _ E) by done. apply I.
  - (* high *) unfold g_high in H. destruct (p_gs p !! w) as [s|] eqn:E; [|done].
    destruct (p_high p) as [|v h] eqn:EH; [done|]. destruct (selecting s) eqn:ES; [|done]. injection H as <-.
    assert (keyed s = None /\ pend s = None /\ runs s = None) as (K1 & K2 & K3) by (by destruct s).
    split; sp.
    + rewrite posted_app, taken_app, (i_fifo_h _ I), EH. cbn. by rewrite app_nil_r, <- app_assoc.
    + rewrite posted_app, taken_app, (i_fifo_l _ I). cbn. by rewrite !app_nil_r.
    + apply (inv_run_move p w s (WGot v) _); [done|done|]. cbn. by rewrite K3.
    + apply (inv_begin_move p w s (WGot v) [OTaken w true v]); [done|done|]. cbn. rewrite K2. destruct hasfunc, v; done.
    + intros k. rewrite (keyed_same _ _ _ _ E) by done. apply I.
    + destruct (i_cap _ I) as [A B]. rewrite EH in A. cbn in A. lia.
  - (* low *) unfold g_low in H. destruct (p_gs p !! w) as [s|] eqn:E; [|done].
    destruct s; try done. destruct (p_low p) as [|v h] eqn:EH; [done|]. injection H as <-.
    split; sp.
    + rewrite posted_app, taken_app, (i_fifo_h _ I). cbn. by rewrite !app_nil_r.
    + rewrite posted_app, taken_app, (i_fifo_l _ I), EH. cbn. by rewrite app_nil_r, <- app_assoc.
    + apply (inv_run_move p w WInner (WGot v) _); [done|done|]. done.
    + apply (inv_begin_move p w WInner (WGot v) [OTaken w false v]); [done|done|]. cbn. destruct hasfunc, v; done.
    + intros k. rewrite (keyed_same _ _ _ _ E) by done. apply I.
    + destruct (i_cap _ I) as [A B]. rewrite EH in B. cbn in B. lia.
  - (* default *) unfold g_default in H. destruct (p_gs p !! w) as [s|] eqn:E; [|done].
    destruct s; try done. destruct (p_high p) eqn:EH; [|done]. destruct (p_quit p); [done|]. injection H as <-.
    split; sp; try apply I.
    + rewrite (omap_insert_same runs _ _ _ _ E) by done. apply I.
    + pose proof (i_begin _ I) as B. pose proof (omap_insert_same pend _ w _ WInner E eq_refl) as P.
      destruct hasfunc; [by rewrite P|]. destruct B as [B1 B2]. split; [done|]. rewrite B2 in P. by apply Permutation_nil_r in P.
    + intros k. rewrite (keyed_same _ _ _ _ E) by done. apply I.
  - (* go *) unfold g_go in H. destruct (p_gs p !! w) as [s|] eqn:E; [|done].
    destruct s as [| |[v|]|v|v|v|]; try done.
    + destruct hasfunc eqn:EF.
      * injection H as <-.
        assert (EG : forall p2 s2, p_gs (set_g p2 w s2) = <[w := s2]> (p_gs p2)) by done.
        set (p2 := if (length (key_of key v) =? 0)%nat then p else set_keys p (incKeyCount (key_of key v) (p_keys p))).
        assert (p_gs p2 = p_gs p /\ p_log p2 = p_log p /\ p_high p2 = p_high p /\ p_low p2 = p_low p) as (G1 & G2 & G3 & G4)
          by (unfold p2; by destruct (length (key_of key v) =? 0)%nat).
        split; sp; rewrite ?G1, ?G2, ?G3, ?G4; try apply I.
        -- rewrite (omap_insert_same runs _ _ _ _ E) by done. apply I.
        -- rewrite EF. pose proof (i_begin _ I) as B. rewrite EF in B. rewrite B.
           rewrite (omap_insert_same pend _ w _ (WCounted v) E); [done|]. cbn. by rewrite EF.
        -- intros k. pose proof (keyed_count _ w _ (WCounted v) k E) as P. cbn [keyed] in P.
           rewrite (decide_False (P := None = Some k)) in P by done.
           pose proof (i_keys _ I k) as IK. unfold p2.
           destruct (length (key_of key v) =? 0)%nat eqn:EL.
           { rewrite decide_False in P by done. rewrite IK. replace (kcount k (<[w:=WCounted v]> (p_gs p))) with (kcount k (p_gs p)) by lia. done. }
           cbn. rewrite inc_spec. destruct (decide (key_of key v = k)) as [EK|EK].
           ++ subst k. rewrite decide_True in P by done.
              replace (kcount (key_of key v) (<[w:=WCounted v]> (p_gs p))) with (kcount (key_of key v) (p_gs p) + 1)%nat by lia.
              rewrite IK. destruct (kcount (key_of key v) (p_gs p)) as [|c] eqn:EC; cbn; [done|].
              by replace (c + 1)%nat with (S c) by lia.
           ++ rewrite decide_False in P by congruence. rewrite IK.
              replace (kcount k (<[w:=WCounted v]> (p_gs p))) with (kcount k (p_gs p)) by lia. done.
      * injection H as <-. split; sp; try apply I.
        -- rewrite (omap_insert_same runs _ _ _ _ E) by done. apply I.
        -- pose proof (i_begin _ I) as B. rewrite EF in *. destruct B as [B1 B2]. split; [done|].
           pose proof (omap_insert_same pend _ w _ WOuter E) as P. cbn in P. rewrite EF in P. specialize (P eq_refl). rewrite B2 in P. by apply Permutation_nil_r in P.
        -- intros k. rewrite (keyed_same _ _ _ _ E) by done. apply I.
    + injection H as <-. split; sp; try apply I.
      * rewrite (omap_insert_same runs _ _ _ _ E) by done. apply I.
      * pose proof (i_begin _ I) as B. pose proof (omap_insert_same pend _ w _ WOuter E eq_refl) as P.
        destruct hasfunc; [by rewrite P|]. destruct B as [B1 B2]. split; [done|]. rewrite B2 in P. by apply Permutation_nil_r in P.
      * intros k. rewrite (keyed_same _ _ _ _ E) by done. apply I.
    + injection H as <-. split; sp.
      * rewrite posted_app, taken_app, (i_fifo_h _ I). cbn. by rewrite !app_nil_r.
      * rewrite posted_app, taken_app, (i_fifo_l _ I). cbn. by rewrite !app_nil_r.
      * apply (inv_run_move p w (WCounted v) (WRun v) _); [done|done|]. done.
      * apply (inv_begin_move p w (WCounted v) (WRun v) [OBegin w v]); [done|done|]. cbn.
        pose proof (i_begin _ I) as B. destruct hasfunc; [done|]. destruct B as [B1 B2].
        exfalso. assert (v ∈ omap pend (p_gs p)) as X; [|rewrite B2 in X; by apply elem_of_nil in X].
        apply elem_of_list_omap. exists (WCounted v). split; [by eapply elem_of_list_lookup_2|done].
      * intros k. rewrite (keyed_same _ _ _ _ E) by done. apply I.
      * apply I.
    + injection H as <-. split; sp.
      * rewrite posted_app, taken_app, (i_fifo_h _ I). cbn. by rewrite !app_nil_r.
      * rewrite posted_app, taken_app, (i_fifo_l _ I). cbn. by rewrite !app_nil_r.
      * apply (inv_run_move p w (WRun v) (WFin v) _); [done|done|]. done.
      * apply (inv_begin_move p w (WRun v) (WFin v) [OEnd w v]); [done|done|]. cbn. by destruct hasfunc.
      * intros k. rewrite (keyed_same _ _ _ _ E) by done. apply I.
      * apply I.
    + injection H as <-.
      set (p2 := if (length (key_of key v) =? 0)%nat then p else set_keys p (decKeyCount (key_of key v) (p_keys p))).
      assert (p_gs p2 = p_gs p /\ p_log p2 = p_log p /\ p_high p2 = p_high p /\ p_low p2 = p_low p) as (G1 & G2 & G3 & G4)
        by (unfold p2; by destruct (length (key_of key v) =? 0)%nat).
      split; sp; rewrite ?G1, ?G2, ?G3, ?G4; try apply I.
      * rewrite (omap_insert_same runs _ _ _ _ E) by done. apply I.
      * pose proof (i_begin _ I) as B. pose proof (omap_insert_same pend _ w _ WOuter E eq_refl) as P.
        destruct hasfunc; [by rewrite P|]. destruct B as [B1 B2]. split; [done|]. rewrite B2 in P. by apply Permutation_nil_r in P.
      * intros k. pose proof (keyed_count _ w _ WOuter k E) as P. cbn [keyed] in P. rewrite (decide_False (P := None = Some k)) in P by done.
        pose proof (i_keys _ I k) as IK. unfold p2.
        destruct (length (key_of key v) =? 0)%nat eqn:EL.
        { rewrite decide_False in P by done. rewrite IK. replace (kcount k (<[w:=WOuter]> (p_gs p))) with (kcount k (p_gs p)) by lia. done. }
        cbn. rewrite dec_spec. destruct (decide (key_of key v = k)) as [EK|EK].
        -- subst k. rewrite decide_True in P by done. rewrite IK.
           destruct (kcount (key_of key v) (p_gs p)) as [|c] eqn:EC; [lia|].
           replace (kcount (key_of key v) (<[w:=WOuter]> (p_gs p))) with c by lia.
           cbn [Nat.eqb]. destruct c as [|c]; [done|]. destruct (S (S c) <=? 1)%nat eqn:EX; [apply Nat.leb_le in EX; lia|].
           cbn. done.
        -- rewrite decide_False in P by congruence. rewrite IK.
           replace (kcount k (<[w:=WOuter]> (p_gs p))) with (kcount k (p_gs p)) by lia. done.
  - (* pass *) unfold g_pass in H. destruct (negb (q =? 0)%nat) eqn:EQ; [done|].
    destruct (p_gs p !! w) as [s|] eqn:E; [|done].
    destruct (p_clients p !! k) as [[[|[| |v|v] r] [|]]|] eqn:EC; try (by destruct s).
    + assert (EH : p_high p = []) by (destruct (i_cap _ I); destruct (p_high p); [done|cbn in *; apply negb_false_iff, Nat.eqb_eq in EQ; lia]).
      destruct (selecting s) eqn:ES; [|by destruct s]. assert (p' = say (set_client (set_g p w (WGot v)) k (Client r false)) [OPosted true v; OTaken w true v]) as ->
        by (destruct s; by injection H).
      clear H. assert (keyed s = None /\ pend s = None /\ runs s = None) as (K1 & K2 & K3) by (by destruct s).
      split; sp.
      * rewrite posted_app, taken_app, (i_fifo_h _ I), EH. cbn. by rewrite !app_nil_r.
      * rewrite posted_app, taken_app, (i_fifo_l _ I). cbn. by rewrite !app_nil_r.
      * apply (inv_run_move p w s (WGot v) _); [done|done|]. cbn. by rewrite K3.
      * apply (inv_begin_move p w s (WGot v) [OPosted true v; OTaken w true v]); [done|done|]. cbn. rewrite K2. destruct hasfunc, v; done.
      * intros k'. rewrite (keyed_same _ _ _ _ E) by done. apply I.
      * apply I.
    + assert (EH : p_low p = []) by (destruct (i_cap _ I); destruct (p_low p); [done|cbn in *; apply negb_false_iff, Nat.eqb_eq in EQ; lia]).
      destruct s; try done. injection H as <-.
      split; sp.
      * rewrite posted_app, taken_app, (i_fifo_h _ I). cbn. by rewrite !app_nil_r.
      * rewrite posted_app, taken_app, (i_fifo_l _ I), EH. cbn. by rewrite !app_nil_r.
      * apply (inv_run_move p w WInner (WGot v) _); [done|done|]. done.
      * apply (inv_begin_move p w WInner (WGot v) [OPosted false v; OTaken w false v]); [done|done|]. cbn. destruct hasfunc, v; done.
      * intros k'. rewrite (keyed_same _ _ _ _ E) by done. apply I.
      * apply I.
  - (* clients *) destruct (p_clients p !! k) as [[todo wt]|] eqn:EC; [|unfold c_step in H; by rewrite EC in H].
    destruct wt; [rewrite (c_step_waiting _ _ _ EC) in H|unfold c_step in H; rewrite EC in H].
    + unfold c_wait in H. destruct (p_wg p =? 0)%Z; [|done]. injection H as <-.
      split; sp; rewrite ?posted_app, ?taken_app, ?begun_app, ?ended_app; cbn [posted taken begun ended omap list_omap Bool.eqb]; rewrite ?app_nil_r; apply I.
    + destruct todo as [|[| |v|v] r]; [done| | | |].
      * unfold c_start in H. destruct (p_locked p); [done|]. destruct (p_started p).
        { injection H as <-. split; apply I. }
        injection H as <-.
        split; sp; rewrite ?posted_app, ?taken_app, ?begun_app, ?ended_app; cbn [posted taken begun ended omap list_omap Bool.eqb]; rewrite ?app_nil_r; try apply I.
        -- rewrite omap_app, omap_replicate_none by done. rewrite app_nil_r. apply I.
        -- pose proof (i_begin _ I) as B. by rewrite omap_app, omap_replicate_none, !app_nil_r by done.
        -- intros k'. unfold kcount. rewrite omap_app, omap_replicate_none, app_nil_r by done. apply I.
      * unfold c_stop in H. destruct (p_locked p); [done|]. destruct (p_started p); cbn in H; injection H as <-; split; apply I.
      * destruct (length (p_high p) <? q)%nat eqn:EL; [|done]. injection H as <-. apply Nat.ltb_lt in EL.
        split; sp; rewrite ?posted_app, ?taken_app, ?begun_app, ?ended_app; cbn [posted taken begun ended omap list_omap Bool.eqb]; rewrite ?app_nil_r; try apply I.
        -- rewrite (i_fifo_h _ I). by rewrite app_assoc.
        -- pose proof (i_cap _ I). rewrite app_length. cbn. lia.
      * destruct (length (p_low p) <? q)%nat eqn:EL; [|done]. injection H as <-. apply Nat.ltb_lt in EL.
        split; sp; rewrite ?posted_app, ?taken_app, ?begun_app, ?ended_app; cbn [posted taken begun ended omap list_omap Bool.eqb]; rewrite ?app_nil_r; try apply I.
        -- rewrite (i_fifo_l _ I). by rewrite app_assoc.
        -- pose proof (i_cap _ I). rewrite app_length. cbn. lia.
Qed.

Lemma pexec_inv (P : pool V -> Prop) :
  (forall p a p', P p -> pstep p a = Some p' -> P p') ->
  forall acts p p', P p -> pexec acts p = Some p' -> P p'.
Proof.
  intros HS acts. induction acts as [|a r IH]; intros p p' HP H; cbn in H; [by injection H as <-|].
  destruct (pstep p a) as [p1|] eqn:E; [|done]. eapply IH; [|done]. by eapply HS.
Qed.
Lemma inv_reach cs acts p : pexec acts (NewRoutinePool n cs) = Some p -> inv p.
Proof. apply pexec_inv; [apply inv_step|apply inv_init]. Qed.

(* ------------------------------------------------------------- life cycle *)
Definition alive (s : wstat V) : option unit := if exited s then None else Some tt.
Definition live (gs : list (wstat V)) : nat := length (omap alive gs).
Definition starts (log : list (pobs V)) : nat := length (List.filter is_start log).
Arguments live : simpl never.
Arguments starts : simpl never.
Definition nowait p : Prop := forall k c, p_clients p !! k = Some c -> cl_waiting c = false.

Inductive phase (p : pool V) : Prop :=
| Ph0 : starts (p_log p) = 0%nat -> p_gs p = [] -> p_quit p = false -> p_started p = false -> p_locked p = false ->
        p_wg p = Z.of_nat n -> nowait p -> phase p
| Ph1 : starts (p_log p) = 1%nat -> length (p_gs p) = n -> live (p_gs p) = n -> p_quit p = false -> p_started p = true ->
        p_locked p = false -> p_wg p = Z.of_nat n -> nowait p -> phase p
| Ph2 k : starts (p_log p) = 1%nat -> p_quit p = true -> p_started p = false -> p_locked p = true ->
        p_wg p = Z.of_nat (live (p_gs p)) -> (live (p_gs p) <= n)%nat ->
        (forall k' c, p_clients p !! k' = Some c -> cl_waiting c = true -> k' = k) -> phase p
| Ph3 : starts (p_log p) = 1%nat -> p_quit p = true -> p_started p = false -> p_locked p = false ->
        p_wg p = 0%Z -> live (p_gs p) = 0%nat -> nowait p -> phase p
| Ph4 : (2 <= starts (p_log p))%nat -> p_quit p = true -> p_started p = true -> p_locked p = false ->
        p_wg p = 0%Z -> live (p_gs p) = n -> nowait p -> phase p.

Lemma starts_app l1 l2 : starts (l1 ++ l2) = (starts l1 + starts l2)%nat.
Proof. unfold starts. by rewrite List.filter_app, app_length. Qed.

Lemma live_insert gs w s s' : gs !! w = Some s ->
  (live (<[w := s']> gs) + (if exited s then 0 else 1) = live gs + (if exited s' then 0 else 1))%nat.
Proof.
  intros H. pose proof (omap_insert alive gs w s s' H) as P. apply Permutation_length in P.
  rewrite !app_length in P. unfold live.
  assert (F : forall s : wstat V, length (option_list (alive s)) = (if exited s then 0 else 1)%nat) by (by intros []).
  rewrite !F in P. lia.
Qed.
Lemma live_length gs : (live gs <= length gs)%nat.
Proof. unfold live. induction gs as [|[] gs IH]; cbn in *; lia. Qed.
Lemma live_zero gs : live gs = 0%nat -> forall s, s ∈ gs -> exited s = true.
Proof.
  unfold live. induction gs as [|x gs IH]; intros H s HS; [by apply elem_of_nil in HS|].
  apply elem_of_cons in HS as [-> | HS]; [by destruct x|]. apply IH; [|done]. destruct x; cbn in *; lia.
Qed.
Lemma live_full gs : live gs = length gs -> forall s, s ∈ gs -> exited s = false.
Proof.
  unfold live. induction gs as [|x gs IH]; intros H s HS; [by apply elem_of_nil in HS|].
  pose proof (live_length gs) as L. unfold live in L.
  apply elem_of_cons in HS as [-> | HS]; [destruct x; cbn in *; try done; lia|]. apply IH; [|done]. destruct x; cbn in *; lia.
Qed.
Lemma live_app g1 g2 : live (g1 ++ g2) = (live g1 + live g2)%nat.
Proof. unfold live. by rewrite omap_app, app_length. Qed.
Lemma live_replicate k : live (replicate k WOuter) = k.
Proof. unfold live. induction k; cbn; [done|by f_equal]. Qed.

Definition wshape p a p' : Prop :=
  exists w s s' ob, worker_of a = Some w /\ p_gs p !! w = Some s /\ exited s = false /\ p_gs p' = <[w := s']> (p_gs p) /\
    p_log p' = p_log p ++ ob /\ List.filter is_start ob = [] /\ OStopped ∉ ob /\
    p_quit p' = p_quit p /\ p_started p' = p_started p /\ p_locked p' = p_locked p /\
    (forall k c, p_clients p' !! k = Some c -> cl_waiting c = true -> p_clients p !! k = Some c) /\
    ((exited s' = false /\ p_wg p' = p_wg p /\ p_panic p' = p_panic p) \/
     (p_quit p = true /\ exited s' = true /\ p_wg p' = (p_wg p - 1)%Z /\ p_panic p' = (p_panic p || (p_wg p - 1 <? 0)%Z) /\ ob = [])).

Lemma worker_shape p a p' w : worker_of a = Some w -> pstep p a = Some p' -> wshape p a p'.
Proof.
  intros HW H. unfold PoolModel.pstep in H. destruct (p_panic p) eqn:EP; [done|].
  destruct a as [x|x|x|x|x|x k|k]; cbn in HW; try done; injection HW as ->.
  - unfold g_quit in H. destruct (p_gs p !! w) as [s|] eqn:E; [|done].
    destruct (selecting s) eqn:ES; [|done]. destruct (p_quit p) eqn:EQ; [|done]. cbn in H. injection H as <-.
    exists w, s, WExited, []. repeat split; sp; auto; try by destruct s.
    + by rewrite app_nil_r. + apply not_elem_of_nil. + right. rewrite EP. auto.
  - unfold g_high in H. destruct (p_gs p !! w) as [s|] eqn:E; [|done].
    destruct (p_high p) as [|v h] eqn:EH; [done|]. destruct (selecting s) eqn:ES; [|done]. injection H as <-.
    exists w, s, (WGot v), [OTaken w true v]. repeat split; sp; auto; try by destruct s.
    set_solver.
  - unfold g_low in H. destruct (p_gs p !! w) as [s|] eqn:E; [|done].
    destruct s; try done. destruct (p_low p) as [|v h] eqn:EH; [done|]. injection H as <-.
    exists w, WInner, (WGot v), [OTaken w false v]. repeat split; sp; auto.
    set_solver.
  - unfold g_default in H. destruct (p_gs p !! w) as [s|] eqn:E; [|done].
    destruct s; try done. destruct (p_high p) eqn:EH; [|done]. destruct (p_quit p) eqn:EQ; [done|]. injection H as <-.
    exists w, WOuter, WInner, []. repeat split; sp; auto. + by rewrite app_nil_r. + apply not_elem_of_nil.
  - unfold g_go in H. destruct (p_gs p !! w) as [s|] eqn:E; [|done].
    destruct s as [| |[v|]|v|v|v|]; try done.
    + destruct hasfunc; injection H as <-.
      * exists w, (WGot (Some v)), (WCounted v), []. destruct (length (key_of key v) =? 0)%nat; repeat split; sp; auto;
          try (by rewrite app_nil_r); apply not_elem_of_nil.
      * exists w, (WGot (Some v)), WOuter, []. repeat split; sp; auto; try (by rewrite app_nil_r); apply not_elem_of_nil.
    + injection H as <-. exists w, (WGot None), WOuter, []. repeat split; sp; auto; try (by rewrite app_nil_r); apply not_elem_of_nil.
    + injection H as <-. exists w, (WCounted v), (WRun v), [OBegin w v]. repeat split; sp; auto. set_solver.
    + injection H as <-. exists w, (WRun v), (WFin v), [OEnd w v]. repeat split; sp; auto. set_solver.
    + injection H as <-. exists w, (WFin v), WOuter, [].
      destruct (length (key_of key v) =? 0)%nat; repeat split; sp; auto; try (by rewrite app_nil_r); apply not_elem_of_nil.
  - unfold g_pass in H. destruct (negb (q =? 0)%nat) eqn:EQ; [done|].
    destruct (p_gs p !! w) as [s|] eqn:E; [|done].
    destruct (p_clients p !! k) as [[[|[| |v|v] r] [|]]|] eqn:EC; try (by destruct s).
    + destruct (selecting s) eqn:ES; [|by destruct s].
      assert (p' = say (set_client (set_g p w (WGot v)) k (Client r false)) [OPosted true v; OTaken w true v]) as ->
        by (destruct s; by injection H).
      exists w, s, (WGot v), [OPosted true v; OTaken w true v]. repeat split; sp; auto; try by destruct s.
      * set_solver.
      * intros k' c HC HW. destruct (decide (k = k')) as [<-|D]; [|by rewrite list_lookup_insert_ne in HC].
        rewrite list_lookup_insert in HC by (by eapply lookup_lt_Some). by injection HC as <-.
    + destruct s; try done. injection H as <-.
      exists w, WInner, (WGot v), [OPosted false v; OTaken w false v]. repeat split; sp; auto.
      * set_solver.
      * intros k' c HC HW. destruct (decide (k = k')) as [<-|D]; [|by rewrite list_lookup_insert_ne in HC].
        rewrite list_lookup_insert in HC by (by eapply lookup_lt_Some). by injection HC as <-.
Qed.

Record life (p : pool V) : Prop := Life {
  l_width : (live (p_gs p) <= n)%nat;
  l_panic : p_panic p = true -> (2 <= starts (p_log p))%nat;
  l_phase : p_panic p = false -> phase p;
  l_stop : forall l1 l2, p_log p = l1 ++ OStopped :: l2 -> List.filter is_start l2 = [] ->
           live (p_gs p) = 0%nat /\ (forall o, o ∈ l2 -> by_worker o = false) /\ begun l1 ≡ₚ ended l1 }.

Lemma phase_width p : phase p -> (live (p_gs p) <= n)%nat.
Proof. intros []; try lia. rewrite H0. unfold live. cbn. lia. Qed.

Lemma snoc_split (l ob l1 l2 : list (pobs V)) (x : pobs V) :
  l ++ ob = l1 ++ x :: l2 -> x ∉ ob -> exists l2', l = l1 ++ x :: l2' /\ l2 = l2' ++ ob.
Proof.
  intros H NX. apply app_eq_app in H as [k [[-> H]|[-> H]]].
  - destruct k as [|y k]; cbn in H.
    + exfalso. apply NX. rewrite <- H. set_solver.
    + injection H as -> ->. by exists k.
  - exfalso. apply NX. rewrite H. set_solver.
Qed.

Lemma nowait_insert p k r (cs : list (client V)) :
  nowait p -> cs = <[k := Client r false]> (p_clients p) -> forall k' c, cs !! k' = Some c -> cl_waiting c = false.
Proof.
  intros HN -> k' c HC. destruct (decide (k = k')) as [<-|D].
  - destruct (decide (k < length (p_clients p))%nat).
    + rewrite list_lookup_insert in HC by done. by injection HC as <-.
    + rewrite list_insert_ge in HC by lia. by eapply HN.
  - rewrite list_lookup_insert_ne in HC by done. by eapply HN.
Qed.

Lemma life_init cs : life (NewRoutinePool n cs).
Proof.
  split; cbn; try done.
  - unfold live. cbn. lia.
  - intros _. apply Ph0; try done. intros k c H. cbn in H. change (map ?f ?l) with (f <$> l) in H.
    rewrite list_lookup_fmap in H. destruct (cs !! k); [|done]. by injection H as <-.
  - intros [|? ?] l2 H; done.
Qed.

Lemma live_zero_no gs w s : live gs = 0%nat -> gs !! w = Some s -> exited s = false -> False.
Proof. intros H E X. apply elem_of_list_lookup_2 in E. by rewrite (live_zero _ H _ E) in X. Qed.
Lemma live_pos gs w s : gs !! w = Some s -> exited s = false -> (1 <= live gs)%nat.
Proof. intros E X. destruct (live gs) eqn:L; [|lia]. by destruct (live_zero_no _ _ _ L E X). Qed.

Lemma life_worker p a p' w : life p -> worker_of a = Some w -> pstep p a = Some p' -> life p'.
Proof.
  intros L HW H. destruct (worker_shape _ _ _ _ HW H) as (w' & s & s' & ob & HW' & E & EX & EG & EL & NS & NO & EQ & ES & EK & EC & CASE).
  assert (EP : p_panic p = false) by (unfold PoolModel.pstep in H; by destruct (p_panic p)).
  pose proof (live_insert _ _ _ s' E) as LI. rewrite <- EG, EX in LI.
  pose proof (l_phase _ L EP) as PH.
  assert (ST : starts (p_log p') = starts (p_log p)) by (rewrite EL, starts_app; unfold starts at 2; rewrite NS; cbn; lia).
  assert (NW : nowait p -> nowait p').
  { intros N k c HC. destruct (cl_waiting c) eqn:X; [|done]. rewrite <- X. eapply N. by apply EC. }
  pose proof (live_pos _ _ _ E EX) as LP.
  split.
  - pose proof (l_width _ L). destruct (exited s'); lia.
  - intros X. rewrite ST. destruct CASE as [(_ & _ & C)|(CQ & C1 & C2 & C3 & _)]; [congruence|].
    rewrite C3, EP in X. cbn in X. apply Z.ltb_lt in X.
    destruct PH; try congruence; try lia.
  - intros X. destruct CASE as [(C0 & C1 & C2)|(CQ & C1 & C2 & C3 & _)].
    + rewrite C0 in LI. assert (LE : live (p_gs p') = live (p_gs p)) by lia.
      destruct PH.
      * exfalso. rewrite H1 in E. done.
      * apply Ph1; try congruence; try (by rewrite ST); auto. { by rewrite EG, insert_length. } 
      * apply (Ph2 _ k); try congruence; rewrite ?ST, ?LE; auto. intros k' c HC HWt. eapply H6; [by apply EC|done].
      * lia.
      * apply Ph4; try congruence; rewrite ?ST; auto.
    + rewrite C1 in LI. rewrite C3, EP in X. cbn in X. apply Z.ltb_ge in X.
      destruct PH; try congruence; try lia.
      apply (Ph2 _ k); try congruence; rewrite ?ST; auto; try lia. intros k' c HC HWt. eapply H6; [by apply EC|done].
  - intros l1 l2 HL NS2. rewrite EL in HL. destruct (snoc_split _ _ _ _ _ HL NO) as (l2' & HL' & ->).
    rewrite List.filter_app in NS2. apply app_eq_nil in NS2 as [NS2 _].
    destruct (l_stop _ L _ _ HL' NS2) as (Z & _). lia.
Qed.

Lemma life_client p k p' : inv p -> life p -> pstep p (AClient k) = Some p' -> life p'.
Proof.
  intros I L H.
  assert (EP : p_panic p = false) by (unfold PoolModel.pstep in H; by destruct (p_panic p)).
  pose proof (l_phase _ L EP) as PH. unfold PoolModel.pstep in H. rewrite EP in H.
  destruct (p_clients p !! k) as [[todo wt]|] eqn:EC; [|unfold c_step in H; by rewrite EC in H].
  destruct wt; [rewrite (c_step_waiting _ _ _ EC) in H|unfold c_step in H; rewrite EC in H].
  - unfold c_wait in H. destruct (p_wg p =? 0)%Z eqn:EW; [|done]. apply Z.eqb_eq in EW. injection H as <-.
    assert (exists k0, starts (p_log p) = 1%nat /\ p_quit p = true /\ p_started p = false /\ live (p_gs p) = 0%nat /\
             (forall k' c, p_clients p !! k' = Some c -> cl_waiting c = true -> k' = k0)) as (k0 & P1 & P2 & P3 & P4 & P5).
    { destruct PH; try (by specialize (H5 _ _ EC)); try (by specialize (H6 _ _ EC)); try (by specialize (H4 _ _ EC)).
      - exists k0. repeat split; auto. lia. }
    assert (k0 = k) as -> by (symmetry; by eapply P5).
    split; sp.
    + lia.
    + congruence.
    + intros _. apply Ph3; sp; auto.
      * rewrite starts_app. cbn. unfold starts at 2. cbn. lia.
      * intros k' c HC. cbn in HC. destruct (decide (k = k')) as [<-|D].
        { rewrite list_lookup_insert in HC by (by eapply lookup_lt_Some). by injection HC as <-. }
        rewrite list_lookup_insert_ne in HC by done. destruct (cl_waiting c) eqn:EWt; [|done]. by destruct D; symmetry; eapply P5.
    + intros l1 l2 HL NS. split; [done|].
      destruct l2 as [|y l2 _] using rev_ind.
      * split; [intros o X; by apply elem_of_nil in X|].
        apply app_inj_tail in HL as [<- _]. rewrite (i_run _ I).
        replace (omap runs (p_gs p)) with (@nil V); [by rewrite app_nil_r|].
        symmetry. clear -P4. induction (p_gs p) as [|x gs IH]; [done|].
        unfold live in *. destruct x; cbn in *; try lia; by apply IH.
      * rewrite app_comm_cons, app_assoc in HL. apply app_inj_tail in HL as [HL <-].
        rewrite List.filter_app in NS. apply app_eq_nil in NS as [NS _].
        destruct (l_stop _ L _ _ HL NS) as (_ & B & C). split; [|done].
        intros o HO. apply elem_of_app in HO as [HO|HO]; [by apply B|]. apply elem_of_list_singleton in HO. by subst.
  - destruct todo as [|[| |v|v] r]; [done| | | |].
    + unfold c_start in H. destruct (p_locked p) eqn:EK; [done|]. destruct (p_started p) eqn:ES; injection H as <-.
      * split; sp; try apply L. intros _.
        destruct PH; try congruence.
        -- apply Ph1; sp; auto. intros k' c HC. eapply nowait_insert; [done|done|exact HC].
        -- apply Ph4; sp; auto. intros k' c HC. eapply nowait_insert; [done|done|exact HC].
      * assert (NW : nowait p) by (destruct PH; try congruence; auto).
        assert (L0 : live (p_gs p) = 0%nat) by (destruct PH; try congruence; auto; by rewrite H0).
        split; sp.
        -- rewrite live_app, live_replicate. lia.
        -- congruence.
        -- intros _. destruct PH; try congruence.
           ++ apply Ph1; sp; auto.
              ** rewrite starts_app. unfold starts at 2. cbn. lia.
              ** rewrite app_length, replicate_length, H0. done.
              ** rewrite live_app, live_replicate. lia.
              ** intros k' c HC. eapply nowait_insert; [done|done|exact HC].
           ++ apply Ph4; sp; auto.
              ** rewrite starts_app. unfold starts at 2. cbn. lia.
              ** rewrite live_app, live_replicate. lia.
              ** intros k' c HC. eapply nowait_insert; [done|done|exact HC].
        -- intros l1 l2 HL NS. destruct (snoc_split _ _ _ _ _ HL) as (l2' & HL' & ->); [set_solver|].
           rewrite List.filter_app in NS. apply app_eq_nil in NS as [_ NS]. done.
    + unfold c_stop in H. destruct (p_locked p) eqn:EK; [done|]. destruct (p_started p) eqn:ES; cbn in H; injection H as <-.
      * split; sp; try apply L.
        -- rewrite EP. cbn. intros X. destruct PH; congruence || lia.
        -- rewrite EP. cbn. intros X. destruct PH; try congruence.
           apply (Ph2 _ k); sp; auto; try lia.
           intros k' c HC HW. destruct (decide (k = k')) as [<-|D]; [done|].
           rewrite list_lookup_insert_ne in HC by done. by rewrite (H6 _ _ HC) in HW.
      * split; sp; try apply L. intros _.
        destruct PH; try congruence.
        -- apply Ph0; sp; auto. intros k' c HC. eapply nowait_insert; [done|done|exact HC].
        -- apply Ph3; sp; auto. intros k' c HC. eapply nowait_insert; [done|done|exact HC].
    + destruct (length (p_high p) <? q)%nat; [|done]. injection H as <-.
      split; sp; try apply L.
      * congruence.
      * intros _. assert (ST : starts (p_log p ++ [OPosted true v]) = starts (p_log p)) by (rewrite starts_app; unfold starts at 2; cbn; lia).
        destruct PH; [apply Ph0|apply Ph1|apply (Ph2 _ k0)|apply Ph3|apply Ph4]; sp; rewrite ?ST; auto;
          try (intros k' c HC; eapply nowait_insert; [done|done|exact HC]).
        intros k' c HC HW. destruct (decide (k = k')) as [<-|D].
        { rewrite list_lookup_insert in HC by (by eapply lookup_lt_Some). by injection HC as <-. }
        rewrite list_lookup_insert_ne in HC by done. by eapply H5.
      * intros l1 l2 HL NS. destruct (snoc_split _ _ _ _ _ HL) as (l2' & HL' & ->); [set_solver|].
        rewrite List.filter_app in NS. apply app_eq_nil in NS as [NS _].
        destruct (l_stop _ L _ _ HL' NS) as (A & B & C). split; [done|]. split; [|done].
        intros o HO. apply elem_of_app in HO as [HO|HO]; [by apply B|]. apply elem_of_list_singleton in HO. by subst.
    + destruct (length (p_low p) <? q)%nat; [|done]. injection H as <-.
      split; sp; try apply L.
      * congruence.
      * intros _. assert (ST : starts (p_log p ++ [OPosted false v]) = starts (p_log p)) by (rewrite starts_app; unfold starts at 2; cbn; lia).
        destruct PH; [apply Ph0|apply Ph1|apply (Ph2 _ k0)|apply Ph3|apply Ph4]; sp; rewrite ?ST; auto;
          try (intros k' c HC; eapply nowait_insert; [done|done|exact HC]).
        intros k' c HC HW. destruct (decide (k = k')) as [<-|D].
        { rewrite list_lookup_insert in HC by (by eapply lookup_lt_Some). by injection HC as <-. }
        rewrite list_lookup_insert_ne in HC by done. by eapply H5.
      * intros l1 l2 HL NS. destruct (snoc_split _ _ _ _ _ HL) as (l2' & HL' & ->); [set_solver|].
        rewrite List.filter_app in NS. apply app_eq_nil in NS as [NS _].
        destruct (l_stop _ L _ _ HL' NS) as (A & B & C). split; [done|]. split; [|done].
        intros o HO. apply elem_of_app in HO as [HO|HO]; [by apply B|]. apply elem_of_list_singleton in HO. by subst.
Qed.

Lemma life_step p a p' : inv p -> life p -> pstep p a = Some p' -> life p'.
Proof.
  intros I L H. destruct (worker_of a) as [w|] eqn:E; [by eapply life_worker|].
  destruct a; try done. by eapply life_client.
Qed.
Lemma reach cs acts p : pexec acts (NewRoutinePool n cs) = Some p -> inv p /\ life p.
Proof.
  apply (pexec_inv (fun p => inv p /\ life p)).
  - intros p0 a p' [I L] H. split; [by eapply inv_step|by eapply life_step].
  - split; [apply inv_init|apply life_init].
Qed.

(* ------------------------------------------------------------- priority *)
Lemma step_inner p a p' w :
  pstep p a = Some p' -> p_gs p' !! w = Some WInner ->
  (a = ADefault w /\ p_high p = [] /\ p_quit p = false) \/ (p_gs p !! w = Some WInner /\ worker_of a <> Some w).
Proof.
  intros H G. destruct (worker_of a) as [w1|] eqn:EW.
  - destruct (decide (w1 = w)) as [->|D].
    + left. unfold PoolModel.pstep in H. destruct (p_panic p); [done|].
      destruct a as [x|x|x|x|x|x k|k]; cbn in EW; try done; injection EW as ->.
      * exfalso. unfold g_quit in H. destruct (p_gs p !! w) as [s|] eqn:E; [|done].
        destruct (selecting s && p_quit p); [|done]. injection H as <-. cbn in G.
        rewrite list_lookup_insert in G by (by eapply lookup_lt_Some). done.
      * exfalso. unfold g_high in H. destruct (p_gs p !! w) as [s|] eqn:E; [|done].
        destruct (p_high p); [done|]. destruct (selecting s); [|done]. injection H as <-. cbn in G.
        rewrite list_lookup_insert in G by (by eapply lookup_lt_Some). done.
      * exfalso. unfold g_low in H. destruct (p_gs p !! w) as [s|] eqn:E; [|done]. destruct s; try done.
        destruct (p_low p); [done|]. injection H as <-. cbn in G.
        rewrite list_lookup_insert in G by (by eapply lookup_lt_Some). done.
      * unfold g_default in H. destruct (p_gs p !! w) as [s|] eqn:E; [|done]. destruct s; try done.
        destruct (p_high p); [|done]. by destruct (p_quit p).
      * exfalso. unfold g_go in H. destruct (p_gs p !! w) as [s|] eqn:E; [|done]. apply lookup_lt_Some in E.
        destruct s as [| |[v|]|v|v|v|]; try done; try destruct hasfunc; injection H as <-; try destruct (length (key_of key v) =? 0)%nat;
          cbn in G; rewrite list_lookup_insert in G by done; done.
      * exfalso. unfold g_pass in H. destruct (negb (q =? 0)%nat); [done|].
        destruct (p_gs p !! w) as [s|] eqn:E; [|done]. apply lookup_lt_Some in E.
        destruct (p_clients p !! k) as [[[|[| |v|v] r] [|]]|]; try (by destruct s).
        -- destruct s; try done; injection H as <-; cbn in G; rewrite list_lookup_insert in G by done; done.
        -- destruct s; try done; injection H as <-; cbn in G; rewrite list_lookup_insert in G by done; done.
    + right. split; [|congruence]. destruct (worker_shape _ _ _ _ EW H) as (w' & s & s' & ob & HW' & E & EX & EG & _).
      rewrite EW in HW'. injection HW' as ->. rewrite EG, list_lookup_insert_ne in G by done. done.
  - right. split; [|done]. destruct a as [| | | | | |k]; try done. clear EW.
    unfold PoolModel.pstep in H. destruct (p_panic p); [done|].
    destruct (p_clients p !! k) as [[todo wt]|] eqn:EC; [|unfold c_step in H; by rewrite EC in H].
    destruct wt; [rewrite (c_step_waiting _ _ _ EC) in H|unfold c_step in H; rewrite EC in H].
    + unfold c_wait in H. destruct (p_wg p =? 0)%Z; [|done]. by injection H as <-.
    + destruct todo as [|[| |v|v] r]; [done| | | |].
      * unfold c_start in H. destruct (p_locked p); [done|]. destruct (p_started p); injection H as <-; [done|]. cbn in G.
        apply lookup_app_Some in G as [G|[_ G]]; [done|]. apply lookup_replicate in G as [G _]. done.
      * unfold c_stop in H. destruct (p_locked p); [done|]. by destruct (p_started p); injection H as <-.
      * destruct (length (p_high p) <? q)%nat; [|done]. by injection H as <-.
      * destruct (length (p_low p) <? q)%nat; [|done]. by injection H as <-.
Qed.

Lemma inner_history p0 acts p w :
  (p_gs p0 !! w <> Some WInner) ->
  pexec acts p0 = Some p -> p_gs p !! w = Some WInner ->
  exists a b pa, acts = a ++ ADefault w :: b /\ pexec a p0 = Some pa /\ p_high pa = [] /\ p_quit pa = false /\
    (forall x, x ∈ b -> worker_of x <> Some w).
Proof.
  intros H0. revert p. induction acts as [|x acts IH] using rev_ind; intros p H G; [cbn in H; congruence|].
  rewrite pexec_app in H. destruct (pexec acts p0) as [p1|] eqn:E1; [|done]. cbn in H.
  destruct (pstep p1 x) as [p2|] eqn:E2; [|done]. injection H as ->.
  destruct (step_inner _ _ _ _ E2 G) as [(-> & A & B)|(A & B)].
  - exists acts, [], p1. repeat split; auto. intros x HX. by apply elem_of_nil in HX.
  - destruct (IH _ eq_refl A) as (a & b & pa & -> & C1 & C2 & C3 & C4).
    exists a, (b ++ [x]), pa. repeat split; auto; [by rewrite <- app_assoc|].
    intros y HY. apply elem_of_app in HY as [HY|HY]; [by apply C4|]. apply elem_of_list_singleton in HY. by subst.
Qed.

Lemma low_taken p a p' ob w v :
  pstep p a = Some p' -> p_log p' = p_log p ++ ob -> OTaken w false v ∈ ob -> worker_of a = Some w /\ p_gs p !! w = Some WInner.
Proof.
  intros H EL HO. unfold PoolModel.pstep in H. destruct (p_panic p); [done|].
  assert (NIL : forall l : list (pobs V), l = l ++ ob -> False).
  { intros l X. rewrite <- (app_nil_r l) in X at 1. apply app_inv_head in X. subst ob. by apply elem_of_nil in HO. }
  destruct a as [x|x|x|x|x|x k|k].
  - exfalso. unfold g_quit in H. destruct (p_gs p !! x) as [s|] eqn:E; [|done].
    destruct (selecting s && p_quit p); [|done]. injection H as <-. by apply NIL in EL.
  - exfalso. unfold g_high in H. destruct (p_gs p !! x) as [s|] eqn:E; [|done].
    destruct (p_high p); [done|]. destruct (selecting s); [|done]. injection H as <-. cbn in EL. apply app_inv_head in EL. subst ob. set_solver.
  - unfold g_low in H. destruct (p_gs p !! x) as [s|] eqn:E; [|done]. destruct s; try done.
    destruct (p_low p); [done|]. injection H as <-. cbn in EL. apply app_inv_head in EL. subst ob.
    apply elem_of_list_singleton in HO. injection HO as -> ->. done.
  - exfalso. unfold g_default in H. destruct (p_gs p !! x) as [s|] eqn:E; [|done]. destruct s; try done.
    destruct (p_high p); [|done]. destruct (p_quit p); [done|]. injection H as <-. by apply NIL in EL.
  - exfalso. unfold g_go in H. destruct (p_gs p !! x) as [s|] eqn:E; [|done].
    destruct s as [| |[u|]|u|u|u|]; try done; try destruct hasfunc; injection H as <-; try destruct (length (key_of key u) =? 0)%nat;
          cbn in EL; try (by apply NIL in EL); apply app_inv_head in EL; subst ob; set_solver.
  - unfold g_pass in H. destruct (negb (q =? 0)%nat); [done|].
    destruct (p_gs p !! x) as [s|] eqn:E; [|done].
    destruct (p_clients p !! k) as [[[|[| |u|u] r] [|]]|]; try (by destruct s).
    + exfalso. destruct s; try done; injection H as <-; cbn in EL; apply app_inv_head in EL; subst ob; set_solver.
    + destruct s; try done; injection H as <-; cbn in EL; apply app_inv_head in EL; subst ob.
      apply elem_of_cons in HO as [HO|HO]; [done|]. apply elem_of_list_singleton in HO. injection HO as -> ->. done.
  - exfalso. destruct (p_clients p !! k) as [[todo wt]|] eqn:EC; [|unfold c_step in H; by rewrite EC in H].
    destruct wt; [rewrite (c_step_waiting _ _ _ EC) in H|unfold c_step in H; rewrite EC in H].
    + unfold c_wait in H. destruct (p_wg p =? 0)%Z; [|done]. injection H as <-. cbn in EL; apply app_inv_head in EL; subst ob; set_solver.
    + destruct todo as [|[| |u|u] r]; [done| | | |].
      * unfold c_start in H. destruct (p_locked p); [done|]. destruct (p_started p); injection H as <-; [by apply NIL in EL|].
        cbn in EL; apply app_inv_head in EL; subst ob; set_solver.
      * unfold c_stop in H. destruct (p_locked p); [done|]. destruct (p_started p); injection H as <-; by apply NIL in EL.
      * destruct (length (p_high p) <? q)%nat; [|done]. injection H as <-. cbn in EL; apply app_inv_head in EL; subst ob; set_solver.
      * destruct (length (p_low p) <? q)%nat; [|done]. injection H as <-. cbn in EL; apply app_inv_head in EL; subst ob; set_solver.
Qed.

(* ------------------------------------------------------------- draining *)
Definition is_inner (s : wstat V) : Prop := s = WInner.

Lemma stuck_inner p :
  phase p -> p_started p = true -> p_quit p = false -> p_panic p = false ->
  (forall a w, worker_of a = Some w -> pstep p a = None) ->
  length (p_gs p) = n /\ (forall w s, p_gs p !! w = Some s -> s = WInner).
Proof.
  intros PH HS HQ HP ST.
  assert (length (p_gs p) = n /\ live (p_gs p) = n) as [LG LV] by (destruct PH; try congruence; auto).
  split; [done|]. intros w s E.
  assert (exited s = false) as EX by (eapply live_full; [|by eapply elem_of_list_lookup_2]; congruence).
  unfold PoolModel.pstep in ST. rewrite HP in ST.
  destruct s as [| |[v|]|v|v|v|]; try done; exfalso.
  - destruct (p_high p) as [|v h] eqn:EH.
    + specialize (ST (ADefault w) w eq_refl). cbn in ST. unfold g_default in ST. by rewrite E, EH, HQ in ST.
    + specialize (ST (AHigh w) w eq_refl). cbn in ST. unfold g_high in ST. by rewrite E, EH in ST.
  - specialize (ST (AGo w) w eq_refl). cbn in ST. unfold g_go in ST. rewrite E in ST. by destruct hasfunc.
  - specialize (ST (AGo w) w eq_refl). cbn in ST. unfold g_go in ST. by rewrite E in ST.
  - specialize (ST (AGo w) w eq_refl). cbn in ST. unfold g_go in ST. by rewrite E in ST.
  - specialize (ST (AGo w) w eq_refl). cbn in ST. unfold g_go in ST. by rewrite E in ST.
  - specialize (ST (AGo w) w eq_refl). cbn in ST. unfold g_go in ST. by rewrite E in ST.
Qed.

Lemma stuck_empty p :
  (1 <= n)%nat -> phase p -> p_started p = true -> p_quit p = false -> p_panic p = false ->
  (forall a w, worker_of a = Some w -> pstep p a = None) ->
  p_high p = [] /\ p_low p = [] /\ omap runs (p_gs p) = [] /\ omap pend (p_gs p) = [] /\ omap keyed (p_gs p) = [] /\
  p_gs p !! 0%nat = Some WInner.
Proof.
  intros N1 PH HS HQ HP ST. destruct (stuck_inner p PH HS HQ HP ST) as [LG IN].
  assert (exists s, p_gs p !! 0%nat = Some s) as [s0 E0] by (apply lookup_lt_is_Some_2; lia).
  pose proof (IN _ _ E0) as ->.
  assert (ALL : forall {A} (f : wstat V -> option A), f WInner = None -> omap f (p_gs p) = []).
  { intros A f F. assert (p_gs p = replicate (length (p_gs p)) WInner) as ->; [|by apply omap_replicate_none].
    symmetry. apply replicate_as_Forall. split; [done|]. apply Forall_lookup. intros i x X. symmetry. by eapply IN. }
  unfold PoolModel.pstep in ST. rewrite HP in ST.
  repeat split; auto.
  - destruct (p_high p) as [|v h] eqn:EH; [done|].
    specialize (ST (AHigh 0%nat) 0%nat eq_refl). cbn in ST. unfold g_high in ST. by rewrite E0, EH in ST.
  - destruct (p_low p) as [|v h] eqn:EH; [done|].
    specialize (ST (ALow 0%nat) 0%nat eq_refl). cbn in ST. unfold g_low in ST. by rewrite E0, EH in ST.
Qed.

(* ------------------------------------------------------------- stopping *)
Definition wmeas (s : wstat V) : nat :=
  match s with WExited => 0 | WOuter | WInner => 1 | WFin _ => 2 | WGot None => 2 | WRun _ => 3 | WCounted _ => 4 | WGot (Some _) => 5 end.
Definition gmeas (gs : list (wstat V)) : nat := sum_list_with wmeas gs.
Lemma gmeas_insert gs w s s' : gs !! w = Some s -> (gmeas (<[w := s']> gs) + wmeas s = gmeas gs + wmeas s')%nat.
Proof.
  intros H. rewrite insert_take_drop by (by eapply lookup_lt_Some).
  pose proof (take_drop_middle gs w s H) as E. rewrite <- E at 3.
  unfold gmeas. rewrite !sum_list_with_app. cbn. lia.
Qed.

Lemma all_exited_or gs : live gs = 0%nat \/ exists w s, gs !! w = Some s /\ exited s = false.
Proof.
  induction gs as [|x gs IH]; [by left|]. destruct (exited x) eqn:E; [|right; by exists 0%nat, x].
  destruct IH as [IH|(w & s & A & B)]; [|right; by exists (S w), s].
  left. unfold live in *. cbn. destruct x; done.
Qed.

Lemma stop_drains m p :
  (gmeas (p_gs p) <= m)%nat -> inv p -> life p -> p_quit p = true -> p_panic p = false -> starts (p_log p) = 1%nat ->
  exists acts p', Forall (fun a => is_Some (worker_of a)) acts /\ pexec acts p = Some p' /\ live (p_gs p') = 0%nat /\
    life p' /\ p_panic p' = false /\ p_clients p' = p_clients p /\ p_locked p' = p_locked p /\ p_started p' = p_started p /\ starts (p_log p') = 1%nat /\ p_quit p' = true.
Proof.
  revert p. induction m as [|m IH]; intros p HM I L HQ HP HS.
  - destruct (all_exited_or (p_gs p)) as [Z|(w & s & E & X)].
    + exists [], p. split_and!; auto.
    + exfalso. pose proof (gmeas_insert _ _ _ WExited E) as G. cbn in G. assert (1 <= wmeas s)%nat by (destruct s as [| |[]| | | |]; cbn in *; lia || done). lia.
  - destruct (all_exited_or (p_gs p)) as [Z|(w & s & E & X)].
    { exists [], p. split_and!; auto. }
    assert (exists a p1 s', worker_of a = Some w /\ pstep p a = Some p1 /\ p_gs p1 = <[w := s']> (p_gs p) /\ (wmeas s' < wmeas s)%nat /\
              p_clients p1 = p_clients p) as (a & p1 & s' & HW & HST & EG & LT & ECL).
    { unfold PoolModel.pstep. rewrite HP. destruct s as [| |[v|]|v|v|v|]; try done.
      - exists (AQuit w). cbn. unfold g_quit. rewrite E, HQ. cbn. eexists _, WExited. repeat split; cbn; lia.
      - exists (AQuit w). cbn. unfold g_quit. rewrite E, HQ. cbn. eexists _, WExited. repeat split; cbn; lia.
      - exists (AGo w). cbn. unfold g_go. rewrite E. destruct hasfunc.
        + eexists _, (WCounted v). repeat split; destruct (length (key_of key v) =? 0)%nat; cbn; auto; lia.
        + eexists _, WOuter. repeat split; cbn; lia.
      - exists (AGo w). cbn. unfold g_go. rewrite E. eexists _, WOuter. repeat split; cbn; lia.
      - exists (AGo w). cbn. unfold g_go. rewrite E. eexists _, (WRun v). repeat split; cbn; lia.
      - exists (AGo w). cbn. unfold g_go. rewrite E. eexists _, (WFin v). repeat split; cbn; lia.
      - exists (AGo w). cbn. unfold g_go. rewrite E. eexists _, WOuter. repeat split; destruct (length (key_of key v) =? 0)%nat; cbn; auto; lia. }
    pose proof (gmeas_insert _ _ _ s' E) as G.
    pose proof (inv_step _ _ _ I HST) as I1. pose proof (life_step _ _ _ I L HST) as L1.
    destruct (worker_shape _ _ _ _ HW HST) as (w' & s1 & s1' & ob & _ & _ & _ & _ & EL & NS & _ & EQ & ES & EK & _).
    assert (ST : starts (p_log p1) = starts (p_log p)) by (rewrite EL, starts_app; unfold starts at 2; rewrite NS; cbn; lia).
    assert (HP1 : p_panic p1 = false).
    { destruct (p_panic p1) eqn:Y; [|done]. pose proof (l_panic _ L1 Y). lia. }
    destruct (IH p1) as (acts & p' & A1 & A2 & A3 & A4 & A5 & A6 & A7 & A8 & A9 & A10); auto; try congruence.
    { rewrite EG. lia. }
    exists (a :: acts), p'. split; [constructor; [by rewrite HW|done]|]. cbn. rewrite HST. split_and!; auto; congruence.
Qed.
End proofs.
