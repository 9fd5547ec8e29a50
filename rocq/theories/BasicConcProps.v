(** C73: the process-wide tables of basic.go under concurrent use. *)
From Coq Require Import Lia.
From stdpp Require Import gmap.
From Verif Require Import LockSpec LockModel LockProofs BasicModel BasicConcModel.
Global Open Scope N_scope.

(* ---------------------------------------------------------------- specification *)
(** The registry is the list of the registrations made so far. An address is reserved if
    any registration mentions it, a system contract if it was registered as one, free of
    gas if it was registered as a system contract without gas, unchecked if it was
    registered as such. *)
Definition mentions (o : rgop) (a : list N) : Prop :=
  match o with RegReserved l | RegSystem _ l | RegNoCheck l => a ∈ l | _ => False end.
Definition reserved (m : list rgop) (a : list N) : Prop := exists o, o ∈ m /\ mentions o a.
Definition system_contract (m : list rgop) (a : list N) : Prop := exists ng l, RegSystem ng l ∈ m /\ a ∈ l.
Definition no_gas (m : list rgop) (a : list N) : Prop := exists l, RegSystem true l ∈ m /\ a ∈ l.
Definition no_check (m : list rgop) (a : list N) : Prop := exists l, RegNoCheck l ∈ m /\ a ∈ l.
Definition answers (m m' : list rgop) (r : option bool) (P : Prop) : Prop :=
  m' = m /\ exists b, r = Some b /\ (b = true <-> P).
Definition sp_registry (m : list rgop) (o : rgop) (m' : list rgop) (r : option bool) : Prop :=
  match o with
  | IsReserved a => answers m m' r (reserved m a)
  | NoCheck a => answers m m' r (no_check m a)
  | IsSystemContract a => answers m m' r (system_contract m a)
  | IsNoGas a => answers m m' r (no_gas m a)
  | _ => m' = m ++ [o] /\ r = None
  end.

(* ---------------------------------------------------------------- proofs *)
Definition all_of (l : list (list N)) : gset (list N) := list_to_set l.
Definition sp_sets (s : registry) (o : rgop) (s' : registry) (r : option bool) : Prop :=
  let '(Reg a y n g) := s in
  match o with
  | RegReserved l => s' = Reg (a ∪ all_of l) y n g /\ r = None
  | RegSystem ng l => s' = Reg (a ∪ all_of l) (y ∪ all_of l) n (if ng then g ∪ all_of l else g) /\ r = None
  | RegNoCheck l => s' = Reg (a ∪ all_of l) y (n ∪ all_of l) g /\ r = None
  | IsReserved x => s' = s /\ r = Some (bool_decide (x ∈ a))
  | NoCheck x => s' = s /\ r = Some (bool_decide (x ∈ n))
  | IsSystemContract x => s' = s /\ r = Some (bool_decide (x ∈ y))
  | IsNoGas x => s' = s /\ r = Some (bool_decide (x ∈ g))
  end.
Definition rgW (o : rgop) (l : rglocal) (s m : registry) : Prop :=
  let '(Reg r y n g) := s in let '(Reg mr my mn mg) := m in
  match l with
  | RG0 (RegReserved as_) => exists pre, o = RegReserved (pre ++ as_) /\ r = mr ∪ all_of pre /\ y = my /\ n = mn /\ g = mg
  | RG0 (RegSystem ng as_) => exists pre, o = RegSystem ng (pre ++ as_) /\ r = mr ∪ all_of pre /\ y = my ∪ all_of pre /\ n = mn
                                         /\ g = (if ng then mg ∪ all_of pre else mg)
  | RGSys1 ng a as_ => exists pre, o = RegSystem ng (pre ++ a :: as_) /\ r = mr ∪ all_of pre /\ y = my ∪ all_of (pre ++ [a]) /\ n = mn
                                         /\ g = (if ng then mg ∪ all_of pre else mg)
  | RGSys2 ng a as_ => exists pre, o = RegSystem ng (pre ++ a :: as_) /\ r = mr ∪ all_of (pre ++ [a]) /\ y = my ∪ all_of (pre ++ [a]) /\ n = mn
                                         /\ g = (if ng then mg ∪ all_of pre else mg)
  | RG0 (RegNoCheck as_) => exists pre, o = RegNoCheck (pre ++ as_) /\ r = mr ∪ all_of pre /\ y = my /\ n = mn ∪ all_of pre /\ g = mg
  | RGNo1 a as_ => exists pre, o = RegNoCheck (pre ++ a :: as_) /\ r = mr ∪ all_of pre /\ y = my /\ n = mn ∪ all_of (pre ++ [a]) /\ g = mg
  | _ => False
  end.
Lemma add_one (m : gset (list N)) pre a : {[a]} ∪ (m ∪ all_of pre) = m ∪ all_of (pre ++ [a]).
Proof. unfold all_of. rewrite list_to_set_app_L. set_solver. Qed.
Lemma registry_ok :
  object_ok rg_kind RG0 rg_next sp_sets (fun _ => True) (fun s => s) (fun o l _ => l = RG0 o) rgW.
Proof.
  split; try done.
  - intros o l [r y n g] ch s' l' Hk _ -> Hn. destruct o; cbn in Hk, Hn; try done; simplify_eq.
  - intros o l [r y n g] ch s' a Hk _ -> Hn. destruct o; cbn in Hk, Hn; try done; simplify_eq; done.
  - intros o [r y n g] Hk _. destruct o; cbn in *; try done; exists []; unfold all_of; cbn;
      rewrite ?union_empty_r_L; split_and!; try done. by destruct noGas.
  - intros o l [r y n g] [mr my mn mg] ch s' l' Hk HW Hn. destruct l as [[[|a l]|ng [|a l]|[|a l]| | | |]|ng a l|ng a l|a l];
      cbn [rg_next] in Hn; cbn [rgW] in HW; simplify_eq; try done;
      destruct HW as (pre & -> & -> & -> & -> & ->); rewrite ?add_one.
    + exists (pre ++ [a]). rewrite <- app_assoc. done.
    + exists pre. done.
    + exists pre. done.
    + exists pre. done.
    + exists (pre ++ [a]). rewrite <- app_assoc. destruct ng; rewrite ?add_one; done.
    + exists (pre ++ [a]). rewrite <- app_assoc. done.
  - intros o l [r y n g] [mr my mn mg] ch s' a Hk HW Hn. destruct l as [[[|a' l]|ng [|a' l]|[|a' l]| | | |]|ng a' l|ng a' l|a' l];
      cbn [rg_next] in Hn; cbn [rgW] in HW; simplify_eq; try done;
      destruct HW as (pre & -> & -> & -> & -> & ->); rewrite app_nil_r; done.
Qed.

(** the sets and the list of registrations *)
Definition same (s : registry) (m : list rgop) : Prop :=
  (forall a, a ∈ rg_reserved s <-> reserved m a) /\ (forall a, a ∈ rg_system s <-> system_contract m a) /\
  (forall a, a ∈ rg_nocheck s <-> no_check m a) /\ (forall a, a ∈ rg_nogas s <-> no_gas m a).
Lemma reserved_snoc m o a : reserved (m ++ [o]) a <-> reserved m a \/ mentions o a.
Proof.
  unfold reserved. setoid_rewrite elem_of_app. setoid_rewrite elem_of_list_singleton. naive_solver.
Qed.
Lemma same_step s m o s' r : same s m -> sp_sets s o s' r -> exists m', sp_registry m o m' r /\ same s' m'.
Proof.
  intros (S1 & S2 & S3 & S4) Hs. destruct s as [sr sy sn sg]. cbn in S1, S2, S3, S4.
  assert (Hq : forall x (P : Prop) (X : gset (list N)), (x ∈ X <-> P) -> bool_decide (x ∈ X) = true <-> P).
  { intros x P X E. rewrite bool_decide_eq_true. done. }
  destruct o as [l|ng l|l|x|x|x|x]; cbn in Hs; destruct Hs as [-> ->].
  - exists (m ++ [RegReserved l]). split; [done|]. split_and!; cbn; intros a.
    + rewrite reserved_snoc, elem_of_union, S1. unfold all_of. by rewrite elem_of_list_to_set.
    + rewrite S2. unfold system_contract. setoid_rewrite elem_of_app. setoid_rewrite elem_of_list_singleton. naive_solver.
    + rewrite S3. unfold no_check. setoid_rewrite elem_of_app. setoid_rewrite elem_of_list_singleton. naive_solver.
    + rewrite S4. unfold no_gas. setoid_rewrite elem_of_app. setoid_rewrite elem_of_list_singleton. naive_solver.
  - exists (m ++ [RegSystem ng l]). split; [done|]. split_and!; cbn; intros a.
    + rewrite reserved_snoc, elem_of_union, S1. unfold all_of. by rewrite elem_of_list_to_set.
    + rewrite elem_of_union, S2. unfold all_of, system_contract. rewrite elem_of_list_to_set.
      setoid_rewrite elem_of_app. setoid_rewrite elem_of_list_singleton. naive_solver.
    + rewrite S3. unfold no_check. setoid_rewrite elem_of_app. setoid_rewrite elem_of_list_singleton. naive_solver.
    + destruct ng; [rewrite elem_of_union|]; rewrite S4; unfold all_of, no_gas; rewrite ?elem_of_list_to_set;
        setoid_rewrite elem_of_app; setoid_rewrite elem_of_list_singleton; naive_solver.
  - exists (m ++ [RegNoCheck l]). split; [done|]. split_and!; cbn; intros a.
    + rewrite reserved_snoc, elem_of_union, S1. unfold all_of. by rewrite elem_of_list_to_set.
    + rewrite S2. unfold system_contract. setoid_rewrite elem_of_app. setoid_rewrite elem_of_list_singleton. naive_solver.
    + rewrite elem_of_union, S3. unfold all_of, no_check. rewrite elem_of_list_to_set.
      setoid_rewrite elem_of_app. setoid_rewrite elem_of_list_singleton. naive_solver.
    + rewrite S4. unfold no_gas. setoid_rewrite elem_of_app. setoid_rewrite elem_of_list_singleton. naive_solver.
  - exists m. split; [split; [done|]; eexists; split; [done|]; by apply Hq|done].
  - exists m. split; [split; [done|]; eexists; split; [done|]; by apply Hq|done].
  - exists m. split; [split; [done|]; eexists; split; [done|]; by apply Hq|done].
  - exists m. split; [split; [done|]; eexists; split; [done|]; by apply Hq|done].
Qed.
Lemma same_runs l : forall s m s', same s m -> sruns sp_sets s l s' -> exists m', sruns sp_registry m l m'.
Proof.
  induction l as [|[o a] l IH]; intros s m s' Hsm Hs; inversion Hs as [|? ? ? s1 ? ? H1 H2]; subst.
  - exists m. constructor.
  - destruct (same_step _ _ _ _ _ Hsm H1) as (m1 & A & B). destruct (IH _ _ _ B H2) as [m2 C].
    exists m2. econstructor; eauto.
Qed.

(* ------------------------------------------------------------------- theorems *)
(** Whatever the threads do, registrations and questions answer as if made one after the
    other: nobody sees part of a registration. *)
Theorem C73_registry : forall n c,
  reaches rg_kind RG0 rg_next (initial rg_empty n) c ->
  linearizable sp_registry [] (hist c).
Proof.
  intros n c H.
  pose proof (object_linearizable _ _ _ _ _ _ _ _ registry_ok rg_empty I n c H) as (g & Hg1 & Hg2 & m' & Hm).
  exists g. split; [done|]. split; [done|]. eapply same_runs; [|exact Hm].
  unfold same, reserved, system_contract, no_check, no_gas. cbn. split_and!; intros a; set_solver.
Qed.
Print Assumptions C73_registry.

(** What a sequence of calls answers, said without states: a question is answered by the
    registrations before it, and classes are nested. *)
Definition is_registration (o : rgop) : bool :=
  match o with RegReserved _ | RegSystem _ _ | RegNoCheck _ => true | _ => false end.
Definition registrations (l : list (rgop * option bool)) : list rgop := List.filter is_registration (map fst l).
Theorem C73_answers : forall l m' i o r,
  sruns sp_registry [] l m' -> l !! i = Some (o, r) ->
  let before := registrations (take i l) in
  match o with
  | IsReserved a => exists b, r = Some b /\ (b = true <-> reserved before a)
  | NoCheck a => exists b, r = Some b /\ (b = true <-> no_check before a)
  | IsSystemContract a => exists b, r = Some b /\ (b = true <-> system_contract before a)
  | IsNoGas a => exists b, r = Some b /\ (b = true <-> no_gas before a)
  | _ => r = None
  end.
Proof.
  intros l m' i o r Hs Hi. cbn zeta.
  assert (G : forall l m m' i, sruns sp_registry m l m' -> l !! i = Some (o, r) ->
    exists m1, sp_registry (m ++ registrations (take i l)) o m1 r).
  { clear. induction l as [|[o1 r1] l IH]; intros m m' i Hs Hi; [done|].
    inversion Hs as [|? ? ? m1 ? ? H1 H2]; subst. destruct i as [|i]; cbn in Hi.
    - simplify_eq. cbn. rewrite app_nil_r. eauto.
    - destruct (IH _ _ _ H2 Hi) as [m2 E]. exists m2. unfold registrations in *. cbn [take map fst].
      destruct o1; cbn in H1; destruct H1 as [-> _]; cbn [List.filter is_registration];
        rewrite <- ?app_assoc in E; exact E. }
  destruct (G l [] m' i Hs Hi) as [m1 E]. cbn [app] in E.
  destruct o; cbn in E; destruct E as [_ E]; exact E.
Qed.
Print Assumptions C73_answers.
Theorem C73_nested : forall m a,
  (no_gas m a -> system_contract m a) /\ (system_contract m a -> reserved m a) /\ (no_check m a -> reserved m a).
Proof.
  intros m a. unfold no_gas, system_contract, no_check, reserved. split_and!.
  - naive_solver.
  - intros (ng & l & H1 & H2). exists (RegSystem ng l). done.
  - intros (l & H1 & H2). exists (RegNoCheck l). done.
Qed.
Print Assumptions C73_nested.

(** Watched heights: Set, Get and compare-and-set of any number of threads. *)
Theorem C73_last_block : forall n c,
  reaches lb_kind LB0 lb_next (initial ∅ n) c ->
  linearizable (fun m o m' r => lb_step m o = (m', r)) ∅ (hist c).
Proof.
  intros n c H.
  refine (object_linearizable lb_kind LB0 lb_next (fun m o m' r => lb_step m o = (m', r))
    (fun _ => True) (fun m => m) (fun _ _ _ => True)
    (fun o l s m => s = m /\ match l with LB0 o' => o' = o | LBCas1 k v => o = LBCAS k v /\ match m !! k with Some v' => v' < v | None => True end end)
    _ ∅ I n c H).
  split; try done.
  - intros o l s m ch s' l' _ [-> HW] Hn. destruct l as [[]|]; cbn in Hn; subst; simplify_eq.
    destruct (m !! k) as [v'|] eqn:E; [destruct (v <=? v') eqn:Ev|]; simplify_eq; rewrite ?E; [|done].
    apply N.leb_gt in Ev. done.
  - intros o l s m ch s' a _ [-> HW] Hn. split; [done|]. destruct l as [[]|]; cbn in Hn; subst; simplify_eq; try done.
    + cbn. destruct (m !! k) as [v'|] eqn:E; [destruct (v <=? v') eqn:Ev|]; simplify_eq. done.
    + destruct HW as [-> HW]. cbn. destruct (m !! k) as [v'|]; [|done]. destruct (v <=? v') eqn:Ev; [|done].
      apply N.leb_le in Ev. lia.
Qed.
Print Assumptions C73_last_block.

(** A system contract is being registered while another thread asks: the code has entered
    the address in one table and not yet in the other, and the question waits. *)
Definition ad : list N := [1; 2].
Example C73_waits :
  exec rg_kind RG0 rg_next (initial rg_empty 2)
    [(0, LInv (RegSystem true [ad])); (0, LAcq); (0, LEnter); (0, LStep 0); (1, LInv (IsReserved ad)); (1, LAcq)]%nat = None.
Proof. vm_compute. reflexivity. Qed.
Example C73_example :
  option_map hist (exec rg_kind RG0 rg_next (initial rg_empty 2)
    [(0, LInv (RegSystem true [ad])); (0, LAcq); (0, LEnter); (0, LStep 0); (1, LInv (IsReserved ad));
     (0, LStep 0); (0, LStep 0); (0, LStep 0); (0, LUnlock);
     (1, LAcq); (1, LStep 0); (1, LUnlock); (1, LReturn);
     (1, LInv (NoCheck ad)); (1, LAcq); (1, LStep 0); (1, LUnlock); (1, LReturn); (0, LReturn)]%nat) =
  Some [EInv 0 (RegSystem true [ad]); EInv 1 (IsReserved ad); ERet 1 (Some true);
        EInv 1 (NoCheck ad); ERet 1 (Some false); ERet 0 None].
Proof. vm_compute. reflexivity. Qed.
(** two compare-and-sets of the same height: one succeeds *)
Example C73_cas_example :
  option_map hist (exec lb_kind LB0 lb_next (initial ∅ 2)
    [(0, LInv (LBCAS 1%N 5%N)); (1, LInv (LBCAS 1%N 5%N)); (0, LAcq); (0, LEnter); (0, LStep 0); (0, LStep 0); (0, LUnlock);
     (1, LAcq); (1, LEnter); (1, LStep 0); (1, LUnlock); (1, LReturn); (0, LReturn)]%nat) =
  Some [EInv 0 (LBCAS 1 5); EInv 1 (LBCAS 1 5); ERet 1 (LBBool false); ERet 0 (LBBool true)].
Proof. vm_compute. reflexivity. Qed.
