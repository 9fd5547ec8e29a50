(** C101: clones of proof chains. *)
From Coq Require Import Lia.
From Verif Require Import Base ChainCloneModel ChainCloneProps ProofCloneModel.
From stdpp Require Import gmap.
Global Open Scope N_scope.

(* ------------------------------------------------------------- specification *)
(** What can be read from a cell, following references: a value, nil, or the elements. *)
Inductive seen := SVal (d : list N) | SNil | SObj (l : list seen).
(** [sees h c v]: in the memory h, v is what can be read from c. *)
Inductive sees (h : heap) : cell -> seen -> Prop :=
| SeesVal d : sees h (CVal d) (SVal d)
| SeesNil : sees h (CRef None) SNil
| SeesObj s vs : inside h (Some s) -> sees_all h (elems h (Some s)) vs -> sees h (CRef (Some s)) (SObj vs)
with sees_all (h : heap) : list cell -> list seen -> Prop :=
| SeesEnd : sees_all h [] []
| SeesCons c l v vs : sees h c v -> sees_all h l vs -> sees_all h (c :: l) (v :: vs).
Scheme sees_ind2 := Induction for sees Sort Prop with sees_all_ind2 := Induction for sees_all Sort Prop.
Combined Scheme sees_mut from sees_ind2, sees_all_ind2.

(** The shapes of the types: values, and slices, pointers. *)
Definition is_val (v : seen) : Prop := exists d, v = SVal d.
Definition nil_or (P : list seen -> Prop) (v : seen) : Prop := v = SNil \/ exists l, v = SObj l /\ P l.
Definition vals := nil_or (Forall is_val).
Definition big_int := nil_or (fun l => exists sign digits, l = [sign; digits] /\ is_val sign /\ vals digits).
Definition merkle_proofs := nil_or (fun l => exists hs paths reps, l = [hs; paths; reps] /\ vals hs /\ big_int paths /\ vals reps).
Definition node_proof := nil_or (fun l => exists pt nt key flag vh child, l = [pt; nt; key; flag; vh; child] /\
  is_val pt /\ is_val nt /\ vals key /\ is_val flag /\ vals vh /\ merkle_proofs child).
Definition proof_chain := nil_or (Forall node_proof).

(* -------------------------------------------------------------------- proofs *)
(** only arrays that are not in h0 are reached from a cell *)
Inductive apart (h0 h : heap) : cell -> Prop :=
| ApVal d : apart h0 h (CVal d)
| ApNil : apart h0 h (CRef None)
| ApObj s : is_new h0 (Some s) -> apart_all h0 h (elems h (Some s)) -> apart h0 h (CRef (Some s))
with apart_all (h0 h : heap) : list cell -> Prop :=
| ApEnd : apart_all h0 h []
| ApCons c l : apart h0 h c -> apart_all h0 h l -> apart_all h0 h (c :: l).

Definition grows (h h' : heap) : Prop := forall a x, h !! a = Some x -> h' !! a = Some x.
Lemma grows_refl h : grows h h.
Proof. by intros a x. Qed.
Lemma sees_mono h h' : grows h h' -> (forall c v, sees h c v -> sees h' c v) /\ (forall l vs, sees_all h l vs -> sees_all h' l vs).
Proof.
  intros Hg. apply (sees_mut h (fun c v _ => sees h' c v) (fun l vs _ => sees_all h' l vs)); try (by constructor).
  - intros s vs Hi Ha IH. constructor; [by eapply inside_mono|]. by rewrite (elems_mono h h' (Some s)).
Qed.
(** what is seen and lies apart from h0 depends on the other arrays only *)
Lemma sees_apart h0 h h' : (forall a, h0 !! a = None -> h' !! a = h !! a) ->
  (forall c v, sees h c v -> apart h0 h c -> sees h' c v) /\ (forall l vs, sees_all h l vs -> apart_all h0 h l -> sees_all h' l vs).
Proof.
  intros Hs. apply (sees_mut h (fun c v _ => apart h0 h c -> sees h' c v) (fun l vs _ => apart_all h0 h l -> sees_all h' l vs)); try (by constructor).
  - intros s vs Hi Ha IH Hap. inversion Hap as [| |s' Hn Hal]; subst. constructor.
    + destruct s as [[a o] n]. cbn in *. by rewrite Hs.
    + rewrite (elems_new h0 h h' (Some s)) by done. by apply IH.
  - intros c l v vs Hc IHc Hl IHl Hap. inversion Hap; subst. constructor; auto.
Qed.
Lemma apart_mono h0 h h' : grows h h' ->
  (forall c v, sees h c v -> apart h0 h c -> apart h0 h' c) /\ (forall l vs, sees_all h l vs -> apart_all h0 h l -> apart_all h0 h' l).
Proof.
  intros Hg. apply (sees_mut h (fun c v _ => apart h0 h c -> apart h0 h' c) (fun l vs _ => apart_all h0 h l -> apart_all h0 h' l)); try (by constructor).
  - intros s vs Hi Ha IH Hap. inversion Hap as [| |s' Hn Hal]; subst. constructor; [done|]. rewrite (elems_mono h h' (Some s)) by done. by apply IH.
  - intros c l v vs Hc IHc Hl IHl Hap. inversion Hap; subst. constructor; auto.
Qed.

(** a function that clones what has the shape P *)
Definition clones (P : seen -> Prop) (f : heap -> cell -> heap * cell) : Prop :=
  forall h0 h c v h' c', grows h0 h -> sees h0 c v -> P v -> f h c = (h', c') -> grows h h' /\ sees h' c' v /\ apart h0 h' c'.
Definition clones_all (P : list seen -> Prop) (f : heap -> list cell -> heap * list cell) : Prop :=
  forall h0 h l vs h' l', grows h0 h -> sees_all h0 l vs -> P vs -> f h l = (h', l') -> grows h h' /\ sees_all h' l' vs /\ apart_all h0 h' l'.
Lemma keep_clones : clones is_val keep.
Proof.
  intros h0 h c v h' c' Hg Hs [d ->] [= <- <-]. inversion Hs; subst. split; [apply grows_refl|]. split; constructor.
Qed.
Lemma renew_clones P f : clones_all P f -> clones (nil_or P) (renew f).
Proof.
  intros Hf h0 h c v h' c' Hg Hs HP E. destruct HP as [->|(vs & -> & HP)]; inversion Hs as [| |s vs' Hi Ha]; subst; cbn [renew] in E.
  - injection E as <- <-. split; [apply grows_refl|]. split; constructor.
  - rewrite (elems_mono h0 h (Some s)) in E by done.
    destruct (f h (elems h0 (Some s))) as [h1 l] eqn:E1. destruct (make_copy h1 l) as [h2 s'] eqn:E2. injection E as <- <-.
    destruct (Hf _ _ _ _ _ _ Hg Ha HP E1) as (G1 & S1 & A1).
    destruct (make_copy_spec _ _ _ _ E2) as (G2 & B2 & C2 & D2 & N2). destruct s' as [y|]; [|done].
    assert (B3 : elems h2 (Some y) = l) by (by injection B2).
    split; [intros a x Ha'; by apply G2, G1|]. split.
    + constructor; [done|]. rewrite B3. by apply (sees_mono h1 h2 G2).
    + constructor; [apply D2; intros a x Ha'; by apply G1, Hg|]. rewrite B3. by eapply (apart_mono h0 h1 h2 G2).
Qed.
Lemma each_clones P f : clones P f -> clones_all (Forall P) (each f).
Proof.
  intros Hf h0 h l. revert h. induction l as [|c l IH]; intros h vs h' l' Hg Hs HP E; cbn [each] in E.
  - injection E as <- <-. inversion Hs; subst. split; [apply grows_refl|]. split; constructor.
  - inversion Hs as [|? ? v vs' Hc Hl]; subst. apply Forall_cons in HP as [HPv HPl].
    destruct (f h c) as [h1 c'] eqn:E1. destruct (each f h1 l) as [h2 r'] eqn:E2. injection E as <- <-.
    destruct (Hf _ _ _ _ _ _ Hg Hc HPv E1) as (G1 & S1 & A1).
    destruct (IH h1 vs' h2 r') as (G2 & S2 & A2); [intros a x Ha; by apply G1, Hg|done|done|done|].
    split; [intros a x Ha; by apply G2, G1|]. split; constructor; try done.
    + by apply (sees_mono h1 h2 G2).
    + by eapply (apart_mono h0 h1 h2 G2).
Qed.
Lemma fields_clones Ps fs : Forall2 clones Ps fs -> clones_all (fun vs => Forall2 (fun P v => P v) Ps vs) (fields fs).
Proof.
  intros Hf. induction Hf as [|P f Ps fs HPf Hfs IH]; intros h0 h l vs h' l' Hg Hs HP E.
  - inversion HP; subst. inversion Hs; subst. cbn in E. injection E as <- <-. split; [apply grows_refl|]. split; constructor.
  - inversion HP as [|? v ? vs' HPv HPl]; subst. inversion Hs as [|c l0 ? ? Hc Hl]; subst. cbn [fields] in E.
    destruct (f h c) as [h1 c'] eqn:E1. destruct (fields fs h1 l0) as [h2 r'] eqn:E2. injection E as <- <-.
    destruct (HPf _ _ _ _ _ _ Hg Hc HPv E1) as (G1 & S1 & A1).
    destruct (IH h0 h1 l0 vs' h2 r') as (G2 & S2 & A2); [intros a x Ha; by apply G1, Hg|done|done|done|].
    split; [intros a x Ha; by apply G2, G1|]. split; constructor; try done.
    + by apply (sees_mono h1 h2 G2).
    + by eapply (apart_mono h0 h1 h2 G2).
Qed.
Lemma clones_weaken (P Q : list seen -> Prop) f : (forall l, Q l -> P l) -> clones_all P f -> clones_all Q f.
Proof. intros HQ Hf h0 h l vs h' l' Hg Hs HP E. by eapply Hf; eauto. Qed.
Lemma plain_clones : clones vals copy_plain.
Proof. apply renew_clones, each_clones, keep_clones. Qed.
Lemma big_clones : clones big_int CopyBigInt.
Proof.
  apply renew_clones. eapply clones_weaken; [|apply (fields_clones [is_val; vals])].
  - intros l (a & b & -> & Ha & Hb). repeat (constructor; [done|]). constructor.
  - constructor; [apply keep_clones|]. constructor; [apply plain_clones|]. constructor.
Qed.
Lemma merkle_clones : clones merkle_proofs MerkleProofs_Clone.
Proof.
  apply renew_clones. eapply clones_weaken; [|apply (fields_clones [vals; big_int; vals])].
  - intros l (a & b & c & -> & Ha & Hb & Hc). repeat (constructor; [done|]). constructor.
  - constructor; [apply plain_clones|]. constructor; [apply big_clones|]. constructor; [apply plain_clones|]. constructor.
Qed.
Lemma node_clones : clones node_proof NodeProof_Clone.
Proof.
  apply renew_clones. eapply clones_weaken; [|apply (fields_clones [is_val; is_val; vals; is_val; vals; merkle_proofs])].
  - intros l (a & b & c & d & e & f & -> & Ha & Hb & Hc & Hd & He & Hf). repeat (constructor; [done|]). constructor.
  - constructor; [apply keep_clones|]. constructor; [apply keep_clones|]. constructor; [apply plain_clones|]. constructor; [apply keep_clones|]. constructor; [apply plain_clones|]. constructor; [apply merkle_clones|]. constructor.
Qed.

(* ------------------------------------------------------------------ theorems *)
(** A clone of a proof chain shows what the original shows, at every depth. Whatever is later
    written to the memory that existed before is not seen through the clone; whatever is
    written to memory taken since then is not seen through the original. *)
Theorem C101_clone : forall h c v h' c', sees h c v -> proof_chain v -> ProofChain_Clone h c = (h', c') ->
  sees h' c' v /\ sees h' c v /\
  (forall later : heap, (forall a, a ∉ dom h -> later !! a = h' !! a) -> sees later c' v) /\
  (forall later : heap, (forall a, a ∈ dom h -> later !! a = h' !! a) -> sees later c v).
Proof.
  intros h c v h' c' Hs HP E.
  destruct (renew_clones _ _ (each_clones _ _ node_clones) h h c v h' c' (fun _ _ X => X) Hs HP E) as (G & S & A).
  split; [done|]. split; [by apply (sees_mono h h' G)|]. split.
  - intros later Hl. eapply (proj1 (sees_apart h h' later _)); [done|done]. Unshelve. intros a Ha. apply Hl. by apply not_elem_of_dom.
  - intros later Hl. eapply (proj1 (sees_mono h later _)); [done]. Unshelve. intros a x Ha. rewrite Hl by (by apply elem_of_dom_2 in Ha). by apply G.
Qed.
Print Assumptions C101_clone.
(** What is seen is determined by the memory and the cell. *)
Theorem C101_seen_once : forall h c v w, sees h c v -> sees h c w -> v = w.
Proof.
  intros h. assert (forall c v, sees h c v -> forall w, sees h c w -> v = w) as X; [|by eauto].
  apply (sees_mut h (fun c v _ => forall w, sees h c w -> v = w) (fun l vs _ => forall ws, sees_all h l ws -> vs = ws)).
  - intros d w Hw. by inversion Hw.
  - intros w Hw. by inversion Hw.
  - intros s vs Hi Ha IH w Hw. inversion Hw as [| |s' ws Hi' Ha']; subst. f_equal. by apply IH.
  - intros ws Hw. by inversion Hw.
  - intros c l v vs Hc IHc Hl IHl ws Hw. inversion Hw; subst. f_equal; auto.
Qed.
Print Assumptions C101_seen_once.
(** The same for one step, for a Merkle proof and for a big integer alone. *)
Theorem C101_parts : forall h c v h' c', sees h c v ->
  (node_proof v /\ NodeProof_Clone h c = (h', c') \/ merkle_proofs v /\ MerkleProofs_Clone h c = (h', c') \/ big_int v /\ CopyBigInt h c = (h', c')) ->
  sees h' c v /\ forall later : heap, (forall a, a ∉ dom h -> later !! a = h' !! a) -> sees later c' v.
Proof.
  intros h c v h' c' Hs HE.
  assert (grows h h' /\ sees h' c' v /\ apart h h' c') as (G & S & A).
  { destruct HE as [[HP E]|[[HP E]|[HP E]]].
    - exact (node_clones h h c v h' c' (grows_refl h) Hs HP E).
    - exact (merkle_clones h h c v h' c' (grows_refl h) Hs HP E).
    - exact (big_clones h h c v h' c' (grows_refl h) Hs HP E). }
  split; [by apply (sees_mono h h' G)|]. intros later Hl.
  eapply (proj1 (sees_apart h h' later _)); [done|done]. Unshelve. intros a Ha. apply Hl. by apply not_elem_of_dom.
Qed.
Print Assumptions C101_parts.

(* ------------------------------------------------------------------ examples *)
(** A chain of a step with a Merkle proof (two hashes, a path of one digit, no repeats) and a
    step without one; both share the array of their keys. *)
Definition ex_pm : heap :=
  list_to_map [(0%nat, [CRef (Some (1, 0, 6)%nat); CRef (Some (2, 0, 6)%nat)]);
    (1%nat, [CVal [1]; CVal [2]; CRef (Some (3, 0, 2)%nat); CVal [9]; CRef None; CRef (Some (4, 0, 3)%nat)]);
    (2%nat, [CVal [5]; CVal [2]; CRef (Some (3, 1, 2)%nat); CVal [8]; CRef (Some (7, 0, 1)%nat); CRef None]);
    (3%nat, [CVal [10]; CVal [11]; CVal [12]]);
    (4%nat, [CRef (Some (5, 0, 2)%nat); CRef (Some (6, 0, 2)%nat); CRef None]);
    (5%nat, [CVal [21]; CVal [22]]);
    (6%nat, [CVal [0]; CRef (Some (8, 0, 1)%nat)]);
    (7%nat, [CVal [33]]); (8%nat, [CVal [1]])].
Definition ex_pseen : seen :=
  SObj [SObj [SVal [1]; SVal [2]; SObj [SVal [10]; SVal [11]]; SVal [9]; SNil;
              SObj [SObj [SVal [21]; SVal [22]]; SObj [SVal [0]; SObj [SVal [1]]]; SNil]];
        SObj [SVal [5]; SVal [2]; SObj [SVal [11]; SVal [12]]; SVal [8]; SObj [SVal [33]]; SNil]].
Ltac sees_go :=
  repeat match goal with
  | |- sees_all _ (elems ?h ?s) _ => let l := eval vm_compute in (elems h s) in replace (elems h s) with l by (vm_compute; reflexivity)
  | |- sees_all _ _ _ => constructor
  | |- sees _ _ _ => constructor
  | |- inside _ _ => eexists; split; [vm_compute; reflexivity|cbn; lia]
  end.
Example C101_ex_sees : sees ex_pm (CRef (Some (0, 0, 2)%nat)) ex_pseen.
Proof. unfold ex_pseen. sees_go. Qed.
Example C101_ex_shape : proof_chain ex_pseen.
Proof.
  assert (V : forall l, Forall is_val l -> vals (SObj l)) by (intros l Hl; right; by exists l).
  assert (W : forall d, is_val (SVal d)) by (intros d; by exists d).
  right. eexists. split; [reflexivity|]. apply Forall_cons; split; [|apply Forall_cons; split; [|constructor]].
  - right. eexists. split; [reflexivity|]. do 6 eexists. split; [reflexivity|]. split; [done|]. split; [done|].
    split; [apply V; by repeat constructor|]. split; [done|]. split; [by left|].
    right. eexists. split; [reflexivity|]. do 3 eexists. split; [reflexivity|]. split; [apply V; by repeat constructor|]. split; [|by left].
    right. eexists. split; [reflexivity|]. do 2 eexists. split; [reflexivity|]. split; [done|]. apply V. by repeat constructor.
  - right. eexists. split; [reflexivity|]. do 6 eexists. split; [reflexivity|]. split; [done|]. split; [done|].
    split; [apply V; by repeat constructor|]. split; [done|]. split; [apply V; by repeat constructor|]. by left.
Qed.
(** Without a clone a write is seen. *)
Example C101_ex_shared : ~ sees (<[5%nat := [CVal [21]; CVal [99]]]> ex_pm) (CRef (Some (0, 0, 2)%nat)) ex_pseen.
Proof.
  intros Hs. assert (E : ex_pseen = SObj [SObj [SVal [1]; SVal [2]; SObj [SVal [10]; SVal [11]]; SVal [9]; SNil;
              SObj [SObj [SVal [21]; SVal [99]]; SObj [SVal [0]; SObj [SVal [1]]]; SNil]];
        SObj [SVal [5]; SVal [2]; SObj [SVal [11]; SVal [12]]; SVal [8]; SObj [SVal [33]]; SNil]]); [|done].
  eapply C101_seen_once; [exact Hs|]. sees_go.
Qed.
