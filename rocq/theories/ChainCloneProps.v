(** C98: administrators and copies of the description of a chain. *)
From Coq Require Import Lia.
From Verif Require Import Base MerkleSpec FixedModel FixedSpec FixedProps ToyHash ChainCloneModel.
From stdpp Require Import gmap.
Global Open Scope N_scope.

(* ------------------------------------------------------------- specification *)
(** What can be read through a slice, and through a slice of slices; None = nil. *)
Definition shown (h : heap) (s : slice) : option (list cell) :=
  match s with None => None | Some _ => Some (elems h s) end.
Definition cell_shown (h : heap) (c : cell) : list N + option (list cell) :=
  match c with CVal d => inl d | CRef s => inr (shown h s) end.
Definition shown2 (h : heap) (s : slice) : option (list (list N + option (list cell))) :=
  match s with None => None | Some _ => Some (map (cell_shown h) (elems h s)) end.
(** Everything a holder of the description can read. *)
Definition view (h : heap) (c : option infos) :=
  match c with
  | None => None
  | Some c => Some (ci_fixed c, shown2 h (ci_admins c), shown h (ci_comm c), shown h (ci_boot c), shown h (ci_gdatas c),
                    shown h (ci_datas c), shown h (ci_attrs c), shown h (ci_auditors c))
  end.
(** The slices lie inside arrays that exist. *)
Definition inside (h : heap) (s : slice) : Prop :=
  match s with None => True | Some (a, o, n) => exists l, h !! a = Some l /\ (o + n <= length l)%nat end.
Definition cell_inside (h : heap) (c : cell) : Prop := match c with CVal _ => True | CRef s => inside h s end.
Definition valid (h : heap) (c : option infos) : Prop :=
  match c with
  | None => True
  | Some c => inside h (ci_admins c) /\ Forall (cell_inside h) (elems h (ci_admins c)) /\ inside h (ci_comm c) /\ inside h (ci_boot c) /\
              inside h (ci_gdatas c) /\ inside h (ci_datas c) /\ inside h (ci_attrs c) /\ inside h (ci_auditors c)
  end.

(* -------------------------------------------------------------------- proofs *)
Definition is_new (h0 : heap) (s : slice) : Prop := match s with None => True | Some (a, _, _) => h0 !! a = None end.
Definition cell_new (h0 : heap) (c : cell) : Prop := match c with CVal _ => True | CRef s => is_new h0 s end.
Lemma elems_mono h h' s : inside h s -> (forall a l, h !! a = Some l -> h' !! a = Some l) -> elems h' s = elems h s.
Proof. intros Hs He. destruct s as [[[a o] n]|]; [|done]. destruct Hs as (l & Hl & _). cbn. by rewrite Hl, (He _ _ Hl). Qed.
Lemma shown_mono h h' s : inside h s -> (forall a l, h !! a = Some l -> h' !! a = Some l) -> shown h' s = shown h s.
Proof. intros Hs He. destruct s as [x|]; [|done]. cbn [shown]. by rewrite (elems_mono h h' (Some x)). Qed.
Lemma inside_mono h h' s : inside h s -> (forall a l, h !! a = Some l -> h' !! a = Some l) -> inside h' s.
Proof. intros Hs He. destruct s as [[[a o] n]|]; [|done]. destruct Hs as (l & Hl & Hn). exists l. auto. Qed.
Lemma shown2_mono h h' s : inside h s -> Forall (cell_inside h) (elems h s) -> (forall a l, h !! a = Some l -> h' !! a = Some l) ->
  shown2 h' s = shown2 h s.
Proof.
  intros Hs Hc He. destruct s as [x|]; [|done]. cbn [shown2]. rewrite (elems_mono h h' (Some x)) by done. f_equal.
  apply map_ext_in. intros c Hin. apply elem_of_list_In in Hin. rewrite Forall_forall in Hc. specialize (Hc c Hin).
  destruct c; [done|]. cbn. f_equal. by apply shown_mono.
Qed.
Lemma shown_new h0 h h' s : is_new h0 s -> (forall a, h0 !! a = None -> h' !! a = h !! a) -> shown h' s = shown h s.
Proof. intros Hs He. destruct s as [[[a o] n]|]; [|done]. cbn. by rewrite He. Qed.
Lemma elems_new h0 h h' s : is_new h0 s -> (forall a, h0 !! a = None -> h' !! a = h !! a) -> elems h' s = elems h s.
Proof. intros Hs He. destruct s as [[[a o] n]|]; [|done]. cbn. by rewrite He. Qed.

Lemma make_copy_spec h l h' s : make_copy h l = (h', s) ->
  (forall a x, h !! a = Some x -> h' !! a = Some x) /\ shown h' s = Some l /\ inside h' s /\
  (forall h0 : heap, (forall a x, h0 !! a = Some x -> h !! a = Some x) -> is_new h0 s) /\ s <> None.
Proof.
  unfold make_copy. intros [= <- <-].
  assert (Hf : h !! (fresh (dom h) : nat) = None) by (apply not_elem_of_dom, is_fresh).
  split; [|split; [|split; [|split]]].
  - intros a x Ha. rewrite lookup_insert_ne; [done|]. intros <-. by rewrite Hf in Ha.
  - cbn. rewrite lookup_insert. cbn. by rewrite drop_0, firstn_all.
  - exists l. rewrite lookup_insert. split; [done|lia].
  - intros h0 H0. cbn. destruct (h0 !! fresh (dom h)) as [x|] eqn:Hx; [|done]. apply H0 in Hx. by rewrite Hf in Hx.
  - done.
Qed.
Lemma plain_spec h0 h s h' s' : (forall a x, h0 !! a = Some x -> h !! a = Some x) -> inside h0 s -> ClonePlain h s = (h', s') ->
  (forall a x, h !! a = Some x -> h' !! a = Some x) /\ shown h' s' = shown h0 s /\ inside h' s' /\ is_new h0 s'.
Proof.
  intros He Hs. destruct s as [x|]; cbn [ClonePlain]; [|intros [= <- <-]; done].
  intros Hc. destruct (make_copy_spec _ _ _ _ Hc) as (A & B & C & D & _). split; [done|]. split; [|split; [done|by apply D]].
  rewrite B. cbn [shown]. f_equal. by apply elems_mono.
Qed.
Lemma cells_spec h0 l : forall h h' l', (forall a x, h0 !! a = Some x -> h !! a = Some x) -> Forall (cell_inside h0) l ->
  copy_cells h l = (h', l') ->
  (forall a x, h !! a = Some x -> h' !! a = Some x) /\ map (cell_shown h') l' = map (cell_shown h0) l /\
  Forall (cell_inside h') l' /\ Forall (cell_new h0) l'.
Proof.
  induction l as [|[d|s] l IH]; intros h h' l' He Hl Hc; cbn [copy_cells] in Hc.
  - injection Hc as <- <-. done.
  - apply Forall_cons in Hl as [_ Hl]. destruct (copy_cells h l) as [h1 r] eqn:E1. injection Hc as <- <-.
    destruct (IH _ _ _ He Hl E1) as (A & B & C & D). split; [done|]. split; [cbn; by rewrite B|]. split; by constructor.
  - apply Forall_cons in Hl as [Hs Hl]. destruct (ClonePlain h s) as [h1 s'] eqn:E1. destruct (copy_cells h1 l) as [h2 r] eqn:E2.
    injection Hc as <- <-. destruct (plain_spec _ _ _ _ _ He Hs E1) as (A1 & B1 & C1 & D1).
    destruct (IH h1 h2 r) as (A2 & B2 & C2 & D2); [by auto|done|done|].
    split; [by auto|]. split; [|split; constructor; try done; by eapply inside_mono].
    cbn [map]. rewrite B2. f_equal. cbn. f_equal. rewrite <- B1. by apply shown_mono.
Qed.
Lemma slices_spec h0 h s h' s' : (forall a x, h0 !! a = Some x -> h !! a = Some x) -> inside h0 s -> Forall (cell_inside h0) (elems h0 s) ->
  CopyBytesSlice h s = (h', s') ->
  (forall a x, h !! a = Some x -> h' !! a = Some x) /\ shown2 h' s' = shown2 h0 s /\ inside h' s' /\ Forall (cell_inside h') (elems h' s') /\
  is_new h0 s' /\ Forall (cell_new h0) (elems h' s').
Proof.
  intros He Hs Hc. destruct s as [x|]; cbn [CopyBytesSlice]; [|intros [= <- <-]; split; [done|]; repeat split; constructor].
  destruct (copy_cells h (elems h (Some x))) as [h1 l] eqn:E1. intros E2.
  rewrite (elems_mono h0 h (Some x)) in E1 by done.
  destruct (cells_spec h0 _ _ _ _ He Hc E1) as (A1 & B1 & C1 & D1).
  destruct (make_copy_spec _ _ _ _ E2) as (A2 & B2 & C2 & D2 & Hn). destruct s' as [y|]; [|done].
  assert (B3 : elems h' (Some y) = l) by (by injection B2). clear B2. rename B3 into B2. split; [by auto|]. split; [|split; [done|split; [|split]]].
  - cbn [shown2]. f_equal. rewrite B2, <- B1. apply map_ext_in. intros c Hin. apply elem_of_list_In in Hin.
    rewrite Forall_forall in C1. specialize (C1 c Hin). destruct c; [done|]. cbn. f_equal. by apply shown_mono.
  - rewrite B2. eapply Forall_impl; [exact C1|]. intros [d|s]; [done|]. cbn. intros Hi. by eapply inside_mono.
  - apply D2. auto.
  - by rewrite B2.
Qed.

(* ------------------------------------------------------------------ theorems *)
(** A clone shows what the original shows, the original still shows it, and neither shows
    a change made through the other: whatever is written to the arrays that existed before
    is not seen through the clone, and whatever is written to arrays made since then is not
    seen through the original. *)
Theorem C98_clone : forall h c h' c', valid h c -> Clone h c = (h', c') ->
  view h' c' = view h c /\ view h' c = view h c /\
  (forall later : heap, (forall a, a ∉ dom h -> later !! a = h' !! a) -> view later c' = view h c) /\
  (forall later : heap, (forall a, a ∈ dom h -> later !! a = h' !! a) -> view later c = view h c).
Proof.
  intros h [c|] h' c' Hv Hc; [|cbn in Hc; by simplify_eq]. cbn [valid] in Hv.
  destruct Hv as (V1 & V2 & V3 & V4 & V5 & V6 & V7 & V8). unfold Clone in Hc.
  destruct (ClonePlain h (ci_boot c)) as [h1 s1] eqn:E1.
  destruct (CopyBytesSlice h1 (ci_admins c)) as [h2 s2] eqn:E2.
  destruct (ClonePlain h2 (ci_comm c)) as [h3 s3] eqn:E3.
  destruct (ClonePlain h3 (ci_gdatas c)) as [h4 s4] eqn:E4.
  destruct (ClonePlain h4 (ci_datas c)) as [h5 s5] eqn:E5.
  destruct (ClonePlain h5 (ci_attrs c)) as [h6 s6] eqn:E6.
  destruct (ClonePlain h6 (ci_auditors c)) as [h7 s7] eqn:E7. injection Hc as <- <-.
  assert (M0 : forall a x, h !! a = Some x -> h !! a = Some x) by done.
  destruct (plain_spec _ _ _ _ _ M0 V4 E1) as (M1 & B1 & C1 & D1).
  assert (N1 : forall a x, h !! a = Some x -> h1 !! a = Some x) by auto.
  destruct (slices_spec _ _ _ _ _ N1 V1 V2 E2) as (M2 & B2 & C2 & G2 & D2 & F2).
  assert (N2 : forall a x, h !! a = Some x -> h2 !! a = Some x) by auto.
  destruct (plain_spec _ _ _ _ _ N2 V3 E3) as (M3 & B3 & C3 & D3).
  assert (N3 : forall a x, h !! a = Some x -> h3 !! a = Some x) by auto.
  destruct (plain_spec _ _ _ _ _ N3 V5 E4) as (M4 & B4 & C4 & D4).
  assert (N4 : forall a x, h !! a = Some x -> h4 !! a = Some x) by auto.
  destruct (plain_spec _ _ _ _ _ N4 V6 E5) as (M5 & B5 & C5 & D5).
  assert (N5 : forall a x, h !! a = Some x -> h5 !! a = Some x) by auto.
  destruct (plain_spec _ _ _ _ _ N5 V7 E6) as (M6 & B6 & C6 & D6).
  assert (N6 : forall a x, h !! a = Some x -> h6 !! a = Some x) by auto.
  destruct (plain_spec _ _ _ _ _ N6 V8 E7) as (M7 & B7 & C7 & D7).
  assert (N7 : forall a x, h !! a = Some x -> h7 !! a = Some x) by auto.
  assert (P6 : forall a x, h6 !! a = Some x -> h7 !! a = Some x) by auto.
  assert (P5 : forall a x, h5 !! a = Some x -> h7 !! a = Some x) by auto.
  assert (P4 : forall a x, h4 !! a = Some x -> h7 !! a = Some x) by auto.
  assert (P3 : forall a x, h3 !! a = Some x -> h7 !! a = Some x) by auto.
  assert (P2 : forall a x, h2 !! a = Some x -> h7 !! a = Some x) by auto.
  assert (P1 : forall a x, h1 !! a = Some x -> h7 !! a = Some x) by auto.
  assert (Same : view h7 (Some (Infos (ci_fixed c) s2 s3 s1 s4 s5 s6 s7)) = view h (Some c)).
  { cbn [view ci_fixed ci_admins ci_comm ci_boot ci_gdatas ci_datas ci_attrs ci_auditors].
    rewrite (shown2_mono h2 h7), (shown_mono h3 h7), (shown_mono h1 h7), (shown_mono h4 h7), (shown_mono h5 h7), (shown_mono h6 h7) by done.
    by rewrite B1, B2, B3, B4, B5, B6, B7. }
  assert (Orig : forall later : heap, (forall a x, h !! a = Some x -> later !! a = Some x) -> view later (Some c) = view h (Some c)).
  { intros later Hl. cbn [view].
    rewrite (shown2_mono h later), (shown_mono h later (ci_comm c)), (shown_mono h later (ci_boot c)), (shown_mono h later (ci_gdatas c)),
      (shown_mono h later (ci_datas c)), (shown_mono h later (ci_attrs c)), (shown_mono h later (ci_auditors c)) by done. done. }
  split; [done|]. split; [by apply Orig|]. split.
  - intros later Hl. rewrite <- Same.
    assert (Hl' : forall a, h !! a = None -> later !! a = h7 !! a) by (intros a Ha; apply Hl; by apply not_elem_of_dom).
    cbn [view ci_fixed ci_admins ci_comm ci_boot ci_gdatas ci_datas ci_attrs ci_auditors].
    rewrite (shown_new h h7 later s1), (shown_new h h7 later s3), (shown_new h h7 later s4), (shown_new h h7 later s5),
      (shown_new h h7 later s6), (shown_new h h7 later s7) by done.
    assert (Hs2 : shown2 later s2 = shown2 h7 s2); [|by rewrite Hs2].
    destruct s2 as [x|]; [|done]. cbn [shown2]. rewrite (elems_new h h7 later (Some x)) by done. f_equal.
    rewrite (elems_mono h2 h7 (Some x)) by done.
    apply map_ext_in. intros e Hin. apply elem_of_list_In in Hin. rewrite Forall_forall in F2. specialize (F2 e Hin).
    destruct e as [d|s]; [done|]. cbn. f_equal. by apply (shown_new h h7 later s).
  - intros later Hl. apply Orig. intros a x Ha. rewrite Hl by (by apply elem_of_dom_2 in Ha). auto.
Qed.
Print Assumptions C98_clone.

(** A public key is an administrator's exactly if it is in the list, an address exactly if
    it belongs to an uncompressed key in the list. *)
Theorem C98_pub : forall admins pub, PubIsAdmin (Some admins) pub = true <-> pub ∈ admins /\ pub <> [].
Proof.
  intros admins pub. cbn [PubIsAdmin]. induction admins as [|p r IH]; cbn [pub_loop].
  - rewrite elem_of_nil. naive_solver.
  - rewrite elem_of_cons. destruct p as [|b p]; cbn [length Nat.eqb].
    + rewrite IH. split; [intros [? ?]; by split; [right|]|]. intros [[->|?] ?]; done.
    + case_bool_decide as Hp; [subst; split; [intros _; split; [by left|done]|done]|].
      rewrite IH. split; [intros [? ?]; by split; [right|]|]. intros [[->|?] ?]; done.
Qed.
Print Assumptions C98_pub.
Theorem C98_addr : forall H admins addr,
  AddrIsAdmin H (Some admins) addr = true <-> exists p, p ∈ admins /\ AddressFromPubSlice H p = Some addr.
Proof.
  intros H admins addr. cbn [AddrIsAdmin]. induction admins as [|p r IH]; cbn [addr_loop].
  - split; [done|]. intros (p & Hp & _). by apply elem_of_nil in Hp.
  - destruct (AddressFromPubSlice H p) as [a|] eqn:E; [case_bool_decide as Ha|].
    + subst. split; [|done]. intros _. exists p. split; [by left|done].
    + rewrite IH. split; [intros (q & Hq & ?); exists q; by split; [right|]|].
      intros (q & Hq & Hqa). apply elem_of_cons in Hq as [->|Hq]; [congruence|eauto].
    + rewrite IH. split; [intros (q & Hq & ?); exists q; by split; [right|]|].
      intros (q & Hq & Hqa). apply elem_of_cons in Hq as [->|Hq]; [congruence|eauto].
Qed.
Print Assumptions C98_addr.
(** The two agree on the keys that have an address, as long as no two addresses collide. *)
Theorem C98_agree : forall H admins pub addr,
  (forall x, fixed 32 (H x)) -> AddressFromPubSlice H pub = Some addr ->
  (PubIsAdmin (Some admins) pub = true -> AddrIsAdmin H (Some admins) addr = true) /\
  (inj_on (tail20 H) (map tail (pub :: admins)) -> AddrIsAdmin H (Some admins) addr = true -> PubIsAdmin (Some admins) pub = true).
Proof.
  intros H admins pub addr HL Hp. split.
  - intros [Hin _]%C98_pub. apply C98_addr. eauto.
  - intros Hinj (q & Hq & Hqa)%C98_addr. apply C98_pub.
    assert (pub = q) as ->; [|split; [done|intros ->; done]].
    destruct (C87_public_key H HL pub q) as (_ & _ & Hpq). apply Hpq; [|by rewrite Hp|congruence].
    assert (Hq' : tail q ∈ map tail (pub :: admins)) by (cbn [map]; right; apply elem_of_list_fmap; by exists q).
    assert (Hp' : tail pub ∈ map tail (pub :: admins)) by (cbn [map]; left).
    intros x y Hx Hy. apply Hinj.
    + apply elem_of_cons in Hx as [->|Hx]; [done|]. apply elem_of_list_singleton in Hx as ->. done.
    + apply elem_of_cons in Hy as [->|Hy]; [done|]. apply elem_of_list_singleton in Hy as ->. done.
Qed.
Print Assumptions C98_agree.
(** An administrator's key that does not begin with 4 (a compressed key, say) gives no
    address the rights of an administrator. *)
Theorem C98_other_keys : forall H admins addr, (forall x, fixed 32 (H x)) ->
  Forall (fun p => hd 0 p <> 4) admins -> AddrIsAdmin H (Some admins) addr = false.
Proof.
  intros H admins addr HL Hall. destruct (AddrIsAdmin H (Some admins) addr) eqn:E; [|done].
  apply C98_addr in E as (p & Hp & Ha). rewrite Forall_forall in Hall. specialize (Hall p Hp).
  apply (proj1 (C87_public_key H HL p p)) in Hall. congruence.
Qed.
Print Assumptions C98_other_keys.
(** No description, no administrators. *)
Theorem C98_nil : forall H pub addr, PubIsAdmin None pub = false /\ AddrIsAdmin H None addr = false.
Proof. done. Qed.
Print Assumptions C98_nil.

(* ------------------------------------------------------------------ examples *)
(** Two administrators, a committee and data nodes that share an array, an empty list of
    boot nodes, no auditors. *)
Definition ex_heap : heap :=
  list_to_map [(0%nat, [CRef (Some (1, 0, 2)%nat); CRef (Some (1, 1, 2)%nat); CRef None]); (1%nat, [CVal [4]; CVal [5]; CVal [6]]);
               (2%nat, [CVal [10; 1]; CVal [10; 2]; CVal [10; 3]]); (3%nat, [])].
Definition ex_infos : infos :=
  Infos [7] (Some (0, 0, 3)%nat) (Some (2, 0, 2)%nat) (Some (3, 0, 0)%nat) (Some (2, 1, 2)%nat) (Some (2, 1, 1)%nat) None None.
Example C98_ex_valid : valid ex_heap (Some ex_infos).
Proof.
  cbn [valid ex_infos ci_admins ci_comm ci_boot ci_gdatas ci_datas ci_attrs ci_auditors].
  assert (Hi : forall a o n l, ex_heap !! a = Some l -> (o + n <= length l)%nat -> inside ex_heap (Some (a, o, n))) by (intros a o n l ? ?; by exists l).
  split; [by eapply Hi; [vm_compute; reflexivity|cbn; lia]|]. split.
  { assert (elems ex_heap (Some (0, 0, 3)%nat) = [CRef (Some (1, 0, 2)%nat); CRef (Some (1, 1, 2)%nat); CRef None]) as -> by (vm_compute; reflexivity).
    repeat constructor; cbn [cell_inside]; eapply Hi; [vm_compute; reflexivity|cbn; lia|vm_compute; reflexivity|cbn; lia]. }
  split; [eapply Hi; [vm_compute; reflexivity|cbn; lia]|]. split; [eapply Hi; [vm_compute; reflexivity|cbn; lia]|].
  split; [eapply Hi; [vm_compute; reflexivity|cbn; lia]|]. split; [eapply Hi; [vm_compute; reflexivity|cbn; lia]|]. done.
Qed.
(** The view of a clone is not trivial, and an assignment of the description instead of a
    clone would not pass the theorem: a write through the shared array is seen. *)
Example C98_ex_view : view (fst (Clone ex_heap (Some ex_infos))) (snd (Clone ex_heap (Some ex_infos))) =
  Some ([7], Some [inr (Some [CVal [4]; CVal [5]]); inr (Some [CVal [5]; CVal [6]]); inr None], Some [CVal [10; 1]; CVal [10; 2]], Some [],
        Some [CVal [10; 2]; CVal [10; 3]], Some [CVal [10; 2]], None, None).
Proof. vm_compute. reflexivity. Qed.
Example C98_ex_shared : view (<[2%nat := [CVal [10; 1]; CVal [99]; CVal [10; 3]]]> ex_heap) (Some ex_infos) <> view ex_heap (Some ex_infos).
Proof. vm_compute. congruence. Qed.
Example C98_ex_admins :
  PubIsAdmin (Some [[]; [4; 1; 2]; [2; 1]]) [2; 1] = true /\ PubIsAdmin (Some [[]; [4; 1; 2]; [2; 1]]) [] = false /\
  PubIsAdmin (Some [[]; [4; 1; 2]; [2; 1]]) [4; 1] = false.
Proof. done. Qed.
Example C98_ex_agree :
  let admins := [[4; 9; 1]; [2; 1]; [4; 9; 3]] in
  (forall x, fixed 32 (toy_H x)) /\ inj_on (tail20 toy_H) (map tail ([4; 9; 3] :: admins)) /\
  AddressFromPubSlice toy_H [4; 9; 3] = Some (replicate 19 0 ++ [3]) /\
  AddrIsAdmin toy_H (Some admins) (replicate 19 0 ++ [3]) = true /\ AddrIsAdmin toy_H (Some admins) (replicate 19 0 ++ [7]) = false.
Proof.
  cbv zeta. split; [apply C87_create_example|]. split; [|repeat split; vm_compute; reflexivity].
  intros x y Hx Hy E. cbn [map tail] in Hx, Hy.
  repeat (apply elem_of_cons in Hx as [Hx|Hx]); try (by apply elem_of_nil in Hx);
    repeat (apply elem_of_cons in Hy as [Hy|Hy]); try (by apply elem_of_nil in Hy); subst; try done; exfalso; revert E; vm_compute; discriminate.
Qed.
