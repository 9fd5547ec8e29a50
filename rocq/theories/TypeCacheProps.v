(** C89: the cache of decoders and writers under concurrent use. *)
From Coq Require Import Lia.
From Verif Require Import TypeCacheSpec TypeCacheModel TypeCacheProofs.
From stdpp Require Import gmap.

(** Whatever n goroutines do in whatever order, and whichever generations panic on the way:
    a goroutine that has the entry of a supported type finds a finished function at the end
    of every way down through the parts of the type, with an entry for each part. So no
    function that is not made yet is ever called, recursive types included. *)
Theorem C89_complete :
  forall need n sch c i k l s, exec need (initial n) sch = Some c -> thr c !! i = Some (TDone k l) ->
    ~ unsupported need s k ->
    forall p k', type_at need s k p = Some k' ->
      exists l' e ks ls, follow (heap c) s l p = Some l' /\ heap c !! l' = Some e /\
        need s k' = Some ks /\ half_of s e = HFun ls /\ length ls = length ks.
Proof.
  intros need n sch c i k l s He Ht Hu p k' Hp. destruct (exec_ok need _ _ _ (J_initial need n) He) as [HJ _].
  destruct (follow_ok need (cur c) (heap c) s (J_cur _ _ HJ) p k l k') as (l' & Hf & Hm & Hu'); [|done|done|].
  { apply (J_done _ _ HJ i). by left. }
  destruct (J_cur _ _ HJ _ _ Hm) as (e & He' & H1 & H2).
  assert (okfn need (cur c) s k' (half_of s e)) as [[[_ ?]|(ks & ls & En & Eh & HF)] _] by (destruct s; done); [done|].
  exists l', e, ks, ls. split; [done|]. split; [done|]. split; [done|]. split; [done|]. symmetry. by eapply Forall2_length.
Qed.
Print Assumptions C89_complete.

(** A type is refused only if it is not supported; and an unsupported type is refused if no
    type is a part of itself in it. An entry is never handed out before both are decided. *)
Theorem C89_refused :
  forall need n sch c i k l s, exec need (initial n) sch = Some c -> thr c !! i = Some (TDone k l) ->
    exists e, heap c !! l = Some e /\ half_of s e <> HNil /\
      (half_of s e = HErr -> unsupported need s k) /\
      (unsupported need s k -> not_recursive need k -> half_of s e = HErr).
Proof.
  intros need n sch c i k l s He Ht. destruct (exec_ok need _ _ _ (J_initial need n) He) as [HJ _].
  assert (cur c !! k = Some l) as Hm by (apply (J_done _ _ HJ i); by left).
  destruct (J_cur _ _ HJ _ _ Hm) as (e & He' & H1 & H2). exists e. split; [done|].
  assert (okfn need (cur c) s k (half_of s e)) as [H Hc] by (destruct s; done).
  split; [|split; [|done]].
  - destruct H as [[-> _]|(ks & ls & _ & -> & _)]; done.
  - destruct H as [[_ H]|(ks & ls & _ & -> & _)]; done.
Qed.
Print Assumptions C89_refused.

(** Every goroutine gets the same entry of a type, at any time; and neither that entry nor
    any entry it leads to changes after it was handed out. *)
Theorem C89_frozen :
  forall need n sch c i k l sch' c', exec need (initial n) sch = Some c -> thr c !! i = Some (TDone k l) ->
    exec need c sch' = Some c' ->
    (forall j l', thr c' !! j = Some (TDone k l') -> l' = l) /\
    (forall s p l', follow (heap c) s l p = Some l' -> heap c' !! l' = heap c !! l').
Proof.
  intros need n sch c i k l sch' c' He Ht He'. destruct (exec_ok need _ _ _ (J_initial need n) He) as [HJ _].
  destruct (exec_ok need _ _ _ HJ He') as [HJ' Hg].
  assert (cur c !! k = Some l) as Hm by (apply (J_done _ _ HJ i); by left). split.
  - intros j l' Hj. destruct (Hg _ _ Hm) as [Hm' _].
    assert (cur c' !! k = Some l') by (apply (J_done _ _ HJ' j); by left). congruence.
  - intros s p l' Hf. destruct (follow_cur need (cur c) (heap c) s (J_cur _ _ HJ) p k l l' Hm Hf) as (k' & Hk').
    by destruct (Hg _ _ Hk').
Qed.
Print Assumptions C89_frozen.

(** At most one goroutine generates at a time. *)
Theorem C89_exclusive :
  forall need n sch c i j k l fs k' l' fs', exec need (initial n) sch = Some c ->
    thr c !! i = Some (TGen k l fs) -> thr c !! j = Some (TGen k' l' fs') -> i = j.
Proof.
  intros need n sch c i j k l fs k' l' fs' He Hi Hj. destruct (exec_ok need _ _ _ (J_initial need n) He) as [HJ _].
  pose proof (J_mu _ _ HJ i _ Hi eq_refl). pose proof (J_mu _ _ HJ j _ Hj eq_refl). congruence.
Qed.
Print Assumptions C89_exclusive.

(** No call is ever stuck: if every type has finitely many parts, a call that was begun can
    be finished, without a panic, by steps of its own goroutine and of the one that holds
    the mutex. A panic of an earlier generation does not change that. *)
Theorem C89_finishes :
  forall need n sch c i t k, exec need (initial n) sch = Some c ->
    (forall k0, exists U : list nat, forall k', rtc (part_of need) k' k0 -> k' ∈ U) ->
    thr c !! i = Some t -> asks t = Some k ->
    exists sch' c' l, exec need c sch' = Some c' /\ thr c' !! i = Some (TDone k l) /\
      Forall (fun x => snd x = LGo /\ (fst x = i \/ mu c = Some (fst x))) sch'.
Proof.
  intros need n sch c i t k He HU Ht Ha. destruct (exec_ok need _ _ _ (J_initial need n) He) as [HJ _]. clear He sch.
  assert (forall j s, goes j s -> (j = i \/ mu c = Some j) -> Forall (fun x => snd x = LGo /\ (fst x = i \/ mu c = Some (fst x))) s) as Hgo.
  { intros j s Hs Hj. eapply Forall_impl; [exact Hs|]. cbn. intros x ->. done. }
  (* a goroutine that waits for the mutex while nobody holds it *)
  assert (forall c1, J need c1 -> mu c1 = None -> thr c1 !! i = Some (TLock k) ->
            exists s c' l, goes i s /\ exec need c1 s = Some c' /\ thr c' !! i = Some (TDone k l)) as Hlock.
  { intros c1 HJ1 Hm1 Ht1. set (c2 := Conf (cur c1) (next c1) (heap c1) (Some i) (<[i := TCheck k]> (thr c1))).
    assert (step need c1 i LGo = Some c2) as Es by (unfold step; rewrite Ht1, Hm1; done).
    destruct (step_ok _ _ _ _ _ HJ1 Es) as [HJ2 _].
    assert (thr c2 !! i = Some (TCheck k)) as Ht2 by (cbn; rewrite list_lookup_insert; [done|by eapply lookup_lt_Some]).
    destruct (HU k) as [U HUk].
    destruct (holder_finishes need U c2 i _ k HUk HJ2 Ht2 eq_refl eq_refl) as (s & c' & l & Hs & Hx & Hd & _).
    exists ((i, LGo) :: s), c', l. split; [by constructor|]. cbn [exec]. by rewrite Es. }
  (* a goroutine that waits for the mutex *)
  assert (forall c1, J need c1 -> mu c1 = mu c -> thr c1 !! i = Some (TLock k) ->
            exists s c' l, exec need c1 s = Some c' /\ thr c' !! i = Some (TDone k l) /\
              Forall (fun x => snd x = LGo /\ (fst x = i \/ mu c = Some (fst x))) s) as Hwait.
  { intros c1 HJ1 Hm1 Ht1. destruct (mu c) as [j|] eqn:Em.
    - destruct (J_held _ _ HJ1 j Hm1) as (u & Hu & Hh).
      assert (exists k0, asks u = Some k0) as (k0 & Ha0) by (destruct u; try done; eauto).
      destruct (HU k0) as [U HUk]. destruct (holder_finishes need U c1 j u k0 HUk HJ1 Hu Hh Ha0) as (s & c2 & l & Hs & Hx & Hd & Hmn & Ho).
      assert (j <> i) as Nj by (intros ->; rewrite Ht1 in Hu; injection Hu as <-; done).
      destruct (exec_ok need _ _ _ HJ1 Hx) as [HJ2 _].
      destruct (Hlock c2 HJ2 Hmn) as (s' & c' & l' & Hs' & Hx' & Hd').
      { rewrite Ho by done. done. }
      exists (s ++ s'), c', l'. rewrite exec_app, Hx. split; [done|]. split; [done|]. apply Forall_app. split; eapply Hgo; eauto.
    - destruct (Hlock c1 HJ1 Hm1 Ht1) as (s & c' & l & Hs & Hx & Hd). exists s, c', l. split; [done|]. split; [done|]. eapply Hgo; eauto. }
  pose proof (lookup_lt_Some _ _ _ Ht) as Hlt.
  destruct t as [|k0|k0|k0|k0 l0 fs|k0 l0|k0 l0]; try done; injection Ha as ->.
  - destruct (cur c !! k) as [l|] eqn:E.
    + exists [(i, LGo)]. eexists _, l. cbn [exec]. unfold step. rewrite Ht, E. split; [done|]. cbn. rewrite list_lookup_insert by done.
      split; [done|]. constructor; [|constructor]. cbn. auto.
    + set (c1 := Conf (cur c) (next c) (heap c) (mu c) (<[i := TLock k]> (thr c))).
      assert (step need c i LGo = Some c1) as Es by (unfold step; rewrite Ht, E; done).
      destruct (step_ok _ _ _ _ _ HJ Es) as [HJ1 _].
      destruct (Hwait c1 HJ1 eq_refl) as (s & c' & l & Hx & Hd & Hs). { cbn. by rewrite list_lookup_insert. }
      exists ((i, LGo) :: s), c', l. cbn [exec]. rewrite Es. split; [done|]. split; [done|]. constructor; [cbn; auto|done].
  - by apply Hwait.
  - destruct (HU k) as [U HUk]. destruct (holder_finishes need U c i _ k HUk HJ Ht eq_refl eq_refl) as (s & c' & l & Hs & Hx & Hd & _).
    exists s, c', l. split; [done|]. split; [done|]. eapply Hgo; eauto.
  - destruct (HU k) as [U HUk]. destruct (holder_finishes need U c i _ k HUk HJ Ht eq_refl eq_refl) as (s & c' & l & Hs & Hx & Hd & _).
    exists s, c', l. split; [done|]. split; [done|]. eapply Hgo; eauto.
  - destruct (HU k) as [U HUk]. destruct (holder_finishes need U c i _ k HUk HJ Ht eq_refl eq_refl) as (s & c' & l & Hs & Hx & Hd & _).
    exists s, c', l. split; [done|]. split; [done|]. eapply Hgo; eauto.
  - exists [], c, l0. split; [done|]. split; [done|]. constructor.
Qed.
Print Assumptions C89_finishes.

(** Types for the examples: 0 is a struct T with the fields Next []T and C chan int, 1 is
    []T, 2 is chan int, 3 a struct U with the fields Next []U and N uint64, 4 is []U, 5 is
    uint64, 6 a struct with a uint64 and a chan int. *)
Definition ex_need (s : side) (k : nat) : option (list nat) :=
  match k with
  | 0 => Some [1; 2] | 1 => Some [0] | 2 => None
  | 3 => Some [4; 5] | 4 => Some [3] | 6 => Some [5; 2] | _ => Some []
  end.
Definition go (i n : nat) : list (nat * label) := replicate n (i, LGo).

(** Whether a recursive type that is not supported is refused depends on which type was
    used first in the process. A program that first uses []T gets an error. A program that
    first uses T gets an error for T, but then a decoder for []T: it calls the decoder of T
    for the first element, and that is nil. *)
Theorem C89_recursive_refuted :
  unsupported ex_need Dec 1 /\
  (exists sch c e, exec ex_need (initial 1) sch = Some c /\ thr c !! 0 = Some (TDone 1 0) /\
     heap c !! 0 = Some e /\ half_of Dec e = HErr) /\
  (exists sch c e e', exec ex_need (initial 1) sch = Some c /\ thr c !! 0 = Some (TDone 1 1) /\
     heap c !! 1 = Some e /\ half_of Dec e = HFun [0] /\ heap c !! 0 = Some e' /\ half_of Dec e' = HErr).
Proof.
  split; [|split].
  - eapply Uns_in; [reflexivity|apply elem_of_list_here|]. eapply Uns_in; [reflexivity|apply elem_of_list_further, elem_of_list_here|].
    by apply Uns_here.
  - exists ((0, LCall 1) :: go 0 17).
    eexists _, _. split; [vm_compute; reflexivity|]. repeat split.
  - eexists ((0, LCall 0) :: go 0 18 ++ [(0, LCall 1); (0, LGo)]), _, _, _.
    split; [vm_compute; reflexivity|]. repeat split.
Qed.
Print Assumptions C89_recursive_refuted.

(** The recursive but supported type U: goroutine 0 panics in the middle, goroutine 1 looks
    in the cache, 0 calls again and generates []U while 1 waits, and both end with entries
    that lead to each other. *)
Example C89_example :
  ~ unsupported ex_need Dec 3 /\ ~ unsupported ex_need Wri 3 /\
  exists sch c l4 l3, exec ex_need (initial 2) sch = Some c /\
    thr c = [TDone 4 l4; TDone 3 l3] /\
    type_at ex_need Dec 3 [0; 0; 1] = Some 5 /\
    follow (heap c) Dec l3 [0] = Some l4 /\ follow (heap c) Dec l3 [0; 0] = Some l3.
Proof.
  assert (forall s k, unsupported ex_need s k -> k <= 2 \/ k = 6) as H.
  { intros s k Hu. induction Hu as [k E|k ks k' E Hin _ IH].
    - destruct k as [|[|[|[|[|[|[|k]]]]]]]; cbn in E; try done; lia.
    - destruct k as [|[|[|[|[|[|[|k]]]]]]]; cbn in E; try lia; injection E as <-;
      repeat (apply elem_of_cons in Hin as [E|Hin]; [subst; lia|]); by apply elem_of_nil in Hin. }
  split; [intros Hu; apply H in Hu; lia|]. split; [intros Hu; apply H in Hu; lia|].
  exists ((0, LCall 4) :: go 0 6 ++ [(0, LPanic); (1, LCall 3); (1, LGo); (0, LCall 4)] ++ go 0 17 ++ go 1 3).
  eexists _, _, _. split; [vm_compute; reflexivity|]. split; [cbn; reflexivity|]. repeat split.
Qed.

(** The hypotheses of [C89_refused] and of [C89_finishes]. *)
Example C89_hypotheses :
  not_recursive ex_need 6 /\ unsupported ex_need Wri 6 /\
  (forall k0, exists U : list nat, forall k', rtc (part_of ex_need) k' k0 -> k' ∈ U).
Proof.
  assert (forall k k', part_of ex_need k' k -> k' <= 5) as Hp.
  { intros k k' (s & ks & E & Hin). destruct k as [|[|[|[|[|[|[|k]]]]]]]; cbn in E; try done; injection E as <-;
      repeat (apply elem_of_cons in Hin as [E|Hin]; [subst; lia|]); by apply elem_of_nil in Hin. }
  split; [|split].
  - assert (not_recursive ex_need 2) as H2 by (constructor; intros k' (s & ks & E & Hin); done).
    assert (not_recursive ex_need 5) as H5 by (constructor; intros k' (s & ks & E & Hin); injection E as <-; by apply elem_of_nil in Hin).
    constructor. intros k' (s & ks & E & Hin). injection E as <-.
    apply elem_of_cons in Hin as [E|Hin]; [by subst|]. apply elem_of_list_singleton in Hin as E. by subst.
  - eapply Uns_in; [reflexivity|apply elem_of_list_further, elem_of_list_here|]. by apply Uns_here.
  - intros k0. exists (k0 :: seq 0 6). intros k' H. destruct H as [|a b c Hab Hr]; [apply elem_of_list_here|].
    apply elem_of_list_further, elem_of_seq. apply Hp in Hab. lia.
Qed.
