(** Proofs about the incremental encoder and its pool. *)
From Coq Require Import NArith Lia.
From Verif Require Import RlpProofs RlpRawProofs RlpTypeProofs.
From Verif Require Export EncBufSpec.
From stdpp Require Import gmap.
Local Open Scope N_scope.

(* ------------------------------------------------------------------ *)
(** ** Bytes *)

Section doc_ind.
  Context (P : doc -> Prop).
  Context (HB : forall bs, P (DBytes bs)) (HU : forall n, P (DUint n)) (HZ : forall z, P (DBig z))
          (H2 : forall n, P (DU256 n)) (Hb : forall b, P (DBool b)) (HR : forall bs, P (DRaw bs))
          (HL : forall ds, Forall P ds -> P (DList ds)).
  Fixpoint doc_ind' (d : doc) : P d :=
    match d with
    | DBytes bs => HB bs | DUint n => HU n | DBig z => HZ z | DU256 n => H2 n | DBool b => Hb b | DRaw bs => HR bs
    | DList ds => HL ds ((fix go (l : list doc) : Forall P l :=
                            match l with [] => Forall_nil_2 P | d :: r => Forall_cons_2 P d r (doc_ind' d) (go r) end) ds)
    end.
End doc_ind.

Lemma write_doc_list ds b : write_doc (DList ds) b = let '(b1, idx) := eb_list b in eb_listEnd (write_docs ds b1) idx.
Proof.
  cbn [write_doc eb_list]. match goal with |- eb_listEnd ?x ?i = eb_listEnd ?y ?i => enough (x = y) as H by (by rewrite H) end. generalize (EncBuf (eb_str b) (eb_heads b ++ [(lenN (eb_str b), eb_lhsize b)]) (eb_lhsize b)).
  induction ds as [|d ds IH]; intros b0; cbn; [done|]. apply IH.
Qed.
Lemma enc_doc_list ds : enc_doc (DList ds) = rlp_head 0xC0 0xF7 (lenN (enc_docs ds)) ++ enc_docs ds.
Proof.
  cbn [enc_doc]. assert (forall l, (fix cat (l : list doc) : list N := match l with [] => [] | d :: l' => enc_doc d ++ cat l' end) l = enc_docs l) as E.
  { induction l as [|d l IH]; cbn; [done|]. by rewrite IH. }
  by rewrite E.
Qed.
Lemma doc_ok_list ds : doc_ok (DList ds) <-> Forall doc_ok ds.
Proof.
  cbn [doc_ok]. induction ds as [|d ds IH]; [done|]. rewrite Forall_cons, <- IH. done.
Qed.

Lemma write_docs_writes_aux ds :
  Forall (fun d => forall b, doc_ok d -> lenN (enc_doc d) < two64 -> writes b (write_doc d b) (enc_doc d)) ds ->
  forall b, Forall doc_ok ds -> lenN (enc_docs ds) < two64 -> writes b (write_docs ds b) (enc_docs ds).
Proof.
  induction ds as [|d ds IH]; intros HF b Hok Hl; cbn [write_docs enc_docs] in *.
  - exists [], []. rewrite !app_nil_r. repeat split; try done; try lia.
  - rewrite lenN_app in Hl. eapply writes_trans; [apply (Forall_inv HF); [by apply (Forall_inv Hok)|lia]|].
    apply IH; [apply (Forall_inv_tail HF)|apply (Forall_inv_tail Hok)|lia].
Qed.

Lemma write_doc_writes d : forall b, doc_ok d -> lenN (enc_doc d) < two64 -> writes b (write_doc d b) (enc_doc d).
Proof.
  induction d as [bs|n|z|n|x|bs|ds IH] using doc_ind'; intros b Hok Hl.
  - apply (write_item_writes (Str bs)). done.
  - apply writeUint64_spec. done.
  - apply writeBigInt_spec. cbn [enc_doc] in Hl. unfold rlp_nat in Hl. cbn [rlp] in Hl.
    destruct (be_bytes (Z.abs_N z)) as [|x [|y r]]; [done|done|]. rewrite lenN_app in Hl. lia.
  - apply writeUint256_spec. done.
  - destruct x; apply (writes_append b).
  - apply writes_append.
  - rewrite write_doc_list. cbn [eb_list]. rewrite enc_doc_list in *. rewrite lenN_app in Hl.
    eapply writes_list; [reflexivity| |lia]. apply doc_ok_list in Hok.
    apply write_docs_writes_aux; [exact IH|done|lia].
Qed.
Lemma write_docs_writes ds b : Forall doc_ok ds -> lenN (enc_docs ds) < two64 -> writes b (write_docs ds b) (enc_docs ds).
Proof. apply write_docs_writes_aux. apply Forall_true. intros d. apply write_doc_writes. Qed.

(** writeTo gives copy_out, up to where the destination fails. *)
Lemma sink_spec room p :
  let '(w, r, ok) := sink room p in
  match room with
  | None => w = p /\ r = None /\ ok = true
  | Some n => w = take (N.to_nat n) p /\ (ok = true -> lenN p <= n /\ r = Some (n - lenN p)) /\ (ok = false -> n < lenN p)
  end.
Proof.
  unfold sink. destruct room as [n|]; [|done]. destruct (N.leb_spec (lenN p) n).
  - split; [rewrite take_ge; [done|]; unfold lenN in *; lia|]. done.
  - split; [done|]. split; [done|]. done.
Qed.

Definition cut (room : option N) (p : list N) : list N := match room with None => p | Some n => take (N.to_nat n) p end.
Definition fits (room : option N) (p : list N) : bool := match room with None => true | Some n => lenN p <=? n end.

Lemma sink_cut room p : sink room p = (cut room p, match room with None => None | Some n => if lenN p <=? n then Some (n - lenN p) else Some 0 end, fits room p).
Proof.
  unfold sink, cut, fits. destruct room as [n|]; [|done]. destruct (N.leb_spec (lenN p) n); [|done].
  rewrite take_ge; [done|]. unfold lenN in *. lia.
Qed.

Lemma cut_app room p q :
  cut room (p ++ q) = if fits room p then p ++ cut (match room with None => None | Some n => Some (n - lenN p) end) q else cut room p.
Proof.
  unfold cut, fits. destruct room as [n|]; [|done]. destruct (N.leb_spec (lenN p) n).
  - rewrite take_app_ge by (unfold lenN in *; lia). do 2 f_equal. unfold lenN. lia.
  - rewrite take_app_le by (unfold lenN in *; lia). done.
Qed.
Lemma fits_app room p q :
  fits room (p ++ q) = if fits room p then fits (match room with None => None | Some n => Some (n - lenN p) end) q else false.
Proof.
  unfold fits. destruct room as [n|]; [|done]. rewrite lenN_app. destruct (N.leb_spec (lenN p) n); destruct (N.leb_spec (lenN p + lenN q) n); try lia;
  destruct (N.leb_spec (lenN q) (n - lenN p)); try lia; done.
Qed.
Lemma cut_fits room p : fits room p = true -> cut room p = p.
Proof. unfold fits, cut. destruct room as [n|]; [|done]. intros H%N.leb_le. apply take_ge. unfold lenN in *. lia. Qed.

Lemma writeTo_loop_spec str heads : forall strpos room, heads_ok strpos (lenN str) heads ->
  writeTo_loop str strpos heads room = (cut room (copy_out str strpos heads), fits room (copy_out str strpos heads)).
Proof.
  induction heads as [|[off sz] hs IH]; intros strpos room Hok; cbn [writeTo_loop copy_out heads_ok] in *.
  - destruct (N.ltb_spec strpos (lenN str)).
    + rewrite sink_cut. done.
    + assert (drop (N.to_nat strpos) str = []) as -> by (apply drop_ge; unfold lenN in *; lia).
      unfold cut, fits. destruct room; [|done]. rewrite take_nil. f_equal. symmetry. apply N.leb_le. rewrite lenN_nil. lia.
  - destruct Hok as [Hle Hok]. pose proof (heads_ok_le _ _ _ Hok) as Hoff.
    set (p := take (N.to_nat (off - strpos)) (drop (N.to_nat strpos) str)).
    assert (lenN p = off - strpos) as Hp.
    { unfold p, lenN. rewrite take_length, drop_length. unfold lenN in *. lia. }
    assert (strpos + N.min (off - strpos) (lenN (drop (N.to_nat strpos) str)) = off) as Hpos.
    { unfold lenN. rewrite drop_length. unfold lenN in *. lia. }
    rewrite Hpos. rewrite cut_app, fits_app.
    destruct (N.ltb_spec 0 (off - strpos)).
    + rewrite sink_cut. destruct (fits room p) eqn:Ef; cbn [negb]; [|done].
      rewrite (cut_fits _ _ Ef). rewrite Hp. replace (strpos + (off - strpos)) with off by lia.
      assert (match room with None => None | Some n => if off - strpos <=? n then Some (n - (off - strpos)) else Some 0 end
              = match room with None => None | Some n => Some (n - (off - strpos)) end) as ->.
      { unfold fits in Ef. rewrite Hp in Ef. destruct room; [|done]. by rewrite Ef. }
      rewrite sink_cut. set (room1 := match room with None => None | Some n => Some (n - (off - strpos)) end).
      rewrite cut_app, fits_app. destruct (fits room1 (puthead 0xC0 0xF7 sz)) eqn:Ef1; cbn [negb]; [|done].
      rewrite (cut_fits _ _ Ef1). rewrite IH by done.
      assert (match room1 with None => None | Some n => if lenN (puthead 0xC0 0xF7 sz) <=? n then Some (n - lenN (puthead 0xC0 0xF7 sz)) else Some 0 end
              = match room1 with None => None | Some n => Some (n - lenN (puthead 0xC0 0xF7 sz)) end) as ->; [|done].
      unfold fits in Ef1. destruct room1; [|done]. by rewrite Ef1.
    + assert (off = strpos) as -> by lia. assert (p = []) as Ep by (destruct p; [done|rewrite lenN_cons in Hp; lia]).
      rewrite Ep. cbn [negb]. assert (fits room [] = true) as -> by (unfold fits; destruct room; [apply N.leb_le; rewrite lenN_nil; lia|done]).
      assert (match room with None => None | Some n => Some (n - lenN (@nil N)) end = room) as ->.
      { destruct room; [|done]. f_equal. rewrite lenN_nil. lia. }
      cbn [app]. rewrite sink_cut, cut_app, fits_app. destruct (fits room (puthead 0xC0 0xF7 sz)) eqn:Ef1; cbn [negb]; [|done].
      rewrite (cut_fits _ _ Ef1). rewrite IH by done.
      assert (match room with None => None | Some n => if lenN (puthead 0xC0 0xF7 sz) <=? n then Some (n - lenN (puthead 0xC0 0xF7 sz)) else Some 0 end
              = match room with None => None | Some n => Some (n - lenN (puthead 0xC0 0xF7 sz)) end) as ->; [|done].
      unfold fits in Ef1. destruct room; [|done]. by rewrite Ef1.
Qed.

Lemma writeTo_spec b out room : writes eb_empty b out -> writeTo b room = (cut room out, fits room out).
Proof.
  intros (s & hs & Hs & Hh & Hl & Hok & Ho). cbn [eb_empty eb_str eb_heads eb_lhsize app] in *.
  assert (shift_heads (lenN (@nil N)) hs = hs) as Hsh.
  { rewrite lenN_nil. unfold shift_heads. rewrite <- (map_id hs) at 2. apply map_ext. intros [? ?]; done. }
  rewrite Hsh in Hh. unfold writeTo. rewrite Hs, Hh. rewrite writeTo_loop_spec by done. by rewrite Ho.
Qed.

(* ------------------------------------------------------------------ *)
(** ** The pool *)
Local Open Scope nat_scope.

Definition brel (ph : gmap nat nat) (pa : list nat) (oa og : option nat) : Prop :=
  match oa, og with
  | None, None => True
  | Some a, Some g => a ∈ pa \/ ph !! a = Some g
  | _, _ => False
  end.
Definition vrel (ph : gmap nat nat) (pa : list nat) (wa w : ebuf) : Prop :=
  e_dst wa = e_dst w /\ e_own wa = e_own w /\ brel ph pa (e_buf wa) (e_buf w).
Definition rrel (ph : gmap nat nat) (pa : list nat) (da d : rdr) : Prop :=
  d_lhpos da = d_lhpos d /\ d_strpos da = d_strpos d /\ d_piece da = d_piece d /\ brel ph pa (d_buf da) (d_buf d).

(** Goroutine in company ([m], [l]) and alone ([a], [la]). *)
Definition T (m a : mem) (ph : gmap nat nat) : Prop :=
  forall x g, ph !! x = Some g ->
    x < nextid a /\ x ∉ pool a /\ g < nextid m /\ g ∉ pool m /\ exists b, bufs a !! x = Some b /\ bufs m !! g = Some b.
Definition locrel (ph : gmap nat nat) (pa : list nat) (la l : loc) : Prop :=
  Forall2 (vrel ph pa) (vars la) (vars l) /\ Forall2 (rrel ph pa) (rdrs la) (rdrs l).
Definition linj (ph : gmap nat nat) : Prop := forall x y g, ph !! x = Some g -> ph !! y = Some g -> x = y.
Definition pool_ok (m : mem) : Prop := NoDup (pool m) /\ forall g, g ∈ pool m -> g < nextid m.
Definition pool_a (a : mem) : Prop := forall x, x ∈ pool a -> x < nextid a.

Record F (m m' : mem) (ph ph' : gmap nat nat) : Prop := {
  F_pool : forall g, g ∈ pool m' -> g ∈ pool m \/ exists x, ph !! x = Some g;
  F_ok : pool_ok m';
  F_fresh : nextid m <= nextid m';
  F_bufs : forall g, g < nextid m -> g ∉ pool m -> (forall x, ph !! x <> Some g) -> bufs m' !! g = bufs m !! g;
  F_ph : forall x g, ph' !! x = Some g -> ph !! x = Some g \/ g ∈ pool m \/ nextid m <= g;
  F_inj : linj ph';
}.

Lemma brel_mono ph ph' pa pa' oa og :
  (forall x g, x ∈ pa \/ ph !! x = Some g -> x ∈ pa' \/ ph' !! x = Some g) -> brel ph pa oa og -> brel ph' pa' oa og.
Proof. intros H. destruct oa, og; cbn; eauto. Qed.
Lemma locrel_mono ph ph' pa pa' la l :
  (forall x g, x ∈ pa \/ ph !! x = Some g -> x ∈ pa' \/ ph' !! x = Some g) -> locrel ph pa la l -> locrel ph' pa' la l.
Proof.
  intros H [H1 H2]. split.
  - eapply Forall2_impl; [exact H1|]. intros u v (? & ? & ?). split; [done|]. split; [done|]. by eapply brel_mono.
  - eapply Forall2_impl; [exact H2|]. intros u v (? & ? & ? & ?). do 3 (split; [done|]). by eapply brel_mono.
Qed.

Lemma F_refl m ph : pool_ok m -> linj ph -> F m m ph ph.
Proof. intros H1 H2. constructor; auto. Qed.

(** Three primitives. *)
Lemma prim_set m a ph x g b :
  T m a ph -> pool_ok m -> linj ph -> ph !! x = Some g ->
  T (set_buf m g b) (set_buf a x b) ph /\ F m (set_buf m g b) ph ph.
Proof.
  intros HT Hp Hi Hx. split.
  - intros y g' Hy. destruct (HT _ _ Hy) as (A & B & C & D & b' & E1 & E2). cbn.
    do 4 (split; [done|]). destruct (decide (y = x)) as [->|N].
    + assert (g' = g) as -> by congruence. exists b. by rewrite !lookup_insert.
    + exists b'. rewrite lookup_insert_ne by done. rewrite lookup_insert_ne; [done|]. intros ->. apply N. by eapply Hi.
  - constructor; cbn; auto. intros g' _ _ Hn. rewrite lookup_insert_ne; [done|]. intros <-. by eapply Hn.
Qed.

Lemma remove_one_in g y l : y ∈ remove_one g l -> y ∈ l.
Proof.
  induction l as [|x l IH]; cbn; [done|]. destruct (decide (x = g)) as [->|N]; intros H; [by apply elem_of_list_further|].
  apply elem_of_cons in H as [->|H]; [apply elem_of_list_here|]. apply elem_of_list_further. auto.
Qed.
Lemma remove_one_nodup g l : NoDup l -> NoDup (remove_one g l) /\ g ∉ remove_one g l.
Proof.
  induction l as [|x l IH]; cbn; intros H; [split; [constructor|apply not_elem_of_nil]|].
  apply NoDup_cons in H as [H1 H2]. destruct (decide (x = g)) as [->|N]; [done|]. destruct (IH H2) as [I1 I2]. split.
  - apply NoDup_cons. split; [|done]. intros Hin. apply H1. by eapply remove_one_in.
  - apply not_elem_of_cons. done.
Qed.

Lemma prim_get m a ph ch m1 g b :
  T m a ph -> pool_ok m -> pool_a a -> linj ph -> pool_get m ch = Some (m1, g) ->
  exists a1, pool_get a None = Some (a1, nextid a) /\ pool a1 = pool a /\ nextid a1 = S (nextid a) /\
    T (set_buf m1 g b) (set_buf a1 (nextid a) b) (<[nextid a := g]> ph) /\ F m (set_buf m1 g b) ph (<[nextid a := g]> ph) /\
    ph !! nextid a = None.
Proof.
  intros HT [Hn Hb] Hpa Hi Hg. eexists. split; [reflexivity|]. split; [done|]. split; [done|].
  assert (ph !! nextid a = None) as Hnone.
  { destruct (ph !! nextid a) eqn:E; [|done]. destruct (HT _ _ E) as (A & _). lia. }
  assert (g ∉ pool m1 /\ g < nextid m1 /\ nextid m <= nextid m1 /\ NoDup (pool m1) /\ (forall y, y ∈ pool m1 -> y ∈ pool m) /\
          (g ∈ pool m \/ nextid m <= g) /\ (forall y, y <> g -> bufs m1 !! y = bufs m !! y)) as (P1 & P2 & P3 & P4 & P5 & P6 & P7).
  { unfold pool_get in Hg. destruct ch as [g0|].
    - destruct (decide (g0 ∈ pool m)) as [Hin|]; [|done]. injection Hg as <- <-. cbn.
      destruct (remove_one_nodup g0 (pool m) Hn) as [R1 R2]. split; [done|]. split; [by apply Hb|]. split; [done|].
      split; [done|]. split; [intros y; apply remove_one_in|]. split; [by left|]. done.
    - injection Hg as <- <-. cbn. split; [intros H; apply Hb in H; lia|]. split; [lia|]. split; [lia|]. split; [done|]. split; [done|].
      split; [by right|]. intros y N. by rewrite lookup_insert_ne. }
  assert (forall x g', ph !! x = Some g' -> g' <> g) as Hgn.
  { intros x g' E ->. destruct (HT _ _ E) as (_ & _ & C & D & _). destruct P6; [done|lia]. }
  split; [|split; [|done]].
  - intros x g'. rewrite lookup_insert_Some. intros [[<- <-]|[N E]]; cbn.
    + split; [lia|]. split; [intros H; apply Hpa in H; lia|]. split; [done|]. split; [done|]. exists b. by rewrite !lookup_insert.
    + destruct (HT _ _ E) as (A & B & C & D & b' & E1 & E2). split; [lia|]. split; [done|]. split; [lia|]. split; [by intros H%P5|].
      exists b'. rewrite !lookup_insert_ne by (done || lia). split; [done|]. pose proof (Hgn _ _ E).
      rewrite lookup_insert_ne by done. rewrite P7 by done. done.
  - constructor; cbn.
    + intros y Hy. left. by apply P5.
    + split; [done|]. intros y Hy. apply P5, Hb in Hy. cbn. lia.
    + done.
    + intros y Hy1 Hy2 _. assert (y <> g) by (intros ->; destruct P6; [done|lia]). rewrite lookup_insert_ne by done. by apply P7.
    + intros x g'. rewrite lookup_insert_Some. intros [[<- <-]|[N E]]; [by right|by left].
    + intros x y g'. rewrite !lookup_insert_Some. intros [[<- <-]|[N E]] [[<- E']|[N' E']]; [done| | |by eapply Hi].
      * by destruct (Hgn _ _ E').
      * subst. by destruct (Hgn _ _ E).
Qed.

Lemma prim_put m a ph x g :
  T m a ph -> pool_ok m -> pool_a a -> linj ph -> ph !! x = Some g ->
  T (pool_put m g) (pool_put a x) (delete x ph) /\ F m (pool_put m g) ph (delete x ph) /\ pool_a (pool_put a x).
Proof.
  intros HT [Hn Hb] Hpa Hi Hx. destruct (HT _ _ Hx) as (A & B & C & D & _). split; [|split].
  - intros y g'. rewrite lookup_delete_Some. intros [N E]. destruct (HT _ _ E) as (A' & B' & C' & D' & E'). cbn.
    split; [done|]. split; [apply not_elem_of_cons; done|]. split; [done|]. split; [|done].
    apply not_elem_of_cons. split; [|done]. intros ->. apply N. by eapply Hi.
  - constructor; cbn; auto.
    + intros y [->|Hy]%elem_of_cons; eauto.
    + split; [by apply NoDup_cons|]. intros y [->|Hy]%elem_of_cons; cbn; auto.
    + intros y g'. rewrite lookup_delete_Some. intros [N E]. by left.
    + intros y z g'. rewrite !lookup_delete_Some. intros [? ?] [? ?]. by eapply Hi.
  - intros y [->|Hy]%elem_of_cons; cbn; [done|]. by apply Hpa.
Qed.

Lemma legal_live ph pa a og oa : brel ph pa oa og -> (forall x, x ∈ option_list oa -> x ∉ pa) -> oa = Some a -> exists g, og = Some g /\ ph !! a = Some g.
Proof.
  intros H Hl ->. destruct og as [g|]; [|done]. exists g. split; [done|]. destruct H as [H|H]; [|done]. exfalso. apply (Hl a); [|done]. apply elem_of_list_here.
Qed.

Definition dst_of (ow : option nat) : dst := match ow with None => DstDead | Some _ => DstNil end.

Lemma Forall2_snoc {A B} (P : A -> B -> Prop) l l' x y : Forall2 P l l' -> P x y -> Forall2 P (l ++ [x]) (l' ++ [y]).
Proof. intros H1 H2. apply Forall2_app; [done|]. by constructor. Qed.

(** One operation, in company and alone. *)
Lemma reset_buf_eq b : reset_buf b = eb_empty.
Proof. done. Qed.

Lemma step_sim m a l la ph o ch m' l' x os a' la' os' :
  T m a ph -> pool_ok m -> pool_a a -> linj ph -> locrel ph (pool a) la l ->
  step_op m l o ch = Some (m', l', x) -> alone_step (a, la, os) o = Some (a', la', os') ->
  exists ph', os' = os ++ [x] /\ T m' a' ph' /\ pool_a a' /\ locrel ph' (pool a') la' l' /\ F m m' ph ph'.
Proof.
  intros HT Hp Hpa Hi [HV HR]. unfold alone_step.
  destruct (existsb (fun g => bool_decide (g ∈ pool a)) (touches la o)) eqn:Etouch; [done|].
  assert (forall y, y ∈ touches la o -> y ∉ pool a) as Hlegal.
  { intros y Hy Hin. assert (existsb (fun g => bool_decide (g ∈ pool a)) (touches la o) = true) as E.
    { apply existsb_exists. exists y. split; [by apply elem_of_list_In|]. by apply bool_decide_eq_true. }
    congruence. }
  clear Etouch.
  (* Reset of a variable *)
  assert (forall wa w d, vrel ph (pool a) wa w -> (e_own wa = true -> forall y, y ∈ option_list (e_buf wa) -> y ∉ pool a) ->
            forall r, reset_var m l w d ch = Some r ->
            exists ra ph', reset_var a la wa d None = Some ra /\ snd ra = snd r /\
              T (fst (fst r)) (fst (fst ra)) ph' /\ pool_a (fst (fst ra)) /\ F m (fst (fst r)) ph ph' /\
              vrel ph' (pool (fst (fst ra))) (snd (fst ra)) (snd (fst r)) /\
              (forall u g, u ∈ pool a \/ ph !! u = Some g -> u ∈ pool (fst (fst ra)) \/ ph' !! u = Some g)) as Hreset.
  { intros wa w d (V1 & V2 & V3) Hown r Hr. unfold reset_var in *.
    assert (forall oo dd, outer_of l d = Some (oo, dd) -> exists oa, outer_of la d = Some (oa, dd) /\ brel ph (pool a) oa oo) as Hout.
    { intros oo dd. destruct d as [| |j]; cbn; [intros [= <- <-]; by exists None|intros [= <- <-]; by exists None|].
      destruct (vars l !! j) as [wj|] eqn:Ej; [|done]. intros [= <- <-].
      destruct (Forall2_lookup_r _ _ _ _ _ HV Ej) as (waj & -> & (_ & _ & B)). exists (e_buf waj). split; [|done].
      destruct (e_buf waj), (e_buf wj); done. }
    destruct (e_buf w) as [g|] eqn:Ew.
    - destruct (e_buf wa) as [xa|] eqn:Ewa; [|done]. rewrite V2. destruct (e_own w) eqn:Eo.
      + destruct (outer_of l d) as [[[g'|] dd]|] eqn:Eout; [| |done].
        * injection Hr as <-. destruct (Hout _ _ eq_refl) as (oa & -> & B). destruct oa as [xo|]; [|done].
          eexists _, ph. split; [reflexivity|]. cbn. do 3 (split; [done|]). split; [by apply F_refl|]. split; [|done].
          split; [done|]. split; [done|]. done.
        * injection Hr as <-. destruct (Hout _ _ eq_refl) as (oa & -> & B). destruct oa as [xo|]; [done|].
          assert (ph !! xa = Some g) as Hxa.
          { destruct V3 as [V3|V3]; [|done]. exfalso. apply (Hown V2 xa); [apply elem_of_list_here|done]. }
          destruct (prim_set m a ph xa g eb_empty HT Hp Hi Hxa) as [HT' HF].
          eexists _, ph. split; [reflexivity|]. cbn. split; [done|]. split; [done|]. split; [done|]. split; [done|]. split; [|done].
          split; [done|]. split; [done|]. cbn. by right.
      + injection Hr as <-. eexists _, ph. split; [reflexivity|]. cbn. do 3 (split; [done|]). split; [by apply F_refl|]. split; [|done].
        split; [done|]. split; [congruence|]. rewrite Ewa, Ew. done.
    - destruct (e_buf wa) as [xa|] eqn:Ewa; [done|].
      destruct (outer_of l d) as [[[g'|] dd]|] eqn:Eout; [| |done].
      + injection Hr as <-. destruct (Hout _ _ eq_refl) as (oa & -> & B). destruct oa as [xo|]; [|done].
        eexists _, ph. split; [reflexivity|]. cbn. do 3 (split; [done|]). split; [by apply F_refl|]. split; [|done].
        split; [done|]. split; [done|]. done.
      + destruct (pool_get m ch) as [[m1 g]|] eqn:Eg; [|done]. injection Hr as <-.
        destruct (Hout _ _ eq_refl) as (oa & -> & B). destruct oa as [xo|]; [done|].
        destruct (prim_get m a ph ch m1 g eb_empty HT Hp Hpa Hi Eg) as (a1 & Ea & Epa & Efa & HT' & HF & Hnone).
        rewrite Ea. eexists _, (<[nextid a := g]> ph). split; [reflexivity|]. cbn. rewrite Epa. split; [done|]. split; [done|].
        split; [intros y Hy; cbn; rewrite Efa; cbn in Hy; rewrite Epa in Hy; apply Hpa in Hy; lia|]. split; [done|].
        split; [split; [done|]; split; [done|]; cbn; right; by rewrite lookup_insert|].
        intros u g0 [Hu|Hu]; [by left|]. right. rewrite lookup_insert_ne; [done|]. intros <-. congruence. }
  destruct o as [d|j d|j|j f|j|j|f|r n]; cbn [step_op touches] in *.
  - destruct (reset_var m l eb_zero d ch) as [[[m1 w1] p1]|] eqn:Er; [|done]. intros [= <- <- <-].
    destruct (Hreset eb_zero eb_zero d) with (r := (m1, w1, p1)) as (ra & ph' & Era & Ep & HT' & Hpa' & HF & Hv & Hmono); [done|done|done|].
    destruct ra as [[a1 wa1] pa1]. cbn in *. rewrite Era. intros [= <- <- <-]. exists ph'. split; [done|]. split; [done|]. split; [done|].
    split; [|done]. destruct (locrel_mono _ ph' _ (pool a1) la l Hmono (conj HV HR)) as [HV' HR'].
    split; [by apply Forall2_snoc|done].
  - destruct (vars l !! j) as [w|] eqn:Ej; [|done].
    destruct (Forall2_lookup_r _ _ _ _ _ HV Ej) as (wa & Eja & Vj). rewrite Eja in *.
    destruct (reset_var m l w d ch) as [[[m1 w1] p1]|] eqn:Er; [|done]. intros [= <- <- <-].
    destruct (Hreset wa w d) with (r := (m1, w1, p1)) as (ra & ph' & Era & Ep & HT' & Hpa' & HF & Hv & Hmono); [done| |done|].
    { intros Ho y Hy. apply Hlegal. by rewrite Ho. }
    destruct ra as [[a1 wa1] pa1]. cbn in *. rewrite Era. intros [= <- <- <-]. subst pa1. exists ph'. split; [done|]. split; [done|]. split; [done|].
    split; [|done]. destruct (locrel_mono _ ph' _ (pool a1) la l Hmono (conj HV HR)) as [HV' HR'].
    split; [by apply Forall2_insert|done].
  - destruct (vars l !! j) as [w|] eqn:Ej; [|done]. intros [= <- <- <-].
    destruct (Forall2_lookup_r _ _ _ _ _ HV Ej) as (wa & -> & Vj). intros [= <- <- <-]. exists ph. split; [done|]. split; [done|]. split; [done|].
    split; [|by apply F_refl]. split; [by apply Forall2_snoc|done].
  - destruct (vars l !! j) as [w|] eqn:Ej; [|done]. destruct (Forall2_lookup_r _ _ _ _ _ HV Ej) as (wa & Eja & V1 & V2 & V3).
    unfold var_buf in Hlegal. rewrite Eja in *. destruct (e_buf w) as [g|] eqn:Ew; destruct (e_buf wa) as [xa|] eqn:Ewa; try done.
    + assert (ph !! xa = Some g) as Hxa by (destruct V3 as [V3|V3]; [|done]; exfalso; apply (Hlegal xa); [apply elem_of_list_here|done]).
      destruct (HT _ _ Hxa) as (_ & _ & _ & _ & b & B1 & B2). unfold buf_at. rewrite B1, B2. cbn [default from_option].
      unfold id. destruct (f b) as [b' n]. intros [= <- <- <-] [= <- <- <-].
      destruct (prim_set m a ph xa g b' HT Hp Hi Hxa) as [HT' HF]. exists ph. done.
    + intros [= <- <- <-] [= <- <- <-]. exists ph. split; [done|]. split; [done|]. split; [done|]. split; [done|]. by apply F_refl.
  - destruct (vars l !! j) as [w|] eqn:Ej; [|done]. destruct (Forall2_lookup_r _ _ _ _ _ HV Ej) as (wa & Eja & V1 & V2 & V3).
    unfold var_buf in Hlegal. rewrite Eja in *. destruct (e_buf w) as [g|] eqn:Ew; destruct (e_buf wa) as [xa|] eqn:Ewa; try done.
    + assert (ph !! xa = Some g) as Hxa by (destruct V3 as [V3|V3]; [|done]; exfalso; apply (Hlegal xa); [apply elem_of_list_here|done]).
      destruct (HT _ _ Hxa) as (_ & _ & _ & _ & b & B1 & B2). unfold buf_at. rewrite B1, B2.
      intros [= <- <- <-] [= <- <- <-]. exists ph. split; [done|]. split; [done|]. split; [done|]. split; [done|]. by apply F_refl.
    + intros [= <- <- <-] [= <- <- <-]. exists ph. split; [done|]. split; [done|]. split; [done|]. split; [done|]. by apply F_refl.
  - destruct (vars l !! j) as [w|] eqn:Ej; [|done]. destruct (Forall2_lookup_r _ _ _ _ _ HV Ej) as (wa & Eja & V1 & V2 & V3).
    rewrite Eja in *. rewrite V1, V2 in *.
    (* the end of Flush *)
    assert (forall u, (e_own w = true -> e_buf wa <> None -> exists xa g, e_buf wa = Some xa /\ e_buf w = Some g /\ ph !! xa = Some g) ->
      forall m1 l1 x1 a1 la1 os1,
      Some (match e_buf w with Some g => if e_own w then pool_put m g else m | None => m end, Loc (<[j := eb_zero]> (vars l)) (rdrs l), u) = Some (m1, l1, x1) ->
      match Some (match e_buf wa with Some g => if e_own w then pool_put a g else a | None => a end, Loc (<[j := eb_zero]> (vars la)) (rdrs la), u) with
      | Some (m', l', x) => Some (m', l', os ++ [x]) | None => None end = Some (a1, la1, os1) ->
      exists ph', os1 = os ++ [x1] /\ T m1 a1 ph' /\ pool_a a1 /\ locrel ph' (pool a1) la1 l1 /\ F m m1 ph ph') as Hfin.
    { intros u Hlive m1 l1 x1 a1 la1 os1 [= <- <- <-] [= <- <- <-].
      destruct (e_own w) eqn:Eo.
      - destruct (e_buf wa) as [xa|] eqn:Ewa; destruct (e_buf w) as [g|] eqn:Ew; try done.
        + destruct (Hlive eq_refl) as (xa' & g' & [= <-] & [= <-] & Hxa); [done|].
          destruct (prim_put m a ph xa g HT Hp Hpa Hi Hxa) as (HT' & HF & Hpa'). exists (delete xa ph). split; [done|]. split; [done|]. split; [done|].
          split; [|done]. destruct (locrel_mono ph (delete xa ph) (pool a) (pool (pool_put a xa)) la l) as [HV' HR']; [|done|].
          { intros y g0 [Hy|Hy]; [left; by apply elem_of_list_further|]. destruct (decide (y = xa)) as [->|N]; [left; apply elem_of_list_here|].
            right. by rewrite lookup_delete_ne. }
          split; [by apply Forall2_insert|done].
        + exists ph. split; [done|]. split; [done|]. split; [done|]. split; [|by apply F_refl]. split; [by apply Forall2_insert|done].
      - exists ph. split; [done|].
        assert (match e_buf wa with Some _ => a | None => a end = a) as -> by (destruct (e_buf wa); done).
        assert (match e_buf w with Some _ => m | None => m end = m) as -> by (destruct (e_buf w); done).
        split; [done|]. split; [done|]. split; [|by apply F_refl]. split; [by apply Forall2_insert|done]. }
    assert ((e_own w = true \/ e_dst w <> DstNil) -> e_buf wa <> None -> exists xa g, e_buf wa = Some xa /\ e_buf w = Some g /\ ph !! xa = Some g) as Hlive.
    { intros Ho Hn. destruct (e_buf wa) as [xa|] eqn:Ewa; [|done]. destruct (e_buf w) as [g|] eqn:Ew; [|done]. exists xa, g. split; [done|]. split; [done|].
      destruct V3 as [V3|V3]; [|done]. exfalso. apply (Hlegal xa); [|done].
      destruct (e_dst w), (e_own w); try apply elem_of_list_here. by destruct Ho. }
    destruct (e_dst w) eqn:Ed.
    + apply Hfin. intros Ho. apply Hlive. by left.
    + destruct (e_buf w) as [g|] eqn:Ew; destruct (e_buf wa) as [xa|] eqn:Ewa; try done.
      * destruct (Hlive ltac:(by right) ltac:(done)) as (xa' & g' & [= <-] & [= <-] & Hxa).
        destruct (HT _ _ Hxa) as (_ & _ & _ & _ & b & B1 & B2). unfold buf_at. rewrite B1, B2. apply Hfin.
        intros _ _. eauto.
      * intros [= <- <- <-] [= <- <- <-]. exists ph. split; [done|]. split; [done|]. split; [done|]. split; [done|]. by apply F_refl.
    + destruct (e_buf w) as [g|] eqn:Ew; destruct (e_buf wa) as [xa|] eqn:Ewa; try done.
      * destruct (Hlive ltac:(by right) ltac:(done)) as (xa' & g' & [= <-] & [= <-] & Hxa).
        destruct (HT _ _ Hxa) as (_ & _ & _ & _ & b & B1 & B2). unfold buf_at. rewrite B1, B2.
        destruct (fst (writeTo (default eb_empty (Some b)) None)).
        -- apply Hfin. intros _ _. eauto.
        -- intros [= <- <- <-] [= <- <- <-]. exists ph. split; [done|]. split; [done|]. split; [done|]. split; [done|]. by apply F_refl.
      * intros [= <- <- <-] [= <- <- <-]. exists ph. split; [done|]. split; [done|]. split; [done|]. split; [done|]. by apply F_refl.
  - destruct (pool_get m ch) as [[m1 g]|] eqn:Eg; [|done]. intros [= <- <- <-].
    destruct (prim_get m a ph ch m1 g (f eb_empty) HT Hp Hpa Hi Eg) as (a1 & Ea & Epa & Efa & HT' & HF & Hnone).
    rewrite Ea. intros [= <- <- <-]. exists (<[nextid a := g]> ph). split; [done|]. split; [done|].
    split; [intros y Hy; cbn; rewrite Efa; cbn in Hy; rewrite Epa in Hy; apply Hpa in Hy; lia|]. split; [|done].
    cbn [pool set_buf]. rewrite Epa. destruct (locrel_mono ph (<[nextid a := g]> ph) (pool a) (pool a) la l) as [HV' HR']; [|done|].
    { intros u g0 [Hu|Hu]; [by left|]. right. rewrite lookup_insert_ne; [done|]. intros <-. congruence. }
    split; [done|]. cbn. apply Forall2_snoc; [done|]. do 3 (split; [done|]). cbn. right. by rewrite lookup_insert.
  - destruct (rdrs l !! r) as [dd|] eqn:Ej; [|done]. destruct (Forall2_lookup_r _ _ _ _ _ HR Ej) as (da & Eja & V1 & V2 & V3 & V4).
    rewrite Eja in *. rewrite V1, V2, V3.
    destruct (d_buf dd) as [g|] eqn:Ew; destruct (d_buf da) as [xa|] eqn:Ewa; try done.
    + assert (ph !! xa = Some g) as Hxa by (destruct V4 as [V4|V4]; [|done]; exfalso; apply (Hlegal xa); [apply elem_of_list_here|done]).
      destruct (HT _ _ Hxa) as (_ & _ & _ & _ & b & B1 & B2). cbn [fmap option_fmap option_map]. unfold buf_at. rewrite B1, B2.
      cbn [default from_option]. unfold id.
      destruct (er_read (er_fuel (EncReader (Some b) (d_lhpos dd) (d_strpos dd) (d_piece dd))) (EncReader (Some b) (d_lhpos dd) (d_strpos dd) (d_piece dd)) n) as [[bs eof] er'].
      intros [= <- <- <-] [= <- <- <-]. destruct eof.
      * destruct (prim_put m a ph xa g HT Hp Hpa Hi Hxa) as (HT' & HF & Hpa'). exists (delete xa ph). split; [done|]. split; [done|]. split; [done|].
        split; [|done]. destruct (locrel_mono ph (delete xa ph) (pool a) (pool (pool_put a xa)) la l) as [HV' HR']; [|done|].
        { intros y g0 [Hy|Hy]; [left; by apply elem_of_list_further|]. destruct (decide (y = xa)) as [->|N]; [left; apply elem_of_list_here|].
          right. by rewrite lookup_delete_ne. }
        split; [done|]. by apply Forall2_insert.
      * exists ph. split; [done|]. split; [done|]. split; [done|]. split; [|by apply F_refl]. split; [done|]. by apply Forall2_insert.
    + cbn [fmap option_fmap option_map].
      destruct (er_read (er_fuel (EncReader None (d_lhpos dd) (d_strpos dd) (d_piece dd))) (EncReader None (d_lhpos dd) (d_strpos dd) (d_piece dd)) n) as [[bs eof] er'].
      intros [= <- <- <-] [= <- <- <-]. exists ph. split; [done|]. split; [done|]. split; [done|]. split; [|by apply F_refl]. split; [done|].
      apply Forall2_insert; [done|]. do 3 (split; [done|]). cbn. by destruct eof.
Qed.

(** All goroutines. *)
Record R (c : conf) (al : nat -> mem * loc * list out) (phs : nat -> gmap nat nat) : Prop := {
  R_pool : pool_ok (cm c);
  R_inj : forall i j x y g, i < length (locs c) -> j < length (locs c) ->
            phs i !! x = Some g -> phs j !! y = Some g -> i = j /\ x = y;
  R_each : forall i l, locs c !! i = Some l ->
             T (cm c) (fst (fst (al i))) (phs i) /\ pool_a (fst (fst (al i))) /\
             locrel (phs i) (pool (fst (fst (al i)))) (snd (fst (al i))) l /\ outs c !! i = Some (snd (al i));
}.

Lemma R_initial n : R (initial n) (fun _ => (mem0, loc0, [])) (fun _ => ∅).
Proof.
  constructor; cbn.
  - split; [constructor|]. cbn. intros g H. by apply elem_of_nil in H.
  - intros i j x y g _ _ E. by rewrite lookup_empty in E.
  - intros i l E. apply lookup_replicate in E as [-> Hlt]. split; [intros x g E; by rewrite lookup_empty in E|].
    split; [intros x H; by apply elem_of_nil in H|]. split; [split; constructor|]. by apply lookup_replicate.
Qed.

Definition upd {A} (f : nat -> A) (i : nat) (v : A) : nat -> A := fun j => if decide (j = i) then v else f j.

Lemma R_op c al phs i o ch c' a' :
  R c al phs -> step c (LOp i o ch) = Some c' -> alone_step (al i) o = Some a' ->
  exists phs', R c' (upd al i a') phs'.
Proof.
  intros HR Hs Ha. cbn [step] in Hs. destruct (locs c !! i) as [l|] eqn:El; [|done].
  destruct (outs c !! i) as [os|] eqn:Eo; [|done]. destruct (step_op (cm c) l o ch) as [[[m' l'] x]|] eqn:Es; [|done].
  injection Hs as <-. destruct (R_each _ _ _ HR _ _ El) as (HT & Hpa & HL & HO).
  destruct (al i) as [[a la] osa] eqn:Eal. cbn in *. assert (osa = os) as -> by congruence.
  destruct a' as [[a' la'] os']. pose proof (lookup_lt_Some _ _ _ El) as Hlt. pose proof (lookup_lt_Some _ _ _ Eo) as Hlt'.
  assert (linj (phs i)) as Hi. { intros u v g Hu Hv. by destruct (R_inj _ _ _ HR i i u v g Hlt Hlt Hu Hv). }
  destruct (step_sim _ _ _ _ _ _ _ _ _ _ _ _ _ _ HT (R_pool _ _ _ HR) Hpa Hi HL Es Ha) as (ph' & Hos & HT' & Hpa' & HL' & HF).
  exists (upd phs i ph').
  assert (forall j lj, j <> i -> locs c !! j = Some lj -> forall u g, phs j !! u = Some g ->
            g < nextid (cm c) /\ g ∉ pool (cm c) /\ (forall v, phs i !! v <> Some g)) as Hother.
  { intros j lj Nj Elj u g Hu. destruct (R_each _ _ _ HR _ _ Elj) as (HTj & _). destruct (HTj _ _ Hu) as (_ & _ & C & D & _).
    split; [done|]. split; [done|]. intros v Hv. apply Nj.
    by destruct (R_inj _ _ _ HR j i u v g (lookup_lt_Some _ _ _ Elj) Hlt Hu Hv). }
  constructor; cbn.
  - apply (F_ok _ _ _ _ HF).
  - intros p q u v g. rewrite insert_length. intros Hp Hq. unfold upd.
    destruct (lookup_lt_is_Some_2 _ _ Hp) as [lp Elp]. destruct (lookup_lt_is_Some_2 _ _ Hq) as [lq Elq].
    destruct (decide (p = i)) as [->|Np], (decide (q = i)) as [->|Nq]; intros Hu Hv.
    + split; [done|]. by apply (F_inj _ _ _ _ HF u v g).
    + exfalso. destruct (Hother q lq Nq Elq v g Hv) as (A & B & C). destruct (F_ph _ _ _ _ HF _ _ Hu) as [D|[D|D]]; [by eapply C|done|lia].
    + exfalso. destruct (Hother p lp Np Elp u g Hu) as (A & B & C). destruct (F_ph _ _ _ _ HF _ _ Hv) as [D|[D|D]]; [by eapply C|done|lia].
    + by apply (R_inj _ _ _ HR p q u v g).
  - intros j lj. rewrite list_lookup_insert_Some. unfold upd. intros [(<- & <- & _)|[N E]].
    + rewrite !decide_True by done. cbn. rewrite list_lookup_insert by done. subst os'. done.
    + rewrite !decide_False by done. rewrite list_lookup_insert_ne by done.
      destruct (R_each _ _ _ HR _ _ E) as (HTj & Hpaj & HLj & HOj). split; [|done].
      intros u g Hu. destruct (HTj _ _ Hu) as (A & B & C & D & b & E1 & E2). destruct (Hother j lj (not_eq_sym N) E u g Hu) as (_ & _ & Hn).
      split; [done|]. split; [done|]. split; [pose proof (F_fresh _ _ _ _ HF); lia|]. split.
      * intros Hin. destruct (F_pool _ _ _ _ HF _ Hin) as [?|[v Hv]]; [done|by eapply Hn].
      * exists b. split; [done|]. by rewrite (F_bufs _ _ _ _ HF).
Qed.

Lemma R_forget c al phs g c' : R c al phs -> step c (LForget g) = Some c' -> R c' al phs.
Proof.
  intros HR [= <-]. destruct (R_pool _ _ _ HR) as [Hn Hb]. constructor; cbn.
  - split; [by apply remove_one_nodup|]. cbn. intros x Hx. apply Hb. by eapply remove_one_in.
  - apply (R_inj _ _ _ HR).
  - intros i l E. destruct (R_each _ _ _ HR _ _ E) as (HT & H). split; [|done].
    intros u x Hu. destruct (HT _ _ Hu) as (A & B & C & D & H'). cbn. do 3 (split; [done|]). split; [|done].
    intros Hx. apply D. by eapply remove_one_in.
Qed.

Lemma exec_sim sch : forall c al phs c', R c al phs -> exec c sch = Some c' ->
  (forall i, i < length (locs c) -> exists a', alone_run (al i) (ops_of i sch) = Some a') ->
  length (locs c') = length (locs c) /\
  forall i, i < length (locs c) -> exists a', alone_run (al i) (ops_of i sch) = Some a' /\ outs c' !! i = Some (snd a').
Proof.
  induction sch as [|b sch IH]; intros c al phs c' HR; cbn [exec].
  - intros [= <-] _. split; [done|]. intros i Hi. destruct (lookup_lt_is_Some_2 _ _ Hi) as [l El]. exists (al i). split; [done|].
    apply (R_each _ _ _ HR i l El).
  - destruct (step c b) as [c1|] eqn:Es; [|done]. intros He Hall. destruct b as [i o ch|g].
    + assert (i < length (locs c)) as Hi.
      { cbn in Es. destruct (locs c !! i) eqn:E; [by eapply lookup_lt_Some|done]. }
      assert (length (locs c1) = length (locs c)) as Hlen.
      { cbn in Es. destruct (locs c !! i); [|done]. destruct (outs c !! i); [|done]. destruct (step_op _ _ _ _) as [[[? ?] ?]|]; [|done].
        injection Es as <-. cbn. apply insert_length. }
      destruct (Hall i Hi) as [af Haf]. cbn [ops_of] in Haf. rewrite decide_True in Haf by done. cbn [alone_run] in Haf.
      destruct (alone_step (al i) o) as [a1|] eqn:Ea; [|done].
      destruct (R_op _ _ _ _ _ _ _ _ HR Es Ea) as [phs' HR'].
      destruct (IH c1 (upd al i a1) phs' c' HR' He) as [Hl Hout].
      { intros j Hj. rewrite Hlen in Hj. destruct (Hall j Hj) as [aj Haj]. cbn [ops_of] in Haj. unfold upd.
        destruct (decide (j = i)) as [->|N]; [eauto|]. eauto. }
      split; [congruence|]. intros j Hj. rewrite <- Hlen in Hj. destruct (Hout j Hj) as (aj & Haj & Hoj). exists aj. split; [|done].
      cbn [ops_of]. unfold upd in Haj. destruct (decide (j = i)) as [->|N]; [|done]. cbn [alone_run]. by rewrite Ea.
    + pose proof (R_forget _ _ _ _ _ HR Es) as HR'. injection Es as <-.
      destruct (IH _ al phs c' HR' He) as [Hl Hout]; [|done]. intros j Hj. by apply Hall.
Qed.
