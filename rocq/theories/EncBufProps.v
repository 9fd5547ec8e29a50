(** C90 and C91: the incremental encoder and the pool of buffers. *)
From Coq Require Import NArith Lia.
From Verif Require Import RlpProofs EncBufProofs.
From stdpp Require Import gmap.
Local Open Scope N_scope.

(* ------------------------------------------------------------------ *)
(** ** C90 *)

(** Whatever is written with the methods of an EncoderBuffer, lists nested to any depth:
    ToBytes gives the concatenated encodings, AppendToBytes puts them behind what it is
    given, and Flush to a writer that takes everything gives it these bytes. *)
Theorem C90_bytes :
  forall ds, Forall doc_ok ds -> lenN (enc_docs ds) < 2 ^ 64 ->
    let b := write_docs ds eb_empty in
    makeBytes b = enc_docs ds /\ eb_size b = lenN (enc_docs ds) /\
    (forall dst, AppendToBytes b dst = dst ++ enc_docs ds) /\
    writeTo b None = (enc_docs ds, true).
Proof.
  intros ds Hok Hl b. assert (writes eb_empty b (enc_docs ds)) as Hw by (by apply write_docs_writes).
  destruct (makeBytes_writes _ _ Hw) as [H1 H2]. split; [done|]. split; [done|]. split.
  - intros dst. unfold AppendToBytes. by rewrite H1.
  - by rewrite (writeTo_spec _ _ _ Hw).
Qed.
Print Assumptions C90_bytes.

(** A writer that fails after r bytes has got the first r bytes of the encoding, and there
    is an error just if it is longer. *)
Theorem C90_short_writer :
  forall ds r, Forall doc_ok ds -> lenN (enc_docs ds) < 2 ^ 64 ->
    fst (writeTo (write_docs ds eb_empty) (Some r)) = take (N.to_nat r) (enc_docs ds) /\
    (snd (writeTo (write_docs ds eb_empty) (Some r)) = true <-> (length (enc_docs ds) <= N.to_nat r)%nat).
Proof.
  intros ds r Hok Hl. rewrite (writeTo_spec _ (enc_docs ds)) by (by apply write_docs_writes). cbn. split; [done|].
  rewrite N.leb_le. unfold lenN. lia.
Qed.
Print Assumptions C90_short_writer.

Lemma enc_doc_item d : no_raw d -> enc_doc d = rlp (item_of d).
Proof.
  induction d as [bs|n|z|n|x|bs|ds IH] using doc_ind'; intros H; try done.
  - by destruct x.
  - rewrite enc_doc_list. cbn [item_of rlp].
    assert (enc_docs ds = (fix cat (l : list item) : list N := match l with [] => [] | x :: l' => rlp x ++ cat l' end) (map item_of ds)) as <-; [|done].
    cbn [no_raw] in H. induction IH as [|d l Hd _ IHl]; [done|]. destruct H as [H1 H2]. cbn. rewrite Hd by done. by rewrite IHl.
Qed.
(** If no raw bytes are written, the output is the RLP encoding of the strings and lists
    that were written: Encode of the same values gives the same bytes. *)
Theorem C90_item :
  forall ds, Forall doc_ok ds -> Forall no_raw ds -> lenN (enc_docs ds) < 2 ^ 64 ->
    makeBytes (write_docs ds eb_empty) = concat (map (fun d => rlp (item_of d)) ds).
Proof.
  intros ds Hok Hr Hl. destruct (C90_bytes ds Hok Hl) as [-> _]. clear Hok Hl.
  induction Hr as [|d l H1 _ IH]; [done|]. cbn. rewrite IH. f_equal. by apply enc_doc_item.
Qed.
Print Assumptions C90_item.

Definition ex_doc : doc := DList [DBytes [1; 2; 3]; DList []; DUint 1024; DList [DBool false; DBig (-5); DU256 (2 ^ 200)]; DBytes []].
Example C90_example :
  Forall doc_ok [ex_doc; DRaw [0xC0]] /\ no_raw ex_doc /\ lenN (enc_docs [ex_doc; DRaw [0xC0]]) = 41 /\
  makeBytes (write_docs [ex_doc; DRaw [0xC0]] eb_empty) = enc_docs [ex_doc; DRaw [0xC0]] /\
  take 9 (enc_docs [ex_doc]) = [0xE7; 0x83; 1; 2; 3; 0xC0; 0x82; 4; 0] /\
  fst (writeTo (write_docs [ex_doc] eb_empty) (Some 6)) = [0xE7; 0x83; 1; 2; 3; 0xC0].
Proof. split; [repeat constructor|]. split; [cbn; tauto|]. vm_compute. done. Qed.

(* ------------------------------------------------------------------ *)
(** ** C91 *)

(** Any number of goroutines make encoders and readers, write, flush, reset and read in any
    order; the pool hands out any of its buffers, or a new one, and forgets some. If none of
    them works on a buffer after it gave it back, each gets exactly the answers it gets
    alone, with buffers that nobody used before. *)
Theorem C91_isolated :
  forall n sch c, exec (initial n) sch = Some c ->
    (forall i, (i < n)%nat -> is_Some (alone (ops_of i sch))) ->
    forall i, (i < n)%nat -> outs c !! i = alone (ops_of i sch).
Proof.
  intros n sch c He Hfit i Hi.
  destruct (exec_sim sch (initial n) (fun _ => (mem0, loc0, [])) (fun _ => ∅) c (R_initial n) He) as [_ Hout].
  - intros j Hj. cbn in Hj. rewrite replicate_length in Hj. destruct (Hfit j Hj) as [os Ho]. unfold alone in Ho.
    destruct (alone_run _ _) as [a'|]; [by exists a'|done].
  - destruct (Hout i) as (a' & Ha & Ho); [cbn; by rewrite replicate_length|]. unfold alone. rewrite Ha, Ho. by destruct a' as [[? ?] ?].
Qed.
Print Assumptions C91_isolated.

Lemma wr_writes ds1 ds2 b : write_docs ds2 (write_docs ds1 b) = write_docs (ds1 ++ ds2) b.
Proof. revert b. induction ds1 as [|d ds1 IH]; intros b; [done|]. apply IH. Qed.
Lemma enc_docs_app ds1 ds2 : enc_docs (ds1 ++ ds2) = enc_docs ds1 ++ enc_docs ds2.
Proof. induction ds1 as [|d ds1 IH]; [done|]. cbn. by rewrite IH, app_assoc. Qed.

(** In such company: what a goroutine writes to an encoder, through a second encoder that
    was made from it (as EncodeRLP methods do), and again to the first one, is what ToBytes
    and Flush give, whoever used the buffer before and whoever encodes meanwhile. *)
Theorem C91_encoder :
  forall n sch c i ds1 ds2 ds3, exec (initial n) sch = Some c ->
    (forall j, (j < n)%nat -> is_Some (alone (ops_of j sch))) -> (i < n)%nat ->
    Forall doc_ok (ds1 ++ ds2 ++ ds3) -> lenN (enc_docs (ds1 ++ ds2 ++ ds3)) < 2 ^ 64 ->
    ops_of i sch = [ONew ToWriter; OWrite 0 (wr ds1); ONew (ToVar 0); OWrite 1 (wr ds2); OFlush 1;
                    OWrite 0 (wr ds3); OToBytes 0; OFlush 0] ->
    outs c !! i = Some [OutNone; OutNum 0; OutNone; OutNum 0; OutNone; OutNum 0;
                        OutBytes (enc_docs (ds1 ++ ds2 ++ ds3)); OutBytes (enc_docs (ds1 ++ ds2 ++ ds3))].
Proof.
  intros n sch c i ds1 ds2 ds3 He Hfit Hi Hok Hl Hops. rewrite (C91_isolated n sch c He Hfit i Hi), Hops.
  destruct (C90_bytes _ Hok Hl) as (H1 & _ & _ & H2).
  assert (alone [ONew ToWriter; OWrite 0 (wr ds1); ONew (ToVar 0); OWrite 1 (wr ds2); OFlush 1; OWrite 0 (wr ds3); OToBytes 0; OFlush 0]
    = Some [OutNone; OutNum 0; OutNone; OutNum 0; OutNone; OutNum 0;
            OutBytes (makeBytes (write_docs ds3 (write_docs ds2 (write_docs ds1 eb_empty))));
            OutBytes (fst (writeTo (write_docs ds3 (write_docs ds2 (write_docs ds1 eb_empty))) None))]) as ->.
  { cbv -[write_docs makeBytes writeTo]. done. }
  rewrite (wr_writes ds1 ds2), (wr_writes (ds1 ++ ds2) ds3), <- app_assoc, H1, H2. done.
Qed.
Print Assumptions C91_encoder.

(** In such company: Reset throws away what was written and leaves the encoder ready for
    more, also after Flush; an encoder that was made from another one cannot be reset. *)
Theorem C91_reset :
  forall n sch c i ds1 ds2 ds3, exec (initial n) sch = Some c ->
    (forall j, (j < n)%nat -> is_Some (alone (ops_of j sch))) -> (i < n)%nat ->
    Forall doc_ok ds2 -> lenN (enc_docs ds2) < 2 ^ 64 -> Forall doc_ok ds3 -> lenN (enc_docs ds3) < 2 ^ 64 ->
    ops_of i sch = [ONew ToNil; OWrite 0 (wr ds1); OReset 0 ToWriter; OWrite 0 (wr ds2); ONew (ToVar 0); OReset 1 ToNil;
                    OFlush 1; OFlush 0; OReset 0 ToNil; OWrite 0 (wr ds3); OToBytes 0] ->
    outs c !! i = Some [OutNone; OutNum 0; OutNone; OutNum 0; OutNone; OutPanic;
                        OutNone; OutBytes (enc_docs ds2); OutNone; OutNum 0; OutBytes (enc_docs ds3)].
Proof.
  intros n sch c i ds1 ds2 ds3 He Hfit Hi Hok2 Hl2 Hok3 Hl3 Hops. rewrite (C91_isolated n sch c He Hfit i Hi), Hops.
  destruct (C90_bytes _ Hok2 Hl2) as (_ & _ & _ & H2). destruct (C90_bytes _ Hok3 Hl3) as (H3 & _).
  assert (alone [ONew ToNil; OWrite 0 (wr ds1); OReset 0 ToWriter; OWrite 0 (wr ds2); ONew (ToVar 0); OReset 1 ToNil;
                 OFlush 1; OFlush 0; OReset 0 ToNil; OWrite 0 (wr ds3); OToBytes 0]
    = Some [OutNone; OutNum 0; OutNone; OutNum 0; OutNone; OutPanic; OutNone;
            OutBytes (fst (writeTo (write_docs ds2 eb_empty) None)); OutNone; OutNum 0;
            OutBytes (makeBytes (write_docs ds3 eb_empty))]) as ->.
  { cbv -[write_docs makeBytes writeTo]. done. }
  rewrite H2, H3. done.
Qed.
Print Assumptions C91_reset.

Definition sum (l : list nat) : nat := foldr Nat.add 0%nat l.

Lemma er_next_buf r p r' : er_next r = (p, r') -> er_buf r' = er_buf r.
Proof.
  unfold er_next. destruct (er_buf r) as [b|] eqn:Eb; [|by intros [= <- <-]].
  destruct (er_piece r); [by intros [= <- <-]|]. destruct (eb_heads b !! er_lhpos r) as [[off sz]|].
  - destruct (0 <? off - er_strpos r); by intros [= <- <-].
  - destruct (er_strpos r <? lenN (eb_str b)); by intros [= <- <-].
Qed.
Lemma er_read_buf f : forall r n bs r', er_read f r n = (bs, false, r') -> er_buf r' = er_buf r.
Proof.
  induction f as [|f IH]; intros r n bs r'; cbn [er_read]; [by intros [= <- <-]|].
  destruct (er_next r) as [[p|] r1] eqn:En; [|done]. apply er_next_buf in En.
  destruct (_ <? _)%nat; [by intros [= <- <-]|]. destruct (er_read f _ _) as [[bs' eof] r2] eqn:E. intros [= _ -> <-].
  apply IH in E. cbn in E. congruence.
Qed.

Lemma reads_alone rooms : forall m d os,
  (forall g, d_buf d = Some g -> g ∉ pool m /\ is_Some (bufs m !! g)) ->
  er_ok (EncReader (buf_at m <$> d_buf d) (d_lhpos d) (d_strpos d) (d_piece d)) ->
  exists a rs, alone_run (m, Loc [] [d], os) (map (ORead 0) rooms) = Some (a, os ++ map (fun x => OutRead (fst x) (snd x)) rs) /\
    length rs = length rooms /\
    concat (map fst rs) = take (sum rooms) (er_rest (EncReader (buf_at m <$> d_buf d) (d_lhpos d) (d_strpos d) (d_piece d))) /\
    forall k x, rs !! k = Some x ->
      (snd x = true <-> (length (er_rest (EncReader (buf_at m <$> d_buf d) (d_lhpos d) (d_strpos d) (d_piece d))) <= sum (take (S k) rooms))%nat).
Proof.
  induction rooms as [|n rooms IH]; intros m d os Hd Hok.
  - exists (m, Loc [] [d]), []. cbn. rewrite app_nil_r. done.
  - cbn [map alone_run alone_step touches rdrs lookup list_lookup].
    assert (existsb (fun g => bool_decide (g ∈ pool m)) (option_list (d_buf d)) = false) as ->.
    { destruct (d_buf d) as [g|]; [|done]. cbn. destruct (Hd g eq_refl) as [Hn _]. by rewrite bool_decide_eq_false_2. }
    cbn [step_op rdrs lookup list_lookup]. set (er := EncReader (buf_at m <$> d_buf d) (d_lhpos d) (d_strpos d) (d_piece d)) in *.
    destruct (er_read (er_fuel er) er n) as [[bs eof] er'] eqn:Er.
    destruct (er_read_spec _ _ _ _ _ _ Hok (er_fuel_meas er) Er) as (Hbs & Hrest & Hok' & Heof).
    cbn [vars insert list_insert].
    assert (er_buf er' = None /\ eof = true \/ er_buf er' = er_buf er /\ eof = false) as Hbuf.
    { destruct eof; [by left; destruct Heof|]. right. split; [|done]. eapply er_read_buf; eauto. }
    set (m' := match d_buf d with Some g => if eof then pool_put m g else m | None => m end).
    set (d' := Rdr (if eof then None else d_buf d) (er_lhpos er') (er_strpos er') (er_piece er')).
    assert (EncReader (buf_at m' <$> d_buf d') (d_lhpos d') (d_strpos d') (d_piece d') = er') as Ed'.
    { unfold d', m'. cbn [d_buf d_lhpos d_strpos d_piece]. destruct er' as [b' l' s' p']; cbn in *.
      destruct Hbuf as [[-> ->]|[-> ->]]; [done|]. destruct (d_buf d); done. }
    destruct (IH m' d' (os ++ [OutRead bs eof])) as (a & rs & Hrun & Hlen & Hcat & Heofs).
    { unfold d', m'. destruct eof; [done|]. destruct (d_buf d) eqn:E; [|done]. intros g0 [= <-]. by apply Hd. }
    { rewrite Ed'. done. }
    rewrite Ed' in *. exists a, ((bs, eof) :: rs). cbn [map fst snd]. rewrite Hrun. rewrite <- app_assoc. cbn. split; [done|].
    split; [lia|]. split.
    + rewrite Hcat, Hrest, Hbs. cbn [sum foldr]. change (foldr Nat.add 0%nat rooms) with (sum rooms).
      generalize (er_rest er) (sum rooms). clear. intros l s.
      rewrite <- (take_drop n l) at 3. destruct (decide (n <= length l)%nat).
      * rewrite take_app_ge by (rewrite take_length; lia). rewrite take_length. do 2 f_equal. lia.
      * rewrite (drop_ge l n) by lia. rewrite take_nil, !app_nil_r. rewrite take_take. f_equal. lia.
    + intros [|k] x; cbn [lookup list_lookup].
      * intros [= <-]. cbn. rewrite take_0. cbn. destruct eof; [|split; [done|lia]].
        split; [|done]. intros _. destruct Heof as [_ Hr]. rewrite Hrest in Hr. apply (f_equal length) in Hr. rewrite drop_length in Hr. cbn in Hr. lia.
      * intros Hk. rewrite (Heofs k x Hk), Hrest, drop_length. cbn [take sum foldr]. change (foldr Nat.add 0%nat (take (S k) rooms)) with (sum (take (S k) rooms)). lia.
Qed.

(** In such company: a reader of EncodeToReader that is read with any lengths gives the
    encoding in pieces, and the end of file just when all of it was read. *)
Theorem C91_reader :
  forall n sch c i ds rooms, exec (initial n) sch = Some c ->
    (forall j, (j < n)%nat -> is_Some (alone (ops_of j sch))) -> (i < n)%nat ->
    Forall doc_ok ds -> lenN (enc_docs ds) < 2 ^ 64 ->
    ops_of i sch = OReader (write_docs ds) :: map (ORead 0) rooms ->
    exists reads : list (list N * bool),
      outs c !! i = Some (OutNum (length (enc_docs ds)) :: map (fun x => OutRead (fst x) (snd x)) reads) /\
      length reads = length rooms /\
      concat (map fst reads) = take (sum rooms) (enc_docs ds) /\
      forall k bs eof, reads !! k = Some (bs, eof) -> (eof = true <-> (length (enc_docs ds) <= sum (take (S k) rooms))%nat).
Proof.
  intros n sch c i ds rooms He Hfit Hi Hok Hl Hops. rewrite (C91_isolated n sch c He Hfit i Hi), Hops.
  pose proof (write_docs_writes ds eb_empty Hok Hl) as Hw. destruct (makeBytes_writes _ _ Hw) as [Hmk Hsz].
  unfold alone. cbn [alone_run].
  destruct (alone_step (mem0, loc0, []) (OReader (write_docs ds))) as [[[m l] os]|] eqn:E; [|done].
  unfold alone_step in E. cbn [touches existsb step_op pool_get mem0 loc0] in E. injection E as <- <- <-.
  match goal with |- context [set_buf ?m0 ?g0 ?b0] => set (m1 := set_buf m0 g0 b0) end.
  assert (bufs m1 !! 0%nat = Some (write_docs ds eb_empty)) as Hb.
  { unfold m1. cbn [set_buf bufs nextid mem0]. rewrite lookup_insert. done. }
  cbn [rdrs vars app]. cbn [nextid mem0].
  assert (er_ok (EncReader (Some (write_docs ds eb_empty)) 0 0 None) /\
          er_rest (EncReader (Some (write_docs ds eb_empty)) 0 0 None) = enc_docs ds) as [Hok0 Hrest0].
  { destruct Hw as (s & hs & Hs & Hh & Hlh & Hok' & Ho).
    unfold er_ok, er_rest; cbn [er_buf er_lhpos er_strpos er_piece default app].
    cbn [eb_empty eb_str eb_heads eb_lhsize app] in *.
    assert (shift_heads (lenN (@nil N)) hs = hs) as Hsh.
    { rewrite lenN_nil. unfold shift_heads. rewrite <- (map_id hs) at 2. apply map_ext. intros [? ?]; done. }
    rewrite Hsh in Hh. rewrite Hs, Hh, drop_0. done. }
  destruct (reads_alone rooms m1 (Rdr (Some 0%nat) 0 0 None)
              [OutNum (N.to_nat (eb_size (write_docs ds (reset_buf (buf_at (Mem (<[0%nat := eb_empty]> ∅) [] 1) 0)))))])
    as (a & rs & Hrun & Hlen & Hcat & Heof).
  { intros g [= <-]. split; [apply not_elem_of_nil|]. by rewrite Hb. }
  { cbn. unfold buf_at. rewrite Hb. done. }
  cbn [d_buf d_lhpos d_strpos d_piece fmap option_fmap option_map] in *.
  assert (buf_at m1 0 = write_docs ds eb_empty) as Hba by (unfold buf_at; by rewrite Hb). rewrite Hba, Hrest0 in *.
  exists rs. split; [|split; [done|split; [done|]]].
  - cbn [bufs pool]. rewrite Hrun. destruct a as [? ?]. cbn [app]. rewrite reset_buf_eq, Hsz. do 3 f_equal. unfold lenN. lia.
  - intros k bs eof Hk. apply (Heof k (bs, eof) Hk).
Qed.
Print Assumptions C91_reader.

(** Three goroutines share two buffers: goroutine 0 flushes, 1 takes over its buffer, and 0
    goes on with a new one; 2 reads, and its buffer goes to 0 when it is at the end. *)
Definition ex_sch : list label :=
  [LOp 0 (ONew ToNil) None; LOp 0 (OWrite 0 (wr [DUint 7])) None; LOp 0 (OFlush 0) None;
   LOp 1 (ONew ToWriter) (Some 0%nat); LOp 2 (OReader (write_docs [DList [DUint 1; DUint 2]])) None;
   LOp 1 (OWrite 0 (wr [DBytes [1; 2]])) None; LOp 2 (ORead 0 2) None; LOp 1 (ONew (ToVar 0)) None;
   LOp 1 (OWrite 1 (wr [DUint 3])) None; LOp 1 (OFlush 1) None; LOp 2 (ORead 0 9) None;
   LOp 0 (OReset 0 ToNil) (Some 1%nat); LOp 0 (OWrite 0 (wr [DUint 8])) None; LOp 1 (OWrite 0 (wr [])) None;
   LOp 0 (OToBytes 0) None; LOp 1 (OToBytes 0) None; LOp 1 (OFlush 0) None; LForget 0; LOp 2 (ORead 0 1) None].
Example C91_example :
  (forall i, (i < 3)%nat -> is_Some (alone (ops_of i ex_sch))) /\
  ops_of 1 ex_sch = [ONew ToWriter; OWrite 0 (wr [DBytes [1; 2]]); ONew (ToVar 0); OWrite 1 (wr [DUint 3]); OFlush 1;
                     OWrite 0 (wr []); OToBytes 0; OFlush 0] /\
  ops_of 2 ex_sch = OReader (write_docs [DList [DUint 1; DUint 2]]) :: map (ORead 0) [2; 9; 1]%nat /\
  exists c, exec (initial 3) ex_sch = Some c /\
    outs c = [[OutNone; OutNum 0; OutNone; OutNone; OutNum 0; OutBytes [8]];
              [OutNone; OutNum 0; OutNone; OutNum 0; OutNone; OutNum 0; OutBytes [0x82; 1; 2; 3]; OutBytes [0x82; 1; 2; 3]];
              [OutNum 3; OutRead [0xC2; 1] false; OutRead [2] true; OutRead [] true]] /\
    nextid (cm c) = 2%nat.
Proof.
  split.
  { intros i Hi. destruct i as [|[|[|i]]]; [| | |lia]; eexists; vm_compute; reflexivity. }
  split; [reflexivity|]. split; [reflexivity|]. eexists. split; [vm_compute; reflexivity|]. vm_compute. done.
Qed.

(** The condition is needed. An EncoderBuffer that is copied (it is a struct, and its writing
    methods have value receivers) and flushed in both copies puts its buffer into the pool
    twice: two other goroutines, which do nothing wrong, get the same buffer, and the bytes
    of one appear in the output of the other. *)
Theorem C91_copied_refuted :
  exists sch c, exec (initial 3) sch = Some c /\
    ops_of 0 sch = [ONew ToNil; OCopy 0; OFlush 0; OFlush 1] /\
    (forall i, (i = 1 \/ i = 2)%nat -> ops_of i sch = [ONew ToNil; OWrite 0 (wr [DUint (N.of_nat i)]); OToBytes 0]) /\
    alone (ops_of 2 sch) = Some [OutNone; OutNum 0; OutBytes [2]] /\
    outs c !! 2%nat = Some [OutNone; OutNum 0; OutBytes [1; 2]] /\
    alone (ops_of 0 sch) = None.
Proof.
  exists [LOp 0 (ONew ToNil) None; LOp 0 (OCopy 0) None; LOp 0 (OFlush 0) None; LOp 0 (OFlush 1) None;
          LOp 1 (ONew ToNil) (Some 0%nat); LOp 2 (ONew ToNil) (Some 0%nat);
          LOp 1 (OWrite 0 (wr [DUint (N.of_nat 1)])) None; LOp 2 (OWrite 0 (wr [DUint (N.of_nat 2)])) None;
          LOp 1 (OToBytes 0) None; LOp 2 (OToBytes 0) None].
  eexists. split; [vm_compute; reflexivity|]. split; [reflexivity|]. split; [intros i [E|E]; subst; reflexivity|].
  split; [vm_compute; reflexivity|]. split; vm_compute; reflexivity.
Qed.
Print Assumptions C91_copied_refuted.
