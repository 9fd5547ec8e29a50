(** C77: type descriptions, signatures and selectors. *)
From Coq Require Import NArith ZArith Lia Zify.
From stdpp Require Import list.
From Verif Require Import Base AbiModel AbiSelModel AbiSelSpec AbiSelProps AbiTypeModel AbiTypeSpec AbiTypeProofs.
Global Open Scope N_scope.

(** Every description of an ABI type is accepted. The Type made has the kind, the sizes and
    the component types described, its text is the canonical text, and a tuple keeps the
    component names and gets distinct exported field names that follow from them. *)
Theorem C77_describes : forall uvalid reflectable t cs internal,
  type_ok reflectable t -> spelled t cs ->
  exists ty, NewType uvalid reflectable (type_text t) internal cs = Ok ty /\
    erase ty = Some (plain t) /\ stringKind ty = sig t /\ names_kept t ty.
Proof. intros uvalid reflectable t cs internal Hok Hsp. apply new_type_ok; [done|done|lia]. Qed.
Print Assumptions C77_describes.

(** No description makes it panic, except through a component type too large for reflect. *)
Theorem C77_total : forall uvalid reflectable t internal cs,
  (forall a, reflectable a = true) -> NewType uvalid reflectable t internal cs <> Panic.
Proof. intros uvalid reflectable t internal cs Hr. apply new_type_total; [done|lia]. Qed.
Print Assumptions C77_total.

(** Outside tuples the text of a Type is the text it was made from. *)
Theorem C77_text : forall uvalid reflectable t internal cs ty,
  NewType uvalid reflectable t internal cs = Ok ty -> T (core ty) <> TupleTy -> stringKind ty = t.
Proof. intros uvalid reflectable t internal cs ty. apply new_type_text. Qed.
Print Assumptions C77_text.

(* ------------------------------------------------------------ unique text *)
Definition ends (r : list N) : Prop := match r with [] => True | c :: _ => c = 44 \/ c = 41 end.
Definition stopped (r : list N) : Prop := match r with [] => True | c :: _ => ~ letter c /\ ~ digit c end.
Lemma word_split w1 d1 x1 w2 d2 x2 :
  Forall letter w1 -> Forall digit d1 -> Forall letter w2 -> Forall digit d2 -> stopped x1 -> stopped x2 ->
  w1 ++ d1 ++ x1 = w2 ++ d2 ++ x2 -> w1 = w2 /\ d1 = d2 /\ x1 = x2.
Proof.
  intros A1 B1 A2 B2 S1 S2 E.
  assert (Hd : forall d x, Forall digit d -> stopped x -> match d ++ x with [] => True | c :: _ => isAlpha c = false end).
  { intros [|c d] x Hd Hx; cbn; [destruct x as [|c x]; [done|]; destruct Hx as [Hx _]; apply not_true_iff_false; by rewrite alpha_iff|].
    apply Forall_cons in Hd as [Hd _]. by apply alpha_false. }
  pose proof (span_stop isAlpha w1 (d1 ++ x1) (alpha_true _ A1) (Hd _ _ B1 S1)) as P1.
  pose proof (span_stop isAlpha w2 (d2 ++ x2) (alpha_true _ A2) (Hd _ _ B2 S2)) as P2.
  rewrite E in P1. rewrite P1 in P2. injection P2 as -> E2. split; [done|].
  assert (Hx : forall x, stopped x -> match x with [] => True | c :: _ => isDigit c = false end).
  { intros [|c x] Hx; [done|]. destruct Hx as [_ Hx]. apply not_true_iff_false. by rewrite digit_iff. }
  pose proof (span_stop isDigit d1 x1 (digits_true _ B1) (Hx _ S1)) as Q1.
  pose proof (span_stop isDigit d2 x2 (digits_true _ B2) (Hx _ S2)) as Q2.
  rewrite E2 in Q1. rewrite Q1 in Q2. by injection Q2 as -> ->.
Qed.
Definition scal_word (s : scal) : list N :=
  match s with NInt _ => s_int | NUint _ => s_uint | NFixed _ => s_bytes | _ => scal_text s end.
Definition scal_num (s : scal) : list N := match s with NInt n | NUint n | NFixed n => num n | _ => [] end.
Ltac letters := repeat (constructor; [unfold letter; lia|]); constructor.
Lemma scal_parts s : scal_text s = scal_word s ++ scal_num s /\ Forall letter (scal_word s) /\ Forall digit (scal_num s) /\ scal_word s <> [].
Proof.
  destruct s; cbn [scal_text scal_word scal_num]; rewrite ?app_nil_r; (split; [done|]; split; [letters|]; split; [apply num_digit || constructor|done]).
Qed.
Lemma scal_inj s1 s2 x1 x2 : stopped x1 -> stopped x2 -> scal_text s1 ++ x1 = scal_text s2 ++ x2 -> s1 = s2 /\ x1 = x2.
Proof.
  intros H1 H2 E. destruct (scal_parts s1) as (E1&A1&B1&_), (scal_parts s2) as (E2&A2&B2&_).
  rewrite E1, E2, <- !app_assoc in E. apply word_split in E as (Ew&Ed&Ex); [|done..]. split; [|done].
  pose proof (num_nonempty) as Hn.
  destruct s1, s2; try discriminate Ew; cbn [scal_num] in Ed; try (by apply num_inj in Ed as ->); try done;
    exfalso; (by eapply Hn) || (symmetry in Ed; by eapply Hn).
Qed.
Lemma ends_stopped r : ends r -> stopped r.
Proof. destruct r as [|c r]; [done|]. cbn. unfold letter, digit. lia. Qed.
Lemma dims_stopped ds r : ends r -> stopped (dims_text ds ++ r).
Proof. intros Hr. destruct ds as [|d ds]; [by apply ends_stopped|]. cbn. unfold letter, digit. lia. Qed.
Lemma dims_inj ds1 : forall ds2 r1 r2, ends r1 -> ends r2 -> dims_text ds1 ++ r1 = dims_text ds2 ++ r2 -> ds1 = ds2 /\ r1 = r2.
Proof.
  unfold dims_text. induction ds1 as [|d1 ds1 IH]; intros [|d2 ds2] r1 r2 H1 H2; cbn [map concat app]; [done|..].
  - intros ->. cbn in H1. lia.
  - intros <-. cbn in H2. lia.
  - rewrite <- !app_assoc. unfold dim at 1 3. rewrite <- !app_assoc. cbn [app]. intros E. injection E as E.
    pose proof (word_split [] (match d1 with None => [] | Some n => num n end) (93 :: concat (map dim ds1) ++ r1)
      [] (match d2 with None => [] | Some n => num n end) (93 :: concat (map dim ds2) ++ r2)) as Hs.
    destruct Hs as (_&Ed&Ex); [constructor| |constructor| | | |exact E|].
    { destruct d1; [apply num_digit|constructor]. } { destruct d2; [apply num_digit|constructor]. }
    { cbn. unfold letter, digit. lia. } { cbn. unfold letter, digit. lia. }
    injection Ex as Ex. apply IH in Ex as [-> ->]; [|done|done]. split; [|done]. f_equal.
    destruct d1, d2; [by apply num_inj in Ed as ->|by apply num_nonempty in Ed|symmetry in Ed; by apply num_nonempty in Ed|done].
Qed.
Lemma sig_head t : exists c r, sig t = c :: r /\ (letter c \/ c = 40).
Proof.
  destruct t as [s ds|names fs ds]; cbn [sig]; [|eexists _, _; split; [done|by right]].
  destruct (scal_parts s) as (->&A&_&Hn). destruct (scal_word s) as [|c w]; [done|]. apply Forall_cons in A as [Hc _]. eexists c, _. split; [done|by left].
Qed.
Lemma sig_inj_gen t1 : forall t2 r1 r2, ends r1 -> ends r2 -> sig t1 ++ r1 = sig t2 ++ r2 -> plain t1 = plain t2 /\ r1 = r2.
Proof.
  induction t1 as [s1 ds1|n1 fs1 ds1 IH] using nty_ind'; intros [s2 ds2|n2 fs2 ds2] r1 r2 H1 H2 E; cbn [sig] in E; rewrite <- ?app_assoc in E.
  - apply scal_inj in E as [-> E]; [|by apply dims_stopped..]. apply dims_inj in E as [-> ->]; done.
  - exfalso. destruct (scal_parts s1) as (Es&A&_&Hn). rewrite Es in E. destruct (scal_word s1) as [|c w]; [done|].
    apply Forall_cons in A as [Hc _]. cbn in E. injection E as -> _. unfold letter in Hc. lia.
  - exfalso. destruct (scal_parts s2) as (Es&A&_&Hn). rewrite Es in E. destruct (scal_word s2) as [|c w]; [done|].
    apply Forall_cons in A as [Hc _]. cbn in E. injection E as <- _. unfold letter in Hc. lia.
  - cbn [app] in E. injection E as E.
    assert (Hj : map plain fs1 = map plain fs2 /\ dims_text ds1 ++ r1 = dims_text ds2 ++ r2).
    { set (y1 := dims_text ds1 ++ r1) in *. set (y2 := dims_text ds2 ++ r2) in *. clearbody y1 y2. clear -IH E. revert fs2 E.
      induction IH as [|f1 fs1 Hf IHf IHl]; intros [|f2 fs2] E; cbn [map join] in *.
      - by injection E.
      - exfalso. destruct (sig_head f2) as (c&r&Es&Hc). destruct fs2; cbn in E; rewrite Es in E; cbn in E; injection E as <- _; unfold letter in Hc; lia.
      - exfalso. destruct (sig_head f1) as (c&r&Es&Hc). destruct fs1; cbn in E; rewrite Es in E; cbn in E; injection E as -> _; unfold letter in Hc; lia.
      - destruct fs1 as [|g1 fs1], fs2 as [|g2 fs2]; cbn [map] in *.
        + apply Hf in E as [-> E]; [|by right..]. by injection E.
        + rewrite <- app_assoc in E. apply Hf in E as [_ E]; [done|by right|by left].
        + rewrite <- app_assoc in E. apply Hf in E as [_ E]; [done|by left|by right].
        + rewrite <- !app_assoc in E. apply Hf in E as [-> E]; [|by left..]. injection E as E.
          destruct (IHl (g2 :: fs2) E) as [E1 E2]. cbn [map] in E1. by rewrite E1. }
    destruct Hj as [E1 E2]. apply dims_inj in E2 as [-> ->]; [|done|done]. cbn [plain]. by rewrite E1.
Qed.
(** Different types have different texts, so different argument lists have different
    signatures: two methods or events with the same signature have the same name and the
    same argument types. *)
Theorem C77_text_determines_type : forall t1 t2, sig t1 = sig t2 -> plain t1 = plain t2.
Proof. intros t1 t2 E. apply (sig_inj_gen t1 t2 [] []); [done|done|]. by rewrite !app_nil_r. Qed.
Print Assumptions C77_text_determines_type.

Lemma kinds_of ts (tys : list (list N * typ)) : Forall2 (fun t a => erase a.2 = Some (plain t) /\ stringKind a.2 = sig t) ts tys ->
  map (fun a => stringKind a.2) tys = map sig ts.
Proof. induction 1 as [|t a ts tys [_ E] _ IH]; cbn; [done|]. by rewrite E, IH. Qed.
(** The Types made for descriptions. *)
Inductive described_by uvalid reflectable : list nty -> list (list N * typ) -> Prop :=
| db_nil : described_by uvalid reflectable [] []
| db_cons t cs internal name ty ts tys : type_ok reflectable t -> spelled t cs ->
    NewType uvalid reflectable (type_text t) internal cs = Ok ty -> described_by uvalid reflectable ts tys ->
    described_by uvalid reflectable (t :: ts) ((name, ty) :: tys).
Lemma described_kinds uvalid reflectable ts tys : described_by uvalid reflectable ts tys -> map (fun a => stringKind a.2) tys = map sig ts.
Proof.
  induction 1 as [|t cs internal name ty ts tys Hok Hsp E _ IH]; [done|]. cbn. rewrite IH.
  destruct (C77_describes uvalid reflectable t cs internal Hok Hsp) as (ty'&E'&_&Hk&_). congruence.
Qed.
Theorem C77_signatures_differ : forall uvalid reflectable ts1 ts2 args1 args2 name1 name2,
  described_by uvalid reflectable ts1 args1 -> described_by uvalid reflectable ts2 args2 ->
  identifier name1 -> identifier name2 ->
  signature name1 args1 = signature name2 args2 -> name1 = name2 /\ map plain ts1 = map plain ts2.
Proof.
  intros uvalid reflectable ts1 ts2 args1 args2 name1 name2 H1 H2 I1 I2. unfold signature.
  rewrite (described_kinds _ _ _ _ H1), (described_kinds _ _ _ _ H2), (join_same (map sig ts1)), (join_same (map sig ts2)). intros E.
  assert (Hid : forall n, identifier n -> Forall (fun c => negb (c =? 40) = true) n).
  { intros n (c&r&->&Hc&Hr). constructor; [|eapply Forall_impl; [exact Hr|]]; cbn; intros; apply negb_true_iff, N.eqb_neq; unfold letter, digit, mark in *; lia. }
  assert (name1 = name2 /\ join (map sig ts1) ++ [41] = join (map sig ts2) ++ [41]) as [-> Ej].
  { pose proof (span_stop (fun c => negb (c =? 40)) name1 ([40] ++ join (map sig ts1) ++ [41]) (Hid _ I1) eq_refl) as P1.
    pose proof (span_stop (fun c => negb (c =? 40)) name2 ([40] ++ join (map sig ts2) ++ [41]) (Hid _ I2) eq_refl) as P2.
    rewrite E in P1. rewrite P1 in P2. injection P2 as -> Ej. split; [done|]. exact Ej. }
  split; [done|]. assert (Et : sig (Tup [] ts1 []) = sig (Tup [] ts2 [])) by (cbn [sig dims_text map concat]; rewrite !app_nil_r; by rewrite Ej).
  apply C77_text_determines_type in Et. cbn in Et. by injection Et.
Qed.
Print Assumptions C77_signatures_differ.

(* -------------------------------------------------------------- selectors *)
Fixpoint to_sty (t : nty) : sty :=
  match t with
  | Scal s ds => SElem (scal_text s) (map (fun d => match d with None => [] | Some n => num n end) ds)
  | Tup _ fs ds => STup (map to_sty fs) (match ds with [] => false | _ => true end)
  end.
Fixpoint numbered (t : nty) : nty :=
  match t with
  | Scal s ds => Scal s ds
  | Tup _ fs ds => Tup (map (fun i => str_name ++ decimal i) (seq 0 (length fs))) (map numbered fs) ds
  end.
Lemma brackets_dims ds : brackets (map (fun d => match d with None => [] | Some n => num n end) ds) = dims_text ds.
Proof. unfold brackets, dims_text. f_equal. rewrite map_map. done. Qed.
Lemma show_sig t : selectable t -> show (to_sty t) = sig t.
Proof.
  induction t as [s ds|names fs ds IH] using nty_ind'; intros Hs; cbn [to_sty show sig].
  - by rewrite brackets_dims.
  - inversion Hs as [|? ? ? _ Hf Hd]; subst. rewrite map_map. assert (map (fun x => show (to_sty x)) fs = map sig fs) as ->.
    { clear -IH Hf. induction IH as [|f fs Hx _ IHl]; [done|]. apply Forall_cons in Hf as [Hf Hfs]. cbn. by rewrite Hx, IHl. }
    by destruct Hd as [-> | ->].
Qed.
Lemma sty_wf t : selectable t -> well_formed (to_sty t).
Proof.
  induction t as [s ds|names fs ds IH] using nty_ind'; intros Hs; cbn [to_sty].
  - constructor.
    + destruct (scal_parts s) as (->&A&B&Hn). destruct (scal_word s) as [|c w]; [done|]. apply Forall_cons in A as [Hc A].
      exists c, (w ++ scal_num s). split; [done|]. split; [done|]. apply Forall_app. split; [eapply Forall_impl; [exact A|]|eapply Forall_impl; [exact B|]]; cbn; tauto.
    + apply Forall_fmap, Forall_forall. intros [n|] _; cbn; [apply num_digit|constructor].
  - inversion Hs as [|? ? ? Hne Hf _]; subst. constructor; [by destruct fs|].
    apply Forall_fmap. clear -IH Hf. induction IH as [|f fs Hx _ IHl]; [constructor|]. apply Forall_cons in Hf as [Hf Hfs]. constructor; [by apply Hx|by apply IHl].
Qed.
Lemma numbered_same t : plain (numbered t) = plain t /\ sig (numbered t) = sig t /\ type_text (numbered t) = type_text t.
Proof.
  induction t as [s ds|names fs ds IH] using nty_ind'; [done|]. cbn [numbered plain sig type_text].
  assert (map plain (map numbered fs) = map plain fs /\ map sig (map numbered fs) = map sig fs) as [-> ->]; [|done].
  induction IH as [|f fs (A&B&_) _ [I1 I2]]; [done|]. cbn. by rewrite A, B, I1, I2.
Qed.
Lemma name_field i : field_name (str_name ++ decimal i).
Proof.
  exists [], 110, ([97; 109; 101] ++ decimal i). split; [done|]. split; [constructor|]. split; [unfold letter; lia|].
  apply Forall_app. split; [repeat (constructor; [left; unfold letter; lia|]); constructor|]. eapply Forall_impl; [apply digits_of_digit|]. cbn. tauto.
Qed.
Lemma numbered_ok reflectable t : type_ok reflectable t -> type_ok reflectable (numbered t).
Proof.
  induction t as [s ds|names fs ds IH] using nty_ind'; intros Hok; [done|]. inversion Hok as [|? ? ? _ Hf Hr Hd]; subst. cbn [numbered].
  constructor; [|..|done].
  - apply Forall_fmap, Forall_forall. intros i _. apply name_field.
  - apply Forall_fmap. clear -IH Hf. induction IH as [|f fs Hx _ IHl]; [constructor|]. apply Forall_cons in Hf as [Hf Hfs]. constructor; [by apply Hx|by apply IHl].
  - apply Forall_fmap. eapply Forall_impl; [exact Hr|]. intros f Hf'. cbn. by rewrite (proj1 (numbered_same f)).
Qed.
Definition marsh_args (a : arg) : list amarsh := let 'AM _ _ _ cs := to_marsh a in cs.
Lemma described_marsh t : selectable t -> forall i,
  to_marsh (described i (to_sty t)) = AM (str_name ++ decimal i) (type_text t) (type_text t) (marsh_args (described i (to_sty t))) /\
  spelled (numbered t) (marsh_args (described i (to_sty t))).
Proof.
  induction t as [s ds|names fs ds IH] using nty_ind'; intros Hs i.
  - cbn. rewrite brackets_dims. split; [done|constructor].
  - inversion Hs as [|? ? ? _ Hf Hd]; subst. cbn [to_sty described numbered]. unfold marsh_args. cbn [to_marsh].
    assert (Htt : (if match ds with [] => false | _ => true end then str_tuple ++ str_brackets else str_tuple) = type_text (Tup names fs ds)).
    { destruct Hd as [-> | ->]; reflexivity. }
    rewrite Htt. split; [done|]. constructor.
    assert (Hgo : forall j, spelled_fields (map (fun i => str_name ++ decimal i) (seq j (length fs))) (map numbered fs)
      (map to_marsh ((fix go (i : nat) (l : list sty) := match l with [] => [] | t :: l' => described i t :: go (S i) l' end) j (map to_sty fs)))); [|apply Hgo].
    clear -IH Hf. induction IH as [|f fs Hx _ IHl]; intros j; cbn [length seq map]; [constructor|].
    apply Forall_cons in Hf as [Hf Hfs]. destruct (Hx Hf j) as [E Hsp]. rewrite E, <- (proj2 (proj2 (numbered_same f))). by constructor; [|apply IHl].
Qed.

(** From text to types and back: the textual selector of a method parses; making Types of
    the parsed arguments succeeds and gives the argument types; and the signature computed
    from them, whose hash is the method id, is the text. *)
Theorem C77_selector : forall uvalid reflectable name ts,
  identifier name -> Forall selectable ts -> Forall (type_ok reflectable) ts ->
  exists args tys,
    ParseSelector (name ++ [40] ++ join (map sig ts) ++ [41]) = Ok (name, args) /\
    NewArguments uvalid reflectable (map to_marsh args) = Ok tys /\
    Forall2 (fun t a => erase a.2 = Some (plain t)) ts tys /\
    signature name tys = name ++ [40] ++ join (map sig ts) ++ [41].
Proof.
  intros uvalid reflectable name ts Hn Hs Hok.
  assert (map sig ts = map show (map to_sty ts)) as Em.
  { rewrite map_map. clear -Hs. induction Hs as [|t ts Ht _ IH]; [done|]. cbn. by rewrite show_sig, IH. }
  exists (described_from 0 (map to_sty ts)).
  assert (Hargs : forall i, exists tys, NewArguments uvalid reflectable (map to_marsh (described_from i (map to_sty ts))) = Ok tys /\
    Forall2 (fun t a => erase a.2 = Some (plain t) /\ stringKind a.2 = sig t) ts tys).
  { clear -Hs Hok. induction Hs as [|t ts Ht _ IH]; intros i; [exists []; by split|]. apply Forall_cons in Hok as [Hok Hoks]. cbn [map described_from].
    destruct (described_marsh t Ht i) as [E Hsp]. rewrite E. cbn [NewArguments].
    destruct (C77_describes uvalid reflectable (numbered t) _ (type_text t) (numbered_ok _ _ Hok) Hsp) as (ty&E1&E2&E3&_).
    destruct (numbered_same t) as (P1&P2&P3). rewrite P3 in E1. rewrite E1. cbn [rbind].
    destruct (IH Hoks (S i)) as (tys&E4&Hf). rewrite E4. cbn [rbind]. eexists. split; [reflexivity|]. constructor; [|done].
    cbn. by rewrite E2, E3, P1, P2. }
  destruct (Hargs 0%nat) as (tys&E&Hf). exists tys. split; [|split; [done|split]].
  - rewrite Em. apply C44_inverts; [done|]. apply Forall_fmap. eapply Forall_impl; [exact Hs|]. apply sty_wf.
  - eapply Forall2_impl; [exact Hf|]. by intros ? ? [? _].
  - unfold signature. by rewrite (kinds_of _ _ Hf), join_same.
Qed.
Print Assumptions C77_selector.

(** Field names of ASCII are the identifiers of Go: a letter or underscore, then letters,
    digits and underscores. *)
Theorem C77_field_names : forall uvalid s, Forall (fun c => c < 128) s ->
  isValidFieldName uvalid s = true <->
  exists c r, s = c :: r /\ (letter c \/ c = 95) /\ Forall (fun x => letter x \/ digit x \/ x = 95) r.
Proof.
  intros uvalid s Ha. unfold isValidFieldName.
  assert (forallb (fun c => c <? 128) s = true) as ->.
  { apply forallb_forall. intros c Hc. apply N.ltb_lt. rewrite Forall_forall in Ha. apply Ha. by apply elem_of_list_In. }
  assert (forall c, isAlpha c || (c =? 95) || isDigit c = true <-> letter c \/ digit c \/ c = 95) as Hc.
  { intros c. rewrite !orb_true_iff, alpha_iff, N.eqb_eq. unfold isDigit, digit. rewrite andb_true_iff, !N.leb_le. tauto. }
  destruct s as [|c r]; [split; [done|by intros (? & ? & ? & _)]|]. rewrite andb_true_iff, orb_true_iff, alpha_iff, N.eqb_eq. cbn [forallb].
  rewrite andb_true_iff, forallb_forall, Hc. split.
  - intros (H1 & _ & H3). exists c, r. split; [done|]. split; [done|]. apply Forall_forall. intros x Hx. apply Hc, H3. by apply elem_of_list_In.
  - intros (c' & r' & [= <- <-] & H1 & H2). split; [done|]. split; [tauto|]. intros x Hx. apply Hc. rewrite Forall_forall in H2. apply H2. by apply elem_of_list_In.
Qed.
Print Assumptions C77_field_names.

(** NewType is not strict: text around a type, "bytes0", odd sizes, sizes on types that have
    none and anything but a number of digits between brackets pass, and the text goes into
    the signature. *)
Theorem C77_strict_refuted : forall uvalid reflectable,
  let newType t := NewType uvalid reflectable t [] [] in
  let kind t := match newType t with Ok ty => Some (erase ty, stringKind ty) | _ => None end in
  let q t a := kind t = Some (Some a, t) in
  q [45; 117; 105; 110; 116; 56; 33] (TUint 8) /\                      (* -uint8! *)
  q [98; 111; 111; 108; 55] TBool /\                                   (* bool7 *)
  q [98; 121; 116; 101; 115; 48] TBytes /\                             (* bytes0 *)
  q [117; 105; 110; 116; 55] (TUint 7) /\                              (* uint7 *)
  q [117; 105; 110; 116; 48; 56] (TUint 8) /\                          (* uint08 *)
  q [98; 111; 111; 108; 91; 45; 50; 93] (TArray TBool 2) /\            (* bool[-2] *)
  q [98; 111; 111; 108; 91; 93; 120] (TSlice TBool).                   (* bool[]x *)
Proof. intros uvalid reflectable. cbn zeta. split_and!; vm_compute; reflexivity. Qed.
Print Assumptions C77_strict_refuted.

(* ((uint256,bytes32[2])[],address) with names a_b, _a, a, x *)
Definition ex_pair : nty := Tup [[97; 95; 98]; [95; 97]] [Scal (NUint 256) []; Scal (NFixed 32) [Some 2]] [None].
Definition ex_type : nty := Tup [[97]; [95; 97]] [ex_pair; Scal NAddress []] [].
Definition ex_comps : list amarsh :=
  [AM [97] (s_tuple ++ [91; 93]) [] [AM [97; 95; 98] (s_uint ++ [50; 53; 54]) [] []; AM [95; 97] (s_bytes ++ [51; 50; 91; 50; 93]) [] []];
   AM [95; 97] s_address [] []].
Example C77_example :
  type_ok (fun _ => true) ex_type /\ spelled ex_type ex_comps /\ selectable ex_type /\
  sig ex_type = [40; 40; 117; 105; 110; 116; 50; 53; 54; 44; 98; 121; 116; 101; 115; 51; 50; 91; 50; 93; 41; 91; 93; 44; 97; 100; 100; 114; 101; 115; 115; 41] /\
  (* the fields of the outer tuple are A and A0 *)
  match NewType (fun _ => false) (fun _ => true) s_tuple (s_struct ++ [84; 46; 85]) ex_comps with
  | Ok ty => TupleFields ty = [[65]; [65; 48]] /\ TupleRawName ty = [84; 85] | _ => False end.
Proof.
  assert (Hl : forall c, 97 <= c <= 122 -> letter c) by (unfold letter; lia).
  assert (F1 : field_name [97]) by (exists [], 97, []; split_and!; [done|constructor|apply Hl; lia|constructor]).
  assert (F2 : field_name [95; 97]) by (exists [95], 97, []; split_and!; [done|repeat constructor|apply Hl; lia|constructor]).
  assert (F3 : field_name [97; 95; 98]).
  { exists [], 97, [95; 98]; split_and!; [done|constructor|apply Hl; lia|]. constructor; [tauto|]. constructor; [left; apply Hl; lia|constructor]. }
  split; [|split; [|split; [|split]]].
  - repeat (constructor || done); cbn; try lia.
  - repeat (constructor || done).
  - apply sel_tup; [done| |by left]. constructor; [|repeat constructor]. apply sel_tup; [done|repeat constructor|by right].
  - vm_compute. reflexivity.
  - vm_compute. done.
Qed.
