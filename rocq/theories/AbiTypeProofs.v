(** Parsing of ABI types. *)
From Coq Require Import NArith ZArith Lia Zify DecimalN DecimalPos.
From stdpp Require Import list.
From Verif Require Import Base AbiModel AbiSelModel AbiSelSpec AbiSelProps AbiTypeModel AbiTypeSpec.
Global Open Scope N_scope.

Lemma nty_ind' (P : nty -> Prop) :
  (forall s ds, P (Scal s ds)) -> (forall names fs ds, Forall P fs -> P (Tup names fs ds)) -> forall t, P t.
Proof.
  intros Hs Ht. fix IH 1. intros [s ds|names fs ds]; [apply Hs|]. apply Ht. induction fs; constructor; [apply IH|done].
Qed.

(* ---------------------------------------------------------------- numbers *)
Lemma dec_acc d : forall p, dec_value (Npos p) (digits_of d) = Npos (Pos.of_uint_acc d p).
Proof. induction d; intros p; cbn [digits_of dec_value Pos.of_uint_acc]; [done|..]; rewrite <- IHd; f_equal; lia. Qed.
Lemma dec_of d : dec_value 0 (digits_of d) = N.of_uint d.
Proof.
  unfold N.of_uint. induction d; cbn [digits_of dec_value Pos.of_uint]; [done|exact IHd|..]; rewrite <- dec_acc; f_equal.
Qed.
Lemma num_value n : dec_value 0 (num n) = n.
Proof. unfold num. rewrite dec_of. apply DecimalN.Unsigned.of_to. Qed.
Lemma digits_of_digit d : Forall digit (digits_of d).
Proof. induction d; cbn; constructor; unfold digit; (lia || done). Qed.
Lemma num_digit n : Forall digit (num n).
Proof. apply digits_of_digit. Qed.
Lemma num_nonempty n : num n <> [].
Proof.
  unfold num. intros E. assert (N.to_uint n = Decimal.Nil) as E0 by (by destruct (N.to_uint n)).
  destruct n as [|p]; [done|]. cbn in E0. by apply DecimalPos.Unsigned.to_uint_nonnil in E0.
Qed.
Lemma num_inj n m : num n = num m -> n = m.
Proof. intros E. by rewrite <- (num_value n), E, num_value. Qed.
Lemma Atoi_num n : n < 2 ^ 63 -> Atoi (num n) = Some n.
Proof.
  intros Hn. unfold Atoi. rewrite bool_decide_false by apply num_nonempty.
  assert (forallb isDigit (num n) = true) as ->.
  { apply forallb_forall. intros x Hx. apply digit_iff. pose proof (num_digit n) as Hd. rewrite Forall_forall in Hd. apply Hd. by apply elem_of_list_In. }
  cbn. rewrite num_value. destruct (N.ltb_spec n (2 ^ 63)); [done|lia].
Qed.

(* ------------------------------------------------------------------ spans *)
Lemma span_stop p a b : Forall (fun c => p c = true) a -> match b with [] => True | c :: _ => p c = false end -> span p (a ++ b) = (a, b).
Proof.
  intros Ha Hb. induction Ha as [|c a Hc Ha IH]; cbn; [|by rewrite Hc, IH].
  destruct b as [|c b]; cbn; [done|]. by rewrite Hb.
Qed.
Lemma span_all p a : Forall (fun c => p c = true) a -> span p a = (a, []).
Proof. intros Ha. rewrite <- (app_nil_r a) at 1. by apply span_stop. Qed.
Lemma digit_false c : c < 48 \/ 57 < c -> isDigit c = false.
Proof. unfold isDigit. intros H. destruct (N.leb_spec 48 c), (N.leb_spec c 57); cbn; (lia || done). Qed.
Lemma digits_true s : Forall digit s -> Forall (fun c => isDigit c = true) s.
Proof. intros H. eapply Forall_impl; [exact H|]. intros c. apply digit_iff. Qed.

Lemma digit_runs_dim d : digit_runs (length (dim d)) (dim d) = match d with None => [] | Some n => [num n] end.
Proof.
  unfold dim. destruct d as [n|]; [|reflexivity]. cbn [app length]. rewrite app_length. cbn [length digit_runs].
  change (isDigit 91) with false. cbn iota. pose proof (num_digit n) as Hd. pose proof (num_nonempty n) as Hn.
  destruct (num n) as [|x l] eqn:E; [done|]. cbn [length app Nat.add digit_runs].
  apply Forall_cons in Hd as [Hx Hl]. rewrite (proj2 (digit_iff x) Hx).
  change (x :: l ++ [93]) with ((x :: l) ++ [93]). rewrite span_stop; [|apply digits_true; by constructor|reflexivity].
  f_equal. rewrite Nat.add_1_r. cbn [digit_runs]. change (isDigit 93) with false. cbn iota. by destruct l.
Qed.

(* --------------------------------------------------------------- brackets *)
Lemma count_app c a b : count c (a ++ b) = (count c a + count c b)%nat.
Proof. unfold count. by rewrite List.filter_app, app_length. Qed.
Lemma count_none c s : Forall (fun x => x <> c) s -> count c s = 0%nat.
Proof.
  unfold count. induction 1 as [|x s Hx Hs IH]; cbn; [done|]. destruct (N.eqb_spec c x); [congruence|done].
Qed.
Lemma last_index_app c a b : (0 < count c b)%nat -> last_index c (a ++ b) = option_map (fun i => (length a + i)%nat) (last_index c b).
Proof.
  intros Hb. assert (Hs : exists i, last_index c b = Some i).
  { clear a. induction b as [|x b IH]; cbn in *; [unfold count in Hb; cbn in Hb; lia|].
    destruct (last_index c b) as [i|]; [by exists (S i)|]. unfold count in *. cbn in Hb. destruct (N.eqb_spec c x) as [->|].
    - rewrite N.eqb_refl. by exists 0%nat.
    - destruct (IH Hb) as [i Hi]. done. }
  destruct Hs as [i Hi]. rewrite Hi. cbn. induction a as [|x a IH]; cbn; [done|]. by rewrite IH.
Qed.
Lemma last_index_none c s : count c s = 0%nat -> last_index c s = None.
Proof.
  unfold count. induction s as [|x s IH]; cbn; [done|]. destruct (N.eqb_spec c x); cbn; intros H; [lia|]. rewrite IH by done.
  destruct (N.eqb_spec x c); [congruence|done].
Qed.
Lemma num_no c n : c < 48 \/ 57 < c -> Forall (fun x => x <> c) (num n).
Proof. intros Hc. eapply Forall_impl; [apply num_digit|]. unfold digit. intros x Hx. cbn in *. lia. Qed.
Lemma dim_body_no d c : c < 48 \/ 57 < c -> Forall (fun x => x <> c) (match d with None => [] | Some n => num n end).
Proof. intros Hc. destruct d; [by apply num_no|constructor]. Qed.
Lemma count_dim d : count 91 (dim d) = 1%nat /\ count 93 (dim d) = 1%nat /\ last_index 91 (dim d) = Some 0%nat.
Proof.
  unfold dim. rewrite !count_app. pose proof (dim_body_no d 91 ltac:(lia)) as H1. pose proof (dim_body_no d 93 ltac:(lia)) as H2.
  rewrite !(count_none _ _ H1), !(count_none _ _ H2). split; [done|]. split; [done|]. cbn [app last_index].
  rewrite last_index_none; [done|]. rewrite count_app, (count_none _ _ H1). done.
Qed.
Lemma count_dims ds : count 91 (dims_text ds) = length ds /\ count 93 (dims_text ds) = length ds.
Proof.
  unfold dims_text. induction ds as [|d ds [I1 I2]]; [done|]. cbn [map concat length]. rewrite !count_app. destruct (count_dim d) as (A&B&_). lia.
Qed.
Lemma dims_snoc ds d : dims_text (ds ++ [d]) = dims_text ds ++ dim d.
Proof. unfold dims_text. rewrite map_app, concat_app. cbn. by rewrite app_nil_r. Qed.

(* ---------------------------------------------------------- type matching *)
Lemma alpha_true s : Forall letter s -> Forall (fun c => isAlpha c = true) s.
Proof. intros H. eapply Forall_impl; [exact H|]. intros c. apply alpha_iff. Qed.
Lemma alpha_false c : digit c -> isAlpha c = false.
Proof. intros H. apply not_true_iff_false. rewrite alpha_iff. unfold letter, digit in *. lia. Qed.
Lemma type_match_word w : w <> [] -> Forall letter w -> type_match w = Some (w, w, [], []).
Proof.
  intros Hn Hw. unfold type_match. destruct w as [|c w]; [done|]. apply Forall_cons in Hw as Hc. destruct Hc as [Hc _].
  cbn [span]. apply alpha_iff in Hc as Hc'. rewrite Hc'. cbn [negb]. cbn beta iota zeta.
  rewrite span_all by (by apply alpha_true). reflexivity.
Qed.
Lemma type_match_num w n : w <> [] -> Forall letter w -> type_match (w ++ num n) = Some (w ++ num n, w, num n, num n).
Proof.
  intros Hn Hw. unfold type_match.
  assert (span (fun c => negb (isAlpha c)) (w ++ num n) = ([], w ++ num n)) as ->.
  { destruct w as [|c w]; [done|]. apply Forall_cons in Hw as [Hc _]. cbn [span app]. apply alpha_iff in Hc. by rewrite Hc. }
  rewrite span_stop; [|by apply alpha_true|].
  2:{ pose proof (num_digit n) as Hd. destruct (num n); [done|]. apply Forall_cons in Hd as [Hd _]. by apply alpha_false. }
  destruct w as [|c w]; [done|]. rewrite span_all by (apply digits_true, num_digit).
  destruct (num n) eqn:E; [by apply num_nonempty in E|]. reflexivity.
Qed.

(* ---------------------------------------------------------------- names *)
(** the first part of a name and what is behind the underscore *)
Lemma camel_parts n : Forall (fun x => x < 128) n ->
  forall first, exists parts, parts <> [] /\ n = concat (map (fun p => p ++ [95]) (removelast parts)) ++ default [] (last parts) /\
    Forall (Forall (fun c => c <> 95)) parts /\
    camel first n = (if first then capital else fun x => x) (default [] (head parts)) ++ concat (map capital (tail parts)).
Proof.
  induction n as [|c n IH]; intros Ha first.
  - exists [[]]. split; [done|]. split; [done|]. split; [repeat constructor|]. by destruct first.
  - apply Forall_cons in Ha as [Hc Ha]. cbn [camel]. destruct (N.eqb_spec c 95) as [->|Hn].
    + destruct (IH Ha true) as (parts&Hp&En&Hf&Ec). exists ([] :: parts). split; [done|]. split.
      { rewrite En at 1. destruct parts as [|x parts]; [done|]. reflexivity. }
      split; [by constructor|]. cbn [head tail default]. rewrite Ec. destruct parts as [|x parts]; [done|]. by destruct first.
    + destruct (IH Ha false) as (parts&Hp&En&Hf&Ec). destruct parts as [|x parts]; [done|].
      exists ((c :: x) :: parts). split; [done|]. split.
      { rewrite En at 1. by destruct parts. }
      split. { apply Forall_cons in Hf as [Hx Hf]. constructor; [by constructor|done]. }
      cbn [head tail default]. rewrite Ec. cbn [head tail default]. destruct first; [|done]. unfold id. cbn [capital]. unfold upper1.
      destruct (_ && _); [done|]. destruct (N.ltb_spec c 128); [done|lia].
Qed.
Lemma field_name_ascii n : field_name n -> Forall (fun x => x < 128) n.
Proof.
  intros (us&c&r&->&Hu&Hc&Hr). apply Forall_app. split; [eapply Forall_impl; [exact Hu|]; cbn; intros; lia|].
  constructor; [unfold letter in Hc; lia|]. eapply Forall_impl; [exact Hr|]. unfold letter, digit. cbn. intros; lia.
Qed.
Lemma camel_go n : field_name n -> go_name n (ToCamelCase n) /\ forall k, go_name n (ToCamelCase n ++ decimal k).
Proof.
  intros Hn. destruct (camel_parts n (field_name_ascii n Hn) true) as (parts&Hp&En&Hf&Ec).
  assert (ToCamelCase n = concat (map capital parts)) as E. { unfold ToCamelCase. rewrite Ec. by destruct parts. }
  rewrite E. split; [|intros k]; exists parts; (split; [done|]; split; [done|]); [by left|right; by exists k].
Qed.
Lemma camel_chars first r : Forall (fun x => letter x \/ digit x \/ x = 95) r -> Forall (fun x => letter x \/ digit x) (camel first r).
Proof.
  intros Hr. revert first. induction Hr as [|c r Hc Hr IH]; intros first; cbn [camel]; [constructor|].
  destruct (N.eqb_spec c 95); [apply IH|]. apply Forall_app. split; [|apply IH]. destruct first; [|constructor; [tauto|constructor]].
  unfold upper1. destruct (N.leb_spec 97 c), (N.leb_spec c 122); cbn [andb]; try destruct (N.ltb_spec c 128);
    unfold letter, digit in *; try lia; (constructor; [lia|constructor]).
Qed.
Lemma camel_exported n : field_name n -> exported (ToCamelCase n).
Proof.
  intros (us&c&r&->&Hu&Hc&Hr). unfold ToCamelCase. induction Hu as [|u us -> Hu IH]; [|cbn; exact IH].
  cbn [app camel]. destruct (N.eqb_spec c 95); [unfold letter in Hc; lia|]. unfold upper1, letter in *.
  destruct (N.leb_spec 97 c), (N.leb_spec c 122); cbn [andb]; try destruct (N.ltb_spec c 128); try lia.
  - exists (c - 32), (camel false r). split; [done|]. split; [lia|by apply camel_chars].
  - exists c, (camel false r). split; [done|]. split; [lia|by apply camel_chars].
Qed.
Lemma exported_app f k : exported f -> exported (f ++ decimal k).
Proof.
  intros (c&r&->&Hc&Hr). exists c, (r ++ decimal k). split; [done|]. split; [done|]. apply Forall_app. split; [done|].
  eapply Forall_impl; [apply digits_of_digit|]. cbn. tauto.
Qed.
Lemma exported_valid uvalid f : exported f -> isValidFieldName uvalid f = true.
Proof.
  intros (c&r&->&Hc&Hr). unfold isValidFieldName.
  assert (forallb (fun x => x <? 128) (c :: r) = true) as ->.
  { apply forallb_forall. intros x Hx%elem_of_list_In. apply N.ltb_lt. apply elem_of_cons in Hx as [->|Hx]; [lia|].
    rewrite Forall_forall in Hr. apply Hr in Hx. unfold letter, digit in Hx. lia. }
  assert (isAlpha c = true) as Ec by (apply alpha_iff; unfold letter; lia). rewrite Ec. cbn [orb andb].
  apply forallb_forall. intros x Hx%elem_of_list_In. apply elem_of_cons in Hx as [->|Hx]; [by rewrite Ec|].
  rewrite Forall_forall in Hr. apply Hr in Hx as [H|H]; [apply alpha_iff in H; by rewrite H|apply digit_iff in H; rewrite H; by rewrite orb_true_r].
Qed.

(* --------------------------------------------------------------- new_type *)
Section main.
  Context (uvalid : list N -> bool) (reflectable : aty -> bool).
  Notation new_type := (new_type uvalid reflectable).

  (** one array dimension *)
  Definition sub_internal (internal : list N) : list N :=
    match last_index 91 internal with Some i => take i internal | None => internal end.
  Lemma new_type_dim f t d internal cs : dim_ok d -> count 91 t = count 93 t ->
    new_type (S f) (t ++ dim d) internal cs =
      rbind (new_type f t (sub_internal internal) cs) (fun emb =>
        Ok (Typ (match d with None => SliceTy | Some _ => ArrayTy end) (default 0 d) (stringKind emb ++ dim d) (Some emb) [] [] [] [])).
  Proof.
    intros Hd Hc. cbn [AbiTypeModel.new_type]. rewrite !count_app. destruct (count_dim d) as (A&B&C). rewrite A, B, Hc.
    rewrite Nat.eqb_refl. cbn [negb]. destruct (Nat.eqb_spec (count 93 t + 1) 0) as [|_]; [lia|]. cbn [negb].
    rewrite last_index_app by lia. rewrite C. cbn [option_map]. rewrite Nat.add_0_r, take_app, drop_app.
    unfold sub_internal. destruct (new_type f t _ cs) as [emb| |]; cbn [rbind]; [|done|done].
    rewrite digit_runs_dim. destruct d as [n|]; [|reflexivity]. rewrite Atoi_num by exact Hd. reflexivity.
  Qed.
  Lemma new_type_dims (G : typ -> Prop) b cs n :
    count 91 b = 0%nat -> count 93 b = 0%nat ->
    (forall f internal, (n < f)%nat -> exists ty, new_type f b internal cs = Ok ty /\ G ty) ->
    forall ds, Forall dim_ok ds -> forall f internal, (n + length ds < f)%nat ->
    exists ty ty0, new_type f (b ++ dims_text ds) internal cs = Ok ty /\ G ty0 /\
      erase ty = option_map (fold_left add_dim ds) (erase ty0) /\
      stringKind ty = stringKind ty0 ++ dims_text ds /\ core ty = core ty0.
  Proof.
    intros H1 H2 Hb ds. induction ds as [|d ds IH] using rev_ind; intros Hd f internal Hf.
    { destruct (Hb f internal) as (ty&E&HG); [cbn in Hf; lia|]. exists ty, ty. cbn [dims_text map concat]. rewrite !app_nil_r. split; [done|].
      split; [done|]. split; [by destruct (erase ty)|done]. }
    apply Forall_app in Hd as [Hds Hd]. apply Forall_cons in Hd as [Hd _].
    rewrite app_length in Hf. cbn in Hf. destruct f as [|f]; [lia|].
    destruct (IH Hds f (sub_internal internal)) as (ty&ty0&E&HG&He&Hk&Hc); [lia|].
    rewrite dims_snoc, app_assoc, new_type_dim, E; [|done|].
    2:{ rewrite !count_app. destruct (count_dims ds) as [-> ->]. lia. }
    cbn [rbind]. eexists _, ty0. split; [reflexivity|]. split; [done|]. split; [|split].
    - destruct d as [m|]; cbn [erase T Elem]; rewrite He; destruct (erase ty0); cbn; try rewrite fold_left_app; done.
    - cbn [stringKind]. by rewrite Hk, <- app_assoc.
    - destruct d as [m|]; cbn [core T Elem]; done.
  Qed.

  Lemma scal_no s c : c = 91 \/ c = 93 -> Forall (fun x => x <> c) (scal_text s).
  Proof.
    intros Hc. assert (Hn : forall w n, Forall letter w -> Forall (fun x => x <> c) (w ++ num n)).
    { intros w n Hw. apply Forall_app. split; [|apply num_no; lia]. eapply Forall_impl; [exact Hw|]. unfold letter. cbn. intros; lia. }
    destruct s; cbn [scal_text]; try (apply Hn; repeat (constructor; [unfold letter; lia|]); constructor);
      repeat (constructor; [lia|]); constructor.
  Qed.
  Lemma new_type_flat f t internal cs : count 91 t = 0%nat -> count 93 t = 0%nat ->
    new_type (S f) t internal cs =
      match type_match t with
      | None => Err
      | Some (g0, g1, g2, g3) =>
          rbind (match g3 with
                 | [] => if bool_decide (g0 = s_uint) || bool_decide (g0 = s_int) then Err else Ok 0
                 | _ => match Atoi g2 with Some n => Ok n | None => Err end
                 end) (fun varSize =>
            if bool_decide (g1 = s_int) then Ok (scalar t IntTy varSize)
            else if bool_decide (g1 = s_uint) then Ok (scalar t UintTy varSize)
            else if bool_decide (g1 = s_bool) then Ok (scalar t BoolTy 0)
            else if bool_decide (g1 = s_address) then Ok (scalar t AddressTy 20)
            else if bool_decide (g1 = s_string) then Ok (scalar t StringTy 0)
            else if bool_decide (g1 = s_bytes) then
              Ok (if varSize =? 0 then scalar t BytesTy 0 else scalar t FixedBytesTy varSize)
            else if bool_decide (g1 = s_tuple) then
              rbind (tuple_loop uvalid reflectable (fun '(AM _ ct ci cc) => new_type f ct ci cc) [] cs) (fun '(ts, ns, fs) =>
                Ok (Typ TupleTy 0 ([40] ++ join_comma (map stringKind ts) ++ [41]) None
                      (if bool_decide (take 7 internal = s_struct)
                       then List.filter (fun c => negb (c =? 46)) (drop 7 internal) else [])
                      ts ns fs))
            else if bool_decide (g1 = s_function) then Ok (scalar t FunctionTy 24)
            else Err)
      end.
  Proof. intros H1 H2. cbn [AbiTypeModel.new_type]. rewrite H1, H2. reflexivity. Qed.
  Ltac letters := repeat (constructor; [unfold letter; lia|]); constructor.
  Lemma new_type_scal s f internal cs : scal_ok s -> exists ty, new_type (S f) (scal_text s) internal cs = Ok ty /\
    erase ty = Some (scal_plain s) /\ stringKind ty = scal_text s.
  Proof.
    intros Hs. rewrite new_type_flat by (apply count_none, scal_no; auto).
    assert (Hnum : forall w n, w <> [] -> Forall letter w -> n < 2 ^ 63 -> exists g0, type_match (w ++ num n) = Some (g0, w, num n, num n) /\ Atoi (num n) = Some n /\ num n <> []).
    { intros w n Hw Hl Hn. exists (w ++ num n). split; [by apply type_match_num|]. split; [by apply Atoi_num|apply num_nonempty]. }
    destruct s as [n|n| | | | |n|]; cbn [scal_text scal_ok scal_plain] in *.
    - destruct (Hnum s_int n) as (g0&E&Ea&Hn); [done|letters|done|]. rewrite E. destruct (num n) eqn:En; [done|]. rewrite Ea. eexists. by vm_compute.
    - destruct (Hnum s_uint n) as (g0&E&Ea&Hn); [done|letters|done|]. rewrite E. destruct (num n) eqn:En; [done|]. rewrite Ea. eexists. by vm_compute.
    - eexists. by vm_compute.
    - eexists. by vm_compute.
    - eexists. by vm_compute.
    - eexists. by vm_compute.
    - destruct (Hnum s_bytes n) as (g0&E&Ea&Hn); [done|letters|lia|]. rewrite E. destruct (num n) eqn:En; [done|]. rewrite Ea. cbn [rbind].
      repeat (rewrite bool_decide_false by done). rewrite bool_decide_true by done. destruct (N.eqb_spec n 0); [lia|].
      eexists. split; [reflexivity|]. done.
    - eexists. by vm_compute.
  Qed.

  Definition good (t : nty) (ty : typ) : Prop := erase ty = Some (plain t) /\ stringKind ty = sig t /\ names_kept t ty.
  Lemma tuple_loop_ok rec names fs cs : spelled_fields names fs cs ->
    Forall field_name names -> Forall (fun f => reflectable (plain f) = true) fs ->
    Forall2 (fun f c => exists ty, rec c = Ok ty /\ good f ty) fs cs ->
    forall used, exists ts fns, tuple_loop uvalid reflectable rec used cs = Ok (ts, names, fns) /\
      Forall2 good fs ts /\ Forall exported fns /\ Forall2 go_name names fns /\ NoDup fns /\ (forall x, x ∈ fns -> x ∉ used).
  Proof.
    intros Hsp. induction Hsp as [|n f i c names fs cs Hs Hsp IH]; intros Hn Hr Hrec used.
    { exists [], []. split; [done|]. split_and!; try constructor. intros x Hx. by apply elem_of_nil in Hx. }
    apply Forall_cons in Hn as [Hn Hns]. apply Forall_cons in Hr as [Hr Hrs]. apply Forall2_cons_1 in Hrec as [(ty&Erec&Hg) Hrec].
    cbn [tuple_loop]. rewrite Erec. cbn [rbind]. pose proof (camel_exported n Hn) as Hex.
    rewrite bool_decide_false by (destruct Hex as (?&?&->&_); done).
    destruct (C45_fresh used (ToCamelCase n)) as (r&Hres&Hfresh&Hfree&Htaken). cbn zeta in *. rewrite (Hres _ (le_n _)).
    assert (exported r /\ go_name n r) as [Her Hgr].
    { destruct (camel_go n Hn) as [G1 G2]. destruct (decide (ToCamelCase n ∈ used)) as [Hin|Hout].
      - destruct (Htaken Hin) as (k&->&_). split; [by apply exported_app|done].
      - rewrite (Hfree Hout). done. }
    rewrite exported_valid by done. cbn [negb]. destruct Hg as (He&Hk&Hnk). rewrite He, Hr. cbn [negb].
    destruct (IH Hns Hrs Hrec (r :: used)) as (ts&fns&E&H1&H2&H3&H4&H5). rewrite E. cbn [rbind].
    exists (ty :: ts), (r :: fns). split; [done|]. split; [constructor; [by split|done]|]. split; [by constructor|]. split; [by constructor|]. split.
    - constructor; [|done]. intros Hin. apply (H5 r Hin). by left.
    - intros x Hx. apply elem_of_cons in Hx as [->|Hx]; [done|]. intros Hu. apply (H5 x Hx). by right.
  Qed.
  Lemma join_same l : join_comma l = join l.
  Proof. induction l as [|x [|y l] IH]; cbn in *; [done|done|]. by rewrite IH. Qed.
  Lemma erase_list ts fs : Forall2 good fs ts ->
    (fix go (l : list typ) : option (list aty) :=
      match l with [] => Some [] | x :: r => match erase x, go r with Some a, Some b => Some (a :: b) | _, _ => None end end) ts = Some (map plain fs).
  Proof. induction 1 as [|f ty fs ts (He&_) _ IH]; [done|]. rewrite He, IH. done. Qed.

  Lemma dims_len ds : (length ds <= length (dims_text ds))%nat.
  Proof. unfold dims_text. induction ds as [|d ds IH]; cbn [map concat length]; [lia|]. rewrite app_length. unfold dim at 1. cbn. lia. Qed.

  Lemma new_type_ok t : type_ok reflectable t -> forall cs, spelled t cs -> forall f internal,
    (length (type_text t) + list_sum (map am_weight cs) < f)%nat ->
    exists ty, new_type f (type_text t) internal cs = Ok ty /\ good t ty.
  Proof.
    induction t as [s ds|names fs ds IH] using nty_ind'; intros Hok cs Hsp f internal Hf.
    - inversion Hok as [? ? Hs Hd|]; subst. cbn [type_text] in *.
      destruct (new_type_dims (fun ty => erase ty = Some (scal_plain s) /\ stringKind ty = scal_text s) (scal_text s) cs 0) with (ds := ds) (f := f) (internal := internal)
        as (ty&ty0&E&(H1&H2)&He&Hk&Hc).
      + apply count_none, scal_no; auto.
      + apply count_none, scal_no; auto.
      + intros [|f' ] i Hf'; [lia|]. apply new_type_scal. done.
      + done.
      + pose proof (dims_len ds). rewrite app_length in Hf. lia.
      + exists ty. split; [done|]. rewrite H1 in He. rewrite H2 in Hk. split; [exact He|]. split; [exact Hk|constructor].
    - inversion Hok as [|? ? ? Hn Hfs Hr Hd]; subst. inversion Hsp as [|? ? ? ? Hsf]; subst. cbn [type_text] in *.
      rewrite app_length in Hf. change (length s_tuple) with 5%nat in Hf.
      set (G := fun ty => erase ty = Some (TTuple (map plain fs)) /\ stringKind ty = [40] ++ join (map sig fs) ++ [41] /\ names_kept (Tup names fs []) ty /\ core ty = ty).
      destruct (new_type_dims G s_tuple cs (list_sum (map am_weight cs))) with (ds := ds) (f := f) (internal := internal)
        as (ty&ty0&E&(H1&H2&H3&H4)&He&Hk&Hc).
      + done.
      + done.
      + intros [|f'] i Hf'; [lia|]. rewrite new_type_flat by done.
        change (type_match s_tuple) with (Some (s_tuple, s_tuple, @nil N, @nil N)). cbn iota.
        repeat (rewrite bool_decide_false by done). cbn [orb rbind]. repeat (rewrite bool_decide_false by done). rewrite bool_decide_true by done.
        destruct (tuple_loop_ok (fun '(AM _ ct ci cc) => new_type f' ct ci cc) names fs cs Hsf Hn Hr) with (used := @nil (list N)) as (ts&fns&E&A1&A2&A3&A4&A5).
        { clear -IH Hfs Hsf Hf'. assert (Hw : (list_sum (map am_weight cs) <= f')%nat) by lia. clear Hf'.
          induction Hsf as [|n f0 i c names fs cs Hs Hsp IHs]; constructor.
          - apply Forall_cons in IH as [IH _]. apply Forall_cons in Hfs as [Hf _]. apply IH; [done|done|]. cbn in Hw; unfold list_sum in *; lia.
          - apply Forall_cons in IH as [_ IH]. apply Forall_cons in Hfs as [_ Hf]. apply IHs; [done|done|]. cbn in Hw; unfold list_sum in *; lia. }
        rewrite E. cbn [rbind]. eexists. split; [reflexivity|]. unfold G. cbn [erase T TupleElems stringKind].
        rewrite (erase_list ts fs A1). split; [done|]. split; [|split; [|done]].
        * rewrite join_same. do 3 f_equal. clear -A1. induction A1 as [|f0 ty fs ts (_&Hk&_) _ IH]; cbn; [done|]. by rewrite Hk, IH.
        * constructor; cbn; try done. eapply Forall2_impl; [exact A1|]. intros ? ? (_&_&?); done.
      + done.
      + pose proof (dims_len ds). lia.
      + exists ty. split; [done|]. rewrite H1 in He. rewrite H2 in Hk. split; [exact He|]. split.
        * rewrite Hk. cbn [sig]. by rewrite <- !app_assoc.
        * inversion H3; subst. rewrite H4 in *. constructor; by rewrite Hc.
  Qed.

  (* ------------------------------------------------------------- no panic *)
  Lemma erase_some f : forall t internal cs ty, new_type f t internal cs = Ok ty -> exists a, erase ty = Some a.
  Proof.
    induction f as [|f IH]; intros t internal cs ty; cbn [AbiTypeModel.new_type]; [done|].
    destruct (negb _); [done|]. destruct (negb _).
    - destruct (last_index 91 t) as [i|]; [|done]. destruct (new_type f _ _ cs) as [emb| |] eqn:E; cbn [rbind]; [|done|done].
      apply IH in E as [a Ea]. destruct (digit_runs _ _) as [|d [|]]; [|destruct (Atoi d)|]; intros H; inversion H; subst; cbn [erase T Elem]; rewrite Ea; eauto.
    - destruct (type_match t) as [[[[g0 g1] g2] g3]|]; [|done].
      assert (Hl : forall used ts ns fs, tuple_loop uvalid reflectable (fun '(AM _ ct ci cc) => new_type f ct ci cc) used cs = Ok (ts, ns, fs) ->
        exists l, (fix go (l : list typ) : option (list aty) :=
          match l with [] => Some [] | x :: r => match erase x, go r with Some a, Some b => Some (a :: b) | _, _ => None end end) ts = Some l).
      { induction cs as [|[n ct ci cc] cs IHc]; intros used ts ns fs; cbn [tuple_loop].
        - intros H. injection H as <- <- <-. by exists [].
        - destruct (new_type f ct ci cc) as [cty| |] eqn:E; cbn [rbind]; [|done|done]. apply IH in E as [a Ea].
          destruct (bool_decide _); [done|]. destruct (ResolveNameConflict _ _ _); [|done]. destruct (negb _); [done|]. rewrite Ea.
          destruct (negb _); [done|]. destruct (tuple_loop _ _ _ _ cs) as [[[ts' ns'] fs']| |] eqn:El; cbn [rbind]; [|done|done].
          intros H. injection H as <- <- <-. destruct (IHc _ _ _ _ El) as [la Hla]. rewrite Ea, Hla. eauto. }
      destruct (match g3 with [] => _ | _ => _ end) as [v| |]; cbn [rbind]; [|done|done].
      repeat (match goal with |- (if ?b then _ else _) = _ -> _ => destruct b end; [try (intros H; injection H as <-; cbn; eauto; fail)|]); try (intros H; injection H as <-; cbn; eauto; fail); try done.
      + intros H; injection H as <-. destruct (v =? 0); cbn; eauto.
      + destruct (tuple_loop _ _ _ _ cs) as [[[ts ns] fs]| |] eqn:El; cbn [rbind]; [|done|done]. intros H; injection H as <-.
        destruct (Hl _ _ _ _ El) as [l E]. cbn [erase T TupleElems]. rewrite E. cbn. eauto.
  Qed.
  Lemma last_index_lt c s i : last_index c s = Some i -> (i < length s)%nat.
  Proof.
    revert i. induction s as [|x s IH]; cbn; intros i; [done|]. destruct (last_index c s) as [j|]; intros H.
    - injection H as <-. specialize (IH j eq_refl). lia.
    - destruct (x =? c); [|done]. injection H as <-. lia.
  Qed.
  Lemma new_type_total f : (forall a, reflectable a = true) -> forall t internal cs, (length t + list_sum (map am_weight cs) < f)%nat -> new_type f t internal cs <> Panic.
  Proof.
    intros Hr. induction f as [|f IH]; intros t internal cs Hf; [lia|]. cbn [AbiTypeModel.new_type].
    destruct (negb _); [done|]. destruct (Nat.eqb_spec (count 91 t) 0) as [E0|E0]; cbn [negb].
    2:{ destruct (last_index 91 t) as [i|] eqn:Ei.
        - pose proof (last_index_lt _ _ _ Ei). assert (Hlen : (length (take i t) < length t)%nat) by (rewrite take_length; lia).
          specialize (IH (take i t) (match last_index 91 internal with Some i => take i internal | None => internal end) cs ltac:(lia)).
          destruct (new_type f _ _ cs); cbn [rbind]; [|done|done]. destruct (digit_runs _ _) as [|d [|]]; [done| |done]. by destruct (Atoi d).
        - exfalso. apply E0. clear -Ei. unfold count. induction t as [|x t IH]; [done|]. cbn [last_index List.filter] in *.
          destruct (last_index 91 t); [done|]. destruct (N.eqb_spec x 91); [done|].
          destruct (N.eqb_spec 91 x); [congruence|by apply IH]. }
    destruct (type_match t) as [[[[g0 g1] g2] g3]|]; [|done].
    assert (Hl : forall used, tuple_loop uvalid reflectable (fun '(AM _ ct ci cc) => new_type f ct ci cc) used cs <> Panic).
    { clear -IH Hf Hr. assert (Hw : (list_sum (map am_weight cs) <= f)%nat) by lia. clear Hf.
      induction cs as [|[n ct ci cc] cs IHc]; intros used; cbn [tuple_loop]; [done|]. cbn in Hw; fold (list_sum (map am_weight cs)) in Hw.
      specialize (IH ct ci cc ltac:(lia)) as Hnp. destruct (new_type f ct ci cc) as [cty| |] eqn:E; cbn [rbind]; [|done|done].
      destruct (bool_decide _); [done|]. destruct (C45_fresh used (ToCamelCase n)) as (r&Hres&_). cbn zeta in Hres. rewrite (Hres _ (le_n _)).
      destruct (negb _); [done|]. apply erase_some in E as [a Ea]. rewrite Ea, Hr. cbn [negb].
      specialize (IHc ltac:(lia) (r :: used)). destruct (tuple_loop _ _ _ _ cs) as [[[? ?] ?]| |]; [done|done|done]. }
    destruct (match g3 with [] => _ | _ => _ end) as [v| |] eqn:Ev; cbn [rbind]; [|done|].
    - repeat (match goal with |- (if ?b then _ else _) <> _ => destruct b end; [try done|]); try done.
      specialize (Hl []). by destruct (tuple_loop _ _ _ _ cs) as [[[? ?] ?]| |].
    - destruct g3; [destruct (_ || _); done|]. by destruct (Atoi g2).
  Qed.

  (** the text of a type that is no tuple *)
  Lemma new_type_text f : forall t internal cs ty, new_type f t internal cs = Ok ty -> T (core ty) <> TupleTy -> stringKind ty = t.
  Proof.
    induction f as [|f IH]; intros t internal cs ty; cbn [AbiTypeModel.new_type]; [done|].
    destruct (negb _); [done|]. destruct (negb _).
    - destruct (last_index 91 t) as [i|]; [|done]. destruct (new_type f _ _ cs) as [emb| |] eqn:E; cbn [rbind]; [|done|done].
      destruct (digit_runs _ _) as [|d [|]]; [|destruct (Atoi d); [|done]|done]; intros H Hc; injection H as <-; cbn [core T Elem stringKind] in *;
        rewrite (IH _ _ _ _ E Hc); apply take_drop.
    - destruct (type_match t) as [[[[g0 g1] g2] g3]|]; [|done].
      destruct (match g3 with [] => _ | _ => _ end) as [v| |]; cbn [rbind]; [|done|done].
      repeat (match goal with |- (if ?b then _ else _) = _ -> _ => destruct b end; [try (intros H; injection H as <-; done)|]); try (intros H; injection H as <-; done); try done.
      + intros H; injection H as <-. by destruct (v =? 0).
      + destruct (tuple_loop _ _ _ _ cs) as [[[ts ns] fs]| |]; cbn [rbind]; [|done|done]. intros H Hc; injection H as <-. by cbn in Hc.
  Qed.
End main.
