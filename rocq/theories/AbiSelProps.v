(** Selector parsing (C44) and name conflict resolution (C45). *)
From Coq Require Import NArith ZArith Lia Zify DecimalNat.
From stdpp Require Import list.
From Verif Require Import Base AbiModel AbiSelModel AbiSelSpec.
Global Open Scope N_scope.

Lemma alpha_iff c : isAlpha c = true <-> letter c.
Proof. unfold isAlpha, letter. rewrite orb_true_iff, !andb_true_iff, !N.leb_le. tauto. Qed.
Lemma digit_iff c : isDigit c = true <-> digit c.
Proof. unfold isDigit, digit. by rewrite andb_true_iff, !N.leb_le. Qed.
Lemma mark_iff c : isIdentifierSymbol c = true <-> mark c.
Proof. unfold isIdentifierSymbol, mark. by rewrite orb_true_iff, !N.eqb_eq. Qed.

Definition in_token (isIdent : bool) (c : N) : Prop := letter c \/ digit c \/ (isIdent = true /\ mark c).
Lemma in_token_iff isIdent c : isAlpha c || isDigit c || (isIdent && isIdentifierSymbol c) = true <-> in_token isIdent c.
Proof. unfold in_token. rewrite !orb_true_iff, andb_true_iff, alpha_iff, digit_iff, mark_iff. tauto. Qed.

Definition stops (P : N -> Prop) (r : list N) : Prop := match r with [] => True | c :: _ => ~ P c end.

Lemma token_rest_spec isIdent s a b : token_rest isIdent s = (a, b) <->
  s = a ++ b /\ Forall (in_token isIdent) a /\ stops (in_token isIdent) b.
Proof.
  revert a b. induction s as [|c s IH]; intros a b; cbn [token_rest].
  - split; [intros E; injection E as <- <-; repeat constructor|intros (E & _)].
    symmetry in E. apply app_nil in E as [-> ->]. done.
  - pose proof (in_token_iff isIdent c) as Hc. destruct (_ || _ || _).
    + destruct (token_rest isIdent s) as [a' b']. split.
      * intros E. injection E as <- <-. destruct (proj1 (IH a' b') eq_refl) as (-> & Ha & Hb).
        split; [done|]. split; [|done]. constructor; [by apply Hc|done].
      * intros (E & Ha & Hb). destruct a as [|x a]; cbn [app] in E.
        -- subst b. cbn in Hb. tauto.
        -- injection E as <- E. apply Forall_cons in Ha as [_ Ha]. f_equal; [f_equal|];
           pose proof (proj2 (IH a b) (conj E (conj Ha Hb))) as Q; congruence.
    + split.
      * intros E. injection E as <- <-. split; [done|]. split; [constructor|]. cbn. intros H. apply Hc in H. done.
      * intros (E & Ha & Hb). destruct a as [|x a]; cbn [app] in E; [by subst|].
        injection E as <- E. apply Forall_cons in Ha as [Ha _]. apply Hc in Ha. done.
Qed.

Definition starts (isIdent : bool) (c : N) : Prop := letter c \/ (isIdent = true /\ mark c).
Lemma starts_iff isIdent c : isAlpha c || (isIdent && isIdentifierSymbol c) = true <-> starts isIdent c.
Proof. unfold starts. rewrite !orb_true_iff, andb_true_iff, alpha_iff, mark_iff. tauto. Qed.
Definition token (isIdent : bool) (s : list N) : Prop :=
  exists c s', s = c :: s' /\ starts isIdent c /\ Forall (in_token isIdent) s'.
Lemma parseToken_spec isIdent s a b : parseToken s isIdent = Ok (a, b) <->
  s = a ++ b /\ token isIdent a /\ stops (in_token isIdent) b.
Proof.
  unfold parseToken. destruct s as [|c s].
  - split; [done|]. intros (E & (x & s' & -> & _) & _). done.
  - pose proof (starts_iff isIdent c) as Hc. destruct (_ || _).
    + destruct (token_rest isIdent s) as [a' b'] eqn:E. split.
      * intros H. injection H as <- <-. apply token_rest_spec in E as (-> & Ha & Hb).
        split; [done|]. split; [|done]. exists c, a'. split; [done|]. split; [by apply Hc|done].
      * intros (H & (x & s' & -> & Hx & Hs) & Hb). injection H as <- H.
        pose proof (proj2 (token_rest_spec isIdent s s' b) (conj H (conj Hs Hb))). congruence.
    + split; [done|]. intros (H & (x & s' & -> & Hx & Hs) & Hb). injection H as <- H. apply Hc in Hx. done.
Qed.
Lemma parseToken_panic isIdent s : parseToken s isIdent <> Panic.
Proof. destruct s; cbn; [done|]. destruct (_ || _); [|done]. by destruct (token_rest isIdent s). Qed.

Lemma token_identifier s : token true s <-> identifier s.
Proof.
  unfold token, identifier, starts, in_token. split; intros (c & s' & -> & H & F); exists c, s'; split; try done; split; try tauto;
    (eapply Forall_impl; [exact F|]; cbn; tauto).
Qed.
Lemma token_type s : token false s <-> type_word s.
Proof.
  unfold token, type_word, starts, in_token. split; intros (c & s' & -> & H & F); exists c, s'; split; try done.
  - split; [naive_solver|]. eapply Forall_impl; [exact F|]. naive_solver.
  - split; [tauto|]. eapply Forall_impl; [exact F|]. naive_solver.
Qed.

(* arrays *)
Lemma digit_not c : digit c -> c <> 91 /\ c <> 93 /\ c <> 41 /\ c <> 40.
Proof. unfold digit. lia. Qed.
Lemma arrays_digits p d r : Forall digit d -> arrays true p (d ++ 93 :: r) = arrays false (p ++ d ++ [93]) r.
Proof.
  revert p. induction d as [|c d IH]; intros p Hd; cbn [app arrays].
  - change (isDigit 93) with false. cbn iota. by rewrite N.eqb_refl.
  - apply Forall_cons in Hd as [Hc Hd]. apply digit_iff in Hc. rewrite Hc, IH by done.
    by rewrite <- (app_assoc p [c]).
Qed.
Lemma arrays_brackets p dims r : Forall (Forall digit) dims -> stops (fun c => c = 91) r ->
  arrays false p (brackets dims ++ r) = Ok (p ++ brackets dims, r).
Proof.
  revert p. induction dims as [|d dims IH]; intros p Hd Hr.
  - cbn [brackets map concat app]. rewrite app_nil_r. destruct r as [|c r]; [done|]. cbn [arrays].
    cbn in Hr. destruct (N.eqb_spec c 91); [done|done].
  - apply Forall_cons in Hd as [Hc Hd]. unfold brackets. cbn [map concat].
    change (concat (map _ dims)) with (brackets dims).
    rewrite <- !app_assoc. cbn [app arrays]. rewrite N.eqb_refl. rewrite arrays_digits by done.
    rewrite IH by done. f_equal. f_equal. by rewrite <- !app_assoc.
Qed.
Lemma arrays_inv s : (forall p q r, arrays false p s = Ok (q, r) -> exists dims, Forall (Forall digit) dims /\
    s = brackets dims ++ r /\ q = p ++ brackets dims /\ stops (fun c => c = 91) r) /\
  (forall p q r, arrays true p s = Ok (q, r) -> exists d dims, Forall digit d /\ Forall (Forall digit) dims /\
    s = d ++ [93] ++ brackets dims ++ r /\ q = p ++ d ++ [93] ++ brackets dims /\ stops (fun c => c = 91) r).
Proof.
  induction s as [|c s [IH1 IH2]]; split; intros p q r E; cbn [arrays] in E; try done.
  - injection E as <- <-. exists []. change (brackets []) with (@nil N). repeat split; rewrite ?app_nil_r; try done; constructor.
  - destruct (N.eqb_spec c 91) as [->|Hc].
    + apply IH2 in E as (d & dims & Hd & Hds & -> & -> & Hr). exists (d :: dims). split; [by constructor|].
      unfold brackets. cbn [map concat]. change (concat (map _ dims)) with (brackets dims).
      split; [by rewrite <- !app_assoc|]. split; [by rewrite <- !app_assoc|done].
    + injection E as <- <-. exists []. change (brackets []) with (@nil N). repeat split; rewrite ?app_nil_r; try done; constructor.
  - destruct (isDigit c) eqn:Hc.
    + apply IH2 in E as (d & dims & Hd & Hds & -> & -> & Hr). exists (c :: d), dims.
      split; [constructor; [by apply digit_iff|done]|]. split; [done|]. split; [done|]. split; [by rewrite <- !app_assoc|done].
    + destruct (N.eqb_spec c 93) as [->|]; [|done].
      apply IH1 in E as (dims & Hds & -> & -> & Hr). exists [], dims. split; [done|]. split; [done|]. split; [done|].
      split; [by rewrite <- !app_assoc|done].
Qed.
Lemma arrays_panic s : forall b p, arrays b p s <> Panic.
Proof.
  induction s as [|c s IH]; intros [] p; cbn [arrays]; try done.
  - destruct (isDigit c); [done|]. destruct (c =? 93); done.
  - destruct (c =? 91); done.
Qed.

Definition follows (t : sty) (r : list N) : Prop :=
  match t with
  | SElem base [] => stops (fun c => letter c \/ digit c \/ c = 91) r
  | SElem base _ => stops (fun c => c = 91) r
  | STup _ true => True
  | STup _ false => forall r', r <> 91 :: 93 :: r'
  end.

Lemma elementary_spec s q r : parseElementaryType s = Ok (q, r) <->
  exists base dims, type_word base /\ Forall (Forall digit) dims /\ s = (base ++ brackets dims) ++ r /\
    q = base ++ brackets dims /\ follows (SElem base dims) r.
Proof.
  unfold parseElementaryType. split.
  - intros E. destruct (parseToken s false) as [[a b]| |] eqn:Et; [|done|done]. cbn [rbind] in E.
    apply parseToken_spec in Et as (-> & Ha & Hb). apply arrays_inv in E as (dims & Hd & -> & -> & Hr).
    exists a, dims. split; [by apply token_type|]. split; [done|]. split; [by rewrite app_assoc|]. split; [done|].
    destruct dims; [|done]. cbn in Hb |- *. destruct r as [|c r]; [done|]. cbn in Hb, Hr |- *. unfold in_token in Hb. tauto.
  - intros (base & dims & Hb & Hd & -> & -> & Hf).
    assert (parseToken ((base ++ brackets dims) ++ r) false = Ok (base, brackets dims ++ r)) as ->.
    { apply parseToken_spec. split; [by rewrite app_assoc|]. split; [by apply token_type|].
      destruct dims as [|d dims].
      - cbn in Hf |- *. destruct r as [|c r]; [done|]. cbn in Hf |- *. unfold in_token. naive_solver.
      - cbn. unfold in_token, letter, digit. naive_solver lia. }
    cbn [rbind]. apply arrays_brackets; [done|]. destruct dims; [|done]. cbn in Hf. destruct r; [done|]. cbn in *. tauto.
Qed.

Fixpoint tree (t : sty) : parsed :=
  match t with
  | SElem base dims => PStr (base ++ brackets dims)
  | STup fields many => PList (map tree fields ++ if many then [PStr [91; 93]] else [])
  end.

Lemma brackets_strip r : (exists r', r = 91 :: 93 :: r') \/ (forall r', r <> 91 :: 93 :: r').
Proof.
  destruct r as [|c1 [|c2 r]]; [by right|by right|].
  destruct (decide (c1 = 91)) as [->|]; [|right; congruence]. destruct (decide (c2 = 93)) as [->|]; [|right; congruence]. left. by exists r.
Qed.
Lemma close_many {A} r (x y : list N -> A) : 
  (match 91 :: 93 :: r with c1 :: c2 :: r => if (c1 =? 91) && (c2 =? 93) then x r else y (c1 :: c2 :: r) | _ => y [] end) = x r.
Proof. done. Qed.

Lemma parse_sound : forall fuel,
  (forall s p r, parseType fuel s = Ok (p, r) ->
     exists t w, s = w ++ r /\ written t w /\ p = tree t /\ follows t r) /\
  (forall s l r, parseArgs fuel s = Ok (l, r) ->
     exists ts w many, s = w ++ [41] ++ (if (many : bool) then [91; 93] else []) ++ r /\ written_list ts w /\
       l = map tree ts ++ (if many then [PStr [91; 93]] else []) /\ (many = false -> forall r', r <> 91 :: 93 :: r')).
Proof.
  induction fuel as [|f [IH1 IH2]]; [done|]. split.
  - intros s p r E. cbn [parseType] in E. destruct s as [|c s]; [done|].
    destruct (N.eqb_spec c 40) as [->|Hc].
    + destruct (parseArgs f s) as [[l r']| |] eqn:Ea; [|done|done]. cbn [rbind] in E. injection E as <- <-.
      apply IH2 in Ea as (ts & w & many & -> & Hw & -> & Hm). exists (STup ts many), ([40] ++ w ++ [41] ++ (if many then [91; 93] else [])).
      split; [by rewrite <- !app_assoc|]. split; [by constructor|]. split; [done|]. destruct many; [done|]. cbn. auto.
    + destruct (parseElementaryType (c :: s)) as [[q r']| |] eqn:Ea; [|done|done]. cbn [rbind] in E. injection E as <- <-.
      apply elementary_spec in Ea as (base & dims & Hb & Hd & -> & -> & Hf). exists (SElem base dims), (base ++ brackets dims).
      split; [done|]. split; [by constructor|]. done.
  - intros s l r E. cbn [parseArgs] in E. destruct (parseType f s) as [[p rest]| |] eqn:Et; [|done|done]. cbn [rbind] in E.
    apply IH1 in Et as (t & w & -> & Hw & -> & Hf). destruct rest as [|c rest]; [done|].
    destruct (N.eqb_spec c 41) as [->|Hc].
    + destruct (brackets_strip rest) as [[r' ->]|Hn].
      * cbn in E. injection E as <- <-. exists [t], w, true. split; [done|]. split; [by constructor|]. done.
      * assert (E' : (l, r) = ([tree t], rest)).
        { destruct rest as [|c1 [|c2 rest]]; try congruence.
          destruct (N.eqb_spec c1 91) as [->|]; [|cbn in E; congruence]. destruct (N.eqb_spec c2 93) as [->|]; [|cbn in E; congruence].
          by destruct (Hn rest). }
        injection E' as -> ->. exists [t], w, false. split; [done|]. split; [by constructor|]. split; [done|]. intros _. exact Hn.
    + destruct (parseArgs f rest) as [[l' r']| |] eqn:Ea; [|done|done]. cbn [rbind] in E. injection E as <- <-.
      apply IH2 in Ea as (ts & w' & many & -> & Hw' & -> & Hm). exists (t :: ts), (w ++ c :: w'), many.
      split; [by rewrite <- !app_assoc|]. split; [|done]. constructor; [done| |done].
      split; [done|]. destruct t as [base [|d dims]|]; cbn in Hf |- *; tauto.
Qed.

Lemma written_head : (forall t w, written t w -> exists c w', w = c :: w' /\ c <> 93 /\ c <> 41) /\
  (forall l w, written_list l w -> exists c w', w = c :: w' /\ c <> 93 /\ c <> 41).
Proof.
  apply written_ind2.
  - intros base dims (c & s' & -> & Hc & _) _. exists c, (s' ++ brackets dims). split; [done|]. unfold letter in Hc. lia.
  - intros fields many s _ _. by eexists 40, _.
  - intros t s _ H. exact H.
  - intros t s c l s' _ (x & w & -> & Hx) _ _ _. by exists x, (w ++ c :: s').
Qed.

Lemma separates_follows t c w r : separates t c -> written_list w r -> forall r', follows t (c :: r ++ r').
Proof.
  intros Hs Hw r'. apply (proj2 written_head) in Hw as (x & w' & -> & Hx & _).
  destruct t as [base [|d dims]|fields []]; cbn in Hs |- *; destruct Hs as [_ Hs]; try tauto. intros r'' E. injection E as -> -> _. done.
Qed.
Lemma closes_follows t r : follows t (41 :: r).
Proof. destruct t as [base [|d dims]|fields []]; cbn; unfold letter, digit; try done; lia. Qed.

Lemma parse_complete :
  (forall t w, written t w -> forall fuel r, follows t r -> (2 * length w <= fuel)%nat -> parseType fuel (w ++ r) = Ok (tree t, r)) /\
  (forall ts w, written_list ts w -> forall fuel many r, (many = false -> forall r', r <> 91 :: 93 :: r') -> (2 * length w + 1 <= fuel)%nat ->
     parseArgs fuel (w ++ [41] ++ (if (many : bool) then [91; 93] else []) ++ r) =
     Ok (map tree ts ++ (if many then [PStr [91; 93]] else []), r)).
Proof.
  apply written_ind2.
  - intros base dims Hb Hd fuel r Hf Hfu. pose proof (proj2 (elementary_spec ((base ++ brackets dims) ++ r) _ r)
      (ex_intro _ base (ex_intro _ dims (conj Hb (conj Hd (conj eq_refl (conj eq_refl Hf))))))) as E.
    destruct Hb as (c & s' & -> & Hc & _). cbn [app length] in Hfu. destruct fuel as [|fuel]; [lia|].
    cbn [app] in E |- *. cbn [parseType]. destruct (N.eqb_spec c 40) as [->|]; [unfold letter in Hc; lia|].
    rewrite E. done.
  - intros fields many s Hw IH fuel r Hf Hfu. rewrite !app_length in Hfu. cbn [length] in Hfu.
    destruct fuel as [|fuel]; [lia|]. cbn [app parseType]. rewrite N.eqb_refl.
    replace ((s ++ 41 :: (if many then [91; 93] else [])) ++ r) with (s ++ [41] ++ (if many then [91; 93] else []) ++ r)
      by (by rewrite <- app_assoc).
    rewrite IH; [done| |lia]. intros ->. exact Hf.
  - intros t s Hw IH fuel many r Hr Hfu. destruct fuel as [|fuel]; [lia|]. cbn [parseArgs].
    rewrite IH by (try lia; apply closes_follows). cbn [rbind app]. rewrite N.eqb_refl. destruct many; [done|].
    cbn [app map]. specialize (Hr eq_refl). destruct r as [|c1 [|c2 r]]; try done.
    destruct (N.eqb_spec c1 91) as [->|]; [|done]. destruct (N.eqb_spec c2 93) as [->|]; [|done]. by destruct (Hr r).
  - intros t s c l s' Hw IH Hs Hw' IH' fuel many r Hr Hfu. rewrite app_length in Hfu. cbn [length] in Hfu.
    destruct fuel as [|fuel]; [lia|]. cbn [parseArgs]. rewrite <- app_assoc. cbn [app].
    rewrite IH; [|by eapply separates_follows|lia]. cbn [rbind].
    destruct (N.eqb_spec c 41) as [->|]; [by destruct Hs|]. specialize (IH' fuel many r Hr ltac:(lia)). cbn [app] in IH'. rewrite IH'. done.
Qed.

Lemma parse_no_panic : forall fuel,
  (forall s, (2 * length s + 1 <= fuel)%nat -> parseType fuel s <> Panic) /\
  (forall s, (2 * length s + 2 <= fuel)%nat -> parseArgs fuel s <> Panic).
Proof.
  induction fuel as [|f [IH1 IH2]]; [split; intros; lia|]. split; intros s Hs.
  - cbn [parseType]. destruct s as [|c s]; [done|]. cbn [length] in Hs. destruct (c =? 40).
    + specialize (IH2 s ltac:(lia)). destruct (parseArgs f s) as [[]| |]; done.
    + destruct (parseElementaryType (c :: s)) as [[]| |] eqn:E; try done. unfold parseElementaryType in E.
      pose proof (parseToken_panic false (c :: s)). destruct (parseToken (c :: s) false) as [[a b]| |]; try done.
      cbn [rbind] in E. by apply arrays_panic in E.
  - cbn [parseArgs]. pose proof (IH1 s ltac:(lia)) as H1. destruct (parseType f s) as [[p rest]| |] eqn:E; try done. cbn [rbind].
    apply (proj1 (parse_sound f)) in E as (t & w & -> & Hw & _ & _). apply (proj1 written_head) in Hw as (x & w' & -> & _).
    rewrite app_length in Hs. cbn [length] in Hs. destruct rest as [|c rest]; [done|]. destruct (c =? 41).
    + destruct rest as [|c1 [|c2 rest]]; try done. by destruct (_ && _).
    + cbn [length] in Hs. specialize (IH2 rest ltac:(lia)). destruct (parseArgs f rest) as [[]| |]; done.
Qed.

(* assembling *)
Lemma sty_ind' (P : sty -> Prop) :
  (forall base dims, P (SElem base dims)) -> (forall fields many, Forall P fields -> P (STup fields many)) -> forall t, P t.
Proof.
  intros H1 H2. fix IH 1. intros [base dims|fields many]; [apply H1|]. apply H2.
  induction fields as [|t fields IHf]; constructor; [apply IH|exact IHf].
Qed.
Lemma assemble_app i l l' : assembleArgs i (l ++ l') = assembleArgs i l ++ assembleArgs (i + length l) l'.
Proof.
  revert i. induction l as [|p l IH]; intros i; cbn [app assembleArgs length].
  - f_equal. lia.
  - rewrite IH. by replace (S i + length l)%nat with (i + S (length l))%nat by lia.
Qed.
Lemma assemble_tuple i l : assembleArg i (PList l) =
  match last (assembleArgs 0 l) with
  | Some a => if decide (arg_type a = str_brackets) then Arg (str_name ++ decimal i) (str_tuple ++ str_brackets) (removelast (assembleArgs 0 l))
              else Arg (str_name ++ decimal i) str_tuple (assembleArgs 0 l)
  | None => Arg (str_name ++ decimal i) str_tuple (assembleArgs 0 l)
  end.
Proof.
  cbn [assembleArg].
  assert (forall l k, (fix go (i : nat) (l : list parsed) : list arg :=
        match l with [] => [] | p :: l' => assembleArg i p :: go (S i) l' end) k l = assembleArgs k l) as E
    by (clear; induction l as [|p l IH]; intros k; [done|]; cbn [assembleArgs]; by rewrite IH).
  rewrite E. done.
Qed.
Lemma described_tuple i fields many : described i (STup fields many) =
  Arg (str_name ++ decimal i) (if many then str_tuple ++ str_brackets else str_tuple) (described_from 0 fields).
Proof.
  cbn [described]. f_equal.
Qed.

Lemma not_brackets i t w : written t w -> arg_type (described i t) <> str_brackets.
Proof.
  intros Hw. destruct Hw as [base dims (c & s' & -> & Hc & _) _|fields many s _]; [|by destruct many].
  cbn. intros E. injection E as -> _. unfold letter in Hc. lia.
Qed.
Lemma assemble_tree : (forall t w, written t w -> forall i, assembleArg i (tree t) = described i t) /\
  (forall l w, written_list l w -> (forall i, assembleArgs i (map tree l) = described_from i l) /\
     exists a, last (described_from 0 l) = Some a /\ forall i a, last (described_from i l) = Some a -> arg_type a <> str_brackets).
Proof.
  apply written_ind2.
  - done.
  - intros fields many s Hw (IH & a & Ha & IH') i. cbn [tree]. rewrite assemble_tuple, described_tuple.
    destruct many.
    + rewrite assemble_app. cbn [assembleArgs assembleArg]. rewrite last_snoc. cbn [arg_type].
      destruct (decide ([91; 93] = str_brackets)); [|done]. by rewrite removelast_last, IH.
    + rewrite app_nil_r, IH, Ha. destruct (decide _) as [E|]; [|done]. by destruct (IH' 0%nat a Ha).
  - intros t s Hw IH. split; [intros i; cbn; by rewrite IH|]. eexists. split; [done|].
    intros i a E. cbn in E. injection E as <-. by eapply not_brackets.
  - intros t s c l s' Hw IH Hs Hw' (IH1 & a & Ha & IH2). split; [intros i; cbn; by rewrite IH, IH1|].
    assert (Hne : l <> []) by (by inversion Hw').
    assert (forall i, last (described_from i (t :: l)) = last (described_from (S i) l)) as E by (intros i; by destruct l).
    assert (exists b, last (described_from 1 l) = Some b) as [b Hb].
    { destruct l as [|y l]; [done|]. cbn [described_from]. apply last_is_Some. done. }
    exists b. split; [by rewrite E|]. intros i x. rewrite E. apply IH2.
Qed.

(** Every text ParseSelector accepts, and what it returns for it. A bare pair of
    parentheses means no arguments; otherwise the arguments are as written, with any
    byte that ends a type as separator, and a trailing "[]" is taken as one more
    argument of type "[]". *)
Theorem C44_accepts : forall s name args,
  ParseSelector s = Ok (name, args) <->
  identifier name /\
  ((s = name ++ [40; 41] /\ args = []) \/
   (exists types text, written_list types text /\
      ((s = name ++ [40] ++ text ++ [41] /\ args = described_from 0 types) \/
       (s = name ++ [40] ++ text ++ [41; 91; 93] /\
        args = described_from 0 types ++ [Arg (str_name ++ decimal (length types)) [91; 93] []])))).
Proof.
  intros s name args. unfold ParseSelector.
  assert (Hstop : forall r, stops (in_token true) (40 :: r)).
  { intros r. cbn. unfold in_token, letter, digit, mark. lia. }
  split.
  - destruct (parseToken s true) as [[a b]| |] eqn:Et; [|done|done]. cbn [rbind]. apply parseToken_spec in Et as (-> & Ha & Hb).
    apply token_identifier in Ha.
    assert (forall E' : res (list parsed * list N), (rbind E' (fun '(args, rest') => match rest' with [] => Ok (a, assembleArgs 0 args) | _ => Err end)) = Ok (name, args) ->
      name = a /\ exists l, E' = Ok (l, []) /\ args = assembleArgs 0 l) as Hbind.
    { intros [[l [|]]| |]; cbn; intros H; try done. injection H as <- <-. split; [done|]. by exists l. }
    intros E. apply Hbind in E as (-> & l & E & ->). clear Hbind. split; [done|].
    assert (b = [40; 41] /\ l = [] \/ parseCompositeType b = Ok (l, [])) as [(-> & ->)|Ec].
    { destruct b as [|c1 [|c2 b]]; try (by right). destruct (N.eqb_spec c1 40) as [->|]; [|by right].
      destruct (N.eqb_spec c2 41) as [->|]; [|by right]. cbn in E. injection E as <- ->. by left. }
    { by left. }
    right. unfold parseCompositeType in Ec. destruct b as [|c b]; [done|]. destruct (N.eqb_spec c 40) as [->|]; [|done].
    apply (proj2 (parse_sound _)) in Ec as (ts & w & many & -> & Hw & -> & _). exists ts, w. split; [done|].
    destruct many.
    + right. split; [done|]. rewrite assemble_app. rewrite (proj1 (proj2 assemble_tree ts w Hw)). rewrite map_length. done.
    + left. split; [done|]. rewrite app_nil_r. apply (proj2 assemble_tree ts w Hw).
  - intros (Hn & H).
    assert (forall r, parseToken (name ++ 40 :: r) true = Ok (name, 40 :: r)) as Ht.
    { intros r. apply parseToken_spec. split; [done|]. split; [by apply token_identifier|apply Hstop]. }
    destruct H as [(-> & ->)|(ts & w & Hw & H)].
    + cbn [app]. rewrite Ht. done.
    + assert (exists many : bool, s = name ++ 40 :: w ++ [41] ++ (if many then [91; 93] else []) ++ [] /\
          args = described_from 0 ts ++ (if many then [Arg (str_name ++ decimal (length ts)) [91; 93] []] else [])) as (many & -> & ->).
      { destruct H as [(-> & ->)|(-> & ->)]; [exists false|exists true]; split; try done. by rewrite app_nil_r. }
      rewrite Ht. cbn [rbind].
      pose proof (proj2 parse_complete ts w Hw (2 * length (40 :: w ++ [41] ++ (if many then [91; 93] else []) ++ [])%N + 2)%nat many []
        ltac:(done) ltac:(cbn [length]; rewrite app_length; lia)) as E.
      assert (parseCompositeType (40 :: w ++ [41] ++ (if many then [91; 93] else []) ++ []) =
         Ok (map tree ts ++ (if many then [PStr [91; 93]] else []), [])) as Ec.
      { unfold parseCompositeType. rewrite N.eqb_refl. exact E. }
      destruct (proj2 written_head ts w Hw) as (c & w' & -> & _ & Hc).
      cbn [app] in Ec |- *. rewrite (proj2 (N.eqb_neq c 41) Hc), andb_false_r. rewrite Ec. cbn [rbind].
      rewrite assemble_app, (proj1 (proj2 assemble_tree ts _ Hw)), map_length. by destruct many.
Qed.
Print Assumptions C44_accepts.

Lemma wf_written t : well_formed t -> written t (show t).
Proof.
  induction t as [base dims|fields many IH] using sty_ind'; intros Hwf; inversion Hwf as [? ? Hb Hd|? ? Hne Hf]; subst.
  - by constructor.
  - cbn [show]. constructor. clear Hwf. revert Hne. induction fields as [|t l IHl]; intros Hne; [done|].
    apply Forall_cons in IH as [IH1 IH2], Hf as [Hf1 Hf2]. destruct l as [|t' l].
    + constructor. by apply IH1.
    + change (join (map show (t :: t' :: l))) with (show t ++ 44 :: join (map show (t' :: l))). constructor.
      * by apply IH1.
      * split; [done|]. destruct t as [? []|]; cbn; unfold letter, digit; try done; lia.
      * apply IHl; done.
Qed.
Lemma wf_written_list l : l <> [] -> Forall well_formed l -> written_list l (join (map show l)).
Proof.
  intros Hne Hf. pose proof (wf_written (STup l false) (wf_tup l false Hne Hf)) as H. inversion H as [|? ? ? Hl Q1 Q2]. subst.
  cbn in Q2. by apply app_inv_tail in Q2 as ->.
Qed.

(** The text of every well-formed signature parses to its name and argument types. *)
Theorem C44_inverts : forall name args,
  identifier name -> Forall well_formed args ->
  ParseSelector (show_selector name args) = Ok (name, described_from 0 args).
Proof.
  intros name args Hn Ha. apply C44_accepts. split; [done|]. destruct args as [|t args].
  - left. done.
  - right. exists (t :: args), (join (map show (t :: args))). split; [by apply wf_written_list|]. left. done.
Qed.
Print Assumptions C44_inverts.

(** Parsing crashes exactly on a bare identifier with nothing behind it. *)
Theorem C44_total : forall s, ParseSelector s = Panic <-> identifier s.
Proof.
  intros s. unfold ParseSelector. split.
  - pose proof (parseToken_panic true s) as Hp. destruct (parseToken s true) as [[a b]| |] eqn:Et; [|done|done]. cbn [rbind].
    apply parseToken_spec in Et as (-> & Ha & _). apply token_identifier in Ha.
    destruct b as [|c b]; [by rewrite app_nil_r|].
    assert (parseCompositeType (c :: b) <> Panic) as Hc.
    { cbn [parseCompositeType]. destruct (c =? 40); [|done]. apply parse_no_panic. cbn [length]. lia. }
    intros E. exfalso.
    assert (forall E' : res (list parsed * list N), E' <> Panic ->
      (rbind E' (fun '(args, rest') => match rest' with [] => Ok (a, assembleArgs 0 args) | _ => Err end)) <> Panic) as Hbind.
    { intros [[l [|]]| |]; done. }
    revert E. apply Hbind. destruct b as [|c2 b]; [done|]. by destruct (_ && _).
  - intros Hi. assert (parseToken s true = Ok (s, [])) as ->; [|done].
    apply parseToken_spec. rewrite app_nil_r. split; [done|]. split; [by apply token_identifier|done].
Qed.
Print Assumptions C44_total.

(** Strictness fails: any byte that ends a type is taken for a comma, so texts that are
    not signatures are accepted, among them unbalanced ones; and a trailing "[]" adds an
    argument whose type is "[]". *)
Theorem C44_strict_refuted : forall name c,
  identifier name -> ~ letter c -> ~ digit c -> c <> 91 -> c <> 41 ->
  ParseSelector (name ++ [40; 97; c; 98; 41]) =                     (* name(a?b) *)
    Ok (name, described_from 0 [SElem [97] []; SElem [98] []]) /\
  ParseSelector (name ++ [40; 97; 41; 91; 93]) =                    (* name(a)[] *)
    Ok (name, [Arg (str_name ++ [48]) [97] []; Arg (str_name ++ [49]) [91; 93] []]).
Proof.
  intros name c Hn H1 H2 H3 H4.
  assert (forall x, letter x -> written (SElem [x] []) [x]) as Hx.
  { intros x Hx. apply (w_elem [x] []); [|constructor]. exists x, []. split; [done|]. split; [done|constructor]. }
  split; apply C44_accepts; (split; [done|]; right).
  - exists [SElem [97] []; SElem [98] []], [97; c; 98]. split; [|by left].
    apply (w_cons _ [97] c _ [98]); [apply Hx; unfold letter; lia|done|]. constructor. apply Hx. unfold letter. lia.
  - exists [SElem [97] []], [97]. split; [|by right]. constructor. apply Hx. unfold letter. lia.
Qed.
Print Assumptions C44_strict_refuted.

Example C44_example :
  let s := SElem [117; 105; 110; 116] [[]] in                       (* uint[] *)
  let t := STup [s; SElem [98] [[50]]] true in                      (* (uint[],b[2])[] *)
  Forall well_formed [s; t] /\
  ParseSelector (show_selector [102] [s; t]) = Ok ([102], described_from 0 [s; t]) /\
  show_selector [102] [s; t] =
    [102; 40; 117; 105; 110; 116; 91; 93; 44; 40; 117; 105; 110; 116; 91; 93; 44; 98; 91; 50; 93; 41; 91; 93; 41] /\
  ParseSelector [102; 40; 97; 40; 98; 41] = Ok ([102], described_from 0 [SElem [97] []; SElem [98] []]) /\   (* f(a(b) *)
  ParseSelector [102] = Panic.
Proof.
  cbv zeta. assert (Hs : well_formed (SElem [117; 105; 110; 116] [[]])).
  { constructor; [|repeat constructor]. eexists _, _. split; [done|]. split; [unfold letter; lia|].
    repeat constructor; unfold letter; lia. }
  split; [|repeat split; reflexivity]. repeat constructor; try done.
  - eexists _, _. split; [done|]. split; [unfold letter; lia|]. repeat constructor; unfold letter; lia.
  - eexists _, _. split; [done|]. split; [unfold letter; lia|]. repeat constructor; unfold letter; lia.
  - eexists _, _. split; [done|]. split; [unfold letter; lia|]. constructor.
Qed.

(* -------------------------------------------------------------------- C45 *)
Lemma digits_inj d d' : digits_of d = digits_of d' -> d = d'.
Proof. revert d'. induction d; intros []; cbn; intros E; try done; injection E as E; f_equal; auto. Qed.
Lemma decimal_inj n m : decimal n = decimal m -> n = m.
Proof. intros E. apply digits_inj in E. by apply Unsigned.to_uint_inj. Qed.

Lemma resolve_loop_spec raw used : forall fuel idx r, resolve_loop fuel idx raw used = Some r <->
  exists k, (k < fuel)%nat /\ r = raw ++ decimal (idx + k) /\ used r = false /\
    forall j, (j < k)%nat -> used (raw ++ decimal (idx + j)) = true.
Proof.
  induction fuel as [|f IH]; intros idx r; cbn [resolve_loop].
  - split; [done|]. intros (k & Hk & _). lia.
  - destruct (used (raw ++ decimal idx)) eqn:Eu.
    + rewrite IH. split.
      * intros (k & Hk & -> & Hu & Hj). exists (S k). split; [lia|]. rewrite <- Nat.add_succ_comm. split; [done|]. split; [done|].
        intros [|j] Hl; [by rewrite Nat.add_0_r|]. rewrite <- Nat.add_succ_comm. apply Hj. lia.
      * intros ([|k] & Hk & -> & Hu & Hj); [rewrite Nat.add_0_r in Hu; congruence|].
        exists k. split; [lia|]. rewrite Nat.add_succ_comm. split; [done|]. split; [done|].
        intros j Hl. rewrite Nat.add_succ_comm. apply Hj. lia.
    + split.
      * intros E. injection E as <-. exists 0%nat. rewrite Nat.add_0_r. split; [lia|]. split; [done|]. split; [done|]. intros. lia.
      * intros ([|k] & Hk & -> & Hu & Hj); [by rewrite Nat.add_0_r|].
        specialize (Hj 0%nat ltac:(lia)). rewrite Nat.add_0_r in Hj. congruence.
Qed.

(** For every finite set of used names the loop stops, within as many iterations as there
    are used names, and the result is unused: the name itself when it is free, otherwise
    the name followed by the smallest number that makes it free. *)
Theorem C45_fresh : forall (names : list (list N)) raw,
  let used := fun s => bool_decide (s ∈ names) in
  exists r, (forall fuel, (length names <= fuel)%nat -> ResolveNameConflict fuel raw used = Some r) /\
    r ∉ names /\
    (raw ∉ names -> r = raw) /\
    (raw ∈ names -> exists k, r = raw ++ decimal k /\ forall j, (j < k)%nat -> raw ++ decimal j ∈ names).
Proof.
  intros names raw used. unfold ResolveNameConflict. unfold used at 1. cbv beta.
  destruct (bool_decide_reflect (raw ∈ names)) as [Hin|Hout]; [|by exists raw].
  assert (exists k, (k < length names)%nat /\ used (raw ++ decimal k) = false /\ forall j, (j < k)%nat -> used (raw ++ decimal j) = true)
    as (k & Hk & Hu & Hj).
  { assert (Hex : exists k, (k < length names)%nat /\ used (raw ++ decimal k) = false).
    { destruct (decide (Exists (fun k => used (raw ++ decimal k) = false) (seq 0 (length names)))) as [H|H].
      - apply Exists_exists in H as (k & Hk & Hu). apply elem_of_seq in Hk. exists k. split; [lia|done].
      - exfalso. apply not_Exists_Forall in H; [|solve_decision].
        assert (NoDup (raw :: map (fun k => raw ++ decimal k) (seq 0 (length names)))) as Hnd.
        { constructor.
          - intros Hr. apply elem_of_list_fmap in Hr as (k & E & _). rewrite <- (app_nil_r raw) in E at 1. apply app_inv_head in E.
            assert (Nat.to_uint k = Decimal.Nil) as E0 by (by destruct (Nat.to_uint k) eqn:Ek; unfold decimal in E; rewrite Ek in E).
            pose proof (Unsigned.of_to k) as Eo. rewrite E0 in Eo. cbn in Eo. subst k. done.
          - apply NoDup_fmap_2; [|apply NoDup_seq]. intros x y E. apply app_inv_head in E. by apply decimal_inj. }
        assert (raw :: map (fun k => raw ++ decimal k) (seq 0 (length names)) ⊆ names) as Hsub.
        { intros x Hx. apply elem_of_cons in Hx as [->|Hx]; [done|]. apply elem_of_list_fmap in Hx as (k & -> & Hk).
          eapply Forall_forall in H; [|exact Hk]. cbn in H. apply not_false_is_true in H. unfold used in H. by apply bool_decide_eq_true in H. }
        pose proof (submseteq_length _ _ (NoDup_submseteq _ _ Hnd Hsub)) as HL. cbn [length] in HL. rewrite map_length, seq_length in HL. lia. }
    destruct Hex as (k & Hk & Hu). revert Hk Hu. induction (lt_wf k) as [k _ IH]. intros Hk Hu.
    destruct (decide (Exists (fun j => used (raw ++ decimal j) = false) (seq 0 k))) as [H|H].
    - apply Exists_exists in H as (j & Hj & Hu'). apply elem_of_seq in Hj. apply (IH j); [lia|lia|done].
    - apply not_Exists_Forall in H; [|solve_decision]. exists k. split; [done|]. split; [done|]. intros j Hj.
      eapply Forall_forall in H; [|apply elem_of_seq; split; [apply Nat.le_0_l|exact Hj]]. cbn in H. by apply not_false_is_true. }
  exists (raw ++ decimal k). split; [|split; [|split]].
  - intros fuel Hf. apply resolve_loop_spec. exists k. split; [lia|]. done.
  - unfold used in Hu. by apply bool_decide_eq_false in Hu.
  - done.
  - intros _. exists k. split; [done|]. intros j Hlt. specialize (Hj j Hlt). by apply bool_decide_eq_true in Hj.
Qed.
Print Assumptions C45_fresh.

(** The suffixes are the decimal numbers: distinct numbers give distinct names. *)
Theorem C45_suffixes_differ : forall raw n m, raw ++ decimal n = raw ++ decimal m -> n = m.
Proof. intros raw n m E. apply app_inv_head in E. by apply decimal_inj. Qed.
Print Assumptions C45_suffixes_differ.

(** send, send1 in use: the documentation promises send2, the code returns send0. *)
Theorem C45_documented_refuted :
  let send := [115; 101; 110; 100] in
  ResolveNameConflict 2 send (fun s => bool_decide (s ∈ [send; send ++ [49]])) = Some (send ++ [48]).
Proof. reflexivity. Qed.
Print Assumptions C45_documented_refuted.
Example C45_example : decimal 10 = [49; 48] /\
  ResolveNameConflict 3 [97] (fun s => bool_decide (s ∈ [[97]; [97; 48]; [97; 49]])) = Some [97; 50].
Proof. split; reflexivity. Qed.
