From Coq Require Import NArith ZArith Lia Zify.
From stdpp Require Import list gmap.
From Verif Require Import Base AbiModel AbiTypeModel AbiFieldModel AbiFieldSpec AbiTypeProofs.

Lemma private_public f : f <> [] -> is_private f = false <-> public f.
Proof.
  intros Hn. unfold is_private, public. destruct f as [|c r]; [done|]. rewrite negb_false_iff, bool_decide_eq_true.
  unfold upper1. destruct (N.leb_spec 97 c), (N.leb_spec c 122); cbn [andb]; try destruct (N.ltb_spec c 128);
    (split; [intros H'|intros (?&?&[= <- <-]&?&?)]); try lia; try done; try (exists c, r; split_and!; [done|lia|lia]).
  all: try (injection H' as H'; lia).
Qed.
Lemma has_field_iff st f : has_field st f = true <-> field st f.
Proof.
  unfold has_field, field. rewrite existsb_exists. split.
  - intros (x&H&E). exists x. split; [by apply elem_of_list_In|]. by apply bool_decide_eq_true in E.
  - intros (x&H&E). exists x. split; [by apply elem_of_list_In|]. by apply bool_decide_eq_true.
Qed.
Lemma get_nil m k : (forall k v, m !! k = Some v -> v <> []) -> get m k = [] <-> m !! k = None.
Proof. intros H. unfold get. destruct (m !! k) eqn:E; cbn; [|done]. split; [|done]. intros ->. by destruct (H _ _ E). Qed.
Lemma get_some m k v : m !! k = Some v -> get m k = v.
Proof. unfold get. by intros ->. Qed.

Section tag_loop.
  Context (tag f : list N) (Hf : f <> []).
  Lemma tag_loop_absent args : forall a2s s2a b, tag ∉ args -> tag_loop tag f args a2s s2a b = Some (a2s, s2a, b).
  Proof.
    induction args as [|a r IH]; intros a2s s2a b Hn; [done|]. cbn [tag_loop]. apply not_elem_of_cons in Hn as [Ha Hr].
    rewrite bool_decide_eq_false_2 by congruence. auto.
  Qed.
  Lemma tag_loop_once l r a2s s2a b : tag ∉ l -> tag ∉ r -> get a2s tag = [] ->
    tag_loop tag f (l ++ tag :: r) a2s s2a b = Some (<[tag := f]> a2s, <[f := tag]> s2a, true).
  Proof.
    revert b. induction l as [|a l IH]; intros b Hl Hr Hg; cbn [app tag_loop].
    - rewrite bool_decide_eq_true_2 by done. rewrite bool_decide_eq_true_2 by done. cbn [negb]. by apply tag_loop_absent.
    - apply not_elem_of_cons in Hl as [Ha Hl]. rewrite bool_decide_eq_false_2 by congruence. auto.
  Qed.
  Lemma tag_loop_mapped args a2s s2a b : get a2s tag <> [] -> tag ∈ args -> tag_loop tag f args a2s s2a b = None.
  Proof.
    intros Hg. induction args as [|a r IH]; intros Hin; [by apply elem_of_nil in Hin|]. cbn [tag_loop].
    case_bool_decide as Ea.
    - subst a. by rewrite bool_decide_eq_false_2.
    - apply IH. apply elem_of_cons in Hin as [?|?]; [congruence|done].
  Qed.
  Lemma tag_loop_inv args a2s s2a a' s' : tag_loop tag f args a2s s2a false = Some (a', s', true) ->
    get a2s tag = [] /\ a' = <[tag := f]> a2s /\ s' = <[f := tag]> s2a /\ exists l r, args = l ++ tag :: r /\ tag ∉ l /\ tag ∉ r.
  Proof.
    destruct (decide (tag ∈ args)) as [Hin|Hn]; [|by rewrite tag_loop_absent].
    apply elem_of_list_split_l in Hin as (l&r&->&Hl).
    destruct (decide (get a2s tag = [])) as [Hg|Hg]; [|rewrite tag_loop_mapped; [done|done|set_solver]].
    destruct (decide (tag ∈ r)) as [Hr|Hr].
    - intros H. exfalso. revert H. clear - Hl Hr Hf. generalize false.
      induction l as [|a l IH]; intros b; cbn [app tag_loop].
      + rewrite bool_decide_eq_true_2 by done. destruct (negb _); [done|]. rewrite tag_loop_mapped; [done| |done].
        unfold get. by rewrite lookup_insert.
      + apply not_elem_of_cons in Hl as [Ha Hl]. rewrite bool_decide_eq_false_2 by congruence. exact (IH Hl b).
    - rewrite tag_loop_once by done. intros [= <- <-]. split_and!; try done. by exists l, r.
  Qed.
End tag_loop.

Lemma tagged_cons x st f t : tagged (x :: st) f t <-> (sf_name x = f /\ sf_tag x = Some t /\ public f) \/ tagged st f t.
Proof.
  unfold tagged. split.
  - intros (y&Hy&E1&E2&E3). apply elem_of_cons in Hy as [->|Hy]; [by left|right; by exists y].
  - intros [(E1&E2&E3)|(y&Hy&E)]; [exists x|exists y]; split; try done; set_solver.
Qed.
Lemma tagged_field st f t : tagged st f t -> field st f.
Proof. intros (x&Hx&E&_). by exists x. Qed.

(** The state between the rounds *)
Definition nonempty (m : names) : Prop := forall k v, m !! k = Some v -> v <> [].
Lemma nonempty_insert m k v : nonempty m -> v <> [] -> nonempty (<[k := v]> m).
Proof. intros Hm Hv k' v'. rewrite lookup_insert_Some. intros [[_ <-]|[_ H]]; [done|eauto]. Qed.

Lemma first_round_spec args st : forall a2s s2a, go_struct st -> nonempty a2s -> nonempty s2a ->
  (forall f, field st f -> s2a !! f = None) ->
  (forall a' s', first_round args st a2s s2a = Some (a', s') ->
    tags_ok st args /\ (forall f t, tagged st f t -> a2s !! t = None) /\ nonempty a' /\ nonempty s' /\
    (forall t f, a' !! t = Some f <-> tagged st f t \/ a2s !! t = Some f) /\
    (forall f t, s' !! f = Some t <-> tagged st f t \/ s2a !! f = Some t)) /\
  (tags_ok st args -> (forall f t, tagged st f t -> a2s !! t = None) -> exists a' s', first_round args st a2s s2a = Some (a', s')).
Proof.
  induction st as [|x st IH]; intros a2s s2a [Hnd Hne] Ha Hs Hfresh.
  - split; [|by eexists _, _]. intros a' s' [= <- <-].
    assert (forall f t, ~ tagged [] f t) as Hno by (intros f t (?&H&_); by apply elem_of_nil in H).
    split_and!; try done.
    + split; intros; by edestruct Hno.
    + intros f t H. by destruct (Hno f t).
    + intros t f. split; [by right|]. intros [H|H]; [by destruct (Hno f t)|done].
    + intros t f. split; [by right|]. intros [H|H]; [by destruct (Hno t f)|done].
  - cbn in Hnd. apply NoDup_cons in Hnd as [Hx Hnd]. apply Forall_cons in Hne as [Hxn Hne].
    assert (Hother : forall f t, tagged st f t -> f <> sf_name x).
    { intros f t (y&Hy&<-&_) E. apply Hx. rewrite <- E. apply elem_of_list_fmap. by exists y. }
    assert (Hf' : forall f, field st f -> s2a !! f = None).
    { intros f (y&Hy&E). apply Hfresh. exists y. split; [set_solver|done]. }
    cbn [first_round].
    (* the field has no say *)
    assert (Hskip : (forall t, sf_tag x = Some t -> ~ public (sf_name x)) ->
      (forall f t, tagged (x :: st) f t <-> tagged st f t)).
    { intros H f t. rewrite tagged_cons. split; [|by right]. intros [(E1&E2&E3)|]; [|done]. subst f. by destruct (H _ E2). }
    destruct (is_private (sf_name x)) eqn:Ep.
    { assert (~ public (sf_name x)) as Hp. { intros H. apply private_public in H; congruence. }
      specialize (Hskip (fun _ _ => Hp)). destruct (IH a2s s2a (conj Hnd Hne) Ha Hs Hf') as [I1 I2]. split.
      - intros a' s' E. destruct (I1 _ _ E) as ((T1&T2)&A1&A2&A3&A4&A5). split_and!; try done.
        + split; [intros f t; rewrite Hskip; apply T1|intros f g t; rewrite !Hskip; apply T2].
        + intros f t. rewrite Hskip. apply A1.
        + intros t f. rewrite Hskip. apply A4.
        + intros f t. rewrite Hskip. apply A5.
      - intros [T1 T2] Hd. apply I2.
        + split; [intros f t H; apply (T1 f t); by apply Hskip|intros f g t H1 H2; apply (T2 f g t); by apply Hskip].
        + intros f t H. apply (Hd f t). by apply Hskip. }
    destruct (sf_tag x) as [tag|] eqn:Et.
    2: { assert (forall f t, tagged (x :: st) f t <-> tagged st f t) as Hsk by (apply Hskip; done). clear Hskip. rename Hsk into Hskip.
      destruct (IH a2s s2a (conj Hnd Hne) Ha Hs Hf') as [I1 I2]. split.
      - intros a' s' E. destruct (I1 _ _ E) as ((T1&T2)&A1&A2&A3&A4&A5). split_and!; try done.
        + split; [intros f t; rewrite Hskip; apply T1|intros f g t; rewrite !Hskip; apply T2].
        + intros f t. rewrite Hskip. apply A1.
        + intros t f. rewrite Hskip. apply A4.
        + intros f t. rewrite Hskip. apply A5.
      - intros [T1 T2] Hd. apply I2.
        + split; [intros f t H; apply (T1 f t); by apply Hskip|intros f g t H1 H2; apply (T2 f g t); by apply Hskip].
        + intros f t H. apply (Hd f t). by apply Hskip. }
    apply private_public in Ep; [|done].
    assert (tagged (x :: st) (sf_name x) tag) as Htx by (rewrite tagged_cons; by left). clear Hskip.
    destruct tag as [|c tag0]; [split; [done|]; intros [T1 _] _; by destruct (proj1 (T1 _ _ Htx))|].
    set (tag := c :: tag0) in *. assert (tag <> []) as Htag by done. clearbody tag.
    assert (Hcons : forall f t, tagged (x :: st) f t <-> (f = sf_name x /\ t = tag) \/ tagged st f t).
    { intros f t. rewrite tagged_cons, Et. split; (intros [H|H]; [left|by right]).
      - destruct H as (<-&[= <-]&_). done.
      - destruct H as [-> ->]. done. }
    split.
    + intros a' s'. destruct (tag_loop _ _ _ _ _ _) as [[[a1 s1] []]|] eqn:El; [|done|done]. intros E.
      apply tag_loop_inv in El as (Hg&->&->&l&r&->&Hl&Hr); [|done]. apply get_nil in Hg; [|done].
      destruct (IH (<[tag:=sf_name x]> a2s) (<[sf_name x:=tag]> s2a) (conj Hnd Hne)) as [I1 _].
      { by apply nonempty_insert. } { by apply nonempty_insert. }
      { intros f Hf. rewrite lookup_insert_ne; [auto|]. intros <-. destruct Hf as (y&Hy&E'). apply Hx. rewrite <- E'. apply elem_of_list_fmap. by exists y. }
      destruct (I1 _ _ E) as ((T1&T2)&A1&A2&A3&A4&A5). split_and!; try done.
      * split.
        -- intros f t. rewrite Hcons. intros [[-> ->]|H]; [|by apply (T1 f)]. split; [done|]. by exists l, r.
        -- intros f g t. rewrite !Hcons. intros [[-> ->]|H] [[-> ?]|H']; try done.
           ++ specialize (A1 _ _ H'). by rewrite lookup_insert in A1.
           ++ subst t. specialize (A1 _ _ H). by rewrite lookup_insert in A1.
           ++ by apply (T2 f g t).
      * intros f t. rewrite Hcons. intros [[-> ->]|H]; [done|]. specialize (A1 _ _ H).
        apply lookup_insert_None in A1. tauto.
      * intros t f. rewrite A4, Hcons, lookup_insert_Some. split.
        -- intros [H|[[<- <-]|[_ H]]]; [tauto|left; by left|tauto].
        -- intros [[[-> ->]|H]|H]; [right; by left|tauto|right; right]. split; [|done]. intros <-. congruence.
      * intros f t. rewrite A5, Hcons, lookup_insert_Some. split.
        -- intros [H|[[<- <-]|[_ H]]]; [tauto|left; by left|tauto].
        -- intros [[[-> ->]|H]|H]; [right; by left|tauto|right; right]. split; [|done]. intros <-.
           rewrite Hfresh in H; [done|]. exists x. split; [set_solver|done].
    + intros [T1 T2] Hd. destruct (T1 _ _ Htx) as (_&l&r&->&Hl&Hr).
      rewrite tag_loop_once; [|done|done|apply get_nil; [done|by apply (Hd (sf_name x))]].
      destruct (IH (<[tag:=sf_name x]> a2s) (<[sf_name x:=tag]> s2a) (conj Hnd Hne)) as [_ I2].
      { by apply nonempty_insert. } { by apply nonempty_insert. }
      { intros f Hf. rewrite lookup_insert_ne; [auto|]. intros <-. destruct Hf as (y&Hy&E'). apply Hx. rewrite <- E'. apply elem_of_list_fmap. by exists y. }
      apply I2.
      * split; [intros f t H; apply (T1 f t)|intros f g t H1 H2; apply (T2 f g t)]; rewrite Hcons; by right.
      * intros f t H. rewrite lookup_insert_ne; [apply (Hd f t); rewrite Hcons; by right|].
        intros <-. apply (Hother _ _ H). apply (T2 f (sf_name x) tag); [rewrite Hcons; by right|done].
Qed.

Lemma camel_nil : ToCamelCase [] = [].
Proof. done. Qed.
Lemma tagged_dec st a : {f | tagged st f a} + {untagged st a}.
Proof.
  assert (H : forall f, Decision (public f)).
  { intros f. destruct (decide (f = [])) as [->|Hf].
    - right. by intros (?&?&?&_).
    - destruct (is_private f) eqn:E; [right; intros H; apply private_public in H; congruence|left; by apply private_public]. }
  induction st as [|x st IH].
  - right. intros f (y&Hy&_). by apply elem_of_nil in Hy.
  - destruct IH as [[f Hf]|IH]; [left; exists f; rewrite tagged_cons; by right|].
    destruct (decide (sf_tag x = Some a)) as [E1|E1].
    + destruct (H (sf_name x)) as [E2|E2].
      * left. exists (sf_name x). rewrite tagged_cons. by left.
      * right. intros f. rewrite tagged_cons. intros [(E&_&E')|E']; [subst f; done|by apply (IH f)].
    + right. intros f. rewrite tagged_cons. intros [(_&E&_)|E']; [done|by apply (IH f)].
Qed.

(** The state of the second round after the arguments [before] *)
Definition inv2 (st : list sfield) (before : list (list N)) (a2s s2a : names) : Prop :=
  nonempty a2s /\ nonempty s2a /\
  (forall a f, a2s !! a = Some f <-> tagged st f a \/ (a ∈ before /\ own st a f)) /\
  (forall f, is_Some (s2a !! f) <-> (exists t, tagged st f t) \/ (exists b, b ∈ before /\ untagged st b /\ ToCamelCase b = f)).
Definition distinct (st : list sfield) (before : list (list N)) : Prop :=
  forall b, b ∈ before -> untagged st b -> (forall t, ~ tagged st (ToCamelCase b) t) /\
    forall c, c ∈ before -> untagged st c -> ToCamelCase c = ToCamelCase b -> c = b.
Lemma distinct_snoc st before arg : distinct st before -> arg_ok st before arg -> distinct st (before ++ [arg]).
Proof.
  intros Hd (_&_&Hok) b Hb Hub. apply elem_of_app in Hb as [Hb|Hb].
  - destruct (Hd b Hb Hub) as [H1 H2]. split; [done|]. intros c Hc Huc E. apply elem_of_app in Hc as [Hc|Hc]; [by apply H2|].
    apply elem_of_list_singleton in Hc. subst c. symmetry. by apply (proj2 (Hok Huc)).
  - apply elem_of_list_singleton in Hb. subst b. destruct (Hok Hub) as [H1 H2]. split; [done|].
    intros c Hc Huc E. apply elem_of_app in Hc as [Hc|Hc]; [by apply H2|]. by apply elem_of_list_singleton in Hc.
Qed.

Lemma second_round_spec st args : forall before a2s s2a, inv2 st before a2s s2a -> distinct st before ->
  (forall f g t, tagged st f t -> tagged st g t -> f = g) ->
  (forall m, second_round st args a2s s2a = Some m ->
    (forall i a, args !! i = Some a -> arg_ok st (before ++ take i args) a) /\
    (forall a f, m !! a = Some f <-> tagged st f a \/ (a ∈ before ++ args /\ own st a f))) /\
  ((forall i a, args !! i = Some a -> arg_ok st (before ++ take i args) a) -> exists m, second_round st args a2s s2a = Some m).
Proof.
  induction args as [|arg r IH]; intros before a2s s2a (Na&Ns&Ia&Is) Hdis Hu.
  - split; [|by eexists]. intros m [= <-]. split; [by intros i a H; rewrite lookup_nil in H|]. intros a f. by rewrite app_nil_r.
  - cbn [second_round].
    (* the step when the argument passes *)
    assert (Hstep : forall a' s', inv2 st (before ++ [arg]) a' s' -> arg_ok st before arg ->
      (forall m, second_round st r a' s' = Some m ->
        (forall i a, (arg :: r) !! i = Some a -> arg_ok st (before ++ take i (arg :: r)) a) /\
        (forall a f, m !! a = Some f <-> tagged st f a \/ (a ∈ before ++ arg :: r /\ own st a f))) /\
      ((forall i a, (arg :: r) !! i = Some a -> arg_ok st (before ++ take i (arg :: r)) a) -> exists m, second_round st r a' s' = Some m)).
    { intros a' s' Hinv Hok. destruct (IH _ _ _ Hinv (distinct_snoc _ _ _ Hdis Hok) Hu) as [I1 I2]. split.
      - intros m E. destruct (I1 _ E) as [J1 J2]. split.
        + intros [|i] a; cbn [lookup list_lookup take]; [intros [= <-]; by rewrite app_nil_r|].
          intros H. specialize (J1 i a H). by rewrite <- app_assoc in J1.
        + intros a f. rewrite J2, <- app_assoc. done.
      - intros H. apply I2. intros i a Hi. specialize (H (S i) a Hi). cbn [take] in H. by rewrite <- app_assoc. }
    assert (Hzero : (forall i a, (arg :: r) !! i = Some a -> arg_ok st (before ++ take i (arg :: r)) a) -> arg_ok st before arg).
    { intros H. specialize (H 0%nat arg eq_refl). cbn [take] in H. by rewrite app_nil_r in H. }
    case_bool_decide as Ec.
    { split; [done|]. intros H. by destruct (Hzero H). }
    assert (arg <> []) as Harg by (intros ->; done).
    case_bool_decide as Eg; cbn [negb].
    + (* not paired *)
      apply get_nil in Eg; [|done].
      assert (untagged st arg) as Hun. { intros f Hf. assert (a2s !! arg = Some f) by (apply Ia; by left). congruence. }
      case_bool_decide as Es; cbn [negb].
      * apply get_nil in Es; [|done].
        assert (Hs : ~ ((exists t, tagged st (ToCamelCase arg) t) \/ (exists b, b ∈ before /\ untagged st b /\ ToCamelCase b = ToCamelCase arg))).
        { intros H. apply Is in H as [? H]. congruence. }
        assert (arg_ok st before arg) as Hok.
        { split; [done|]. split; [intros f Hf; by destruct (Hun f)|]. intros _. split; [intros t Ht; apply Hs; left; by exists t|].
          intros b Hb1 Hb2 Hb3. destruct Hs. right. by exists b. }
        destruct (has_field st (ToCamelCase arg)) eqn:Ef; apply Hstep; try done.
        -- apply has_field_iff in Ef. split; [by apply nonempty_insert|]. split; [by apply nonempty_insert|]. split.
           ++ intros a f. rewrite lookup_insert_Some, Ia, elem_of_app, elem_of_list_singleton. unfold own. split.
              ** intros [[<- <-]|(Hne&[H|[H1 H2]])]; [right|by left|right]; tauto.
              ** intros [H|([H1| ->]&H2)]; [right|right|left].
                 --- split; [|by left]. intros <-. by destruct (Hun f).
                 --- split; [|tauto]. intros <-. destruct H2 as (H2&->&H3).
                     assert (a2s !! arg = Some (ToCamelCase arg)) by (apply Ia; right; by split). congruence.
                 --- destruct H2 as (_&->&_). done.
           ++ intros f. destruct (decide (ToCamelCase arg = f)) as [<-|Hne].
              ** rewrite lookup_insert. split; [intros _; right; exists arg; set_solver|by eexists].
              ** rewrite lookup_insert_ne by done. rewrite Is. split; (intros [H|(b&H1&H2&H3)]; [by left|right]); exists b; split; try done.
                 --- set_solver.
                 --- apply elem_of_app in H1 as [H1|H1]; [done|]. apply elem_of_list_singleton in H1. subst b. done.
        -- assert (~ field st (ToCamelCase arg)) as Hnf. { intros H. apply has_field_iff in H. congruence. }
           split; [done|]. split; [by apply nonempty_insert|]. split.
           ++ intros a f. rewrite Ia, elem_of_app, elem_of_list_singleton. split; [tauto|].
              intros [H|([H1| ->]&H2)]; [tauto|tauto|]. destruct H2 as (_&->&H2). done.
           ++ intros f. destruct (decide (ToCamelCase arg = f)) as [<-|Hne].
              ** rewrite lookup_insert. split; [intros _; right; exists arg; set_solver|by eexists].
              ** rewrite lookup_insert_ne by done. rewrite Is. split; (intros [H|(b&H1&H2&H3)]; [by left|right]); exists b; split; try done.
                 --- set_solver.
                 --- apply elem_of_app in H1 as [H1|H1]; [done|]. apply elem_of_list_singleton in H1. subst b. done.
      * split; [done|]. intros H. apply Hzero in H as (_&_&H). destruct (H Hun) as [H1 H2]. exfalso.
        destruct (s2a !! ToCamelCase arg) as [v|] eqn:E; [|unfold get in Es; rewrite E in Es; by apply Es].
        assert (is_Some (s2a !! ToCamelCase arg)) as Hs by (rewrite E; by eexists).
        apply Is in Hs as [[t Ht]|(b&Hb1&Hb2&Hb3)]; [by apply (H1 t)|]. destruct (H2 b Hb1 Hb2 Hb3) as [-> Hf].
        assert (a2s !! arg = Some (ToCamelCase arg)) by (apply Ia; right; split; [done|by split]). congruence.
    + (* paired *)
      destruct (a2s !! arg) as [f|] eqn:E; [|unfold get in Eg; by rewrite E in Eg].
      rewrite (get_some _ _ _ E).
      assert (Hinv : inv2 st (before ++ [arg]) a2s s2a).
      { split; [done|]. split; [done|]. pose proof (proj1 (Ia _ _) E) as Hf. split.
        - intros a g. rewrite Ia, elem_of_app, elem_of_list_singleton. split; [tauto|].
          intros [H|([H1| ->]&H2)]; [tauto|tauto|]. destruct Hf as [Hf|[Hf _]]; [|tauto]. destruct H2 as [H2 _]. by destruct (H2 f).
        - intros g. rewrite Is. split; (intros [H|(b&H1&H2&H3)]; [by left|]).
          + right. exists b. set_solver.
          + apply elem_of_app in H1 as [H1|H1]; [right; by exists b|]. apply elem_of_list_singleton in H1. subst b.
            destruct Hf as [Hf|[Hf _]]; [by destruct (H2 f)|right; by exists arg]. }
      destruct (negb (bool_decide (f = ToCamelCase arg)) && bool_decide (get s2a (ToCamelCase arg) = []) && has_field st (ToCamelCase arg)) eqn:Ebad.
      * apply andb_true_iff in Ebad as [Ebad E3]. apply andb_true_iff in Ebad as [E1 E2].
        apply negb_true_iff, bool_decide_eq_false in E1. apply bool_decide_eq_true, get_nil in E2; [|done]. apply has_field_iff in E3.
        split; [done|]. intros H. apply Hzero in H as (_&H&_). exfalso.
        assert (tagged st f arg) as Hf. { apply Ia in E as [E|(_&_&->&_)]; done. }
        assert (is_Some (s2a !! ToCamelCase arg)) as [? Hs] by (apply Is; by apply (H f)). congruence.
      * apply Hstep; [done|]. split; [done|]. pose proof (proj1 (Ia _ _) E) as Hf. split.
        -- intros g Hg Hne Hfd. apply Is. assert (a2s !! arg = Some g) as Hg' by (apply Ia; by left).
           rewrite E in Hg'. injection Hg' as <-. rewrite bool_decide_eq_false_2 in Ebad by done. cbn [negb andb] in Ebad.
           apply has_field_iff in Hfd. rewrite Hfd, andb_true_r in Ebad. apply bool_decide_eq_false in Ebad.
           destruct (s2a !! ToCamelCase arg) eqn:E'; [by eexists|]. unfold get in Ebad. by rewrite E' in Ebad.
        -- intros Hun. destruct Hf as [Hf|(Hf1&Hf2)]; [by destruct (Hun f)|]. destruct Hf2 as (_&->&Hf2).
           destruct (Hdis _ Hf1 Hun) as [D1 D2]. split; [done|]. intros b Hb1 Hb2 Hb3. split; [by apply D2|done].
Qed.

Lemma map_spec args st : go_struct st ->
  (is_Some (mapArgNamesToStructFields args st) <-> tags_ok st args /\ args_ok st args) /\
  (forall m, mapArgNamesToStructFields args st = Some m ->
    forall a f, m !! a = Some f <-> tagged st f a \/ (a ∈ args /\ own st a f)).
Proof.
  intros Hst. unfold mapArgNamesToStructFields.
  destruct (first_round_spec args st ∅ ∅ Hst) as [F1 F2]; [by intros ??|by intros ??|done|].
  assert (Hr : forall a' s', first_round args st ∅ ∅ = Some (a', s') ->
    tags_ok st args /\ (forall m, second_round st args a' s' = Some m -> args_ok st args /\
       forall a f, m !! a = Some f <-> tagged st f a \/ (a ∈ args /\ own st a f)) /\
    (args_ok st args -> exists m, second_round st args a' s' = Some m)).
  { intros a' s' E. destruct (F1 _ _ E) as (T&_&Na&Ns&A&B). split; [done|].
    destruct (second_round_spec st args [] a' s') as [S1 S2].
    - split; [done|]. split; [done|]. split.
      + intros a f. rewrite A, lookup_empty. split; [intros [H|H]; [by left|done]|intros [H|[H _]]; [by left|by apply elem_of_nil in H]].
      + intros f. split.
        * intros [t H]. apply B in H as [H|H]; [left; by exists t|by rewrite lookup_empty in H].
        * intros [[t H]|(b&H&_)]; [exists t; apply B; by left|by apply elem_of_nil in H].
    - intros b Hb. by apply elem_of_nil in Hb.
    - apply T.
    - split; [intros m Em; destruct (S1 m Em) as [X Y]; split; [exact X|exact Y]|intros X; apply S2; exact X]. }
  split.
  - split.
    + intros [m E]. destruct (first_round args st ∅ ∅) as [[a' s']|]; [|done]. destruct (Hr _ _ eq_refl) as (T&R1&_).
      split; [done|]. by apply (R1 m).
    + intros [T A]. destruct F2 as (a'&s'&E); [done|intros; apply lookup_empty|]. rewrite E. destruct (Hr _ _ E) as (_&_&R2).
      destruct (R2 A) as [m Em]. rewrite Em. by eexists.
  - intros m E. destruct (first_round args st ∅ ∅) as [[a' s']|]; [|done]. destruct (Hr _ _ eq_refl) as (_&R1&_). by apply (R1 m).
Qed.

