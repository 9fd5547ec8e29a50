(** Rounding of rationals in package math. *)
From Coq Require Import ZArith Lia Zify Bool.
From Verif Require Import RatSpec RatModel.
From stdpp Require Import base tactics.
Open Scope Z_scope.

Lemma unit_pos : 0 < unit64.
Proof. reflexivity. Qed.
Lemma pow_pos2 e : 0 <= e -> 0 < 2 ^ e.
Proof. intros. apply Z.pow_pos_nonneg; lia. Qed.

(* what the rounding does, for a number that is not negative *)
Lemma round_facts n d : 0 <= n -> 0 < d -> exists e m, 0 <= e /\ round_abs n d = m * 2 ^ e /\ 0 <= m <= 2 ^ 53 /\
  2 * Z.abs (m * 2 ^ e * d - n * unit64) <= d * 2 ^ e /\
  (0 < e -> 2 ^ 52 * 2 ^ e * d <= n * unit64) /\ n * unit64 < 2 ^ 53 * 2 ^ e * d.
Proof.
  intros Hn Hd. unfold round_abs. set (a := n * unit64). assert (0 <= a) as Ha by (pose proof unit_pos; nia).
  set (e := Z.max 0 (Z.log2 (a / d) - 52)). set (b := d * 2 ^ e). assert (0 <= e) as He by lia. pose proof (pow_pos2 e He) as Hpe.
  assert (0 < b) as Hb by (unfold b; nia).
  set (m := if 2 * (a mod b) <? b then a / b else if b <? 2 * (a mod b) then a / b + 1 else if Z.even (a / b) then a / b else a / b + 1).
  exists e, m. pose proof (Z.div_mod a b ltac:(lia)) as Hdm. pose proof (Z.mod_pos_bound a b Hb) as Hmb. pose proof (Z.div_mod a d ltac:(lia)) as Hdm2. pose proof (Z.mod_pos_bound a d Hd) as Hmb2.
  assert (0 <= a / d) as Hq0 by (apply Z.div_pos; lia).
  assert (a < 2 ^ 53 * 2 ^ e * d) as Hup.
  { destruct (Z.eq_dec (a / d) 0) as [H0|H0]; [nia|]. pose proof (Z.log2_spec (a / d) ltac:(lia)) as [_ Hl].
    assert (2 ^ Z.succ (Z.log2 (a / d)) <= 2 ^ (53 + e)) as Hle by (apply Z.pow_le_mono_r; lia). rewrite Z.pow_add_r in Hle by lia. nia. }
  assert (0 <= a / b < 2 ^ 53) as Hqb.
  { split; [apply Z.div_pos; lia|]. apply Z.div_lt_upper_bound; [done|]. unfold b; nia. }
  split; [done|]. split; [reflexivity|]. split.
  { unfold m. destruct (2 * (a mod b) <? b); [lia|]. destruct (b <? 2 * (a mod b)); [lia|]. destruct (Z.even (a / b)); lia. }
  split.
  { replace (m * 2 ^ e * d) with (b * m) by (unfold b; ring). fold b. fold a.
    assert (b * m - a = b * (m - a / b) - a mod b) as -> by nia. fold b. 
    unfold m. destruct (Z.ltb_spec (2 * (a mod b)) b); [nia|]. destruct (Z.ltb_spec b (2 * (a mod b))); [nia|]. destruct (Z.even (a / b)); nia. }
  split; [|done]. intros He1. assert (e = Z.log2 (a / d) - 52) as He2 by lia.
  assert (0 < a / d) as Hqp by (destruct (Z.eq_dec (a / d) 0) as [H0|H0]; [rewrite H0 in He2; cbn in He2; lia|lia]).
  pose proof (Z.log2_spec (a / d) Hqp) as [Hl _]. replace (Z.log2 (a / d)) with (52 + e) in Hl by lia. rewrite Z.pow_add_r in Hl by lia. nia.
Qed.
Opaque unit64 max64.
Lemma max64_eq : max64 = (2 ^ 53 - 1) * 2 ^ 2045.
Proof. reflexivity. Qed.
Lemma round_is64 n d : 0 <= n -> 0 < d -> round_abs n d <= max64 -> is64 (round_abs n d).
Proof.
  intros Hn Hd Hm. destruct (round_facts n d Hn Hd) as (e & m & He & Hr & Hmb & Herr & Hlo & _). rewrite Hr in *. rewrite max64_eq in Hm.
  pose proof (pow_pos2 e He) as Hpe. pose proof (pow_pos2 2045 ltac:(lia)) as HK.
  assert (0 < e -> 2 ^ 52 <= m) as Hm52.
  { intros H. specialize (Hlo H). nia. }
  assert (e <= 2045) as He2.
  { destruct (Z.le_gt_cases e 2045) as [?|Hgt]; [done|]. exfalso. specialize (Hm52 ltac:(lia)).
    assert (2 ^ (2045 + 1) <= 2 ^ e) as Hp by (apply Z.pow_le_mono_r; lia). rewrite Z.pow_add_r in Hp by lia. revert HK Hp Hm. generalize (2 ^ 2045). intros K HK Hp Hm.
    change (2 ^ 1) with 2 in Hp. nia. }
  destruct (Z.eq_dec m (2 ^ 53)) as [->|Hne].
  - exists (2 ^ 52), (e + 1). rewrite Z.pow_add_r by lia. split; [ring|]. split; [lia|].
    assert (e <> 2045); [|lia]. intros ->. revert HK Hm. generalize (2 ^ 2045). intros K HK Hm. lia.
  - exists m, e. split; [done|]. lia.
Qed.
Lemma round_best n d G : 0 <= n -> 0 < d -> is64 G -> Z.abs (round_abs n d * d - n * unit64) <= Z.abs (G * d - n * unit64).
Proof.
  intros Hn Hd (m' & e' & -> & Hm' & He'). destruct (round_facts n d Hn Hd) as (e & m & He & -> & Hmb & Herr & Hlo & Hhi).
  set (a := n * unit64) in *. pose proof (pow_pos2 e He) as Hpe. set (b := d * 2 ^ e). assert (0 < b) as Hb by (unfold b; nia).
  assert (forall k, Z.abs (m * 2 ^ e * d - a) <= Z.abs (k * 2 ^ e * d - a)) as Hmul.
  { intros k. replace (m * 2 ^ e * d) with (m * b) in * by (unfold b; ring). replace (k * 2 ^ e * d) with (k * b) by (unfold b; ring). fold b in Herr.
    destruct (Z.eq_dec k m) as [->|Hk]; [lia|]. assert (b <= Z.abs (k * b - m * b)) by nia. lia. }
  destruct (Z.le_gt_cases e e') as [Hle|Hgt].
  - replace (m' * 2 ^ e') with (m' * 2 ^ (e' - e) * 2 ^ e); [apply Hmul|]. rewrite <- Z.mul_assoc, <- Z.pow_add_r by lia. do 2 f_equal. lia.
  - specialize (Hlo ltac:(lia)). pose proof (Hmul (2 ^ 52)) as H52. assert (2 ^ (e' + 1) <= 2 ^ e) as Hp by (apply Z.pow_le_mono_r; lia).
    rewrite Z.pow_add_r in Hp by lia. change (2 ^ 1) with 2 in Hp. pose proof (pow_pos2 e' ltac:(lia)) as Hpe'.
    assert (m' * 2 ^ e' <= 2 ^ 52 * 2 ^ e) as Hg by nia. assert (m' * 2 ^ e' * d <= 2 ^ 52 * 2 ^ e * d) by nia. lia.
Qed.
(** The rounding of the model is to a nearest binary64 number. *)
Theorem C86_float : forall n d f, 0 < d -> Float64 (Rat n d) = Some f -> nearest n d f.
Proof.
  intros n d f Hd. unfold Float64. cbn [r_num r_den]. destruct (Z.ltb_spec max64 (round_abs (Z.abs n) d)) as [?|Hm]; [done|]. intros [= <-].
  assert (forall s, s = 1 \/ s = -1 \/ s = 0 -> n = s * Z.abs n -> nearest n d (s * round_abs (Z.abs n) d)) as Hs.
  { intros s Hs Hn. split.
    - destruct (round_is64 (Z.abs n) d ltac:(lia) Hd Hm) as (m & e & -> & H1 & H2). exists (s * m), e. split; [ring|]. split; [|done]. nia.
    - intros G HG. destruct Hs as [Hs|[Hs|Hs]]; rewrite Hs in *.
      + assert (Z.abs n = n) as Hn' by lia. rewrite Hn' in *. rewrite Z.mul_1_l. apply round_best; try done; lia.
      + pose proof (round_best (Z.abs n) d (- G) ltac:(lia) Hd) as Hr. replace n with (- Z.abs n) by lia.
        rewrite Z.abs_opp, Z.abs_involutive. transitivity (Z.abs (round_abs (Z.abs n) d * d - Z.abs n * unit64)); [apply Z.eq_le_incl; lia|].
        transitivity (Z.abs (- G * d - Z.abs n * unit64)); [|apply Z.eq_le_incl; lia]. apply Hr. destruct HG as (m & e & -> & H1 & H2). exists (- m), e. split; [ring|]. split; [lia|done].
      + rewrite Z.mul_0_l in Hn. subst n. rewrite !Z.mul_0_l. lia. }
  apply Hs; [|symmetry; rewrite Z.mul_comm; apply Z.abs_sgn]. destruct n; cbn; auto.
Qed.
Print Assumptions C86_float.
Lemma unit_split : unit64 = 2 ^ 52 * 2 ^ 1022.
Proof. Transparent unit64. reflexivity. Opaque unit64. Qed.
Lemma round_err n d : 0 <= n -> 0 < d -> n = 0 \/ d <= n * 2 ^ 1022 ->
  2 ^ 53 * Z.abs (round_abs n d * d - n * unit64) <= n * unit64.
Proof.
  intros Hn Hd Hs. destruct (round_facts n d Hn Hd) as (e & m & He & -> & Hmb & Herr & Hlo & Hhi). pose proof (pow_pos2 e He) as Hpe.
  destruct (Z.eq_dec e 0) as [->|He0].
  - change (2 ^ 0) with 1 in *. destruct Hs as [->|Hs].
    + rewrite Z.mul_0_l in *. assert (m = 0) as -> by nia. lia.
    + assert (2 ^ 52 * d <= n * unit64) as Hb; [|lia]. rewrite unit_split. pose proof (pow_pos2 1022 ltac:(lia)) as H. revert H Hs. generalize (2 ^ 1022). intros K HK Hs. nia.
  - specialize (Hlo ltac:(lia)). nia.
Qed.
Lemma round_small n d : 0 <= n -> 0 < d -> n <= 2 ^ 64 * d -> round_abs n d <= max64.
Proof.
  intros Hn Hd Hs. assert (round_abs n d <= 2 ^ 66 * unit64) as Hr.
  { destruct (round_facts n d Hn Hd) as (e & m & He & -> & Hmb & Herr & Hlo & Hhi). pose proof (pow_pos2 e He) as Hpe. pose proof unit_pos as HS.
    assert (2 ^ e * d <= 2 ^ 65 * unit64 * d) as H1.
    { destruct (Z.eq_dec e 0) as [->|He0]; [change (2 ^ 0) with 1; nia|]. specialize (Hlo ltac:(lia)). nia. }
    assert (n * unit64 <= 2 ^ 64 * unit64 * d) as H2 by nia. assert (m * 2 ^ e * d <= 2 ^ 66 * unit64 * d) by nia. nia. }
  etransitivity; [exact Hr|]. Transparent unit64 max64. unfold max64, unit64. Opaque unit64 max64.
  rewrite <- Z.pow_add_r by lia. transitivity (1 * 2 ^ 2045); [rewrite Z.mul_1_l; apply Z.pow_le_mono_r; lia|]. apply Z.mul_le_mono_nonneg_r; [apply Z.pow_nonneg; lia|lia].
Qed.
Lemma float_some n d : 0 < d -> Z.abs n <= 2 ^ 64 * d -> Float64 (Rat n d) = Some (Z.sgn n * round_abs (Z.abs n) d).
Proof.
  intros Hd Hn. unfold Float64. cbn [r_num r_den]. destruct (Z.ltb_spec max64 (round_abs (Z.abs n) d)) as [Hm|_]; [|done].
  pose proof (round_small (Z.abs n) d ltac:(lia) Hd Hn). lia.
Qed.
Lemma float_err n d f : 0 < d -> n = 0 \/ d <= Z.abs n * 2 ^ 1022 -> f = Z.sgn n * round_abs (Z.abs n) d ->
  2 ^ 53 * Z.abs (f * d - n * unit64) <= Z.abs n * unit64.
Proof.
  intros Hd Hs ->. etransitivity; [|apply (round_err (Z.abs n) d); lia]. apply Z.eq_le_incl. f_equal.
  destruct (Z.lt_trichotomy n 0) as [H|[->|H]].
  - rewrite Z.sgn_neg, (Z.abs_neq n) by lia. lia.
  - cbn. pose proof (round_err 0 d ltac:(lia) Hd ltac:(lia)). rewrite !Z.mul_0_l in *. lia.
  - rewrite Z.sgn_pos, (Z.abs_eq n) by lia. lia.
Qed.
Lemma int_is64 x : Z.abs x <= 2 ^ 53 -> is64 (x * unit64).
Proof.
  intros Hx. destruct (Z.eq_dec (Z.abs x) (2 ^ 53)) as [He|He].
  - exists (Z.sgn x * 2 ^ 52), 1075. split.
    + Transparent unit64. unfold unit64. Opaque unit64. change 1075 with (1 + 1074). rewrite Z.pow_add_r by lia. rewrite <- (Z.abs_sgn x) at 1. rewrite He. change (2 ^ 53) with (2 ^ 52 * 2 ^ 1). ring.
    + split; [|lia]. destruct x; cbn in *; lia.
  - exists x, 1074. split; [done|]. lia.
Qed.
Lemma float_int x : Z.abs x <= 2 ^ 53 -> float_of_int x = x * unit64.
Proof.
  intros Hx. unfold float_of_int. assert (nearest x 1 (Z.sgn x * round_abs (Z.abs x) 1)) as [_ Hb].
  { apply C86_float; [lia|]. apply float_some; lia. }
  specialize (Hb _ (int_is64 x Hx)). lia.
Qed.
(* where the rounded number lies *)
Lemma float_between n d : 0 < d <= 2 ^ 1022 -> Z.abs n < 2 ^ 53 -> exists f, Float64 (Rat n d) = Some f /\
  (n mod d = 0 -> f = n / d * unit64) /\ (n mod d <> 0 -> n / d * unit64 < f < (n / d + 1) * unit64) /\ Z.abs f <= 2 ^ 53 * unit64.
Proof.
  intros Hd Hn. pose proof unit_pos as HS. eexists. split; [apply float_some; [lia|nia]|]. set (f := Z.sgn n * round_abs (Z.abs n) d).
  assert (nearest n d f) as [_ Hb] by (apply C86_float; [lia|]; apply float_some; [lia|nia]).
  assert (2 ^ 53 * Z.abs (f * d - n * unit64) <= Z.abs n * unit64) as Herr.
  { apply float_err; [lia| |done]. destruct (Z.eq_dec n 0) as [?|Hn0]; [by left|right]. revert Hd. generalize (2 ^ 1022). intros K HK. nia. }
  pose proof (Z.div_mod n d ltac:(lia)) as Hdm. pose proof (Z.mod_pos_bound n d ltac:(lia)) as Hmb. set (k := n / d) in *.
  assert (Z.abs k <= 2 ^ 53 /\ Z.abs (k + 1) <= 2 ^ 53) as [Hk1 Hk2] by nia.
  assert (k * unit64 <= f) as H1.
  { specialize (Hb _ (int_is64 k Hk1)). destruct (Z.le_gt_cases (k * unit64) f) as [?|Hlt]; [done|]. exfalso. assert (k * unit64 * d <= n * unit64) by nia. nia. }
  assert (f <= (k + 1) * unit64) as H2.
  { specialize (Hb _ (int_is64 (k + 1) Hk2)). destruct (Z.le_gt_cases f ((k + 1) * unit64)) as [?|Hlt]; [done|]. exfalso. assert (n * unit64 <= (k + 1) * unit64 * d) by nia. nia. }
  split; [|split].
  - intros H0. specialize (Hb _ (int_is64 k Hk1)). assert (k * unit64 * d = n * unit64) by nia. nia.
  - intros H0. assert (Z.abs (f * d - n * unit64) < unit64) as Hlt by nia. split; apply Z.le_neq; (split; [done|]); [intros <-|intros ->].
    + assert (k * unit64 * d - n * unit64 = - (n mod d) * unit64) as Hx by nia. rewrite Hx in Hlt. nia.
    + assert ((k + 1) * unit64 * d - n * unit64 = (d - n mod d) * unit64) as Hx by nia. rewrite Hx in Hlt. nia.
  - nia.
Qed.
Lemma quot_int x : Z.quot (x * unit64) unit64 = x.
Proof. apply Z.quot_mul. pose proof unit_pos. lia. Qed.
Lemma quot_between k f : k * unit64 < f < (k + 1) * unit64 -> Z.quot f unit64 = if 0 <=? k then k else k + 1.
Proof.
  intros Hf. pose proof unit_pos as HS. destruct (Z.leb_spec 0 k) as [Hk|Hk].
  - rewrite Z.quot_div_nonneg by nia. symmetry. apply Z.div_unique with (f - k * unit64); lia.
  - assert (f <= 0) by nia. assert (Z.quot (- f) unit64 = - (k + 1)) as Hq.
    { rewrite Z.quot_div_nonneg by lia. symmetry. apply Z.div_unique with (- f + (k + 1) * unit64); lia. }
    rewrite Z.quot_opp_l in Hq by lia. lia.
Qed.
Section ceil.
Context (conv : Z -> Z).
Lemma fits f : Z.abs f <= 2 ^ 53 * unit64 -> (2 ^ 63 * unit64 <? f) || (f <? - 2 ^ 63 * unit64) = false.
Proof. intros Hf. pose proof unit_pos. apply orb_false_iff. split; apply Z.ltb_ge; lia. Qed.
Lemma conv_fits f x : Z.quot f unit64 = x -> Z.abs x <= 2 ^ 53 -> int_of_float conv f = x.
Proof.
  intros Hq Hx. unfold int_of_float. rewrite Hq. destruct (Z.leb_spec (- 2 ^ 63) x); [|lia]. destruct (Z.ltb_spec x (2 ^ 63)); [|lia]. done.
Qed.
Lemma div_bound n d : 0 < d -> Z.abs n < 2 ^ 53 -> Z.abs (n / d) <= 2 ^ 53 /\ Z.abs (n / d + 1) <= 2 ^ 53.
Proof. intros Hd Hn. pose proof (Z.div_mod n d ltac:(lia)). pose proof (Z.mod_pos_bound n d ltac:(lia)). nia. Qed.
(** RatToInt64 of n/d with |n| < 2^53 is the smallest integer not below n/d. *)
Theorem C86_ceil : forall n d, 0 < d <= 2 ^ 1022 -> Z.abs n < 2 ^ 53 ->
  exists x, RatToInt64 conv (Rat n d) = (x, false) /\ ceil_of n d x.
Proof.
  intros n d Hd Hn. destruct (float_between n d Hd Hn) as (f & Hf & Hint & Hbet & Hab). unfold RatToInt64. rewrite Hf, fits by done.
  destruct (div_bound n d ltac:(lia) Hn) as [Hk1 Hk2]. pose proof (Z.div_mod n d ltac:(lia)) as Hdm. pose proof (Z.mod_pos_bound n d ltac:(lia)) as Hmb.
  set (k := n / d) in *. destruct (Z.eq_dec (n mod d) 0) as [H0|H0].
  - rewrite (Hint H0) in *. rewrite (conv_fits _ k (quot_int k) Hk1), float_int by done. rewrite Z.ltb_irrefl. eexists. split; [reflexivity|]. unfold ceil_of. nia.
  - specialize (Hbet H0). pose proof (quot_between k f Hbet) as Hq. destruct (Z.leb_spec 0 k) as [Hk|Hk].
    + rewrite (conv_fits _ k Hq Hk1), float_int by done. destruct (Z.ltb_spec (k * unit64) f) as [_|?]; [|lia]. eexists. split; [reflexivity|]. unfold ceil_of. nia.
    + rewrite (conv_fits _ _ Hq Hk2), float_int by done. destruct (Z.ltb_spec ((k + 1) * unit64) f) as [?|_]; [lia|]. eexists. split; [reflexivity|]. unfold ceil_of. nia.
Qed.
(** RatToInt64Floor of n/d with 0 <= n < 2^53 is the largest integer not above n/d. *)
Theorem C86_floor : forall n d, 0 < d <= 2 ^ 1022 -> 0 <= n < 2 ^ 53 ->
  exists x, RatToInt64Floor conv (Rat n d) = (x, false) /\ floor_of n d x.
Proof.
  intros n d Hd Hn. destruct (float_between n d Hd ltac:(lia)) as (f & Hf & Hint & Hbet & Hab). unfold RatToInt64Floor. rewrite Hf, fits by done.
  destruct (div_bound n d ltac:(lia) ltac:(lia)) as [Hk1 Hk2]. pose proof (Z.div_mod n d ltac:(lia)) as Hdm. pose proof (Z.mod_pos_bound n d ltac:(lia)) as Hmb.
  assert (0 <= n / d) as Hk0 by (apply Z.div_pos; lia). set (k := n / d) in *. exists k. split; [|unfold floor_of; nia]. f_equal. apply conv_fits; [|done].
  destruct (Z.eq_dec (n mod d) 0) as [H0|H0].
  - rewrite (Hint H0). apply quot_int.
  - rewrite (quot_between k f (Hbet H0)). destruct (Z.leb_spec 0 k); lia.
Qed.
(** Int64MulRat of i and n/d with |n*i| < 2^53 is the smallest integer not below i*n/d. *)
Theorem C86_mul : forall i n d, 0 < d <= 2 ^ 1022 -> Z.abs (n * i) < 2 ^ 53 -> ceil_of (i * n) d (Int64MulRat conv i (Rat n d)).
Proof.
  intros i n d Hd Hn. unfold Int64MulRat, rat_mul_int. cbn [r_num r_den]. set (g := Z.gcd (n * i) d).
  assert (0 < g) as Hg by (pose proof (Z.gcd_nonneg (n * i) d); assert (g <> 0); [|lia]; intros H0; apply Z.gcd_eq_0 in H0; lia).
  destruct (Z.gcd_divide_l (n * i) d) as [a Ha]. destruct (Z.gcd_divide_r (n * i) d) as [b Hb]. fold g in Ha, Hb.
  rewrite Ha, Hb. rewrite !Z.div_mul by lia.
  destruct (C86_ceil a b) as (x & -> & Hx).
  - revert Hd. generalize (2 ^ 1022). intros K HK. nia.
  - nia.
  - cbn [fst]. unfold ceil_of in *. rewrite (Z.mul_comm i n), Ha. nia.
Qed.
End ceil.
Print Assumptions C86_ceil. Print Assumptions C86_floor. Print Assumptions C86_mul.
(* large floats are integers *)
Lemma is64_large f : is64 f -> 2 ^ 53 * unit64 <= Z.abs f -> exists x, f = x * unit64.
Proof.
  intros (m & e & -> & Hm & He) Hl. assert (1074 < e) as He2.
  { destruct (Z.lt_ge_cases 1074 e) as [?|Hle]; [done|]. exfalso. assert (2 ^ e <= unit64) as Hp. { Transparent unit64. unfold unit64. Opaque unit64. apply Z.pow_le_mono_r; lia. }
    pose proof (pow_pos2 e ltac:(lia)). rewrite Z.abs_mul, (Z.abs_eq (2 ^ e)) in Hl by lia. nia. }
  exists (m * 2 ^ (e - 1074)). Transparent unit64. unfold unit64. Opaque unit64. rewrite <- Z.mul_assoc, <- Z.pow_add_r by lia. do 2 f_equal. lia.
Qed.
Lemma float_int_exact x : is64 (x * unit64) -> Z.abs x <= 2 ^ 63 -> float_of_int x = x * unit64.
Proof.
  intros Hx Hb. unfold float_of_int. assert (nearest x 1 (Z.sgn x * round_abs (Z.abs x) 1)) as [_ Hn].
  { apply C86_float; [lia|]. apply float_some; lia. }
  specialize (Hn _ Hx). lia.
Qed.
Lemma is64_lim x : x = 2 ^ 63 - 1024 \/ x = 2 ^ 63 + 2048 -> is64 (x * unit64).
Proof.
  Transparent unit64. unfold unit64. Opaque unit64. intros [Hx|Hx]; rewrite Hx.
  - exists (2 ^ 53 - 1), (10 + 1074). rewrite (Z.pow_add_r 2 10 1074) by lia. split; [generalize (2 ^ 1074); intros; lia|lia].
  - exists (2 ^ 52 + 1), (11 + 1074). rewrite (Z.pow_add_r 2 11 1074) by lia. split; [generalize (2 ^ 1074); intros; lia|lia].
Qed.
Lemma is64_opp f : is64 f -> is64 (- f).
Proof. intros (m & e & -> & Hm & He). exists (- m), e. split; [ring|]. split; [by rewrite Z.abs_opp|done]. Qed.
Lemma quot_facts f : unit64 * Z.abs (Z.quot f unit64) <= Z.abs f /\ Z.abs (f - unit64 * Z.quot f unit64) < unit64 /\ 0 <= f * (f - unit64 * Z.quot f unit64).
Proof.
  pose proof unit_pos as HS. pose proof (Z.quot_rem' f unit64) as Hq. pose proof (Z.rem_bound_abs f unit64 ltac:(lia)) as Hb.
  assert (f - unit64 * Z.quot f unit64 = Z.rem f unit64) as Hr by lia. rewrite Hr. split; [|split; [lia|]].
  - destruct (Z.le_gt_cases 0 f) as [Hf|Hf].
    + pose proof (Z.mul_quot_le f unit64 Hf ltac:(lia)). nia.
    + pose proof (Z.mul_quot_ge f unit64 ltac:(lia) ltac:(lia)). nia.
  - pose proof (Z.rem_sign_mul f unit64 ltac:(lia)). lia.
Qed.
Section near.
Context (conv : Z -> Z).
(** RatToInt64 of n/d up to 2^63 - 1024 in absolute value is, up to the relative error 2^-53 of
    the float64 in between, the smallest integer not below n/d. *)
Theorem C86_near : forall n d, 0 < d <= 2 ^ 1022 -> Z.abs n <= (2 ^ 63 - 1024) * d ->
  exists x, RatToInt64 conv (Rat n d) = (x, false) /\
    2 ^ 53 * ((x - 1) * d - n) < Z.abs n /\ 2 ^ 53 * (n - x * d) <= Z.abs n.
Proof.
  intros n d Hd Hn. pose proof unit_pos as HS. unfold RatToInt64. assert (Z.abs n <= 2 ^ 64 * d) as Hn64 by nia. rewrite float_some by lia.
  set (f := Z.sgn n * round_abs (Z.abs n) d).
  assert (nearest n d f) as [H64 Hb] by (apply C86_float; [lia|]; apply float_some; [lia|done]).
  assert (2 ^ 53 * Z.abs (f * d - n * unit64) <= Z.abs n * unit64) as Herr.
  { apply float_err; [lia| |done]. destruct (Z.eq_dec n 0) as [?|Hn0]; [by left|right]. revert Hd. generalize (2 ^ 1022). intros K HK. nia. }
  pose proof (is64_lim (2 ^ 63 - 1024) (or_introl eq_refl)) as Hlim.
  assert (Z.abs f <= (2 ^ 63 - 1024) * unit64) as Hf.
  { pose proof (Hb _ Hlim) as H1. pose proof (Hb _ (is64_opp _ Hlim)) as H2. set (L := (2 ^ 63 - 1024)) in *. assert (Z.abs n * unit64 <= L * unit64 * d) by nia.
    apply Z.abs_le. split; [destruct (Z.le_gt_cases (- (L * unit64)) f) as [?|Hlt]|destruct (Z.le_gt_cases f (L * unit64)) as [?|Hlt]]; try done; exfalso; nia. }
  replace ((2 ^ 63 * unit64 <? f) || (f <? - 2 ^ 63 * unit64)) with false by (symmetry; apply orb_false_iff; split; apply Z.ltb_ge; lia).
  destruct (quot_facts f) as (Hq1 & Hq2 & Hq3). set (x := Z.quot f unit64) in *.
  assert (Z.abs x <= 2 ^ 63 - 1024) as Hx by nia.
  assert (int_of_float conv f = x) as ->. { unfold int_of_float. fold x. destruct (Z.leb_spec (- 2 ^ 63) x); [|lia]. destruct (Z.ltb_spec x (2 ^ 63)); [|lia]. done. }
  assert (float_of_int x = x * unit64) as ->.
  { destruct (Z.le_gt_cases (2 ^ 53 * unit64) (Z.abs f)) as [Hl|Hl].
    - destruct (is64_large f H64 Hl) as [y Hy]. assert (x = y) as Hxy by (subst x; rewrite Hy; apply quot_int). apply float_int_exact; [by rewrite Hxy, <- Hy|lia].
    - apply float_int. nia. }
  assert (exists y, (if x * unit64 <? f then (x + 1, false) else (x, false)) = (y, false) /\ (y - 1) * unit64 < f <= y * unit64) as (y & Hy & Hyb).
  { destruct (Z.ltb_spec (x * unit64) f) as [Hlt|Hge]; eexists; (split; [reflexivity|]); [lia|]. split; [|lia]. lia. }
  exists y. split; [exact Hy|]. assert ((y - 1) * d * unit64 < f * d /\ f * d <= y * d * unit64) as [H1 H2] by nia.
  split.
  - apply (Z.mul_lt_mono_pos_r unit64); [done|]. replace (2 ^ 53 * ((y - 1) * d - n) * unit64) with (2 ^ 53 * ((y - 1) * d * unit64 - n * unit64)) by ring. lia.
  - apply (Z.mul_le_mono_pos_r _ _ unit64); [done|]. replace (2 ^ 53 * (n - y * d) * unit64) with (2 ^ 53 * (n * unit64 - y * d * unit64)) by ring. lia.
Qed.
(** n/d of 2^63 + 2048 or more in absolute value is refused by both. *)
Theorem C86_refused : forall n d, 0 < d -> (2 ^ 63 + 2048) * d <= Z.abs n ->
  RatToInt64 conv (Rat n d) = (0, true) /\ RatToInt64Floor conv (Rat n d) = (0, true).
Proof.
  intros n d Hd Hn. pose proof unit_pos as HS. unfold RatToInt64, RatToInt64Floor. destruct (Float64 (Rat n d)) as [f|] eqn:Hf; [|done].
  destruct (C86_float n d f Hd Hf) as [_ Hb]. pose proof (is64_lim (2 ^ 63 + 2048) (or_intror eq_refl)) as Hlim.
  replace ((2 ^ 63 * unit64 <? f) || (f <? - 2 ^ 63 * unit64)) with true; [done|]. symmetry. apply orb_true_iff. set (L := 2 ^ 63 + 2048) in *.
  destruct (Z.le_gt_cases 0 n) as [H0|H0]; [left|right]; apply Z.ltb_lt.
  - pose proof (Hb _ Hlim) as H1. assert (L * unit64 * d <= n * unit64) by nia. destruct (Z.lt_ge_cases (2 ^ 63 * unit64) f) as [?|Hle]; [done|]. exfalso. assert (f < L * unit64) by lia. nia.
  - pose proof (Hb _ (is64_opp _ Hlim)) as H1. assert (n * unit64 <= - (L * unit64) * d) by nia. destruct (Z.lt_ge_cases f (- 2 ^ 63 * unit64)) as [?|Hle]; [done|]. exfalso. assert (- (L * unit64) < f) by lia. nia.
Qed.
End near.
Print Assumptions C86_near. Print Assumptions C86_refused.
(** Findings. RatToInt64Floor rounds negative numbers up: of -1/2 it gives 0. *)
Theorem C86_floor_negative_refuted : forall conv, exists n d x, 0 < d /\ RatToInt64Floor conv (Rat n d) = (x, false) /\ ~ floor_of n d x.
Proof. intros conv. exists (-1), 2, 0. split; [lia|]. split; [vm_compute; reflexivity|]. unfold floor_of. lia. Qed.
(** RatToInt64 of 1 + 2^-60 is 1, Int64MulRat of 2^53 + 1 and 1 is 2^53: both are less than the number. *)
Theorem C86_precision_refuted : forall conv, exists n d x, 0 < d /\ RatToInt64 conv (Rat n d) = (x, false) /\ x * d < n.
Proof. intros conv. exists (2 ^ 60 + 1), (2 ^ 60), 1. split; [lia|]. split; [vm_compute; reflexivity|]. lia. Qed.
Theorem C86_mul_precision_refuted : forall conv, exists i x, Int64MulRat conv i (Rat 1 1) = x /\ x < i /\ i < 2 ^ 63.
Proof. intros conv. exists (2 ^ 53 + 1), (2 ^ 53). split; [vm_compute; reflexivity|]. lia. Qed.
(** The range check lets 2^63 - 1 through as 2^63, whose conversion Go leaves to the
    implementation; where it gives the least int64, as on amd64, so does RatToInt64. *)
Theorem C86_limit_refuted : exists n x, n < 2 ^ 63 /\ RatToInt64 (fun _ => - 2 ^ 63) (Rat n 1) = (x, false) /\ x < 0 < n.
Proof. exists (2 ^ 63 - 1), (- 2 ^ 63 + 1). split; [lia|]. split; [vm_compute; reflexivity|]. lia. Qed.
Example C86_examples : forall conv,
  RatToInt64 conv (Rat 7 3) = (3, false) /\ RatToInt64 conv (Rat (-7) 3) = (-2, false) /\ RatToInt64 conv (Rat 6 1) = (6, false) /\
  RatToInt64Floor conv (Rat 7 3) = (2, false) /\ Int64MulRat conv 100 (Rat 2 3) = 67 /\ Int64MulRat conv 90 (Rat 2 3) = 60 /\
  RatToInt64 conv (Rat (2 ^ 63 - 1024) 1) = (2 ^ 63 - 1024, false) /\ RatToInt64 conv (Rat (- 2 ^ 63) 1) = (- 2 ^ 63, false) /\
  RatToInt64 conv (Rat (2 ^ 64) 1) = (0, true).
Proof. intros conv. vm_compute. repeat split. Qed.
