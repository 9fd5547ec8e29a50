(** Property theorems for the number helpers: C46 (256-bit arithmetic), C47
    (checked uint64 arithmetic), C52 (gas pool), C59 (versions). *)
From Verif Require Import NumProofs.

(* ------------------------------------------------------------------ C47 *)
(** The overflow flag is exact, and without overflow the value is exact. *)
Theorem C47_SafeAdd_exact : forall x y, x < 2 ^ 64 -> y < 2 ^ 64 ->
  exists r ovf, SafeAdd x y = (r, ovf) /\ (ovf = true <-> 2 ^ 64 <= x + y) /\
    (ovf = false -> r = x + y) /\ r < 2 ^ 64.
Proof.
  change (2 ^ 64) with two64. intros x y Hx Hy. rewrite SafeAdd_spec by done. eexists _, _. split; [done|].
  pose proof (N.mod_lt (x + y) two64 ltac:(done)).
  destruct (N.leb_spec two64 (x+y)); (repeat split; intros; try done); [lia|]. apply N.mod_small; done.
Qed.
Print Assumptions C47_SafeAdd_exact.

Theorem C47_SafeSub_exact : forall x y, x < 2 ^ 64 -> y < 2 ^ 64 ->
  exists r ovf, SafeSub x y = (r, ovf) /\ (ovf = true <-> (Z.of_N x - Z.of_N y < 0)%Z) /\
    (ovf = false -> Z.of_N r = (Z.of_N x - Z.of_N y)%Z) /\ r < 2 ^ 64.
Proof.
  change (2 ^ 64) with two64. intros x y Hx Hy. unfold SafeSub. eexists _, _. split; [done|].
  assert (u64_sub x y < two64) by (apply N.mod_lt; done).
  destruct (N.ltb_spec x y); repeat split; intros; try done; try lia.
  rewrite u64_sub_small by done. lia.
Qed.
Print Assumptions C47_SafeSub_exact.

Theorem C47_SafeMul_exact : forall x y, x < 2 ^ 64 -> y < 2 ^ 64 ->
  exists r ovf, SafeMul x y = (r, ovf) /\ (ovf = true <-> 2 ^ 64 <= x * y) /\
    (ovf = false -> r = x * y) /\ r < 2 ^ 64.
Proof.
  change (2 ^ 64) with two64. intros x y Hx Hy. rewrite SafeMul_spec by done. eexists _, _. split; [done|].
  pose proof (N.mod_lt (x * y) two64 ltac:(done)).
  destruct (N.leb_spec two64 (x*y)); (repeat split; intros; try done); [lia|]. apply N.mod_small; done.
Qed.
Print Assumptions C47_SafeMul_exact.

Example C47_examples :
  SafeAdd 18446744073709551615 1 = (0, true) /\ SafeAdd 18446744073709551614 1 = (18446744073709551615, false) /\
  SafeSub 3 5 = (18446744073709551614, true) /\ SafeMul 4294967296 4294967296 = (0, true) /\
  SafeMul 4294967295 4294967297 = (18446744073709551615, false).
Proof. repeat split; vm_compute; reflexivity. Qed.

(* ------------------------------------------------------------------ C59 *)
Theorem C59_version_round_trip : forall major minor patch,
  (major <= 999 /\ minor <= 999 /\ patch <= 999 ->
     exists v, NewNodeVersion major minor patch = Some v /\
       Major v = major /\ Minor v = minor /\ Patch v = patch) /\
  (~ (major <= 999 /\ minor <= 999 /\ patch <= 999) -> NewNodeVersion major minor patch = None).
Proof.
  intros a b c. unfold NewNodeVersion. split.
  - intros (Ha & Hb & Hc).
    destruct (N.ltb_spec 999 b); [lia|]. destruct (N.ltb_spec 999 c); [lia|].
    destruct (N.ltb_spec 999 a); [lia|]. cbn [orb].
    rewrite (u64_mul_small b), (u64_mul_small a) by (unfold two64; lia).
    rewrite (u64_add_small c), u64_add_small by (unfold two64; lia).
    eexists. split; [done|]. unfold Major, Minor, Patch.
    rewrite (u64_mul_small _ 1000000), (u64_mul_small _ 1000) by (unfold two64; lia).
    rewrite !u64_sub_small by (unfold two64; lia). lia.
  - intros Hn. destruct (N.ltb_spec 999 b); [done|]. destruct (N.ltb_spec 999 c); [done|].
    destruct (N.ltb_spec 999 a); [done|]. lia.
Qed.
Print Assumptions C59_version_round_trip.

(** Every version number below 2^64 (also those no constructor call makes) is
    determined by its three components, and numeric order is lexicographic order. *)
Theorem C59_version_order : forall v w, v < 2 ^ 64 -> w < 2 ^ 64 ->
  (v < w <-> Major v < Major w \/
             Major v = Major w /\ (Minor v < Minor w \/ Minor v = Minor w /\ Patch v < Patch w)) /\
  (v = w <-> Major v = Major w /\ Minor v = Minor w /\ Patch v = Patch w) /\
  Minor v <= 999 /\ Patch v <= 999 /\ v = Major v * 1000000 + Minor v * 1000 + Patch v.
Proof.
  change (2 ^ 64) with two64. intros v w Hv Hw. unfold Major, Minor, Patch.
  rewrite !(u64_mul_small _ 1000000), !(u64_mul_small _ 1000) by (unfold two64 in *; lia).
  rewrite !u64_sub_small by (unfold two64 in *; lia). lia.
Qed.
Print Assumptions C59_version_order.

Example C59_example : NewNodeVersion 2 13 999 = Some 2013999 /\ Minor 2013999 = 13 /\ NewNodeVersion 0 1000 0 = None.
Proof. repeat split; reflexivity. Qed.

(* ------------------------------------------------------------------ C52 *)
(** The ideal pool: an unbounded counter that refuses to go below zero or to
    reach 2^64. *)
Definition gideal (g : Z) (o : gop) : Z * gres :=
  match o with
  | GAdd a => if decide (g + Z.of_N a < 2 ^ 64)%Z then ((g + Z.of_N a)%Z, GOk) else (g, GPanic)
  | GSub a => if decide (0 <= g - Z.of_N a)%Z then ((g - Z.of_N a)%Z, GOk) else (g, GErr)
  end.
Fixpoint gideal_run (g : Z) (os : list gop) : Z * list gres :=
  match os with
  | [] => (g, [])
  | o :: os' => let '(g', r) := gideal g o in
                let '(g'', rs) := gideal_run g' os' in (g'', r :: rs)
  end.
(** Net amount of the operations that succeeded. *)
Fixpoint gnet (os : list gop) (rs : list gres) : Z :=
  match os, rs with
  | GAdd a :: os', GOk :: rs' => (Z.of_N a + gnet os' rs')%Z
  | GSub a :: os', GOk :: rs' => (gnet os' rs' - Z.of_N a)%Z
  | _ :: os', _ :: rs' => gnet os' rs'
  | _, _ => 0%Z
  end.
Definition amounts_ok (os : list gop) : Prop := Forall (fun o => gop_amount o < 2 ^ 64) os.

Lemma gstep_ideal gp o : gp < two64 -> gop_amount o < two64 ->
  gideal (Z.of_N gp) o = (Z.of_N (gstep gp o).1, (gstep gp o).2) /\ (gstep gp o).1 < two64.
Proof.
  intros Hg Ho. destruct o as [a|a]; cbn [gop_amount gideal gstep] in *.
  - unfold AddGas. rewrite u64_sub_small by (u64; lia). change (2 ^ 64)%Z with (Z.of_N two64).
    destruct (N.ltb_spec (MaxUint64 - a) gp); cbn [fst snd].
    + rewrite decide_False by (u64; lia). done.
    + rewrite decide_True by (u64; lia). rewrite u64_add_small by (u64; lia). split; [f_equal; lia|u64; lia].
  - unfold SubGas. destruct (N.ltb_spec gp a); cbn [fst snd].
    + rewrite decide_False by lia. done.
    + rewrite decide_True by lia. rewrite u64_sub_small by (u64; lia). split; [f_equal; lia|u64; lia].
Qed.

Theorem C52_gas_pool_ideal : forall gp os, gp < 2 ^ 64 -> amounts_ok os ->
  exists gp' rs, grun gp os = (gp', rs) /\ gp' < 2 ^ 64 /\
    gideal_run (Z.of_N gp) os = (Z.of_N gp', rs) /\
    (Z.of_N gp' = Z.of_N gp + gnet os rs)%Z.
Proof.
  unfold amounts_ok. change (2 ^ 64) with two64. intros gp os. revert gp.
  induction os as [|o os IH]; intros gp Hg Hos.
  { eexists gp, []. cbn. repeat split; auto. lia. }
  inversion Hos as [|? ? Ho Hos']; subst. destruct (gstep_ideal gp o Hg Ho) as [Hi Hlt].
  cbn [grun gideal_run]. rewrite Hi. destruct (gstep gp o) as [g1 r] eqn:Hst. cbn [fst snd] in *.
  destruct (IH g1 Hlt Hos') as (g2 & rs & E & Hlt2 & Ei & Hn). rewrite E, Ei.
  eexists _, _. repeat split; auto.
  destruct o as [a|a]; cbn [gideal] in Hi; destruct (decide _) in Hi; injection Hi as E1 <-; cbn [gnet]; lia.
Qed.
Print Assumptions C52_gas_pool_ideal.

(** The single operations: SubGas fails exactly when the pool is too small, and
    leaves it unchanged; AddGas panics exactly when the sum does not fit. *)
Theorem C52_gas_steps : forall gp a, gp < 2 ^ 64 -> a < 2 ^ 64 ->
  (SubGas gp a = (gp, GErr) <-> gp < a) /\
  (a <= gp -> SubGas gp a = (gp - a, GOk)) /\
  (AddGas gp a = (gp, GPanic) <-> 2 ^ 64 <= gp + a) /\
  (gp + a < 2 ^ 64 -> AddGas gp a = (gp + a, GOk)).
Proof.
  change (2 ^ 64) with two64. intros gp a Hg Ha. unfold SubGas, AddGas. rewrite (u64_sub_small MaxUint64) by (u64; lia).
  destruct (N.ltb_spec gp a); destruct (N.ltb_spec (MaxUint64 - a) gp); repeat split; intros; try done;
    rewrite ?u64_sub_small, ?u64_add_small by (u64; lia); try done; u64; lia.
Qed.
Print Assumptions C52_gas_steps.

Example C52_example :
  grun 100 [GSub 30; GSub 71; GAdd 18446744073709551600; GAdd 5; GSub 75] =
    (0, [GOk; GErr; GPanic; GOk; GOk]).
Proof. vm_compute. reflexivity. Qed.

(* ------------------------------------------------------------------ C46 *)
(** [wb] is the platform's word size in bytes (4 or 8; any positive number works). *)
Theorem C46_U256 : forall x, (U256 x = x mod 2 ^ 256)%Z.
Proof. intros. apply U256_mod. Qed.
Print Assumptions C46_U256.

(** S256 and U256 are inverse bijections between [0,2^256) and [-2^255,2^255). *)
Theorem C46_S256_inverse :
  (forall x, 0 <= x < 2 ^ 256 -> - 2 ^ 255 <= S256 x < 2 ^ 255 /\ U256 (S256 x) = x)%Z /\
  (forall y, - 2 ^ 255 <= y < 2 ^ 255 -> 0 <= U256 y < 2 ^ 256 /\ S256 (U256 y) = y)%Z.
Proof.
  assert (2 ^ 256 = 2 * 2 ^ 255)%Z as E by reflexivity.
  split.
  - intros x Hx. rewrite U256_mod. unfold S256, tt255, tt256 in *. rewrite E in *.
    set (P := (2 ^ 255)%Z) in *. assert (0 < P)%Z by reflexivity. clearbody P. clear E.
    destruct (Z.ltb_spec x P).
    + rewrite Z.mod_small by lia. lia.
    + split; [lia|]. replace (x - 2 * P)%Z with (x + (-1) * (2 * P))%Z by ring.
      rewrite Z.mod_add by lia. apply Z.mod_small. lia.
  - intros y Hy. rewrite U256_mod. unfold S256, tt255, tt256 in *. rewrite E in *.
    set (P := (2 ^ 255)%Z) in *. assert (0 < P)%Z by reflexivity. clearbody P. clear E.
    split; [apply Z.mod_pos_bound; lia|].
    destruct (Z.le_gt_cases 0 y).
    + rewrite Z.mod_small by lia. destruct (Z.ltb_spec y P); lia.
    + replace (y mod (2 * P))%Z with (y + 2 * P)%Z.
      * destruct (Z.ltb_spec (y + 2 * P) P); lia.
      * symmetry. rewrite <- (Z.mod_add y 1 (2 * P)) by lia. rewrite Z.mod_small by lia. lia.
Qed.
Print Assumptions C46_S256_inverse.

Theorem C46_Exp : forall wb base exponent, (0 < wb)%nat -> (0 <= exponent)%Z ->
  (Exp wb base exponent).1 = (base ^ exponent mod 2 ^ 256)%Z.
Proof.
  intros wb b e Hwb He. destruct (Exp_spec wb b e Hwb) as [-> _]. by rewrite Z.abs_eq.
Qed.
Print Assumptions C46_Exp.

(** Finding: the documentation of Exp promises that base is not changed, but it is
    squared in place. *)
Theorem C46_exp_keeps_base_refuted :
  ~ (forall base exponent, (0 <= base < 2 ^ 256)%Z -> (0 <= exponent)%Z ->
       (Exp 8 base exponent).2 = base).
Proof. intros H. specialize (H 3%Z 1%Z ltac:(done) ltac:(done)). vm_compute in H. discriminate. Qed.
Print Assumptions C46_exp_keeps_base_refuted.

(** Byte encodings: [be_num] is the value of a big-endian byte string. *)
Theorem C46_PaddedBigBytes : forall wb z n, (0 < wb)%nat ->
  let out := PaddedBigBytes wb z n in
  is_bytes out /\ Z.of_N (be_num out) = Z.abs z /\
  (n <= Z.of_nat (length out))%Z /\
  ((n < Z.of_nat (length out))%Z -> no_lead0 out).
Proof.
  intros wb z n Hwb out. unfold out, PaddedBigBytes.
  pose proof (N.size_gt (Z.abs_N z)) as Hsz. fold (bit_len z) in Hsz.
  destruct (Z.leb_spec n (Z.of_N (bit_len z / 8))) as [Hn|Hn].
  - unfold big_bytes. split; [apply be_bytes_bytes|]. split; [rewrite be_num_bytes; lia|].
    split; [|intros; apply be_bytes_no_lead0].
    destruct (Z.le_gt_cases n 0); [lia|].
    (* the value has at least 8n bits, so at least n bytes *)
    assert (2 ^ (bit_len z - 1) <= Z.abs_N z) as Hlo.
    { unfold bit_len in *. destruct (Z.abs_N z) as [|p] eqn:Hz; [cbn in Hn; lia|].
      rewrite N.size_log2 by done. rewrite N.sub_1_r, N.pred_succ. apply N.log2_spec. lia. }
    pose proof (be_num_bound (be_bytes (Z.abs_N z)) (be_bytes_bytes _)) as Hhi. rewrite be_num_bytes in Hhi.
    assert (2 ^ (bit_len z - 1) < 256 ^ lenN (be_bytes (Z.abs_N z))) as Hlt by (eapply N.le_lt_trans; eassumption).
    change 256 with (2 ^ 8) in Hlt. rewrite <- N.pow_mul_r in Hlt. apply N.pow_lt_mono_r_iff in Hlt; [|lia].
    unfold lenN in Hlt. lia.
  - rewrite ReadBits_spec by done. split; [apply be_fixed_bytes|].
    rewrite be_fixed_length. split; [|split; lia].
    rewrite be_num_fixed, N.mod_small; [lia|].
    eapply N.lt_le_trans; [exact Hsz|]. change 256 with (2 ^ 8). rewrite <- N.pow_mul_r.
    apply N.pow_le_mono_r; [lia|]. lia.
Qed.
Print Assumptions C46_PaddedBigBytes.

(** ReadBits fills the whole (zeroed) buffer with the low bytes of |z|, so it is
    complete exactly when the buffer is large enough. *)
Theorem C46_ReadBits : forall wb z k, (0 < wb)%nat ->
  let out := ReadBits wb z (replicate k 0) in
  length out = k /\ is_bytes out /\ Z.of_N (be_num out) = (Z.abs z mod 256 ^ Z.of_nat k)%Z.
Proof.
  intros wb z k Hwb out. unfold out. rewrite ReadBits_spec by done.
  rewrite be_fixed_length. split; [done|]. split; [apply be_fixed_bytes|].
  rewrite be_num_fixed, N2Z.inj_mod, N2Z.inj_pow, nat_N_Z. do 2 f_equal; lia.
Qed.
Print Assumptions C46_ReadBits.

(** Byte n of the padlength-byte big-endian form, counted from the most significant
    one; 0 beyond the end. *)
Theorem C46_Byte : forall wb z padlength n, (0 < wb)%nat ->
  Byte wb z padlength n = nth n (be_fixed padlength (Z.abs_N z)) 0.
Proof.
  intros wb z p n Hwb. unfold Byte. destruct (Nat.leb_spec p n) as [H|H].
  - rewrite nth_overflow; [done|]. by rewrite be_fixed_length.
  - rewrite bigEndianByteAt_spec by done. pose proof (be_fixed_nth p (Z.abs_N z) n H) as E.
    rewrite nth_lookup, E. done.
Qed.
Print Assumptions C46_Byte.

Theorem C46_U256Bytes : forall wb x, (0 < wb)%nat ->
  length (U256Bytes wb x) = 32%nat /\ is_bytes (U256Bytes wb x) /\
  Z.of_N (be_num (U256Bytes wb x)) = (x mod 2 ^ 256)%Z.
Proof.
  intros wb x Hwb. pose proof (C46_PaddedBigBytes wb (U256 x) 32 Hwb) as (H1 & H2 & H3 & H4).
  fold (U256Bytes wb x) in *. pose proof (Z.mod_pos_bound x tt256 tt256_pos) as Hb.
  rewrite U256_mod in H2. rewrite Z.abs_eq in H2 by (apply Hb).
  split; [|split; [done|exact H2]].
  destruct (Nat.le_gt_cases (length (U256Bytes wb x)) 32) as [Hle|Hgt]; [lia|].
  specialize (H4 ltac:(lia)). exfalso.
  destruct (U256Bytes wb x) as [|b l] eqn:E; [simpl in Hgt; lia|]. cbn in H4.
  pose proof (be_num_lower b l H4) as Hlo. cbn [length] in Hgt.
  assert (256 ^ 32 <= 256 ^ lenN l) as Hp by (apply N.pow_le_mono_r; unfold lenN; lia).
  rewrite <- H2 in Hb. assert (Z.of_N (be_num (b :: l)) < Z.of_N (256 ^ 32))%Z by apply Hb. lia.
Qed.
Print Assumptions C46_U256Bytes.

(** FirstBitSet returns the lowest set bit, or the bit length of 0. *)
Lemma first_bit_f_spec f : forall i z, (N.to_nat i + f = N.to_nat (bit_len z))%nat ->
  (forall j, j < i -> Z.testbit z (Z.of_N j) = false) ->
  let r := first_bit_f f i z in
  (forall j, j < r -> Z.testbit z (Z.of_N j) = false) /\
  (r < bit_len z -> Z.testbit z (Z.of_N r) = true) /\ r <= bit_len z.
Proof.
  induction f as [|f IH]; intros i z Hf Hlow; cbn [first_bit_f].
  - assert (i = bit_len z) as -> by lia. split; [done|]. split; lia.
  - destruct (Z.testbit z (Z.of_N i)) eqn:Hb; [split; [done|]; split; [done|lia]|].
    apply IH; [lia|]. intros j Hj. destruct (N.eq_dec j i) as [->|]; [done|]. apply Hlow. lia.
Qed.

Theorem C46_FirstBitSet : forall z,
  (z = 0%Z -> FirstBitSet z = 0) /\
  (z <> 0%Z -> Z.testbit z (Z.of_N (FirstBitSet z)) = true /\
     forall j, j < FirstBitSet z -> Z.testbit z (Z.of_N j) = false).
Proof.
  intros z. split; [intros ->; done|]. intros Hz.
  destruct (first_bit_f_spec (N.to_nat (bit_len z)) 0 z ltac:(lia) ltac:(intros; lia)) as (H1 & H2 & H3).
  fold (FirstBitSet z) in *. split; [|done].
  destruct (N.eq_dec (FirstBitSet z) (bit_len z)) as [E|E]; [|apply H2; lia]. exfalso.
  rewrite E in H1. apply Hz.
  (* all bits below the bit length are clear: |z| is a multiple of 2^bitlen *)
  assert (z mod 2 ^ Z.of_N (bit_len z) = 0)%Z as Hm.
  { apply Z.bits_inj_0. intros k. destruct (Z.lt_ge_cases k 0); [by apply Z.testbit_neg_r|].
    destruct (Z.lt_ge_cases k (Z.of_N (bit_len z))).
    - rewrite Z.mod_pow2_bits_low by done. specialize (H1 (Z.to_N k) ltac:(lia)).
      by rewrite Z2N.id in H1.
    - apply Z.mod_pow2_bits_high. lia. }
  apply Z.mod_divide in Hm; [|apply Z.pow_nonzero; lia]. destruct Hm as [q Hq].
  pose proof (N.size_gt (Z.abs_N z)) as Hsz. fold (bit_len z) in Hsz.
  assert (Z.abs z < 2 ^ Z.of_N (bit_len z))%Z as Hlt.
  { change 2%Z with (Z.of_N 2). rewrite <- N2Z.inj_pow. revert Hsz. generalize (2 ^ bit_len z). intros; lia. }
  destruct (Z.eq_dec q 0%Z) as [->|Hq0]; [lia|].
  set (P := (2 ^ Z.of_N (bit_len z))%Z) in *. clearbody P. nia.
Qed.
Print Assumptions C46_FirstBitSet.

Theorem C46_max_min_pow : forall x y,
  BigMax x y = Z.max x y /\ BigMin x y = Z.min x y /\ ((0 <= y)%Z -> BigPow x y = (x ^ y)%Z).
Proof.
  intros x y. unfold BigMax, BigMin, BigPow. split; [|split].
  - destruct (Z.ltb_spec x y); lia.
  - destruct (Z.ltb_spec y x); lia.
  - intros Hy. destruct (Z.leb_spec y 0); [|done]. assert (y = 0%Z) as -> by lia. done.
Qed.
Print Assumptions C46_max_min_pow.

Example C46_examples :
  (Exp 8 3 200).1 = (3 ^ 200 mod 2 ^ 256)%Z /\ (3 ^ 200 > 2 ^ 256)%Z.
Proof. split; vm_compute; reflexivity. Qed.
Example C46_examples2 :
  S256 (2 ^ 256 - 1) = (-1)%Z /\ PaddedBigBytes 8 258 4 = [0;0;1;2] /\ PaddedBigBytes 4 258 1 = [1;2] /\
  Byte 8 5 32 31 = 5 /\ ReadBits 8 66051 [0;0] = [2;3] /\ FirstBitSet 40 = 3.
Proof. repeat split; vm_compute; reflexivity. Qed.
