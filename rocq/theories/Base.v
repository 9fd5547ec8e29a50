(** Common vocabulary: bytes, byte strings, big-endian numbers.
    These are mathematical notions (what [encoding/binary.BigEndian] and
    [math/big.Int.Bytes/SetBytes] compute), not models of repository code. *)
From Coq Require Export NArith ZArith Lia.
From Coq Require Export ZifyBool ZifyNat ZifyN.
From stdpp Require Export base numbers list.
Global Open Scope N_scope.
Ltac Zify.zify_post_hook ::= Z.div_mod_to_equations.

Global Arguments N.add : simpl never.
Global Arguments N.mul : simpl never.
Global Arguments N.sub : simpl never.
Global Arguments N.pow : simpl never.
Global Arguments N.div : simpl never.
Global Arguments N.modulo : simpl never.
Global Arguments N.shiftr : simpl never.
Global Arguments N.shiftl : simpl never.
Global Arguments N.land : simpl never.
Global Arguments N.lor : simpl never.
Global Arguments N.of_nat : simpl never.
Global Arguments N.to_nat : simpl never.

(** A byte string whose elements are really bytes. *)
Definition is_bytes (l : list N) : Prop := Forall (fun b => b < 256) l.
Definition is_bytesb (l : list N) : bool := forallb (fun b => b <? 256) l.

Definition lenN {A} (l : list A) : N := N.of_nat (length l).

(** Value of a big-endian byte string (big.Int.SetBytes, BigEndian.UintNN). *)
Definition be_num (l : list N) : N := foldl (fun a b => a * 256 + b) 0 l.

(** [k] low bytes of [n], big-endian (BigEndian.PutUintNN). *)
Fixpoint be_fixed (k : nat) (n : N) : list N :=
  match k with
  | O => []
  | S k' => be_fixed k' (n / 256) ++ [n mod 256]
  end.

(** Minimal big-endian bytes (big.Int.Bytes); [] for 0. *)
Fixpoint be_bytes_f (fuel : nat) (n : N) (acc : list N) : list N :=
  match fuel with
  | O => acc
  | S f => if n =? 0 then acc else be_bytes_f f (n / 256) (n mod 256 :: acc)
  end.
Definition be_bytes (n : N) : list N := be_bytes_f (N.to_nat (N.size n)) n [].

Definition two64 : N := 18446744073709551616.
Definition two63 : N := 9223372036854775808.

(* ---------------------------------------------------------------- lemmas *)

Lemma two64_pow : two64 = 256 ^ 8. Proof. reflexivity. Qed.

Lemma lenN_nil {A} : lenN (@nil A) = 0. Proof. reflexivity. Qed.
Lemma lenN_cons {A} (x : A) l : lenN (x :: l) = 1 + lenN l.
Proof. unfold lenN; simpl; lia. Qed.
Lemma lenN_app {A} (l1 l2 : list A) : lenN (l1 ++ l2) = lenN l1 + lenN l2.
Proof. unfold lenN; rewrite app_length; lia. Qed.
Lemma lenN_to_nat {A} (l : list A) : N.to_nat (lenN l) = length l.
Proof. unfold lenN; lia. Qed.
Lemma lenN_0 {A} (l : list A) : lenN l = 0 -> l = [].
Proof. destruct l; unfold lenN; simpl; [done|lia]. Qed.

Lemma is_bytesb_spec l : is_bytesb l = true <-> is_bytes l.
Proof.
  unfold is_bytesb, is_bytes. rewrite forallb_forall, Forall_forall.
  split; intros Hl x Hx.
  - apply elem_of_list_In, Hl in Hx. lia.
  - apply elem_of_list_In, Hl in Hx. lia.
Qed.

Lemma is_bytes_nil : is_bytes []. Proof. constructor. Qed.
Lemma is_bytes_cons b l : is_bytes (b :: l) <-> b < 256 /\ is_bytes l.
Proof. unfold is_bytes. rewrite Forall_cons. done. Qed.
Lemma is_bytes_app l1 l2 : is_bytes (l1 ++ l2) <-> is_bytes l1 /\ is_bytes l2.
Proof. unfold is_bytes. rewrite Forall_app. done. Qed.
Lemma is_bytes_take n l : is_bytes l -> is_bytes (take n l).
Proof. apply Forall_take. Qed.
Lemma is_bytes_drop n l : is_bytes l -> is_bytes (drop n l).
Proof. apply Forall_drop. Qed.
Lemma is_bytes_replicate n b : b < 256 -> is_bytes (replicate n b).
Proof. intros Hb; apply Forall_replicate; done. Qed.

Lemma be_num_nil : be_num [] = 0. Proof. reflexivity. Qed.
Lemma be_num_snoc l b : be_num (l ++ [b]) = be_num l * 256 + b.
Proof. unfold be_num. rewrite foldl_app. reflexivity. Qed.

Lemma be_num_app l1 l2 : be_num (l1 ++ l2) = be_num l1 * 256 ^ lenN l2 + be_num l2.
Proof.
  induction l2 as [|b l2 IH] using rev_ind.
  - rewrite app_nil_r, lenN_nil, be_num_nil. rewrite N.pow_0_r. lia.
  - rewrite app_assoc, !be_num_snoc, IH, lenN_app, N.pow_add_r.
    change (256 ^ lenN [b]) with 256. lia.
Qed.

Lemma be_num_cons b l : be_num (b :: l) = b * 256 ^ lenN l + be_num l.
Proof. change (b :: l) with ([b] ++ l). rewrite be_num_app. reflexivity. Qed.

Lemma pow256_pos k : 0 < 256 ^ k.
Proof. assert (256 ^ k <> 0) by (apply N.pow_nonzero; lia). lia. Qed.

Lemma be_num_bound l : is_bytes l -> be_num l < 256 ^ lenN l.
Proof.
  induction l as [|b l IH] using rev_ind; intros Hl.
  - reflexivity.
  - apply is_bytes_app in Hl as [Hl Hb]. apply is_bytes_cons in Hb as [Hb _].
    rewrite be_num_snoc, lenN_app, N.pow_add_r.
    change (256 ^ lenN [b]) with 256. specialize (IH Hl). lia.
Qed.

Lemma be_fixed_length k n : length (be_fixed k n) = k.
Proof. revert n; induction k as [|k IH]; intros n; simpl; [done|]. rewrite app_length, IH; simpl; lia. Qed.

Lemma be_fixed_bytes k n : is_bytes (be_fixed k n).
Proof.
  revert n; induction k as [|k IH]; intros n; cbn [be_fixed]; [apply is_bytes_nil|].
  apply is_bytes_app; split; [apply IH|]. apply is_bytes_cons; split; [|apply is_bytes_nil].
  apply N.mod_lt; lia.
Qed.

Lemma be_num_fixed k n : be_num (be_fixed k n) = n mod 256 ^ N.of_nat k.
Proof.
  revert n; induction k as [|k IH]; intros n; cbn [be_fixed].
  - change (256 ^ N.of_nat 0) with 1. rewrite N.mod_1_r. reflexivity.
  - rewrite be_num_snoc, IH.
    replace (N.of_nat (S k)) with (1 + N.of_nat k) by lia.
    rewrite N.pow_add_r. change (256 ^ 1) with 256.
    rewrite N.mod_mul_r by (pose proof (pow256_pos (N.of_nat k)); lia). lia.
Qed.

Lemma be_fixed_num l : is_bytes l -> be_fixed (length l) (be_num l) = l.
Proof.
  induction l as [|b l IH] using rev_ind; intros Hl; [done|].
  apply is_bytes_app in Hl as [Hl Hb]. apply is_bytes_cons in Hb as [Hb _].
  rewrite app_length, Nat.add_comm. cbn [length Nat.add be_fixed].
  rewrite be_num_snoc.
  replace ((be_num l * 256 + b) / 256) with (be_num l) by lia.
  replace ((be_num l * 256 + b) mod 256) with b by lia.
  rewrite IH by done. done.
Qed.

Lemma be_bytes_f_app f n acc : be_bytes_f f n acc = be_bytes_f f n [] ++ acc.
Proof.
  revert n acc; induction f as [|f IH]; intros n acc; cbn [be_bytes_f]; [done|].
  destruct (n =? 0); [done|]. rewrite IH. rewrite (IH _ [_]). rewrite <- app_assoc. done.
Qed.

Lemma be_bytes_f_bytes f n : is_bytes (be_bytes_f f n []).
Proof.
  revert n; induction f as [|f IH]; intros n; cbn [be_bytes_f]; [apply is_bytes_nil|].
  destruct (n =? 0); [apply is_bytes_nil|]. rewrite be_bytes_f_app.
  apply is_bytes_app; split; [apply IH|]. apply is_bytes_cons; split; [|apply is_bytes_nil].
  apply N.mod_lt; lia.
Qed.

Lemma be_bytes_bytes n : is_bytes (be_bytes n).
Proof. apply be_bytes_f_bytes. Qed.

Lemma be_bytes_f_num f n : n < 256 ^ N.of_nat f -> be_num (be_bytes_f f n []) = n.
Proof.
  revert n; induction f as [|f IH]; intros n Hn; cbn [be_bytes_f].
  - change (256 ^ N.of_nat 0) with 1 in Hn. rewrite be_num_nil. lia.
  - destruct (N.eqb_spec n 0) as [->|Hn0]; [done|].
    rewrite be_bytes_f_app, be_num_snoc, IH; [lia|].
    replace (N.of_nat (S f)) with (1 + N.of_nat f) in Hn by lia.
    rewrite N.pow_add_r in Hn. change (256 ^ 1) with 256 in Hn. lia.
Qed.

Lemma N_size_bound n : n < 2 ^ N.size n.
Proof. apply N.size_gt. Qed.

Lemma be_bytes_fuel_ok n : n < 256 ^ N.of_nat (N.to_nat (N.size n)).
Proof.
  rewrite N2Nat.id. eapply N.lt_le_trans; [apply N_size_bound|].
  apply N.pow_le_mono_l. lia.
Qed.

Lemma be_num_bytes n : be_num (be_bytes n) = n.
Proof. apply be_bytes_f_num, be_bytes_fuel_ok. Qed.

Lemma be_bytes_f_hd f n : n < 256 ^ N.of_nat f -> forall b l, be_bytes_f f n [] = b :: l -> b <> 0.
Proof.
  revert n; induction f as [|f IH]; intros n Hn b l; cbn [be_bytes_f]; [done|].
  destruct (N.eqb_spec n 0) as [->|Hn0]; [done|].
  rewrite be_bytes_f_app. intros Heq.
  destruct (be_bytes_f f (n / 256) []) as [|b' l'] eqn:Hq.
  - simpl in Heq. injection Heq as <- <-.
    intros Hz. assert (n / 256 <> 0) as Hd by lia.
    assert (n / 256 < 256 ^ N.of_nat f) as Hlt.
    { replace (N.of_nat (S f)) with (1 + N.of_nat f) in Hn by lia.
      rewrite N.pow_add_r in Hn. change (256 ^ 1) with 256 in Hn. lia. }
    pose proof (be_bytes_f_num f (n/256) Hlt) as Hnum. rewrite Hq in Hnum.
    rewrite be_num_nil in Hnum. lia.
  - simpl in Heq. injection Heq as <- <-.
    eapply IH; [|exact Hq].
    replace (N.of_nat (S f)) with (1 + N.of_nat f) in Hn by lia.
    rewrite N.pow_add_r in Hn. change (256 ^ 1) with 256 in Hn. lia.
Qed.

Lemma be_bytes_hd n b l : be_bytes n = b :: l -> b <> 0.
Proof. apply be_bytes_f_hd, be_bytes_fuel_ok. Qed.

Lemma be_num_lower b l : b <> 0 -> 256 ^ lenN l <= be_num (b :: l).
Proof. intros Hb. rewrite be_num_cons. pose proof (pow256_pos (lenN l)). nia. Qed.

(** Two byte strings without leading zero and with the same value are equal. *)
Lemma be_num_inj_len l1 l2 :
  is_bytes l1 -> is_bytes l2 -> length l1 = length l2 -> be_num l1 = be_num l2 -> l1 = l2.
Proof.
  intros H1 H2 Hlen Hn. rewrite <- (be_fixed_num l1), <- (be_fixed_num l2) by done.
  rewrite Hlen, Hn. done.
Qed.

Definition no_lead0 (l : list N) : Prop := match l with [] => True | b :: _ => b <> 0 end.

Lemma no_lead0_len_le l1 l2 :
  is_bytes l1 -> is_bytes l2 -> no_lead0 l1 -> be_num l1 = be_num l2 -> (length l1 <= length l2)%nat.
Proof.
  intros H1 H2 Hl Hn. destruct l1 as [|b l1]; [simpl; lia|].
  simpl in Hl. pose proof (be_num_lower b l1 Hl) as Hlo.
  pose proof (be_num_bound l2 H2) as Hup. rewrite Hn in Hlo.
  assert (256 ^ lenN l1 < 256 ^ lenN l2) as Hlt by lia.
  apply N.pow_lt_mono_r_iff in Hlt; [|lia].
  unfold lenN in Hlt. simpl. lia.
Qed.

Lemma no_lead0_inj l1 l2 :
  is_bytes l1 -> is_bytes l2 -> no_lead0 l1 -> no_lead0 l2 -> be_num l1 = be_num l2 -> l1 = l2.
Proof.
  intros H1 H2 Hl1 Hl2 Hn. apply be_num_inj_len; try done.
  pose proof (no_lead0_len_le l1 l2 H1 H2 Hl1 Hn).
  pose proof (no_lead0_len_le l2 l1 H2 H1 Hl2 (eq_sym Hn)). lia.
Qed.

Lemma be_bytes_no_lead0 n : no_lead0 (be_bytes n).
Proof. destruct (be_bytes n) as [|b l] eqn:Hq; simpl; [done|]. eapply be_bytes_hd; exact Hq. Qed.

Lemma be_bytes_num l : is_bytes l -> no_lead0 l -> be_bytes (be_num l) = l.
Proof.
  intros Hl H0. apply no_lead0_inj; auto using be_bytes_bytes, be_bytes_no_lead0.
  apply be_num_bytes.
Qed.

Lemma be_bytes_0 : be_bytes 0 = []. Proof. reflexivity. Qed.
Lemma be_bytes_nil n : be_bytes n = [] -> n = 0.
Proof. intros Hn. rewrite <- (be_num_bytes n), Hn. reflexivity. Qed.

Lemma be_bytes_fixed k n :
  256 ^ N.of_nat k <= n < 256 ^ N.of_nat (S k) -> be_bytes n = be_fixed (S k) n.
Proof.
  intros [Hlo Hhi]. rewrite <- (be_bytes_num (be_fixed (S k) n)).
  - rewrite be_num_fixed, N.mod_small by done. done.
  - apply be_fixed_bytes.
  - destruct (be_fixed (S k) n) as [|b l] eqn:Hq; simpl; [done|]. intros ->.
    pose proof (be_num_fixed (S k) n) as Hn. rewrite N.mod_small in Hn by done.
    pose proof (be_fixed_length (S k) n) as Hlen. pose proof (be_fixed_bytes (S k) n) as Hb.
    rewrite Hq in *. rewrite be_num_cons in Hn. apply is_bytes_cons in Hb as [_ Hb].
    pose proof (be_num_bound l Hb) as Hbd. simpl in Hlen.
    replace (lenN l) with (N.of_nat k) in Hbd by (unfold lenN; lia). lia.
Qed.

Lemma be_bytes_length_le n k : n < 256 ^ N.of_nat k -> (length (be_bytes n) <= k)%nat.
Proof.
  intros Hn. destruct (be_bytes n) as [|b l] eqn:Hq; [simpl; lia|].
  pose proof (be_bytes_hd n b l Hq) as Hb. pose proof (be_num_lower b l Hb) as Hlo.
  rewrite <- Hq, be_num_bytes in Hlo.
  assert (256 ^ lenN l < 256 ^ N.of_nat k) as Hlt by lia.
  apply N.pow_lt_mono_r_iff in Hlt; [|lia]. unfold lenN in Hlt; simpl; lia.
Qed.

Lemma be_bytes_length_pos n : n <> 0 -> (0 < length (be_bytes n))%nat.
Proof. intros Hn. destruct (be_bytes n) eqn:Hq; simpl; [|lia]. apply be_bytes_nil in Hq. done. Qed.

Lemma be_fixed_zero k : be_fixed k 0 = replicate k 0.
Proof.
  induction k as [|k IH]; [done|]. cbn [be_fixed]. change (0/256) with 0. change (0 mod 256) with 0.
  rewrite IH. change (replicate (S k) 0) with (0 :: replicate k 0). rewrite replicate_cons_app. done.
Qed.

Lemma be_fixed_pad k n :
  n < 256 ^ N.of_nat k ->
  be_fixed k n = replicate (k - length (be_bytes n)) 0 ++ be_bytes n.
Proof.
  intros Hn. pose proof (be_bytes_length_le n k Hn) as Hle.
  apply be_num_inj_len.
  - apply be_fixed_bytes.
  - apply is_bytes_app; split; [apply is_bytes_replicate; lia|apply be_bytes_bytes].
  - rewrite be_fixed_length, app_length, replicate_length. lia.
  - rewrite be_num_fixed, N.mod_small by done. rewrite be_num_app, be_num_bytes.
    rewrite <- be_fixed_zero, be_num_fixed. rewrite N.mod_0_l; [lia|].
    pose proof (pow256_pos (N.of_nat (k - length (be_bytes n)))); lia.
Qed.
