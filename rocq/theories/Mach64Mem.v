(** Memory byte by byte. *)
From Coq Require Import List ZArith Bool Lia.
From Verif Require Import Asm64Model Asm64Spec Mach64 Mach64Proofs.
Import ListNotations.
Local Open Scope Z_scope.

Lemma sto_in n : forall m a v x, 0 <= a -> a + Z.of_nat n <= W64 -> a <= x < a + Z.of_nat n ->
  sto m a n v x = (v / 256 ^ (x - a)) mod 256.
Proof.
  induction n as [|n IH]; intros m a v x Ha Hw Hx; [lia|]. cbn [sto].
  destruct (Z.eq_dec x a) as [-> |Hne].
  - rewrite sto_out by lia. rewrite w64_small by (unfold W64 in *; lia). rewrite upd_same, Z.sub_diag, Z.pow_0_r, Z.div_1_r. reflexivity.
  - rewrite IH; [|lia|lia|lia]. replace (x - a) with (1 + (x - (a + 1))) by lia. rewrite Z.pow_add_r; [|lia|lia].
    rewrite Z.pow_1_r, Z.div_div; [reflexivity|lia|apply Z.pow_pos_nonneg; lia].
Qed.
Lemma st8_in m a v x : 0 <= a -> a + 8 <= W64 -> a <= x < a + 8 -> st8 m a v x = (v / 256 ^ (x - a)) mod 256.
Proof. intros. unfold st8. apply sto_in; change (Z.of_nat 8) with 8; assumption. Qed.
Lemma ld_byte n : forall m a j, bytes_ok m -> 0 <= a -> a + Z.of_nat n <= W64 -> 0 <= j < Z.of_nat n ->
  (ld m a n / 256 ^ j) mod 256 = m (a + j).
Proof.
  induction n as [|n IH]; intros m a j Hm Ha Hw Hj; [lia|]. cbn [ld]. rewrite w64_small by (unfold W64 in *; lia).
  pose proof (Hm a) as Hb. destruct (Z.eq_dec j 0) as [-> |Hj0].
  - rewrite Z.pow_0_r, Z.div_1_r, Z.add_0_r. rewrite (Z.mul_comm 256), Z.mod_add by lia. apply Z.mod_small. exact Hb.
  - replace j with (1 + (j - 1)) at 1 by lia. rewrite Z.pow_add_r by lia. rewrite <- Z.div_div; [|lia|apply Z.pow_pos_nonneg; lia]. rewrite Z.pow_1_r.
    replace ((m a + 256 * ld m (a + 1) n) / 256) with (ld m (a + 1) n).
    + rewrite IH; [f_equal; lia|exact Hm|lia|lia|lia].
    + rewrite (Z.mul_comm 256), Z.div_add; [|lia]. rewrite Z.div_small by exact Hb. lia.
Qed.
Lemma ld_split n p : forall m a, ld m a (n + p) = ld m a n + 256 ^ Z.of_nat n * ld m (a + Z.of_nat n) p.
Proof.
  induction n as [|n IH]; intros m a.
  - cbn [Nat.add ld]. change (256 ^ Z.of_nat 0) with 1. replace (a + Z.of_nat 0) with a by lia. lia.
  - cbn [Nat.add ld]. rewrite IH, Nat2Z.inj_succ, Z.pow_succ_r by lia. replace (a + 1 + Z.of_nat n) with (a + Z.succ (Z.of_nat n)) by lia. lia.
Qed.
(** 8 bytes of which the upper half is zero *)
Lemma ld8_low m a : ld m (a + 4) 4 = 0 -> ld8 m a = ld m a 4.
Proof. intros H. unfold ld8. change 8%nat with (4 + 4)%nat. rewrite ld_split. change (Z.of_nat 4) with 4. rewrite H. lia. Qed.
Lemma ld_zero n : forall m a, 0 <= a -> a + Z.of_nat n <= W64 -> (forall x, a <= x < a + Z.of_nat n -> m x = 0) -> ld m a n = 0.
Proof.
  induction n as [|n IH]; intros m a Ha Hw H; [reflexivity|]. cbn [ld]. rewrite w64_small by (unfold W64 in *; lia).
  rewrite H by lia. rewrite IH; [lia|lia|lia|]. intros x Hx. apply H. lia.
Qed.
Lemma byte_small v j : 0 <= v < 256 ^ j -> 0 <= j -> forall i, j <= i -> (v / 256 ^ i) mod 256 = 0.
Proof.
  intros Hv Hj i Hi. rewrite Z.div_small; [reflexivity|]. split; [lia|].
  apply Z.lt_le_trans with (256 ^ j); [lia|]. apply Z.pow_le_mono_r; lia.
Qed.

Lemma movsb_out n : forall m d a x, 0 <= d -> d + Z.of_nat n <= W64 -> ~ (d <= x < d + Z.of_nat n) -> movsb n m d a x = m x.
Proof.
  induction n as [|n IH]; intros m d a x Hd Hw Hx; [reflexivity|]. cbn [movsb].
  rewrite IH by lia. rewrite w64_small by (unfold W64 in *; lia). apply upd_diff. lia.
Qed.
Lemma movsb_in n : forall m d a x, 0 <= d -> d + Z.of_nat n <= W64 -> 0 <= a -> a + Z.of_nat n <= W64 ->
  (a + Z.of_nat n <= d \/ d + Z.of_nat n <= a) -> d <= x < d + Z.of_nat n -> movsb n m d a x = m (a + (x - d)).
Proof.
  induction n as [|n IH]; intros m d a x Hd Hw Ha Hwa Hdis Hx; [lia|]. cbn [movsb].
  rewrite (w64_small d) by (unfold W64 in *; lia). rewrite (w64_small a) by (unfold W64 in *; lia).
  destruct (Z.eq_dec x d) as [-> |Hne].
  - rewrite movsb_out by lia. rewrite upd_same. f_equal. lia.
  - rewrite IH by lia. rewrite upd_diff by lia. f_equal. lia.
Qed.
Lemma movsb_bytes n : forall m d a, bytes_ok m -> bytes_ok (movsb n m d a).
Proof.
  induction n as [|n IH]; intros m d a Hm; [exact Hm|]. cbn [movsb]. apply IH. intros x. unfold upd. destruct (x =? w64 d); apply Hm.
Qed.
(** copying bytes is storing the number *)
Lemma movsb_sto n m d a x : bytes_ok m -> 0 <= d -> d + Z.of_nat n <= W64 -> 0 <= a -> a + Z.of_nat n <= W64 ->
  (a + Z.of_nat n <= d \/ d + Z.of_nat n <= a) -> movsb n m d a x = sto m d n (ld m a n) x.
Proof.
  intros Hm Hd Hw Ha Hwa Hdis. destruct (Z_lt_dec x d) as [L|L]; [rewrite movsb_out, sto_out by lia; reflexivity|].
  destruct (Z_lt_dec x (d + Z.of_nat n)) as [L2|L2]; [|rewrite movsb_out, sto_out by lia; reflexivity].
  rewrite movsb_in by lia. rewrite sto_in by lia. rewrite ld_byte by (auto; lia). reflexivity.
Qed.
