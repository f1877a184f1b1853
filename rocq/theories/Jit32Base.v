(** Patched jumps. *)
From Coq Require Import List ZArith Bool Lia.
From Verif Require Import TrampModel ProtoModel GenModel Asm32Model Asm32Spec Asm32Proofs Mach32 Mach32Proofs Jit32Model.
Import ListNotations.
Local Open Scope Z_scope.
Notation length := List.length.

Lemma rewrite_mid n x u y (d : Z) : length u = n ->
  firstn (Z.to_nat (Z.of_nat (length x))) (x ++ u ++ y) ++ le n d ++ skipn (Z.to_nat (Z.of_nat (length x)) + n) (x ++ u ++ y) = x ++ le n d ++ y.
Proof.
  intros Hu. rewrite Nat2Z.id.
  rewrite firstn_app, Nat.sub_diag, firstn_all, firstn_O, app_nil_r. f_equal. f_equal.
  rewrite skipn_app. rewrite (skipn_all2 x) by lia. cbn [app].
  replace (length x + n - length x)%nat with (length u) by lia.
  rewrite skipn_app, skipn_all, Nat.sub_diag. reflexivity.
Qed.
(** instructions that end with a distance of [n] bytes *)
Definition jumpy (n : nat) (j : Z -> asm) : Prop := exists o, forall d, emit (j d) = o ++ le n d.
Lemma jumpy_jmp : jumpy 4 AJump_Imm32. Proof. exists [233]. reflexivity. Qed.
Lemma jumpy_j32 c : jumpy 4 (AJump_Cond_Imm32 c). Proof. exists [15; 128 + c]. reflexivity. Qed.
Lemma jumpy_j8 c : jumpy 1 (AJump_Cond_Imm8 c). Proof. exists [112 + c]. reflexivity. Qed.
Lemma emit_all_cons a l : emit_all (a :: l) = emit a ++ emit_all l.
Proof. reflexivity. Qed.
Lemma off_jmp d : off [AJump_Imm32 d] = 5. Proof. reflexivity. Qed.
Lemma off_j32 c d : off [AJump_Cond_Imm32 c d] = 6. Proof. reflexivity. Qed.
Lemma off_j8 c d : off [AJump_Cond_Imm8 c d] = 2. Proof. reflexivity. Qed.

Lemma patch_pos n j l1 (d0 : Z) o : emit (j d0) = o ++ le n d0 -> off (l1 ++ [j d0]) - Z.of_nat n = Z.of_nat (length (emit_all l1 ++ o)).
Proof.
  intros H. unfold off. rewrite emit_all_app, emit_all_cons, H. change (emit_all []) with (@nil Z). rewrite app_nil_r.
  rewrite !app_length, le_length. lia.
Qed.
Lemma patch32 j l1 l2 d0 d : jumpy 4 j ->
  rewrite32 (emit_all (l1 ++ j d0 :: l2)) (off (l1 ++ [j d0]) - 4) d = emit_all (l1 ++ j d :: l2).
Proof.
  intros [o H]. change 4 with (Z.of_nat 4). rewrite (patch_pos 4 j l1 d0 o (H d0)). rewrite !emit_all_app, !emit_all_cons, !H.
  rewrite <- !app_assoc. rewrite (app_assoc (emit_all l1) o). rewrite (app_assoc (emit_all l1) o (le 4 d ++ _)).
  unfold rewrite32. apply rewrite_mid. apply le_length.
Qed.
Lemma patch8 j l1 l2 d0 d : jumpy 1 j ->
  rewrite8 (emit_all (l1 ++ j d0 :: l2)) (off (l1 ++ [j d0]) - 1) d = emit_all (l1 ++ j d :: l2).
Proof.
  intros [o H]. change 1 with (Z.of_nat 1). rewrite (patch_pos 1 j l1 d0 o (H d0)). rewrite !emit_all_app, !emit_all_cons, !H.
  rewrite <- !app_assoc. rewrite (app_assoc (emit_all l1) o). rewrite (app_assoc (emit_all l1) o (le 1 d ++ _)).
  unfold rewrite8. apply rewrite_mid. apply le_length.
Qed.
Lemma put_emit l1 l2 : put (emit_all l1) l2 = emit_all (l1 ++ l2).
Proof. unfold put. rewrite emit_all_app. reflexivity. Qed.
Lemma put_nil l : put [] l = emit_all l. Proof. reflexivity. Qed.
Lemma opos_emit l : opos (emit_all l) = off l.
Proof. reflexivity. Qed.

(** a forward jump over [body] gets its length *)
Lemma close8 l j body : jumpy 1 j ->
  rewrite8 (emit_all (l ++ j 0 :: body)) (off (l ++ [j 0]) - 1) (off (l ++ j 0 :: body) - off (l ++ [j 0])) = emit_all (l ++ j (off body) :: body).
Proof.
  intros H. rewrite patch8 by exact H. f_equal. f_equal. f_equal. f_equal. rewrite !off_app, (off_cons (j 0) body). lia.
Qed.
Lemma close32 l j body : jumpy 4 j ->
  rewrite32 (emit_all (l ++ j 0 :: body)) (off (l ++ [j 0]) - 4) (off (l ++ j 0 :: body) - off (l ++ [j 0])) = emit_all (l ++ j (off body) :: body).
Proof.
  intros H. rewrite patch32 by exact H. f_equal. f_equal. f_equal. f_equal. rewrite !off_app, (off_cons (j 0) body). lia.
Qed.
