(** Patched jumps. *)
From Coq Require Import List ZArith Bool Lia.
From Verif Require Import TrampModel ProtoModel GenModel Asm64Model Asm64Spec Asm64Proofs Mach64 Mach64Proofs Jit64Model.
Import ListNotations.
Local Open Scope Z_scope.
Notation length := List.length.

Lemma rewrite32_mid x u y d : rewrite32 (x ++ le 4 u ++ y) (Z.of_nat (length x)) d = x ++ le 4 d ++ y.
Proof.
  unfold rewrite32. rewrite Nat2Z.id.
  rewrite firstn_app, Nat.sub_diag, firstn_all, firstn_O, app_nil_r. f_equal. f_equal.
  rewrite skipn_app. rewrite (skipn_all2 x) by lia. cbn [app].
  replace (length x + 4 - length x)%nat with (length (le 4 u)) by (rewrite le_length; lia).
  rewrite skipn_app, skipn_all, Nat.sub_diag. reflexivity.
Qed.
(** instructions that end with a 32-bit distance *)
Definition opcode (j : Z -> asm) : option (list Z) :=
  match j 0 with
  | AJump _ => Some [233] | AJz _ => Some [15; 132] | AJe _ => Some [15; 132] | AJl _ => Some [15; 140] | _ => None end.
Definition jumpy (j : Z -> asm) : Prop := exists o, forall d, emit (j d) = o ++ le 4 d.
Lemma jumpy_jump : jumpy AJump. Proof. exists [233]. reflexivity. Qed.
Lemma jumpy_jz : jumpy AJz. Proof. exists [15; 132]. reflexivity. Qed.
Lemma jumpy_je : jumpy AJe. Proof. exists [15; 132]. reflexivity. Qed.
Lemma jumpy_jl : jumpy AJl. Proof. exists [15; 140]. reflexivity. Qed.
Lemma jumpy_off j d d' : jumpy j -> off [j d] = off [j d'].
Proof. intros [o H]. unfold off, emit_all. cbn [flat_map]. rewrite !app_nil_r, !H, !app_length, !le_length. reflexivity. Qed.
Lemma emit_all_cons a l : emit_all (a :: l) = emit a ++ emit_all l.
Proof. reflexivity. Qed.

Lemma patch j l1 l2 d0 d : jumpy j ->
  rewrite32 (emit_all (l1 ++ j d0 :: l2)) (off (l1 ++ [j d0]) - 4) d = emit_all (l1 ++ j d :: l2).
Proof.
  intros [o H]. rewrite !emit_all_app, !emit_all_cons, !H.
  replace (off (l1 ++ [j d0]) - 4) with (Z.of_nat (length (emit_all l1 ++ o))).
  - rewrite <- !app_assoc. rewrite (app_assoc (emit_all l1) o). rewrite rewrite32_mid. rewrite <- !app_assoc. reflexivity.
  - unfold off. rewrite emit_all_app, emit_all_cons, H. change (emit_all []) with (@nil Z). rewrite app_nil_r.
    rewrite !app_length, le_length. lia.
Qed.
Lemma put_emit l1 l2 : put (emit_all l1) l2 = emit_all (l1 ++ l2).
Proof. unfold put. rewrite emit_all_app. reflexivity. Qed.
Lemma opos_emit l : opos (emit_all l) = off l.
Proof. reflexivity. Qed.
