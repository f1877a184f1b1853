(** Numbers: rounding to multiples of 4 and 16, 16-bit sums, the lengths of instructions. *)
From Coq Require Import List ZArith Bool Lia.
From Verif Require Import TrampModel ProtoModel GenModel Asm32Model Asm32Spec Asm32Proofs Mach32 Mach32Proofs Jit32Model.
Import ListNotations.
Local Open Scope Z_scope.
Notation length := List.length.

Lemma align4_eq x : 0 <= x -> AlignSize x 4 = 4 * ((x + 3) / 4).
Proof.
  intros H. unfold AlignSize. change (4 - 1) with (Z.ones 2). rewrite Z.ldiff_ones_r by lia. rewrite Z.shiftl_mul_pow2, Z.shiftr_div_pow2 by lia. change (2 ^ 2) with 4.
  pose proof (Z.div_mod x 4 ltac:(lia)). pose proof (Z.mod_pos_bound x 4 ltac:(lia)).
  pose proof (Z.div_mod (x + 3) 4 ltac:(lia)). pose proof (Z.mod_pos_bound (x + 3) 4 ltac:(lia)).
  destruct (Z.eqb_spec (x mod 4) 0); cbn [negb]; lia.
Qed.
Lemma and16 x : 0 <= x < W32 -> Z.land x (w32 (-16)) = x - x mod 16.
Proof.
  intros H. change (w32 (-16)) with (Z.shiftl (Z.ones 28) 4).
  assert (E : Z.land x (Z.shiftl (Z.ones 28) 4) = Z.shiftl (Z.land (Z.shiftr x 4) (Z.ones 28)) 4).
  { apply Z.bits_inj'. intros n Hn. rewrite Z.land_spec, !Z.shiftl_spec by lia.
    destruct (Z.ltb_spec n 4).
    - rewrite !(Z.testbit_neg_r _ (n - 4)) by lia. apply andb_false_r.
    - rewrite Z.land_spec, Z.shiftr_spec by lia. replace (n - 4 + 4) with n by lia. reflexivity. }
  rewrite E, Z.land_ones, Z.shiftl_mul_pow2, Z.shiftr_div_pow2 by lia. change (2 ^ 4) with 16. unfold W32 in H.
  rewrite Z.mod_small; pose proof (Z.div_mod x 16 ltac:(lia)); pose proof (Z.mod_pos_bound x 16 ltac:(lia)); lia.
Qed.
Lemma s16_small x : 0 <= x < 2 ^ 15 -> s16 x = x.
Proof. intros H. unfold s16. rewrite Z.mod_small; lia. Qed.

(** no instruction is longer than 16 bytes *)
Ltac hd_of t := lazymatch t with ?f _ => hd_of f | _ => t end.
Lemma emit_len a : Z.of_nat (length (emit a)) <= 16.
Proof.
  destruct a; cbn [emit].
  all: repeat (first [ lazymatch goal with
     | |- Z.of_nat (length (if ?b then _ else _)) <= _ => destruct b
     | |- Z.of_nat (length (_ ++ _)) <= _ => fail
     | |- Z.of_nat (length (_ :: _)) <= _ => fail
     | |- Z.of_nat (length ?x) <= _ => let h := hd_of x in unfold h end ]).
  all: repeat match goal with |- context [if ?b then _ else _] => destruct b end.
  all: rewrite ?app_length; unfold i8, i32; rewrite ?le_length; cbn [length]; try lia.
  - cbn. lia.
  - cbn. lia.
  - unfold Movzx_Reg32_Rm16_DispAuto. destruct (fits8 disp); unfold Movzx_Reg32_Rm16_Disp8, Movzx_Reg32_Rm16_Disp32, i8, i32; rewrite ?app_length, ?le_length; cbn [length]; lia.
Qed.
Lemma off_le l : off l <= 16 * Z.of_nat (length l).
Proof.
  induction l as [|a l IH]; [unfold off; cbn; lia|]. rewrite off_cons. cbn [length].
  assert (H : off [a] <= 16). { unfold off. change (emit_all [a]) with (emit a ++ []). rewrite app_nil_r. apply emit_len. } lia.
Qed.
