(** C60: the instruction writer for x86-64 writes what its methods say. *)
From Coq Require Import List ZArith Bool Lia.
From Verif Require Import TrampModel Asm64Model Asm64Spec Asm64Proofs Mach64.
Import ListNotations.
Local Open Scope Z_scope.
Notation length := List.length.

(** Whatever methods are called in whatever order, with any registers, displacements and immediate
    values of the parameter types, and whatever is written behind it: a processor that starts at the
    first byte decodes exactly the instructions the methods stand for, one by one. *)
Theorem C60_decoded : forall ls rest, Forall asm_ok ls ->
  decode_all (length ls) (emit_all ls ++ rest) = Some (map meaning ls, rest).
Proof. intros ls rest H. apply decode_emit_all, H. Qed.
Print Assumptions C60_decoded.

(** Jump distances are counted from the byte behind the jump: decoding at the position where a
    method wrote gives its instruction and the position where the next method wrote. *)
Theorem C60_positions : forall before a after, asm_ok a ->
  decode (skipn (length (emit_all before)) (emit_all (before ++ a :: after)))
    = Some (meaning a, skipn (length (emit_all (before ++ [a]))) (emit_all (before ++ a :: after))).
Proof.
  intros before a after H. unfold emit_all. rewrite !flat_map_app. cbn [flat_map]. rewrite app_nil_r.
  rewrite skipn_app, skipn_all, Nat.sub_diag. cbn [app skipn]. rewrite decode_emit by exact H.
  f_equal. f_equal. rewrite app_length. rewrite skipn_app. rewrite (skipn_all2 (flat_map emit before)) by lia.
  cbn [app]. replace (length (flat_map emit before) + length (emit a) - length (flat_map emit before))%nat with (length (emit a)) by lia.
  rewrite skipn_app, skipn_all, Nat.sub_diag. reflexivity.
Qed.
Print Assumptions C60_positions.

(** What is written are bytes. *)
Theorem C60_bytes : forall ls, Forall asm_ok ls -> Forall (fun b => 0 <= b < 256) (emit_all ls).
Proof. intros ls H. apply emit_all_bytes, H. Qed.
Print Assumptions C60_bytes.

(** Two programs with the same bytes are the same instructions (so that no method's code is a
    beginning of another's). *)
Theorem C60_unambiguous : forall l1 l2 : list asm, Forall asm_ok l1 -> Forall asm_ok l2 ->
  emit_all l1 = emit_all l2 -> map meaning l1 = map meaning l2.
Proof.
  induction l1 as [|a l1 IH]; intros l2 H1 H2 E.
  - destruct l2 as [|b l2]; [reflexivity|]. inversion H2 as [|? ? Hb Hl]; subst.
    pose proof (decode_emit b (emit_all l2) Hb) as D. unfold emit_all in E. cbn [flat_map] in E.
    unfold emit_all in D. rewrite <- E in D. discriminate D.
  - inversion H1 as [|? ? Ha Hl1]; subst. destruct l2 as [|b l2].
    + pose proof (decode_emit a (emit_all l1) Ha) as D. unfold emit_all in E, D. cbn [flat_map] in E. rewrite E in D. discriminate D.
    + inversion H2 as [|? ? Hb Hl2]; subst.
      pose proof (decode_emit a (emit_all l1) Ha) as D1. pose proof (decode_emit b (emit_all l2) Hb) as D2.
      unfold emit_all in E. cbn [flat_map] in E. fold (emit_all l1) in E. fold (emit_all l2) in E.
      rewrite E, D2 in D1. inversion D1 as [[M R]]. cbn [map]. rewrite M. f_equal. apply IH; auto.
Qed.
Print Assumptions C60_unambiguous.

(** mov(reg, int) with a negative value does not put that value into the 64-bit register: the upper
    half becomes zero (mov(rm, int) and push(int) do extend the sign). *)
Theorem C60_mov_negative_refuted :
  ~ (forall r v s s', reg_ok r -> int32_ok v -> exec1 (meaning (AMovRI r v)) s = Some s' -> rg s' r = v mod 2 ^ 64).
Proof.
  intros K. specialize (K 0 (-1) (St (fun _ => 0) (fun _ => 0) false false false (fun _ => 0) 0)).
  specialize (K _ ltac:(unfold reg_ok; lia) ltac:(unfold int32_ok; lia) eq_refl). vm_compute in K. discriminate K.
Qed.
Print Assumptions C60_mov_negative_refuted.

Example C60_example : exists ls, Forall asm_ok ls /\ (length ls = 5)%nat /\
  emit_all ls = [76; 137; 100; 36; 16; 73; 139; 69; 0; 72; 129; 236; 40; 1; 0; 0; 65; 255; 212; 195].
Proof.
  exists [AMovMR (Rm 4 16) 12; AMovRM 0 (Rm 13 0); ASubRI 4 296; ACall 12; ARet]. split; [|split; reflexivity].
  repeat constructor; cbn; unfold reg_ok, int32_ok; cbn; lia.
Qed.
