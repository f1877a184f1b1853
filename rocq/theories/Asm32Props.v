(** C67: the instruction writer for IA-32 writes what its functions say. *)
From Coq Require Import List ZArith Bool Lia.
From Verif Require Import TrampModel Asm32Model Asm32Spec Asm32Proofs.
Import ListNotations.
Local Open Scope Z_scope.
Notation length := List.length.

(** Whatever functions are called in whatever order, with registers, modes, scales, displacements
    and immediate values that the functions' names allow, and whatever is written behind it: a
    processor that starts at the first byte decodes exactly the instructions the functions stand
    for, one by one.  [asm_ok] leaves out the calls of the refuted theorems below. *)
Theorem C67_decoded : forall ls rest, Forall asm_ok ls ->
  decode_all (length ls) (emit_all ls ++ rest) = Some (map meaning ls, rest).
Proof. intros ls rest H. apply decode_emit_all, H. Qed.
Print Assumptions C67_decoded.

(** Decoding at the position where a function wrote gives its instruction and the position where
    the next function wrote. *)
Theorem C67_positions : forall before a after, asm_ok a ->
  decode (skipn (length (emit_all before)) (emit_all (before ++ a :: after)))
    = Some (meaning a, skipn (length (emit_all (before ++ [a]))) (emit_all (before ++ a :: after))).
Proof.
  intros before a after H. unfold emit_all. rewrite !flat_map_app. cbn [flat_map]. rewrite app_nil_r.
  rewrite skipn_app, skipn_all, Nat.sub_diag. cbn [app skipn]. rewrite decode_emit by exact H.
  f_equal. f_equal. rewrite app_length. rewrite skipn_app. rewrite (skipn_all2 (flat_map emit before)) by lia.
  cbn [app]. replace (length (flat_map emit before) + length (emit a) - length (flat_map emit before))%nat with (length (emit a)) by lia.
  rewrite skipn_app, skipn_all, Nat.sub_diag. reflexivity.
Qed.
Print Assumptions C67_positions.

(** What is written are bytes. *)
Theorem C67_bytes : forall ls, Forall asm_ok ls -> Forall (fun b => 0 <= b < 256) (emit_all ls).
Proof. intros ls H. apply emit_all_bytes, H. Qed.
Print Assumptions C67_bytes.

(** Two programs with the same bytes are the same instructions. *)
Theorem C67_unambiguous : forall l1 l2 : list asm, Forall asm_ok l1 -> Forall asm_ok l2 ->
  emit_all l1 = emit_all l2 -> map meaning l1 = map meaning l2.
Proof.
  induction l1 as [|a l1 IH]; intros l2 H1 H2 E.
  - destruct l2 as [|b l2]; [reflexivity|]. inversion H2 as [|? ? Hb Hl]; subst.
    pose proof (decode_emit b (emit_all l2) Hb) as D. unfold emit_all in E. cbn [flat_map] in E.
    unfold emit_all in D. rewrite <- E in D. discriminate D.
  - inversion H1 as [|? ? Ha Hl1]; subst. destruct l2 as [|b l2].
    + pose proof (decode_emit a (emit_all l1) Ha) as D. unfold emit_all in E, D. cbn [flat_map] in E. rewrite E in D. discriminate D.
    + inversion H2 as [|? ? Hb Hl2]; subst.
      pose proof (decode_emit a (emit_all l1) Ha) as D1. pose proof (decode_emit b (emit_all l2) Hb) as D2.
      unfold emit_all in E. cbn [flat_map] in E. fold (emit_all l1) in E. fold (emit_all l2) in E.
      rewrite E, D2 in D1. inversion D1 as [[M R]]. cbn [map]. rewrite M. f_equal. apply IH; auto.
Qed.
Print Assumptions C67_unambiguous.

(** ** The functions that do not write what they say *)

(** IA32_Mov_Reg_Rm_DispAuto with a displacement below -128 reads from another address *)
Theorem C67_mov_disp_refuted :
  ~ (forall dest src disp rest, reg_ok dest -> base_ok src -> int32_ok disp ->
       decode (emit (AMov_Reg_Rm_DispAuto dest src disp) ++ rest) = Some (IMov (OReg dest) (at_ src disp), rest)).
Proof.
  intros K. specialize (K 0 3 (-129) [] ltac:(unfold reg_ok; lia) ltac:(unfold base_ok; lia) ltac:(unfold int32_ok; lia)).
  vm_compute in K. discriminate K.
Qed.
Print Assumptions C67_mov_disp_refuted.

(** ... and with displacement 0 from EBP it swallows the four bytes that follow as an address *)
Theorem C67_mov_ebp_refuted : forall dest rest, reg_ok dest -> (length rest < 4)%nat ->
  decode (emit (AMov_Reg_Rm_DispAuto dest 5 0) ++ rest) = None.
Proof.
  intros dest rest Hd Hr. pose proof (reg_cases dest Hd) as C.
  destruct rest as [|b1 [|b2 [|b3 [|b4 rest]]]]; cbn [length] in Hr; try lia;
    destruct C as [->|[->|[->|[->|[->|[->|[->| ->]]]]]]]; reflexivity.
Qed.
Print Assumptions C67_mov_ebp_refuted.

(** IA32_Fld_Mem32_DispAuto, IA32_Fld_Mem64_DispAuto: the same two faults *)
Theorem C67_fld_disp_refuted :
  ~ (forall src disp rest, base_ok src -> int32_ok disp ->
       decode (emit (AFld_Mem32_DispAuto src disp) ++ rest) = Some (IFld 4 (at_ src disp), rest))
  /\ ~ (forall src disp rest, base_ok src -> int32_ok disp ->
       decode (emit (AFld_Mem64_DispAuto src disp) ++ rest) = Some (IFld 8 (at_ src disp), rest)).
Proof.
  split; intros K; specialize (K 3 (-129) [] ltac:(unfold base_ok; lia) ltac:(unfold int32_ok; lia)); vm_compute in K; discriminate K.
Qed.
Print Assumptions C67_fld_disp_refuted.

(** IA32_Fstp_Mem32_DispAuto, IA32_Fstp_Mem64_DispAuto: a displacement that does not lie strictly
    between -128 and 127 announces four displacement bytes and writes one, so the instruction runs
    into the next ones: for every such displacement and whatever follows, the instruction decoded
    is longer than what was written. *)
Theorem C67_fstp_disp_refuted : forall a dest disp i rest',
  a = AFstp_Mem32_DispAuto dest disp \/ a = AFstp_Mem64_DispAuto dest disp ->
  base_ok dest -> disp <= -128 \/ 127 <= disp -> forall rest,
  decode (emit a ++ rest) = Some (i, rest') -> (length rest = 3 + length rest')%nat.
Proof.
  intros a dest disp i rest' Ha Hd Hx rest.
  assert (E : (-128 <? disp) && (disp <? 127) = false) by lia.
  assert (C : dest = 0 \/ dest = 1 \/ dest = 2 \/ dest = 3 \/ dest = 5 \/ dest = 6 \/ dest = 7) by (unfold base_ok in Hd; lia).
  destruct Ha as [-> | ->]; cbn [emit]; unfold Fstp_Mem32_DispAuto, Fstp_Mem64_DispAuto; rewrite E;
    destruct rest as [|b1 [|b2 [|b3 rest]]];
    destruct C as [->|[->|[->|[->|[->|[->| ->]]]]]];
    cbn -[Z.modulo Z.mul Z.add Z.ltb Z.sub Z.pow]; intros H; inversion H; subst; reflexivity.
Qed.
Print Assumptions C67_fstp_disp_refuted.

(** IA32_Call_Rm never writes a call: the processor jumps, without a return address *)
Theorem C67_call_rm_refuted : forall reg mode rest, rm_ok mode reg ->
  decode (emit (ACall_Rm reg mode) ++ rest) = Some (IJmpInd (rm mode reg), rest).
Proof. intros reg mode rest H. cbn [emit]. exact (decode_emit (AJump_Rm reg mode) rest H). Qed.
Print Assumptions C67_call_rm_refuted.

(** IA32_IMul_Reg_Imm8/32 put the product into EAX, whatever register is named *)
Theorem C67_imul_refuted :
  ~ (forall reg value rest, reg_ok reg -> int8_ok value ->
       decode (emit (AIMul_Reg_Imm8 reg 3 value) ++ rest) = Some (IImul3 reg (OReg reg) value, rest)).
Proof.
  intros K. specialize (K 1 5 [] ltac:(unfold reg_ok; lia) ltac:(unfold int8_ok; lia)). vm_compute in K. discriminate K.
Qed.
Print Assumptions C67_imul_refuted.

Example C67_example : exists ls, Forall asm_ok ls /\ (length ls = 6)%nat /\
  emit_all ls = [85; 137; 229; 129; 236; 40; 1; 0; 0; 139; 69; 12; 255; 208; 139; 4; 36].
Proof.
  exists [APush_Reg 5; AMov_Rm_Reg 5 4 3; ASub_Rm_ImmAuto 4 296 3; AMov_Reg_Rm_DispAuto 0 5 12; ACall_Reg 0; AMov_Reg_RmESP 0].
  split; [|split; reflexivity].
  repeat constructor; cbn; unfold reg_ok, base_ok, rm_ok, int32_ok; cbn; lia.
Qed.
