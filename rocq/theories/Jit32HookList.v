(** The 32-bit hook function as a list of instructions with the jump distances filled in. *)
From Coq Require Import List ZArith Bool Lia.
From Verif Require Import TrampModel ProtoModel GenModel Asm32Model Asm32Spec Asm32Proofs Mach32 Mach32Proofs Jit32Model Jit32Base.
Import ListNotations.
Local Open Scope Z_scope.
Notation length := List.length.

Ltac apps := repeat (rewrite <- !app_assoc; cbn [app]).
Ltac noff := repeat (rewrite off_app || match goal with |- context [off (?a :: ?l)] => lazymatch l with [] => fail | _ => rewrite (off_cons a l) end end);
  rewrite ?off_jmp, ?off_j32, ?off_j8.

Section List.
Variables (gcc : bool) (conv : Z) (k : consts) (r : passinfo) (ps : list passinfo).
Notation RetMem := (has (pi_flags r) PassFlag_RetMem).
Notation va := (HasVarArgs conv).
Notation vafmt := (HasVafmt conv).

(** ** The hook loop *)
Definition pp_list (c : Z) : list asm := fst (fst (fst (PushParams gcc conv r ps c))).
Definition pp_size (c : Z) : Z := snd (fst (fst (PushParams gcc conv r ps c))).
Definition pp_next (c : Z) : Z := snd (PushParams gcc conv r ps c).
Lemma pp_eq c : PushParams gcc conv r ps c = (pp_list c, pp_size c, snd (fst (PushParams gcc conv r ps c)), pp_next c).
Proof. unfold pp_list, pp_size, pp_next. destruct (PushParams gcc conv r ps c) as [[[a b] d] e]. reflexivity. Qed.
Definition mr_list (v : Z) : list asm := fst (PushMemRetPtr gcc conv r v).
Definition mr_size (v : Z) : Z := snd (PushMemRetPtr gcc conv r v).

Definition over_body : list asm := ctx_call gcc conv [AMov_Reg_Rm_DispAuto EAX EAX 4] ++ assign_override gcc conv r.
Definition over_list : list asm :=
  if pi_size r =? 0 then []
  else [AMov_Reg_Rm_DispAuto EAX EBP (v_cur_res gcc conv); ACmp_Rm_Imm32 MOD_REG EAX MRES_OVERRIDE] ++ AJump_Cond_Imm8 CC_L (off over_body) :: over_body.
Lemma ProcessPluginRetVal_list pre : ProcessPluginRetVal gcc conv r (emit_all pre) = emit_all (pre ++ over_list).
Proof.
  unfold ProcessPluginRetVal, over_list. destruct (pi_size r =? 0); [rewrite app_nil_r; reflexivity|].
  rewrite put_emit. fold over_body. cbv zeta. rewrite put_emit, !opos_emit.
  set (q := pre ++ [AMov_Reg_Rm_DispAuto EAX EBP (v_cur_res gcc conv); ACmp_Rm_Imm32 MOD_REG EAX MRES_OVERRIDE]).
  replace (pre ++ [AMov_Reg_Rm_DispAuto EAX EBP (v_cur_res gcc conv); ACmp_Rm_Imm32 MOD_REG EAX MRES_OVERRIDE; AJump_Cond_Imm8 CC_L 0])
    with (q ++ [AJump_Cond_Imm8 CC_L 0]) by (unfold q; apps; reflexivity).
  replace ((q ++ [AJump_Cond_Imm8 CC_L 0]) ++ over_body) with (q ++ AJump_Cond_Imm8 CC_L 0 :: over_body) by (apps; reflexivity).
  rewrite close8 by apply jumpy_j8. unfold q. apps. reflexivity.
Qed.

Definition hk_n : Z := align_bytes (GetParamsTotalStackSize ps + (if vafmt then 4 else 0)) gcc RetMem 0.
Definition hk_next : list asm := ctx_call gcc conv [AMov_Reg_Rm EAX EAX MOD_MEM_REG].
Definition hk_clean (c : Z) : Z := (if vafmt then 4 else 0) + pp_size c + mr_size (v_plugin_ret gcc conv r).
Definition hk_push (c : Z) : list asm :=
  [AMov_Rm_Imm32_Disp8 EBP MRES_IGNORED (v_cur_res gcc conv)] ++ AlignBefore hk_n
  ++ (if vafmt then [ALea_DispRegImmAuto ECX EBP (v_va_buf gcc conv r ps); APush_Reg ECX] else []) ++ pp_list c.
Definition hk_target : list asm :=
  [AMov_Reg_Rm ECX EAX MOD_REG] ++ push_this gcc ++ mr_list (v_plugin_ret gcc conv r)
  ++ [AMov_Reg_Rm EAX ECX MOD_MEM_REG; AMov_Reg_Rm_DispAuto EAX EAX 8; ACall_Reg EAX].
Definition hk_after (c : Z) : list asm :=
  AlignAfter hk_n ++ (if gcc then [AAdd_Rm_ImmAuto ESP (hk_clean c + 4) MOD_REG] else [])
  ++ DestroyParams gcc conv r ps ++ SaveRetVal gcc conv r (v_plugin_ret gcc conv r).
Definition hk_status : list asm :=
  [AMov_Reg_Rm_DispAuto EAX EBP (v_cur_res gcc conv); AMov_Reg_Rm_DispAuto EDX EBP (v_status gcc conv); AMov_Rm_Reg_Disp8 EBP EAX (v_prev_res gcc conv);
   ACmp_Reg_Rm EAX EDX MOD_REG].
Definition hk_set : list asm := [AMov_Rm_Reg_Disp8 EBP EAX (v_status gcc conv)].
Definition hk_body (c : Z) : list asm :=
  hk_push c ++ hk_target ++ hk_after c ++ hk_status ++ AJump_Cond_Imm8 CC_NG (off hk_set) :: hk_set ++ over_list.
Definition hk_out (c : Z) : Z := off (hk_body c ++ [AJump_Imm32 0]).
Definition hk_head (c : Z) : list asm := hk_next ++ ATest_Rm_Reg EAX EAX MOD_REG :: AJump_Cond_Imm32 CC_Z (hk_out c) :: hk_body c.
Definition hk_back (c : Z) : Z := - off (hk_head c ++ [AJump_Imm32 0]).
Definition hk_loop (c : Z) : list asm := hk_head c ++ [AJump_Imm32 (hk_back c)].
Definition hk_list (c : Z) : list asm := AMov_Rm_Imm32_Disp8 EBP MRES_IGNORED (v_prev_res gcc conv) :: hk_loop c.

Lemma GenerateCallHooks_list pre c :
  GenerateCallHooks gcc conv r ps (emit_all pre) c = (emit_all (pre ++ hk_list c), pp_next c).
Proof.
  unfold GenerateCallHooks. rewrite pp_eq. rewrite (surjective_pairing (PushMemRetPtr gcc conv r _)).
  fold (mr_list (v_plugin_ret gcc conv r)). fold (mr_size (v_plugin_ret gcc conv r)). cbv zeta.
  fold hk_n. fold (hk_clean c).
  set (b1 := put (emit_all pre) _). set (q := pre ++ [AMov_Rm_Imm32_Disp8 EBP MRES_IGNORED (v_prev_res gcc conv)]).
  assert (E1 : b1 = emit_all q) by (unfold b1; apply put_emit).
  set (q2 := q ++ hk_next ++ [ATest_Rm_Reg EAX EAX MOD_REG]).
  set (b2 := put b1 _). assert (E2 : b2 = emit_all (q2 ++ [AJump_Cond_Imm32 CC_Z 0])).
  { unfold b2. rewrite E1, put_emit. unfold q2. apps. reflexivity. }
  set (w := hk_push c ++ hk_target ++ hk_after c ++ hk_status).
  set (b3 := put b2 _). assert (E3 : b3 = emit_all ((q2 ++ AJump_Cond_Imm32 CC_Z 0 :: w) ++ [AJump_Cond_Imm8 CC_NG 0])).
  { unfold b3. rewrite E2, put_emit. unfold w, hk_push, hk_target, hk_after, hk_status. apps. reflexivity. }
  set (b4 := put b3 _). assert (E4 : b4 = emit_all ((q2 ++ AJump_Cond_Imm32 CC_Z 0 :: w) ++ AJump_Cond_Imm8 CC_NG 0 :: hk_set)).
  { unfold b4. rewrite E3, put_emit. apps. reflexivity. }
  set (b5 := rewrite8 b4 _ _). assert (E5 : b5 = emit_all ((q2 ++ AJump_Cond_Imm32 CC_Z 0 :: w) ++ AJump_Cond_Imm8 CC_NG (off hk_set) :: hk_set)).
  { unfold b5. rewrite E4, E3, !opos_emit. apply close8. apply jumpy_j8. }
  set (b6 := ProcessPluginRetVal gcc conv r b5). assert (E6 : b6 = emit_all (q2 ++ AJump_Cond_Imm32 CC_Z 0 :: hk_body c)).
  { unfold b6. rewrite E5, ProcessPluginRetVal_list. unfold hk_body, w. apps. reflexivity. }
  set (b7 := put b6 _). assert (E7 : b7 = emit_all ((q2 ++ AJump_Cond_Imm32 CC_Z 0 :: hk_body c) ++ [AJump_Imm32 0])).
  { unfold b7. rewrite E6, put_emit. reflexivity. }
  set (b8 := rewrite32 b7 _ _). assert (E8 : b8 = emit_all (q2 ++ AJump_Cond_Imm32 CC_Z 0 :: hk_body c ++ [AJump_Imm32 (hk_back c)])).
  { unfold b8. rewrite E7, E1, !opos_emit. rewrite (patch32 AJump_Imm32 (q2 ++ AJump_Cond_Imm32 CC_Z 0 :: hk_body c) [] 0) by exact jumpy_jmp.
    f_equal. apps. f_equal. f_equal. f_equal. f_equal. f_equal. unfold hk_back, hk_head, q2. noff. lia. }
  rewrite E8, E2, !opos_emit. f_equal. rewrite patch32 by apply jumpy_j32. f_equal. unfold hk_list, hk_loop, hk_head, q2, q. apps.
  f_equal. f_equal. f_equal. f_equal. f_equal. f_equal. unfold hk_out. noff. lia.
Qed.

(** ** The call of the original function *)
Definition og_n : Z := align_bytes (GetParamsTotalStackSize ps + (if vafmt then 8 else 0)) (gcc || va) RetMem 0.
Definition og_clean (c : Z) : Z := (if vafmt then 8 else 0) + pp_size c + mr_size (v_orig_ret gcc conv r).
Definition og_status : list asm := [AMov_Reg_Rm_DispAuto EAX EBP (v_status gcc conv); ACmp_Rm_Imm32 MOD_REG EAX MRES_SUPERCEDE].
Definition og_should : list asm := ctx_call gcc conv [AMov_Reg_Rm_Disp8 EAX EAX 12].
Definition og_push (c : Z) : list asm :=
  AlignBefore og_n
  ++ (if vafmt then [ALea_DispRegImmAuto ECX EBP (v_va_buf gcc conv r ps); APush_Reg ECX; APush_Imm32 (k_fmt k)] else []) ++ pp_list c.
Definition og_target : list asm :=
  [AMov_Reg_Rm_DispAuto ECX EBP (v_this gcc conv r)]
  ++ (if gcc then APush_Reg ECX :: mr_list (v_orig_ret gcc conv r) else mr_list (v_orig_ret gcc conv r) ++ (if va then [APush_Reg ECX] else []))
  ++ [AMov_Reg_Rm_DispAuto EAX EBP (v_vfnptr_origentry gcc conv); ACall_Reg EAX].
Definition og_after (c : Z) : list asm :=
  AlignAfter og_n ++ (if gcc || va then [AAdd_Rm_ImmAuto ESP (og_clean c + 4) MOD_REG] else [])
  ++ DestroyParams gcc conv r ps ++ SaveRetVal gcc conv r (v_orig_ret gcc conv r).
Definition og_call (c : Z) : list asm := og_push c ++ og_target ++ og_after c.
Definition og_else : list asm := orig_from_override gcc conv r.
Definition og_d2 (c : Z) : Z := off (og_call c ++ [AJump_Imm32 0]).
Definition og_mid (c : Z) : list asm := og_should ++ ATest_Rm_Reg8 EAX EAX MOD_REG :: AJump_Cond_Imm32 CC_Z (og_d2 c) :: og_call c ++ [AJump_Imm32 (off og_else)].
Definition og_list (c : Z) : list asm := og_status ++ AJump_Cond_Imm32 CC_Z (off (og_mid c)) :: og_mid c ++ og_else.

Lemma GenerateCallOrig_list pre c :
  GenerateCallOrig gcc conv k r ps (emit_all pre) c = (emit_all (pre ++ og_list c), pp_next c).
Proof.
  unfold GenerateCallOrig. rewrite pp_eq. rewrite (surjective_pairing (PushMemRetPtr gcc conv r _)).
  fold (mr_list (v_orig_ret gcc conv r)). fold (mr_size (v_orig_ret gcc conv r)). cbv zeta. fold og_n. fold (og_clean c). fold og_else.
  set (q := pre ++ og_status).
  set (b1 := put (emit_all pre) _). assert (E1 : b1 = emit_all (q ++ [AJump_Cond_Imm32 CC_Z 0])).
  { unfold b1. rewrite put_emit. unfold q, og_status. apps. reflexivity. }
  set (w := og_should ++ [ATest_Rm_Reg8 EAX EAX MOD_REG]).
  set (b2 := put b1 _). assert (E2 : b2 = emit_all (q ++ AJump_Cond_Imm32 CC_Z 0 :: w ++ [AJump_Cond_Imm32 CC_Z 0])).
  { unfold b2. rewrite E1, put_emit. unfold w. apps. reflexivity. }
  set (b3 := put b2 _). assert (E3 : b3 = emit_all (q ++ AJump_Cond_Imm32 CC_Z 0 :: w ++ AJump_Cond_Imm32 CC_Z 0 :: og_call c ++ [AJump_Imm32 0])).
  { unfold b3. rewrite E2, put_emit. f_equal. unfold og_call, og_push, og_target, og_after. apps. reflexivity. }
  set (b4 := rewrite32 b3 (opos b1 - 4) _).
  assert (E4 : b4 = emit_all ((q ++ AJump_Cond_Imm32 CC_Z (off (og_mid c)) :: w) ++ AJump_Cond_Imm32 CC_Z 0 :: og_call c ++ [AJump_Imm32 0])).
  { unfold b4. rewrite E1, E3, !opos_emit. rewrite patch32 by apply jumpy_j32. f_equal. apps. f_equal. f_equal. f_equal.
    unfold og_mid, w. noff. lia. }
  set (b5 := rewrite32 b4 _ _).
  assert (E5 : b5 = emit_all ((q ++ AJump_Cond_Imm32 CC_Z (off (og_mid c)) :: w) ++ AJump_Cond_Imm32 CC_Z (og_d2 c) :: og_call c ++ [AJump_Imm32 0])).
  { unfold b5. rewrite E4, E2, !opos_emit.
    replace (off (q ++ AJump_Cond_Imm32 CC_Z 0 :: w ++ [AJump_Cond_Imm32 CC_Z 0]) - 4)
      with (off ((q ++ AJump_Cond_Imm32 CC_Z (off (og_mid c)) :: w) ++ [AJump_Cond_Imm32 CC_Z 0]) - 4) by (noff; lia).
    rewrite patch32 by apply jumpy_j32. f_equal. f_equal. f_equal. f_equal. unfold og_d2. noff. lia. }
  set (b6 := put b5 _).
  assert (E6 : b6 = emit_all (((q ++ AJump_Cond_Imm32 CC_Z (off (og_mid c)) :: w) ++ AJump_Cond_Imm32 CC_Z (og_d2 c) :: og_call c) ++ AJump_Imm32 0 :: og_else)).
  { unfold b6. rewrite E5, put_emit. f_equal. apps. reflexivity. }
  rewrite E6, E3, !opos_emit. f_equal.
  replace (off (q ++ AJump_Cond_Imm32 CC_Z 0 :: w ++ AJump_Cond_Imm32 CC_Z 0 :: og_call c ++ [AJump_Imm32 0]) - 4)
    with (off (((q ++ AJump_Cond_Imm32 CC_Z (off (og_mid c)) :: w) ++ AJump_Cond_Imm32 CC_Z (og_d2 c) :: og_call c) ++ [AJump_Imm32 0]) - 4) by (noff; lia).
  rewrite patch32 by exact jumpy_jmp. f_equal. unfold og_list, q, w. apps. f_equal. f_equal. f_equal. unfold og_mid. apps.
  f_equal. f_equal. f_equal. f_equal. f_equal. f_equal. noff. lia.
Qed.

Definition hook_list : list asm :=
  prologue gcc conv ++ make_frame gcc conv r ps ++ varargs gcc conv k r ps ++ ret_ctors gcc conv r ++ CallSetupHookLoop gcc conv k r
  ++ hk_list 0 ++ og_list (pp_next 0) ++ hk_list (pp_next (pp_next 0))
  ++ PrepareReturn gcc conv r ++ CallEndContext gcc conv k ++ destroy_params gcc conv r ps ++ DoReturn gcc conv r ++ ret_dtors gcc conv r ++ epilogue gcc conv r ps.
Lemma hook_func_list : hook_func gcc conv k r ps = emit_all hook_list.
Proof.
  unfold hook_func. rewrite put_nil, GenerateCallHooks_list, GenerateCallOrig_list, GenerateCallHooks_list, put_emit.
  unfold hook_list. apps. reflexivity.
Qed.
End List.
