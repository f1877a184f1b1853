(** The 32-bit generator (core/sourcehook/sourcehook_hookmangen_x86.cpp) as the bytes it writes, for
    both compilers: [gcc] true is SH_COMP_GCC, false SH_COMP_MSVC.  Every definition cites its lines
    in that file.

    Not modelled: CheckAlignmentBeforeCall (245-252; its body is behind #if 0).  The addresses that
    are constants of the generated code are parameters, as the 32-bit values they are cast to; v_iter is
    reserved in the frame but never used, as in the source. *)
From Coq Require Import List ZArith Bool.
From Verif Require Import TrampModel ProtoModel GenModel Asm32Model Mach32.
Import ListNotations.
Local Open Scope Z_scope.

(** ** The buffer *)
(** functions IA32_* called one after the other *)
Definition put (b : list Z) (l : list asm) : list Z := b ++ emit_all l.
(** get_outputpos, start_count, end_count (sh_asm.h): positions and their differences *)
Definition opos (b : list Z) : Z := Z.of_nat (List.length b).
(** rewrite<jit_uint8_t>, rewrite<jit_int32_t> (sh_asm.h:69-79) *)
Definition rewrite8 (b : list Z) (p v : Z) : list Z :=
  firstn (Z.to_nat p) b ++ le 1 v ++ skipn (Z.to_nat p + 1) b.
Definition rewrite32 (b : list Z) (p v : Z) : list Z :=
  firstn (Z.to_nat p) b ++ le 4 v ++ skipn (Z.to_nat p + 4) b.

(** ** Constants *)
Record consts := Consts {
  k_phi : Z;        (* m_pHI *)
  k_sh : Z;         (* m_SHPtr *)
  k_setup : Z;      (* entry 19 of the vtable of m_SHPtr, read when the code is generated (1298-1299) *)
  k_end : Z;        (* entry 20 (1328-1329) *)
  k_offs : Z;       (* m_VtblOffs *)
  k_idx : Z;        (* m_VtblIdx *)
  k_pi : Z;         (* m_BuiltPI *)
  k_vfn : Z;        (* m_HookfuncVfnptr *)
  k_vsn : Z;        (* vsnprintf *)
  k_fmt : Z         (* the string "%s" *)
}.
Definition HOOKMAN_VERSION : Z := 1.   (* SH_HOOKMAN_VERSION, sourcehook.h:36 *)
Definition SIZE_PTR : Z := 4.
Definition STRBUF_LEN : Z := 4096.     (* sourcehook.h:152 *)
(** META_RES (sourcehook.h:133-139) *)
Definition MRES_IGNORED : Z := 0.
Definition MRES_OVERRIDE : Z := 2.
Definition MRES_SUPERCEDE : Z := 3.
(** conditions (sourcehook_hookmangen_x86.h:57-75) *)
Definition CC_Z : Z := 4. Definition CC_L : Z := 12. Definition CC_NG : Z := 14.
(** the conventions (sourcehook.h:233-240); both masks contain the bit of HasVarArgs *)
Definition HasVarArgs (conv : Z) : bool := has conv (2 ^ 16).
Definition HasVafmt (conv : Z) : bool := has conv (2 ^ 16 + 2 ^ 17).
(** conversion to short *)
Definition s16 (x : Z) : Z := (x + 2 ^ 15) mod 2 ^ 16 - 2 ^ 15.

(** ** GeneratePubFunc (1706-1793) *)
Definition pub_func (gcc : bool) (k : consts) : list Z :=
  let b := put [] [APush_Reg EBP; AMov_Reg_Rm EBP ESP MOD_REG; AMovzx_Reg32_Rm8_Disp8 EAX EBP 8; AMov_Reg_Rm_DispAuto ECX EBP 12;
                   ATest_Rm_Reg8 EAX EAX MOD_REG; AJump_Cond_Imm8 CC_Z 0] in
  let counter := opos b in
  let b := put b [AMov_Rm_Imm32 EDX (k_phi k) MOD_REG; AMov_Rm_Reg EDX ECX MOD_MEM_REG] in
  let b := rewrite8 b (counter - 1) (opos b - counter) in
  let b := put b [ATest_Rm_Reg ECX ECX MOD_REG; AJump_Cond_Imm8 CC_Z 0] in
  let counter := opos b in
  let b := put b ([APush_Imm32 (k_vfn k); APush_Imm32 (k_pi k); APush_Imm32 (k_idx k); APush_Imm32 (k_offs k); APush_Imm32 HOOKMAN_VERSION]
                  ++ (if gcc then [APush_Reg ECX] else [])
                  ++ [AMov_Reg_Rm EDX ECX MOD_MEM_REG; AMov_Reg_Rm EAX EDX MOD_MEM_REG; ACall_Reg EAX]
                  ++ (if gcc then [AAdd_Rm_Imm8 ESP 24 MOD_REG] else [])) in
  let b := rewrite8 b (counter - 1) (opos b - counter) in
  put b [AXor_Reg_Rm EAX EAX MOD_REG; AMov_Reg_Rm ESP EBP MOD_REG; APop_Reg EBP; AReturn].

(** ** GenerateHookFunc *)
(** GetRealSize (126-133), AlignSize (135-140), GetParamStackSize (143-147) *)
Definition ForcedByRef (p : passinfo) : bool := has (pi_flags p) PassFlag_ForcedByRef.
Definition GetRealSize (p : passinfo) : Z := if has (pi_flags p) (Z.lor PassFlag_ByRef PassFlag_ForcedByRef) then SIZE_PTR else pi_size p.
Definition AlignSize (x boundary : Z) : Z :=
  if negb (x mod boundary =? 0) then Z.ldiff x (boundary - 1) + boundary else x.
Definition GetParamStackSize (p : passinfo) : Z := AlignSize (GetRealSize p) 4.
(** NextRegEBX_ECX_EDX (149-162): the register and the new m_RegCounter *)
Definition NextReg (c : Z) : Z * Z :=
  if c mod 3 =? 0 then (EBX, c + 1) else if c mod 3 =? 1 then (ECX, c + 1) else (EDX, 0).
(** BitwiseCopy_Setup (164-173), BitwiseCopy_Do (175-203) *)
Definition BitwiseCopy_Setup : list asm := [ACld; APush_Reg EDI; APush_Reg ESI].
Definition BitwiseCopy_Do (size : Z) : list asm :=
  (if size / 4 =? 0 then [] else [AMov_Reg_Imm32 ECX (size / 4); ARepMovsd])
  ++ (if size mod 4 =? 0 then [] else [AMov_Reg_Imm32 ECX (size mod 4); ARepMovsb])
  ++ [APop_Reg ESI; APop_Reg EDI].
(** AlignStackBeforeCall (205-238): the number of bytes; AlignStackAfterCall (240-243).
    [pushed]: m_BytesPushedAfterInitialAlignment; [this]: the 4 bytes of the flag for this compiler *)
Definition align_bytes (paramsize : Z) (this memret : bool) (pushed : Z) : Z :=
  let ps := paramsize + ((if this then 4 else 0) + (if memret then 4 else 0)) in
  let sub := 16 - Z.rem ps 16 in
  let sub := if sub =? 16 then 0 else sub in
  let sub := sub - pushed in
  if sub <? 0 then 16 - Z.rem (- sub) 16 else sub.
Definition AlignBefore (n : Z) : list asm := if n =? 0 then [] else [ASub_Rm_ImmAuto ESP n MOD_REG].
Definition AlignAfter (n : Z) : list asm := if n =? 0 then [] else [AAdd_Rm_ImmAuto ESP n MOD_REG].
(** GetParamsTotalStackSize (254-263), GetForcedByRefParamOffset (265-274), GetForcedByRefParamsSize (276-279): sums in a short *)
Definition GetParamsTotalStackSize (ps : list passinfo) : Z := fold_left (fun acc p => s16 (acc + GetParamStackSize p)) ps 0.
Definition fbrr_size (ps : list passinfo) : Z :=
  fold_left (fun acc p => if ForcedByRef p then s16 (acc + AlignSize (pi_size p) 4) else acc) ps 0.

(** PushRef, PushBasic, PushFloat, PushObject (281-440): instructions, bytes on the stack, m_RegCounter *)
Definition PushRef (off : Z) : list asm * Z := ([APush_Rm_DispAuto EBP off], 4).
Definition PushBasic (off : Z) (p : passinfo) (c : Z) : list asm * Z * Z :=
  let '(r, c1) := NextReg c in
  if pi_size p =? 1 then ([AMovzx_Reg32_Rm8_DispAuto r EBP off; APush_Reg r], 4, c1)
  else if pi_size p =? 2 then ([AMovzx16Prefixed r EBP off; APush_Reg r], 4, c1)
  else if pi_size p =? 4 then ([AMov_Reg_Rm_DispAuto r EBP off; APush_Reg r], 4, c1)
  else if pi_size p =? 8 then
    let '(r2, c2) := NextReg c1 in
    ([AMov_Reg_Rm_DispAuto r EBP (off + 4); AMov_Reg_Rm_DispAuto r2 EBP off; APush_Reg r; APush_Reg r2], 8, c2)
  else ([], 0, c).
Definition PushFloat (off : Z) (p : passinfo) (c : Z) : list asm * Z * Z :=
  if pi_size p =? 4 then
    let '(r, c1) := NextReg c in ([AFld_Mem32_DispAuto EBP off; APush_Reg r; AFstp_Mem32_ESP], 4, c1)
  else if pi_size p =? 8 then ([AFld_Mem64_DispAuto EBP off; ASub_Rm_Imm8 ESP 8 MOD_REG; AFstp_Mem64_ESP], 8, c)
  else ([], 0, c).
(** lea reg, [esp + n] as the source writes it (base REG_NOIDX, index REG_ESP, both 4) *)
Definition lea_esp (r n : Z) : asm := ALea_Reg_DispRegMultImm8 r 4 4 0 n.
Definition PushObject (gcc : bool) (off : Z) (p : passinfo) (place : Z) : list asm * Z :=
  let f := ForcedByRef p in
  ((if f then [] else [ASub_Rm_ImmAuto ESP (GetParamStackSize p) MOD_REG])
   ++ (if negb (pi_copy p =? 0) then
         [APush_Reg EAX]
         ++ [if f then ALea_DispRegImmAuto ECX EBP place else lea_esp ECX 4]
         ++ [ALea_DispRegImmAuto EAX EBP off; APush_Reg EAX] ++ (if gcc then [APush_Reg ECX] else [])
         ++ [AMov_Reg_Imm32 EDX (pi_copy p); ACall_Reg EDX] ++ (if gcc then [AAdd_Rm_ImmAuto ESP 8 MOD_REG] else [])
         ++ [APop_Reg EAX]
       else
         BitwiseCopy_Setup ++ [if f then ALea_DispRegImmAuto EDI EBP place else lea_esp EDI 8]
         ++ [ALea_DispRegImmAuto ESI EBP off] ++ BitwiseCopy_Do (pi_size p))
   ++ (if f then [ALea_DispRegImmAuto ECX EBP place; APush_Reg ECX] else []),
   if f then SIZE_PTR else GetParamStackSize p).

(** one round of the loop of PushParams (480-507); [place]: v_place_fbrr_base + GetForcedByRefParamOffset(i);
    [last]: the answer of the previous round, which SH_ASSERT(0) leaves in place *)
Definition push_one (gcc : bool) (off : Z) (p : passinfo) (place last c : Z) : list asm * Z * Z :=
  if has (pi_flags p) PassFlag_ByVal then
    if pi_type p =? PassType_Basic then PushBasic off p c
    else if pi_type p =? PassType_Float then PushFloat off p c
    else if pi_type p =? PassType_Object then let '(l, n) := PushObject gcc off p place in (l, n, c)
    else ([], last, c)
  else if has (pi_flags p) PassFlag_ByRef then let '(l, n) := PushRef off in (l, n, c)
  else ([], last, c).
(** PushParams (465-510), the last parameter first: [off] is where the parameters [ps] begin, [fb] the value of
    GetForcedByRefParamOffset for the first of them, [base] is v_place_fbrr_base.  Answers instructions, the sum,
    the answer of the last round, the counter *)
Fixpoint push_params (gcc : bool) (base off fb : Z) (ps : list passinfo) (c : Z) : list asm * Z * Z * Z :=
  match ps with
  | [] => ([], 0, 0, c)
  | p :: ps =>
      let '(l, n, last, c) := push_params gcc base (off + GetParamStackSize p) (if ForcedByRef p then s16 (fb + AlignSize (pi_size p) 4) else fb) ps c in
      let '(l', n', c') := push_one gcc off p (base + fb) last c in
      (l ++ l', n + n', n', c')
  end.

Section Hook.
Variables (gcc : bool) (conv : Z) (k : consts) (r : passinfo) (ps : list passinfo).
Let RetMem : bool := has (pi_flags r) PassFlag_RetMem.
Let RetRef : bool := has (pi_flags r) PassFlag_ByRef.
Let va : bool := HasVarArgs conv.
Let vafmt : bool := HasVafmt conv.
Definition push_this : list asm := if gcc then [APush_Reg ECX] else [].
Definition pop_this : list asm := if gcc then [APop_Reg ECX] else [].
(** MemRetWithTempObj (678-683) *)
Definition MemRetWithTempObj : bool := RetMem && has (pi_flags r) (Z.lor PassFlag_ODtor PassFlag_AssignOp).

(** the frame (1363-1494): ResetFrame, AddVarToFrame (1338-1349) *)
Definition frame0 : Z := if gcc || va then 0 else -4.
Definition v_vfnptr_origentry : Z := frame0 - 4.
Definition v_status : Z := frame0 - 8.
Definition v_prev_res : Z := frame0 - 12.
Definition v_cur_res : Z := frame0 - 16.
Definition v_iter : Z := frame0 - 20.
Definition v_pContext : Z := frame0 - 24.
Definition v_this : Z := (if gcc || va then 12 else -4) + (if RetMem && gcc then 4 else 0).
Definition v_memret_addr : Z := if RetMem then if gcc then 12 else if va then 16 else 12 else 0.
Definition param_base_offs : Z := (if gcc || va then 16 else 12) + (if RetMem then 4 else 0).
Definition v_ret_ptr : Z := if pi_size r =? 0 then 0 else frame0 - 28.
Definition v_orig_ret : Z := if pi_size r =? 0 then 0 else frame0 - 28 - GetParamStackSize r.
Definition v_override_ret : Z := if pi_size r =? 0 then 0 else frame0 - 28 - 2 * GetParamStackSize r.
Definition v_plugin_ret : Z := if pi_size r =? 0 then 0 else frame0 - 28 - 3 * GetParamStackSize r.
Definition frame1 : Z := if pi_size r =? 0 then frame0 - 24 else frame0 - 28 - 3 * GetParamStackSize r.
Definition frame2 : Z := if MemRetWithTempObj then frame1 - GetParamStackSize r else frame1.
Definition v_place_for_memret : Z := if MemRetWithTempObj then frame2 else 0.
Definition frame3 : Z := if gcc && negb (fbrr_size ps =? 0) then frame2 - fbrr_size ps else frame2.
Definition v_place_fbrr_base : Z := if gcc && negb (fbrr_size ps =? 0) then frame3 else 0.
Definition frame4 : Z := if va then frame3 - 4 else frame3.
Definition v_va_argptr : Z := if va then frame4 else 0.
Definition frame5 : Z := if vafmt then frame4 - STRBUF_LEN else frame4.
Definition v_va_buf : Z := if vafmt then frame5 else 0.
(** ComputeVarsSize (1351-1354) *)
Definition vars_size : Z := frame0 - frame5.

(** a call of a member function without parameters on the object at [ebp + v] whose address is [f], ecx already free *)
Definition call_obj (v f : Z) : list asm :=
  [ALea_DispRegImmAuto ECX EBP v] ++ push_this ++ [AMov_Reg_Imm32 EAX f; ACall_Reg EAX] ++ pop_this.
(** a call of the assignment operator of the return type with ecx: destination, edx: source *)
Definition call_assign : list asm :=
  [APush_Reg EDX] ++ push_this ++ [AMov_Reg_Imm32 EAX (pi_assign r); ACall_Reg EAX]
  ++ (if gcc then [AAdd_Rm_ImmAuto ESP 8 MOD_REG] else []).
Definition align4 : Z := align_bytes 4 gcc false 0.
Definition align0 : Z := align_bytes 0 gcc false 0.

(** DestroyParams (442-462), the last parameter first; only forced references *)
Fixpoint destroy_fbr (fb : Z) (l : list passinfo) : list asm :=
  match l with
  | [] => []
  | p :: l =>
      destroy_fbr (if ForcedByRef p then s16 (fb + AlignSize (pi_size p) 4) else fb) l
      ++ (if (pi_type p =? PassType_Object) && has (pi_flags p) PassFlag_ODtor && has (pi_flags p) PassFlag_ByVal && ForcedByRef p
          then AlignBefore align0
               ++ [ALea_DispRegImmAuto ECX EBP (v_place_fbrr_base + fb); APush_Reg ECX; AMov_Reg_Imm32 EAX (pi_dtor p); ACall_Reg EAX; APop_Reg ECX]
               ++ AlignAfter align0
          else [])
  end.
Definition DestroyParams : list asm := destroy_fbr 0 ps.
Definition PushParams (c : Z) : list asm * Z * Z * Z := push_params gcc v_place_fbrr_base param_base_offs 0 ps c.

(** PushMemRetPtr (513-528): the instructions and the bytes *)
Definition PushMemRetPtr (save_ret_to : Z) : list asm * Z :=
  if RetMem then
    ([ALea_DispRegImmAuto EDX EBP (if MemRetWithTempObj then v_place_for_memret else save_ret_to); APush_Reg EDX], if gcc then 0 else 4)
  else ([], 0).

(** SaveRetVal (530-676) *)
Definition save_regs (v size : Z) : list asm :=
  if size <=? 4 then [AMov_Rm_Reg_DispAuto EBP EAX v]
  else if size <=? 8 then [AMov_Rm_Reg_DispAuto EBP EAX v; AMov_Rm_Reg_DispAuto EBP EDX (v + 4)] else [].
Definition SaveRetVal (v : Z) : list asm :=
  let size := GetRealSize r in
  if size =? 0 then []
  else if RetRef then [AMov_Rm_Reg_DispAuto EBP EAX v]
  else if RetMem && negb MemRetWithTempObj then []
  else
    (if RetMem then
       (if negb (pi_assign r =? 0) then
          AlignBefore align4 ++ [ALea_DispRegImmAuto EDX EBP v_place_for_memret; ALea_DispRegImmAuto ECX EBP v] ++ call_assign ++ AlignAfter align4
        else
          BitwiseCopy_Setup ++ [ALea_DispRegImmAuto EDI EBP v; ALea_DispRegImmAuto ESI EBP v_place_for_memret] ++ BitwiseCopy_Do (pi_size r))
       ++ (if negb (pi_dtor r =? 0) then AlignBefore align0 ++ call_obj v_place_for_memret (pi_dtor r) ++ AlignAfter align0 else [])
     else [])
    ++ (if pi_type r =? PassType_Float then
          if size =? 4 then [AFstp_Mem32_DispAuto EBP v] else if size =? 8 then [AFstp_Mem64_DispAuto EBP v] else []
        else if pi_type r =? PassType_Basic then save_regs v size
        else if pi_type r =? PassType_Object then if has (pi_flags r) PassFlag_RetReg then save_regs v size else []
        else []).

(** a call of function [idx] of pContext: ecx = pContext, gcc: push it; eax = vtable entry; call; gcc: pop ecx *)
Definition ctx_call (entry : list asm) : list asm :=
  [AMov_Reg_Rm_DispAuto ECX EBP v_pContext] ++ push_this ++ [AMov_Reg_Rm EAX ECX MOD_MEM_REG] ++ entry ++ [ACall_Reg EAX] ++ pop_this.

(** ProcessPluginRetVal (685-779) *)
Definition assign_override : list asm :=
  if RetRef then [AMov_Reg_Rm_DispAuto ECX EBP v_plugin_ret; AMov_Rm_Reg EAX ECX MOD_MEM_REG]
  else if negb (pi_assign r =? 0) then
    AlignBefore align4 ++ [ALea_DispRegImmAuto EDX EBP v_plugin_ret; APush_Reg EDX]
    ++ (if gcc then [APush_Reg EAX] else [AMov_Reg_Rm ECX EAX MOD_REG])
    ++ [AMov_Reg_Imm32 EAX (pi_assign r); ACall_Reg EAX] ++ (if gcc then [AAdd_Rm_ImmAuto ESP 8 MOD_REG] else []) ++ AlignAfter align4
  else
    BitwiseCopy_Setup ++ [AMov_Reg_Rm EDI EAX MOD_REG; ALea_DispRegImmAuto ESI EBP v_plugin_ret] ++ BitwiseCopy_Do (pi_size r).
Definition ProcessPluginRetVal (b : list Z) : list Z :=
  if pi_size r =? 0 then b
  else
    let b := put b [AMov_Reg_Rm_DispAuto EAX EBP v_cur_res; ACmp_Rm_Imm32 MOD_REG EAX MRES_OVERRIDE; AJump_Cond_Imm8 CC_L 0] in
    let counter := opos b in
    let b := put b (ctx_call [AMov_Reg_Rm_DispAuto EAX EAX 4] ++ assign_override) in
    rewrite8 b (counter - 1) (opos b - counter).

(** PrepareReturn (781-829) *)
Definition PrepareReturn : list asm :=
  if pi_size r =? 0 then []
  else [AMov_Reg_Rm_DispAuto ECX EBP v_pContext] ++ push_this
       ++ [AXor_Reg_Rm EAX EAX MOD_REG; ACmp_Rm_Disp8_Imm8 EBP v_status MRES_OVERRIDE; ASetCC_Rm8 EAX CC_L;
           ALea_Reg_RegMultImm32 EAX EAX 2 4; AMov_Reg_Rm EDX ECX MOD_MEM_REG; AAdd_Reg_Rm EDX EAX MOD_REG;
           AMov_Reg_Rm EDX EDX MOD_MEM_REG; ACall_Reg EDX] ++ pop_this ++ [AMov_Rm_Reg_DispAuto EBP EAX v_ret_ptr].

(** DoReturn (831-931) *)
Definition DoReturn : list asm :=
  let size := pi_size r in
  if size =? 0 then []
  else
    [AMov_Reg_Rm_DispAuto ECX EBP v_ret_ptr]
    ++ (if RetRef then [AMov_Reg_Rm EAX ECX MOD_MEM_REG]
        else
          (if pi_type r =? PassType_Float then
             if size =? 4 then [AFld_Mem32 ECX] else if size =? 8 then [AFld_Mem64 ECX] else []
           else if (pi_type r =? PassType_Basic) || ((pi_type r =? PassType_Object) && has (pi_flags r) PassFlag_RetReg) then
             if size <=? 4 then [AMov_Reg_Rm EAX ECX MOD_MEM_REG]
             else if size <=? 8 then [AMov_Reg_Rm EAX ECX MOD_MEM_REG; AMov_Reg_Rm_DispAuto EDX ECX 4] else []
           else [])
          ++ (if RetMem then
                (if negb (pi_copy r =? 0) then
                   AlignBefore align4 ++ [AMov_Reg_Rm EDX ECX MOD_REG; APush_Reg EDX]
                   ++ [if gcc then APush_Rm_DispAuto EBP v_memret_addr else AMov_Reg_Rm_DispAuto ECX EBP v_memret_addr]
                   ++ [AMov_Reg_Imm32 EAX (pi_copy r); ACall_Reg EAX] ++ (if gcc then [AAdd_Rm_ImmAuto ESP 8 MOD_REG] else []) ++ AlignAfter align4
                 else
                   BitwiseCopy_Setup ++ [AMov_Reg_Rm_DispAuto EDI EBP v_memret_addr; AMov_Reg_Rm ESI ECX MOD_REG] ++ BitwiseCopy_Do (pi_size r))
                ++ [AMov_Reg_Rm_DispAuto EAX EBP v_memret_addr]
              else [])).

(** GenerateCallHooks (933-1053) *)
Definition GenerateCallHooks (b : list Z) (c : Z) : list Z * Z :=
  let b := put b [AMov_Rm_Imm32_Disp8 EBP MRES_IGNORED v_prev_res] in
  let loop_begin := opos b in
  let b := put b (ctx_call [AMov_Reg_Rm EAX EAX MOD_MEM_REG] ++ [ATest_Rm_Reg EAX EAX MOD_REG; AJump_Cond_Imm32 CC_Z 0]) in
  let counter := opos b in
  let n := align_bytes (GetParamsTotalStackSize ps + (if vafmt then 4 else 0)) gcc RetMem 0 in
  let '(l, pushed, _, c) := PushParams c in
  let '(lm, mem) := PushMemRetPtr v_plugin_ret in
  let clean := (if vafmt then 4 else 0) + pushed + mem in
  let b := put b ([AMov_Rm_Imm32_Disp8 EBP MRES_IGNORED v_cur_res] ++ AlignBefore n
                  ++ (if vafmt then [ALea_DispRegImmAuto ECX EBP v_va_buf; APush_Reg ECX] else [])
                  ++ l ++ [AMov_Reg_Rm ECX EAX MOD_REG] ++ push_this ++ lm
                  ++ [AMov_Reg_Rm EAX ECX MOD_MEM_REG; AMov_Reg_Rm_DispAuto EAX EAX 8; ACall_Reg EAX] ++ AlignAfter n
                  ++ (if gcc then [AAdd_Rm_ImmAuto ESP (clean + 4) MOD_REG] else [])
                  ++ DestroyParams ++ SaveRetVal v_plugin_ret
                  ++ [AMov_Reg_Rm_DispAuto EAX EBP v_cur_res; AMov_Reg_Rm_DispAuto EDX EBP v_status; AMov_Rm_Reg_Disp8 EBP EAX v_prev_res;
                      ACmp_Reg_Rm EAX EDX MOD_REG; AJump_Cond_Imm8 CC_NG 0]) in
  let counter2 := opos b in
  let b := put b [AMov_Rm_Reg_Disp8 EBP EAX v_status] in
  let b := rewrite8 b (counter2 - 1) (opos b - counter2) in
  let b := ProcessPluginRetVal b in
  let b := put b [AJump_Imm32 0] in
  let b := rewrite32 b (opos b - 4) (- (opos b - loop_begin)) in
  (rewrite32 b (counter - 4) (opos b - counter), c).

(** GenerateCallOrig (1055-1233) *)
Definition orig_from_override : list asm :=
  if RetRef then [AMov_Reg_Rm_DispAuto ECX EBP v_override_ret; AMov_Rm_Reg_DispAuto EBP ECX v_orig_ret]
  else if negb (pi_assign r =? 0) then
    AlignBefore align4 ++ [ALea_DispRegImmAuto EDX EBP v_override_ret; ALea_DispRegImmAuto ECX EBP v_orig_ret] ++ call_assign ++ AlignAfter align4
  else
    BitwiseCopy_Setup ++ [ALea_DispRegImmAuto EDI EBP v_orig_ret; ALea_DispRegImmAuto ESI EBP v_override_ret] ++ BitwiseCopy_Do (pi_size r).
Definition GenerateCallOrig (b : list Z) (c : Z) : list Z * Z :=
  let b := put b [AMov_Reg_Rm_DispAuto EAX EBP v_status; ACmp_Rm_Imm32 MOD_REG EAX MRES_SUPERCEDE; AJump_Cond_Imm32 CC_Z 0] in
  let counter := opos b in
  let b := put b (ctx_call [AMov_Reg_Rm_Disp8 EAX EAX 12] ++ [ATest_Rm_Reg8 EAX EAX MOD_REG; AJump_Cond_Imm32 CC_Z 0]) in
  let counter2 := opos b in
  let n := align_bytes (GetParamsTotalStackSize ps + (if vafmt then 8 else 0)) (gcc || va) RetMem 0 in
  let '(l, pushed, _, c) := PushParams c in
  let '(lm, mem) := PushMemRetPtr v_orig_ret in
  let clean := (if vafmt then 8 else 0) + pushed + mem in
  let b := put b (AlignBefore n
                  ++ (if vafmt then [ALea_DispRegImmAuto ECX EBP v_va_buf; APush_Reg ECX; APush_Imm32 (k_fmt k)] else [])
                  ++ l ++ [AMov_Reg_Rm_DispAuto ECX EBP v_this]
                  ++ (if gcc then APush_Reg ECX :: lm else lm ++ (if va then [APush_Reg ECX] else []))
                  ++ [AMov_Reg_Rm_DispAuto EAX EBP v_vfnptr_origentry; ACall_Reg EAX] ++ AlignAfter n
                  ++ (if gcc || va then [AAdd_Rm_ImmAuto ESP (clean + 4) MOD_REG] else [])
                  ++ DestroyParams ++ SaveRetVal v_orig_ret ++ [AJump_Imm32 0]) in
  let counter3 := opos b in
  let b := rewrite32 b (counter - 4) (opos b - counter) in
  let b := rewrite32 b (counter2 - 4) (opos b - counter2) in
  let b := put b orig_from_override in
  (rewrite32 b (counter3 - 4) (opos b - counter3), c).

(** CallSetupHookLoop (1236-1309) *)
Definition CallSetupHookLoop : list asm :=
  (if pi_size r =? 0 then [APush_Imm8 0; APush_Imm8 0]
   else [ALea_DispRegImmAuto EAX EBP v_override_ret; ALea_DispRegImmAuto EDX EBP v_orig_ret; APush_Reg EAX; APush_Reg EDX])
  ++ [ALea_DispRegImm8 EAX EBP v_cur_res; ALea_DispRegImm8 EDX EBP v_prev_res; APush_Reg EAX; APush_Reg EDX;
      ALea_DispRegImm8 EAX EBP v_status; ALea_DispRegImm8 EDX EBP v_vfnptr_origentry; APush_Reg EAX; APush_Reg EDX;
      AMov_Reg_Rm_DispAuto EAX EBP v_this; APush_Reg EAX;
      AMov_Reg_Rm_DispAuto ECX EBP v_this; AMov_Reg_Rm_DispAuto EAX ECX (k_offs k); AAdd_Rm_ImmAuto EAX (k_idx k * 4) MOD_REG; APush_Reg EAX;
      AMov_Rm_Imm32 EDX (k_phi k) MOD_REG; AMov_Reg_Rm EAX EDX MOD_MEM_REG; APush_Reg EAX;
      if gcc then APush_Imm32 (k_sh k) else AMov_Reg_Imm32 ECX (k_sh k);
      AMov_Reg_Imm32 EAX (k_setup k); ACall_Reg EAX]
  ++ (if gcc then [AAdd_Rm_Imm8 ESP 40 MOD_REG] else [])
  ++ [AMov_Rm_Reg_Disp8 EBP EAX v_pContext].
(** CallEndContext (1311-1336) *)
Definition CallEndContext : list asm :=
  [AMov_Reg_Rm_DispAuto EAX EBP v_pContext; APush_Reg EAX; if gcc then APush_Imm32 (k_sh k) else AMov_Reg_Imm32 ECX (k_sh k);
   AMov_Reg_Imm32 EAX (k_end k); ACall_Reg EAX]
  ++ (if gcc then [AAdd_Rm_Imm8 ESP 8 MOD_REG] else []).

(** 1358-1380 *)
Definition prologue : list asm :=
  [APush_Reg EBP; APush_Reg EBX; AMov_Reg_Rm EBP ESP MOD_REG] ++ (if gcc || va then [] else [APush_Reg ECX]).
(** 1496-1503 *)
Definition make_frame : list asm :=
  [ASub_Rm_Imm32 ESP vars_size MOD_REG; AAnd_Rm_Imm32 ESP MOD_REG (-16); AMov_Rm_Imm32_Disp8 EBP MRES_IGNORED v_status].
(** 1505-1541 *)
Definition varargs : list asm :=
  (if va then [ALea_DispRegImmAuto EAX EBP (param_base_offs + GetParamsTotalStackSize ps + 4); AMov_Rm_Reg_DispAuto EBP EAX v_va_argptr] else [])
  ++ (if vafmt then
        AlignBefore (align_bytes 16 false false 0)
        ++ [APush_Reg EAX; APush_Rm_DispAuto EBP (param_base_offs + GetParamsTotalStackSize ps); APush_Imm32 (STRBUF_LEN - 1);
            ALea_DispRegImmAuto ECX EBP v_va_buf; APush_Reg ECX; AMov_Reg_Imm32 EAX (k_vsn k); ACall_Reg EAX; AAdd_Rm_Imm32 ESP 16 MOD_REG]
        ++ AlignAfter (align_bytes 16 false false 0)
        ++ [AXor_Reg_Rm EDX EDX MOD_REG; AMov_Rm8_Reg8_DispAuto EBP EDX (v_va_buf + STRBUF_LEN - 1)]
      else []).
(** 1543-1575 *)
Definition ret_ctors : list asm :=
  if has (pi_flags r) PassFlag_ByVal && negb (pi_normal r =? 0) then
    AlignBefore align0 ++ call_obj v_orig_ret (pi_normal r) ++ call_obj v_override_ret (pi_normal r) ++ call_obj v_plugin_ret (pi_normal r)
    ++ AlignAfter align0
  else [].
(** 1600-1623 *)
Fixpoint param_dtors (off : Z) (l : list passinfo) : list asm :=
  match l with
  | [] => []
  | p :: l =>
      (if (pi_type p =? PassType_Object) && has (pi_flags p) PassFlag_ODtor && has (pi_flags p) PassFlag_ByVal && negb (ForcedByRef p)
       then [ALea_DispRegImmAuto ECX EBP off; AMov_Reg_Imm32 EAX (pi_dtor p)] ++ push_this ++ [ACall_Reg EAX] ++ pop_this
       else [])
      ++ param_dtors (off + GetParamStackSize p) l
  end.
Definition destroy_params : list asm := AlignBefore align0 ++ param_dtors param_base_offs ps ++ AlignAfter align0.
(** 1627-1664 *)
Definition ret_dtors : list asm :=
  if has (pi_flags r) PassFlag_ByVal && negb (pi_dtor r =? 0) then
    let n := align_bytes 0 gcc false 8 in
    [APush_Reg EAX; APush_Reg EDX] ++ AlignBefore n
    ++ call_obj v_plugin_ret (pi_dtor r) ++ call_obj v_override_ret (pi_dtor r) ++ call_obj v_orig_ret (pi_dtor r)
    ++ AlignAfter n ++ [APop_Reg EDX; APop_Reg EAX]
  else [].
(** 1666-1693; Return_Popstack takes an unsigned short *)
Definition epilogue : list asm :=
  [AMov_Reg_Rm ESP EBP MOD_REG; APop_Reg EBX; APop_Reg EBP]
  ++ [if negb gcc && negb va then AReturn_Popstack ((if RetMem then s16 (GetParamsTotalStackSize ps + 4) else GetParamsTotalStackSize ps) mod 2 ^ 16)
      else if gcc && RetMem then AReturn_Popstack 4 else AReturn].

(** GenerateHookFunc (1356-1703) *)
Definition hook_func : list Z :=
  let b := put [] (prologue ++ make_frame ++ varargs ++ ret_ctors ++ CallSetupHookLoop) in
  let '(b, c) := GenerateCallHooks b 0 in
  let '(b, c) := GenerateCallOrig b c in
  let '(b, _) := GenerateCallHooks b c in
  put b (PrepareReturn ++ CallEndContext ++ destroy_params ++ DoReturn ++ ret_dtors ++ epilogue).
End Hook.
