(** The 64-bit generator (core/sourcehook/sourcehook_hookmangen_x86_64.cpp) as the bytes it writes.
    Only the MSVC build compiles (lines 394, 487, 982, 1064 and 1276 are static assertions that
    fail elsewhere), so MSVC_ONLY(x) is x and GCC_ONLY(x) is nothing.

    Not modelled: PrintDebug (50-102; never called).  The positions of virtual functions found by
    GetFuncInfo and the addresses that are constants of the generated code are parameters. *)
From Coq Require Import List ZArith Bool.
From Verif Require Import TrampModel ProtoModel GenModel Asm64Model Mach64.
Import ListNotations.
Local Open Scope Z_scope.

(** ** The buffer *)
(** methods called one after the other *)
Definition put (b : list Z) (l : list asm) : list Z := b ++ emit_all l.
(** get_outputpos (sh_asm.h) *)
Definition opos (b : list Z) : Z := Z.of_nat (List.length b).
(** rewrite<std::int32_t> (sh_asm.h:69-79) *)
Definition rewrite32 (b : list Z) (p v : Z) : list Z :=
  firstn (Z.to_nat p) b ++ le 4 v ++ skipn (Z.to_nat p + 4) b.

(** ** Constants *)
Record consts := Consts {
  k_phi : Z;        (* m_pHI *)
  k_sh : Z;         (* m_SHPtr *)
  k_setup : Z;      (* the address of SetupHookLoop of m_SHPtr (606) *)
  k_end : Z;        (* the address of EndContext (1216) *)
  k_offs : Z;       (* m_VtblOffs *)
  k_idx : Z;        (* m_VtblIdx *)
  k_pi : Z;         (* m_BuiltPI *)
  k_vfn : Z;        (* m_HookfuncVfnptr *)
  i_setinfo : Z; i_next : Z; i_call : Z; i_over : Z; i_orig : Z; i_should : Z   (* vtblindex of the methods called *)
}.
Definition HOOKMAN_VERSION : Z := 1.   (* sourcehook.h:36 *)
Definition SIZE_PTR : Z := 8.
(** META_RES (sourcehook.h:133-139) *)
Definition MRES_IGNORED : Z := 0.
Definition MRES_OVERRIDE : Z := 2.
Definition MRES_SUPERCEDE : Z := 3.

(** ** GeneratePubFunc (1293-1401) *)
Definition pub_func (k : consts) : list Z :=
  let b := put [] [ASubRI RSP 56; AMovRR R8 RCX; AMovRR R9 RDX; ATestRI R8 1; AJz 0] in
  let storeOff := opos b in
  let b := put b [AMovRU RAX (k_phi k); AMovMR (Rm RAX 0) R9] in
  let b := rewrite32 b (storeOff - 4) (opos b - storeOff) in
  let b := put b [ATestRR R9 R9; AJz 0] in
  let jumpOff := opos b in
  let b := put b [AMovRM RAX (Rm R9 0); AMovRM RAX (Rm RAX (SIZE_PTR * i_setinfo k));
                  AMovRR RCX R9; AMovRI RDX HOOKMAN_VERSION; AMovRI R8 (k_offs k); AMovRI R9 (k_idx k);
                  AMovRU R10 (k_pi k); AMovMR (Rm RSP 32) R10; AMovRU R10 (k_vfn k); AMovMR (Rm RSP 40) R10;
                  ACall RAX] in
  let b := rewrite32 b (jumpOff - 4) (opos b - jumpOff) in
  put b [AAddRI RSP 56; AXorRR RAX RAX; ARet].

(** ** GenerateHookFunc *)
(** GetRealSize (192-198), AlignSize (200-205), GetParamStackSize (208-212) *)
Definition GetRealSize (p : passinfo) : Z := if has (pi_flags p) PassFlag_ByRef then SIZE_PTR else pi_size p.
Definition AlignSize (x boundary : Z) : Z :=
  if negb (x mod boundary =? 0) then Z.ldiff x (boundary - 1) + boundary else x.
Definition GetParamStackSize (p : passinfo) : Z := AlignSize (GetRealSize p) 8.

(** the frame (329-355): AddVarToFrame (180-185) counts down from rbp *)
Definition v_original_rbp : Z := -8.
Definition v_vfnptr_origentry : Z := -16.
Definition v_status : Z := -24.
Definition v_prev_res : Z := -32.
Definition v_cur_res : Z := -40.
Definition v_iter : Z := -48.
Definition v_pContext : Z := -56.
Definition v_this : Z := -64.
Definition ret_area (r : passinfo) : Z := AlignSize (GetParamStackSize r) 16.
Definition v_ret_ptr (r : passinfo) : Z := if pi_size r =? 0 then 0 else -72.
Definition v_memret_ptr (r : passinfo) : Z := if pi_size r =? 0 then 0 else -80.
Definition v_orig_ret (r : passinfo) : Z := if pi_size r =? 0 then 0 else -80 - ret_area r.
Definition v_override_ret (r : passinfo) : Z := if pi_size r =? 0 then 0 else -80 - 2 * ret_area r.
Definition v_plugin_ret (r : passinfo) : Z := if pi_size r =? 0 then 0 else -80 - 3 * ret_area r.
Definition v_mem_ret (r : passinfo) : Z := if pi_size r =? 0 then 0 else -80 - 4 * ret_area r.
Definition frame_size (r : passinfo) : Z := if pi_size r =? 0 then 64 else 80 + 4 * ret_area r.

(** params_reg, params_floatreg (364-365, 934-935) *)
Definition preg (i : nat) : Z := nth i [RCX; RDX; R8; R9] 0.
Definition home (i : nat) : regrm := Rm RBP (Z.of_nat i * 8 + 8).
Definition is_float (p : passinfo) : bool := (pi_type p =? PassType_Float) && negb (has (pi_flags p) PassFlag_ByRef).
Definition ret_mem (r : passinfo) : bool := has (pi_flags r) PassFlag_RetMem.

(** 385-392: the parameters in registers go to the shadow space *)
Fixpoint save_regs (ps : list passinfo) (i : nat) : list asm :=
  match ps with
  | [] => []
  | p :: ps =>
      if (i <? 4)%nat then
        (if is_float p then AMovsdMX (home i) (Z.of_nat i) else AMovMR (home i) (preg i)) :: save_regs ps (S i)
      else []
  end.
(** 951-959: and back *)
Fixpoint load_regs (ps : list passinfo) (i : nat) : list asm :=
  match ps with
  | [] => []
  | p :: ps =>
      if (i <? 4)%nat then
        (if is_float p then AMovsdXM (Z.of_nat i) (home i) else AMovRM (preg i) (home i)) :: load_regs ps (S i)
      else []
  end.
(** 975-978: the parameters on the stack *)
Fixpoint copy_stack (n : nat) (i : Z) : list asm :=
  match n with
  | O => []
  | S n => [AMovRM RAX (Rm RBP (40 + 8 * i)); AMovMR (Rm RSP (32 + 8 * i)) RAX] ++ copy_stack n (i + 1)
  end.
(** the index of the first parameter's register *)
Definition first_reg (r : passinfo) : nat := if ret_mem r then 2 else 1.
Definition on_stack (ps : list passinfo) (reg : nat) : nat := (List.length ps - (4 - reg))%nat.

(** PushParameters (928-984): the instructions and the stack space *)
Definition PushParameters (r : passinfo) (ps : list passinfo) (v_obj v_ret : Z) : list asm * Z :=
  let hidden := negb (pi_size r =? 0) && ret_mem r in
  let reg := if hidden then 2%nat else 1%nat in
  let n := on_stack ps reg in
  let odd := (Z.of_nat n mod 2 =? 0) in
  ([AMovRM RCX (Rm RBP v_obj)]
   ++ (if hidden then [ALea RDX (Rm RBP v_ret)] else [])
   ++ load_regs ps reg
   ++ [ASubRI RSP 32]
   ++ [ASubRI RSP (Z.of_nat n * 8)]
   ++ (if odd then [ASubRI RSP 8] else [])
   ++ copy_stack n 0,
   32 + Z.of_nat n * 8 + (if odd then 8 else 0)).

(** a call with the shadow space, of a function whose address is known *)
Definition call_at (args : list asm) (f : Z) : list asm :=
  [ASubRI RSP 40] ++ args ++ [AMovRU RAX f; ACall RAX; AAddRI RSP 40].
(** rep movsb of the return type *)
Definition copy_ret (r : passinfo) (dst src : list asm) : list asm :=
  [APush RDI; APush RSI; APush RCX; AMovRU RCX (pi_size r)] ++ dst ++ src ++ [ARepMovs; APop RCX; APop RSI; APop RDI].

(** MemRetWithTempObj (1222-1227) *)
Definition MemRetWithTempObj (r : passinfo) : bool := ret_mem r && has (pi_flags r) (Z.lor PassFlag_ODtor PassFlag_AssignOp).

(** SaveReturnValue (986-1066) *)
Definition SaveReturnValue (r : passinfo) (v_mem v_ret : Z) : list asm :=
  if pi_size r =? 0 then []
  else if has (pi_flags r) PassFlag_ByRef then [AMovMR (Rm RBP v_ret) RAX]
  else if pi_type r =? PassType_Float then [AMovsdMX (Rm RBP v_ret) 0]
  else if pi_type r =? PassType_Basic then [AMovMR (Rm RBP v_ret) RAX]
  else if ret_mem r then
    if MemRetWithTempObj r then
      (if negb (pi_assign r =? 0) then call_at [ALea RCX (Rm RBP v_ret); ALea RDX (Rm RBP v_mem)] (pi_assign r)
       else copy_ret r [ALea RDI (Rm RBP v_ret)] [ALea RSI (Rm RBP v_mem)])
      ++ (if negb (pi_dtor r =? 0) then call_at [ALea RCX (Rm RBP v_mem)] (pi_dtor r) else [])
    else []
  else [].   (* an assertion: objects returned in a register are not saved *)

(** CallSetupHookLoop (530-614) *)
Definition CallSetupHookLoop (k : consts) (r : passinfo) : list asm :=
  [ASubRI RSP 88; AMovRU RCX (k_sh k); AMovRU RDX (k_phi k); AMovRM RDX (Rm RDX 0);
   AMovRM R8 (Rm RBP v_this); AMovRM R8 (Rm R8 (k_offs k)); AAddRI R8 (SIZE_PTR * k_idx k);
   AMovRM R9 (Rm RBP v_this);
   ALea RAX (Rm RBP v_vfnptr_origentry); AMovMR (Rm RSP 32) RAX;
   ALea RAX (Rm RBP v_status); AMovMR (Rm RSP 40) RAX;
   ALea RAX (Rm RBP v_prev_res); AMovMR (Rm RSP 48) RAX;
   ALea RAX (Rm RBP v_cur_res); AMovMR (Rm RSP 56) RAX]
  ++ (if pi_size r =? 0 then [AXorRR RAX RAX; AMovMR (Rm RSP 64) RAX; AMovMR (Rm RSP 72) RAX]
      else [ALea RAX (Rm RBP (v_orig_ret r)); AMovMR (Rm RSP 64) RAX;
            ALea RAX (Rm RBP (v_override_ret r)); AMovMR (Rm RSP 72) RAX])
  ++ [AMovRU RAX (k_setup k); ACall RAX; AMovMR (Rm RBP v_pContext) RAX; AAddRI RSP 88].

(** a virtual call on the context without further arguments: *pContext -> vtable[i] *)
Definition ctx_fun (i : Z) : list asm := [AMovRM RAX (Rm RBP v_pContext); AMovRM RAX (Rm RAX 0); AMovRM RAX (Rm RAX (i * SIZE_PTR))].

(** the assignment of the override value (752-798), rax = pContext->GetOverrideRetPtr() *)
Definition assign_override (r : passinfo) : list asm :=
  if has (pi_flags r) PassFlag_ByRef then [AMovRM R8 (Rm RBP (v_plugin_ret r)); AMovMR (Rm RAX 0) R8]
  else if negb (pi_assign r =? 0) then
    call_at [AMovRR RCX RAX; ALea RDX (Rm RBP (v_plugin_ret r))] (pi_assign r)
  else copy_ret r [AMovRR RDI RAX] [ALea RSI (Rm RBP (v_plugin_ret r))].

(** GenerateCallHooks (619-806) *)
Definition GenerateCallHooks (k : consts) (r : passinfo) (ps : list passinfo) (b : list Z) : list Z :=
  let '(pp, space) := PushParameters r ps v_iter (if MemRetWithTempObj r then v_mem_ret r else v_plugin_ret r) in
  let b := put b [AMovMI (Rm RBP v_prev_res) MRES_IGNORED] in
  let startLoop := opos b in
  let b := put b (ctx_fun (i_next k)
                  ++ [ASubRI RSP 40; AMovRM RCX (Rm RBP v_pContext); ACall RAX; AMovMR (Rm RBP v_iter) RAX; AAddRI RSP 40;
                      ATestRR RAX RAX; AJz 0]) in
  let jumpOff := opos b in
  let b := put b ([AMovMI (Rm RBP v_cur_res) MRES_IGNORED; AMovRM RAX (Rm RBP v_cur_res); AMovMR (Rm RBP v_prev_res) RAX]
                  ++ pp
                  ++ [AMovRM RAX (Rm RBP v_iter); AMovRM RAX (Rm RAX 0); AMovRM RAX (Rm RAX (i_call k * SIZE_PTR)); ACall RAX;
                      AAddRI RSP space]
                  ++ SaveReturnValue r (v_mem_ret r) (v_plugin_ret r)
                  ++ [AMovRM RAX (Rm RBP v_cur_res); ACmpRM RAX (Rm RBP v_status); AMovRM RAX (Rm RBP v_status);
                      ACmovgRM RAX (Rm RBP v_cur_res); AMovMR (Rm RBP v_status) RAX]) in
  let b :=
    if pi_size r =? 0 then b
    else
      let b := put b [AMovRI RAX MRES_OVERRIDE; ACmpMR (Rm RBP v_cur_res) RAX; AJl 0] in
      let earlyLoopBack := opos b - startLoop in
      let b := rewrite32 b (opos b - 4) (- earlyLoopBack) in
      put b ([ASubRI RSP 40] ++ ctx_fun (i_over k) ++ [AMovRM RCX (Rm RBP v_pContext); ACall RAX; AAddRI RSP 40]
             ++ assign_override r) in
  let b := put b [AJump 0] in
  let loopBack := opos b - startLoop in
  let b := rewrite32 b (opos b - 4) (- loopBack) in
  rewrite32 b (jumpOff - 4) (opos b - jumpOff).

(** orig_ret = override_ret (876-923) *)
Definition orig_from_override (r : passinfo) : list asm :=
  if pi_size r =? 0 then []
  else if has (pi_flags r) PassFlag_ByRef then [AMovRM RAX (Rm RBP (v_override_ret r)); AMovMR (Rm RBP (v_orig_ret r)) RAX]
  else if negb (pi_assign r =? 0) then
    call_at [ALea RCX (Rm RBP (v_orig_ret r)); ALea RDX (Rm RBP (v_override_ret r))] (pi_assign r)
  else copy_ret r [ALea RDI (Rm RBP (v_orig_ret r))] [ALea RSI (Rm RBP (v_override_ret r))].

(** GenerateCallOrig (808-926) *)
Definition GenerateCallOrig (k : consts) (r : passinfo) (ps : list passinfo) (b : list Z) : list Z :=
  let '(pp, space) := PushParameters r ps v_this (if MemRetWithTempObj r then v_mem_ret r else v_orig_ret r) in
  let b := put b [AMovRM RAX (Rm RBP v_status); ACmpRI RAX MRES_SUPERCEDE; AJe 0] in
  let statusCmpOff := opos b in
  let b := put b [ASubRI RSP 40; AMovRM RAX (Rm RBP v_pContext); AMovRR RCX RAX; AMovRM RAX (Rm RAX 0);
                  AMovRM RAX (Rm RAX (SIZE_PTR * i_should k)); ACall RAX; AAddRI RSP 40; ATestRI RAX 1; AJz 0] in
  let shouldCallOff := opos b in
  let b := put b (pp ++ [AMovRM RAX (Rm RBP v_vfnptr_origentry); ACall RAX; AAddRI RSP space]
                  ++ SaveReturnValue r (v_mem_ret r) (v_orig_ret r) ++ [AJump 0]) in
  let callOriginalOff := opos b in
  let elseStartOff := opos b in
  let b := rewrite32 b (statusCmpOff - 4) (elseStartOff - statusCmpOff) in
  let b := rewrite32 b (shouldCallOff - 4) (elseStartOff - shouldCallOff) in
  let b := put b (orig_from_override r) in
  rewrite32 b (callOriginalOff - 4) (opos b - callOriginalOff).

(** PrepareReturn (1068-1123) *)
Definition PrepareReturn (k : consts) (r : passinfo) : list asm :=
  if pi_size r =? 0 then []
  else
    [AMovRM RAX (Rm RBP v_pContext); AMovRM RAX (Rm RAX 0); AMovRR R8 RAX;
     AMovRM RAX (Rm RAX (i_orig k * SIZE_PTR)); AMovRM R8 (Rm R8 (i_over k * SIZE_PTR));
     AXorRR R9 R9; AMovRM R9 (Rm RBP v_status); ACmpRI R9 MRES_OVERRIDE; ACmovgeRR RAX R8;
     ASubRI RSP 40; AMovRM RCX (Rm RBP v_pContext); ACall RAX; AAddRI RSP 40; AMovMR (Rm RBP (v_ret_ptr r)) RAX].

(** CallEndContext (1190-1220) *)
Definition CallEndContext (k : consts) : list asm :=
  [ASubRI RSP 40; AMovRU RCX (k_sh k); AMovRM RDX (Rm RBP v_pContext); AMovRU RAX (k_end k); ACall RAX; AAddRI RSP 40].

(** 461-485: destructors of parameters *)
Definition needs_dtor (p : passinfo) : bool :=
  (pi_type p =? PassType_Object) && has (pi_flags p) PassFlag_ODtor && has (pi_flags p) PassFlag_ByVal.
Fixpoint param_dtors (ps : list passinfo) (i : nat) : list asm :=
  match ps with
  | [] => []
  | p :: ps =>
      [ASubRI RSP 40]
      ++ (if needs_dtor p then [AMovRM RCX (Rm RBP (8 + Z.of_nat i * 8)); AMovRU RAX (pi_dtor p); ACall RAX] else [])
      ++ [AAddRI RSP 40] ++ param_dtors ps (S i)
  end.

(** DoReturn (1125-1188) *)
Definition DoReturn (r : passinfo) : list asm :=
  if pi_size r =? 0 then []
  else
    [AMovRM R8 (Rm RBP (v_ret_ptr r))]
    ++ (if has (pi_flags r) PassFlag_ByRef then [AMovRM RAX (Rm R8 0)]
        else
          (if pi_type r =? PassType_Float then [AMovsdXM 0 (Rm R8 0)]
           else if (pi_type r =? PassType_Basic) || ((pi_type r =? PassType_Object) && has (pi_flags r) PassFlag_RetReg)
           then [AMovRM RAX (Rm R8 0)] else [])
          ++ (if ret_mem r then
                (if negb (pi_copy r =? 0) then
                   call_at [AMovRM RCX (Rm RBP (v_memret_ptr r)); AMovRR RDX R8] (pi_copy r)
                 else copy_ret r [AMovRM RDI (Rm RBP (v_memret_ptr r))] [AMovRR RSI R8])
                ++ [AMovRM RAX (Rm RBP (v_memret_ptr r))]
              else [])).

(** 399-419, 494-511: constructors and destructors of the three values *)
Definition ret_vals (r : passinfo) : list Z := [v_orig_ret r; v_override_ret r; v_plugin_ret r].
Definition ctors (r : passinfo) : list asm :=
  if has (pi_flags r) PassFlag_ByVal && negb (pi_normal r =? 0) then
    flat_map (fun v => [ASubRI RSP 40; ALea RCX (Rm RBP v); AMovRU R8 (pi_normal r); ACall R8; AAddRI RSP 40]) (ret_vals r)
  else [].
Definition dtors (r : passinfo) : list asm :=
  if has (pi_flags r) PassFlag_ByVal && negb (pi_dtor r =? 0) then
    [ASubRI RSP 40] ++ flat_map (fun v => [ALea RCX (Rm RBP v); AMovRU R8 (pi_dtor r); ACall R8]) (ret_vals r) ++ [AAddRI RSP 40]
  else [].

(** the beginning (355-392, 399-423) *)
Definition prologue (r : passinfo) (ps : list passinfo) : list asm :=
  let fs := frame_size r in
  [ASubRI RSP fs; AMovMR (Rm RSP (fs - SIZE_PTR)) RBP; ALea RBP (Rm RSP fs);
   AMovMR (Rm RBP v_this) RCX; AMovMR (home 0) RCX]
  ++ (if ret_mem r then [AMovMR (home 1) RDX; AMovMR (Rm RBP (v_memret_ptr r)) RDX] else [])
  ++ [AMovRI RAX (Z.of_nat (List.length ps)); AMovRI RAX (Z.of_nat (first_reg r)); AMovRU RAX (pi_size r)]
  ++ save_regs ps (first_reg r)
  ++ ctors r
  ++ [AMovMI (Rm RBP v_status) MRES_IGNORED; AMovMI (Rm RBP v_cur_res) MRES_IGNORED; AMovMI (Rm RBP v_prev_res) MRES_IGNORED].
(** the end (456-518) *)
Definition epilogue (k : consts) (r : passinfo) (ps : list passinfo) : list asm :=
  PrepareReturn k r ++ CallEndContext k ++ param_dtors ps (first_reg r) ++ DoReturn r ++ dtors r
  ++ [AMovRM RBP (Rm RBP v_original_rbp); AAddRI RSP (frame_size r); ARet].

(** GenerateHookFunc (295-528) *)
Definition hook_func (k : consts) (r : passinfo) (ps : list passinfo) : list Z :=
  let b := put [] (prologue r ps ++ CallSetupHookLoop k r) in
  let b := GenerateCallHooks k r ps b in
  let b := GenerateCallOrig k r ps b in
  let b := GenerateCallHooks k r ps b in
  put b (epilogue k r ps).
