(** What a hook function has to do, as seen by the functions it calls: the sequence of calls with
    their arguments and the memory they find.  Compare the hook function of the macros
    (sourcehook.h: SH_SETUPCALLS, SH_CALL_HOOKS, SH_CALL_ORIG, SH_RETURN; model ShModel.v):

      ctx = shptr->SetupHookLoop(hi, vfnptr, this, &orig, &status, &prev, &cur, &orig_ret, &override_ret);
      prev = IGNORED;
      while ((iter = ctx->GetNext())) {
        cur = IGNORED;
        plugin_ret = iter->Call(params);
        prev = cur;
        if (cur > status) status = cur;
        if (cur >= OVERRIDE) *ctx->GetOverrideRetPtr() = plugin_ret;
      }
      if (status != SUPERCEDE && ctx->ShouldCallOrig()) orig_ret = orig(this, params); else orig_ret = override_ret;
      (the loop again)
      retptr = status >= OVERRIDE ? ctx->GetOverrideRetPtr() : ctx->GetOrigRetPtr();
      shptr->EndContext(ctx);
      return *retptr;                                                                              *)
From Coq Require Import List ZArith Bool.
From Verif Require Import Mach64 Jit64Spec.
Import ListNotations.
Local Open Scope Z_scope.

Definition IGNORED : Z := 0.
Definition OVERRIDE : Z := 2.
Definition SUPERCEDE : Z := 3.

(** SourceHook, the hook manager and the positions of the methods in their vtables *)
Record iface := Iface {
  c_sh : Z; c_setup : Z; c_end : Z;         (* the ISourceHook, its SetupHookLoop and EndContext *)
  c_phi : Z;                                (* where the IHookManagerInfo pointer is kept *)
  c_offs : Z; c_idx : Z;                    (* the hooked function: vtable offset and index *)
  x_next : Z; x_over : Z; x_orig : Z; x_should : Z;   (* IHookContext *)
  x_call : Z }.                             (* the delegate's Call *)
(** A parameter takes one slot; it is of a floating point type or not, and may have to be destroyed by the function *)
Record pkind := PKind { pk_float : bool; pk_dtor : option Z }.
(** The result: none, or so many bytes in rax, in xmm0, or in memory at an address that is passed as
    another argument, after the this pointer *)
Inductive rkind := RVoid | RInt (n : nat) | RFloat (n : nat) | RMem (n : nat).
Definition rsize (rk : rkind) : nat := match rk with RVoid => 0%nat | RInt n | RFloat n | RMem n => n end.
Definition hidden (rk : rkind) : nat := match rk with RMem _ => 1%nat | _ => 0%nat end.

(** The variables of the hook function whose addresses are given to SetupHookLoop, and plugin_ret, whose
    address is given to the handlers if the result is in memory *)
Record vars := Vars { a_orig : Z; a_status : Z; a_prev : Z; a_cur : Z; a_oret : Z; a_over : Z; a_plug : Z }.

Inductive outcome := Done (m : Z -> Z) | Cut | Broken.

Section Protocol.
Variables (h : iface) (ps : list pkind) (rk : rkind) (s0 : st) (v : vars).
(** the lower end of the part of the stack the function keeps for itself during its calls *)
Variable low : Z.
(** [right]: prev becomes the result of the handler that has just been called (as it should be);
    otherwise it is set to IGNORED before each handler (as the generated code does) *)
Variable right : bool.

(** the arguments of the hooked function *)
Definition nargs : nat := (1 + hidden rk + List.length ps)%nat.
Definition slots : Z := Z.max 4 (Z.of_nat nargs).
(** the stack the function may use besides its incoming argument slots *)
Definition depth : Z := 256 + 8 * Z.of_nat (List.length ps) + match rk with RMem n => 4 * Z.of_nat n | _ => 0 end.
Definition areas : list (Z * Z) :=
  [(a_orig v, 8); (a_status v, 4); (a_prev v, 4); (a_cur v, 4)]
  ++ match rk with RVoid => [] | _ => [(a_oret v, Z.of_nat (rsize rk)); (a_over v, Z.of_nat (rsize rk))] end
  ++ match rk with RMem n => [(a_plug v, Z.of_nat n)] | _ => [] end.
Definition inside (a : Z * Z) (x : Z) : Prop := fst a <= x < fst a + snd a.
Definition shared (x : Z) : Prop := Exists (fun a => inside a x) areas.
(** the bytes that only the function itself may use *)
Definition own (x : Z) : Prop := rg s0 RSP - depth <= x < rg s0 RSP + 8 + 8 * slots /\ ~ shared x.
(** the variables are different and on the function's stack *)
Definition separate : Prop :=
  ForallOrdPairs (fun a b => fst a + snd a <= fst b \/ fst b + snd b <= fst a) areas /\
  Forall (fun a => rg s0 RSP - depth <= fst a /\ fst a + snd a <= rg s0 RSP) areas.
Definition agree (m m' : Z -> Z) : Prop := forall x, ~ own x -> m' x = m x.

Definition rax (e : event) : Z := rg (e_out e) RAX.
Definition result (e : event) : Z := match rk with RVoid => 0 | RInt _ => rg (e_out e) RAX | RFloat _ => xm (e_out e) 0 | RMem _ => 0 end.
Definition status (m : Z -> Z) : Z := ld m (a_status v) 4.
Definition cur (m : Z -> Z) : Z := ld m (a_cur v) 4.

(** [e] is a call on an aligned stack of a function with [n] arguments; the return address and the
    argument slots, which the called function may overwrite, are below [low]; the called function finds
    the memory [m0] but for bytes the caller owns, and [P] holds of such a memory *)
Definition call (n : nat) (m0 : Z -> Z) (e : event) (P : (Z -> Z) -> Prop) : Prop :=
  aligned (e_in e) /\ rg (e_in e) RSP + 8 + 8 * Z.max 4 (Z.of_nat n) <= low /\ exists m, agree m0 m /\ agree m (mm (e_in e)) /\ P m.
(** a virtual function without further arguments on the object [o] *)
Definition virt (o i : Z) (e : event) (m : Z -> Z) : Prop :=
  e_target e = ld8 m (w64 (ld8 m o + 8 * i)) /\ arg (e_in e) 0 = o.
(** the parameters of the hooked function are passed on; a result in memory goes to [a] *)
Definition params (a : Z) (e : event) : Prop :=
  (forall i p, nth_error ps i = Some p -> let j := S (hidden rk + i) in
     if pk_float p then farg (e_in e) j = farg s0 j else arg (e_in e) j = arg s0 j) /\
  match rk with RMem _ => arg (e_in e) 1 = a | _ => True end.

Definition set_prev (m : Z -> Z) (x : Z) : Z -> Z := sto m (a_prev v) 4 x.
Definition before_handler (m : Z -> Z) : Z -> Z :=
  let m := sto m (a_cur v) 4 IGNORED in if right then m else set_prev m IGNORED.
Definition after_handler (m : Z -> Z) : Z -> Z :=
  let m := if right then set_prev m (cur m) else m in sto m (a_status v) 4 (Z.max (status m) (cur m)).
(** a place for a result, not among the function's own bytes, nor overlapping what is copied to it *)
Definition apart (p a : Z) (n : nat) : Prop := p + Z.of_nat n <= a \/ a + Z.of_nat n <= p.
Definition place (p : Z) : Prop :=
  p + Z.of_nat (rsize rk) <= W64 /\ (forall x, p <= x < p + Z.of_nat (rsize rk) -> ~ own x) /\
  match rk with RMem n => apart p (a_plug v) n | _ => True end.
(** the value of plugin_ret after the handler [f], in the memory [m] *)
Definition given (m : Z -> Z) (f : event) : Z := match rk with RMem n => ld m (a_plug v) n | _ => result f end.
(** orig_ret after the call [f] of the original *)
Definition store_result (m : Z -> Z) (f : event) : Z -> Z :=
  match rk with RMem _ => m | _ => sto m (a_oret v) (rsize rk) (result f) end.
Definition overrides (m : Z -> Z) : Prop := rk <> RVoid /\ OVERRIDE <= cur m.

Inductive hooks (ctx : Z) : (Z -> Z) -> list event -> outcome -> Prop :=
| h_cut m : hooks ctx m [] Cut
| h_end m e : call 1 m e (virt ctx (x_next h) e) -> rax e = 0 -> hooks ctx m [e] (Done (mm (e_out e)))
| h_pass m e f tr o :
    call 1 m e (virt ctx (x_next h) e) -> rax e <> 0 ->
    call nargs (before_handler (mm (e_out e))) f (virt (rax e) (x_call h) f) -> params (a_plug v) f ->
    ~ overrides (mm (e_out f)) ->
    hooks ctx (after_handler (mm (e_out f))) tr o -> hooks ctx m (e :: f :: tr) o
| h_over m e f g tr o :
    call 1 m e (virt ctx (x_next h) e) -> rax e <> 0 ->
    call nargs (before_handler (mm (e_out e))) f (virt (rax e) (x_call h) f) -> params (a_plug v) f ->
    overrides (mm (e_out f)) ->
    call 1 (after_handler (mm (e_out f))) g (virt ctx (x_over h) g) -> place (rax g) ->
    hooks ctx (sto (mm (e_out g)) (rax g) (rsize rk) (given (mm (e_out g)) f)) tr o -> hooks ctx m (e :: f :: g :: tr) o
| h_broken m e f g :
    call 1 m e (virt ctx (x_next h) e) -> rax e <> 0 ->
    call nargs (before_handler (mm (e_out e))) f (virt (rax e) (x_call h) f) -> params (a_plug v) f ->
    overrides (mm (e_out f)) ->
    call 1 (after_handler (mm (e_out f))) g (virt ctx (x_over h) g) -> ~ place (rax g) ->
    hooks ctx m [e; f; g] Broken.

(** the call of the original function *)
Definition take_override (m : Z -> Z) : Z -> Z := sto m (a_oret v) (rsize rk) (ld m (a_over v) (rsize rk)).
Inductive orig (ctx : Z) : (Z -> Z) -> list event -> (Z -> Z) -> Prop :=
| o_superceded m : status m = SUPERCEDE -> orig ctx m [] (take_override m)
| o_should_not m e : status m <> SUPERCEDE ->
    call 1 m e (virt ctx (x_should h) e) -> Z.odd (rax e) = false -> orig ctx m [e] (take_override (mm (e_out e)))
| o_called m e f : status m <> SUPERCEDE ->
    call 1 m e (virt ctx (x_should h) e) -> Z.odd (rax e) = true ->
    call nargs (mm (e_out e)) f (fun m => e_target f = ld8 m (a_orig v) /\ arg (e_in f) 0 = arg s0 0) -> params (a_oret v) f ->
    orig ctx m [e; f] (store_result (mm (e_out f)) f).

(** the beginning *)
Definition initial : Z -> Z :=
  sto (sto (sto (mm s0) (a_status v) 4 IGNORED) (a_cur v) 4 IGNORED) (a_prev v) 4 IGNORED.
Definition setup (e : event) : Prop := call 10 initial e (fun m =>
  e_target e = c_setup h /\ arg (e_in e) 0 = c_sh h /\ arg (e_in e) 1 = ld8 m (c_phi h) /\
  arg (e_in e) 2 = w64 (ld8 m (w64 (arg s0 0 + c_offs h)) + 8 * c_idx h) /\ arg (e_in e) 3 = arg s0 0 /\
  arg (e_in e) 4 = a_orig v /\ arg (e_in e) 5 = a_status v /\ arg (e_in e) 6 = a_prev v /\ arg (e_in e) 7 = a_cur v /\
  match rk with
  | RVoid => arg (e_in e) 8 = 0 /\ arg (e_in e) 9 = 0
  | _ => arg (e_in e) 8 = a_oret v /\ arg (e_in e) 9 = a_over v
  end).

(** the end: the pointer to the result, EndContext, the destruction of parameters *)
Definition ret_ptr (ctx : Z) (m : Z -> Z) (tr : list event) (m' : Z -> Z) (p : Z) : Prop :=
  match rk with
  | RVoid => tr = [] /\ m' = m
  | _ => exists e, tr = [e] /\ call 1 m e (virt ctx (if OVERRIDE <=? status m then x_over h else x_orig h) e) /\
                   m' = mm (e_out e) /\ p = rax e
  end.
Definition end_context (ctx : Z) (m : Z -> Z) (e : event) : Prop := call 2 m e (fun _ =>
  e_target e = c_end h /\ arg (e_in e) 0 = c_sh h /\ arg (e_in e) 1 = ctx).
Inductive destroy : list pkind -> nat -> (Z -> Z) -> list event -> (Z -> Z) -> Prop :=
| d_nil i m : destroy [] i m [] m
| d_plain p l i m tr m' : pk_dtor p = None -> destroy l (S i) m tr m' -> destroy (p :: l) i m tr m'
| d_dtor p l i m f e tr m' : pk_dtor p = Some f ->
    call 1 m e (fun _ => e_target e = f /\ arg (e_in e) 0 = arg s0 i) ->
    destroy l (S i) (mm (e_out e)) tr m' -> destroy (p :: l) i m (e :: tr) m'.

(** the value the caller gets, in a register or at the address it has given; in the second case the
    place of the value may not overlap that address or the function's own bytes *)
Definition returned (s : st) (p : Z) : Prop :=
  match rk with
  | RVoid => True
  | RInt _ => rg s RAX = ld8 (mm s) p
  | RFloat _ => xm s 0 = ld8 (mm s) p
  | RMem _ => rg s RAX = arg s0 1
  end.
Definition delivered (m : Z -> Z) (p : Z) : Z -> Z :=
  match rk with RMem n => sto m (arg s0 1) n (ld m p n) | _ => m end.
Definition source (p : Z) : Prop :=
  match rk with RMem n => p + Z.of_nat n <= W64 /\ (forall x, p <= x < p + Z.of_nat n -> ~ own x) /\ apart p (arg s0 1) n | _ => True end.
(** the address given by the caller is not in the part of the stack used here *)
Definition target_ok : Prop :=
  match rk with
  | RMem n => arg s0 1 + Z.of_nat n <= W64 /\ (arg s0 1 + Z.of_nat n <= rg s0 RSP - depth \/ rg s0 RSP + 8 + 8 * slots <= arg s0 1)
  | _ => True
  end.

(** A run with the trace [tr] and the last state [s] *)
Inductive protocol : list event -> st -> outcome -> Prop :=
| p_none s : protocol [] s Cut
| p_pre e1 tr s o : setup e1 -> hooks (rax e1) (set_prev (mm (e_out e1)) IGNORED) tr o ->
    (forall m, o <> Done m) -> protocol (e1 :: tr) s o
| p_post e1 tr1 m1 tr2 m2 tr3 s o : setup e1 -> hooks (rax e1) (set_prev (mm (e_out e1)) IGNORED) tr1 (Done m1) ->
    orig (rax e1) m1 tr2 m2 -> hooks (rax e1) (set_prev m2 IGNORED) tr3 o ->
    (forall m, o <> Done m) -> protocol (e1 :: tr1 ++ tr2 ++ tr3) s o
| p_all e1 tr1 m1 tr2 m2 tr3 m3 tr4 m4 p e5 tr6 m6 s :
    setup e1 -> hooks (rax e1) (set_prev (mm (e_out e1)) IGNORED) tr1 (Done m1) ->
    orig (rax e1) m1 tr2 m2 -> hooks (rax e1) (set_prev m2 IGNORED) tr3 (Done m3) ->
    ret_ptr (rax e1) m3 tr4 m4 p -> end_context (rax e1) m4 e5 -> destroy ps (1 + hidden rk) (mm (e_out e5)) tr6 m6 ->
    source p -> agree (delivered m6 p) (mm s) -> returned s p ->
    protocol (e1 :: tr1 ++ tr2 ++ tr3 ++ tr4 ++ e5 :: tr6) s (Done (mm s))
| p_odd e1 tr1 m1 tr2 m2 tr3 m3 tr4 m4 p e5 tr6 m6 s :
    setup e1 -> hooks (rax e1) (set_prev (mm (e_out e1)) IGNORED) tr1 (Done m1) ->
    orig (rax e1) m1 tr2 m2 -> hooks (rax e1) (set_prev m2 IGNORED) tr3 (Done m3) ->
    ret_ptr (rax e1) m3 tr4 m4 p -> end_context (rax e1) m4 e5 -> destroy ps (1 + hidden rk) (mm (e_out e5)) tr6 m6 ->
    ~ source p ->
    protocol (e1 :: tr1 ++ tr2 ++ tr3 ++ tr4 ++ e5 :: tr6) s Broken.

(** What the hook function relies on: the functions it calls keep the nonvolatile registers and
    bytes it owns above [low] *)
Definition conforming (env : nat -> Z -> st -> st) : Prop :=
  forall n t s, wf s -> wf (env n t s) /\ saved s (env n t s) /\
    (forall x, own x -> low <= x -> mm (env n t s) x = mm s x).
End Protocol.
