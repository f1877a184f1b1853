(** What a 32-bit hook function has to do, as seen by the functions it calls: the sequence of calls
    with their arguments and the memory they find.  Compare the hook function of the macros
    (sourcehook.h: SH_SETUPCALLS, SH_CALL_HOOKS, SH_CALL_ORIG, SH_RETURN; model ShModel.v):

      (vafmt: vsnprintf(buf, 4095, fmt, ap); buf[4095] = 0;)
      status = IGNORED;
      ctx = shptr->SetupHookLoop(hi, vfnptr, this, &orig, &status, &prev, &cur, &orig_ret, &override_ret);
      prev = IGNORED;
      while ((iter = ctx->GetNext())) {
        cur = IGNORED;
        plugin_ret = iter->Call(params [, buf]);
        prev = cur;
        if (cur > status) status = cur;
        if (cur >= OVERRIDE) *ctx->GetOverrideRetPtr() = plugin_ret;
      }
      if (status != SUPERCEDE && ctx->ShouldCallOrig()) orig_ret = orig(this, params [, "%s", buf]); else orig_ret = override_ret;
      (the loop again)
      retptr = status >= OVERRIDE ? ctx->GetOverrideRetPtr() : ctx->GetOrigRetPtr();
      shptr->EndContext(ctx);
      return *retptr;

    The specification is a predicate on the rest of a run: the list of calls, the last state, and how
    it ended. *)
From Coq Require Import List ZArith Bool.
From Verif Require Import Mach32 Jit32Spec.
Import ListNotations.
Local Open Scope Z_scope.

Definition IGNORED : Z := 0.
Definition OVERRIDE : Z := 2.
Definition SUPERCEDE : Z := 3.

(** SourceHook and the hooked function *)
Record iface := Iface {
  c_sh : Z; c_setup : Z; c_end : Z;         (* the ISourceHook, its SetupHookLoop and EndContext *)
  c_phi : Z;                                (* where the IHookManagerInfo pointer is kept *)
  c_offs : Z; c_idx : Z;                    (* the hooked function: vtable offset and index *)
  c_vsn : Z; c_fmt : Z }.                   (* vsnprintf and the string "%s" *)
(** positions in vtables: IHookContext (GetNext, GetOverrideRetPtr, GetOrigRetPtr, ShouldCallOrig) and the delegate's Call *)
Definition x_next : Z := 0. Definition x_over : Z := 1. Definition x_orig : Z := 2. Definition x_should : Z := 3. Definition x_call : Z := 2.
Definition buf_len : Z := 4096.

(** A parameter has a size, is a floating point number or not, and may have to be destroyed by the function *)
Record pkind := PKind { pk_float : bool; pk_size : nat; pk_dtor : option Z }.
(** Parameters are in consecutive 4-byte slots *)
Definition slot (p : pkind) : Z := 4 * ((Z.of_nat (pk_size p) + 3) / 4).
Definition total (ps : list pkind) : Z := fold_right (fun p n => slot p + n) 0 ps.
(** The result: none, or so many bytes in eax (and edx), on the x87 stack, or in memory at an address that
    is passed as another argument *)
Inductive rkind := RVoid | RInt (n : nat) | RFloat (n : nat) | RMem (n : nat).
Definition rsize (rk : rkind) : nat := match rk with RVoid => 0%nat | RInt n | RFloat n | RMem n => n end.
Definition in_mem (rk : rkind) : bool := match rk with RMem _ => true | _ => false end.

(** The variables of the hook function whose addresses are given to other functions; a_plug (plugin_ret) only to
    the handlers, if the result is in memory *)
Record vars := Vars { a_orig : Z; a_status : Z; a_prev : Z; a_cur : Z; a_oret : Z; a_over : Z; a_buf : Z; a_plug : Z }.

Inductive outcome := Done | Cut | Broken.
Definition sys := list event -> st -> outcome -> Prop.

Section Protocol.
(** [gcc]: the compiler; [vafmt]: the hooked function has a format and variable arguments after [ps] *)
Variables (gcc vafmt : bool) (u : fpu) (h : iface) (ps : list pkind) (rk : rkind) (s0 : st) (v : vars).
(** the lower end of the part of the stack the function keeps for itself during its calls *)
Variable low : Z.
(** the function is at its return instruction *)
Variable fin : st -> Prop.

(** where the hooked function gets the object and its parameters: with variable arguments MSVC, too, passes
    the object on the stack *)
Definition on_stack : bool := gcc || vafmt.
(** A function with that result and [t]: the object on the stack.  Where it finds the object and the address for a
    result in memory (GCC: before the object; MSVC: after it), the bytes of both on the stack, and what it takes off
    the stack when it returns if it has [n] bytes of arguments (GCC: the address for the result) *)
Definition obj_at (t : bool) (s : st) : Z := if t then arg s (if gcc && in_mem rk then 1 else 0) else rg s ECX.
Definition place_at (t : bool) (s : st) : Z := arg s (if t && negb gcc then 1 else 0).
Definition head (t : bool) : Z := (if t then 4 else 0) + (if in_mem rk then 4 else 0).
Definition popped (t : bool) (n : Z) : Z := if t then if gcc && in_mem rk then 4 else 0 else n.
Definition this0 : Z := obj_at on_stack s0.
Definition target0 : Z := place_at on_stack s0.
Definition base0 : Z := rg s0 ESP + 4 + head on_stack.
Definition pops : Z := popped on_stack (head on_stack + total ps).
(** the stack the function may use besides its incoming parameters *)
Definition depth : Z := 8192 + total ps + 4 * Z.of_nat (rsize rk).
Definition areas : list (Z * Z) :=
  [(a_orig v, 4); (a_status v, 4); (a_prev v, 4); (a_cur v, 4)]
  ++ match rk with RVoid => [] | _ => [(a_oret v, Z.of_nat (rsize rk)); (a_over v, Z.of_nat (rsize rk))] end
  ++ (if vafmt then [(a_buf v, buf_len)] else []).
Definition inside (a : Z * Z) (x : Z) : Prop := fst a <= x < fst a + snd a.
Definition shared (x : Z) : Prop := Exists (fun a => inside a x) areas.
(** the bytes that only the function itself may use *)
Definition own (x : Z) : Prop := rg s0 ESP - depth <= x < base0 + total ps /\ ~ shared x.
(** the variables are different and on the function's stack *)
Definition plug : Z * Z := (a_plug v, if in_mem rk then Z.of_nat (rsize rk) else 0).
Definition separate : Prop :=
  ForallOrdPairs (fun a b => fst a + snd a <= fst b \/ fst b + snd b <= fst a) areas /\
  Forall (fun a => rg s0 ESP - depth <= fst a /\ fst a + snd a <= rg s0 ESP) areas /\
  (in_mem rk = true -> (rg s0 ESP - depth <= fst plug /\ fst plug + snd plug <= rg s0 ESP) /\
     Forall (fun a => fst plug + snd plug <= fst a \/ fst a + snd a <= fst plug) areas).
Definition agree (m m' : Z -> Z) : Prop := forall x, 0 <= x < W32 -> ~ own x -> m' x = m x.

(** ** Calls *)
(** [c_args]: bytes of arguments on the stack; [c_pop]: how many of them the called function takes off; [c_align]: alignment
    of the stack at the call; [c_float]: it leaves a number on the x87 stack *)
Record csig := CSig { c_args : Z; c_pop : Z; c_align : Z; c_float : bool }.
(** the called function finds the memory [m0] but for bytes the caller owns; [P] holds of such a memory *)
Definition entered (sg : csig) (m0 : Z -> Z) (P : (Z -> Z) -> event -> Prop) (e : event) : Prop :=
  fp (e_in e) = [] /\ (rg (e_in e) ESP + 4) mod c_align sg = 0 /\
  rg s0 ESP - depth <= rg (e_in e) ESP /\ rg (e_in e) ESP + 4 + c_args sg <= low /\
  exists m, agree m0 m /\ agree m (mm (e_in e)) /\ P m e.
(** it returns as the conventions say and does not touch the bytes the caller keeps for itself, but for those of [obj],
    an object of the caller that it is called for *)
Definition returned_but (obj : Z * Z) (sg : csig) (e : event) : Prop :=
  rg (e_out e) ESP = rg (e_in e) ESP + 4 + c_pop sg /\
  List.length (fp (e_out e)) = (if c_float sg then 1%nat else 0%nat) /\
  saved (e_in e) (e_out e) /\
  (forall x, own x -> low <= x -> ~ inside obj x -> mm (e_out e) x = mm (e_in e) x).
(** if something is not as the function may expect, nothing more is said about the run *)
Definition guard (P : Prop) (K : sys) : sys := fun tr s o => P /\ K tr s o \/ ~ P /\ tr = [] /\ o = Broken.
Definition call_but (obj : Z * Z) (sg : csig) (m0 : Z -> Z) (P : (Z -> Z) -> event -> Prop) (K : event -> sys) : sys := fun tr s o =>
  exists e tr', tr = e :: tr' /\ entered sg m0 P e /\ guard (returned_but obj sg e) (K e) tr' s o.
Definition nothing : Z * Z := (0, 0).
Definition call : csig -> (Z -> Z) -> ((Z -> Z) -> event -> Prop) -> (event -> sys) -> sys := call_but nothing.

Definition eax (e : event) : Z := rg (e_out e) EAX.
Definition after (e : event) : Z -> Z := mm (e_out e).
(** the result of a function that returns like the hooked function and gets [a] as the address for a result in memory *)
Definition result (a : Z) (e : event) : Z :=
  match rk with
  | RVoid => 0
  | RInt n => (rg (e_out e) EAX + W32 * rg (e_out e) EDX) mod 256 ^ Z.of_nat n
  | RFloat n => fstore u n (hd 0 (fp (e_out e)))
  | RMem n => ld (after e) a n
  end.
Definition res_float : bool := match rk with RFloat _ => true | _ => false end.
Definition status (m : Z -> Z) : Z := ld4 m (a_status v).
Definition cur (m : Z -> Z) : Z := ld4 m (a_cur v).

(** a virtual function without further arguments on the object [o]; [al] as above *)
Definition virt (o i : Z) (m : Z -> Z) (e : event) : Prop :=
  e_target e = ld4 m (w32 (ld4 m o + 4 * i)) /\ this gcc (e_in e) = o.
Definition virt_sig : csig := CSig (if gcc then 4 else 0) 0 4 false.
(** parameters at [a] in [m] are passed on to [b] in [m'].  A floating point number goes through the x87 unit *)
Fixpoint copied (l : list pkind) (m : Z -> Z) (a : Z) (m' : Z -> Z) (b : Z) : Prop :=
  match l with
  | [] => True
  | p :: l =>
      (if pk_float p then ld m' b (pk_size p) = quiet (pk_size p) (ld m a (pk_size p))
       else forall j, 0 <= j < Z.of_nat (pk_size p) -> m' (b + j) = m (a + j)) /\
      copied l m (a + slot p) m' (b + slot p)
  end.
(** the parameters of the hooked function are passed on, behind [n] bytes of other arguments *)
Definition params (e : event) (n : Z) : Prop := copied ps (mm s0) base0 (mm (e_in e)) (rg (e_in e) ESP + 4 + n).
(** the [k]-th slot behind them *)
Definition further (e : event) (n : Z) (k : Z) : Z := ld4 (mm (e_in e)) (rg (e_in e) ESP + 4 + n + total ps + 4 * k).

(** ** The handlers *)
Definition handler_args : Z := head gcc + total ps + (if vafmt then 4 else 0).
Definition handler_sig : csig := CSig handler_args (popped gcc handler_args) 16 res_float.
Definition handler (o : Z) (m : Z -> Z) (e : event) : Prop :=
  e_target e = ld4 m (w32 (ld4 m o + 4 * x_call)) /\ obj_at gcc (e_in e) = o /\ (in_mem rk = true -> place_at gcc (e_in e) = a_plug v) /\
  params e (head gcc) /\ (vafmt = true -> further e (head gcc) 0 = a_buf v).
Definition before_handler (m : Z -> Z) : Z -> Z := st4 m (a_cur v) IGNORED.
Definition after_handler (m : Z -> Z) : Z -> Z :=
  let m := st4 m (a_prev v) (cur m) in if s32 (status m) <? s32 (cur m) then st4 m (a_status v) (cur m) else m.
(** a place for a result, not among the function's own bytes *)
Definition place (p : Z) : Prop :=
  0 <= p /\ p + Z.of_nat (rsize rk) < W32 /\ forall x, p <= x < p + Z.of_nat (rsize rk) -> ~ own x.
Definition overrides (m : Z -> Z) : bool := match rk with RVoid => false | _ => OVERRIDE <=? s32 (cur m) end.
Fixpoint hooks (L : nat) (ctx : Z) (m : Z -> Z) (K : (Z -> Z) -> sys) : sys :=
  match L with
  | O => fun tr s o => tr = [] /\ o = Cut
  | S L =>
      call virt_sig m (virt ctx x_next) (fun e =>
        if eax e =? 0 then K (after e)
        else call_but plug handler_sig (before_handler (after e)) (handler (eax e)) (fun f =>
          let m := after_handler (after f) in
          if overrides (after f) then
            call virt_sig m (virt ctx x_over) (fun g =>
              guard (place (eax g)) (hooks L ctx (sto (after g) (eax g) (rsize rk) (result (a_plug v) f)) K))
          else hooks L ctx m K))
  end.

(** ** The original function *)
Definition take_override (m : Z -> Z) : Z -> Z := sto m (a_oret v) (rsize rk) (ld m (a_over v) (rsize rk)).
Definition orig_args : Z := head on_stack + total ps + (if vafmt then 8 else 0).
Definition orig_sig : csig := CSig orig_args (popped on_stack orig_args) 16 res_float.
Definition original (m : Z -> Z) (e : event) : Prop :=
  let n := head on_stack in
  e_target e = ld4 m (a_orig v) /\ obj_at on_stack (e_in e) = this0 /\ (in_mem rk = true -> place_at on_stack (e_in e) = a_oret v) /\
  params e n /\ (vafmt = true -> further e n 0 = w32 (c_fmt h) /\ further e n 1 = a_buf v).
Definition orig (ctx : Z) (m : Z -> Z) (K : (Z -> Z) -> sys) : sys :=
  if status m =? SUPERCEDE then K (take_override m)
  else call virt_sig m (virt ctx x_should) (fun e =>
    if eax e mod 256 =? 0 then K (take_override (after e))
    else call orig_sig (after e) original (fun f => K (sto (after f) (a_oret v) (rsize rk) (result (a_oret v) f)))).

(** ** The beginning *)
Definition format_sig : csig := CSig 16 0 16 false.
Definition format (m : Z -> Z) (e : event) : Prop :=
  e_target e = w32 (c_vsn h) /\ arg (e_in e) 0 = a_buf v /\ arg (e_in e) 1 = buf_len - 1 /\
  arg (e_in e) 2 = ld4 m (base0 + total ps) /\ arg (e_in e) 3 = base0 + total ps + 4.
Definition begin (m : Z -> Z) (K : (Z -> Z) -> sys) : sys :=
  let m := st4 m (a_status v) IGNORED in
  if vafmt then call format_sig m format (fun e => K (sto (after e) (a_buf v + (buf_len - 1)) 1 0)) else K m.
Definition setup_sig : csig := CSig (if gcc then 40 else 36) (if gcc then 0 else 36) 4 false.
Definition setup (m : Z -> Z) (e : event) : Prop :=
  let i := e_in e in
  e_target e = w32 (c_setup h) /\ this gcc i = w32 (c_sh h) /\ marg gcc i 0 = ld4 m (w32 (c_phi h)) /\
  marg gcc i 1 = w32 (ld4 m (w32 (this0 + c_offs h)) + 4 * c_idx h) /\ marg gcc i 2 = this0 /\
  marg gcc i 3 = a_orig v /\ marg gcc i 4 = a_status v /\ marg gcc i 5 = a_prev v /\ marg gcc i 6 = a_cur v /\
  match rk with
  | RVoid => marg gcc i 7 = 0 /\ marg gcc i 8 = 0
  | _ => marg gcc i 7 = a_oret v /\ marg gcc i 8 = a_over v
  end.

(** ** The end *)
Definition ret_ptr (ctx : Z) (m : Z -> Z) (K : Z -> (Z -> Z) -> sys) : sys :=
  match rk with
  | RVoid => K 0 m
  | _ => call virt_sig m (virt ctx (if OVERRIDE <=? s32 (status m) then x_over else x_orig)) (fun e => K (eax e) (after e))
  end.
Definition end_sig : csig := CSig (if gcc then 8 else 4) (if gcc then 0 else 4) 4 false.
Definition end_context (ctx : Z) (m : Z -> Z) (e : event) : Prop :=
  e_target e = w32 (c_end h) /\ this gcc (e_in e) = w32 (c_sh h) /\ marg gcc (e_in e) 0 = ctx.
(** the function destroys the objects among its parameters; a destructor may change its object *)
Definition dtor_sig : csig := CSig (if gcc then 4 else 0) 0 16 false.
Fixpoint destroy (l : list pkind) (a : Z) (m : Z -> Z) (K : (Z -> Z) -> sys) : sys :=
  match l with
  | [] => K m
  | p :: l =>
      match pk_dtor p with
      | None => destroy l (a + slot p) m K
      | Some f => call_but (a, slot p) dtor_sig m (fun _ e => e_target e = w32 f /\ this gcc (e_in e) = a) (fun e => destroy l (a + slot p) (after e) K)
      end
  end.
(** the caller gets the bytes at [p], in registers or at the address it has given; in the second case they may not
    overlap that address or the function's own bytes *)
Definition gets (s : st) (p : Z) : Prop :=
  match rk with
  | RVoid => fp s = []
  | RInt n => fp s = [] /\ (rg s EAX + W32 * rg s EDX) mod 256 ^ Z.of_nat n = ld (mm s) p n
  | RFloat n => fp s = [fload u n (ld (mm s) p n)]
  | RMem _ => fp s = [] /\ rg s EAX = target0
  end.
Definition delivered (p : Z) (m : Z -> Z) : Z -> Z := match rk with RMem n => sto m target0 n (ld m p n) | _ => m end.
Definition source (p : Z) : Prop :=
  match rk with RMem n => place p /\ (p + Z.of_nat n <= target0 \/ target0 + Z.of_nat n <= p) | _ => True end.
(** the address given by the caller is not in the part of the stack used here *)
Definition target_ok : Prop :=
  match rk with
  | RMem n => target0 + Z.of_nat n < W32 /\ (target0 + Z.of_nat n <= rg s0 ESP - depth \/ base0 + total ps <= target0)
  | _ => True
  end.
Definition finished (p : Z) (m : Z -> Z) : sys := guard (source p) (fun tr s o =>
  tr = [] /\ o = Done /\ fin s /\ agree (delivered p m) (mm s) /\ gets s p /\
  rg s ESP = rg s0 ESP /\ saved s0 s /\ ld4 (mm s) (rg s0 ESP) = ld4 (mm s0) (rg s0 ESP)).

(** A run in which each of the two loops calls at most [L] handlers (or is cut) *)
Definition protocol (L : nat) : sys :=
  begin (mm s0) (fun m =>
  call setup_sig m setup (fun e =>
  let ctx := eax e in
  hooks L ctx (st4 (after e) (a_prev v) IGNORED) (fun m =>
  orig ctx m (fun m =>
  hooks L ctx (st4 m (a_prev v) IGNORED) (fun m =>
  ret_ptr ctx m (fun p m =>
  call end_sig m (end_context ctx) (fun e =>
  destroy ps base0 (after e) (finished p)))))))).
End Protocol.
