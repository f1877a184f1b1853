(** What the generated functions have to do, in terms of the Win64 calling convention
    (Microsoft: "x64 calling convention"): integer arguments in rcx, rdx, r8, r9, floating point
    arguments in xmm0-xmm3, further arguments in 8-byte slots above the 32 bytes of home space; at
    the entry of a function rsp + 8 is a multiple of 16; rbx, rbp, rsi, rdi, rsp and r12-r15 keep
    their values. *)
From Coq Require Import List ZArith Bool.
From Verif Require Import Mach64.
Import ListNotations.
Local Open Scope Z_scope.

Definition nonvolatile : list Z := [RBX; RBP; RSI; RDI; 12; 13; 14; 15].
Definition saved (s s' : st) : Prop := forall r, In r nonvolatile -> rg s' r = rg s r.
(** registers hold 64 bits, memory holds bytes *)
Definition wf (s : st) : Prop := (forall r, 0 <= rg s r < W64) /\ (forall x, 0 <= xm s x < W64) /\ (forall x, 0 <= mm s x < 256).
(** the [k]-th argument at the entry of a function *)
Definition arg (s : st) (k : nat) : Z :=
  if (k <? 4)%nat then rg s (nth k [RCX; RDX; R8; R9] 0) else ld8 (mm s) (rg s RSP + 8 + 8 * Z.of_nat k).
(** ... if it is of a floating point type *)
Definition farg (s : st) (k : nat) : Z :=
  if (k <? 4)%nat then xm s (Z.of_nat k) else ld8 (mm s) (rg s RSP + 8 + 8 * Z.of_nat k).
Definition aligned (s : st) : Prop := (rg s RSP + 8) mod 16 = 0.

(** int parameters: the low half *)
Definition arg32 (s : st) (k : nat) : Z := w32 (arg s k).

(** ** The public function of a hook manager *)
(** void HookManPubFunc(bool store, IHookManagerInfo *hi):
    if (store) *m_pHI = hi; if (hi) hi->SetInfo(version, vtbloffs, vtblidx, proto, hookfunc_vfnptr); return 0 *)
Record pubinfo := PubInfo { p_phi : Z; p_setinfo : Z; p_version : Z; p_offs : Z; p_idx : Z; p_proto : Z; p_vfn : Z }.
Definition store_flag (s : st) : bool := Z.odd (arg s 0).
Definition pub_mem (p : pubinfo) (s : st) : Z -> Z := if store_flag s then st8 (mm s) (p_phi p) (arg s 1) else mm s.
(** memory is the same outside the [n] bytes below [hi] *)
Definition same_but (hi n : Z) (m m' : Z -> Z) : Prop := forall x, ~ (hi - n <= x < hi) -> m' x = m x.
Definition setinfo_call (p : pubinfo) (s : st) (e : event) : Prop :=
  let m := pub_mem p s in let hi := arg s 1 in
  e_target e = ld8 m (w64 (ld8 m hi + 8 * p_setinfo p)) /\
  aligned (e_in e) /\ arg (e_in e) 0 = hi /\ arg32 (e_in e) 1 = p_version p /\ arg32 (e_in e) 2 = w32 (p_offs p) /\
  arg32 (e_in e) 3 = w32 (p_idx p) /\ arg (e_in e) 4 = p_proto p /\ arg (e_in e) 5 = p_vfn p /\
  same_but (rg s RSP) 64 m (mm (e_in e)) /\ saved s (e_in e).
