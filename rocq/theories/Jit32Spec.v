(** What the generated functions have to do, in terms of the 32-bit calling conventions: arguments in
    4-byte slots above the return address; the object of a member function is the first argument (GCC)
    or in ecx (MSVC); a member function with a fixed number of parameters leaves them on the stack (GCC)
    or takes them off (MSVC); ebx, ebp, esi and edi keep their values. *)
From Coq Require Import List ZArith Bool.
From Verif Require Import Mach32.
Import ListNotations.
Local Open Scope Z_scope.

Definition nonvolatile : list Z := [EBX; EBP; ESI; EDI].
Definition saved (s s' : st) : Prop := forall r, In r nonvolatile -> rg s' r = rg s r.
(** registers hold 32 bits, memory holds bytes *)
Definition wf (s : st) : Prop := (forall r, 0 <= rg s r < W32) /\ (forall x, 0 <= mm s x < 256).
(** the [k]-th slot above the return address *)
Definition arg (s : st) (k : nat) : Z := ld4 (mm s) (w32 (rg s ESP + 4 + 4 * Z.of_nat k)).
(** the object and the [k]-th argument of a member function *)
Definition this (gcc : bool) (s : st) : Z := if gcc then arg s 0 else rg s ECX.
Definition marg (gcc : bool) (s : st) (k : nat) : Z := arg s (if gcc then S k else k).

(** ** The public function of a hook manager *)
(** int HookManPubFunc(bool store, IHookManagerInfo *hi):
    if (store) *m_pHI = hi; if (hi) hi->SetInfo(version, vtbloffs, vtblidx, proto, hookfunc_vfnptr); return 0.
    A bool is the low byte of its slot *)
Record pubinfo := PubInfo { p_phi : Z; p_version : Z; p_offs : Z; p_idx : Z; p_proto : Z; p_vfn : Z }.
Definition store_flag (s : st) : bool := negb (arg s 0 mod 256 =? 0).
Definition pub_mem (p : pubinfo) (s : st) : Z -> Z := if store_flag s then st4 (mm s) (w32 (p_phi p)) (arg s 1) else mm s.
(** memory is the same outside the [n] bytes below [hi] *)
Definition same_but (hi n : Z) (m m' : Z -> Z) : Prop := forall x, 0 <= x < W32 -> ~ (hi - n <= x < hi) -> m' x = m x.
(** SetInfo is entry 0 of the vtable *)
Definition setinfo_call (gcc : bool) (p : pubinfo) (s : st) (e : event) : Prop :=
  let m := pub_mem p s in let hi := arg s 1 in let i := e_in e in
  e_target e = ld4 m (ld4 m hi) /\ this gcc i = hi /\
  marg gcc i 0 = p_version p /\ marg gcc i 1 = w32 (p_offs p) /\ marg gcc i 2 = w32 (p_idx p) /\
  marg gcc i 3 = w32 (p_proto p) /\ marg gcc i 4 = w32 (p_vfn p) /\
  same_but (rg s ESP) 32 m (mm i) /\ rg i EBX = rg s EBX /\ rg i ESI = rg s ESI /\ rg i EDI = rg s EDI /\ fp i = fp s /\
  (if gcc then rg i ESP mod 16 = rg s ESP mod 16 else rg i ESP mod 4 = rg s ESP mod 4).
(** what SetInfo has to do to return: the registers, the stack pointer, and the 8 bytes above its
    arguments, where the caller's saved ebp and return address are *)
Definition setinfo_returns (gcc : bool) (s s' : st) : Prop :=
  wf s' /\ saved s s' /\ fp s' = fp s /\ rg s' ESP = w32 (rg s ESP + 4 + (if gcc then 0 else 20)) /\
  (forall x, rg s ESP + (if gcc then 28 else 24) <= x < rg s ESP + (if gcc then 36 else 32) -> mm s' x = mm s x).
