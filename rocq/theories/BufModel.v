(** Model of GenBuffer (core/sourcehook/sh_asm.h) on the machine of PageModel; several
    buffers share one page allocator, as the two buffers of GenContext do
    (sourcehook_hookmangen_x86_64.cpp). *)
From Coq Require Import List ZArith Bool.
From Verif Require Import ListModel PageModel TrampModel.
Import ListNotations.
Local Open Scope Z_scope.

Definition u32 (x : Z) : Z := x mod 2 ^ 32.

(** sh_asm.h:12-15; [g_data = 0]: NULL *)
Record gbuf := GB { g_data : Z; g_size : Z; g_alloc : Z }.
(** the constructor (sh_asm.h:17-19) *)
Definition gempty : gbuf := GB 0 0 0.

(** reading [n] bytes; a fault if one of them is not mapped *)
Definition readable (m : mach) (a : Z) : bool := existsb (inside a) (maps m).
Fixpoint load_list (m : mach) (a : Z) (n : nat) : option (list Z) :=
  match n with
  | O => Some []
  | S n => if readable m a then do l <- load_list m (a + 1) n; Some (bytes m a :: l) else None
  end.
Definition memcpy (m : mach) (dst src n : Z) : option mach := do l <- load_list m src (Z.to_nat n); store_list m dst l.

(** the size which is asked for (sh_asm.h:43-45) *)
Definition grow (alloc newsize : Z) : Z :=
  let a := if newsize >? u32 (alloc * 2) then newsize else u32 (alloc * 2) in
  if a <? 64 then 64 else a.

Definition set_pa (m : mach) (pa : palloc) (p : Z) (re : bool) : mach * palloc :=
  let '(m, rs) := set_in m (p_regs pa) p re in (m, PA (p_align pa) (p_page pa) rs).
Definition free_pa (m : mach) (pa : palloc) (p : Z) : option (mach * palloc) :=
  do (m, rs) <- free_in m (p_regs pa) p; Some (m, PA (p_align pa) (p_page pa) rs).

(** push (sh_asm.h:38-67); [ans]: the answer of the system if it is asked for memory.
    SH_ASSERT does nothing in release builds. *)
Definition push (m : mach) (pa : palloc) (b : gbuf) (data : list Z) (ans : Z) : option (mach * palloc * gbuf) :=
  let newsize := u32 (g_size b + Z.of_nat (length data)) in
  if newsize >? g_alloc b then
    let n := grow (g_alloc b) newsize in
    let '(m, pa, nb) := alloc_priv m pa n false ans in
    let '(m, pa) := set_pa m pa nb false in
    if nb =? 0 then Some (m, pa, GB (g_data b) (g_size b) n)
    else
      do m <- store_list m nb (repeat 204 (Z.to_nat n));
      do m <- memcpy m nb (g_data b) (g_size b);
      do (m, pa) <- (if negb (g_data b =? 0) then
                       let '(m, pa) := set_pa m pa (g_data b) true in
                       let '(m, pa) := set_pa m pa nb false in
                       free_pa m pa (g_data b)
                     else Some (m, pa));
      do m <- store_list m (nb + g_size b) data;
      Some (m, pa, GB nb newsize n)
  else
    do m <- store_list m (g_data b + g_size b) data;
    Some (m, pa, GB (g_data b) newsize (g_alloc b)).

(** rewrite (sh_asm.h:74-79) *)
Definition rewrite_at (m : mach) (b : gbuf) (off : Z) (data : list Z) : option mach := store_list m (g_data b + off) data.
(** clear (sh_asm.h:81-88) *)
Definition clear (m : mach) (pa : palloc) (b : gbuf) : option (mach * palloc * gbuf) :=
  do (m, pa) <- (if negb (g_data b =? 0) then free_pa m pa (g_data b) else Some (m, pa)); Some (m, pa, gempty).
(** SetRE (sh_asm.h:90-93) *)
Definition set_re (m : mach) (pa : palloc) (b : gbuf) : mach * palloc := set_pa m pa (g_data b) true.

(** What is written: raw bytes, or a number of [k] bytes (write_ubyte .. write_int64, sh_asm.h:100-110) *)
Inductive payload := Raw (l : list Z) | Num (k : nat) (x : Z).
Definition payload_bytes (p : payload) : list Z := match p with Raw l => l | Num k x => le k x end.

(** Calls on the buffers, numbered *)
Inductive bop :=
| BPush (i : nat) (p : payload) (ans : Z)
| BRewrite (i : nat) (off : Z) (p : payload)
| BClear (i : nat)
| BSetRE (i : nat).

Fixpoint lset {A} (l : list A) (i : nat) (x : A) : list A :=
  match l, i with [], _ => [] | _ :: l, O => x :: l | a :: l, S i => a :: lset l i x end.
Definition bstep (m : mach) (pa : palloc) (bs : list gbuf) (o : bop) : option (mach * palloc * list gbuf) :=
  match o with
  | BPush i p ans => do b <- nth_error bs i; do (m, pa, b) <- push m pa b (payload_bytes p) ans; Some (m, pa, lset bs i b)
  | BRewrite i off p => do b <- nth_error bs i; do m <- rewrite_at m b off (payload_bytes p); Some (m, pa, bs)
  | BClear i => do b <- nth_error bs i; do (m, pa, b) <- clear m pa b; Some (m, pa, lset bs i b)
  | BSetRE i => do b <- nth_error bs i; let '(m, pa) := set_re m pa b in Some (m, pa, bs)
  end.
