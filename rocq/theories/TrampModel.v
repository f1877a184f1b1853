(** Model of CVfnPtr::Init, GetOrigCallAddr and the clean-up task
    (core/sourcehook/sourcehook_impl_cvfnptr.cpp) for GCC on x86-64, on the machine of
    PageModel. *)
From Coq Require Import List ZArith Bool.
From Verif Require Import ListModel PageModel.
Import ListNotations.
Local Open Scope Z_scope.

(** little-endian bytes *)
Fixpoint le (n : nat) (x : Z) : list Z :=
  match n with O => [] | S n => x mod 256 :: le n (x / 256) end.
(** two's complement *)
Definition signed (bits x : Z) : Z := if x mod 2 ^ bits <? 2 ^ (bits - 1) then x mod 2 ^ bits else x mod 2 ^ bits - 2 ^ bits.

(** the bytes written (sourcehook_impl_cvfnptr.cpp:55-80) for a thunk at [t] *)
Definition thunk_bytes (t orig : Z) : list Z :=
  let offset := signed 64 (orig - t - 5) in
  if (offset >=? - 2 ^ 31) && (offset <=? 2 ^ 31 - 1)
  then 233 :: le 8 offset
  else [72; 184] ++ le 8 orig ++ [255; 224].

(** CVfnPtr::Init (sourcehook_impl_cvfnptr.cpp:30-86) with m_OrigEntry = [orig]; the
    result is m_OrigCallThunk (0: NULL).  [ans]: the answer of mmap, if asked.
    A NULL from Alloc is not checked: the bytes go to address 0. *)
Definition init (m : mach) (pa : palloc) (orig ans : Z) : option (mach * palloc * Z) :=
  if Z.odd orig then
    let '(m, pa, t) := alloc_priv m pa 12 false ans in
    let '(m, rs) := set_in m (p_regs pa) t false in
    do m <- store_list m t (thunk_bytes t orig);
    let '(m, rs) := set_in m rs t true in
    Some (m, PA (p_align pa) (p_page pa) rs, t)
  else Some (m, pa, 0).

(** GetOrigCallAddr (sourcehook_impl_cvfnptr.cpp:120-130) *)
Definition orig_call_addr (thunk orig : Z) : Z := if thunk =? 0 then orig else thunk.

(** CVfnPtrOrigThunkCleanup::CleanupAndDeleteThis (sourcehook_impl_cvfnptr.cpp:100-104) *)
Definition cleanup (m : mach) (pa : palloc) (thunk : Z) : option (mach * palloc) :=
  do (m, rs) <- free_in m (p_regs pa) thunk; Some (m, PA (p_align pa) (p_page pa) rs).
