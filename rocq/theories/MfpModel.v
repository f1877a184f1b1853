(** Member function pointers (core/sourcehook/sh_memfuncinfo.h) and the vtable slots that the macros
    of sourcehook.h compute from them.  [PSIZE] is SH_PTRSIZE (4 or 8), [mem] the bytes of the
    process; pointers wrap around modulo 2^(8 PSIZE). *)
From Coq Require Import List ZArith Bool.
Import ListNotations.
Local Open Scope Z_scope.

Section Mfp.
Variable PSIZE : Z.
Variable mem : Z -> Z.

Definition wp (x : Z) : Z := x mod 2 ^ (8 * PSIZE).
Fixpoint ldb (a : Z) (n : nat) : Z := match n with O => 0 | S n => mem (wp a) + 256 * ldb (a + 1) n end.
(** the pointer stored at a *)
Definition ldp (a : Z) : Z := ldb a (Z.to_nat PSIZE).
(** conversion to int *)
Definition cint (x : Z) : Z := let y := x mod 2 ^ 32 in if y <? 2 ^ 31 then y else y - 2 ^ 32.

(** struct MemFuncInfo (35-42) *)
Record mfi := Mfi { isVirtual : bool; thisptroffs : Z; vtblindex : Z; vtbloffs : Z }.
(** MemFuncInfo mfi = {true, -1, 0, 0}; a static one is zero *)
Definition mfi_init : mfi := Mfi true (-1) 0 0.
Definition mfi_static : mfi := Mfi false 0 0 0.

(** *** GCC: MFI_Impl<2*SH_PTRSIZE> (57-81).  [ptr], [adj] are the two words as unsigned numbers;
    the division is unsigned because SH_PTRSIZE is a size_t. *)
Record gmfp := Gmfp { g_ptr : Z; g_adj : Z }.
Definition gcc_info (m : gmfp) (out : mfi) : mfi :=
  if Z.odd (g_ptr m)
  then Mfi true (cint (g_adj m)) (cint (wp (g_ptr m - 1) / PSIZE)) 0
  else Mfi false (cint (g_adj m)) (vtblindex out) (vtbloffs out).

(** *** MSVC: MFI_GetVtblOffset (87-152); [unsigned long] has 32 bits, the sum with 5 too *)
Definition b (a : Z) : Z := mem (wp a).
Definition jump_followed (a : Z) : Z :=
  if b a =? 233 then wp (a + (5 + ldb (a + 1) 4) mod 2 ^ 32) else a.
Definition vtbl_offset (a0 : Z) : Z :=
  let a := jump_followed a0 in
  let after :=
    if (b a =? 139) && (b (a + 1) =? 68) && (b (a + 2) =? 36) && (b (a + 3) =? 4) && (b (a + 4) =? 139) && (b (a + 5) =? 0)
    then Some (a + 6)
    else if (b a =? 139) && (b (a + 1) =? 1) then Some (a + 2)
    else if (b a =? 72) && (b (a + 1) =? 139) && (b (a + 2) =? 1) then Some (a + 3)
    else None in
  match after with
  | None => -1
  | Some a =>
      if b a =? 255 then
        if b (a + 1) =? 96 then b (a + 2) / PSIZE
        else if b (a + 1) =? 160 then ldb (a + 2) 4 / PSIZE
        else if b (a + 1) =? 32 then 0
        else -1
      else -1
  end.
(** A pointer to member of an MSVC class: the code pointer and the ints behind it (none, delta,
    delta and vbtable index, or delta, vbptr offset and vbtable index, according to the
    inheritance of the class); its size is rounded up to the alignment of pointers. *)
Record mmfp := Mmfp { m_code : Z; m_ints : list Z }.
Definition m_words (m : mmfp) : Z := (PSIZE + 4 * Z.of_nat (List.length (m_ints m)) + (PSIZE - 1)) / PSIZE.
(** MFI_Impl<N*SH_PTRSIZE> (155-284), chosen by sizeof (293); [None]: does not compile (the
    second word of the first struct and the ints of the last one are read at the places the
    structs of the header say) *)
Definition msvc_info (m : mmfp) (out : mfi) : option mfi :=
  let ix := vtbl_offset (m_code m) in
  let virt := 0 <=? ix in
  let int_at n := nth n (m_ints m) 0 in
  if m_words m =? 1 then Some (Mfi virt 0 ix 0)
  else if m_words m =? 2 then Some (Mfi virt (int_at 0%nat) ix 0)
  else if m_words m =? 3 then Some (Mfi virt (-1) ix 0)
  else if m_words m =? 4 then
    if negb (int_at 2%nat =? 0) then Some (Mfi virt (-1) ix (int_at 1%nat))
    else Some (Mfi virt (int_at 0%nat) ix (if ix <? 0 then 0 else int_at 0%nat))
  else None.

(** *** sourcehook.h: what the macros do with the information *)
(** HookManPubFunc (797-816) fills the static ms_MFI from the same function pointer and passes
    vtbloffs and vtblindex on; __SourceHook_FHAdd (834-847) refuses some; AddHook (sourcehook.cpp
    102-145), mode Hook_Normal: the adjusted interface pointer and the slot *)
Definition add_hook_slot (own static_info : mfi) (iface : Z) : option (Z * Z) :=
  if (thisptroffs own <? 0) || negb (isVirtual own) then None
  else
    let adjusted := wp (iface + thisptroffs own) in
    let vt := ldp (wp (adjusted + vtbloffs static_info)) in
    Some (adjusted, wp (vt + vtblindex static_info * PSIZE)).
(** the hook function, called with [this]: ourvfnptr (940-941) *)
Definition our_vfnptr (static_info : mfi) (this : Z) : Z :=
  wp (ldp (wp (this + vtbloffs static_info)) + vtblindex static_info * PSIZE).
(** META_IFACEPTR: the this pointer minus the offset of the hook (sourcehook.cpp:750, 775) *)
Definition iface_ptr (own : mfi) (this : Z) : Z := wp (this - thisptroffs own).
(** SH_CALL (SH__CALL_GET_VFNPTR_NORMAL, 4806-4811) and SH_GET_ORIG_VFNPTR_ENTRY (559-572): the slot
    whose hooks are ignored, or whose original entry is asked for *)
Definition call_slot (own : mfi) (ptr : Z) : Z :=
  wp (ldp (wp (ptr + thisptroffs own + vtbloffs own)) + vtblindex own * PSIZE).

(** *** Manual hooks *)
(** __SourceHook_FHMAdd (901-907): [declared] is the pthisptroffs of SH_DECL_MANUALHOOK, [cur] the
    ms_MFI that SH_MANUALHOOK_RECONFIGURE may have changed (929-935) *)
Definition manual_add_slot (declared : Z) (cur : mfi) (iface : Z) : Z * Z :=
  let adjusted := wp (iface + declared) in
  (adjusted, wp (ldp (wp (adjusted + vtbloffs cur)) + vtblindex cur * PSIZE)).
(** SH_MCALL (918-928): the slot whose hooks are ignored, the function called and its this pointer
    (the member function pointer made of the entry has adjustment 0) *)
Definition manual_call (cur : mfi) (ptr : Z) : Z * Z * Z :=
  let slot := wp (ldp (wp (ptr + thisptroffs cur + vtbloffs cur)) + vtblindex cur * PSIZE) in
  (slot, ldp slot, ptr).
(** RETURN_META_MNEWPARAMS (650-684): [thisptr] is META_IFACEPTR; the function called and its this *)
Definition manual_recall (cur : mfi) (thisptr : Z) : Z * Z :=
  (ldp (wp (ldp (wp (thisptr + vtbloffs cur)) + vtblindex cur * PSIZE)), thisptr).

(** SH_SETUP_MFP for GCC (784-786): a member function pointer to the original entry *)
Definition setup_mfp (origentry : Z) : gmfp := Gmfp origentry 0.
End Mfp.
