(** How a call through a member function pointer finds its function: the Itanium C++ ABI (2.3) for
    GCC, the pointer-to-member layouts of the Microsoft ABI and the execution of the code they
    point to. *)
From Coq Require Import List ZArith Bool.
From Verif Require Import Asm32Spec Asm64Spec MfpModel.
Import ListNotations.
Local Open Scope Z_scope.

(** ** Itanium ABI: adj is added to this; if ptr is odd, ptr - 1 is the offset of the entry in the
    vtable that this points to, else ptr is the function.  Result: where the function's address is
    read from (if from memory), the function, and the this pointer it gets. *)
Inductive target := Slot (slot : Z) | Direct (f : Z).
Definition abi_call (PSIZE : Z) (mem : Z -> Z) (m : gmfp) (obj : Z) : target * Z :=
  let this := (obj + g_adj m) mod 2 ^ (8 * PSIZE) in
  if g_ptr m mod 2 =? 1
  then (Slot ((ldb PSIZE mem this (Z.to_nat PSIZE) + (g_ptr m - 1)) mod 2 ^ (8 * PSIZE)), this)
  else (Direct (g_ptr m), this).
(** The pointer a compiler makes for the n-th virtual function of the (sub)object at [delta] *)
Definition abi_virtual (PSIZE n delta : Z) : gmfp := Gmfp (1 + n * PSIZE) delta.

(** ** Running code that only loads (or decrements) registers and jumps, until it jumps through memory: the place
    the address is read from, and the registers *)
Definition setr (f : Z -> Z) (k v : Z) : Z -> Z := fun x => if x =? k then v else f x.
Fixpoint code_at (PSIZE : Z) (mem : Z -> Z) (a : Z) (n : nat) : list Z :=
  match n with O => [] | S n => mem (a mod 2 ^ (8 * PSIZE)) :: code_at PSIZE mem (a + 1) n end.
(** instructions have at most 15 bytes *)
Definition window : nat := 15.

Definition ea32 (rg : Z -> Z) (o : Asm32Spec.operand) : option Z :=
  match o with
  | Asm32Spec.OMem bs ix d =>
      Some (((match bs with Some r => rg r | None => 0 end) + (match ix with Some (r, k) => rg r * k | None => 0 end) + d) mod 2 ^ 32)
  | Asm32Spec.OReg _ => None
  end.
Fixpoint run32 (mem : Z -> Z) (fuel : nat) (pc : Z) (rg : Z -> Z) : option (Z * (Z -> Z)) :=
  match fuel with
  | O => None
  | S fuel =>
      match Asm32Spec.decode (code_at 4 mem pc window) with
      | Some (i, rest) =>
          let next := pc + Z.of_nat (window - List.length rest) in
          match i with
          | Asm32Spec.IMov (Asm32Spec.OReg r) o =>
              match ea32 rg o with Some a => run32 mem fuel next (setr rg r (ldb 4 mem a 4)) | None => None end
          | Asm32Spec.IDec (Asm32Spec.OReg r) => run32 mem fuel next (setr rg r ((rg r - 1) mod 2 ^ 32))
          | Asm32Spec.IJmp d => run32 mem fuel ((next + d) mod 2 ^ 32) rg
          | Asm32Spec.IJmpInd o => match ea32 rg o with Some a => Some (a, rg) | None => None end
          | _ => None
          end
      | None => None
      end
  end.

Definition ea64 (rg : Z -> Z) (o : Asm64Spec.operand) : option Z :=
  match o with
  | Asm64Spec.OMem bs ix d =>
      Some (((match bs with Some r => rg r | None => 0 end) + (match ix with Some (r, k) => rg r * k | None => 0 end) + d) mod 2 ^ 64)
  | _ => None
  end.
Fixpoint run64 (mem : Z -> Z) (fuel : nat) (pc : Z) (rg : Z -> Z) : option (Z * (Z -> Z)) :=
  match fuel with
  | O => None
  | S fuel =>
      match Asm64Spec.decode (code_at 8 mem pc window) with
      | Some (i, rest) =>
          let next := pc + Z.of_nat (window - List.length rest) in
          match i with
          | Asm64Spec.IMov true (Asm64Spec.OReg r) o =>
              match ea64 rg o with Some a => run64 mem fuel next (setr rg r (ldb 8 mem a 8)) | None => None end
          | Asm64Spec.IJmp d => run64 mem fuel ((next + d) mod 2 ^ 64) rg
          | Asm64Spec.IJmpInd o => match ea64 rg o with Some a => Some (a, rg) | None => None end
          | _ => None
          end
      | None => None
      end
  end.

(** this is in ECX (RCX), or the first argument on the stack for functions with variable arguments *)
Definition passes32 (mem : Z -> Z) (varargs : bool) (rg : Z -> Z) (this : Z) : Prop :=
  if varargs then ldb 4 mem ((rg 4 + 4) mod 2 ^ 32) 4 = this else rg 1 = this.
(** Calling the code at [a] for [this] ends in the function whose address is in [slot] *)
Definition calls_slot32 (mem : Z -> Z) (a : Z) (varargs : bool) (this slot : Z) : Prop :=
  forall rg, passes32 mem varargs rg this -> exists n rg', run32 mem n a rg = Some (slot, rg') /\ forall r, r <> 0 -> rg' r = rg r.
Definition calls_slot64 (mem : Z -> Z) (a : Z) (this slot : Z) : Prop :=
  forall rg, rg 1 = this -> exists n rg', run64 mem n a rg = Some (slot, rg') /\ forall r, r <> 0 -> rg' r = rg r.

(** The thunks the compiler makes for the n-th virtual function (comments in sh_memfuncinfo.h 97-114) *)
Fixpoint bytes_le (n : nat) (v : Z) : list Z := match n with O => [] | S n => (v mod 256) :: bytes_le n (v / 256) end.
Definition jmp_thunk (d : Z) : list Z :=
  if d =? 0 then [255; 32] else if d <? 128 then [255; 96; d] else [255; 160] ++ bytes_le 4 d.
Definition thunk32 (varargs : bool) (n : Z) : list Z :=
  (if varargs then [139; 68; 36; 4; 139; 0] else [139; 1]) ++ jmp_thunk (4 * n).
Definition thunk64 (n : Z) : list Z := [72; 139; 1] ++ jmp_thunk (8 * n).
(** [l] is in memory at [a] *)
Definition in_mem (PSIZE : Z) (mem : Z -> Z) (a : Z) (l : list Z) : Prop :=
  forall i x, nth_error l i = Some x -> mem ((a + Z.of_nat i) mod 2 ^ (8 * PSIZE)) = x.
(** the code pointer points to the thunk, or to a jump to it (incremental linking) *)
Definition leads_to (PSIZE : Z) (mem : Z -> Z) (code a : Z) : Prop :=
  code = a \/ exists d, - 2 ^ 31 <= d < 2 ^ 31 /\ in_mem PSIZE mem code (233 :: bytes_le 4 d) /\
              a = (code + 5 + d) mod 2 ^ (8 * PSIZE).

(** ** Microsoft ABI: the this pointer for the ints of the pointer; [vbptr] is the offset of the
    vbptr, which the compiler knows for classes with virtual inheritance *)
Definition int_at (PSIZE : Z) (mem : Z -> Z) (a : Z) : Z := Asm32Spec.sext 32 (ldb PSIZE mem a 4).
Definition vb_adjust (PSIZE : Z) (mem : Z -> Z) (this vbptr ix : Z) : Z :=
  if ix =? 0 then this
  else this + vbptr + int_at PSIZE mem (ldb PSIZE mem ((this + vbptr) mod 2 ^ (8 * PSIZE)) (Z.to_nat PSIZE) + ix).
Definition ms_this (PSIZE : Z) (mem : Z -> Z) (vbptr : Z) (ints : list Z) (obj : Z) : option Z :=
  option_map (fun x => x mod 2 ^ (8 * PSIZE))
  match ints with
  | [] => Some obj
  | [delta] => Some (obj + delta)
  | [delta; ix] => Some (vb_adjust PSIZE mem obj vbptr ix + delta)
  | [delta; vp; ix] => Some (vb_adjust PSIZE mem obj vp ix + delta)
  | _ => None
  end.

(** ** What users of the macros rely on: the slot that is patched by SH_ADD_HOOK, the one the hook
    function takes for its own, and the one whose hooks SH_CALL ignores are all [slot]; the hook is
    filed under [this], and handlers get [obj] back as META_IFACEPTR. *)
Definition macros_use (PSIZE : Z) (mem : Z -> Z) (own static_info : mfi) (obj this slot : Z) : Prop :=
  add_hook_slot PSIZE mem own static_info obj = Some (this, slot)
  /\ our_vfnptr PSIZE mem static_info this = slot
  /\ call_slot PSIZE mem own obj = slot
  /\ iface_ptr PSIZE own this = obj.
