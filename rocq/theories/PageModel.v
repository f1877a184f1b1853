(** Model of the page allocator (core/sourcehook/sh_pagealloc.h) on a machine with
    mapped memory.

    The machine: a list of mappings (start, size, writable) and the bytes.  Writing
    outside of a writable mapping is a fault ([None]).  size_t and addresses are Z
    modulo 2^64.  The lists (AUList, ARList) are lists, see C26 for sh_list.h. *)
From Coq Require Import List ZArith Bool.
From Verif Require Import ListModel.
Import ListNotations.
Local Open Scope Z_scope.

Definition w (x : Z) : Z := x mod 2 ^ 64.

Record mapping := Map { m_start : Z; m_len : Z; m_w : bool }.
Record mach := Mach { maps : list mapping; bytes : Z -> Z }.

Definition inside (a : Z) (mp : mapping) : bool := (m_start mp <=? a) && (a <? m_start mp + m_len mp).
Definition writable (m : mach) (a : Z) : bool := existsb (fun mp => inside a mp && m_w mp) (maps m).
Definition upd (f : Z -> Z) (a v : Z) : Z -> Z := fun x => if x =? a then v else f x.
Definition store (m : mach) (a v : Z) : option mach :=
  if writable m a then Some (Mach (maps m) (upd (bytes m) a v)) else None.
Fixpoint store_list (m : mach) (a : Z) (l : list Z) : option mach :=
  match l with [] => Some m | v :: l => do m <- store m a v; store_list m (a + 1) l end.

(** mmap of [n] bytes, the answer of the system is [ans]; -1: failed *)
Definition map_failed : Z := 2 ^ 64 - 1.
Definition os_map (m : mach) (ans n : Z) : mach :=
  if (ans =? 0) || (ans =? map_failed) then m
  else Mach (maps m ++ [Map ans n true]) (fun a => if (ans <=? a) && (a <? ans + n) then 0 else bytes m a).
(** munmap, mprotect (SetMemAccess, sh_memory.h) of a whole mapping *)
Definition os_unmap (m : mach) (s : Z) : mach := Mach (filter (fun mp => negb (m_start mp =? s)) (maps m)) (bytes m).
Definition os_prot (m : mach) (s : Z) (wr : bool) : mach :=
  Mach (map (fun mp => if m_start mp =? s then Map s (m_len mp) wr else mp) (maps m)) (bytes m).

(** sh_pagealloc.h:36-49, 52-60 *)
Record au := AU { a_off : Z; a_len : Z }.
Record region := Reg { r_start : Z; r_size : Z; r_iso : bool; r_align : Z; r_units : list au; r_re : bool }.

(** bytes from x to the next aligned address: (align - x % align) % align *)
Definition pad (al x : Z) : Z := (al - x mod al) mod al.

(** CheckGap (sh_pagealloc.h:61-82); the result is (smallestgap_pos, smallestgap_size, outAlignBytes) *)
Definition check_gap (r : region) (gb ge req : Z) (best : Z * Z * Z) : Z * Z * Z :=
  let gapsize := w (ge - gb) in
  let al := pad (r_align r) (w (r_start r + gb)) in
  let needed := w (req + al) in
  let '(_, bsize, _) := best in
  if (gapsize >=? needed) && (gapsize <? bsize) then (gb, gapsize, al) else best.

(** the loop of TryAlloc (sh_pagealloc.h:96-102) *)
Fixpoint gap_loop (r : region) (req lastend : Z) (us : list au) (best : Z * Z * Z) : Z * Z * Z :=
  match us with
  | [] => check_gap r lastend (r_size r) req best
  | u :: us => gap_loop r req (w (a_off u + a_len u)) us (check_gap r lastend (a_off u) req best)
  end.

(** push_sorted (sh_list.h) with operator < of AllocationUnit (sh_pagealloc.h:45-48) *)
Fixpoint push_sorted (us : list au) (x : au) : list au :=
  match us with
  | [] => [x]
  | u :: us' => if a_off x <? a_off u then x :: us else u :: push_sorted us' x
  end.

Definition is_nil {A} (l : list A) : bool := match l with [] => true | _ => false end.
Definition with_units (r : region) (us : list au) : region := Reg (r_start r) (r_size r) (r_iso r) (r_align r) us (r_re r).
Definition with_re (r : region) (b : bool) : region := Reg (r_start r) (r_size r) (r_iso r) (r_align r) (r_units r) b.

(** TryAlloc (sh_pagealloc.h:84-114) *)
Definition try_alloc (r : region) (req : Z) : option (region * Z) :=
  if r_iso r && negb (is_nil (r_units r)) then None
  else
    let '(pos, _, al) := gap_loop r req 0 (r_units r) (w (r_size r + 1), w (r_size r + 1), 0) in
    if pos <? r_size r
    then Some (with_units r (push_sorted (r_units r) (AU pos (w (req + al)))), w (r_start r + pos + al))
    else None.

(** SetRE, SetRW of a region (sh_pagealloc.h:176-186) *)
Definition set_mode (m : mach) (r : region) (re : bool) : mach * region := (os_prot m (r_start r) (negb re), with_re r re).

(** DebugCleanMemory (sh_pagealloc.h:142-160) *)
Definition clean (m : mach) (r : region) (start n : Z) : option mach :=
  let m1 := if r_re r then os_prot m (r_start r) true else m in
  do m2 <- store_list m1 start (repeat 204 (Z.to_nat n));
  Some (if r_re r then os_prot m2 (r_start r) false else m2).

(** TryFree (sh_pagealloc.h:116-140) *)
Definition au_addr (r : region) (u : au) : Z :=
  let b := w (r_start r + a_off u) in w (b + pad (r_align r) b).
Fixpoint free_unit (m : mach) (r : region) (us : list au) (addr : Z) : option (mach * option (list au)) :=
  match us with
  | [] => Some (m, None)
  | u :: us =>
      if addr =? au_addr r u then do m <- clean m r (w (r_start r + a_off u)) (a_len u); Some (m, Some us)
      else do (m, o) <- free_unit m r us addr;
           Some (m, match o with Some l => Some (u :: l) | None => None end)
  end.
Definition contains (r : region) (addr : Z) : bool := (r_start r <=? addr) && (addr <? w (r_start r + r_size r)).
Definition try_free (m : mach) (r : region) (addr : Z) : option (mach * option region) :=
  if negb (contains r addr) then Some (m, None)
  else do (m, o) <- free_unit m r (r_units r) addr;
       Some (m, match o with Some us => Some (with_units r us) | None => None end).

(** sh_pagealloc.h:190-193 *)
Record palloc := PA { p_align : Z; p_page : Z; p_regs : list region }.

(** the size of a region (sh_pagealloc.h:204-206) *)
Definition region_size (page n : Z) : Z := let s := n - n mod page in if s <? n then w (s + page) else s.

(** AddRegion (sh_pagealloc.h:195-228) *)
Definition add_region (m : mach) (pa : palloc) (n : Z) (iso : bool) (ans : Z) : mach * palloc * bool :=
  let sz := region_size (p_page pa) n in
  let m := os_map m ans sz in
  if ans =? 0 then (m, pa, false)
  else let '(m, r) := set_mode m (Reg ans sz iso (p_align pa) [] false) false in
       (m, PA (p_align pa) (p_page pa) (p_regs pa ++ [r]), true).

Fixpoint alloc_in (rs : list region) (n : Z) : option (list region * Z) :=
  match rs with
  | [] => None
  | r :: rs =>
      match try_alloc r n with
      | Some (r', a) => Some (r' :: rs, a)
      | None => do (rs', a) <- alloc_in rs n; Some (r :: rs', a)
      end
  end.

(** AllocPriv (sh_pagealloc.h:230-249); 0: NULL *)
Definition alloc_priv (m : mach) (pa : palloc) (n : Z) (iso : bool) (ans : Z) : mach * palloc * Z :=
  match (if iso then None else alloc_in (p_regs pa) n) with
  | Some (rs, a) => (m, PA (p_align pa) (p_page pa) rs, a)
  | None =>
      let '(m, pa', ok) := add_region m pa n iso ans in
      if negb ok then (m, pa', 0)
      else let r := last (p_regs pa') (Reg 0 0 false 1 [] false) in
           match try_alloc r n with
           | Some (r', a) => (m, PA (p_align pa') (p_page pa') (removelast (p_regs pa') ++ [r']), a)
           | None => (m, pa', 0)
           end
  end.

(** Free (sh_pagealloc.h:282-296) *)
Fixpoint free_in (m : mach) (rs : list region) (addr : Z) : option (mach * list region) :=
  match rs with
  | [] => Some (m, [])
  | r :: rs =>
      do (m, o) <- try_free m r addr;
      match o with
      | Some r' => if is_nil (r_units r') then Some (os_unmap m (r_start r), rs) else Some (m, r' :: rs)
      | None => do (m, rs') <- free_in m rs addr; Some (m, r :: rs')
      end
  end.

(** SetRE, SetRW (sh_pagealloc.h:298-320) *)
Fixpoint set_in (m : mach) (rs : list region) (addr : Z) (re : bool) : mach * list region :=
  match rs with
  | [] => (m, [])
  | r :: rs => if contains r addr then let '(m, r') := set_mode m r re in (m, r' :: rs)
               else let '(m, rs') := set_in m rs addr re in (m, r :: rs')
  end.

(** ~CPageAlloc (sh_pagealloc.h:263-270) *)
Definition destroy (m : mach) (pa : palloc) : mach := fold_left (fun m r => os_unmap m (r_start r)) (p_regs pa) m.

(** Calls; Alloc and AllocIsolated carry the answer of mmap in case it is asked.
    Scribble: code outside changes bytes (but not mappings). *)
Inductive pop :=
| PAlloc (n : Z) (iso : bool) (ans : Z)
| PFree (p : Z)
| PSet (p : Z) (re : bool)
| PScribble (f : Z -> Z).

Definition pstep (m : mach) (pa : palloc) (o : pop) : option (mach * palloc * Z) :=
  match o with
  | PAlloc n iso ans => Some (alloc_priv m pa n iso ans)
  | PFree p => do (m, rs) <- free_in m (p_regs pa) p; Some (m, PA (p_align pa) (p_page pa) rs, 0)
  | PSet p re => let '(m, rs) := set_in m (p_regs pa) p re in Some (m, PA (p_align pa) (p_page pa) rs, 0)
  | PScribble f => Some (Mach (maps m) f, pa, 0)
  end.
