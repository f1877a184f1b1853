(** Model of core/sourcehook/sh_memory.h for Linux: GetPageBits (64-100),
    SetMemAccess (190-194), MakePageWritable (214-225), ModuleInMemory (258-327), and of
    CVfnPtr::Patch and Revert (core/sourcehook/sourcehook_impl_cvfnptr.cpp 129-143, 228-238).

    The kernel's side: pages of 4096 bytes with rights, mprotect, the text of
    /proc/self/maps.  Simplified: the branch for FreeBSD (/proc/curproc/map) is left out
    (that file does not exist on Linux) but for the way it reads the rights; the text has no
    NUL; mprotect that fails changes nothing. *)
From Coq Require Import List ZArith Bool Arith Ascii String Lia.
From Verif Require Import ListModel StrModel.
Import ListNotations.
Local Open Scope list_scope.
Local Open Scope Z_scope.
Notation length := List.length.

(** *** the C library *)
Definition hexdigit (c : ascii) : option Z :=
  let n := Z.of_nat (nat_of_ascii c) in
  if (48 <=? n) && (n <=? 57) then Some (n - 48)
  else if (97 <=? n) && (n <=? 102) then Some (n - 87)
  else if (65 <=? n) && (n <=? 70) then Some (n - 55)
  else None.
(** the digits: their value and the rest; None: there is no digit *)
Fixpoint hexdigits (acc : Z) (s : str) : Z * str :=
  match s with
  | c :: r => match hexdigit c with Some d => hexdigits (16 * acc + d) r | None => (acc, s) end
  | [] => (acc, s)
  end.
Definition is_hex (s : str) : bool := match s with c :: _ => match hexdigit c with Some _ => true | None => false end | [] => false end.
Definition skip_0x (s : str) : str :=
  match s with
  | c :: x :: r => if Ascii.eqb c "0" && (Ascii.eqb x "x" || Ascii.eqb x "X") && is_hex r then r else s
  | _ => s
  end.
(** strtoul (s, &end, 16) for unsigned long of [wb] bits: the value and *end *)
Definition strtoul (wb : Z) (s : str) : Z * str :=
  let t := drop_space s in
  let neg := match t with c :: _ => Ascii.eqb c "-" | [] => false end in
  let t := match t with c :: r => if Ascii.eqb c "-" || Ascii.eqb c "+" then r else t | [] => t end in
  let t := skip_0x t in
  if is_hex t then
    let (v, e) := hexdigits 0 t in
    if 2 ^ wb <=? v then (2 ^ wb - 1, e) else (if neg then (- v) mod 2 ^ wb else v, e)
  else (0, s).
(** getline: the lines, with their newlines *)
Fixpoint getlines (t : str) : list str :=
  match t with
  | [] => []
  | c :: t => if Ascii.eqb c "010" then [c] :: getlines t
              else match getlines t with l :: ls => (c :: l) :: ls | [] => [[c]] end
  end.
(** s[i]: the terminator is there, what follows is not *)
Definition char_at (s : str) (i : nat) : option ascii :=
  match nth_error s i with Some c => Some c | None => if (i =? length s)%nat then Some NUL else None end.
(** &s[1] as a string *)
Definition after_one (s : str) : option str := match s with [] => None | _ :: r => Some r end.

(** *** the kernel *)
Definition PAGESIZE : Z := 4096.
Definition PROT_READ : Z := 1.
Definition PROT_WRITE : Z := 2.
Definition PROT_EXEC : Z := 4.
Record mem := Mem { rights : Z -> option Z;        (* by page number; None: not mapped *)
                    word : Z -> Z }.               (* by address of the pointer *)
Definition page_list (start len : Z) : list Z :=
  map (fun i => start / PAGESIZE + Z.of_nat i) (seq 0 (Z.to_nat ((len + PAGESIZE - 1) / PAGESIZE))).
(** [allow]: whether the kernel grants it *)
Definition mprotect (allow : bool) (m : mem) (start len acc : Z) : mem * bool :=
  let ps := page_list start len in
  if allow && (start mod PAGESIZE =? 0) && forallb (fun p => match rights m p with Some _ => true | None => false end) ps
  then (Mem (fun p => if existsb (Z.eqb p) ps then Some acc else rights m p) (word m), true)
  else (m, false).

(** *** sh_memory.h *)
(** 40-41 *)
Definition SH_LALIGN (x : Z) : Z := Z.land x (Z.lnot (PAGESIZE - 1)).
Definition SH_LALDIF (x : Z) : Z := x mod PAGESIZE.

(** 68-100; [maps]: /proc/self/maps, if it can be opened.  Inner None: not found *)
Fixpoint scan_bits (wb addr : Z) (ls : list str) : option (option Z) :=
  match ls with
  | [] => Some None
  | l :: ls =>
      let (rlower, addr_split) := strtoul wb l in
      do rest <- after_one addr_split ;
      let (rupper, prot_split) := strtoul wb rest in
      if (rlower <=? addr) && (addr <? rupper) then
        do r <- char_at prot_split 1 ;
        do w <- char_at prot_split 2 ;
        do x <- char_at prot_split 3 ;
        let b := 0 in
        let b := if Ascii.eqb r "r" then Z.lor b PROT_READ else b in
        let b := if Ascii.eqb w "w" then Z.lor b PROT_WRITE else b in
        let b := if Ascii.eqb x "x" then Z.lor b PROT_EXEC else b in
        Some (Some b)
      else scan_bits wb addr ls
  end.
Definition GetPageBits (wb : Z) (maps : option str) (addr : Z) : option (option Z) :=
  match maps with Some t => scan_bits wb addr (getlines t) | None => Some None end.
(** 117-122: the rights as the branch for FreeBSD reads them *)
Definition bsd_bits (r w x : ascii) : Z :=
  let b := 0 in
  let b := if Ascii.eqb r "r" then Z.lor b PROT_READ else b in
  let b := if Ascii.eqb r "w" then Z.lor b PROT_WRITE else b in
  if Ascii.eqb r "x" then Z.lor b PROT_EXEC else b.

(** 190-194 *)
Definition SetMemAccess (wb : Z) (allow : bool) (m : mem) (addr len access : Z) : mem * bool :=
  mprotect allow m (SH_LALIGN addr) ((len + SH_LALDIF addr) mod 2 ^ wb) access.

(** 214-225 *)
Definition MakePageWritable (wb : Z) (allow : bool) (maps : option str) (m : mem) (addr : Z) : option (mem * bool) :=
  do b <- GetPageBits wb maps addr ;
  match b with
  | Some bits => if negb (Z.land bits PROT_WRITE =? 0) then Some (m, true)
                 else Some (SetMemAccess wb allow m addr (wb / 8) (Z.lor bits PROT_WRITE))
  | None => Some (SetMemAccess wb allow m addr (wb / 8) (Z.lor (Z.lor PROT_READ PROT_WRITE) PROT_EXEC))
  end.

(** 258-327; [faults]: whether reading the bytes raises SIGSEGV *)
Fixpoint scan_range (wb lower upper : Z) (ls : list str) : option bool :=
  match ls with
  | [] => Some false
  | l :: ls =>
      let (rlower, addr_split) := strtoul wb l in
      do rest <- after_one addr_split ;
      let (rupper, _) := strtoul wb rest in
      if (rlower <=? lower) && (upper <=? rupper) then Some true
      else scan_range wb lower upper ls
  end.
Definition ModuleInMemory (wb : Z) (maps : option str) (faults : bool) (addr len : Z) : option bool :=
  match maps with
  | Some t => scan_range wb addr ((addr + len) mod 2 ^ wb) (getlines t)
  | None => if faults then Some true        (* longjmp to setjmp: 310-311 *)
            else Some false                 (* 326 *)
  end.

(** *** CVfnPtr *)
(** a write to memory: None if it is not writable *)
Definition store (wb : Z) (m : mem) (addr v : Z) : option mem :=
  if forallb (fun p => match rights m p with Some b => Z.testbit b 1 | None => false end)
             [addr / PAGESIZE; (addr + wb / 8 - 1) / PAGESIZE]
  then Some (Mem (rights m) (fun a => if a =? addr then v else word m a)) else None.
(** 228-238 *)
Definition Patch (wb : Z) (allow : bool) (maps : option str) (m : mem) (ptr newValue : Z) : option (mem * bool) :=
  do r <- MakePageWritable wb allow maps m ptr ;
  let (m, ok) := r in
  if ok then do m <- store wb m ptr newValue ; Some (m, true) else Some (m, false).
(** 129-143 *)
Definition Revert (wb : Z) (allow : bool) (maps : option str) (faults : bool) (m : mem) (ptr orig : Z) : option (mem * bool) :=
  do b <- ModuleInMemory wb maps faults ptr (wb / 8) ;
  if b : bool then Patch wb allow maps m ptr orig else Some (m, true).
