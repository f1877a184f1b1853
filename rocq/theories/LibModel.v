(** The loader's search for a text in the memory of a loaded library:
    mm_GetLibraryInfo (loader/utility.cpp 387-634, its three platforms) and mm_FindPattern (636-671).

    Memory is a function from addresses to bytes; [None] at an address that cannot be read.  A function that
    reads there has the result [None].  The results of dladdr and VirtualQuery (the address the library begins at, or
    nothing) are arguments.  A pointer has 64 or 32 bits; sums wrap. *)
From Coq Require Import List ZArith Bool.
Import ListNotations.
Local Open Scope Z_scope.

Definition mem := Z -> option Z.
Notation "'do' x <- e ; f" := (match e with Some x => f | None => None end) (at level 200, x name, e at level 100, f at level 200).

(** a number of [n] bytes, the least significant first *)
Fixpoint rd (m : mem) (a : Z) (n : nat) : option Z :=
  match n with
  | O => Some 0
  | S n => do b <- m a; do r <- rd m (a + 1) n; Some (b + 256 * r)
  end.

(** struct DynLibInfo (379-384) *)
Record libinfo := LibInfo { baseAddress : Z; memorySize : Z; searchable : list (Z * Z) }.

(** 450-460: the types of <elf.h>: the size of addresses, and the places in ElfHeader (e_phoff, e_phnum) and ElfPHeader
    (its size, p_flags, p_vaddr, p_filesz) *)
Record layout := Layout { word : nat; o_phoff : Z; o_phnum : Z; ph_size : Z; o_flags : Z; o_vaddr : Z; o_filesz : Z;
                          ELF_CLASS : Z; ELF_MACHINE : Z }.
Definition elf64 := Layout 8 32 56 56 4 16 32 2 62.
Definition elf32 := Layout 4 28 44 32 24 8 16 1 3.
Definition W (n : nat) : Z := 2 ^ (8 * Z.of_nat n).

Section Elf.
Variables (L : layout) (m : mem).
Definition w (x : Z) : Z := x mod W (word L).
(** x & ~pageMask *)
Definition clear (x pageMask : Z) : Z := Z.land x (W (word L) - 1 - pageMask).

(** 515-547: the first pass; [n] headers from the address [a] *)
Fixpoint pass1 (pageMask : Z) (n : nat) (a minAddr maxAddr : Z) : option (Z * Z) :=
  match n with
  | O => Some (minAddr, maxAddr)
  | S n =>
      do p_type <- rd m a 4;
      if p_type =? 1 (* PT_LOAD *) then
        do p_vaddr <- rd m (w (a + o_vaddr L)) (word L);
        do p_filesz <- rd m (w (a + o_filesz L)) (word L);
        let start := clear p_vaddr pageMask in
        let end_ := clear (w (p_vaddr + p_filesz + pageMask)) pageMask in
        pass1 pageMask n (w (a + ph_size L)) (if start <? minAddr then start else minAddr)
          (if maxAddr <? end_ then end_ else maxAddr)
      else pass1 pageMask n (w (a + ph_size L)) minAddr maxAddr
  end.

(** 556-568: the second pass *)
Fixpoint pass2 (pageMask baseAddr minAddr : Z) (n : nat) (a : Z) : option (list (Z * Z)) :=
  match n with
  | O => Some []
  | S n =>
      do p_type <- rd m a 4;
      if p_type =? 1 then
        do p_vaddr <- rd m (w (a + o_vaddr L)) (word L);
        do p_filesz <- rd m (w (a + o_filesz L)) (word L);
        do p_flags <- rd m (w (a + o_flags L)) 4;
        let start := clear (w (p_vaddr - minAddr)) pageMask in
        let end_ := clear (w (w (p_vaddr - minAddr) + p_filesz + pageMask)) pageMask in
        do l <- pass2 pageMask baseAddr minAddr n (w (a + ph_size L));
        Some (if Z.land p_flags 4 =? 4 (* PF_R *) then (w (baseAddr + start), w (baseAddr + end_)) :: l else l)
      else pass2 pageMask baseAddr minAddr n (w (a + ph_size L))
  end.

(** mm_GetLibraryInfo on Linux (387-395, 448-569, 631-634); [dl]: what dladdr says (info.dli_fbase, 467-475).
    [Some None]: returns false. *)
Definition get_elf (pageSize : Z) (dl : option Z) : option (option libinfo) :=
  match dl with
  | None => Some None
  | Some baseAddr =>
      do magic <- rd m baseAddr 4;
      if negb (magic =? 0x464c457f) then Some None else   (* 0x7f, "ELF" *)
      do version <- rd m (w (baseAddr + 6)) 1;
      if negb (version =? 1) then Some None else
      do class <- rd m (w (baseAddr + 4)) 1;
      if negb (class =? ELF_CLASS L) then Some None else
      do machine <- rd m (w (baseAddr + 18)) 2;
      if negb (machine =? ELF_MACHINE L) then Some None else
      do data <- rd m (w (baseAddr + 5)) 1;
      if negb (data =? 1) then Some None else             (* ELFDATA2LSB *)
      do type <- rd m (w (baseAddr + 16)) 2;
      if negb (type =? 3) then Some None else             (* ET_DYN *)
      do phnum <- rd m (w (baseAddr + o_phnum L)) 2;
      do phoff <- rd m (w (baseAddr + o_phoff L)) (word L);
      let phdr := w (baseAddr + phoff) in
      let pageMask := pageSize - 1 in
      match pass1 pageMask (Z.to_nat phnum) phdr (W (word L) - 1) 0 with
      | None => None
      | Some (minAddr, maxAddr) =>
          if maxAddr <? minAddr then Some None else
          do l <- pass2 pageMask baseAddr minAddr (Z.to_nat phnum) phdr;
          Some (Some (LibInfo baseAddr (maxAddr - minAddr) l))
      end
  end.
End Elf.

(** mm_GetLibraryInfo on Windows (397-446); [vq]: what VirtualQuery says (info.AllocationBase).  The fields of IMAGE_DOS_HEADER (e_magic 0,
    e_lfanew 60) and of IMAGE_NT_HEADERS (Signature 0, Machine 4, Characteristics 22, Magic 24, SizeOfImage 80); n: the size
    of addresses *)
Definition s32 (x : Z) : Z := if x <? 2 ^ 31 then x else x - 2 ^ 32.
Definition get_pe (n : nat) (m : mem) (vq : option Z) : option (option libinfo) :=
  let wn x := x mod W n in
  match vq with
  | None => Some None
  | Some baseAddr =>
      do e_lfanew <- rd m (wn (baseAddr + 60)) 4;
      let pe := wn (baseAddr + s32 e_lfanew) in
      do e_magic <- rd m baseAddr 2;
      if negb (e_magic =? 0x5a4d) then Some None else
      do Signature <- rd m pe 4;
      if negb (Signature =? 0x4550) then Some None else
      do Magic <- rd m (wn (pe + 24)) 2;
      if negb (Magic =? (if (n =? 8)%nat then 0x20b else 0x10b)) then Some None else
      do Machine <- rd m (wn (pe + 4)) 2;
      if negb (Machine =? (if (n =? 8)%nat then 0x8664 else 0x14c)) then Some None else
      do Characteristics <- rd m (wn (pe + 22)) 2;
      if Z.land Characteristics 0x2000 =? 0 then Some None else
      do SizeOfImage <- rd m (wn (pe + 80)) 4;
      Some (Some (LibInfo baseAddr SizeOfImage [(baseAddr, wn (baseAddr + SizeOfImage))]))
  end.

(** mm_GetLibraryInfo on macOS (571-629): the fields of mach_header (magic 0, cputype 4, cpusubtype 8, filetype 12, ncmds 16; its size is 32 or
    28) and of segment_command (cmd 0, cmdsize 4, vmsize 32 or 28); [dl]: what dladdr says *)
Fixpoint add_segments (n : nat) (m : mem) (count : nat) (seg size : Z) : option Z :=
  match count with
  | O => Some size
  | S count =>
      do cmd <- rd m seg 4;
      do size <- (if cmd =? (if (n =? 8)%nat then 0x19 else 1) then
                    do vmsize <- rd m ((seg + (if (n =? 8)%nat then 32 else 28)) mod W n) n; Some ((size + vmsize) mod W n)
                  else Some size);
      do cmdsize <- rd m ((seg + 4) mod W n) 4;
      add_segments n m count ((seg + cmdsize) mod W n) size
  end.
Definition get_macho (n : nat) (m : mem) (dl : option Z) : option (option libinfo) :=
  let wn x := x mod W n in
  match dl with
  | None => Some None
  | Some baseAddr =>
      do magic <- rd m baseAddr 4;
      if negb (magic =? (if (n =? 8)%nat then 0xfeedfacf else 0xfeedface)) then Some None else
      do cputype <- rd m (wn (baseAddr + 4)) 4;
      if negb (cputype =? (if (n =? 8)%nat then 0x01000007 else 7)) then Some None else
      do cpusubtype <- rd m (wn (baseAddr + 8)) 4;
      if negb (cpusubtype =? 3) then Some None else
      do filetype <- rd m (wn (baseAddr + 12)) 4;
      if negb (filetype =? 6) then Some None else          (* MH_DYLIB *)
      do ncmds <- rd m (wn (baseAddr + 16)) 4;
      do size <- add_segments n m (Z.to_nat ncmds) (wn (baseAddr + (if (n =? 8)%nat then 32 else 28))) 0;   (* memset, 641 *)
      Some (Some (LibInfo baseAddr size [(baseAddr, wn (baseAddr + size))]))
  end.

(** 655-662: the comparison at one place; a byte of the memory is not read if the pattern has '*' there *)
Fixpoint match_at (m : mem) (pat : list Z) (p : Z) : option bool :=
  match pat with
  | [] => Some true
  | c :: pat =>
      if c =? 0x2a then match_at m pat (p + 1)
      else do b <- m p; if c =? b then match_at m pat (p + 1) else Some false
  end.
(** 652-667: [n] places from [p] on *)
Fixpoint scan (m : mem) (pat : list Z) (n : nat) (p : Z) : option (option Z) :=
  match n with
  | O => Some None
  | S n => do f <- match_at m pat p; if f then Some (Some p) else scan m pat n (p + 1)
  end.
(** 648-670 (pointers have [n] bytes) *)
Fixpoint search (n : nat) (m : mem) (pat : list Z) (l : list (Z * Z)) : option (option Z) :=
  match l with
  | [] => Some None
  | (first, second) :: l =>
      let end_ := (second - Z.of_nat (List.length pat)) mod W n in
      match scan m pat (Z.to_nat (end_ - first)) first with
      | Some None => search n m pat l
      | r => r
      end
  end.
(** mm_FindPattern (636-671), with what mm_GetLibraryInfo says *)
Definition find_pattern (n : nat) (m : mem) (info : option (option libinfo)) (pat : list Z) : option (option Z) :=
  match info with
  | None => None
  | Some None => Some None
  | Some (Some i) => search n m pat (searchable i)
  end.
