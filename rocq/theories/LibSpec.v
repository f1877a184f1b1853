(** What a library looks like in memory once the dynamic linker has loaded it: the headers as the System V ABI
    (ELF, chapters 4 and 5) and the PE/COFF specification lay them out, byte by byte, and the pages of the segments. *)
From Coq Require Import List ZArith Bool.
Import ListNotations.
Local Open Scope Z_scope.

Definition memory := Z -> option Z.
Fixpoint le (n : nat) (x : Z) : list Z := match n with O => [] | S n => x mod 256 :: le n (x / 256) end.
Definition holds (m : memory) (a : Z) (l : list Z) : Prop := forall i b, nth_error l i = Some b -> m (a + Z.of_nat i) = Some b.
Definition readable (m : memory) (a b : Z) : Prop := forall x, a <= x < b -> m x <> None.

(** ** ELF *)
Record seg := Seg { p_type : Z; p_flags : Z; p_offset : Z; p_vaddr : Z; p_paddr : Z; p_filesz : Z; p_memsz : Z; p_align : Z }.
Record elf := Elf { e_class : Z; e_data : Z; e_iversion : Z; e_osabi : Z; e_abiversion : Z;
  e_type : Z; e_machine : Z; e_version : Z; e_entry : Z; e_phoff : Z; e_shoff : Z; e_flags : Z; e_ehsize : Z;
  e_phentsize : Z; e_shentsize : Z; e_shnum : Z; e_shstrndx : Z; segs : list seg }.

Section Layout.
Variable b64 : bool.
Definition ptr : nat := if b64 then 8%nat else 4%nat.
Definition space : Z := if b64 then 2 ^ 64 else 2 ^ 32.
Definition ehdr (e : elf) : list Z :=
  [0x7f; 0x45; 0x4c; 0x46] ++ le 1 (e_class e) ++ le 1 (e_data e) ++ le 1 (e_iversion e) ++ le 1 (e_osabi e) ++ le 1 (e_abiversion e)
  ++ [0; 0; 0; 0; 0; 0; 0]
  ++ le 2 (e_type e) ++ le 2 (e_machine e) ++ le 4 (e_version e) ++ le ptr (e_entry e) ++ le ptr (e_phoff e) ++ le ptr (e_shoff e)
  ++ le 4 (e_flags e) ++ le 2 (e_ehsize e) ++ le 2 (e_phentsize e) ++ le 2 (Z.of_nat (List.length (segs e)))
  ++ le 2 (e_shentsize e) ++ le 2 (e_shnum e) ++ le 2 (e_shstrndx e).
Definition phdr (s : seg) : list Z :=
  if b64 then le 4 (p_type s) ++ le 4 (p_flags s) ++ le 8 (p_offset s) ++ le 8 (p_vaddr s) ++ le 8 (p_paddr s) ++ le 8 (p_filesz s)
              ++ le 8 (p_memsz s) ++ le 8 (p_align s)
  else le 4 (p_type s) ++ le 4 (p_offset s) ++ le 4 (p_vaddr s) ++ le 4 (p_paddr s) ++ le 4 (p_filesz s) ++ le 4 (p_memsz s)
       ++ le 4 (p_flags s) ++ le 4 (p_align s).
Definition phdrs (e : elf) : list Z := flat_map phdr (segs e).

(** pages *)
Definition down (page x : Z) : Z := page * (x / page).
Definition up (page x : Z) : Z := page * ((x + page - 1) / page).
Definition PT_LOAD : Z := 1.
Definition load (s : seg) : bool := p_type s =? PT_LOAD.
Definition can_read (s : seg) : bool := Z.testbit (p_flags s) 2.
(** the addresses of the pages with contents from the file *)
Definition file_pages (page bias : Z) (s : seg) : Z * Z := (bias + down page (p_vaddr s), bias + up page (p_vaddr s + p_filesz s)).
(** the lowest and the highest address, before relocation *)
Definition lowest (page : Z) (e : elf) (x : Z) : Prop :=
  (exists s, In s (segs e) /\ load s = true /\ x = down page (p_vaddr s)) /\
  forall s, In s (segs e) -> load s = true -> x <= down page (p_vaddr s).
Definition highest (page : Z) (e : elf) (x : Z) : Prop :=
  (exists s, In s (segs e) /\ load s = true /\ x = up page (p_vaddr s + p_filesz s)) /\
  forall s, In s (segs e) -> load s = true -> up page (p_vaddr s + p_filesz s) <= x.

(** The library [e] is in memory, every address raised by [bias]; [base] is where it begins. *)
Definition fits (page : Z) (s : seg) : Prop :=
  0 <= p_type s < 2 ^ 32 /\ 0 <= p_flags s < 2 ^ 32 /\ 0 <= p_vaddr s /\ 0 <= p_filesz s <= p_memsz s /\
  p_vaddr s + p_memsz s + page <= space.
Record loaded (e : elf) (page : Z) (m : memory) (bias base : Z) : Prop := {
  ld_page : exists k, 0 < k < 30 /\ page = 2 ^ k;
  ld_low : lowest page e (base - bias);
  ld_base : 0 <= base;
  ld_fits : Forall (fits page) (segs e);
  ld_room : Forall (fun s => load s = true -> bias + p_vaddr s + p_memsz s + page <= space) (segs e);
  ld_count : Z.of_nat (List.length (segs e)) < 65535;
  ld_table : 0 <= e_phoff e /\ base + e_phoff e + Z.of_nat (List.length (phdrs e)) < space /\ base + 64 <= space;
  ld_ehdr : holds m base (ehdr e);
  ld_phdrs : holds m (base + e_phoff e) (phdrs e);
  ld_pages : forall s, In s (segs e) -> load s = true -> can_read s = true ->
    readable m (bias + down page (p_vaddr s)) (bias + up page (p_vaddr s + p_memsz s)) }.

(** a shared library for this processor *)
Definition shared_library (e : elf) : Prop :=
  e_class e = (if b64 then 2 else 1) /\ e_data e = 1 /\ e_iversion e = 1 /\ e_type e = 3 /\ e_machine e = (if b64 then 62 else 3).
Definition header_ok (e : elf) : Prop :=
  0 <= e_class e < 256 /\ 0 <= e_data e < 256 /\ 0 <= e_iversion e < 256 /\ 0 <= e_type e < 65536 /\ 0 <= e_machine e < 65536.
End Layout.

(** ** PE *)
Record pe := Pe { dos : list Z;      (* the 60 bytes of the DOS header before e_lfanew *)
  lfanew : Z; stub : list Z;         (* what is between the DOS header and the PE header *)
  signature : Z; machine : Z; sections : Z; stamp : Z; symtab : Z; nsyms : Z; optsize : Z; characteristics : Z;
  magic : Z; opt1 : list Z;          (* the 54 bytes of the optional header before SizeOfImage *)
  image_size : Z }.
Definition pe_header (p : pe) : list Z :=
  dos p ++ le 4 (lfanew p) ++ stub p ++ le 4 (signature p) ++ le 2 (machine p) ++ le 2 (sections p) ++ le 4 (stamp p) ++ le 4 (symtab p)
  ++ le 4 (nsyms p) ++ le 2 (optsize p) ++ le 2 (characteristics p) ++ le 2 (magic p) ++ opt1 p ++ le 4 (image_size p).
Definition pe_shape (p : pe) : Prop :=
  List.length (dos p) = 60%nat /\ List.length (opt1 p) = 54%nat /\ lfanew p = 64 + Z.of_nat (List.length (stub p)) /\ 0 <= lfanew p < 2 ^ 31 /\
  0 <= signature p < 2 ^ 32 /\ 0 <= machine p < 2 ^ 16 /\ 0 <= characteristics p < 2 ^ 16 /\ 0 <= magic p < 2 ^ 16 /\ 0 <= image_size p < 2 ^ 32.
Definition pe_library (b64 : bool) (p : pe) : Prop :=
  firstn 2 (dos p) = [0x4d; 0x5a] /\ signature p = 0x4550 /\ machine p = (if b64 then 0x8664 else 0x14c) /\
  magic p = (if b64 then 0x20b else 0x10b) /\ Z.testbit (characteristics p) 13 = true.
Record pe_loaded (b64 : bool) (p : pe) (m : memory) (base : Z) : Prop := {
  pl_base : 0 <= base;
  pl_room : base + image_size p < space b64 /\ base + Z.of_nat (List.length (pe_header p)) <= space b64;
  pl_header : holds m base (pe_header p);
  pl_image : readable m base (base + image_size p) }.

(** ** Mach-O *)
(** a load command: a segment (its name, address, size and what follows) or another one *)
Inductive lcmd := Segment (name : list Z) (vmaddr vmsize : Z) (rest : list Z) | Other (cmd : Z) (body : list Z).
Record macho := Macho { mh_magic : Z; mh_cputype : Z; mh_cpusubtype : Z; mh_filetype : Z; mh_sizeofcmds : Z; mh_flags : Z; cmds : list lcmd }.
Section Macho.
Variable b64 : bool.
Definition seg_cmd : Z := if b64 then 0x19 else 1.
Definition lcmd_bytes (c : lcmd) : list Z :=
  let '(cmd, body) := match c with
                      | Segment name a n rest => (seg_cmd, name ++ le (ptr b64) a ++ le (ptr b64) n ++ rest)
                      | Other cmd body => (cmd, body)
                      end in
  le 4 cmd ++ le 4 (8 + Z.of_nat (List.length body)) ++ body.
Definition macho_bytes (h : macho) : list Z :=
  le 4 (mh_magic h) ++ le 4 (mh_cputype h) ++ le 4 (mh_cpusubtype h) ++ le 4 (mh_filetype h) ++ le 4 (Z.of_nat (List.length (cmds h)))
  ++ le 4 (mh_sizeofcmds h) ++ le 4 (mh_flags h) ++ (if b64 then [0; 0; 0; 0] else []) ++ flat_map lcmd_bytes (cmds h).
Definition lcmd_ok (c : lcmd) : Prop :=
  match c with
  | Segment name a n rest => List.length name = 16%nat /\ 0 <= a < space b64 /\ 0 <= n < space b64 /\ Z.of_nat (List.length rest) < 2 ^ 24
  | Other cmd body => 0 <= cmd < 2 ^ 32 /\ cmd <> seg_cmd /\ Z.of_nat (List.length body) < 2 ^ 24
  end.
Definition macho_ok (h : macho) : Prop :=
  0 <= mh_magic h < 2 ^ 32 /\ 0 <= mh_cputype h < 2 ^ 32 /\ 0 <= mh_cpusubtype h < 2 ^ 32 /\ 0 <= mh_filetype h < 2 ^ 32 /\
  Z.of_nat (List.length (cmds h)) < 2 ^ 32 /\ Forall lcmd_ok (cmds h).
Definition macho_library (h : macho) : Prop :=
  mh_magic h = (if b64 then 0xfeedfacf else 0xfeedface) /\ mh_cputype h = (if b64 then 0x01000007 else 7) /\ mh_cpusubtype h = 3 /\ mh_filetype h = 6.
Definition vmsizes (h : macho) : list Z := flat_map (fun c => match c with Segment _ _ n _ => [n] | Other _ _ => [] end) (cmds h).
Definition segments (h : macho) : list (Z * Z) := flat_map (fun c => match c with Segment _ a n _ => [(a, n)] | Other _ _ => [] end) (cmds h).
Definition total (h : macho) : Z := fold_right Z.add 0 (vmsizes h).
(** each segment begins where the one before ends *)
Fixpoint adjoining (a : Z) (l : list (Z * Z)) : Prop := match l with [] => True | (b, n) :: l => b = a /\ adjoining (a + n) l end.
Record macho_loaded (h : macho) (m : memory) (bias base : Z) : Prop := {
  ml_base : 0 <= base;
  ml_room : base + total h < space b64 /\ base + Z.of_nat (List.length (macho_bytes h)) < space b64;
  ml_header : holds m base (macho_bytes h);
  ml_image : forall a n, In (a, n) (segments h) -> readable m (bias + a) (bias + a + n) }.
End Macho.

(** ** The search *)
(** a pattern matches at [p]: an asterisk (0x2a) matches any byte *)
Definition occurs (m : memory) (pat : list Z) (p : Z) : Prop :=
  forall i c, nth_error pat i = Some c -> c = 0x2a \/ m (p + Z.of_nat i) = Some c.
(** where it is looked for in a range of memory: it must end before the last byte *)
Definition strictly_in (pat : list Z) (r : Z * Z) (p : Z) : Prop := fst r <= p /\ p + Z.of_nat (List.length pat) < snd r.
(** where it should be looked for *)
Definition within (pat : list Z) (r : Z * Z) (p : Z) : Prop := fst r <= p /\ p + Z.of_nat (List.length pat) <= snd r.
(** [p] is the first match in the ranges, taken one after the other *)
Definition first_match (where_ : list Z -> Z * Z -> Z -> Prop) (m : memory) (pat : list Z) (rs : list (Z * Z)) (p : Z) : Prop :=
  exists before r after, rs = before ++ r :: after /\ where_ pat r p /\ occurs m pat p /\
    (forall q, where_ pat r q -> q < p -> ~ occurs m pat q) /\
    (forall r' q, In r' before -> where_ pat r' q -> ~ occurs m pat q).
Definition no_match (where_ : list Z -> Z * Z -> Z -> Prop) (m : memory) (pat : list Z) (rs : list (Z * Z)) : Prop :=
  forall r q, In r rs -> where_ pat r q -> ~ occurs m pat q.
Definition answer (where_ : list Z -> Z * Z -> Z -> Prop) (m : memory) (pat : list Z) (rs : list (Z * Z)) (a : option Z) : Prop :=
  match a with Some p => first_match where_ m pat rs p | None => no_match where_ m pat rs end.
