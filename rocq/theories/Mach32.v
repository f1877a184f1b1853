(** What the instructions of [Asm32Spec] that the generator uses do (Intel SDM vol. 1 chapter 8 and
    vol. 2): the eight registers, the stack of the x87 unit, the flags ZF, SF, OF and DF, memory as
    bytes, and the position in a block of code that nobody writes to (its pages are read-only,
    properties C31 and C55).  Calls leave the block: the called function is an arbitrary [env], which
    gets the state at its entry and answers with the state at its return (also with the stack
    pointer: functions may take their arguments off the stack or not). *)
From Coq Require Import List ZArith Bool.
From Verif Require Import Asm32Model Asm32Spec.
Import ListNotations.
Local Open Scope Z_scope.

Definition W32 : Z := 2 ^ 32.
Definition w32 (x : Z) : Z := x mod W32.
(** two's complement value *)
Definition s32 (x : Z) : Z := if x <? 2 ^ 31 then x else x - W32.

Record st := St { rg : Z -> Z; fp : list Z; zf : bool; sf : bool; ovf : bool; df : bool; mm : Z -> Z; pc : Z }.
Definition upd {A} (f : Z -> A) (k : Z) (v : A) : Z -> A := fun x => if x =? k then v else f x.
Definition set_rg (s : st) (r v : Z) : st := St (upd (rg s) r v) (fp s) (zf s) (sf s) (ovf s) (df s) (mm s) (pc s).
Definition set_fp (s : st) (l : list Z) : st := St (rg s) l (zf s) (sf s) (ovf s) (df s) (mm s) (pc s).
Definition set_mm (s : st) (m : Z -> Z) : st := St (rg s) (fp s) (zf s) (sf s) (ovf s) (df s) m (pc s).
Definition set_pc (s : st) (p : Z) : st := St (rg s) (fp s) (zf s) (sf s) (ovf s) (df s) (mm s) p.
Definition set_fl (s : st) (z n o : bool) : st := St (rg s) (fp s) z n o (df s) (mm s) (pc s).
Definition set_df (s : st) (d : bool) : st := St (rg s) (fp s) (zf s) (sf s) (ovf s) d (mm s) (pc s).

(** memory: [n] bytes, little endian, addresses modulo 2^32 *)
Fixpoint ld (m : Z -> Z) (a : Z) (n : nat) : Z :=
  match n with O => 0 | S n => m (w32 a) + 256 * ld m (a + 1) n end.
Fixpoint sto (m : Z -> Z) (a : Z) (n : nat) (v : Z) : Z -> Z :=
  match n with O => m | S n => sto (upd m (w32 a) (v mod 256)) (a + 1) n (v / 256) end.
Definition ld4 (m : Z -> Z) (a : Z) : Z := ld m a 4.
Definition st4 (m : Z -> Z) (a v : Z) : Z -> Z := sto m a 4 v.

(** The x87 unit: what a number of 4 or 8 bytes becomes in a register, and back.  [fpu_ok]: loading a
    number and storing it again gives the number, except that a signalling NaN becomes quiet
    (Intel SDM vol. 1, table 4-7 and 8.3.1.1) *)
Record fpu := Fpu { fload : nat -> Z -> Z; fstore : nat -> Z -> Z }.
Definition mant (n : nat) : Z := if (n =? 4)%nat then 23 else 52.
Definition quiet (n : nat) (v : Z) : Z :=
  let sgn := v / 2 ^ (8 * Z.of_nat n - 1) in
  let mag := v mod 2 ^ (8 * Z.of_nat n - 1) in
  (* infinity: all ones in the exponent, no bit in the mantissa *)
  let inf := 2 ^ (8 * Z.of_nat n - 1) - 2 ^ mant n in
  if (inf <? mag) && negb (Z.testbit mag (mant n - 1)) then sgn * 2 ^ (8 * Z.of_nat n - 1) + mag + 2 ^ (mant n - 1) else v.
Definition fpu_ok (u : fpu) : Prop :=
  (forall n x, 0 <= fstore u n x < 256 ^ Z.of_nat n) /\
  (forall n v, n = 4%nat \/ n = 8%nat -> 0 <= v < 256 ^ Z.of_nat n -> fstore u n (fload u n v) = quiet n v).

(** effective address *)
Definition ea (s : st) (o : operand) : option Z :=
  match o with
  | OMem b i d =>
      Some (w32 ((match b with Some r => rg s r | None => 0 end)
                 + (match i with Some (r, k) => rg s r * k | None => 0 end) + d))
  | OReg _ => None
  end.
(** 32-bit operands *)
Definition rd (s : st) (o : operand) : Z :=
  match o with
  | OReg r => rg s r
  | OMem _ _ _ => match ea s o with Some a => ld4 (mm s) a | None => 0 end
  end.
Definition wr (s : st) (o : operand) (v : Z) : st :=
  match o with
  | OReg r => set_rg s r v
  | OMem _ _ _ => match ea s o with Some a => set_mm s (st4 (mm s) a v) | None => s end
  end.
(** 8-bit operands: AL CL DL BL AH CH DH BH *)
Definition rd8 (s : st) (o : operand) : Z :=
  match o with
  | OReg r => if r <? 4 then rg s r mod 256 else rg s (r - 4) / 256 mod 256
  | OMem _ _ _ => match ea s o with Some a => ld (mm s) a 1 | None => 0 end
  end.
Definition wr8 (s : st) (o : operand) (v : Z) : st :=
  match o with
  | OReg r => if r <? 4 then set_rg s r (rg s r - rg s r mod 256 + v)
              else set_rg s (r - 4) (rg s (r - 4) - 256 * (rg s (r - 4) / 256 mod 256) + 256 * v)
  | OMem _ _ _ => match ea s o with Some a => set_mm s (sto (mm s) a 1 v) | None => s end
  end.

(** conditions by their numbers in the opcodes: E 4, NE 5, L 12, GE 13, LE 14, G 15; the others do not occur *)
Definition holds (s : st) (c : Z) : option bool :=
  if c =? 4 then Some (zf s) else if c =? 5 then Some (negb (zf s))
  else if c =? 12 then Some (xorb (sf s) (ovf s)) else if c =? 13 then Some (negb (xorb (sf s) (ovf s)))
  else if c =? 14 then Some (zf s || xorb (sf s) (ovf s)) else if c =? 15 then Some (negb (zf s || xorb (sf s) (ovf s)))
  else None.
(** flags of a result [r] of 32 bits, [o]: signed overflow *)
Definition flags (s : st) (r : Z) (o : bool) : st := set_fl s (r =? 0) (2 ^ 31 <=? r) o.
Definition in_s32 (x : Z) : bool := (- 2 ^ 31 <=? x) && (x <? 2 ^ 31).
Definition alu (op : aluop) (s : st) (dst : operand) (a b : Z) : option st :=
  match op with
  | OAdd => Some (wr (flags s (w32 (a + b)) (negb (in_s32 (s32 a + s32 b)))) dst (w32 (a + b)))
  | OSub => Some (wr (flags s (w32 (a - b)) (negb (in_s32 (s32 a - s32 b)))) dst (w32 (a - b)))
  | OXor => Some (wr (flags s (Z.lxor a b) false) dst (Z.lxor a b))
  | OAnd => Some (wr (flags s (Z.land a b) false) dst (Z.land a b))
  | OCmp => Some (flags s (w32 (a - b)) (negb (in_s32 (s32 a - s32 b))))
  | _ => None
  end.
(** rep movs with the direction flag clear: units of [w] bytes one after the other, so that overlapping
    areas behave as the processor does *)
Fixpoint movs (w n : nat) (m : Z -> Z) (d a : Z) : Z -> Z :=
  match n with O => m | S n => movs w n (sto m d w (ld m a w)) (d + Z.of_nat w) (a + Z.of_nat w) end.

Definition EAX : Z := 0. Definition ECX : Z := 1. Definition EDX : Z := 2. Definition EBX : Z := 3.
Definition ESP : Z := 4. Definition EBP : Z := 5. Definition ESI : Z := 6. Definition EDI : Z := 7.

Definition push (s : st) (v : Z) : st :=
  let sp := w32 (rg s ESP - 4) in set_rg (set_mm s (st4 (mm s) sp v)) ESP sp.
Definition rep_movs (w : nat) (s : st) : option st :=
  let n := rg s ECX in let k := n * Z.of_nat w in
  if df s then None
  else Some (set_rg (set_rg (set_rg (set_mm s (movs w (Z.to_nat n) (mm s) (rg s EDI) (rg s ESI))) ECX 0)
                            EDI (w32 (rg s EDI + k))) ESI (w32 (rg s ESI + k))).

Section Run.
Variable u : fpu.
(** instructions that stay in the block; [pc s] is already behind the instruction.  Stack overflow and
    underflow of the x87 unit are errors *)
Definition exec1 (i : insn) (s : st) : option st :=
  match i with
  | ICld => Some (set_df s false)
  | IRepMovsd => rep_movs 4 s
  | IRepMovsb => rep_movs 1 s
  | IJmp d => Some (set_pc s (pc s + d))
  | IJcc c d => match holds s c with Some b => Some (if b then set_pc s (pc s + d) else s) | None => None end
  | IPush o => Some (push s (rd s o))
  | IPushImm v => Some (push s (w32 v))
  | IPop r => let v := ld4 (mm s) (rg s ESP) in Some (set_rg (set_rg s ESP (w32 (rg s ESP + 4))) r v)
  | IMov d o => Some (wr s d (rd s o))
  | IMov8 d o => Some (wr8 s d (rd8 s o))
  | IMovImm d v => Some (wr s d (w32 v))
  | IMovzx bits r o =>
      if bits =? 8 then Some (set_rg s r (rd8 s o))
      else match ea s o with Some a => Some (set_rg s r (ld (mm s) a 2)) | None => None end
  | IMovzx16to16 r o =>
      match ea s o with Some a => Some (set_rg s r (rg s r - rg s r mod 2 ^ 16 + ld (mm s) a 2)) | None => None end
  | IAlu op d o => alu op s d (rd s d) (rd s o)
  | IAluImm op d v => alu op s d (rd s d) (w32 v)
  | ITest d o => Some (flags s (Z.land (rd s d) (rd s o)) false)
  | ITest8 d o => let r := Z.land (rd8 s d) (rd8 s o) in Some (set_fl s (r =? 0) (2 ^ 7 <=? r) false)
  | ISetcc c o => match holds s c with Some b => Some (wr8 s o (if b then 1 else 0)) | None => None end
  | ILea r o => match ea s o with Some a => Some (set_rg s r a) | None => None end
  | IFld n o =>
      match ea s o with
      | Some a => if (List.length (fp s) <? 8)%nat
                  then Some (set_fp s (fload u (Z.to_nat n) (ld (mm s) a (Z.to_nat n)) :: fp s)) else None
      | None => None
      end
  | IFstp n o =>
      match ea s o, fp s with
      | Some a, x :: l => Some (set_mm (set_fp s l) (sto (mm s) a (Z.to_nat n) (fstore u (Z.to_nat n) x)))
      | _, _ => None
      end
  | _ => None
  end.

(** A call that left the block: the address called, the state at the entry of the function (return
    address pushed) and the state at its return. *)
Record event := Ev { e_target : Z; e_in : st; e_out : st }.

(** [base]: where the block is; [env n t s]: what the [n]-th call, of the function at [t], does *)
Variables (base : Z) (env : nat -> Z -> st -> st) (code : list Z).

Definition fetch (p : Z) : option (insn * Z) :=
  if (0 <=? p) then
    match decode (skipn (Z.to_nat p) code) with
    | Some (i, rest) => Some (i, Z.of_nat (List.length code - List.length rest))
    | None => None
    end
  else None.
(** One step; [None]: the return instruction, or an instruction that is not understood *)
Definition step (c : st * list event) : option (st * list event) :=
  let '(s, tr) := c in
  match fetch (pc s) with
  | Some (ICall o, p) =>
      let t := rd s o in
      let s1 := push s (w32 (base + p)) in
      let s2 := env (List.length tr) t s1 in
      (* the function returns behind the call *)
      Some (set_pc s2 p, tr ++ [Ev t s1 s2])
  | Some (i, p) => match exec1 i (set_pc s p) with Some s' => Some (s', tr) | None => None end
  | None => None
  end.
Inductive reaches : st * list event -> st * list event -> Prop :=
| r_refl c : reaches c c
| r_step c c1 c2 : step c = Some c1 -> reaches c1 c2 -> reaches c c2.
(** the next instruction is a return that takes [n] bytes of arguments off the stack *)
Definition at_ret (n : Z) (s : st) : Prop := exists p, fetch (pc s) = Some (IRet n, p).
End Run.
