(** What the instructions of [Asm64Spec] do (Intel SDM vol. 2): registers, the low half of the
    xmm registers, the flags ZF, SF and OF, memory as bytes, and the position in a block of code
    that nobody writes to (its pages are read-only, properties C31 and C55).  Calls leave the
    block: the called function is an arbitrary [env], which gets the state at its entry and answers
    with the state at its return. *)
From Coq Require Import List ZArith Bool.
From Verif Require Import Asm64Model Asm64Spec.
Import ListNotations.
Local Open Scope Z_scope.

Definition W64 : Z := 2 ^ 64.
Definition w64 (x : Z) : Z := x mod W64.
Definition w32 (x : Z) : Z := x mod 2 ^ 32.
(** two's complement value *)
Definition s64 (x : Z) : Z := if x <? 2 ^ 63 then x else x - W64.

Record st := St { rg : Z -> Z; xm : Z -> Z; zf : bool; sf : bool; ovf : bool; mm : Z -> Z; pc : Z }.
Definition upd {A} (f : Z -> A) (k : Z) (v : A) : Z -> A := fun x => if x =? k then v else f x.
Definition set_rg (s : st) (r v : Z) : st := St (upd (rg s) r v) (xm s) (zf s) (sf s) (ovf s) (mm s) (pc s).
Definition set_xm (s : st) (r v : Z) : st := St (rg s) (upd (xm s) r v) (zf s) (sf s) (ovf s) (mm s) (pc s).
Definition set_mm (s : st) (m : Z -> Z) : st := St (rg s) (xm s) (zf s) (sf s) (ovf s) m (pc s).
Definition set_pc (s : st) (p : Z) : st := St (rg s) (xm s) (zf s) (sf s) (ovf s) (mm s) p.
Definition set_fl (s : st) (z n o : bool) : st := St (rg s) (xm s) z n o (mm s) (pc s).

(** memory: [n] bytes, little endian, addresses modulo 2^64 *)
Fixpoint ld (m : Z -> Z) (a : Z) (n : nat) : Z :=
  match n with O => 0 | S n => m (w64 a) + 256 * ld m (a + 1) n end.
Fixpoint sto (m : Z -> Z) (a : Z) (n : nat) (v : Z) : Z -> Z :=
  match n with O => m | S n => sto (upd m (w64 a) (v mod 256)) (a + 1) n (v / 256) end.
Definition ld8 (m : Z -> Z) (a : Z) : Z := ld m a 8.
Definition st8 (m : Z -> Z) (a v : Z) : Z -> Z := sto m a 8 v.

(** effective address; [ORip] needs the address of the block and does not occur *)
Definition ea (s : st) (o : operand) : option Z :=
  match o with
  | OMem b i d =>
      Some (w64 ((match b with Some r => rg s r | None => 0 end)
                 + (match i with Some (r, k) => rg s r * k | None => 0 end) + d))
  | _ => None
  end.
(** 64-bit operands *)
Definition rd64 (s : st) (o : operand) : option Z :=
  match o with
  | OReg r => Some (rg s r)
  | _ => match ea s o with Some a => Some (ld8 (mm s) a) | None => None end
  end.
Definition wr64 (s : st) (o : operand) (v : Z) : option st :=
  match o with
  | OReg r => Some (set_rg s r v)
  | _ => match ea s o with Some a => Some (set_mm s (st8 (mm s) a v)) | None => None end
  end.

Definition holds (s : st) (c : cond) : bool :=
  match c with
  | CE => zf s | CNE => negb (zf s)
  | CL => xorb (sf s) (ovf s) | CGE => negb (xorb (sf s) (ovf s))
  | CLE => zf s || xorb (sf s) (ovf s) | CG => negb (zf s) && negb (xorb (sf s) (ovf s))
  end.
(** flags of a result [r] of 64 bits, [o]: signed overflow *)
Definition flags (s : st) (r : Z) (o : bool) : st := set_fl s (r =? 0) (2 ^ 63 <=? r) o.
Definition in_s64 (x : Z) : bool := (- 2 ^ 63 <=? x) && (x <? 2 ^ 63).
Definition alu (op : aluop) (s : st) (dst : operand) (a b : Z) : option st :=
  match op with
  | OpAdd => wr64 (flags s (w64 (a + b)) (negb (in_s64 (s64 a + s64 b)))) dst (w64 (a + b))
  | OpSub => wr64 (flags s (w64 (a - b)) (negb (in_s64 (s64 a - s64 b)))) dst (w64 (a - b))
  | OpXor => wr64 (flags s (Z.lxor a b) false) dst (Z.lxor a b)
  | OpCmp => Some (flags s (w64 (a - b)) (negb (in_s64 (s64 a - s64 b))))
  end.
(** rep movsb with the direction flag clear: copies byte by byte, so that overlapping areas behave as the processor does *)
Fixpoint movsb (n : nat) (m : Z -> Z) (d a : Z) : Z -> Z :=
  match n with O => m | S n => movsb n (upd m (w64 d) (m (w64 a))) (d + 1) (a + 1) end.

Definition RAX : Z := 0. Definition RCX : Z := 1. Definition RDX : Z := 2. Definition RBX : Z := 3.
Definition RSP : Z := 4. Definition RBP : Z := 5. Definition RSI : Z := 6. Definition RDI : Z := 7.
Definition R8 : Z := 8. Definition R9 : Z := 9. Definition R10 : Z := 10.

Definition push (s : st) (v : Z) : st :=
  let sp := w64 (rg s RSP - 8) in set_rg (set_mm s (st8 (mm s) sp v)) RSP sp.

(** instructions that stay in the block; [pc s] is already behind the instruction *)
Definition exec1 (i : insn) (s : st) : option st :=
  match i with
  | IRepMovsb =>
      let n := rg s RCX in
      Some (set_rg (set_rg (set_rg (set_mm s (movsb (Z.to_nat n) (mm s) (rg s RDI) (rg s RSI))) RCX 0)
                           RDI (w64 (rg s RDI + n))) RSI (w64 (rg s RSI + n)))
  | IJmp d => Some (set_pc s (pc s + d))
  | IJcc c d => Some (if holds s c then set_pc s (pc s + d) else s)
  | IPush r => Some (push s (rg s r))
  | IPushImm v => Some (push s (w64 v))
  | IPop r => let v := ld8 (mm s) (rg s RSP) in Some (set_rg (set_rg s RSP (w64 (rg s RSP + 8))) r v)
  | IMov true d o => match rd64 s o with Some v => wr64 s d v | None => None end
  | IMovImm true d v => wr64 s d (w64 v)
  | IMovImm false (OReg r) v => Some (set_rg s r (w32 v))
  | IMovImm64 r v => Some (set_rg s r v)
  | IMovsdLoad x o => match ea s o with Some a => Some (set_xm s x (ld8 (mm s) a)) | None => None end
  | IMovsdStore o x => match ea s o with Some a => Some (set_mm s (st8 (mm s) a (xm s x))) | None => None end
  | IAlu op true d o => match rd64 s d, rd64 s o with Some a, Some b => alu op s d a b | _, _ => None end
  | IAluImm op true d v => match rd64 s d with Some a => alu op s d a (w64 v) | None => None end
  | ITest true d o => match rd64 s d, rd64 s o with Some a, Some b => Some (flags s (Z.land a b) false) | _, _ => None end
  | ITestImm true d v => match rd64 s d with Some a => Some (flags s (Z.land a (w64 v)) false) | None => None end
  | ICmov c true r o => match rd64 s o with Some v => Some (if holds s c then set_rg s r v else s) | None => None end
  | ILea true r o => match ea s o with Some a => Some (set_rg s r a) | None => None end
  | _ => None
  end.

(** A call that left the block: the address called, the state at the entry of the function (return
    address pushed) and the state at its return. *)
Record event := Ev { e_target : Z; e_in : st; e_out : st }.

Section Run.
(** [base]: where the block is; [env n t s]: what the [n]-th call, of the function at [t], does *)
Variables (base : Z) (env : nat -> Z -> st -> st) (code : list Z).

Definition fetch (p : Z) : option (insn * Z) :=
  if (0 <=? p) then
    match decode (skipn (Z.to_nat p) code) with
    | Some (i, rest) => Some (i, Z.of_nat (List.length code - List.length rest))
    | None => None
    end
  else None.
(** One step; [None]: the return instruction, or an instruction that is not understood *)
Definition step (c : st * list event) : option (st * list event) :=
  let '(s, tr) := c in
  match fetch (pc s) with
  | Some (ICall o, p) =>
      match rd64 s o with
      | Some t =>
          let s1 := push s (w64 (base + p)) in
          let s2 := env (List.length tr) t s1 in
          (* the function returns behind the call, having popped the return address *)
          Some (set_pc (set_rg s2 RSP (w64 (rg s1 RSP + 8))) p, tr ++ [Ev t s1 s2])
      | None => None
      end
  | Some (i, p) => match exec1 i (set_pc s p) with Some s' => Some (s', tr) | None => None end
  | None => None
  end.
Inductive reaches : st * list event -> st * list event -> Prop :=
| r_refl c : reaches c c
| r_step c c1 c2 : step c = Some c1 -> reaches c1 c2 -> reaches c c2.
(** the next instruction is a return *)
Definition at_ret (s : st) : Prop := exists p, fetch (pc s) = Some (IRet, p).
End Run.
