(** A decoder for 64-bit mode, written from the instruction set reference (Intel SDM vol. 2:
    chapter 2.1-2.2 for prefixes, REX, ModRM and SIB; chapters 3-5 and appendix A for the
    opcodes).  It knows the addressing forms in full (also the ones the writer never produces, so
    that a wrong ModRM or SIB byte is decoded as what it really means) and the opcodes that occur. *)
From Coq Require Import List ZArith Bool.
From Verif Require Import Asm64Model.
Import ListNotations.
Local Open Scope Z_scope.

(** Operands: a register or memory at base + index * scale + displacement or relative to the next instruction *)
Inductive operand :=
| OReg (r : Z)
| OMem (base : option Z) (index : option (Z * Z)) (disp : Z)
| ORip (disp : Z).

(** Condition codes as numbered in the opcodes *)
Inductive cond := CE | CNE | CL | CGE | CLE | CG.
Inductive aluop := OpAdd | OpSub | OpXor | OpCmp.

(** Instructions; [w] = operand size 64 bits, else 32 *)
Inductive insn :=
| IInt3
| IRepMovsb
| ICall (o : operand) | IJmpInd (o : operand) | IJmp (rel : Z) | IJcc (c : cond) (rel : Z)
| IPush (r : Z) | IPushImm (v : Z) | IPop (r : Z)
| IMov (w : bool) (dst src : operand)
| IMovImm (w : bool) (dst : operand) (v : Z)
| IMovImm64 (r v : Z)
| IMovsdLoad (x : Z) (src : operand) | IMovsdStore (dst : operand) (x : Z)
| IAlu (op : aluop) (w : bool) (dst src : operand)
| IAluImm (op : aluop) (w : bool) (dst : operand) (v : Z)
| ITest (w : bool) (dst src : operand) | ITestImm (w : bool) (dst : operand) (v : Z)
| ICmov (c : cond) (w : bool) (r : Z) (src : operand)
| ILea (w : bool) (r : Z) (src : operand)
| IRet.

(** Numbers in the code stream *)
Fixpoint get (n : nat) (l : list Z) : option (Z * list Z) :=
  match n with
  | O => Some (0, l)
  | S n => match l with
           | [] => None
           | b :: l => match get n l with Some (v, r) => Some (b + 256 * v, r) | None => None end
           end
  end.
Definition sext (bits v : Z) : Z := if v <? 2 ^ (bits - 1) then v else v - 2 ^ bits.
Definition get_s (n : nat) (l : list Z) : option (Z * list Z) :=
  match get n l with Some (v, r) => Some (sext (8 * Z.of_nat n) v, r) | None => None end.

(** REX prefix 0100WRXB *)
Record rexbits := RexB { xw : bool; xr : bool; xx : bool; xb : bool }.
Definition no_rex : rexbits := RexB false false false false.
Definition rex_of (b : Z) : rexbits := RexB (Z.testbit b 3) (Z.testbit b 2) (Z.testbit b 1) (Z.testbit b 0).
Definition take_rex (l : list Z) : rexbits * list Z :=
  match l with
  | b :: r => if (64 <=? b) && (b <? 80) then (rex_of b, r) else (no_rex, l)
  | [] => (no_rex, l)
  end.
Definition plus8 (x : bool) (n : Z) : Z := if x then n + 8 else n.

(** the displacement that belongs to a mod field other than 11 *)
Definition get_disp (md : Z) (l : list Z) : option (Z * list Z) :=
  if md =? 0 then Some (0, l) else if md =? 1 then get_s 1 l else get_s 4 l.

(** SIB byte: scale, index (100 without REX.X: none), base (101 with mod 00: none, 32-bit displacement) *)
Definition get_sib (rx : rexbits) (md : Z) (l : list Z) : option (operand * list Z) :=
  match l with
  | [] => None
  | s :: l =>
      let ss := s / 64 in let ix := plus8 (xx rx) ((s / 8) mod 8) in let bs := s mod 8 in
      let index := if ix =? 4 then None else Some (ix, 2 ^ ss) in
      if (bs =? 5) && (md =? 0)
      then match get_s 4 l with Some (d, l) => Some (OMem None index d, l) | None => None end
      else match get_disp md l with Some (d, l) => Some (OMem (Some (plus8 (xb rx) bs)) index d, l) | None => None end
  end.
(** ModRM byte: the register field (3 bits, without REX.R) and the other operand *)
Definition get_modrm (rx : rexbits) (l : list Z) : option (Z * operand * list Z) :=
  match l with
  | [] => None
  | b :: l =>
      let md := b / 64 in let rg := (b / 8) mod 8 in let rm := b mod 8 in
      if md =? 3 then Some (rg, OReg (plus8 (xb rx) rm), l)
      else if rm =? 4 then match get_sib rx md l with Some (o, l) => Some (rg, o, l) | None => None end
      else if (rm =? 5) && (md =? 0)
      then match get_s 4 l with Some (d, l) => Some (rg, ORip d, l) | None => None end
      else match get_disp md l with
           | Some (d, l) => Some (rg, OMem (Some (plus8 (xb rx) rm)) None d, l) | None => None end
  end.

Definition cond_of (c : Z) : option cond :=
  if c =? 4 then Some CE else if c =? 5 then Some CNE else if c =? 12 then Some CL else if c =? 13 then Some CGE
  else if c =? 14 then Some CLE else if c =? 15 then Some CG else None.

(** opcodes with a ModRM byte: what they do with (register number, other operand, rest) *)
Definition with_modrm (rx : rexbits) (l : list Z) (k : Z -> operand -> list Z -> option (insn * list Z)) : option (insn * list Z) :=
  match get_modrm rx l with Some (rg, o, l) => k (plus8 (xr rx) rg) o l | None => None end.
(** ... and an opcode extension in the register field *)
Definition with_ext (rx : rexbits) (l : list Z) (k : Z -> operand -> list Z -> option (insn * list Z)) : option (insn * list Z) :=
  match get_modrm rx l with Some (rg, o, l) => k rg o l | None => None end.
Definition imm32 (l : list Z) (k : Z -> insn) : option (insn * list Z) :=
  match get_s 4 l with Some (v, l) => Some (k v, l) | None => None end.

(** two-byte opcodes 0F xx without mandatory prefix *)
Definition decode_0f (rx : rexbits) (op : Z) (l : list Z) : option (insn * list Z) :=
  if op / 16 =? 8 then match cond_of (op mod 16) with Some c => imm32 l (IJcc c) | None => None end
  else if op / 16 =? 4 then
    match cond_of (op mod 16) with
    | Some c => with_modrm rx l (fun r o l => Some (ICmov c (xw rx) r o, l)) | None => None end
  else None.

(** one-byte opcodes *)
Definition decode_op (rx : rexbits) (op : Z) (l : list Z) : option (insn * list Z) :=
  let w := xw rx in
  if op =? 1 then with_modrm rx l (fun r o l => Some (IAlu OpAdd w o (OReg r), l))
  else if op =? 41 then with_modrm rx l (fun r o l => Some (IAlu OpSub w o (OReg r), l))
  else if op =? 49 then with_modrm rx l (fun r o l => Some (IAlu OpXor w o (OReg r), l))
  else if op =? 57 then with_modrm rx l (fun r o l => Some (IAlu OpCmp w o (OReg r), l))
  else if op =? 59 then with_modrm rx l (fun r o l => Some (IAlu OpCmp w (OReg r) o, l))
  else if (80 <=? op) && (op <? 88) then Some (IPush (plus8 (xb rx) (op - 80)), l)
  else if (88 <=? op) && (op <? 96) then Some (IPop (plus8 (xb rx) (op - 88)), l)
  else if op =? 104 then imm32 l IPushImm
  else if op =? 106 then match get_s 1 l with Some (v, l) => Some (IPushImm v, l) | None => None end
  else if op =? 129 then
    with_ext rx l (fun e o l =>
      if e =? 0 then imm32 l (IAluImm OpAdd w o) else if e =? 5 then imm32 l (IAluImm OpSub w o)
      else if e =? 6 then imm32 l (IAluImm OpXor w o) else if e =? 7 then imm32 l (IAluImm OpCmp w o) else None)
  else if op =? 133 then with_modrm rx l (fun r o l => Some (ITest w o (OReg r), l))
  else if op =? 137 then with_modrm rx l (fun r o l => Some (IMov w o (OReg r), l))
  else if op =? 139 then with_modrm rx l (fun r o l => Some (IMov w (OReg r) o, l))
  else if op =? 141 then
    with_modrm rx l (fun r o l => match o with OReg _ => None | _ => Some (ILea w r o, l) end)
  else if (184 <=? op) && (op <? 192) then
    let r := plus8 (xb rx) (op - 184) in
    if w then match get 8 l with Some (v, l) => Some (IMovImm64 r v, l) | None => None end
    else match get 4 l with Some (v, l) => Some (IMovImm false (OReg r) v, l) | None => None end
  else if op =? 195 then Some (IRet, l)
  else if op =? 199 then with_ext rx l (fun e o l => if e =? 0 then imm32 l (IMovImm w o) else None)
  else if op =? 204 then Some (IInt3, l)
  else if op =? 233 then imm32 l IJmp
  else if op =? 247 then with_ext rx l (fun e o l => if e =? 0 then imm32 l (ITestImm w o) else None)
  else if op =? 255 then
    with_ext rx l (fun e o l => if e =? 2 then Some (ICall o, l) else if e =? 4 then Some (IJmpInd o, l) else None)
  else None.

(** an instruction: mandatory prefix F2/F3 or none, REX, opcode *)
Definition decode (l : list Z) : option (insn * list Z) :=
  match l with
  | 243 :: l =>
      let '(_, l) := take_rex l in
      match l with 164 :: l => Some (IRepMovsb, l) | _ => None end
  | 242 :: l =>
      let '(rx, l) := take_rex l in
      match l with
      | 15 :: 16 :: l => with_modrm rx l (fun r o l => Some (IMovsdLoad r o, l))
      | 15 :: 17 :: l => with_modrm rx l (fun r o l => Some (IMovsdStore o r, l))
      | _ => None
      end
  | _ =>
      let '(rx, l) := take_rex l in
      match l with
      | 15 :: op :: l => decode_0f rx op l
      | op :: l => decode_op rx op l
      | [] => None
      end
  end.
Fixpoint decode_all (n : nat) (l : list Z) : option (list insn * list Z) :=
  match n with
  | O => Some ([], l)
  | S n => match decode l with
           | Some (i, l) => match decode_all n l with Some (is_, l) => Some (i :: is_, l) | None => None end
           | None => None
           end
  end.

(** What each method is meant to write. *)
Definition mem (m : regrm) : operand := OMem (Some (rm_reg m)) None (rm_disp m).
Definition meaning (a : asm) : insn :=
  match a with
  | ABreak => IInt3 | ARepMovs => IRepMovsb
  | ACall r => ICall (OReg r) | AJumpR r => IJmpInd (OReg r) | AJump o => IJmp o
  | AJz o => IJcc CE o | AJl o => IJcc CL o | AJle o => IJcc CLE o | AJe o => IJcc CE o | AJne o => IJcc CNE o
  | APush r => IPush r | APushI v => IPushImm v | APop r => IPop r
  | AMovRR d s => IMov true (OReg d) (OReg s)
  | AMovMR m r => IMov true (mem m) (OReg r)
  | AMovRM r m => IMov true (OReg r) (mem m)
  | AMovRI d i => IMovImm false (OReg d) (i mod 2 ^ 32)
  | AMovMI m i => IMovImm true (mem m) i
  | AMovRU d i => if i <? 2 ^ 32 then IMovImm false (OReg d) i else IMovImm64 d i
  | AMovsdXM r m => IMovsdLoad r (mem m) | AMovsdMX m r => IMovsdStore (mem m) r
  | AAddRR d s => IAlu OpAdd true (OReg d) (OReg s) | AAddRI d i => IAluImm OpAdd true (OReg d) i
  | ASubRR d s => IAlu OpSub true (OReg d) (OReg s) | ASubRI d i => IAluImm OpSub true (OReg d) i
  | AXorRR d s => IAlu OpXor true (OReg d) (OReg s)
  | ATestRR d s => ITest true (OReg d) (OReg s) | ATestRI d i => ITestImm true (OReg d) i
  | ACmovneRM r m => ICmov CNE true r (mem m) | ACmovneRR r s => ICmov CNE true r (OReg s)
  | ACmovgeRM r m => ICmov CGE true r (mem m) | ACmovgeRR r s => ICmov CGE true r (OReg s)
  | ACmovgRM r m => ICmov CG true r (mem m) | ACmovgRR r s => ICmov CG true r (OReg s)
  | ALea r m => ILea true r (mem m)
  | ACmpRM r m => IAlu OpCmp true (OReg r) (mem m)
  | ACmpMR m r => IAlu OpCmp true (mem m) (OReg r)
  | ACmpRR r s => IAlu OpCmp true (OReg r) (OReg s)
  | ACmpRI d i => IAluImm OpCmp true (OReg d) i
  | ARet => IRet
  end.

(** Arguments a C++ caller can pass: one of the sixteen registers, a value of the parameter's type. *)
Definition reg_ok (r : Z) : Prop := 0 <= r < 16.
Definition int32_ok (v : Z) : Prop := - 2 ^ 31 <= v < 2 ^ 31.
Definition uint64_ok (v : Z) : Prop := 0 <= v < 2 ^ 64.
Definition rm_ok (m : regrm) : Prop := reg_ok (rm_reg m) /\ int32_ok (rm_disp m).
Definition asm_ok (a : asm) : Prop :=
  match a with
  | ABreak | ARepMovs | ARet => True
  | ACall r | AJumpR r | APush r | APop r => reg_ok r
  | AJump o | AJz o | AJl o | AJle o | AJe o | AJne o | APushI o => int32_ok o
  | AMovRR a b | AAddRR a b | ASubRR a b | AXorRR a b | ATestRR a b | ACmovneRR a b | ACmovgeRR a b | ACmovgRR a b | ACmpRR a b =>
      reg_ok a /\ reg_ok b
  | AMovMR m r | AMovRM r m | AMovsdXM r m | AMovsdMX m r | ACmovneRM r m | ACmovgeRM r m | ACmovgRM r m | ALea r m
  | ACmpRM r m | ACmpMR m r => reg_ok r /\ rm_ok m
  | AMovRI d i | AAddRI d i | ASubRI d i | ATestRI d i | ACmpRI d i => reg_ok d /\ int32_ok i
  | AMovMI m i => rm_ok m /\ int32_ok i
  | AMovRU d i => reg_ok d /\ uint64_ok i
  end.
