(** A decoder for 32-bit mode, written from the instruction set reference (Intel SDM vol. 2:
    chapter 2.1 for prefixes, ModRM and SIB; chapters 3-5 and appendix A for the opcodes, chapter
    8.3 of vol. 1 for the x87 instructions).  It knows the 32-bit addressing forms in full (also the
    ones the writer never produces, so that a wrong ModRM or SIB byte is decoded as what it really
    means) and the opcodes that occur in the header. *)
From Coq Require Import List ZArith Bool.
From Verif Require Import Asm32Model.
Import ListNotations.
Local Open Scope Z_scope.

(** Operands: a register (in the 8-bit instructions: AL CL DL BL AH CH DH BH) or memory at
    base + index * scale + displacement *)
Inductive operand :=
| OReg (r : Z)
| OMem (base : option Z) (index : option (Z * Z)) (disp : Z).

(** The eight operations of opcodes 00-3F and of 81/83, in the order of their numbers *)
Inductive aluop := OAdd | OOr | OAdc | OSbb | OAnd | OSub | OXor | OCmp.
Inductive shop := OShl | OShr | OSar.
Inductive count := Cnt (n : Z) | CntCL.
Inductive farith := FAdd | FMul | FSub | FDiv.

(** Instructions, operand size 32 unless the name says otherwise; conditions are numbered as in the opcodes *)
Inductive insn :=
| IInt3 | ICld | IMovsd | IMovsb | ICmpsb | IStosd | IRepMovsd | IRepMovsb | IPushad | IPopad
| IInc (o : operand) | IDec (o : operand) | INeg (o : operand) | INot (o : operand)
| IMul (o : operand) | IImul1 (o : operand) | IDiv (o : operand) | IIdiv (o : operand)
| IImul2 (r : Z) (o : operand) | IImul3 (r : Z) (o : operand) (v : Z)
| IShift (op : shop) (o : operand) (c : count)
| IXchgEax (r : Z)
| IAlu (op : aluop) (dst src : operand) | IAluImm (op : aluop) (dst : operand) (v : Z) | IAlu8Imm (op : aluop) (r v : Z)
| ITest (dst src : operand) | ITest8 (dst src : operand) | ITestImm (dst : operand) (v : Z)
| ILea (r : Z) (src : operand)
| IPush (o : operand) | IPushImm (v : Z) | IPop (r : Z)
| IMov (dst src : operand) | IMov8 (dst src : operand) | IMov16 (dst src : operand) | IMovImm (dst : operand) (v : Z)
| IMovzx (bits r : Z) (src : operand) | IMovzx16to16 (r : Z) (src : operand)
| ISetcc (c : Z) (o : operand) | ICmov (c r : Z) (src : operand)
| IJcc (c rel : Z) | IJmp (rel : Z) | IJmpInd (o : operand) | ICallRel (rel : Z) | ICall (o : operand) | IRet (n : Z)
| IFld (bytes : Z) (o : operand) | IFstp (bytes : Z) (o : operand) | IFild32 (o : operand) | IFistp32 (o : operand)
| IFarith (op : farith) (o : operand) | IFaddReg (r : Z) | IFucomip (r : Z) | IFstpReg (r : Z)
| IFstcw (o : operand) | IFldcw (o : operand).

(** Numbers in the code stream *)
Fixpoint get (n : nat) (l : list Z) : option (Z * list Z) :=
  match n with
  | O => Some (0, l)
  | S n => match l with
           | [] => None
           | b :: l => match get n l with Some (v, r) => Some (b + 256 * v, r) | None => None end
           end
  end.
Definition sext (bits v : Z) : Z := if v <? 2 ^ (bits - 1) then v else v - 2 ^ bits.
Definition get_s (n : nat) (l : list Z) : option (Z * list Z) :=
  match get n l with Some (v, r) => Some (sext (8 * Z.of_nat n) v, r) | None => None end.

(** the displacement that belongs to a mod field other than 11 *)
Definition get_disp (md : Z) (l : list Z) : option (Z * list Z) :=
  if md =? 0 then Some (0, l) else if md =? 1 then get_s 1 l else get_s 4 l.
(** SIB byte: scale, index (100: none), base (101 with mod 00: none, 32-bit displacement) *)
Definition get_sib (md : Z) (l : list Z) : option (operand * list Z) :=
  match l with
  | [] => None
  | s :: l =>
      let ss := s / 64 in let ix := (s / 8) mod 8 in let bs := s mod 8 in
      let index := if ix =? 4 then None else Some (ix, 2 ^ ss) in
      if (bs =? 5) && (md =? 0)
      then match get_s 4 l with Some (d, l) => Some (OMem None index d, l) | None => None end
      else match get_disp md l with Some (d, l) => Some (OMem (Some bs) index d, l) | None => None end
  end.
(** ModRM byte: the register field and the other operand *)
Definition get_modrm (l : list Z) : option (Z * operand * list Z) :=
  match l with
  | [] => None
  | b :: l =>
      let md := b / 64 in let rg := (b / 8) mod 8 in let rm := b mod 8 in
      if md =? 3 then Some (rg, OReg rm, l)
      else if rm =? 4 then match get_sib md l with Some (o, l) => Some (rg, o, l) | None => None end
      else if (rm =? 5) && (md =? 0)
      then match get_s 4 l with Some (d, l) => Some (rg, OMem None None d, l) | None => None end
      else match get_disp md l with
           | Some (d, l) => Some (rg, OMem (Some rm) None d, l) | None => None end
  end.
Definition with_modrm (l : list Z) (k : Z -> operand -> list Z -> option (insn * list Z)) : option (insn * list Z) :=
  match get_modrm l with Some (rg, o, l) => k rg o l | None => None end.
(** ... of which the operand must be memory *)
Definition with_mem (l : list Z) (k : Z -> operand -> list Z -> option (insn * list Z)) : option (insn * list Z) :=
  with_modrm l (fun r o l => match o with OReg _ => None | _ => k r o l end).
Definition imm (n : nat) (l : list Z) (k : Z -> insn) : option (insn * list Z) :=
  match get_s n l with Some (v, l) => Some (k v, l) | None => None end.
Definition uimm (n : nat) (l : list Z) (k : Z -> insn) : option (insn * list Z) :=
  match get n l with Some (v, l) => Some (k v, l) | None => None end.

Definition alu_of (n : Z) : aluop :=
  if n =? 0 then OAdd else if n =? 1 then OOr else if n =? 2 then OAdc else if n =? 3 then OSbb
  else if n =? 4 then OAnd else if n =? 5 then OSub else if n =? 6 then OXor else OCmp.
Definition shift_of (n : Z) : option shop :=
  if n =? 4 then Some OShl else if n =? 5 then Some OShr else if n =? 7 then Some OSar else None.
Definition farith_of (n : Z) : option farith :=
  if n =? 0 then Some FAdd else if n =? 1 then Some FMul else if n =? 4 then Some FSub else if n =? 6 then Some FDiv else None.

(** two-byte opcodes 0F xx *)
Definition decode_0f (op : Z) (l : list Z) : option (insn * list Z) :=
  if op / 16 =? 4 then with_modrm l (fun r o l => Some (ICmov (op mod 16) r o, l))
  else if op / 16 =? 8 then imm 4 l (IJcc (op mod 16))
  else if op / 16 =? 9 then with_modrm l (fun _ o l => Some (ISetcc (op mod 16) o, l))
  else if op =? 175 then with_modrm l (fun r o l => Some (IImul2 r o, l))
  else if op =? 182 then with_modrm l (fun r o l => Some (IMovzx 8 r o, l))
  else if op =? 183 then with_modrm l (fun r o l => Some (IMovzx 16 r o, l))
  else None.

(** x87 opcodes D8-DF: memory operands, or a register form *)
Definition decode_fpu (op : Z) (l : list Z) : option (insn * list Z) :=
  with_modrm l (fun e o l =>
    match o with
    | OReg r =>
        if (op =? 220) && (e =? 0) then Some (IFaddReg r, l)
        else if (op =? 221) && (e =? 3) then Some (IFstpReg r, l)
        else if (op =? 223) && (e =? 5) then Some (IFucomip r, l)
        else None
    | _ =>
        if op =? 216 then match farith_of e with Some a => Some (IFarith a o, l) | None => None end
        else if op =? 217 then
          if e =? 0 then Some (IFld 4 o, l) else if e =? 3 then Some (IFstp 4 o, l) else if e =? 5 then Some (IFldcw o, l) else None
        else if op =? 219 then
          if e =? 0 then Some (IFild32 o, l) else if e =? 3 then Some (IFistp32 o, l) else None
        else if op =? 221 then
          if e =? 0 then Some (IFld 8 o, l) else if e =? 3 then Some (IFstp 8 o, l) else None
        else None
    end).

(** one-byte opcodes *)
Definition decode_op (op : Z) (l : list Z) : option (insn * list Z) :=
  if op <? 64 then
    let a := alu_of (op / 8) in
    if op mod 8 =? 1 then with_modrm l (fun r o l => Some (IAlu a o (OReg r), l))
    else if op mod 8 =? 3 then with_modrm l (fun r o l => Some (IAlu a (OReg r) o, l))
    else if op mod 8 =? 4 then imm 1 l (IAlu8Imm a 0)
    else if op mod 8 =? 5 then imm 4 l (IAluImm a (OReg 0))
    else None
  else if op <? 72 then Some (IInc (OReg (op - 64)), l)
  else if op <? 80 then Some (IDec (OReg (op - 72)), l)
  else if op <? 88 then Some (IPush (OReg (op - 80)), l)
  else if op <? 96 then Some (IPop (op - 88), l)
  else if op =? 96 then Some (IPushad, l)
  else if op =? 97 then Some (IPopad, l)
  else if op =? 104 then imm 4 l IPushImm
  else if op =? 105 then with_modrm l (fun r o l => imm 4 l (IImul3 r o))
  else if op =? 106 then imm 1 l IPushImm
  else if op =? 107 then with_modrm l (fun r o l => imm 1 l (IImul3 r o))
  else if (112 <=? op) && (op <? 128) then imm 1 l (IJcc (op - 112))
  else if op =? 129 then with_modrm l (fun e o l => imm 4 l (IAluImm (alu_of e) o))
  else if op =? 131 then with_modrm l (fun e o l => imm 1 l (IAluImm (alu_of e) o))
  else if op =? 132 then with_modrm l (fun r o l => Some (ITest8 o (OReg r), l))
  else if op =? 133 then with_modrm l (fun r o l => Some (ITest o (OReg r), l))
  else if op =? 136 then with_modrm l (fun r o l => Some (IMov8 o (OReg r), l))
  else if op =? 137 then with_modrm l (fun r o l => Some (IMov o (OReg r), l))
  else if op =? 138 then with_modrm l (fun r o l => Some (IMov8 (OReg r) o, l))
  else if op =? 139 then with_modrm l (fun r o l => Some (IMov (OReg r) o, l))
  else if op =? 141 then with_mem l (fun r o l => Some (ILea r o, l))
  else if (144 <=? op) && (op <? 152) then Some (IXchgEax (op - 144), l)
  else if op =? 164 then Some (IMovsb, l)
  else if op =? 165 then Some (IMovsd, l)
  else if op =? 166 then Some (ICmpsb, l)
  else if op =? 171 then Some (IStosd, l)
  else if (184 <=? op) && (op <? 192) then imm 4 l (IMovImm (OReg (op - 184)))
  else if op =? 193 then
    with_modrm l (fun e o l => match shift_of e with Some s => uimm 1 l (fun n => IShift s o (Cnt n)) | None => None end)
  else if op =? 194 then uimm 2 l IRet
  else if op =? 195 then Some (IRet 0, l)
  else if op =? 199 then with_modrm l (fun e o l => if e =? 0 then imm 4 l (IMovImm o) else None)
  else if op =? 204 then Some (IInt3, l)
  else if op =? 209 then with_modrm l (fun e o l => match shift_of e with Some s => Some (IShift s o (Cnt 1), l) | None => None end)
  else if op =? 211 then with_modrm l (fun e o l => match shift_of e with Some s => Some (IShift s o CntCL, l) | None => None end)
  else if (216 <=? op) && (op <? 224) then decode_fpu op l
  else if op =? 232 then imm 4 l ICallRel
  else if op =? 233 then imm 4 l IJmp
  else if op =? 235 then imm 1 l IJmp
  else if op =? 247 then
    with_modrm l (fun e o l =>
      if e =? 0 then imm 4 l (ITestImm o) else if e =? 2 then Some (INot o, l) else if e =? 3 then Some (INeg o, l)
      else if e =? 4 then Some (IMul o, l) else if e =? 5 then Some (IImul1 o, l)
      else if e =? 6 then Some (IDiv o, l) else if e =? 7 then Some (IIdiv o, l) else None)
  else if op =? 252 then Some (ICld, l)
  else if op =? 255 then
    with_modrm l (fun e o l =>
      if e =? 0 then Some (IInc o, l) else if e =? 1 then Some (IDec o, l) else if e =? 2 then Some (ICall o, l)
      else if e =? 4 then Some (IJmpInd o, l) else if e =? 6 then Some (IPush o, l) else None)
  else None.

(** operand size prefix 66: the instructions that occur with it *)
Definition decode_66 (l : list Z) : option (insn * list Z) :=
  match l with
  | 15 :: 183 :: l => with_modrm l (fun r o l => Some (IMovzx16to16 r o, l))
  | 137 :: l => with_modrm l (fun r o l => Some (IMov16 o (OReg r), l))
  | _ => None
  end.

(** an instruction *)
Definition decode (l : list Z) : option (insn * list Z) :=
  match l with
  | [] => None
  | op :: l =>
      if op =? 243 then
        match l with 164 :: l => Some (IRepMovsb, l) | 165 :: l => Some (IRepMovsd, l) | _ => None end
      else if op =? 102 then decode_66 l
      else if op =? 155 then                       (* fwait; fnstcw m16 *)
        match l with
        | 217 :: l => with_mem l (fun e o l => if e =? 7 then Some (IFstcw o, l) else None)
        | _ => None
        end
      else if op =? 15 then match l with op :: l => decode_0f op l | [] => None end
      else decode_op op l
  end.
Fixpoint decode_all (n : nat) (l : list Z) : option (list insn * list Z) :=
  match n with
  | O => Some ([], l)
  | S n => match decode l with
           | Some (i, l) => match decode_all n l with Some (is_, l) => Some (i :: is_, l) | None => None end
           | None => None
           end
  end.

(** ** What each function is meant to write. *)
(** [reg + disp], [base + index * 2^scale + disp] (REG_NOIDX = 4: no index), "Rm" with the mode *)
Definition at_ (reg disp : Z) : operand := OMem (Some reg) None disp.
Definition atx (base index scale disp : Z) : operand :=
  OMem (Some base) (if index =? 4 then None else Some (index, 2 ^ scale)) disp.
Definition rm (mode reg : Z) : operand := if mode =? 3 then OReg reg else at_ reg 0.
Definition meaning (a : asm) : insn :=
  match a with
  | AInt3 => IInt3
  | AInc_Reg reg => IInc (OReg reg)
  | AInc_Rm_Disp8 reg disp => IInc (at_ reg disp)
  | AInc_Rm_Disp32 reg disp => IInc (at_ reg disp)
  | AInc_Rm_Disp_Reg base reg scale => IInc (atx base reg scale 0)
  | ADec_Reg reg => IDec (OReg reg)
  | ADec_Rm_Disp8 reg disp => IDec (at_ reg disp)
  | ADec_Rm_Disp32 reg disp => IDec (at_ reg disp)
  | ADec_Rm_Disp_Reg base reg scale => IDec (atx base reg scale 0)
  | AXor_Rm_Reg dest src mode => IAlu OXor (rm mode dest) (OReg src)
  | AXor_Reg_Rm dest src mode => IAlu OXor (OReg dest) (rm mode src)
  | AXor_Rm_Imm8 reg mode value => IAluImm OXor (rm mode reg) value
  | AXor_Rm_Imm32 reg mode value => IAluImm OXor (rm mode reg) value
  | AXor_Eax_Imm32 value => IAluImm OXor (OReg 0) value
  | ANeg_Rm reg mode => INeg (rm mode reg)
  | AOr_Reg_Rm dest src mode => IAlu OOr (OReg dest) (rm mode src)
  | AAnd_Reg_Rm dest src mode => IAlu OAnd (OReg dest) (rm mode src)
  | AAnd_Rm_Imm32 reg mode value => IAluImm OAnd (rm mode reg) value
  | AAnd_Rm_Imm8 reg mode value => IAluImm OAnd (rm mode reg) value
  | AAnd_Eax_Imm32 value => IAluImm OAnd (OReg 0) value
  | ANot_Rm reg mode => INot (rm mode reg)
  | AShr_Rm_Imm8 dest value mode => IShift OShr (rm mode dest) (Cnt value)
  | AShr_Rm_1 dest mode => IShift OShr (rm mode dest) (Cnt 1)
  | AShl_Rm_Imm8 dest value mode => IShift OShl (rm mode dest) (Cnt value)
  | AShl_Rm_1 dest mode => IShift OShl (rm mode dest) (Cnt 1)
  | ASar_Rm_Imm8 dest value mode => IShift OSar (rm mode dest) (Cnt value)
  | ASar_Rm_CL reg mode => IShift OSar (rm mode reg) CntCL
  | ASar_Rm_1 dest mode => IShift OSar (rm mode dest) (Cnt 1)
  | AShr_Rm_CL reg mode => IShift OShr (rm mode reg) CntCL
  | AShl_Rm_CL reg mode => IShift OShl (rm mode reg) CntCL
  | AXchg_Eax_Reg reg => IXchgEax reg
  | AAdd_Rm_Reg dest src mode => IAlu OAdd (rm mode dest) (OReg src)
  | AAdd_Reg_Rm dest src mode => IAlu OAdd (OReg dest) (rm mode src)
  | AAdd_Rm_Imm8 reg value mode => IAluImm OAdd (rm mode reg) value
  | AAdd_Rm_Imm32 reg value mode => IAluImm OAdd (rm mode reg) value
  | AAdd_Rm_ImmAuto reg value mode => IAluImm OAdd (rm mode reg) value
  | AAdd_Eax_Imm32 value => IAluImm OAdd (OReg 0) value
  | ASub_Rm_Reg dest src mode => IAlu OSub (rm mode dest) (OReg src)
  | ASub_Reg_Rm dest src mode => IAlu OSub (OReg dest) (rm mode src)
  | ASub_Reg_Rm_Disp8 dest src disp8 => IAlu OSub (OReg dest) (at_ src disp8)
  | ASub_Rm_Reg_Disp8 dest src disp8 => IAlu OSub (at_ dest disp8) (OReg src)
  | ASub_Rm_Imm8 reg val mode => IAluImm OSub (rm mode reg) val
  | ASub_Rm_Imm32 reg val mode => IAluImm OSub (rm mode reg) val
  | ASub_Rm_ImmAuto reg val mode => IAluImm OSub (rm mode reg) val
  | ASbb_Reg_Rm dest src mode => IAlu OSbb (OReg dest) (rm mode src)
  | ASbb_Rm_Imm8 dest value mode => IAluImm OSbb (rm mode dest) value
  | ADiv_Rm reg mode => IDiv (rm mode reg)
  | AIDiv_Rm reg mode => IIdiv (rm mode reg)
  | AMul_Rm reg mode => IMul (rm mode reg)
  | AIMul_Rm reg mode => IImul1 (rm mode reg)
  | AIMul_Reg_Imm8 reg mode value => IImul3 reg (OReg reg) value
  | AIMul_Reg_Imm32 reg mode value => IImul3 reg (OReg reg) value
  | AIMul_Reg_Rm dest src mode => IImul2 dest (rm mode src)
  | AAdd_Rm_Reg_Disp8 dest src disp => IAlu OAdd (at_ dest disp) (OReg src)
  | AAdd_Reg_Rm_Disp8 dest src disp => IAlu OAdd (OReg dest) (at_ src disp)
  | AAdd_Rm_Imm8_Disp8 dest val disp8 => IAluImm OAdd (at_ dest disp8) val
  | AAdd_Rm_Imm32_Disp8 dest val disp8 => IAluImm OAdd (at_ dest disp8) val
  | AAdd_Rm_Imm32_Later dest mode => IAluImm OAdd (rm mode dest) 0
  | AAdd_Rm_Imm8_Disp32 dest val disp32 => IAluImm OAdd (at_ dest disp32) val
  | AAdd_RmEBP_Imm8_Disp_Reg base index scale val => IAluImm OAdd (atx base index scale 0) val
  | ASub_Rm_Imm8_Disp8 dest val disp8 => IAluImm OSub (at_ dest disp8) val
  | ASub_Rm_Imm8_Disp32 dest val disp32 => IAluImm OSub (at_ dest disp32) val
  | ASub_RmEBP_Imm8_Disp_Reg base index scale val => IAluImm OSub (atx base index scale 0) val
  | ALea_Reg_DispRegMult dest base index scale => ILea dest (atx base index scale 0)
  | ALea_Reg_DispEBPRegMult dest base index scale => ILea dest (atx base index scale 0)
  | ALea_Reg_DispRegMultImm8 dest base index scale val => ILea dest (atx base index scale val)
  | ALea_Reg_DispRegMultImm32 dest base index scale val => ILea dest (atx base index scale val)
  | ALea_Reg_RegMultImm32 dest index scale val => ILea dest (OMem None (Some (index, 2 ^ scale)) val)
  | ALea_DispRegImm8 dest base val => ILea dest (at_ base val)
  | ALea_DispRegImm32 dest base val => ILea dest (at_ base val)
  | ALea_DispRegImmAuto dest base val => ILea dest (at_ base val)
  | APop_Reg reg => IPop reg
  | APush_Reg reg => IPush (OReg reg)
  | APush_Imm8 val => IPushImm val
  | APush_Imm32 val => IPushImm val
  | APushad => IPushad
  | APopad => IPopad
  | APush_Rm_Disp8 reg disp8 => IPush (at_ reg disp8)
  | APush_Rm_Disp32 reg disp32 => IPush (at_ reg disp32)
  | APush_Rm_DispAuto reg disp => IPush (at_ reg disp)
  | APush_Rm_Disp8_ESP disp8 => IPush (at_ 4 disp8)
  | AMov_Reg_Rm dest src mode => IMov (OReg dest) (rm mode src)
  | AMov_Reg8_Rm8 dest src mode => IMov8 (OReg dest) (rm mode src)
  | AMov_Reg_RmESP dest => IMov (OReg dest) (at_ 4 0)
  | AMov_Reg_Rm_Disp8 dest src disp => IMov (OReg dest) (at_ src disp)
  | AMov_Reg8_Rm8_Disp8 dest src disp => IMov8 (OReg dest) (at_ src disp)
  | AMov_Reg_Esp_Disp8 dest disp => IMov (OReg dest) (at_ 4 disp)
  | AMov_Reg_Rm_Disp32 dest src disp => IMov (OReg dest) (at_ src disp)
  | AMov_Reg8_Rm8_Disp32 dest src disp => IMov8 (OReg dest) (at_ src disp)
  | AMov_Reg_Rm_Disp_Reg dest base index scale => IMov (OReg dest) (atx base index scale 0)
  | AMov_Reg_Rm_Disp_Reg_Disp8 dest base index scale disp8 => IMov (OReg dest) (atx base index scale disp8)
  | AMov_Reg_RmEBP_Disp_Reg dest base index scale => IMov (OReg dest) (atx base index scale 0)
  | AMov_Reg_Rm_DispAuto dest src disp => IMov (OReg dest) (at_ src disp)
  | AMov_Rm_Reg dest src mode => IMov (rm mode dest) (OReg src)
  | AMov_Rm8_Reg8 dest src mode => IMov8 (rm mode dest) (OReg src)
  | AMov_Rm8_Reg8_Disp8 dest src disp => IMov8 (at_ dest disp) (OReg src)
  | AMov_Rm8_Reg8_Disp32 dest src disp => IMov8 (at_ dest disp) (OReg src)
  | AMov_Rm8_Reg8_DispAuto dest src disp => IMov8 (at_ dest disp) (OReg src)
  | AMov_RmESP_Reg src => IMov (at_ 4 0) (OReg src)
  | AMov_Rm_Reg_Disp8 dest src disp => IMov (at_ dest disp) (OReg src)
  | AMov_Rm_Reg_Disp32 dest src disp => IMov (at_ dest disp) (OReg src)
  | AMov_Rm_Reg_DispAuto dest src disp => IMov (at_ dest disp) (OReg src)
  | AMov_RmEBP_Reg_Disp_Reg base index scale src => IMov (atx base index scale 0) (OReg src)
  | AMov_Rm8EBP_Reg_Disp_Reg base index scale src => IMov8 (atx base index scale 0) (OReg src)
  | AMov_Rm16EBP_Reg_Disp_Reg base index scale src => IMov16 (atx base index scale 0) (OReg src)
  | AMov_Reg_Imm32 dest num => IMovImm (OReg dest) num
  | AMov_Rm_Imm32 dest val mode => IMovImm (rm mode dest) val
  | AMov_Rm_Imm32_Disp8 dest val disp8 => IMovImm (at_ dest disp8) val
  | AMov_Rm_Imm32_Disp32 dest val disp32 => IMovImm (at_ dest disp32) val
  | AMov_RmEBP_Imm32_Disp_Reg base index scale val => IMovImm (atx base index scale 0) val
  | AMov_ESP_Disp8_Imm32 disp8 val => IMovImm (at_ 4 disp8) val
  | AFstcw_Mem16_ESP => IFstcw (at_ 4 0)
  | AFldcw_Mem16_ESP => IFldcw (at_ 4 0)
  | AFldcw_Mem16_Disp8_ESP disp8 => IFldcw (at_ 4 disp8)
  | AFistp_Mem32_ESP => IFistp32 (at_ 4 0)
  | AFistp_Mem32_Disp8_Esp disp8 => IFistp32 (at_ 4 disp8)
  | AFucomip_ST0_FPUreg reg => IFucomip reg
  | AFadd_FPUreg_ST0 reg => IFaddReg reg
  | AFadd_Mem32_Disp8 src val => IFarith FAdd (at_ src val)
  | AFadd_Mem32_ESP => IFarith FAdd (at_ 4 0)
  | AFsub_Mem32_Disp8 src val => IFarith FSub (at_ src val)
  | AFmul_Mem32_Disp8 src val => IFarith FMul (at_ src val)
  | AFdiv_Mem32_Disp8 src val => IFarith FDiv (at_ src val)
  | AFild_Mem32 src => IFild32 (at_ src 0)
  | AFstp_Mem32 dest => IFstp 4 (at_ dest 0)
  | AFstp_Mem32_DispAuto dest disp => IFstp 4 (at_ dest disp)
  | AFstp_Mem64 dest => IFstp 8 (at_ dest 0)
  | AFstp_Mem64_DispAuto dest disp => IFstp 8 (at_ dest disp)
  | AFstp_Mem32_ESP => IFstp 4 (at_ 4 0)
  | AFstp_Mem64_ESP => IFstp 8 (at_ 4 0)
  | AFstp_FPUreg reg => IFstpReg reg
  | AFld_Mem32 src => IFld 4 (at_ src 0)
  | AFld_Mem64 src => IFld 8 (at_ src 0)
  | AFld_Mem32_Disp8 src val => IFld 4 (at_ src val)
  | AFld_Mem64_Disp8 src val => IFld 8 (at_ src val)
  | AFld_Mem32_Disp32 src val => IFld 4 (at_ src val)
  | AFld_Mem64_Disp32 src val => IFld 8 (at_ src val)
  | AFld_Mem32_DispAuto src disp => IFld 4 (at_ src disp)
  | AFld_Mem64_DispAuto src disp => IFld 8 (at_ src disp)
  | AMovzx_Reg32_Rm8 dest src mode => IMovzx 8 dest (rm mode src)
  | AMovzx_Reg32_Rm8_Disp8 dest src disp => IMovzx 8 dest (at_ src disp)
  | AMovzx_Reg32_Rm8_Disp32 dest src disp => IMovzx 8 dest (at_ src disp)
  | AMovzx_Reg32_Rm8_DispAuto dest src disp => IMovzx 8 dest (at_ src disp)
  | AMovzx_Reg32_Rm16 dest src mode => IMovzx 16 dest (rm mode src)
  | AMovzx_Reg32_Rm16_Disp8 dest src disp => IMovzx 16 dest (at_ src disp)
  | AMovzx_Reg32_Rm16_Disp32 dest src disp => IMovzx 16 dest (at_ src disp)
  | AMovzx_Reg32_Rm16_DispAuto dest src disp => IMovzx 16 dest (at_ src disp)
  | AJump_Cond_Imm8 cond disp => IJcc cond disp
  | AJump_Imm32 disp => IJmp disp
  | AJump_Imm8 disp => IJmp disp
  | AJump_Cond_Imm32 cond disp => IJcc cond disp
  | AJump_Reg reg => IJmpInd (OReg reg)
  | AJump_Rm reg mode => IJmpInd (rm mode reg)
  | ACall_Imm32 disp => ICallRel disp
  | ACall_Reg reg => ICall (OReg reg)
  | ACall_Rm reg mode => ICall (rm mode reg)
  | AReturn => IRet 0
  | AReturn_Popstack bytes => IRet bytes
  | ATest_Rm_Reg reg1 reg2 mode => ITest (rm mode reg1) (OReg reg2)
  | ATest_Rm_Reg8 reg1 reg2 mode => ITest8 (rm mode reg1) (OReg reg2)
  | ATest_Rm_Imm32 operand1 imm mode => ITestImm (rm mode operand1) imm
  | ACmp_Rm_Reg dest src mode => IAlu OCmp (rm mode dest) (OReg src)
  | ACmp_Reg_Rm dest src mode => IAlu OCmp (OReg dest) (rm mode src)
  | ACmp_Reg_Rm_ESP cmpreg => IAlu OCmp (OReg cmpreg) (at_ 4 0)
  | ACmp_Reg_Rm_Disp8 reg1 reg2 disp8 => IAlu OCmp (OReg reg1) (at_ reg2 disp8)
  | ACmp_Rm_Imm8 mode reg imm8 => IAluImm OCmp (rm mode reg) imm8
  | ACmp_Rm_Imm32 mode reg imm32 => IAluImm OCmp (rm mode reg) imm32
  | ACmp_Rm_Imm32_Disp8 reg disp8 imm32 => IAluImm OCmp (at_ reg disp8) imm32
  | ACmp_Rm_Disp8_Imm8 reg disp imm8 => IAluImm OCmp (at_ reg disp) imm8
  | ACmp_Al_Imm8 value => IAlu8Imm OCmp 0 value
  | ACmp_Eax_Imm32 value => IAluImm OCmp (OReg 0) value
  | ASetCC_Rm8 reg cond => ISetcc cond (OReg reg)
  | ACmovCC_Rm src cond => ICmov cond 0 (at_ src 0)
  | ACmovCC_Rm_Disp8 src cond disp => ICmov cond 0 (at_ src disp)
  | ACmpsb => ICmpsb
  | AMovsd => IMovsd
  | AMovsb => IMovsb
  | AStosd => IStosd
  | ACld => ICld
  | ARepMovsd => IRepMovsd
  | ARepMovsb => IRepMovsb
  | AMovzx16Prefixed dest src disp => IMovzx16to16 dest (at_ src disp)
  end.

(** Arguments for which the function is required to do that: one of the eight registers, a value of
    the parameter's type; as the base of an operand without SIB byte not ESP (the functions with ESP
    or a scale in their name write a SIB byte), without displacement not EBP either; the mode
    MOD_REG or MOD_MEM_REG.  The conditions in parentheses are those that the function's type and
    name do not suggest; the theorems named _refuted in Asm32Props say why they are there. *)
Definition reg_ok (r : Z) : Prop := 0 <= r < 8.
Definition base_ok (r : Z) : Prop := 0 <= r < 8 /\ r <> 4.
Definition no5 (r : Z) : Prop := 0 <= r < 8 /\ r <> 5.
Definition no45 (r : Z) : Prop := 0 <= r < 8 /\ r <> 4 /\ r <> 5.
Definition noidx_ok (r : Z) : Prop := 0 <= r < 8 /\ r <> 4.
Definition rm_ok (mode r : Z) : Prop := 0 <= r < 8 /\ (mode = 3 \/ mode = 0 /\ r <> 4 /\ r <> 5).
Definition scale_ok (s : Z) : Prop := 0 <= s < 4.
Definition cond_ok (c : Z) : Prop := 0 <= c < 16.
Definition int8_ok (v : Z) : Prop := -128 <= v <= 127.
Definition int32_ok (v : Z) : Prop := - 2 ^ 31 <= v < 2 ^ 31.
Definition uint8_ok (v : Z) : Prop := 0 <= v < 256.
Definition uint16_ok (v : Z) : Prop := 0 <= v < 65536.
Definition asm_ok (a : asm) : Prop :=
  match a with
  | AInt3 => True
  | AInc_Reg reg => reg_ok reg
  | AInc_Rm_Disp8 reg disp => base_ok reg /\ int8_ok disp
  | AInc_Rm_Disp32 reg disp => base_ok reg /\ int32_ok disp
  | AInc_Rm_Disp_Reg base reg scale => no5 base /\ reg_ok reg /\ scale_ok scale
  | ADec_Reg reg => reg_ok reg
  | ADec_Rm_Disp8 reg disp => base_ok reg /\ int8_ok disp
  | ADec_Rm_Disp32 reg disp => base_ok reg /\ int32_ok disp
  | ADec_Rm_Disp_Reg base reg scale => no5 base /\ reg_ok reg /\ scale_ok scale
  | AXor_Rm_Reg dest src mode => rm_ok mode dest /\ reg_ok src
  | AXor_Reg_Rm dest src mode => reg_ok dest /\ rm_ok mode src
  | AXor_Rm_Imm8 reg mode value => rm_ok mode reg /\ int8_ok value
  | AXor_Rm_Imm32 reg mode value => rm_ok mode reg /\ int32_ok value
  | AXor_Eax_Imm32 value => int32_ok value
  | ANeg_Rm reg mode => rm_ok mode reg
  | AOr_Reg_Rm dest src mode => reg_ok dest /\ rm_ok mode src
  | AAnd_Reg_Rm dest src mode => reg_ok dest /\ rm_ok mode src
  | AAnd_Rm_Imm32 reg mode value => rm_ok mode reg /\ int32_ok value
  | AAnd_Rm_Imm8 reg mode value => rm_ok mode reg /\ int8_ok value
  | AAnd_Eax_Imm32 value => int32_ok value
  | ANot_Rm reg mode => rm_ok mode reg
  | AShr_Rm_Imm8 dest value mode => rm_ok mode dest /\ uint8_ok value
  | AShr_Rm_1 dest mode => rm_ok mode dest
  | AShl_Rm_Imm8 dest value mode => rm_ok mode dest /\ uint8_ok value
  | AShl_Rm_1 dest mode => rm_ok mode dest
  | ASar_Rm_Imm8 dest value mode => rm_ok mode dest /\ uint8_ok value
  | ASar_Rm_CL reg mode => rm_ok mode reg
  | ASar_Rm_1 dest mode => rm_ok mode dest
  | AShr_Rm_CL reg mode => rm_ok mode reg
  | AShl_Rm_CL reg mode => rm_ok mode reg
  | AXchg_Eax_Reg reg => reg_ok reg
  | AAdd_Rm_Reg dest src mode => rm_ok mode dest /\ reg_ok src
  | AAdd_Reg_Rm dest src mode => reg_ok dest /\ rm_ok mode src
  | AAdd_Rm_Imm8 reg value mode => rm_ok mode reg /\ int8_ok value
  | AAdd_Rm_Imm32 reg value mode => rm_ok mode reg /\ int32_ok value
  | AAdd_Rm_ImmAuto reg value mode => rm_ok mode reg /\ int32_ok value
  | AAdd_Eax_Imm32 value => int32_ok value
  | ASub_Rm_Reg dest src mode => rm_ok mode dest /\ reg_ok src
  | ASub_Reg_Rm dest src mode => reg_ok dest /\ rm_ok mode src
  | ASub_Reg_Rm_Disp8 dest src disp8 => reg_ok dest /\ base_ok src /\ int8_ok disp8
  | ASub_Rm_Reg_Disp8 dest src disp8 => base_ok dest /\ reg_ok src /\ int8_ok disp8
  | ASub_Rm_Imm8 reg val mode => rm_ok mode reg /\ int8_ok val
  | ASub_Rm_Imm32 reg val mode => rm_ok mode reg /\ int32_ok val
  | ASub_Rm_ImmAuto reg val mode => rm_ok mode reg /\ int32_ok val
  | ASbb_Reg_Rm dest src mode => reg_ok dest /\ rm_ok mode src
  | ASbb_Rm_Imm8 dest value mode => rm_ok mode dest /\ int8_ok value
  | ADiv_Rm reg mode => rm_ok mode reg
  | AIDiv_Rm reg mode => rm_ok mode reg
  | AMul_Rm reg mode => rm_ok mode reg
  | AIMul_Rm reg mode => rm_ok mode reg
  | AIMul_Reg_Imm8 reg mode value => rm_ok mode reg /\ int8_ok value /\ (mode = 3 /\ reg = 0)
  | AIMul_Reg_Imm32 reg mode value => rm_ok mode reg /\ int32_ok value /\ (mode = 3 /\ reg = 0)
  | AIMul_Reg_Rm dest src mode => reg_ok dest /\ rm_ok mode src
  | AAdd_Rm_Reg_Disp8 dest src disp => base_ok dest /\ reg_ok src /\ int8_ok disp
  | AAdd_Reg_Rm_Disp8 dest src disp => reg_ok dest /\ base_ok src /\ int8_ok disp
  | AAdd_Rm_Imm8_Disp8 dest val disp8 => base_ok dest /\ int8_ok val /\ int8_ok disp8
  | AAdd_Rm_Imm32_Disp8 dest val disp8 => base_ok dest /\ int32_ok val /\ int8_ok disp8
  | AAdd_Rm_Imm32_Later dest mode => rm_ok mode dest
  | AAdd_Rm_Imm8_Disp32 dest val disp32 => base_ok dest /\ int8_ok val /\ int32_ok disp32
  | AAdd_RmEBP_Imm8_Disp_Reg base index scale val => reg_ok base /\ reg_ok index /\ scale_ok scale /\ int8_ok val
  | ASub_Rm_Imm8_Disp8 dest val disp8 => base_ok dest /\ int8_ok val /\ int8_ok disp8
  | ASub_Rm_Imm8_Disp32 dest val disp32 => base_ok dest /\ int8_ok val /\ int32_ok disp32
  | ASub_RmEBP_Imm8_Disp_Reg base index scale val => reg_ok base /\ reg_ok index /\ scale_ok scale /\ int8_ok val
  | ALea_Reg_DispRegMult dest base index scale => reg_ok dest /\ no5 base /\ reg_ok index /\ scale_ok scale
  | ALea_Reg_DispEBPRegMult dest base index scale => reg_ok dest /\ reg_ok base /\ reg_ok index /\ scale_ok scale
  | ALea_Reg_DispRegMultImm8 dest base index scale val => reg_ok dest /\ reg_ok base /\ reg_ok index /\ scale_ok scale /\ int8_ok val
  | ALea_Reg_DispRegMultImm32 dest base index scale val => reg_ok dest /\ reg_ok base /\ reg_ok index /\ scale_ok scale /\ int32_ok val
  | ALea_Reg_RegMultImm32 dest index scale val => reg_ok dest /\ noidx_ok index /\ scale_ok scale /\ int32_ok val
  | ALea_DispRegImm8 dest base val => reg_ok dest /\ base_ok base /\ int8_ok val
  | ALea_DispRegImm32 dest base val => reg_ok dest /\ base_ok base /\ int32_ok val
  | ALea_DispRegImmAuto dest base val => reg_ok dest /\ base_ok base /\ int32_ok val
  | APop_Reg reg => reg_ok reg
  | APush_Reg reg => reg_ok reg
  | APush_Imm8 val => int8_ok val
  | APush_Imm32 val => int32_ok val
  | APushad => True
  | APopad => True
  | APush_Rm_Disp8 reg disp8 => base_ok reg /\ int8_ok disp8
  | APush_Rm_Disp32 reg disp32 => base_ok reg /\ int32_ok disp32
  | APush_Rm_DispAuto reg disp => base_ok reg /\ int32_ok disp
  | APush_Rm_Disp8_ESP disp8 => int8_ok disp8
  | AMov_Reg_Rm dest src mode => reg_ok dest /\ rm_ok mode src
  | AMov_Reg8_Rm8 dest src mode => reg_ok dest /\ rm_ok mode src
  | AMov_Reg_RmESP dest => reg_ok dest
  | AMov_Reg_Rm_Disp8 dest src disp => reg_ok dest /\ base_ok src /\ int8_ok disp
  | AMov_Reg8_Rm8_Disp8 dest src disp => reg_ok dest /\ base_ok src /\ int8_ok disp
  | AMov_Reg_Esp_Disp8 dest disp => reg_ok dest /\ int8_ok disp
  | AMov_Reg_Rm_Disp32 dest src disp => reg_ok dest /\ base_ok src /\ int32_ok disp
  | AMov_Reg8_Rm8_Disp32 dest src disp => reg_ok dest /\ base_ok src /\ int32_ok disp
  | AMov_Reg_Rm_Disp_Reg dest base index scale => reg_ok dest /\ no5 base /\ reg_ok index /\ scale_ok scale
  | AMov_Reg_Rm_Disp_Reg_Disp8 dest base index scale disp8 => reg_ok dest /\ reg_ok base /\ reg_ok index /\ scale_ok scale /\ int8_ok disp8
  | AMov_Reg_RmEBP_Disp_Reg dest base index scale => reg_ok dest /\ reg_ok base /\ reg_ok index /\ scale_ok scale
  | AMov_Reg_Rm_DispAuto dest src disp => reg_ok dest /\ base_ok src /\ int32_ok disp /\ (-128 <= disp /\ (disp = 0 -> src <> 5))
  | AMov_Rm_Reg dest src mode => rm_ok mode dest /\ reg_ok src
  | AMov_Rm8_Reg8 dest src mode => rm_ok mode dest /\ reg_ok src
  | AMov_Rm8_Reg8_Disp8 dest src disp => base_ok dest /\ reg_ok src /\ int8_ok disp
  | AMov_Rm8_Reg8_Disp32 dest src disp => base_ok dest /\ reg_ok src /\ int32_ok disp
  | AMov_Rm8_Reg8_DispAuto dest src disp => base_ok dest /\ reg_ok src /\ int32_ok disp
  | AMov_RmESP_Reg src => reg_ok src
  | AMov_Rm_Reg_Disp8 dest src disp => base_ok dest /\ reg_ok src /\ int8_ok disp
  | AMov_Rm_Reg_Disp32 dest src disp => base_ok dest /\ reg_ok src /\ int32_ok disp
  | AMov_Rm_Reg_DispAuto dest src disp => base_ok dest /\ reg_ok src /\ int32_ok disp
  | AMov_RmEBP_Reg_Disp_Reg base index scale src => reg_ok base /\ reg_ok index /\ scale_ok scale /\ reg_ok src
  | AMov_Rm8EBP_Reg_Disp_Reg base index scale src => reg_ok base /\ reg_ok index /\ scale_ok scale /\ reg_ok src
  | AMov_Rm16EBP_Reg_Disp_Reg base index scale src => reg_ok base /\ reg_ok index /\ scale_ok scale /\ reg_ok src
  | AMov_Reg_Imm32 dest num => reg_ok dest /\ int32_ok num
  | AMov_Rm_Imm32 dest val mode => rm_ok mode dest /\ int32_ok val
  | AMov_Rm_Imm32_Disp8 dest val disp8 => base_ok dest /\ int32_ok val /\ int8_ok disp8
  | AMov_Rm_Imm32_Disp32 dest val disp32 => base_ok dest /\ int32_ok val /\ int32_ok disp32
  | AMov_RmEBP_Imm32_Disp_Reg base index scale val => reg_ok base /\ reg_ok index /\ scale_ok scale /\ int32_ok val
  | AMov_ESP_Disp8_Imm32 disp8 val => int8_ok disp8 /\ int32_ok val
  | AFstcw_Mem16_ESP => True
  | AFldcw_Mem16_ESP => True
  | AFldcw_Mem16_Disp8_ESP disp8 => int8_ok disp8
  | AFistp_Mem32_ESP => True
  | AFistp_Mem32_Disp8_Esp disp8 => int8_ok disp8
  | AFucomip_ST0_FPUreg reg => reg_ok reg
  | AFadd_FPUreg_ST0 reg => reg_ok reg
  | AFadd_Mem32_Disp8 src val => base_ok src /\ int8_ok val
  | AFadd_Mem32_ESP => True
  | AFsub_Mem32_Disp8 src val => base_ok src /\ int8_ok val
  | AFmul_Mem32_Disp8 src val => base_ok src /\ int8_ok val
  | AFdiv_Mem32_Disp8 src val => base_ok src /\ int8_ok val
  | AFild_Mem32 src => no45 src
  | AFstp_Mem32 dest => no45 dest
  | AFstp_Mem32_DispAuto dest disp => base_ok dest /\ int32_ok disp /\ (-128 < disp < 127)
  | AFstp_Mem64 dest => no45 dest
  | AFstp_Mem64_DispAuto dest disp => base_ok dest /\ int32_ok disp /\ (-128 < disp < 127)
  | AFstp_Mem32_ESP => True
  | AFstp_Mem64_ESP => True
  | AFstp_FPUreg reg => reg_ok reg
  | AFld_Mem32 src => no45 src
  | AFld_Mem64 src => no45 src
  | AFld_Mem32_Disp8 src val => base_ok src /\ int8_ok val
  | AFld_Mem64_Disp8 src val => base_ok src /\ int8_ok val
  | AFld_Mem32_Disp32 src val => base_ok src /\ int32_ok val
  | AFld_Mem64_Disp32 src val => base_ok src /\ int32_ok val
  | AFld_Mem32_DispAuto src disp => base_ok src /\ int32_ok disp /\ (-128 <= disp /\ (disp = 0 -> src <> 5))
  | AFld_Mem64_DispAuto src disp => base_ok src /\ int32_ok disp /\ (-128 <= disp /\ (disp = 0 -> src <> 5))
  | AMovzx_Reg32_Rm8 dest src mode => reg_ok dest /\ rm_ok mode src
  | AMovzx_Reg32_Rm8_Disp8 dest src disp => reg_ok dest /\ base_ok src /\ int8_ok disp
  | AMovzx_Reg32_Rm8_Disp32 dest src disp => reg_ok dest /\ base_ok src /\ int32_ok disp
  | AMovzx_Reg32_Rm8_DispAuto dest src disp => reg_ok dest /\ base_ok src /\ int32_ok disp
  | AMovzx_Reg32_Rm16 dest src mode => reg_ok dest /\ rm_ok mode src
  | AMovzx_Reg32_Rm16_Disp8 dest src disp => reg_ok dest /\ base_ok src /\ int8_ok disp
  | AMovzx_Reg32_Rm16_Disp32 dest src disp => reg_ok dest /\ base_ok src /\ int32_ok disp
  | AMovzx_Reg32_Rm16_DispAuto dest src disp => reg_ok dest /\ base_ok src /\ int32_ok disp
  | AJump_Cond_Imm8 cond disp => cond_ok cond /\ int8_ok disp
  | AJump_Imm32 disp => int32_ok disp
  | AJump_Imm8 disp => int8_ok disp
  | AJump_Cond_Imm32 cond disp => cond_ok cond /\ int32_ok disp
  | AJump_Reg reg => reg_ok reg
  | AJump_Rm reg mode => rm_ok mode reg
  | ACall_Imm32 disp => int32_ok disp
  | ACall_Reg reg => reg_ok reg
  | ACall_Rm reg mode => rm_ok mode reg /\ (False)
  | AReturn => True
  | AReturn_Popstack bytes => uint16_ok bytes
  | ATest_Rm_Reg reg1 reg2 mode => rm_ok mode reg1 /\ reg_ok reg2
  | ATest_Rm_Reg8 reg1 reg2 mode => rm_ok mode reg1 /\ reg_ok reg2
  | ATest_Rm_Imm32 operand1 imm mode => rm_ok mode operand1 /\ int32_ok imm
  | ACmp_Rm_Reg dest src mode => rm_ok mode dest /\ reg_ok src
  | ACmp_Reg_Rm dest src mode => reg_ok dest /\ rm_ok mode src
  | ACmp_Reg_Rm_ESP cmpreg => reg_ok cmpreg
  | ACmp_Reg_Rm_Disp8 reg1 reg2 disp8 => reg_ok reg1 /\ base_ok reg2 /\ int8_ok disp8
  | ACmp_Rm_Imm8 mode reg imm8 => rm_ok mode reg /\ int8_ok imm8
  | ACmp_Rm_Imm32 mode reg imm32 => rm_ok mode reg /\ int32_ok imm32
  | ACmp_Rm_Imm32_Disp8 reg disp8 imm32 => base_ok reg /\ int8_ok disp8 /\ int32_ok imm32
  | ACmp_Rm_Disp8_Imm8 reg disp imm8 => base_ok reg /\ int8_ok disp /\ int8_ok imm8
  | ACmp_Al_Imm8 value => int8_ok value
  | ACmp_Eax_Imm32 value => int32_ok value
  | ASetCC_Rm8 reg cond => reg_ok reg /\ cond_ok cond
  | ACmovCC_Rm src cond => no45 src /\ cond_ok cond
  | ACmovCC_Rm_Disp8 src cond disp => base_ok src /\ cond_ok cond /\ int8_ok disp
  | ACmpsb => True
  | AMovsd => True
  | AMovsb => True
  | AStosd => True
  | ACld => True
  | ARepMovsd => True
  | ARepMovsb => True
  | AMovzx16Prefixed dest src disp => reg_ok dest /\ base_ok src /\ int32_ok disp
  end.
