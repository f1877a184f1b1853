(** The instruction writer for x86-64 code (core/sourcehook/sh_asm_x86_64.h): every method of
    [x64JitWriter] as the list of bytes it appends.  Registers are their numbers (11-47);
    integers are the mathematical value of the C++ argument.  Appending to the buffer is
    [BufModel] (property C55). *)
From Coq Require Import List ZArith Bool.
From Verif Require Import TrampModel.
Import ListNotations.
Local Open Scope Z_scope.

(** extended(), low() (56-57, 113-114, 142-143) *)
Definition extended (r : Z) : bool := Z.land r 8 =? 8.
Definition low (r : Z) : Z := Z.land r 7.

(** MOD_MODRM (81-86) *)
Definition DISP0 : Z := 0.
Definition DISP8 : Z := 1.
Definition DISP32 : Z := 2.
Definition REG : Z := 3.

(** enum REX (167-184): the members used *)
Definition REX_B : Z := 65.
Definition REX_W : Z := 72.
Definition REX_WB : Z := 73.

(** static_cast<std::int8_t>(bool) *)
Definition b2z (b : bool) : Z := if b then 1 else 0.

(** w_rex, three overloads with the same text (186-196) *)
Definition w_rex (reg rm : Z) : Z := Z.lor REX_W (Z.lor (Z.shiftl (b2z (extended reg)) 2) (b2z (extended rm))).
(** modrm (198-200) *)
Definition modrm (reg rm : Z) : Z := Z.lor (Z.lor (Z.shiftl REG 6) (Z.shiftl (low reg) 3)) (low rm).
(** modrm_rm (202-204) *)
Definition modrm_rm (rm base : Z) : Z := Z.lor (Z.lor (Z.shiftl REG 6) (Z.shiftl base 3)) (low rm).

(** x86_64_RegRm (88-131): register and displacement *)
Record regrm := Rm { rm_reg : Z; rm_disp : Z }.
Definition RSP_ : Z := 4.
Definition RBP_ : Z := 5.
Definition R12_ : Z := 12.
Definition R13_ : Z := 13.
(** Setup (206-215) *)
Definition rm_mod (m : regrm) : Z :=
  if (rm_disp m =? 0) && negb (rm_reg m =? RBP_) && negb (rm_reg m =? R13_) then DISP0
  else if (-128 <=? rm_disp m) && (rm_disp m <=? 127) then DISP8
  else DISP32.
(** sib() (92-95) *)
Definition sib (m : regrm) : Z := Z.lor (Z.lor (Z.shiftl 0 6) (Z.shiftl (low (rm_reg m)) 3)) (low (rm_reg m)).
(** modrm(reg) (97-103), modrm() (105-107) is the case 0 *)
Definition rm_modrm (m : regrm) (reg : Z) : Z := Z.lor (Z.lor (Z.shiftl (rm_mod m) 6) (Z.shiftl (low reg) 3)) (low (rm_reg m)).
(** write_ubyte of an expression which may exceed a byte: the argument is converted to std::uint8_t *)
Definition u8 (x : Z) : Z := x mod 256.
(** write_byte, write_int32, write_uint64 (sh_asm.h:100-110): little endian two's complement *)
Definition i8 (x : Z) : list Z := le 1 x.
Definition i32 (x : Z) : list Z := le 4 x.
Definition i64 (x : Z) : list Z := le 8 x.
(** write_modrm, three overloads with the same text (217-272) *)
Definition write_modrm (m : regrm) (reg : Z) : list Z :=
  [u8 (rm_modrm m reg)]
  ++ (if (rm_reg m =? RSP_) || (rm_reg m =? R12_) then [u8 (sib m)] else [])
  ++ (if negb (rm_mod m =? DISP0) then
        if rm_mod m =? DISP8 then i8 (rm_disp m) else if rm_mod m =? DISP32 then i32 (rm_disp m) else []
      else []).

(** the frequent prefix: [if (reg.extended()) write_ubyte(REX::B)] *)
Definition pre_B (r : Z) : list Z := if extended r then [REX_B] else [].
(** ... and [WB] or [W] *)
Definition pre_WB (r : Z) : list Z := if extended r then [REX_WB] else [REX_W].

Definition breakpoint : list Z := [204].                                    (* 278-280 *)
Definition rep_movs_bytes : list Z := [243; 72; 164].                       (* 282-286 *)
Definition call_r (r : Z) : list Z := pre_B r ++ [255; u8 (208 + low r)].   (* 288-294 *)
Definition jump_r (r : Z) : list Z := pre_B r ++ [255; u8 (224 + low r)].   (* 296-302 *)
Definition jump_i (off : Z) : list Z := [233] ++ i32 off.                   (* 304-307 *)
Definition jz (off : Z) : list Z := [15; 132] ++ i32 off.                   (* 309-313 *)
Definition jl (off : Z) : list Z := [15; 140] ++ i32 off.                   (* 315-319 *)
Definition jle (off : Z) : list Z := [15; 142] ++ i32 off.                  (* 321-325 *)
Definition je (off : Z) : list Z := [15; 132] ++ i32 off.                   (* 327-331 *)
Definition jne (off : Z) : list Z := [15; 133] ++ i32 off.                  (* 333-337 *)
Definition push_r (r : Z) : list Z := pre_B r ++ [u8 (80 + low r)].         (* 339-344 *)
Definition push_i (v : Z) : list Z :=                                       (* 346-354 *)
  if (-128 <=? v) && (v <=? 127) then [106] ++ i8 v else [104] ++ i32 v.
Definition pop_r (r : Z) : list Z := pre_B r ++ [u8 (88 + low r)].          (* 356-361 *)

Definition mov_rr (dst src : Z) : list Z := [w_rex src dst; 137; modrm src dst].                      (* 364-368 *)
Definition mov_mr (rm : regrm) (reg : Z) : list Z := [w_rex reg (rm_reg rm); 137] ++ write_modrm rm reg. (* 370-374 *)
Definition mov_rm (reg : Z) (rm : regrm) : list Z := [w_rex reg (rm_reg rm); 139] ++ write_modrm rm reg. (* 376-380 *)
Definition mov_ri (dst imm : Z) : list Z := pre_B dst ++ [u8 (184 + low dst)] ++ i32 imm.              (* 382-388 *)
Definition mov_mi (dst : regrm) (imm : Z) : list Z :=                                                  (* 390-399 *)
  pre_WB (rm_reg dst) ++ [199] ++ write_modrm dst 0 ++ i32 imm.
Definition mov_ru (dst imm : Z) : list Z :=                                                            (* 401-414 *)
  if imm <=? 2 ^ 32 - 1 then mov_ri dst imm
  else pre_WB dst ++ [u8 (184 + low dst)] ++ i64 imm.

Definition movsd_xm (reg : Z) (rm : regrm) : list Z := [242; w_rex reg (rm_reg rm); 15; 16] ++ write_modrm rm reg. (* 416-422 *)
Definition movsd_mx (rm : regrm) (reg : Z) : list Z :=                                                 (* 424-432 *)
  [242] ++ (if extended reg || extended (rm_reg rm) then [w_rex reg (rm_reg rm)] else []) ++ [15; 17] ++ write_modrm rm reg.

Definition add_rr (dst src : Z) : list Z := [w_rex src dst; 1; modrm src dst].                         (* 435-439 *)
Definition add_ri (dst imm : Z) : list Z := pre_WB dst ++ [129; u8 (modrm_rm dst 0)] ++ i32 imm.       (* 441-450 *)
Definition sub_rr (dst src : Z) : list Z := [w_rex src dst; 41; modrm src dst].                        (* 452-456 *)
Definition sub_ri (dst imm : Z) : list Z := pre_WB dst ++ [129; u8 (modrm_rm dst 5)] ++ i32 imm.       (* 458-467 *)
Definition xor_rr (dst src : Z) : list Z := [w_rex src dst; 49; modrm src dst].                        (* 469-473 *)
Definition test_rr (dst src : Z) : list Z := [w_rex src dst; 133; modrm src dst].                      (* 475-479 *)
Definition test_ri (reg imm : Z) : list Z := pre_WB reg ++ [247; u8 (modrm_rm reg 0)] ++ i32 imm.      (* 481-490 *)
Definition cmovne_rm (reg : Z) (rm : regrm) : list Z := [w_rex reg (rm_reg rm); 15; 69] ++ write_modrm rm reg. (* 492-497, 506-511 *)
Definition cmovne_rr (reg rm : Z) : list Z := [w_rex reg rm; 15; 69; modrm reg rm].                    (* 499-504, 513-518 *)
Definition cmovge_rm (reg : Z) (rm : regrm) : list Z := [w_rex reg (rm_reg rm); 15; 77] ++ write_modrm rm reg. (* 520-525 *)
Definition cmovge_rr (reg rm : Z) : list Z := [w_rex reg rm; 15; 77; modrm reg rm].                    (* 527-532 *)
Definition cmovg_rm (reg : Z) (rm : regrm) : list Z := [w_rex reg (rm_reg rm); 15; 79] ++ write_modrm rm reg. (* 534-539 *)
Definition cmovg_rr (reg rm : Z) : list Z := [w_rex reg rm; 15; 79; modrm reg rm].                     (* 541-546 *)
Definition lea (reg : Z) (rm : regrm) : list Z := [w_rex reg (rm_reg rm); 141] ++ write_modrm rm reg.  (* 548-552 *)
Definition cmp_rm (reg : Z) (rm : regrm) : list Z := [w_rex reg (rm_reg rm); 59] ++ write_modrm rm reg. (* 554-558 *)
Definition cmp_mr (rm : regrm) (reg : Z) : list Z := [w_rex reg (rm_reg rm); 57] ++ write_modrm rm reg. (* 560-564 *)
Definition cmp_rr (reg rm : Z) : list Z := [w_rex reg rm; 59; modrm reg rm].                           (* 566-570 *)
Definition cmp_ri (dst imm : Z) : list Z := pre_WB dst ++ [129; u8 (modrm_rm dst 7)] ++ i32 imm.       (* 572-581 *)
Definition retn : list Z := [195].                                                                    (* 583-585 *)

(** A call of a method of the writer *)
Inductive asm :=
| ABreak | ARepMovs | ACall (r : Z) | AJumpR (r : Z) | AJump (off : Z)
| AJz (off : Z) | AJl (off : Z) | AJle (off : Z) | AJe (off : Z) | AJne (off : Z)
| APush (r : Z) | APushI (v : Z) | APop (r : Z)
| AMovRR (dst src : Z) | AMovMR (m : regrm) (reg : Z) | AMovRM (reg : Z) (m : regrm)
| AMovRI (dst imm : Z) | AMovMI (m : regrm) (imm : Z) | AMovRU (dst imm : Z)
| AMovsdXM (reg : Z) (m : regrm) | AMovsdMX (m : regrm) (reg : Z)
| AAddRR (dst src : Z) | AAddRI (dst imm : Z) | ASubRR (dst src : Z) | ASubRI (dst imm : Z)
| AXorRR (dst src : Z) | ATestRR (dst src : Z) | ATestRI (reg imm : Z)
| ACmovneRM (reg : Z) (m : regrm) | ACmovneRR (reg rm : Z)
| ACmovgeRM (reg : Z) (m : regrm) | ACmovgeRR (reg rm : Z)
| ACmovgRM (reg : Z) (m : regrm) | ACmovgRR (reg rm : Z)
| ALea (reg : Z) (m : regrm)
| ACmpRM (reg : Z) (m : regrm) | ACmpMR (m : regrm) (reg : Z) | ACmpRR (reg rm : Z) | ACmpRI (dst imm : Z)
| ARet.

Definition emit (a : asm) : list Z :=
  match a with
  | ABreak => breakpoint | ARepMovs => rep_movs_bytes
  | ACall r => call_r r | AJumpR r => jump_r r | AJump o => jump_i o
  | AJz o => jz o | AJl o => jl o | AJle o => jle o | AJe o => je o | AJne o => jne o
  | APush r => push_r r | APushI v => push_i v | APop r => pop_r r
  | AMovRR d s => mov_rr d s | AMovMR m r => mov_mr m r | AMovRM r m => mov_rm r m
  | AMovRI d i => mov_ri d i | AMovMI m i => mov_mi m i | AMovRU d i => mov_ru d i
  | AMovsdXM r m => movsd_xm r m | AMovsdMX m r => movsd_mx m r
  | AAddRR d s => add_rr d s | AAddRI d i => add_ri d i | ASubRR d s => sub_rr d s | ASubRI d i => sub_ri d i
  | AXorRR d s => xor_rr d s | ATestRR d s => test_rr d s | ATestRI d i => test_ri d i
  | ACmovneRM r m => cmovne_rm r m | ACmovneRR r s => cmovne_rr r s
  | ACmovgeRM r m => cmovge_rm r m | ACmovgeRR r s => cmovge_rr r s
  | ACmovgRM r m => cmovg_rm r m | ACmovgRR r s => cmovg_rr r s
  | ALea r m => lea r m
  | ACmpRM r m => cmp_rm r m | ACmpMR m r => cmp_mr m r | ACmpRR r s => cmp_rr r s | ACmpRI d i => cmp_ri d i
  | ARet => retn
  end.
Definition emit_all (l : list asm) : list Z := flat_map emit l.
