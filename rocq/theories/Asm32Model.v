(** The instruction writer for IA-32 code (core/sourcehook/sourcehook_hookmangen_x86.h): every
    function IA32_* as the list of bytes it appends to the buffer.  Registers, modes, scales and
    conditions are their numbers (28-75); integers are the mathematical value of the C++ argument.
    Functions that return the position of an operand return the position before the last 1 or 4
    bytes; appending to the buffer is [BufModel] (property C55). *)
From Coq Require Import List ZArith Bool.
From Verif Require Import TrampModel.
Import ListNotations.
Local Open Scope Z_scope.

(** write_ubyte of an expression that may exceed a byte *)
Definition u8 (x : Z) : Z := x mod 256.
(** write_byte, write_int32 (sh_asm.h:100-110): little endian two's complement *)
Definition i8 (x : Z) : list Z := le 1 x.
Definition i32 (x : Z) : list Z := le 4 x.
(** 30-33, 44-50 *)
Definition MOD_MEM_REG : Z := 0.
Definition MOD_REG : Z := 3.
Definition REG_SIB : Z := 4.
(** ia32_modrm (199-207), ia32_sib (212-220) *)
Definition modrm (mode reg rm : Z) : Z := u8 (Z.lor (Z.lor (Z.shiftl mode 6) (Z.shiftl reg 3)) rm).
Definition sib (mode index base : Z) : Z := u8 (Z.lor (Z.lor (Z.shiftl mode 6) (Z.shiftl index 3)) base).
(** value >= SCHAR_MIN && value <= SCHAR_MAX *)
Definition fits8 (v : Z) : bool := (-128 <=? v) && (v <=? 127).

(** The functions, with their lines in the header. *)
Definition Int3 : list Z := [204].                                                                            (* 225-228 *)
Definition Inc_Reg (reg : Z) : list Z := [64 + reg].                                                          (* 234-237 *)
Definition Inc_Rm_Disp8 (reg disp : Z) : list Z := [255; modrm 1 0 reg] ++ i8 disp.                           (* 239-244 *)
Definition Inc_Rm_Disp32 (reg disp : Z) : list Z := [255; modrm 2 0 reg] ++ i32 disp.                         (* 246-251 *)
Definition Inc_Rm_Disp_Reg (base reg scale : Z) : list Z := [255; modrm 0 0 REG_SIB; sib scale reg base].     (* 253-258 *)
Definition Dec_Reg (reg : Z) : list Z := [72 + reg].                                                          (* 260-263 *)
Definition Dec_Rm_Disp8 (reg disp : Z) : list Z := [255; modrm 1 1 reg] ++ i8 disp.                           (* 265-270 *)
Definition Dec_Rm_Disp32 (reg disp : Z) : list Z := [255; modrm 2 1 reg] ++ i32 disp.                         (* 272-277 *)
Definition Dec_Rm_Disp_Reg (base reg scale : Z) : list Z := [255; modrm 0 1 REG_SIB; sib scale reg base].     (* 279-284 *)
Definition Xor_Rm_Reg (dest src mode : Z) : list Z := [49; modrm mode src dest].                              (* 290-294 *)
Definition Xor_Reg_Rm (dest src mode : Z) : list Z := [51; modrm mode dest src].                              (* 296-300 *)
Definition Xor_Rm_Imm8 (reg mode value : Z) : list Z := [131; modrm mode 6 reg] ++ i8 value.                  (* 302-307 *)
Definition Xor_Rm_Imm32 (reg mode value : Z) : list Z := [129; modrm mode 6 reg] ++ i32 value.                (* 309-314 *)
Definition Xor_Eax_Imm32 (value : Z) : list Z := [53] ++ i32 value.                                           (* 316-320 *)
Definition Neg_Rm (reg mode : Z) : list Z := [247; modrm mode 3 reg].                                         (* 322-326 *)
Definition Or_Reg_Rm (dest src mode : Z) : list Z := [11; modrm mode dest src].                               (* 328-332 *)
Definition And_Reg_Rm (dest src mode : Z) : list Z := [35; modrm mode dest src].                              (* 334-338 *)
Definition And_Rm_Imm32 (reg mode value : Z) : list Z := [129; modrm mode 4 reg] ++ i32 value.                (* 340-345 *)
Definition And_Rm_Imm8 (reg mode value : Z) : list Z := [131; modrm mode 4 reg] ++ i8 value.                  (* 347-352 *)
Definition And_Eax_Imm32 (value : Z) : list Z := [37] ++ i32 value.                                           (* 354-358 *)
Definition Not_Rm (reg mode : Z) : list Z := [247; modrm mode 2 reg].                                         (* 360-364 *)
Definition Shr_Rm_Imm8 (dest value mode : Z) : list Z := [193; modrm mode 5 dest; value].                     (* 366-371 *)
Definition Shr_Rm_1 (dest mode : Z) : list Z := [209; modrm mode 5 dest].                                     (* 373-377 *)
Definition Shl_Rm_Imm8 (dest value mode : Z) : list Z := [193; modrm mode 4 dest; value].                     (* 379-384 *)
Definition Shl_Rm_1 (dest mode : Z) : list Z := [209; modrm mode 4 dest].                                     (* 386-390 *)
Definition Sar_Rm_Imm8 (dest value mode : Z) : list Z := [193; modrm mode 7 dest; value].                     (* 392-397 *)
Definition Sar_Rm_CL (reg mode : Z) : list Z := [211; modrm mode 7 reg].                                      (* 399-403 *)
Definition Sar_Rm_1 (dest mode : Z) : list Z := [209; modrm mode 7 dest].                                     (* 405-409 *)
Definition Shr_Rm_CL (reg mode : Z) : list Z := [211; modrm mode 5 reg].                                      (* 411-415 *)
Definition Shl_Rm_CL (reg mode : Z) : list Z := [211; modrm mode 4 reg].                                      (* 417-421 *)
Definition Xchg_Eax_Reg (reg : Z) : list Z := [144 + reg].                                                    (* 423-426 *)
Definition Add_Rm_Reg (dest src mode : Z) : list Z := [1; modrm mode src dest].                               (* 432-436 *)
Definition Add_Reg_Rm (dest src mode : Z) : list Z := [3; modrm mode dest src].                               (* 438-442 *)
Definition Add_Rm_Imm8 (reg value mode : Z) : list Z := [131; modrm mode 0 reg] ++ i8 value.                  (* 444-449 *)
Definition Add_Rm_Imm32 (reg value mode : Z) : list Z := [129; modrm mode 0 reg] ++ i32 value.                (* 451-456 *)
Definition Add_Rm_ImmAuto (reg value mode : Z) : list Z := if fits8 value then Add_Rm_Imm8 reg value mode else Add_Rm_Imm32 reg value mode. (* 458-464 *)
Definition Add_Eax_Imm32 (value : Z) : list Z := [5] ++ i32 value.                                            (* 466-470 *)
Definition Sub_Rm_Reg (dest src mode : Z) : list Z := [41; modrm mode src dest].                              (* 472-476 *)
Definition Sub_Reg_Rm (dest src mode : Z) : list Z := [43; modrm mode dest src].                              (* 478-482 *)
Definition Sub_Reg_Rm_Disp8 (dest src disp8 : Z) : list Z := [43; modrm 1 dest src] ++ i8 disp8.              (* 484-489 *)
Definition Sub_Rm_Reg_Disp8 (dest src disp8 : Z) : list Z := [41; modrm 1 src dest] ++ i8 disp8.              (* 491-496 *)
Definition Sub_Rm_Imm8 (reg val mode : Z) : list Z := [131; modrm mode 5 reg] ++ i8 val.                      (* 498-503 *)
Definition Sub_Rm_Imm32 (reg val mode : Z) : list Z := [129; modrm mode 5 reg] ++ i32 val.                    (* 505-510 *)
Definition Sub_Rm_ImmAuto (reg val mode : Z) : list Z := if fits8 val then Sub_Rm_Imm8 reg val mode else Sub_Rm_Imm32 reg val mode. (* 512-518 *)
Definition Sbb_Reg_Rm (dest src mode : Z) : list Z := [27; modrm mode dest src].                              (* 520-524 *)
Definition Sbb_Rm_Imm8 (dest value mode : Z) : list Z := [131; modrm mode 3 dest] ++ i8 value.                (* 526-531 *)
Definition Div_Rm (reg mode : Z) : list Z := [247; modrm mode 6 reg].                                         (* 533-537 *)
Definition IDiv_Rm (reg mode : Z) : list Z := [247; modrm mode 7 reg].                                        (* 539-543 *)
Definition Mul_Rm (reg mode : Z) : list Z := [247; modrm mode 4 reg].                                         (* 545-549 *)
Definition IMul_Rm (reg mode : Z) : list Z := [247; modrm mode 5 reg].                                        (* 551-555 *)
Definition IMul_Reg_Imm8 (reg mode value : Z) : list Z := [107; modrm mode 0 reg] ++ i8 value.                (* 557-562 *)
Definition IMul_Reg_Imm32 (reg mode value : Z) : list Z := [105; modrm mode 0 reg] ++ i32 value.              (* 564-569 *)
Definition IMul_Reg_Rm (dest src mode : Z) : list Z := [15; 175; modrm mode dest src].                        (* 571-576 *)
Definition Add_Rm_Reg_Disp8 (dest src disp : Z) : list Z := [1; modrm 1 src dest] ++ i8 disp.                 (* 578-583 *)
Definition Add_Reg_Rm_Disp8 (dest src disp : Z) : list Z := [3; modrm 1 dest src] ++ i8 disp.                 (* 585-590 *)
Definition Add_Rm_Imm8_Disp8 (dest val disp8 : Z) : list Z := [131; modrm 1 0 dest] ++ i8 disp8 ++ i8 val.    (* 592-601 *)
Definition Add_Rm_Imm32_Disp8 (dest val disp8 : Z) : list Z := [129; modrm 1 0 dest] ++ i8 disp8 ++ i32 val.  (* 603-612 *)
Definition Add_Rm_Imm32_Later (dest mode : Z) : list Z := [129; modrm mode 0 dest] ++ i32 0.                  (* 614-623 *)
Definition Add_Rm_Imm8_Disp32 (dest val disp32 : Z) : list Z := [131; modrm 2 0 dest] ++ i32 disp32 ++ i8 val. (* 625-634 *)
Definition Add_RmEBP_Imm8_Disp_Reg (base index scale val : Z) : list Z := [131; modrm 1 0 REG_SIB; sib scale index base] ++ i8 0 ++ i8 val. (* 636-647 *)
Definition Sub_Rm_Imm8_Disp8 (dest val disp8 : Z) : list Z := [131; modrm 1 5 dest] ++ i8 disp8 ++ i8 val.    (* 649-658 *)
Definition Sub_Rm_Imm8_Disp32 (dest val disp32 : Z) : list Z := [131; modrm 2 5 dest] ++ i32 disp32 ++ i8 val. (* 660-669 *)
Definition Sub_RmEBP_Imm8_Disp_Reg (base index scale val : Z) : list Z := [131; modrm 1 5 REG_SIB; sib scale index base] ++ i8 0 ++ i8 val. (* 671-682 *)
Definition Lea_Reg_DispRegMult (dest base index scale : Z) : list Z := [141; modrm 0 dest REG_SIB; sib scale index base]. (* 688-693 *)
Definition Lea_Reg_DispEBPRegMult (dest base index scale : Z) : list Z := [141; modrm 1 dest REG_SIB; sib scale index base] ++ i8 0. (* 695-701 *)
Definition Lea_Reg_DispRegMultImm8 (dest base index scale val : Z) : list Z := [141; modrm 1 dest REG_SIB; sib scale index base] ++ i8 val. (* 703-714 *)
Definition Lea_Reg_DispRegMultImm32 (dest base index scale val : Z) : list Z := [141; modrm 2 dest REG_SIB; sib scale index base] ++ i32 val. (* 716-727 *)
Definition Lea_Reg_RegMultImm32 (dest index scale val : Z) : list Z := [141; modrm 0 dest REG_SIB; sib scale index 5] ++ i32 val. (* 729-739 *)
Definition Lea_DispRegImm8 (dest base val : Z) : list Z := [141; modrm 1 dest base] ++ i8 val.                (* 741-746 *)
Definition Lea_DispRegImm32 (dest base val : Z) : list Z := [141; modrm 2 dest base] ++ i32 val.              (* 748-753 *)
Definition Lea_DispRegImmAuto (dest base val : Z) : list Z := if fits8 val then Lea_DispRegImm8 dest base val else Lea_DispRegImm32 dest base val. (* 755-761 *)
Definition Pop_Reg (reg : Z) : list Z := [88 + reg].                                                          (* 767-770 *)
Definition Push_Reg (reg : Z) : list Z := [80 + reg].                                                         (* 772-775 *)
Definition Push_Imm8 (val : Z) : list Z := [106] ++ i8 val.                                                   (* 777-781 *)
Definition Push_Imm32 (val : Z) : list Z := [104] ++ i32 val.                                                 (* 783-787 *)
Definition Pushad : list Z := [96].                                                                           (* 789-792 *)
Definition Popad : list Z := [97].                                                                            (* 794-797 *)
Definition Push_Rm_Disp8 (reg disp8 : Z) : list Z := [255; modrm 1 6 reg] ++ i8 disp8.                        (* 799-804 *)
Definition Push_Rm_Disp32 (reg disp32 : Z) : list Z := [255; modrm 2 6 reg] ++ i32 disp32.                    (* 806-811 *)
Definition Push_Rm_DispAuto (reg disp : Z) : list Z := if fits8 disp then Push_Rm_Disp8 reg disp else Push_Rm_Disp32 reg disp. (* 813-819 *)
Definition Push_Rm_Disp8_ESP (disp8 : Z) : list Z := [255; modrm 1 6 REG_SIB; sib 0 4 4] ++ i8 disp8.         (* 821-827 *)
Definition Mov_Reg_Rm (dest src mode : Z) : list Z := [139; modrm mode dest src].                             (* 833-837 *)
Definition Mov_Reg8_Rm8 (dest src mode : Z) : list Z := [138; modrm mode dest src].                           (* 839-843 *)
Definition Mov_Reg_RmESP (dest : Z) : list Z := [139; modrm 0 dest 4; sib 0 4 4].                             (* 845-850 *)
Definition Mov_Reg_Rm_Disp8 (dest src disp : Z) : list Z := [139; modrm 1 dest src] ++ i8 disp.               (* 852-857 *)
Definition Mov_Reg8_Rm8_Disp8 (dest src disp : Z) : list Z := [138; modrm 1 dest src] ++ i8 disp.             (* 859-864 *)
Definition Mov_Reg_Esp_Disp8 (dest disp : Z) : list Z := [139; modrm 1 dest REG_SIB; sib 0 4 4] ++ i8 disp.   (* 866-872 *)
Definition Mov_Reg_Rm_Disp32 (dest src disp : Z) : list Z := [139; modrm 2 dest src] ++ i32 disp.             (* 874-879 *)
Definition Mov_Reg8_Rm8_Disp32 (dest src disp : Z) : list Z := [138; modrm 2 dest src] ++ i32 disp.           (* 881-886 *)
Definition Mov_Reg_Rm_Disp_Reg (dest base index scale : Z) : list Z := [139; modrm 0 dest REG_SIB; sib scale index base]. (* 888-897 *)
Definition Mov_Reg_Rm_Disp_Reg_Disp8 (dest base index scale disp8 : Z) : list Z := [139; modrm 1 dest REG_SIB; sib scale index base] ++ i8 disp8. (* 899-910 *)
Definition Mov_Reg_RmEBP_Disp_Reg (dest base index scale : Z) : list Z := [139; modrm 1 dest REG_SIB; sib scale index base] ++ i8 0. (* 912-922 *)
Definition Mov_Reg_Rm_DispAuto (dest src disp : Z) : list Z := if disp =? 0 then Mov_Reg_Rm dest src MOD_MEM_REG else if disp <=? 127 then Mov_Reg_Rm_Disp8 dest src disp else Mov_Reg_Rm_Disp32 dest src disp. (* 924-932 *)
Definition Mov_Rm_Reg (dest src mode : Z) : list Z := [137; modrm mode src dest].                             (* 938-942 *)
Definition Mov_Rm8_Reg8 (dest src mode : Z) : list Z := [136; modrm mode src dest].                           (* 944-948 *)
Definition Mov_Rm8_Reg8_Disp8 (dest src disp : Z) : list Z := [136; modrm 1 src dest] ++ i8 disp.             (* 950-955 *)
Definition Mov_Rm8_Reg8_Disp32 (dest src disp : Z) : list Z := [136; modrm 2 src dest] ++ i32 disp.           (* 957-962 *)
Definition Mov_Rm8_Reg8_DispAuto (dest src disp : Z) : list Z := if fits8 disp then Mov_Rm8_Reg8_Disp8 dest src disp else Mov_Rm8_Reg8_Disp32 dest src disp. (* 964-970 *)
Definition Mov_RmESP_Reg (src : Z) : list Z := [137; modrm 0 src 4; sib 0 4 4].                               (* 972-977 *)
Definition Mov_Rm_Reg_Disp8 (dest src disp : Z) : list Z := [137; modrm 1 src dest] ++ i8 disp.               (* 979-984 *)
Definition Mov_Rm_Reg_Disp32 (dest src disp : Z) : list Z := [137; modrm 2 src dest] ++ i32 disp.             (* 986-991 *)
Definition Mov_Rm_Reg_DispAuto (dest src disp : Z) : list Z := if fits8 disp then Mov_Rm_Reg_Disp8 dest src disp else Mov_Rm_Reg_Disp32 dest src disp. (* 993-999 *)
Definition Mov_RmEBP_Reg_Disp_Reg (base index scale src : Z) : list Z := [137; modrm 1 src REG_SIB; sib scale index base] ++ i8 0. (* 1001-1011 *)
Definition Mov_Rm8EBP_Reg_Disp_Reg (base index scale src : Z) : list Z := [136; modrm 1 src REG_SIB; sib scale index base] ++ i8 0. (* 1013-1023 *)
Definition Mov_Rm16EBP_Reg_Disp_Reg (base index scale src : Z) : list Z := [102; 137; modrm 1 src REG_SIB; sib scale index base] ++ i8 0. (* 1025-1036 *)
Definition Mov_Reg_Imm32 (dest num : Z) : list Z := [184 + dest] ++ i32 num.                                  (* 1042-1049 *)
Definition Mov_Rm_Imm32 (dest val mode : Z) : list Z := [199; modrm mode 0 dest] ++ i32 val.                  (* 1051-1056 *)
Definition Mov_Rm_Imm32_Disp8 (dest val disp8 : Z) : list Z := [199; modrm 1 0 dest] ++ i8 disp8 ++ i32 val.  (* 1058-1067 *)
Definition Mov_Rm_Imm32_Disp32 (dest val disp32 : Z) : list Z := [199; modrm 2 0 dest] ++ i32 disp32 ++ i32 val. (* 1069-1078 *)
Definition Mov_RmEBP_Imm32_Disp_Reg (base index scale val : Z) : list Z := [199; modrm 1 0 REG_SIB; sib scale index base] ++ i8 0 ++ i32 val. (* 1080-1091 *)
Definition Mov_ESP_Disp8_Imm32 (disp8 val : Z) : list Z := [199; modrm 1 0 REG_SIB; sib 0 4 4] ++ i8 disp8 ++ i32 val. (* 1093-1100 *)
Definition Fstcw_Mem16_ESP : list Z := [155; 217; modrm 0 7 REG_SIB; sib 0 4 4].                              (* 1106-1112 *)
Definition Fldcw_Mem16_ESP : list Z := [217; modrm 0 5 REG_SIB; sib 0 4 4].                                   (* 1114-1119 *)
Definition Fldcw_Mem16_Disp8_ESP (disp8 : Z) : list Z := [217; modrm 1 5 REG_SIB; sib 0 4 4] ++ i8 disp8.     (* 1121-1127 *)
Definition Fistp_Mem32_ESP : list Z := [219; modrm 0 3 REG_SIB; sib 0 4 4].                                   (* 1129-1134 *)
Definition Fistp_Mem32_Disp8_Esp (disp8 : Z) : list Z := [219; modrm 1 3 REG_SIB; sib 0 4 4] ++ i8 disp8.     (* 1136-1142 *)
Definition Fucomip_ST0_FPUreg (reg : Z) : list Z := [223; 232 + reg].                                         (* 1144-1148 *)
Definition Fadd_FPUreg_ST0 (reg : Z) : list Z := [220; 192 + reg].                                            (* 1150-1154 *)
Definition Fadd_Mem32_Disp8 (src val : Z) : list Z := [216; modrm 1 0 src] ++ i8 val.                         (* 1156-1161 *)
Definition Fadd_Mem32_ESP : list Z := [216; modrm 0 0 REG_SIB; sib 0 4 4].                                    (* 1163-1168 *)
Definition Fsub_Mem32_Disp8 (src val : Z) : list Z := [216; modrm 1 4 src] ++ i8 val.                         (* 1170-1175 *)
Definition Fmul_Mem32_Disp8 (src val : Z) : list Z := [216; modrm 1 1 src] ++ i8 val.                         (* 1177-1182 *)
Definition Fdiv_Mem32_Disp8 (src val : Z) : list Z := [216; modrm 1 6 src] ++ i8 val.                         (* 1184-1189 *)
Definition Fild_Mem32 (src : Z) : list Z := [219; modrm 0 0 src].                                             (* 1191-1195 *)
Definition Fstp_Mem32 (dest : Z) : list Z := [217; modrm 0 3 dest].                                           (* 1197-1201 *)
Definition Fstp_Mem32_DispAuto (dest disp : Z) : list Z := [217] ++ (if (-128 <? disp) && (disp <? 127) then [modrm 1 3 dest] ++ i8 disp else [modrm 2 3 dest] ++ i8 disp). (* 1203-1217 *)
Definition Fstp_Mem64 (dest : Z) : list Z := [221; modrm 0 3 dest].                                           (* 1219-1223 *)
Definition Fstp_Mem64_DispAuto (dest disp : Z) : list Z := [221] ++ (if (-128 <? disp) && (disp <? 127) then [modrm 1 3 dest] ++ i8 disp else [modrm 2 3 dest] ++ i8 disp). (* 1225-1239 *)
Definition Fstp_Mem32_ESP : list Z := [217; modrm 0 3 REG_SIB; sib 0 4 4].                                    (* 1241-1246 *)
Definition Fstp_Mem64_ESP : list Z := [221; modrm 0 3 REG_SIB; sib 0 4 4].                                    (* 1248-1253 *)
Definition Fstp_FPUreg (reg : Z) : list Z := [221; 216 + reg].                                                (* 1255-1259 *)
Definition Fld_Mem32 (src : Z) : list Z := [217; modrm 0 0 src].                                              (* 1261-1265 *)
Definition Fld_Mem64 (src : Z) : list Z := [221; modrm 0 0 src].                                              (* 1267-1271 *)
Definition Fld_Mem32_Disp8 (src val : Z) : list Z := [217; modrm 1 0 src] ++ i8 val.                          (* 1273-1278 *)
Definition Fld_Mem64_Disp8 (src val : Z) : list Z := [221; modrm 1 0 src] ++ i8 val.                          (* 1280-1285 *)
Definition Fld_Mem32_Disp32 (src val : Z) : list Z := [217; modrm 2 0 src] ++ i32 val.                        (* 1287-1292 *)
Definition Fld_Mem64_Disp32 (src val : Z) : list Z := [221; modrm 2 0 src] ++ i32 val.                        (* 1294-1299 *)
Definition Fld_Mem32_DispAuto (src disp : Z) : list Z := if disp =? 0 then Fld_Mem32 src else if disp <=? 127 then Fld_Mem32_Disp8 src disp else Fld_Mem32_Disp32 src disp. (* 1301-1309 *)
Definition Fld_Mem64_DispAuto (src disp : Z) : list Z := if disp =? 0 then Fld_Mem64 src else if disp <=? 127 then Fld_Mem64_Disp8 src disp else Fld_Mem64_Disp32 src disp. (* 1311-1319 *)
Definition Movzx_Reg32_Rm8 (dest src mode : Z) : list Z := [15; 182; modrm mode dest src].                    (* 1325-1330 *)
Definition Movzx_Reg32_Rm8_Disp8 (dest src disp : Z) : list Z := [15; 182; modrm 1 dest src] ++ i8 disp.      (* 1332-1338 *)
Definition Movzx_Reg32_Rm8_Disp32 (dest src disp : Z) : list Z := [15; 182; modrm 2 dest src] ++ i32 disp.    (* 1340-1346 *)
Definition Movzx_Reg32_Rm8_DispAuto (dest src disp : Z) : list Z := if fits8 disp then Movzx_Reg32_Rm8_Disp8 dest src disp else Movzx_Reg32_Rm8_Disp32 dest src disp. (* 1348-1354 *)
Definition Movzx_Reg32_Rm16 (dest src mode : Z) : list Z := [15; 183; modrm mode dest src].                   (* 1356-1361 *)
Definition Movzx_Reg32_Rm16_Disp8 (dest src disp : Z) : list Z := [15; 183; modrm 1 dest src] ++ i8 disp.     (* 1363-1369 *)
Definition Movzx_Reg32_Rm16_Disp32 (dest src disp : Z) : list Z := [15; 183; modrm 2 dest src] ++ i32 disp.   (* 1371-1377 *)
Definition Movzx_Reg32_Rm16_DispAuto (dest src disp : Z) : list Z := if fits8 disp then Movzx_Reg32_Rm16_Disp8 dest src disp else Movzx_Reg32_Rm16_Disp32 dest src disp. (* 1379-1385 *)
Definition Jump_Cond_Imm8 (cond disp : Z) : list Z := [112 + cond] ++ i8 disp.                                (* 1391-1398 *)
Definition Jump_Imm32 (disp : Z) : list Z := [233] ++ i32 disp.                                               (* 1400-1407 *)
Definition Jump_Imm8 (disp : Z) : list Z := [235] ++ i8 disp.                                                 (* 1409-1416 *)
Definition Jump_Cond_Imm32 (cond disp : Z) : list Z := [15; 128 + cond] ++ i32 disp.                          (* 1418-1426 *)
Definition Jump_Reg (reg : Z) : list Z := [255; modrm 3 4 reg].                                               (* 1428-1432 *)
Definition Jump_Rm (reg mode : Z) : list Z := [255; modrm mode 4 reg].                                        (* 1434-1438 *)
Definition Call_Imm32 (disp : Z) : list Z := [232] ++ i32 disp.                                               (* 1440-1447 *)
Definition Call_Reg (reg : Z) : list Z := [255; modrm 3 2 reg].                                               (* 1449-1453 *)
Definition Call_Rm (reg mode : Z) : list Z := [255; modrm mode 4 reg].                                        (* 1455-1459 *)
Definition Return : list Z := [195].                                                                          (* 1461-1464 *)
Definition Return_Popstack (bytes : Z) : list Z := [194] ++ le 2 bytes.                                       (* 1466-1470 *)
Definition Test_Rm_Reg (reg1 reg2 mode : Z) : list Z := [133; modrm mode reg2 reg1].                          (* 1472-1476 *)
Definition Test_Rm_Reg8 (reg1 reg2 mode : Z) : list Z := [132; modrm mode reg2 reg1].                         (* 1478-1482 *)
Definition Test_Rm_Imm32 (operand1 imm mode : Z) : list Z := [247; modrm mode 0 operand1] ++ i32 imm.         (* 1484-1489 *)
Definition Cmp_Rm_Reg (dest src mode : Z) : list Z := [57; modrm mode src dest].                              (* 1491-1495 *)
Definition Cmp_Reg_Rm (dest src mode : Z) : list Z := [59; modrm mode dest src].                              (* 1497-1501 *)
Definition Cmp_Reg_Rm_ESP (cmpreg : Z) : list Z := [59; modrm 0 cmpreg REG_SIB; sib 0 4 4].                   (* 1503-1508 *)
Definition Cmp_Reg_Rm_Disp8 (reg1 reg2 disp8 : Z) : list Z := [59; modrm 1 reg1 reg2] ++ i8 disp8.            (* 1510-1515 *)
Definition Cmp_Rm_Imm8 (mode reg imm8 : Z) : list Z := [131; modrm mode 7 reg] ++ i8 imm8.                    (* 1517-1522 *)
Definition Cmp_Rm_Imm32 (mode reg imm32 : Z) : list Z := [129; modrm mode 7 reg] ++ i32 imm32.                (* 1524-1529 *)
Definition Cmp_Rm_Imm32_Disp8 (reg disp8 imm32 : Z) : list Z := [129; modrm 1 7 reg] ++ i8 disp8 ++ i32 imm32. (* 1531-1537 *)
Definition Cmp_Rm_Disp8_Imm8 (reg disp imm8 : Z) : list Z := [131; modrm 1 7 reg] ++ i8 disp ++ i8 imm8.      (* 1539-1545 *)
Definition Cmp_Al_Imm8 (value : Z) : list Z := [60] ++ i8 value.                                              (* 1547-1551 *)
Definition Cmp_Eax_Imm32 (value : Z) : list Z := [61] ++ i32 value.                                           (* 1553-1557 *)
Definition SetCC_Rm8 (reg cond : Z) : list Z := [15; 144 + cond; modrm 3 0 reg].                              (* 1559-1564 *)
Definition CmovCC_Rm (src cond : Z) : list Z := [15; 64 + cond; modrm 0 0 src].                               (* 1566-1571 *)
Definition CmovCC_Rm_Disp8 (src cond disp : Z) : list Z := [15; 64 + cond; modrm 1 0 src] ++ i8 disp.         (* 1573-1579 *)
Definition Cmpsb : list Z := [166].                                                                           (* 1581-1584 *)
Definition Rep : list Z := [243].                                                                             (* 1586-1589 *)
Definition Movsd : list Z := [165].                                                                           (* 1591-1594 *)
Definition Movsb : list Z := [164].                                                                           (* 1596-1599 *)
Definition Stosd : list Z := [171].                                                                           (* 1601-1604 *)
Definition Cld : list Z := [252].                                                                             (* 1606-1609 *)

(** One call of a writer function; the last three stand for the pairs in which the generator writes a
    prefix byte first (IA32_Rep before IA32_Movsd/IA32_Movsb, sourcehook_hookmangen_x86.cpp:186-194,
    and the operand size prefix before IA32_Movzx_Reg32_Rm16_DispAuto, 311-312). *)
Inductive asm :=
| AInt3
| AInc_Reg (reg : Z)
| AInc_Rm_Disp8 (reg disp : Z)
| AInc_Rm_Disp32 (reg disp : Z)
| AInc_Rm_Disp_Reg (base reg scale : Z)
| ADec_Reg (reg : Z)
| ADec_Rm_Disp8 (reg disp : Z)
| ADec_Rm_Disp32 (reg disp : Z)
| ADec_Rm_Disp_Reg (base reg scale : Z)
| AXor_Rm_Reg (dest src mode : Z)
| AXor_Reg_Rm (dest src mode : Z)
| AXor_Rm_Imm8 (reg mode value : Z)
| AXor_Rm_Imm32 (reg mode value : Z)
| AXor_Eax_Imm32 (value : Z)
| ANeg_Rm (reg mode : Z)
| AOr_Reg_Rm (dest src mode : Z)
| AAnd_Reg_Rm (dest src mode : Z)
| AAnd_Rm_Imm32 (reg mode value : Z)
| AAnd_Rm_Imm8 (reg mode value : Z)
| AAnd_Eax_Imm32 (value : Z)
| ANot_Rm (reg mode : Z)
| AShr_Rm_Imm8 (dest value mode : Z)
| AShr_Rm_1 (dest mode : Z)
| AShl_Rm_Imm8 (dest value mode : Z)
| AShl_Rm_1 (dest mode : Z)
| ASar_Rm_Imm8 (dest value mode : Z)
| ASar_Rm_CL (reg mode : Z)
| ASar_Rm_1 (dest mode : Z)
| AShr_Rm_CL (reg mode : Z)
| AShl_Rm_CL (reg mode : Z)
| AXchg_Eax_Reg (reg : Z)
| AAdd_Rm_Reg (dest src mode : Z)
| AAdd_Reg_Rm (dest src mode : Z)
| AAdd_Rm_Imm8 (reg value mode : Z)
| AAdd_Rm_Imm32 (reg value mode : Z)
| AAdd_Rm_ImmAuto (reg value mode : Z)
| AAdd_Eax_Imm32 (value : Z)
| ASub_Rm_Reg (dest src mode : Z)
| ASub_Reg_Rm (dest src mode : Z)
| ASub_Reg_Rm_Disp8 (dest src disp8 : Z)
| ASub_Rm_Reg_Disp8 (dest src disp8 : Z)
| ASub_Rm_Imm8 (reg val mode : Z)
| ASub_Rm_Imm32 (reg val mode : Z)
| ASub_Rm_ImmAuto (reg val mode : Z)
| ASbb_Reg_Rm (dest src mode : Z)
| ASbb_Rm_Imm8 (dest value mode : Z)
| ADiv_Rm (reg mode : Z)
| AIDiv_Rm (reg mode : Z)
| AMul_Rm (reg mode : Z)
| AIMul_Rm (reg mode : Z)
| AIMul_Reg_Imm8 (reg mode value : Z)
| AIMul_Reg_Imm32 (reg mode value : Z)
| AIMul_Reg_Rm (dest src mode : Z)
| AAdd_Rm_Reg_Disp8 (dest src disp : Z)
| AAdd_Reg_Rm_Disp8 (dest src disp : Z)
| AAdd_Rm_Imm8_Disp8 (dest val disp8 : Z)
| AAdd_Rm_Imm32_Disp8 (dest val disp8 : Z)
| AAdd_Rm_Imm32_Later (dest mode : Z)
| AAdd_Rm_Imm8_Disp32 (dest val disp32 : Z)
| AAdd_RmEBP_Imm8_Disp_Reg (base index scale val : Z)
| ASub_Rm_Imm8_Disp8 (dest val disp8 : Z)
| ASub_Rm_Imm8_Disp32 (dest val disp32 : Z)
| ASub_RmEBP_Imm8_Disp_Reg (base index scale val : Z)
| ALea_Reg_DispRegMult (dest base index scale : Z)
| ALea_Reg_DispEBPRegMult (dest base index scale : Z)
| ALea_Reg_DispRegMultImm8 (dest base index scale val : Z)
| ALea_Reg_DispRegMultImm32 (dest base index scale val : Z)
| ALea_Reg_RegMultImm32 (dest index scale val : Z)
| ALea_DispRegImm8 (dest base val : Z)
| ALea_DispRegImm32 (dest base val : Z)
| ALea_DispRegImmAuto (dest base val : Z)
| APop_Reg (reg : Z)
| APush_Reg (reg : Z)
| APush_Imm8 (val : Z)
| APush_Imm32 (val : Z)
| APushad
| APopad
| APush_Rm_Disp8 (reg disp8 : Z)
| APush_Rm_Disp32 (reg disp32 : Z)
| APush_Rm_DispAuto (reg disp : Z)
| APush_Rm_Disp8_ESP (disp8 : Z)
| AMov_Reg_Rm (dest src mode : Z)
| AMov_Reg8_Rm8 (dest src mode : Z)
| AMov_Reg_RmESP (dest : Z)
| AMov_Reg_Rm_Disp8 (dest src disp : Z)
| AMov_Reg8_Rm8_Disp8 (dest src disp : Z)
| AMov_Reg_Esp_Disp8 (dest disp : Z)
| AMov_Reg_Rm_Disp32 (dest src disp : Z)
| AMov_Reg8_Rm8_Disp32 (dest src disp : Z)
| AMov_Reg_Rm_Disp_Reg (dest base index scale : Z)
| AMov_Reg_Rm_Disp_Reg_Disp8 (dest base index scale disp8 : Z)
| AMov_Reg_RmEBP_Disp_Reg (dest base index scale : Z)
| AMov_Reg_Rm_DispAuto (dest src disp : Z)
| AMov_Rm_Reg (dest src mode : Z)
| AMov_Rm8_Reg8 (dest src mode : Z)
| AMov_Rm8_Reg8_Disp8 (dest src disp : Z)
| AMov_Rm8_Reg8_Disp32 (dest src disp : Z)
| AMov_Rm8_Reg8_DispAuto (dest src disp : Z)
| AMov_RmESP_Reg (src : Z)
| AMov_Rm_Reg_Disp8 (dest src disp : Z)
| AMov_Rm_Reg_Disp32 (dest src disp : Z)
| AMov_Rm_Reg_DispAuto (dest src disp : Z)
| AMov_RmEBP_Reg_Disp_Reg (base index scale src : Z)
| AMov_Rm8EBP_Reg_Disp_Reg (base index scale src : Z)
| AMov_Rm16EBP_Reg_Disp_Reg (base index scale src : Z)
| AMov_Reg_Imm32 (dest num : Z)
| AMov_Rm_Imm32 (dest val mode : Z)
| AMov_Rm_Imm32_Disp8 (dest val disp8 : Z)
| AMov_Rm_Imm32_Disp32 (dest val disp32 : Z)
| AMov_RmEBP_Imm32_Disp_Reg (base index scale val : Z)
| AMov_ESP_Disp8_Imm32 (disp8 val : Z)
| AFstcw_Mem16_ESP
| AFldcw_Mem16_ESP
| AFldcw_Mem16_Disp8_ESP (disp8 : Z)
| AFistp_Mem32_ESP
| AFistp_Mem32_Disp8_Esp (disp8 : Z)
| AFucomip_ST0_FPUreg (reg : Z)
| AFadd_FPUreg_ST0 (reg : Z)
| AFadd_Mem32_Disp8 (src val : Z)
| AFadd_Mem32_ESP
| AFsub_Mem32_Disp8 (src val : Z)
| AFmul_Mem32_Disp8 (src val : Z)
| AFdiv_Mem32_Disp8 (src val : Z)
| AFild_Mem32 (src : Z)
| AFstp_Mem32 (dest : Z)
| AFstp_Mem32_DispAuto (dest disp : Z)
| AFstp_Mem64 (dest : Z)
| AFstp_Mem64_DispAuto (dest disp : Z)
| AFstp_Mem32_ESP
| AFstp_Mem64_ESP
| AFstp_FPUreg (reg : Z)
| AFld_Mem32 (src : Z)
| AFld_Mem64 (src : Z)
| AFld_Mem32_Disp8 (src val : Z)
| AFld_Mem64_Disp8 (src val : Z)
| AFld_Mem32_Disp32 (src val : Z)
| AFld_Mem64_Disp32 (src val : Z)
| AFld_Mem32_DispAuto (src disp : Z)
| AFld_Mem64_DispAuto (src disp : Z)
| AMovzx_Reg32_Rm8 (dest src mode : Z)
| AMovzx_Reg32_Rm8_Disp8 (dest src disp : Z)
| AMovzx_Reg32_Rm8_Disp32 (dest src disp : Z)
| AMovzx_Reg32_Rm8_DispAuto (dest src disp : Z)
| AMovzx_Reg32_Rm16 (dest src mode : Z)
| AMovzx_Reg32_Rm16_Disp8 (dest src disp : Z)
| AMovzx_Reg32_Rm16_Disp32 (dest src disp : Z)
| AMovzx_Reg32_Rm16_DispAuto (dest src disp : Z)
| AJump_Cond_Imm8 (cond disp : Z)
| AJump_Imm32 (disp : Z)
| AJump_Imm8 (disp : Z)
| AJump_Cond_Imm32 (cond disp : Z)
| AJump_Reg (reg : Z)
| AJump_Rm (reg mode : Z)
| ACall_Imm32 (disp : Z)
| ACall_Reg (reg : Z)
| ACall_Rm (reg mode : Z)
| AReturn
| AReturn_Popstack (bytes : Z)
| ATest_Rm_Reg (reg1 reg2 mode : Z)
| ATest_Rm_Reg8 (reg1 reg2 mode : Z)
| ATest_Rm_Imm32 (operand1 imm mode : Z)
| ACmp_Rm_Reg (dest src mode : Z)
| ACmp_Reg_Rm (dest src mode : Z)
| ACmp_Reg_Rm_ESP (cmpreg : Z)
| ACmp_Reg_Rm_Disp8 (reg1 reg2 disp8 : Z)
| ACmp_Rm_Imm8 (mode reg imm8 : Z)
| ACmp_Rm_Imm32 (mode reg imm32 : Z)
| ACmp_Rm_Imm32_Disp8 (reg disp8 imm32 : Z)
| ACmp_Rm_Disp8_Imm8 (reg disp imm8 : Z)
| ACmp_Al_Imm8 (value : Z)
| ACmp_Eax_Imm32 (value : Z)
| ASetCC_Rm8 (reg cond : Z)
| ACmovCC_Rm (src cond : Z)
| ACmovCC_Rm_Disp8 (src cond disp : Z)
| ACmpsb
| AMovsd
| AMovsb
| AStosd
| ACld
| ARepMovsd | ARepMovsb
| AMovzx16Prefixed (dest src disp : Z).
Definition emit (a : asm) : list Z :=
  match a with
  | AInt3 => Int3
  | AInc_Reg reg => Inc_Reg reg
  | AInc_Rm_Disp8 reg disp => Inc_Rm_Disp8 reg disp
  | AInc_Rm_Disp32 reg disp => Inc_Rm_Disp32 reg disp
  | AInc_Rm_Disp_Reg base reg scale => Inc_Rm_Disp_Reg base reg scale
  | ADec_Reg reg => Dec_Reg reg
  | ADec_Rm_Disp8 reg disp => Dec_Rm_Disp8 reg disp
  | ADec_Rm_Disp32 reg disp => Dec_Rm_Disp32 reg disp
  | ADec_Rm_Disp_Reg base reg scale => Dec_Rm_Disp_Reg base reg scale
  | AXor_Rm_Reg dest src mode => Xor_Rm_Reg dest src mode
  | AXor_Reg_Rm dest src mode => Xor_Reg_Rm dest src mode
  | AXor_Rm_Imm8 reg mode value => Xor_Rm_Imm8 reg mode value
  | AXor_Rm_Imm32 reg mode value => Xor_Rm_Imm32 reg mode value
  | AXor_Eax_Imm32 value => Xor_Eax_Imm32 value
  | ANeg_Rm reg mode => Neg_Rm reg mode
  | AOr_Reg_Rm dest src mode => Or_Reg_Rm dest src mode
  | AAnd_Reg_Rm dest src mode => And_Reg_Rm dest src mode
  | AAnd_Rm_Imm32 reg mode value => And_Rm_Imm32 reg mode value
  | AAnd_Rm_Imm8 reg mode value => And_Rm_Imm8 reg mode value
  | AAnd_Eax_Imm32 value => And_Eax_Imm32 value
  | ANot_Rm reg mode => Not_Rm reg mode
  | AShr_Rm_Imm8 dest value mode => Shr_Rm_Imm8 dest value mode
  | AShr_Rm_1 dest mode => Shr_Rm_1 dest mode
  | AShl_Rm_Imm8 dest value mode => Shl_Rm_Imm8 dest value mode
  | AShl_Rm_1 dest mode => Shl_Rm_1 dest mode
  | ASar_Rm_Imm8 dest value mode => Sar_Rm_Imm8 dest value mode
  | ASar_Rm_CL reg mode => Sar_Rm_CL reg mode
  | ASar_Rm_1 dest mode => Sar_Rm_1 dest mode
  | AShr_Rm_CL reg mode => Shr_Rm_CL reg mode
  | AShl_Rm_CL reg mode => Shl_Rm_CL reg mode
  | AXchg_Eax_Reg reg => Xchg_Eax_Reg reg
  | AAdd_Rm_Reg dest src mode => Add_Rm_Reg dest src mode
  | AAdd_Reg_Rm dest src mode => Add_Reg_Rm dest src mode
  | AAdd_Rm_Imm8 reg value mode => Add_Rm_Imm8 reg value mode
  | AAdd_Rm_Imm32 reg value mode => Add_Rm_Imm32 reg value mode
  | AAdd_Rm_ImmAuto reg value mode => Add_Rm_ImmAuto reg value mode
  | AAdd_Eax_Imm32 value => Add_Eax_Imm32 value
  | ASub_Rm_Reg dest src mode => Sub_Rm_Reg dest src mode
  | ASub_Reg_Rm dest src mode => Sub_Reg_Rm dest src mode
  | ASub_Reg_Rm_Disp8 dest src disp8 => Sub_Reg_Rm_Disp8 dest src disp8
  | ASub_Rm_Reg_Disp8 dest src disp8 => Sub_Rm_Reg_Disp8 dest src disp8
  | ASub_Rm_Imm8 reg val mode => Sub_Rm_Imm8 reg val mode
  | ASub_Rm_Imm32 reg val mode => Sub_Rm_Imm32 reg val mode
  | ASub_Rm_ImmAuto reg val mode => Sub_Rm_ImmAuto reg val mode
  | ASbb_Reg_Rm dest src mode => Sbb_Reg_Rm dest src mode
  | ASbb_Rm_Imm8 dest value mode => Sbb_Rm_Imm8 dest value mode
  | ADiv_Rm reg mode => Div_Rm reg mode
  | AIDiv_Rm reg mode => IDiv_Rm reg mode
  | AMul_Rm reg mode => Mul_Rm reg mode
  | AIMul_Rm reg mode => IMul_Rm reg mode
  | AIMul_Reg_Imm8 reg mode value => IMul_Reg_Imm8 reg mode value
  | AIMul_Reg_Imm32 reg mode value => IMul_Reg_Imm32 reg mode value
  | AIMul_Reg_Rm dest src mode => IMul_Reg_Rm dest src mode
  | AAdd_Rm_Reg_Disp8 dest src disp => Add_Rm_Reg_Disp8 dest src disp
  | AAdd_Reg_Rm_Disp8 dest src disp => Add_Reg_Rm_Disp8 dest src disp
  | AAdd_Rm_Imm8_Disp8 dest val disp8 => Add_Rm_Imm8_Disp8 dest val disp8
  | AAdd_Rm_Imm32_Disp8 dest val disp8 => Add_Rm_Imm32_Disp8 dest val disp8
  | AAdd_Rm_Imm32_Later dest mode => Add_Rm_Imm32_Later dest mode
  | AAdd_Rm_Imm8_Disp32 dest val disp32 => Add_Rm_Imm8_Disp32 dest val disp32
  | AAdd_RmEBP_Imm8_Disp_Reg base index scale val => Add_RmEBP_Imm8_Disp_Reg base index scale val
  | ASub_Rm_Imm8_Disp8 dest val disp8 => Sub_Rm_Imm8_Disp8 dest val disp8
  | ASub_Rm_Imm8_Disp32 dest val disp32 => Sub_Rm_Imm8_Disp32 dest val disp32
  | ASub_RmEBP_Imm8_Disp_Reg base index scale val => Sub_RmEBP_Imm8_Disp_Reg base index scale val
  | ALea_Reg_DispRegMult dest base index scale => Lea_Reg_DispRegMult dest base index scale
  | ALea_Reg_DispEBPRegMult dest base index scale => Lea_Reg_DispEBPRegMult dest base index scale
  | ALea_Reg_DispRegMultImm8 dest base index scale val => Lea_Reg_DispRegMultImm8 dest base index scale val
  | ALea_Reg_DispRegMultImm32 dest base index scale val => Lea_Reg_DispRegMultImm32 dest base index scale val
  | ALea_Reg_RegMultImm32 dest index scale val => Lea_Reg_RegMultImm32 dest index scale val
  | ALea_DispRegImm8 dest base val => Lea_DispRegImm8 dest base val
  | ALea_DispRegImm32 dest base val => Lea_DispRegImm32 dest base val
  | ALea_DispRegImmAuto dest base val => Lea_DispRegImmAuto dest base val
  | APop_Reg reg => Pop_Reg reg
  | APush_Reg reg => Push_Reg reg
  | APush_Imm8 val => Push_Imm8 val
  | APush_Imm32 val => Push_Imm32 val
  | APushad => Pushad
  | APopad => Popad
  | APush_Rm_Disp8 reg disp8 => Push_Rm_Disp8 reg disp8
  | APush_Rm_Disp32 reg disp32 => Push_Rm_Disp32 reg disp32
  | APush_Rm_DispAuto reg disp => Push_Rm_DispAuto reg disp
  | APush_Rm_Disp8_ESP disp8 => Push_Rm_Disp8_ESP disp8
  | AMov_Reg_Rm dest src mode => Mov_Reg_Rm dest src mode
  | AMov_Reg8_Rm8 dest src mode => Mov_Reg8_Rm8 dest src mode
  | AMov_Reg_RmESP dest => Mov_Reg_RmESP dest
  | AMov_Reg_Rm_Disp8 dest src disp => Mov_Reg_Rm_Disp8 dest src disp
  | AMov_Reg8_Rm8_Disp8 dest src disp => Mov_Reg8_Rm8_Disp8 dest src disp
  | AMov_Reg_Esp_Disp8 dest disp => Mov_Reg_Esp_Disp8 dest disp
  | AMov_Reg_Rm_Disp32 dest src disp => Mov_Reg_Rm_Disp32 dest src disp
  | AMov_Reg8_Rm8_Disp32 dest src disp => Mov_Reg8_Rm8_Disp32 dest src disp
  | AMov_Reg_Rm_Disp_Reg dest base index scale => Mov_Reg_Rm_Disp_Reg dest base index scale
  | AMov_Reg_Rm_Disp_Reg_Disp8 dest base index scale disp8 => Mov_Reg_Rm_Disp_Reg_Disp8 dest base index scale disp8
  | AMov_Reg_RmEBP_Disp_Reg dest base index scale => Mov_Reg_RmEBP_Disp_Reg dest base index scale
  | AMov_Reg_Rm_DispAuto dest src disp => Mov_Reg_Rm_DispAuto dest src disp
  | AMov_Rm_Reg dest src mode => Mov_Rm_Reg dest src mode
  | AMov_Rm8_Reg8 dest src mode => Mov_Rm8_Reg8 dest src mode
  | AMov_Rm8_Reg8_Disp8 dest src disp => Mov_Rm8_Reg8_Disp8 dest src disp
  | AMov_Rm8_Reg8_Disp32 dest src disp => Mov_Rm8_Reg8_Disp32 dest src disp
  | AMov_Rm8_Reg8_DispAuto dest src disp => Mov_Rm8_Reg8_DispAuto dest src disp
  | AMov_RmESP_Reg src => Mov_RmESP_Reg src
  | AMov_Rm_Reg_Disp8 dest src disp => Mov_Rm_Reg_Disp8 dest src disp
  | AMov_Rm_Reg_Disp32 dest src disp => Mov_Rm_Reg_Disp32 dest src disp
  | AMov_Rm_Reg_DispAuto dest src disp => Mov_Rm_Reg_DispAuto dest src disp
  | AMov_RmEBP_Reg_Disp_Reg base index scale src => Mov_RmEBP_Reg_Disp_Reg base index scale src
  | AMov_Rm8EBP_Reg_Disp_Reg base index scale src => Mov_Rm8EBP_Reg_Disp_Reg base index scale src
  | AMov_Rm16EBP_Reg_Disp_Reg base index scale src => Mov_Rm16EBP_Reg_Disp_Reg base index scale src
  | AMov_Reg_Imm32 dest num => Mov_Reg_Imm32 dest num
  | AMov_Rm_Imm32 dest val mode => Mov_Rm_Imm32 dest val mode
  | AMov_Rm_Imm32_Disp8 dest val disp8 => Mov_Rm_Imm32_Disp8 dest val disp8
  | AMov_Rm_Imm32_Disp32 dest val disp32 => Mov_Rm_Imm32_Disp32 dest val disp32
  | AMov_RmEBP_Imm32_Disp_Reg base index scale val => Mov_RmEBP_Imm32_Disp_Reg base index scale val
  | AMov_ESP_Disp8_Imm32 disp8 val => Mov_ESP_Disp8_Imm32 disp8 val
  | AFstcw_Mem16_ESP => Fstcw_Mem16_ESP
  | AFldcw_Mem16_ESP => Fldcw_Mem16_ESP
  | AFldcw_Mem16_Disp8_ESP disp8 => Fldcw_Mem16_Disp8_ESP disp8
  | AFistp_Mem32_ESP => Fistp_Mem32_ESP
  | AFistp_Mem32_Disp8_Esp disp8 => Fistp_Mem32_Disp8_Esp disp8
  | AFucomip_ST0_FPUreg reg => Fucomip_ST0_FPUreg reg
  | AFadd_FPUreg_ST0 reg => Fadd_FPUreg_ST0 reg
  | AFadd_Mem32_Disp8 src val => Fadd_Mem32_Disp8 src val
  | AFadd_Mem32_ESP => Fadd_Mem32_ESP
  | AFsub_Mem32_Disp8 src val => Fsub_Mem32_Disp8 src val
  | AFmul_Mem32_Disp8 src val => Fmul_Mem32_Disp8 src val
  | AFdiv_Mem32_Disp8 src val => Fdiv_Mem32_Disp8 src val
  | AFild_Mem32 src => Fild_Mem32 src
  | AFstp_Mem32 dest => Fstp_Mem32 dest
  | AFstp_Mem32_DispAuto dest disp => Fstp_Mem32_DispAuto dest disp
  | AFstp_Mem64 dest => Fstp_Mem64 dest
  | AFstp_Mem64_DispAuto dest disp => Fstp_Mem64_DispAuto dest disp
  | AFstp_Mem32_ESP => Fstp_Mem32_ESP
  | AFstp_Mem64_ESP => Fstp_Mem64_ESP
  | AFstp_FPUreg reg => Fstp_FPUreg reg
  | AFld_Mem32 src => Fld_Mem32 src
  | AFld_Mem64 src => Fld_Mem64 src
  | AFld_Mem32_Disp8 src val => Fld_Mem32_Disp8 src val
  | AFld_Mem64_Disp8 src val => Fld_Mem64_Disp8 src val
  | AFld_Mem32_Disp32 src val => Fld_Mem32_Disp32 src val
  | AFld_Mem64_Disp32 src val => Fld_Mem64_Disp32 src val
  | AFld_Mem32_DispAuto src disp => Fld_Mem32_DispAuto src disp
  | AFld_Mem64_DispAuto src disp => Fld_Mem64_DispAuto src disp
  | AMovzx_Reg32_Rm8 dest src mode => Movzx_Reg32_Rm8 dest src mode
  | AMovzx_Reg32_Rm8_Disp8 dest src disp => Movzx_Reg32_Rm8_Disp8 dest src disp
  | AMovzx_Reg32_Rm8_Disp32 dest src disp => Movzx_Reg32_Rm8_Disp32 dest src disp
  | AMovzx_Reg32_Rm8_DispAuto dest src disp => Movzx_Reg32_Rm8_DispAuto dest src disp
  | AMovzx_Reg32_Rm16 dest src mode => Movzx_Reg32_Rm16 dest src mode
  | AMovzx_Reg32_Rm16_Disp8 dest src disp => Movzx_Reg32_Rm16_Disp8 dest src disp
  | AMovzx_Reg32_Rm16_Disp32 dest src disp => Movzx_Reg32_Rm16_Disp32 dest src disp
  | AMovzx_Reg32_Rm16_DispAuto dest src disp => Movzx_Reg32_Rm16_DispAuto dest src disp
  | AJump_Cond_Imm8 cond disp => Jump_Cond_Imm8 cond disp
  | AJump_Imm32 disp => Jump_Imm32 disp
  | AJump_Imm8 disp => Jump_Imm8 disp
  | AJump_Cond_Imm32 cond disp => Jump_Cond_Imm32 cond disp
  | AJump_Reg reg => Jump_Reg reg
  | AJump_Rm reg mode => Jump_Rm reg mode
  | ACall_Imm32 disp => Call_Imm32 disp
  | ACall_Reg reg => Call_Reg reg
  | ACall_Rm reg mode => Call_Rm reg mode
  | AReturn => Return
  | AReturn_Popstack bytes => Return_Popstack bytes
  | ATest_Rm_Reg reg1 reg2 mode => Test_Rm_Reg reg1 reg2 mode
  | ATest_Rm_Reg8 reg1 reg2 mode => Test_Rm_Reg8 reg1 reg2 mode
  | ATest_Rm_Imm32 operand1 imm mode => Test_Rm_Imm32 operand1 imm mode
  | ACmp_Rm_Reg dest src mode => Cmp_Rm_Reg dest src mode
  | ACmp_Reg_Rm dest src mode => Cmp_Reg_Rm dest src mode
  | ACmp_Reg_Rm_ESP cmpreg => Cmp_Reg_Rm_ESP cmpreg
  | ACmp_Reg_Rm_Disp8 reg1 reg2 disp8 => Cmp_Reg_Rm_Disp8 reg1 reg2 disp8
  | ACmp_Rm_Imm8 mode reg imm8 => Cmp_Rm_Imm8 mode reg imm8
  | ACmp_Rm_Imm32 mode reg imm32 => Cmp_Rm_Imm32 mode reg imm32
  | ACmp_Rm_Imm32_Disp8 reg disp8 imm32 => Cmp_Rm_Imm32_Disp8 reg disp8 imm32
  | ACmp_Rm_Disp8_Imm8 reg disp imm8 => Cmp_Rm_Disp8_Imm8 reg disp imm8
  | ACmp_Al_Imm8 value => Cmp_Al_Imm8 value
  | ACmp_Eax_Imm32 value => Cmp_Eax_Imm32 value
  | ASetCC_Rm8 reg cond => SetCC_Rm8 reg cond
  | ACmovCC_Rm src cond => CmovCC_Rm src cond
  | ACmovCC_Rm_Disp8 src cond disp => CmovCC_Rm_Disp8 src cond disp
  | ACmpsb => Cmpsb
  | AMovsd => Movsd
  | AMovsb => Movsb
  | AStosd => Stosd
  | ACld => Cld
  | ARepMovsd => Rep ++ Movsd
  | ARepMovsb => Rep ++ Movsb
  | AMovzx16Prefixed dest src disp => [102] ++ Movzx_Reg32_Rm16_DispAuto dest src disp
  end.
Definition emit_all (l : list asm) : list Z := flat_map emit l.
