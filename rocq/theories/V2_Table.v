(** The instruction table of the second code generator, H/InstrTableV2.h:9-508, row by row
    (the number in front of each row is its line there). Columns left out: the operand count (the
    length of the operand types), sib (always 0), ASO (not used by the code), the CPU, next. *)
From Coq Require Import String.
From Verif Require Import Base Mem_Model V2_Model.
Open Scope list_scope.

Definition InstrTableV2 : list row :=
  [(* 10 *) I "clc" [] GP1 [] [] [] 1 1 [0xf8; 0x00; 0x00] 1 0 0 false [X16; X32; X64] NO_DST NO_PFX None NoMem;
   (* 11 *) I "cld" [] GP1 [] [] [] 1 1 [0xfc; 0x00; 0x00] 1 0 0 false [X16; X32; X64] NO_DST NO_PFX None NoMem;
   (* 12 *) I "cli" [] GP1 [] [] [] 1 1 [0xfa; 0x00; 0x00] 1 0 0 false [X16; X32; X64] NO_DST NO_PFX None NoMem;
   (* 13 *) I "clts" [] GP1 [] [] [] 1 2 [0x0f; 0x06; 0x00] 1 0 0 false [X16; X32; X64] NO_DST NO_PFX None NoMem;
   (* 14 *) I "cmc" [] GP1 [] [] [] 1 1 [0xf5; 0x00; 0x00] 1 0 0 false [X16; X32; X64] NO_DST NO_PFX None NoMem;
   (* 15 *) I "cpuid" [] GP1 [] [] [] 1 2 [0x0f; 0xa2; 0x00] 1 0 0 false [X16; X32; X64] NO_DST NO_PFX None NoMem;
   (* 16 *) I "daa" [] GP1 [] [] [] 1 1 [0x27; 0x00; 0x00] 1 0 0 false [X16; X32] NO_DST NO_PFX None NoMem;
   (* 17 *) I "das" [] GP1 [] [] [] 1 1 [0x2f; 0x00; 0x00] 1 0 0 false [X16; X32] NO_DST NO_PFX None NoMem;
   (* 18 *) I "hlt" [] GP1 [] [] [] 1 1 [0xf4; 0x00; 0x00] 1 0 0 false [X16; X32; X64] NO_DST NO_PFX None NoMem;
   (* 19 *) I "invd" [] GP1 [] [] [] 1 2 [0x0f; 0x08; 0x00] 1 0 0 false [X16; X32; X64] NO_DST NO_PFX None NoMem;
   (* 20 *) I "lahf" [] GP1 [] [] [] 1 1 [0x9f; 0x00; 0x00] 1 0 0 false [X16; X32] NO_DST NO_PFX None NoMem;
   (* 21 *) I "leave" [] GP1 [] [] [] 1 1 [0xc9; 0x00; 0x00] 1 0 0 false [X16; X32; X64] NO_DST NO_PFX None NoMem;
   (* 22 *) I "stc" [] GP1 [] [] [] 1 1 [0xf9; 0x00; 0x00] 1 0 0 false [X16; X32; X64] NO_DST NO_PFX None NoMem;
   (* 23 *) I "std" [] GP1 [] [] [] 1 1 [0xfd; 0x00; 0x00] 1 0 0 false [X16; X32; X64] NO_DST NO_PFX None NoMem;
   (* 24 *) I "sti" [] GP1 [] [] [] 1 1 [0xfb; 0x00; 0x00] 1 0 0 false [X16; X32; X64] NO_DST NO_PFX None NoMem;
   (* 27 *) I "f2xm1" [] FP0 [] [] [] 1 2 [0xd9; 0xf0; 0x00] 1 0 0 false [X16; X32; X64] NO_DST NO_PFX None NoMem;
   (* 28 *) I "fabs" [] FP0 [] [] [] 1 2 [0xd9; 0xe1; 0x00] 1 0 0 false [X16; X32; X64] NO_DST NO_PFX None NoMem;
   (* 29 *) I "fchs" [] FP0 [] [] [] 1 2 [0xd9; 0xe0; 0x00] 1 0 0 false [X16; X32; X64] NO_DST NO_PFX None NoMem;
   (* 30 *) I "fclex" [] FP0 [] [] [] 1 3 [0x9b; 0xdb; 0xe2] 1 0 0 false [X16; X32; X64] NO_DST NO_PFX None NoMem;
   (* 31 *) I "fnclex" [] FP0 [] [] [] 1 2 [0xdb; 0xe2; 0x00] 1 0 0 false [X16; X32; X64] NO_DST NO_PFX None NoMem;
   (* 32 *) I "fcos" [] FP0 [] [] [] 1 2 [0xd9; 0xff; 0x00] 1 0 0 false [X16; X32; X64] NO_DST NO_PFX None NoMem;
   (* 33 *) I "fdecstp" [] FP0 [] [] [] 1 2 [0xd9; 0xf6; 0x00] 1 0 0 false [X16; X32; X64] NO_DST NO_PFX None NoMem;
   (* 34 *) I "fincstp" [] FP0 [] [] [] 1 2 [0xd9; 0xf7; 0x00] 1 0 0 false [X16; X32; X64] NO_DST NO_PFX None NoMem;
   (* 35 *) I "finit" [] FP0 [] [] [] 1 3 [0x9b; 0xdb; 0xe3] 1 0 0 false [X16; X32; X64] NO_DST NO_PFX None NoMem;
   (* 36 *) I "fninit" [] FP0 [] [] [] 1 2 [0xdb; 0xe3; 0x00] 1 0 0 false [X16; X32; X64] NO_DST NO_PFX None NoMem;
   (* 37 *) I "fld1" [] FP0 [] [] [] 1 2 [0xd9; 0xe8; 0x00] 1 0 0 false [X16; X32; X64] NO_DST NO_PFX None NoMem;
   (* 38 *) I "fldl2t" [] FP0 [] [] [] 1 2 [0xd9; 0xe9; 0x00] 1 0 0 false [X16; X32; X64] NO_DST NO_PFX None NoMem;
   (* 39 *) I "fldl2e" [] FP0 [] [] [] 1 2 [0xd9; 0xea; 0x00] 1 0 0 false [X16; X32; X64] NO_DST NO_PFX None NoMem;
   (* 40 *) I "fldpi" [] FP0 [] [] [] 1 2 [0xd9; 0xeb; 0x00] 1 0 0 false [X16; X32; X64] NO_DST NO_PFX None NoMem;
   (* 41 *) I "fldlg2" [] FP0 [] [] [] 1 2 [0xd9; 0xec; 0x00] 1 0 0 false [X16; X32; X64] NO_DST NO_PFX None NoMem;
   (* 42 *) I "fldln2" [] FP0 [] [] [] 1 2 [0xd9; 0xed; 0x00] 1 0 0 false [X16; X32; X64] NO_DST NO_PFX None NoMem;
   (* 43 *) I "fldz" [] FP0 [] [] [] 1 2 [0xd9; 0xee; 0x00] 1 0 0 false [X16; X32; X64] NO_DST NO_PFX None NoMem;
   (* 44 *) I "fnop" [] FP0 [] [] [] 1 2 [0xd9; 0xd0; 0x00] 1 0 0 false [X16; X32; X64] NO_DST NO_PFX None NoMem;
   (* 45 *) I "fpatan" [] FP0 [] [] [] 1 2 [0xd9; 0xf3; 0x00] 1 0 0 false [X16; X32; X64] NO_DST NO_PFX None NoMem;
   (* 46 *) I "fprem" [] FP0 [] [] [] 1 2 [0xd9; 0xf8; 0x00] 1 0 0 false [X16; X32; X64] NO_DST NO_PFX None NoMem;
   (* 47 *) I "fprem1" [] FP0 [] [] [] 1 2 [0xd9; 0xf5; 0x00] 1 0 0 false [X16; X32; X64] NO_DST NO_PFX None NoMem;
   (* 48 *) I "fptan" [] FP0 [] [] [] 1 2 [0xd9; 0xf2; 0x00] 1 0 0 false [X16; X32; X64] NO_DST NO_PFX None NoMem;
   (* 49 *) I "frndint" [] FP0 [] [] [] 1 2 [0xd9; 0xfc; 0x00] 1 0 0 false [X16; X32; X64] NO_DST NO_PFX None NoMem;
   (* 50 *) I "fscale" [] FP0 [] [] [] 1 2 [0xd9; 0xfd; 0x00] 1 0 0 false [X16; X32; X64] NO_DST NO_PFX None NoMem;
   (* 51 *) I "fsin" [] FP0 [] [] [] 1 2 [0xd9; 0xfe; 0x00] 1 0 0 false [X16; X32; X64] NO_DST NO_PFX None NoMem;
   (* 52 *) I "fsincos" [] FP0 [] [] [] 1 2 [0xd9; 0xfb; 0x00] 1 0 0 false [X16; X32; X64] NO_DST NO_PFX None NoMem;
   (* 53 *) I "fsqrt" [] FP0 [] [] [] 1 2 [0xd9; 0xfa; 0x00] 1 0 0 false [X16; X32; X64] NO_DST NO_PFX None NoMem;
   (* 54 *) I "ftst" [] FP0 [] [] [] 1 2 [0xd9; 0xe4; 0x00] 1 0 0 false [X16; X32; X64] NO_DST NO_PFX None NoMem;
   (* 55 *) I "fxam" [] FP0 [] [] [] 1 2 [0xd9; 0xe5; 0x00] 1 0 0 false [X16; X32; X64] NO_DST NO_PFX None NoMem;
   (* 56 *) I "fxch" [] FP0 [] [] [] 1 2 [0xd9; 0xc9; 0x00] 1 0 0 false [X16; X32; X64] NO_DST NO_PFX None NoMem;
   (* 57 *) I "fxtract" [] FP0 [] [] [] 1 2 [0xd9; 0xf4; 0x00] 1 0 0 false [X16; X32; X64] NO_DST NO_PFX None NoMem;
   (* 58 *) I "fyl2x" [] FP0 [] [] [] 1 2 [0xd9; 0xf1; 0x00] 1 0 0 false [X16; X32; X64] NO_DST NO_PFX None NoMem;
   (* 59 *) I "fyl2xp1" [] FP0 [] [] [] 1 2 [0xd9; 0xf9; 0x00] 1 0 0 false [X16; X32; X64] NO_DST NO_PFX None NoMem;
   (* 62 *) I "mov" [T_R8; T_R8] GP0 [F_MODRM; F_MODRM_REG; F_MODRM_RM] [] [] 1 1 [0x8a; 0x00; 0x00] 1 0 0xc0 false [X16; X32; X64] REG_DST NO_PFX None NoMem;
   (* 63 *) I "mov" [T_R8; T_R8H] GP0 [F_MODRM; F_MODRM_REG; F_MODRM_RM] [] [] 1 1 [0x8a; 0x00; 0x00] 1 0 0xc0 false [X16; X32; X64] REG_DST NO_PFX None NoMem;
   (* 64 *) I "mov" [T_R8H; T_R8] GP0 [F_MODRM; F_MODRM_REG; F_MODRM_RM] [] [] 1 1 [0x8a; 0x00; 0x00] 1 0 0xc0 false [X16; X32; X64] REG_DST NO_PFX None NoMem;
   (* 65 *) I "mov" [T_R8H; T_R8H] GP0 [F_MODRM; F_MODRM_REG; F_MODRM_RM] [] [] 1 1 [0x8a; 0x00; 0x00] 1 0 0xc0 false [X16; X32; X64] REG_DST NO_PFX None NoMem;
   (* 66 *) I "mov" [T_R8E; T_R8E] GP3 [REX; REXB; REXR; F_MODRM; F_MODRM_REG; F_MODRM_RM] [] [] 1 1 [0x8a; 0x00; 0x00] 1 0 0xc0 false [X64] REG_DST NO_PFX None NoMem;
   (* 67 *) I "mov" [T_R8; T_R8E] GP3 [REX; REXB; F_MODRM; F_MODRM_REG; F_MODRM_RM] [] [] 1 1 [0x8a; 0x00; 0x00] 1 0 0xc0 false [X64] REG_DST NO_PFX None NoMem;
   (* 68 *) I "mov" [T_R8E; T_R8] GP3 [REX; REXR; F_MODRM; F_MODRM_REG; F_MODRM_RM] [] [] 1 1 [0x8a; 0x00; 0x00] 1 0 0xc0 false [X64] REG_DST NO_PFX None NoMem;
   (* 69 *) I "mov" [T_R8U; T_R8] GP3 [REX; F_MODRM; F_MODRM_REG; F_MODRM_RM] [] [] 1 1 [0x8a; 0x00; 0x00] 1 0 0xc0 false [X64] REG_DST NO_PFX None NoMem;
   (* 70 *) I "mov" [T_R16; T_R16] GP0 [F_MODRM; F_MODRM_REG; F_MODRM_RM] [] [] 1 1 [0x8b; 0x00; 0x00] 2 0 0xc0 true [X16; X32; X64] REG_DST NO_PFX None NoMem;
   (* 71 *) I "mov" [T_R16E; T_R16E] GP3 [REX; REXB; REXR; F_MODRM; F_MODRM_REG; F_MODRM_RM] [] [] 1 1 [0x8b; 0x00; 0x00] 2 0 0xc0 true [X64] REG_DST NO_PFX None NoMem;
   (* 72 *) I "mov" [T_R16E; T_R16] GP3 [REX; REXR; F_MODRM; F_MODRM_REG; F_MODRM_RM] [] [] 1 1 [0x8b; 0x00; 0x00] 2 0 0xc0 true [X64] REG_DST NO_PFX None NoMem;
   (* 73 *) I "mov" [T_R16; T_R16E] GP3 [REX; REXB; F_MODRM; F_MODRM_REG; F_MODRM_RM] [] [] 1 1 [0x8b; 0x00; 0x00] 2 0 0xc0 true [X64] REG_DST NO_PFX None NoMem;
   (* 74 *) I "mov" [T_R32; T_R32] GP0 [F_MODRM; F_MODRM_REG; F_MODRM_RM] [] [] 1 1 [0x8b; 0x00; 0x00] 4 0 0xc0 true [X16; X32; X64] REG_DST NO_PFX None NoMem;
   (* 75 *) I "mov" [T_R32E; T_R32E] GP3 [REX; REXB; REXR; F_MODRM; F_MODRM_REG; F_MODRM_RM] [] [] 1 1 [0x8b; 0x00; 0x00] 4 0 0xc0 true [X64] REG_DST NO_PFX None NoMem;
   (* 76 *) I "mov" [T_R32E; T_R32] GP3 [REX; REXR; F_MODRM; F_MODRM_REG; F_MODRM_RM] [] [] 1 1 [0x8b; 0x00; 0x00] 4 0 0xc0 true [X64] REG_DST NO_PFX None NoMem;
   (* 77 *) I "mov" [T_R32; T_R32E] GP3 [REX; REXB; F_MODRM; F_MODRM_REG; F_MODRM_RM] [] [] 1 1 [0x8b; 0x00; 0x00] 4 0 0xc0 true [X64] REG_DST NO_PFX None NoMem;
   (* 78 *) I "mov" [T_R64; T_R64] GP3 [REX; REXW; F_MODRM; F_MODRM_REG; F_MODRM_RM] [] [] 1 1 [0x8b; 0x00; 0x00] 8 0 0xc0 false [X64] REG_DST NO_PFX None NoMem;
   (* 79 *) I "mov" [T_R64E; T_R64E] GP3 [REX; REXR; REXB; REXW; F_MODRM; F_MODRM_REG; F_MODRM_RM] [] [] 1 1 [0x8b; 0x00; 0x00] 8 0 0xc0 false [X64] REG_DST NO_PFX None NoMem;
   (* 80 *) I "mov" [T_R64; T_R64E] GP3 [REX; REXB; REXW; F_MODRM; F_MODRM_REG; F_MODRM_RM] [] [] 1 1 [0x8b; 0x00; 0x00] 8 0 0xc0 false [X64] REG_DST NO_PFX None NoMem;
   (* 81 *) I "mov" [T_R64E; T_R64] GP3 [REX; REXR; REXW; F_MODRM; F_MODRM_REG; F_MODRM_RM] [] [] 1 1 [0x8b; 0x00; 0x00] 8 0 0xc0 false [X64] REG_DST NO_PFX None NoMem;
   (* 83 *) I "mov" [T_R32; T_R_CR] GP0 [F_MODRM; F_MODRM_REG; F_MODRM_RM] [] [] 1 2 [0x0f; 0x20; 0x00] 4 0 0xc0 false [X16; X32] RM_DST NO_PFX None NoMem;
   (* 84 *) I "mov" [T_R64; T_R_CR] GP0 [F_MODRM; F_MODRM_REG; F_MODRM_RM] [] [] 1 2 [0x0f; 0x20; 0x00] 8 0 0xc0 false [X64] RM_DST NO_PFX None NoMem;
   (* 85 *) I "mov" [T_R64E; T_R_CR] GP3 [REX; REXB; F_MODRM; F_MODRM_REG; F_MODRM_RM] [] [] 1 2 [0x0f; 0x20; 0x00] 8 0 0xc0 false [X64] RM_DST NO_PFX None NoMem;
   (* 86 *) I "mov" [T_R64; T_R_CR8] GP3 [REX; REXR; F_MODRM; F_MODRM_REG; F_MODRM_RM] [] [] 1 2 [0x0f; 0x20; 0x00] 8 0 0xc0 false [X64] RM_DST NO_PFX None NoMem;
   (* 87 *) I "mov" [T_R64E; T_R_CR8] GP3 [REX; REXB; REXR; F_MODRM; F_MODRM_REG; F_MODRM_RM] [] [] 1 2 [0x0f; 0x20; 0x00] 8 0 0xc0 false [X64] RM_DST NO_PFX None NoMem;
   (* 88 *) I "mov" [T_R_CR; T_R32] GP0 [F_MODRM; F_MODRM_REG; F_MODRM_RM] [] [] 1 2 [0x0f; 0x22; 0x00] 4 0 0xc0 false [X16; X32] REG_DST NO_PFX None NoMem;
   (* 89 *) I "mov" [T_R_CR; T_R64] GP0 [F_MODRM; F_MODRM_REG; F_MODRM_RM] [] [] 1 2 [0x0f; 0x22; 0x00] 8 0 0xc0 false [X64] REG_DST NO_PFX None NoMem;
   (* 90 *) I "mov" [T_R_CR; T_R64E] GP3 [REX; REXB; F_MODRM; F_MODRM_REG; F_MODRM_RM] [] [] 1 2 [0x0f; 0x22; 0x00] 8 0 0xc0 false [X64] REG_DST NO_PFX None NoMem;
   (* 91 *) I "mov" [T_R_CR8; T_R64] GP3 [REX; REXR; F_MODRM; F_MODRM_REG; F_MODRM_RM] [] [] 1 2 [0x0f; 0x22; 0x00] 8 0 0xc0 false [X64] REG_DST NO_PFX None NoMem;
   (* 92 *) I "mov" [T_R_CR8; T_R64E] GP3 [REX; REXB; REXR; F_MODRM; F_MODRM_REG; F_MODRM_RM] [] [] 1 2 [0x0f; 0x22; 0x00] 8 0 0xc0 false [X64] REG_DST NO_PFX None NoMem;
   (* 94 *) I "mov" [T_R32; T_R_DR] GP0 [F_MODRM; F_MODRM_REG; F_MODRM_RM] [] [] 1 2 [0x0f; 0x21; 0x00] 4 0 0xc0 false [X16; X32] RM_DST NO_PFX None NoMem;
   (* 95 *) I "mov" [T_R64; T_R_DR] GP0 [F_MODRM; F_MODRM_REG; F_MODRM_RM] [] [] 1 2 [0x0f; 0x21; 0x00] 8 0 0xc0 false [X64] RM_DST NO_PFX None NoMem;
   (* 96 *) I "mov" [T_R64E; T_R_DR] GP3 [REX; REXB; F_MODRM; F_MODRM_REG; F_MODRM_RM] [] [] 1 2 [0x0f; 0x21; 0x00] 8 0 0xc0 false [X64] RM_DST NO_PFX None NoMem;
   (* 97 *) I "mov" [T_R_DR; T_R32] GP0 [F_MODRM; F_MODRM_REG; F_MODRM_RM] [] [] 1 2 [0x0f; 0x23; 0x00] 4 0 0xc0 false [X16; X32] REG_DST NO_PFX None NoMem;
   (* 98 *) I "mov" [T_R_DR; T_R64] GP0 [F_MODRM; F_MODRM_REG; F_MODRM_RM] [] [] 1 2 [0x0f; 0x23; 0x00] 8 0 0xc0 false [X64] REG_DST NO_PFX None NoMem;
   (* 99 *) I "mov" [T_R_DR; T_R64E] GP3 [REX; REXB; F_MODRM; F_MODRM_REG; F_MODRM_RM] [] [] 1 2 [0x0f; 0x23; 0x00] 8 0 0xc0 false [X64] REG_DST NO_PFX None NoMem;
   (* 101 *) I "mov" [T_R16; T_R_SEG] GP0 [F_MODRM; F_MODRM_REG; F_MODRM_RM] [] [] 1 1 [0x8c; 0x00; 0x00] 2 0 0xc0 true [X16; X32; X64] RM_DST NO_PFX None NoMem;
   (* 102 *) I "mov" [T_R16; T_R_SEGE] GP0 [F_MODRM; F_MODRM_REG; F_MODRM_RM] [] [] 1 1 [0x8c; 0x00; 0x00] 2 0 0xc0 true [X32; X64] RM_DST NO_PFX None NoMem;
   (* 103 *) I "mov" [T_R32; T_R_SEG] GP0 [F_MODRM; F_MODRM_REG; F_MODRM_RM] [] [] 1 1 [0x8c; 0x00; 0x00] 4 0 0xc0 true [X32; X64] RM_DST NO_PFX None NoMem;
   (* 104 *) I "mov" [T_R32; T_R_SEGE] GP0 [F_MODRM; F_MODRM_REG; F_MODRM_RM] [] [] 1 1 [0x8c; 0x00; 0x00] 4 0 0xc0 true [X32; X64] RM_DST NO_PFX None NoMem;
   (* 105 *) I "mov" [T_R64; T_R_SEG] GP3 [REX; REXW; F_MODRM; F_MODRM_REG; F_MODRM_RM] [] [] 1 1 [0x8c; 0x00; 0x00] 8 0 0xc0 false [X64] RM_DST NO_PFX None NoMem;
   (* 106 *) I "mov" [T_R64; T_R_SEGE] GP3 [REX; REXW; F_MODRM; F_MODRM_REG; F_MODRM_RM] [] [] 1 1 [0x8c; 0x00; 0x00] 8 0 0xc0 false [X64] RM_DST NO_PFX None NoMem;
   (* 107 *) I "mov" [T_R16E; T_R_SEG] GP3 [REX; REXB; F_MODRM; F_MODRM_REG; F_MODRM_RM] [] [] 1 1 [0x8c; 0x00; 0x00] 2 0 0xc0 true [X64] RM_DST NO_PFX None NoMem;
   (* 108 *) I "mov" [T_R16E; T_R_SEGE] GP3 [REX; REXB; F_MODRM; F_MODRM_REG; F_MODRM_RM] [] [] 1 1 [0x8c; 0x00; 0x00] 2 0 0xc0 true [X64] RM_DST NO_PFX None NoMem;
   (* 109 *) I "mov" [T_R32E; T_R_SEG] GP3 [REX; REXB; F_MODRM; F_MODRM_REG; F_MODRM_RM] [] [] 1 1 [0x8c; 0x00; 0x00] 4 0 0xc0 true [X64] RM_DST NO_PFX None NoMem;
   (* 110 *) I "mov" [T_R32E; T_R_SEGE] GP3 [REX; REXB; F_MODRM; F_MODRM_REG; F_MODRM_RM] [] [] 1 1 [0x8c; 0x00; 0x00] 4 0 0xc0 true [X64] RM_DST NO_PFX None NoMem;
   (* 111 *) I "mov" [T_R64E; T_R_SEG] GP3 [REX; REXB; REXW; F_MODRM; F_MODRM_REG; F_MODRM_RM] [] [] 1 1 [0x8c; 0x00; 0x00] 8 0 0xc0 false [X64] RM_DST NO_PFX None NoMem;
   (* 112 *) I "mov" [T_R64E; T_R_SEGE] GP3 [REX; REXB; REXW; F_MODRM; F_MODRM_REG; F_MODRM_RM] [] [] 1 1 [0x8c; 0x00; 0x00] 8 0 0xc0 false [X64] RM_DST NO_PFX None NoMem;
   (* 113 *) I "mov" [T_R_SEG; T_R16] GP0 [F_MODRM; F_MODRM_REG; F_MODRM_RM] [] [] 1 1 [0x8e; 0x00; 0x00] 2 0 0xc0 true [X16; X32; X64] REG_DST NO_PFX None NoMem;
   (* 114 *) I "mov" [T_R_SEGE; T_R16] GP0 [F_MODRM; F_MODRM_REG; F_MODRM_RM] [] [] 1 1 [0x8e; 0x00; 0x00] 2 0 0xc0 true [X32; X64] REG_DST NO_PFX None NoMem;
   (* 115 *) I "mov" [T_R_SEG; T_R32] GP0 [F_MODRM; F_MODRM_REG; F_MODRM_RM] [] [] 1 1 [0x8e; 0x00; 0x00] 4 0 0xc0 true [X32; X64] REG_DST NO_PFX None NoMem;
   (* 116 *) I "mov" [T_R_SEGE; T_R32] GP0 [F_MODRM; F_MODRM_REG; F_MODRM_RM] [] [] 1 1 [0x8e; 0x00; 0x00] 4 0 0xc0 true [X32; X64] REG_DST NO_PFX None NoMem;
   (* 117 *) I "mov" [T_R_SEG; T_R64] GP3 [REX; REXW; F_MODRM; F_MODRM_REG; F_MODRM_RM] [] [] 1 1 [0x8e; 0x00; 0x00] 8 0 0xc0 false [X64] REG_DST NO_PFX None NoMem;
   (* 118 *) I "mov" [T_R_SEGE; T_R64] GP3 [REX; REXW; F_MODRM; F_MODRM_REG; F_MODRM_RM] [] [] 1 1 [0x8e; 0x00; 0x00] 8 0 0xc0 false [X64] REG_DST NO_PFX None NoMem;
   (* 119 *) I "mov" [T_R_SEG; T_R16E] GP3 [REX; REXB; F_MODRM; F_MODRM_REG; F_MODRM_RM] [] [] 1 1 [0x8e; 0x00; 0x00] 2 0 0xc0 true [X64] REG_DST NO_PFX None NoMem;
   (* 120 *) I "mov" [T_R_SEGE; T_R16E] GP3 [REX; REXB; F_MODRM; F_MODRM_REG; F_MODRM_RM] [] [] 1 1 [0x8e; 0x00; 0x00] 2 0 0xc0 true [X64] REG_DST NO_PFX None NoMem;
   (* 121 *) I "mov" [T_R_SEG; T_R32E] GP3 [REX; REXB; F_MODRM; F_MODRM_REG; F_MODRM_RM] [] [] 1 1 [0x8e; 0x00; 0x00] 4 0 0xc0 true [X64] REG_DST NO_PFX None NoMem;
   (* 122 *) I "mov" [T_R_SEGE; T_R32E] GP3 [REX; REXB; F_MODRM; F_MODRM_REG; F_MODRM_RM] [] [] 1 1 [0x8e; 0x00; 0x00] 4 0 0xc0 true [X64] REG_DST NO_PFX None NoMem;
   (* 123 *) I "mov" [T_R_SEG; T_R64E] GP3 [REX; REXB; REXW; F_MODRM; F_MODRM_REG; F_MODRM_RM] [] [] 1 1 [0x8e; 0x00; 0x00] 8 0 0xc0 false [X64] REG_DST NO_PFX None NoMem;
   (* 124 *) I "mov" [T_R_SEGE; T_R64E] GP3 [REX; REXB; REXW; F_MODRM; F_MODRM_REG; F_MODRM_RM] [] [] 1 1 [0x8e; 0x00; 0x00] 8 0 0xc0 false [X64] REG_DST NO_PFX None NoMem;
   (* 126 *) I "mov" [T_R8; T_IMM8] GP0 [F_OPCODE_REG] [] [] 1 1 [0xb0; 0x00; 0x00] 1 0 0 false [X16; X32; X64] NO_DST NO_PFX (Some 1%nat) NoMem;
   (* 127 *) I "mov" [T_R8H; T_IMM8] GP0 [F_OPCODE_REG] [] [] 1 1 [0xb0; 0x00; 0x00] 1 0 0 false [X16; X32; X64] NO_DST NO_PFX (Some 1%nat) NoMem;
   (* 128 *) I "mov" [T_R8U; T_IMM8] GP3 [REX; F_OPCODE_REG] [] [] 1 1 [0xb0; 0x00; 0x00] 1 0 0 false [X64] NO_DST NO_PFX (Some 1%nat) NoMem;
   (* 129 *) I "mov" [T_R8E; T_IMM8] GP3 [REX; REXB; F_OPCODE_REG] [] [] 1 1 [0xb0; 0x00; 0x00] 1 0 0 false [X64] NO_DST NO_PFX (Some 1%nat) NoMem;
   (* 130 *) I "mov" [T_R16; T_IMM8] GP0 [F_OPCODE_REG] [] [] 1 1 [0xb8; 0x00; 0x00] 2 0 0 true [X16; X32; X64] NO_DST NO_PFX (Some 1%nat) NoMem;
   (* 131 *) I "mov" [T_R16E; T_IMM8] GP3 [REX; REXB; F_OPCODE_REG] [] [] 1 1 [0xb8; 0x00; 0x00] 2 0 0 true [X64] NO_DST NO_PFX (Some 1%nat) NoMem;
   (* 132 *) I "mov" [T_R16; T_IMM16] GP0 [F_OPCODE_REG] [] [] 1 1 [0xb8; 0x00; 0x00] 2 0 0 true [X16; X32; X64] NO_DST NO_PFX (Some 1%nat) NoMem;
   (* 133 *) I "mov" [T_R16E; T_IMM16] GP3 [REX; REXB; F_OPCODE_REG] [] [] 1 1 [0xb8; 0x00; 0x00] 2 0 0 true [X64] NO_DST NO_PFX (Some 1%nat) NoMem;
   (* 134 *) I "mov" [T_R32; T_IMM8] GP0 [F_OPCODE_REG] [] [] 1 1 [0xb8; 0x00; 0x00] 4 0 0 true [X16; X32; X64] NO_DST NO_PFX (Some 1%nat) NoMem;
   (* 135 *) I "mov" [T_R32E; T_IMM8] GP3 [REX; REXB; F_OPCODE_REG] [] [] 1 1 [0xb8; 0x00; 0x00] 4 0 0 true [X64] NO_DST NO_PFX (Some 1%nat) NoMem;
   (* 136 *) I "mov" [T_R32; T_IMM16] GP0 [F_OPCODE_REG] [] [] 1 1 [0xb8; 0x00; 0x00] 4 0 0 true [X16; X32; X64] NO_DST NO_PFX (Some 1%nat) NoMem;
   (* 137 *) I "mov" [T_R32E; T_IMM16] GP3 [REX; REXB; F_OPCODE_REG] [] [] 1 1 [0xb8; 0x00; 0x00] 4 0 0 true [X64] NO_DST NO_PFX (Some 1%nat) NoMem;
   (* 138 *) I "mov" [T_R32; T_IMM32] GP0 [F_OPCODE_REG] [] [] 1 1 [0xb8; 0x00; 0x00] 4 0 0 true [X16; X32; X64] NO_DST NO_PFX (Some 1%nat) NoMem;
   (* 139 *) I "mov" [T_R32E; T_IMM32] GP3 [REX; REXB; F_OPCODE_REG] [] [] 1 1 [0xb8; 0x00; 0x00] 4 0 0 true [X64] NO_DST NO_PFX (Some 1%nat) NoMem;
   (* 140 *) I "mov" [T_R64; T_IMM64] GP3 [REX; REXW; F_OPCODE_REG] [] [] 1 1 [0xb8; 0x00; 0x00] 8 0 0 false [X64] NO_DST NO_PFX (Some 1%nat) NoMem;
   (* 141 *) I "mov" [T_R64E; T_IMM64] GP3 [REX; REXW; REXB; F_OPCODE_REG] [] [] 1 1 [0xb8; 0x00; 0x00] 8 0 0 false [X64] NO_DST NO_PFX (Some 1%nat) NoMem;
   (* 142 *) I "mov" [T_R64; T_IMM8] GP3 [REX; REXW; F_MODRM; F_MODRM_RM] [] [] 1 1 [0xc7; 0x00; 0x00] 4 0 0xc0 false [X64] RM_DST NO_PFX (Some 1%nat) NoMem;
   (* 143 *) I "mov" [T_R64E; T_IMM8] GP3 [REX; REXW; REXB; F_MODRM; F_MODRM_RM] [] [] 1 1 [0xc7; 0x00; 0x00] 4 0 0xc0 false [X64] RM_DST NO_PFX (Some 1%nat) NoMem;
   (* 144 *) I "mov" [T_R64; T_IMM16] GP3 [REX; REXW; F_MODRM; F_MODRM_RM] [] [] 1 1 [0xc7; 0x00; 0x00] 4 0 0xc0 false [X64] RM_DST NO_PFX (Some 1%nat) NoMem;
   (* 145 *) I "mov" [T_R64E; T_IMM16] GP3 [REX; REXW; REXB; F_MODRM; F_MODRM_RM] [] [] 1 1 [0xc7; 0x00; 0x00] 4 0 0xc0 false [X64] RM_DST NO_PFX (Some 1%nat) NoMem;
   (* 146 *) I "mov" [T_R64; T_IMM32] GP3 [REX; REXW; F_MODRM; F_MODRM_RM] [] [] 1 1 [0xc7; 0x00; 0x00] 4 0 0xc0 false [X64] RM_DST NO_PFX (Some 1%nat) NoMem;
   (* 147 *) I "mov" [T_R64E; T_IMM32] GP3 [REX; REXW; REXB; F_MODRM; F_MODRM_RM] [] [] 1 1 [0xc7; 0x00; 0x00] 4 0 0xc0 false [X64] RM_DST NO_PFX (Some 1%nat) NoMem;
   (* 149 *) I "mov" [T_R8; T_M_ANY] GP0 [ALLOW_SEG; F_MODRM; F_MODRM_REG] [] [] 1 1 [0x8a; 0x00; 0x00] 1 0 0 false [X16; X32; X64] REG_DST NO_PFX None (MemOpnd 1);
   (* 150 *) I "mov" [T_R8H; T_M_ANY] GP0 [ALLOW_SEG; F_MODRM; F_MODRM_REG] [] [] 1 1 [0x8a; 0x00; 0x00] 1 0 0 false [X16; X32; X64] REG_DST NO_PFX None (MemOpnd 1);
   (* 151 *) I "mov" [T_R8E; T_M_ANY] GP3 [ALLOW_SEG; REX; REXR; F_MODRM; F_MODRM_REG] [] [] 1 1 [0x8a; 0x00; 0x00] 1 0 0 false [X64] REG_DST NO_PFX None (MemOpnd 1);
   (* 152 *) I "mov" [T_R8U; T_M_ANY] GP3 [ALLOW_SEG; REX; F_MODRM; F_MODRM_REG] [] [] 1 1 [0x8a; 0x00; 0x00] 1 0 0 false [X64] REG_DST NO_PFX None (MemOpnd 1);
   (* 153 *) I "mov" [T_R16; T_M_ANY] GP0 [ALLOW_SEG; F_MODRM; F_MODRM_REG] [] [] 1 1 [0x8b; 0x00; 0x00] 2 0 0 true [X16; X32; X64] REG_DST NO_PFX None (MemOpnd 1);
   (* 154 *) I "mov" [T_R16E; T_M_ANY] GP3 [ALLOW_SEG; REX; REXR; F_MODRM; F_MODRM_REG] [] [] 1 1 [0x8b; 0x00; 0x00] 2 0 0 true [X64] REG_DST NO_PFX None (MemOpnd 1);
   (* 155 *) I "mov" [T_R32; T_M_ANY] GP0 [ALLOW_SEG; F_MODRM; F_MODRM_REG] [] [] 1 1 [0x8b; 0x00; 0x00] 4 0 0 true [X16; X32; X64] REG_DST NO_PFX None (MemOpnd 1);
   (* 156 *) I "mov" [T_R32E; T_M_ANY] GP3 [ALLOW_SEG; REX; REXR; F_MODRM; F_MODRM_REG] [] [] 1 1 [0x8b; 0x00; 0x00] 4 0 0 true [X64] REG_DST NO_PFX None (MemOpnd 1);
   (* 157 *) I "mov" [T_R64; T_M_ANY] GP0 [ALLOW_SEG; REX; REXW; F_MODRM; F_MODRM_REG] [] [] 1 1 [0x8b; 0x00; 0x00] 8 0 0 false [X16; X32; X64] REG_DST NO_PFX None (MemOpnd 1);
   (* 158 *) I "mov" [T_R64E; T_M_ANY] GP3 [ALLOW_SEG; REX; REXW; REXR; F_MODRM; F_MODRM_REG] [] [] 1 1 [0x8b; 0x00; 0x00] 8 0 0 false [X64] REG_DST NO_PFX None (MemOpnd 1);
   (* 159 *) I "mov" [T_M_ANY; T_R8] GP0 [ALLOW_SEG; F_MODRM; F_MODRM_REG] [] [] 1 1 [0x88; 0x00; 0x00] 1 0 0 false [X16; X32; X64] RM_DST NO_PFX None (MemOpnd 0);
   (* 160 *) I "mov" [T_M_ANY; T_R8H] GP0 [ALLOW_SEG; F_MODRM; F_MODRM_REG] [] [] 1 1 [0x88; 0x00; 0x00] 1 0 0 false [X16; X32; X64] RM_DST NO_PFX None (MemOpnd 0);
   (* 161 *) I "mov" [T_M_ANY; T_R8E] GP3 [ALLOW_SEG; REX; REXR; F_MODRM; F_MODRM_REG] [] [] 1 1 [0x88; 0x00; 0x00] 1 0 0 false [X64] RM_DST NO_PFX None (MemOpnd 0);
   (* 162 *) I "mov" [T_M_ANY; T_R8U] GP3 [ALLOW_SEG; REX; F_MODRM; F_MODRM_REG] [] [] 1 1 [0x88; 0x00; 0x00] 1 0 0 false [X64] RM_DST NO_PFX None (MemOpnd 0);
   (* 163 *) I "mov" [T_M_ANY; T_R16] GP0 [ALLOW_SEG; F_MODRM; F_MODRM_REG] [] [] 1 1 [0x89; 0x00; 0x00] 2 0 0 true [X16; X32; X64] RM_DST NO_PFX None (MemOpnd 0);
   (* 164 *) I "mov" [T_M_ANY; T_R16E] GP3 [ALLOW_SEG; REX; REXR; F_MODRM; F_MODRM_REG] [] [] 1 1 [0x89; 0x00; 0x00] 2 0 0 true [X64] RM_DST NO_PFX None (MemOpnd 0);
   (* 165 *) I "mov" [T_M_ANY; T_R32] GP0 [ALLOW_SEG; F_MODRM; F_MODRM_REG] [] [] 1 1 [0x89; 0x00; 0x00] 4 0 0 true [X16; X32; X64] RM_DST NO_PFX None (MemOpnd 0);
   (* 166 *) I "mov" [T_M_ANY; T_R32E] GP3 [ALLOW_SEG; REX; REXR; F_MODRM; F_MODRM_REG] [] [] 1 1 [0x89; 0x00; 0x00] 4 0 0 true [X64] RM_DST NO_PFX None (MemOpnd 0);
   (* 167 *) I "mov" [T_M_ANY; T_R64] GP0 [ALLOW_SEG; REX; REXW; F_MODRM; F_MODRM_REG] [] [] 1 1 [0x89; 0x00; 0x00] 8 0 0 false [X64] RM_DST NO_PFX None (MemOpnd 0);
   (* 168 *) I "mov" [T_M_ANY; T_R64E] GP3 [ALLOW_SEG; REX; REXW; REXR; F_MODRM; F_MODRM_REG] [] [] 1 1 [0x89; 0x00; 0x00] 8 0 0 false [X64] RM_DST NO_PFX None (MemOpnd 0);
   (* 170 *) I "mov" [T_R8_AL; T_M_ANY] GP0 [ALLOW_SEG; ALLOW_SEGX; DSPW; NO_MEM_REG] [] [] 1 1 [0xa0; 0x00; 0x00] 1 0 0 false [X16; X32; X64] REG_DST NO_PFX None (MemAbs 1);
   (* 171 *) I "mov" [T_R8_AL; T_M8] GP0 [ALLOW_SEG; ALLOW_SEGX; DSPW; NO_MEM_REG] [] [] 1 1 [0xa0; 0x00; 0x00] 1 0 0 false [X16; X32; X64] REG_DST NO_PFX None (MemAbs 1);
   (* 172 *) I "mov" [T_M_ANY; T_R8_AL] GP0 [ALLOW_SEG; ALLOW_SEGX; DSPW; NO_MEM_REG] [] [] 1 1 [0xa2; 0x00; 0x00] 1 0 0 false [X16; X32; X64] RM_DST NO_PFX None (MemAbs 0);
   (* 173 *) I "mov" [T_M8; T_R8_AL] GP0 [ALLOW_SEG; ALLOW_SEGX; DSPW; NO_MEM_REG] [] [] 1 1 [0xa2; 0x00; 0x00] 1 0 0 false [X16; X32; X64] RM_DST NO_PFX None (MemAbs 0);
   (* 174 *) I "mov" [T_R16_AX; T_M_ANY] GP0 [ALLOW_SEG; ALLOW_SEGX; DSPW; NO_MEM_REG] [] [] 1 1 [0xa1; 0x00; 0x00] 2 0 0 true [X16; X32; X64] REG_DST NO_PFX None (MemAbs 1);
   (* 175 *) I "mov" [T_M_ANY; T_R16_AX] GP0 [ALLOW_SEG; ALLOW_SEGX; DSPW; NO_MEM_REG] [] [] 1 1 [0xa3; 0x00; 0x00] 2 0 0 true [X16; X32; X64] RM_DST NO_PFX None (MemAbs 0);
   (* 176 *) I "mov" [T_R16_AX; T_M16] GP0 [ALLOW_SEG; ALLOW_SEGX; DSPW; NO_MEM_REG] [] [] 1 1 [0xa1; 0x00; 0x00] 2 0 0 true [X16; X32; X64] REG_DST NO_PFX None (MemAbs 1);
   (* 177 *) I "mov" [T_M16; T_R16_AX] GP0 [ALLOW_SEG; ALLOW_SEGX; DSPW; NO_MEM_REG] [] [] 1 1 [0xa3; 0x00; 0x00] 2 0 0 true [X16; X32; X64] RM_DST NO_PFX None (MemAbs 0);
   (* 178 *) I "mov" [T_R32_EAX; T_M_ANY] GP0 [ALLOW_SEG; ALLOW_SEGX; DSPW; NO_MEM_REG] [] [] 1 1 [0xa1; 0x00; 0x00] 4 0 0 true [X16; X32; X64] REG_DST NO_PFX None (MemAbs 1);
   (* 179 *) I "mov" [T_M_ANY; T_R32_EAX] GP0 [ALLOW_SEG; ALLOW_SEGX; DSPW; NO_MEM_REG] [] [] 1 1 [0xa3; 0x00; 0x00] 4 0 0 true [X16; X32; X64] RM_DST NO_PFX None (MemAbs 0);
   (* 180 *) I "mov" [T_R32_EAX; T_M32] GP0 [ALLOW_SEG; ALLOW_SEGX; DSPW; NO_MEM_REG] [] [] 1 1 [0xa1; 0x00; 0x00] 4 0 0 true [X16; X32; X64] REG_DST NO_PFX None (MemAbs 1);
   (* 181 *) I "mov" [T_M32; T_R32_EAX] GP0 [ALLOW_SEG; ALLOW_SEGX; DSPW; NO_MEM_REG] [] [] 1 1 [0xa3; 0x00; 0x00] 4 0 0 true [X16; X32; X64] RM_DST NO_PFX None (MemAbs 0);
   (* 182 *) I "mov" [T_R64_RAX; T_M_ANY] GP3 [ALLOW_SEG; ALLOW_SEGX; REX; REXW; DSPW; NO_MEM_REG] [] [] 1 1 [0xa1; 0x00; 0x00] 8 0 0 false [X64] REG_DST NO_PFX None (MemAbs 1);
   (* 183 *) I "mov" [T_M_ANY; T_R64_RAX] GP3 [ALLOW_SEG; ALLOW_SEGX; REX; REXW; DSPW; NO_MEM_REG] [] [] 1 1 [0xa3; 0x00; 0x00] 8 0 0 false [X64] RM_DST NO_PFX None (MemAbs 0);
   (* 184 *) I "mov" [T_R64_RAX; T_M64] GP3 [ALLOW_SEG; ALLOW_SEGX; REX; REXW; DSPW; NO_MEM_REG] [] [] 1 1 [0xa1; 0x00; 0x00] 8 0 0 false [X64] REG_DST NO_PFX None (MemAbs 1);
   (* 185 *) I "mov" [T_M64; T_R64_RAX] GP3 [ALLOW_SEG; ALLOW_SEGX; REX; REXW; DSPW; NO_MEM_REG] [] [] 1 1 [0xa3; 0x00; 0x00] 8 0 0 false [X64] RM_DST NO_PFX None (MemAbs 0);
   (* 186 *) I "movabs" [T_R8_AL; T_M_ANY] GP0 [ALLOW_SEG; ALLOW_SEGX; DSPW; NO_MEM_REG] [] [] 1 1 [0xa0; 0x00; 0x00] 1 0 0 false [X16; X32; X64] REG_DST NO_PFX None (MemAbs 1);
   (* 187 *) I "movabs" [T_R8_AL; T_M8] GP0 [ALLOW_SEG; ALLOW_SEGX; DSPW; NO_MEM_REG] [] [] 1 1 [0xa0; 0x00; 0x00] 1 0 0 false [X16; X32; X64] REG_DST NO_PFX None (MemAbs 1);
   (* 188 *) I "movabs" [T_M_ANY; T_R8_AL] GP0 [ALLOW_SEG; ALLOW_SEGX; DSPW; NO_MEM_REG] [] [] 1 1 [0xa2; 0x00; 0x00] 1 0 0 false [X16; X32; X64] RM_DST NO_PFX None (MemAbs 0);
   (* 189 *) I "movabs" [T_M8; T_R8_AL] GP0 [ALLOW_SEG; ALLOW_SEGX; DSPW; NO_MEM_REG] [] [] 1 1 [0xa2; 0x00; 0x00] 1 0 0 false [X16; X32; X64] RM_DST NO_PFX None (MemAbs 0);
   (* 190 *) I "movabs" [T_R16_AX; T_M_ANY] GP0 [ALLOW_SEG; ALLOW_SEGX; DSPW; NO_MEM_REG] [] [] 1 1 [0xa1; 0x00; 0x00] 2 0 0 true [X16; X32; X64] REG_DST NO_PFX None (MemAbs 1);
   (* 191 *) I "movabs" [T_M_ANY; T_R16_AX] GP0 [ALLOW_SEG; ALLOW_SEGX; DSPW; NO_MEM_REG] [] [] 1 1 [0xa3; 0x00; 0x00] 2 0 0 true [X16; X32; X64] RM_DST NO_PFX None (MemAbs 0);
   (* 192 *) I "movabs" [T_R16_AX; T_M16] GP0 [ALLOW_SEG; ALLOW_SEGX; DSPW; NO_MEM_REG] [] [] 1 1 [0xa1; 0x00; 0x00] 2 0 0 true [X16; X32; X64] REG_DST NO_PFX None (MemAbs 1);
   (* 193 *) I "movabs" [T_M16; T_R16_AX] GP0 [ALLOW_SEG; ALLOW_SEGX; DSPW; NO_MEM_REG] [] [] 1 1 [0xa3; 0x00; 0x00] 2 0 0 true [X16; X32; X64] RM_DST NO_PFX None (MemAbs 0);
   (* 194 *) I "movabs" [T_R32_EAX; T_M_ANY] GP0 [ALLOW_SEG; ALLOW_SEGX; DSPW; NO_MEM_REG] [] [] 1 1 [0xa1; 0x00; 0x00] 4 0 0 true [X16; X32; X64] REG_DST NO_PFX None (MemAbs 1);
   (* 195 *) I "movabs" [T_M_ANY; T_R32_EAX] GP0 [ALLOW_SEG; ALLOW_SEGX; DSPW; NO_MEM_REG] [] [] 1 1 [0xa3; 0x00; 0x00] 4 0 0 true [X16; X32; X64] RM_DST NO_PFX None (MemAbs 0);
   (* 196 *) I "movabs" [T_R32_EAX; T_M32] GP0 [ALLOW_SEG; ALLOW_SEGX; DSPW; NO_MEM_REG] [] [] 1 1 [0xa1; 0x00; 0x00] 4 0 0 true [X16; X32; X64] REG_DST NO_PFX None (MemAbs 1);
   (* 197 *) I "movabs" [T_M32; T_R32_EAX] GP0 [ALLOW_SEG; ALLOW_SEGX; DSPW; NO_MEM_REG] [] [] 1 1 [0xa3; 0x00; 0x00] 4 0 0 true [X16; X32; X64] RM_DST NO_PFX None (MemAbs 0);
   (* 198 *) I "movabs" [T_R64_RAX; T_M_ANY] GP3 [ALLOW_SEG; ALLOW_SEGX; REX; REXW; DSPW; NO_MEM_REG] [] [] 1 1 [0xa1; 0x00; 0x00] 8 0 0 false [X64] REG_DST NO_PFX None (MemAbs 1);
   (* 199 *) I "movabs" [T_M_ANY; T_R64_RAX] GP3 [ALLOW_SEG; ALLOW_SEGX; REX; REXW; DSPW; NO_MEM_REG] [] [] 1 1 [0xa3; 0x00; 0x00] 8 0 0 false [X64] RM_DST NO_PFX None (MemAbs 0);
   (* 200 *) I "movabs" [T_R64_RAX; T_M64] GP3 [ALLOW_SEG; ALLOW_SEGX; REX; REXW; DSPW; NO_MEM_REG] [] [] 1 1 [0xa1; 0x00; 0x00] 8 0 0 false [X64] REG_DST NO_PFX None (MemAbs 1);
   (* 201 *) I "movabs" [T_M64; T_R64_RAX] GP3 [ALLOW_SEG; ALLOW_SEGX; REX; REXW; DSPW; NO_MEM_REG] [] [] 1 1 [0xa3; 0x00; 0x00] 8 0 0 false [X64] RM_DST NO_PFX None (MemAbs 0);
   (* 203 *) I "mov" [T_M8; T_IMM8] GP3 [ALLOW_SEG; F_MODRM] [] [] 1 1 [0xc6; 0x00; 0x00] 1 0 0 false [X16; X32; X64] RM_DST NO_PFX (Some 1%nat) (MemOpnd 0);
   (* 204 *) I "mov" [T_M16; T_IMM8] GP3 [ALLOW_SEG; F_MODRM] [] [] 1 1 [0xc7; 0x00; 0x00] 2 0 0 true [X16; X32; X64] RM_DST NO_PFX (Some 1%nat) (MemOpnd 0);
   (* 205 *) I "mov" [T_M16; T_IMM16] GP3 [ALLOW_SEG; F_MODRM] [] [] 1 1 [0xc7; 0x00; 0x00] 2 0 0 true [X16; X32; X64] RM_DST NO_PFX (Some 1%nat) (MemOpnd 0);
   (* 206 *) I "mov" [T_M32; T_IMM8] GP3 [ALLOW_SEG; REXP_MEM; F_MODRM] [] [] 1 1 [0xc7; 0x00; 0x00] 4 0 0 true [X16; X32; X64] RM_DST NO_PFX (Some 1%nat) (MemOpnd 0);
   (* 207 *) I "mov" [T_M32; T_IMM16] GP3 [ALLOW_SEG; REXP_MEM; F_MODRM] [] [] 1 1 [0xc7; 0x00; 0x00] 4 0 0 true [X16; X32; X64] RM_DST NO_PFX (Some 1%nat) (MemOpnd 0);
   (* 208 *) I "mov" [T_M32; T_IMM32] GP3 [ALLOW_SEG; REXP_MEM; F_MODRM] [] [] 1 1 [0xc7; 0x00; 0x00] 4 0 0 true [X16; X32; X64] RM_DST NO_PFX (Some 1%nat) (MemOpnd 0);
   (* 209 *) I "mov" [T_M64; T_IMM8] GP3 [ALLOW_SEG; REXP_MEM; F_MODRM] [] [] 1 1 [0xc7; 0x00; 0x00] 4 0 0 true [X16; X32; X64] RM_DST NO_PFX (Some 1%nat) (MemOpnd 0);
   (* 210 *) I "mov" [T_M64; T_IMM16] GP3 [ALLOW_SEG; REXP_MEM; F_MODRM] [] [] 1 1 [0xc7; 0x00; 0x00] 4 0 0 true [X16; X32; X64] RM_DST NO_PFX (Some 1%nat) (MemOpnd 0);
   (* 211 *) I "mov" [T_M64; T_IMM32] GP3 [ALLOW_SEG; REXP_MEM; F_MODRM] [] [] 1 1 [0xc7; 0x00; 0x00] 4 0 0 true [X16; X32; X64] RM_DST NO_PFX (Some 1%nat) (MemOpnd 0);
   (* 212 *) I "mov" [T_M_ANY; T_IMM8] GP3 [ALLOW_SEG; REXP_MEM; F_MODRM] [] [] 1 1 [0xc6; 0x00; 0x00] 1 0 0 true [X16; X32; X64] RM_DST NO_PFX (Some 1%nat) (MemOpnd 0);
   (* 213 *) I "mov" [T_M_ANY; T_IMM16] GP3 [ALLOW_SEG; REXP_MEM; F_MODRM] [] [] 1 1 [0xc7; 0x00; 0x00] 2 0 0 true [X16; X32; X64] RM_DST NO_PFX (Some 1%nat) (MemOpnd 0);
   (* 214 *) I "mov" [T_M_ANY; T_IMM32] GP3 [ALLOW_SEG; REXP_MEM; F_MODRM] [] [] 1 1 [0xc7; 0x00; 0x00] 4 0 0 true [X16; X32; X64] RM_DST NO_PFX (Some 1%nat) (MemOpnd 0);
   (* 217 *) I "movaps" [T_R_XMM; T_R_XMM] SSE0 [EREX; F_MODRM; F_MODRM_REG; F_MODRM_RM] [] [] 4 1 [0x28; 0x00; 0x00] 16 1 0xc0 false [X32; X64] REG_DST PFX_0xF None NoMem;
   (* 218 *) I "movaps" [T_R_XMM; T_M_ANY] SSE0 [EREX; F_MODRM; F_MODRM_REG] [] [] 4 1 [0x28; 0x00; 0x00] 16 1 0 false [X32; X64] REG_DST PFX_0xF None (MemOpnd 1);
   (* 219 *) I "movaps" [T_M_ANY; T_R_XMM] SSE0 [EREX; F_MODRM; F_MODRM_REG] [] [] 4 1 [0x29; 0x00; 0x00] 16 1 0 false [X32; X64] RM_DST PFX_0xF None (MemOpnd 0);
   (* 220 *) I "mulps" [T_R_XMM; T_R_XMM] SSE0 [EREX; F_MODRM; F_MODRM_REG; F_MODRM_RM] [] [] 4 1 [0x59; 0x00; 0x00] 16 1 0xc0 false [X32; X64] REG_DST PFX_0xF None NoMem;
   (* 221 *) I "mulps" [T_R_XMM; T_M_ANY] SSE0 [EREX; F_MODRM; F_MODRM_REG] [] [] 4 1 [0x59; 0x00; 0x00] 16 1 0 false [X32; X64] REG_DST PFX_0xF None (MemOpnd 1);
   (* 222 *) I "pshufd" [T_R_XMM; T_R_XMM; T_IMM8] SSE0 [EREX; F_MODRM; F_MODRM_REG; F_MODRM_RM; IMM8_ONLY] [] [] 4 1 [0x70; 0x00; 0x00] 16 1 0xc0 false [X32; X64] REG_DST PFX_0x66F (Some 2%nat) NoMem;
   (* 223 *) I "pshufd" [T_R_XMM; T_M_ANY; T_IMM8] SSE0 [EREX; F_MODRM; F_MODRM_REG; IMM8_ONLY] [] [] 4 1 [0x70; 0x00; 0x00] 16 1 0 false [X32; X64] REG_DST PFX_0x66F (Some 2%nat) (MemOpnd 1);
   (* 224 *) I "blendvps" [T_R_XMM; T_R_XMM] SSE0 [EREX; F_MODRM; F_MODRM_REG; F_MODRM_RM] [] [] 4 1 [0x14; 0x00; 0x00] 16 1 0xc0 false [X32; X64] REG_DST PFX_0x66F38 None NoMem;
   (* 225 *) I "blendvps" [T_R_XMM; T_M_ANY] SSE0 [EREX; F_MODRM; F_MODRM_REG] [] [] 4 1 [0x14; 0x00; 0x00] 16 1 0 false [X32; X64] REG_DST PFX_0x66F38 None (MemOpnd 1);
   (* 226 *) I "mpsadbw" [T_R_XMM; T_R_XMM] SSE0 [EREX; F_MODRM; F_MODRM_REG; F_MODRM_RM] [] [] 4 1 [0x42; 0x00; 0x00] 16 1 0xc0 false [X32; X64] REG_DST PFX_0x66F3A None NoMem;
   (* 227 *) I "mpsadbw" [T_R_XMM; T_M_ANY] SSE0 [EREX; F_MODRM; F_MODRM_REG] [] [] 4 1 [0x42; 0x00; 0x00] 16 1 0 false [X32; X64] REG_DST PFX_0x66F3A None (MemOpnd 1);
   (* 232 *) I "vmovaps" [T_R_XMM; T_R_XMM] AVX0 [F_MODRM; F_MODRM_REG; F_MODRM_RM; SRCHDSTL] [VEX; VEX_WIG; VEX_0F; VEX_2OPND; EVEX] [EVEX_W0; EVEX_MASK; EVEX_Z] 1 1 [0x29; 0x00; 0x00] 16 1 0xc0 false [X32; X64] RM_DST NO_PFX None NoMem;
   (* 233 *) I "vmovaps" [T_R_YMM; T_R_YMM] AVX1 [F_MODRM; F_MODRM_REG; F_MODRM_RM; SRCHDSTL] [VEX; VEX_WIG; VEX_0F; VEX_2OPND; EVEX] [EVEX_W0; EVEX_MASK; EVEX_Z] 1 1 [0x29; 0x00; 0x00] 32 1 0xc0 false [X32; X64] RM_DST NO_PFX None NoMem;
   (* 234 *) I "vmovaps" [T_R_XMM; T_R_XMM] AVX0 [F_MODRM; F_MODRM_REG; F_MODRM_RM] [VEX; VEX_WIG; VEX_0F; VEX_2OPND; EVEX] [EVEX_W0; EVEX_MASK; EVEX_Z] 1 1 [0x28; 0x00; 0x00] 16 1 0xc0 false [X32; X64] REG_DST NO_PFX None NoMem;
   (* 235 *) I "vmovaps" [T_R_YMM; T_R_YMM] AVX1 [F_MODRM; F_MODRM_REG; F_MODRM_RM] [VEX; VEX_WIG; VEX_0F; VEX_2OPND; EVEX] [EVEX_W0; EVEX_MASK; EVEX_Z] 1 1 [0x28; 0x00; 0x00] 32 1 0xc0 false [X32; X64] REG_DST NO_PFX None NoMem;
   (* 236 *) I "vmovaps" [T_R_XMM; T_M_ANY] AVX0 [F_MODRM; F_MODRM_REG] [VEX; VEX_WIG; VEX_0F; VEX_2OPND; EVEX] [EVEX_W0; EVEX_MASK; EVEX_Z] 1 1 [0x28; 0x00; 0x00] 16 1 0 false [X32; X64] REG_DST NO_PFX None (MemOpnd 1);
   (* 237 *) I "vmovaps" [T_R_YMM; T_M_ANY] AVX1 [F_MODRM; F_MODRM_REG] [VEX; VEX_WIG; VEX_0F; VEX_2OPND; EVEX] [EVEX_W0; EVEX_MASK; EVEX_Z] 1 1 [0x28; 0x00; 0x00] 32 1 0 false [X32; X64] REG_DST NO_PFX None (MemOpnd 1);
   (* 238 *) I "vmovaps" [T_M_ANY; T_R_XMM] AVX0 [F_MODRM; F_MODRM_REG] [VEX; VEX_WIG; VEX_0F; VEX_2OPND; EVEX] [EVEX_W0; EVEX_MASK] 1 1 [0x29; 0x00; 0x00] 16 1 0 false [X32; X64] RM_DST NO_PFX None (MemOpnd 0);
   (* 239 *) I "vmovaps" [T_M_ANY; T_R_YMM] AVX1 [F_MODRM; F_MODRM_REG] [VEX; VEX_WIG; VEX_0F; VEX_2OPND; EVEX] [EVEX_W0; EVEX_MASK] 1 1 [0x29; 0x00; 0x00] 32 1 0 false [X32; X64] RM_DST NO_PFX None (MemOpnd 0);
   (* 240 *) I "vmovaps" [T_R_ZMM; T_R_ZMM] EVX0 [F_MODRM; F_MODRM_REG; F_MODRM_RM] [EVEX; VEX_0F; VEX_2OPND] [EVEX_ONLY; EVEX_W0; EVEX_MASK; EVEX_Z] 1 1 [0x28; 0x00; 0x00] 64 1 0xc0 false [X32; X64] REG_DST NO_PFX None NoMem;
   (* 241 *) I "vmovaps" [T_R_ZMM; T_M_ANY] EVX0 [F_MODRM; F_MODRM_REG] [EVEX; VEX_0F; VEX_2OPND] [EVEX_ONLY; EVEX_W0; EVEX_MASK; EVEX_Z] 1 1 [0x28; 0x00; 0x00] 64 1 0 false [X32; X64] REG_DST NO_PFX None (MemOpnd 1);
   (* 242 *) I "vmovaps" [T_M_ANY; T_R_ZMM] EVX0 [F_MODRM; F_MODRM_REG] [EVEX; VEX_0F; VEX_2OPND] [EVEX_ONLY; EVEX_W0; EVEX_MASK] 1 1 [0x29; 0x00; 0x00] 64 1 0 false [X32; X64] RM_DST NO_PFX None (MemOpnd 0);
   (* 247 *) I "vmovapd" [T_R_XMM; T_R_XMM] AVX0 [F_MODRM; F_MODRM_REG; F_MODRM_RM; SRCHDSTL] [VEX; VEX_WIG; VEX_0F; VEX_2OPND; EVEX; VEX_66] [EVEX_W1; EVEX_MASK; EVEX_Z] 1 1 [0x29; 0x00; 0x00] 16 1 0xc0 false [X32; X64] RM_DST NO_PFX None NoMem;
   (* 248 *) I "vmovapd" [T_R_YMM; T_R_YMM] AVX1 [F_MODRM; F_MODRM_REG; F_MODRM_RM; SRCHDSTL] [VEX; VEX_WIG; VEX_0F; VEX_2OPND; EVEX; VEX_66] [EVEX_W1; EVEX_MASK; EVEX_Z] 1 1 [0x29; 0x00; 0x00] 32 1 0xc0 false [X32; X64] RM_DST NO_PFX None NoMem;
   (* 249 *) I "vmovapd" [T_R_XMM; T_R_XMM] AVX0 [F_MODRM; F_MODRM_REG; F_MODRM_RM] [VEX; VEX_WIG; VEX_0F; VEX_2OPND; EVEX; VEX_66] [EVEX_W1; EVEX_MASK; EVEX_Z] 1 1 [0x28; 0x00; 0x00] 16 1 0xc0 false [X32; X64] REG_DST NO_PFX None NoMem;
   (* 250 *) I "vmovapd" [T_R_YMM; T_R_YMM] AVX1 [F_MODRM; F_MODRM_REG; F_MODRM_RM] [VEX; VEX_WIG; VEX_0F; VEX_2OPND; EVEX; VEX_66] [EVEX_W1; EVEX_MASK; EVEX_Z] 1 1 [0x28; 0x00; 0x00] 32 1 0xc0 false [X32; X64] REG_DST NO_PFX None NoMem;
   (* 251 *) I "vmovapd" [T_R_XMM; T_M_ANY] AVX0 [F_MODRM; F_MODRM_REG] [VEX; VEX_WIG; VEX_0F; VEX_2OPND; EVEX; VEX_66] [EVEX_W1; EVEX_MASK; EVEX_Z] 1 1 [0x28; 0x00; 0x00] 16 1 0 false [X32; X64] REG_DST NO_PFX None (MemOpnd 1);
   (* 252 *) I "vmovapd" [T_R_YMM; T_M_ANY] AVX1 [F_MODRM; F_MODRM_REG] [VEX; VEX_WIG; VEX_0F; VEX_2OPND; EVEX; VEX_66] [EVEX_W1; EVEX_MASK; EVEX_Z] 1 1 [0x28; 0x00; 0x00] 32 1 0 false [X32; X64] REG_DST NO_PFX None (MemOpnd 1);
   (* 253 *) I "vmovapd" [T_M_ANY; T_R_XMM] AVX0 [F_MODRM; F_MODRM_REG] [VEX; VEX_WIG; VEX_0F; VEX_2OPND; EVEX; VEX_66] [EVEX_W1; EVEX_MASK] 1 1 [0x29; 0x00; 0x00] 16 1 0 false [X32; X64] RM_DST NO_PFX None (MemOpnd 0);
   (* 254 *) I "vmovapd" [T_M_ANY; T_R_YMM] AVX1 [F_MODRM; F_MODRM_REG] [VEX; VEX_WIG; VEX_0F; VEX_2OPND; EVEX; VEX_66] [EVEX_W1; EVEX_MASK] 1 1 [0x29; 0x00; 0x00] 32 1 0 false [X32; X64] RM_DST NO_PFX None (MemOpnd 0);
   (* 255 *) I "vmovapd" [T_R_ZMM; T_R_ZMM] EVX0 [F_MODRM; F_MODRM_REG; F_MODRM_RM] [EVEX; VEX_0F; VEX_2OPND; VEX_66] [EVEX_ONLY; EVEX_W1; EVEX_MASK; EVEX_Z] 1 1 [0x28; 0x00; 0x00] 64 1 0xc0 false [X32; X64] REG_DST NO_PFX None NoMem;
   (* 256 *) I "vmovapd" [T_R_ZMM; T_M_ANY] EVX0 [F_MODRM; F_MODRM_REG] [EVEX; VEX_0F; VEX_2OPND; VEX_66] [EVEX_ONLY; EVEX_W1; EVEX_MASK; EVEX_Z] 1 1 [0x28; 0x00; 0x00] 64 1 0 false [X32; X64] REG_DST NO_PFX None (MemOpnd 1);
   (* 257 *) I "vmovapd" [T_M_ANY; T_R_ZMM] EVX0 [F_MODRM; F_MODRM_REG] [EVEX; VEX_0F; VEX_2OPND; VEX_66] [EVEX_ONLY; EVEX_W1; EVEX_MASK] 1 1 [0x29; 0x00; 0x00] 64 1 0 false [X32; X64] RM_DST NO_PFX None (MemOpnd 0);
   (* 262 *) I "vmulps" [T_R_XMM; T_R_XMM; T_R_XMM] AVX0 [F_MODRM; F_MODRM_REG; F_MODRM_RM] [VEX; VEX_WIG; VEX_0F; VEX_NDS; EVEX] [EVEX_W0; EVEX_MASK; EVEX_Z; EVEX_RND] 4 1 [0x59; 0x00; 0x00] 16 2 0xc0 false [X32; X64] REG_DST NO_PFX None NoMem;
   (* 263 *) I "vmulps" [T_R_XMM; T_R_XMM; T_M_ANY] AVX0 [F_MODRM; F_MODRM_REG] [VEX; VEX_WIG; VEX_0F; VEX_NDS; EVEX] [EVEX_W0; EVEX_MASK; EVEX_Z; EVEX_BRD] 4 1 [0x59; 0x00; 0x00] 16 2 0 false [X32; X64] REG_DST NO_PFX None (MemOpnd 2);
   (* 264 *) I "vmulps" [T_R_YMM; T_R_YMM; T_R_YMM] AVX1 [F_MODRM; F_MODRM_REG; F_MODRM_RM] [VEX; VEX_WIG; VEX_0F; VEX_NDS; EVEX] [EVEX_W0; EVEX_MASK; EVEX_Z; EVEX_RND] 8 1 [0x59; 0x00; 0x00] 32 2 0xc0 false [X32; X64] REG_DST NO_PFX None NoMem;
   (* 265 *) I "vmulps" [T_R_YMM; T_R_YMM; T_M_ANY] AVX1 [F_MODRM; F_MODRM_REG] [VEX; VEX_WIG; VEX_0F; VEX_NDS; EVEX] [EVEX_W0; EVEX_MASK; EVEX_Z; EVEX_BRD] 8 1 [0x59; 0x00; 0x00] 32 2 0 false [X32; X64] REG_DST NO_PFX None (MemOpnd 2);
   (* 267 *) I "vmulps" [T_R_XMM; T_R_XMM] AVX0 [F_MODRM; F_MODRM_REG; F_MODRM_RM] [VEX; VEX_WIG; VEX_0F; VEX_DUP_NDS] [EVEX_W0; EVEX_MASK; EVEX_Z; EVEX_RND] 4 1 [0x59; 0x00; 0x00] 16 1 0xc0 false [X32; X64] REG_DST NO_PFX None NoMem;
   (* 268 *) I "vmulps" [T_R_YMM; T_R_YMM] AVX1 [F_MODRM; F_MODRM_REG; F_MODRM_RM] [VEX; VEX_WIG; VEX_0F; VEX_DUP_NDS] [EVEX_W0; EVEX_MASK; EVEX_Z; EVEX_RND] 8 1 [0x59; 0x00; 0x00] 32 1 0xc0 false [X32; X64] REG_DST NO_PFX None NoMem;
   (* 269 *) I "vmulps" [T_R_ZMM; T_R_ZMM; T_R_ZMM] EVX0 [F_MODRM; F_MODRM_REG; F_MODRM_RM] [EVEX; VEX_0F; VEX_NDS] [EVEX_ONLY; EVEX_W0; EVEX_MASK; EVEX_Z; EVEX_RND] 16 1 [0x59; 0x00; 0x00] 64 2 0xc0 false [X32; X64] REG_DST NO_PFX None NoMem;
   (* 270 *) I "vmulps" [T_R_ZMM; T_R_ZMM; T_M_ANY] EVX0 [F_MODRM; F_MODRM_REG] [EVEX; VEX_0F; VEX_NDS] [EVEX_ONLY; EVEX_W0; EVEX_MASK; EVEX_Z; EVEX_BRD] 16 1 [0x59; 0x00; 0x00] 64 2 0 false [X32; X64] REG_DST NO_PFX None (MemOpnd 2);
   (* 275 *) I "vpshufd" [T_R_XMM; T_R_XMM; T_IMM8] AVX0 [F_MODRM; F_MODRM_REG; F_MODRM_RM; IMM8_ONLY] [VEX; VEX_WIG; VEX_0F; VEX_66; VEX_2OPND; EVEX] [EVEX_W0; EVEX_MASK; EVEX_Z] 4 1 [0x70; 0x00; 0x00] 16 1 0xc0 false [X32; X64] REG_DST NO_PFX (Some 2%nat) NoMem;
   (* 276 *) I "vpshufd" [T_R_XMM; T_M_ANY; T_IMM8] AVX0 [F_MODRM; F_MODRM_REG; IMM8_ONLY] [VEX; VEX_WIG; VEX_0F; VEX_66; VEX_2OPND; EVEX] [EVEX_W0; EVEX_MASK; EVEX_Z; EVEX_BRD] 4 1 [0x70; 0x00; 0x00] 16 1 0 false [X32; X64] REG_DST NO_PFX (Some 2%nat) (MemOpnd 1);
   (* 277 *) I "vpshufd" [T_R_YMM; T_R_YMM; T_IMM8] AVX1 [F_MODRM; F_MODRM_REG; F_MODRM_RM; IMM8_ONLY] [VEX; VEX_WIG; VEX_0F; VEX_66; VEX_2OPND; EVEX] [EVEX_W0; EVEX_MASK; EVEX_Z] 8 1 [0x70; 0x00; 0x00] 32 1 0xc0 false [X32; X64] REG_DST NO_PFX (Some 2%nat) NoMem;
   (* 278 *) I "vpshufd" [T_R_YMM; T_M_ANY; T_IMM8] AVX1 [F_MODRM; F_MODRM_REG; IMM8_ONLY] [VEX; VEX_WIG; VEX_0F; VEX_66; VEX_2OPND; EVEX] [EVEX_W0; EVEX_MASK; EVEX_Z; EVEX_BRD] 8 1 [0x70; 0x00; 0x00] 32 1 0 false [X32; X64] REG_DST NO_PFX (Some 2%nat) (MemOpnd 1);
   (* 279 *) I "vpshufd" [T_R_ZMM; T_R_ZMM; T_IMM8] EVX0 [F_MODRM; F_MODRM_REG; F_MODRM_RM; IMM8_ONLY] [VEX; VEX_WIG; VEX_0F; VEX_66; VEX_2OPND; EVEX] [EVEX_ONLY; EVEX_W0; EVEX_MASK; EVEX_Z] 16 1 [0x70; 0x00; 0x00] 64 1 0xc0 false [X32; X64] REG_DST NO_PFX (Some 2%nat) NoMem;
   (* 280 *) I "vpshufd" [T_R_ZMM; T_M_ANY; T_IMM8] EVX0 [F_MODRM; F_MODRM_REG; IMM8_ONLY] [VEX; VEX_WIG; VEX_0F; VEX_66; VEX_2OPND; EVEX] [EVEX_ONLY; EVEX_W0; EVEX_MASK; EVEX_Z; EVEX_BRD] 16 1 [0x70; 0x00; 0x00] 64 1 0 false [X32; X64] REG_DST NO_PFX (Some 2%nat) (MemOpnd 1);
   (* 285 *) I "vgatherdps" [T_R_XMM; T_M_ANY; T_R_XMM] AVX0 [F_MODRM; F_MODRM_REG] [VEX; VEX_66; VEX_0F38; VEX_DDS; VEX_VSIB] [] 4 1 [0x92; 0x00; 0x00] 16 2 0 false [X32; X64] REG_DST NO_PFX None (MemOpnd 1);
   (* 286 *) I "vgatherdps" [T_R_YMM; T_M_ANY; T_R_YMM] AVX1 [F_MODRM; F_MODRM_REG] [VEX; VEX_66; VEX_0F38; VEX_DDS; VEX_VSIB] [] 8 1 [0x92; 0x00; 0x00] 32 2 0 false [X32; X64] REG_DST NO_PFX None (MemOpnd 1);
   (* 287 *) I "vgatherdps" [T_R_ZMM; T_M_ANY] EVX0 [F_MODRM; F_MODRM_REG] [VEX; VEX_66; VEX_0F38; VEX_2OPND; VEX_VSIB; EVEX] [EVEX_ONLY; EVEX_W0; EVEX_MASK; EVEX_K; EVEX_VSIB] 16 1 [0x92; 0x00; 0x00] 64 1 0 false [X32; X64] REG_DST NO_PFX None (MemOpnd 1);
   (* 288 *) I "vgatherdps" [T_R_XMM; T_M_ANY] EVX0 [F_MODRM; F_MODRM_REG] [VEX; VEX_66; VEX_0F38; VEX_2OPND; VEX_VSIB; EVEX] [EVEX_ONLY; EVEX_W0; EVEX_MASK; EVEX_K; EVEX_VSIB] 4 1 [0x92; 0x00; 0x00] 16 1 0 false [X32; X64] REG_DST NO_PFX None (MemOpnd 1);
   (* 289 *) I "vgatherdps" [T_R_YMM; T_M_ANY] EVX0 [F_MODRM; F_MODRM_REG] [VEX; VEX_66; VEX_0F38; VEX_2OPND; VEX_VSIB; EVEX] [EVEX_ONLY; EVEX_W0; EVEX_MASK; EVEX_K; EVEX_VSIB] 8 1 [0x92; 0x00; 0x00] 32 1 0 false [X32; X64] REG_DST NO_PFX None (MemOpnd 1);
   (* 294 *) I "vblendvps" [T_R_XMM; T_R_XMM; T_R_XMM; T_R_XMM] AVX0 [F_MODRM; F_MODRM_REG; F_MODRM_RM; IMM8_ONLY] [VEX; VEX_66; VEX_0F3A; VEX_NDS; VEX_4OPND; VEX_W0] [] 4 1 [0x4a; 0x00; 0x00] 16 2 0xc0 false [X32; X64] REG_DST NO_PFX (Some 3%nat) NoMem;
   (* 295 *) I "vblendvps" [T_R_XMM; T_R_XMM; T_M_ANY; T_R_XMM] AVX0 [F_MODRM; F_MODRM_REG; IMM8_ONLY] [VEX; VEX_66; VEX_0F3A; VEX_NDS; VEX_4OPND; VEX_W0] [] 4 1 [0x4a; 0x00; 0x00] 16 2 0 false [X32; X64] REG_DST NO_PFX (Some 3%nat) (MemOpnd 2);
   (* 296 *) I "vblendvps" [T_R_YMM; T_R_YMM; T_R_YMM; T_R_YMM] AVX1 [F_MODRM; F_MODRM_REG; F_MODRM_RM; IMM8_ONLY] [VEX; VEX_66; VEX_0F3A; VEX_NDS; VEX_4OPND; VEX_W0] [] 8 1 [0x4a; 0x00; 0x00] 32 2 0xc0 false [X32; X64] REG_DST NO_PFX (Some 3%nat) NoMem;
   (* 297 *) I "vblendvps" [T_R_YMM; T_R_YMM; T_M_ANY; T_R_YMM] AVX1 [F_MODRM; F_MODRM_REG; IMM8_ONLY] [VEX; VEX_66; VEX_0F3A; VEX_NDS; VEX_4OPND; VEX_W0] [] 8 1 [0x4a; 0x00; 0x00] 32 2 0 false [X32; X64] REG_DST NO_PFX (Some 3%nat) (MemOpnd 2);
   (* 302 *) I "vmpsadbw" [T_R_XMM; T_R_XMM; T_R_XMM; T_IMM8] AVX0 [F_MODRM; F_MODRM_REG; F_MODRM_RM; IMM8_ONLY] [VEX; VEX_66; VEX_WIG; VEX_0F3A; VEX_NDS] [] 4 1 [0x42; 0x00; 0x00] 16 2 0xc0 false [X32; X64] REG_DST NO_PFX (Some 3%nat) NoMem;
   (* 303 *) I "vmpsadbw" [T_R_XMM; T_R_XMM; T_M_ANY; T_IMM8] AVX0 [F_MODRM; F_MODRM_REG; IMM8_ONLY] [VEX; VEX_66; VEX_WIG; VEX_0F3A; VEX_NDS] [] 4 1 [0x42; 0x00; 0x00] 16 2 0 false [X32; X64] REG_DST NO_PFX (Some 3%nat) (MemOpnd 2);
   (* 304 *) I "vmpsadbw" [T_R_YMM; T_R_YMM; T_R_YMM; T_IMM8] AVX1 [F_MODRM; F_MODRM_REG; F_MODRM_RM; IMM8_ONLY] [VEX; VEX_66; VEX_WIG; VEX_0F3A; VEX_NDS] [] 8 1 [0x42; 0x00; 0x00] 32 2 0xc0 false [X32; X64] REG_DST NO_PFX (Some 3%nat) NoMem;
   (* 305 *) I "vmpsadbw" [T_R_YMM; T_R_YMM; T_M_ANY; T_IMM8] AVX1 [F_MODRM; F_MODRM_REG; IMM8_ONLY] [VEX; VEX_66; VEX_WIG; VEX_0F3A; VEX_NDS] [] 8 1 [0x42; 0x00; 0x00] 32 2 0 false [X32; X64] REG_DST NO_PFX (Some 3%nat) (MemOpnd 2);
   (* 307 *) I "vmpsadbw" [T_R_XMM; T_R_XMM; T_IMM8] AVX0 [F_MODRM; F_MODRM_REG; F_MODRM_RM; IMM8_ONLY] [VEX; VEX_66; VEX_WIG; VEX_0F3A; VEX_DUP_NDS] [] 4 1 [0x42; 0x00; 0x00] 16 1 0xc0 false [X32; X64] REG_DST NO_PFX (Some 2%nat) NoMem;
   (* 308 *) I "vmpsadbw" [T_R_YMM; T_R_YMM; T_IMM8] AVX1 [F_MODRM; F_MODRM_REG; F_MODRM_RM; IMM8_ONLY] [VEX; VEX_66; VEX_WIG; VEX_0F3A; VEX_DUP_NDS] [] 8 1 [0x42; 0x00; 0x00] 32 1 0xc0 false [X32; X64] REG_DST NO_PFX (Some 2%nat) NoMem;
   (* 313 *) I "vpmovzxbq" [T_R_XMM; T_R_XMM] AVX0 [F_MODRM; F_MODRM_REG; F_MODRM_RM] [VEX; VEX_66; VEX_WIG; VEX_2OPND; VEX_0F38; EVEX] [EVEX_MASK; EVEX_Z] 2 1 [0x32; 0x00; 0x00] 16 1 0xc0 false [X32; X64] REG_DST NO_PFX None NoMem;
   (* 314 *) I "vpmovzxbq" [T_R_XMM; T_M_ANY] AVX0 [F_MODRM; F_MODRM_REG] [VEX; VEX_66; VEX_WIG; VEX_2OPND; VEX_0F38; EVEX] [EVEX_MASK; EVEX_Z] 2 1 [0x32; 0x00; 0x00] 16 1 0 false [X32; X64] REG_DST NO_PFX None (MemOpnd 1);
   (* 315 *) I "vpmovzxbq" [T_R_YMM; T_R_XMM] AVX1 [F_MODRM; F_MODRM_REG; F_MODRM_RM] [VEX; VEX_66; VEX_WIG; VEX_2OPND; VEX_0F38; EVEX] [EVEX_MASK; EVEX_Z] 4 1 [0x32; 0x00; 0x00] 32 1 0xc0 false [X32; X64] REG_DST NO_PFX None NoMem;
   (* 316 *) I "vpmovzxbq" [T_R_YMM; T_M_ANY] AVX1 [F_MODRM; F_MODRM_REG] [VEX; VEX_66; VEX_WIG; VEX_2OPND; VEX_0F38; EVEX] [EVEX_MASK; EVEX_Z] 4 1 [0x32; 0x00; 0x00] 32 1 0 false [X32; X64] REG_DST NO_PFX None (MemOpnd 1);
   (* 317 *) I "vpmovzxbq" [T_R_ZMM; T_R_XMM] EVX0 [F_MODRM; F_MODRM_REG; F_MODRM_RM] [VEX; VEX_66; VEX_WIG; VEX_2OPND; VEX_0F38; EVEX] [EVEX_ONLY; EVEX_MASK; EVEX_Z] 8 1 [0x32; 0x00; 0x00] 64 1 0xc0 false [X32; X64] REG_DST NO_PFX None NoMem;
   (* 318 *) I "vpmovzxbq" [T_R_ZMM; T_M_ANY] EVX0 [F_MODRM; F_MODRM_REG] [VEX; VEX_66; VEX_WIG; VEX_2OPND; VEX_0F38; EVEX] [EVEX_ONLY; EVEX_MASK; EVEX_Z] 8 1 [0x32; 0x00; 0x00] 64 1 0 false [X32; X64] REG_DST NO_PFX None (MemOpnd 1);
   (* 323 *) I "vbroadcastsd" [T_R_YMM; T_M_ANY] AVX1 [F_MODRM; F_MODRM_REG] [VEX; VEX_66; VEX_2OPND; VEX_0F38; VEX_W0; EVEX] [EVEX_MASK; EVEX_Z; EVEX_W1] 8 1 [0x19; 0x00; 0x00] 32 1 0 false [X32; X64] REG_DST NO_PFX None (MemOpnd 1);
   (* 324 *) I "vbroadcastsd" [T_R_YMM; T_R_XMM] AVX1 [F_MODRM; F_MODRM_REG; F_MODRM_RM] [VEX; VEX_66; VEX_2OPND; VEX_0F38; VEX_W0; EVEX] [EVEX_MASK; EVEX_Z; EVEX_W1] 8 1 [0x19; 0x00; 0x00] 32 1 0xc0 false [X32; X64] REG_DST NO_PFX None NoMem;
   (* 325 *) I "vbroadcastsd" [T_R_ZMM; T_R_XMM] EVX0 [F_MODRM; F_MODRM_REG; F_MODRM_RM] [VEX; VEX_66; VEX_2OPND; VEX_0F38; VEX_W0; EVEX] [EVEX_ONLY; EVEX_MASK; EVEX_Z; EVEX_W1] 8 1 [0x19; 0x00; 0x00] 64 1 0xc0 false [X32; X64] REG_DST NO_PFX None NoMem;
   (* 326 *) I "vbroadcastsd" [T_R_ZMM; T_M_ANY] EVX0 [F_MODRM; F_MODRM_REG] [VEX; VEX_66; VEX_2OPND; VEX_0F38; VEX_W0; EVEX] [EVEX_ONLY; EVEX_MASK; EVEX_Z; EVEX_W1] 8 1 [0x19; 0x00; 0x00] 64 1 0 false [X32; X64] REG_DST NO_PFX None (MemOpnd 1);
   (* 331 *) I "vblendmpd" [T_R_XMM; T_R_XMM; T_R_XMM] EVX0 [F_MODRM; F_MODRM_REG; F_MODRM_RM] [VEX; VEX_66; VEX_NDS; VEX_0F38; VEX_W0; EVEX] [EVEX_ONLY; EVEX_MASK; EVEX_Z; EVEX_W1] 2 1 [0x65; 0x00; 0x00] 16 2 0xc0 false [X32; X64] REG_DST NO_PFX None NoMem;
   (* 332 *) I "vblendmpd" [T_R_YMM; T_R_YMM; T_R_YMM] EVX0 [F_MODRM; F_MODRM_REG; F_MODRM_RM] [VEX; VEX_66; VEX_NDS; VEX_0F38; VEX_W0; EVEX] [EVEX_ONLY; EVEX_MASK; EVEX_Z; EVEX_W1] 4 1 [0x65; 0x00; 0x00] 32 2 0xc0 false [X32; X64] REG_DST NO_PFX None NoMem;
   (* 333 *) I "vblendmpd" [T_R_ZMM; T_R_ZMM; T_R_ZMM] EVX0 [F_MODRM; F_MODRM_REG; F_MODRM_RM] [VEX; VEX_66; VEX_NDS; VEX_0F38; VEX_W0; EVEX] [EVEX_ONLY; EVEX_MASK; EVEX_Z; EVEX_W1] 8 1 [0x65; 0x00; 0x00] 64 2 0xc0 false [X32; X64] REG_DST NO_PFX None NoMem;
   (* 334 *) I "vblendmpd" [T_R_XMM; T_R_XMM; T_M_ANY] EVX0 [F_MODRM; F_MODRM_REG] [VEX; VEX_66; VEX_NDS; VEX_0F38; VEX_W0; EVEX] [EVEX_ONLY; EVEX_MASK; EVEX_Z; EVEX_W1; EVEX_BRD] 2 1 [0x65; 0x00; 0x00] 16 2 0 false [X32; X64] REG_DST NO_PFX None (MemOpnd 2);
   (* 335 *) I "vblendmpd" [T_R_YMM; T_R_YMM; T_M_ANY] EVX0 [F_MODRM; F_MODRM_REG] [VEX; VEX_66; VEX_NDS; VEX_0F38; VEX_W0; EVEX] [EVEX_ONLY; EVEX_MASK; EVEX_Z; EVEX_W1; EVEX_BRD] 4 1 [0x65; 0x00; 0x00] 32 2 0 false [X32; X64] REG_DST NO_PFX None (MemOpnd 2);
   (* 336 *) I "vblendmpd" [T_R_ZMM; T_R_ZMM; T_M_ANY] EVX0 [F_MODRM; F_MODRM_REG] [VEX; VEX_66; VEX_NDS; VEX_0F38; VEX_W0; EVEX] [EVEX_ONLY; EVEX_MASK; EVEX_Z; EVEX_W1; EVEX_BRD] 8 1 [0x65; 0x00; 0x00] 64 2 0 false [X32; X64] REG_DST NO_PFX None (MemOpnd 2);
   (* 339 *) I "vcvtdq2pd" [T_R_XMM; T_R_XMM] AVX0 [F_MODRM; F_MODRM_REG; F_MODRM_RM] [VEX; VEX_F3; VEX_0F; VEX_WIG; VEX_2OPND; EVEX] [EVEX_MASK; EVEX_Z; EVEX_W0] 2 1 [0xe6; 0x00; 0x00] 16 1 0xc0 false [X32; X64] REG_DST NO_PFX None NoMem;
   (* 340 *) I "vcvtdq2pd" [T_R_XMM; T_M_ANY] AVX0 [F_MODRM; F_MODRM_REG] [VEX; VEX_F3; VEX_0F; VEX_WIG; VEX_2OPND; EVEX] [EVEX_MASK; EVEX_Z; EVEX_W0; EVEX_BRD] 2 1 [0xe6; 0x00; 0x00] 16 1 0 false [X32; X64] REG_DST NO_PFX None (MemOpnd 1);
   (* 341 *) I "vcvtdq2pd" [T_R_YMM; T_R_XMM] AVX1 [F_MODRM; F_MODRM_REG; F_MODRM_RM] [VEX; VEX_F3; VEX_0F; VEX_WIG; VEX_2OPND; EVEX] [EVEX_MASK; EVEX_Z; EVEX_W0] 4 1 [0xe6; 0x00; 0x00] 32 1 0xc0 false [X32; X64] REG_DST NO_PFX None NoMem;
   (* 342 *) I "vcvtdq2pd" [T_R_YMM; T_M_ANY] AVX1 [F_MODRM; F_MODRM_REG] [VEX; VEX_F3; VEX_0F; VEX_WIG; VEX_2OPND; EVEX] [EVEX_MASK; EVEX_Z; EVEX_W0; EVEX_BRD] 4 1 [0xe6; 0x00; 0x00] 32 1 0 false [X32; X64] REG_DST NO_PFX None (MemOpnd 1);
   (* 343 *) I "vcvtdq2pd" [T_R_ZMM; T_R_YMM] EVX0 [F_MODRM; F_MODRM_REG; F_MODRM_RM] [EVEX; VEX_F3; VEX_0F; VEX_2OPND] [EVEX_ONLY; EVEX_MASK; EVEX_Z; EVEX_W0] 8 1 [0xe6; 0x00; 0x00] 64 1 0xc0 false [X32; X64] REG_DST NO_PFX None NoMem;
   (* 344 *) I "vcvtdq2pd" [T_R_ZMM; T_M_ANY] EVX0 [F_MODRM; F_MODRM_REG] [EVEX; VEX_F3; VEX_0F; VEX_2OPND] [EVEX_ONLY; EVEX_MASK; EVEX_Z; EVEX_W0; EVEX_BRD] 8 1 [0xe6; 0x00; 0x00] 64 1 0 false [X32; X64] REG_DST NO_PFX None (MemOpnd 1);
   (* 345 *) I "vcvtdq2pd" [T_R_ZMM; T_M256] EVX0 [F_MODRM; F_MODRM_REG] [EVEX; VEX_F3; VEX_0F; VEX_2OPND] [EVEX_ONLY; EVEX_MASK; EVEX_Z; EVEX_W0] 2 1 [0xe6; 0x00; 0x00] 64 1 0 false [X32; X64] REG_DST NO_PFX None (MemOpnd 1);
   (* 353 *) I "vcvtsi2ss" [T_R_XMM; T_R_XMM; T_R32] AVX0 [F_MODRM; F_MODRM_REG; F_MODRM_RM] [VEX; VEX_F3; VEX_0F; VEX_LIG; VEX_W0; VEX_NDS; EVEX] [EVEX_W0; EVEX_RND] 4 1 [0x2a; 0x00; 0x00] 16 2 0xc0 false [X32; X64] REG_DST NO_PFX None NoMem;
   (* 354 *) I "vcvtsi2ss" [T_R_XMM; T_R_XMM; T_R32E] AVX0 [F_MODRM; F_MODRM_REG; F_MODRM_RM] [VEX; VEX_F3; VEX_0F; VEX_LIG; VEX_W0; VEX_NDS; EVEX] [EVEX_W0; EVEX_RND] 4 1 [0x2a; 0x00; 0x00] 16 2 0xc0 false [X32; X64] REG_DST NO_PFX None NoMem;
   (* 355 *) I "vcvtsi2ss" [T_R_XMM; T_R_XMM; T_M32] AVX0 [F_MODRM; F_MODRM_REG] [VEX; VEX_F3; VEX_0F; VEX_LIG; VEX_W0; VEX_NDS; EVEX] [EVEX_W0] 4 1 [0x2a; 0x00; 0x00] 16 2 0 false [X32; X64] REG_DST NO_PFX None (MemOpnd 2);
   (* 356 *) I "vcvtsi2ss" [T_R_XMM; T_R_XMM; T_R64] AVX0 [F_MODRM; F_MODRM_REG; F_MODRM_RM] [VEX; VEX_F3; VEX_0F; VEX_LIG; VEX_W1; VEX_NDS; EVEX] [EVEX_W1; EVEX_RND] 2 1 [0x2a; 0x00; 0x00] 16 2 0xc0 false [X32; X64] REG_DST NO_PFX None NoMem;
   (* 357 *) I "vcvtsi2ss" [T_R_XMM; T_R_XMM; T_R64E] AVX0 [F_MODRM; F_MODRM_REG; F_MODRM_RM] [VEX; VEX_F3; VEX_0F; VEX_LIG; VEX_W1; VEX_NDS; EVEX] [EVEX_W1; EVEX_RND] 2 1 [0x2a; 0x00; 0x00] 16 2 0xc0 false [X32; X64] REG_DST NO_PFX None NoMem;
   (* 358 *) I "vcvtsi2ss" [T_R_XMM; T_R_XMM; T_M64] AVX0 [F_MODRM; F_MODRM_REG] [VEX; VEX_F3; VEX_0F; VEX_LIG; VEX_W1; VEX_NDS; EVEX] [EVEX_W1] 2 1 [0x2a; 0x00; 0x00] 16 2 0 false [X32; X64] REG_DST NO_PFX None (MemOpnd 2);
   (* 359 *) I "vcvtsi2ss" [T_R_XMM; T_R_XMM; T_M_ANY] AVX0 [F_MODRM; F_MODRM_REG] [VEX; VEX_F3; VEX_0F; VEX_LIG; VEX_W0; VEX_NDS; EVEX] [EVEX_W0] 4 1 [0x2a; 0x00; 0x00] 16 2 0 false [X32; X64] REG_DST NO_PFX None (MemOpnd 2);
   (* 363 *) I "cvtsi2ss" [T_R_XMM; T_R32] SSE0 [EREX; F_MODRM; F_MODRM_REG; F_MODRM_RM] [] [] 4 1 [0x2a; 0x00; 0x00] 16 1 0xc0 false [X32; X64] REG_DST PFX_0xF30F None NoMem;
   (* 364 *) I "cvtsi2ss" [T_R_XMM; T_M32] SSE0 [EREX; F_MODRM; F_MODRM_REG] [] [] 4 1 [0x2a; 0x00; 0x00] 16 1 0 false [X32; X64] REG_DST PFX_0xF30F None (MemOpnd 1);
   (* 365 *) I "cvtsi2ss" [T_R_XMM; T_M_ANY] SSE0 [EREX; F_MODRM; F_MODRM_REG] [] [] 4 1 [0x2a; 0x00; 0x00] 16 1 0 false [X32; X64] REG_DST PFX_0xF30F None (MemOpnd 1);
   (* 366 *) I "cvtsi2ss" [T_R_XMM; T_R64] SSE0 [EREX; REX; REXW; F_MODRM; F_MODRM_REG; F_MODRM_RM] [] [] 2 1 [0x2a; 0x00; 0x00] 16 1 0xc0 false [X64] REG_DST PFX_0xF30F None NoMem;
   (* 367 *) I "cvtsi2ss" [T_R_XMM; T_M64] SSE0 [EREX; REX; REXW; F_MODRM; F_MODRM_REG] [] [] 2 1 [0x2a; 0x00; 0x00] 16 1 0 false [X32; X64] REG_DST PFX_0xF30F None (MemOpnd 1);
   (* 368 *) I "cvtsi2ss" [T_R_XMM; T_R32E] SSE0 [EREX; F_MODRM; F_MODRM_REG; F_MODRM_RM] [] [] 4 1 [0x2a; 0x00; 0x00] 16 1 0xc0 false [X32; X64] REG_DST PFX_0xF30F None NoMem;
   (* 369 *) I "cvtsi2ss" [T_R_XMM; T_R64E] SSE0 [EREX; REX; REXW; F_MODRM; F_MODRM_REG; F_MODRM_RM] [] [] 4 1 [0x2a; 0x00; 0x00] 16 1 0xc0 false [X32; X64] REG_DST PFX_0xF30F None NoMem;
   (* 376 *) I "vmovdqa" [T_R_XMM; T_R_XMME] AVX0 [F_MODRM; F_MODRM_REG; F_MODRM_RM] [VEX; VEX_66; VEX_0F; VEX_WIG; VEX_2OPND] [] 1 1 [0x7f; 0x00; 0x00] 16 1 0xc0 false [X32; X64] RM_DST NO_PFX None NoMem;
   (* 377 *) I "vmovdqa" [T_R_XMM; T_R_XMM] AVX0 [F_MODRM; F_MODRM_REG; F_MODRM_RM] [VEX; VEX_66; VEX_0F; VEX_WIG; VEX_2OPND] [] 1 1 [0x6f; 0x00; 0x00] 16 1 0xc0 false [X32; X64] REG_DST NO_PFX None NoMem;
   (* 378 *) I "vmovdqa" [T_R_XMM; T_M_ANY] AVX0 [F_MODRM; F_MODRM_REG] [VEX; VEX_66; VEX_0F; VEX_WIG; VEX_2OPND] [] 1 1 [0x6f; 0x00; 0x00] 16 1 0 false [X32; X64] REG_DST NO_PFX None (MemOpnd 1);
   (* 379 *) I "vmovdqa" [T_M_ANY; T_R_XMM] AVX0 [F_MODRM; F_MODRM_REG] [VEX; VEX_66; VEX_0F; VEX_WIG; VEX_2OPND] [] 1 1 [0x7f; 0x00; 0x00] 16 1 0 false [X32; X64] RM_DST NO_PFX None (MemOpnd 0);
   (* 380 *) I "vmovdqa" [T_R_YMM; T_R_YMME] AVX1 [F_MODRM; F_MODRM_REG; F_MODRM_RM] [VEX; VEX_66; VEX_0F; VEX_WIG; VEX_2OPND] [] 1 1 [0x7f; 0x00; 0x00] 32 1 0xc0 false [X32; X64] RM_DST NO_PFX None NoMem;
   (* 381 *) I "vmovdqa" [T_R_YMM; T_R_YMM] AVX1 [F_MODRM; F_MODRM_REG; F_MODRM_RM] [VEX; VEX_66; VEX_0F; VEX_WIG; VEX_2OPND] [] 1 1 [0x6f; 0x00; 0x00] 32 1 0xc0 false [X32; X64] REG_DST NO_PFX None NoMem;
   (* 382 *) I "vmovdqa" [T_R_YMM; T_M_ANY] AVX1 [F_MODRM; F_MODRM_REG] [VEX; VEX_66; VEX_0F; VEX_WIG; VEX_2OPND] [] 1 1 [0x6f; 0x00; 0x00] 32 1 0 false [X32; X64] REG_DST NO_PFX None (MemOpnd 1);
   (* 383 *) I "vmovdqa" [T_M_ANY; T_R_YMM] AVX1 [F_MODRM; F_MODRM_REG] [VEX; VEX_66; VEX_0F; VEX_WIG; VEX_2OPND] [] 1 1 [0x7f; 0x00; 0x00] 32 1 0 false [X32; X64] RM_DST NO_PFX None (MemOpnd 0);
   (* 393 *) I "vmovdqa32" [T_R_XMM; T_R_XMM] EVX0 [F_MODRM; F_MODRM_REG; F_MODRM_RM] [EVEX; VEX_66; VEX_0F; VEX_2OPND] [EVEX_ONLY; EVEX_MASK; EVEX_Z; EVEX_W0] 1 1 [0x6f; 0x00; 0x00] 16 1 0xc0 false [X32; X64] REG_DST NO_PFX None NoMem;
   (* 394 *) I "vmovdqa32" [T_R_XMM; T_M_ANY] EVX0 [F_MODRM; F_MODRM_REG] [EVEX; VEX_66; VEX_0F; VEX_2OPND] [EVEX_ONLY; EVEX_MASK; EVEX_Z; EVEX_W0] 1 1 [0x6f; 0x00; 0x00] 16 1 0 false [X32; X64] REG_DST NO_PFX None (MemOpnd 1);
   (* 395 *) I "vmovdqa32" [T_M_ANY; T_R_XMM] EVX0 [F_MODRM; F_MODRM_REG] [EVEX; VEX_66; VEX_0F; VEX_2OPND] [EVEX_ONLY; EVEX_MASK; EVEX_Z; EVEX_W0] 1 1 [0x7f; 0x00; 0x00] 16 1 0 false [X32; X64] RM_DST NO_PFX None (MemOpnd 0);
   (* 396 *) I "vmovdqa32" [T_R_YMM; T_R_YMM] EVX0 [F_MODRM; F_MODRM_REG; F_MODRM_RM] [EVEX; VEX_66; VEX_0F; VEX_2OPND] [EVEX_ONLY; EVEX_MASK; EVEX_Z; EVEX_W0] 1 1 [0x6f; 0x00; 0x00] 32 1 0xc0 false [X32; X64] REG_DST NO_PFX None NoMem;
   (* 397 *) I "vmovdqa32" [T_R_YMM; T_M_ANY] EVX0 [F_MODRM; F_MODRM_REG] [EVEX; VEX_66; VEX_0F; VEX_2OPND] [EVEX_ONLY; EVEX_MASK; EVEX_Z; EVEX_W0] 1 1 [0x6f; 0x00; 0x00] 32 1 0 false [X32; X64] REG_DST NO_PFX None (MemOpnd 1);
   (* 398 *) I "vmovdqa32" [T_M_ANY; T_R_YMM] EVX0 [F_MODRM; F_MODRM_REG] [EVEX; VEX_66; VEX_0F; VEX_2OPND] [EVEX_ONLY; EVEX_MASK; EVEX_Z; EVEX_W0] 1 1 [0x7f; 0x00; 0x00] 32 1 0 false [X32; X64] RM_DST NO_PFX None (MemOpnd 0);
   (* 399 *) I "vmovdqa32" [T_R_ZMM; T_R_ZMM] EVX0 [F_MODRM; F_MODRM_REG; F_MODRM_RM] [EVEX; VEX_66; VEX_0F; VEX_2OPND] [EVEX_ONLY; EVEX_MASK; EVEX_Z; EVEX_W0] 1 1 [0x6f; 0x00; 0x00] 64 1 0xc0 false [X32; X64] REG_DST NO_PFX None NoMem;
   (* 400 *) I "vmovdqa32" [T_R_ZMM; T_M_ANY] EVX0 [F_MODRM; F_MODRM_REG] [EVEX; VEX_66; VEX_0F; VEX_2OPND] [EVEX_ONLY; EVEX_MASK; EVEX_Z; EVEX_W0] 1 1 [0x6f; 0x00; 0x00] 64 1 0 false [X32; X64] REG_DST NO_PFX None (MemOpnd 1);
   (* 401 *) I "vmovdqa32" [T_M_ANY; T_R_ZMM] EVX0 [F_MODRM; F_MODRM_REG] [EVEX; VEX_66; VEX_0F; VEX_2OPND] [EVEX_ONLY; EVEX_MASK; EVEX_Z; EVEX_W0] 1 1 [0x7f; 0x00; 0x00] 64 1 0 false [X32; X64] RM_DST NO_PFX None (MemOpnd 0);
   (* 410 *) I "vmovdqa64" [T_R_XMM; T_R_XMM] EVX0 [F_MODRM; F_MODRM_REG; F_MODRM_RM] [EVEX; VEX_66; VEX_0F; VEX_2OPND] [EVEX_ONLY; EVEX_MASK; EVEX_Z; EVEX_W1] 1 1 [0x6f; 0x00; 0x00] 16 1 0xc0 false [X32; X64] REG_DST NO_PFX None NoMem;
   (* 411 *) I "vmovdqa64" [T_R_XMM; T_M_ANY] EVX0 [F_MODRM; F_MODRM_REG] [EVEX; VEX_66; VEX_0F; VEX_2OPND] [EVEX_ONLY; EVEX_MASK; EVEX_Z; EVEX_W1] 1 1 [0x6f; 0x00; 0x00] 16 1 0 false [X32; X64] REG_DST NO_PFX None (MemOpnd 1);
   (* 412 *) I "vmovdqa64" [T_M_ANY; T_R_XMM] EVX0 [F_MODRM; F_MODRM_REG] [EVEX; VEX_66; VEX_0F; VEX_2OPND] [EVEX_ONLY; EVEX_MASK; EVEX_Z; EVEX_W1] 1 1 [0x7f; 0x00; 0x00] 16 1 0 false [X32; X64] RM_DST NO_PFX None (MemOpnd 0);
   (* 413 *) I "vmovdqa64" [T_R_YMM; T_R_YMM] EVX0 [F_MODRM; F_MODRM_REG; F_MODRM_RM] [EVEX; VEX_66; VEX_0F; VEX_2OPND] [EVEX_ONLY; EVEX_MASK; EVEX_Z; EVEX_W1] 1 1 [0x6f; 0x00; 0x00] 32 1 0xc0 false [X32; X64] REG_DST NO_PFX None NoMem;
   (* 414 *) I "vmovdqa64" [T_R_YMM; T_M_ANY] EVX0 [F_MODRM; F_MODRM_REG] [EVEX; VEX_66; VEX_0F; VEX_2OPND] [EVEX_ONLY; EVEX_MASK; EVEX_Z; EVEX_W1] 1 1 [0x6f; 0x00; 0x00] 32 1 0 false [X32; X64] REG_DST NO_PFX None (MemOpnd 1);
   (* 415 *) I "vmovdqa64" [T_M_ANY; T_R_YMM] EVX0 [F_MODRM; F_MODRM_REG] [EVEX; VEX_66; VEX_0F; VEX_2OPND] [EVEX_ONLY; EVEX_MASK; EVEX_Z; EVEX_W1] 1 1 [0x7f; 0x00; 0x00] 32 1 0 false [X32; X64] RM_DST NO_PFX None (MemOpnd 0);
   (* 416 *) I "vmovdqa64" [T_R_ZMM; T_R_ZMM] EVX0 [F_MODRM; F_MODRM_REG; F_MODRM_RM] [EVEX; VEX_66; VEX_0F; VEX_2OPND] [EVEX_ONLY; EVEX_MASK; EVEX_Z; EVEX_W1] 1 1 [0x6f; 0x00; 0x00] 64 1 0xc0 false [X32; X64] REG_DST NO_PFX None NoMem;
   (* 417 *) I "vmovdqa64" [T_R_ZMM; T_M_ANY] EVX0 [F_MODRM; F_MODRM_REG] [EVEX; VEX_66; VEX_0F; VEX_2OPND] [EVEX_ONLY; EVEX_MASK; EVEX_Z; EVEX_W1] 1 1 [0x6f; 0x00; 0x00] 64 1 0 false [X32; X64] REG_DST NO_PFX None (MemOpnd 1);
   (* 418 *) I "vmovdqa64" [T_M_ANY; T_R_ZMM] EVX0 [F_MODRM; F_MODRM_REG] [EVEX; VEX_66; VEX_0F; VEX_2OPND] [EVEX_ONLY; EVEX_MASK; EVEX_Z; EVEX_W1] 1 1 [0x7f; 0x00; 0x00] 64 1 0 false [X32; X64] RM_DST NO_PFX None (MemOpnd 0);
   (* 425 *) I "vmovdqu" [T_R_XMM; T_R_XMME] AVX0 [F_MODRM; F_MODRM_REG; F_MODRM_RM] [VEX; VEX_F3; VEX_0F; VEX_WIG; VEX_2OPND] [] 1 1 [0x7f; 0x00; 0x00] 16 1 0xc0 false [X32; X64] RM_DST NO_PFX None NoMem;
   (* 426 *) I "vmovdqu" [T_R_XMM; T_R_XMM] AVX0 [F_MODRM; F_MODRM_REG; F_MODRM_RM] [VEX; VEX_F3; VEX_0F; VEX_WIG; VEX_2OPND] [] 1 1 [0x6f; 0x00; 0x00] 16 1 0xc0 false [X32; X64] REG_DST NO_PFX None NoMem;
   (* 427 *) I "vmovdqu" [T_R_XMM; T_M_ANY] AVX0 [F_MODRM; F_MODRM_REG] [VEX; VEX_F3; VEX_0F; VEX_WIG; VEX_2OPND] [] 1 1 [0x6f; 0x00; 0x00] 16 1 0 false [X32; X64] REG_DST NO_PFX None (MemOpnd 1);
   (* 428 *) I "vmovdqu" [T_M_ANY; T_R_XMM] AVX0 [F_MODRM; F_MODRM_REG] [VEX; VEX_F3; VEX_0F; VEX_WIG; VEX_2OPND] [] 1 1 [0x7f; 0x00; 0x00] 16 1 0 false [X32; X64] RM_DST NO_PFX None (MemOpnd 0);
   (* 429 *) I "vmovdqu" [T_R_YMM; T_R_YMME] AVX1 [F_MODRM; F_MODRM_REG; F_MODRM_RM] [VEX; VEX_F3; VEX_0F; VEX_WIG; VEX_2OPND] [] 1 1 [0x7f; 0x00; 0x00] 32 1 0xc0 false [X32; X64] RM_DST NO_PFX None NoMem;
   (* 430 *) I "vmovdqu" [T_R_YMM; T_R_YMM] AVX1 [F_MODRM; F_MODRM_REG; F_MODRM_RM] [VEX; VEX_F3; VEX_0F; VEX_WIG; VEX_2OPND] [] 1 1 [0x6f; 0x00; 0x00] 32 1 0xc0 false [X32; X64] REG_DST NO_PFX None NoMem;
   (* 431 *) I "vmovdqu" [T_R_YMM; T_M_ANY] AVX1 [F_MODRM; F_MODRM_REG] [VEX; VEX_F3; VEX_0F; VEX_WIG; VEX_2OPND] [] 1 1 [0x6f; 0x00; 0x00] 32 1 0 false [X32; X64] REG_DST NO_PFX None (MemOpnd 1);
   (* 432 *) I "vmovdqu" [T_M_ANY; T_R_YMM] AVX1 [F_MODRM; F_MODRM_REG] [VEX; VEX_F3; VEX_0F; VEX_WIG; VEX_2OPND] [] 1 1 [0x7f; 0x00; 0x00] 32 1 0 false [X32; X64] RM_DST NO_PFX None (MemOpnd 0);
   (* 441 *) I "vmovdqu8" [T_R_XMM; T_R_XMM] EVX0 [F_MODRM; F_MODRM_REG; F_MODRM_RM] [EVEX; VEX_F2; VEX_0F; VEX_2OPND] [EVEX_ONLY; EVEX_MASK; EVEX_Z; EVEX_W0] 1 1 [0x6f; 0x00; 0x00] 16 1 0xc0 false [X32; X64] REG_DST NO_PFX None NoMem;
   (* 442 *) I "vmovdqu8" [T_R_XMM; T_M_ANY] EVX0 [F_MODRM; F_MODRM_REG] [EVEX; VEX_F2; VEX_0F; VEX_2OPND] [EVEX_ONLY; EVEX_MASK; EVEX_Z; EVEX_W0] 1 1 [0x6f; 0x00; 0x00] 16 1 0 false [X32; X64] REG_DST NO_PFX None (MemOpnd 1);
   (* 443 *) I "vmovdqu8" [T_M_ANY; T_R_XMM] EVX0 [F_MODRM; F_MODRM_REG] [EVEX; VEX_F2; VEX_0F; VEX_2OPND] [EVEX_ONLY; EVEX_MASK; EVEX_Z; EVEX_W0] 1 1 [0x7f; 0x00; 0x00] 16 1 0 false [X32; X64] RM_DST NO_PFX None (MemOpnd 0);
   (* 444 *) I "vmovdqu8" [T_R_YMM; T_R_YMM] EVX0 [F_MODRM; F_MODRM_REG; F_MODRM_RM] [EVEX; VEX_F2; VEX_0F; VEX_2OPND] [EVEX_ONLY; EVEX_MASK; EVEX_Z; EVEX_W0] 1 1 [0x6f; 0x00; 0x00] 32 1 0xc0 false [X32; X64] REG_DST NO_PFX None NoMem;
   (* 445 *) I "vmovdqu8" [T_R_YMM; T_M_ANY] EVX0 [F_MODRM; F_MODRM_REG] [EVEX; VEX_F2; VEX_0F; VEX_2OPND] [EVEX_ONLY; EVEX_MASK; EVEX_Z; EVEX_W0] 1 1 [0x6f; 0x00; 0x00] 32 1 0 false [X32; X64] REG_DST NO_PFX None (MemOpnd 1);
   (* 446 *) I "vmovdqu8" [T_M_ANY; T_R_YMM] EVX0 [F_MODRM; F_MODRM_REG] [EVEX; VEX_F2; VEX_0F; VEX_2OPND] [EVEX_ONLY; EVEX_MASK; EVEX_Z; EVEX_W0] 1 1 [0x7f; 0x00; 0x00] 32 1 0 false [X32; X64] RM_DST NO_PFX None (MemOpnd 0);
   (* 447 *) I "vmovdqu8" [T_R_ZMM; T_R_ZMM] EVX0 [F_MODRM; F_MODRM_REG; F_MODRM_RM] [EVEX; VEX_F2; VEX_0F; VEX_2OPND] [EVEX_ONLY; EVEX_MASK; EVEX_Z; EVEX_W0] 1 1 [0x6f; 0x00; 0x00] 64 1 0xc0 false [X32; X64] REG_DST NO_PFX None NoMem;
   (* 448 *) I "vmovdqu8" [T_R_ZMM; T_M_ANY] EVX0 [F_MODRM; F_MODRM_REG] [EVEX; VEX_F2; VEX_0F; VEX_2OPND] [EVEX_ONLY; EVEX_MASK; EVEX_Z; EVEX_W0] 1 1 [0x6f; 0x00; 0x00] 64 1 0 false [X32; X64] REG_DST NO_PFX None (MemOpnd 1);
   (* 449 *) I "vmovdqu8" [T_M_ANY; T_R_ZMM] EVX0 [F_MODRM; F_MODRM_REG] [EVEX; VEX_F2; VEX_0F; VEX_2OPND] [EVEX_ONLY; EVEX_MASK; EVEX_Z; EVEX_W0] 1 1 [0x7f; 0x00; 0x00] 64 1 0 false [X32; X64] RM_DST NO_PFX None (MemOpnd 0);
   (* 458 *) I "vmovdqu16" [T_R_XMM; T_R_XMM] EVX0 [F_MODRM; F_MODRM_REG; F_MODRM_RM] [EVEX; VEX_F2; VEX_0F; VEX_2OPND] [EVEX_ONLY; EVEX_MASK; EVEX_Z; EVEX_W1] 1 1 [0x6f; 0x00; 0x00] 16 1 0xc0 false [X32; X64] REG_DST NO_PFX None NoMem;
   (* 459 *) I "vmovdqu16" [T_R_XMM; T_M_ANY] EVX0 [F_MODRM; F_MODRM_REG] [EVEX; VEX_F2; VEX_0F; VEX_2OPND] [EVEX_ONLY; EVEX_MASK; EVEX_Z; EVEX_W1] 1 1 [0x6f; 0x00; 0x00] 16 1 0 false [X32; X64] REG_DST NO_PFX None (MemOpnd 1);
   (* 460 *) I "vmovdqu16" [T_M_ANY; T_R_XMM] EVX0 [F_MODRM; F_MODRM_REG] [EVEX; VEX_F2; VEX_0F; VEX_2OPND] [EVEX_ONLY; EVEX_MASK; EVEX_Z; EVEX_W1] 1 1 [0x7f; 0x00; 0x00] 16 1 0 false [X32; X64] RM_DST NO_PFX None (MemOpnd 0);
   (* 461 *) I "vmovdqu16" [T_R_YMM; T_R_YMM] EVX0 [F_MODRM; F_MODRM_REG; F_MODRM_RM] [EVEX; VEX_F2; VEX_0F; VEX_2OPND] [EVEX_ONLY; EVEX_MASK; EVEX_Z; EVEX_W1] 1 1 [0x6f; 0x00; 0x00] 32 1 0xc0 false [X32; X64] REG_DST NO_PFX None NoMem;
   (* 462 *) I "vmovdqu16" [T_R_YMM; T_M_ANY] EVX0 [F_MODRM; F_MODRM_REG] [EVEX; VEX_F2; VEX_0F; VEX_2OPND] [EVEX_ONLY; EVEX_MASK; EVEX_Z; EVEX_W1] 1 1 [0x6f; 0x00; 0x00] 32 1 0 false [X32; X64] REG_DST NO_PFX None (MemOpnd 1);
   (* 463 *) I "vmovdqu16" [T_M_ANY; T_R_YMM] EVX0 [F_MODRM; F_MODRM_REG] [EVEX; VEX_F2; VEX_0F; VEX_2OPND] [EVEX_ONLY; EVEX_MASK; EVEX_Z; EVEX_W1] 1 1 [0x7f; 0x00; 0x00] 32 1 0 false [X32; X64] RM_DST NO_PFX None (MemOpnd 0);
   (* 464 *) I "vmovdqu16" [T_R_ZMM; T_R_ZMM] EVX0 [F_MODRM; F_MODRM_REG; F_MODRM_RM] [EVEX; VEX_F2; VEX_0F; VEX_2OPND] [EVEX_ONLY; EVEX_MASK; EVEX_Z; EVEX_W1] 1 1 [0x6f; 0x00; 0x00] 64 1 0xc0 false [X32; X64] REG_DST NO_PFX None NoMem;
   (* 465 *) I "vmovdqu16" [T_R_ZMM; T_M_ANY] EVX0 [F_MODRM; F_MODRM_REG] [EVEX; VEX_F2; VEX_0F; VEX_2OPND] [EVEX_ONLY; EVEX_MASK; EVEX_Z; EVEX_W1] 1 1 [0x6f; 0x00; 0x00] 64 1 0 false [X32; X64] REG_DST NO_PFX None (MemOpnd 1);
   (* 466 *) I "vmovdqu16" [T_M_ANY; T_R_ZMM] EVX0 [F_MODRM; F_MODRM_REG] [EVEX; VEX_F2; VEX_0F; VEX_2OPND] [EVEX_ONLY; EVEX_MASK; EVEX_Z; EVEX_W1] 1 1 [0x7f; 0x00; 0x00] 64 1 0 false [X32; X64] RM_DST NO_PFX None (MemOpnd 0);
   (* 475 *) I "vmovdqu32" [T_R_XMM; T_R_XMM] EVX0 [F_MODRM; F_MODRM_REG; F_MODRM_RM] [EVEX; VEX_F3; VEX_0F; VEX_2OPND] [EVEX_ONLY; EVEX_MASK; EVEX_Z; EVEX_W0] 1 1 [0x6f; 0x00; 0x00] 16 1 0xc0 false [X32; X64] REG_DST NO_PFX None NoMem;
   (* 476 *) I "vmovdqu32" [T_R_XMM; T_M_ANY] EVX0 [F_MODRM; F_MODRM_REG] [EVEX; VEX_F3; VEX_0F; VEX_2OPND] [EVEX_ONLY; EVEX_MASK; EVEX_Z; EVEX_W0] 1 1 [0x6f; 0x00; 0x00] 16 1 0 false [X32; X64] REG_DST NO_PFX None (MemOpnd 1);
   (* 477 *) I "vmovdqu32" [T_M_ANY; T_R_XMM] EVX0 [F_MODRM; F_MODRM_REG] [EVEX; VEX_F3; VEX_0F; VEX_2OPND] [EVEX_ONLY; EVEX_MASK; EVEX_Z; EVEX_W0] 1 1 [0x7f; 0x00; 0x00] 16 1 0 false [X32; X64] RM_DST NO_PFX None (MemOpnd 0);
   (* 478 *) I "vmovdqu32" [T_R_YMM; T_R_YMM] EVX0 [F_MODRM; F_MODRM_REG; F_MODRM_RM] [EVEX; VEX_F3; VEX_0F; VEX_2OPND] [EVEX_ONLY; EVEX_MASK; EVEX_Z; EVEX_W0] 1 1 [0x6f; 0x00; 0x00] 32 1 0xc0 false [X32; X64] REG_DST NO_PFX None NoMem;
   (* 479 *) I "vmovdqu32" [T_R_YMM; T_M_ANY] EVX0 [F_MODRM; F_MODRM_REG] [EVEX; VEX_F3; VEX_0F; VEX_2OPND] [EVEX_ONLY; EVEX_MASK; EVEX_Z; EVEX_W0] 1 1 [0x6f; 0x00; 0x00] 32 1 0 false [X32; X64] REG_DST NO_PFX None (MemOpnd 1);
   (* 480 *) I "vmovdqu32" [T_M_ANY; T_R_YMM] EVX0 [F_MODRM; F_MODRM_REG] [EVEX; VEX_F3; VEX_0F; VEX_2OPND] [EVEX_ONLY; EVEX_MASK; EVEX_Z; EVEX_W0] 1 1 [0x7f; 0x00; 0x00] 32 1 0 false [X32; X64] RM_DST NO_PFX None (MemOpnd 0);
   (* 481 *) I "vmovdqu32" [T_R_ZMM; T_R_ZMM] EVX0 [F_MODRM; F_MODRM_REG; F_MODRM_RM] [EVEX; VEX_F3; VEX_0F; VEX_2OPND] [EVEX_ONLY; EVEX_MASK; EVEX_Z; EVEX_W0] 1 1 [0x6f; 0x00; 0x00] 64 1 0xc0 false [X32; X64] REG_DST NO_PFX None NoMem;
   (* 482 *) I "vmovdqu32" [T_R_ZMM; T_M_ANY] EVX0 [F_MODRM; F_MODRM_REG] [EVEX; VEX_F3; VEX_0F; VEX_2OPND] [EVEX_ONLY; EVEX_MASK; EVEX_Z; EVEX_W0] 1 1 [0x6f; 0x00; 0x00] 64 1 0 false [X32; X64] REG_DST NO_PFX None (MemOpnd 1);
   (* 483 *) I "vmovdqu32" [T_M_ANY; T_R_ZMM] EVX0 [F_MODRM; F_MODRM_REG] [EVEX; VEX_F3; VEX_0F; VEX_2OPND] [EVEX_ONLY; EVEX_MASK; EVEX_Z; EVEX_W0] 1 1 [0x7f; 0x00; 0x00] 64 1 0 false [X32; X64] RM_DST NO_PFX None (MemOpnd 0);
   (* 492 *) I "vmovdqu64" [T_R_XMM; T_R_XMM] EVX0 [F_MODRM; F_MODRM_REG; F_MODRM_RM] [EVEX; VEX_F3; VEX_0F; VEX_2OPND] [EVEX_ONLY; EVEX_MASK; EVEX_Z; EVEX_W1] 1 1 [0x6f; 0x00; 0x00] 16 1 0xc0 false [X32; X64] REG_DST NO_PFX None NoMem;
   (* 493 *) I "vmovdqu64" [T_R_XMM; T_M_ANY] EVX0 [F_MODRM; F_MODRM_REG] [EVEX; VEX_F3; VEX_0F; VEX_2OPND] [EVEX_ONLY; EVEX_MASK; EVEX_Z; EVEX_W1] 1 1 [0x6f; 0x00; 0x00] 16 1 0 false [X32; X64] REG_DST NO_PFX None (MemOpnd 1);
   (* 494 *) I "vmovdqu64" [T_M_ANY; T_R_XMM] EVX0 [F_MODRM; F_MODRM_REG] [EVEX; VEX_F3; VEX_0F; VEX_2OPND] [EVEX_ONLY; EVEX_MASK; EVEX_Z; EVEX_W1] 1 1 [0x7f; 0x00; 0x00] 16 1 0 false [X32; X64] RM_DST NO_PFX None (MemOpnd 0);
   (* 495 *) I "vmovdqu64" [T_R_YMM; T_R_YMM] EVX0 [F_MODRM; F_MODRM_REG; F_MODRM_RM] [EVEX; VEX_F3; VEX_0F; VEX_2OPND] [EVEX_ONLY; EVEX_MASK; EVEX_Z; EVEX_W1] 1 1 [0x6f; 0x00; 0x00] 32 1 0xc0 false [X32; X64] REG_DST NO_PFX None NoMem;
   (* 496 *) I "vmovdqu64" [T_R_YMM; T_M_ANY] EVX0 [F_MODRM; F_MODRM_REG] [EVEX; VEX_F3; VEX_0F; VEX_2OPND] [EVEX_ONLY; EVEX_MASK; EVEX_Z; EVEX_W1] 1 1 [0x6f; 0x00; 0x00] 32 1 0 false [X32; X64] REG_DST NO_PFX None (MemOpnd 1);
   (* 497 *) I "vmovdqu64" [T_M_ANY; T_R_YMM] EVX0 [F_MODRM; F_MODRM_REG] [EVEX; VEX_F3; VEX_0F; VEX_2OPND] [EVEX_ONLY; EVEX_MASK; EVEX_Z; EVEX_W1] 1 1 [0x7f; 0x00; 0x00] 32 1 0 false [X32; X64] RM_DST NO_PFX None (MemOpnd 0);
   (* 498 *) I "vmovdqu64" [T_R_ZMM; T_R_ZMM] EVX0 [F_MODRM; F_MODRM_REG; F_MODRM_RM] [EVEX; VEX_F3; VEX_0F; VEX_2OPND] [EVEX_ONLY; EVEX_MASK; EVEX_Z; EVEX_W1] 1 1 [0x6f; 0x00; 0x00] 64 1 0xc0 false [X32; X64] REG_DST NO_PFX None NoMem;
   (* 499 *) I "vmovdqu64" [T_R_ZMM; T_M_ANY] EVX0 [F_MODRM; F_MODRM_REG] [EVEX; VEX_F3; VEX_0F; VEX_2OPND] [EVEX_ONLY; EVEX_MASK; EVEX_Z; EVEX_W1] 1 1 [0x6f; 0x00; 0x00] 64 1 0 false [X32; X64] REG_DST NO_PFX None (MemOpnd 1);
   (* 500 *) I "vmovdqu64" [T_M_ANY; T_R_ZMM] EVX0 [F_MODRM; F_MODRM_REG] [EVEX; VEX_F3; VEX_0F; VEX_2OPND] [EVEX_ONLY; EVEX_MASK; EVEX_Z; EVEX_W1] 1 1 [0x7f; 0x00; 0x00] 64 1 0 false [X32; X64] RM_DST NO_PFX None (MemOpnd 0);
   (* 505 *) I "bextr" [T_R32; T_R32; T_R32] AVX0 [F_MODRM; F_MODRM_REG; F_MODRM_RM] [VEX; VEX_W0; VEX_0F38; VEX_3RD_OP] [] 1 1 [0xf7; 0x00; 0x00] 4 1 0xc0 false [X32; X64] REG_DST NO_PFX None NoMem;
   (* 506 *) I "bextr" [T_R32; T_M_ANY; T_R32] AVX0 [F_MODRM; F_MODRM_REG] [VEX; VEX_W0; VEX_0F38; VEX_3RD_OP] [] 1 1 [0xf7; 0x00; 0x00] 4 1 0 false [X32; X64] REG_DST NO_PFX None (MemOpnd 1);
   (* 507 *) I "bextr" [T_R64; T_R64; T_R64] AVX0 [F_MODRM; F_MODRM_REG; F_MODRM_RM] [VEX; VEX_W1; VEX_0F38; VEX_3RD_OP] [] 1 1 [0xf7; 0x00; 0x00] 8 1 0xc0 false [X32; X64] REG_DST NO_PFX None NoMem;
   (* 508 *) I "bextr" [T_R64; T_M_ANY; T_R64] AVX0 [F_MODRM; F_MODRM_REG] [VEX; VEX_W1; VEX_0F38; VEX_3RD_OP] [] 1 1 [0xf7; 0x00; 0x00] 8 1 0 false [X32; X64] REG_DST NO_PFX None (MemOpnd 1)].
