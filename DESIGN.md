# Formal model of UASM in Rocq

`properties.jsonl` lists the properties (C01, C02, ...).  `rocq/theories` holds,
for every area of the code, up to four files:

* `<Area>_Model.v`  - Gallina functions that follow the C code function by
  function.  Every definition cites the file and lines in /repo it models and
  says what was simplified.
* `<Area>_Spec.v`   - what the property means, written without the model's
  helpers (a decoder, an abstract machine, a positional value, ...).
* `<Area>_Proofs.v` - lemmas.
* `<Area>_Props.v`  - the property theorems, each `exact lemma`, with
  `Print Assumptions`, and next to each a concrete case (`Example`) that meets
  its hypotheses.

C integers are modelled as `Z`/`N` with explicit wrap-around (mod 2^n);
undefined behaviour, fatal errors and diagnostics are distinct outcomes.
Where a property is false of the faithful model, a theorem named
`..._refuted` proves the counterexample and the finding is listed below.

## Plan per property

| id | model | specification / proof |
|---|---|---|
| C01 | precedence table, `evaluate` recursion with EXPF_ONEOPND, `calculate` on constants | printer from trees; induction on trees: evaluating the printed tokens gives the tree's 64-bit denotation |
| C02 | `get_number` suffix scan, `myatoi128` limb loop | positional value; induction on digits |
| C03 | unary operators on (lo,hi) pairs | bit slices of Z; two's complement (128-bit negate refuted) |
| C04 | constant branch of `data_item` | little-endian decoder (high half refuted) |
| C05 | recursion of `data_item` over DUP trees | repetition denotation; induction on trees |
| C06 | bit positions, OR-ing of shifted values, `ShiftLeft` | field extraction (128-bit refuted) |
| C07 | field placement and size update | invariant over field lists |
| C08 C09 C14 | record writer | independent OMF reader; round trip |
| C10 | see C09 | decoder round trip |
| C11 | segment output buffer with flush | abstract memory; invariant over histories |
| C12 | record splitting loops | reader's counter (COMDEF refuted) |
| C13 | subrecord writer | OMF decoder; round trip |
| C15-C17 | string table, index assignment, section layout | reader functions; traversal agreement |
| C18 | table-driven CRC | bit-serial division; induction |
| C19 C20 | symbol table, string tables, section layout | reader functions; traversal agreement |
| C21 C22 | `CalcOffset`, `GetSegRelocs` | disjointness invariant; linear address |
| C23 | condasm state machine | denotation of block trees; induction |
| C24 | hash table with chains, local/global | scoped finite map; refinement over histories |
| C25 | keyword hash chains, rename, disable | set of active names (rename termination refuted) |
| C26 | displacement computation, form selection, passes over labels | decoder of the branch forms, CPU's next-ip rule |
| C27 | condition compiler over lines, directives and their stack | machine for jump code; C boolean semantics; structured programs |
| C28 | ModRM/SIB construction | Intel decoder; case analysis + round trip |
| C29 | filler tables | decoder for the NOP forms; length arithmetic |
| C30 | context stack | stack of snapshots; invariant |
| C31 | bump allocator | disjoint interval invariant |
| C32 | conversion loop | Unicode encoders; round trip |
| C33 | string directives | list functions |
| C34 | manglers | documented format; injectivity |
| C35 | digit generation | positional value; round trip |
| C36 | pointer lists | sequence abstraction |
| C37 | PUBDEF records with COMDATs | reader of the records (mixed COMDAT refuted) |
| C38 | bubble sort of the segment list | sorted stable permutation |
| C39 | codegenv2.c: general and SSE rows, memory operands, fixups | decoder of the manual's tables, for every row and operand list |
| C40 | codegenv2.c: VEX rows | the same decoder |
| C41 | codegenv2.c: EVEX rows, decorations, disp8*N | the same decoder |
| C42 | codegenv2.c: hash table, lookup, operand types, byte constants | first fitting row; acceptance |
| C43 | proc.c: ExcFrameDirective, WriteSEHData; win64seh.h | reader of the unwind format; induction over the prologue for the unwinder |
| C44 | proc.c: SetLocalOffsets_RBP, write_win64_default_prologue_RBP/epilogue_RBP, check_proc_fpo; invoke.c: ms64_fcstart | a processor runs the lines; pushes/pops and stores/loads by induction over USES; places of locals by induction over each loop |
| C45 | macro.c: store_placeholders, replace_parm, fill_placeholders; input.c: GetTextLine; expans.c: RunMacro (locals) | the spec substitutes without placeholders; induction over the scanner with the text before it kept as a list and a pending & |
| C46 | proc.c: ParseParams, ms32_pcheck, ms32_return, SetLocalOffsets, check_proc_fpo, write_generic_prologue, write_generic_epilogue, RetInstr; invoke.c: order and removal of arguments | the spec is a machine with byte memory and where a convention puts arguments; the layout is an inductive relation over the locals, the passes keep an invariant, prologue and epilogue run with lemmas for lists of PUSH and POP |
| C47 | hll.c: .SWITCH, .CASE, .DEFAULT, .BREAK, .ENDSWITCH with its sorting, tables and four ways to dispatch | the spec is the meaning of the directives (lists of events) and of a list of cases (`pick`); the tables are characterised element by element by induction over the sorted cases, the search by a loop invariant, and the instructions are executed |
| C48 | bin.c for -pe: kinds, order, addresses, file offsets, section table, header sizes, base relocations, the file | the spec is a layout section by section (`positions`, `table`) and a loader (`loaded`, `decode`); the loops with their running offsets are related to it by induction over the sections, and the file by an invariant over the writes |
| C49 | assume.c: ASSUME for segment registers, search_assume, GetAssume; parser.c: check_assume, seg_override; the prefix | the spec is the processor's choice of the register and what the directives say; invariant over histories, then case analysis of the search |
| C50 | loop.c: REPEAT, WHILE, FORC, FOR; expans.c: the arguments of FORC and FOR in RunMacro | the spec is a relation for repeated runs up to EXITM, one for texts with '!' and one for lists with commas; induction over the runs, the text and the iterations |

## Trusted base

* Coq 8.16.1's kernel, including its virtual machine (`vm_compute`).
* `Print Assumptions` answers "Closed under the global context" for every
  theorem in `MANIFEST.json`: no axiom of the standard library is used, and
  none is declared here.  (The ssreflect constants that an audit of the loaded
  libraries may list come with the standard library's `Lia`/`Setoid` plumbing
  and no theorem depends on them.)
* The correspondence between the C code and the `*_Model.v` files.  It was
  established by reading; every definition cites the lines it models.  Nothing
  was compiled or run.
* The `*_Spec.v` files (readers of file formats, decoders, machines) say what
  the properties mean.  They follow the published formats (OMF, COFF, ELF, MZ,
  Intel's manual, Unicode), not the code.

General assumptions of the models: `int` has 32 bits, two's complement, signed
overflow wraps where the code relies on it and is an explicit outcome (`UB`)
where the property is about it; a 64-bit Linux host; `char` data are numbers
0..255; memory allocation succeeds.

## What is modelled and what is not

| files | modelled | left out |
|---|---|---|
| Expr (C01 C03) | expreval.c: precedence, evaluate, calculate, operators on constants | labels, registers, types, floats, `[]`, `.`, `:`, PTR, OPATTR |
| NumLit (C02 C35) | tokenize.c get_number, expreval.c myatoi128, expans.c number output, lqueue.c formats | floating point literals |
| Data (C04 C05) | data.c data_item, data_dir for integers, strings, `?`, DUP | floats, addresses, structured types |
| Record (C06) | types.c RecordDirective, data.c RECORD initialisation, WIDTH, MASK | redefinition, syntax errors |
| Struct (C07) | types.c field placement, ALIGN/ORG, ENDS | initial values, -Zm global names |
| OmfRec OmfNames OmfData OmfFix (C08-C14 C37) | omfint.c, omf.c name records, LEDATA/FIXUPP/LIDATA, omffixup.c, PUBDEF | COMDAT data records, CodeView symbols, fpfixup.c |
| Coff Crc (C15-C18) | coff.c whole module writer, checksum | contents of .drectve, .debug$S, .debug$T |
| Elf (C19 C20) | elf.c whole module writer, 32 and 64 bits | ELFALIAS and ADDSTARTLABEL (not compiled) |
| Bin (C21 C22) | bin.c flat binary and MZ | PE (see C48), listing, orgfixup.c |
| CondAsm (C23) | condasm.c, conditional part of tokenize.c, EXITM | evaluation of the conditions' operands |
| SymTab (C24) | symbols.c hash tables, PROC/ENDP | symbol-specific data |
| ResWords (C25) | reswords.c | instruction data behind the keywords |
| Branch (C26) | branch.c, the CALL/JMP/Jcc/JCXZ/LOOP part of codegen.c, passes over labels | pass 1 with backptch.c, overrides, operands without symbol |
| Hll HllDir (C27) | hll.c conditions and .IF/.WHILE/.REPEAT blocks | .FOR, .UNTILCXZ (.SWITCH is in C47), float and SIMD operands |
| Mem (C28) | parser.c memory_operand, set_rm_sib, comp_mem16, seg_override; codegen.c output | VEX/EVEX, operand sizes, vector index |
| Align (C29) | posndir.c | - |
| Context (C30) | context.c, assume.c save and restore | free list contents |
| Alloc (C31) | memalloc.c FASTMEM branch | - |
| Utf (C32) | string.c UTF8toWideChar, DW strings | - |
| TextDir (C33) | string.c CATSTR SUBSTR SIZESTR INSTR and macro functions | CreateVariable |
| Mangle (C34) | mangle.c | MANGLERSUPP (not compiled) |
| Queue (C36) | queue.c, parser.c tables, lqueue.c, linnum.c, PassOneChecks | - |
| Sort (C38) | segment.c SortSegments | - |
| V2 (C39-C42) | codegenv2.c, H/InstrTableV2.h (367 rows) | listing, the cpu column of the table, 16-bit code (not reached), EMPTY results (they are the older generator: see Branch and Mem) |
| Unwind (C43) | proc.c 2044-2051, 2228-2322, 2333-2597; H/win64seh.h | parsing of the operands (they are values here), prologues generated by the assembler, chained unwind information, the relocation records of the three addresses (the addresses are values here) |
| Frame (C44) | proc.c 2938-3212, 3568-3773, 3938-4090, 5084-5111; invoke.c 420-457 | RSP as frame register, 16/32-bit and non-FRAME frames, __vectorcall and System V, probing of large frames, the parsing and encoding of the lines written (they are instructions here), 32-bit overflow of sizes |
| Macro (C45) | macro.c 63-248, 589-603; input.c 716-730; expans.c 639-640 | StoreMacro's parsing of the definition, nested definitions, evaluation of arguments and macro functions, line continuation; SymCmpFunc folds ASCII letters only |
| Stk (C46) | proc.c 399-449, 654-708, 1048-1247, 1290-1310, 3568-3623, 4714-4836, 4896-5079, 5084-5283, 5386-5520; invoke.c 4450-4480, 4677-4689 | Watcom and Delphi FASTCALL, PROLOGUEDEF replaced by a macro, USES of vector registers, code that loads register arguments, the stack pointer wrapping around, text of the generated lines |
| Switch SwBody SwLab SwSort SwTab SwRun SwFind SwGen SwAll (C47) | hll.c 326-381, 1538-1556, 1876-2739, 2880-3112 | loading the value into EAX/RAX (1563-1612), the passes before the last, 16-bit code, the text of the lines other than where commas and line breaks are, buffer sizes |
| Pe PeReloc PePlace PeTable PeAll PeImage PeWhole PeLoad PeMore (C48) | bin.c 209-306, 822-859, 1072-1205, 1268-1391, 1722-1803 for -pe | bytes of the DOS and PE headers (their contents are given), import and export data (863-1070), values stored by DoFixup, absolute and info segments, data directories (1392-1484), malloc failure |
| Assume (C49) | assume.c 151-161, 276-559 for segment registers; parser.c 521-627, 925-931 and the call sites in set_rm_sib; fixup.c 148-186; codegen.c 513-515 | string instructions, adrsiz, 64-bit code, ASSUME of general registers, parsing of the directive |
| Loop (C50) | loop.c 59-71, 110-123, 201-293; expans.c 525-542 for the token of FORC, 277-304 and 546-584 for plain arguments of FOR | arguments of FOR with %, {}, <> or macro functions, StoreMacro, the lines of the loop (a parameter: any function of state, argument and number), empty loops, characters above 127 in isspace |

Not modelled at all: the tokenizer apart from numbers, macro expansion,
PROC/INVOKE and calling conventions, the instruction table and operand
matching, CodeView output (dbgcv.c), the listing, PE files, Mach-O files,
command line handling.

## Findings

Each theorem below proves on the model that a property fails in a case the main
theorems exclude; the text is the comment beside the theorem.

<!-- refuted -->
* `C01_m510_refuted`: With -Zm (MASM 5.10 compatibility) the opening bracket gets the precedence 9 and takes the following * as part of its operand: 10 / (2) * 5 is 1.
* `C03_left_operand_refuted`: The upper half of the left operand is not looked at: 2^64 * 2 + 0 keeps it unchanged.
* `C03_minus_128_refuted`: If it is zero, the carry into the upper half is lost: -10000000000000000h.
* `C04_oword_refuted`: OWORD 5-10 stores 2^64-5, and OWORD -(2^64-1) stores 1.
* `C04_range_refuted`: A negative value below -2^(8n-1) is stored although it fits neither way: DB -200 gives 38h.
* `C04_upper_half_refuted`: The upper half is not looked at: DQ 10000000000000000h (2^64) stores 0.
* `C05_literals_refuted`: With OPTION LITERALS:ON a string of 4 characters in DD stores nothing.
* `C05_reserve_refuted`: DQ 20000000h DUP (?): the size wraps to 0 and nothing is reserved.
* `C05_word_string_refuted`: v DW "AB" stores one word, yet LENGTHOF is 2 and SIZEOF 4.
* `C06_bit_63_refuted`: a field that reaches bit 63 of a 128-bit record also changes bit 64.
* `C06_mask_128_refuted`: MASK of a field above bit 63 shifts by more than 63.
* `C06_negative_width_refuted`: Not true in general of the code: a negative width is accepted.
* `C06_spill_refuted`: a value too large for its field changes the next field when its low 32 bits fit, or when the field has 32 or more bits.
* `C06_stale_half_refuted`: a field left empty gets the upper half of the expression before it.
* `C07_negative_org_refuted`: a negative ORG in an aligned structure destroys the size: a 10-byte field in a structure of 1 byte.
* `C07_tbyte_refuted`: sizes that are no power of 2 are rounded with a bit mask: a TBYTE field is at offset 2.
* `C11_incbin_refuted`: Wide strings: the check is for half of what is written. Files: the check is for the part that is already there.
* `C11_wide_string_refuted`: Wide strings: the check is for half of what is written. Files: the check is for the part that is already there.
* `C12_communals_many_records_refuted`: Finding: with communals filling more than one COMDEF record the index of the first communal of the second record is the index of its successor.
* `C13_frame_refuted`: With a selected frame that is another segment than the target's one the frame is lost: mov ax, S1:lab where lab is in S2.
* `C15_offset_refuted`: A section name behind the first ten million bytes of the string table: the header has only 7 digits.
* `C15_slash_refuted`: An alias that starts with a slash is taken for a reference to the string table.
* `C16_static_refuted`: Line numbers and -zld (no static procedures): a private procedure in another file gets a .file entry that isn't counted; the relocations behind have the wrong index.
* `C16_zls_refuted`: -zls suppresses the auxiliary records of sections, but COMDATs get one; it is counted as a symbol.
* `C17_bss_refuted`: Initialised data in a segment of class BSS is only warned of: its fixups are counted in the section table but not written.
* `C17_comdat_refuted`: A COMDAT that starts behind an ORG: the checksum reads behind the code buffer.
* `C17_lines_refuted`: 65536 line numbers: the section table says that there are none.
* `C17_readonly_refuted`: A READONLY segment of class BSS has data according to the section table, but it isn't written: the next section is read at the wrong place.
* `C19_index_refuted`: ELF32 relocations have 24 bits for the symbol: higher indices are cut.
* `C19_no_symbol_refuted`: A fixup without symbol (an absolute address as the target of a jump): the writer dereferences NULL for every such module.
* `C20_name_refuted`: CONST$ and 241 more characters: the converted name overflows its buffer.
* `C21_group_org_refuted`: ORG in a later segment of a group: the location counter's start is forgotten, not the size of the buffer: bytes behind the buffer are written.
* `C21_group_refuted`: A group with a foreign segment in the middle: the members behind it get addresses that aren't theirs.
* `C21_seg_abs_refuted`: SEG label in a flat binary, for a label in an absolute segment: a far pointer is stored, the two bytes behind the word are destroyed.
* `C22_bss_refuted`: A segment of class BSS in an MZ file takes no room: the next segment without group is on top of it.
* `C22_count_refuted`: 65536 relocations: the counter is a word; the table is written behind the header's buffer.
* `C22_pointer_refuted`: A far pointer into a member of a group, relative to its segment: wrong if the group isn't at a paragraph.
* `C22_seg_label_refuted`: SEG label, relative to its segment: the group's place is forgotten.
* `C23_if2_uninitialised_refuted`: Finding: IF2 without OPTION SETIF2 uses an uninitialised next state.
* `C23_if_high_bits_refuted`: Finding: IF looks at the low 32 bits only; "IF 100000000h" is taken as false.
* `C24_lcreate_over_undefined_refuted`: The restriction in [allowed] on SymLCreate (and SymAddLocal) is needed: if the name is already in the local table with an undefined symbol, that entry and everything behind it in the chain is lost: the label arc, referenced and still to be defined, is gone.
* `C25_disabled_unknown_refuted`: IsKeywordDisabled wants a NUL behind the name, but the names in the string table are not terminated: it denies a disabled keyword.
* `C25_end_in_64bit_refuted`: a 32-bit-only word disabled, module ended in 64-bit mode, next module switched back: the word is added twice, its chain becomes cyclic, and the word can't be disabled any more.
* `C25_rename_second_hangs_refuted`: renaming a second keyword once more: the search loop never ends.
* `C25_rename_syscall_refuted`: SYSCALL renamed, then 64-bit mode: name pointer and length no longer fit; the word is found as "sysc".
* `C25_renamed_x64_refuted`: a 64-bit-only word renamed in 64-bit mode: the module end makes it known in 32-bit mode.
* `C26_bnd_extend_refuted`: BND before a conditional jump that OPTION LJMP turns into a jump around a jump (8086): the prefix lands between the two jumps and is not counted.
* `C26_distance_refuted`: A displacement beyond 2 GB is cut off without a message.
* `C26_jcc_cast_refuted`: Jcc NEAR32 PTR to an external symbol: the 4-byte field gets an 8-bit fixup (branch.c 568-577), so the linked jump goes astray.
* `C26_near16_refuted`: JMP NEAR16 PTR in 32-bit code truncates the target silently.
* `C26_near32_refuted`: JMP NEAR32 PTR in 64-bit code writes 66 E9 with a 4-byte displacement.
* `C26_push_cs_refuted`: CALL to a FAR procedure of the segment becomes PUSH CS + near call; PUSH CS does not exist in 64-bit code.
* `C27_and_refuted`: ".while (a && b) && c": the last operand is not tested if it follows a bracket with "&&": with a, b nonzero and c zero the jump for "true" is taken.
* `C27_bare_while_refuted`: ".while" without a condition: the body is never executed.
* `C27_const_or_refuted`: ".if (a || 1) || b": the text is damaged.
* `C27_label_refuted`: ".if a || (b || 1)": a label is defined twice.
* `C27_not_or_refuted`: ".if !(a && b) || c": condition true, but the body is not executed.
* `C27_while_refuted`: ".while 0 && a": the body is executed once although the condition is never true.
* `C27_wide_refuted`: -4294967296 counts as zero.
* `C28_disp64_refuted`: 64-bit code: [rax+80000000h] is encoded as [rax-80000000h].
* `C28_index16_refuted`: 64-bit code: [si*2] is encoded as [esi*2].
* `C28_reg16_refuted`: 16-bit code: [ax] is encoded as [bx+si], [sp] as [si].
* `C28_rip_index_refuted`: 64-bit code: [rip+rax] is encoded as [rax*1+disp32], RIP is lost.
* `C28_rip_symbol_refuted`: 64-bit code: [rip+sym] has the absolute offset of the symbol stored in its displacement.
* `C28_si_refuted`: 32-bit code: inc word ptr [si] has a byte too much, that the processor takes for the next instruction.
* `C28_sym32_refuted`: 64-bit code: [eax+sym], the symbol in a 32-bit segment, has a 16-bit fixup for its 32-bit displacement.
* `C29_align_no_flat_refuted`: Not for every program: without FLAT group an alignment above the one of the segment dereferences NULL in pass 1 (posndir.c:255).
* `C29_align_value_refuted`: Nor are all bad constants rejected: the upper half is ignored, and the search for a power of 2 overflows above 2^30.
* `C30_assume_size_refuted`: Not restored: size and distance of the type a register is assumed to point to (assume.c:114-122 copies five fields only).
* `C30_no_word_refuted`: the directive without words reads an uninitialised variable.
* `C31_4gb_request_refuted`: C31 does not hold for requests of 4 GB and more: [currfree] has 32 bits, so an 8-byte block is obtained for the 4 GB range handed out.
* `C32_dw_string_refuted`: Finding: a DW string with a non-ASCII character and more than 256 bytes overflows the caller's buffer (data.c:560).
* `C33_substr_overflow_refuted`: the bound check of SUBSTR adds two ints.
* `C33_substr_wide_refuted`: the upper half of a position is dropped.
* `C34_across_forms_refuted`: the forms are not disjoint: a data item may clash with a procedure of another name.
* `C34_vectorcall_none_refuted`: VECTORCALL procedures without decoration (-zv0) get the FASTCALL form in 32-bit code.
* `C35_no_zero_prefix_refuted`: 2. without addzero, radix 16, 255 prints as "FF": not a number token.
* `C35_sign_of_zero_refuted`: The same is false of the % operator and of the CATSTR/SIZESTR/INSTR users: 1. a negative number whose low 32 bits are zero prints as "-" (expans.c:406 passes opndx.hvalue < 0 as sign).
* `C36_stale_tail_refuted`: Finding: if the last public is such a weak external, the queue's tail still points to the unlinked node; a public queued afterwards is lost.
* `C37_mixed_comdat_refuted`: Finding: a COMDAT public behind another public overwrites the first bytes of the pending PUBDEF record, which then names something else.
* `C39_a16_refuted`: Finding: 16-bit addresses in 32-bit code get a 32-bit displacement, which shifts the bytes behind it: mov ecx,[bx+300]; [bp] is assembled as [bx+si], and [si+bx] as [si].
* `C39_aso_refuted`: Finding: in 64-bit code the address size prefix is missing when 32-bit registers are used behind a label or an index has no base: mov ecx,[ecx*4] is assembled as mov ecx,[rcx*4].
* `C39_bounds_refuted`: Finding: for the rows with an absolute address (mov eax,[1234h], movabs) BuildMemoryEncoding reads one element behind the end of the operand array.
* `C39_constant_refuted`: Finding: mov rcx,80000000h loads 0FFFFFFFF80000000h (the constant is sign-extended).
* `C39_index_refuted`: Finding: label[rax*4] is refused in 64-bit code (a label with index but no base).
* `C39_mpsadbw_refuted`: Finding: the rows of mpsadbw take no constant: mpsadbw xmm0,xmm1 is accepted and its immediate byte is missing.
* `C39_qword_refuted`: Finding: in 32-bit code, quadword operands of mov and cvtsi2ss are assembled as doublewords.
* `C39_segment_refuted`: Finding: segment overrides are refused for SSE and VEX instructions: movaps xmm0,fs:[rax].
* `C40_gather_refuted`: Finding: the mask register of vgatherdps changes the base of the address when it is xmm8 or above: [rax+xmm1*4],xmm9 is assembled as [r8+xmm1*4],xmm9.
* `C40_vector_first_refuted`: Finding: an address with the vector register written first is refused: [xmm1+rax].
* `C41_disp32_refuted`: Finding: a displacement that is divided by N is written in 32 bits when there is no base register: vmovaps xmm0,[rax*4+16] with EVEX reads [rax*4+1], and [rip+16] reads [rip+1].
* `C41_disp_refuted`: Finding: instructions which exist with EVEX only get an 8-bit displacement that is not divided by N unless a decoration is written: vmovdqa32 xmm0,[rax+16] reads [rax+256].
* `C41_dup_refuted`: Finding: vmulps with two operands and EVEX is written without any prefix: 59 C1, which is pop rcx and a shift.
* `C41_label_refuted`: Finding: in 32-bit code a store to a label with EVEX has the X bit cleared: the processor takes 62 B1 for BOUND.
* `C41_length_refuted`: Finding: embedded rounding is accepted with xmm and ymm registers, which the processor takes for zmm.
* `C41_rounding_refuted`: Finding: embedded rounding is accepted where the instruction has none: vmovaps xmm0,xmm1,{rn-sae}.
* `C41_scale_refuted`: Finding: the divisor is wrong for vbroadcastsd ymm, vpmovzxbq and vcvtdq2pd: vbroadcastsd ymm0,[rax+8] with EVEX reads [rax+16].
* `C41_zero_refuted`: Finding: zeroing is accepted for a store, which is an invalid instruction: vmovdqa32 [rax]{k1}{z},xmm1.
* `C43_far_refuted`: .SAVEREG and .SAVEXMM128 with larger offsets: the long form holds the offset itself, but the offset divided by 8 resp. 16 is stored; every such register is restored from the wrong place.
* `C43_savereg_limit_refuted`: .SAVEREG with offset 80000h: the limit for the short form is tested with ">" instead of ">=", the offset is stored as 0.
* `C43_setframe_rax_refuted`: .SETFRAME rax is accepted, but 0 means that there is no frame register.
* `C43_wide_refuted`: offsets beyond 32 bits are cut off without an error (only .ALLOCSTACK tests the upper half): .SAVEREG rbx, 100000008h is taken for offset 8, .SETFRAME rbp, 100000010h for 10h.
* `C43_xdata_used_refuted`: if .xdata already has contents of its own, the offset is added twice: the label $xdatasym stands behind these contents and the current size of the segment is added to it.
* `C43_xmm16_refuted`: the number of a register has 4 bits only: .SAVEZMM512 zmm22 (or .SAVEXMM128 xmm22) is accepted and announces xmm6.
* `C44_noauto_refuted`: "FRAME without OPTION FRAME:AUTO leaves the prologue to the programmer." The number of vector registers is then tested without ever having been set (proc.c 2983, 3136).
* `C44_volatile_refuted`: "The unwind information describes every prologue." A register that is not preserved across calls, like RAX, may be in USES and is pushed, but there is no .PUSHREG for it (proc.c 3034): the operating system takes the contents of RAX for the return address.
* `C44_zmm_refuted`: "Any vector register may be in USES." The line that stores a zmm register when no stack is reserved is made with a format that has one place more than it is given values (proc.c 3177); no stack is reserved in pass 1, so this happens to every FRAME procedure with a zmm register.
* `C45_amp_refuted`: "Names joined by & are replaced." The number of the 38th name is the character &: with another name behind it the number is taken for an operator and overwritten (macro.c 151-152).
* `C45_count_refuted`: "A line may contain a name any number of times." The number of replacements is kept in a byte: with 256 names in a line none is replaced (macro.c 589, input.c 720).
* `C45_exclamation_refuted`: "The scanner stops at the end of the line." strchr also finds the terminating zero: an exclamation mark at the end of a line, outside of strings, leads the scanner behind the end (macro.c 229).
* `C45_grows_refuted`: "A line that can be read can be stored." Placeholders may be longer than names, and the end of the buffer is not watched (macro.c 159-163).
* `C45_loop_refuted`: "Every macro can be stored." If the 65th parameter is named A, the number in its placeholder is replaced again and again, until the buffer overflows (macro.c 159-164, 218-221).
* `C45_overflow_refuted`: "An expanded line that is too long is an error." The end of the buffer is not watched when arguments are inserted either (macro.c 103-106).
* `C45_quote_refuted`: "All names in a line are replaced." A name of one character is replaced by two characters, and the scanner goes on at the second one, the number of the name (macro.c 159-164). The 34th parameter of a macro opens a string this way: the names behind it are not replaced.
* `C46_count_refuted`: "Locals do not share memory." The number of elements is not checked: with LOCAL a[-1]:DWORD, b:DWORD the size of a is -4 and b is put at the address of the saved frame register, and with 40000000h elements of 4 bytes the size wraps to 0 (proc.c 708, 4948-4962).
* `C46_empty_local_refuted`: "Prologue and epilogue belong together." With locals that take no memory, like LOCAL x[0]:DWORD, the prologue is left out because there is nothing to allocate (proc.c 4749), but the epilogue looks at the list of locals (5236) and pops the frame register, or executes LEAVE: the return address is popped.
* `C46_espbase_refuted`: "Parameters are found where the caller put them." With the stack pointer as base register the offsets count a word for every register of USES and nothing for LOADDS (proc.c 4964-4996): with LOADDS, or with USES BX in 32-bit code, parameters and locals are addressed at the wrong place.
* `C46_fastcall_refuted`: "RET of a FASTCALL procedure removes the arguments that are on the stack." The size of the registers is subtracted from the size of all parameters whether or not the parameters are passed in registers (proc.c 443-448): f PROC FASTCALL x:QWORD returns with RET 0.
* `C46_flags_refuted`: "OPTION FRAMEFLAGS preserves the flags in prologues." In 16-bit code the line is LEA SP, [SP-n], which no processor has (proc.c 4808): every procedure with locals is refused.
* `C46_loadds_ax_refuted`: "The registers of USES are preserved." LOADDS loads DS through AX before the registers of USES are pushed (proc.c 4826-4837): USES AX keeps the address of DGROUP and not the AX of the caller.
* `C46_loadds_refuted`: "LOADDS saves and restores DS." A FASTCALL procedure whose parameters are all in registers, without USES and locals, gets no prologue (proc.c 4749, the test does not look at LOADDS), but the epilogue pops DS (5197).
* `C46_rsp_refuted`: "Every procedure with INVOKE is accepted." For a 32-bit FASTCALL procedure that needs no frame the prologue is to align the stack with SUB RSP, 8 (proc.c 4754), as there is no test for 64-bit code.
* `C47_fallthrough_refuted`: "A case runs its own lines (style of C)." Without a .BREAK since the last .CASE no new label is made (hll.c 2943-2948), even if there are lines in between: case 2 runs the lines of case 1 as well, from their begin.
* `C47_gap_refuted`: "Each case goes to its label." In the table with a label for each number the label of a case is not written at all if the gap before it fills the line of 75 elements (hll.c 2190-2206 and 2284-2299): with cases 0 to 72, 75 and 76 the value 75 goes to case 76, and 76 goes to .DEFAULT; in 64-bit code with cases 0 to 70, 74, 75 and 76 the value 74 goes to case 75.
* `C47_last_case_refuted`: "The last case ends at .ENDSWITCH (style of C)." The dispatch stands behind the body (hll.c 1887-1897): without a .BREAK at the end the last case falls into it and the switch is executed again, for ever if the value is the same.
* `C47_last_entry_refuted`: "Values between the cases go to .DEFAULT." The label of .DEFAULT is the last element of the table of labels, but it is left out if the number of cases is a multiple of 75 (hll.c 1969: "if (dcnt && dcnt < 75)"): with 75 cases 0, 3, 6, ..., 222 the value 1 jumps through whatever is behind the table.
* `C47_line_refuted`: "A valid .SWITCH is accepted." If the 76th case of the sorted list has the label of the 75th, the second line of the table of labels begins with a comma (hll.c 1957-1960), a syntax error.
* `C47_many_labels_refuted`: "Labels are distinct." The number of the label of a case is kept in 16 bits (hll.c 2947): behind label 65535 the case goes to a label that has another number.
* `C47_no_cases_refuted`: ".DEFAULT is executed if no case matches." Not if there are no cases: then no instruction is written and the exit is reached (hll.c 1898); and if the item was used by an earlier .SWITCH, memory in front of its list of cases is read (hll.c 350, 1554).
* `C47_overflow_refuted`: "A value that is no case goes to .DEFAULT." The distance between the least and the greatest case is multiplied by 4 with 32 bits (hll.c 1909): cases 80000000h, 1, 2 and 3 look like a dense range, the value 0 goes to case 80000000h, and -1 jumps to a wild address.
* `C47_radix_refuted`: "Numbers in tables are decimal." They are written without suffix and read with the current radix: with .RADIX 16 the case 1000 is taken for 1000h (hll.c 2085-2091).
* `C47_upper_half_refuted`: "EAX is compared." In 64-bit code with .SWITCH EAX the index of the table is RAX; if the least case is not 0 "sub eax" clears the upper half, but with 0 as least case nothing does (hll.c 2540-2549): with other values in the upper half of RAX the jump goes to a wild address.
* `C47_wide_refuted`: "RAX is compared with the value of the case." cmp rax,80000000h extends the sign: the case 80000000h is chosen for 0FFFFFFFF80000000h and not for 80000000h. Larger values are refused with up to three cases, and cut to 32 bits ("%d") in the table that is searched (hll.c 2089-2091).
* `C48_empty_refuted`: "Empty segments do not matter." Empty segments are skipped before the entry of the table is closed (bin.c 1341-1342 and 1378-1382): if the last segment of a section is empty, the next section takes the same entry. The table has fewer entries than NumberOfSections, and the code is not loaded.
* `C48_no_relocs_refuted`: "NumberOfSections is the number of entries of the table." .reloc is counted before its size is known (bin.c 1276-1282); if nothing is relocated it is empty and has no values in the table.
* `C48_padding_refuted`: "Every byte of a segment is loaded at its address." SizeOfRawData is the sum of the sizes of the segments of a section; the padding between them is not counted (bin.c 1355-1357). 511 bytes and one byte aligned to 16 are said to be 512 bytes of raw data, so that the last byte, at offset 512, is loaded as zero.
* `C48_page_refuted`: "A segment may be aligned to a page." The address of a segment that is not the first of its section is aligned (bin.c 1308-1310), and so is its offset in the file (CalcOffset, bin.c 226-231), but the section begins at 512 in the file: the distance in the file is not the distance in memory, and SizeOfRawData covers neither.
* `C48_reserved_refuted`: "The raw data of sections is inside the file." Data that is only reserved (all bytes are ?) at the end of the program is not written (bin.c 1737-1748), but counted in SizeOfRawData (bin.c 1355-1357).
* `C48_stack_refuted`: "NumberOfSections is the number of entries of the table." Segments of combine type STACK are of no kind: they are not counted when memory for the table is allocated (bin.c 840-853), but have an entry (bin.c 1343-1354).
* `C49_flat_refuted`: "Operands are accessed through a register that holds their segment." If the usual register is assumed to be FLAT it is taken for all operands (assume.c 530-533), also for labels of segments that are not in FLAT, and for seg:label; a register that does hold the segment is not used, and there is no error.
* `C50_for_refuted`: "White space between the arguments of FOR makes no difference." FOR x,<a,> runs its lines once, FOR x,<a, > twice (loop.c 266-275); and the argument behind the last comma is empty, the default is not used and no error is given if it is required, unlike for an argument left out before.
* `C50_forc_refuted`: "FORC passes each character of its text." If the text ends with a single '!' the 00 behind it is taken for the character (loop.c 237-243, expans.c 539-541): the lines run once more with an empty argument.
* `C50_repeat_refuted`: "REPEAT runs its lines as often as its argument says." Only the low 32 bits count, as a signed number (loop.c 204): REPEAT 100000001h runs them once and REPEAT 80000000h not at all, without an error.
* `C50_while_refuted`: "WHILE runs its lines as long as the condition is not zero." Only the low 32 bits of the condition are tested (loop.c 216, opnd.value), though constants have 64 bits and more: WHILE 100000000h does not run its lines at all.
<!-- end -->

Seen in the code only, not proved:

* expreval.c: `+(-5)` loses the sign flag; SHL/SHR by a negative count reports
  an error but goes on; `[al]` in 64-bit code is taken as [eax].
* data.c: initialised data in BSS segments gives only a warning (729-739); a
  trailing comma is accepted. invoke.c:3221 has the same 256-word buffer as
  data.c:560.
* directiv.c 255-280: INCBIN's size argument is ignored; the size becomes
  negative if the offset exceeds the file.
* types.c: CheckAnonymousStruct's result is ignored; EndstructDirective has no
  NULL check.
* symbols.c: SymAlloc truncates names to 247 characters, the hash uses all.
* linnum.c: QueueDeleteLinnum stops after the first entry; AddLinnumDataRef
  dereferences CurrProc without a test (134).
* elf.c: the RELA addend is only -addbytes while the inline addend stays in the
  section; IMAGEREL becomes R_*_RELATIVE; a long STDCALL size overflows the
  name buffer; memcmp reads behind short section names.
* coff.c: padding reads one byte behind the code buffer at odd file offsets.
* parser.c 702, 1739: SpecialTable[-2] is read for an empty base register.
* omf.c: CEXTDEF is written at each flush of a used COMDAT, startext is counted
  once; the second omf_write_pubdef call doesn't rewrite LNAMES.
* memalloc.c: MemFini calls munmap with length 0, which releases nothing.
* tbyte.c: "0.0e5" has a nonzero exponent; exponents from 8192 on lose bits.
* mangle.c: ms32_decorate tests Options.fctype.

## Tests against wrong programs

`seeded/LOG.jsonl` has one line per edit of a model definition: the edit, the
claim it breaks, the theorems that failed to compile and the theorems that were
tightened.  Edits that survive because they do not change the behaviour are
not claims about the theorems and are not listed.
