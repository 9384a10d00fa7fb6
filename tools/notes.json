{
 "C09": "All record kinds of omfint.c; independent OMF reader.",
 "C10": "PutIndex for every index below 8000h; also used inside C09.",
 "C12": "Names, externals (with alternate names and weak externals) proved; communals proved for one COMDEF record, exact numbering proved for many (off by one per further record: finding, refuted witness).",
 "C14": "All 32-bit values; allocated size of every communal.",
 "C18": "Table-driven CRC equals bit-serial CRC-32; continuation; every change within 4 bytes detected.",
 "C31": "Blocks disjoint, 16-aligned, new pool only when needed, failure only without memory; requests of 4 GB and more refuted.",
 "C37": "All queues where COMDAT publics precede the others; the other order is refuted (buffer overwritten).",
 "C29": "Proved for power-of-2 alignments up to 2^30; refuted without a FLAT group (NULL dereference, posndir.c:255) and for constants whose low 32 bits exceed 2^30 or whose upper half is set.",
 "C32": "UTF-8 to UTF-16 conversion proved against an independent decoder; the 256-entry buffer in data.c is shown to overflow for longer strings (refuted variant).",
 "C24": "Simulation of any history of table operations against list scopes; SymLCreate over an undefined local symbol loses chain entries (refuted variant).",
 "C30": "PUSHCONTEXT/POPCONTEXT restore what they saved; the fields total_size and isfar of ASSUME are not restored (refuted variant).",
 "C25": "Simulation of any history of Find/Rename/Disable/Mode/EndModule against an ordered list of active keywords, and restoration at module end; five defects outside the assumed use are shown by refuted variants.",
 "C34": "All decoration styles against an independent description, and injectivity per form; clashes across forms and the undecorated VECTORCALL form are refuted.",
 "C33": "All argument lists; positions and sizes that fit an int. Overflow of the bound check and dropped upper halves are refuted variants.",
 "C07": "STRUCT/UNION layout (types.c CreateStructField, UpdateStructSize, AlignInStruct, SetStructCurrentOffset, EndstructDirective). Offsets, sizes and containment proved for every definition; alignment proved for power-of-two member sizes. Two theorems ending _refuted give the cases where the code leaves a member unaligned (TBYTE) or loses the size (negative ORG).",
 "C08": "SearchNameInStruct and CheckAnonymousStruct: lookup returns the unique member and its accumulated offset, at any anonymous nesting depth.",
 "C06": "RecordDirective, the RECORD part of InitStructuredVar, ShiftLeft, GetRecordMask, MASK and WIDTH. Exact for records up to 32 bits; for larger records under stated conditions, with refuted theorems for the cases where the code stores something else.",
 "C01": "evaluate/calculate/get_precedence on constant expressions (numbers, brackets, unary + - NOT LOW..HIGH32 and all binary operators). With -Zm the claim is false (refuted theorem). Labels, registers, types and the operators on them are not modelled.",
 "C03": "Proved for 64-bit operands; for 128-bit operands unary minus is right only if the lower half is not zero (refuted theorem otherwise), and the part operators report an error.",
 "C04": "store_const (data.c 890-939) for every item size and every 128-bit value: exact acceptance and exact bytes. Refuted: values below the signed range are accepted, the upper half is ignored for items of up to 8 bytes, OWORD differences are not sign-extended. Float initializers and relocatable addresses are not part of this model.",
 "C05": "data_item/data_dir (data.c) over arbitrary nested initializer lists of constants, strings, ? and DUP. Refuted: DW strings count twice, DUP (?) sizes wrap at 2^32, OPTION LITERALS with a short string stores nothing. Structured initializers are not part of this model.",
 "C11": "OutputByte(s), OutputInterleavedBytes, OutputBinBytes, SetCurrOffset, store_fixup, omf_write_ledata/fixupp and segment switches, over all histories, down to the bytes of the records (with C09 and C13). Refuted: wide strings and INCBIN can write behind the 1024-byte buffer. COMDAT segments, line numbers and the fpfixup flush are not modelled.",
 "C13": "OmfFixGenFix, omf_fill_logref, TranslateLogref, OmfFixGenFixModend. Refuted where the selected frame is a segment (group) different from the target segment (group): the frame is dropped.",
 "C38": "SortSegments: stable sort, unique result, all three comparison keys. SymTables[TAB_SEG].tail isn't maintained by the code (not used afterwards) and not modelled.",
 "C21": "bin.c CalcOffset, GetImageSize, bin_write_module, DoFixup for plain binaries and MZ: every initialised byte at its place, no overlap, relative fixups. Refuted: groups whose segments aren't contiguous, ORG in a later group member (read outside of the buffer), absolute SEG in a flat binary. PE (pe_*), OPTION FLAT and orgfixup.c are not modelled.",
 "C22": "MZ header and relocation table read by an independent reader. Refuted: e_minalloc ignores BSS before initialised data, more than 65535 relocations, FRAME_SEG in unaligned groups, SEG of a label with FRAME_SEG.",
 "C15": "All names allocated in any order; names in the file as read by an independent reader of the PE/COFF format. Section names behind 10^7 bytes of long names and aliases starting with / don't hold (refuted theorems).",
 "C16": "coff.c as a whole for modules that satisfy module_ok; the reader of Coff_Spec.v decides. -zls with COMDATs, -zld-style suppression of static procedures with line numbers: refuted theorems.",
 "C17": "The regions and contents of all sections for modules that satisfy module_ok. Refuted: fixups in BSS, READONLY BSS, COMDAT behind ORG, 65536 line numbers.",
 "C28": "First code generator (parser.c, codegen.c), instructions without VEX/EVEX: all operands that satisfy operand_ok, three forms of instructions, checked with a decoder written from the Intel manual; exactly the encodable operands are accepted. The exceptions in operand_ok are refuted theorems.",
 "C26": "process_branch, jumpExtend, FarCallToNear and the byte writer are modelled; the bytes are executed by an independent decoder. C26_program covers whole segments over any number of passes with arbitrary starting offsets; pass 1 with backpatching is not modelled. Far pointers and relative fields filled by the linker are covered. Six refuted corner cases document misbehaviour of the code.",
 "C27": "The condition translator (GetToken, GetSimpleExpression, InvertJump, ReplaceLabel, GetAndExpression, GetExpression) and the directives .IF/.ELSEIF/.ELSE/.ENDIF, .WHILE/.ENDW, .REPEAT/.UNTIL, .BREAK/.CONTINUE [.IF] are modelled. C27_condition holds for conditions in the decidable class `fine`, which C27_plain and C27_flat show to contain all conditions without constants and negated brackets resp. without brackets; the code is wrong outside of it (refuted theorems). C27_program simulates whole structured programs on a machine with labels and jumps. .FOR, .SWITCH, .UNTILCXZ and SIMD operands are not modelled.",
 "C19": "Whole module writer of elf.c (32 and 64 bits) read back by an independent reader of ELF relocatable files: symbol table contents and order, sh_info, and every relocation's place, type, addend and target. Refuted: fixup without symbol (NULL dereference), more than 2^24 symbols in ELF32.",
 "C20": "Section header table, names, contents and layout of the file for all modules; existence of the file for complete modules. Refuted: CONST$ names of more than 245 characters overflow the buffer. 65280 or more section headers are excluded by module_ok.",
 "C39": "Every row of H/InstrTableV2.h without VEX/EVEX, decoded by an independent reader of the manual's encoding tables (V2_Spec.v). 32- and 64-bit code (the generator is not used in 16-bit code). Side conditions in written_ok each stand for a refuted case or a refusal before code generation.",
 "C40": "Every VEX row. Refuted: gather with mask register 8-15, vector register written first.",
 "C41": "Every EVEX row with all decorations. Refuted: displacement and decoration cases listed as findings.",
 "C42": "Lookup for any hash function, row precedence, demotion of operand types, byte constants, acceptance of every encodable operand list.",
 "C43": "Directives, .xdata and .pdata of FRAME procedures, read by an independent reader of the unwind format, and the unwinder run on a machine for every interruption point. Machine frames (.PUSHFRAME) are decoded but not run; epilogues, forward references in operands and chained information are not modelled. Refuted: far offsets, 64-bit offsets, xmm16-31, .SETFRAME rax, .xdata with contents.",
 "C44": "Prologue, epilogue and layout run on a machine with general and vector registers; the unwinding part is joined with C43. Not modelled: RSP as frame register, the 16/32-bit and non-FRAME frames, register parameters of __vectorcall and System V, locals above 2 GB. Refuted: zmm registers, FRAME without FRAME:AUTO, volatile registers in USES.",
 "C45": "Exact for names whose number is harmless (at most 32 names always are) and lines up to 255 characters not ending in '!'; C45_long is for longer lines. Not modelled: the parsing of macro definitions, the evaluation of arguments, nested macro definitions, line continuation. Refuted: one-character names from number 33 on, number 38 next to &, '!' at the end, 256 names in a line, buffer limits.",
 "C46": "Prologue and epilogue run on a machine with byte memory; offsets are final after any number of passes. FASTCALL is Microsoft's. Not modelled: Watcom and Delphi register conventions, user-defined prologues, the code that loads register arguments, locals of zero or negative size (refuted). Refuted: RET of FASTCALL with parameters that do not fit registers, SUB RSP in 32-bit code, empty locals, LOADDS (three ways), ESP as base with LOADDS or 16-bit USES, FRAMEFLAGS in 16-bit code, negative counts.",
 "C47": "Directives are compiled, .ENDSWITCH writes instructions and the tables line by line, and these are executed on a machine with registers, stack and flags; proved for all lists of cases and all values. Conditions [plain] and [fits] exclude exactly what is refuted: no cases, values beyond 32 bits, tables whose lines go wrong (multiples of 75), .RADIX, overflow of the span. Not modelled: loading the value into EAX (RAX), passes before the last, 16-bit code.",
 "C48": "The layout, the table, the sizes, the relocations and the file are characterised against an independent layout and a loader, for all lists of segments meeting [regular] (header first, alignment of segments behind the first of a section at most the file alignment, last segment of a section not empty, start_loc 0, total below 2^30). For loading, SizeOfRawData must also cover the padding ([roomy]) and segments have contents. What happens otherwise is refuted: padding, page alignment, empty last segment, empty .reloc, STACK segments, reserved data at the end. Not modelled: the bytes of the headers, import and export tables, the values stored by DoFixup.",
 "C49": "Proved for all tables made by ASSUME and all 16-bit and 32-bit forms, against the processor's rule for segment registers; the choice among registers is pinned. With FLAT assumed for the usual register the label must be in FLAT (otherwise refuted). Not modelled: string instructions, the address size prefix, 64-bit code, general registers in ASSUME.",
 "C50": "Proved for all bodies, texts and 32-bit values; counts and conditions above 32 bits and a final '!' are refuted, as is that white space does not matter to FOR. Not modelled: arguments of FOR with %, {}, <> or macro functions, reading of the lines, empty loops."
}
