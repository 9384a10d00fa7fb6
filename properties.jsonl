{"id": "C01", "title": "Constant expressions follow the documented precedence", "statement": "For every constant expression built from numbers, parentheses, unary + -, NOT, and the binary operators * / MOD SHL SHR + - EQ NE LT LE GT GE AND OR XOR, the value the assembler computes from the written token sequence is the 64-bit two's-complement value of the expression tree that the documented precedence/associativity table assigns to that sequence, and the whole sequence is consumed.", "quantifier": "all expression trees (any size and nesting), all 64-bit operand values, all printings with the necessary parentheses", "why_tests_cant": "The set of expressions is infinite; precedence bugs only show on particular nestings of operators that no finite suite enumerates.", "anchors": ["expreval.c: get_precedence, evaluate, calculate, EvalOperand"]}
{"id": "C02", "title": "Numeric literals denote their positional value", "statement": "For every digit string and radix (suffix h,b,y,o,q,d,t or the current .RADIX) that the tokenizer accepts as a number, the 128-bit value used by the assembler is the positional value of the digits in that radix modulo 2^128; a string with a digit not valid for its radix is rejected as a bad number.", "quantifier": "all non-empty digit strings of any length, all radices 2..16, every suffix letter", "why_tests_cant": "Literal length and digits are unbounded; carries between 16-bit limbs only appear for special values.", "anchors": ["tokenize.c: get_number", "expreval.c: myatoi128"]}
{"id": "C03", "title": "Part-extraction and sign operators return the right bits", "statement": "LOW, HIGH, LOWWORD, HIGHWORD, LOW32, HIGH32 of a constant return exactly bits 0-7, 8-15, 0-15, 16-31, 0-31, 32-63 and unary minus returns the two's-complement negation of the operand.", "quantifier": "all 128-bit constant operands", "why_tests_cant": "2^64 (2^128) operand values; boundary cases such as a zero low half are easily missed.", "anchors": ["expreval.c: low_op, high_op, lowword_op, highword_op, low32_op, high32_op, negative_op"]}
{"id": "C04", "title": "Integer data directives store the value or report an error", "statement": "When DB/DW/DD/DQ (and the 16-byte forms) accept an integer constant, the bytes stored, read back little-endian, equal the constant modulo 2^(8*size); a constant representable neither as signed nor unsigned value of that size is rejected.", "quantifier": "all integer constants in the 128-bit evaluator range and all item sizes 1,2,4,6,8,10,16", "why_tests_cant": "The constant range is astronomically large; truncation bugs concern particular high bits only.", "anchors": ["data.c: data_item (EXPR_CONST branch)", "assemble.c: OutputBytes"]}
{"id": "C05", "title": "DUP initializers expand to the nested repetition they denote", "statement": "The bytes produced by an initializer list with arbitrarily nested 'n DUP (...)', strings and ? items are the concatenation that the nested repetition denotes, and LENGTHOF/SIZEOF equal the number of items/bytes produced.", "quantifier": "all initializer trees of any depth, all non-negative counts, all item sizes", "why_tests_cant": "Nesting depth and counts are unbounded.", "anchors": ["data.c: data_item, InitializeArray"]}
{"id": "C06", "title": "RECORD fields are packed without overlap", "statement": "For every RECORD definition the fields occupy adjacent, non-overlapping bit ranges covering bits 0..total-1, first field most significant, and the value stored for an initialised record can be decoded field by field to the initial values (modulo field width).", "quantifier": "all lists of field widths with total at most 128, all initial values", "why_tests_cant": "All partitions of up to 128 bits into fields times all values.", "anchors": ["types.c: RecordDirective", "data.c: InitStructuredVar, ShiftLeft"]}
{"id": "C07", "title": "STRUCT/UNION layout", "statement": "For every sequence of field definitions in a STRUCT/UNION with any alignment argument: fields of a STRUCT are placed in order at non-overlapping offsets, each power-of-two sized field at a multiple of min(alignment,size), each field lies inside the reported struct size, the size is a multiple of the effective alignment, and in a UNION all fields are at offset 0 with size the maximum member size (padded).", "quantifier": "all field sequences of any length, sizes and alignments", "why_tests_cant": "Unbounded number of fields and sizes.", "anchors": ["types.c: CreateStructField, UpdateStructSize, AlignInStruct, EndstructDirective"]}
{"id": "C08", "title": "Named members resolve to one field at the right offset", "statement": "Looking a member name up in a STRUCT, including members of nested anonymous structs/unions, returns the first declared member with that name and the sum of the offsets on the path to it; a name not declared anywhere is not found.", "quantifier": "all struct type trees up to the nesting limit and all names", "why_tests_cant": "Trees of any shape; accumulating offsets on a failed search path would only show for particular shapes.", "anchors": ["types.c: SearchNameInStruct"]}
{"id": "C09", "title": "Every OMF record is well framed", "statement": "Whatever sequence of bytes, words, dwords, indices and blocks is put into an OMF record, the emitted record has the requested type, a length field equal to the number of following bytes, and all of its bytes sum to 0 mod 256; a reader that splits the concatenation of records by length recovers the payloads.", "quantifier": "all sequences of record writes with any contents that fit the record buffer", "why_tests_cant": "All payload contents and lengths.", "anchors": ["omfint.c: WBegRec, WEndRec, PutByte, PutWord, PutDword, PutMem, PutIndex"]}
{"id": "C10", "title": "OMF indices round-trip", "statement": "Every segment/group/name/external index up to 7FFFh written to an OMF record is decoded by the OMF reading rule (1 byte below 80h, 2 bytes big-endian with the top bit set otherwise) to the same index and the reader stops exactly behind it.", "quantifier": "all indices 0..7FFFh and any following bytes", "why_tests_cant": "Boundary at 80h, long object files only.", "anchors": ["omfint.c: PutIndex", "omffixup.c: putIndex"]}
{"id": "C11", "title": "OMF data records rebuild the segment image", "statement": "For every sequence of emitted bytes, multi-byte items and ORGs in an OMF segment, loading the produced LEDATA records in order gives exactly the memory image in which each emitted byte is stored at its location counter, and no record exceeds the 1024 byte data limit.", "quantifier": "all finite histories of output operations and location-counter changes", "why_tests_cant": "Histories are unbounded; a flush at the wrong moment loses or duplicates bytes only for particular sizes.", "anchors": ["assemble.c: OutputByte, OutputBytes, SetCurrOffset, OutputInterleavedBytes", "omf.c: omf_FlushCurrSeg, omf_write_ledata", "omfint.c: writeLedata"]}
{"id": "C12", "title": "OMF external/name numbering agrees with the reader", "statement": "The index the assembler uses for every external or logical name equals the position at which an OMF reader counts that name over all EXTDEF/COMDEF (LNAMES) records, regardless of how the names are split into records.", "quantifier": "all lists of names of any lengths", "why_tests_cant": "Splitting happens only after hundreds of symbols and depends on accumulated name lengths.", "anchors": ["omf.c: omf_write_lnames, omf_write_extdef, omf_write_comdef"]}
{"id": "C13", "title": "OMF fixup subrecords decode to the fixup", "statement": "The FIXUPP subrecord written for a fixup decodes (per the OMF specification) to the same location offset, location type, self/segment-relative mode, frame, target method/index and displacement.", "quantifier": "all fixups with data record offset below 1024, any indices and displacements", "why_tests_cant": "The field combinations are too many to enumerate and depend on target indices above 7Fh.", "anchors": ["omffixup.c: OmfFixGenFix, TranslateLogref, putFrameDatum, putTargetDatum"]}
{"id": "C14", "title": "COMDEF sizes round-trip", "statement": "The variable-length number used for communal variable sizes decodes to the same number and its length is the length that was reserved for it.", "quantifier": "all 32-bit numbers", "why_tests_cant": "Boundaries at 128, 64K and 16M.", "anchors": ["omf.c: get_size_of_comdef_number, put_comdef_number"]}
{"id": "C15", "title": "COFF string table lookups return the name", "statement": "Every offset handed out for a long section/symbol name is the offset at which exactly that zero-terminated name is found in the emitted string table, whose first dword is the total size.", "quantifier": "all sequences of names", "why_tests_cant": "Unbounded number and length of names.", "anchors": ["coff.c: Coff_AllocString, coff_write_symbols"]}
{"id": "C16", "title": "COFF symbol indices match the symbol table", "statement": "The symbol-table index stored in every relocation is the position at which that symbol's record is written in the symbol table, counting auxiliary records.", "quantifier": "all combinations of sections, externals, communals, aliases, publics and debug options", "why_tests_cant": "The number of auxiliary entries varies with the options and contents in ways too numerous to enumerate.", "anchors": ["coff.c: SetSymbolIndices, coff_write_symbols, coff_write_fixups"]}
{"id": "C17", "title": "COFF section headers describe where the bytes are", "statement": "For every module the raw-data/relocation/line-number file offsets in the section table are the file positions at which that section's data, relocations and line numbers are written; the regions do not overlap.", "quantifier": "all lists of sections with any sizes, kinds and relocation counts", "why_tests_cant": "Layout is cumulative over arbitrarily many sections.", "anchors": ["coff.c: coff_write_section_table, coff_write_data"]}
{"id": "C18", "title": "COMDAT checksum is CRC-32", "statement": "The table-driven checksum stored for COMDAT sections equals the bit-serial CRC-32 (reflected polynomial EDB88320h) of the section's contents, and appending data continues the checksum.", "quantifier": "all byte strings", "why_tests_cant": "All data contents and lengths.", "anchors": ["coff.c: InitCRC32, CRC32Comdat"]}
{"id": "C19", "title": "ELF symbol indices and names match the symbol table", "statement": "The ELF symbol index used by each relocation designates the entry written for that symbol, every st_name offset finds exactly the symbol's name in .strtab, and all local symbols precede the globals with sh_info the first global.", "quantifier": "all sets of segments, fixups, externals, publics and names", "why_tests_cant": "Unbounded symbol sets; two separate traversals must stay in step.", "anchors": ["elf.c: set_symtab_values, set_symtab32, set_symtab64"]}
{"id": "C20", "title": "ELF section layout", "statement": "The file ranges of all ELF sections (program, internal, relocation) are disjoint, 16-byte aligned and lie behind the section header table; sh_name of each header finds that section's name; e_shnum/e_shstrndx/sh_link/sh_info designate the right sections.", "quantifier": "all lists of segments with any sizes, names and relocation counts", "why_tests_cant": "Cumulative layout over arbitrarily many sections.", "anchors": ["elf.c: elf_write_section_table32/64, set_shstrtab_values, elf_write_data"]}
{"id": "C21", "title": "BIN layout", "statement": "In the flat binary output format every non-absolute segment gets a file range that is aligned to its alignment and disjoint from the ranges of all other segments.", "quantifier": "all lists of segments, groups, alignments and sizes", "why_tests_cant": "Cumulative layout over arbitrarily many segments.", "anchors": ["bin.c: CalcOffset"]}
{"id": "C22", "title": "MZ relocation entries address the fixup location", "statement": "Every segment:offset pair in the MZ relocation table designates the linear address of the segment word to be relocated.", "quantifier": "all fixups and segment/group offsets", "why_tests_cant": "The paragraph arithmetic depends on low nibbles and offsets above 64K.", "anchors": ["bin.c: GetSegRelocs"]}
{"id": "C23", "title": "Conditional assembly selects the right lines", "statement": "For every properly nested program of IF/ELSEIF/ELSE/ENDIF blocks and every outcome of the conditions, exactly the lines of the first block whose condition holds (else the ELSE block) in each chain of an assembled region are assembled, and conditions in skipped regions are not evaluated.", "quantifier": "all well-nested block trees (up to the nesting limit for active blocks) and all condition outcomes", "why_tests_cant": "Unbounded nesting/program length; interactions between skipped and active levels.", "anchors": ["condasm.c: conditional_assembly_prepare, CondAsmDirective"]}
{"id": "C24", "title": "The symbol table is a case-(in)sensitive map with procedure-local scope", "statement": "After any history of symbol creations, lookups, procedure entry/exit, SymSearch returns exactly the symbol that was last defined under that name in the innermost scope (local before global), or nothing if none was; names that differ only in case are the same iff case-sensitivity is off.", "quantifier": "all histories of table operations, all names", "why_tests_cant": "Histories are unbounded; chaining and bucket order bugs appear only on collisions.", "anchors": ["symbols.c: SymFind, SymLookup, SymCreate, SymLCreate, SymGetLocal, SymSetLocal, hashpjw"]}
{"id": "C25", "title": "Keyword table stays consistent", "statement": "After any history of adding, removing, disabling and renaming keywords (and switching 64-bit mode), a name is recognised as a keyword exactly if some active keyword currently has that name; every keyword operation terminates.", "quantifier": "all histories of keyword operations", "why_tests_cant": "The order of OPTION RENAMEKEYWORD/NOKEYWORD/mode switches is arbitrary.", "anchors": ["reswords.c: AddResWord, RemoveResWord, FindResWord, RenameKeyword, DisableKeyword, IsKeywordDisabled"]}
{"id": "C26", "title": "Jumps reach their target", "statement": "A jump/call/loop to a known label in the same segment is encoded with a displacement such that end-of-instruction + sign-extended displacement equals the target, and the short form is used only if the displacement fits.", "quantifier": "all source offsets, target offsets, offset sizes and instruction forms", "why_tests_cant": "All pairs of addresses.", "anchors": ["branch.c: process_branch", "backptch.c: DoPatch"]}
{"id": "C27", "title": "HLL conditions branch correctly", "statement": "For every .IF/.ELSEIF/.WHILE/.UNTIL condition built from &&, ||, ! and parentheses over simple comparisons, the generated test-and-jump lines transfer control to the branch demanded by the C meaning of the condition for every state of the machine.", "quantifier": "all boolean expressions and all truth values of their simple conditions", "why_tests_cant": "Infinitely many expression shapes; the generator patches already generated text.", "anchors": ["hll.c: GetExpression, GetAndExpression, GetSimpleExpression, InvertJump, ReplaceLabel"]}
{"id": "C28", "title": "Memory operands encode to the address written", "statement": "The ModR/M, SIB, REX and displacement bytes generated for a memory operand decode (per the Intel manual) to the same base, index, scale and displacement.", "quantifier": "all base/index/scale/displacement combinations in 16, 32 and 64-bit addressing", "why_tests_cant": "All registers times all displacements; special cases for ESP/EBP/R12/R13.", "anchors": ["parser.c: set_rm_sib, memory_operand", "codegen.c: output_opc, output_data"]}
{"id": "C29", "title": "Alignment padding is exact and executable", "statement": "ALIGN inserts exactly the bytes needed to reach the next multiple, and in code segments the inserted bytes are a sequence of complete no-operation instructions.", "quantifier": "all location counters, power-of-two alignments", "why_tests_cant": "Unbounded padding lengths.", "anchors": ["posndir.c: AlignDirective, AlignCurrOffset, fill_in_objfile_space"]}
{"id": "C30", "title": "PUSHCONTEXT/POPCONTEXT restore state", "statement": "After any properly nested sequence of context pushes, state changes and pops, each pop restores exactly the selected parts of the state that were current at the matching push and leaves the other parts alone.", "quantifier": "all histories of pushes, pops and changes", "why_tests_cant": "Unbounded histories.", "anchors": ["context.c: ContextDirective"]}
{"id": "C31", "title": "Memory blocks never overlap", "statement": "Blocks handed out by the assembler's local allocator are disjoint, 8-byte aligned and lie inside blocks obtained from the system, for every sequence of requests.", "quantifier": "all sequences of request sizes", "why_tests_cant": "Unbounded request sequences.", "anchors": ["memalloc.c: LclAlloc"]}
{"id": "C32", "title": "UTF-8 literals convert to UTF-16", "statement": "For every well-formed UTF-8 text the wide-string conversion yields its UTF-16 encoding and never writes more than the given number of units.", "quantifier": "all sequences of Unicode scalar values, all buffer sizes", "why_tests_cant": "More than a million code points in arbitrary sequences.", "anchors": ["string.c: UTF8toWideChar"]}
{"id": "C33", "title": "Text directives implement string algebra", "statement": "CATSTR, SUBSTR, SIZESTR and INSTR (directive and macro-function form) return concatenation, the 1-based substring, length and first 1-based position at or after the start of the needle (0 if none), and reject out-of-range arguments.", "quantifier": "all strings and all integer arguments", "why_tests_cant": "Unbounded strings and positions.", "anchors": ["string.c: CatStrDir, SubStrDir, SizeStrDir, InStrDir and the @-functions"]}
{"id": "C34", "title": "Name decoration", "statement": "For every identifier and language type the decorated name is the documented one (UPPER for PASCAL/BASIC/FORTRAN, leading underscore for C, _name@bytes for STDCALL, @name@bytes for FASTCALL, ...), and distinct names stay distinct within case-preserving conventions.", "quantifier": "all names, parameter sizes and language types", "why_tests_cant": "Unbounded names.", "anchors": ["mangle.c: Mangle and its helpers"]}
{"id": "C35", "title": "Number to text conversion round-trips", "statement": "The text the assembler generates for a number in any radix, re-read as a literal in that radix, denotes the same number.", "quantifier": "all 32/64-bit numbers, radix 2..16, signed or not", "why_tests_cant": "All values.", "anchors": ["expans.c: myltoa", "lqueue.c: myqtoa, AddLineQueueX", "tokenize.c: get_number"]}
{"id": "C36", "title": "Queues deliver in order", "statement": "Items (public symbols, generated lines, line numbers, global-data items) are delivered exactly once and in the order they were queued.", "quantifier": "all histories of enqueue/dequeue/traverse operations", "why_tests_cant": "Unbounded histories; tail-pointer bugs need specific removal orders.", "anchors": ["queue.c: QEnqueue, QAddItem", "lqueue.c: AddLineQueue, RunLineQueue", "parser.c: sym_add_table, sym_remove_table", "assemble.c: PassOneChecks"]}
{"id": "C37", "title": "OMF public definitions", "statement": "A linker reading the PUBDEF records gets every public symbol exactly once, with its group, segment, name and offset, no matter how many records are needed; COMDAT segments refer to a name record with the name of one of their publics.", "quantifier": "all queues of public symbols, names, offsets and segments", "why_tests_cant": "Record splitting depends on the total size of names, segment changes and offset width; the shared string buffer is corrupted only by certain orders.", "anchors": ["omf.c: omf_write_pubdef"]}
{"id": "C38", "title": "Segment sorting", "statement": "Sorting the segment list (by file offset, by name, or by class name) ends and yields the list in ascending order of the key, segments with equal keys in the order of their creation, nothing lost or duplicated.", "quantifier": "all segment lists and keys", "why_tests_cant": "The in-place bubble sort skips a comparison after each swap; termination and stability depend on all orders of arbitrarily long lists.", "anchors": ["segment.c: SortSegments"]}
{"id": "C39", "title": "General and SSE instructions of the second generator decode as written", "statement": "For every row of the table of codegenv2.c that is assembled without VEX or EVEX prefix and every list of operands meeting it, the bytes written by CodeGenV2 (with the linker's value put where the fixup says) are decoded by the rules of the processor manuals into the mnemonic written, its registers, the address of its memory operand (size, base, index, scale, displacement, segment) and its constant; instructions without operands are the bytes of the manual; the constant's fixup lies on the constant's field.", "quantifier": "all table rows, operands, registers, addresses, displacements, constants and fixup values, 32- and 64-bit code", "why_tests_cant": "The product of rows, registers, index/base/scale choices, displacements and prefixes is not enumerable, and bytes wrong in a rare combination are silently accepted.", "anchors": ["codegenv2.c: CodeGenV2", "codegenv2.c: BuildMemoryEncoding", "codegenv2.c: BuildModRM, BuildREX"]}
{"id": "C40", "title": "VEX instructions of the second generator decode as written", "statement": "For every row assembled with a VEX prefix (2- or 3-byte form) and every list of operands meeting it, the bytes are decoded into the same mnemonic, vector length, registers (including vvvv and the register of bits 7-4 of the immediate), address (including vector index of a gather) and constant.", "quantifier": "all VEX rows, registers 0-15, addresses and constants, both modes", "why_tests_cant": "The choice between the two prefix forms and the inverted R, X, B and vvvv bits depend on the combination of all the operands.", "anchors": ["codegenv2.c: BuildVEX", "codegenv2.c: CodeGenV2"]}
{"id": "C41", "title": "EVEX instructions of the second generator decode as written", "statement": "For every row assembled with an EVEX prefix and every list of operands meeting it, the bytes are decoded into the same mnemonic, vector length, registers 0-31, address with the displacement written (disp8*N), mask register, zeroing, broadcast and rounding.", "quantifier": "all EVEX rows, registers, addresses, displacements and decorations", "why_tests_cant": "Compressed displacements and five register extension bits give errors only for particular displacements and registers.", "anchors": ["codegenv2.c: BuildEVEX", "codegenv2.c: BuildMemoryEncoding"]}
{"id": "C42", "title": "The first fitting row of the table is found and what fits is accepted", "statement": "Through any hash function, LookupInstruction finds the first row of the table with the name, the operand types and the mode (or says there is none); CodeGenV2 tries the operands' own types before the general ones, leaves only short absolute addresses to the older generator, changes no operand except the size of a byte constant, and then assembles a line which decodes as written; operands meeting the row's conditions are not refused.", "quantifier": "all hash functions, names, operand lists and contexts", "why_tests_cant": "Hash collisions between keys of different instructions, and precedence between rows, cannot be excluded by examples.", "anchors": ["codegenv2.c: BuildInstructionTable", "codegenv2.c: LookupInstruction", "codegenv2.c: CodeGenV2"]}
{"id": "C43", "title": "Win64 unwind data describe the prologue", "statement": "The .xdata item written for a FRAME procedure, read by the operating system's rules, is the list of the prologue directives backwards with their offsets, the frame register and the handler; the .pdata item gives the procedure's limits and the place of that item. If the directives announce the prologue that is executed, then at every point in and behind the prologue the operating system's unwinder recovers the return address, the caller's stack pointer and the entry contents of all saved registers. Directives are accepted exactly if their codes fit.", "quantifier": "all prologues, directives, interruption points, machine states and numbers of procedures", "why_tests_cant": "Unwind codes are only read when an exception happens at a particular instruction; every combination of codes, sizes and interruption points would have to be unwound.", "anchors": ["proc.c: ExcFrameDirective", "proc.c: WriteSEHData", "proc.c: ProcInit", "H/win64seh.h"]}
{"id": "C44", "title": "Stack frames of Win64 procedures", "statement": "The prologue and epilogue generated for a PROC FRAME procedure with the frame register RBP leave a working stack frame: after any body that keeps to its own space, the epilogue brings the stack pointer back to the return address and restores the registers of USES (general and vector) and the frame register; the stack is aligned to 16 bytes, the space reserved for arguments is enough for every INVOKE; locals lie apart from each other, from the saved registers and from the arguments, aligned by their size; parameters are addressed where the caller has put them, with register parameters in their home cells if asked for. The unwind directives written with the prologue describe it, so that the caller is found from every instruction.", "quantifier": "all procedures (USES lists, locals, parameters, INVOKEs), options, numbers of passes, machine states and bodies", "why_tests_cant": "The layout depends on the parity of pushes, the sum and sizes of locals, the vector registers and the INVOKEs of the body in combination; a wrong offset only shows when the particular cell is overwritten.", "anchors": ["proc.c: SetLocalOffsets_RBP", "proc.c: write_win64_default_prologue_RBP", "proc.c: write_win64_default_epilogue_RBP", "proc.c: check_proc_fpo", "proc.c: pop_register", "invoke.c: ms64_fcstart"]}
{"id": "C45", "title": "Macro lines: names are replaced by their values", "statement": "A line stored in a macro and read back in an expansion is the line with every parameter and local replaced by its value, all at the same time and without looking at the values again: words as a whole, not within numbers, within strings only next to the operator &, which disappears; '!' makes a delimiter an ordinary character; a missing argument is empty. The locals of all expansions in a module get different names.", "quantifier": "all lines, lists of parameters and locals, arguments, numbers of expansions and options (case, dots in names)", "why_tests_cant": "Placeholders are put into the line that is being scanned; whether a placeholder is taken for text depends on the number of the name, its length, its neighbours and the state of quotes and brackets.", "anchors": ["macro.c: store_placeholders", "macro.c: replace_parm", "macro.c: fill_placeholders", "input.c: GetTextLine", "expans.c: RunMacro"]}
{"id": "C46", "title": "Stack frames of 16-bit and 32-bit procedures", "statement": "The prologue and epilogue generated for a 16-bit or 32-bit procedure leave a working stack frame: after any body that keeps to its locals, RET finds the return address, removes the arguments if the calling convention asks the procedure to, and the registers of USES, the frame register and with LOADDS the data segment are restored. Locals lie apart from each other, from the saved registers and the return address, aligned by the size of their elements; parameters are addressed where the caller has put them, relative to the frame register or to the stack pointer. INVOKE pushes the arguments in the order the convention asks for, and the arguments are removed once.", "quantifier": "all procedures (languages C, SYSCALL, STDCALL, PASCAL, FORTRAN, BASIC and Microsoft FASTCALL, near and far, USES lists, locals, parameters), options (frame register, LEAVE or not, FRAMEFLAGS), numbers of passes, machine states and bodies", "why_tests_cant": "The offsets depend on the order and sizes of parameters and locals, the registers of USES, the convention and the pass in which they are computed; prologue and epilogue are written by different functions that decide separately what there is to do.", "anchors": ["proc.c: ParseParams", "proc.c: ms32_pcheck, ms32_return", "proc.c: SetLocalOffsets", "proc.c: check_proc_fpo", "proc.c: write_generic_prologue", "proc.c: write_generic_epilogue", "proc.c: RetInstr", "invoke.c: InvokeDirective"]}
{"id": "C47", "title": ".SWITCH goes to the case with the value", "statement": "For every value of the register, the code and tables generated by .ENDSWITCH jump to the label of the .CASE with this value, or to .DEFAULT (or behind the switch) if there is none, whichever of the four ways to dispatch is chosen; the stack and the other registers are as before. The body then runs exactly the lines of this case up to its .BREAK (or up to the next .CASE in the assembler style), and ends at .ENDSWITCH. A body is accepted if and only if its values are different and there is at most one .DEFAULT.", "quantifier": "all bodies (lists of .CASE with groups of values, .DEFAULT, .BREAK, .BREAK .IF, other lines), both styles, all lists of cases, 32-bit and 64-bit code and registers, all values of the register and machine states", "why_tests_cant": "There are four ways to dispatch, chosen by number and distance of the values; tables are written as text in lines of 75 elements, so mistakes show only for some numbers of cases or positions of gaps, and the number of values of the register is 2^32 or 2^64.", "anchors": ["hll.c: HllEndDir (.ENDSWITCH, 1876-2739)", "hll.c: HllExitDir (.CASE, .DEFAULT, .BREAK, 2880-3112)", "hll.c: HllStartDir (.SWITCH, 1538-1612)", "hll.c: bubblesort, bubblesort64 (326-381)"]}
{"id": "C48", "title": "A PE image loads to what the segments contain", "statement": "For every program written with -pe, a loader that reads the section table finds every byte of every segment at the address the assembler used for its labels, zero for uninitialized data, and the start label at AddressOfEntryPoint; sections are sorted by kind, aligned, disjoint and inside SizeOfImage; their raw data is inside the file; NumberOfSections, SizeOfHeaders, BaseOfCode, SizeOfCode, BaseOfData and SizeOfInitializedData agree with the table; and the base relocation blocks decode to exactly the fields with address fixups.", "quantifier": "all lists of segments (names, kinds, sizes, alignments, contents, fixups), all file and section alignments 2^k <= 2^m <= 2^16, with and without relocations", "why_tests_cant": "Addresses, file offsets, table entries and relocation blocks are computed in separate loops over the sorted segments that must agree; they differ only for certain sizes modulo the file alignment, alignments, empty segments or fixups at page boundaries.", "anchors": ["bin.c: pe_set_values (1223-1484)", "bin.c: pe_set_base_relocs (1117-1205)", "bin.c: pe_create_section_table (795-861)", "bin.c: CalcOffset (209-306)", "bin.c: pe_get_characteristics (1083-1115)", "bin.c: bin_write_module (1722-1803)"]}
{"id": "C49", "title": "Memory operands are accessed through a register that holds their segment", "statement": "For every table of ASSUMEs that directives can make and every memory operand with a label, the segment register that the processor uses for the instruction (the usual one for its base register, or that of the prefix written) is assumed to hold the segment of the label or its group (or the segment or group named in the operand), and the fixup's frame is exactly what this register holds. No prefix is written if the usual register will do; the operand is refused if and only if no register holds the segment. Registers given in the operand are used as they are, LEA has no prefix, locals use SS.", "quantifier": "all histories of ASSUME directives, all groupings of segments, all 16-bit and 32-bit addressing forms, all kinds of symbols", "why_tests_cant": "The choice depends on six assumptions, the grouping of the segment, the base register and overrides; a wrong register or frame gives code that assembles and fails only with certain memory layouts at run time.", "anchors": ["assume.c: AssumeDirective (276-440)", "assume.c: search_assume, GetAssume, GetOverrideAssume (455-559)", "parser.c: check_assume, seg_override, segm_override (521-627, 919-951)", "fixup.c: SetFixupFrame (148-186)", "codegen.c: sr_prefix (149-150, 513-515)"]}
{"id": "C50", "title": "Macro loops run their lines as often as they say, with the arguments they say", "statement": "For every loop body: REPEAT n runs the lines exactly max(n,0) times, WHILE as long as the condition, evaluated anew after each iteration, is not zero, and FORC once for each character its text stands for ('!c' means c), in order and with exactly this character as argument, blanks included, and FOR once for each argument between its commas, with the default for one that is left out; EXITM ends each of them. This holds for values of 32 bits; for larger ones, and for a text that ends with '!', it is refuted.", "quantifier": "all loop bodies (any function of state, argument and iteration number), all counts, all conditions, all texts", "why_tests_cant": "Bodies, counts and texts are unbounded and the condition may depend on the body; a test sees one loop.", "anchors": ["loop.c: LoopDirective (59-71, 110-123, 201-293)", "expans.c: RunMacro (277-304, 525-584)"]}
