{
 "claims": [
  {
   "property": "C01",
   "status": "proved",
   "theorems": [
    "C01_precedence",
    "C01_every_tree",
    "C01_unambiguous",
    "C01_ends",
    "C01_m510_refuted"
   ],
   "note": "evaluate/calculate/get_precedence on constant expressions (numbers, brackets, unary + - NOT LOW..HIGH32 and all binary operators). With -Zm the claim is false (refuted theorem). Labels, registers, types and the operators on them are not modelled."
  },
  {
   "property": "C02",
   "status": "proved",
   "theorems": [
    "C02_literal_recognised",
    "C02_literal_value"
   ],
   "note": ""
  },
  {
   "property": "C03",
   "status": "proved",
   "theorems": [
    "C03_parts",
    "C03_too_large",
    "C03_sign",
    "C03_minus_128",
    "C03_minus_128_refuted",
    "C03_left_operand_refuted"
   ],
   "note": "Proved for 64-bit operands; for 128-bit operands unary minus is right only if the lower half is not zero (refuted theorem otherwise), and the part operators report an error."
  },
  {
   "property": "C04",
   "status": "proved",
   "theorems": [
    "C04_small",
    "C04_large",
    "C04_extended",
    "C04_fits",
    "C04_range_refuted",
    "C04_upper_half_refuted",
    "C04_oword_refuted"
   ],
   "note": "store_const (data.c 890-939) for every item size and every 128-bit value: exact acceptance and exact bytes. Refuted: values below the signed range are accepted, the upper half is ignored for items of up to 8 bytes, OWORD differences are not sign-extended. Float initializers and relocatable addresses are not part of this model."
  },
  {
   "property": "C05",
   "status": "proved",
   "theorems": [
    "C05_expansion",
    "C05_ends",
    "C05_sizes",
    "C05_first",
    "C05_word_string_refuted",
    "C05_reserve_refuted",
    "C05_literals_refuted"
   ],
   "note": "data_item/data_dir (data.c) over arbitrary nested initializer lists of constants, strings, ? and DUP. Refuted: DW strings count twice, DUP (?) sizes wrap at 2^32, OPTION LITERALS with a short string stores nothing. Structured initializers are not part of this model."
  },
  {
   "property": "C06",
   "status": "proved",
   "theorems": [
    "C06_definition",
    "C06_partition",
    "C06_data_32",
    "C06_data_64",
    "C06_data_128",
    "C06_read_back",
    "C06_rejects",
    "C06_mask",
    "C06_negative_width_refuted",
    "C06_spill_refuted",
    "C06_stale_half_refuted",
    "C06_bit_63_refuted",
    "C06_mask_128_refuted"
   ],
   "note": "RecordDirective, the RECORD part of InitStructuredVar, ShiftLeft, GetRecordMask, MASK and WIDTH. Exact for records up to 32 bits; for larger records under stated conditions, with refuted theorems for the cases where the code stores something else."
  },
  {
   "property": "C07",
   "status": "proved",
   "theorems": [
    "C07_alignment",
    "C07_layout",
    "C07_accepted",
    "C07_no_ub",
    "C07_contained",
    "C07_in_order",
    "C07_aligned",
    "C07_size",
    "C07_union",
    "C07_tbyte_refuted",
    "C07_negative_org_refuted"
   ],
   "note": "STRUCT/UNION layout (types.c CreateStructField, UpdateStructSize, AlignInStruct, SetStructCurrentOffset, EndstructDirective). Offsets, sizes and containment proved for every definition; alignment proved for power-of-two member sizes. Two theorems ending _refuted give the cases where the code leaves a member unaligned (TBYTE) or loses the size (negative ORG)."
  },
  {
   "property": "C08",
   "status": "proved",
   "theorems": [
    "C08_lookup",
    "C08_deep",
    "C08_members"
   ],
   "note": "SearchNameInStruct and CheckAnonymousStruct: lookup returns the unique member and its accumulated offset, at any anonymous nesting depth."
  },
  {
   "property": "C09",
   "status": "proved",
   "theorems": [
    "C09_omf_records_roundtrip",
    "C09_omf_record_written",
    "C09_omf_no_overflow"
   ],
   "note": "All record kinds of omfint.c; independent OMF reader."
  },
  {
   "property": "C10",
   "status": "proved",
   "theorems": [
    "C10_omf_index_roundtrip"
   ],
   "note": "PutIndex for every index below 8000h; also used inside C09."
  },
  {
   "property": "C11",
   "status": "proved",
   "theorems": [
    "C11_image",
    "C11_no_overflow",
    "C11_wide_string_refuted",
    "C11_incbin_refuted"
   ],
   "note": "OutputByte(s), OutputInterleavedBytes, OutputBinBytes, SetCurrOffset, store_fixup, omf_write_ledata/fixupp and segment switches, over all histories, down to the bytes of the records (with C09 and C13). Refuted: wide strings and INCBIN can write behind the 1024-byte buffer. COMDAT segments, line numbers and the fpfixup flush are not modelled."
  },
  {
   "property": "C12",
   "status": "partial",
   "theorems": [
    "C12_lnames",
    "C12_externals",
    "C12_communals_one_record_partial",
    "C12_communal_numbering",
    "C12_communals_many_records_refuted"
   ],
   "note": "Names, externals (with alternate names and weak externals) proved; communals proved for one COMDEF record, exact numbering proved for many (off by one per further record: finding, refuted witness)."
  },
  {
   "property": "C13",
   "status": "proved",
   "theorems": [
    "C13_subrecord",
    "C13_nothing",
    "C13_size",
    "C13_start_address",
    "C13_logref",
    "C13_frame_refuted"
   ],
   "note": "OmfFixGenFix, omf_fill_logref, TranslateLogref, OmfFixGenFixModend. Refuted where the selected frame is a segment (group) different from the target segment (group): the frame is dropped."
  },
  {
   "property": "C14",
   "status": "proved",
   "theorems": [
    "C14_comdef_number",
    "C14_communal_sizes"
   ],
   "note": "All 32-bit values; allocated size of every communal."
  },
  {
   "property": "C15",
   "status": "proved",
   "theorems": [
    "C15_string_table",
    "C15_section_name",
    "C15_new_name_unique",
    "C15_file",
    "C15_offset_refuted",
    "C15_slash_refuted"
   ],
   "note": "All names allocated in any order; names in the file as read by an independent reader of the PE/COFF format. Section names behind 10^7 bytes of long names and aliases starting with / don't hold (refuted theorems)."
  },
  {
   "property": "C16",
   "status": "proved",
   "theorems": [
    "C16_object",
    "C16_total",
    "C16_kinds",
    "C16_zls_refuted",
    "C16_static_refuted"
   ],
   "note": "coff.c as a whole for modules that satisfy module_ok; the reader of Coff_Spec.v decides. -zls with COMDATs, -zld-style suppression of static procedures with line numbers: refuted theorems."
  },
  {
   "property": "C17",
   "status": "proved",
   "theorems": [
    "C17_sections",
    "C17_bss_refuted",
    "C17_readonly_refuted",
    "C17_comdat_refuted",
    "C17_lines_refuted"
   ],
   "note": "The regions and contents of all sections for modules that satisfy module_ok. Refuted: fixups in BSS, READONLY BSS, COMDAT behind ORG, 65536 line numbers."
  },
  {
   "property": "C18",
   "status": "proved",
   "theorems": [
    "C18_crc32",
    "C18_crc32_continues",
    "C18_crc32_detects_change"
   ],
   "note": "Table-driven CRC equals bit-serial CRC-32; continuation; every change within 4 bytes detected."
  },
  {
   "property": "C19",
   "status": "proved",
   "theorems": [
    "C19_symbols",
    "C19_private",
    "C19_relocations",
    "C19_no_symbol_refuted",
    "C19_index_refuted"
   ],
   "note": "Whole module writer of elf.c (32 and 64 bits) read back by an independent reader of ELF relocatable files: symbol table contents and order, sh_info, and every relocation's place, type, addend and target. Refuted: fixup without symbol (NULL dereference), more than 2^24 symbols in ELF32."
  },
  {
   "property": "C20",
   "status": "proved",
   "theorems": [
    "C20_sections",
    "C20_layout",
    "C20_total",
    "C20_name",
    "C20_name_refuted"
   ],
   "note": "Section header table, names, contents and layout of the file for all modules; existence of the file for complete modules. Refuted: CONST$ names of more than 245 characters overflow the buffer. 65280 or more section headers are excluded by module_ok."
  },
  {
   "property": "C21",
   "status": "proved",
   "theorems": [
    "C21_layout",
    "C21_disjoint",
    "C21_flat_file",
    "C21_flat_total",
    "C21_relative",
    "C21_group_refuted",
    "C21_group_org_refuted",
    "C21_seg_abs_refuted"
   ],
   "note": "bin.c CalcOffset, GetImageSize, bin_write_module, DoFixup for plain binaries and MZ: every initialised byte at its place, no overlap, relative fixups. Refuted: groups whose segments aren't contiguous, ORG in a later group member (read outside of the buffer), absolute SEG in a flat binary. PE (pe_*), OPTION FLAT and orgfixup.c are not modelled."
  },
  {
   "property": "C22",
   "status": "proved",
   "theorems": [
    "C22_pointer",
    "C22_mz_file",
    "C22_mz_total",
    "C22_reloc_entry",
    "C22_header_size",
    "C22_bss_refuted",
    "C22_count_refuted",
    "C22_pointer_refuted",
    "C22_seg_label_refuted"
   ],
   "note": "MZ header and relocation table read by an independent reader. Refuted: e_minalloc ignores BSS before initialised data, more than 65535 relocations, FRAME_SEG in unaligned groups, SEG of a label with FRAME_SEG."
  },
  {
   "property": "C23",
   "status": "proved",
   "theorems": [
    "C23_conditional_blocks",
    "C23_open_blocks_detected",
    "C23_if_high_bits_refuted",
    "C23_if2_uninitialised_refuted"
   ],
   "note": ""
  },
  {
   "property": "C24",
   "status": "proved",
   "theorems": [
    "C24_history",
    "C24_count",
    "C24_case",
    "C24_lcreate_over_undefined_refuted"
   ],
   "note": "Simulation of any history of table operations against list scopes; SymLCreate over an undefined local symbol loses chain entries (refuted variant)."
  },
  {
   "property": "C25",
   "status": "proved",
   "theorems": [
    "C25_history",
    "C25_end_restores",
    "C25_rename_second_hangs_refuted",
    "C25_rename_syscall_refuted",
    "C25_disabled_unknown_refuted",
    "C25_end_in_64bit_refuted",
    "C25_renamed_x64_refuted"
   ],
   "note": "Simulation of any history of Find/Rename/Disable/Mode/EndModule against an ordered list of active keywords, and restoration at module end; five defects outside the assumed use are shown by refuted variants."
  },
  {
   "property": "C26",
   "status": "proved",
   "theorems": [
    "C26_reaches",
    "C26_accepted",
    "C26_program",
    "C26_labels",
    "C26_contents",
    "C26_linked_near",
    "C26_linked_far",
    "C26_linked_accepted",
    "C26_group",
    "C26_bnd_extend_refuted",
    "C26_push_cs_refuted",
    "C26_near32_refuted",
    "C26_near16_refuted",
    "C26_distance_refuted",
    "C26_jcc_cast_refuted"
   ],
   "note": "process_branch, jumpExtend, FarCallToNear and the byte writer are modelled; the bytes are executed by an independent decoder. C26_program covers whole segments over any number of passes with arbitrary starting offsets; pass 1 with backpatching is not modelled. Far pointers and relative fields filled by the linker are covered. Six refuted corner cases document misbehaviour of the code."
  },
  {
   "property": "C27",
   "status": "proved",
   "theorems": [
    "C27_condition",
    "C27_plain",
    "C27_flat",
    "C27_program",
    "C27_nesting",
    "C27_whole",
    "C27_and_refuted",
    "C27_not_or_refuted",
    "C27_const_or_refuted",
    "C27_label_refuted",
    "C27_wide_refuted",
    "C27_while_refuted",
    "C27_bare_while_refuted"
   ],
   "note": "The condition translator (GetToken, GetSimpleExpression, InvertJump, ReplaceLabel, GetAndExpression, GetExpression) and the directives .IF/.ELSEIF/.ELSE/.ENDIF, .WHILE/.ENDW, .REPEAT/.UNTIL, .BREAK/.CONTINUE [.IF] are modelled. C27_condition holds for conditions in the decidable class `fine`, which C27_plain and C27_flat show to contain all conditions without constants and negated brackets resp. without brackets; the code is wrong outside of it (refuted theorems). C27_program simulates whole structured programs on a machine with labels and jumps. .FOR, .SWITCH, .UNTILCXZ and SIMD operands are not modelled."
  },
  {
   "property": "C28",
   "status": "proved",
   "theorems": [
    "C28_address",
    "C28_accepted",
    "C28_si_refuted",
    "C28_reg16_refuted",
    "C28_disp64_refuted",
    "C28_rip_index_refuted",
    "C28_rip_symbol_refuted",
    "C28_sym32_refuted",
    "C28_index16_refuted"
   ],
   "note": "First code generator (parser.c, codegen.c), instructions without VEX/EVEX: all operands that satisfy operand_ok, three forms of instructions, checked with a decoder written from the Intel manual; exactly the encodable operands are accepted. The exceptions in operand_ok are refuted theorems."
  },
  {
   "property": "C29",
   "status": "proved",
   "theorems": [
    "C29_align",
    "C29_align_rejects",
    "C29_align_internal",
    "C29_fill",
    "C29_align_no_flat_refuted",
    "C29_align_value_refuted"
   ],
   "note": "Proved for power-of-2 alignments up to 2^30; refuted without a FLAT group (NULL dereference, posndir.c:255) and for constants whose low 32 bits exceed 2^30 or whose upper half is set."
  },
  {
   "property": "C30",
   "status": "proved",
   "theorems": [
    "C30_nested_context_restored",
    "C30_pushcontext",
    "C30_popcontext",
    "C30_bad_word",
    "C30_cpu_symbol",
    "C30_assume_size_refuted",
    "C30_no_word_refuted"
   ],
   "note": "PUSHCONTEXT/POPCONTEXT restore what they saved; the fields total_size and isfar of ASSUME are not restored (refuted variant)."
  },
  {
   "property": "C31",
   "status": "proved",
   "theorems": [
    "C31_blocks_disjoint",
    "C31_block_only_if_needed",
    "C31_fails_only_without_memory",
    "C31_4gb_request_refuted"
   ],
   "note": "Blocks disjoint, 16-aligned, new pool only when needed, failure only without memory; requests of 4 GB and more refuted."
  },
  {
   "property": "C32",
   "status": "proved",
   "theorems": [
    "C32_utf8_to_utf16",
    "C32_utf8_to_utf16_complete",
    "C32_utf8_memory_safe",
    "C32_dw_string_refuted",
    "C32_dw_string_short"
   ],
   "note": "UTF-8 to UTF-16 conversion proved against an independent decoder; the 256-entry buffer in data.c is shown to overflow for longer strings (refuted variant)."
  },
  {
   "property": "C33",
   "status": "proved",
   "theorems": [
    "C33_catstr",
    "C33_substr_sized",
    "C33_substr_rest",
    "C33_substr_shape",
    "C33_sizestr",
    "C33_instr",
    "C33_instr_empty",
    "C33_instr_shape",
    "C33_catstr_func",
    "C33_substr_func",
    "C33_instr_func",
    "C33_instr_func_empty",
    "C33_instr_func_bad",
    "C33_sizestr_func",
    "C33_substr_overflow_refuted",
    "C33_substr_wide_refuted"
   ],
   "note": "All argument lists; positions and sizes that fit an int. Overflow of the bound check and dropped upper halves are refuted variants."
  },
  {
   "property": "C34",
   "status": "proved",
   "theorems": [
    "C34_decoration",
    "C34_distinct",
    "C34_across_forms_refuted",
    "C34_vectorcall_none_refuted"
   ],
   "note": "All decoration styles against an independent description, and injectivity per form; clashes across forms and the undecorated VECTORCALL form are refuted."
  },
  {
   "property": "C35",
   "status": "proved",
   "theorems": [
    "C35_ltoa_reads_back",
    "C35_line_queue_q",
    "C35_line_queue_d",
    "C35_num2hex64",
    "C35_sign_of_zero_refuted",
    "C35_no_zero_prefix_refuted"
   ],
   "note": ""
  },
  {
   "property": "C36",
   "status": "proved",
   "theorems": [
    "C36_queues_fifo",
    "C36_publics_filtered",
    "C36_stale_tail_refuted",
    "C36_symbol_lists",
    "C36_line_queue",
    "C36_lines_exactly_once",
    "C36_line_numbers",
    "C36_delete_line_queue"
   ],
   "note": ""
  },
  {
   "property": "C37",
   "status": "proved",
   "theorems": [
    "C37_publics",
    "C37_mixed_comdat_refuted"
   ],
   "note": "All queues where COMDAT publics precede the others; the other order is refuted (buffer overwritten)."
  },
  {
   "property": "C38",
   "status": "proved",
   "theorems": [
    "C38_sorted",
    "C38_unique",
    "C38_orders",
    "C38_strcmp"
   ],
   "note": "SortSegments: stable sort, unique result, all three comparison keys. SymTables[TAB_SEG].tail isn't maintained by the code (not used afterwards) and not modelled."
  },
  {
   "property": "C39",
   "status": "proved",
   "theorems": [
    "C39_decodes",
    "C39_plain",
    "C39_mandatory",
    "C39_prefix",
    "C39_fixup",
    "C39_aso_refuted",
    "C39_a16_refuted",
    "C39_mpsadbw_refuted",
    "C39_qword_refuted",
    "C39_constant_refuted",
    "C39_index_refuted",
    "C39_bounds_refuted",
    "C39_segment_refuted"
   ],
   "note": "Every row of H/InstrTableV2.h without VEX/EVEX, decoded by an independent reader of the manual's encoding tables (V2_Spec.v). 32- and 64-bit code (the generator is not used in 16-bit code). Side conditions in written_ok each stand for a refuted case or a refusal before code generation."
  },
  {
   "property": "C40",
   "status": "proved",
   "theorems": [
    "C40_decodes",
    "C40_gather_refuted",
    "C40_vector_first_refuted"
   ],
   "note": "Every VEX row. Refuted: gather with mask register 8-15, vector register written first."
  },
  {
   "property": "C41",
   "status": "proved",
   "theorems": [
    "C41_decodes",
    "C41_disp_refuted",
    "C41_disp32_refuted",
    "C41_scale_refuted",
    "C41_dup_refuted",
    "C41_label_refuted",
    "C41_zero_refuted",
    "C41_rounding_refuted",
    "C41_length_refuted"
   ],
   "note": "Every EVEX row with all decorations. Refuted: displacement and decoration cases listed as findings."
  },
  {
   "property": "C42",
   "status": "proved",
   "theorems": [
    "C42_lookup",
    "C42_choice",
    "C42_types",
    "C42_byte",
    "C42_assembled",
    "C42_accepted"
   ],
   "note": "Lookup for any hash function, row precedence, demotion of operand types, byte constants, acceptance of every encodable operand list."
  },
  {
   "property": "C43",
   "status": "proved",
   "theorems": [
    "C43_decodes",
    "C43_accepted",
    "C43_refused",
    "C43_unwinds",
    "C43_table",
    "C43_written",
    "C43_savereg_limit_refuted",
    "C43_far_refuted",
    "C43_wide_refuted",
    "C43_xmm16_refuted",
    "C43_setframe_rax_refuted",
    "C43_xdata_used_refuted"
   ],
   "note": "Directives, .xdata and .pdata of FRAME procedures, read by an independent reader of the unwind format, and the unwinder run on a machine for every interruption point. Machine frames (.PUSHFRAME) are decoded but not run; epilogues, forward references in operands and chained information are not modelled. Refuted: far offsets, 64-bit offsets, xmm16-31, .SETFRAME rax, .xdata with contents."
  },
  {
   "property": "C44",
   "status": "proved",
   "theorems": [
    "C44_returns",
    "C44_enters",
    "C44_locals",
    "C44_aligned",
    "C44_reserved",
    "C44_exists",
    "C44_unwinds",
    "C44_same",
    "C44_zmm_refuted",
    "C44_noauto_refuted",
    "C44_volatile_refuted"
   ],
   "note": "Prologue, epilogue and layout run on a machine with general and vector registers; the unwinding part is joined with C43. Not modelled: RSP as frame register, the 16/32-bit and non-FRAME frames, register parameters of __vectorcall and System V, locals above 2 GB. Refuted: zmm registers, FRAME without FRAME:AUTO, volatile registers in USES."
  },
  {
   "property": "C45",
   "status": "proved",
   "theorems": [
    "C45_expands",
    "C45_long",
    "C45_plain",
    "C45_locals",
    "C45_quote_refuted",
    "C45_amp_refuted",
    "C45_loop_refuted",
    "C45_exclamation_refuted",
    "C45_count_refuted",
    "C45_grows_refuted",
    "C45_overflow_refuted"
   ],
   "note": "Exact for names whose number is harmless (at most 32 names always are) and lines up to 255 characters not ending in '!'; C45_long is for longer lines. Not modelled: the parsing of macro definitions, the evaluation of arguments, nested macro definitions, line continuation. Refuted: one-character names from number 33 on, number 38 next to &, '!' at the end, 256 names in a line, buffer limits."
  },
  {
   "property": "C46",
   "status": "proved",
   "theorems": [
    "C46_enters",
    "C46_returns",
    "C46_locals",
    "C46_params",
    "C46_invoke",
    "C46_balanced",
    "C46_accepted",
    "C46_fastcall_refuted",
    "C46_rsp_refuted",
    "C46_empty_local_refuted",
    "C46_loadds_refuted",
    "C46_loadds_ax_refuted",
    "C46_espbase_refuted",
    "C46_flags_refuted",
    "C46_count_refuted"
   ],
   "note": "Prologue and epilogue run on a machine with byte memory; offsets are final after any number of passes. FASTCALL is Microsoft's. Not modelled: Watcom and Delphi register conventions, user-defined prologues, the code that loads register arguments, locals of zero or negative size (refuted). Refuted: RET of FASTCALL with parameters that do not fit registers, SUB RSP in 32-bit code, empty locals, LOADDS (three ways), ESP as base with LOADDS or 16-bit USES, FRAMEFLAGS in 16-bit code, negative counts."
  },
  {
   "property": "C47",
   "status": "proved",
   "theorems": [
    "C47_dispatch",
    "C47_switch",
    "C47_accepts",
    "C47_body_asm",
    "C47_body_c",
    "C47_sorted",
    "C47_labels",
    "C47_last_entry_refuted",
    "C47_gap_refuted",
    "C47_overflow_refuted",
    "C47_upper_half_refuted",
    "C47_wide_refuted",
    "C47_radix_refuted",
    "C47_line_refuted",
    "C47_fallthrough_refuted",
    "C47_last_case_refuted",
    "C47_no_cases_refuted",
    "C47_many_labels_refuted"
   ],
   "note": "Directives are compiled, .ENDSWITCH writes instructions and the tables line by line, and these are executed on a machine with registers, stack and flags; proved for all lists of cases and all values. Conditions [plain] and [fits] exclude exactly what is refuted: no cases, values beyond 32 bits, tables whose lines go wrong (multiples of 75), .RADIX, overflow of the span. Not modelled: loading the value into EAX (RAX), passes before the last, 16-bit code."
  },
  {
   "property": "C48",
   "status": "proved",
   "theorems": [
    "C48_order",
    "C48_layout",
    "C48_segments",
    "C48_table",
    "C48_sections",
    "C48_sizes",
    "C48_flags",
    "C48_relocs",
    "C48_loaded",
    "C48_entry",
    "C48_padding_refuted",
    "C48_page_refuted",
    "C48_empty_refuted",
    "C48_no_relocs_refuted",
    "C48_stack_refuted",
    "C48_reserved_refuted"
   ],
   "note": "The layout, the table, the sizes, the relocations and the file are characterised against an independent layout and a loader, for all lists of segments meeting [regular] (header first, alignment of segments behind the first of a section at most the file alignment, last segment of a section not empty, start_loc 0, total below 2^30). For loading, SizeOfRawData must also cover the padding ([roomy]) and segments have contents. What happens otherwise is refuted: padding, page alignment, empty last segment, empty .reloc, STACK segments, reserved data at the end. Not modelled: the bytes of the headers, import and export tables, the values stored by DoFixup."
  },
  {
   "property": "C49",
   "status": "proved",
   "theorems": [
    "C49_assume",
    "C49_accepts",
    "C49_symbol",
    "C49_override",
    "C49_explicit",
    "C49_error",
    "C49_stack",
    "C49_free",
    "C49_lea",
    "C49_flat_refuted"
   ],
   "note": "Proved for all tables made by ASSUME and all 16-bit and 32-bit forms, against the processor's rule for segment registers; the choice among registers is pinned. With FLAT assumed for the usual register the label must be in FLAT (otherwise refuted). Not modelled: string instructions, the address size prefix, 64-bit code, general registers in ASSUME."
  },
  {
   "property": "C50",
   "status": "proved",
   "theorems": [
    "C50_repeat",
    "C50_while",
    "C50_forc",
    "C50_forc_text",
    "C50_for",
    "C50_for_comma",
    "C50_for_required",
    "C50_while_refuted",
    "C50_repeat_refuted",
    "C50_forc_refuted",
    "C50_for_refuted"
   ],
   "note": "Proved for all bodies, texts and 32-bit values; counts and conditions above 32 bits and a final '!' are refuted, as is that white space does not matter to FOR. Not modelled: arguments of FOR with %, {}, <> or macro functions, reading of the lines, empty loops."
  }
 ]
}