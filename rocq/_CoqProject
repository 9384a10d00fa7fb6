-Q theories Verif
theories/Align_Model.v
theories/Align_Proofs.v
theories/Align_Props.v
theories/Align_Spec.v
theories/Alloc_Model.v
theories/Alloc_Proofs.v
theories/Alloc_Props.v
theories/Alloc_Spec.v
theories/Assume_Model.v
theories/Assume_Proofs.v
theories/Assume_Props.v
theories/Assume_Spec.v
theories/Base.v
theories/BinAll_Proofs.v
theories/BinFile_Proofs.v
theories/BinFix_Proofs.v
theories/BinHdr_Proofs.v
theories/BinMzFile_Proofs.v
theories/BinMz_Proofs.v
theories/BinTop_Proofs.v
theories/BinTotal_Proofs.v
theories/Bin_Model.v
theories/Bin_Proofs.v
theories/Bin_Props.v
theories/Bin_Spec.v
theories/BranchLink_Proofs.v
theories/BranchPass_Proofs.v
theories/Branch_Model.v
theories/Branch_Proofs.v
theories/Branch_Props.v
theories/Branch_Spec.v
theories/CoffEnt_Proofs.v
theories/CoffHead_Proofs.v
theories/CoffIdx_Proofs.v
theories/CoffLine_Proofs.v
theories/CoffPub_Proofs.v
theories/CoffRel_Proofs.v
theories/CoffSec_Proofs.v
theories/CoffStr_Proofs.v
theories/CoffSym_Proofs.v
theories/CoffTab_Proofs.v
theories/CoffTop_Proofs.v
theories/CoffTotal_Proofs.v
theories/Coff_Model.v
theories/Coff_Props.v
theories/Coff_Spec.v
theories/CondAsm_Model.v
theories/CondAsm_Proofs.v
theories/CondAsm_Props.v
theories/CondAsm_Spec.v
theories/Context_Model.v
theories/Context_Proofs.v
theories/Context_Props.v
theories/Context_Spec.v
theories/Crc_Model.v
theories/Crc_Proofs.v
theories/Crc_Props.v
theories/Crc_Spec.v
theories/DataList_Proofs.v
theories/Data_Model.v
theories/Data_Proofs.v
theories/Data_Props.v
theories/Data_Spec.v
theories/ElfEnt_Proofs.v
theories/ElfFile_Proofs.v
theories/ElfLay_Proofs.v
theories/ElfObj_Proofs.v
theories/ElfRead_Proofs.v
theories/ElfRel_Proofs.v
theories/ElfSym_Proofs.v
theories/ElfTop_Proofs.v
theories/ElfTotal_Proofs.v
theories/Elf_Model.v
theories/Elf_Proofs.v
theories/Elf_Props.v
theories/Elf_Spec.v
theories/ExprParse_Proofs.v
theories/ExprRun_Spec.v
theories/Expr_Model.v
theories/Expr_Proofs.v
theories/Expr_Props.v
theories/Expr_Spec.v
theories/FrameRun_Proofs.v
theories/FrameUnw_Proofs.v
theories/Frame_Model.v
theories/Frame_Proofs.v
theories/Frame_Props.v
theories/Frame_Spec.v
theories/HllDir_Model.v
theories/HllDir_Proofs.v
theories/HllDir_Spec.v
theories/HllNest_Proofs.v
theories/HllPlain_Proofs.v
theories/HllRead_Proofs.v
theories/HllRun_Proofs.v
theories/HllTok_Proofs.v
theories/Hll_Model.v
theories/Hll_Proofs.v
theories/Hll_Props.v
theories/Hll_Spec.v
theories/Loop_Model.v
theories/Loop_Proofs.v
theories/Loop_Props.v
theories/Loop_Spec.v
theories/Macro_Model.v
theories/Macro_Proofs.v
theories/Macro_Props.v
theories/Macro_Spec.v
theories/MangleStyle_Spec.v
theories/Mangle_Model.v
theories/Mangle_Proofs.v
theories/Mangle_Props.v
theories/Mangle_Spec.v
theories/Mem_Model.v
theories/Mem_Proofs.v
theories/Mem_Props.v
theories/Mem_Spec.v
theories/NumLit_Model.v
theories/NumLit_Proofs.v
theories/NumLit_Props.v
theories/NumLit_Spec.v
theories/OmfComdef_Proofs.v
theories/OmfDataRun_Proofs.v
theories/OmfData_Model.v
theories/OmfData_Proofs.v
theories/OmfData_Props.v
theories/OmfData_Spec.v
theories/OmfExtdef_Proofs.v
theories/OmfFix_Model.v
theories/OmfFix_Proofs.v
theories/OmfFix_Props.v
theories/OmfFix_Spec.v
theories/OmfNames_Model.v
theories/OmfNames_Proofs.v
theories/OmfNames_Props.v
theories/OmfNames_Spec.v
theories/OmfPubdef_Proofs.v
theories/OmfRec_Model.v
theories/OmfRec_Proofs.v
theories/OmfRec_Props.v
theories/OmfRec_Spec.v
theories/PeAll_Proofs.v
theories/PeImage_Proofs.v
theories/PeLoad_Proofs.v
theories/PeMore_Proofs.v
theories/PePlace_Proofs.v
theories/PeReloc_Proofs.v
theories/PeTable_Proofs.v
theories/PeWhole_Proofs.v
theories/Pe_Model.v
theories/Pe_Props.v
theories/Pe_Spec.v
theories/Queue_Model.v
theories/Queue_Proofs.v
theories/Queue_Props.v
theories/Queue_Spec.v
theories/RecordInit_Proofs.v
theories/RecordRun_Spec.v
theories/Record_Model.v
theories/Record_Proofs.v
theories/Record_Props.v
theories/Record_Spec.v
theories/ResWordsOps_Proofs.v
theories/ResWordsRun_Spec.v
theories/ResWordsSim_Proofs.v
theories/ResWords_Model.v
theories/ResWords_Proofs.v
theories/ResWords_Props.v
theories/ResWords_Spec.v
theories/Sort_Model.v
theories/Sort_Proofs.v
theories/Sort_Props.v
theories/Sort_Spec.v
theories/StkRet_Proofs.v
theories/StkRun_Proofs.v
theories/Stk_Model.v
theories/Stk_Proofs.v
theories/Stk_Props.v
theories/Stk_Spec.v
theories/StructNames_Proofs.v
theories/StructRun_Spec.v
theories/StructUse_Proofs.v
theories/Struct_Model.v
theories/Struct_Proofs.v
theories/Struct_Props.v
theories/Struct_Spec.v
theories/SwAll_Proofs.v
theories/SwBody_Proofs.v
theories/SwFind_Proofs.v
theories/SwGen_Proofs.v
theories/SwLab_Proofs.v
theories/SwRun_Proofs.v
theories/SwSort_Proofs.v
theories/SwTab_Proofs.v
theories/Switch_Model.v
theories/Switch_Props.v
theories/Switch_Spec.v
theories/SymTabOps_Proofs.v
theories/SymTabRun_Spec.v
theories/SymTab_Model.v
theories/SymTab_Proofs.v
theories/SymTab_Props.v
theories/SymTab_Spec.v
theories/TextDirRun_Spec.v
theories/TextDir_Model.v
theories/TextDir_Proofs.v
theories/TextDir_Props.v
theories/TextDir_Spec.v
theories/UnwindRun_Proofs.v
theories/Unwind_Model.v
theories/Unwind_Proofs.v
theories/Unwind_Props.v
theories/Unwind_Spec.v
theories/Utf_Model.v
theories/Utf_Proofs.v
theories/Utf_Props.v
theories/Utf_Spec.v
theories/V2Acc_Proofs.v
theories/V2Asm_Proofs.v
theories/V2Bits_Proofs.v
theories/V2Gen_Proofs.v
theories/V2Hd_Proofs.v
theories/V2Head_Proofs.v
theories/V2Mem_Proofs.v
theories/V2Ref_Proofs.v
theories/V2Row_Proofs.v
theories/V2Sel_Proofs.v
theories/V2Type_Proofs.v
theories/V2_Model.v
theories/V2_Props.v
theories/V2_Spec.v
theories/V2_Table.v
