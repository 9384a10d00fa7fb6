(** Model of context.c: PUSHCONTEXT and POPCONTEXT, with the parts of
    assume.c that save and restore the register assumptions.
    The context stack is a list; the heap of free items is left out
    (an item taken from it has indeterminate contents, see [tinfo_slot]). *)
From Verif Require Import Base.
From Coq Require Import String Ascii.

Definition str (s : string) : list Z := map (fun a => Z.of_nat (nat_of_ascii a)) (list_ascii_of_string s).

(** context.c:30-37 enum context_type *)
Definition CONT_ASSUMES := 0x01.
Definition CONT_RADIX := 0x02.
Definition CONT_LISTING := 0x04.
Definition CONT_CPU := 0x08.
Definition CONT_ALIGNMENT := 0x10.
Definition CONT_ALL := Z.lor (Z.lor (Z.lor CONT_ASSUMES CONT_RADIX) CONT_LISTING) CONT_CPU.
(** context.c:39-45 typetab[], contextnames[] *)
Definition typetab : list Z := [CONT_ASSUMES; CONT_RADIX; CONT_LISTING; CONT_CPU; CONT_ALIGNMENT; CONT_ALL].
Definition contextnames : list (list Z) :=
  [str "ASSUMES"; str "RADIX"; str "LISTING"; str "CPU"; str "ALIGNMENT"; str "ALL"].

(** H/assume.h:43-48 struct assume_info; pointers are numbers *)
Record assume_info := { symbol : option Z; a_error : Z; is_flat : bool }.
(** the fields of a type symbol written by ASSUME (assume.c:371-381) *)
Record type_sym := { t_type : Z; t_target_type : Z; t_mem_type : Z; t_ptr_memtype : Z; t_is_ptr : Z;
                     t_total_size : Z; t_isfar : bool; t_Ofssize : Z }.
(** H/assume.h:51-57 struct stdassume_typeinfo *)
Record typeinfo := { i_type : Z; i_target_type : Z; i_mem_type : Z; i_ptr_memtype : Z; i_is_ptr : Z }.
(** an element of type_content[]; None = not written since it was allocated *)
Definition tinfo_slot := option typeinfo.

(** context.c:56-84: one item of the stack *)
Inductive item :=
  | C_assumes (seg std : list assume_info) (content : list tinfo_slot)
  | C_radix (r : Z)
  | C_alignment (fieldalign procalign : Z)
  | C_listing (list_macro : Z) (list cref listif list_generated_code : bool)
  | C_cpu (cpu curr_cpu : Z).
Definition itype (i : item) : Z :=
  match i with
  | C_assumes _ _ _ => CONT_ASSUMES | C_radix _ => CONT_RADIX | C_alignment _ _ => CONT_ALIGNMENT
  | C_listing _ _ _ _ _ => CONT_LISTING | C_cpu _ _ => CONT_CPU
  end.

(** ModuleInfo (globals.h:788-819), SegAssumeTable, StdAssumeTable
    (assume.c:59-67), the type symbols, sym_Cpu->value *)
Record cst := {
  SegAssumeTable : list assume_info; StdAssumeTable : list assume_info; syms : Z -> type_sym;
  radix : Z; fieldalign : Z; procalign : Z;
  list_macro : Z; m_list : bool; cref : bool; listif : bool; list_generated_code : bool;
  cpu : Z; curr_cpu : Z; sym_Cpu : option Z;
  ContextStack : list item }.

Definition with_stack (s : cst) (st : list item) : cst :=
  {| SegAssumeTable := SegAssumeTable s; StdAssumeTable := StdAssumeTable s; syms := syms s;
     radix := radix s; fieldalign := fieldalign s; procalign := procalign s;
     list_macro := list_macro s; m_list := m_list s; cref := cref s; listif := listif s;
     list_generated_code := list_generated_code s; cpu := cpu s; curr_cpu := curr_cpu s;
     sym_Cpu := sym_Cpu s; ContextStack := st |}.
Definition with_assumes (s : cst) (seg std : list assume_info) (h : Z -> type_sym) : cst :=
  {| SegAssumeTable := seg; StdAssumeTable := std; syms := h;
     radix := radix s; fieldalign := fieldalign s; procalign := procalign s;
     list_macro := list_macro s; m_list := m_list s; cref := cref s; listif := listif s;
     list_generated_code := list_generated_code s; cpu := cpu s; curr_cpu := curr_cpu s;
     sym_Cpu := sym_Cpu s; ContextStack := ContextStack s |}.

(** assume.c:125-140 GetStdAssumeTable *)
Definition get_typeinfo (h : Z -> type_sym) (a : assume_info) : tinfo_slot :=
  match symbol a with
  | Some p => Some {| i_type := t_type (h p); i_target_type := t_target_type (h p); i_mem_type := t_mem_type (h p);
                      i_ptr_memtype := t_ptr_memtype (h p); i_is_ptr := t_is_ptr (h p) |}
  | None => None
  end.
Definition GetStdAssumeTable (s : cst) : list assume_info * list tinfo_slot :=
  (StdAssumeTable s, map (get_typeinfo (syms s)) (StdAssumeTable s)).

(** assume.c:114-122: the loop of SetStdAssumeTable *)
Definition set_typeinfo (h : Z -> type_sym) (p : Z) (t : typeinfo) : Z -> type_sym :=
  fun q => if q =? p then
    {| t_type := i_type t; t_target_type := i_target_type t; t_mem_type := i_mem_type t;
       t_ptr_memtype := i_ptr_memtype t; t_is_ptr := i_is_ptr t;
       t_total_size := t_total_size (h q); t_isfar := t_isfar (h q); t_Ofssize := t_Ofssize (h q) |}
    else h q.
Fixpoint set_typeinfos (h : Z -> type_sym) (std : list assume_info) (content : list tinfo_slot) : res (Z -> type_sym) :=
  match std, content with
  | [], _ => Ok h
  | a :: std, c :: content =>
      match symbol a with
      | Some p => match c with
                  | Some t => set_typeinfos (set_typeinfo h p t) std content
                  | None => UB
                  end
      | None => set_typeinfos h std content
      end
  | _ :: _, [] => UB
  end.
(** assume.c:87-92, 107-123 SetSegAssumeTable, SetStdAssumeTable *)
Definition SetAssumeTables (s : cst) (seg std : list assume_info) (content : list tinfo_slot) : res cst :=
  bindr (set_typeinfos (syms s) std content) (fun h => Ok (with_assumes s seg std h)).

(** context.c:219-245: fill an item *)
Definition save_item (s : cst) (type : Z) : option item :=
  if type =? CONT_ASSUMES then let '(std, c) := GetStdAssumeTable s in Some (C_assumes (SegAssumeTable s) std c)
  else if type =? CONT_RADIX then Some (C_radix (radix s))
  else if type =? CONT_ALIGNMENT then Some (C_alignment (fieldalign s) (procalign s))
  else if type =? CONT_LISTING then
    Some (C_listing (list_macro s) (m_list s) (cref s) (listif s) (list_generated_code s))
  else if type =? CONT_CPU then Some (C_cpu (cpu s) (curr_cpu s))
  else None.

(** context.c:161-187: restore the values *)
Definition restore_item (s : cst) (i : item) : res cst :=
  match i with
  | C_assumes seg std c => SetAssumeTables s seg std c
  | C_radix r => Ok
    {| SegAssumeTable := SegAssumeTable s; StdAssumeTable := StdAssumeTable s; syms := syms s;
       radix := r; fieldalign := fieldalign s; procalign := procalign s;
       list_macro := list_macro s; m_list := m_list s; cref := cref s; listif := listif s;
       list_generated_code := list_generated_code s; cpu := cpu s; curr_cpu := curr_cpu s;
       sym_Cpu := sym_Cpu s; ContextStack := ContextStack s |}
  | C_alignment f p => Ok
    {| SegAssumeTable := SegAssumeTable s; StdAssumeTable := StdAssumeTable s; syms := syms s;
       radix := radix s; fieldalign := f; procalign := p;
       list_macro := list_macro s; m_list := m_list s; cref := cref s; listif := listif s;
       list_generated_code := list_generated_code s; cpu := cpu s; curr_cpu := curr_cpu s;
       sym_Cpu := sym_Cpu s; ContextStack := ContextStack s |}
  | C_listing lm l c li lg => Ok
    {| SegAssumeTable := SegAssumeTable s; StdAssumeTable := StdAssumeTable s; syms := syms s;
       radix := radix s; fieldalign := fieldalign s; procalign := procalign s;
       list_macro := lm; m_list := l; cref := c; listif := li;
       list_generated_code := lg; cpu := cpu s; curr_cpu := curr_cpu s;
       sym_Cpu := sym_Cpu s; ContextStack := ContextStack s |}
  | C_cpu c cc => Ok
    {| SegAssumeTable := SegAssumeTable s; StdAssumeTable := StdAssumeTable s; syms := syms s;
       radix := radix s; fieldalign := fieldalign s; procalign := procalign s;
       list_macro := list_macro s; m_list := m_list s; cref := cref s; listif := listif s;
       list_generated_code := list_generated_code s; cpu := c; curr_cpu := cc;
       sym_Cpu := match sym_Cpu s with Some _ => Some c | None => None end;
       ContextStack := ContextStack s |}
  end.

(** context.c:140-188: the loop of POPCONTEXT over the stack; result: what
    stays on the stack, the types not found, the new state *)
Fixpoint pop_loop (stack : list item) (type : Z) (s : cst) : res (list item * Z * cst) :=
  match stack with
  | [] => Ok ([], type, s)
  | curr :: next =>
      if type =? 0 then Ok (stack, type, s)
      else if Z.land (itype curr) type =? 0 then
        bindr (pop_loop next type s) (fun '(st, t, s) => Ok (curr :: st, t, s))
      else
        bindr (restore_item s curr) (fun s => pop_loop next (Z.land type (Z.lnot (itype curr))) s)
  end.
(** context.c:133-193; true = error *)
Definition pop_context (type : Z) (s : cst) : res (bool * cst) :=
  bindr (pop_loop (ContextStack s) type s) (fun '(st, t, s) => Ok (negb (t =? 0), with_stack s st)).

(** context.c:196-247: PUSHCONTEXT; an unknown type of item cannot occur *)
Fixpoint push_loop (tab : list Z) (type : Z) (s : cst) : res cst :=
  match tab with
  | [] => Ok s
  | t :: tab =>
      if type =? 0 then Ok s
      else if Z.land type t =? 0 then push_loop tab type s
      else match save_item s t with
           | Some i => push_loop tab (Z.land type (Z.lnot t)) (with_stack s (i :: ContextStack s))
           | None => UB
           end
  end.
Definition push_context (type : Z) (s : cst) : res (bool * cst) :=
  bindr (push_loop typetab type s) (fun s => Ok (false, s)).

(** tokens behind the directive up to T_FINAL *)
Inductive tok := T_ID (name : list Z) | T_COMMA | T_OTHER.

Definition tolower (c : Z) : Z := if (65 <=? c) && (c <=? 90) then c + 32 else c.
Definition str_eqb (a b : list Z) : bool := if list_eq_dec Z.eq_dec a b then true else false.
Definition stricmp_eq (a b : list Z) : bool := str_eqb (map tolower a) (map tolower b).

(** context.c:116-124: search the name *)
Fixpoint find_type (names : list (list Z)) (types : list Z) (name : list Z) : option Z :=
  match names, types with
  | n :: names, t :: types => if stricmp_eq n name then Some t else find_type names types name
  | _, _ => None
  end.

(** context.c:115-259; [first] = no word seen yet: the variable [type] is
    then read uninitialised at the end *)
Fixpoint context_loop (pop strict first : bool) (toks : list tok) (s : cst) {struct toks} : res (bool * cst) :=
  match toks with
  | [] => if first then UB else Ok (false, s)
  | T_ID name :: rest =>
      match find_type contextnames typetab name with
      | None => Ok (true, s)
      | Some type =>
          if strict && (type =? CONT_ALIGNMENT) then Ok (true, s)
          else
            let type := if strict then Z.land type (Z.lnot CONT_ALIGNMENT) else type in
            bindr (if pop then pop_context type s else push_context type s) (fun '(e, s) =>
              if e then Ok (true, s)
              else match rest with
                   | T_COMMA :: ((_ :: _) as r) => context_loop pop strict false r s
                   | _ => context_loop pop strict false rest s
                   end)
      end
  | _ => Ok (true, s)
  end.
(** context.c:105-260 ContextDirective *)
Definition ContextDirective (pop strict : bool) (toks : list tok) (s : cst) : res (bool * cst) :=
  context_loop pop strict true toks s.
