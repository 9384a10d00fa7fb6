(** Model of condasm.c (conditional assembly), of the place in tokenize.c
    where it is entered, and of RunMacro/SkipMacro's treatment of EXITM. *)
From Verif Require Import Base.

(** H/condasm.h enum if_state *)
Inductive if_state := BLOCK_ACTIVE | BLOCK_INACTIVE | BLOCK_DONE.
Definition is_active (x : if_state) : bool := match x with BLOCK_ACTIVE => true | _ => false end.

(** globals.h:74 *)
Definition MAX_IF_NESTING : Z := 20.

(** condasm.c:66-69 the static variables; [errs] counts EmitError/EmitErr calls
    made by conditional_assembly_prepare *)
Record cst := mkcst { ifst : if_state; lvl : Z; flvl : Z; elseocc : Z; errs : Z }.

(** condasm.c:671-677 CondInit; [elseoccured] is not reset, so it is a parameter *)
Definition CondInit (e : Z) : cst := mkcst BLOCK_ACTIVE 0 0 e 0.

Section WithAssembler.
(** The rest of the assembler: [S] its state, [X] ordinary lines, [E] numeric
    expressions, [N] IFDEF arguments.  [evalexp] is EvalOperand on an IF/IFE
    argument ([None]: an error was reported), which may change the state. *)
Variables S X E N : Type.
Variable exec : X -> S -> S.
Variable evalexp : E -> S -> option Z * S.
Variable defined : N -> S -> bool.
Variable setif2 : S -> bool.

(** operands of the IFx / ELSEIFx directives *)
Inductive cnd :=
| CIf (e : E) | CIfe (e : E) | CIf1 | CIf2
| CIfb (s : list Z) | CIfnb (s : list Z)
| CIfdef (n : N) | CIfndef (n : N)
| CIfdif (a b : list Z) | CIfdifi (a b : list Z)
| CIfidn (a b : list Z) | CIfidni (a b : list Z).

Inductive dir := DIf (c : cnd) | DElseif (c : cnd) | DElse | DEndif.

(** condasm.c:89-163 conditional_assembly_prepare *)
Definition prepare (d : dir) (st : cst) : cst :=
  match d with
  | DIf _ =>
      if negb (is_active (ifst st)) then
        mkcst (ifst st) (lvl st) (flvl st + 1) (elseocc st) (errs st)
      else if lvl st =? MAX_IF_NESTING then
        mkcst (ifst st) (lvl st) (flvl st) (elseocc st) (errs st + 1)
      else mkcst (ifst st) (lvl st + 1) (flvl st)
                 (Z.ldiff (elseocc st) (Z.shiftl 1 (lvl st))) (errs st)
  | DElseif _ | DElse =>
      if negb (lvl st =? 0) then
        if flvl st >? 0 then st
        else if negb (Z.land (elseocc st) (Z.shiftl 1 (lvl st - 1)) =? 0) then
          mkcst (ifst st) (lvl st) (flvl st) (elseocc st) (errs st + 1)
        else
          mkcst (match ifst st with BLOCK_INACTIVE => BLOCK_ACTIVE | _ => BLOCK_DONE end)
                (lvl st) (flvl st)
                (match d with DElse => Z.lor (elseocc st) (Z.shiftl 1 (lvl st - 1))
                            | _ => elseocc st end)
                (errs st)
      else mkcst (ifst st) (lvl st) (flvl st) (elseocc st) (errs st + 1)
  | DEndif =>
      if negb (lvl st =? 0) then
        if flvl st >? 0 then
          mkcst (ifst st) (lvl st) (flvl st - 1) (elseocc st) (errs st)
        else mkcst BLOCK_ACTIVE (lvl st - 1) (flvl st) (elseocc st) (errs st)
      else mkcst (ifst st) (lvl st) (flvl st) (elseocc st) (errs st + 1)
  end.

(** C isspace in the "C" locale *)
Definition isspace (c : Z) : bool := ((9 <=? c) && (c <=? 13)) || (c =? 32).
(** C tolower in the "C" locale *)
Definition tolower (c : Z) : Z := if (65 <=? c) && (c <=? 90) then c + 32 else c.

(** condasm.c:190-197 check_blank *)
Fixpoint check_blank (s : list Z) : bool :=
  match s with
  | [] => true
  | c :: r => if isspace c then check_blank r else false
  end.

(** strcmp(...) != 0 and _stricmp(...) != 0 (strings without the final NUL) *)
Fixpoint strdiff (f : Z -> Z) (a b : list Z) : bool :=
  match a, b with
  | [], [] => false
  | x :: a', y :: b' => if f x =? f y then strdiff f a' b' else true
  | _, _ => true
  end.
(** condasm.c:203-217 check_dif *)
Definition check_dif (a b : list Z) (sensitive : bool) : bool :=
  if sensitive then strdiff (fun c => c) a b else strdiff tolower a b.

Definition st_of (b : bool) : if_state := if b then BLOCK_ACTIVE else BLOCK_INACTIVE.

(** condasm.c:219-410 CondAsmDirective, the switch that computes NextIfState.
    [opndx.value] is an int_32 (expreval.h), the low half of the value.
    IF2 without "OPTION SETIF2" leaves NextIfState uninitialised (346-349). *)
Definition next_state (c : cnd) (s : S) : res (if_state * S) :=
  match c with
  | CIf e => match evalexp e s with
             | (None, s') => Ok (BLOCK_INACTIVE, s')
             | (Some v, s') => Ok (st_of (negb (swrap 32 v =? 0)), s') end
  | CIfe e => match evalexp e s with
             | (None, s') => Ok (BLOCK_ACTIVE, s')
             | (Some v, s') => Ok (st_of (swrap 32 v =? 0), s') end
  | CIf1 => Ok (BLOCK_ACTIVE, s)
  | CIf2 => if setif2 s then Ok (BLOCK_ACTIVE, s) else UB
  | CIfb t => Ok (st_of (check_blank t), s)
  | CIfnb t => Ok (st_of (negb (check_blank t)), s)
  | CIfdef n => Ok (st_of (defined n s), s)
  | CIfndef n => Ok (match st_of (defined n s) with
                     | BLOCK_ACTIVE => BLOCK_INACTIVE | _ => BLOCK_ACTIVE end, s)
  | CIfdif a b => Ok (st_of (check_dif a b true), s)
  | CIfdifi a b => Ok (st_of (check_dif a b false), s)
  | CIfidn a b => Ok (st_of (negb (check_dif a b true)), s)
  | CIfidni a b => Ok (st_of (negb (check_dif a b false)), s)
  end.

Definition set_ifst (st : cst) (x : if_state) : cst :=
  mkcst x (lvl st) (flvl st) (elseocc st) (errs st).

(** condasm.c:219-414 CondAsmDirective *)
Definition CondAsmDirective (d : dir) (st : cst) (s : S) : res (cst * S) :=
  if negb (is_active (ifst st)) then Ok (st, s)
  else match d with
       | DIf c | DElseif c => bindr (next_state c s) (fun r => Ok (set_ifst st (fst r), snd r))
       | DElse | DEndif => Ok (set_ifst st BLOCK_ACTIVE, s)
       end.

(** Source lines; a macro invocation carries the (expanded) macro body *)
Inductive line := LOrd (x : X) | LDir (d : dir) | LExitm | LMacro (body : list line).

(** expans.c:147-158 SkipMacro: the remaining lines are only tokenized
    (tokenize.c:1441-1459: prepare is called for conditional directives) *)
Definition skip_line (st : cst) (l : line) : cst :=
  match l with LDir d => prepare d st | _ => st end.
Definition SkipMacro (ls : list line) (st : cst) : cst := fold_left skip_line ls st.

(** One source line: tokenize.c:1441-1459 (prepare; a line in an inactive
    block is dropped) followed by preproc.c:1162-1190 (CondAsmDirective) or by
    the assembly of the line; RunMacro (expans.c:686-800, no GOTO) for macros.
    The boolean tells that EXITM was executed. *)
Fixpoint run_line (l : line) (st : cst) (s : S) {struct l} : res (cst * S * bool) :=
  match l with
  | LOrd x => if is_active (ifst st) then Ok (st, exec x s, false) else Ok (st, s, false)
  | LDir d => bindr (CondAsmDirective d (prepare d st) s) (fun r => Ok (fst r, snd r, false))
  | LExitm => if is_active (ifst st) then Ok (st, s, true) else Ok (st, s, false)
  | LMacro body =>
      if is_active (ifst st) then
        bindr ((fix go (ls : list line) (st : cst) (s : S) : res (cst * S * bool) :=
           match ls with
           | [] => Ok (st, s, false)
           | x :: r => bindr (run_line x st s) (fun o =>
                         let '(st', s', ex) := o in
                         if ex : bool then Ok (SkipMacro r st', s', true) else go r st' s')
           end) body st s) (fun o => let '(st', s', _) := o in Ok (st', s', false))
      else Ok (st, s, false)
  end.

(** the loop of RunMacro (and of the main source file) *)
Fixpoint run_lines (ls : list line) (st : cst) (s : S) : res (cst * S * bool) :=
  match ls with
  | [] => Ok (st, s, false)
  | x :: r => bindr (run_line x st s) (fun o =>
                let '(st', s', ex) := o in
                if ex : bool then Ok (SkipMacro r st', s', true) else run_lines r st' s')
  end.

(** condasm.c:649-656 CondCheckOpen: reports an error? *)
Definition CondCheckOpen (st : cst) : bool := lvl st >? 0.

End WithAssembler.

Arguments CIf {E N}. Arguments CIfe {E N}. Arguments CIf1 {E N}. Arguments CIf2 {E N}.
Arguments CIfb {E N}. Arguments CIfnb {E N}. Arguments CIfdef {E N}. Arguments CIfndef {E N}.
Arguments CIfdif {E N}. Arguments CIfdifi {E N}. Arguments CIfidn {E N}. Arguments CIfidni {E N}.
Arguments DIf {E N}. Arguments DElseif {E N}. Arguments DElse {E N}. Arguments DEndif {E N}.
Arguments LOrd {X E N}. Arguments LDir {X E N}. Arguments LExitm {X E N}. Arguments LMacro {X E N}.
