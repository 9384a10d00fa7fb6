(** Model of the control flow directives .IF, .ELSEIF, .ELSE, .ENDIF, .WHILE,
    .ENDW, .REPEAT, .UNTIL, .BREAK [.IF] and .CONTINUE [.IF]: hll.c
    (HllStartDir, HllEndDir, HllExitDir, HllCheckOpen).

    The generated lines, which the program adds to its line queue and runs at
    the end of each directive, are appended to [out]; source lines between the
    directives are [LUser].  Left out: .FOR, .SWITCH, .UNTILCXZ. *)
From Coq Require Import String Ascii List ZArith Bool Lia.
From Verif Require Import Base Hll_Model.
Import ListNotations.
Open Scope Z_scope.

(** hll.c 93-100 *)
Inductive hll_cmd := HLL_IF | HLL_WHILE | HLL_REPEAT.
(** struct hll_item (hll.c 122-150): the labels LTEST, LEXIT, LSTART, the lines of
    a .WHILE condition, HLLF_ELSEOCCURED *)
Record item := { i_cmd : hll_cmd; i_test : Z; i_exit : Z; i_start : Z; i_cond : list line; i_else : bool }.
(** HllStack, the lines written, ModuleInfo.hll_label *)
Record hst := { stack : list item; out : list line; ctr : Z }.

Inductive dir :=
| DUser (k : nat)
| DIf (l : list tok) | DElseIf (l : list tok) | DElse | DEndif
| DWhile (l : list tok) | DEndw
| DRepeat | DUntil (l : list tok)
| DBreak (l : option (list tok)) | DContinue (l : option (list tok)).

Definition JMP (x : Z) : line := LJ "m" "p" x.
(** a label that exists *)
Definition lab (x : Z) : list line := if x =? 0 then [] else [LLab x].
Definition emit (h : hst) (l : list line) : hst := {| stack := stack h; out := out h ++ l; ctr := ctr h |}.
Definition new_label (h : hst) : Z * hst := (ctr h + 1, {| stack := stack h; out := out h; ctr := ctr h + 1 |}).
Definition with_stack (h : hst) (s : list item) : hst := {| stack := s; out := out h; ctr := ctr h |}.
Definition with_ctr (h : hst) (c : Z) : hst := {| stack := stack h; out := out h; ctr := c |}.

(** "if _memicmp( buffer, "jmp", 3 )" *)
Definition starts_jmp (c : list line) : bool :=
  match c with LJ c1 c2 _ :: _ => Ascii.eqb c1 "m" && Ascii.eqb c2 "p" | _ => false end.

(** hll.c 1465-1536 and 1761-1821 *)
Definition HllStartDir (masm : bool) (d : dir) (h : hst) : res hst :=
  match d with
  | DIf l =>
      let '(t, h) := new_label h in
      bindr (EvaluateHllExpression masm false t false (ctr h) l) (fun '(c, k) =>
      let h := emit (with_ctr h k) c in
      Ok (with_stack h ({| i_cmd := HLL_IF; i_test := match c with [] => 0 | _ => t end; i_exit := 0; i_start := 0; i_cond := []; i_else := false |} :: stack h)))
  | DWhile [] =>
      let '(s, h) := new_label h in
      let '(t, h) := new_label h in
      let h := emit h [JMP t; LLab s] in
      Ok (with_stack h ({| i_cmd := HLL_WHILE; i_test := t; i_exit := 0; i_start := s; i_cond := []; i_else := false |} :: stack h))
  | DWhile l =>
      let '(s, h) := new_label h in
      bindr (EvaluateHllExpression masm false s true (ctr h) l) (fun '(c, k) =>
      let h := with_ctr h k in
      let '(t, h) := if starts_jmp c then (0, h)
                     else let '(t, h) := new_label h in (t, emit h [JMP t]) in
      let h := emit h [LLab s] in
      Ok (with_stack h ({| i_cmd := HLL_WHILE; i_test := t; i_exit := 0; i_start := s; i_cond := c; i_else := false |} :: stack h)))
  | DRepeat =>
      let '(s, h) := new_label h in
      let h := emit h [LLab s] in
      Ok (with_stack h ({| i_cmd := HLL_REPEAT; i_test := 0; i_exit := 0; i_start := s; i_cond := []; i_else := false |} :: stack h))
  | _ => Err
  end.

(** hll.c 1848-1876, 2766-2778, 2803-2827 *)
Definition HllEndDir (masm : bool) (d : dir) (h : hst) : res hst :=
  match stack h with
  | [] => Err
  | it :: rest =>
      let h := with_stack h rest in
      bindr (match d, i_cmd it with
             | DEndif, HLL_IF => Ok (emit h (lab (i_test it)))
             | DEndw, HLL_WHILE => Ok (emit h (lab (i_test it) ++ i_cond it))
             | DUntil [], HLL_REPEAT => Ok (emit h (lab (i_test it)))
             | DUntil l, HLL_REPEAT =>
                 bindr (EvaluateHllExpression masm true (i_start it) false (ctr h) l) (fun '(c, k) =>
                 Ok (emit (with_ctr h k) (lab (i_test it) ++ c)))
             | _, _ => Err
             end) (fun h =>
      Ok (emit h (lab (i_exit it))))
  end.

(** the innermost .WHILE or .REPEAT block, with the blocks inside it (hll.c 3075) *)
Fixpoint find_loop (s : list item) : option (list item * item * list item) :=
  match s with
  | [] => None
  | it :: r => match i_cmd it with
               | HLL_IF => match find_loop r with Some (a, x, b) => Some (it :: a, x, b) | None => None end
               | _ => Some ([], it, r)
               end
  end.
Definition set_exit (it : item) (x : Z) : item :=
  {| i_cmd := i_cmd it; i_test := i_test it; i_exit := x; i_start := i_start it; i_cond := i_cond it; i_else := i_else it |}.
Definition set_test (it : item) (x : Z) : item :=
  {| i_cmd := i_cmd it; i_test := x; i_exit := i_exit it; i_start := i_start it; i_cond := i_cond it; i_else := i_else it |}.
Definition set_else (it : item) : item :=
  {| i_cmd := i_cmd it; i_test := i_test it; i_exit := i_exit it; i_start := i_start it; i_cond := i_cond it; i_else := true |}.

(** hll.c 3039-3072 *)
Definition else_part (h : hst) : res (item * list item * hst) :=
  match stack h with
  | [] => Err
  | it :: rest =>
      match i_cmd it with
      | HLL_IF =>
          if i_else it then Err
          else
            let '(x, h) := if i_exit it =? 0 then new_label h else (i_exit it, h) in
            Ok (set_test (set_exit it x) 0, rest, emit h (JMP x :: lab (i_test it)))
      | _ => Err
      end
  end.
(** hll.c 3073-3121: the jump to [x], or the test for it *)
Definition jump_if (masm : bool) (x : Z) (l : option (list tok)) (h : hst) : res hst :=
  match l with
  | None => Ok (emit h [JMP x])
  | Some l => bindr (EvaluateHllExpression masm false x true (ctr h) l) (fun '(c, k) => Ok (emit (with_ctr h k) c))
  end.
Definition HllExitDir (masm : bool) (d : dir) (h : hst) : res hst :=
  match d with
  | DElse => bindr (else_part h) (fun '(it, rest, h) => Ok (with_stack h (set_else it :: rest)))
  | DElseIf l =>
      bindr (else_part h) (fun '(it, rest, h) =>
      let '(t, h) := new_label h in
      bindr (EvaluateHllExpression masm false t false (ctr h) l) (fun '(c, k) =>
      Ok (with_stack (emit (with_ctr h k) c) (set_test it t :: rest))))
  | DBreak l =>
      match find_loop (stack h) with
      | None => Err
      | Some (a, it, b) =>
          let '(x, h) := if i_exit it =? 0 then new_label h else (i_exit it, h) in
          jump_if masm x l (with_stack h (a ++ set_exit it x :: b))
      end
  | DContinue l =>
      match find_loop (stack h) with
      | None => Err
      | Some (a, it, b) =>
          let '(t, h) := match i_cmd it with
                         | HLL_REPEAT => if i_test it =? 0 then new_label h else (i_test it, h)
                         | _ => (i_test it, h)
                         end in
          jump_if masm (if t =? 0 then i_start it else t) l (with_stack h (a ++ set_test it t :: b))
      end
  | _ => Err
  end.

Definition directive (masm : bool) (d : dir) (h : hst) : res hst :=
  match d with
  | DUser k => Ok (emit h [LUser k])
  | DIf _ | DWhile _ | DRepeat => HllStartDir masm d h
  | DEndif | DEndw | DUntil _ => HllEndDir masm d h
  | DElse | DElseIf _ | DBreak _ | DContinue _ => HllExitDir masm d h
  end.
Fixpoint directives (masm : bool) (l : list dir) (h : hst) : res hst :=
  match l with [] => Ok h | d :: l => bindr (directive masm d h) (directives masm l) end.
(** a whole source, HllCheckOpen at its end (hll.c 3148-3156); the labels of
    earlier sources have the numbers up to [counter] *)
Definition translate (masm : bool) (counter : Z) (l : list dir) : res (list line) :=
  bindr (directives masm l {| stack := []; out := []; ctr := counter |}) (fun h =>
  match stack h with [] => Ok (out h) | _ => Err end).
