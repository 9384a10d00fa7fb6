(** Programs with control flow blocks: their text, and their meaning by
    structured execution (independent of labels and jumps). *)
From Coq Require Import String Ascii List ZArith Bool Lia.
From Verif Require Import Base Hll_Model Hll_Spec HllDir_Model.
Import ListNotations.
Open Scope Z_scope.

Inductive prog :=
| PEnd
| PUser (k : nat) (p : prog)                              (* a source line *)
| PIf (c : cond) (t : prog) (r : rest) (p : prog)         (* .if c .. (rest) .endif *)
| PWhile (c : cond) (t : prog) (p : prog)                 (* .while c .. .endw *)
| PRepeat (t : prog) (c : cond) (p : prog)                (* .repeat .. .until c *)
| PBreak (c : option cond) (p : prog)                     (* .break [.if c] *)
| PContinue (c : option cond) (p : prog)                  (* .continue [.if c] *)
with rest :=
| RNone
| RElse (t : prog)
| RElseIf (c : cond) (t : prog) (r : rest).

(** the text *)
Fixpoint text (p : prog) : list dir :=
  match p with
  | PEnd => []
  | PUser k p => DUser k :: text p
  | PIf c t r p => DIf (print c) :: text t ++ text_rest r ++ DEndif :: text p
  | PWhile c t p => DWhile (print c) :: text t ++ DEndw :: text p
  | PRepeat t c p => DRepeat :: text t ++ DUntil (print c) :: text p
  | PBreak c p => DBreak (option_map print c) :: text p
  | PContinue c p => DContinue (option_map print c) :: text p
  end
with text_rest (r : rest) : list dir :=
  match r with
  | RNone => []
  | RElse t => DElse :: text t
  | RElseIf c t r => DElseIf (print c) :: text t ++ text_rest r
  end.

(** the meaning *)
Inductive outcome := Normal | Broke | Continued.
Section Meaning.
Variable user : nat -> state -> state.
Inductive runs : prog -> state -> outcome -> state -> Prop :=
| runs_end s : runs PEnd s Normal s
| runs_user k p s o s' : runs p (user k s) o s' -> runs (PUser k p) s o s'
| runs_if c t r p s s1 o s' : branch c t r s Normal s1 -> runs p s1 o s' -> runs (PIf c t r p) s o s'
| runs_if_leave c t r p s o s' : branch c t r s o s' -> o <> Normal -> runs (PIf c t r p) s o s'
| runs_while c t p s s1 o s' : while_loop c t s s1 -> runs p s1 o s' -> runs (PWhile c t p) s o s'
| runs_repeat t c p s s1 o s' : repeat_loop t c s s1 -> runs p s1 o s' -> runs (PRepeat t c p) s o s'
| runs_break p s : runs (PBreak None p) s Broke s
| runs_break_if c p m f f' : eval m c f = (true, f') -> runs (PBreak (Some c) p) (m, f) Broke (m, f')
| runs_break_not c p m f f' o s' : eval m c f = (false, f') -> runs p (m, f') o s' -> runs (PBreak (Some c) p) (m, f) o s'
| runs_continue p s : runs (PContinue None p) s Continued s
| runs_continue_if c p m f f' : eval m c f = (true, f') -> runs (PContinue (Some c) p) (m, f) Continued (m, f')
| runs_continue_not c p m f f' o s' : eval m c f = (false, f') -> runs p (m, f') o s' -> runs (PContinue (Some c) p) (m, f) o s'
(** .if c t [rest] *)
with branch : cond -> prog -> rest -> state -> outcome -> state -> Prop :=
| branch_then c t r m f f' o s' : eval m c f = (true, f') -> runs t (m, f') o s' -> branch c t r (m, f) o s'
| branch_none c t m f f' : eval m c f = (false, f') -> branch c t RNone (m, f) Normal (m, f')
| branch_else c t e m f f' o s' : eval m c f = (false, f') -> runs e (m, f') o s' -> branch c t (RElse e) (m, f) o s'
| branch_elseif c t c2 t2 r2 m f f' o s' : eval m c f = (false, f') -> branch c2 t2 r2 (m, f') o s' -> branch c t (RElseIf c2 t2 r2) (m, f) o s'
with while_loop : cond -> prog -> state -> state -> Prop :=
| while_stop c t m f f' : eval m c f = (false, f') -> while_loop c t (m, f) (m, f')
| while_again c t m f f' o s1 s' : eval m c f = (true, f') -> runs t (m, f') o s1 -> o <> Broke -> while_loop c t s1 s' -> while_loop c t (m, f) s'
| while_break c t m f f' s' : eval m c f = (true, f') -> runs t (m, f') Broke s' -> while_loop c t (m, f) s'
with repeat_loop : prog -> cond -> state -> state -> Prop :=
| repeat_stop t c s o m f f' : runs t s o (m, f) -> o <> Broke -> eval m c f = (true, f') -> repeat_loop t c s (m, f')
| repeat_again t c s o m f f' s' : runs t s o (m, f) -> o <> Broke -> eval m c f = (false, f') -> repeat_loop t c (m, f') s' -> repeat_loop t c s s'
| repeat_break t c s s' : runs t s Broke s' -> repeat_loop t c s s'.
End Meaning.

(** the programs considered: conditions of the form proved correct, .break and
    .continue inside of loops only.  The condition of a .while is a single
    constant or contains none (as a condition): the first jump to the test is
    left out if the test's text begins with "jmp". *)
Definition while_fine (c : cond) : Prop :=
  noconst c = true \/ exists a v, c = COne a /\ k_kind (opnd a) = KConst v.
Definition ok_cond (b : bool) (c : cond) : Prop := wf 2 c /\ fine b c = true.
Definition ok_opt (c : option cond) : Prop := match c with Some c => ok_cond true c | None => True end.
Fixpoint ok_prog (inloop : bool) (p : prog) : Prop :=
  match p with
  | PEnd => True
  | PUser _ p => ok_prog inloop p
  | PIf c t r p => ok_cond false c /\ ok_prog inloop t /\ ok_rest inloop r /\ ok_prog inloop p
  | PWhile c t p => ok_cond true c /\ while_fine c /\ ok_prog true t /\ ok_prog inloop p
  | PRepeat t c p => ok_cond false c /\ ok_prog true t /\ ok_prog inloop p
  | PBreak c p | PContinue c p => inloop = true /\ ok_opt c /\ ok_prog inloop p
  end
with ok_rest (inloop : bool) (r : rest) : Prop :=
  match r with
  | RNone => True
  | RElse t => ok_prog inloop t
  | RElseIf c t r => ok_cond false c /\ ok_prog inloop t /\ ok_rest inloop r
  end.

Scheme prog_mind := Induction for prog Sort Prop
  with rest_mind := Induction for rest Sort Prop.
Combined Scheme prog_rest_ind from prog_mind, rest_mind.
Scheme runs_mind := Minimality for runs Sort Prop
  with branch_mind := Minimality for branch Sort Prop
  with while_mind := Minimality for while_loop Sort Prop
  with repeat_mind := Minimality for repeat_loop Sort Prop.
Combined Scheme meaning_ind from runs_mind, branch_mind, while_mind, repeat_mind.

(** directives that are properly nested; [i]: inside of a loop *)
Inductive nested : bool -> list dir -> Prop :=
| nested_end i : nested i []
| nested_user i k l : nested i l -> nested i (DUser k :: l)
| nested_if i c t r l : nested i t -> elses i r -> nested i l -> nested i (DIf c :: t ++ r ++ DEndif :: l)
| nested_while i c t l : nested true t -> nested i l -> nested i (DWhile c :: t ++ DEndw :: l)
| nested_repeat i t c l : nested true t -> nested i l -> nested i (DRepeat :: t ++ DUntil c :: l)
| nested_break c l : nested true l -> nested true (DBreak c :: l)
| nested_continue c l : nested true l -> nested true (DContinue c :: l)
with elses : bool -> list dir -> Prop :=
| elses_none i : elses i []
| elses_else i t : nested i t -> elses i (DElse :: t)
| elses_elseif i c t r : nested i t -> elses i r -> elses i (DElseIf c :: t ++ r).
