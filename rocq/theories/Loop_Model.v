(** Model of loop.c: how often REPEAT, WHILE and FORC run the lines of their
    body, and with which argument.

    Simplifications.  [body s arg v] is the part of RunMacro behind the argument: it assembles the lines of the
    loop in state [s] with the argument [arg]; [v] is macro->sym.value, the number
    of the iteration.  The result is the new state and is_exitm.  Left out are
    arguments of FOR with '%', {}, <> or macro functions, the reading of the lines
    (StoreMacro) and syntax errors.  The loop has at least one line (199). *)
From Coq Require Import ZArith List Bool Lia.
From Verif Require Import Base.
Import ListNotations.
Open Scope Z_scope.

(** REPEAT, loop.c 201-214; [n]: the value of the expression; opnd.value is an
    int, sym.value is an int. *)
Fixpoint repeat_loop {A} (body : A -> list Z -> Z -> A * bool) (fuel : nat) (n v : Z) (s : A) : A :=
  match fuel with
  | O => s
  | S k =>
      if v <? n then
        let '(s, exitm) := body s [] v in
        if exitm then s else repeat_loop body k n (swrap 32 (v + 1)) s
      else s
  end.
Definition REPEAT {A} (body : A -> list Z -> Z -> A * bool) (n : Z) (s : A) : A :=
  repeat_loop body (S (Z.to_nat (swrap 32 n))) (swrap 32 n) 0 s.

(** WHILE, loop.c 59-71, 215-226; [eval]: EvalOperand in a state, [None]: an error or no
    constant.  No result if the fuel does not suffice. *)
Fixpoint while_loop {A} (body : A -> list Z -> Z -> A * bool) (eval : A -> option Z) (fuel : nat) (c : option Z) (v : Z) (s : A) : option A :=
  match fuel with
  | O => None
  | S k =>
      match c with
      | None => Some s
      | Some c =>
          if swrap 32 c =? 0 then Some s
          else
            let '(s, exitm) := body s [] v in
            if exitm then Some s else while_loop body eval k (eval s) (swrap 32 (v + 1)) s
      end
  end.
Definition WHILE {A} (body : A -> list Z -> Z -> A * bool) (eval : A -> option Z) (fuel : nat) (s : A) : option A :=
  while_loop body eval fuel (eval s) 0 s.

(** isspace *)
Definition isspace (c : Z) : bool := (c =? 32) || ((9 <=? c) && (c <=? 13)).

(** RunMacro, expans.c 525-528: blanks at the end of the argument are not
    counted; [i]: the length.  No result if it looks in front of the buffer. *)
Fixpoint trim (buf : list Z) (i : nat) : option nat :=
  match i with
  | O => None
  | S k => if isspace (nth k buf 0) then trim buf k else Some i
  end.
(** expans.c 535-542: the character behind a '!' is copied as it is. *)
Fixpoint copy (buf : list Z) (fuel p last : nat) : list Z :=
  match fuel with
  | O => []
  | S k =>
      if (p <? last)%nat then
        let p := if nth p buf 0 =? 33 then S p else p in
        nth p buf 0 :: copy buf k (S p) last
      else []
  end.
(** The argument is a string that ends with 00. *)
Fixpoint cstr (l : list Z) : list Z :=
  match l with
  | [] => []
  | c :: r => if c =? 0 then [] else c :: cstr r
  end.
Definition passed (buf : list Z) (len : nat) : option (list Z) :=
  match trim buf len with
  | None => None
  | Some i => Some (cstr (copy buf (S i) 0 i))
  end.
(** One iteration: RunMacro with the token of [len] characters in [buf]. *)
Definition run_token {A} (body : A -> list Z -> Z -> A * bool) (s : A) (buf : list Z) (len : nat) (v : Z) : res (A * bool) :=
  match passed buf len with
  | None => UB
  | Some a => Ok (body s a v)
  end.

(** FORC, loop.c 227-260: the characters in buffer.  A '!' at the end has the
    terminating 00 as second character (240: the loop ends after it). *)
Fixpoint FORC_loop {A} (body : A -> list Z -> Z -> A * bool) (l : list Z) (v : Z) (s : A) : res A :=
  match l with
  | [] => Ok s
  | c :: r =>
      if c =? 33 then
        match r with
        | [] => bindr (run_token body s [33; 0; 0] 2 v) (fun x => Ok (fst x))
        | d :: r =>
            bindr (run_token body s [33; d; 0] 2 v) (fun x => let '(s, exitm) := x in
            if exitm then Ok s else FORC_loop body r (swrap 32 (v + 1)) s)
        end
      else
        bindr (if isspace c then run_token body s [33; c; 0] 2 v else run_token body s [c; 0; 0] 1 v) (fun x => let '(s, exitm) := x in
        if exitm then Ok s else FORC_loop body r (swrap 32 (v + 1)) s)
  end.
Definition FORC {A} (body : A -> list Z -> Z -> A * bool) (l : list Z) (s : A) : res A := FORC_loop body l 0 s.

(** The string of FORC without <>, loop.c 110-123: up to the first space. *)
Fixpoint forc_text (l : list Z) : list Z :=
  match l with
  | [] => []
  | c :: r => if isspace c then [] else c :: forc_text r
  end.

(** Tokens of the argument of FOR: commas and others with their text, white space
    behind them included unless the argument ends there (expans.c 525-528). *)
Inductive tok := Comma | Item (text : list Z).
(** RunMacro, expans.c 304, 546-547: the argument ends at a comma or at the end. *)
Fixpoint span (l : list tok) : list (list Z) * list tok :=
  match l with
  | Item t :: r => let '(a, r) := span r in (t :: a, r)
  | _ => ([], l)
  end.
(** One argument, expans.c 277-296 and 577-584; [req]: the parameter is
    required, [dflt]: its default. *)
Definition for_arg (req : bool) (dflt : list Z) (a : list (list Z)) : res (list Z) :=
  match a with
  | [] => if req then Err else Ok dflt
  | _ => Ok (concat a)
  end.
(** The loop, loop.c 288-293. *)
Fixpoint FOR_loop {A} (body : A -> list Z -> Z -> A * bool) (req : bool) (dflt : list Z) (fuel : nat) (l : list tok) (v : Z) (s : A) : res A :=
  match fuel with
  | O => UB
  | S k =>
      match l with
      | [] => Ok s
      | _ =>
          let '(a, r) := span l in
          bindr (for_arg req dflt a) (fun x =>
          let '(s, exitm) := body s x v in
          if exitm then Ok s else FOR_loop body req dflt k (tl r) (swrap 32 (v + 1)) s)
      end
  end.
(** loop.c 262-293; [white]: there is white space behind the last token.  Behind a
    comma it is a token without text (266-275; the blanks are trimmed in
    RunMacro). *)
Definition FOR {A} (body : A -> list Z -> Z -> A * bool) (req : bool) (dflt : list Z) (l : list tok) (white : bool) (s : A) : res A :=
  let l := match last l (Item []) with Comma => if white then l ++ [Item []] else l | _ => l end in
  FOR_loop body req dflt (S (length l)) l 0 s.
