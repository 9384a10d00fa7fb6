(** What conditional assembly means: a structured program, and which of its
    lines are executed.  Only the syntax of conditions/lines is shared with the
    model. *)
From Verif Require Import Base CondAsm_Model.

Section Spec.
Variables S X E N : Type.
Variable exec : X -> S -> S.
Variable evalexp : E -> S -> option Z * S.
Variable defined : N -> S -> bool.

(** properly nested programs *)
Inductive prog :=
| PNil
| PExec (x : X) (k : prog)
| PIf (c : cnd E N) (b : prog) (t : tail) (k : prog)
| PMacro (b : prog) (k : prog)
| PExit (k : prog)
with tail :=
| TEnd
| TElse (b : prog)
| TElseif (c : cnd E N) (b : prog) (t : tail).

(** their text *)
Fixpoint flatten (p : prog) : list (line X E N) :=
  match p with
  | PNil => []
  | PExec x k => LOrd x :: flatten k
  | PIf c b t k => LDir (DIf c) :: flatten b ++ flat_tail t ++ LDir DEndif :: flatten k
  | PMacro b k => LMacro (flatten b) :: flatten k
  | PExit k => LExitm :: flatten k
  end
with flat_tail (t : tail) : list (line X E N) :=
  match t with
  | TEnd => []
  | TElse b => LDir DElse :: flatten b
  | TElseif c b t => LDir (DElseif c) :: flatten b ++ flat_tail t
  end.

Fixpoint depth (p : prog) : Z :=
  match p with
  | PNil => 0
  | PExec _ k => depth k
  | PIf c b t k => Z.max (1 + Z.max (depth b) (depth_tail t)) (depth k)
  | PMacro b k => Z.max (depth b) (depth k)
  | PExit k => depth k
  end
with depth_tail (t : tail) : Z :=
  match t with
  | TEnd => 0
  | TElse b => depth b
  | TElseif _ b t => Z.max (depth b) (depth_tail t)
  end.

(** the manual's meaning of the conditions *)
Definition lower (c : Z) : Z := if (65 <=? c) && (c <=? 90) then c + 32 else c.
Definition same (a b : list Z) : bool := if list_eq_dec Z.eq_dec a b then true else false.
Definition samei (a b : list Z) : bool := same (map lower a) (map lower b).
Definition blank (s : list Z) : bool := forallb (fun c => existsb (Z.eqb c) [32; 9; 10; 11; 12; 13]) s.

Definition test (c : cnd E N) (s : S) : bool * S :=
  match c with
  | CIf e => match evalexp e s with (Some v, s') => (negb (v =? 0), s') | (None, s') => (false, s') end
  | CIfe e => match evalexp e s with (Some v, s') => (v =? 0, s') | (None, s') => (true, s') end
  | CIf1 | CIf2 => (true, s)
  | CIfb t => (blank t, s)
  | CIfnb t => (negb (blank t), s)
  | CIfdef n => (defined n s, s)
  | CIfndef n => (negb (defined n s), s)
  | CIfdif a b => (negb (same a b), s)
  | CIfdifi a b => (negb (samei a b), s)
  | CIfidn a b => (same a b, s)
  | CIfidni a b => (samei a b, s)
  end.

(** big-step meaning; the boolean: EXITM was executed *)
Fixpoint den (p : prog) (s : S) : S * bool :=
  match p with
  | PNil => (s, false)
  | PExec x k => den k (exec x s)
  | PIf c b t k =>
      let (v, s1) := test c s in
      let (s2, ex) := if v then den b s1 else den_tail t s1 in
      if ex then (s2, true) else den k s2
  | PMacro b k => den k (fst (den b s))
  | PExit k => (s, true)
  end
with den_tail (t : tail) (s : S) : S * bool :=
  match t with
  | TEnd => (s, false)
  | TElse b => den b s
  | TElseif c b t =>
      let (v, s1) := test c s in
      if v then den b s1 else den_tail t s1
  end.

(** difference between the number of IFs and ENDIFs in a piece of text *)
Definition weight (l : line X E N) : Z :=
  match l with LDir (DIf _) => 1 | LDir DEndif => -1 | _ => 0 end.
Definition opens (ls : list (line X E N)) : Z := fold_right (fun l a => weight l + a) 0 ls.

End Spec.
Arguments PNil {X E N}. Arguments PExec {X E N}. Arguments PIf {X E N}. Arguments PMacro {X E N}. Arguments PExit {X E N}.
Arguments TEnd {X E N}. Arguments TElse {X E N}. Arguments TElseif {X E N}.
Arguments flatten {X E N}. Arguments flat_tail {X E N}. Arguments depth {X E N}. Arguments depth_tail {X E N}.
Arguments weight {X E N}. Arguments opens {X E N}.
Scheme prog_ind2 := Induction for prog Sort Prop with tail_ind2 := Induction for tail Sort Prop.
Combined Scheme prog_tail_ind from prog_ind2, tail_ind2.
