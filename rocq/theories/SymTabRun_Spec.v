(** Histories of operations, for the model and for the specification. *)
From Verif Require Import Base SymTab_Model SymTab_Spec.

(** The calls of the model that belong to the operations of the specification. *)
Definition exec (o : op) (s : tabs) : res (tabs * option Z) :=
  match o with
  | Find n => SymFind s n
  | FindLocal n => SymFindLocal s n
  | Lookup n => SymLookup s n
  | LookupLocal n => SymLookupLocal s n
  | Create n => SymCreate s n
  | LCreate n state => SymLCreate s n state
  | New n => let '(s, p) := SymAlloc s n in Ok (s, Some p)
  | AddGlobal p => SymAddGlobal s p
  | AddLocal p n => SymAddLocal s p n
  | Define p state => Ok (set_heap s (upd (heap s) p (with_state (heap s p) state)), None)
  | Enter pass1 q => bindr (enter_proc pass1 s q) (fun s => Ok (s, None))
  | Leave pass1 => bindr (leave_proc pass1 s) (fun s => Ok (s, None))
  | SetCase b => Ok (SymSetCmpFunc s b, None)
  end.

Fixpoint run_model (l : list op) (s : tabs) : res (tabs * list (option Z)) :=
  match l with
  | [] => Ok (s, [])
  | o :: l => bindr (exec o s) (fun '(s, r) => bindr (run_model l s) (fun '(s, rs) => Ok (s, r :: rs)))
  end.
Fixpoint run_spec (l : list op) (t : spec) : spec * list (option Z) :=
  match l with
  | [] => (t, [])
  | o :: l => let '(t, r) := step o t in let '(t, rs) := run_spec l t in (t, r :: rs)
  end.
Fixpoint all_allowed (l : list op) (t : spec) : Prop :=
  match l with [] => True | o :: l => allowed o t /\ all_allowed l (fst (step o t)) end.
Definition blank : sym := {| s_name := []; s_state := 0; scoped := false; nextitem := None; nextll := None |}.
(** symbols.c SymInit: empty tables *)
Definition start (b : bool) : tabs :=
  {| heap := fun _ => blank; brk := 0; gsym_table := fun _ => None; lsym_table := fun _ => None; labellist := fun _ => None;
     CurrProc := None; ProcStack := []; case_sensitive := b; lsym := Nowhere; gsym := Nowhere; SymCount := 0 |}.
