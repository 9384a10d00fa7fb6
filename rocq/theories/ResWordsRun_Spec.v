(** Histories of keyword operations, for the model and for the specification. *)
From Verif Require Import Base ResWords_Model ResWords_Spec.

(** the specification's view of the compiled-in tables *)
Definition lex (c : cfg) : lexicon :=
  {| orig := fun k => fst (nth (Z.to_nat (k - 1)) (words c) ([], (false, false))); size := zlen (words c);
     only64 := tokens64 c; only32 := tokens32 c; sys := T_SYSCALL c; sys_name64 := syscall_; is_x64 := flag_x64 c |}.
(** properties of the compiled-in tables *)
Definition cfg_ok (c : cfg) : Prop :=
  Forall (fun w => Forall is_byte (fst w)) (words c) /\
  NoDup (tokens64 c ++ tokens32 c) /\ Forall (fun k => 1 <= k) (patchtab64 c) /\ Forall (fun k => 1 <= k) (patchtab32 c) /\
  1 <= T_SYSCALL c <= zlen (words c) /\ ~ In (T_SYSCALL c) (tokens64 c ++ tokens32 c) /\
  flag_x64 c (T_SYSCALL c) = false /\ zlen (orig (lex c) (T_SYSCALL c)) = 7.

Definition exec (c : cfg) (o : op) (s : rw) : res (rw * Z) :=
  let none r := bindr r (fun s => Ok (s, 0)) in
  match o with
  | Find n => bindr (FindResWord c s n) (fun k => Ok (s, k))
  | Rename k n => none (RenameKeyword c s k n)
  | Disable k => none (DisableKeyword c s k)
  | Mode b => none (Set64Bit c s b)
  | EndModule => none (ResWordsFini c s)
  end.
Fixpoint run_model (c : cfg) (l : list op) (s : rw) : res (rw * list Z) :=
  match l with
  | [] => Ok (s, [])
  | o :: l => bindr (exec c o s) (fun '(s, r) => bindr (run_model c l s) (fun '(s, rs) => Ok (s, r :: rs)))
  end.
Fixpoint run_spec (x : lexicon) (l : list op) (t : state) : state * list Z :=
  match l with
  | [] => (t, [])
  | o :: l => let '(t, r) := step x o t in let '(t, rs) := run_spec x l t in (t, r :: rs)
  end.
Fixpoint all_allowed (x : lexicon) (l : list op) (t : state) : Prop :=
  match l with [] => True | o :: l => allowed x o t /\ all_allowed x l (fst (step x o t)) end.
