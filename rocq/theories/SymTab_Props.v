(** C24: the symbol table is a map with procedure-local scope. *)
From Verif Require Import Base SymTab_Model SymTab_Spec SymTabRun_Spec SymTab_Proofs SymTabOps_Proofs.

(** Whatever sequence of operations is carried out from empty tables, every
    result is the one of the specification, where scopes are plain lists, and no call
    goes wrong or loops. *)
Theorem C24_history : forall l b, all_allowed l (empty b) ->
  exists s, run_model l (start b) = Ok (s, snd (run_spec l (empty b))).
Proof. intros l b A. destruct (history l _ _ _ (rep_start b) A) as (own & s & E & _). exists s. exact E. Qed.
Print Assumptions C24_history.

(** SymCount is the number of global symbols. *)
Theorem C24_count : forall l b, all_allowed l (empty b) ->
  exists s rs, run_model l (start b) = Ok (s, rs) /\ SymCount s = zlen (glob (fst (run_spec l (empty b)))).
Proof. intros l b A. destruct (history l _ _ _ (rep_start b) A) as (own & s & E & R). exists s, (snd (run_spec l (empty b))). split; [exact E|apply (r_count _ _ _ R)]. Qed.
Print Assumptions C24_count.

(** After any history, a name entered is found again under every name that
    is equal in the chosen comparison - with case-insensitive comparison, under
    every spelling, whatever its hash. *)
Theorem C24_case : forall l b b' n n', all_allowed l (empty b) -> good_name n -> good_name n' -> same b' n n' = true ->
  exists s rs r, run_model (l ++ [SetCase b'; Lookup n; Find n']) (start b) = Ok (s, rs ++ [None; Some r; Some r]).
Proof. exact history_case. Qed.
Print Assumptions C24_case.

(** alf, arc and axt have the same hash value *)
Definition alf := [97; 108; 102]. Definition arc := [97; 114; 99]. Definition axt := [97; 120; 116]. Definition ARC := [65; 82; 67].
Definition demo : list op :=
  [Lookup alf; Define 0 1; Create arc; Create alf;        (* 0 = alf, 1 = arc (undefined); alf exists *)
   Enter true 7; LookupLocal arc; LCreate axt 4;          (* arc moves into procedure 7; 2 = axt *)
   Lookup ARC; FindLocal alf; Find axt;
   Enter true 8; Find arc; LookupLocal axt; Leave true;   (* nested procedure 8 with its own axt = 3 *)
   Find axt; Leave true; Find arc; Find alf;
   Enter false 8; Find axt; Leave false; Enter false 7; Find axt; Find arc; Leave false; Find axt; New axt; AddGlobal 4; Find axt].
Example history_demo : all_allowed demo (empty false) /\
  snd (run_spec demo (empty false)) =
    [Some 0; None; Some 1; None; None; Some 1; Some 2; Some 1; None; Some 2; None; None; Some 3; None; Some 2; None; None; Some 0;
     None; Some 3; None; None; Some 2; Some 1; None; None; Some 4; Some 4; Some 4].
Proof. split; [apply all_allowedb_ok; vm_compute; reflexivity|vm_compute; reflexivity]. Qed.
Example case_demo : same false arc ARC = true /\ good_name arc /\ good_name ARC.
Proof. split; [reflexivity|]. split; (split; [|cbn; lia]); repeat (apply Forall_cons; [unfold is_byte; lia|]); apply Forall_nil. Qed.

(** The restriction in [allowed] on SymLCreate (and SymAddLocal) is needed:
    if the name is already in the local table with an undefined symbol, that entry
    and everything behind it in the chain is lost: the label arc, referenced
    and still to be defined, is gone. *)
Theorem C24_lcreate_over_undefined_refuted :
  let l := [Enter true 7; LookupLocal alf; LookupLocal arc; LCreate alf 4; Find arc] in
  (exists s, run_model l (start true) = Ok (s, [None; Some 0; Some 1; Some 2; None])) /\
  snd (run_spec l (empty true)) = [None; Some 0; Some 1; Some 2; Some 1].
Proof. split; [eexists; vm_compute; reflexivity|reflexivity]. Qed.
Print Assumptions C24_lcreate_over_undefined_refuted.
