(** C23: conditional assembly. *)
From Verif Require Import Base CondAsm_Model CondAsm_Spec CondAsm_Proofs.

(** C23.  For every properly nested program (IFs, ELSEIFs, ELSE, macros with
    EXITM), every assembler state and every behaviour of the rest of the
    assembler, running the text gives the structured meaning: exactly the
    demanded lines are assembled and only the demanded conditions are
    evaluated; afterwards the nesting state is what it was before and no
    error was reported.  Hypotheses: IF/IFE values fit 32 bits (see the
    refutation below), IF2 is allowed (ditto), nesting is at most 20. *)
Theorem C23_conditional_blocks : forall (S X E N : Type)
    (exec : X -> S -> S) (evalexp : E -> S -> option Z * S)
    (defined : N -> S -> bool) (setif2 : S -> bool),
  (forall e s v s', evalexp e s = (Some v, s') -> - 2 ^ 31 <= v < 2 ^ 32) ->
  (forall s, setif2 s = true) ->
  forall (p : prog X E N) st s,
  ifst st = BLOCK_ACTIVE -> flvl st = 0 -> 0 <= lvl st -> lvl st + depth p <= 20 ->
  exists st',
    run_lines S X E N exec evalexp defined setif2 (flatten p) st s
      = Ok (st', fst (den S X E N exec evalexp defined p s), snd (den S X E N exec evalexp defined p s)) /\
    ifst st' = BLOCK_ACTIVE /\ lvl st' = lvl st /\ flvl st' = 0 /\ errs st' = errs st.
Proof. exact cond_correct. Qed.
Print Assumptions C23_conditional_blocks.

(** C23.  For arbitrary, possibly ill-nested text: if no nesting error was
    reported, CondCheckOpen at the end reports an error exactly if the text
    has more IFs than ENDIFs (it cannot have fewer). *)
Theorem C23_open_blocks_detected : forall (S X E N : Type)
    (exec : X -> S -> S) (evalexp : E -> S -> option Z * S)
    (defined : N -> S -> bool) (setif2 : S -> bool) ls e s st' s' ex,
  Forall (flat_line X E N) ls ->
  run_lines S X E N exec evalexp defined setif2 ls (CondInit e) s = Ok (st', s', ex) ->
  errs st' = 0 ->
  0 <= opens ls /\ CondCheckOpen st' = (0 <? opens ls).
Proof.
  intros S X E N exec evalexp defined setif2 ls e s st' s' ex F R Z0.
  destruct (any_text S X E N exec evalexp defined setif2 ls (CondInit e) s st' s' ex F) as (_ & A).
  - repeat split; cbn; try lia; congruence.
  - exact R.
  - destruct (A Z0) as ((L & FL & C & D & G) & W). cbn in W. unfold CondCheckOpen. lia.
Qed.
Print Assumptions C23_open_blocks_detected.

(** Finding: IF looks at the low 32 bits only; "IF 100000000h" is taken as false. *)
Theorem C23_if_high_bits_refuted : exists v,
  v <> 0 /\
  run_lines (list Z) Z Z unit (fun x s => x :: s) (fun e s => (Some e, s)) (fun _ _ => false) (fun _ => true)
     (flatten (PIf (CIf v) (PExec 7 PNil) TEnd PNil)) (CondInit 0) []
   = Ok (CondInit 0, [], false) /\
  den (list Z) Z Z unit (fun x s => x :: s) (fun e s => (Some e, s)) (fun _ _ => false)
     (PIf (CIf v) (PExec 7 PNil) TEnd PNil) [] = ([7], false).
Proof. exists (2 ^ 32). vm_compute. split; [discriminate|split; reflexivity]. Qed.
Print Assumptions C23_if_high_bits_refuted.

(** Finding: IF2 without OPTION SETIF2 uses an uninitialised next state. *)
Theorem C23_if2_uninitialised_refuted :
  run_lines (list Z) Z Z unit (fun x s => x :: s) (fun e s => (Some e, s)) (fun _ _ => false) (fun _ => false)
     (flatten (PIf CIf2 (PExec 7 PNil) TEnd PNil)) (CondInit 0) [] = UB.
Proof. reflexivity. Qed.
Print Assumptions C23_if2_uninitialised_refuted.

(** A program with nested chains, a skipped nested IF, a macro left by EXITM
    inside two IFs, and an evaluation counter (state: executed lines, newest
    first; evaluating an expression e logs 1000+e). *)
Definition demo_exec (x : Z) (s : list Z) := x :: s.
Definition demo_eval (e : Z) (s : list Z) : option Z * list Z :=
  (if (0 <=? e) && (e <? 100) then Some e else None, 1000 + e :: s).
Definition demo : prog Z Z Z :=
  PIf (CIf 0) (PIf (CIf 5) (PExec 1 PNil) (TElse (PExec 2 PNil)) PNil)
      (TElseif (CIfe 0) (PExec 3 (PIf (CIfdef 8) (PExec 4 PNil) (TElseif (CIfb [32; 9]) (PExec 5 PNil) (TElse PNil)) PNil))
         (TElse (PExec 6 PNil)))
      (PMacro (PIf (CIfidni [65; 98] [97; 66]) (PExec 10 (PIf (CIfndef 8) (PExit (PExec 11 PNil)) TEnd PNil))
                 (TElse (PExec 12 PNil))
                 (PIf CIf1 (PExec 13 PNil) TEnd PNil))
              (PExec 14 PNil)).
Example demo_hyp : (forall e s v s', demo_eval e s = (Some v, s') -> - 2 ^ 31 <= v < 2 ^ 32) /\ depth demo <= 20.
Proof.
  split; [|vm_compute; discriminate]. unfold demo_eval. intros.
  destruct (_ && _)%bool eqn:Q; inversion H; subst. lia.
Qed.
Example demo_run :
  run_lines (list Z) Z Z Z demo_exec demo_eval (fun n _ => n =? 9) (fun _ => true) (flatten demo) (CondInit 3) [] =
  Ok (mkcst BLOCK_ACTIVE 0 0 0 0, [14; 10; 5; 3; 1000; 1000], false).
Proof. reflexivity. Qed.
