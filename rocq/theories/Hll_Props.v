(** C27: control flow directives do what their conditions and nesting say. *)
From Coq Require Import String Ascii List ZArith Bool Lia.
From Verif Require Import Base Hll_Model Hll_Spec HllDir_Model HllDir_Spec Hll_Proofs HllTok_Proofs HllRun_Proofs HllDir_Proofs HllNest_Proofs HllPlain_Proofs HllRead_Proofs.
Import ListNotations.
Open Scope Z_scope.

(** The code for a condition, wherever it stands in a program in which label
    names are unique, arrives at label L exactly if the condition has the truth
    value [b] asked for, and otherwise right behind the code; the flags are those
    which the comparisons leave, memory is unchanged; new labels are distinct and
    were not used before. *)
Theorem C27_condition masm rep L b counter e : wf 2 e -> fine b e = true -> 0 < L <= counter ->
  exists code counter', EvaluateHllExpression masm rep L b counter (print e) = Ok (code, counter') /\
    counter <= counter' /\ NoDup (labels code) /\ (forall x, In x (labels code) -> counter < x <= counter') /\
    forall user before after q m f, let P := before ++ code ++ after in
      NoDup (labels P) -> place L P = Some q -> sized m ->
      let '(v, f') := eval m e f in
      steps user P (length before, (m, f)) ((if Bool.eqb v b then q else length before + length code)%nat, (m, f')).
Proof. exact (condition_ok masm rep L b counter e). Qed.
Print Assumptions C27_condition.

(** In particular this holds for every .IF, .ELSEIF or .UNTIL condition without
    constants and without negated brackets, *)
Theorem C27_plain e : wf 2 e -> plain e = true -> fine false e = true.
Proof. intros W H. exact (proj2 (plain_fine e 2 W H)). Qed.
Print Assumptions C27_plain.

(** and for every condition whatsoever (also of .WHILE, .BREAK .IF, .CONTINUE .IF)
    without constants and brackets. *)
Theorem C27_flat e b : wf 2 e -> flat e = true -> fine b e = true.
Proof. intros W H. exact (flat_fine e 2 W H b). Qed.
Print Assumptions C27_flat.

(** A whole source: the lines generated for a structured program, executed by
    a machine that knows lines, labels and jumps only, do what the program says:
    if the program terminates in state s', then the machine arrives at the end of
    the lines in state s'.  Source lines may do whatever they like with memory
    and flags. *)
Theorem C27_program masm counter p : ok_prog false p -> 0 <= counter ->
  exists code, translate masm counter (text p) = Ok code /\ NoDup (labels code) /\
    forall user, (forall k m f, sized m -> sized (fst (user k (m, f)))) ->
    forall s s', sized (fst s) -> runs user p s Normal s' -> steps user code (0%nat, s) (length code, s').
Proof. exact (program_ok masm counter p). Qed.
Print Assumptions C27_program.

(** Only properly nested directives are accepted: .ELSE and .ELSEIF inside of
    .IF and not after .ELSE, every block closed by its own directive, .BREAK and
    .CONTINUE inside of loops. *)
Theorem C27_nesting masm counter l code : translate masm counter l = Ok code -> nested false l.
Proof. exact (translate_nested masm counter l code). Qed.
Print Assumptions C27_nesting.

(** Nothing is passed over: an accepted condition is, from its first to its last
    token, an expression of the grammar. *)
Theorem C27_whole masm rep L b counter l x : EvaluateHllExpression masm rep L b counter l = Ok x -> exists e, reads 2 e /\ l = print e.
Proof. exact (read_whole masm rep L b counter l x). Qed.
Print Assumptions C27_whole.

(** * Examples *)
Definition reg (n : nat) : operand := {| k_kind := KReg; k_id := n; k_signed := false |}.
Definition var (n : nat) : operand := {| k_kind := KAddr; k_id := n; k_signed := true |}.
Definition num (v : Z) : operand := {| k_kind := KConst v; k_id := 99; k_signed := false |}.
Definition po (o : operand) : popnd := {| parens := 0; opnd := o |}.
(** (eax > 5 || var <= -1) && !carry? && (ebx) *)
Definition ex_cond : cond :=
  CAnd (CAnd (CPar (COr (CCmp RGt (po (reg 0)) (po (num 5))) (CCmp RLe (po (var 1)) (po (num (-1)))))) (CNot (CFlag FCarry "carry?")))
       (COne {| parens := 1; opnd := reg 2 |}).
Example ex_cond_ok : wf 2 ex_cond /\ fine false ex_cond = true /\ plain ex_cond = true.
Proof. split; [|split; reflexivity]. cbn. repeat (split; auto). Qed.
Example ex_cond_code : EvaluateHllExpression true false 1 false 1 (print ex_cond) = Ok ([
  LIns "cmp" (reg 0) (Some (num 5)); LJ "a" " " 2; LLab 3; LIns "cmp" (var 1) (Some (num (-1))); LJ "g" " " 1; LLab 2;
  LJ "c" " " 1; LIns "test" (reg 2) (Some (reg 2)); LJ "z" " " 1], 3).
Proof. vm_compute. reflexivity. Qed.
Example ex_whole : (exists x, EvaluateHllExpression true false 1 false 1 (print ex_cond) = Ok x) /\
  EvaluateHllExpression true false 1 false 1 (print ex_cond ++ [TClose]) = Err /\
  EvaluateHllExpression true false 1 false 1 (print ex_cond ++ print ex_cond) = Err.
Proof. split; [eexists; exact ex_cond_code|]. split; vm_compute; reflexivity. Qed.
(** .while eax < 10 && ebx  line 0;  .if eax & 1  .continue .if ebx == 3  .else  .repeat line 1  .until zero?  .break  .endif  .endw *)
Definition ex_prog : prog :=
  PUser 5 (PWhile (CAnd (CCmp RLt (po (reg 0)) (po (num 10))) (COne (po (reg 2))))
    (PUser 0 (PIf (CBits (po (reg 0)) (po (num 1))) (PContinue (Some (CCmp REq (po (reg 2)) (po (num 3)))) PEnd)
                  (RElse (PRepeat (PUser 1 PEnd) (CFlag FZero "zero?") (PBreak None PEnd))) PEnd)) PEnd).
Example ex_prog_ok : ok_prog false ex_prog.
Proof. cbn. repeat split; try (left; reflexivity); auto. cbn. auto. Qed.
(** a run of it: line 0 adds 1 to eax, line 1 sets the zero flag *)
Definition ex_user (k : nat) (s : state) : state :=
  match k with
  | 0%nat => ({| content := fun n => if Nat.eqb n 0 then content (fst s) n + 1 else content (fst s) n; size := size (fst s) |}, snd s)
  | 1%nat => (fst s, {| fC := fC (snd s); fZ := true; fS := fS (snd s); fO := fO (snd s); fP := fP (snd s) |})
  | _ => s
  end.
Definition ex_mem (a c : Z) : memory := {| content := fun n => match n with 0%nat => a | 2%nat => c | _ => 0 end; size := fun _ => 32 |}.
Definition fl0 : flags := {| fC := false; fZ := false; fS := false; fO := false; fP := false |}.
Fixpoint run (n : nat) (user : nat -> state -> state) (p : list line) (c : nat * state) : nat * state :=
  match n with O => c | S n => match step user p c with Some c' => run n user p c' | None => c end end.
Definition observe (c : nat * state) : nat * Z := (fst c, content (fst (snd c)) 0%nat).
Example ex_run : match translate false 0 (text ex_prog) with
  | Ok c => observe (run 100 ex_user c (0%nat, (ex_mem 0 7, fl0))) = (length c, 2) /\
            observe (run 100 ex_user c (0%nat, (ex_mem 11 7, fl0))) = (length c, 11) /\
            observe (run 100 ex_user c (0%nat, (ex_mem 1 7, fl0))) = (length c, 2)
  | _ => False end.
Proof. vm_compute. repeat split. Qed.
Example ex_nesting : translate true 0 [DIf (print ex_cond); DElse; DElse; DEndif] = Err /\ translate true 0 [DRepeat; DEndw] = Err /\
  translate true 0 [DIf (print ex_cond); DBreak None; DEndif] = Err.
Proof. vm_compute. auto. Qed.

(** * Where the translation is wrong *)
Definition A : cond := COne (po (reg 0)).
Definition B : cond := COne (po (reg 1)).
Definition C : cond := COne (po (reg 2)).
Definition mem3 (a b c : Z) : memory := {| content := fun n => match n with 0%nat => a | 1%nat => b | 2%nat => c | _ => 0 end; size := fun _ => 32 |}.
(** the program "code; line 0 label: line 1": which line is reached *)
Definition reached (b : bool) (e : cond) (m : memory) : option bool :=
  match EvaluateHllExpression true false 1 b 1 (print e) with
  | Ok (c, _) => let p := c ++ [LUser 0; LLab 1; LUser 1] in
      let n := length c in
      (* does execution pass the line right behind the code? *)
      Some (let fix go (k : nat) (s : nat * state) := match k with O => false | S k => if Nat.eqb (fst s) n then true else match step (fun _ s => s) p s with Some s => go k s | None => false end end
            in go 50%nat (0%nat, (m, fl0)))
  | _ => None end.
(** ".while (a && b) && c": the last operand is not tested if it follows a
    bracket with "&&": with a, b nonzero and c zero the jump for "true" is taken *)
Theorem C27_and_refuted : exists e m, wf 2 e /\ noconst e = true /\ sized m /\ fst (eval m e fl0) = false /\ reached true e m = Some false.
Proof. exists (CAnd (CPar (CAnd A B)) C), (mem3 1 1 0). split; [cbn; repeat split; auto|]. split; [reflexivity|]. split; [intros n; reflexivity|]. split; vm_compute; reflexivity. Qed.
Print Assumptions C27_and_refuted.
(** ".if !(a && b) || c": condition true, but the body is not executed *)
Theorem C27_not_or_refuted : exists e m, wf 2 e /\ noconst e = true /\ sized m /\ fst (eval m e fl0) = true /\ reached false e m = Some false.
Proof. exists (COr (CNot (CPar (CAnd A B))) C), (mem3 0 1 0). split; [cbn; repeat split; auto|]. split; [reflexivity|]. split; [intros n; reflexivity|]. split; vm_compute; reflexivity. Qed.
Print Assumptions C27_not_or_refuted.
(** ".if (a || 1) || b": the text is damaged *)
Theorem C27_const_or_refuted : exists e, wf 2 e /\ EvaluateHllExpression true false 1 false 1 (print e) = UB.
Proof. exists (COr (CPar (COr A (COne (po (num 1))))) B). split; [cbn; repeat split; auto; lia|]. vm_compute. reflexivity. Qed.
Print Assumptions C27_const_or_refuted.
(** ".if a || (b || 1)": a label is defined twice *)
Theorem C27_label_refuted : exists e c k, wf 2 e /\ EvaluateHllExpression true false 1 false 1 (print e) = Ok (c, k) /\ ~ NoDup (labels c).
Proof.
  exists (COr A (CPar (COr B (COne (po (num 1)))))). do 2 eexists. split; [cbn; repeat split; auto; lia|]. split; [vm_compute; reflexivity|].
  cbn. intros H. do 2 (apply NoDup_cons_iff in H as [_ H]). apply NoDup_cons_iff in H as [H _]. apply H. now left.
Qed.
Print Assumptions C27_label_refuted.
(** -4294967296 counts as zero *)
Theorem C27_wide_refuted : exists a v, k_kind (opnd a) = KConst v /\ v <> 0 /\ fst (eval (mem3 0 0 0) (COne a) fl0) = true /\ reached false (COne a) (mem3 0 0 0) = Some false.
Proof. exists (po (num (- 2 ^ 32))), (- 2 ^ 32). split; [reflexivity|]. split; [lia|]. split; vm_compute; reflexivity. Qed.
Print Assumptions C27_wide_refuted.
(** ".while 0 && a": the body is executed once although the condition is never true *)
Theorem C27_while_refuted : exists c t m, wf 2 c /\ fine true c = true /\ sized m /\
  (forall f, fst (eval m c f) = false) /\
  match translate true 0 (text (PWhile c t PEnd)) with
  | Ok p => observe (run 50 ex_user p (0%nat, (m, fl0))) = (length p, content m 0%nat + 1)
  | _ => False end.
Proof.
  exists (CAnd (COne (po (num 0))) A), (PUser 0 PEnd), (mem3 4 0 0). split; [cbn; repeat split; auto; lia|]. split; [reflexivity|]. split; [intros n; reflexivity|].
  split; [reflexivity|]. vm_compute. reflexivity.
Qed.
Print Assumptions C27_while_refuted.
(** ".while" without a condition: the body is never executed *)
Theorem C27_bare_while_refuted : forall k, exists p, translate true 0 [DWhile []; DUser k; DEndw] = Ok p /\
  forall user s, steps user p (0%nat, s) (length p, s).
Proof.
  intros k. eexists. split; [reflexivity|]. intros user [m f]. cbn [app length].
  eapply steps_step; [reflexivity|]. eapply steps_step; [reflexivity|]. constructor.
Qed.
Print Assumptions C27_bare_while_refuted.
