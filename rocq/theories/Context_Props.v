(** C30: PUSHCONTEXT and POPCONTEXT. *)
From Verif Require Import Base Context_Model Context_Spec Context_Proofs.
From Coq Require Import String.

(** In a properly nested program the directives succeed; POPCONTEXT restores
    every selected part to its value at the matching PUSHCONTEXT and leaves
    the other parts as the statements in between left them. *)
Theorem C30_nested_context_restored : forall strict toks ns sels body s,
  prog_ok strict (Ctx toks body) -> spelled ns toks -> words_ok strict ns sels -> stack_ok s ->
  exists s1 sb s3, no_error (ContextDirective false strict toks s) = Ok s1 /\ exec strict body s1 = Ok sb /\
    exec strict (Ctx toks body) s = Ok s3 /\ (forall k, observe s1 k = observe s k) /\
    forall k, observe s3 k = if existsb (fun sel => sel k) sels then observe s k else observe sb k.
Proof. exact nested_restores. Qed.
Print Assumptions C30_nested_context_restored.

(** For any history, nested or not, each directive acts on one stack per
    kind of state. *)
Theorem C30_pushcontext : forall strict ns toks sels s,
  spelled ns toks -> words_ok strict ns sels -> stack_ok s ->
  exists s', ContextDirective false strict toks s = Ok (false, s') /\ stack_ok s' /\ pushes sels (abs s) (abs s').
Proof. intros. apply directive_push with (ns := ns); assumption. Qed.
Print Assumptions C30_pushcontext.

(** POPCONTEXT fails exactly if a selected stack is empty. *)
Theorem C30_popcontext : forall strict ns toks sels s,
  spelled ns toks -> words_ok strict ns sels -> stack_ok s ->
  exists e s', ContextDirective true strict toks s = Ok (e, s') /\ stack_ok s' /\ pops sels (abs s) e (abs s').
Proof. intros. apply directive_pop with (ns := ns); assumption. Qed.
Print Assumptions C30_popcontext.

(** A word that is none of the six is an error and changes nothing; so is
    ALIGNMENT in strict Masm mode. *)
Theorem C30_bad_word : forall pop strict n toks s,
  (forall sel, ~ selects n sel) \/ (strict = true /\ selects n (kind_eqb K_alignment)) ->
  ContextDirective pop strict (T_ID n :: toks) s = Ok (true, s).
Proof.
  intros pop strict n toks s [N|[-> Q]]; [apply directive_bad_word; exact N|].
  unfold ContextDirective. destruct (find_type_spec n) as [(t & sel & F & I & _ & _ & X & _)|[_ N]]; [|destruct (N _ Q)].
  assert (sel = kind_eqb K_alignment) by (eapply selects_fun; [exact I|exact Q]). subst sel.
  cbn [context_loop]. rewrite F, X. reflexivity.
Qed.
Print Assumptions C30_bad_word.

(** POPCONTEXT CPU also sets the symbol @Cpu to the restored value. *)
Theorem C30_cpu_symbol : forall t s, stack_ok s -> 0 <= t < 32 -> exists e s', pop_context t s = Ok (e, s') /\
  sym_Cpu s' = (if tsel t K_cpu && match saved (abs s) K_cpu with [] => false | _ => true end
                then option_map (fun _ => cpu s') (sym_Cpu s) else sym_Cpu s).
Proof. intros t s O T. destruct (pop_spec t s O T) as (e & s' & E & _ & _ & _ & C). eauto. Qed.
Print Assumptions C30_cpu_symbol.

(** Not restored: size and distance of the type a register is assumed to
    point to (assume.c:114-122 copies five fields only). *)
Theorem C30_assume_size_refuted : exists s f s1 s3,
  stack_ok s /\ (forall x, ContextStack (f x) = ContextStack x) /\
  no_error (ContextDirective false false [T_ID (str "ASSUMES")] s) = Ok s1 /\
  no_error (ContextDirective true false [T_ID (str "ASSUMES")] (f s1)) = Ok s3 /\
  exists p, symbol (hd {| symbol := None; a_error := 0; is_flat := false |} (StdAssumeTable s)) = Some p /\
    StdAssumeTable s3 = StdAssumeTable s /\ t_total_size (syms s3 p) <> t_total_size (syms s p).
Proof.
  pose (h := fun n : Z => fun _ : Z => {| t_type := 0; t_target_type := 0; t_mem_type := 0; t_ptr_memtype := 0; t_is_ptr := 0;
     t_total_size := n; t_isfar := false; t_Ofssize := 1 |}).
  pose (tab := [{| symbol := Some 1; a_error := 0; is_flat := false |}]).
  pose (s := {| SegAssumeTable := []; StdAssumeTable := tab; syms := h 4; radix := 10; fieldalign := 1; procalign := 0;
     list_macro := 0; m_list := true; cref := true; listif := false; list_generated_code := false;
     cpu := 7; curr_cpu := 8; sym_Cpu := Some 7; ContextStack := [] |}).
  exists s, (fun x => with_assumes x (SegAssumeTable x) (StdAssumeTable x) (h 1)). eexists _, _.
  split; [constructor|]. split; [reflexivity|]. split; [reflexivity|]. split; [reflexivity|].
  exists 1. split; [reflexivity|]. split; [reflexivity|]. vm_compute. discriminate.
Qed.
Print Assumptions C30_assume_size_refuted.

(** the directive without words reads an uninitialised variable *)
Theorem C30_no_word_refuted : forall pop strict s, ContextDirective pop strict [] s = UB.
Proof. reflexivity. Qed.
Print Assumptions C30_no_word_refuted.

(** PUSHCONTEXT radix, all; .RADIX 16; PUSHCONTEXT cpu; POPCONTEXT Cpu; POPCONTEXT radix, all *)
Example ctx_demo :
  let set_radix s := match restore_item s (C_radix 16) with Ok s => s | _ => s end in
  let p := Ctx [T_ID (str "radix"); T_COMMA; T_ID (str "all")] (Seq (Change set_radix) (Ctx [T_ID (str "Cpu")] (Change set_radix))) in
  let s := {| SegAssumeTable := []; StdAssumeTable := []; syms := fun _ => {| t_type := 0; t_target_type := 0; t_mem_type := 0; t_ptr_memtype := 0; t_is_ptr := 0; t_total_size := 0; t_isfar := false; t_Ofssize := 1 |};
     radix := 10; fieldalign := 1; procalign := 0;
     list_macro := 0; m_list := true; cref := true; listif := false; list_generated_code := false;
     cpu := 7; curr_cpu := 8; sym_Cpu := Some 7; ContextStack := [] |} in
  match exec true p s with Ok s' => radix s' = 10 /\ ContextStack s' = [] | _ => False end.
Proof. vm_compute. split; reflexivity. Qed.
Example ctx_words : spelled [str "radix"; str "all"] [T_ID (str "radix"); T_COMMA; T_ID (str "all")] /\
  words_ok true [str "radix"; str "all"] [kind_eqb K_radix; fun k => negb (kind_eqb K_alignment k)].
Proof.
  split; [apply sp_comma, sp_one|]. constructor; [split; [cbn; auto|reflexivity]|]. constructor; [|constructor].
  split; [cbn; auto 10|reflexivity].
Qed.
