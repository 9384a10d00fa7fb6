(** C47: .SWITCH goes to the case with the value, for every value of the
    register, and runs the lines of this case.

    What is compared with what: the directives ([item]), the meaning of them
    ([c_trace], [asm_trace], [pick]) from Switch_Spec, and the instructions and
    tables of Switch_Model, which are executed. *)
From Coq Require Import ZArith List Bool Lia Permutation.
From Verif Require Import Base Switch_Model Switch_Spec SwBody_Proofs SwSort_Proofs SwGen_Proofs SwAll_Proofs SwLab_Proofs.
Import ListNotations.
Open Scope Z_scope.

(** The dispatch, for all lists of cases and all values: it arrives at the
    label of the case with the value of the register, or at the other label;
    the stack and all registers but RA are as before (RA too, unless there is
    a table to jump through). *)
Theorem C47_dispatch : forall w cases, proper cases -> plain w cases ->
  fits (s_64 w) (s_8 w) (s_size w) cases ->
  exists o, gen w cases = Ok o /\
  forall e x s, e_o e = o -> e_w e = (if s_64 w then 64 else 32) -> placed e ->
    (kept (way_of (s_8 w) (s_size w) cases) = false -> 0 <= m_reg s RA < 2 ^ bits (s_8 w)) ->
    arrives e x (kept (way_of (s_8 w) (s_size w) cases)) s
            (pick (s_def w) cases (swrap (bits (s_8 w)) (m_reg s RA))).
Proof. intros w cases P L F. exact (dispatch w cases (conj P L) F). Qed.
Print Assumptions C47_dispatch.

(** From the directives to the lines that are executed, both styles. *)
Theorem C47_switch : forall asm cond w cnt l p, compile asm (s_8 w) cnt l = Ok p ->
  counts l -> 0 <= cnt -> cnt + 8 + uses l < 65536 ->
  (asm = false -> separated false false l = true /\ closed l) ->
  Forall (fun c => - 2 ^ 31 <= fst c < 2 ^ 31) (p_cases p) -> plain w (p_cases p) ->
  s_def w = p_other p -> fits (s_64 w) (s_8 w) (s_size w) (p_cases p) ->
  exists o, gen w (p_cases p) = Ok o /\
  forall e s, e_o e = o -> e_w e = (if s_64 w then 64 else 32) -> placed e ->
    (kept (way_of (s_8 w) (s_size w) (p_cases p)) = false -> 0 <= m_reg s RA < 2 ^ bits (s_8 w)) ->
    exists lab, arrives e (p_exit p) (kept (way_of (s_8 w) (s_size w) (p_cases p))) s lab /\
      land cond p lab =
      Some (AtExit ((if asm then asm_trace else c_trace) cond (s_8 w)
                      (swrap (bits (s_8 w)) (m_reg s RA)) l)).
Proof. exact switch_ok. Qed.
Print Assumptions C47_switch.

(** Which bodies are accepted, and which values the cases have then. *)
Theorem C47_accepts : forall asm c8 cnt l,
  (well_formed c8 l -> exists p, compile asm c8 cnt l = Ok p /\ p_exit p = cnt + 3 /\
     map fst (p_cases p) = map (swrap (bits c8)) (all_values l)) /\
  (~ well_formed c8 l -> compile asm c8 cnt l = Err).
Proof. exact compile_accepts. Qed.
Print Assumptions C47_accepts.

(** The body of every case ends at the exit label, whatever the dispatch does
    (values of 64 bits included). *)
Theorem C47_body_asm : forall cond c8 cnt l p v, compile true c8 cnt l = Ok p ->
  counts l -> 0 <= cnt -> cnt + 8 + uses l < 65536 ->
  - 2 ^ (bits c8 - 1) <= v < 2 ^ (bits c8 - 1) ->
  land cond p (pick (p_other p) (p_cases p) v) = Some (AtExit (asm_trace cond c8 v l)).
Proof. exact body_of_asm. Qed.
Print Assumptions C47_body_asm.

Theorem C47_body_c : forall cond c8 cnt l p v, compile false c8 cnt l = Ok p ->
  counts l -> 0 <= cnt -> cnt + 8 + uses l < 65536 ->
  separated false false l = true -> closed l ->
  - 2 ^ (bits c8 - 1) <= v < 2 ^ (bits c8 - 1) ->
  land cond p (pick (p_other p) (p_cases p) v) = Some (AtExit (c_trace cond c8 v l)).
Proof. exact body_of_c. Qed.
Print Assumptions C47_body_c.

(** The cases are sorted: the same cases, ascending. *)
Theorem C47_sorted : forall l, NoDup (map fst l) ->
  Permutation l (xsort (length l) l) /\ ascending (xsort (length l) l).
Proof.
  intros l N. split; [apply xsort_perm|]. apply SwFind_Proofs.asc_ascending. apply xsort_asc; [lia|exact N].
Qed.
Print Assumptions C47_sorted.

(** Labels of cases are different from each other, from the eight labels of the
    .SWITCH, and from the [k] labels that the lines of any block use. *)
Theorem C47_labels : forall asm c8 cnt l1 id k l2 s, counts (l1 ++ ICode id k :: l2) ->
  items asm c8 (start cnt) (l1 ++ ICode id k :: l2) = Ok s ->
  exists s1, items asm c8 (start cnt) l1 = Ok s1 /\ NoDup (labels_set (b_out s)) /\
  (cnt + 8 <= b_cnt s1 /\ b_cnt s1 + k <= b_cnt s) /\
  Forall (fun n => cnt + 8 < n <= b_cnt s /\ ~ (b_cnt s1 < n <= b_cnt s1 + k)) (labels_set (b_out s)).
Proof. exact labels_ok. Qed.
Print Assumptions C47_labels.

Example C47_labels_ex : match items false false (start 20) [ICase [1]; ICode 1 5; IBreak; ICase [2]; IBreak] with
  | Ok s => labels_set (b_out s) = [29; 35] /\ b_cnt s = 35
  | _ => False
  end.
Proof. vm_compute. split; reflexivity. Qed.

(** ** Cases meeting the hypotheses *)

Definition W (is64 c8 : bool) (radix def : Z) : swi :=
  {| s_64 := is64; s_8 := c8; s_size := 16384; s_radix := radix; s_stale := false; s_def := def |}.
Definition E (is64 : bool) (o : out) : env :=
  {| e_w := if is64 then 64 else 32; e_b1 := 4096; e_b2 := 65536; e_o := o |}.
Definition M (ra : Z) : mst :=
  {| m_reg := fun r => match r with RA => ra | RB => 11 | RC => 12 | RD => 13
                              | RSI => 14 | RDI => 15 | R10 => 16 end;
     m_stk := [99]; f_e := false; f_l := false; f_s := false |}.

(** Where the dispatch of a value ends. *)
Definition goes (w : swi) (cases : list (Z * Z)) (v : Z) : res (option Z) :=
  bindr (gen w cases) (fun o =>
  Ok (match run 300 (E (s_64 w) o) 3 0 (M v) with Reach l _ => Some l | _ => None end)).

Definition upto (n : nat) : list Z := map Z.of_nat (seq 0 n).

(** Five cases in a body, with groups, a default and a block without .BREAK. *)
Definition body_ex : list item :=
  [ICase [10]; ICase [12; 14]; ICode 1 0; IBreakIf 7; ICode 2 3; IBreak;
   IDefault; ICode 3 0; IBreak; ICase [-1]; ICode 4 0; IBreak; ICase [300]; IBreak].

Example C47_ex_c : exists p, compile false false 0 body_ex = Ok p /\
  p_cases p = [(10, 9); (12, 9); (14, 9); (-1, 14); (300, 15)] /\ p_other p = 13 /\
  separated false false body_ex = true /\ closed body_ex /\
  way_of false 16384 (p_cases p) = Counted /\
  c_trace (fun _ => false) false 12 body_ex = [EvCode 1; EvTest 7; EvCode 2] /\
  c_trace (fun _ => true) false 12 body_ex = [EvCode 1; EvTest 7] /\
  c_trace (fun _ => true) false 299 body_ex = [EvCode 3] /\
  c_trace (fun _ => true) false (-1) body_ex = [EvCode 4] /\
  goes (W false false 10 13) (p_cases p) 12 = Ok (Some 9) /\
  goes (W true true 10 13) (p_cases p) (2 ^ 64 - 1) = Ok (Some 14) /\
  goes (W false false 10 13) (p_cases p) 299 = Ok (Some 13) /\
  plain (W false false 10 13) (p_cases p) /\ fits false false 16384 (p_cases p).
Proof.
  eexists. split; [vm_compute; reflexivity|]. cbn [p_cases p_other].
  do 3 (split; [reflexivity|]). split; [exists (removelast body_ex); reflexivity|].
  do 8 (split; [vm_compute; reflexivity|]).
  split; [constructor; try (intros; vm_compute; reflexivity); vm_compute; intuition discriminate|].
  split; [vm_compute; discriminate|].
  intros cs P _ j a b J1 J2 N1 N2. exfalso.
  assert (L : length cs = 5%nat) by (rewrite <- (Permutation_length P); reflexivity).
  assert (K : nth_error (map snd cs) (Z.to_nat j) <> None) by congruence.
  apply nth_error_Some in K. rewrite map_length, L in K.
  assert (75 <= j) by (destruct (Z.lt_ge_cases j 75); [rewrite Z.mod_small in J2 by lia; lia|lia]). lia.
Qed.

Example C47_ex_asm : exists p, compile true false 0 body_ex = Ok p /\
  asm_trace (fun _ => false) false 10 body_ex = [EvCode 1; EvTest 7; EvCode 2] /\
  land (fun _ => false) p (pick (p_other p) (p_cases p) 10) = Some (AtExit [EvCode 1; EvTest 7; EvCode 2]) /\
  land (fun _ => false) p (pick (p_other p) (p_cases p) 11) = Some (AtExit [EvCode 3]).
Proof. eexists. split; [vm_compute; reflexivity|]. repeat split. Qed.

(** The four ways, 32 and 64 bits. *)
Example C47_ex_ways :
  way_of false 16384 [(5, 20); (-3, 21)] = Chain /\ goes (W false false 10 7) [(5, 20); (-3, 21)] (2 ^ 32 - 3) = Ok (Some 21) /\
  way_of true 16384 (map (fun i => (i - 40, 100 + i)) (upto 80)) = Dense /\
  goes (W true true 10 7) (map (fun i => (i - 40, 100 + i)) (upto 80)) (2 ^ 64 - 1) = Ok (Some 139) /\
  way_of false 16384 (map (fun i => (i * 3, 100 + i)) (upto 80)) = Counted /\
  goes (W true false 10 7) (map (fun i => (i * 3, 100 + i)) (upto 80)) 237 = Ok (Some 179) /\
  goes (W true false 10 7) (map (fun i => (i * 3, 100 + i)) (upto 80)) 236 = Ok (Some 7) /\
  way_of false 16384 (map (fun i => (i * 30, 100 + i)) (upto 80)) = Counted /\
  goes (W false false 10 7) (map (fun i => (i * 30, 100 + i)) (upto 80)) 2370 = Ok (Some 179) /\
  way_of false 16384 (map (fun i => (i * 3000, 100 + i)) (upto 80)) = Search /\
  goes (W false false 10 7) (map (fun i => (i * 3000, 100 + i)) (upto 80)) 237000 = Ok (Some 179) /\
  goes (W true true 10 7) (map (fun i => (i * 3000, 100 + i)) (upto 80)) 237001 = Ok (Some 7).
Proof. vm_compute. repeat split. Qed.

Example C47_ex_refused : compile false false 0 [ICase [1; 2 ^ 32 + 1]; IBreak] = Err /\
  compile true true 0 [ICase [1]; IDefault; ICode 1 0; IDefault] = Err /\
  exists p, compile false true 0 [ICase [1; 2 ^ 32 + 1]; IBreak] = Ok p.
Proof. split; [reflexivity|]. split; [reflexivity|]. eexists. vm_compute. reflexivity. Qed.

(** ** What does not hold *)

(** "Values between the cases go to .DEFAULT."  The label of .DEFAULT is the
    last element of the table of labels, but it is left out if the number of
    cases is a multiple of 75 (hll.c 1969: "if (dcnt && dcnt < 75)"): with 75
    cases 0, 3, 6, ..., 222 the value 1 jumps through whatever is behind the
    table. *)
Theorem C47_last_entry_refuted : exists cases, proper cases /\ plain (W false false 10 7) cases /\
  zlen cases = 75 /\ goes (W false false 10 7) cases 3 = Ok (Some 101) /\
  goes (W false false 10 7) cases 1 = Ok None.
Proof.
  exists (map (fun i => (3 * i, 100 + i)) (upto 75)).
  assert (F : forall n, NoDup (map fst (map (fun i => (3 * i, 100 + i)) (upto n)))).
  { intro n. rewrite map_map. cbn [fst]. unfold upto. rewrite map_map.
    apply FinFun.Injective_map_NoDup; [intros a b; lia|apply seq_NoDup]. }
  split; [split; [apply F|]|].
  - apply Forall_forall. intros c C. apply in_map_iff in C as (i & <- & I). unfold upto in I.
    apply in_map_iff in I as (k & <- & K). apply in_seq in K. cbn [fst snd].
    change (2 ^ 31) with 2147483648. lia.
  - split; [constructor; try (intros; vm_compute; reflexivity); vm_compute; intuition discriminate|].
    vm_compute. repeat split.
Qed.
Print Assumptions C47_last_entry_refuted.

(** "Each case goes to its label."  In the table with a label for each number
    the label of a case is not written at all if the gap before it fills the
    line of 75 elements (hll.c 2190-2206 and 2284-2299): with cases 0 to 72, 75
    and 76 the value 75 goes to case 76, and 76 goes to .DEFAULT; in 64-bit
    code with cases 0 to 70, 74, 75 and 76 the value 74 goes to case 75. *)
Theorem C47_gap_refuted : exists c32 c64,
  c32 = map (fun i => (i, 100 + i)) (upto 73 ++ [75; 76]) /\
  c64 = map (fun i => (i, 100 + i)) (upto 71 ++ [74; 75; 76]) /\
  way_of false 16384 c32 = Dense /\ way_of true 16384 c64 = Dense /\
  map (goes (W false false 10 7) c32) [72; 73; 74; 75; 76] =
    [Ok (Some 172); Ok (Some 7); Ok (Some 7); Ok (Some 176); Ok (Some 7)] /\
  map (goes (W true true 10 7) c64) [70; 73; 74; 75; 76] =
    [Ok (Some 170); Ok (Some 7); Ok (Some 175); Ok (Some 176); Ok (Some 7)].
Proof. do 2 eexists. do 2 (split; [reflexivity|]). vm_compute. repeat split. Qed.
Print Assumptions C47_gap_refuted.

(** "A value that is no case goes to .DEFAULT."  The distance between the least
    and the greatest case is multiplied by 4 with 32 bits (hll.c 1909): cases
    80000000h, 1, 2 and 3 look like a dense range, the value 0 goes to case
    80000000h, and -1 jumps to a wild address. *)
Theorem C47_overflow_refuted : exists cases,
  cases = [(- 2 ^ 31, 100); (1, 101); (2, 102); (3, 103)] /\ proper cases /\
  map (goes (W false false 10 7) cases) [1; 4; 0; 2 ^ 32 - 1] =
    [Ok (Some 101); Ok (Some 7); Ok (Some 100); Ok None].
Proof.
  eexists. split; [reflexivity|]. split.
  - split; [cbn; repeat constructor; cbn; intuition discriminate|].
    repeat (constructor; [cbn [fst snd]; change (2 ^ 31) with 2147483648; lia|]). constructor.
  - vm_compute. reflexivity.
Qed.
Print Assumptions C47_overflow_refuted.

(** "EAX is compared."  In 64-bit code with .SWITCH EAX the index of the table
    is RAX; if the least case is not 0 "sub eax" clears the upper half, but
    with 0 as least case nothing does (hll.c 2540-2549): with other values in
    the upper half of RAX the jump goes to a wild address. *)
Theorem C47_upper_half_refuted : exists cases,
  cases = [(0, 100); (1, 101); (2, 102); (3, 103)] /\
  swrap 32 (2 ^ 32 + 1) = 1 /\
  map (goes (W true false 10 7) cases) [1; 2 ^ 32 + 1] = [Ok (Some 101); Ok None] /\
  goes (W true false 10 7) (tl cases) (2 ^ 32 + 1) = Ok (Some 101).
Proof. eexists. split; [reflexivity|]. vm_compute. repeat split. Qed.
Print Assumptions C47_upper_half_refuted.

(** "RAX is compared with the value of the case."  cmp rax,80000000h extends
    the sign: the case 80000000h is chosen for 0FFFFFFFF80000000h and not for
    80000000h.  Larger values are refused with up to three cases, and cut to
    32 bits ("%d") in the table that is searched (hll.c 2089-2091). *)
Theorem C47_wide_refuted :
  map (goes (W true true 10 7) [(2 ^ 31, 100)]) [2 ^ 31; 2 ^ 64 - 2 ^ 31] = [Ok (Some 7); Ok (Some 100)] /\
  gen (W true true 10 7) [(2 ^ 32, 100)] = Err /\
  map (goes (W true true 10 7) [(1, 100); (100000, 101); (200000, 102); (2 ^ 32 + 5, 103)])
    [100000; 2 ^ 32 + 5] = [Ok (Some 101); Ok (Some 7)].
Proof. vm_compute. repeat split. Qed.
Print Assumptions C47_wide_refuted.

(** "Numbers in tables are decimal."  They are written without suffix and read
    with the current radix: with .RADIX 16 the case 1000 is taken for 1000h
    (hll.c 2085-2091). *)
Theorem C47_radix_refuted : exists cases,
  cases = [(0, 100); (1000, 101); (2000, 102); (70000, 103)] /\
  map (goes (W false false 10 7) cases) [1000; 4096] = [Ok (Some 101); Ok (Some 7)] /\
  map (goes (W false false 16 7) cases) [1000; 4096] = [Ok (Some 7); Ok (Some 101)].
Proof. eexists. split; [reflexivity|]. vm_compute. repeat split. Qed.
Print Assumptions C47_radix_refuted.

(** "A valid .SWITCH is accepted."  If the 76th case of the sorted list has the
    label of the 75th, the second line of the table of labels begins with a
    comma (hll.c 1957-1960), a syntax error. *)
Theorem C47_line_refuted : exists cases,
  cases = map (fun i => (3 * i, if i <=? 74 then 100 + i else 174)) (upto 77) /\
  way_of false 16384 cases = Counted /\ gen (W false false 10 7) cases = Err.
Proof. eexists. split; [reflexivity|]. vm_compute. repeat split. Qed.
Print Assumptions C47_line_refuted.

(** "A case runs its own lines (style of C)."  Without a .BREAK since the last
    .CASE no new label is made (hll.c 2943-2948), even if there are lines in
    between: case 2 runs the lines of case 1 as well, from their begin. *)
Theorem C47_fallthrough_refuted : exists l p,
  l = [ICase [1]; ICode 1 0; ICase [2]; ICode 2 0; IBreak] /\ closed l /\
  compile false false 0 l = Ok p /\
  c_trace (fun _ => false) false 2 l = [EvCode 2] /\
  land (fun _ => false) p (pick (p_other p) (p_cases p) 2) = Some (AtExit [EvCode 1; EvCode 2]).
Proof.
  do 2 eexists. split; [reflexivity|]. split; [exists [ICase [1]; ICode 1 0; ICase [2]; ICode 2 0]; reflexivity|].
  split; [vm_compute; reflexivity|]. vm_compute. repeat split.
Qed.
Print Assumptions C47_fallthrough_refuted.

(** "The last case ends at .ENDSWITCH (style of C)."  The dispatch stands
    behind the body (hll.c 1887-1897): without a .BREAK at the end the last
    case falls into it and the switch is executed again, for ever if the value
    is the same. *)
Theorem C47_last_case_refuted : exists l p,
  l = [ICase [1]; ICode 1 0; IBreak; IDefault; ICode 2 0] /\ separated false false l = true /\
  compile false false 0 l = Ok p /\
  c_trace (fun _ => false) false 5 l = [EvCode 2] /\
  land (fun _ => false) p (pick (p_other p) (p_cases p) 5) = Some (AtDispatch [EvCode 2]).
Proof.
  do 2 eexists. split; [reflexivity|]. split; [reflexivity|].
  split; [vm_compute; reflexivity|]. vm_compute. repeat split.
Qed.
Print Assumptions C47_last_case_refuted.

(** ".DEFAULT is executed if no case matches."  Not if there are no cases: then
    no instruction is written and the exit is reached (hll.c 1898); and if the
    item was used by an earlier .SWITCH, memory in front of its list of cases
    is read (hll.c 350, 1554). *)
Theorem C47_no_cases_refuted : exists l p,
  l = [IDefault; ICode 1 0; IBreak] /\ compile false false 0 l = Ok p /\
  c_trace (fun _ => false) false 5 l = [EvCode 1] /\
  (forall v, goes (W false false 10 (p_other p)) (p_cases p) v = Ok (Some (p_exit p))) /\
  land (fun _ => false) p (p_exit p) = Some (AtExit []) /\
  gen {| s_64 := false; s_8 := false; s_size := 16384; s_radix := 10; s_stale := true; s_def := p_other p |}
      (p_cases p) = UB.
Proof.
  do 2 eexists. split; [reflexivity|]. split; [vm_compute; reflexivity|].
  split; [reflexivity|]. split; [intro v; reflexivity|]. split; reflexivity.
Qed.
Print Assumptions C47_no_cases_refuted.

(** "Labels are distinct."  The number of the label of a case is kept in 16
    bits (hll.c 2947): behind label 65535 the case goes to a label that has
    another number. *)
Theorem C47_many_labels_refuted : exists l p,
  l = [ICase [1]; ICode 1 0; IBreak] /\ compile false false 65528 l = Ok p /\
  p_cases p = [(1, 1)] /\ land (fun _ => false) p 1 = None.
Proof. do 2 eexists. split; [reflexivity|]. split; [vm_compute; reflexivity|]. split; reflexivity. Qed.
Print Assumptions C47_many_labels_refuted.
