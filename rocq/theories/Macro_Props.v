(** C45: the lines of macros. *)
From Coq Require Import String Ascii List ZArith Bool Lia.
From Verif Require Import Base Macro_Model Macro_Spec Macro_Proofs.
Import ListNotations.
Open Scope Z_scope.
Open Scope list_scope.

(** Names are replaced by their values, once and all at the same time, exactly
    where the rules say; if the result does not fit into the line buffer, the
    buffer overflows. *)
Theorem C45_expands dot nocase ps locals line : all_harmless dot (ps ++ locals) -> Forall (fun c => c <> 10) line -> zlen line <= 255 -> (line <> [] -> last line 0 <> 33) ->
  exists l n, stored dot nocase (ps ++ locals) line = Ok (l, n) /\
  forall args ls, length args = length ps -> 0 <= ls -> ls + zlen locals <= 2 ^ 32 ->
  let e := expansion dot nocase (arguments ps args ++ names_local local_name ls locals) line in
  GetTextLine args ls l n = if zlen e <? 1024 then Ok e else UB.
Proof. exact (expands dot nocase ps locals line). Qed.
Print Assumptions C45_expands.

(** Lines of any length and any last character, if they can be stored at all and
    have less than 256 names. *)
Theorem C45_long dot nocase ps locals args ls line l k : all_harmless dot (ps ++ locals) -> length args = length ps -> 0 <= ls -> ls + zlen locals <= 2 ^ 32 ->
  Forall (fun c => c <> 10) line -> store_placeholders dot nocase (ps ++ locals) line = Ok (l, k) -> k < 256 ->
  let e := expansion dot nocase (arguments ps args ++ names_local local_name ls locals) line in
  GetTextLine args ls l (wrap 8 k) = if zlen e <? 1024 then Ok e else UB.
Proof. exact (expands_long dot nocase ps locals args ls line l k). Qed.
Print Assumptions C45_long.

(** Without names a line stays as it is. *)
Theorem C45_plain dot nocase line : zlen line < 1024 -> exists n, stored dot nocase [] line = Ok (line, n) /\
  expansion dot nocase [] line = line /\ forall args ls, GetTextLine args ls line n = Ok line.
Proof.
  intros H. exists 0. split; [reflexivity|]. split; [apply expand_nothing; lia|]. intros args ls. unfold GetTextLine. cbn [Z.eqb bindr].
  unfold MAX_LINE_LEN. destruct (Z.gtb_spec (zlen line + 1) 1024); [lia|reflexivity].
Qed.
Print Assumptions C45_plain.

(** The locals of all expansions have different names: question marks and a number
    with at least four hexadecimal digits. *)
Theorem C45_locals start counts : 0 <= start -> Forall (fun n => 0 <= n) counts -> start + fold_right Z.add 0 counts <= 2 ^ 32 ->
  NoDup (all_locals local_name (localstarts start counts) counts) /\
  forall i, 0 <= i < 2 ^ 32 -> exists ds, local_name i = 63 :: 63 :: ds /\ hexnum ds = Some i /\ 4 <= zlen ds.
Proof. intros A B C. split; [exact (locals_distinct start counts A B C)|exact local_name_val]. Qed.
Print Assumptions C45_locals.

(** Examples *)
Definition chars (s : string) : list Z := List.map (fun c => Z.of_N (N_of_ascii c)) (list_ascii_of_string s).
Definition run_line dot nocase (ps locals : list string) (args : list (option string)) ls (line : string) : res (list Z) :=
  bindr (stored dot nocase (List.map chars (ps ++ locals)) (chars line)) (fun '(l, n) => GetTextLine (List.map (option_map chars) args) ls l n).
Example two_names : run_line false true ["reg"; "x"]%string ["lbl"]%string [Some "x"; Some "reg"]%string 31 "lbl: mov REG, x&y + 1x ; 'reg &reg'" = Ok (chars "??001F: mov x, regy + 1x ; 'reg x'").
Proof. vm_compute. reflexivity. Qed.
Example two_names_spec : expansion false true (arguments [chars "reg"; chars "x"] [Some (chars "x"); Some (chars "reg")] ++ names_local local_name 31 [chars "lbl"]) (chars "lbl: mov REG, x&y + 1x ; 'reg &reg'") = chars "??001F: mov x, regy + 1x ; 'reg x'".
Proof. vm_compute. reflexivity. Qed.
Example two_names_harmless : all_harmless false ([chars "reg"; chars "x"] ++ [chars "lbl"]).
Proof. split; [vm_compute; discriminate|]. intros i H. left. cbn in H. destruct i as [|[|[|i]]]; [| | |lia]; (split; [reflexivity|cbn; lia]). Qed.
Example case_matters : run_line false false ["reg"]%string []%string [Some "x"]%string 0 "REG reg&REG&" = Ok (chars "REG xREG&").
Proof. vm_compute. reflexivity. Qed.
Example one_amp_one_name : run_line false true ["a"; "b"]%string []%string [Some "1"; Some "2"]%string 0 "'a&b' '&a&&b'" = Ok (chars "'1b' '12'").
Proof. vm_compute. reflexivity. Qed.
Example brackets_and_quotes : run_line false true ["a"]%string []%string [Some "1"]%string 0 "<'a> a !' a ' a" = Ok (chars "<'a> 1 !' 1 ' a").
Proof. vm_compute. reflexivity. Qed.
Example dots : (run_line true true [".a"; "a"]%string []%string [Some "1"; Some "2"]%string 0 "a.a x.a [a].a .a" = Ok (chars "21 x.2 [2].2 1")) /\
  (run_line false true [".a"; "a"]%string []%string [Some "1"; Some "2"]%string 0 "a.a x.a [a].a .a" = Ok (chars "2.2 x.2 [2].2 .2")).
Proof. split; vm_compute; reflexivity. Qed.
Example big_local : run_line false true []%string ["l"]%string []%list 0x12345 "l" = Ok (chars "??12345").
Proof. vm_compute. reflexivity. Qed.
Example many_expansions : all_locals local_name (localstarts 0 [2; 0; 1]) [2; 0; 1] = [chars "??0000"; chars "??0001"; chars "??0002"].
Proof. vm_compute. reflexivity. Qed.

(** The parameters in the following counterexamples: p01, p02, ... *)
Definition p_ (k : nat) : list Z := [112; 48 + Z.of_nat k / 10; 48 + Z.of_nat k mod 10].
Definition ps_ (n : nat) : list (list Z) := List.map p_ (seq 1 n).
Definition expands_to dot nocase ps line args : res (list Z) := bindr (stored dot nocase ps line) (fun '(l, n) => GetTextLine args 0 l n).

(** "All names in a line are replaced."  A name of one character is replaced by two
    characters, and the scanner goes on at the second one, the number of the name
    (macro.c 159-164).  The 34th parameter of a macro opens a string this way: the
    names behind it are not replaced. *)
Theorem C45_quote_refuted : exists ps line args, length args = length ps /\ expansion false false (arguments ps args) line = chars "a b" /\
  expands_to false false ps line args = Ok (chars "a p01").
Proof.
  exists (ps_ 33 ++ [[120]]), (chars "x p01"), (Some (chars "b") :: repeat None 32 ++ [Some (chars "a")]). vm_compute. repeat split.
Qed.
Print Assumptions C45_quote_refuted.
(** "Names joined by & are replaced."  The number of the 38th name is the character
    &: with another name behind it the number is taken for an operator and
    overwritten (macro.c 151-152). *)
Theorem C45_amp_refuted : exists ps line args, length args = length ps /\ expansion false false (arguments ps args) line = chars "ab" /\
  expands_to false false ps line args = Ok (chars "c" ++ [1]).
Proof.
  exists (ps_ 38), (p_ 38 ++ [38] ++ p_ 1), (Some (chars "b") :: repeat None 8 ++ [Some (chars "c")] ++ repeat None 27 ++ [Some (chars "a")]). vm_compute. repeat split.
Qed.
Print Assumptions C45_amp_refuted.
(** "Every macro can be stored."  If the 65th parameter is named A, the number in its
    placeholder is replaced again and again, until the buffer overflows (macro.c
    159-164, 218-221). *)
Theorem C45_loop_refuted : exists ps line, zlen line = 1 /\ stored false false ps line = UB.
Proof. exists (ps_ 64 ++ [[65]]), [65]. vm_compute. split; reflexivity. Qed.
Print Assumptions C45_loop_refuted.
(** "The scanner stops at the end of the line."  strchr also finds the terminating
    zero: an exclamation mark at the end of a line, outside of strings, leads the
    scanner behind the end (macro.c 229). *)
Theorem C45_exclamation_refuted dot nocase n names line : Forall (fun c => c = 32 \/ c = 44 \/ c = 43) line -> stored dot nocase (n :: names) (line ++ [33]) = UB.
Proof.
  intros H. unfold stored, store_placeholders. destruct (_ >? _); [reflexivity|]. assert (G : forall fuel params before line, Forall (fun c => c = 32 \/ c = 44 \/ c = 43) line ->
    scan_line fuel dot nocase (n :: names) scan0 params before (line ++ [33]) = UB).
  { induction fuel as [|f IH]; intros params before l Hl; [reflexivity|]. destruct l as [|c l]; [reflexivity|]. apply Forall_cons_iff in Hl as [Hc Hl].
    cbn [app scan_line]. destruct Hc as [-> |[-> | ->]]; cbn [isldigit Z.leb Z.eqb Z.compare andb orb is_valid_id_char other bindr]; apply IH; exact Hl. }
  rewrite (G _ _ _ _ H). reflexivity.
Qed.
Print Assumptions C45_exclamation_refuted.
(** "A line may contain a name any number of times."  The number of replacements is
    kept in a byte: with 256 names in a line none is replaced (macro.c 589, input.c
    720). *)
Theorem C45_count_refuted : exists ps line args, length args = length ps /\ zlen (expansion false false (arguments ps args) line) < 1024 /\
  expansion false false (arguments ps args) line = concat (repeat (chars "1 ") 256) /\
  expands_to false false ps line args = Ok (concat (repeat [10; 1; 32] 256)).
Proof.
  exists [chars "a"], (concat (repeat (chars "a ") 256)), [Some (chars "1")]. split; [reflexivity|]. split; [vm_compute; reflexivity|]. split; vm_compute; reflexivity.
Qed.
Print Assumptions C45_count_refuted.
(** "A line that can be read can be stored."  Placeholders may be longer than names,
    and the end of the buffer is not watched (macro.c 159-163). *)
Theorem C45_grows_refuted : exists ps line, zlen line = 700 /\ stored false false ps line = UB.
Proof. exists [chars "a"], (concat (repeat (chars "a ") 350)). vm_compute. split; reflexivity. Qed.
Print Assumptions C45_grows_refuted.
(** "An expanded line that is too long is an error."  The end of the buffer is not
    watched when arguments are inserted either (macro.c 103-106). *)
Theorem C45_overflow_refuted : exists ps line args, length args = length ps /\ zlen line = 3 /\ Forall (fun a => zlen a <= 600) (List.map (fun a => match a with Some a => a | None => [] end) args) /\
  expands_to false false ps line args = UB.
Proof.
  exists [chars "a"], (chars "a a"), [Some (repeat 49 600)]. split; [reflexivity|]. split; [reflexivity|]. split; [constructor; [vm_compute; discriminate|constructor]|vm_compute; reflexivity].
Qed.
Print Assumptions C45_overflow_refuted.
