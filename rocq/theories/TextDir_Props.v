(** C33: text directives and string macro functions follow string algebra. *)
From Coq Require Import String Ascii.
From Verif Require Import Base NumLit_Model NumLit_Spec NumLit_Proofs TextDir_Model TextDir_Spec TextDirRun_Spec TextDir_Proofs.
Local Open Scope string_scope. Local Open Scope list_scope. Local Open Scope Z_scope.
Definition str (s : string) : list Z := map (fun a => Z.of_nat (nat_of_ascii a)) (list_ascii_of_string s).

(** CATSTR gives the concatenation of its items; anything else, and results of 1024 characters or more, are errors *)
Theorem C33_catstr : forall k toks v, CatStrDir k toks = Ok v <->
  k <> OtherSym /\ exists l, (toks = items l \/ toks = items_comma l) /\ v = concat l /\ zlen v < 1024.
Proof. exact CatStrDir_iff. Qed.
Print Assumptions C33_catstr.

(** SUBSTR with a size: exactly the part of that size at that position, if there is one *)
Theorem C33_substr_sized : forall k s pos size r, int32 pos -> int32 size -> pos + size < 2 ^ 31 ->
  SubStrDir k [Text s; Comma; Const pos; Comma; Const size] = Ok r <-> k <> OtherSym /\ part s pos r /\ zlen r = size.
Proof. exact SubStrDir_sized. Qed.
Print Assumptions C33_substr_sized.
(** without a size: the rest of the string *)
Theorem C33_substr_rest : forall k s pos r, int32 pos -> zlen s < 2 ^ 31 ->
  SubStrDir k [Text s; Comma; Const pos] = Ok r <-> k <> OtherSym /\ part s pos r /\ zlen r = zlen s - pos + 1.
Proof. exact SubStrDir_rest. Qed.
Print Assumptions C33_substr_rest.
Theorem C33_substr_shape : forall k toks r, SubStrDir k toks = Ok r ->
  (exists s p, toks = [Text s; Comma; Const p]) \/ (exists s p n, toks = [Text s; Comma; Const p; Comma; Const n]).
Proof. exact SubStrDir_shape. Qed.
Print Assumptions C33_substr_shape.

(** SIZESTR *)
Theorem C33_sizestr : forall toks n, SizeStrDir toks = Ok n <-> exists s, toks = [Text s] /\ n = zlen s.
Proof.
  intros toks n. destruct toks as [|[s| | | | |] [|? ?]]; cbn [SizeStrDir]; (split; [intros H|intros (s0 & E & N)]); try discriminate.
  - injection H as H. exists s. auto.
  - injection E as E. subst. reflexivity.
Qed.
Print Assumptions C33_sizestr.

(** INSTR: the first occurrence from the start position on, or 0 *)
Theorem C33_instr : forall s q r, q <> [] ->
  (InStrDir [Text s; Comma; Text q] = Ok r <-> 1 <= zlen s /\ first_from s q 1 r) /\
  (forall v, int32 v -> InStrDir [Const v; Comma; Text s; Comma; Text q] = Ok r <->
     v <= zlen s /\ (if v <=? 0 then r = 0 else first_from s q v r)).
Proof.
  intros s q r NE. split; [exact (in_str_iff 1 s q r NE)|]. intros v IV. cbn [InStrDir]. rewrite (swrap_int v IV). apply in_str_iff. exact NE.
Qed.
Print Assumptions C33_instr.
(** the empty string is found nowhere *)
Theorem C33_instr_empty : forall s r,
  (InStrDir [Text s; Comma; Text []] = Ok r <-> 1 <= zlen s /\ r = 0) /\
  (forall v, int32 v -> InStrDir [Const v; Comma; Text s; Comma; Text []] = Ok r <-> v <= zlen s /\ r = 0).
Proof.
  intros s r. split; [exact (in_str_empty 1 s r)|]. intros v IV. cbn [InStrDir]. rewrite (swrap_int v IV). apply in_str_empty.
Qed.
Print Assumptions C33_instr_empty.
Theorem C33_instr_shape : forall toks r, InStrDir toks = Ok r ->
  exists s q, toks = [Text s; Comma; Text q] \/ exists v, toks = [Const v; Comma; Text s; Comma; Text q].
Proof. exact InStrDir_shape. Qed.
Print Assumptions C33_instr_shape.

(** ** macro functions *)
Theorem C33_catstr_func : forall a b c, CatStrFunc [] = [] /\ CatStrFunc [a] = a /\ CatStrFunc (b ++ c) = CatStrFunc b ++ CatStrFunc c.
Proof. intros a b c. unfold CatStrFunc. cbn [concat]. rewrite app_nil_r, concat_app. auto. Qed.
Print Assumptions C33_catstr_func.
Theorem C33_substr_func : forall s pos r, int32 pos -> zlen s < 2 ^ 31 ->
  (forall size, int32 size -> SubStrFunc s (Some pos) (Some (Some size)) = Ok r <-> part s (if pos =? 0 then 1 else pos) r /\ zlen r = size) /\
  (SubStrFunc s (Some pos) None = Ok r <-> part s (if pos =? 0 then 1 else pos) r /\ zlen r = zlen s - (if pos =? 0 then 1 else pos) + 1) /\
  SubStrFunc s (Some pos) (Some None) <> Ok r /\ forall z, SubStrFunc s None z = Err.
Proof.
  intros s pos r IP ZS. split; [intros size IS; apply SubStrFunc_sized; assumption|]. split; [apply SubStrFunc_rest; assumption|]. split; [|reflexivity].
  unfold SubStrFunc. cbv zeta. destruct (swrap 32 pos <? 0); [discriminate|]. destruct (_ >? _); discriminate.
Qed.
Print Assumptions C33_substr_func.
(** the number printed by @InStr reads back, in the same radix, as the first occurrence *)
Theorem C33_instr_func : forall radix pos s q rest p, 2 <= radix <= 16 -> delim rest -> Forall is_byte rest -> zlen s < 2 ^ 31 ->
  (forall v, pos = Some (Some v) -> int32 v) -> start_of pos = Some p -> 1 <= p <= zlen s -> q <> [] ->
  exists t r, InStrFunc radix pos s q = Ok t /\ reads radix (t ++ rest) r rest /\ first_from s q p r.
Proof. exact InStrFunc_ok. Qed.
Print Assumptions C33_instr_func.
Theorem C33_instr_func_empty : forall radix pos s rest p, 2 <= radix <= 16 -> delim rest -> Forall is_byte rest -> zlen s < 2 ^ 31 ->
  (forall v, pos = Some (Some v) -> int32 v) -> start_of pos = Some p -> 1 <= p <= zlen s ->
  exists t, InStrFunc radix pos s [] = Ok t /\ reads radix (t ++ rest) 0 rest.
Proof. exact InStrFunc_empty. Qed.
Print Assumptions C33_instr_func_empty.
Theorem C33_instr_func_bad : forall radix pos s q, zlen s < 2 ^ 31 -> (forall v, pos = Some (Some v) -> int32 v) ->
  (match start_of pos with Some p => p < 1 \/ p > zlen s | None => True end) -> InStrFunc radix pos s q = Err.
Proof. exact InStrFunc_bad. Qed.
Print Assumptions C33_instr_func_bad.
(** @SizeStr prints the length *)
Theorem C33_sizestr_func : forall radix parm rest, 2 <= radix <= 16 -> delim rest -> Forall is_byte rest ->
  zlen (match parm with Some s => s | None => [] end) < 2 ^ 32 ->
  exists t, SizeStrFunc radix parm = Ok t /\ reads radix (t ++ rest) (zlen (match parm with Some s => s | None => [] end)) rest.
Proof.
  intros radix [s|] rest R D B L; cbn [SizeStrFunc].
  - pose proof (zlen_nonneg s). rewrite wrap_small by lia. apply toa_reads; [assumption|lia|assumption|assumption].
  - exists [48]. split; [reflexivity|]. apply zero_reads; assumption.
Qed.
Print Assumptions C33_sizestr_func.

(** ** examples *)
Example C33_demo : CatStrDir Unknown [Text (str "ab"); Comma; Text (str "cd")] = Ok (str "abcd")
  /\ SubStrDir Tmacro [Text (str "abcdef"); Comma; Const 2; Comma; Const 3] = Ok (str "bcd")
  /\ SubStrDir Tmacro [Text (str "abcdef"); Comma; Const 4] = Ok (str "def")
  /\ SubStrDir Tmacro [Text (str "abc"); Comma; Const 3; Comma; Const 2] = Err
  /\ InStrDir [Const 3; Comma; Text (str "abcabc"); Comma; Text (str "bc")] = Ok 5
  /\ InStrDir [Text (str "abcabc"); Comma; Text (str "x")] = Ok 0
  /\ InStrFunc 10 (Some (Some 0)) (str "hello, world and more") (str "and") = Ok (str "14")
  /\ SizeStrFunc 16 (Some (str "0123456789abcdef")) = Ok (str "10")
  /\ SubStrFunc (str "abcdef") (Some 2) (Some (Some 3)) = Ok (str "bcd").
Proof. vm_compute. repeat split. Qed.
Example C33_first : first_from (str "abcabc") (str "bc") 3 5 /\ part (str "abcdef") 2 (str "bcd").
Proof.
  split; [|exists (str "a"), (str "ef"); split; [reflexivity|]; split; [reflexivity|discriminate]].
  refine (proj2 (proj1 (proj2 (C33_instr (str "abcabc") (str "bc") 5 ltac:(discriminate)) 3 ltac:(split; [discriminate|reflexivity])) ltac:(vm_compute; reflexivity))).
Qed.

(** ** what does not hold *)
(** the bound check of SUBSTR adds two ints *)
Theorem C33_substr_overflow_refuted : ~ (forall k s pos size, int32 pos -> int32 size -> SubStrDir k [Text s; Comma; Const pos; Comma; Const size] <> UB).
Proof. intros H. apply (H Unknown (str "abc") 2 2147483647); [split; [discriminate|reflexivity]|split; [discriminate|reflexivity]|vm_compute; reflexivity]. Qed.
Print Assumptions C33_substr_overflow_refuted.
(** the upper half of a position is dropped *)
Theorem C33_substr_wide_refuted : ~ (forall k s pos r, 0 <= pos < 2 ^ 64 -> SubStrDir k [Text s; Comma; Const pos] = Ok r -> part s pos r).
Proof.
  intros H. specialize (H Unknown (str "abc") 4294967297 (str "abc") ltac:(lia) ltac:(vm_compute; reflexivity)). apply part_unique in H as [[_ H] _]. apply H. reflexivity.
Qed.
Print Assumptions C33_substr_wide_refuted.
