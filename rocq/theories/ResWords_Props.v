(** C25: the keyword table under renaming, disabling, mode switches and module end. *)
From Coq Require Import String Ascii.
From Verif Require Import Base ResWords_Model ResWords_Spec ResWordsRun_Spec ResWords_Proofs ResWordsOps_Proofs ResWordsSim_Proofs.
Local Open Scope string_scope. Local Open Scope list_scope. Local Open Scope Z_scope.
Definition str (s : string) : list Z := map (fun a => Z.of_nat (nat_of_ascii a)) (list_ascii_of_string s).

(** Started from the compiled-in tables, every history of lookups, renamings,
    disablings, mode switches and module ends gives the results of the list
    specification; no chain becomes cyclic *)
Theorem C25_history : forall c l, cfg_ok c -> all_allowed (lex c) l (init (lex c)) ->
  exists s0 s, ResWordsInit c = Ok s0 /\ run_model c l s0 = Ok (s, snd (run_spec (lex c) l (init (lex c)))).
Proof.
  intros c l OK A. destruct (sim_init c OK) as (s0 & E0 & R0). destruct (sim_run c OK l s0 _ R0 A) as (s & E & _).
  exists s0, s. split; [exact E0|exact E].
Qed.
Print Assumptions C25_history.

(** After the end of a module every name is recognised as it was in the fresh table *)
Theorem C25_end_restores : forall c l, cfg_ok c -> (forall k, In k (tokens32 c) -> flag_x64 c k = false) -> distinct_names c ->
  all_allowed (lex c) (l ++ [EndModule]) (init (lex c)) ->
  exists s0 s, ResWordsInit c = Ok s0 /\ bindr (run_model c (l ++ [EndModule]) s0) (fun x => Ok (fst x)) = Ok s /\
    forall n, Forall is_byte n -> FindResWord c s n = FindResWord c s0 n.
Proof. intros c l OK. exact (end_restores c OK l). Qed.
Print Assumptions C25_end_restores.

(** ** example tables *)
Definition demo : cfg :=
  {| words := [(str "eax", (false, false)); (str "rax", (true, false)); (str "syscall", (false, false)); (str "pusha", (false, true));
               (str "if", (false, false)); (str "elseif", (false, false))];
     T_SYSCALL := 3; patchtab64 := [2]; patchtab32 := [4] |}.
Definition is_byteb (c : Z) : bool := (0 <=? c) && (c <? 256).
Lemma bytesb l : forallb is_byteb l = true -> Forall is_byte l.
Proof. intros H. apply Forall_forall. intros x I. rewrite forallb_forall in H. specialize (H x I). unfold is_byteb in H. unfold is_byte. lia. Qed.
Example demo_ok : cfg_ok demo.
Proof.
  unfold cfg_ok. assert (E : tokens64 demo ++ tokens32 demo = [2; 4]) by reflexivity. rewrite E. split; [|split; [|split; [|split; [|split; [|split; [|split]]]]]].
  - apply Forall_forall. intros w I. apply bytesb. revert w I. apply (proj1 (forallb_forall (fun w => forallb is_byteb (fst w)) (words demo))). reflexivity.
  - constructor; [intros [H|[]]; discriminate|constructor; [intros []|constructor]].
  - constructor; [discriminate|constructor].
  - constructor; [discriminate|constructor].
  - split; discriminate.
  - intros [H|[H|[]]]; discriminate.
  - reflexivity.
  - reflexivity.
Qed.

Definition good_nameb (n : list Z) : bool := forallb is_byteb n && (zlen n <=? 255).
Lemma good_nameb_ok n : good_nameb n = true -> good_name n.
Proof. unfold good_nameb, good_name. intros H. apply andb_prop in H as [A B]. split; [apply bytesb; exact A|lia]. Qed.
Definition allowedb (x : lexicon) (o : op) (t : state) : bool :=
  match o with
  | Find n => good_nameb n
  | Rename k n => inb k (act t) && negb (k =? sys x) && good_nameb n && (negb (inb k (ren t)) || match ren t with h :: _ => h =? k | [] => false end)
  | Disable k => inb k (act t) && negb (k =? sys x)
  | Mode _ => true
  | EndModule => negb (mode t) && forallb (fun k => inb k (act t)) (ren t)
  end.
Lemma allowedb_ok x o t : allowedb x o t = true -> allowed x o t.
Proof.
  destruct o as [n|k n|k|b|]; cbn [allowedb allowed]; intros H.
  - apply good_nameb_ok. exact H.
  - apply andb_prop in H as [H D]. apply andb_prop in H as [H C]. apply andb_prop in H as [A B]. split; [apply inb_ok; exact A|]. split; [lia|]. split; [apply good_nameb_ok; exact C|].
    intros I. apply inb_ok in I. rewrite I in D. cbn [negb orb] in D. destruct (ren t) as [|h r]; [discriminate|]. cbn [hd_error]. f_equal. lia.
  - apply andb_prop in H as [A B]. split; [apply inb_ok; exact A|lia].
  - exact I.
  - apply andb_prop in H as [A B]. split; [destruct (mode t); [discriminate|reflexivity]|]. intros k I. rewrite forallb_forall in B. apply inb_ok. apply B. exact I.
Qed.
Fixpoint all_allowedb (x : lexicon) (l : list op) (t : state) : bool :=
  match l with [] => true | o :: l => allowedb x o t && all_allowedb x l (fst (step x o t)) end.
Lemma all_allowedb_ok x : forall l t, all_allowedb x l t = true -> all_allowed x l t.
Proof. induction l as [|o l IH]; intros t H; [exact I|]. cbn [all_allowedb] in H. apply andb_prop in H as [A B]. split; [apply allowedb_ok; exact A|apply IH; exact B]. Qed.

Definition demo_ops : list op :=
  [Find (str "IF"); Rename 5 (str "wenn"); Find (str "if"); Find (str "Wenn"); Disable 1; Find (str "eax"); Find (str "rax");
   Mode true; Find (str "rax"); Find (str "pusha"); Find (str "syscall"); Find (str "syscall_"); Disable 2; Find (str "rax");
   Mode false; Find (str "pusha"); Find (str "syscall"); EndModule].
Example C25_demo : all_allowed (lex demo) demo_ops (init (lex demo)) /\
  snd (run_spec (lex demo) demo_ops (init (lex demo))) = [5; 0; 0; 5; 0; 0; 0; 0; 2; 0; 0; 3; 0; 0; 0; 4; 3; 0] /\
  (bindr (ResWordsInit demo) (fun s => bindr (run_model demo demo_ops s) (fun x => Ok (snd x)))) = Ok [5; 0; 0; 5; 0; 0; 0; 0; 2; 0; 0; 3; 0; 0; 0; 4; 3; 0].
Proof. split; [apply all_allowedb_ok; vm_compute; reflexivity|]. split; vm_compute; reflexivity. Qed.
Example C25_demo_distinct : distinct_names demo /\ (forall k, In k (tokens32 demo) -> flag_x64 demo k = false).
Proof.
  split; [|intros k [<-|[]]; reflexivity]. intros j k J K.
  assert (T : forall x, tok_ok demo x -> In x [1; 2; 3; 4; 5; 6]) by (intros x H; unfold tok_ok in H; change (Z.of_nat (ntok demo)) with 6 in H; cbn [In]; lia).
  apply T in J, K. intros S0. assert (H : forallb (fun j => forallb (fun k => negb (same_name (orig (lex demo) j) (orig (lex demo) k)) || (j =? k)) [1; 2; 3; 4; 5; 6]) [1; 2; 3; 4; 5; 6] = true) by (vm_compute; reflexivity).
  rewrite forallb_forall in H. specialize (H j J). cbn beta in H. rewrite forallb_forall in H. specialize (H k K). cbn beta in H. rewrite S0 in H. cbn [negb orb] in H. lia.
Qed.

(** ** what fails outside [allowed]: defects of the code *)
Definition after (c : cfg) (l : list op) : res (rw * list Z) := bindr (ResWordsInit c) (run_model c l).
(** renaming a second keyword once more: the search loop never ends *)
Theorem C25_rename_second_hangs_refuted :
  ~ (forall c l, cfg_ok c -> (forall l1 o l2, l = l1 ++ o :: l2 -> match o with Rename k n => In k (act (fst (run_spec (lex c) l1 (init (lex c))))) | Find n => True | _ => False end) ->
      after c l <> Err).
Proof.
  intros H. apply (H demo [Rename 5 (str "wenn"); Rename 1 (str "foo"); Rename 1 (str "bar")] demo_ok); [|vm_compute; reflexivity].
  intros l1 o l2 E. destruct l1 as [|o1 l1]; cbn [app] in E; inversion E as [[A B]]; [vm_compute; tauto|].
  destruct l1 as [|o2 l1]; cbn [app] in B; inversion B as [[A2 B2]]; [vm_compute; tauto|].
  destruct l1 as [|o3 l1]; cbn [app] in B2; inversion B2 as [[A3 B3]]; [vm_compute; tauto|]. destruct l1; discriminate.
Qed.
Print Assumptions C25_rename_second_hangs_refuted.
(** SYSCALL renamed, then 64-bit mode: name pointer and length no longer fit; the
    word is found as "sysc" *)
Theorem C25_rename_syscall_refuted :
  ~ (forall c n s rs, cfg_ok c -> good_name n -> after c [Rename (T_SYSCALL c) n; Mode true; Find syscall_] = Ok (s, rs) -> rs = [0; 0; T_SYSCALL c]).
Proof.
  intros H. destruct (after demo [Rename (T_SYSCALL demo) (str "foo"); Mode true; Find syscall_]) as [[s rs]| |] eqn:E; [|vm_compute in E; discriminate|vm_compute in E; discriminate].
  specialize (H demo (str "foo") s rs demo_ok (good_nameb_ok (str "foo") eq_refl) E).
  assert (R : bindr (after demo [Rename (T_SYSCALL demo) (str "foo"); Mode true; Find syscall_]) (fun x => Ok (snd x)) = Ok [0; 0; 0]) by (vm_compute; reflexivity).
  rewrite E in R. cbn [bindr snd] in R. rewrite H in R. discriminate.
Qed.
Print Assumptions C25_rename_syscall_refuted.
(** IsKeywordDisabled wants a NUL behind the name, but the names in the string
    table are not terminated: it denies a disabled keyword *)
Theorem C25_disabled_unknown_refuted :
  ~ (forall c k s rs, cfg_ok c -> In k (act (init (lex c))) -> after c [Disable k] = Ok (s, rs) -> IsKeywordDisabled c s (orig (lex c) k) = Ok true).
Proof.
  intros H. destruct (after demo [Disable 1]) as [[s rs]| |] eqn:E; [|vm_compute in E; discriminate|vm_compute in E; discriminate].
  specialize (H demo 1 s rs demo_ok ltac:(vm_compute; tauto) E).
  assert (R : bindr (after demo [Disable 1]) (fun x => IsKeywordDisabled demo (fst x) (orig (lex demo) 1)) = Ok false) by (vm_compute; reflexivity).
  rewrite E in R. cbn [bindr fst] in R. rewrite H in R. discriminate.
Qed.
Print Assumptions C25_disabled_unknown_refuted.
(** a 32-bit-only word disabled, module ended in 64-bit mode, next module
    switched back: the word is added twice, its chain becomes cyclic, and
    the word can't be disabled any more *)
Theorem C25_end_in_64bit_refuted :
  ~ (forall c k s rs, cfg_ok c -> In k (act (init (lex c))) ->
      after c [Disable k; Mode true; EndModule; Mode false; Disable k; Find (orig (lex c) k)] = Ok (s, rs) -> rs = [0; 0; 0; 0; 0; 0]).
Proof.
  intros H. set (l := [Disable 4; Mode true; EndModule; Mode false; Disable 4; Find (orig (lex demo) 4)]).
  destruct (after demo l) as [[s rs]| |] eqn:E; [|vm_compute in E; discriminate|vm_compute in E; discriminate].
  specialize (H demo 4 s rs demo_ok ltac:(vm_compute; tauto) E).
  assert (R : bindr (after demo l) (fun x => Ok (snd x)) = Ok [0; 0; 0; 0; 0; 4]) by (vm_compute; reflexivity).
  rewrite E in R. cbn [bindr snd] in R. rewrite H in R. discriminate.
Qed.
Print Assumptions C25_end_in_64bit_refuted.
(** a 64-bit-only word renamed in 64-bit mode: the module end makes it known in 32-bit mode *)
Theorem C25_renamed_x64_refuted :
  ~ (forall c k n s rs, cfg_ok c -> In k (tokens64 c) -> good_name n ->
      after c [Mode true; Rename k n; Mode false; EndModule; Find (orig (lex c) k)] = Ok (s, rs) -> rs = [0; 0; 0; 0; 0]).
Proof.
  intros H. set (l := [Mode true; Rename 2 (str "foo"); Mode false; EndModule; Find (orig (lex demo) 2)]).
  destruct (after demo l) as [[s rs]| |] eqn:E; [|vm_compute in E; discriminate|vm_compute in E; discriminate].
  specialize (H demo 2 (str "foo") s rs demo_ok ltac:(vm_compute; tauto) (good_nameb_ok (str "foo") eq_refl) E).
  assert (R : bindr (after demo l) (fun x => Ok (snd x)) = Ok [0; 0; 0; 0; 2]) by (vm_compute; reflexivity).
  rewrite E in R. cbn [bindr snd] in R. rewrite H in R. discriminate.
Qed.
Print Assumptions C25_renamed_x64_refuted.
