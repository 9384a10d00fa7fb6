(** C34: name decoration. *)
From Coq Require Import String Ascii.
From Verif Require Import Base Mangle_Model Mangle_Spec MangleStyle_Spec Mangle_Proofs.
Local Open Scope string_scope. Local Open Scope list_scope. Local Open Scope Z_scope.
Definition str (s : string) : list Z := map (fun a => Z.of_nat (nat_of_ascii a)) (list_ascii_of_string s).

(** every name gets the decoration of its language type, and its length is returned *)
Theorem C34_decoration : forall o s, regular o s ->
  decorated (style_of o s) (name s) (fst (Mangle o s)) /\ snd (Mangle o s) = zlen (fst (Mangle o s)).
Proof. exact Mangle_spec. Qed.
Print Assumptions C34_decoration.

(** different names stay different under the same case-preserving form, whatever the sizes *)
Theorem C34_distinct : forall o s1 s2, regular o s1 -> regular o s2 -> same_form (style_of o s1) (style_of o s2) -> preserves_case (style_of o s1) ->
  fst (Mangle o s1) = fst (Mangle o s2) -> name s1 = name s2.
Proof.
  intros o s1 s2 R1 R2 SF PC E. destruct (Mangle_spec o s1 R1) as [D1 _]. destruct (Mangle_spec o s2 R2) as [D2 _].
  rewrite <- E in D2. exact (decorated_inj _ _ _ _ _ SF PC D1 D2).
Qed.
Print Assumptions C34_distinct.

(** ** examples *)
Definition opt (d v : decor) (f : fct) : opts := {| no_cdecl_decoration := false; stdcall_decoration := d; vectorcall_decoration := v; o_fctype := f; m_fctype := f |}.
Definition proc (n : string) (l : lang) (p : Z) : sym := {| name := str n; langtype := l; isproc := true; mem_type := MT_NEAR; parasize := p |}.
Definition data (n : string) (l : lang) : sym := {| name := str n; langtype := l; isproc := false; mem_type := MT_OTHER; parasize := 0 |}.
Example C34_demo : regular (opt FULL FULL FCT_MSC) (proc "Foo" LANG_STDCALL 12) /\
  map (fun l => fst (Mangle (opt FULL FULL FCT_MSC) (proc "Foo" l 12))) [LANG_C; LANG_STDCALL; LANG_PASCAL; LANG_FASTCALL; LANG_VECTORCALL; LANG_SYSCALL]
  = [str "_Foo"; str "_Foo@12"; str "FOO"; str "@Foo@12"; str "Foo@@12"; str "Foo"].
Proof. split; [|vm_compute; reflexivity]. unfold regular. cbn [opt proc o_fctype m_fctype parasize langtype isproc]. change (2 ^ 31) with 2147483648. split; [reflexivity|]. split; [lia|discriminate]. Qed.
Example C34_demo2 : map (fun s => fst (Mangle (opt HALF FULL FCT_WATCOMC) s)) [proc "f" LANG_FASTCALL 4; data "d" LANG_FASTCALL; proc "s" LANG_STDCALL 4]
  = [str "f_"; str "_d"; str "_s"].
Proof. vm_compute. reflexivity. Qed.

(** ** what does not hold *)
(** the forms are not disjoint: a data item may clash with a procedure of another name *)
Theorem C34_across_forms_refuted :
  ~ (forall o s1 s2, regular o s1 -> regular o s2 -> langtype s1 = langtype s2 -> preserves_case (style_of o s1) ->
      fst (Mangle o s1) = fst (Mangle o s2) -> name s1 = name s2).
Proof.
  intros H. specialize (H (opt FULL FULL FCT_MSC) (proc "a" LANG_STDCALL 4) (data "a@4" LANG_STDCALL)).
  assert (E : str "a" = str "a@4"); [|discriminate]. apply H; try reflexivity; try discriminate;
    (unfold regular; cbn [opt proc data o_fctype m_fctype parasize langtype isproc]; change (2 ^ 31) with 2147483648; split; [reflexivity|]; split; [lia|discriminate]).
Qed.
Print Assumptions C34_across_forms_refuted.
(** VECTORCALL procedures without decoration (-zv0) get the FASTCALL form in 32-bit code *)
Theorem C34_vectorcall_none_refuted :
  ~ (forall o s, o_fctype o = m_fctype o -> 0 <= parasize s < 2 ^ 31 -> langtype s = LANG_VECTORCALL -> decorated (style_of o s) (name s) (fst (Mangle o s))).
Proof.
  intros H. specialize (H (opt FULL NONE FCT_MSC) (proc "f" LANG_VECTORCALL 16) eq_refl). cbn in H. specialize (H ltac:(lia) eq_refl). discriminate.
Qed.
Print Assumptions C34_vectorcall_none_refuted.
