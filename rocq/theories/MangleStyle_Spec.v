(** The decoration prescribed for a symbol by its language type and the options. *)
From Verif Require Import Base Mangle_Model Mangle_Spec.

(** which decoration the conventions prescribe *)
Definition style_of (o : opts) (s : sym) : style :=
  match langtype s with
  | LANG_C => if no_cdecl_decoration o then Plain else Lead
  | LANG_STDCALL => match stdcall_decoration o with NONE => Plain | HALF => Lead | FULL => if isproc s then Std (parasize s) else Lead end
  | LANG_PASCAL | LANG_FORTRAN | LANG_BASIC => Upper
  | LANG_FASTCALL =>
      match m_fctype o with
      | FCT_MSC => if isproc s then Fast (parasize s) else Plain
      | FCT_WATCOMC => if isproc s then Trail else match mem_type s with MT_OTHER => Lead | _ => Trail end
      | FCT_WIN64 => Plain
      end
  | LANG_VECTORCALL =>
      match m_fctype o with
      | FCT_WATCOMC => if isproc s then Trail else match mem_type s with MT_OTHER => Lead | _ => Trail end
      | _ => if isproc s then match vectorcall_decoration o with FULL => Vector (parasize s) | _ => Plain end else Plain
      end
  | _ => Plain
  end.
(** VECTORCALL with reduced decoration in 16/32-bit code is left out: see the refuted variant *)
Definition regular (o : opts) (s : sym) : Prop :=
  o_fctype o = m_fctype o /\ 0 <= parasize s < 2 ^ 31 /\
  (langtype s = LANG_VECTORCALL -> m_fctype o = FCT_MSC -> isproc s = true -> vectorcall_decoration o = FULL).
