(** Model of mangle.c: decoration of symbol names.
    The buffer is returned as the list of characters before the NUL, with the
    returned length. MANGLERSUPP is 0 and left out. *)
From Verif Require Import Base.

(** globals.h:303-315 *)
Inductive lang := LANG_NONE | LANG_C | LANG_SYSCALL | LANG_STDCALL | LANG_PASCAL | LANG_FORTRAN | LANG_BASIC
  | LANG_FASTCALL | LANG_VECTORCALL | LANG_SYSVCALL | LANG_DELPHICALL.
(** globals.h:479-500; FCT_DELPHI is another enum with the value 0 *)
Inductive fct := FCT_MSC | FCT_WATCOMC | FCT_WIN64.
Inductive decor := FULL | NONE | HALF.
Inductive memtype := MT_NEAR | MT_FAR | MT_EMPTY | MT_OTHER.
Record sym := { name : list Z; langtype : lang; isproc : bool; mem_type : memtype; parasize : Z }.
Record opts := { no_cdecl_decoration : bool; stdcall_decoration : decor; vectorcall_decoration : decor;
                 o_fctype : fct;          (* Options.fctype *)
                 m_fctype : fct }.        (* ModuleInfo.fctype *)
Definition full (d : decor) : bool := match d with FULL => true | _ => false end.
Definition none (d : decor) : bool := match d with NONE => true | _ => false end.
Definition is_msc (f : fct) : bool := match f with FCT_MSC => true | _ => false end.
Definition is_vector (l : lang) : bool := match l with LANG_VECTORCALL => true | _ => false end.

(** printf of an unsigned (%u) and of an int (%d) *)
Fixpoint udigits (n : nat) (v : Z) (acc : list Z) : list Z :=
  match n with
  | O => acc
  | S n => let acc := (48 + v mod 10) :: acc in if v / 10 =? 0 then acc else udigits n (v / 10) acc
  end.
Definition fmt_u (v : Z) : list Z := udigits 10 v [].
Definition fmt_d (v : Z) : list Z := let i := swrap 32 v in if i <? 0 then 45 :: fmt_u (- i) else fmt_u i.

Definition out := (list Z * Z)%type.
Definition printed (l : list Z) : out := (l, zlen l).
(** assemble.c:129-136, strupr of the C library *)
Definition toupper (c : Z) : Z := if (97 <=? c) && (c <=? 122) then c - 32 else c.

(** mangle.c:70-93 *)
Definition VoidMangler (s : sym) : out := (name s, zlen (name s)).
Definition UCaseMangler (s : sym) : out := (map toupper (name s), zlen (name s)).
Definition UScoreMangler (s : sym) : out := (95 :: name s, zlen (name s) + 1).
(** mangle.c:98-108 *)
Definition StdcallMangler (o : opts) (s : sym) : out :=
  if full (stdcall_decoration o) && isproc s then printed (95 :: name s ++ 64 :: fmt_d (parasize s))
  else UScoreMangler s.
(** mangle.c:112-127 *)
Definition ms32_decorate (o : opts) (s : sym) : out :=
  if is_vector (langtype s) && full (vectorcall_decoration o) && isproc s then printed (name s ++ 64 :: 64 :: fmt_d (parasize s))
  else if is_msc (o_fctype o) && isproc s then printed (64 :: name s ++ 64 :: fmt_u (parasize s))
  else (name s, zlen (name s)).
(** mangle.c:143-175 *)
Definition ow_decorate (s : sym) : out :=
  let back := if isproc s then true else match mem_type s with MT_NEAR | MT_FAR | MT_EMPTY => true | MT_OTHER => false end in
  let front := if isproc s then false else match mem_type s with MT_NEAR | MT_FAR | MT_EMPTY => false | MT_OTHER => true end in
  let buffer := (if front then [95] else []) ++ name s ++ (if back then [95] else []) in
  (buffer, zlen buffer).
(** mangle.c:182-195 *)
Definition ms64_decorate (o : opts) (s : sym) : out :=
  if is_vector (langtype s) && full (vectorcall_decoration o) && isproc s then printed (name s ++ 64 :: 64 :: fmt_d (parasize s))
  else (name s, zlen (name s)).
(** mangle.c:58-66 *)
Definition fcmanglers (f : fct) : opts -> sym -> out :=
  match f with FCT_MSC => ms32_decorate | FCT_WATCOMC => fun _ => ow_decorate | FCT_WIN64 => ms64_decorate end.
(** mangle.c:229-270 *)
Definition Mangle (o : opts) (s : sym) : out :=
  match langtype s with
  | LANG_C => if no_cdecl_decoration o then VoidMangler s else UScoreMangler s
  | LANG_SYSCALL => VoidMangler s
  | LANG_STDCALL => if none (stdcall_decoration o) then VoidMangler s else StdcallMangler o s
  | LANG_PASCAL | LANG_FORTRAN | LANG_BASIC => UCaseMangler s
  | LANG_VECTORCALL | LANG_FASTCALL => fcmanglers (m_fctype o) o s
  | _ => VoidMangler s
  end.
