(** What a structure definition means: where each line puts its field, which
    names are visible, and where they are. *)
From Verif Require Import Base Struct_Model Struct_Spec.

Definition vt_max (size : Z) (vt : option (list sfield * Z)) : Z := match vt with Some (_, m) => m | None => size end.
Definition vt_fields (vt : option (list sfield * Z)) : option (list sfield) := match vt with Some (fl, _) => Some fl | None => None end.

(** ** layout: (position, extent, largest scalar) before and after a line.
    [al] = alignment of the structure, [u] = it is a union *)
Inductive line (al : Z) : bool -> def -> Z * Z * Z -> list sfield -> Z * Z * Z -> Prop :=
  | L_field n sz ts vt p t m off : place (eff al (vt_max sz vt)) p off ->
      line al false (DField n sz ts vt) (p, t, m) [SF n off ts (vt_fields vt)] (off + ts, Z.max t (off + ts), Z.max m (vt_max sz vt))
  | L_field_union n sz ts vt p t m :
      line al true (DField n sz ts vt) (p, t, m) [SF n 0 ts (vt_fields vt)] (p, Z.max t ts, Z.max m (vt_max sz vt))
  | L_align v p t m p' : place v p p' -> line al false (DAlign v) (p, t, m) [] (p', Z.max t p', m)
  | L_align_union v s : line al true (DAlign v) s [] s
  | L_org o p t m : line al false (DOrg o) (p, t, m) [] (o, Z.max t o, m)
  | L_struct u n body p t m fl p1 t1 m1 size off : lines al u body (0, 0, 0) fl (p1, t1, m1) -> place (eff al m1) t1 size ->
      place (eff al m1) p off ->
      line al false (DStruct u n body) (p, t, m) [SF n off size (Some fl)] (off + size, Z.max t (off + size), Z.max m m1)
  | L_struct_union u n body p t m fl p1 t1 m1 size : lines al u body (0, 0, 0) fl (p1, t1, m1) -> place (eff al m1) t1 size ->
      line al true (DStruct u n body) (p, t, m) [SF n 0 size (Some fl)] (p, Z.max t size, Z.max m m1)
with lines (al : Z) : bool -> list def -> Z * Z * Z -> list sfield -> Z * Z * Z -> Prop :=
  | LS_nil u s : lines al u [] s [] s
  | LS_cons u d l s1 f1 s2 f2 s3 : line al u d s1 f1 s2 -> lines al u l s2 f2 s3 -> lines al u (d :: l) s1 (f1 ++ f2) s3.

(** ** definitions covered *)
Definition all_of {A} (P : A -> Prop) : list A -> Prop := fix go l := match l with [] => True | x :: l => P x /\ go l end.
(** sizes are not negative, ALIGN has a power of 2, ORG is not negative *)
Fixpoint fine (d : def) : Prop :=
  match d with
  | DField _ sz ts vt => 0 <= sz /\ 0 <= ts /\ match vt with Some (_, m) => 0 <= m | None => True end
  | DAlign v => exists k, 0 <= k /\ v = 2 ^ k
  | DOrg o => 0 <= o
  | DStruct _ _ body => all_of fine body
  end.
(** an upper bound of the bytes a line takes *)
Definition sum_of {A} (w : A -> Z) : list A -> Z := fix go l := match l with [] => 0 | x :: l => w x + go l end.
Fixpoint weight (d : def) : Z :=
  match d with
  | DField _ _ ts _ => ts + 64
  | DAlign v => v
  | DOrg o => o
  | DStruct _ _ body => sum_of weight body + 128
  end.

(** ** names *)
Definition upper (c : Z) : Z := if (Z.leb 97 c && Z.leb c 122)%bool then c - 32 else c.
Definition same_name (cs : bool) (a b : list Z) : Prop := if cs then a = b else map upper a = map upper b.
(** the visible members: name, offset in the whole structure, field *)
Definition entry := (list Z * Z * sfield)%type.
Fixpoint members_of (base : Z) (f : sfield) : list entry :=
  match f with
  | SF [] off _ (Some fl) => flat_map (members_of (base + off)) fl
  | SF [] _ _ None => []
  | SF nm off _ _ => [(nm, base + off, f)]
  end.
Definition members (fl : list sfield) : list entry := flat_map (members_of 0) fl.
(** nesting of anonymous structures *)
Definition max_of {A} (w : A -> Z) : list A -> Z := fix go l := match l with [] => 0 | x :: l => Z.max (w x) (go l) end.
Fixpoint depth (f : sfield) : Z :=
  match f with SF [] _ _ (Some fl) => 1 + max_of depth fl | _ => 0 end.
Definition depths (fl : list sfield) : Z := max_of depth fl.
(** no two members have the same name *)
Fixpoint distinct (cs : bool) (l : list (list Z)) : Prop :=
  match l with [] => True | a :: l => (forall b, In b l -> ~ same_name cs a b) /\ distinct cs l end.
Definition names (l : list entry) : list (list Z) := map (fun e => fst (fst e)) l.

(** ** names of a definition *)
Definition vt_names (vt : option (list sfield * Z)) : list (list Z) := match vt with Some (fl, _) => names (members fl) | None => [] end.
Fixpoint dnames (d : def) : list (list Z) :=
  match d with
  | DField [] _ _ vt => vt_names vt
  | DField n _ _ _ => [n]
  | DStruct _ [] body => flat_map dnames body
  | DStruct _ n _ => [n]
  | _ => []
  end.
(** inside every embedded structure the names are distinct *)
Fixpoint inner_distinct (cs : bool) (d : def) : Prop :=
  match d with
  | DStruct _ _ body => distinct cs (flat_map dnames body) /\ all_of (inner_distinct cs) body
  | _ => True
  end.
(** the STRUCT types used have distinct names *)
Fixpoint types_distinct (cs : bool) (d : def) : Prop :=
  match d with
  | DField _ _ _ (Some (fl, _)) => distinct cs (names (members fl))
  | DStruct _ _ body => all_of (types_distinct cs) body
  | _ => True
  end.
Definition vt_depth (vt : option (list sfield * Z)) : Z := match vt with Some (fl, _) => 1 + depths fl | None => 0 end.
(** nesting of anonymous structures in a definition *)
Fixpoint ddepth (d : def) : Z :=
  match d with
  | DField [] _ _ vt => vt_depth vt
  | DStruct _ [] body => 1 + max_of ddepth body
  | _ => 0
  end.
Fixpoint shallow (d : def) : Prop :=
  match d with DStruct _ _ body => max_of ddepth body <= 31 /\ all_of shallow body | _ => True end.
(** no ORG in a union *)
Fixpoint no_org (u : bool) (d : def) : Prop :=
  match d with DOrg _ => u = false | DStruct u' _ body => all_of (no_org u') body | _ => True end.
