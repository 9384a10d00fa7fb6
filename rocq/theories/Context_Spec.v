(** What PUSHCONTEXT and POPCONTEXT should do: every kind of state has a
    stack of its own. *)
From Verif Require Import Base.

Inductive kind := K_assumes | K_radix | K_listing | K_cpu | K_alignment.
Definition kind_eqb (a b : kind) : bool :=
  match a, b with
  | K_assumes, K_assumes | K_radix, K_radix | K_listing, K_listing | K_cpu, K_cpu | K_alignment, K_alignment => true
  | _, _ => false
  end.

Section Machine.
Context {part : Type}.
(** current value of each kind of state, and the saved values *)
Record machine := { cur : kind -> part; saved : kind -> list part }.

Definition m_push (sel : kind -> bool) (m : machine) : machine :=
  {| cur := cur m; saved := fun k => if sel k then cur m k :: saved m k else saved m k |}.
Definition m_pop (sel : kind -> bool) (m : machine) : machine :=
  {| cur := fun k => if sel k then hd (cur m k) (saved m k) else cur m k;
     saved := fun k => if sel k then tl (saved m k) else saved m k |}.
Definition m_missing (sel : kind -> bool) (m : machine) : Prop :=
  exists k, sel k = true /\ saved m k = [].
Definition m_eq (a b : machine) : Prop := forall k, cur a k = cur b k /\ saved a k = saved b k.
End Machine.
Arguments machine : clear implicits.

(** the words of the directive and the kinds they select *)
Definition ascii_upper (c : Z) : Z := if (97 <=? c) && (c <=? 122) then c - 32 else c.
Definition words : list (list Z * (kind -> bool)) :=
  [ ([65; 83; 83; 85; 77; 69; 83] (* ASSUMES *), kind_eqb K_assumes);
    ([82; 65; 68; 73; 88] (* RADIX *), kind_eqb K_radix);
    ([76; 73; 83; 84; 73; 78; 71] (* LISTING *), kind_eqb K_listing);
    ([67; 80; 85] (* CPU *), kind_eqb K_cpu);
    ([65; 76; 73; 71; 78; 77; 69; 78; 84] (* ALIGNMENT *), kind_eqb K_alignment);
    ([65; 76; 76] (* ALL *), fun k => negb (kind_eqb K_alignment k)) ].
Definition selects (name : list Z) (sel : kind -> bool) : Prop := In (map ascii_upper name, sel) words.

(** a directive with several words: the words are processed in order; POP
    stops with an error at the first word that lacks a saved value *)
Section Runs.
Context {part : Type}.
Inductive pushes : list (kind -> bool) -> machine part -> machine part -> Prop :=
  | pu_nil m m' : m_eq m' m -> pushes [] m m'
  | pu_cons sel sels m m1 m' : m_eq m1 (m_push sel m) -> pushes sels m1 m' -> pushes (sel :: sels) m m'.
Inductive pops : list (kind -> bool) -> machine part -> bool -> machine part -> Prop :=
  | po_nil m m' : m_eq m' m -> pops [] m false m'
  | po_ok sel sels m m1 e m' : ~ m_missing sel m -> m_eq m1 (m_pop sel m) -> pops sels m1 e m' -> pops (sel :: sels) m e m'
  | po_err sel sels m m' : m_missing sel m -> m_eq m' (m_pop sel m) -> pops (sel :: sels) m true m'.
End Runs.
