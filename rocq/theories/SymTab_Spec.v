(** What a symbol table with one level of local scope per procedure should
    do: scopes are lists of symbols in the order of their definition. *)
From Verif Require Import Base.

Definition fold_case (c : Z) : Z := if (97 <=? c) && (c <=? 122) then c - 32 else c.
Definition same (cs : bool) (a b : list Z) : bool :=
  if cs then (if list_eq_dec Z.eq_dec a b then true else false)
  else (if list_eq_dec Z.eq_dec (map fold_case a) (map fold_case b) then true else false).

Record spec := {
  next : Z;                    (* number of symbols so far; a symbol is a number below *)
  names : Z -> list Z; undef : Z -> bool;
  glob : list Z; loc : list Z; (* global scope, scope of the current procedure *)
  det : list Z;                (* symbols in no scope yet *)
  saved : Z -> list Z;         (* scopes of the procedures that are not current *)
  cur : option Z; stack : list Z; cs : bool;
  dirty : bool                 (* the local scope changed since the procedure was entered *)
}.

Inductive op :=
  | Find (n : list Z) | FindLocal (n : list Z)
  | Lookup (n : list Z) | LookupLocal (n : list Z)
  | Create (n : list Z) | LCreate (n : list Z) (state : Z)
  | New (n : list Z) | AddGlobal (p : Z) | AddLocal (p : Z) (n : list Z)
  | Define (p state : Z)
  | Enter (pass1 : bool) (proc : Z) | Leave (pass1 : bool)
  | SetCase (b : bool).

Definition is (t : spec) (n : list Z) (p : Z) : bool := same (cs t) n (names t p).
Definition find_loc (t : spec) (n : list Z) : option Z :=
  match cur t with Some _ => find (is t n) (loc t) | None => None end.
(** the innermost scope wins *)
Definition visible (t : spec) (n : list Z) : option Z :=
  match find_loc t n with Some p => Some p | None => find (is t n) (glob t) end.

Definition add_name (t : spec) (n : list Z) (u : bool) : spec :=
  {| next := next t + 1; names := fun p => if p =? next t then n else names t p;
     undef := fun p => if p =? next t then u else undef t p;
     glob := glob t; loc := loc t; det := det t; saved := saved t; cur := cur t; stack := stack t; cs := cs t; dirty := dirty t |}.
Definition set_scopes (t : spec) (g l d : list Z) (dr : bool) : spec :=
  {| next := next t; names := names t; undef := undef t; glob := g; loc := l; det := d; saved := saved t;
     cur := cur t; stack := stack t; cs := cs t; dirty := dr |}.
Definition set_cur (t : spec) (l : list Z) (sv : Z -> list Z) (c : option Z) (st : list Z) (dr : bool) : spec :=
  {| next := next t; names := names t; undef := undef t; glob := glob t; loc := l; det := det t; saved := sv;
     cur := c; stack := st; cs := cs t; dirty := dr |}.
Definition without (p : Z) (l : list Z) : list Z := filter (fun x => negb (x =? p)) l.
Definition upds (f : Z -> list Z) (q : Z) (l : list Z) : Z -> list Z := fun x => if x =? q then l else f x.

Definition good_name (n : list Z) : Prop := Forall is_byte n /\ (length n <= 247)%nat.

(** one operation; the result is the symbol found or made *)
Definition step (o : op) (t : spec) : spec * option Z :=
  match o with
  | Find n => (t, visible t n)
  | FindLocal n => (t, find_loc t n)
  | Lookup n =>
      match visible t n with
      | Some p => (t, Some p)
      | None => let t1 := add_name t n true in
                (set_scopes t1 (glob t ++ [next t]) (loc t) (det t) (dirty t), Some (next t))
      end
  | LookupLocal n =>
      match find_loc t n, find (is t n) (glob t) with
      | Some p, _ => (t, Some p)
      | None, Some p =>
          if undef t p then (set_scopes t (without p (glob t)) (loc t ++ [p]) (det t) true, Some p) else (t, Some p)
      | None, None =>
          let t1 := add_name t n true in
          (set_scopes t1 (glob t) (loc t ++ [next t]) (det t) true, Some (next t))
      end
  | Create n =>
      match visible t n with
      | Some _ => (t, None)
      | None => let t1 := add_name t n true in
                (set_scopes t1 (glob t ++ [next t]) (loc t) (det t) (dirty t), Some (next t))
      end
  | LCreate n _ =>
      match visible t n with
      | Some p => if undef t p then let t1 := add_name t n false in
                (set_scopes t1 (glob t) (loc t ++ [next t]) (det t) true, Some (next t))
                else (t, None)
      | None => let t1 := add_name t n false in
                (set_scopes t1 (glob t) (loc t ++ [next t]) (det t) true, Some (next t))
      end
  | New n => let t1 := add_name t n true in
             (set_scopes t1 (glob t) (loc t) (next t :: det t) (dirty t), Some (next t))
  | AddGlobal p =>
      match visible t (names t p) with
      | Some _ => (t, None)
      | None => (set_scopes t (glob t ++ [p]) (loc t) (without p (det t)) (dirty t), Some p)
      end
  | AddLocal p n =>
      let ok := (let t1 := {| next := next t; names := fun x => if x =? p then n else names t x; undef := undef t;
                     glob := glob t; loc := loc t; det := det t; saved := saved t; cur := cur t; stack := stack t; cs := cs t; dirty := dirty t |} in
                 (set_scopes t1 (glob t) (loc t ++ [p]) (without p (det t)) true, Some p)) in
      match visible t n with
      | Some q => if undef t q then ok else (t, None)
      | None => ok
      end
  | Define p _ =>
      ({| next := next t; names := names t; undef := fun x => if x =? p then false else undef t x;
          glob := glob t; loc := loc t; det := det t; saved := saved t; cur := cur t; stack := stack t; cs := cs t; dirty := dirty t |}, None)
  | Enter pass1 q =>
      let sv := match cur t with Some c => if pass1 then upds (saved t) c (loc t) else saved t | None => saved t end in
      let st := match cur t with Some c => c :: stack t | None => stack t end in
      (set_cur t (if pass1 then [] else sv q) sv (Some q) st pass1, None)
  | Leave pass1 =>
      match cur t with
      | None => (t, None)
      | Some c =>
          let sv := if pass1 then upds (saved t) c (loc t) else saved t in
          match stack t with
          | [] => (set_cur t [] sv None [] false, None)
          | q :: st => (set_cur t (sv q) sv (Some q) st false, None)
          end
      end
  | SetCase b =>
      ({| next := next t; names := names t; undef := undef t; glob := glob t; loc := loc t; det := det t; saved := saved t;
          cur := cur t; stack := stack t; cs := b; dirty := dirty t |}, None)
  end.

(** which operations may occur: names as the tokenizer makes them; local
    symbols only inside of a procedure; procedures are entered once at a
    time; behind pass 1 a procedure has no new local symbols *)
Definition allowed (o : op) (t : spec) : Prop :=
  match o with
  | Find n | FindLocal n | Lookup n | Create n | New n => good_name n
  | LookupLocal n => good_name n /\ cur t <> None
  | LCreate n state => good_name n /\ cur t <> None /\ state <> 0 /\
      match find_loc t n with Some p => undef t p = false | None => True end
  | AddGlobal p => In p (det t)
  | AddLocal p n => good_name n /\ cur t <> None /\ In p (det t) /\ undef t p = false /\
      match find_loc t n with Some p => undef t p = false | None => True end
  | Define p state => 0 <= p < next t /\ state <> 0
  | Enter pass1 q => cur t <> Some q /\ ~ In q (stack t) /\ (pass1 = false -> cur t <> None -> dirty t = false)
  | Leave pass1 => cur t <> None /\ (pass1 = false -> dirty t = false)
  | SetCase _ => True
  end.
Definition empty (b : bool) : spec :=
  {| next := 0; names := fun _ => []; undef := fun _ => false; glob := []; loc := []; det := []; saved := fun _ => [];
     cur := None; stack := []; cs := b; dirty := false |}.
