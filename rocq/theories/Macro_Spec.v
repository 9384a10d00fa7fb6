(** What a line of a macro stands for, without placeholders. *)
From Coq Require Import List ZArith Bool.
From Verif Require Import Base.
Import ListNotations.
Open Scope Z_scope.

Definition digit (c : Z) : bool := (48 <=? c) && (c <=? 57).
Definition letter (c : Z) : bool :=
  ((65 <=? c) && (c <=? 90)) || ((97 <=? c) && (c <=? 122)) || existsb (Z.eqb c) [36; 63; 64; 95].
Definition idc (c : Z) : bool := digit c || letter c.
Definition small (c : Z) : Z := if (65 <=? c) && (c <=? 90) then c + 32 else c.
Definition same_name (nocase : bool) (a b : list Z) : bool :=
  if list_eq_dec Z.eq_dec (if nocase then map small a else a) (if nocase then map small b else b) then true else false.

(** a word: as many id characters as there are *)
Fixpoint word_len (l : list Z) : nat := match l with c :: r => if idc c then S (word_len r) else O | [] => O end.
(** the values of parameters and locals, in order *)
Definition meaning := list (list Z * list Z).
Definition value (nocase : bool) (ms : meaning) (w : list Z) : option (list Z) :=
  option_map snd (find (fun '(n, _) => same_name nocase n w) ms).

(** strings: the delimiter we are in, the depth of < >, and the depth where the
    string began: a string ends with its < > *)
Record place := { inside : option Z; depth : Z; began : Z }.
Definition after_char (s : place) (c : Z) : place :=
  if c =? 60 then {| inside := inside s; depth := depth s + 1; began := began s |}
  else if c =? 62 then
    if depth s =? 0 then s
    else {| inside := if began s =? depth s then None else inside s; depth := depth s - 1; began := began s |}
  else if (c =? 34) || (c =? 39) then
    match inside s with
    | Some d => {| inside := if d =? c then None else Some d; depth := depth s; began := began s |}
    | None => {| inside := Some c; depth := depth s; began := depth s |}
    end
  else s.
Definition starts_with (c : Z) (l : list Z) : bool := match l with x :: _ => x =? c | [] => false end.
Definition without (c : Z) (l : list Z) : list Z := if starts_with c l then tl l else l.
(** whether a word starts here; [prev] is the character before, [None] at the
    beginning and behind a name that was replaced *)
Definition word_here (dot : bool) (prev : option Z) (l : list Z) : bool :=
  match l with
  | c :: _ => letter c || ((c =? 46) && dot && match prev with Some x => negb (x =? 93) && negb (idc x) | None => true end)
  | [] => false
  end.
(** the word and what follows *)
Definition word (l : list Z) : list Z * list Z :=
  match l with c :: r => (c :: firstn (word_len r) r, skipn (word_len r) r) | [] => ([], []) end.

(** The expansion.  Numbers stay.  A word that is a name gives way to its value,
    together with an & before and behind it; within a string only if there is such
    an &.  The values are not looked at again.  Behind ! a delimiter is an
    ordinary character. *)
Fixpoint expand (fuel : nat) (dot nocase : bool) (ms : meaning) (prev : option Z) (s : place) (l : list Z) : list Z :=
  match fuel with
  | O => []
  | S f =>
    match l with
    | [] => []
    | c :: r =>
      if digit c then
        let n := word_len l in firstn n l ++ expand f dot nocase ms (Some (last (firstn n l) 0)) s (skipn n l)
      else if word_here dot prev l then
        let (w, rest) := word l in
        match value nocase ms w, inside s, starts_with 38 rest with
        | Some x, None, _ | Some x, _, true => x ++ expand f dot nocase ms None s (without 38 rest)
        | _, _, _ => w ++ expand f dot nocase ms (Some (last w 0)) s rest
        end
      else
        match (if (c =? 38) && word_here dot (Some 38) r then value nocase ms (fst (word r)) else None) with
        | Some x => x ++ expand f dot nocase ms None s (without 38 (snd (word r)))
        | None =>
          match r with
          | x :: r' =>
            if (c =? 33) && match inside s with None => true | _ => false end && existsb (Z.eqb x) [60; 62; 34; 39]
            then c :: x :: expand f dot nocase ms (Some x) s r'
            else c :: expand f dot nocase ms (Some c) (after_char s c) r
          | [] => [c]
          end
        end
    end
  end.
Definition nowhere := {| inside := None; depth := 0; began := 0 |}.
Definition expansion (dot nocase : bool) (ms : meaning) (l : list Z) : list Z := expand (S (length l)) dot nocase ms None nowhere l.

(** the name of a local: two question marks and a hexadecimal number *)
Definition hexval (c : Z) : option Z := if digit c then Some (c - 48) else if (65 <=? c) && (c <=? 70) then Some (c - 55) else None.
Definition hexnum (l : list Z) : option Z :=
  fold_left (fun a c => match a, hexval c with Some a, Some d => Some (16 * a + d) | _, _ => None end) l (Some 0).
(** the meanings in an expansion: arguments (a missing one is empty), then locals *)
Definition names_local (f : Z -> list Z) (from : Z) (locals : list (list Z)) : meaning :=
  combine locals (map (fun k => f (from + Z.of_nat k)) (seq 0 (length locals))).
Definition arguments (ps : list (list Z)) (args : list (option (list Z))) : meaning :=
  combine ps (map (fun a => match a with Some a => a | None => [] end) args).
(** The number of a name is kept as a character of the line.  [inert]: the
    character means nothing to the scanner; a name of two characters or more with a
    number other than 38 is harmless too, if names cannot start with a dot. *)
Definition inert (i : Z) : Prop := idc i = false /\ ~ In i [33; 34; 38; 39; 46; 60; 62; 93].
Definition harmless (dot : bool) (i : Z) (name : list Z) : Prop := inert i \/ (2 <= zlen name /\ i <> 38 /\ dot = false).
Definition all_harmless (dot : bool) (names : list (list Z)) : Prop :=
  zlen names <= 255 /\ forall i, (i < length names)%nat -> harmless dot (Z.of_nat i + 1) (nth i names []).
(** the names made for the locals of all expansions *)
Definition all_locals (f : Z -> list Z) (starts counts : list Z) : list (list Z) :=
  flat_map (fun '(s, n) => map (fun k => f (s + Z.of_nat k)) (seq 0 (Z.to_nat n))) (combine starts counts).
