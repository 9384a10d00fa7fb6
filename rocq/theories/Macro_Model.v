(** Model of the storing and expanding of macro lines: macro.c HexDigit (63-74),
    fill_placeholders (76-118), replace_parm (120-175), store_placeholders
    (177-248), the places where StoreMacro and GetTextLine call them (macro.c
    589-603, input.c 716-730), and the counter of macro locals (expans.c 639-640).

    A line is the list of its characters (0-255) without the terminating zero.
    Simplifications: the line stands at the beginning of its buffer of
    MAX_LINE_LEN bytes; EmitError ends the storing ([Err]). *)
From Coq Require Import List ZArith Bool.
From Verif Require Import Base.
Import ListNotations.
Open Scope Z_scope.

(** globals.h 68, macro.h 34, macro.c 36 *)
Definition MAX_LINE_LEN := 1024.
Definition PLACEHOLDER_CHAR := 10.
Definition MAX_PLACEHOLDERS := 256.

(** ltype.c; globals.h 244, 254 *)
Definition isldigit (c : Z) : bool := (48 <=? c) && (c <=? 57).
Definition is_valid_id_char (c : Z) : bool :=
  isldigit c || ((65 <=? c) && (c <=? 90)) || ((97 <=? c) && (c <=? 122)) || (c =? 36) || (c =? 63) || (c =? 64) || (c =? 95).

(** memcmp or _memicmp, by OPTION CASEMAP *)
Definition lower (c : Z) : Z := if (65 <=? c) && (c <=? 90) then c + 32 else c.
Fixpoint SymCmp (nocase : bool) (a b : list Z) : bool :=
  match a, b with
  | [], [] => true
  | x :: a, y :: b => (if nocase then lower x =? lower y else x =? y) && SymCmp nocase a b
  | _, _ => false
  end.
(** 138-139: the number of the first name that fits, counted from [count] *)
Fixpoint find_name (nocase : bool) (w : list Z) (names : list (list Z)) (count : Z) : option Z :=
  match names with
  | [] => None
  | n :: r => if (zlen n =? zlen w) && SymCmp nocase w n then Some count else find_name nocase w r (count + 1)
  end.

(** the longest prefix of id characters, and the rest *)
Fixpoint span_id (l : list Z) : list Z * list Z :=
  match l with
  | c :: r => if is_valid_id_char c then let (a, b) := span_id r in (c :: a, b) else ([], l)
  | [] => ([], [])
  end.
Definition at_ (l : list Z) (c : Z) : bool := match l with x :: _ => x =? c | [] => false end.
Definition drop1 (l : list Z) : list Z := match l with _ :: r => r | [] => [] end.

(** 120-175: [before] is the text before the word, reversed; the result is the
    text before the returned pointer, reversed, and the text from there on.  The
    pointer stands on the index if the line had to be made longer. *)
Definition replace_parm (nocase : bool) (names : list (list Z)) (before word rest : list Z) : res (option (list Z * list Z)) :=
  match find_name nocase word names 1 with
  | None => Ok None
  | Some count =>
    if count >=? MAX_PLACEHOLDERS then Err
    else
      let b := if at_ before 38 then drop1 before else before in
      let r := if at_ rest 38 then drop1 rest else rest in
      if (zlen word =? 1) && negb (at_ before 38) && negb (at_ rest 38) then
        if zlen before + 2 + zlen rest + 1 >? MAX_LINE_LEN then UB
        else Ok (Some (PLACEHOLDER_CHAR :: before, count :: rest))
      else Ok (Some (count :: PLACEHOLDER_CHAR :: b, r))
  end.

Record scan := { quote : Z; brlevel : Z; qlevel : Z }.
(** 213-244: a character outside of names and numbers; the rest behind it *)
Definition other (s : scan) (c : Z) (r : list Z) : res (scan * list Z * list Z) :=
  if (c =? 33) && (quote s =? 0) then
    match r with
    | [] => UB                                        (* strchr finds the terminating zero *)
    | x :: r' => if (x =? 60) || (x =? 62) || (x =? 34) || (x =? 39) then Ok (s, [x; c], r') else Ok (s, [c], r)
    end
  else if c =? 60 then Ok ({| quote := quote s; brlevel := brlevel s + 1; qlevel := qlevel s |}, [c], r)
  else if c =? 62 then
    Ok (if negb (brlevel s =? 0)
        then {| quote := if qlevel s =? brlevel s then 0 else quote s; brlevel := brlevel s - 1; qlevel := qlevel s |} else s, [c], r)
  else if (c =? 34) || (c =? 39) then
    Ok (if negb (quote s =? 0)
        then {| quote := if quote s =? c then 0 else quote s; brlevel := brlevel s; qlevel := qlevel s |}
        else {| quote := c; brlevel := brlevel s; qlevel := brlevel s |}, [c], r)
  else Ok (s, [c], r).

(** 177-248; [before]: the text before p, reversed.  Each step moves p forward
    within the buffer, so that MAX_LINE_LEN steps are enough. *)
Fixpoint scan_line (fuel : nat) (dotname nocase : bool) (names : list (list Z)) (s : scan) (params : Z) (before rest : list Z) : res (list Z * Z) :=
  match fuel with
  | O => UB
  | S f =>
    match rest with
    | [] => Ok (rev before, params)
    | c :: r =>
      if isldigit c then
        let (a, b) := span_id rest in scan_line f dotname nocase names s params (rev a ++ before) b
      else if is_valid_id_char c || ((c =? 46) && dotname && match before with [] => true | x :: _ => negb (x =? 93) && negb (is_valid_id_char x) end) then
        let (a, b) := span_id r in
        let substprf := at_ before 38 || at_ b 38 in
        let go_on (_ : unit) := scan_line f dotname nocase names s params (rev (c :: a) ++ before) b in
        if (quote s =? 0) || substprf then
          bindr (replace_parm nocase names before (c :: a) b) (fun x =>
          match x with
          | Some (before, rest) => scan_line f dotname nocase names s (params + 1) before rest
          | None => go_on tt
          end)
        else go_on tt
      else
        bindr (other s c r) (fun '(s, skipped, r) => scan_line f dotname nocase names s params (skipped ++ before) r)
    end
  end.
Definition scan0 := {| quote := 0; brlevel := 0; qlevel := 0 |}.
Definition store_placeholders (dotname nocase : bool) (names : list (list Z)) (line : list Z) : res (list Z * Z) :=
  if zlen line + 1 >? MAX_LINE_LEN then UB
  else scan_line (Z.to_nat MAX_LINE_LEN) dotname nocase names scan0 0 [] line.
(** macro.c 589-603: the number of replacements is kept in a byte *)
Definition stored (dotname nocase : bool) (names : list (list Z)) (line : list Z) : res (list Z * Z) :=
  match names with
  | [] => Ok (line, 0)
  | _ => bindr (store_placeholders dotname nocase names line) (fun '(l, n) => Ok (l, wrap 8 n))
  end.

(** 63-74 *)
Definition HexDigit (x : Z) : Z := let x := x mod 16 in if x >? 9 then x - 10 + 65 else x + 48.
(** sprintf "%X" *)
Fixpoint hex_upper (fuel : nat) (n : Z) : list Z :=
  match fuel with O => [] | S f => (if n <? 16 then [] else hex_upper f (n / 16)) ++ [HexDigit n] end.
Definition local_name (i : Z) : list Z :=
  63 :: 63 :: (if i >? 0xFFFF then hex_upper 8 i else [HexDigit (Z.shiftr i 12); HexDigit (Z.shiftr i 8); HexDigit (Z.shiftr i 4); HexDigit i]).
(** 76-118; [argv] has an entry for each parameter *)
Fixpoint fill_placeholders (argv : list (option (list Z))) (localstart : Z) (src : list Z) : res (list Z) :=
  match src with
  | [] => Ok []
  | c :: r =>
    if c =? PLACEHOLDER_CHAR then
      match r with
      | [] => UB
      | x :: r =>
        let parmno := x - 1 in
        let text :=
          if parmno >=? zlen argv then local_name (wrap 32 (localstart + parmno - zlen argv))
          else match nth (Z.to_nat parmno) argv None with Some a => a | None => [] end in
        bindr (fill_placeholders argv localstart r) (fun k => Ok (text ++ k))
      end
    else bindr (fill_placeholders argv localstart r) (fun k => Ok (c :: k))
  end.
(** input.c 716-730: the line as it is assembled, in a buffer of MAX_LINE_LEN bytes *)
Definition GetTextLine (argv : list (option (list Z))) (localstart : Z) (line : list Z) (ph_count : Z) : res (list Z) :=
  bindr (if ph_count =? 0 then Ok line else fill_placeholders argv localstart line) (fun l =>
  if zlen l + 1 >? MAX_LINE_LEN then UB else Ok l).
(** expans.c 639-640: the first local of each expansion *)
Fixpoint localstarts (MacroLocals : Z) (counts : list Z) : list Z :=
  match counts with [] => [] | n :: r => MacroLocals :: localstarts (MacroLocals + n) r end.
