(** Model of string.c: CATSTR/TEXTEQU, SUBSTR, SIZESTR, INSTR and the macro
    functions @CatStr, @SubStr, @SizeStr, @InStr.
    Err = an error message. An operand expression is one token with the
    result of EvalOperand; left out: listing, the memory
    of the text macro, CreateVariable, and the pointer before the buffer that
    INSTR forms without using it when the start is not positive. *)
From Verif Require Import Base NumLit_Model.

Definition MAX_LINE_LEN := 1024. (* globals.h:68 *)

(** tokens behind the directive, up to T_FINAL *)
Inductive tok :=
  | Text (s : list Z)     (* T_STRING with delimiter < *)
  | Const (v : Z)         (* an expression of kind EXPR_CONST *)
  | NonConst              (* another expression *)
  | BadExpr               (* EvalOperand returns ERROR *)
  | Comma
  | Other.
(** state of the symbol named in front of the directive *)
Inductive symstate := Unknown | Undefined | Tmacro | OtherSym.
Definition may_define (s : symstate) : bool := match s with OtherSym => false | _ => true end.

(** string.c:257-278 *)
Fixpoint cat_check (count : Z) (toks : list tok) : bool :=
  match toks with
  | [] => true
  | Text s :: r =>
      if count + zlen s >=? MAX_LINE_LEN then false
      else match r with
           | [] => true
           | Comma :: r => cat_check (count + zlen s) r
           | _ => false
           end
  | _ => false
  end.
(** string.c:317-321 *)
Fixpoint cat_copy (toks : list tok) : list Z :=
  match toks with
  | Text s :: _ :: r => s ++ cat_copy r
  | [Text s] => s
  | _ => []
  end.
(** string.c:232-328 CatStrDir: the new value of the text macro *)
Definition CatStrDir (k : symstate) (toks : list tok) : res (list Z) :=
  if negb (cat_check 0 toks) then Err
  else if negb (may_define k) then Err
  else Ok (cat_copy toks).

(** string.c:553-561: [size] as an int, [chksize] *)
Definition sub_str (k : symstate) (s : list Z) (pos size : Z) (chksize : bool) : res (list Z) :=
  let cnt := zlen s in
  if pos >? cnt then Err
  else
    bindr (if chksize then
             (* pos+size-1 in int arithmetic *)
             if pos + size >=? 2 ^ 31 then UB else if pos + size - 1 >? cnt then Err else Ok tt
           else Ok tt) (fun _ =>
    let size := if size =? -1 then cnt - pos + 1 else size in
    if negb (may_define k) then Err
    else Ok (firstn (Z.to_nat size) (skipn (Z.to_nat (pos - 1)) s))).
(** string.c:433-606 SubStrDir; opndx.value is the low half of the constant *)
Definition SubStrDir (k : symstate) (toks : list tok) : res (list Z) :=
  match toks with
  | Text s :: Comma :: Const v :: r =>
      let pos := swrap 32 v in
      if pos <=? 0 then Err
      else match r with
           | [] => sub_str k s pos (-1) false
           | [Comma; Const v] =>
               let size := swrap 32 v in
               if size <? 0 then Err else sub_str k s pos size true
           | _ => Err
           end
  | _ => Err
  end.

(** string.c:611-646 SizeStrDir: the value of the variable *)
Definition SizeStrDir (toks : list tok) : res Z :=
  match toks with [Text s] => Ok (zlen s) | _ => Err end.

(** strstr of the C library: offset of the first occurrence *)
Fixpoint is_prefix (a b : list Z) : bool :=
  match a, b with
  | [], _ => true
  | x :: a, y :: b => (x =? y) && is_prefix a b
  | _, _ => false
  end.
Fixpoint strstr (hay needle : list Z) : option Z :=
  if is_prefix needle hay then Some 0
  else match hay with
       | [] => None
       | _ :: r => match strstr r needle with Some n => Some (n + 1) | None => None end
       end.

(** string.c:717-745; p = src + start - 1 *)
Definition in_str (start : Z) (src : list Z) (r : list tok) : res Z :=
  let sizestr := zlen src in
  if start >? sizestr then Err
  else match r with
       | [Comma; Text q] =>
           let j := zlen q in
           if (start >? 0) && (sizestr >=? j) && negb (j =? 0) then
             match strstr (skipn (Z.to_nat (start - 1)) src) q with
             | Some n => Ok (start - 1 + n + 1)
             | None => Ok 0
             end
           else Ok 0
       | _ => Err
       end.
(** string.c:653-753 InStrDir *)
Definition InStrDir (toks : list tok) : res Z :=
  match toks with
  | Text src :: r => in_str 1 src r
  | Const v :: Comma :: Text src :: r => in_str (swrap 32 v) src r
  | _ => Err
  end.

(** ** macro functions *)
(** a numeric argument after GetNumber (string.c:786-805): None = error *)
Definition num := option Z.

(** string.c:759-779 *)
Definition CatStrFunc (parms : list (list Z)) : list Z := concat parms.
(** string.c:811-853; the text is in the current radix *)
Definition InStrFunc (radix : Z) (pos : option num) (s q : list Z) : res (list Z) :=
  bindr (match pos with
         | None => Ok 1
         | Some None => Err
         | Some (Some v) => let pos := swrap 32 v in Ok (if pos =? 0 then pos + 1 else pos)
         end) (fun pos =>
  if wrap 64 pos >? zlen s then Err
  else match q with
       | [] => Ok [48]
       | _ => match strstr (skipn (Z.to_nat (pos - 1)) s) q with
              | Some n => myltoa (wrap 32 (pos - 1 + n + 1)) radix false true
              | None => Ok [48]
              end
       end).
(** string.c:859-870 *)
Definition SizeStrFunc (radix : Z) (parm : option (list Z)) : res (list Z) :=
  match parm with Some s => myltoa (wrap 32 (zlen s)) radix false true | None => Ok [48] end.
(** string.c:876-931 *)
Definition SubStrFunc (src : list Z) (pos : num) (size : option num) : res (list Z) :=
  match pos with
  | None => Err
  | Some v =>
      let pos := swrap 32 v in
      if pos <? 0 then Err
      else
        let pos := if pos =? 0 then 1 else pos in
        if pos >? zlen src then Err
        else
          let rest := zlen src - pos + 1 in
          bindr (match size with
                 | None => Ok rest
                 | Some None => Err
                 | Some (Some v) => let req := swrap 32 v in if req <? 0 then Err else if req >? rest then Err else Ok req
                 end) (fun size => Ok (firstn (Z.to_nat size) (skipn (Z.to_nat (pos - 1)) src)))
  end.
