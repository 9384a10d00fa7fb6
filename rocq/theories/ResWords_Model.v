(** Model of reswords.c: the hash table of reserved words and the operations
    that change it.
    Left out: what the tables say about a keyword besides its name and the
    flags X64/IA32, and the changes Set64Bit makes to optable_idx. *)
From Verif Require Import Base.

Definition HASH_TABITEMS := 1900. (* reswords.c:24 *)

(** reswords.c:958-969 get_hash; char is signed *)
Definition hash_step (h c : Z) : Z :=
  wrap 64 (Z.lxor h (wrap 64 (Z.lor (if c <? 128 then c else c - 256) 32)) * 1099511628211).
Definition get_hash (s : list Z) : Z :=
  let h := fold_left hash_step s 14695981039346656037 in
  Z.land (Z.lxor (Z.shiftr h 49) h) 0x3fff mod HASH_TABITEMS.

Definition tolower (c : Z) : Z := if (65 <=? c) && (c <=? 90) then c + 32 else c.
Definition memcmp_eq (a b : list Z) : bool := if list_eq_dec Z.eq_dec a b then true else false.
Definition memicmp_eq (a b : list Z) : bool := memcmp_eq (map tolower a) (map tolower b).

(** The compiled-in tables: the words for the tokens 1, 2, ... with the
    flags RWF_X64 and RWF_IA32, the token T_SYSCALL, and patchtab64/32
    (reswords.c:892-910) *)
Record cfg := { words : list (list Z * (bool * bool)); T_SYSCALL : Z; patchtab64 : list Z; patchtab32 : list Z }.
Definition syscall_ : list Z := [115; 121; 115; 99; 97; 108; 108; 95]. (* reswords.c:298 *)
(** reswords.c:290-300 resw_strings: all names without separator *)
Definition resw_strings (c : cfg) : list Z := concat (map fst (words c)) ++ syscall_ ++ [0].
Definition strSyscall_ (c : cfg) : Z := zlen (resw_strings c) - 9.
Definition flag_x64 (c : cfg) (t : Z) : bool := fst (snd (nth (Z.to_nat (t - 1)) (words c) ([], (false, false)))).
Definition flag_ia32 (c : cfg) (t : Z) : bool := snd (snd (nth (Z.to_nat (t - 1)) (words c) ([], (false, false)))).

(** a name pointer: into resw_strings, or to a block from LclAlloc *)
Inductive ptr := Str (off : Z) | Heap (b : list Z) | Null.
Record rw := {
  w_name : Z -> ptr; w_len : Z -> Z; disabled : Z -> bool; w_next : Z -> Z;  (* ResWordTable[] *)
  table : Z -> Z;                                                            (* resw_table[] *)
  renamed : list (Z * ptr * Z);                                              (* renamed_keys *)
  Head : Z; Tail : Z;                                                        (* Removed *)
  b64bit : bool; syscallname : ptr }.

Definition upd {A} (f : Z -> A) (i : Z) (v : A) : Z -> A := fun j => if j =? i then v else f j.
Definition set_next (s : rw) (n : Z -> Z) : rw :=
  {| w_name := w_name s; w_len := w_len s; disabled := disabled s; w_next := n; table := table s; renamed := renamed s;
     Head := Head s; Tail := Tail s; b64bit := b64bit s; syscallname := syscallname s |}.
Definition set_table (s : rw) (n : Z -> Z) : rw :=
  {| w_name := w_name s; w_len := w_len s; disabled := disabled s; w_next := w_next s; table := n; renamed := renamed s;
     Head := Head s; Tail := Tail s; b64bit := b64bit s; syscallname := syscallname s |}.
Definition set_name (s : rw) (t : Z) (p : ptr) (l : Z) : rw :=
  {| w_name := upd (w_name s) t p; w_len := upd (w_len s) t l; disabled := disabled s; w_next := w_next s; table := table s; renamed := renamed s;
     Head := Head s; Tail := Tail s; b64bit := b64bit s; syscallname := syscallname s |}.
Definition set_renamed (s : rw) (r : list (Z * ptr * Z)) : rw :=
  {| w_name := w_name s; w_len := w_len s; disabled := disabled s; w_next := w_next s; table := table s; renamed := r;
     Head := Head s; Tail := Tail s; b64bit := b64bit s; syscallname := syscallname s |}.
Definition set_disabled (s : rw) (t : Z) (b : bool) : rw :=
  {| w_name := w_name s; w_len := w_len s; disabled := upd (disabled s) t b; w_next := w_next s; table := table s; renamed := renamed s;
     Head := Head s; Tail := Tail s; b64bit := b64bit s; syscallname := syscallname s |}.
Definition set_removed (s : rw) (h t : Z) : rw :=
  {| w_name := w_name s; w_len := w_len s; disabled := disabled s; w_next := w_next s; table := table s; renamed := renamed s;
     Head := h; Tail := t; b64bit := b64bit s; syscallname := syscallname s |}.
Definition set_mode (s : rw) (b : bool) (p : ptr) : rw :=
  {| w_name := w_name s; w_len := w_len s; disabled := disabled s; w_next := w_next s; table := table s; renamed := renamed s;
     Head := Head s; Tail := Tail s; b64bit := b; syscallname := p |}.

(** memory behind a name pointer *)
Definition mem (c : cfg) (p : ptr) : list Z :=
  match p with Str off => skipn (Z.to_nat off) (resw_strings c) | Heap b => b | Null => [] end.
(** the characters of the current name *)
Definition name_of (c : cfg) (s : rw) (t : Z) : list Z := firstn (Z.to_nat (w_len s t)) (mem c (w_name s t)).

(** Chains are followed with a step count above the number of words; Err =
    the chain is cyclic and the C code loops for ever *)
Definition steps (c : cfg) : nat := S (length (words c)).

(** reswords.c:971-990 FindResWord *)
Fixpoint find_loop (fuel : nat) (c : cfg) (s : rw) (i : Z) (name : list Z) : res Z :=
  match fuel with
  | O => Err
  | S fuel =>
      if i =? 0 then Ok 0
      else if (w_len s i =? zlen name) && memicmp_eq name (name_of c s i) then Ok i
      else find_loop fuel c s (w_next s i) name
  end.
Definition FindResWord (c : cfg) (s : rw) (name : list Z) : res Z :=
  find_loop (steps c) c s (table s (get_hash name)) name.

(** reswords.c:994-1021 AddResWord *)
Fixpoint add_loop (fuel : nat) (s : rw) (token curr old : Z) : res Z :=
  match fuel with
  | O => Err
  | S fuel => if negb (curr =? 0) && (w_len s curr <=? w_len s token) then add_loop fuel s token (w_next s curr) curr else Ok old
  end.
Definition AddResWord (c : cfg) (s : rw) (token : Z) : res rw :=
  let i := get_hash (name_of c s token) in
  bindr (add_loop (steps c) s token (table s i) 0) (fun old =>
  if old =? 0 then
    let s := set_next s (upd (w_next s) token (table s i)) in
    Ok (set_table s (upd (table s) i token))
  else
    let s := set_next s (upd (w_next s) token (w_next s old)) in
    Ok (set_next s (upd (w_next s) old token))).

(** reswords.c:1025-1046 RemoveResWord *)
Fixpoint remove_loop (fuel : nat) (s : rw) (i token curr old : Z) : res rw :=
  match fuel with
  | O => Err
  | S fuel =>
      if curr =? 0 then Ok s
      else if curr =? token then
        Ok (if negb (old =? 0) then set_next s (upd (w_next s) old (w_next s curr))
            else set_table s (upd (table s) i (w_next s curr)))
      else remove_loop fuel s i token (w_next s curr) curr
  end.
Definition RemoveResWord (c : cfg) (s : rw) (token : Z) : res rw :=
  let i := get_hash (name_of c s token) in
  remove_loop (steps c) s i token (table s i) 0.

(** reswords.c:1063-1121 RenameKeyword. The search loop 1093 has no step
    part: if the first node isn't the one searched, it loops (Err) *)
Definition RenameKeyword (c : cfg) (s : rw) (token : Z) (newname : list Z) : res rw :=
  let length := zlen newname in
  if (w_len s token =? length) && memicmp_eq newname (name_of c s token) then Ok s
  else
    bindr (RemoveResWord c s token) (fun s =>
    let alloc s := AddResWord c (set_name s token (Heap newname) length) token in
    match w_name s token with
    | Null => UB
    | Str off => alloc (set_renamed s (renamed s ++ [(token, Str off, w_len s token)]))
    | Heap _ =>
        match renamed s with
        | [] => alloc s
        | (t, p, l) :: rest =>
            if t =? token then
              if (l =? length) && memcmp_eq newname (firstn (Z.to_nat l) (mem c p))
              then AddResWord c (set_name (set_renamed s rest) token p l) token
              else alloc s
            else Err
        end
    end).

(** tokens visited by the loops over patchtab64/patchtab32 *)
Fixpoint flag_range (fuel : nat) (f : Z -> bool) (t : Z) : list Z :=
  match fuel with O => [] | S fuel => if f t then t :: flag_range fuel f (t + 1) else [] end.
Definition tokens64 (c : cfg) : list Z := flat_map (flag_range (length (words c)) (flag_x64 c)) (patchtab64 c).
Definition tokens32 (c : cfg) : list Z := flat_map (flag_range (length (words c)) (flag_ia32 c)) (patchtab32 c).
Fixpoint add_all (c : cfg) (l : list Z) (s : rw) : res rw :=
  match l with
  | [] => Ok s
  | t :: l => bindr (if disabled s t then Ok s else AddResWord c s t) (add_all c l)
  end.
Fixpoint remove_all (c : cfg) (l : list Z) (s : rw) : res rw :=
  match l with
  | [] => Ok s
  | t :: l => bindr (if disabled s t then Ok s else RemoveResWord c s t) (remove_all c l)
  end.
(** reswords.c:1130-1190 Set64Bit *)
Definition Set64Bit (c : cfg) (s : rw) (newmode : bool) : res rw :=
  if Bool.eqb newmode (b64bit s) then Ok s
  else if newmode then
    bindr (RemoveResWord c s (T_SYSCALL c)) (fun s =>
    let sn := w_name s (T_SYSCALL c) in
    let s := set_name s (T_SYSCALL c) (Str (strSyscall_ c)) (w_len s (T_SYSCALL c) + 1) in
    bindr (AddResWord c s (T_SYSCALL c)) (fun s =>
    bindr (add_all c (tokens64 c) s) (fun s =>
    bindr (remove_all c (tokens32 c) s) (fun s =>
    Ok (set_mode s newmode sn)))))
  else
    bindr (remove_all c (tokens64 c) s) (fun s =>
    bindr (add_all c (tokens32 c) s) (fun s =>
    bindr (RemoveResWord c s (T_SYSCALL c)) (fun s =>
    let s := set_name s (T_SYSCALL c) (syscallname s) (w_len s (T_SYSCALL c) - 1) in
    bindr (AddResWord c s (T_SYSCALL c)) (fun s =>
    Ok (set_mode s newmode (syscallname s)))))).

(** reswords.c:1193-1207 DisableKeyword *)
Definition DisableKeyword (c : cfg) (s : rw) (token : Z) : res rw :=
  if disabled s token then Ok s
  else
    bindr (RemoveResWord c s token) (fun s =>
    let s := set_next s (upd (w_next s) token 0) in
    let s := set_disabled s token true in
    Ok (if Head s =? 0 then set_removed s token token
        else set_removed (set_next s (upd (w_next s) (Tail s) token)) (Head s) token)).

(** reswords.c:1212-1220 IsKeywordDisabled; UB = a character behind the name
    is read that doesn't belong to the object *)
Fixpoint disabled_loop (fuel : nat) (c : cfg) (s : rw) (token : Z) (name : list Z) : res bool :=
  match fuel with
  | O => Err
  | S fuel =>
      if token =? 0 then Ok false
      else
        match nth_error (mem c (w_name s token)) (length name) with
        | None => UB
        | Some ch =>
            if (ch =? 0) && memicmp_eq name (firstn (length name) (mem c (w_name s token))) then Ok true
            else disabled_loop fuel c s (w_next s token) name
        end
  end.
Definition IsKeywordDisabled (c : cfg) (s : rw) (name : list Z) : res bool :=
  disabled_loop (steps c) c s (Head s) name.

(** reswords.c:1245-1279 ResWordsInit, started with all zero *)
Fixpoint init_loop (c : cfg) (ws : list (list Z * (bool * bool))) (i p : Z) (s : rw) : res rw :=
  match ws with
  | [] => Ok s
  | w :: ws =>
      let s := set_name s i (Str p) (zlen (fst w)) in
      bindr (if negb (flag_x64 c i) then AddResWord c s i else Ok s) (init_loop c ws (i + 1) (p + zlen (fst w)))
  end.
Definition zero : rw :=
  {| w_name := fun _ => Null; w_len := fun _ => 0; disabled := fun _ => false; w_next := fun _ => 0; table := fun _ => 0; renamed := [];
     Head := 0; Tail := 0; b64bit := false; syscallname := Null |}.
Definition ResWordsInit (c : cfg) : res rw := init_loop c (words c) 1 0 zero.

(** reswords.c:1284-1331 ResWordsFini *)
Fixpoint fini_renamed (c : cfg) (l : list (Z * ptr * Z)) (s : rw) : res rw :=
  match l with
  | [] => Ok (set_renamed s [])
  | (t, p, n) :: l =>
      bindr (RemoveResWord c s t) (fun s =>
      bindr (AddResWord c (set_name s t p n) t) (fini_renamed c l))
  end.
Fixpoint fini_removed (fuel : nat) (c : cfg) (i : Z) (s : rw) : res rw :=
  match fuel with
  | O => Err
  | S fuel =>
      if i =? 0 then Ok (set_removed s 0 0)
      else
        let nxt := w_next s i in
        let s := set_disabled s i false in
        bindr (if negb (flag_x64 c i) then AddResWord c s i else Ok s) (fini_removed fuel c nxt)
  end.
Definition ResWordsFini (c : cfg) (s : rw) : res rw :=
  bindr (fini_renamed c (renamed s) s) (fun s => fini_removed (steps c) c (Head s) s).
