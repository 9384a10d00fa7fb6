(** Model of symbols.c: the global and the procedure-local hash table, with
    the calls made by PROC/ENDP in proc.c.
    A symbol is a record in a heap; pointers are numbers. Left out: the
    flags [used] and structLookup, and symbol-specific data. *)
From Verif Require Import Base.

Definition GHASH_TABLE_SIZE := 8192. (* symbols.c:58 *)
Definition LHASH_TABLE_SIZE := 128.  (* symbols.c:62 *)
Definition MAX_ID_LEN := 247%nat.    (* globals.h:71 *)
Definition SYM_UNDEFINED := 0.       (* symbols.h enum sym_state *)

(** symbols.c:155-166; char is signed *)
Definition hash_step (h c : Z) : Z :=
  wrap 64 (Z.lxor h (wrap 64 (Z.lor (if c <? 128 then c else c - 256) 32)) * 1099511628211).
Definition hashpjw (s : list Z) : Z :=
  let h := fold_left hash_step s 14695981039346656037 in
  Z.land (Z.lxor (Z.shiftr h 16) h) 0xffff.

Definition tolower (c : Z) : Z := if (65 <=? c) && (c <=? 90) then c + 32 else c.
Definition beq (a b : list Z) : bool := if list_eq_dec Z.eq_dec a b then true else false.
(** symbols.c:168-173, strncasecmp; comparison of [len] characters of strings
    of that length *)
Definition SYMCMP (case_sensitive : bool) (a b : list Z) : bool :=
  if case_sensitive then beq a b else beq (map tolower a) (map tolower b).

(** struct asym / dsym *)
Record sym := { s_name : list Z; s_state : Z; scoped : bool; nextitem : option Z; nextll : option Z }.
(** a pointer to a pointer: element of a table, or the field nextitem *)
Inductive place := Nowhere | GHead (i : Z) | LHead (i : Z) | Next (p : Z).

Record tabs := {
  heap : Z -> sym; brk : Z;
  gsym_table : Z -> option Z; lsym_table : Z -> option Z;
  labellist : Z -> option Z;            (* procinfo->labellist, by procedure *)
  CurrProc : option Z; ProcStack : list Z;
  case_sensitive : bool;
  lsym : place; gsym : place; SymCount : Z }.

Definition upd {A} (f : Z -> A) (i : Z) (v : A) : Z -> A := fun j => if j =? i then v else f j.
Definition set_heap (s : tabs) (h : Z -> sym) : tabs :=
  {| heap := h; brk := brk s; gsym_table := gsym_table s; lsym_table := lsym_table s; labellist := labellist s;
     CurrProc := CurrProc s; ProcStack := ProcStack s; case_sensitive := case_sensitive s;
     lsym := lsym s; gsym := gsym s; SymCount := SymCount s |}.
Definition set_gtab (s : tabs) (t : Z -> option Z) : tabs :=
  {| heap := heap s; brk := brk s; gsym_table := t; lsym_table := lsym_table s; labellist := labellist s;
     CurrProc := CurrProc s; ProcStack := ProcStack s; case_sensitive := case_sensitive s;
     lsym := lsym s; gsym := gsym s; SymCount := SymCount s |}.
Definition set_ltab (s : tabs) (t : Z -> option Z) : tabs :=
  {| heap := heap s; brk := brk s; gsym_table := gsym_table s; lsym_table := t; labellist := labellist s;
     CurrProc := CurrProc s; ProcStack := ProcStack s; case_sensitive := case_sensitive s;
     lsym := lsym s; gsym := gsym s; SymCount := SymCount s |}.
Definition set_labellist (s : tabs) (t : Z -> option Z) : tabs :=
  {| heap := heap s; brk := brk s; gsym_table := gsym_table s; lsym_table := lsym_table s; labellist := t;
     CurrProc := CurrProc s; ProcStack := ProcStack s; case_sensitive := case_sensitive s;
     lsym := lsym s; gsym := gsym s; SymCount := SymCount s |}.
Definition set_ptrs (s : tabs) (l g : place) : tabs :=
  {| heap := heap s; brk := brk s; gsym_table := gsym_table s; lsym_table := lsym_table s; labellist := labellist s;
     CurrProc := CurrProc s; ProcStack := ProcStack s; case_sensitive := case_sensitive s;
     lsym := l; gsym := g; SymCount := SymCount s |}.
Definition set_count (s : tabs) (n : Z) : tabs :=
  {| heap := heap s; brk := brk s; gsym_table := gsym_table s; lsym_table := lsym_table s; labellist := labellist s;
     CurrProc := CurrProc s; ProcStack := ProcStack s; case_sensitive := case_sensitive s;
     lsym := lsym s; gsym := gsym s; SymCount := n |}.
Definition set_proc (s : tabs) (p : option Z) (st : list Z) : tabs :=
  {| heap := heap s; brk := brk s; gsym_table := gsym_table s; lsym_table := lsym_table s; labellist := labellist s;
     CurrProc := p; ProcStack := st; case_sensitive := case_sensitive s;
     lsym := lsym s; gsym := gsym s; SymCount := SymCount s |}.
(** symbols.c:168-173 SymSetCmpFunc *)
Definition SymSetCmpFunc (s : tabs) (cs : bool) : tabs :=
  {| heap := heap s; brk := brk s; gsym_table := gsym_table s; lsym_table := lsym_table s; labellist := labellist s;
     CurrProc := CurrProc s; ProcStack := ProcStack s; case_sensitive := cs;
     lsym := lsym s; gsym := gsym s; SymCount := SymCount s |}.

Definition with_next (y : sym) (n : option Z) : sym :=
  {| s_name := s_name y; s_state := s_state y; scoped := scoped y; nextitem := n; nextll := nextll y |}.
Definition with_nextll (y : sym) (n : option Z) : sym :=
  {| s_name := s_name y; s_state := s_state y; scoped := scoped y; nextitem := nextitem y; nextll := n |}.
Definition with_scoped (y : sym) (b : bool) : sym :=
  {| s_name := s_name y; s_state := s_state y; scoped := b; nextitem := nextitem y; nextll := nextll y |}.
Definition with_state (y : sym) (v : Z) : sym :=
  {| s_name := s_name y; s_state := v; scoped := scoped y; nextitem := nextitem y; nextll := nextll y |}.

(** reading and writing through lsym/gsym *)
Definition deref (s : tabs) (l : place) : res (option Z) :=
  match l with
  | Nowhere => UB
  | GHead i => Ok (gsym_table s i)
  | LHead i => Ok (lsym_table s i)
  | Next p => Ok (nextitem (heap s p))
  end.
Definition store (s : tabs) (l : place) (v : option Z) : res tabs :=
  match l with
  | Nowhere => UB
  | GHead i => Ok (set_gtab s (upd (gsym_table s) i v))
  | LHead i => Ok (set_ltab s (upd (lsym_table s) i v))
  | Next p => Ok (set_heap s (upd (heap s) p (with_next (heap s p) v)))
  end.

(** the loops of SymFind; Err = the chain does not end *)
Fixpoint chain_find (fuel : nat) (s : tabs) (l : place) (name : list Z) : res (place * option Z) :=
  match fuel with
  | O => Err
  | S fuel =>
      bindr (deref s l) (fun d =>
      match d with
      | None => Ok (l, None)
      | Some p =>
          if Nat.eqb (length name) (length (s_name (heap s p))) && SYMCMP (case_sensitive s) name (s_name (heap s p))
          then Ok (l, Some p)
          else chain_find fuel s (Next p) name
      end)
  end.

(** symbols.c:254-298 SymFind (SymFindDeclare 366-400 and SymCheck 300-342
    search alike) *)
Definition SymFind (s : tabs) (name : list Z) : res (tabs * option Z) :=
  let i := hashpjw name in
  let fuel := S (Z.to_nat (brk s)) in
  let glob s :=
    bindr (chain_find fuel s (GHead (i mod GHASH_TABLE_SIZE)) name) (fun '(l, r) =>
    Ok (set_ptrs s (lsym s) l, r)) in
  match CurrProc s with
  | Some _ =>
      bindr (chain_find fuel s (LHead (i mod LHASH_TABLE_SIZE)) name) (fun '(l, r) =>
      let s := set_ptrs s l (gsym s) in
      match r with
      | Some p => Ok (s, Some p)
      | None => glob s
      end)
  | None => glob s
  end.
(** symbols.c:344-364 SymFindLocal *)
Definition SymFindLocal (s : tabs) (name : list Z) : res (tabs * option Z) :=
  match CurrProc s with
  | Some _ =>
      bindr (chain_find (S (Z.to_nat (brk s))) s (LHead (hashpjw name mod LHASH_TABLE_SIZE)) name) (fun '(l, r) =>
      Ok (set_ptrs s l (gsym s), r))
  | None => Ok (s, None)
  end.

(** symbols.c:224-252 SymAlloc *)
Definition SymAlloc (s : tabs) (name : list Z) : tabs * Z :=
  let p := brk s in
  let y := {| s_name := firstn MAX_ID_LEN name; s_state := SYM_UNDEFINED; scoped := false; nextitem := None; nextll := None |} in
  ({| heap := upd (heap s) p y; brk := p + 1; gsym_table := gsym_table s; lsym_table := lsym_table s; labellist := labellist s;
      CurrProc := CurrProc s; ProcStack := ProcStack s; case_sensitive := case_sensitive s;
      lsym := lsym s; gsym := gsym s; SymCount := SymCount s |}, p).

(** symbols.c:413-425 SymLookup *)
Definition SymLookup (s : tabs) (name : list Z) : res (tabs * option Z) :=
  bindr (SymFind s name) (fun '(s, r) =>
  match r with
  | Some p => Ok (s, Some p)
  | None =>
      let '(s, p) := SymAlloc s name in
      bindr (store s (gsym s) (Some p)) (fun s =>
      Ok (set_count s (SymCount s + 1), Some p))
  end).

(** symbols.c:430-452 SymLookupLocal *)
Definition SymLookupLocal (s : tabs) (name : list Z) : res (tabs * option Z) :=
  bindr (SymFind s name) (fun '(s, r) =>
  match r with
  | None =>
      let '(s, p) := SymAlloc s name in
      let s := set_heap s (upd (heap s) p (with_scoped (heap s p) true)) in
      bindr (store s (lsym s) (Some p)) (fun s => Ok (s, Some p))
  | Some p =>
      if (s_state (heap s p) =? SYM_UNDEFINED) && negb (scoped (heap s p)) then
        bindr (store s (gsym s) (nextitem (heap s p))) (fun s =>
        let s := set_count s (SymCount s - 1) in
        let s := set_heap s (upd (heap s) p (with_scoped (heap s p) true)) in
        let s := set_heap s (upd (heap s) p (with_next (heap s p) None)) in
        bindr (store s (lsym s) (Some p)) (fun s => Ok (s, Some p)))
      else Ok (s, Some p)
  end).

(** symbols.c:568-581 SymCreate; None = error SYMBOL_ALREADY_DEFINED *)
Definition SymCreate (s : tabs) (name : list Z) : res (tabs * option Z) :=
  bindr (SymFind s name) (fun '(s, r) =>
  match r with
  | Some _ => Ok (s, None)
  | None =>
      let '(s, p) := SymAlloc s name in
      bindr (store s (gsym s) (Some p)) (fun s => Ok (set_count s (SymCount s + 1), Some p))
  end).

(** symbols.c:583-601 SymLCreate; the state SYM_STACK is set by its callers
    (proc.c:651, 997), here before the symbol is linked *)
Definition SymLCreate (s : tabs) (name : list Z) (state : Z) : res (tabs * option Z) :=
  bindr (SymFind s name) (fun '(s, r) =>
  let ok :=
    let '(s, p) := SymAlloc s name in
    let s := set_heap s (upd (heap s) p (with_state (heap s p) state)) in
    bindr (store s (lsym s) (Some p)) (fun s => Ok (s, Some p)) in
  match r with
  | Some q => if negb (s_state (heap s q) =? SYM_UNDEFINED) then Ok (s, None) else ok
  | None => ok
  end).

(** symbols.c:545-563 SymAddGlobal of a symbol not in a table *)
Definition SymAddGlobal (s : tabs) (p : Z) : res (tabs * option Z) :=
  bindr (SymFind s (s_name (heap s p))) (fun '(s, r) =>
  match r with
  | Some _ => Ok (s, None)
  | None =>
      let s := set_heap s (upd (heap s) p (with_next (heap s p) None)) in
      bindr (store s (gsym s) (Some p)) (fun s => Ok (set_count s (SymCount s + 1), Some p))
  end).

(** symbols.c:518-541 SymAddLocal: a nameless symbol gets its name *)
Definition SymAddLocal (s : tabs) (p : Z) (name : list Z) : res (tabs * option Z) :=
  bindr (SymFind s name) (fun '(s, r) =>
  let ok :=
    let s := set_heap s (upd (heap s) p {| s_name := name; s_state := s_state (heap s p); scoped := scoped (heap s p);
                                            nextitem := None; nextll := nextll (heap s p) |}) in
    bindr (store s (lsym s) (Some p)) (fun s => Ok (s, Some p)) in
  match r with
  | Some q => if negb (s_state (heap s q) =? SYM_UNDEFINED) then Ok (s, None) else ok
  | None => ok
  end).

(** symbols.c:177-182 SymClearLocal *)
Definition SymClearLocal (s : tabs) : tabs := set_ltab s (fun _ => None).

(** symbols.c:186-201 SymGetLocal: the list of the heads of all chains; it is
    built from the front, [last] is the place the next link goes to *)
Fixpoint get_local (n : nat) (i : Z) (proc : Z) (last : option Z) (s : tabs) : tabs :=
  let put v s :=
    match last with
    | None => set_labellist s (upd (labellist s) proc v)
    | Some q => set_heap s (upd (heap s) q (with_nextll (heap s q) v))
    end in
  match n with
  | O => put None s
  | S n =>
      match lsym_table s i with
      | Some p => get_local n (i + 1) proc (Some p) (put (Some p) s)
      | None => get_local n (i + 1) proc last s
      end
  end.
Definition SymGetLocal (s : tabs) (proc : Z) : tabs :=
  get_local (Z.to_nat LHASH_TABLE_SIZE) 0 proc None s.

(** symbols.c:209-222 SymSetLocal *)
Fixpoint set_local (fuel : nat) (l : option Z) (s : tabs) : res tabs :=
  match l with
  | None => Ok s
  | Some p =>
      match fuel with
      | O => Err
      | S fuel =>
          set_local fuel (nextll (heap s p))
            (set_ltab s (upd (lsym_table s) (hashpjw (s_name (heap s p)) mod LHASH_TABLE_SIZE) (Some p)))
      end
  end.
Definition SymSetLocal (s : tabs) (proc : Z) : res tabs :=
  let s := SymClearLocal s in set_local (S (Z.to_nat (brk s))) (labellist s proc) s.

(** proc.c:1910-1914, 1962-1969 (pass 1), 2014-2025 (further passes): PROC,
    as far as the tables are concerned; 563-570 push_proc *)
Definition enter_proc (pass1 : bool) (s : tabs) (proc : Z) : res tabs :=
  let s := match CurrProc s with
           | Some q => let s := if pass1 then SymGetLocal s q else s in
                       set_proc s (CurrProc s) (q :: ProcStack s)
           | None => s
           end in
  bindr (if pass1 then Ok (SymClearLocal s) else SymSetLocal s proc) (fun s =>
  Ok (set_proc s (Some proc) (ProcStack s))).
(** proc.c:2174-2192 ProcFini *)
Definition leave_proc (pass1 : bool) (s : tabs) : res tabs :=
  match CurrProc s with
  | None => Err
  | Some p =>
      let s := if pass1 then SymGetLocal s p else s in
      match ProcStack s with
      | [] => Ok (set_proc s None [])
      | q :: st => SymSetLocal (set_proc s (Some q) st) q
      end
  end.
