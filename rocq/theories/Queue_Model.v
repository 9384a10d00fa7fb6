(** Model of the linked-list queues: queue.c, parser.c sym_add_table /
    sym_remove_table, lqueue.c, linnum.c AddLinnumData and the list filter of
    assemble.c PassOneChecks.
    A heap is a finite map from addresses to nodes; NULL is 0; reading or
    writing through NULL or a freed pointer is UB. *)
From Verif Require Import Base.

(** struct qnode / lq_line / line_num_info / dsym: the link fields and the payload *)
Record node := mk_node { nx : Z; pv : Z; el : Z }.
Definition heap := list (Z * node).

Fixpoint lookup (h : heap) (a : Z) : option node :=
  match h with [] => None | (b, n) :: r => if b =? a then Some n else lookup r a end.
Definition update (h : heap) (a : Z) (n : node) : heap := (a, n) :: h.
Definition free (h : heap) (a : Z) : heap := filter (fun p => negb (fst p =? a)) h.

Definition get (h : heap) (a : Z) : res node :=
  if a =? 0 then UB else match lookup h a with Some n => Ok n | None => UB end.
Definition set_nx (h : heap) (a v : Z) : res heap :=
  bindr (get h a) (fun n => Ok (update h a (mk_node v (pv n) (el n)))).
Definition set_pv (h : heap) (a v : Z) : res heap :=
  bindr (get h a) (fun n => Ok (update h a (mk_node (nx n) v (el n)))).

(** struct qdesc, struct symbol_queue *)
Record qdesc := mk_q { head : Z; tail : Z }.

(** queue.c:46-57 *)
Definition QEnqueue (h : heap) (q : qdesc) (item : Z) : res (heap * qdesc) :=
  bindr (if head q =? 0 then Ok (h, mk_q item item)
         else bindr (set_nx h (tail q) item) (fun h => Ok (h, mk_q (head q) item)))
    (fun '(h, q) => bindr (set_nx h item 0) (fun h => Ok (h, q))).

(** queue.c:61-69; [alloc] stands for LclAlloc, the new node's link is
    uninitialised ([junk]) *)
Definition QAddItem (alloc : heap -> Z) (junk : Z) (h : heap) (q : qdesc) (data : Z) : res (heap * qdesc) :=
  let node := alloc h in
  QEnqueue (update h node (mk_node junk junk data)) q node.

(** all users: for ( q = queue.head; q; q = q->next ); fuel = heap size *)
Fixpoint walk (fuel : nat) (h : heap) (p : Z) : res (list Z) :=
  if p =? 0 then Ok [] else
  match fuel with
  | O => Err
  | S f => bindr (get h p) (fun n => bindr (walk f h (nx n)) (fun l => Ok (el n :: l)))
  end.

(** lqueue.c:61-88 AddLineQueue; linnum.c:37-60 AddLinnumData has the same shape *)
Definition AddLineQueue (alloc : heap -> Z) (h : heap) (q : qdesc) (line : Z) : res (heap * qdesc) :=
  let new := alloc h in
  let h := update h new (mk_node 0 0 line) in
  if head q =? 0 then Ok (h, mk_q new new)
  else bindr (set_nx h (tail q) new) (fun h => Ok (h, mk_q (head q) new)).

(** linnum.c:37-60 *)
Definition AddLinnumData (h : heap) (q : qdesc) (data : Z) : res (heap * qdesc) :=
  bindr (set_nx h data 0) (fun h =>
  if head q =? 0 then Ok (h, mk_q data data)
  else bindr (set_nx h (tail q) data) (fun h => Ok (h, mk_q (head q) data))).

(** lqueue.c:229-262 RunLineQueue.  What assembling a line does to the line
    queue is given by [effect]: lines it adds and (nested) RunLineQueue calls.
    Returns the lines in the order they were assembled. *)
Inductive action := A_add (line : Z) | A_run.
Section Run.
  Variable alloc : heap -> Z.
  Variable effect : Z -> list action.

  (** PreprocessLine()/ParseLine() of one line, as far as the queue is concerned *)
  Fixpoint run_acts (run : heap -> qdesc -> res (heap * qdesc * list Z)) (l : list action) (h : heap) (q : qdesc)
    : res (heap * qdesc * list Z) :=
    match l with
    | [] => Ok (h, q, [])
    | A_add x :: l => bindr (AddLineQueue alloc h q x) (fun '(h, q) => run_acts run l h q)
    | A_run :: l =>
        bindr (run h q) (fun '(h, q, t1) =>
        bindr (run_acts run l h q) (fun '(h, q, t2) => Ok (h, q, t1 ++ t2)))
    end.

  (** lqueue.c:248-256; line_queue.head = NULL was done by the caller *)
  Fixpoint run_loop (fuel : nat) (h : heap) (q : qdesc) (curr : Z) : res (heap * qdesc * list Z) :=
    if curr =? 0 then Ok (h, q, []) else
    match fuel with
    | O => Err
    | S f =>
        bindr (get h curr) (fun n =>
        bindr (run_acts (fun h q => run_loop f h (mk_q 0 (tail q)) (head q)) (effect (el n)) (free h curr) q)
          (fun '(h, q, t1) =>
        bindr (run_loop f h q (nx n)) (fun '(h, q, t2) => Ok (h, q, el n :: t1 ++ t2))))
    end.
  Definition RunLineQueue (fuel : nat) (h : heap) (q : qdesc) := run_loop fuel h (mk_q 0 (tail q)) (head q).
End Run.

(** lqueue.c:43-53 DeleteLineQueue *)
Fixpoint delete_loop (fuel : nat) (h : heap) (curr : Z) : res heap :=
  if curr =? 0 then Ok h else
  match fuel with
  | O => Err
  | S f => bindr (get h curr) (fun n => delete_loop f (free h curr) (nx n))
  end.

(** parser.c:135-151 *)
Definition sym_add_table (h : heap) (q : qdesc) (item : Z) : res (heap * qdesc) :=
  if head q =? 0 then
    bindr (set_nx h item 0) (fun h => bindr (set_pv h item 0) (fun h => Ok (h, mk_q item item)))
  else
    bindr (set_pv h item (tail q)) (fun h =>
    bindr (set_nx h (tail q) item) (fun h =>
    bindr (set_nx h item 0) (fun h => Ok (h, mk_q (head q) item)))).

(** parser.c:156-176 *)
Definition sym_remove_table (h : heap) (q : qdesc) (item : Z) : res (heap * qdesc) :=
  bindr (get h item) (fun n =>
  bindr (if pv n =? 0 then Ok h else set_nx h (pv n) (nx n)) (fun h =>
  bindr (get h item) (fun n =>
  bindr (if nx n =? 0 then Ok h else set_pv h (nx n) (pv n)) (fun h =>
  bindr (get h item) (fun n =>
  let q := if head q =? item then mk_q (nx n) (tail q) else q in
  let q := if tail q =? item then mk_q (head q) (pv n) else q in
  bindr (set_nx h item 0) (fun h => bindr (set_pv h item 0) (fun h => Ok (h, q)))))))).

(** assemble.c:923-942 PassOneChecks: weak externals are unlinked from the
    publics queue; [qn] is 0 for &PubQueue (its first member is head).  The
    loop stops at the first other symbol. *)
Inductive pubclass := P_INTERNAL | P_WEAKEXT | P_OTHER.
Fixpoint pub_loop (fuel : nat) (cls : Z -> pubclass) (h : heap) (q : qdesc) (qn p : Z) : res (heap * qdesc) :=
  if p =? 0 then Ok (h, q) else
  match fuel with
  | O => Err
  | S f =>
      bindr (get h p) (fun n =>
      match cls (el n) with
      | P_INTERNAL => pub_loop f cls h q p (nx n)
      | P_WEAKEXT =>
          if qn =? 0 then pub_loop f cls h (mk_q (nx n) (tail q)) 0 (nx n)
          else bindr (set_nx h qn (nx n)) (fun h =>
               bindr (get h qn) (fun m => pub_loop f cls h q qn (nx m)))
      | P_OTHER => Ok (h, q)
      end)
  end.
Definition PassOneChecks_pub (fuel : nat) (cls : Z -> pubclass) (h : heap) (q : qdesc) : res (heap * qdesc) :=
  pub_loop fuel cls h q 0 (head q).
