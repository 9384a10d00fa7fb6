(** C36: queues deliver every item exactly once and in order. *)
From Verif Require Import Base Queue_Model Queue_Spec Queue_Proofs.
From Coq Require Import Permutation.

(** QAddItem on any number of queues sharing the heap, whatever the allocator
    returns: each queue is read back as its own items in queuing order. *)
Theorem C36_queues_fifo : forall alloc junk ops, alloc_ok alloc ->
  exists h qs, add_all alloc junk [] (fun _ => mk_q 0 0) ops = Ok (h, qs) /\
    forall i, walk (length h) h (head (qs i)) = Ok (queued i ops).
Proof. exact queues_deliver. Qed.
Print Assumptions C36_queues_fifo.

(** PassOneChecks: exactly the weak externals before the first invalid public
    disappear; order is kept. *)
Theorem C36_publics_filtered : forall alloc junk cls ops, alloc_ok alloc ->
  exists h qs h' q', add_all alloc junk [] (fun _ => mk_q 0 0) ops = Ok (h, qs) /\
    PassOneChecks_pub (length h) cls h (qs 0) = Ok (h', q') /\
    walk (length h) h' (head q') = Ok (drop_weak (is_bad cls) (is_weak cls) (queued 0 ops)).
Proof. exact pubs_filtered. Qed.
Print Assumptions C36_publics_filtered.

(** Finding: if the last public is such a weak external, the queue's tail still
    points to the unlinked node; a public queued afterwards is lost. *)
Theorem C36_stale_tail_refuted : exists h q h' q' h2 q2,
  add_all alloc_max 0 [] (fun _ => mk_q 0 0) [(0, 1); (0, 2)] = Ok (h, q) /\
  PassOneChecks_pub 5 (fun x => if x =? 2 then P_WEAKEXT else P_INTERNAL) h (q 0) = Ok (h', q') /\
  QAddItem alloc_max 0 h' q' 3 = Ok (h2, q2) /\ walk 5 h2 (head q2) = Ok [1].
Proof. do 6 eexists. repeat split; vm_compute; reflexivity. Qed.

(** Symbol tables (TAB_UNDEF, TAB_EXT, ...): after any valid history of
    sym_add_table / sym_remove_table each list holds exactly the items added
    and not removed, in order. *)
Theorem C36_symbol_lists : forall h ops s, sym_steps (fun _ => []) ops s ->
  (forall o, In o ops -> op_item o <> 0 /\ lookup h (op_item o) <> None) ->
  exists h' qs, sym_run h (fun _ => mk_q 0 0) ops = Ok (h', qs) /\
    forall i, walk (length h') h' (head (qs i)) = Ok (els h (s i)).
Proof. exact sym_tables. Qed.
Print Assumptions C36_symbol_lists.

(** Generated lines: RunLineQueue never touches freed memory and assembles the
    lines in the order the nesting demands; every terminating expansion is reached. *)
Theorem C36_line_queue : forall alloc effect xs, alloc_ok alloc ->
  exists h q, add_lines alloc [] (mk_q 0 0) xs = Ok (h, q) /\
   (forall fuel, match RunLineQueue alloc effect fuel h q with
     | UB => False | Err => True
     | Ok (h', q', t) => exists rest, walk (length h') h' (head q') = Ok rest /\
         lines (fun x => map conv (effect x)) xs [] t rest end) /\
   (forall t rest, lines (fun x => map conv (effect x)) xs [] t rest ->
     exists fuel h' q', RunLineQueue alloc effect fuel h q = Ok (h', q', t)).
Proof. exact line_queue. Qed.
Print Assumptions C36_line_queue.

(** Exactly once: what is assembled plus what is left is what was queued. *)
Theorem C36_lines_exactly_once : forall eff xs q t q', lines eff xs q t q' ->
  Permutation (xs ++ q ++ flat_map (fun x => adds (eff x)) t) (t ++ q').
Proof. exact lines_once. Qed.
Print Assumptions C36_lines_exactly_once.

Theorem C36_line_numbers : forall h l, NoDup l -> (forall a, In a l -> a <> 0 /\ lookup h a <> None) ->
  exists h' q', lin_run h (mk_q 0 0) l = Ok (h', q') /\ walk (length h') h' (head q') = Ok (els h l).
Proof. exact linnum_deliver. Qed.
Print Assumptions C36_line_numbers.

Theorem C36_delete_line_queue : forall l h p fuel, chain h p l -> NoDup l -> (length l <= fuel)%nat ->
  exists h', delete_loop fuel h p = Ok h' /\ forall b, lookup h' b = if existsb (Z.eqb b) l then None else lookup h b.
Proof. exact delete_ok. Qed.
Print Assumptions C36_delete_line_queue.

(** a concrete allocator; two interleaved queues; nested line queue *)
Example C36_demo_alloc : alloc_ok alloc_max.
Proof. exact alloc_max_ok. Qed.
Example C36_demo_queues : exists h qs,
  add_all alloc_max 77 [] (fun _ => mk_q 0 0) [(1, 10); (2, 20); (1, 11); (1, 12); (2, 21)] = Ok (h, qs) /\
  walk 9 h (head (qs 1)) = Ok [10; 11; 12] /\ walk 9 h (head (qs 2)) = Ok [20; 21].
Proof. do 2 eexists. repeat split; vm_compute; reflexivity. Qed.
Example C36_demo_lines : exists h q h' q',
  add_lines alloc_max [] (mk_q 0 0) [1; 2; 3] = Ok (h, q) /\
  RunLineQueue alloc_max (fun x => if x =? 2 then [A_add 10; A_add 11; A_run; A_add 12] else
     if x =? 10 then [A_add 13; A_run] else []) 20 h q = Ok (h', q', [1; 2; 10; 13; 11; 3]) /\
  walk 5 h' (head q') = Ok [12].
Proof. do 4 eexists. repeat split; vm_compute; reflexivity. Qed.
Example C36_demo_syms : exists s, sym_steps (fun _ => []) [S_add 0 1; S_add 0 2; S_add 0 3; S_remove 0 2; S_add 1 2; S_remove 0 3] s
  /\ s 0 = [1] /\ s 1 = [2].
Proof.
  exists (fun i => if i =? 0 then [1] else if i =? 1 then [2] else []). split; [|auto].
  econstructor. { split; [intros i []|]. intros i; reflexivity. }
  econstructor. { split; [|intros i; reflexivity]. intros i. cbn. destruct (i =? 0); cbn; intuition congruence. }
  econstructor. { split; [|intros i; reflexivity]. intros i. cbn. destruct (i =? 0); cbn; intuition congruence. }
  econstructor. { split; [|intros i; reflexivity]. cbn. tauto. }
  econstructor. { split; [|intros i; reflexivity]. intros i. cbn. destruct (i =? 0); cbn; intuition congruence. }
  apply sym_cons with (s1 := fun i => if i =? 0 then [1] else if i =? 1 then [2] else []). { split; [cbn; tauto|]. intros i. cbn. destruct (Z.eqb_spec i 0) as [-> |]; [reflexivity|]. destruct (i =? 1); reflexivity. }
  constructor.
Qed.
