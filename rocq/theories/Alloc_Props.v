(** C31: the assembler's local allocator. *)
From Verif Require Import Base Alloc_Model Alloc_Spec Alloc_Proofs.

(** C31.  In every run with requests of at most 4 GB - 8, if the operating
    system hands out disjoint aligned blocks: the ranges handed out have the
    requested sizes, are pairwise disjoint and 8-byte aligned, every non-empty
    one lies inside a block behind its 8-byte header, and MemFini releases
    exactly the blocks obtained, each once. *)
Theorem C31_blocks_disjoint : forall ops h os got,
  run ops h os got -> os_ok os ->
  Forall (fun o => 0 <= fst o <= 2 ^ 32 - 8) ops ->
  map (fun r => snd r - fst r) (rev got) = map fst ops /\
  pairwise disjoint got /\
  Forall (fun r => fst r mod 8 = 0) got /\
  Forall (fun r => fst r = snd r \/ exists b, In b os /\ inside r (fst b + 8, snd b)) got /\
  MemFini h = map fst os.
Proof. exact alloc_safe. Qed.
Print Assumptions C31_blocks_disjoint.

(** C31.  A block is requested only when needed, and is large enough. *)
Theorem C31_block_only_if_needed : forall ops h os got req n,
  run ops h os got -> os_ok os ->
  Forall (fun o => 0 <= fst o <= 2 ^ 32 - 8) ops -> 0 <= req <= 2 ^ 32 - 8 ->
  block_request h req = Some n -> currfree h < req + 7 /\ req + 8 <= n /\ 0x80000 <= n.
Proof. exact alloc_block_only_if_needed. Qed.
Print Assumptions C31_block_only_if_needed.

(** C31.  The allocator fails only when the operating system does. *)
Theorem C31_fails_only_without_memory : forall ops h os got req a,
  run ops h os got -> exists h' p, LclAlloc h req (Some a) = Ok (h', p).
Proof. exact alloc_total. Qed.
Print Assumptions C31_fails_only_without_memory.

(** C31 does not hold for requests of 4 GB and more: [currfree] has 32 bits,
    so an 8-byte block is obtained for the 4 GB range handed out. *)
Theorem C31_4gb_request_refuted :
  exists h os p, run [(2 ^ 32, Some 4096)] h os [(p, p + 2 ^ 32)] /\ os_ok os /\
  Forall (fun b => snd b - fst b = 8) os.
Proof.
  eexists _, _, _. split; [|split].
  - apply (run_step [] MemInit [] [] (2 ^ 32) (Some 4096) _ (4096 + 8) [(4096, 4096 + 8)]).
    + constructor.
    + vm_compute. reflexivity.
    + vm_compute. reflexivity.
  - split; [cbn; auto|]. repeat constructor; lia.
  - repeat constructor.
Qed.
Print Assumptions C31_4gb_request_refuted.

(** three requests, the second of which needs a block of its own *)
Example alloc_demo : exists h,
  run [(5, Some 4096); (0x90000, Some 0x1000000); (16, Some 0x4000000)] h
      [(0x4000000, 0x4080000); (0x1000000, 0x1090008); (4096, 4096 + 0x80000)]
      [(0x4000008, 0x4000018); (0x1000008, 0x1090008); (4104, 4109)] /\
  os_ok [(0x4000000, 0x4080000); (0x1000000, 0x1090008); (4096, 4096 + 0x80000)].
Proof.
  eexists. split.
  - apply (run_step [(5, Some 4096); (0x90000, Some 0x1000000)] {| pBase := [0x1000000; 4096]; pCurr := 0x1090008; currfree := 0 |}
           [(0x1000000, 0x1090008); (4096, 4096 + 0x80000)] [(0x1000008, 0x1090008); (4104, 4109)] 16).
    + apply (run_step [(5, Some 4096)] {| pBase := [4096]; pCurr := 4112; currfree := 524272 |}
             [(4096, 4096 + 0x80000)] [(4104, 4109)] 0x90000).
      * apply (run_step [] MemInit [] [] 5 (Some 4096)); [constructor|vm_compute; reflexivity|vm_compute; reflexivity].
      * vm_compute; reflexivity.
      * vm_compute; reflexivity.
    + vm_compute; reflexivity.
    + vm_compute; reflexivity.
  - split.
    + unfold pairwise, disjoint. rewrite !Forall_forall. cbn. intuition subst; cbn in *; lia.
    + repeat constructor; lia.
Qed.
