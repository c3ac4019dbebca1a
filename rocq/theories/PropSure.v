(** Property theorems C64: the compilation of the root panics (src/solver/parallel.rs, src/solver/barrier.rs), and two programs in which it does. *)
From Verif Require Import Spec Dd DdSpec Fringe FringeSpec FringeFacts ParSpec BarSpec Table TableFacts MddCases ParCases ReportCases CrashSpec SureSpec SureProofs SureBarProofs
  Srflp SrflpSpec SrflpProofs SrflpCases Psp PspSpec PspProofs PspCases SureCases.
Open Scope Z_scope.

(** C64: if the callbacks panic on the initial state, then with two threads or more [maximize] never ends. No execution goes on for ever either: each
    comes to a point where one thread has panicked, and all the others wait for a notification that nothing can send any more. For any problem, any
    relaxation, any heuristic, any numbers of threads, every order of the steps, and every frontier that behaves. *)
Theorem C64_root_panics : forall S eqb (cfg : config S) (fatal : subproblem S -> Prop) merging inv content, frontier_ok merging (cf_fr cfg) inv content ->
  forall n m, (2 <= m <= n)%nat -> fatal (root_node cfg) -> forall x, freaches S eqb cfg fatal n m x ->
  ~ ended x /\
  (~ exists f : nat -> cstate S cfg, f 0%nat = x /\ forall k, fstep S eqb cfg fatal (f k) (f (Datatypes.S k))) /\
  ((forall y, ~ fstep S eqb cfg fatal x y) -> deserted x /\ length (x_dead x) = 1%nat).
Proof. exact fatal_root. Qed.
Print Assumptions C64_root_panics.
Theorem C64_barrier_root_panics : forall S eqb (cfg : config S) (fatal : subproblem S -> Prop) merging inv content, frontier_ok merging (cf_fr cfg) inv content ->
  forall n m, (2 <= m <= n)%nat -> fatal (root_node cfg) -> forall x, bfreaches S eqb cfg fatal n m x ->
  ~ bended x /\
  (~ exists f : nat -> bcstate S cfg, f 0%nat = x /\ forall k, bfstep S eqb cfg fatal (f k) (f (Datatypes.S k))) /\
  ((forall y, ~ bfstep S eqb cfg fatal x y) -> bdeserted x /\ length (z_dead x) = 1%nat).
Proof. exact bfatal_root. Qed.
Print Assumptions C64_barrier_root_panics.
(** Such an end is always reached by some execution: here on four threads. *)
Example C64_root_panics_case : exists fatal,
  (exists x, freaches tstate ts_eqb cfgI fatal 4 4 x /\ deserted x) /\ (exists x, bfreaches tstate ts_eqb cfgI fatal 4 4 x /\ bdeserted x).
Proof.
  exists (fun q => sp_state q = pb_init (cf_pb cfgI)).
  pose proof (nodup_frontier_ok tstate ts_eqb t_rank ts_eqb_spec t_rank_preorder) as HF. assert (2 <= 4 <= 4)%nat as Hm by lia. split.
  - exact (fatal_happens tstate ts_eqb cfgI _ _ _ _ HF 4 4 Hm eq_refl).
  - exact (bfatal_happens tstate ts_eqb cfgI _ _ _ _ HF 4 4 Hm eq_refl).
Qed.

(** In a debug build, the SRFLP program on two threads or more never ends, on any instance, with either solver. *)
Theorem C64_srflp_debug_never_ends : forall I F L, sr_ok I F L -> forall factor ct n m, (2 <= m <= n)%nat ->
  sr_estimate true I (sr_init I) = None /\
  (forall x, freaches sr_state sr_eqb (sr_cfg true I factor ct) (fun q => sr_estimate true I (sp_state q) = None) n m x -> ~ ended x) /\
  (forall x, bfreaches sr_state sr_eqb (sr_cfg true I factor ct) (fun q => sr_estimate true I (sp_state q) = None) n m x -> ~ bended x).
Proof. exact sr_never. Qed.
Print Assumptions C64_srflp_debug_never_ends.
Example C64_srflp_case : sr_ok row 6 5 /\ exists x, freaches sr_state sr_eqb (sr_cfg true row 1 LastExactLayer) (sr_fatal row) 2 2 x /\ deserted x.
Proof.
  split; [exact row_ok|]. exact (fatal_happens _ _ _ _ _ _ _ (sr_frontier row 1 LastExactLayer) 2 2 ltac:(lia) (sr_root row 6 5 row_ok 1%nat LastExactLayer)).
Qed.
(** In a debug build, the PSP program on two threads or more never ends, on any instance that leaves two periods or more idle, with either solver. *)
Theorem C64_psp_debug_never_ends : forall D M, psp_ok D M -> forall J, loaded D J ->
  zsum (map (fun i => demanded D i (pd_T D)) (seq 0 (pd_n D))) + 1 < Z.of_nat (pd_T D) -> forall factor ct n m, (2 <= m <= n)%nat ->
  ps_estimate J true (pb_init (psp_pb J true)) = None /\
  (forall x, freaches psp_state psp_eqb (psp_debug_cfg J factor ct) (fun q => ps_estimate J true (sp_state q) = None) n m x -> ~ ended x) /\
  (forall x, bfreaches psp_state psp_eqb (psp_debug_cfg J factor ct) (fun q => ps_estimate J true (sp_state q) = None) n m x -> ~ bended x).
Proof. exact psp_never. Qed.
Print Assumptions C64_psp_debug_never_ends.
Example C64_psp_case : psp_ok small 4 /\ loaded small (psp_load small) /\
  zsum (map (fun i => demanded small i (pd_T small)) (seq 0 (pd_n small))) = 3 /\ pd_T small = 5%nat.
Proof. split; [exact small_ok|]. split; [exact small_loaded|]. split; vm_compute; reflexivity. Qed.
