(** Property theorems C64: a thread panics (src/solver/parallel.rs, src/solver/barrier.rs). *)
From Verif Require Import Spec Dd DdSpec FringeSpec ParSpec BarSpec Table TableFacts MddCases ParCases BarCases ReportCases CrashSpec CrashProofs CrashBarProofs CrashGood CrashCases.
Open Scope Z_scope.

(** C64: a panic in one thread (for example in a callback of the user) reaches the caller, because the call ends. What holds: with one thread. *)
Theorem C64_one_thread_partial : forall S eqb (cfg : config S) stop n x,
  creaches S eqb cfg stop n 1 x -> x_dead x <> [] -> ended x.
Proof. exact one_thread. Qed.
Print Assumptions C64_one_thread_partial.
Theorem C64_barrier_one_thread_partial : forall S eqb (cfg : config S) stop n x,
  bcreaches S eqb cfg stop n 1 x -> z_dead x <> [] -> bended x.
Proof. exact bone_thread. Qed.
Print Assumptions C64_barrier_one_thread_partial.
Example C64_one_thread_case :
  snap_of (crun cfgI 1 1 [Move 0; Die 0]) = Some (mk_snap [SWork] [0]%nat 1 true false) /\
  bsnap_of (bcrun cfgI 1 1 (moves 5 0 ++ [Die 0])) = Some (mk_snap [SWork] [0]%nat 1 true false, true).
Proof. exact (conj single_snap bsingle_snap). Qed.

(** Missing, because false: with several threads, once a thread has panicked, [maximize] ends only if every thread panics. For any problem, any
    relaxation, any heuristic, any numbers of threads, and every frontier that behaves (see [C22_nodup_solver] and [C22_simple_solver]). *)
Theorem C64_ends_only_if_all_panic : forall S eqb (cfg : config S) merging inv content n m x y,
  frontier_ok merging (cf_fr cfg) inv content -> creaches S eqb cfg false n m x -> x_dead x <> [] ->
  cruns S eqb cfg false x y -> ended y -> forall i, (i < m)%nat -> In i (x_dead y).
Proof.
  exact (fun S eqb cfg merging inv content n m x y F Hx Hd Hr He => all_or_none S eqb cfg n m x y Hx (panics_at_work S eqb cfg merging inv content F false n m x Hx Hd) Hr He).
Qed.
Print Assumptions C64_ends_only_if_all_panic.
(** The same with thresholds, when a thread panicked while it was in charge of a subproblem; as it did if the problem is well formed. *)
Theorem C64_barrier_ends_only_if_all_panic : forall S eqb (cfg : config S) n m x y,
  bcreaches S eqb cfg false n m x -> bdied_at_work x -> bcruns S eqb cfg false x y -> bended y -> forall i, (i < m)%nat -> In i (z_dead y).
Proof. exact ball_or_none. Qed.
Print Assumptions C64_barrier_ends_only_if_all_panic.
Theorem C64_barrier_ends_only_if_all_panic_too : forall S eqb (cfg : config S) at_depth nv C n m x y,
  good_solver S eqb cfg at_depth nv C -> (m <= n)%nat -> bcreaches S eqb cfg false n m x -> z_dead x <> [] ->
  bcruns S eqb cfg false x y -> bended y -> forall i, (i < m)%nat -> In i (z_dead y).
Proof. exact (fun S eqb cfg at_depth nv C n m x y G Hm => bcrash_all_or_none S eqb cfg at_depth nv C G n m Hm x y). Qed.
Print Assumptions C64_barrier_ends_only_if_all_panic_too.
(** Two threads that both panic. *)
Example C64_all_case : good_solver tstate ts_eqb cfgI t_at t_nv 1000 /\
  snap_of (crun cfgI 2 2 (moves 6 0 ++ [Move 0; Move 1; Die 0; Die 1])) = Some (mk_snap [SWork; SWork] [1; 0]%nat 2 true false).
Proof. exact (conj (t_cfg_solver tabI 1 LastExactLayer 1000 tabI_ok ltac:(lia)) both_snap). Qed.

(** The threads that are left do not go on for ever either. With a well-formed problem and as many threads as the solver was created with, or fewer,
    once a thread has panicked in [maximize], whatever happens next: the steps come to an end, and then every thread has panicked, or those that did
    not wait, and will not even notice a deadline. *)
Theorem C64_left_waiting : forall S eqb (cfg : config S) at_depth nv C n m x,
  good_solver S eqb cfg at_depth nv C -> (m <= n)%nat -> creaches S eqb cfg false n m x -> x_dead x <> [] ->
  (~ exists f : nat -> cstate S cfg, f 0%nat = x /\ forall k, cstep S eqb cfg false (f k) (f (Datatypes.S k))) /\
  (forall y, cruns S eqb cfg false x y -> (forall z, ~ cstep S eqb cfg false y z) ->
     (forall i, (i < m)%nat -> In i (x_dead y)) \/ (deserted y /\ ~ ended y /\ forall z, ~ cstep S eqb cfg true y z)).
Proof. exact (fun S eqb cfg at_depth nv C n m x G Hm => left_waiting S eqb cfg at_depth nv C G n m Hm x). Qed.
Print Assumptions C64_left_waiting.
Theorem C64_barrier_left_waiting : forall S eqb (cfg : config S) at_depth nv C n m x,
  good_solver S eqb cfg at_depth nv C -> (m <= n)%nat -> bcreaches S eqb cfg false n m x -> z_dead x <> [] ->
  (~ exists f : nat -> bcstate S cfg, f 0%nat = x /\ forall k, bcstep S eqb cfg false (f k) (f (Datatypes.S k))) /\
  (forall y, bcruns S eqb cfg false x y -> (forall z, ~ bcstep S eqb cfg false y z) ->
     (forall i, (i < m)%nat -> In i (z_dead y)) \/ (bdeserted y /\ ~ bended y /\ forall z, ~ bcstep S eqb cfg true y z)).
Proof. exact (fun S eqb cfg at_depth nv C n m x G Hm => bleft_waiting S eqb cfg at_depth nv C G n m Hm x). Qed.
Print Assumptions C64_barrier_left_waiting.
(** Both outcomes occur with two threads (the second one for the other solver too). *)
Example C64_left_waiting_case : good_solver tstate ts_eqb cfgI t_at t_nv 1000 /\
  snap_of (crun cfgI 2 2 (moves 6 0 ++ [Move 0; Move 1; Die 0; Die 1])) = Some (mk_snap [SWork; SWork] [1; 0]%nat 2 true false) /\
  snap_of (crun cfgI 2 2 [Move 0; Die 0; Move 1]) = Some (abandoned 0) /\
  bsnap_of (bcrun cfgI 2 2 (moves 5 0 ++ [Die 0] ++ moves 2 1)) = Some (abandoned 0, true).
Proof. split; [exact (t_cfg_solver tabI 1 LastExactLayer 1000 tabI_ok ltac:(lia))|]. vm_compute. auto. Qed.

(** What is stored stays right: at any moment, whichever threads have panicked in a callback, the solution that the solver would report is a real one
    and its value is the value and the lower bound reported. (A caller that catches the panic of a call on one thread may ask for it.) *)
Theorem C64_solution_real : forall S eqb (cfg : config S) at_depth nv C n m stop x,
  good_solver S eqb cfg at_depth nv C -> (m <= n)%nat -> creaches S eqb cfg stop n m x ->
  (best_solution_of cfg (x_st x) = None /\ best_value_of cfg (x_st x) = None /\ lower_bound_of cfg (x_st x) = IMIN) \/
  (exists l v, best_solution_of cfg (x_st x) = Some l /\ best_value_of cfg (x_st x) = Some v /\ lower_bound_of cfg (x_st x) = v /\
     reported_solution S (cf_pb cfg) nv l v).
Proof. exact (fun S eqb cfg at_depth nv C n m stop x G Hm => crash_solution S eqb cfg at_depth nv C G n m Hm stop x). Qed.
Print Assumptions C64_solution_real.
Theorem C64_barrier_solution_real : forall S eqb (cfg : config S) at_depth nv C n m stop x,
  good_solver S eqb cfg at_depth nv C -> (m <= n)%nat -> bcreaches S eqb cfg stop n m x ->
  (bbest_solution cfg (z_st x) = None /\ bbest_value cfg (z_st x) = None /\ blower_bound cfg (z_st x) = IMIN) \/
  (exists l v, bbest_solution cfg (z_st x) = Some l /\ bbest_value cfg (z_st x) = Some v /\ blower_bound cfg (z_st x) = v /\
     reported_solution S (cf_pb cfg) nv l v).
Proof. exact (fun S eqb cfg at_depth nv C n m stop x G Hm => bcrash_solution S eqb cfg at_depth nv C G n m Hm stop x). Qed.
Print Assumptions C64_barrier_solution_real.
(** One thread that panics when 4 is the best value known. *)
Example C64_solution_case : good_solver tstate ts_eqb cfgI t_at t_nv 1000 /\
  option_map (fun x => (x_dead x, best_value_of cfgI (x_st x), best_solution_of cfgI (x_st x))) (crun cfgI 1 1 (moves 9 0 ++ [Die 0])) = Some ([0%nat], Some 4, Some sol4).
Proof. split; [exact (t_cfg_solver tabI 1 LastExactLayer 1000 tabI_ok ltac:(lia))|]. vm_compute. reflexivity. Qed.

(** What a panic leaves behind, for any problem and any number of threads: the upper bound and the solution are as they were, the lower bound is not
    smaller. (It may be larger: it is written before the solution.) *)
Theorem C64_panic_keeps : forall S eqb (cfg : config S) stop x y,
  cstep S eqb cfg stop x y -> x_dead y <> x_dead x ->
  c_lb (s_crit (x_st x)) <= c_lb (s_crit (x_st y)) /\ c_ub (s_crit (x_st y)) = c_ub (s_crit (x_st x)) /\ c_sol (s_crit (x_st y)) = c_sol (s_crit (x_st x)).
Proof. exact panic_keeps. Qed.
Print Assumptions C64_panic_keeps.
Theorem C64_barrier_panic_keeps : forall S eqb (cfg : config S) stop x y,
  bcstep S eqb cfg stop x y -> z_dead y <> z_dead x ->
  c_lb (k_c (q_crit (z_st x))) <= c_lb (k_c (q_crit (z_st y))) /\ c_ub (k_c (q_crit (z_st y))) = c_ub (k_c (q_crit (z_st x))) /\
  c_sol (k_c (q_crit (z_st y))) = c_sol (k_c (q_crit (z_st x))).
Proof. exact bpanic_keeps. Qed.
Print Assumptions C64_barrier_panic_keeps.
Example C64_panic_keeps_case :
  (exists x y, creaches tstate ts_eqb cfgI false 2 2 x /\ cstep tstate ts_eqb cfgI false x y /\ x_dead y <> x_dead x) /\
  (exists x y, bcreaches tstate ts_eqb cfgI false 2 2 x /\ bcstep tstate ts_eqb cfgI false x y /\ z_dead y <> z_dead x).
Proof.
  destruct (abandoned_hangs _ _ _ _ _ callback_snap ltac:(lia)) as (x & _ & H1 & H2 & _).
  destruct (babandoned_hangs _ _ _ _ _ bcallback_snap ltac:(lia)) as (z & _ & H3 & H4 & _).
  split; [eapply first_panic; [exact H1|]|eapply bfirst_panic; [exact H3|]]; congruence.
Qed.

(** (1) A callback panics in the thread that processes the first subproblem. Then no thread can do anything any more, not even notice that it should
    stop, and the call has not ended; if waiting threads woke up for no reason, [maximize] still would never end. *)
Theorem C64_callback_refuted : exists (cfg : config tstate) x,
  good_solver tstate ts_eqb cfg t_at t_nv 1000 /\ creaches tstate ts_eqb cfg false 2 2 x /\ x_dead x = [0%nat] /\
  ~ ended x /\ (forall y, ~ cstep tstate ts_eqb cfg true x y) /\ (forall y, cruns tstate ts_eqb cfg false x y -> ~ ended y).
Proof.
  destruct (abandoned_hangs _ _ _ _ _ callback_snap ltac:(lia)) as (x & _ & H1 & H2 & _ & H3 & H4 & H5).
  exists cfgI, x. split; [exact (t_cfg_solver tabI 1 LastExactLayer 1000 tabI_ok ltac:(lia))|]. exact (conj H1 (conj H2 (conj (deserted_not_ended _ _ x H3) (conj H4 H5)))).
Qed.
Print Assumptions C64_callback_refuted.
Theorem C64_barrier_callback_refuted : exists (cfg : config tstate) x,
  good_solver tstate ts_eqb cfg t_at t_nv 1000 /\ bcreaches tstate ts_eqb cfg false 2 2 x /\ z_dead x = [0%nat] /\
  ~ bended x /\ (forall y, ~ bcstep tstate ts_eqb cfg true x y) /\ (forall y, bcruns tstate ts_eqb cfg false x y -> ~ bended y).
Proof.
  destruct (babandoned_hangs _ _ _ _ _ bcallback_snap ltac:(lia)) as (x & _ & H1 & H2 & _ & H3 & H4 & H5).
  exists cfgI, x. split; [exact (t_cfg_solver tabI 1 LastExactLayer 1000 tabI_ok ltac:(lia))|]. exact (conj H1 (conj H2 (conj (bdeserted_not_ended _ _ x H3) (conj H4 H5)))).
Qed.
Print Assumptions C64_barrier_callback_refuted.
(** (2) A width of zero, which both programs accept on the command line: with two threads the call does not panic, it never ends. *)
Theorem C64_zero_width_refuted : exists (cfg : config tstate) x0 x,
  (forall s, cf_width cfg s = 0%nat) /\ creaches tstate ts_eqb cfg false 2 2 x0 /\ thread_step ts_eqb cfg orc_fwd false 0 (x_st x0) = Panic /\
  creaches tstate ts_eqb cfg false 2 2 x /\ x_dead x = [0%nat] /\
  ~ ended x /\ (forall y, ~ cstep tstate ts_eqb cfg true x y) /\ (forall y, cruns tstate ts_eqb cfg false x y -> ~ ended y).
Proof.
  destruct (abandoned_hangs _ _ _ _ _ width_snap ltac:(lia)) as (x & _ & H1 & H2 & _ & H3 & H4 & H5). destruct (panics_before _ _ _ _ _ width_panics) as (x0 & P1 & P2).
  exists cfgZ, x0, x. split; [reflexivity|]. exact (conj P1 (conj P2 (conj H1 (conj H2 (conj (deserted_not_ended _ _ x H3) (conj H4 H5)))))).
Qed.
Print Assumptions C64_zero_width_refuted.
Theorem C64_barrier_zero_width_refuted : exists (cfg : config tstate) x0 x,
  (forall s, cf_width cfg s = 0%nat) /\ bcreaches tstate ts_eqb cfg false 2 2 x0 /\ bthread_step ts_eqb cfg orc_fwd false 0 (z_st x0) = BPanic /\
  bcreaches tstate ts_eqb cfg false 2 2 x /\ z_dead x = [0%nat] /\
  ~ bended x /\ (forall y, ~ bcstep tstate ts_eqb cfg true x y) /\ (forall y, bcruns tstate ts_eqb cfg false x y -> ~ bended y).
Proof.
  destruct (babandoned_hangs _ _ _ _ _ bwidth_snap ltac:(lia)) as (x & _ & H1 & H2 & _ & H3 & H4 & H5). destruct (bpanics_before _ _ _ _ _ bwidth_panics) as (x0 & P1 & P2).
  exists cfgZ, x0, x. split; [reflexivity|]. exact (conj P1 (conj P2 (conj H1 (conj H2 (conj (bdeserted_not_ended _ _ x H3) (conj H4 H5)))))).
Qed.
Print Assumptions C64_barrier_zero_width_refuted.
(** (3) More threads than the solver was created with (see C32): the same, with a good problem. *)
Theorem C64_more_threads_refuted : exists (cfg : config tstate) x0 x,
  good_solver tstate ts_eqb cfg t_at t_nv 1000 /\ well_behaved tstate ts_eqb (cf_pb cfg) (cf_rx cfg) t_at t_nv 1000 /\
  creaches tstate ts_eqb cfg false 1 2 x0 /\ thread_step ts_eqb cfg orc_fwd false 1 (x_st x0) = Panic /\
  creaches tstate ts_eqb cfg false 1 2 x /\ x_dead x = [1%nat] /\
  ~ ended x /\ (forall y, ~ cstep tstate ts_eqb cfg true x y) /\ (forall y, cruns tstate ts_eqb cfg false x y -> ~ ended y).
Proof.
  destruct (abandoned_hangs _ _ _ _ _ threads_snap ltac:(lia)) as (x & _ & H1 & H2 & _ & H3 & H4 & H5). destruct (panics_before _ _ _ _ _ threads_panics) as (x0 & P1 & P2).
  exists cfgI, x0, x. split; [exact (t_cfg_solver tabI 1 LastExactLayer 1000 tabI_ok ltac:(lia))|]. split; [exact (table_well_behaved tabI 1000 tabI_ok)|].
  exact (conj P1 (conj P2 (conj H1 (conj H2 (conj (deserted_not_ended _ _ x H3) (conj H4 H5)))))).
Qed.
Print Assumptions C64_more_threads_refuted.
Theorem C64_barrier_more_threads_refuted : exists (cfg : config tstate) x0 x,
  good_solver tstate ts_eqb cfg t_at t_nv 1000 /\ well_behaved tstate ts_eqb (cf_pb cfg) (cf_rx cfg) t_at t_nv 1000 /\
  bcreaches tstate ts_eqb cfg false 1 2 x0 /\ bthread_step ts_eqb cfg orc_fwd false 1 (z_st x0) = BPanic /\
  bcreaches tstate ts_eqb cfg false 1 2 x /\ z_dead x = [1%nat] /\
  ~ bended x /\ (forall y, ~ bcstep tstate ts_eqb cfg true x y) /\ (forall y, bcruns tstate ts_eqb cfg false x y -> ~ bended y).
Proof.
  destruct (babandoned_hangs _ _ _ _ _ bthreads_snap ltac:(lia)) as (x & _ & H1 & H2 & _ & H3 & H4 & H5). destruct (bpanics_before _ _ _ _ _ bthreads_panics) as (x0 & P1 & P2).
  exists cfgI, x0, x. split; [exact (t_cfg_solver tabI 1 LastExactLayer 1000 tabI_ok ltac:(lia))|]. split; [exact (table_well_behaved tabI 1000 tabI_ok)|].
  exact (conj P1 (conj P2 (conj H1 (conj H2 (conj (bdeserted_not_ended _ _ x H3) (conj H4 H5)))))).
Qed.
Print Assumptions C64_barrier_more_threads_refuted.
