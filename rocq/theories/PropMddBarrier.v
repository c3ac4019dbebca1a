(** Property theorems C50-C54 (decision diagrams of src/mdd/with_barrier.rs and the thresholds they share). *)
From Verif Require Import Spec Dd DdSpec FlagsFacts MddAll FringeSpec ParSpec MddBarrier BarSpec MddBarrierRuns BarClimb Table TableFacts MddCases ParCases BarCases RaceCases EndCases MddBarrierCases MddBarrierSpec.
Open Scope Z_scope.

(* ------------------------------------------------------------------ *)
(** C50. The compilation of a diagram with thresholds never panics and always ends, whatever the other threads write to the
    thresholds between its accesses ([alone] is [false]), and of course when there are none. *)
Theorem C50_never_panics : forall S eqb P R at_depth nv C alone debug orc inp d T p' T' T1,
  well_formed S eqb P R at_depth nv C -> good_call S P R nv debug orc inp -> length T = Datatypes.S (pb_nb_vars P) ->
  gets eqb alone (compile eqb debug orc inp d) T p' T' -> meanwhile S alone T' T1 ->
  (exists dF, p' = Ret dF) \/ exists p2 T2, access eqb p' T1 = Some (p2, T2).
Proof. intros. eapply barm_no_panic; eauto. Qed.
Print Assumptions C50_never_panics.
Theorem C50_no_infinite_execution : forall S eqb debug orc inp (d : dd S) (f : nat -> prog S (dd S)),
  f 0%nat = compile eqb debug orc inp d -> ~ forall n, exists T T', access eqb (f n) T = Some (f (Datatypes.S n), T').
Proof. intros S eqb debug orc inp d f. apply prog_finite. Qed.
Print Assumptions C50_no_infinite_execution.
Theorem C50_returns : forall S eqb P R at_depth nv C alone debug orc inp d T,
  well_formed S eqb P R at_depth nv C -> good_call S P R nv debug orc inp -> length T = Datatypes.S (pb_nb_vars P) ->
  exists dF T', returns eqb alone (compile eqb debug orc inp d) T dF T'.
Proof. intros. eapply barm_returns; eauto. Qed.
Print Assumptions C50_returns.
(** Another thread adds a threshold between the first access and the second. *)
Example C50_case :
  well_behaved tstate ts_eqb (t_problem tabA) (t_relax tabA) t_at t_nv 1000 /\
  good_call tstate (t_problem tabA) (t_relax tabA) t_nv true orc_fwd (t_call tabA Restricted 3 0 (t_root tabA)) /\
  exists dF, returns ts_eqb false (compile ts_eqb true orc_fwd (t_call tabA Restricted 3 0 (t_root tabA)) (dd_new LastExactLayer)) none4 dF some4 /\
    best_value dF = Some (Some 7).
Proof.
  split; [exact tabA_ok|]. split; [exact (tabA_call Restricted 3 0 ltac:(lia))|].
  destruct (seen_returns false added _ _ _ added_ok restricted_added) as (dF & T' & H & E). injection E as E1 _ _ _ ->. exists dF. split; [exact H|exact E1].
Qed.

(* ------------------------------------------------------------------ *)
(** C51. Whatever the other threads write to the thresholds: what a diagram that is not relaxed, or that is exact, reports is a
    real solution with the value it reports; and the subproblems of the cutset are real, obtained from the compiled one by
    taking more decisions. *)
Theorem C51_solutions_real : forall S eqb P R at_depth nv C alone debug orc inp d T dF T',
  well_formed S eqb P R at_depth nv C -> good_call S P R nv debug orc inp -> length T = Datatypes.S (pb_nb_vars P) ->
  returns eqb alone (compile eqb debug orc inp d) T dF T' -> i_type inp <> Relaxed \/ g_exact dF = true ->
  (best_value dF = Some None /\ best_solution dF = Some None) \/
  (exists v l, best_value dF = Some (Some v) /\ best_solution dF = Some (Some l) /\ reported_solution S P nv l v /\
     exists ds, completes S P nv (i_res inp) ds v).
Proof. intros. eapply barm_feasible; eauto. Qed.
Print Assumptions C51_solutions_real.
Theorem C51_cutset_genuine : forall S eqb P R at_depth nv C alone debug orc inp d T dF T',
  well_formed S eqb P R at_depth nv C -> good_call S P R nv debug orc inp -> length T = Datatypes.S (pb_nb_vars P) ->
  returns eqb alone (compile eqb debug orc inp d) T dF T' ->
  exists l d2, drain_cutset dF = Some (l, d2) /\
    forall q, In q l -> genuine S P nv q /\ descends S P nv (i_res inp) q /\ (depth_of (i_res inp) < depth_of q)%nat.
Proof. intros. eapply barm_cut; eauto. Qed.
Print Assumptions C51_cutset_genuine.
(** As above, the answer changes from 8 to 7, which is a solution too; with width 1, a relaxed diagram has a cutset. *)
Example C51_case :
  (exists dF, returns ts_eqb true (compile ts_eqb true orc_fwd (t_call tabA Restricted 3 0 (t_root tabA)) (dd_new LastExactLayer)) none4 dF none4 /\
    best_value dF = Some (Some 8) /\ best_solution dF = Some (Some (rev solA8))) /\
  (exists dF, returns ts_eqb false (compile ts_eqb true orc_fwd (t_call tabA Restricted 3 0 (t_root tabA)) (dd_new LastExactLayer)) none4 dF some4 /\
    best_value dF = Some (Some 7) /\ best_solution dF = Some (Some (rev solA7))) /\
  (exists dF T', returns ts_eqb false (compile ts_eqb true orc_fwd (t_call tabA Relaxed 1 0 (t_root tabA)) (dd_new LastExactLayer)) none4 dF T' /\
    option_map fst (drain_cutset dF) = Some [qA2]).
Proof.
  split; [|split].
  - destruct (seen_returns true idle _ _ _ idle_ok restricted_none) as (dF & T' & H & E). injection E as E1 E2 _ _ ->. exists dF. auto.
  - destruct (seen_returns false added _ _ _ added_ok restricted_added) as (dF & T' & H & E). injection E as E1 E2 _ _ ->. exists dF. auto.
  - destruct (seen_returns false added _ _ _ added_ok relaxed_added) as (dF & T' & H & E). injection E as _ _ _ E4 _. exists dF, T'. auto.
Qed.

(* ------------------------------------------------------------------ *)
(** C52. Nothing is lost but what the thresholds promise: compile alone a relaxed diagram, with a last exact layer cutset
    or when there is a single final state, or any diagram of another type that turns out exact; every improving completion of the subproblem is answered (by the value
    of an exact diagram, or by the cutset), or given up because of a threshold that was there before. *)
Theorem C52_answered_or_promised : forall S eqb P R at_depth nv C debug orc inp d T dF T' ds x,
  well_behaved S eqb P R at_depth nv C -> good_call S P R nv debug orc inp -> length T = Datatypes.S (pb_nb_vars P) ->
  returns eqb true (compile eqb debug orc inp d) T dF T' ->
  i_type inp = Relaxed /\ (g_ctype d = LastExactLayer \/ forall a b, at_depth (pb_nb_vars P) a -> at_depth (pb_nb_vars P) b -> a = b) \/
  i_type inp <> Relaxed /\ g_exact dF = true ->
  completes S P nv (i_res inp) ds x -> i_lb inp < x ->
  promised S eqb P nv T x (Datatypes.S (depth_of (i_res inp))) \/ answered S P nv dF x (Datatypes.S (depth_of (i_res inp))).
Proof. intros. eapply barm_covers; eauto. Qed.
Print Assumptions C52_answered_or_promised.
(** In particular when there is no threshold below the compiled subproblem. *)
Theorem C52_answered : forall S eqb P R at_depth nv C debug orc inp d T dF T' ds x,
  well_behaved S eqb P R at_depth nv C -> good_call S P R nv debug orc inp -> length T = Datatypes.S (pb_nb_vars P) ->
  (forall k s i, (depth_of (i_res inp) < k)%nat -> ~ entry S eqb T k s i) ->
  returns eqb true (compile eqb debug orc inp d) T dF T' ->
  i_type inp = Relaxed /\ (g_ctype d = LastExactLayer \/ forall a b, at_depth (pb_nb_vars P) a -> at_depth (pb_nb_vars P) b -> a = b) \/
  i_type inp <> Relaxed /\ g_exact dF = true ->
  completes S P nv (i_res inp) ds x -> i_lb inp < x ->
  answered S P nv dF x (Datatypes.S (depth_of (i_res inp))).
Proof.
  intros S eqb P R at_depth nv C debug orc inp d T dF T' ds x Hw Hg HL Hn Hr Ht Hc Hx.
  destruct (barm_covers S eqb P R at_depth nv C debug orc inp d T dF T' ds x Hw Hg HL Hr Ht Hc Hx) as [(k & s & i & ds' & c & h1 & h2 & _)|H]; [|exact H].
  exfalso. exact (Hn k s i h1 h2).
Qed.
Print Assumptions C52_answered.
(** No threshold: the solution worth 8 is answered by the cutset. With one: the diagram is exact, reports 7, and 8 is what the
    threshold promises. *)
Example C52_case :
  completes tstate (t_problem tabA) t_nv (t_root tabA) solA8 8 /\
  (exists dF T', returns ts_eqb true (compile ts_eqb true orc_fwd (t_call tabA Relaxed 2 0 (t_root tabA)) (dd_new LastExactLayer)) none4 dF T' /\
    g_exact dF = false /\ option_map fst (drain_cutset dF) = Some [qA2; qA1]) /\
  (exists dF T', returns ts_eqb true (compile ts_eqb true orc_fwd (t_call tabA Relaxed 2 0 (t_root tabA)) (dd_new LastExactLayer)) some4 dF T' /\
    g_exact dF = true /\ best_value dF = Some (Some 7)).
Proof.
  split; [exact tabA_sol8|]. split.
  - destruct (seen_returns true idle _ _ _ idle_ok lel_none) as (dF & T' & H & E). injection E as _ _ E3 E4 _. exists dF, T'. auto.
  - destruct (seen_returns true idle _ _ _ idle_ok lel_some) as (dF & T' & H & E). injection E as E1 _ E3 _ _. exists dF, T'. auto.
Qed.

(** A frontier cutset and a single final state: the cutset holds a subproblem that can give 8, the best there is. *)
Example C52_frontier_case :
  well_behaved tstate ts_eqb (t_problem tabG) (t_relax tabG) (t_at1 tabG) t_nv 1000 /\
  (forall a b, t_at1 tabG 3 a -> t_at1 tabG 3 b -> a = b) /\ optimum tstate (t_problem tabG) t_nv 8 /\
  exists dF T', returns ts_eqb true (compile ts_eqb true orc_fwd (t_call tabG Relaxed 2 0 (t_root tabG)) (dd_new Frontier)) none4 dF T' /\
    g_exact dF = false /\ option_map fst (drain_cutset dF) = Some [qG1; qG2; qG3] /\ sp_ub qG1 = 8.
Proof.
  split; [exact (end_well_behaved tabG 1000 tabG_ok tabG_end)|]. split; [exact (end_one tabG 2 Frontier)|]. split; [exact tabG_opt|].
  destruct (seen_returns true idle _ _ _ idle_ok frontier_none) as (dF & T' & H & E). injection E as _ _ E3 E4 _. exists dF, T'. auto.
Qed.

(* ------------------------------------------------------------------ *)
(** C53. The thresholds a relaxed compilation records are sound: alone, with a last exact layer cutset
    or when there is a single final state, whoever arrives at the
    state of a new entry with a value that does not exceed it can only obtain what is promised by an older threshold further
    down, answered by the diagram, or, if the entry is not marked as explored, what the subproblem of the cutset with the
    same state and a value at least as good is allowed to give. *)
Theorem C53_recorded_thresholds_sound : forall S eqb P R at_depth nv C debug orc inp d T dF T' k s i q ds x,
  well_behaved S eqb P R at_depth nv C -> good_call S P R nv debug orc inp -> length T = Datatypes.S (pb_nb_vars P) ->
  returns eqb true (compile eqb debug orc inp d) T dF T' -> i_type inp = Relaxed ->
  (g_ctype d = LastExactLayer \/ forall a b, at_depth (pb_nb_vars P) a -> at_depth (pb_nb_vars P) b -> a = b) ->
  entry S eqb T' k s i -> ~ entry S eqb T k s i ->
  genuine S P nv q -> depth_of q = k -> sp_state q = s -> sp_value q <= b_theta i -> completes S P nv q ds x -> i_lb inp < x ->
  promised S eqb P nv T x (Datatypes.S k) \/ answered S P nv dF x (Datatypes.S k) \/
  (b_explored i = false /\ g_exact dF = false /\
   exists l d2 q', drain_cutset dF = Some (l, d2) /\ In q' l /\ depth_of q' = k /\ sp_state q' = s /\ b_theta i <= sp_value q' /\ x <= sp_ub q').
Proof. intros. eapply barm_entry; eauto. Qed.
Print Assumptions C53_recorded_thresholds_sound.
(** Only relaxed compilations record thresholds, and only for the layers of their diagram. *)
Theorem C53_recorded_where : forall S eqb P R at_depth nv C debug orc inp d T dF T' k s i,
  well_formed S eqb P R at_depth nv C -> good_call S P R nv debug orc inp -> length T = Datatypes.S (pb_nb_vars P) ->
  returns eqb true (compile eqb debug orc inp d) T dF T' ->
  entry S eqb T' k s i -> ~ entry S eqb T k s i -> i_type inp = Relaxed /\ (depth_of (i_res inp) <= k)%nat.
Proof. intros. eapply barm_written; eauto. Qed.
Print Assumptions C53_recorded_where.
Theorem C53_kept : forall S eqb P R at_depth nv C debug orc inp d T dF T' k s i,
  well_formed S eqb P R at_depth nv C -> good_call S P R nv debug orc inp -> length T = Datatypes.S (pb_nb_vars P) ->
  returns eqb true (compile eqb debug orc inp d) T dF T' -> i_type inp <> Relaxed \/ (k < depth_of (i_res inp))%nat ->
  entry S eqb T k s i -> entry S eqb T' k s i.
Proof. intros. eapply barm_erased; eauto. Qed.
Print Assumptions C53_kept.
(** Without thresholds, those of the two subproblems of the cutset are recorded, not explored; with the threshold of [some4],
    the diagram is exact and those of the whole diagram are; the restricted diagram records nothing. *)
Example C53_case :
  (exists dF, returns ts_eqb true (compile ts_eqb true orc_fwd (t_call tabA Relaxed 2 0 (t_root tabA)) (dd_new LastExactLayer)) none4 dF
    [[((0%nat, 0), mk_info 0 true)]; [((1%nat, 2), mk_info 0 false); ((1%nat, 1), mk_info 5 false)]; []; []]) /\
  (exists dF, returns ts_eqb true (compile ts_eqb true orc_fwd (t_call tabA Relaxed 2 0 (t_root tabA)) (dd_new LastExactLayer)) some4 dF
    [[((0%nat, 0), mk_info 0 true)]; [((1%nat, 2), mk_info 0 true); ((1%nat, 1), mk_info 5 true)];
     [((2%nat, 1), mk_info 5 true); ((2%nat, 3), mk_info 1 true); ((2%nat, 2), mk_info 0 true)]; [((3%nat, 2), mk_info 7 false)]]) /\
  (exists dF, returns ts_eqb true (compile ts_eqb true orc_fwd (t_call tabA Restricted 3 0 (t_root tabA)) (dd_new LastExactLayer)) none4 dF none4).
Proof.
  split; [|split].
  - destruct (seen_returns true idle _ _ _ idle_ok lel_none) as (dF & T' & H & E). injection E as _ _ _ _ ->. exists dF. exact H.
  - destruct (seen_returns true idle _ _ _ idle_ok lel_some) as (dF & T' & H & E). injection E as _ _ _ _ ->. exists dF. exact H.
  - destruct (seen_returns true idle _ _ _ idle_ok restricted_none) as (dF & T' & H & E). injection E as _ _ _ _ ->. exists dF. exact H.
Qed.

(** With a frontier cutset and a single final state, the three subproblems of the cutset have their thresholds. *)
Example C53_frontier_case : exists dF,
  returns ts_eqb true (compile ts_eqb true orc_fwd (t_call tabG Relaxed 2 0 (t_root tabG)) (dd_new Frontier)) none4 dF
    [[((0%nat, 0), mk_info 0 true)]; [((1%nat, 3), mk_info 1 false); ((1%nat, 2), mk_info 1 false); ((1%nat, 1), mk_info 0 true)];
     [((2%nat, 1), mk_info 5 false)]; []].
Proof. destruct (seen_returns true idle _ _ _ idle_ok frontier_none) as (dF & T' & H & E). injection E as _ _ _ _ ->. exists dF. exact H. Qed.

(* ------------------------------------------------------------------ *)
(** C54. A threshold is only ever replaced by one that excludes at least as much: false with two threads, since reading a
    threshold and writing it are two accesses. *)
Theorem C54_two_threads_refuted : exists (cfg : config tstate) st st' k s i j,
  good_solver tstate ts_eqb cfg t_at t_nv 1000 /\ cf_ctype cfg = LastExactLayer /\
  breachable tstate ts_eqb cfg 2 2 st /\ bstep tstate ts_eqb cfg st st' /\
  threshold_of tstate ts_eqb cfg st k s = Some i /\ threshold_of tstate ts_eqb cfg st' k s = Some j /\ b_theta j < b_theta i.
Proof.
  destruct lowered as (st & st' & h1 & h2 & h3 & h4). exists cfgD, st, st', 3%nat, (3%nat, 1), (mk_info 5 true), (mk_info 3 false).
  split; [exact (t_cfg_solver tabD 2 LastExactLayer 1000 tabD_ok ltac:(lia))|]. split; [reflexivity|]. cbn. auto 8 with zarith.
Qed.
Print Assumptions C54_two_threads_refuted.
(** What holds (missing: several threads): with one thread, in every step of every execution, an entry that is still there
    is as strong as before; and a compilation alone replaces entries by stronger ones and removes none. *)
Theorem C54_single_thread_partial : forall S eqb (cfg : config S) n st st' k s i j,
  (forall a b, eqb a b = true <-> a = b) -> breachable S eqb cfg n 1 st -> bstep S eqb cfg st st' ->
  threshold_of S eqb cfg st k s = Some i -> threshold_of S eqb cfg st' k s = Some j -> stronger i j.
Proof. intros S eqb cfg n st st' k s i j He. exact (bar_raised S eqb He cfg n st st' k s i j). Qed.
Print Assumptions C54_single_thread_partial.
Theorem C54_compilation_partial : forall S eqb debug orc inp (d : dd S) T dF T' k s i,
  (forall a b, eqb a b = true <-> a = b) -> returns eqb true (compile eqb debug orc inp d) T dF T' ->
  entry S eqb T k s i -> exists j, entry S eqb T' k s j /\ stronger i j.
Proof. intros S eqb debug orc inp d T dF T' k s i He. exact (compile_raised S eqb He debug orc inp d T dF T' k s i). Qed.
Print Assumptions C54_compilation_partial.
(** The threshold 2, explored, is replaced by 5, not explored. *)
Example C54_case : exists dF T', returns ts_eqb true (compile ts_eqb true orc_fwd (t_call tabA Relaxed 2 0 (t_root tabA)) (dd_new LastExactLayer)) weak4 dF T' /\
  entry tstate ts_eqb weak4 1 (1%nat, 1) (mk_info 2 true) /\ entry tstate ts_eqb T' 1 (1%nat, 1) (mk_info 5 false).
Proof.
  destruct (seen_returns true idle _ _ _ idle_ok lel_weak) as (dF & T' & H & E). injection E as _ _ _ _ ->. exists dF. eexists. split; [exact H|].
  split; eexists; (split; [reflexivity|vm_compute; reflexivity]).
Qed.

(** C13, for the diagrams with thresholds: here too the early [return] (src/mdd/with_barrier.rs:274) leaves [is_exact] to true when
    [next_variable] names a variable although the layer is empty, so that condition of [wf_problem] is needed. *)
Theorem C13_barrier_next_variable_on_empty_layer_refuted :
  exists (t : table) (f : list tstate -> option nat) inp dF ds,
  well_behaved tstate ts_eqb (t_problem t) (t_relax t) t_at t_nv 1000 /\
  (forall l, l <> [] -> f l = pb_next_var (t_problem t) l) /\
  i_pb inp = with_next tstate (t_problem t) f /\ i_type inp = Restricted /\ i_lb inp = 0 /\ i_width inp = 1%nat /\
  returns ts_eqb true (compile ts_eqb true orc_fwd inp (dd_new LastExactLayer)) [[]; []; []] dF [[]; []; []] /\ g_exact dF = true /\ best_value dF = Some None /\
  completes tstate (t_problem t) t_nv (i_res inp) ds 3.
Proof. exact early_exact. Qed.
Print Assumptions C13_barrier_next_variable_on_empty_layer_refuted.
