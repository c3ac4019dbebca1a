(** Property theorems C28 and C29 with several threads: a race between reading and writing a threshold
    (src/mdd/with_barrier.rs, [try_update_barrier]), and bounds that depend on thresholds of subproblems in progress. *)
From Verif Require Import Spec Dd DdSpec MddAll FringeSpec NoDupFacts FringeFacts ParSpec MddBarrier BarSpec Table TableFacts MddCases ParCases BarCases RaceCases RaceSpec ApartCases.
Open Scope Z_scope.

(** C28 is false with three threads: the solver answers Proved with 14 although the optimum is 15. *)
Theorem C28_three_threads_refuted : exists (cfg : config tstate) st,
  good_solver tstate ts_eqb cfg t_at t_nv 1000 /\ well_behaved tstate ts_eqb (cf_pb cfg) (cf_rx cfg) t_at t_nv 1000 /\
  decided_once tstate cfg t_nv /\ cf_ctype cfg = LastExactLayer /\ breachable tstate ts_eqb cfg 3 3 st /\ bproved cfg st /\
  bbest_value cfg st = Some 14 /\ optimum tstate (cf_pb cfg) t_nv 15.
Proof.
  destruct (brun_look _ _ _ _ _ race_run) as (st & _ & H1 & H2 & H3 & H4 & H5 & H6 & _). exists cfgR, st.
  split; [exact (t_cfg_solver tabR 2 LastExactLayer 1000 tabR_ok ltac:(lia))|]. split; [exact (table_well_behaved tabR 1000 tabR_ok)|].
  split; [exact (t_decided_once tabR 2 LastExactLayer)|]. split; [reflexivity|]. split; [exact H1|]. split; [exact (conj (H2 eq_refl) H3)|]. split; [exact H6|exact tabR_opt].
Qed.
Print Assumptions C28_three_threads_refuted.

(** C29 is false with three threads: the third thread is about to compile [t]; the partial assignment [q] below [t] will be
    pruned since its value does not exceed the threshold recorded for its state; [q] has a completion of value 15; neither
    the incumbent, nor a pending subproblem, nor a subproblem held by another thread promises it. *)
Theorem C29_three_threads_refuted : exists (cfg : config tstate) inv content st t0 t1 t d q i ds,
  good_config tstate ts_eqb cfg t_at t_nv 1000 True inv content /\ well_behaved tstate ts_eqb (cf_pb cfg) (cf_rx cfg) t_at t_nv 1000 /\
  decided_once tstate cfg t_nv /\ cf_ctype cfg = LastExactLayer /\ breachable tstate ts_eqb cfg 3 3 st /\
  c_interrupted (k_c (q_crit st)) = false /\ q_threads st = [t0; t1; mk_bth (BStart t) d] /\
  genuine tstate (cf_pb cfg) t_nv q /\ (depth_of t < depth_of q)%nat /\
  threshold_of tstate ts_eqb cfg st (depth_of q) (sp_state q) = Some i /\ sp_value q <= b_theta i /\
  completes tstate (cf_pb cfg) t_nv q ds 15 /\
  ~ still_promised tstate cfg t_nv (content (c_fringe (k_c (q_crit st))) ++ held tstate t0 ++ held tstate t1) (blower_bound cfg st) 15.
Proof.
  destruct race_scene_state as (st & t0 & t1 & d & H1 & H2 & H3 & H4 & H5).
  exists cfgR, (NoDupFacts.Inv tstate t_rank), (nd_list tstate), st, t0, t1, subw, d, subn, (mk_info 5 false), [mk_dec 4 0; mk_dec 5 0].
  split; [exact (t_cfg_good tabR 2 LastExactLayer 1000 tabR_ok ltac:(lia))|]. split; [exact (table_well_behaved tabR 1000 tabR_ok)|].
  split; [exact (t_decided_once tabR 2 LastExactLayer)|]. split; [reflexivity|]. split; [exact H1|]. split; [exact H2|]. split; [exact H3|].
  split; [exact subn_genuine|]. split; [cbn; lia|]. split; [exact H4|]. split; [cbn; lia|]. split; [exact subn_completes|exact H5].
Qed.
Print Assumptions C29_three_threads_refuted.
(** The threshold of state 1 of layer 3: absent when thread 0 reads it, 5 once thread 2 has popped it, lowered to 3 when
    thread 0 writes. *)
Example C28_race_case :
  entry (brun cfgR 3 3 (go 30 0 ++ go 5 1 ++ go 4 2 ++ go 19 0)) (3%nat, 1) = Some None /\
  entry (brun cfgR 3 3 (go 30 0 ++ go 5 1 ++ go 4 2 ++ go 19 0 ++ go 35 2)) (3%nat, 1) = Some (Some (mk_info 5 true)) /\
  entry (brun cfgR 3 3 (go 30 0 ++ go 5 1 ++ go 4 2 ++ go 19 0 ++ go 35 2 ++ go 32 1 ++ go 1 0)) (3%nat, 1) = Some (Some (mk_info 3 false)) /\
  entry (brun cfgR 3 3 race) (4%nat, 1) = Some (Some (mk_info 5 false)).
Proof. exact race_entries. Qed.

(** Two threads are enough: C28 is false with two threads, on another problem. *)
Theorem C28_two_threads_refuted : exists (cfg : config tstate) st,
  good_solver tstate ts_eqb cfg t_at t_nv 1000 /\ well_behaved tstate ts_eqb (cf_pb cfg) (cf_rx cfg) t_at t_nv 1000 /\
  decided_once tstate cfg t_nv /\ cf_ctype cfg = LastExactLayer /\ breachable tstate ts_eqb cfg 2 2 st /\ bproved cfg st /\
  bbest_value cfg st = Some 14 /\ optimum tstate (cf_pb cfg) t_nv 15.
Proof.
  destruct (brun_look _ _ _ _ _ race2_run) as (st & _ & H1 & H2 & H3 & H4 & H5 & H6 & _). exists cfgD, st.
  split; [exact (t_cfg_solver tabD 2 LastExactLayer 1000 tabD_ok ltac:(lia))|]. split; [exact (table_well_behaved tabD 1000 tabD_ok)|].
  split; [exact (t_decided_once tabD 2 LastExactLayer)|]. split; [reflexivity|]. split; [exact H1|]. split; [exact (conj (H2 eq_refl) H3)|]. split; [exact H6|exact tabD_opt].
Qed.
Print Assumptions C28_two_threads_refuted.

(** C29 is false with two threads: the second thread is about to compile [t]; [q] and [ds] are as above. *)
Theorem C29_two_threads_refuted : exists (cfg : config tstate) inv content st t0 t d q i ds,
  good_config tstate ts_eqb cfg t_at t_nv 1000 True inv content /\ well_behaved tstate ts_eqb (cf_pb cfg) (cf_rx cfg) t_at t_nv 1000 /\
  decided_once tstate cfg t_nv /\ cf_ctype cfg = LastExactLayer /\ breachable tstate ts_eqb cfg 2 2 st /\
  c_interrupted (k_c (q_crit st)) = false /\ q_threads st = [t0; mk_bth (BStart t) d] /\
  genuine tstate (cf_pb cfg) t_nv q /\ (depth_of t < depth_of q)%nat /\
  threshold_of tstate ts_eqb cfg st (depth_of q) (sp_state q) = Some i /\ sp_value q <= b_theta i /\
  completes tstate (cf_pb cfg) t_nv q ds 15 /\
  ~ still_promised tstate cfg t_nv (content (c_fringe (k_c (q_crit st))) ++ held tstate t0) (blower_bound cfg st) 15.
Proof.
  destruct race2_scene_state as (st & t0 & d & H1 & H2 & H3 & H4 & H5).
  exists cfgD, (NoDupFacts.Inv tstate t_rank), (nd_list tstate), st, t0, subwd, d, subnd, (mk_info 5 false), [mk_dec 4 0; mk_dec 5 0].
  split; [exact (t_cfg_good tabD 2 LastExactLayer 1000 tabD_ok ltac:(lia))|]. split; [exact (table_well_behaved tabD 1000 tabD_ok)|].
  split; [exact (t_decided_once tabD 2 LastExactLayer)|]. split; [reflexivity|]. split; [exact H1|]. split; [exact H2|]. split; [exact H3|].
  split; [exact subnd_genuine|]. split; [cbn; lia|]. split; [exact H4|]. split; [cbn; lia|]. split; [exact subnd_completes|exact H5].
Qed.
Print Assumptions C29_two_threads_refuted.
(** The threshold of state 1 of layer 3: absent when thread 0 reads it, 5 once thread 1 has popped it, lowered to 3 when
    thread 0 writes. *)
Example C28_race2_case :
  entry (brun cfgD 2 2 (go 50 0)) (3%nat, 1) = Some None /\
  entry (brun cfgD 2 2 (go 50 0 ++ go 88 1)) (3%nat, 1) = Some (Some (mk_info 5 true)) /\
  entry (brun cfgD 2 2 (go 50 0 ++ go 88 1 ++ go 1 0)) (3%nat, 1) = Some (Some (mk_info 3 false)) /\
  entry (brun cfgD 2 2 race2) (4%nat, 1) = Some (Some (mk_info 5 false)).
Proof. exact race2_entries. Qed.

(** The race is not the only cause. C28 is false with two threads that process their subproblems one at a time (each has taken
    one, only one compiles), in an execution where no threshold ever becomes weaker: the solver answers Proved with 16 although
    the optimum is 17. A bound computed with the thresholds of a subproblem that is still to be processed is inherited by
    subproblems because of which that one is later pruned. *)
Theorem C28_one_at_a_time_refuted : exists (cfg : config tstate) st,
  good_solver tstate ts_eqb cfg t_at t_nv 1000 /\ well_behaved tstate ts_eqb (cf_pb cfg) (cf_rx cfg) t_at t_nv 1000 /\
  decided_once tstate cfg t_nv /\ cf_ctype cfg = LastExactLayer /\ calm tstate ts_eqb cfg 2 2 st /\ bproved cfg st /\
  bbest_value cfg st = Some 16 /\ optimum tstate (cf_pb cfg) t_nv 17.
Proof.
  destruct (calm_look _ _ _ _ _ calm_end) as (st & H1 & H2 & H3 & H4). exists cfgP, st.
  split; [exact (t_cfg_solver tabP 2 LastExactLayer 1000 tabP_ok ltac:(lia))|]. split; [exact (table_well_behaved tabP 1000 tabP_ok)|].
  split; [exact (t_decided_once tabP 2 LastExactLayer)|]. split; [reflexivity|]. split; [exact H1|]. split; [exact (conj (H2 eq_refl) H3)|]. split; [exact H4|exact tabP_opt].
Qed.
Print Assumptions C28_one_at_a_time_refuted.

(** C29 in the same execution: the second thread is about to compile [t], and [q] below [t] will be pruned; the only pending
    subproblem that can be completed to 17 has a bound of 16. *)
Theorem C29_one_at_a_time_refuted : exists (cfg : config tstate) inv content st t0 t d q i ds,
  good_config tstate ts_eqb cfg t_at t_nv 1000 True inv content /\ well_behaved tstate ts_eqb (cf_pb cfg) (cf_rx cfg) t_at t_nv 1000 /\
  decided_once tstate cfg t_nv /\ cf_ctype cfg = LastExactLayer /\ calm tstate ts_eqb cfg 2 2 st /\
  c_interrupted (k_c (q_crit st)) = false /\ q_threads st = [t0; mk_bth (BStart t) d] /\
  genuine tstate (cf_pb cfg) t_nv q /\ (depth_of t < depth_of q)%nat /\
  threshold_of tstate ts_eqb cfg st (depth_of q) (sp_state q) = Some i /\ sp_value q <= b_theta i /\
  completes tstate (cf_pb cfg) t_nv q ds 17 /\
  ~ still_promised tstate cfg t_nv (content (c_fringe (k_c (q_crit st))) ++ held tstate t0) (blower_bound cfg st) 17.
Proof.
  destruct calm_scene as (st & t0 & d & H1 & H2 & H3 & H4 & H5).
  exists cfgP, (NoDupFacts.Inv tstate t_rank), (nd_list tstate), st, t0, subs, d, subsn, (mk_info 5 false), [mk_dec 5 0; mk_dec 6 0].
  split; [exact (t_cfg_good tabP 2 LastExactLayer 1000 tabP_ok ltac:(lia))|]. split; [exact (table_well_behaved tabP 1000 tabP_ok)|].
  split; [exact (t_decided_once tabP 2 LastExactLayer)|]. split; [reflexivity|]. split; [exact H1|]. split; [exact H2|]. split; [exact H3|].
  split; [exact subsn_genuine|]. split; [cbn; lia|]. split; [exact H4|]. split; [cbn; lia|]. split; [exact subsn_completes|exact H5].
Qed.
Print Assumptions C29_one_at_a_time_refuted.
(** The threshold of s is there before g is processed, and so is the bound of q before s is; nothing is ever lowered. *)
Example C28_calm_case :
  entry (brun cfgP 2 2 (go 37 0)) (4%nat, 1) = Some None /\
  entry (brun cfgP 2 2 (go 37 0 ++ go 39 1)) (4%nat, 1) = Some (Some (mk_info 5 true)) /\
  entry (brun cfgP 2 2 (go 37 0 ++ go 39 1)) (5%nat, 1) = Some None /\
  entry (brun cfgP 2 2 calm0) (5%nat, 1) = Some (Some (mk_info 5 false)).
Proof. vm_compute. auto. Qed.
