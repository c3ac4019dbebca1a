(** Property theorems C66 (what [drain_cutset] hands out; src/prelude.rs:196-201). *)
From Verif Require Import Spec Dd DdSpec FlagsFacts MddAll ParSpec MddBarrier MddBarrierSpec DrainProofs Table TableFacts MddCases ParCases BarCases MddBarrierCases DrainCases.
Open Scope Z_scope.

(* ------------------------------------------------------------------ *)
(** C66. Draining the cutset of a diagram that solved its subproblem - it is exact, or not a relaxed one - hands out nothing;
    no two subproblems handed out are in the same state at the same depth; none promises more than the best value of the
    diagram; and draining a second time hands out nothing and leaves the answers as they were. First the diagrams of
    src/mdd/with_all.rs. *)
Theorem C66_nothing_when_solved : forall S eqb P R at_depth nv C debug orc inp d dF,
  well_formed S eqb P R at_depth nv C -> good_call S P R nv debug orc inp ->
  MddAll.compile eqb debug orc inp d = Some dF -> i_type inp <> Relaxed \/ g_exact dF = true ->
  exists d2, drain_cutset dF = Some ([], d2).
Proof. exact all_solved. Qed.
Print Assumptions C66_nothing_when_solved.
Theorem C66_each_once : forall S eqb P R at_depth nv C debug orc inp d dF,
  well_formed S eqb P R at_depth nv C -> good_call S P R nv debug orc inp ->
  MddAll.compile eqb debug orc inp d = Some dF ->
  exists L d2, drain_cutset dF = Some (L, d2) /\ NoDup (map (fun q => (depth_of q, sp_state q)) L).
Proof. exact all_each_once. Qed.
Print Assumptions C66_each_once.
(** An exact relaxed diagram, and one that is not, from which two subproblems are drained. *)
Example C66_case :
  well_behaved tstate ts_eqb (t_problem tabX) (t_relax tabX) t_at t_nv 1000 /\
  good_call tstate (t_problem tabX) (t_relax tabX) t_nv true orc_fwd (t_call tabX Relaxed 2 0 (t_root tabX)) /\
  drained (t_compile true orc_fwd (t_call tabX Relaxed 2 0 (t_root tabX)) LastExactLayer) = Some (Some (Some 13), true, Some []) /\
  good_call tstate (t_problem tabA) (t_relax tabA) t_nv true orc_fwd (t_call tabA Relaxed 2 0 (t_root tabA)) /\
  drained (t_compile true orc_fwd (t_call tabA Relaxed 2 0 (t_root tabA)) LastExactLayer) = Some (Some (Some 10), false, Some [qA2; qA1]) /\
  map (fun q => (depth_of q, sp_state q)) [qA2; qA1] = [(1%nat, (1%nat, 2)); (1%nat, (1%nat, 1))].
Proof.
  split; [exact tabX_ok|]. split; [exact (tabX_call Relaxed 2 0 ltac:(lia))|]. split; [exact (tabX_all LastExactLayer)|].
  split; [exact (tabA_call Relaxed 2 0 ltac:(lia))|]. split; vm_compute; reflexivity.
Qed.

(* ------------------------------------------------------------------ *)
(** The diagrams of src/mdd/with_barrier.rs, whatever the other threads write to the thresholds meanwhile. *)
Theorem C66_barrier_each_once : forall S eqb P R at_depth nv C alone debug orc inp d T dF T',
  well_formed S eqb P R at_depth nv C -> good_call S P R nv debug orc inp -> length T = Datatypes.S (pb_nb_vars P) ->
  returns eqb alone (MddBarrier.compile eqb debug orc inp d) T dF T' ->
  exists L d2, drain_cutset dF = Some (L, d2) /\ NoDup (map (fun q => (depth_of q, sp_state q)) L) /\ (i_type inp <> Relaxed -> L = []).
Proof. exact bar_each_once. Qed.
Print Assumptions C66_barrier_each_once.
(** An exact relaxed diagram may hand out subproblems all the same: its thresholds and cutset are computed even then
    (src/mdd/with_barrier.rs:349-352). The solver does not drain it (src/solver/barrier.rs:261-265). *)
Theorem C66_barrier_exact_refuted : exists inp T dF T' L d2,
  well_behaved tstate ts_eqb (t_problem tabX) (t_relax tabX) t_at t_nv 1000 /\
  good_call tstate (t_problem tabX) (t_relax tabX) t_nv true orc_fwd inp /\ length T = Datatypes.S (pb_nb_vars (t_problem tabX)) /\
  returns ts_eqb true (MddBarrier.compile ts_eqb true orc_fwd inp (dd_new LastExactLayer)) T dF T' /\ i_type inp = Relaxed /\
  g_exact dF = true /\ drain_cutset dF = Some (L, d2) /\ L <> [].
Proof.
  destruct tabX_bar as (dF & T' & H & _ & H2 & H3). destruct (drain_cutset dF) as [[L d2]|] eqn:E; [|discriminate]. injection H3 as ->.
  exists (t_call tabX Relaxed 2 0 (t_root tabX)), none4, dF, T', [qX2; qX1], d2.
  split; [exact tabX_ok|]. split; [exact (tabX_call Relaxed 2 0 ltac:(lia))|]. repeat split; auto. discriminate.
Qed.
Print Assumptions C66_barrier_exact_refuted.
(** What is handed out then can only lead to solutions that are not better than the real one the diagram reports. Missing from
    the full statement: that nothing is handed out, which is false. *)
Theorem C66_barrier_exact_partial : forall S eqb P R at_depth nv C alone debug orc inp d T dF T',
  well_formed S eqb P R at_depth nv C -> good_call S P R nv debug orc inp -> length T = Datatypes.S (pb_nb_vars P) ->
  returns eqb alone (MddBarrier.compile eqb debug orc inp d) T dF T' -> g_exact dF = true ->
  exists L d2, drain_cutset dF = Some (L, d2) /\
    forall q, In q L -> exists b l, best_value dF = Some (Some b) /\ best_solution dF = Some (Some l) /\ reported_solution S P nv l b /\ sp_ub q <= b.
Proof. exact bar_exact_useless. Qed.
Print Assumptions C66_barrier_exact_partial.
(** Both cutsets; the bounds, 7 and 13, are at most the best value 13. *)
Example C66_barrier_case :
  (exists dF T', returns ts_eqb true (b_compile (t_call tabX Relaxed 2 0 (t_root tabX)) LastExactLayer) none4 dF T' /\
    best_value dF = Some (Some 13) /\ g_exact dF = true /\ option_map fst (drain_cutset dF) = Some [qX2; qX1]) /\
  (exists dF T', returns ts_eqb true (b_compile (t_call tabX Relaxed 2 0 (t_root tabX)) Frontier) none4 dF T' /\
    best_value dF = Some (Some 13) /\ g_exact dF = true /\ option_map fst (drain_cutset dF) = Some [qX2]) /\
  sp_ub qX2 = 7 /\ sp_ub qX1 = 13.
Proof. split; [exact tabX_bar|]. split; [exact tabX_bar_frontier|]. split; reflexivity. Qed.

(* ------------------------------------------------------------------ *)
(** Of any diagram, compiled or not. *)
Theorem C66_below_best : forall S (d : dd S) L d2 q,
  drain_cutset d = Some (L, d2) -> In q L -> exists b, best_value d = Some (Some b) /\ sp_ub q <= b.
Proof. exact @drain_below. Qed.
Print Assumptions C66_below_best.
Theorem C66_drained_twice : forall S (d : dd S) L d2,
  drain_cutset d = Some (L, d2) ->
  drain_cutset d2 = Some ([], d2) /\ best_value d2 = best_value d /\ best_solution d2 = best_solution d /\ g_exact d2 = g_exact d.
Proof. exact @drain_again. Qed.
Print Assumptions C66_drained_twice.
(** The diagram of the first case, drained once and again; its estimates alone would promise 100 and more. *)
Example C66_twice_case :
  match t_compile true orc_fwd (t_call tabA Relaxed 2 0 (t_root tabA)) LastExactLayer with
  | Some d => match drain_cutset d with
              | Some (L, d2) => L = [qA2; qA1] /\ best_value d = Some (Some 10) /\ map sp_ub L = [10; 8] /\
                                option_map fst (drain_cutset d2) = Some [] /\ best_value d2 = Some (Some 10)
              | None => False
              end
  | None => False
  end.
Proof. vm_compute. repeat split; reflexivity. Qed.

(** A diagram that was never compiled hands out nothing and has no value and no solution to report. *)
Theorem C66_new_diagram : forall S ct,
  drain_cutset (@dd_new S ct) = Some ([], dd_new ct) /\ best_value (@dd_new S ct) = Some None /\ best_solution (@dd_new S ct) = Some None /\ g_exact (@dd_new S ct) = true.
Proof. exact drain_new. Qed.
Print Assumptions C66_new_diagram.
