(** Property theorems C11-C21 (decision diagrams of src/mdd/with_all.rs). *)
From Verif Require Import Spec Dd DdSpec FlagsFacts MddAll DdFacts MddAllProofs Table TableFacts MddCases.
Open Scope Z_scope.

(* ------------------------------------------------------------------ *)
(** C11. A relaxed diagram never under-estimates: every completion of the compiled subproblem that improves the lower bound
    is at most the best value it reports (so if it reports none, nothing improves the lower bound). *)
Theorem C11_relaxed_upper_bound : forall S eqb P R at_depth nv C debug orc inp d dF ds v,
  well_behaved S eqb P R at_depth nv C -> good_call S P R nv debug orc inp ->
  compile eqb debug orc inp d = Some dF -> i_type inp = Relaxed ->
  completes S P nv (i_res inp) ds v -> i_lb inp < v ->
  exists b, best_value dF = Some (Some b) /\ v <= b.
Proof. intros. eapply all_bound; eauto. Qed.
Print Assumptions C11_relaxed_upper_bound.

(** The relaxed diagram of width 2 reports 10 although the best completion is worth 8. *)
Example C11_case :
  well_behaved tstate ts_eqb (t_problem tabA) (t_relax tabA) t_at t_nv 1000 /\
  good_call tstate (t_problem tabA) (t_relax tabA) t_nv true orc_fwd (t_call tabA Relaxed 2 0 (t_root tabA)) /\
  completes tstate (t_problem tabA) t_nv (t_root tabA) solA8 8 /\
  answers (t_compile true orc_fwd (t_call tabA Relaxed 2 0 (t_root tabA)) LastExactLayer) =
    Some (Some (Some 10), Some (Some (rev solA7)), false, Some [qA2; qA1], 5%nat).
Proof. exact (conj tabA_ok (conj (tabA_call Relaxed 2 0 ltac:(lia)) (conj tabA_sol8 tabA_lel))). Qed.

(* ------------------------------------------------------------------ *)
(** C12. What a restricted diagram reports is a real solution of the whole problem, with the value it reports. Nothing is
    assumed of the estimate nor of the relaxation. *)
Theorem C12_restricted_feasible : forall S eqb P R at_depth nv C debug orc inp d dF,
  well_formed S eqb P R at_depth nv C -> good_call S P R nv debug orc inp ->
  compile eqb debug orc inp d = Some dF -> i_type inp = Restricted ->
  (best_value dF = Some None /\ best_solution dF = Some None) \/
  (exists v l, best_value dF = Some (Some v) /\ best_solution dF = Some (Some l) /\ reported_solution S P nv l v /\
     exists ds, completes S P nv (i_res inp) ds v).
Proof. intros. eapply all_feasible; eauto. left. congruence. Qed.
Print Assumptions C12_restricted_feasible.

Example C12_case :
  good_call tstate (t_problem tabA) (t_relax tabA) t_nv true orc_fwd (t_call tabA Restricted 1 0 (t_root tabA)) /\
  answers (t_compile true orc_fwd (t_call tabA Restricted 1 0 (t_root tabA)) Frontier) =
    Some (Some (Some 8), Some (Some (rev solA8)), false, Some [], 3%nat).
Proof. exact (conj (tabA_call Restricted 1 0 ltac:(lia)) tabA_restricted). Qed.

(* ------------------------------------------------------------------ *)
(** C13. When the diagram says it is exact, the subproblem is solved: what it reports is a real solution and nothing that
    improves the lower bound is better. *)
Theorem C13_exact_feasible : forall S eqb P R at_depth nv C debug orc inp d dF,
  well_formed S eqb P R at_depth nv C -> good_call S P R nv debug orc inp ->
  compile eqb debug orc inp d = Some dF -> g_exact dF = true ->
  (best_value dF = Some None /\ best_solution dF = Some None) \/
  (exists v l, best_value dF = Some (Some v) /\ best_solution dF = Some (Some l) /\ reported_solution S P nv l v /\
     exists ds, completes S P nv (i_res inp) ds v).
Proof. intros. eapply all_feasible; eauto. Qed.
Print Assumptions C13_exact_feasible.

Theorem C13_exact_best : forall S eqb P R at_depth nv C debug orc inp d dF ds v,
  well_behaved S eqb P R at_depth nv C -> good_call S P R nv debug orc inp ->
  compile eqb debug orc inp d = Some dF -> g_exact dF = true ->
  completes S P nv (i_res inp) ds v -> i_lb inp < v ->
  exists b, best_value dF = Some (Some b) /\ v <= b.
Proof. intros. eapply all_bound; eauto. Qed.
Print Assumptions C13_exact_best.

(** A relaxed diagram that is exact; it expanded all six nodes. *)
Example C13_case :
  good_call tstate (t_problem tabA) (t_relax tabA) t_nv true orc_fwd (t_call tabA Relaxed 3 0 (t_root tabA)) /\
  answers (t_compile true orc_fwd (t_call tabA Relaxed 3 0 (t_root tabA)) Frontier) =
    Some (Some (Some 8), Some (Some (rev solA8)), true, Some [], 6%nat).
Proof. exact (conj (tabA_call Relaxed 3 0 ltac:(lia)) tabA_relaxed_exact). Qed.

(** The condition that [next_variable] answers [None] on an empty layer (part of [wf_problem]) is needed: the early
    [return] of src/mdd/with_all.rs:253 leaves [is_exact] to true. Here a restricted diagram claims that its subproblem has
    been solved and has no solution, while there is one worth 3. *)
Theorem C13_next_variable_on_empty_layer_refuted :
  exists (t : table) (f : list tstate -> option nat) inp dF ds,
  well_behaved tstate ts_eqb (t_problem t) (t_relax t) t_at t_nv 1000 /\
  (forall l, l <> [] -> f l = pb_next_var (t_problem t) l) /\
  i_pb inp = with_next tstate (t_problem t) f /\ i_type inp = Restricted /\ i_lb inp = 0 /\ i_width inp = 1%nat /\
  compile ts_eqb true orc_fwd inp (dd_new LastExactLayer) = Some dF /\ g_exact dF = true /\ best_value dF = Some None /\
  completes tstate (t_problem t) t_nv (i_res inp) ds 3.
Proof.
  destruct tabB_wrong as (dF & H1 & H2 & H3). exists tabB, nextB, callB, dF, [dA 0 1; dA 1 0].
  repeat split; auto; [apply tabB_ok..|intros [|s l] H; [congruence|reflexivity]|exact tabB_sol].
Qed.
Print Assumptions C13_next_variable_on_empty_layer_refuted.

(* ------------------------------------------------------------------ *)
(** C14. An exact compilation reports that it is exact, hence (C13) solves its subproblem; spelled out. *)
Theorem C14_exact_compilation : forall S eqb P R at_depth nv C debug orc inp d dF,
  well_behaved S eqb P R at_depth nv C -> good_call S P R nv debug orc inp ->
  compile eqb debug orc inp d = Some dF -> i_type inp = Exact ->
  g_exact dF = true /\
  ((best_value dF = Some None /\ best_solution dF = Some None /\
      forall ds v, completes S P nv (i_res inp) ds v -> v <= i_lb inp) \/
   (exists b l, best_value dF = Some (Some b) /\ best_solution dF = Some (Some l) /\ reported_solution S P nv l b /\
      (exists ds, completes S P nv (i_res inp) ds b) /\
      forall ds v, completes S P nv (i_res inp) ds v -> v <= b \/ v <= i_lb inp)).
Proof. exact all_exact_full. Qed.
Print Assumptions C14_exact_compilation.

Example C14_case :
  good_call tstate (t_problem tabA) (t_relax tabA) t_nv true orc_fwd (t_call tabA Exact 1 0 (t_root tabA)) /\
  answers (t_compile true orc_fwd (t_call tabA Exact 1 0 (t_root tabA)) LastExactLayer) =
    Some (Some (Some 8), Some (Some (rev solA8)), true, Some [], 6%nat).
Proof. exact (conj (tabA_call Exact 1 0 ltac:(lia)) tabA_exact). Qed.

(* ------------------------------------------------------------------ *)
(** C15. Last exact layer: every completion that improves the lower bound goes through a subproblem of the cutset, whose
    value is at least that of the part of the completion above it. *)
Theorem C15_lel_cutset_covers : forall S eqb P R at_depth nv C debug orc inp d dF,
  well_behaved S eqb P R at_depth nv C -> good_call S P R nv debug orc inp ->
  compile eqb debug orc inp d = Some dF -> i_type inp = Relaxed -> g_exact dF = false -> g_ctype d = LastExactLayer ->
  exists L d2, drain_cutset dF = Some (L, d2) /\
  forall ds v, completes S P nv (i_res inp) ds v -> i_lb inp < v ->
    exists q ds1 ds2 w c1, In q L /\ ds = ds1 ++ ds2 /\
      run S P nv (depth_of (i_res inp)) (sp_state (i_res inp)) ds1 (depth_of q) (sp_state q) c1 /\
      sp_value (i_res inp) + c1 <= sp_value q /\ completes S P nv q ds2 w /\ v <= w.
Proof. exact all_lel. Qed.
Print Assumptions C15_lel_cutset_covers.

Example C15_case :
  good_call tstate (t_problem tabA) (t_relax tabA) t_nv true orc_fwd (t_call tabA Relaxed 2 0 (t_root tabA)) /\
  completes tstate (t_problem tabA) t_nv (t_root tabA) solA8 8 /\ completes tstate (t_problem tabA) t_nv (t_root tabA) solA7 7 /\
  answers (t_compile true orc_fwd (t_call tabA Relaxed 2 0 (t_root tabA)) LastExactLayer) =
    Some (Some (Some 10), Some (Some (rev solA7)), false, Some [qA2; qA1], 5%nat).
Proof. exact (conj (tabA_call Relaxed 2 0 ltac:(lia)) (conj tabA_sol8 (conj tabA_sol7 tabA_lel))). Qed.

(* ------------------------------------------------------------------ *)
(** C16. The upper bound of a cutset subproblem is valid for its completions that improve the lower bound. *)
Theorem C16_cutset_bounds_valid : forall S eqb P R at_depth nv C debug orc inp d dF,
  well_behaved S eqb P R at_depth nv C -> good_call S P R nv debug orc inp ->
  compile eqb debug orc inp d = Some dF ->
  exists L d2, drain_cutset dF = Some (L, d2) /\
  forall q ds v, In q L -> completes S P nv q ds v -> i_lb inp < v -> v <= sp_ub q.
Proof. exact all_cut_ub. Qed.
Print Assumptions C16_cutset_bounds_valid.

(** C17. Cutset subproblems continue the compiled subproblem by at least one decision, their path, state and value agree,
    and they are genuine subproblems of the whole problem. Nothing is assumed of the estimate nor of the relaxation. *)
Theorem C17_cutset_genuine : forall S eqb P R at_depth nv C debug orc inp d dF,
  well_formed S eqb P R at_depth nv C -> good_call S P R nv debug orc inp ->
  compile eqb debug orc inp d = Some dF ->
  exists L d2, drain_cutset dF = Some (L, d2) /\
  forall q, In q L -> genuine S P nv q /\ descends S P nv (i_res inp) q /\ (depth_of (i_res inp) < depth_of q)%nat.
Proof. exact all_cut_genuine. Qed.
Print Assumptions C17_cutset_genuine.

(** The two subproblems of the cutset, with bounds 10 (best completion 7) and 8 (best completion 8). *)
Example C16_C17_case :
  good_call tstate (t_problem tabA) (t_relax tabA) t_nv true orc_fwd (t_call tabA Relaxed 2 0 (t_root tabA)) /\
  genuine tstate (t_problem tabA) t_nv qA2 /\ (exists ds, completes tstate (t_problem tabA) t_nv qA2 ds 7) /\
  answers (t_compile true orc_fwd (t_call tabA Relaxed 2 0 (t_root tabA)) LastExactLayer) =
    Some (Some (Some 10), Some (Some (rev solA7)), false, Some [qA2; qA1], 5%nat).
Proof. exact (conj (tabA_call Relaxed 2 0 ltac:(lia)) (conj qA2_genuine (conj qA2_completes tabA_lel))). Qed.

(* ------------------------------------------------------------------ *)
(** C18. Whatever the problem, a turn of the main loop expands at most [max_width] nodes: always in a restricted diagram,
    from the second layer below the root on in a relaxed diagram. In total a restricted diagram explores at most
    [max_width] nodes per variable that is not assigned yet. *)
Theorem C18_layer_width : forall S (eqb : S -> S -> bool) orc inp depth var d curr d' l,
  layer_step eqb orc inp depth var d curr = Some (d', Some l) ->
  i_type inp = Restricted \/ i_type inp = Relaxed /\ (1 < depth)%nat -> (length l <= i_width inp)%nat.
Proof. exact all_width. Qed.
Print Assumptions C18_layer_width.

Theorem C18_restricted_explored : forall S eqb P R at_depth nv C debug orc inp d dF,
  well_formed S eqb P R at_depth nv C -> good_call S P R nv debug orc inp ->
  compile eqb debug orc inp d = Some dF -> i_type inp = Restricted ->
  (g_explored dF <= (pb_nb_vars P - depth_of (i_res inp)) * i_width inp)%nat.
Proof. exact all_explored. Qed.
Print Assumptions C18_restricted_explored.

(** The restricted diagram of width 1 explores exactly three nodes. *)
Example C18_case :
  good_call tstate (t_problem tabA) (t_relax tabA) t_nv true orc_fwd (t_call tabA Restricted 1 0 (t_root tabA)) /\
  answers (t_compile true orc_fwd (t_call tabA Restricted 1 0 (t_root tabA)) Frontier) =
    Some (Some (Some 8), Some (Some (rev solA8)), false, Some [], 3%nat).
Proof. exact (conj (tabA_call Restricted 1 0 ltac:(lia)) tabA_restricted). Qed.

(* ------------------------------------------------------------------ *)
(** C19. The claim on frontier cutsets is false: a completion that improves the lower bound may be covered by no
    subproblem of the cutset although the diagram is not exact (so that the solvers ignore the solution it contains). *)
Theorem C19_frontier_cutset_covers_refuted : exists (t : table) inp dF L d2 ds v,
  well_behaved tstate ts_eqb (t_problem t) (t_relax t) t_at t_nv 1000 /\
  good_call tstate (t_problem t) (t_relax t) t_nv true orc_fwd inp /\ i_type inp = Relaxed /\
  compile ts_eqb true orc_fwd inp (dd_new Frontier) = Some dF /\ g_exact dF = false /\ drain_cutset dF = Some (L, d2) /\
  completes tstate (t_problem t) t_nv (i_res inp) ds v /\ i_lb inp < v /\
  forall q ds' w, In q L -> completes tstate (t_problem t) t_nv q ds' w -> w < v.
Proof.
  destruct frontier_loses as (dF & H1 & H2 & L & d2 & H3 & H4).
  exists tabA, (t_call tabA Relaxed 2 0 (t_root tabA)), dF, L, d2, solA8, 8.
  exact (conj tabA_ok (conj (tabA_call Relaxed 2 0 ltac:(lia)) (conj eq_refl (conj H1 (conj H2 (conj H3 (conj tabA_sol8 (conj eq_refl H4)))))))).
Qed.
Print Assumptions C19_frontier_cutset_covers_refuted.

(** What holds: a completion that improves the lower bound and is not matched by the cutset is matched by an exact node of the
    last layer of the diagram. Missing: such a node need not be the one that the diagram reports. *)
Theorem C19_frontier_cutset_covers_partial : forall S eqb P R at_depth nv C debug orc inp d dF,
  well_behaved S eqb P R at_depth nv C -> good_call S P R nv debug orc inp ->
  compile eqb debug orc inp d = Some dF -> i_type inp = Relaxed -> g_exact dF = false -> g_ctype d = Frontier ->
  exists L d2, drain_cutset dF = Some (L, d2) /\
  forall ds v, completes S P nv (i_res inp) ds v -> i_lb inp < v ->
    (exists q ds' w, In q L /\ completes S P nv q ds' w /\ v <= w) \/
    (exists s id n ds', In (s, id) (g_next dF) /\ get_node dF id = Some n /\ is_exact (n_flags n) = true /\ v <= n_value n /\
       completes S P nv (i_res inp) ds' (n_value n)).
Proof. exact all_frontier. Qed.
Print Assumptions C19_frontier_cutset_covers_partial.

Example C19_case :
  good_call tstate (t_problem tabA) (t_relax tabA) t_nv true orc_fwd (t_call tabA Relaxed 2 0 (t_root tabA)) /\
  completes tstate (t_problem tabA) t_nv (t_root tabA) solA7 7 /\
  answers (t_compile true orc_fwd (t_call tabA Relaxed 2 0 (t_root tabA)) Frontier) =
    Some (Some (Some 10), Some (Some (rev solA7)), false, Some [qA2], 5%nat).
Proof. exact (conj (tabA_call Relaxed 2 0 ltac:(lia)) (conj tabA_sol7 tabA_frontier)). Qed.

(* ------------------------------------------------------------------ *)
(** C20. No panic (and no lack of fuel) in [compile] and the queries that follow. *)
Theorem C20_compile_total : forall S eqb P R at_depth nv C debug orc inp d,
  well_formed S eqb P R at_depth nv C -> good_call S P R nv debug orc inp ->
  exists dF bv bs L d2, compile eqb debug orc inp d = Some dF /\ best_value dF = Some bv /\ best_solution dF = Some bs /\
    drain_cutset dF = Some (L, d2).
Proof. exact all_total. Qed.
Print Assumptions C20_compile_total.

(** In a debug build [good_call] asks that the bound of the subproblem minus its value does not overflow. The root created by
    the solvers, with bound [isize::MAX], does not meet that when the initial value is negative: panic. *)
Theorem C20_debug_negative_value_refuted : exists t : table,
  well_behaved tstate ts_eqb (t_problem t) (t_relax t) t_at t_nv 1000 /\ t_val t = -1 /\
  forall ct w lb k, compile ts_eqb true orc_fwd (t_call t ct w lb (t_root t)) (dd_new k) = None.
Proof. exists tabC. exact (conj tabC_ok (conj eq_refl tabC_panics)). Qed.
Print Assumptions C20_debug_negative_value_refuted.

Example C20_case : forall ct w lb, (1 <= w)%nat ->
  well_behaved tstate ts_eqb (t_problem tabA) (t_relax tabA) t_at t_nv 1000 /\
  good_call tstate (t_problem tabA) (t_relax tabA) t_nv true orc_fwd (t_call tabA ct w lb (t_root tabA)).
Proof. intros ct w lb H. exact (conj tabA_ok (tabA_call ct w lb H)). Qed.

(* ------------------------------------------------------------------ *)
(** C21. The answers do not depend on what the object was used for before; no hypothesis at all. *)
Theorem C21_reuse : forall S (eqb : S -> S -> bool) debug orc inp d d', g_ctype d = g_ctype d' ->
  match compile eqb debug orc inp d, compile eqb debug orc inp d' with
  | Some x, Some y => best_value x = best_value y /\ best_solution x = best_solution y /\ g_exact x = g_exact y /\
      option_map fst (drain_cutset x) = option_map fst (drain_cutset y) /\ g_explored x = g_explored y
  | None, None => True
  | _, _ => False
  end.
Proof. exact all_reuse_answers. Qed.
Print Assumptions C21_reuse.

(** An object that has been used keeps its cutset type but not its content. *)
Example C21_case : exists d, t_compile true orc_fwd (t_call tabA Relaxed 2 0 (t_root tabA)) LastExactLayer = Some d /\
  g_ctype d = LastExactLayer /\ d <> dd_new LastExactLayer /\
  answers (compile ts_eqb true orc_fwd (t_call tabA Restricted 1 0 (t_root tabA)) d) =
  answers (t_compile true orc_fwd (t_call tabA Restricted 1 0 (t_root tabA)) LastExactLayer).
Proof. eexists. split; [vm_compute; reflexivity|]. split; [reflexivity|]. split; [discriminate|]. vm_compute. reflexivity. Qed.
