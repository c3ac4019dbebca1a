(** Property theorem C56 (PSP example: reading files). *)
From Verif Require Import Spec DdSpec ParSpec BarSpec Psp PspSpec PspProofs PspCases PspFile PspFileSpec PspFileProofs PspFileSolve PspFileCases.
From Coq Require Import List ZArith.
Import ListNotations.
Open Scope string_scope.
Open Scope Z_scope.

(** C56. The instance read from a file is the one written in it; a file that is not an instance is rejected with an error. The
    first part, in debug and release builds: *)
Theorem C56_read_partial : forall debug sort lines D orders opt M, (forall l, Permutation l (sort l)) -> psp_says lines D orders opt -> psp_ok D M ->
  exists J, psp_read debug sort lines = Fine (J, orders, opt) /\ loaded D J.
Proof. exact psp_file_read. Qed.
Print Assumptions C56_read_partial.
(** The solvers then find a cheapest plan for what the file says, if the changes satisfy the triangle inequality (C44). *)
Theorem C56_solved_partial : forall debug sort lines D orders opt M, (forall l, Permutation l (sort l)) -> psp_says lines D orders opt -> psp_ok D M -> change_triangle D ->
  exists J, psp_read debug sort lines = Fine (J, orders, opt) /\ forall factor, (1 <= factor)%nat ->
  (forall nt m st, (1 <= m <= nt)%nat -> reachable psp_state psp_eqb (psp_cfg J factor LastExactLayer) nt m st -> proved _ st ->
    match best_value_of _ st with
    | Some v => exists l p, best_solution_of _ st = Some l /\ cheapest D p /\ Permutation l (plan_decisions p) /\ v = - plan_cost D p
    | None => best_solution_of _ st = None /\ forall q, ~ feasible_plan D q
    end) /\
  (forall nt st, (1 <= nt)%nat -> breachable psp_state psp_eqb (psp_cfg J factor LastExactLayer) nt 1 st -> bproved _ st ->
    match bbest_value _ st with
    | Some v => exists l p, bbest_solution _ st = Some l /\ cheapest D p /\ Permutation l (plan_decisions p) /\ v = - plan_cost D p
    | None => bbest_solution _ st = None /\ forall q, ~ feasible_plan D q
    end).
Proof. exact psp_file_best. Qed.
Print Assumptions C56_solved_partial.
Example C56_case : (forall l, Permutation l (edge_sort l)) /\ psp_says pfile small 3 (Some 5) /\ psp_ok small 4 /\ change_triangle small /\
  psp_read true edge_sort pfile = Fine (psp_load small, 3, Some 5).
Proof. exact pfile_case. Qed.

(** The second part is false. A file without the last row of demands, one with a row of demands that is too short, one without
    the last stocking cost are accepted; the short row, which holds no demand, makes a unit due at period 0. A file with too many
    rows of demands makes the program panic. *)
Theorem C56_malformed_refuted : exists lines1 lines2 lines3 lines4,
  (forall D orders opt, ~ psp_says lines1 D orders opt /\ ~ psp_says lines2 D orders opt /\ ~ psp_says lines3 D orders opt /\ ~ psp_says lines4 D orders opt) /\ forall debug,
  (exists x, psp_read debug edge_sort lines1 = Fine x) /\
  (exists J o opt s, psp_read debug edge_sort lines2 = Fine (J, o, opt) /\ ps_init J debug = Some s /\ pt_u s = [0; 1]) /\
  (exists x, psp_read debug edge_sort lines3 = Fine x) /\
  psp_read debug edge_sort lines4 = Panics.
Proof. exact pshort_refutes. Qed.
Print Assumptions C56_malformed_refuted.
(** Moreover ([loaded] and [feasible_plan] follow the code in this) a demand of two units is read as a demand of one. *)
Theorem C56_two_units_refuted : exists lines1 lines2 D1 D2, psp_says lines1 D1 2 None /\ psp_ok D1 4 /\ psp_says lines2 D2 2 None /\ psp_ok D2 4 /\
  pd_dem D1 = [[0; 0; 2]] /\ pd_dem D2 = [[0; 0; 1]] /\
  forall debug, (exists x, psp_read debug edge_sort lines1 = Fine x) /\ psp_read debug edge_sort lines1 = psp_read debug edge_sort lines2.
Proof. exact double_merges. Qed.
Print Assumptions C56_two_units_refuted.
