(** From a PSP file to a cheapest plan. Nothing here models code of /repo. *)
From Verif Require Import Spec DdSpec ParSpec BarSpec Psp PspSpec PspProofs PspFile PspFileSpec PspFileProofs.
From Coq Require Import List ZArith.
Import ListNotations.
Open Scope Z_scope.

Theorem psp_file_best : forall debug sort lines D orders opt M, (forall l, Permutation l (sort l)) -> psp_says lines D orders opt -> psp_ok D M -> change_triangle D ->
  exists J, psp_read debug sort lines = Fine (J, orders, opt) /\ forall factor, (1 <= factor)%nat ->
  (forall nt m st, (1 <= m <= nt)%nat -> reachable psp_state psp_eqb (psp_cfg J factor LastExactLayer) nt m st -> proved _ st ->
    match best_value_of _ st with
    | Some v => exists l p, best_solution_of _ st = Some l /\ cheapest D p /\ Permutation l (plan_decisions p) /\ v = - plan_cost D p
    | None => best_solution_of _ st = None /\ forall q, ~ feasible_plan D q
    end) /\
  (forall nt st, (1 <= nt)%nat -> breachable psp_state psp_eqb (psp_cfg J factor LastExactLayer) nt 1 st -> bproved _ st ->
    match bbest_value _ st with
    | Some v => exists l p, bbest_solution _ st = Some l /\ cheapest D p /\ Permutation l (plan_decisions p) /\ v = - plan_cost D p
    | None => bbest_solution _ st = None /\ forall q, ~ feasible_plan D q
    end).
Proof.
  intros debug sort lines D orders opt M Hsort Hs Hok Ht. destruct (psp_file_read debug sort lines D orders opt M Hsort Hs Hok) as (J & E & HJ). exists J. split; [exact E|]. intros factor Hf. split.
  - exact (par_psp D M Hok J HJ factor Hf Ht).
  - exact (bar_psp D M Hok J HJ factor Hf Ht).
Qed.
