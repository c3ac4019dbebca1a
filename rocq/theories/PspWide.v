(** The solvers on instances of the pigment sequencing problem whose layers fit in the maximum width. *)
From Verif Require Import Spec Dd DdSpec WideSpec WideCount ParSpec BarSpec ParProofs WideProofs BarWide Psp PspSpec PspFacts PspEstimate PspProofs.
Open Scope Z_scope.

Section Plans.
Variable D : psp_data.
Variable M : Z.
Hypothesis Hok : psp_ok D M.
Variable J : psp.
Hypothesis HJ : loaded D J.
Variable factor : nat.
Hypothesis Hfac : (1 <= factor)%nat.

Lemma psp_reached : admissible_reached psp_state (psp_pb J false) (psp_nv D).
Proof.
  apply (reached_admissible _ _ _ (psp_layer D)); [apply (wfd_problem _ _ _ _ _ _ _ (psp_formed D M Hok J HJ false))|].
  intros k s ds c _ Hs Hc. destruct (estimate_bounds D M Hok J HJ k s Hs) as (e & He & _ & H). cbn [psp_pb pb_estimate]. rewrite He. cbn [or_else]. apply (H ds). exact Hc.
Qed.
Lemma par_psp_wide : no_layer_exceeds psp_state (psp_pb J false) (psp_nv D) (pd_T D * factor) -> forall ct nt m st, (1 <= m <= nt)%nat ->
  reachable psp_state psp_eqb (psp_cfg J factor ct) nt m st -> proved _ st ->
  match best_value_of _ st with
  | Some v => exists l p, best_solution_of _ st = Some l /\ cheapest D p /\ Permutation l (plan_decisions p) /\ v = - plan_cost D p
  | None => best_solution_of _ st = None /\ forall q, ~ feasible_plan D q
  end.
Proof.
  intros Hw ct nt m st Hm Hr Hp. rewrite <- (T_eq D M Hok J HJ) in Hw.
  pose proof (par_wide _ _ _ _ _ _ nt m st (psp_solver D M Hok J HJ factor Hfac ct) psp_reached (fun _ _ _ => Hw) (psp_decided D M Hok J HJ factor Hfac ct) Hm Hr Hp) as [_ H].
  destruct (best_value_of _ st) as [v|].
  - destruct H as (Ho & _ & l & Hl & Hs). destruct (optimum_plan D M Hok J HJ factor Hfac l v Ho Hs) as (p & H1 & H2 & H3). exists l, p. auto.
  - destruct H as (Hi & Hn). split; [exact Hn|apply (infeasible_plan D M Hok J HJ); exact Hi].
Qed.
Lemma bar_psp_wide : no_layer_exceeds psp_state (psp_pb J false) (psp_nv D) (pd_T D * factor) -> forall ct nt m st, (1 <= m <= nt)%nat ->
  breachable psp_state psp_eqb (psp_cfg J factor ct) nt m st -> bproved _ st ->
  match bbest_value _ st with
  | Some v => exists l p, bbest_solution _ st = Some l /\ cheapest D p /\ Permutation l (plan_decisions p) /\ v = - plan_cost D p
  | None => bbest_solution _ st = None /\ forall q, ~ feasible_plan D q
  end.
Proof.
  intros Hw ct nt m st Hm Hr Hp. rewrite <- (T_eq D M Hok J HJ) in Hw.
  pose proof (bar_wide _ _ _ _ _ _ nt m st (psp_solver D M Hok J HJ factor Hfac ct) psp_reached Hw Hm Hr Hp) as [_ H].
  destruct (bbest_value _ st) as [v|].
  - destruct H as (Ho & _ & l & Hl & Hs). destruct (optimum_plan D M Hok J HJ factor Hfac l v Ho Hs) as (p & H1 & H2 & H3). exists l, p. auto.
  - destruct H as (Hi & Hn). split; [exact Hn|apply (infeasible_plan D M Hok J HJ); exact Hi].
Qed.
End Plans.
