(** The solvers on instances of the single row facility layout problem whose layers fit in the maximum width. *)
From Verif Require Import Spec Dd DdSpec WideSpec WideCount ParSpec BarSpec ParProofs WideProofs BarWide Srflp SrflpSpec SrflpFacts SrflpLayouts SrflpAdmissible SrflpProofs.
Open Scope Z_scope.

Section Layouts.
Variable I : sr_inst.
Variables F L : Z.
Hypothesis Hok : sr_ok I F L.
Variable factor : nat.
Hypothesis Hfac : (1 <= factor)%nat.
Hypothesis Hf : Z.of_nat (sr_n I) * F * L < 2 ^ 23.

Lemma sr_reached : admissible_reached sr_state (sr_problem false I) sr_nv.
Proof.
  apply (reached_admissible _ _ _ (sr_layer I F)); [apply (wfd_problem _ _ _ _ _ _ _ (sr_formed I F L Hok false))|].
  apply (wb_admissible _ _ _ _ _ _ _ (sr_behaved I F L Hok Hf)).
Qed.
Lemma par_sr_wide : no_layer_exceeds sr_state (sr_problem false I) sr_nv (sr_n I * factor) -> forall ct nt m st, (1 <= m <= nt)%nat ->
  reachable sr_state sr_eqb (sr_cfg false I factor ct) nt m st -> proved _ st ->
  exists v l p, best_value_of _ st = Some v /\ best_solution_of _ st = Some l /\ best_layout I p /\ Permutation l (layout_decisions p) /\
    2 * v = unavoidable2 I - layout_cost2 I p.
Proof.
  intros Hw ct nt m st Hm Hr Hp.
  pose proof (par_wide _ _ _ _ _ _ nt m st (sr_solver I F L Hok factor Hfac ct) sr_reached (fun _ _ _ => Hw) (sr_decided I F L factor Hfac ct) Hm Hr Hp) as [_ H].
  destruct (best_value_of _ st) as [v|].
  - destruct H as (Ho & _ & l & Hl & Hs). destruct (optimum_layout I F L Hok factor Hfac l v Ho Hs) as (p & H1 & H2 & H3). exists v, l, p. auto.
  - destruct H as (Hi & Hn). exfalso. apply (not_infeasible I F L Hok factor Hfac). exact Hi.
Qed.
Lemma bar_sr_wide : no_layer_exceeds sr_state (sr_problem false I) sr_nv (sr_n I * factor) -> forall ct nt m st, (1 <= m <= nt)%nat ->
  breachable sr_state sr_eqb (sr_cfg false I factor ct) nt m st -> bproved _ st ->
  exists v l p, bbest_value _ st = Some v /\ bbest_solution _ st = Some l /\ best_layout I p /\ Permutation l (layout_decisions p) /\
    2 * v = unavoidable2 I - layout_cost2 I p.
Proof.
  intros Hw ct nt m st Hm Hr Hp.
  pose proof (bar_wide _ _ _ _ _ _ nt m st (sr_solver I F L Hok factor Hfac ct) sr_reached Hw Hm Hr Hp) as [_ H].
  destruct (bbest_value _ st) as [v|].
  - destruct H as (Ho & _ & l & Hl & Hs). destruct (optimum_layout I F L Hok factor Hfac l v Ho Hs) as (p & H1 & H2 & H3). exists v, l, p. auto.
  - destruct H as (Hi & Hn). exfalso. apply (not_infeasible I F L Hok factor Hfac). exact Hi.
Qed.
End Layouts.
