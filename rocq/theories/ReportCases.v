(** Concrete reports of [solve_timeout]. Nothing here models code of /repo. *)
From Verif Require Import Spec Dd DdSpec MddAll ParSpec BarSpec Table TableFacts MddCases ParCases BarCases Names F32 F32Spec Text TextSpec Report ReportSpec ReportProofs ReportLine.
Open Scope string_scope.
Open Scope Z_scope.

(** What is printed at the end of a run. *)
Definition run_report (cfg : config tstate) (debug : bool) (name : string) (n : nat) (s : schedule) : option (option (report * Z)) :=
  match run_from cfg n n s with
  | Next st => if forallb (fun t => is_done (t_pc t)) (s_threads st) then Some (parallel_conclusion cfg debug name st) else None
  | _ => None
  end.
Definition brun_report (cfg : config tstate) (debug : bool) (name : string) (n : nat) (s : schedule) : option (option (report * Z)) :=
  match brun cfg n n s with
  | BNext st => if forallb (fun t => bis_done (u_pc t)) (q_threads st) then Some (barrier_conclusion cfg debug name st) else None
  | _ => None
  end.
Lemma run_report_ends cfg debug name n s cpus out : run_report cfg debug name n s = Some out ->
  solve_timeout_ends ts_eqb cfg debug name (Some n) cpus ParallelS out.
Proof.
  unfold run_report. destruct (run_from cfg n n s) as [st| |] eqn:E; try discriminate.
  destruct (forallb _ _) eqn:Ed; [|discriminate]. intros H. injection H as <-. apply ends_parallel; cbn [thread_count].
  - eapply run_reachable, E.
  - intros t Ht. rewrite forallb_forall in Ed. specialize (Ed t Ht). destruct (t_pc t); cbn in Ed; try discriminate. reflexivity.
Qed.
Lemma brun_report_ends cfg debug name n s cpus out : brun_report cfg debug name n s = Some out ->
  solve_timeout_ends ts_eqb cfg debug name (Some n) cpus BarrierS out.
Proof.
  unfold brun_report. destruct (brun cfg n n s) as [st| |] eqn:E; try discriminate.
  destruct (forallb _ _) eqn:Ed; [|discriminate]. intros H. injection H as <-. apply ends_barrier; cbn [thread_count].
  - eapply brun_reachable, E.
  - intros t Ht. rewrite forallb_forall in Ed. specialize (Ed t Ht). destruct (u_pc t); cbn in Ed; try discriminate. reflexivity.
Qed.

(** No decision is possible in the state that the first one leads to. *)
Definition tabN : table := mk_table 2 0 0 [mk_row 0 0 0 1 3; mk_row 0 9 0 9 3; mk_row 1 9 0 9 0] 9 [] 100.
Definition cfgN := t_cfg tabN 1 LastExactLayer.
Lemma tabN_ok : table_ok tabN 1000 = true. Proof. vm_compute. reflexivity. Qed.
Lemma tabN_infeasible : infeasible tstate (t_problem tabN) t_nv.
Proof.
  intros ds w (c & Hc & _). destruct (tbest_ge tabN 2 (0%nat, 0) ds c eq_refl Hc) as (v & Hv & _). vm_compute in Hv. discriminate.
Qed.

(** * Right reports *)
Lemma optimum_report : run_report cfgI false "tab" 2 (turns 20) =
  Some (Some (mk_report "tab" "parallel" "Proved" "10" "10" "10" (S754_zero false) "5" "31", 10)).
Proof. vm_compute. reflexivity. Qed.
Lemma barrier_report : brun_report cfgI false "tab" 1 (go 73 0) =
  Some (Some (mk_report "tab" "barrier" "Proved" "10" "10" "10" (S754_zero false) "3" "20", 10)).
Proof. vm_compute. reflexivity. Qed.
Lemma nothing_report : run_report cfgN false "tab" 1 (go 8 0) =
  Some (Some (mk_report "tab" "parallel" "Proved" "not found" "-9223372036854775808" "-9223372036854775808" (S754_zero true) "1" "2", IMIN)).
Proof. vm_compute. reflexivity. Qed.
(** The lines printed, with texts for the duration, the memory and the gap. *)
Lemma line_report : report_line (mk_report "tab" "parallel" "Proved" "10" "10" "10" (S754_zero false) "5" "31") "0.00" "1.05" "0.0000" =
  "                           tab | parallel | Proved |     0.00 |     1.05 |              10 |              10 |              10 | 0.0000 |               5 |              31".
Proof. vm_compute. reflexivity. Qed.

(** * Interruptions *)
Definition repI := mk_report "tab" "parallel" "Timeout" "4" "4" "9" (S754_finite false 9320676 (-24)) "3" "21".
Definition repJ := mk_report "tab" "parallel" "Timeout" "4" "4" "4" (S754_zero false) "3" "18".
Definition repE := mk_report "tab" "parallel" "Timeout" "not found" "-9223372036854775808" "9223372036854775807" (S754_finite true 8388608 (-86)) "0" "0".
Definition brepI := mk_report "tab" "barrier" "Timeout" "4" "4" "9" (S754_finite false 9320676 (-24)) "3" "21".
Definition brepJ := mk_report "tab" "barrier" "Timeout" "4" "4" "4" (S754_zero false) "3" "18".
Lemma two_report : run_report cfgI false "tab" 2 sched_two = Some (Some (repI, 9)). Proof. vm_compute. reflexivity. Qed.
Lemma reset_report : run_report cfgJ false "tab" 2 sched_two = Some (Some (repJ, 4)). Proof. vm_compute. reflexivity. Qed.
Lemma early_report : run_report cfgI false "tab" 1 [(0%nat, true)] = Some (Some (repE, IMAX)). Proof. vm_compute. reflexivity. Qed.
Lemma bar_two_report : brun_report cfgI false "tab" 2 bsched_two = Some (Some (brepI, 9)). Proof. vm_compute. reflexivity. Qed.
Lemma bar_reset_report : brun_report cfgJ false "tab" 2 bsched_two = Some (Some (brepJ, 4)). Proof. vm_compute. reflexivity. Qed.

(** * Panics of a debug build *)
Lemma early_panics : run_report cfgI true "tab" 1 [(0%nat, true)] = Some None. Proof. vm_compute. reflexivity. Qed.
Lemma nothing_panics : run_report cfgN true "tab" 1 (go 8 0) = Some None. Proof. vm_compute. reflexivity. Qed.
Lemma bar_early_panics : brun_report cfgI true "tab" 1 [(0%nat, true); (0%nat, true)] = Some None. Proof. vm_compute. reflexivity. Qed.
Lemma bar_nothing_panics : brun_report cfgN true "tab" 1 (go 20 0) = Some None. Proof. vm_compute. reflexivity. Qed.

(** * Options that are accepted *)
Definition repZ := mk_report "tab" "parallel" "Proved" "not found" "-9223372036854775808" "9223372036854775807" (S754_finite true 8388608 (-86)) "0" "0".
Lemma zero_threads_report : run_report cfgI false "tab" 0 [] = Some (Some (repZ, IMAX)). Proof. vm_compute. reflexivity. Qed.
Lemma frontier_report : run_report (cfgF Frontier) false "tab" 1 (go 15 0) =
  Some (Some (mk_report "tab" "parallel" "Proved" "7" "7" "7" (S754_zero false) "3" "15", 7)).
Proof. vm_compute. reflexivity. Qed.
(** A width of zero: the first relaxed diagram that has to merge states takes one from it. *)
Definition cfgZ := t_cfg tabI 0 LastExactLayer.
Lemma zero_width_panics : a_thread_panics ts_eqb cfgZ 1 ParallelS.
Proof.
  right. destruct (run_panics cfgZ 1 1 (go 3 0) 0 false) as (st & H1 & H2); [apply panics_ok; vm_compute; reflexivity|vm_compute; discriminate|].
  exists st, orc_fwd, false, 0%nat. auto using orc_fwd_ok.
Qed.
Lemma bar_zero_width_panics : a_thread_panics ts_eqb cfgZ 1 BarrierS.
Proof.
  right. destruct (brun_panics cfgZ 1 1 (go 14 0) 0 false) as (st & H1 & H2); [apply bpanics_ok; vm_compute; reflexivity|vm_compute; discriminate|].
  exists st, orc_fwd, false, 0%nat. auto using orc_fwd_ok.
Qed.

(** * Numbers and columns *)
Lemma numbers_case : show_isize (-40) = "-40" /\ show_isize 0 = "0" /\ show_isize IMIN = "-9223372036854775808" /\ in_isize IMIN.
Proof. split; [|split; [|split]]; try (vm_compute; reflexivity). split; vm_compute; discriminate. Qed.
Lemma four_denotes : integer "4" 4.
Proof. apply (show_isize_integer 4). split; vm_compute; discriminate. Qed.
Lemma seven_denotes : integer "7" 7.
Proof. apply (show_isize_integer 7). split; vm_compute; discriminate. Qed.
Lemma gap_unknown : f32_value (rp_gap repE) = Some (Qmake (- 2 ^ 23) (2 ^ 86)) /\ (- (1 # 1000000000) < Qmake (- 2 ^ 23) (2 ^ 86) < 0)%Q.
Proof. split; [vm_compute; reflexivity|split; vm_compute; reflexivity]. Qed.
Lemma columns_differ : exists r time ram g, fits r time ram g /\ String.length (report_line r time ram g) <> String.length header_line.
Proof.
  exists (mk_report "tab" "parallel" "Proved" "0" "0" "0" S754_nan "5" "31"), "0.00", "1.05", "NaN". split.
  - repeat split; vm_compute; lia.
  - vm_compute. discriminate.
Qed.
Lemma plain_case : plain "tab" /\ plain "0.00" /\ plain "1.05" /\ plain "0.5556".
Proof. split; [|split; [|split]]; apply plain_dec; reflexivity. Qed.
