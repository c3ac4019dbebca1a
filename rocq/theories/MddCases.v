(** Concrete problems for the statements of PropMdd.v, and the witnesses of the refuted ones. Nothing here models code of /repo. *)
From Verif Require Import Spec Dd DdSpec FlagsFacts MddAll Table TableFacts.
Open Scope Z_scope.

(** The initial subproblem of a table, as the solvers create it (src/solver/parallel.rs:241-247). *)
Definition t_root (t : table) : subproblem tstate := mk_sub (0%nat, t_init t) (t_val t) [] IMAX.
Definition t_call (t : table) (ct : comp_type) (w : nat) (lb : Z) (q : subproblem tstate) : input tstate :=
  mk_in ct w (t_problem t) (t_relax t) t_rank q lb.
Notation t_compile debug orc inp ct := (compile ts_eqb debug orc inp (dd_new ct)).

Lemma t_root_genuine t : genuine tstate (t_problem t) t_nv (t_root t).
Proof. exists [], 0. cbn. split; [constructor|]. split; [constructor|lia]. Qed.

Lemma t_call_good t debug ct w lb q orc : library_ok tstate orc -> (1 <= w)%nat -> genuine tstate (t_problem t) t_nv q ->
  (debug = true -> in_isize (sp_ub q - sp_value q)) -> good_call tstate (t_problem t) (t_relax t) t_nv debug orc (t_call t ct w lb q).
Proof. intros H1 H2 H3 H4. constructor; auto. Qed.

Ltac run_tac := repeat first [apply run_nil | eapply run_cons; [cbn; lia | cbn; tauto | ]].
Ltac completes_tac := eexists; split; [eexists; run_tac | vm_compute; reflexivity].

(** Three variables. The second layer has the states 1 and 2, the third the states 1, 2, 3 of which a relaxed diagram
    of width 2 keeps 1 (value 5) and merges 2 and 3 into 9. Solutions: 8 (through 1), 7 and 6. The merged state promises 10. *)
Definition tabA : table := mk_table 3 0 0
  [mk_row 0 0 0 1 5; mk_row 0 0 1 2 0;
   mk_row 1 1 0 1 0; mk_row 1 2 0 2 0; mk_row 1 2 1 3 0;
   mk_row 2 1 0 1 3; mk_row 2 2 0 2 7; mk_row 2 3 0 2 6;
   mk_row 0 9 0 9 0; mk_row 1 9 0 9 0; mk_row 2 9 0 2 10] 9 [] 100.

Lemma tabA_ok : well_behaved tstate ts_eqb (t_problem tabA) (t_relax tabA) t_at t_nv 1000.
Proof. apply table_well_behaved. vm_compute. reflexivity. Qed.
Lemma tabA_call ct w lb : (1 <= w)%nat -> good_call tstate (t_problem tabA) (t_relax tabA) t_nv true orc_fwd (t_call tabA ct w lb (t_root tabA)).
Proof. intros Hw. apply t_call_good; [apply orc_fwd_ok|exact Hw|apply t_root_genuine|]. intros _. vm_compute. split; discriminate. Qed.

Definition dA (i : nat) (v : Z) : decision := mk_dec i v.
Definition solA8 := [dA 0 0; dA 1 0; dA 2 0].
Definition solA7 := [dA 0 1; dA 1 0; dA 2 0].
Definition solA6 := [dA 0 1; dA 1 1; dA 2 0].
Lemma tabA_sol8 : completes tstate (t_problem tabA) t_nv (t_root tabA) solA8 8.
Proof. completes_tac. Qed.
Lemma tabA_sol7 : completes tstate (t_problem tabA) t_nv (t_root tabA) solA7 7.
Proof. completes_tac. Qed.
Lemma tabA_sol6 : completes tstate (t_problem tabA) t_nv (t_root tabA) solA6 6.
Proof. completes_tac. Qed.

(** The answers of a compiled diagram. *)
Definition answers (o : option (dd tstate)) :=
  match o with
  | Some d => Some (best_value d, best_solution d, g_exact d, option_map fst (drain_cutset d), g_explored d)
  | None => None
  end.

(** What the four kinds of compilation answer on the first table. *)
Definition qA1 : subproblem tstate := mk_sub (1%nat, 1) 5 [dA 0 0] 8.
Definition qA2 : subproblem tstate := mk_sub (1%nat, 2) 0 [dA 0 1] 10.
Lemma tabA_lel : answers (t_compile true orc_fwd (t_call tabA Relaxed 2 0 (t_root tabA)) LastExactLayer) =
  Some (Some (Some 10), Some (Some (rev solA7)), false, Some [qA2; qA1], 5%nat).
Proof. vm_compute. reflexivity. Qed.
Lemma tabA_frontier : answers (t_compile true orc_fwd (t_call tabA Relaxed 2 0 (t_root tabA)) Frontier) =
  Some (Some (Some 10), Some (Some (rev solA7)), false, Some [qA2], 5%nat).
Proof. vm_compute. reflexivity. Qed.
Lemma tabA_restricted : answers (t_compile true orc_fwd (t_call tabA Restricted 1 0 (t_root tabA)) Frontier) =
  Some (Some (Some 8), Some (Some (rev solA8)), false, Some [], 3%nat).
Proof. vm_compute. reflexivity. Qed.
Lemma tabA_relaxed_exact : answers (t_compile true orc_fwd (t_call tabA Relaxed 3 0 (t_root tabA)) Frontier) =
  Some (Some (Some 8), Some (Some (rev solA8)), true, Some [], 6%nat).
Proof. vm_compute. reflexivity. Qed.
Lemma tabA_exact : answers (t_compile true orc_fwd (t_call tabA Exact 1 0 (t_root tabA)) LastExactLayer) =
  Some (Some (Some 8), Some (Some (rev solA8)), true, Some [], 6%nat).
Proof. vm_compute. reflexivity. Qed.

(** All the completions of the only subproblem of the frontier cutset are worth at most 7. *)
Lemma tabA_q2 ds v : completes tstate (t_problem tabA) t_nv qA2 ds v -> v <= 7.
Proof.
  intros (c & Hc & ->). destruct (tbest_ge tabA 2 (1%nat, 2) ds c) as (w & Hw & Hle); [reflexivity|exact Hc|].
  assert (E : tbest tabA 2 (1%nat, 2) = Some 7) by (vm_compute; reflexivity). rewrite E in Hw. inversion Hw; subst. cbn [sp_value qA2]. lia.
Qed.

(** The witness against the claim on frontier cutsets. *)
Lemma frontier_loses : exists dF, t_compile true orc_fwd (t_call tabA Relaxed 2 0 (t_root tabA)) Frontier = Some dF /\ g_exact dF = false /\
  exists L d2, drain_cutset dF = Some (L, d2) /\ forall q ds v, In q L -> completes tstate (t_problem tabA) t_nv q ds v -> v < 8.
Proof.
  pose proof tabA_frontier as H. destruct (t_compile true orc_fwd (t_call tabA Relaxed 2 0 (t_root tabA)) Frontier) as [dF|]; [|discriminate].
  cbn [answers] in H. exists dF. split; [reflexivity|]. assert (Hd : option_map fst (drain_cutset dF) = Some [qA2]) by congruence.
  split; [congruence|]. destruct (drain_cutset dF) as [[L d2]|]; [|discriminate]. cbn in Hd. exists L, d2. split; [reflexivity|].
  intros q ds v Hq Hc. assert (L = [qA2]) by congruence. subst L. destruct Hq as [<-|[]]. pose proof (tabA_q2 ds v Hc). lia.
Qed.

(** Two variables; the state of larger value has no child. With a [next_variable] that answers on empty layers. *)
Definition tabB : table := mk_table 2 0 0
  [mk_row 0 0 0 1 5; mk_row 0 0 1 2 0; mk_row 1 2 0 1 3; mk_row 0 9 0 9 5; mk_row 1 9 0 1 3] 9 [] 100.
Definition with_next (S : Type) (P : problem S) (f : list S -> option nat) : problem S := {|
  pb_nb_vars := pb_nb_vars P; pb_init := pb_init P; pb_init_val := pb_init_val P; pb_next_var := f;
  pb_domain := pb_domain P; pb_trans := pb_trans P; pb_cost := pb_cost P; pb_estimate := pb_estimate P |}.
Definition nextB (l : list tstate) : option nat := match l with [] => Some 1%nat | _ => pb_next_var (t_problem tabB) l end.
Definition pbB : problem tstate := with_next tstate (t_problem tabB) nextB.
Definition callB : input tstate := mk_in Restricted 1 pbB (t_relax tabB) t_rank (t_root tabB) 0.
Lemma tabB_ok : well_behaved tstate ts_eqb (t_problem tabB) (t_relax tabB) t_at t_nv 1000.
Proof. apply table_well_behaved. vm_compute. reflexivity. Qed.
Lemma tabB_sol : completes tstate (t_problem tabB) t_nv (t_root tabB) [dA 0 1; dA 1 0] 3.
Proof. completes_tac. Qed.
Lemma tabB_wrong : exists dF, t_compile true orc_fwd callB LastExactLayer = Some dF /\ g_exact dF = true /\ best_value dF = Some None.
Proof. eexists. split; [vm_compute; reflexivity|]. split; reflexivity. Qed.

(** A problem whose initial value is negative. *)
Definition tabC : table := mk_table 1 0 (-1) [mk_row 0 0 0 1 5; mk_row 0 9 0 9 5] 9 [] 100.
Lemma tabC_ok : well_behaved tstate ts_eqb (t_problem tabC) (t_relax tabC) t_at t_nv 1000.
Proof. apply table_well_behaved. vm_compute. reflexivity. Qed.
Lemma tabC_panics ct w lb k : t_compile true orc_fwd (t_call tabC ct w lb (t_root tabC)) k = None.
Proof. reflexivity. Qed.

(** A subproblem that is not the root. *)
Lemma qA2_genuine : genuine tstate (t_problem tabA) t_nv qA2.
Proof. exists [dA 0 1], (0 + 0). split; [constructor; constructor|]. split; [|reflexivity]. exact (run_cons tstate (t_problem tabA) t_nv 0%nat (0%nat, 0) (dA 0 1) [] 1%nat (1%nat, 2) 0 ltac:(cbn; lia) ltac:(cbn; tauto) (run_nil _ _ _ _ _)). Qed.
Lemma qA2_completes : exists ds, completes tstate (t_problem tabA) t_nv qA2 ds 7.
Proof. exists [dA 1 0; dA 2 0]. completes_tac. Qed.
