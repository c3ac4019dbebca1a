(** Concrete executions of the solver with thresholds. Nothing here models code of /repo. *)
From Verif Require Import Spec Dd DdSpec MddAll FringeSpec ParSpec MddBarrier BarSpec BarProofs Table TableFacts MddCases ParCases.
Open Scope Z_scope.

Fixpoint bexec {cfg : config tstate} (s : schedule) (st : bstate tstate cfg) : boutcome tstate cfg :=
  match s with
  | [] => BNext st
  | (i, intr) :: r => match bthread_step ts_eqb cfg orc_fwd intr i st with BNext st' => bexec r st' | BPanic => BPanic | BDisabled => bexec r st end
  end.
Definition brun (cfg : config tstate) (n m : nat) (s : schedule) : boutcome tstate cfg :=
  match binitial cfg n m with Some st => bexec s st | None => BPanic end.

Lemma bexec_reaches cfg s : forall st st', bexec s st = BNext st' -> breaches tstate ts_eqb cfg st st'.
Proof.
  induction s as [|[i intr] r IH]; intros st st' H; cbn [bexec] in H; [injection H as ->; apply breaches_refl|].
  destruct (bthread_step ts_eqb cfg orc_fwd intr i st) as [st1| |] eqn:E; [|discriminate|auto].
  eapply breaches_left; [|apply IH; exact H]. exists orc_fwd, intr, i. split; [apply orc_fwd_ok|exact E].
Qed.
Lemma brun_reachable cfg n m s st : brun cfg n m s = BNext st -> breachable tstate ts_eqb cfg n m st.
Proof.
  unfold brun. destruct (binitial cfg n m) as [st0|] eqn:E; [|discriminate]. intros H. exists st0. split; [exact E|]. eapply bexec_reaches; eauto.
Qed.

Definition bis_done (p : bpc tstate) : bool := match p with BDone => true | _ => false end.
Definition blook {cfg} (o : boutcome tstate cfg) : option view :=
  match o with
  | BNext st => Some (mk_view (forallb (fun t => bis_done (u_pc t)) (q_threads st)) (c_interrupted (k_c (q_crit st))) (blower_bound cfg st) (bupper_bound cfg st) (bbest_value cfg st) (bbest_solution cfg st))
  | _ => None
  end.
Lemma blook_done cfg (st : bstate tstate cfg) v : blook (BNext st) = Some v -> v_done v = true -> ball_done cfg st.
Proof.
  intros H. injection H as <-. cbn [v_done]. intros H t Ht. rewrite forallb_forall in H. specialize (H t Ht). destruct (u_pc t); cbn in H; try discriminate. reflexivity.
Qed.
Lemma brun_look cfg n m s v : blook (brun cfg n m s) = Some v -> exists st, brun cfg n m s = BNext st /\ breachable tstate ts_eqb cfg n m st /\
  (v_done v = true -> ball_done cfg st) /\ c_interrupted (k_c (q_crit st)) = v_int v /\ blower_bound cfg st = v_lb v /\ bupper_bound cfg st = v_ub v /\
  bbest_value cfg st = v_val v /\ bbest_solution cfg st = v_sol v.
Proof.
  destruct (brun cfg n m s) as [st| |] eqn:E; try discriminate. intros H. exists st. split; [reflexivity|]. split; [eapply brun_reachable; eauto|].
  split; [eapply blook_done; eauto|]. injection H as <-. cbn. auto 10.
Qed.
Lemma bexec_last cfg s i b : forall st : bstate tstate cfg, bexec (s ++ [(i, b)]) st = BPanic ->
  bexec s st = BPanic \/ exists st', bexec s st = BNext st' /\ bthread_step ts_eqb cfg orc_fwd b i st' = BPanic.
Proof.
  induction s as [|[j c] s IH]; intros st H; cbn [bexec app] in *.
  - right. exists st. split; [reflexivity|]. destruct (bthread_step ts_eqb cfg orc_fwd b i st); [discriminate|reflexivity|discriminate].
  - destruct (bthread_step ts_eqb cfg orc_fwd c j st); auto.
Qed.
Lemma brun_panics cfg n m s i b : brun cfg n m (s ++ [(i, b)]) = BPanic -> blook (brun cfg n m s) <> None ->
  exists st, breachable tstate ts_eqb cfg n m st /\ bthread_step ts_eqb cfg orc_fwd b i st = BPanic.
Proof.
  intros H Hl. assert (Hr : forall st, brun cfg n m s = BNext st -> breachable tstate ts_eqb cfg n m st) by (intros; eapply brun_reachable; eauto).
  unfold brun in *. destruct (binitial cfg n m) as [st0|]; [|exfalso; apply Hl; reflexivity].
  destruct (bexec_last _ _ _ _ _ H) as [H1|(st & h1 & h2)]; [rewrite H1 in Hl; exfalso; apply Hl; reflexivity|]. exists st. split; auto.
Qed.

(** Where the threads are; compilations in progress are not detailed. *)
Inductive place := AtIdle | AtWait | AtClean | AtTry (n : subproblem tstate) | AtInsert (n : subproblem tstate) | AtStart (n : subproblem tstate)
  | AtRestrict (n : subproblem tstate) | AtRelax (n : subproblem tstate) | AtRelaxing (n : subproblem tstate) | AtNotify (d : nat) | AtDone.
Definition place_of (t : bthread tstate) : place :=
  match u_pc t with
  | BIdle => AtIdle | BWait => AtWait | BClean => AtClean | BTry n => AtTry n | BInsert n => AtInsert n | BStart n => AtStart n
  | BRestrict n _ => AtRestrict n | BRelax n _ => AtRelax n | BRelaxing n _ _ => AtRelaxing n | BNotify d _ => AtNotify d | BDone => AtDone
  end.
Definition places {cfg} (o : boutcome tstate cfg) : option (list place) := match o with BNext st => Some (map place_of (q_threads st)) | _ => None end.
Definition table_at {cfg} (o : boutcome tstate cfg) : option (list (list (tstate * info))) := match o with BNext st => Some (q_table st) | _ => None end.
Definition counters {cfg} (o : boutcome tstate cfg) : option (nat * list nat * list nat) :=
  match o with BNext st => Some (k_lowest (q_crit st), k_open (q_crit st), k_ongoing (q_crit st)) | _ => None end.

(** * Runs *)
Lemma bar_turns_run : blook (brun cfgI 2 2 (turns 100)) = Some (mk_view true false 10 10 (Some 10) (Some sol10)).
Proof. vm_compute. reflexivity. Qed.
Lemma bar_one_run : blook (brun cfgI 1 1 (go 73 0)) = Some (mk_view true false 10 10 (Some 10) (Some sol10)).
Proof. vm_compute. reflexivity. Qed.
Lemma bar_lel_run : blook (brun (cfgF LastExactLayer) 1 1 (go 53 0)) = Some (mk_view true false 8 8 (Some 8) (Some solF8)).
Proof. vm_compute. reflexivity. Qed.
Lemma bar_frontier_run : blook (brun (cfgF Frontier) 1 1 (go 54 0)) = Some (mk_view true false 7 7 (Some 7) (Some solF7)).
Proof. vm_compute. reflexivity. Qed.
Lemma bar_early_run : blook (brun cfgI 1 1 (go 43 0 ++ [(0, true)]%nat)) = Some (mk_view true true 4 10 (Some 4) (Some sol4)).
Proof. vm_compute. reflexivity. Qed.
Lemma bar_below_run : blook (brun cfgI 1 1 (go 66 0 ++ [(0, true)]%nat)) = Some (mk_view true true 10 9 (Some 10) (Some sol10)).
Proof. vm_compute. reflexivity. Qed.
(** Thread 0 holds 1 and thread 1 holds 2; thread 0 pushes the subproblems of 1 and is interrupted. *)
Definition bsched_two : schedule := (go 28 0 ++ go 4 1 ++ go 15 0 ++ [(0, true)]%nat ++ go 60 1).
Lemma bar_two_run : blook (brun cfgI 2 2 bsched_two) = Some (mk_view true true 4 9 (Some 4) (Some sol4)).
Proof. vm_compute. reflexivity. Qed.
Lemma bar_reset_run : blook (brun cfgJ 2 2 bsched_two) = Some (mk_view true true 4 4 (Some 4) (Some sol4)).
Proof. vm_compute. reflexivity. Qed.
Definition bpanics {cfg} (o : boutcome tstate cfg) : bool := match o with BPanic => true | _ => false end.
Lemma bpanics_ok cfg (o : boutcome tstate cfg) : bpanics o = true -> o = BPanic.
Proof. destruct o; [discriminate|reflexivity|discriminate]. Qed.
Lemma bar_too_many : brun cfgI 1 2 ((go 28 0 ++ go 3 1) ++ [(1, false)]%nat) = BPanic.
Proof. apply bpanics_ok. vm_compute. reflexivity. Qed.
Lemma bar_too_many_panics : exists st, breachable tstate ts_eqb cfgI 1 2 st /\ bthread_step ts_eqb cfgI orc_fwd false 1 st = BPanic.
Proof. apply (brun_panics cfgI 1 2 (go 28 0 ++ go 3 1)); [exact bar_too_many|vm_compute; discriminate]. Qed.
Lemma bar_none_run : blook (brun cfgI 1 0 []) = Some (mk_view true false IMIN IMAX None None).
Proof. vm_compute. reflexivity. Qed.

(** * A subproblem discarded because of its threshold *)
Definition tabB : table := mk_table 5 1 0
  [mk_row 0 1 0 2 5; mk_row 0 1 1 1 1;
   mk_row 1 1 0 1 1; mk_row 1 1 1 2 6; mk_row 1 2 0 2 6; mk_row 1 2 1 2 6;
   mk_row 2 1 0 2 7; mk_row 2 1 1 1 6; mk_row 2 2 1 2 3;
   mk_row 3 1 0 1 0; mk_row 3 2 0 2 1; mk_row 3 2 1 1 2;
   mk_row 4 2 0 1 2; mk_row 4 2 1 1 3;
   mk_row 0 9 0 9 8; mk_row 1 9 0 9 8; mk_row 2 9 0 9 8; mk_row 3 9 0 9 8; mk_row 4 9 0 9 8] 9
  [(0%nat, 2, 25); (1%nat, 2, 22); (2%nat, 1, 16); (3%nat, 2, 20); (4%nat, 1, 7)] 100.
Definition cfgB := t_cfg tabB 1 LastExactLayer.
Lemma tabB_ok : table_ok tabB 1000 = true. Proof. vm_compute. reflexivity. Qed.
Lemma tabB_opt : optimum tstate (t_problem tabB) t_nv 18.
Proof. apply (table_optimum tabB 18). vm_compute. reflexivity. Qed.
(** Popped with value 7 although value 11 has been seen for its state. *)
Definition subB : subproblem tstate := mk_sub (2%nat, 2) 7 [mk_dec 0 1; mk_dec 1 1] 26.
Lemma blocked_run :
  places (brun cfgB 1 1 (go 78 0)) = Some [AtTry subB] /\
  blook (brun cfgB 1 1 (go 78 0)) = Some (mk_view false false IMIN IMAX None None) /\
  option_map (fun T => tget ts_eqb (nth 2 T []) (2%nat, 2)) (table_at (brun cfgB 1 1 (go 78 0))) = Some (Some (mk_info 11 true)).
Proof. vm_compute. auto. Qed.
(** While 1 is about to be compiled, the entry 7 of its child is older. *)
Lemma entry_run :
  places (brun cfgB 1 1 (go 53 0)) = Some [AtStart (mk_sub (1%nat, 2) 5 [mk_dec 0 0] 27)] /\
  option_map (fun T => tget ts_eqb (nth 2 T []) (2%nat, 2)) (table_at (brun cfgB 1 1 (go 53 0))) = Some (Some (mk_info 7 false)).
Proof. vm_compute. auto. Qed.
Lemma subB_genuine : genuine tstate (t_problem tabB) t_nv subB.
Proof.
  exists [mk_dec 0 1; mk_dec 1 1], (1 + (6 + 0)). split; [apply Permutation_refl|]. split; [|reflexivity].
  apply (run_cons tstate (t_problem tabB) t_nv 0 (0%nat, 1) (mk_dec 0 1)); [cbn; lia|cbn; auto|].
  apply (run_cons tstate (t_problem tabB) t_nv 1 (1%nat, 1) (mk_dec 1 1)); [cbn; lia|cbn; auto|]. apply run_nil.
Qed.
Lemma subB_completes : completes tstate (t_problem tabB) t_nv subB [mk_dec 2 1; mk_dec 3 0; mk_dec 4 1] 14.
Proof.
  exists (3 + (1 + (3 + 0))). split; [|reflexivity]. eexists.
  apply (run_cons tstate (t_problem tabB) t_nv 2 (2%nat, 2) (mk_dec 2 1)); [cbn; lia|cbn; auto|].
  apply (run_cons tstate (t_problem tabB) t_nv 3 (3%nat, 2) (mk_dec 3 0)); [cbn; lia|cbn; auto|].
  apply (run_cons tstate (t_problem tabB) t_nv 4 (4%nat, 2) (mk_dec 4 1)); [cbn; lia|cbn; auto|]. apply run_nil.
Qed.
