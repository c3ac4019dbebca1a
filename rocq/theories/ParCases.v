(** Concrete executions of the parallel solver. Nothing here models code of /repo. *)
From Verif Require Import Spec Dd DdSpec MddAll MddAllProofs FrontierSpec NoDupFacts FrontierFacts FringeSpec FringeFacts ParSpec ParFacts Table TableFacts MddCases.
Open Scope Z_scope.

(** The solver on a table: constant width, frontier without duplicates. *)
Definition t_cfg (t : table) (w : nat) (ct : cutset_type) : config tstate :=
  mk_cfg (t_problem t) (t_relax t) t_rank (fun _ => w) ct (nodup_frontier ts_eqb t_rank).

Lemma t_rank_preorder : total_preorder t_rank.
Proof.
  unfold t_rank. split.
  - intros a b. apply Z.compare_antisym.
  - intros a b c. rewrite !Z.compare_le_iff. lia.
Qed.
Lemma ts_eqb_spec : forall a b, ts_eqb a b = true <-> a = b.
Proof.
  intros [a x] [b y]. unfold ts_eqb. cbn [fst snd]. rewrite andb_true_iff, Nat.eqb_eq, Z.eqb_eq. split; [intros [-> ->]; auto|intros H; injection H; auto].
Qed.
Lemma t_cfg_good t w ct C : table_ok t C = true -> (1 <= w)%nat ->
  good_config tstate ts_eqb (t_cfg t w ct) t_at t_nv C True (NoDupFacts.Inv tstate t_rank) (nd_list tstate).
Proof.
  intros Ht Hw. constructor.
  - apply table_well_behaved. exact Ht.
  - intros s. exact Hw.
  - apply nodup_frontier_ok; [apply ts_eqb_spec|apply t_rank_preorder].
Qed.
Lemma t_decided_once t w ct : decided_once tstate (t_cfg t w ct) t_nv.
Proof. intros k k' _ _ H. exact H. Qed.

(** Running a schedule: which thread moves (if it can), and what [interrupt()] would answer. *)
Definition schedule := list (nat * bool).
Fixpoint exec {cfg : config tstate} (s : schedule) (st : state tstate cfg) : outcome tstate cfg :=
  match s with
  | [] => Next st
  | (i, intr) :: r => match thread_step ts_eqb cfg orc_fwd intr i st with Next st' => exec r st' | Panic => Panic | Disabled => exec r st end
  end.
Definition run_from (cfg : config tstate) (n m : nat) (s : schedule) : outcome tstate cfg :=
  match initial cfg n m with Some st => exec s st | None => Panic end.
Fixpoint go (n i : nat) : schedule := match n with O => [] | S k => (i, false) :: go k i end.

Lemma reaches_left (cfg : config tstate) a b c : step tstate ts_eqb cfg a b -> reaches tstate ts_eqb cfg b c -> reaches tstate ts_eqb cfg a c.
Proof.
  intros H Hr. induction Hr as [b|b c' c'' _ IH Hs].
  - eapply reaches_step; [apply reaches_refl|auto].
  - eapply reaches_step; [apply IH; exact H|exact Hs].
Qed.
Lemma exec_reaches cfg s : forall st st', exec s st = Next st' -> reaches tstate ts_eqb cfg st st'.
Proof.
  induction s as [|[i intr] r IH]; intros st st' H; cbn [exec] in H; [injection H as ->; apply reaches_refl|].
  destruct (thread_step ts_eqb cfg orc_fwd intr i st) as [st1| |] eqn:E; [|discriminate|auto].
  eapply reaches_left; [|apply IH; exact H]. exists orc_fwd, intr, i. split; [apply orc_fwd_ok|exact E].
Qed.
Lemma run_reachable cfg n m s st : run_from cfg n m s = Next st -> reachable tstate ts_eqb cfg n m st.
Proof.
  unfold run_from. destruct (initial cfg n m) as [st0|] eqn:E; [|discriminate]. intros H. exists st0. split; [exact E|]. eapply exec_reaches; eauto.
Qed.

(** What can be observed of a state. *)
Definition is_done (st : pc tstate) : bool := match st with PDone => true | _ => false end.
Record view := mk_view { v_done : bool; v_int : bool; v_lb : Z; v_ub : Z; v_val : option Z; v_sol : option (list decision) }.
Definition look {cfg} (o : outcome tstate cfg) : option view :=
  match o with
  | Next st => Some (mk_view (forallb (fun t => is_done (t_pc t)) (s_threads st)) (c_interrupted (s_crit st)) (lower_bound_of cfg st) (upper_bound_of cfg st) (best_value_of cfg st) (best_solution_of cfg st))
  | _ => None
  end.
Lemma look_done cfg (st : state tstate cfg) v : look (Next st) = Some v -> v_done v = true -> all_done cfg st.
Proof.
  intros H. injection H as <-. cbn [v_done]. intros H t Ht. rewrite forallb_forall in H. specialize (H t Ht). destruct (t_pc t); cbn in H; try discriminate. reflexivity.
Qed.
(** Where the threads are. *)
Definition where_are {cfg} (o : outcome tstate cfg) : option (list (pc tstate)) :=
  match o with Next st => Some (map t_pc (s_threads st)) | _ => None end.


Lemma t_cfg_solver t w ct C : table_ok t C = true -> (1 <= w)%nat -> good_solver tstate ts_eqb (t_cfg t w ct) t_at t_nv C.
Proof. intros. do 2 eexists. apply t_cfg_good; eauto. Qed.

(** A reachable state given by what can be seen of it. *)
Lemma run_look cfg n m s v : look (run_from cfg n m s) = Some v -> exists st, run_from cfg n m s = Next st /\ reachable tstate ts_eqb cfg n m st /\
  (v_done v = true -> all_done cfg st) /\ c_interrupted (s_crit st) = v_int v /\ lower_bound_of cfg st = v_lb v /\ upper_bound_of cfg st = v_ub v /\
  best_value_of cfg st = v_val v /\ best_solution_of cfg st = v_sol v.
Proof.
  destruct (run_from cfg n m s) as [st| |] eqn:E; try discriminate. intros H. exists st. split; [reflexivity|]. split; [eapply run_reachable; eauto|].
  split; [eapply look_done; eauto|]. injection H as <-. cbn. auto 10.
Qed.

(** * Frontier cutsets: the solution of value 8 is lost *)
Definition tabF : table := mk_table 3 0 0
  [mk_row 0 0 0 1 0; mk_row 0 0 1 2 1; mk_row 0 0 2 3 1;
   mk_row 1 1 0 1 5; mk_row 1 2 0 2 0; mk_row 1 3 0 3 0;
   mk_row 2 1 0 1 3; mk_row 2 2 0 2 6; mk_row 2 3 0 2 5;
   mk_row 0 9 0 9 10; mk_row 1 9 0 9 10; mk_row 2 9 0 2 9] 9 [] 100.
Lemma tabF_ok : table_ok tabF 1000 = true. Proof. vm_compute. reflexivity. Qed.
Lemma tabF_opt : optimum tstate (t_problem tabF) t_nv 8.
Proof. apply (table_optimum tabF 8). vm_compute. reflexivity. Qed.
Definition cfgF ct := t_cfg tabF 2 ct.
Definition solF7 := [mk_dec 2 0; mk_dec 1 0; mk_dec 0 1].
Definition solF8 := [mk_dec 0 0; mk_dec 2 0; mk_dec 1 0].
Lemma frontier_run : look (run_from (cfgF Frontier) 1 1 (go 15 0)) = Some (mk_view true false 7 7 (Some 7) (Some solF7)).
Proof. vm_compute. reflexivity. Qed.
Lemma lel_run : look (run_from (cfgF LastExactLayer) 1 1 (go 19 0)) = Some (mk_view true false 8 8 (Some 8) (Some solF8)).
Proof. vm_compute. reflexivity. Qed.

(** * Interruptions *)
Definition rowsI := 
  [mk_row 0 0 0 1 0; mk_row 0 0 1 2 2;
   mk_row 1 1 0 1 0; mk_row 1 2 0 2 0;
   mk_row 2 1 0 1 3; mk_row 2 1 1 2 0; mk_row 2 2 0 3 1;
   mk_row 3 1 0 1 1; mk_row 3 2 0 1 10; mk_row 3 3 0 1 0; mk_row 3 4 0 1 1;
   mk_row 0 9 0 9 0; mk_row 1 9 0 9 0; mk_row 2 9 0 9 0; mk_row 3 9 0 9 50].
(** The root has two children: 1, whose solutions are worth 4 and 10, with estimate 10; 2, whose solutions are worth 3, with estimate 9. *)
Definition tabI : table := mk_table 4 0 0 (mk_row 2 2 1 4 0 :: rowsI) 9 [(1%nat, 1, 10); (1%nat, 2, 7)] 100.
(** The same with only one completion of 2. *)
Definition tabJ : table := mk_table 4 0 0 rowsI 9 [(1%nat, 1, 10); (1%nat, 2, 7)] 100.
Lemma tabI_ok : table_ok tabI 1000 = true. Proof. vm_compute. reflexivity. Qed.
Lemma tabJ_ok : table_ok tabJ 1000 = true. Proof. vm_compute. reflexivity. Qed.
Lemma tabI_opt : optimum tstate (t_problem tabI) t_nv 10.
Proof. apply (table_optimum tabI 10). vm_compute. reflexivity. Qed.
Lemma tabJ_opt : optimum tstate (t_problem tabJ) t_nv 10.
Proof. apply (table_optimum tabJ 10). vm_compute. reflexivity. Qed.
Definition cfgI := t_cfg tabI 1 LastExactLayer.
Definition cfgJ := t_cfg tabJ 1 LastExactLayer.
Definition sol4 := [mk_dec 0 0; mk_dec 3 0; mk_dec 2 0; mk_dec 1 0].
Definition sol10 := [mk_dec 0 0; mk_dec 1 0; mk_dec 3 0; mk_dec 2 1].
(** Thread 0 holds 1 and thread 1 holds 2; thread 0 pushes the subproblems of 1 and is interrupted. *)
Definition sched_two : schedule := (go 6 0 ++ go 1 0 ++ go 1 1 ++ go 5 0 ++ [(0, true)]%nat ++ go 6 1).
Lemma two_run : look (run_from cfgI 2 2 sched_two) = Some (mk_view true true 4 9 (Some 4) (Some sol4)).
Proof. vm_compute. reflexivity. Qed.
Lemma reset_run : look (run_from cfgJ 2 2 sched_two) = Some (mk_view true true 4 4 (Some 4) (Some sol4)).
Proof. vm_compute. reflexivity. Qed.
(** Thread 0 holds 1 and thread 1 holds 2 when thread 2 notices the interruption: nothing is waiting. *)
Definition sched_three : schedule := (go 7 0 ++ go 1 1)%list.
Definition waiting {cfg : config tstate} (o : outcome tstate cfg) : option (bool * list (pc tstate) * bool) :=
  match o with Next st => Some (fr_empty (cf_fr cfg) (c_fringe (s_crit st)), map t_pc (s_threads st), c_interrupted (s_crit st)) | _ => None end.
Definition subI1 : subproblem tstate := mk_sub (1%nat, 1) 0 [mk_dec 0 0] 10.
Definition subI2 : subproblem tstate := mk_sub (1%nat, 2) 2 [mk_dec 0 1] 9.
Lemma three_before : waiting (run_from cfgI 3 3 sched_three) = Some (true, [PStart subI1; PStart subI2; PIdle], false).
Proof. vm_compute. reflexivity. Qed.
Lemma three_run : look (run_from cfgI 3 3 (sched_three ++ [(2, true)]%nat ++ go 6 0 ++ go 8 1)) = Some (mk_view true true 4 10 (Some 4) (Some sol4)).
Proof. vm_compute. reflexivity. Qed.
(** A single thread finds 10, is interrupted, and answers with the bound of 2. *)
Lemma below_run : look (run_from cfgI 1 1 (go 18 0 ++ [(0, true)]%nat)) = Some (mk_view true true 10 9 (Some 10) (Some sol10)).
Proof. vm_compute. reflexivity. Qed.
Lemma early_run : look (run_from cfgI 1 1 (go 12 0 ++ [(0, true)]%nat)) = Some (mk_view true true 4 10 (Some 4) (Some sol4)).
Proof. vm_compute. reflexivity. Qed.
(** Two threads taking turns. *)
Fixpoint turns (n : nat) : schedule := match n with O => [] | S k => (0, false)%nat :: (1, false)%nat :: turns k end.
Lemma turns_run : look (run_from cfgI 2 2 (turns 20)) = Some (mk_view true false 10 10 (Some 10) (Some sol10)).
Proof. vm_compute. reflexivity. Qed.
Lemma parked : where_are (run_from cfgI 2 2 (go 1 0 ++ go 1 1)) = Some [PStart (t_root tabI); PWait].
Proof. vm_compute. reflexivity. Qed.

(** * Numbers of threads *)
Definition panics {cfg} (o : outcome tstate cfg) : bool := match o with Panic => true | _ => false end.
Lemma panics_ok cfg (o : outcome tstate cfg) : panics o = true -> o = Panic.
Proof. destruct o; [discriminate|reflexivity|discriminate]. Qed.
Lemma too_many : run_from cfgI 1 2 (go 6 0 ++ go 1 0 ++ go 1 1) = Panic.
Proof. apply panics_ok. vm_compute. reflexivity. Qed.
Lemma exec_last cfg s i b : forall st : state tstate cfg, exec (s ++ [(i, b)]) st = Panic ->
  exec s st = Panic \/ exists st', exec s st = Next st' /\ thread_step ts_eqb cfg orc_fwd b i st' = Panic.
Proof.
  induction s as [|[j c] s IH]; intros st H; cbn [exec app] in *.
  - right. exists st. split; [reflexivity|]. destruct (thread_step ts_eqb cfg orc_fwd b i st); [discriminate|reflexivity|discriminate].
  - destruct (thread_step ts_eqb cfg orc_fwd c j st); auto.
Qed.
Lemma run_panics cfg n m s i b : run_from cfg n m (s ++ [(i, b)]) = Panic -> look (run_from cfg n m s) <> None ->
  exists st, reachable tstate ts_eqb cfg n m st /\ thread_step ts_eqb cfg orc_fwd b i st = Panic.
Proof.
  intros H Hl. assert (Hr : forall st, run_from cfg n m s = Next st -> reachable tstate ts_eqb cfg n m st) by (intros; eapply run_reachable; eauto).
  unfold run_from in *. destruct (initial cfg n m) as [st0|]; [|exfalso; apply Hl; reflexivity].
  destruct (exec_last _ _ _ _ _ H) as [H1|(st & h1 & h2)]; [rewrite H1 in Hl; exfalso; apply Hl; reflexivity|]. exists st. split; auto.
Qed.
Lemma too_many_panics : exists st, reachable tstate ts_eqb cfgI 1 2 st /\ thread_step ts_eqb cfgI orc_fwd false 1 st = Panic.
Proof. apply (run_panics cfgI 1 2 (go 6 0 ++ go 1 0)); [exact too_many|vm_compute; discriminate]. Qed.
Lemma none_run : look (run_from cfgI 1 0 []) = Some (mk_view true false IMIN IMAX None None).
Proof. vm_compute. reflexivity. Qed.
