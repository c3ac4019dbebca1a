(** Concrete compilations and executions for the statements of PropCut.v. Nothing here models code of /repo. *)
From Verif Require Import Spec Dd DdSpec Fringe FringeFacts MddAll MddBarrier MddBarrierSpec ParSolver ParSpec BarSolver BarSpec SizeSpec Table TableFacts MddCases ParCases BarCases MddBarrierCases SizeCases.
Open Scope Z_scope.

(** How many subproblems are drained. *)
Definition out_of (o : option (dd tstate)) : option nat := match o with Some d => option_map (fun p => length (fst p)) (drain_cutset d) | None => None end.
Lemma out_of_some o n : out_of o = Some n -> exists d l d2, o = Some d /\ drain_cutset d = Some (l, d2) /\ length l = n.
Proof. destruct o as [d|]; cbn; [|discriminate]. destruct (drain_cutset d) as [[l d2]|] eqn:E; cbn; [|discriminate]. intros H. injection H as <-. exists d, l, d2. auto. Qed.
Lemma out_of2_some (o : option (dd tstate * thresholds tstate)) n : out_of (option_map fst o) = Some n -> exists d T l d2, o = Some (d, T) /\ drain_cutset d = Some (l, d2) /\ length l = n.
Proof. destruct o as [[d T]|]; cbn; [|discriminate]. destruct (drain_cutset d) as [[l d2]|] eqn:E; cbn; [|discriminate]. intros H. injection H as <-. exists d, T, l, d2. auto. Qed.
Lemma out_narrow : out_of (t_compile true orc_fwd (t_call tabA Relaxed 1 (-100) (t_root tabA)) LastExactLayer) = Some 2%nat.
Proof. vm_compute. reflexivity. Qed.
Lemma narrow_out : exists d l d2, t_compile true orc_fwd (t_call tabA Relaxed 1 (-100) (t_root tabA)) LastExactLayer = Some d /\ drain_cutset d = Some (l, d2) /\ length l = 2%nat.
Proof. exact (out_of_some _ _ out_narrow). Qed.
Lemma out_bar : out_of (option_map fst (among added 0 (b_compile (t_call tabA Relaxed 1 (-100) (t_root tabA)) LastExactLayer) none4)) = Some 1%nat.
Proof. vm_compute. reflexivity. Qed.
Lemma bar_out : exists d T l d2, returns ts_eqb false (b_compile (t_call tabA Relaxed 1 (-100) (t_root tabA)) LastExactLayer) none4 d T /\ drain_cutset d = Some (l, d2) /\ length l = 1%nat.
Proof. destruct (out_of2_some _ _ out_bar) as (d & T & l & d2 & H & E). exists d, T, l, d2. split; [exact (among_returns false added _ added_ok _ _ _ _ H)|exact E]. Qed.
(** More subproblems than the width. *)
Lemma over_cut : exists (t : table) inp dF l d2, well_behaved tstate ts_eqb (t_problem t) (t_relax t) t_at t_nv 1000 /\
  good_call tstate (t_problem t) (t_relax t) t_nv true orc_fwd inp /\ i_type inp = Relaxed /\
  MddAll.compile ts_eqb true orc_fwd inp (dd_new LastExactLayer) = Some dF /\ drain_cutset dF = Some (l, d2) /\ (i_width inp < length l)%nat.
Proof.
  destruct narrow_out as (d & l & d2 & H & E & F). exists tabA, (t_call tabA Relaxed 1 (-100) (t_root tabA)), d, l, d2. split; [exact tabA_ok|]. split; [apply tabA_call; lia|]. split; [reflexivity|]. split; [exact H|].
  split; [exact E|]. rewrite F. cbn. lia.
Qed.

(** Four variables of two values. With width 2 the states 2, 3 and 4 of the third and of the fourth layer are merged. The state 1 of
    the third layer is exact, and one of its children is merged; both nodes of the second layer have a merged child too. *)
Definition tabW : table := mk_table 4 0 0
  [mk_row 0 0 0 1 5; mk_row 0 0 1 2 0; mk_row 0 9 0 9 5;
   mk_row 1 1 0 1 5; mk_row 1 1 1 2 0; mk_row 1 2 0 3 0; mk_row 1 2 1 4 0; mk_row 1 9 0 9 5;
   mk_row 2 1 0 1 5; mk_row 2 1 1 2 0; mk_row 2 2 0 3 0; mk_row 2 3 0 3 0; mk_row 2 4 0 3 0; mk_row 2 9 0 3 5; mk_row 2 9 1 4 5;
   mk_row 3 1 0 1 0; mk_row 3 2 0 1 0; mk_row 3 3 0 1 0; mk_row 3 4 0 1 0; mk_row 3 9 0 1 50] 9 [] 100.
Lemma tabW_ok : well_behaved tstate ts_eqb (t_problem tabW) (t_relax tabW) t_at t_nv 1000.
Proof. apply table_well_behaved. vm_compute. reflexivity. Qed.
Lemma tabW_domains : domains_within tstate (t_problem tabW) t_at t_nv 2.
Proof. apply table_domains. vm_compute. reflexivity. Qed.
Lemma tabW_call ct w lb : (1 <= w)%nat -> good_call tstate (t_problem tabW) (t_relax tabW) t_nv true orc_fwd (t_call tabW ct w lb (t_root tabW)).
Proof. intros Hw. apply t_call_good; [apply orc_fwd_ok|exact Hw|apply t_root_genuine|]. intros _. vm_compute. split; discriminate. Qed.
Lemma out_frontier : out_of (t_compile true orc_fwd (t_call tabW Relaxed 2 (-100) (t_root tabW)) Frontier) = Some 4%nat.
Proof. vm_compute. reflexivity. Qed.
Lemma over_frontier : exists (t : table) inp dF l d2, well_behaved tstate ts_eqb (t_problem t) (t_relax t) t_at t_nv 1000 /\ domains_within tstate (t_problem t) t_at t_nv 2 /\
  good_call tstate (t_problem t) (t_relax t) t_nv true orc_fwd inp /\ i_type inp = Relaxed /\
  MddAll.compile ts_eqb true orc_fwd inp (dd_new Frontier) = Some dF /\ drain_cutset dF = Some (l, d2) /\ (Nat.max (i_width inp) 2 < length l)%nat.
Proof.
  destruct (out_of_some _ _ out_frontier) as (d & l & d2 & H & E & F). exists tabW, (t_call tabW Relaxed 2 (-100) (t_root tabW)), d, l, d2. split; [exact tabW_ok|]. split; [exact tabW_domains|]. split; [apply tabW_call; lia|].
  split; [reflexivity|]. split; [exact H|]. split; [exact E|]. rewrite F. cbn. lia.
Qed.

(** How many subproblems the frontier holds, and how many were taken. *)
Definition stock {cfg} (pend : fr_t (cf_fr cfg) -> list (subproblem tstate)) (o : outcome tstate cfg) : option (nat * nat) :=
  match o with Next st => Some (length (pend (c_fringe (s_crit st))), c_explored (s_crit st)) | _ => None end.
Definition bstock {cfg} (pend : fr_t (cf_fr cfg) -> list (subproblem tstate)) (o : boutcome tstate cfg) : option (nat * nat) :=
  match o with BNext st => Some (length (pend (c_fringe (k_c (q_crit st)))), c_explored (k_c (q_crit st))) | _ => None end.
Lemma stock_some cfg pend n m s a b : stock pend (run_from cfg n m s) = Some (a, b) ->
  exists st, reachable tstate ts_eqb cfg n m st /\ length (pend (c_fringe (s_crit st))) = a /\ c_explored (s_crit st) = b.
Proof. destruct (run_from cfg n m s) as [st| |] eqn:E; try discriminate. cbn. intros H. exists st. split; [exact (run_reachable _ _ _ _ _ E)|]. injection H as Ha Hb. auto. Qed.
Lemma bstock_some cfg pend n m s a b : bstock pend (brun cfg n m s) = Some (a, b) ->
  exists st, breachable tstate ts_eqb cfg n m st /\ length (pend (c_fringe (k_c (q_crit st)))) = a /\ c_explored (k_c (q_crit st)) = b.
Proof. destruct (brun cfg n m s) as [st| |] eqn:E; try discriminate. cbn. intros H. exists st. split; [exact (brun_reachable _ _ _ _ _ E)|]. injection H as Ha Hb. auto. Qed.
Lemma stock_one : stock (cfg := cfgI) (nd_list tstate) (run_from cfgI 1 1 (go 5 0)) = Some (2%nat, 1%nat).
Proof. vm_compute. reflexivity. Qed.
Lemma bstock_two : bstock (cfg := cfgI) (nd_list tstate) (brun cfgI 2 2 (turns 45)) = Some (2%nat, 3%nat).
Proof. vm_compute. reflexivity. Qed.
Lemma one_stock : exists st, reachable tstate ts_eqb cfgI 1 1 st /\ length (nd_list tstate (c_fringe (s_crit st))) = 2%nat /\ c_explored (s_crit st) = 1%nat.
Proof. exact (stock_some _ _ _ _ _ _ _ stock_one). Qed.
Lemma two_bstock : exists st, breachable tstate ts_eqb cfgI 2 2 st /\ length (nd_list tstate (c_fringe (k_c (q_crit st)))) = 2%nat /\ c_explored (k_c (q_crit st)) = 3%nat.
Proof. exact (bstock_some _ _ _ _ _ _ _ bstock_two). Qed.
