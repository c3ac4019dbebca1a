(** Concrete searches with frontier cutsets. *)
From Verif Require Import Spec Dd DdSpec MddAll MddBarrier MddBarrierSpec MddBarrierCases ParSolver ParSpec BarSolver BarSpec FringeFacts Table TableFacts MddCases ParCases BarCases CountersCases SizeSolvers SizeCases CutCases.
From Coq Require Import Lia ZArith List.
Import ListNotations.
Open Scope Z_scope.
Definition cfgW := t_cfg tabW 2 Frontier.
Lemma tabW_table : table_ok tabW 1000 = true.
Proof. vm_compute. reflexivity. Qed.
Lemma stock_wide : stock (cfg := cfgW) (nd_list tstate) (run_from cfgW 1 1 (go 20 0)) = Some (2%nat, 4%nat).
Proof. vm_compute. reflexivity. Qed.
Lemma bstock_wide : bstock (cfg := cfgW) (nd_list tstate) (brun cfgW 2 2 (turns 40)) = Some (1%nat, 3%nat).
Proof. vm_compute. reflexivity. Qed.
Lemma tally_wide : tally (run_from cfgW 1 1 (go 30 0)) = Some (true, 6%nat, 36%nat).
Proof. vm_compute. reflexivity. Qed.
Lemma btally_wide : btally (brun cfgW 2 2 (turns 80)) = Some (true, 4%nat, 23%nat).
Proof. vm_compute. reflexivity. Qed.
Lemma wide_stock : exists st, reachable tstate ts_eqb cfgW 1 1 st /\ length (nd_list tstate (c_fringe (s_crit st))) = 2%nat /\ c_explored (s_crit st) = 4%nat.
Proof. exact (stock_some _ _ _ _ _ _ _ stock_wide). Qed.
Lemma wide_bstock : exists st, breachable tstate ts_eqb cfgW 2 2 st /\ length (nd_list tstate (c_fringe (k_c (q_crit st)))) = 1%nat /\ c_explored (k_c (q_crit st)) = 3%nat.
Proof. exact (bstock_some _ _ _ _ _ _ _ bstock_wide). Qed.
Lemma wide_par : exists st, reachable tstate ts_eqb cfgW 1 1 st /\ c_explored (s_crit st) = 6%nat /\ c_explored_dd (s_crit st) = 36%nat.
Proof. destruct (tally_counted _ _ _ _ _ _ tally_wide) as (st & H & _ & H1 & H2). exists st. split; [exact (counted_reachable _ _ _ _ _ _ _ _ H)|]. split; assumption. Qed.
Lemma wide_bar : exists st, breachable tstate ts_eqb cfgW 2 2 st /\ c_explored (k_c (q_crit st)) = 4%nat /\ c_explored_dd (k_c (q_crit st)) = 23%nat.
Proof. destruct (btally_counted _ _ _ _ _ _ btally_wide) as (st & H & _ & H1 & H2). exists st. split; [exact (bcounted_reachable _ _ _ _ _ _ _ _ H)|]. split; assumption. Qed.

(** What a frontier cutset hands out, beside the nodes of the diagram. *)
Definition beside (o : option (dd tstate)) : option (nat * nat) := match o with Some d => option_map (fun p => (length (fst p), length (g_nodes d))) (drain_cutset d) | None => None end.
Lemma beside_some o a b : beside o = Some (a, b) -> exists d l d2, o = Some d /\ drain_cutset d = Some (l, d2) /\ length l = a /\ length (g_nodes d) = b.
Proof. destruct o as [d|]; cbn; [|discriminate]. destruct (drain_cutset d) as [[l d2]|] eqn:E; cbn; [|discriminate]. intros H. injection H as Ha Hb. exists d, l, d2. auto. Qed.
Lemma beside2_some (o : option (dd tstate * thresholds tstate)) a b : beside (option_map fst o) = Some (a, b) -> exists d T l d2, o = Some (d, T) /\ drain_cutset d = Some (l, d2) /\ length l = a /\ length (g_nodes d) = b.
Proof. destruct o as [[d T]|]; cbn; [|discriminate]. destruct (drain_cutset d) as [[l d2]|] eqn:E; cbn; [|discriminate]. intros H. injection H as Ha Hb. exists d, T, l, d2. auto. Qed.
Lemma beside_front : beside (t_compile true orc_fwd (t_call tabW Relaxed 2 (-100) (t_root tabW)) Frontier) = Some (4%nat, 14%nat).
Proof. vm_compute. reflexivity. Qed.
Lemma beside_bfront : beside (option_map fst (among added 0 (b_compile (t_call tabW Relaxed 2 (-100) (t_root tabW)) Frontier) (repeat [] 5))) = Some (4%nat, 14%nat).
Proof. vm_compute. reflexivity. Qed.
Lemma front_beside : exists d l d2, t_compile true orc_fwd (t_call tabW Relaxed 2 (-100) (t_root tabW)) Frontier = Some d /\ drain_cutset d = Some (l, d2) /\ length l = 4%nat /\ length (g_nodes d) = 14%nat.
Proof. exact (beside_some _ _ _ beside_front). Qed.
Lemma bfront_beside : exists d T l d2, returns ts_eqb false (b_compile (t_call tabW Relaxed 2 (-100) (t_root tabW)) Frontier) (repeat [] 5) d T /\ drain_cutset d = Some (l, d2) /\ length l = 4%nat /\ length (g_nodes d) = 14%nat.
Proof. destruct (beside2_some _ _ _ beside_bfront) as (d & T & l & d2 & H & E). exists d, T, l, d2. split; [exact (among_returns false added _ added_ok _ _ _ _ H)|exact E]. Qed.
