(** Concrete executions for the counters. *)
From Verif Require Import CountersSpec CountersProofs DdSpec DdCount DdCountMdd Table MddCases ParCases BarCases MddBarrier MddBarrierSpec MddBarrierCases.
Open Scope nat_scope.

Definition tally {cfg} (o : outcome tstate cfg) : option (bool * nat * nat) :=
  match o with Next st => Some (forallb (fun t => is_done (t_pc t)) (s_threads st), c_explored (s_crit st), c_explored_dd (s_crit st)) | _ => None end.
Definition btally {cfg} (o : boutcome tstate cfg) : option (bool * nat * nat) :=
  match o with BNext st => Some (forallb (fun t => bis_done (u_pc t)) (q_threads st), c_explored (k_c (q_crit st)), c_explored_dd (k_c (q_crit st))) | _ => None end.
Lemma tally_counted cfg n m s a b : tally (run_from cfg n m s) = Some (true, a, b) ->
  exists st, counted tstate ts_eqb cfg n m a b st /\ all_done cfg st /\ c_explored (s_crit st) = a /\ c_explored_dd (s_crit st) = b.
Proof.
  destruct (run_from cfg n m s) as [st| |] eqn:E; try discriminate. cbn. intros H.
  assert (Hd : all_done cfg st).
  { intros t Ht. injection H as H _ _. rewrite forallb_forall in H. specialize (H t Ht). destruct (t_pc t); cbn in H; try discriminate. reflexivity. }
  destruct (par_counted_all tstate ts_eqb cfg n m st (run_reachable _ _ _ _ _ E)) as (a' & b' & HC). exists st.
  destruct (par_counters _ _ _ _ _ _ _ _ HC) as (H1 & _ & H2). specialize (H2 Hd). injection H as _ Ha Hb. subst. auto.
Qed.
Lemma btally_counted cfg n m s a b : btally (brun cfg n m s) = Some (true, a, b) ->
  exists st, bcounted tstate ts_eqb cfg n m a b st /\ ball_done cfg st /\ c_explored (k_c (q_crit st)) = a /\ c_explored_dd (k_c (q_crit st)) = b.
Proof.
  destruct (brun cfg n m s) as [st| |] eqn:E; try discriminate. cbn. intros H.
  assert (Hd : ball_done cfg st).
  { intros t Ht. injection H as H _ _. rewrite forallb_forall in H. specialize (H t Ht). destruct (u_pc t); cbn in H; try discriminate. reflexivity. }
  destruct (bar_counted_all tstate ts_eqb cfg n m st (brun_reachable _ _ _ _ _ E)) as (a' & b' & HC). exists st.
  destruct (bar_counters _ _ _ _ _ _ _ _ HC) as (H1 & _ & H2). specialize (H2 Hd). injection H as _ Ha Hb. subst. auto.
Qed.

(** Two threads, then one thread that is told to stop after its first subproblem, then two threads of the solver with thresholds. *)
Lemma tally_two : tally (run_from cfgI 2 2 (turns 20)) = Some (true, 5, 31).
Proof. vm_compute. reflexivity. Qed.
Lemma tally_cut : tally (run_from cfgI 1 1 (go 12 0 ++ [(0, true)]%list)) = Some (true, 2, 15).
Proof. vm_compute. reflexivity. Qed.
Lemma btally_two : btally (brun cfgI 2 2 (turns 100)) = Some (true, 5, 31).
Proof. vm_compute. reflexivity. Qed.

(** ** Diagrams *)
Definition sources {S} (d : dd S) : nat := length (nodup Nat.eq_dec (map e_from (g_edges d))).
Definition nodes_of (o : option (dd tstate)) : option (nat * nat * nat) :=
  match o with Some d => Some (g_explored d, sources d, length (g_nodes d)) | None => None end.
Lemma nodes_of_some o x : nodes_of o = Some x -> exists d, o = Some d /\ (g_explored d, sources d, length (g_nodes d)) = x.
Proof. destruct o as [d|]; cbn; [|discriminate]. intros H. injection H as <-. eauto. Qed.
(** Of nine nodes, five are expanded; the others are merged or terminal. *)
Lemma nodes_relaxed : nodes_of (t_compile true orc_fwd (t_call tabA Relaxed 2 0 (t_root tabA)) LastExactLayer) = Some (5, 5, 9).
Proof. vm_compute. reflexivity. Qed.
Definition nodes_of2 (o : option (dd tstate * thresholds tstate)) : option (nat * nat * nat) := nodes_of (option_map fst o).
Lemma nodes_of2_some o x : nodes_of2 o = Some x -> exists d T, o = Some (d, T) /\ (g_explored d, sources d, length (g_nodes d)) = x.
Proof. destruct o as [[d T]|]; cbn; [|discriminate]. intros H. injection H as <-. eauto. Qed.
(** Of seven nodes, five are expanded: one is excluded by an entry that another thread writes in the meantime, one is terminal. *)
Lemma nodes_added : nodes_of2 (among added 0 (b_compile (t_call tabA Relaxed 3 0 (t_root tabA)) LastExactLayer) none4) = Some (5, 5, 7).
Proof. vm_compute. reflexivity. Qed.
Lemma relaxed_nodes : exists d, t_compile true orc_fwd (t_call tabA Relaxed 2 0 (t_root tabA)) LastExactLayer = Some d /\ g_explored d = 5 /\ sources d = 5 /\ length (g_nodes d) = 9.
Proof. destruct (nodes_of_some _ _ nodes_relaxed) as (d & H & E). injection E as E1 E2 E3. exists d. auto. Qed.
Lemma added_nodes : exists d T, returns ts_eqb false (b_compile (t_call tabA Relaxed 3 0 (t_root tabA)) LastExactLayer) none4 d T /\ g_explored d = 5 /\ sources d = 5 /\ length (g_nodes d) = 7.
Proof. destruct (nodes_of2_some _ _ nodes_added) as (d & T & H & E). injection E as E1 E2 E3. exists d, T. split; [exact (among_returns false added _ added_ok _ _ _ _ H)|auto]. Qed.
