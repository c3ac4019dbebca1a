(** Concrete diagrams and executions for their sizes. *)
From Verif Require Import DdSpec MddBarrier MddBarrierSpec SizeSpec Table MddCases ParCases BarCases MddBarrierCases CountersSpec CountersProofs CountersCases SizeSolvers.
From Coq Require Import Lia.
Open Scope nat_scope.

Definition domains_checked (t : table) (D : nat) : bool :=
  forallb (fun r => length (filter (row_is (r_depth r, r_from r)) (t_rows t)) <=? D) (t_rows t).
Lemma table_domains t D : domains_checked t D = true -> domains_within tstate (t_problem t) t_at t_nv D.
Proof.
  intros H k s _ _. cbn. rewrite map_length. unfold domains_checked in H. rewrite forallb_forall in H. destruct (filter (row_is s) (t_rows t)) as [|r l] eqn:E; [cbn; lia|].
  assert (Hr : In r (filter (row_is s) (t_rows t))) by (rewrite E; left; reflexivity). apply filter_In in Hr as [Hr Hs].
  specialize (H r Hr). apply Nat.leb_le in H. unfold row_is in Hs. apply andb_prop in Hs as [H1 H2]. apply Nat.eqb_eq in H1. apply Z.eqb_eq in H2.
  assert (s = (r_depth r, r_from r)) as -> by (destruct s; cbn in *; congruence). rewrite E in H. exact H.
Qed.
Lemma tabA_domains : domains_within tstate (t_problem tabA) t_at t_nv 2.
Proof. apply table_domains. vm_compute. reflexivity. Qed.
Lemma tabI_domains : domains_within tstate (t_problem tabI) t_at t_nv 2.
Proof. apply table_domains. vm_compute. reflexivity. Qed.

Lemma nodes_restricted : nodes_of (t_compile true orc_fwd (t_call tabA Restricted 1 0 (t_root tabA)) LastExactLayer) = Some (3, 3, 5).
Proof. vm_compute. reflexivity. Qed.
Lemma restricted_nodes : exists d, t_compile true orc_fwd (t_call tabA Restricted 1 0 (t_root tabA)) LastExactLayer = Some d /\ g_explored d = 3 /\ length (g_nodes d) = 5.
Proof. destruct (nodes_of_some _ _ nodes_restricted) as (d & H & E). injection E as E1 E2 E3. exists d. auto. Qed.
(** With a width of 1 a relaxed diagram of three layers expands four nodes. *)
Lemma nodes_narrow : nodes_of (t_compile true orc_fwd (t_call tabA Relaxed 1 0 (t_root tabA)) LastExactLayer) = Some (4, 4, 8).
Proof. vm_compute. reflexivity. Qed.
Lemma narrow_nodes : exists d, t_compile true orc_fwd (t_call tabA Relaxed 1 0 (t_root tabA)) LastExactLayer = Some d /\ g_explored d = 4 /\ length (g_nodes d) = 8.
Proof. destruct (nodes_of_some _ _ nodes_narrow) as (d & H & E). injection E as E1 E2 E3. exists d. auto. Qed.
Lemma over_width : exists (t : table) inp dF, well_behaved tstate ts_eqb (t_problem t) (t_relax t) t_at t_nv 1000 /\
  good_call tstate (t_problem t) (t_relax t) t_nv true orc_fwd inp /\ i_type inp = Relaxed /\
  MddAll.compile ts_eqb true orc_fwd inp (dd_new LastExactLayer) = Some dF /\ (pb_nb_vars (t_problem t) - depth_of (i_res inp)) * i_width inp < g_explored dF.
Proof.
  destruct narrow_nodes as (d & H & E & _). exists tabA, (t_call tabA Relaxed 1 0 (t_root tabA)), d. split; [exact tabA_ok|]. split; [apply tabA_call; lia|]. split; [reflexivity|]. split; [exact H|].
  rewrite E. vm_compute. lia.
Qed.
(** The same diagram with thresholds, alone and with an entry added by another thread. *)
Lemma nodes_bar_restricted : nodes_of2 (among added 0 (b_compile (t_call tabA Restricted 1 0 (t_root tabA)) LastExactLayer) none4) = Some (2, 2, 4).
Proof. vm_compute. reflexivity. Qed.
Lemma bar_restricted_nodes : exists d T, returns ts_eqb false (b_compile (t_call tabA Restricted 1 0 (t_root tabA)) LastExactLayer) none4 d T /\ g_explored d = 2 /\ length (g_nodes d) = 4.
Proof. destruct (nodes_of2_some _ _ nodes_bar_restricted) as (d & T & H & E). injection E as E1 E2 E3. exists d, T. split; [exact (among_returns false added _ added_ok _ _ _ _ H)|auto]. Qed.
Lemma par_two : exists st, reachable tstate ts_eqb cfgI 2 2 st /\ c_explored (s_crit st) = 5 /\ c_explored_dd (s_crit st) = 31.
Proof. destruct (tally_counted _ _ _ _ _ _ tally_two) as (st & H & _ & H1 & H2). exists st. split; [exact (counted_reachable _ _ _ _ _ _ _ _ H)|]. split; assumption. Qed.
Lemma bar_two : exists st, breachable tstate ts_eqb cfgI 2 2 st /\ c_explored (k_c (q_crit st)) = 5 /\ c_explored_dd (k_c (q_crit st)) = 31.
Proof. destruct (btally_counted _ _ _ _ _ _ btally_two) as (st & H & _ & H1 & H2). exists st. split; [exact (bcounted_reachable _ _ _ _ _ _ _ _ H)|]. split; assumption. Qed.

(** Numbers of expanded nodes and of edges. *)
Definition edges_of (o : option (dd tstate)) : option (nat * nat) := match o with Some d => Some (g_explored d, length (g_edges d)) | None => None end.
Lemma edges_of_some o x : edges_of o = Some x -> exists d, o = Some d /\ (g_explored d, length (g_edges d)) = x.
Proof. destruct o as [d|]; cbn; [|discriminate]. intros H. injection H as <-. eauto. Qed.
Lemma edges_of2_some (o : option (dd tstate * thresholds tstate)) x : edges_of (option_map fst o) = Some x -> exists d T, o = Some (d, T) /\ (g_explored d, length (g_edges d)) = x.
Proof. destruct o as [[d T]|]; cbn; [|discriminate]. intros H. injection H as <-. eauto. Qed.
Lemma edges_restricted : edges_of (t_compile true orc_fwd (t_call tabA Restricted 2 0 (t_root tabA)) LastExactLayer) = Some (5, 7).
Proof. vm_compute. reflexivity. Qed.
Lemma edges_narrow : edges_of (t_compile true orc_fwd (t_call tabA Relaxed 1 0 (t_root tabA)) LastExactLayer) = Some (4, 9).
Proof. vm_compute. reflexivity. Qed.
Lemma edges_bar : edges_of (option_map fst (among added 0 (b_compile (t_call tabA Relaxed 1 0 (t_root tabA)) LastExactLayer) none4)) = Some (4, 8).
Proof. vm_compute. reflexivity. Qed.
Lemma restricted_edges : exists d, t_compile true orc_fwd (t_call tabA Restricted 2 0 (t_root tabA)) LastExactLayer = Some d /\ g_explored d = 5 /\ length (g_edges d) = 7.
Proof. destruct (edges_of_some _ _ edges_restricted) as (d & H & E). injection E as E1 E2. exists d. auto. Qed.
Lemma narrow_edges : exists d, t_compile true orc_fwd (t_call tabA Relaxed 1 0 (t_root tabA)) LastExactLayer = Some d /\ g_explored d = 4 /\ length (g_edges d) = 9.
Proof. destruct (edges_of_some _ _ edges_narrow) as (d & H & E). injection E as E1 E2. exists d. auto. Qed.
Lemma bar_narrow_edges : exists d T, returns ts_eqb false (b_compile (t_call tabA Relaxed 1 0 (t_root tabA)) LastExactLayer) none4 d T /\ g_explored d = 4 /\ length (g_edges d) = 8.
Proof. destruct (edges_of2_some _ _ edges_bar) as (d & T & H & E). injection E as E1 E2. exists d, T. split; [exact (among_returns false added _ added_ok _ _ _ _ H)|auto]. Qed.
(** Four nodes with two values each are expanded; there are nine edges. *)
Lemma edge_copied : exists (t : table) inp dF, well_behaved tstate ts_eqb (t_problem t) (t_relax t) t_at t_nv 1000 /\ domains_within tstate (t_problem t) t_at t_nv 2 /\
  good_call tstate (t_problem t) (t_relax t) t_nv true orc_fwd inp /\ i_type inp = Relaxed /\
  MddAll.compile ts_eqb true orc_fwd inp (dd_new LastExactLayer) = Some dF /\ g_explored dF * 2 < length (g_edges dF).
Proof.
  destruct narrow_edges as (d & H & E & F). exists tabA, (t_call tabA Relaxed 1 0 (t_root tabA)), d. split; [exact tabA_ok|]. split; [exact tabA_domains|]. split; [apply tabA_call; lia|]. split; [reflexivity|]. split; [exact H|].
  rewrite E, F. lia.
Qed.
