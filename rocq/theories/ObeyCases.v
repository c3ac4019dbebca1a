(** Executions after an interruption, counted. *)
From Verif Require Import Spec Dd DdSpec Fringe FringeSpec FringeFacts ParSpec BarSpec Table TableFacts MddCases SortBy ParCases BarCases ObeySpec ObeyProofs ObeyBarProofs.
Open Scope Z_scope.

(** [exec] of ParCases.v with the counters of [pexec]. *)
Fixpoint cexec {cfg : config tstate} (s : schedule) (k d : nat) (st : state tstate cfg) : option (nat * nat * state tstate cfg) :=
  match s with
  | [] => Some (k, d, st)
  | (i, intr) :: r =>
      match thread_step ts_eqb cfg orc_fwd intr i st with
      | Next st' => cexec r (Datatypes.S k) ((if compiles tstate cfg st i then 1 else 0) + d) st'
      | Panic => None
      | Disabled => cexec r k d st
      end
  end.
Lemma cexec_ok {cfg : config tstate} : forall s k d (st0 st : state tstate cfg) k' d' st', pexec tstate ts_eqb cfg k d st0 st -> cexec s k d st = Some (k', d', st') -> pexec tstate ts_eqb cfg k' d' st0 st'.
Proof.
  induction s as [|[i intr] s IH]; intros k d st0 st k' d' st' H E; cbn [cexec] in E; [injection E as <- <- <-; exact H|].
  destruct (thread_step ts_eqb cfg orc_fwd intr i st) as [st1| |] eqn:Es; [|discriminate|eauto].
  eapply IH; [|exact E]. eapply pexec_step; [exact H|apply orc_fwd_ok|exact Es].
Qed.
Fixpoint bcexec {cfg : config tstate} (s : schedule) (d : nat) (st : bstate tstate cfg) : option (nat * bstate tstate cfg) :=
  match s with
  | [] => Some (d, st)
  | (i, intr) :: r =>
      match bthread_step ts_eqb cfg orc_fwd intr i st with
      | BNext st' => bcexec r ((if bcompiles tstate cfg st i then 1 else 0) + d) st'
      | BPanic => None
      | BDisabled => bcexec r d st
      end
  end.
Lemma bcexec_ok {cfg : config tstate} : forall s d (st0 st : bstate tstate cfg) d' st', qexec tstate ts_eqb cfg d st0 st -> bcexec s d st = Some (d', st') -> qexec tstate ts_eqb cfg d' st0 st'.
Proof.
  induction s as [|[i intr] s IH]; intros d st0 st d' st' H E; cbn [bcexec] in E; [injection E as <- <-; exact H|].
  destruct (bthread_step ts_eqb cfg orc_fwd intr i st) as [st1| |] eqn:Es; [|discriminate|eauto].
  eapply IH; [|exact E]. eapply qexec_step; [exact H|apply orc_fwd_ok|exact Es].
Qed.

(** What can be seen: interrupted before, subproblems taken before, threads in charge before; steps, diagrams, interrupted and taken after, all done. *)
Definition told := (bool * nat * nat * (nat * nat * bool * nat * bool))%type.
Definition tell {cfg : config tstate} (st : state tstate cfg) (s : schedule) : option told :=
  match cexec s 0 0 st with
  | Some (k, d, st') => Some (c_interrupted (s_crit st), c_explored (s_crit st), length (filter (in_charge tstate) (s_threads st)),
      (k, d, c_interrupted (s_crit st'), c_explored (s_crit st'), forallb (fun t => is_done (t_pc t)) (s_threads st')))
  | None => None
  end.
Definition tell_from (cfg : config tstate) (n m : nat) (s0 s : schedule) : option told := match run_from cfg n m s0 with Next st => tell st s | _ => None end.
Definition bis_done (p : bpc tstate) : bool := match p with BDone => true | _ => false end.
Definition btell_from (cfg : config tstate) (n m : nat) (s0 s : schedule) : option (bool * nat * nat * (nat * bool * nat * bool)) :=
  match brun cfg n m s0 with
  | BNext st =>
      match bcexec s 0 st with
      | Some (d, st') => Some (c_interrupted (k_c (q_crit st)), c_explored (k_c (q_crit st)), length (filter (bin_charge tstate) (q_threads st)),
          (d, c_interrupted (k_c (q_crit st')), c_explored (k_c (q_crit st')), forallb (fun t => bis_done (u_pc t)) (q_threads st')))
      | None => None
      end
  | _ => None
  end.
(** Thread 0 has one subproblem and thread 1 another when thread 2 is told to stop. *)
Lemma told_three : tell_from cfgI 3 3 (sched_three ++ [(2, true)]%nat) (go 8 0 ++ go 8 1) = Some (true, 3, 2, (12, 4, true, 3, true))%nat.
Proof. vm_compute. reflexivity. Qed.
Lemma btold_three : btell_from cfgI 3 3 (go 23 0 ++ go 8 1 ++ go 4 0 ++ repeat (2, true)%nat 6) (go 100 0 ++ go 100 1) = Some (true, 3, 2, (3, true, 3, true))%nat.
Proof. vm_compute. reflexivity. Qed.
Lemma told_exec cfg n m s0 s b e c k d b' e' v : tell_from cfg n m s0 s = Some (b, e, c, (k, d, b', e', v)) -> exists st st', reachable tstate ts_eqb cfg n m st /\ pexec tstate ts_eqb cfg k d st st' /\
  c_interrupted (s_crit st) = b /\ c_explored (s_crit st) = e /\ length (filter (in_charge tstate) (s_threads st)) = c /\ c_explored (s_crit st') = e' /\ (v = true -> all_done cfg st').
Proof.
  unfold tell_from, tell. destruct (run_from cfg n m s0) as [st| |] eqn:Er; try discriminate. destruct (cexec s 0 0 st) as [[[k0 d0] st']|] eqn:Ec; [|discriminate]. intros H. injection H as <- <- <- <- <- <- <- <-.
  exists st, st'. split; [exact (run_reachable _ _ _ _ _ Er)|]. split; [exact (cexec_ok s 0 0 st st _ _ _ (pexec_refl _ _ _ _) Ec)|]. repeat split; auto.
  intros Hv t Ht. rewrite forallb_forall in Hv. specialize (Hv t Ht). destruct (t_pc t); try discriminate. reflexivity.
Qed.
Lemma btold_exec cfg n m s0 s b e c d b' e' v : btell_from cfg n m s0 s = Some (b, e, c, (d, b', e', v)) -> exists st st', breachable tstate ts_eqb cfg n m st /\ qexec tstate ts_eqb cfg d st st' /\
  c_interrupted (k_c (q_crit st)) = b /\ c_explored (k_c (q_crit st)) = e /\ length (filter (bin_charge tstate) (q_threads st)) = c /\ c_explored (k_c (q_crit st')) = e' /\ (v = true -> ball_done cfg st').
Proof.
  unfold btell_from. destruct (brun cfg n m s0) as [st| |] eqn:Er; try discriminate. destruct (bcexec s 0 st) as [[d0 st']|] eqn:Ec; [|discriminate]. intros H. injection H as <- <- <- <- <- <- <-.
  exists st, st'. split; [exact (brun_reachable _ _ _ _ _ Er)|]. split; [exact (bcexec_ok s 0 st st _ _ (qexec_refl _ _ _ _) Ec)|]. repeat split; auto.
  intros Hv t Ht. rewrite forallb_forall in Hv. specialize (Hv t Ht). destruct (u_pc t); try discriminate. reflexivity.
Qed.
Lemma obeyed : exists st st', reachable tstate ts_eqb cfgI 3 3 st /\ pexec tstate ts_eqb cfgI 12 4 st st' /\ c_interrupted (s_crit st) = true /\ c_explored (s_crit st) = 3%nat /\
  length (filter (in_charge tstate) (s_threads st)) = 2%nat /\ c_explored (s_crit st') = 3%nat /\ all_done cfgI st'.
Proof. destruct (told_exec _ _ _ _ _ _ _ _ _ _ _ _ _ told_three) as (st & st' & H1 & H2 & H3 & H4 & H5 & H6 & H7). exists st, st'. auto 8. Qed.
Lemma bobeyed : exists st st', breachable tstate ts_eqb cfgI 3 3 st /\ qexec tstate ts_eqb cfgI 3 st st' /\ c_interrupted (k_c (q_crit st)) = true /\ c_explored (k_c (q_crit st)) = 3%nat /\
  length (filter (bin_charge tstate) (q_threads st)) = 2%nat /\ c_explored (k_c (q_crit st')) = 3%nat /\ ball_done cfgI st'.
Proof. destruct (btold_exec _ _ _ _ _ _ _ _ _ _ _ _ btold_three) as (st & st' & H1 & H2 & H3 & H4 & H5 & H6 & H7). exists st, st'. auto 8. Qed.

(** [interrupt()] answers yes from the start. *)
Lemma exec_refused cfg n m s : forall st st', (forall i b, In (i, b) s -> b = true) -> refused tstate ts_eqb cfg n m st -> exec s st = Next st' -> refused tstate ts_eqb cfg n m st'.
Proof.
  induction s as [|[i b] s IH]; intros st st' Hs H E; cbn [exec] in E; [injection E as <-; exact H|]. assert (b = true) as -> by (apply (Hs i b); left; reflexivity).
  destruct (thread_step ts_eqb cfg orc_fwd true i st) as [st1| |] eqn:Es; [|discriminate|].
  - apply (IH st1); [intros j b' Hin; apply (Hs j b'); right; exact Hin| |exact E]. eapply refused_step; [exact H|apply orc_fwd_ok|exact Es].
  - apply (IH st); [intros j b' Hin; apply (Hs j b'); right; exact Hin|exact H|exact E].
Qed.
Lemma bexec_refused cfg n m s : forall st st', (forall i b, In (i, b) s -> b = true) -> brefused tstate ts_eqb cfg n m st -> bexec s st = BNext st' -> brefused tstate ts_eqb cfg n m st'.
Proof.
  induction s as [|[i b] s IH]; intros st st' Hs H E; cbn [bexec] in E; [injection E as <-; exact H|]. assert (b = true) as -> by (apply (Hs i b); left; reflexivity).
  destruct (bthread_step ts_eqb cfg orc_fwd true i st) as [st1| |] eqn:Es; [|discriminate|].
  - apply (IH st1); [intros j b' Hin; apply (Hs j b'); right; exact Hin| |exact E]. eapply brefused_step; [exact H|apply orc_fwd_ok|exact Es].
  - apply (IH st); [intros j b' Hin; apply (Hs j b'); right; exact Hin|exact H|exact E].
Qed.
Definition stop2 : schedule := [(0, true); (1, true); (0, true); (1, true); (0, true); (1, true)]%nat.
Lemma stop2_yes : forall i b, In (i, b) stop2 -> b = true.
Proof. intros i b. unfold stop2. cbn [In]. intros H. repeat destruct H as [H|H]; try (injection H; congruence). destruct H. Qed.
Lemma stop_view : look (run_from cfgI 2 2 stop2) = Some (mk_view true true IMIN IMIN None None).
Proof. vm_compute. reflexivity. Qed.
Lemma bstop_view : blook (brun cfgI 2 2 stop2) = Some (mk_view true true IMIN IMIN None None).
Proof. vm_compute. reflexivity. Qed.
Lemma refused_case : optimum tstate (t_problem tabI) t_nv 10 /\ exists st, refused tstate ts_eqb cfgI 2 2 st /\ all_done cfgI st /\ upper_bound_of cfgI st = IMIN.
Proof.
  split; [exact tabI_opt|]. pose proof stop_view as H. unfold run_from in H. destruct (initial cfgI 2 2) as [st0|] eqn:Ei; [|discriminate]. destruct (exec stop2 st0) as [st| |] eqn:Ee; try discriminate.
  exists st. split; [exact (exec_refused _ _ _ _ _ _ stop2_yes (refused_init _ _ _ _ _ _ Ei) Ee)|]. split; [exact (look_done _ _ _ H eq_refl)|]. injection H. auto.
Qed.
Lemma brefused_case : optimum tstate (t_problem tabI) t_nv 10 /\ exists st, brefused tstate ts_eqb cfgI 2 2 st /\ ball_done cfgI st /\ bupper_bound cfgI st = IMIN.
Proof.
  split; [exact tabI_opt|]. pose proof bstop_view as H. unfold brun in H. destruct (binitial cfgI 2 2) as [st0|] eqn:Ei; [|discriminate]. destruct (bexec stop2 st0) as [st| |] eqn:Ee; try discriminate.
  exists st. split; [exact (bexec_refused _ _ _ _ _ _ stop2_yes (brefused_init _ _ _ _ _ _ Ei) Ee)|]. injection H as H1 H2 H3 H4 H5 H6. split; [|exact H4].
  intros t Ht. rewrite forallb_forall in H1. specialize (H1 t Ht). destruct (u_pc t); try discriminate. reflexivity.
Qed.
