(** Concrete executions of two calls on the same solver. *)
From Verif Require Import Spec DdSpec Table MddCases ParCases BarCases AgainSpec.
Open Scope Z_scope.

(** A call on [m] threads that follows the schedule [s], then one on [m2] threads that follows [s2]. *)
Definition two_calls (cfg : config tstate) (n m : nat) (s : schedule) (m2 : nat) (s2 : schedule) : outcome tstate cfg :=
  match run_from cfg n m s with
  | Next st => match again cfg m2 st with Some st' => exec s2 st' | None => Panic end
  | o => o
  end.
Definition btwo_calls (cfg : config tstate) (n m : nat) (s : schedule) (m2 : nat) (s2 : schedule) : boutcome tstate cfg :=
  match brun cfg n m s with
  | BNext st => match bagain cfg m2 st with Some st' => bexec s2 st' | None => BPanic end
  | o => o
  end.
Definition never (s : schedule) : bool := forallb (fun x => negb (snd x)) s.

Lemma reaches_later cfg n st a b : later tstate ts_eqb cfg n st a -> reaches tstate ts_eqb cfg a b -> later tstate ts_eqb cfg n st b.
Proof. intros H. induction 1 as [a|a b c _ IH Hs]; [exact H|]. eapply later_step; [exact (IH H)|exact Hs]. Qed.
Lemma breaches_later cfg n st a b : blater tstate ts_eqb cfg n st a -> breaches tstate ts_eqb cfg a b -> blater tstate ts_eqb cfg n st b.
Proof. intros H. induction 1 as [a|a b c _ IH Hs]; [exact H|]. eapply blater_step; [exact (IH H)|exact Hs]. Qed.
Lemma maximizes_left (cfg : config tstate) a b c : step_no_interrupt tstate ts_eqb cfg a b -> maximizes tstate ts_eqb cfg b c -> maximizes tstate ts_eqb cfg a c.
Proof. intros H. induction 1 as [|b' c _ IH Hs]; [eapply maximizes_step; [apply maximizes_refl|auto]|]. eapply maximizes_step; eauto. Qed.
Lemma bmaximizes_left (cfg : config tstate) a b c : bstep_no_interrupt tstate ts_eqb cfg a b -> bmaximizes tstate ts_eqb cfg b c -> bmaximizes tstate ts_eqb cfg a c.
Proof. intros H. induction 1 as [|b' c _ IH Hs]; [eapply bmaximizes_step; [apply bmaximizes_refl|auto]|]. eapply bmaximizes_step; eauto. Qed.
Lemma exec_maximizes cfg s : never s = true -> forall st st' : state tstate cfg, exec s st = Next st' -> maximizes tstate ts_eqb cfg st st'.
Proof.
  induction s as [|[i b] s IH]; intros Hn st st' H; cbn [exec] in H; [injection H as <-; apply maximizes_refl|]. cbn in Hn. destruct b; [discriminate|].
  destruct (thread_step ts_eqb cfg orc_fwd false i st) as [st1| |] eqn:E; try discriminate; [|exact (IH Hn _ _ H)].
  eapply maximizes_left; [|eapply IH; eauto]. exists orc_fwd, i. split; [apply orc_fwd_ok|exact E].
Qed.
Lemma bexec_maximizes cfg s : never s = true -> forall st st' : bstate tstate cfg, bexec s st = BNext st' -> bmaximizes tstate ts_eqb cfg st st'.
Proof.
  induction s as [|[i b] s IH]; intros Hn st st' H; cbn [bexec] in H; [injection H as <-; apply bmaximizes_refl|]. cbn in Hn. destruct b; [discriminate|].
  destruct (bthread_step ts_eqb cfg orc_fwd false i st) as [st1| |] eqn:E; try discriminate; [|exact (IH Hn _ _ H)].
  eapply bmaximizes_left; [|eapply IH; eauto]. exists orc_fwd, i. split; [apply orc_fwd_ok|exact E].
Qed.
Lemma two_look cfg n m s m2 s2 v v2 : look (run_from cfg n m s) = Some v -> v_done v = true -> (1 <= m2 <= n)%nat -> never s2 = true ->
  look (two_calls cfg n m s m2 s2) = Some v2 -> v_done v2 = true ->
  exists a b c, reachable tstate ts_eqb cfg n m a /\ all_done cfg a /\ c_interrupted (s_crit a) = v_int v /\ best_value_of cfg a = v_val v /\
    again cfg m2 a = Some b /\ maximizes tstate ts_eqb cfg b c /\ later tstate ts_eqb cfg n a c /\
    all_done cfg c /\ c_interrupted (s_crit c) = v_int v2 /\ best_value_of cfg c = v_val v2.
Proof.
  unfold two_calls. destruct (run_from cfg n m s) as [a| |] eqn:E; try discriminate. intros H Hd Hm Hn H2 Hd2. assert (Ha := look_done _ _ _ H Hd).
  destruct (again cfg m2 a) as [b|] eqn:Eb; [|discriminate]. destruct (exec s2 b) as [c| |] eqn:Ec; try discriminate. exists a, b, c.
  split; [eapply run_reachable; eauto|]. split; [exact Ha|]. injection H as <-. split; [reflexivity|]. split; [reflexivity|]. split; [exact Eb|]. split; [eapply exec_maximizes; eauto|].
  split; [eapply reaches_later; [eapply later_call; [apply later_refl| | |]; eauto|eapply exec_reaches; eauto]|]. split; [eapply look_done; eauto|]. injection H2 as <-. split; reflexivity.
Qed.
Lemma btwo_look cfg n m s m2 s2 v v2 : blook (brun cfg n m s) = Some v -> v_done v = true -> (1 <= m2 <= n)%nat -> never s2 = true ->
  blook (btwo_calls cfg n m s m2 s2) = Some v2 -> v_done v2 = true ->
  exists a b c, breachable tstate ts_eqb cfg n m a /\ ball_done cfg a /\ c_interrupted (k_c (q_crit a)) = v_int v /\ bbest_value cfg a = v_val v /\
    bagain cfg m2 a = Some b /\ bmaximizes tstate ts_eqb cfg b c /\ blater tstate ts_eqb cfg n a c /\
    ball_done cfg c /\ c_interrupted (k_c (q_crit c)) = v_int v2 /\ bbest_value cfg c = v_val v2.
Proof.
  unfold btwo_calls. destruct (brun cfg n m s) as [a| |] eqn:E; try discriminate. intros H Hd Hm Hn H2 Hd2. assert (Ha := blook_done _ _ _ H Hd).
  destruct (bagain cfg m2 a) as [b|] eqn:Eb; [|discriminate]. destruct (bexec s2 b) as [c| |] eqn:Ec; try discriminate. exists a, b, c.
  split; [eapply brun_reachable; eauto|]. split; [exact Ha|]. injection H as <-. split; [reflexivity|]. split; [reflexivity|]. split; [exact Eb|]. split; [eapply bexec_maximizes; eauto|].
  split; [eapply breaches_later; [eapply blater_call; [apply blater_refl| | |]; eauto|eapply bexec_reaches; eauto]|]. split; [eapply blook_done; eauto|]. injection H2 as <-. split; reflexivity.
Qed.

(** A call told to stop early, then [maximize]. *)
Lemma stopped_again : look (two_calls cfgI 1 1 (go 12 0 ++ [(0, true)]%nat) 1 (go 50 0)) = Some (mk_view true true 4 10 (Some 4) (Some sol4)).
Proof. vm_compute. reflexivity. Qed.
Lemma bstopped_again : blook (btwo_calls cfgI 1 1 (go 43 0 ++ [(0, true)]%nat) 1 (go 100 0)) = Some (mk_view true true 4 10 (Some 4) (Some sol4)).
Proof. vm_compute. reflexivity. Qed.
(** Two calls of [maximize], each by two threads, or by one and then two for the solver with thresholds. *)
Lemma solved_again : look (two_calls cfgI 2 2 (turns 20) 2 (turns 20)) = Some (mk_view true false 10 10 (Some 10) (Some sol10)).
Proof. vm_compute. reflexivity. Qed.
Lemma bsolved_again : blook (btwo_calls cfgI 2 1 (go 73 0) 2 (turns 100)) = Some (mk_view true false 10 10 (Some 10) (Some sol10)).
Proof. vm_compute. reflexivity. Qed.
