(** Two threads of the solver with thresholds lose the optimum although they process their subproblems one at a time and no
    threshold is ever lowered. Nothing here models code of /repo. *)
From Verif Require Import Spec Dd DdSpec MddAll FringeSpec FringeFacts ParSpec MddBarrier BarSpec BarProofs MddBarrierSpec RaceSpec Table TableFacts MddCases ParCases BarCases RaceCases.
Open Scope Z_scope.

(** * Executions that are calm, by computation *)
Definition strongerb (i j : info) : bool :=
  (b_theta i <? b_theta j) || ((b_theta i =? b_theta j) && (negb (b_explored i) || b_explored j)).
Fixpoint layersb (T T' : thresholds tstate) : bool :=
  match T, T' with
  | l :: r, l' :: r' => forallb (fun e => match tget ts_eqb l' (fst e) with Some j => strongerb (snd e) j | None => true end) l && layersb r r'
  | [], _ => true
  | _, [] => false
  end.
Definition compilingb (t : bthread tstate) : bool := match u_pc t with BRestrict _ _ | BRelax _ _ | BRelaxing _ _ _ => true | _ => false end.
Definition apartb (l : list (bthread tstate)) : bool := (length (filter compilingb l) <=? 1)%nat.
Fixpoint bcalm {cfg : config tstate} (s : schedule) (st : bstate tstate cfg) : boutcome tstate cfg :=
  match s with
  | [] => BNext st
  | (i, intr) :: r =>
      match bthread_step ts_eqb cfg orc_fwd intr i st with
      | BNext st' => if layersb (q_table st) (q_table st') && apartb (q_threads st') then bcalm r st' else BDisabled
      | BPanic => BPanic
      | BDisabled => bcalm r st
      end
  end.
Definition calm_run (cfg : config tstate) (n m : nat) (s : schedule) : boutcome tstate cfg :=
  match binitial cfg n m with Some st => bcalm s st | None => BPanic end.

Lemma strongerb_ok i j : strongerb i j = true -> stronger i j.
Proof.
  unfold strongerb, stronger. destruct i as [a x], j as [b y]; cbn [b_theta b_explored]. intros H. apply orb_prop in H as [H|H]; [left; lia|].
  apply andb_prop in H as (H1 & H2). right. split; [lia|]. intros ->. exact H2.
Qed.
Lemma tget_in (l : list (tstate * info)) s i : tget ts_eqb l s = Some i -> In (s, i) l.
Proof.
  induction l as [|[a x] l IH]; cbn [tget]; [discriminate|]. destruct (ts_eqb a s) eqn:E; [|intros H; right; auto].
  intros [= ->]. apply ts_eqb_spec in E. subst. left. reflexivity.
Qed.
Lemma layersb_ok : forall T T' k l l' s i j, layersb T T' = true -> nth_error T k = Some l -> nth_error T' k = Some l' -> tget ts_eqb l s = Some i -> tget ts_eqb l' s = Some j -> stronger i j.
Proof.
  induction T as [|a T IH]; intros [|a' T'] [|k] l l' s i j H Hl Hl' Hi Hj; cbn in Hl, Hl'; try discriminate.
  - injection Hl as ->. injection Hl' as ->. cbn [layersb] in H. apply andb_prop in H as (H & _). rewrite forallb_forall in H.
    specialize (H (s, i) (tget_in _ _ _ Hi)). cbn [fst snd] in H. rewrite Hj in H. apply strongerb_ok. exact H.
  - cbn [layersb] in H. apply andb_prop in H as (_ & H). eapply IH; eauto.
Qed.
Lemma steadyb_ok cfg (st st' : bstate tstate cfg) : layersb (q_table st) (q_table st') = true -> steady tstate ts_eqb cfg st st'.
Proof.
  intros H k s i j. unfold threshold_of. destruct (nth_error (q_table st) k) eqn:E; [|discriminate]. destruct (nth_error (q_table st') k) eqn:E'; [|discriminate].
  intros Hi Hj. exact (layersb_ok _ _ _ _ _ _ _ _ H E E' Hi Hj).
Qed.
Lemma filter_two {A} (f : A -> bool) : forall l i j x y, nth_error l i = Some x -> nth_error l j = Some y -> f x = true -> f y = true -> (length (filter f l) <= 1)%nat -> i = j.
Proof.
  assert (K : forall l i x, nth_error l i = Some x -> f x = true -> (1 <= length (filter f l))%nat).
  { intros l i x Hi Hx. apply nth_error_In in Hi. assert (Hf : In x (filter f l)) by (apply filter_In; auto). destruct (filter f l); [destruct Hf|cbn; lia]. }
  induction l as [|a l IH]; intros [|i] [|j] x y Hi Hj Hx Hy Hl; cbn in Hi, Hj; try discriminate; [reflexivity| | |].
  - injection Hi as ->. cbn [filter] in Hl. rewrite Hx in Hl. cbn [length] in Hl. specialize (K l j y Hj Hy). lia.
  - injection Hj as ->. cbn [filter] in Hl. rewrite Hy in Hl. cbn [length] in Hl. specialize (K l i x Hi Hx). lia.
  - f_equal. apply (IH i j x y Hi Hj Hx Hy). cbn [filter] in Hl. destruct (f a); cbn [length] in Hl; lia.
Qed.
Lemma compilingb_ok t : compiling tstate t -> compilingb t = true.
Proof. unfold compiling, compilingb. destruct (u_pc t); auto; intros []. Qed.
Lemma apartb_ok cfg (st : bstate tstate cfg) : apartb (q_threads st) = true -> apart tstate cfg st.
Proof.
  intros H i j t u Hi Hj Ht Hu. apply Nat.leb_le in H. exact (filter_two compilingb _ i j t u Hi Hj (compilingb_ok t Ht) (compilingb_ok u Hu) H).
Qed.
Lemma bcalm_ok cfg n m s : forall st st', calm tstate ts_eqb cfg n m st -> bcalm s st = BNext st' -> calm tstate ts_eqb cfg n m st'.
Proof.
  induction s as [|[i intr] r IH]; intros st st' Hc H; cbn [bcalm] in H; [injection H as <-; exact Hc|].
  destruct (bthread_step ts_eqb cfg orc_fwd intr i st) as [st1| |] eqn:E; [|discriminate|eauto].
  destruct (layersb (q_table st) (q_table st1) && apartb (q_threads st1)) eqn:Eb; [|discriminate]. apply andb_prop in Eb as (E1 & E2).
  apply (IH st1 st'); [|exact H]. apply (calm_step tstate ts_eqb cfg n m st st1); [exact Hc| |apply steadyb_ok; exact E1|apply apartb_ok; exact E2].
  exists orc_fwd, intr, i. split; [apply orc_fwd_ok|exact E].
Qed.
Lemma calm_run_ok cfg n m s st : calm_run cfg n m s = BNext st -> calm tstate ts_eqb cfg n m st.
Proof.
  unfold calm_run. destruct (binitial cfg n m) as [st0|] eqn:E; [|discriminate]. intros H. apply (bcalm_ok cfg n m s st0 st); [apply calm_init; exact E|exact H].
Qed.
Lemma calm_look cfg n m s v : blook (calm_run cfg n m s) = Some v -> exists st, calm tstate ts_eqb cfg n m st /\
  (v_done v = true -> ball_done cfg st) /\ c_interrupted (k_c (q_crit st)) = v_int v /\ bbest_value cfg st = v_val v.
Proof.
  destruct (calm_run cfg n m s) as [st| |] eqn:E; try discriminate. intros H. exists st. split; [eapply calm_run_ok; eauto|].
  split; [eapply blook_done; eauto|]. injection H as <-. cbn. auto.
Qed.

(** * The problem *)
(** States 1, 2, 3 of layer 1 are called g, u, r; state 4 of layer 2 (below g): q; state 2 of layer 3 (below q): a; state 1 of
    layer 4, below u and below state 5 of layer 3: s; state 1 of layer 5, below s and below a: n; the optimum 17 goes through n. *)
Definition tabP : table := mk_table 7 0 0
  [mk_row 0 0 0 2 30; mk_row 0 0 1 1 30; mk_row 0 0 2 3 10;
   mk_row 1 2 0 7 (-30); mk_row 1 1 0 4 (-10); mk_row 1 1 1 5 (-23); mk_row 1 3 0 8 (-50);
   mk_row 2 7 0 7 5; mk_row 2 4 0 2 (-15); mk_row 2 5 0 5 0; mk_row 2 5 1 6 (-2); mk_row 2 8 0 8 50;
   mk_row 3 7 0 1 0; mk_row 3 7 1 3 3; mk_row 3 2 0 5 0; mk_row 3 5 0 6 0; mk_row 3 5 1 1 (-2); mk_row 3 6 0 6 0; mk_row 3 8 0 8 0;
   mk_row 4 1 0 1 0; mk_row 4 3 0 3 0; mk_row 4 3 1 4 1; mk_row 4 5 0 1 0; mk_row 4 5 1 5 3; mk_row 4 6 0 6 0; mk_row 4 6 1 3 1; mk_row 4 7 0 7 20; mk_row 4 8 0 8 0;
   mk_row 5 1 0 1 0; mk_row 5 3 0 4 0; mk_row 5 4 0 4 0; mk_row 5 5 0 5 0; mk_row 5 5 1 6 1; mk_row 5 6 0 4 0; mk_row 5 7 0 7 0; mk_row 5 8 0 8 0;
   mk_row 6 1 0 1 12; mk_row 6 4 0 1 0; mk_row 6 5 0 1 0; mk_row 6 6 0 1 0; mk_row 6 7 0 1 (-9); mk_row 6 8 0 1 6;
   mk_row 0 9 0 9 100; mk_row 1 9 0 9 100; mk_row 2 9 0 9 100; mk_row 3 9 0 1 0; mk_row 3 9 1 7 0; mk_row 4 9 0 9 0; mk_row 5 9 0 9 0; mk_row 6 9 0 9 12]
  9 [(1%nat, 3, 6); (4%nat, 3, 5)] 500.
Definition cfgP := t_cfg tabP 2 LastExactLayer.
Lemma tabP_ok : table_ok tabP 1000 = true. Proof. vm_compute. reflexivity. Qed.
Lemma tabP_opt : optimum tstate (t_problem tabP) t_nv 17.
Proof. apply (table_optimum tabP 17). vm_compute. reflexivity. Qed.

(** Thread 0 processes the root and pops g. Thread 1 processes u: s is pushed with value 5. Thread 1 pops s: its threshold is 5.
    Thread 0 processes g: a is merged away, the merged state leads to s, and s is pruned: the bound of q (16) does not take the
    optimum into account. Thread 0 processes q: n is pushed, with the bound 16 of q, and its threshold becomes 5. Thread 0
    also processes state 5 of layer 5, which was pushed with n. *)
Definition calm0 : schedule := go 37 0 ++ go 39 1 ++ go 96 0.
(** Thread 1 processes s: n is pruned. Thread 0 pops r and finds a solution of value 16, after which n is not worth a try. *)
Lemma calm_end : blook (calm_run cfgP 2 2 (calm0 ++ go 5 1 ++ go 30 0 ++ go 5 1)) =
  Some (mk_view true false 16 16 (Some 16) (Some [mk_dec 0 2; mk_dec 6 0; mk_dec 5 0; mk_dec 4 0; mk_dec 3 0; mk_dec 2 0; mk_dec 1 0])).
Proof. vm_compute. reflexivity. Qed.

(** The subproblem s of thread 1, and the partial assignment that goes through s and n. *)
Definition subs := mk_sub (4%nat, 1) 5 [mk_dec 0 0; mk_dec 3 0; mk_dec 2 0; mk_dec 1 0] 17.
Definition subsn := mk_sub (5%nat, 1) 5 [mk_dec 0 0; mk_dec 1 0; mk_dec 2 0; mk_dec 3 0; mk_dec 4 0] 0.
Definition tableau {cfg} (pend : fr_t (cf_fr cfg) -> list (subproblem tstate)) (o : boutcome tstate cfg) :=
  match o with
  | BNext st => Some (map place_of (q_threads st), forallb (fun q => sp_ub q <? 17) (pend (c_fringe (k_c (q_crit st)))), blower_bound cfg st,
      threshold_of tstate ts_eqb cfg st 5 (5%nat, 1), c_interrupted (k_c (q_crit st)))
  | _ => None
  end.
Lemma calm_tableau : tableau (cfg := cfgP) (nd_list tstate) (calm_run cfgP 2 2 calm0) = Some ([AtNotify 5; AtStart subs], true, 9, Some (mk_info 5 false), false).
Proof. vm_compute. reflexivity. Qed.
Lemma subsn_genuine : genuine tstate (t_problem tabP) t_nv subsn.
Proof.
  exists [mk_dec 0 0; mk_dec 1 0; mk_dec 2 0; mk_dec 3 0; mk_dec 4 0], (30 + (-30 + (5 + (0 + (0 + 0))))). split; [apply Permutation_refl|]. split; [|reflexivity].
  apply (run_cons tstate (t_problem tabP) t_nv 0 (0%nat, 0) (mk_dec 0 0)); [cbn; lia|cbn; auto|].
  apply (run_cons tstate (t_problem tabP) t_nv 1 (1%nat, 2) (mk_dec 1 0)); [cbn; lia|cbn; auto|].
  apply (run_cons tstate (t_problem tabP) t_nv 2 (2%nat, 7) (mk_dec 2 0)); [cbn; lia|cbn; auto|].
  apply (run_cons tstate (t_problem tabP) t_nv 3 (3%nat, 7) (mk_dec 3 0)); [cbn; lia|cbn; auto|].
  apply (run_cons tstate (t_problem tabP) t_nv 4 (4%nat, 1) (mk_dec 4 0)); [cbn; lia|cbn; auto|]. apply run_nil.
Qed.
Lemma subsn_completes : completes tstate (t_problem tabP) t_nv subsn [mk_dec 5 0; mk_dec 6 0] 17.
Proof.
  exists (0 + (12 + 0)). split; [|reflexivity]. eexists.
  apply (run_cons tstate (t_problem tabP) t_nv 5 (5%nat, 1) (mk_dec 5 0)); [cbn; lia|cbn; auto|].
  apply (run_cons tstate (t_problem tabP) t_nv 6 (6%nat, 1) (mk_dec 6 0)); [cbn; lia|cbn; auto|]. apply run_nil.
Qed.
Lemma calm_scene : exists st t0 d, calm tstate ts_eqb cfgP 2 2 st /\ c_interrupted (k_c (q_crit st)) = false /\
  q_threads st = [t0; mk_bth (BStart subs) d] /\ threshold_of tstate ts_eqb cfgP st 5 (5%nat, 1) = Some (mk_info 5 false) /\
  ~ still_promised tstate cfgP t_nv (nd_list tstate (c_fringe (k_c (q_crit st))) ++ held tstate t0) (blower_bound cfgP st) 17.
Proof.
  assert (H0 := calm_tableau). destruct (calm_run cfgP 2 2 calm0) as [st| |] eqn:E; cbn [tableau] in H0; [|discriminate H0..].
  assert (H : exists a b c d e, (map place_of (q_threads st), forallb (fun q => sp_ub q <? 17) (nd_list tstate (c_fringe (k_c (q_crit st)))), blower_bound cfgP st,
      threshold_of tstate ts_eqb cfgP st 5 (5%nat, 1), c_interrupted (k_c (q_crit st))) = (a, b, c, d, e) /\ a = [AtNotify 5; AtStart subs] /\ b = true /\ c = 9 /\ d = Some (mk_info 5 false) /\ e = false).
  { eexists _, _, _, _, _. split; [apply (f_equal (fun o => match o with Some y => y | None => ([], true, 9, Some (mk_info 5 false), false) end) H0)|auto 6]. }
  clear H0. destruct H as (a & b & c & d & e & H & -> & -> & -> & -> & ->).
  apply pair_equal_spec in H as (H & H5). apply pair_equal_spec in H as (H & H4). apply pair_equal_spec in H as (H & H3). apply pair_equal_spec in H as (H1 & H2).
  apply calm_run_ok in E. destruct (q_threads st) as [|t0 [|t1 [|? ?]]] eqn:Et; try discriminate H1. cbn [map] in H1.
  assert (P0 : place_of t0 = AtNotify 5) by congruence. assert (P1 : place_of t1 = AtStart subs) by congruence. clear H1.
  destruct t1 as [p1 d]. assert (p1 = BStart subs) by (unfold place_of in P1; cbn [u_pc] in P1; destruct p1; try discriminate P1; injection P1 as ->; reflexivity). subst p1.
  exists st, t0, d. split; [exact E|]. split; [exact H5|]. split; [exact Et|]. split; [exact H4|].
  assert (h0 : held tstate t0 = []) by (unfold place_of in P0; unfold held; destruct (u_pc t0); try discriminate P0; reflexivity).
  rewrite h0, H3. intros [Hx|(q & ds & w & Hq & Hc & Hw & Hu)]; [lia|].
  apply in_app_or in Hq as [Hq|[]]. rewrite forallb_forall in H2. specialize (H2 q Hq). apply Z.ltb_lt in H2. lia.
Qed.
