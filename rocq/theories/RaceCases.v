(** Three threads of the solver with thresholds, or two, lose the optimum. Nothing here models code of /repo. *)
From Verif Require Import Spec Dd DdSpec MddAll FringeSpec FringeFacts ParSpec MddBarrier BarSpec BarProofs Table TableFacts MddCases ParCases BarCases.
Open Scope Z_scope.

(** States 1, 2, 3 of layer 1 are called g, h, u; states 1 and 2 of layer 2 (below g): q, q'; state 1 of layer 3, below q
    (value 5), h (value 3) and u (value 5): s; state 1 of layer 4, below s: n; the optimum 15 goes through n. *)
Definition tabR : table := mk_table 6 0 0
  [mk_row 0 0 0 1 0; mk_row 0 0 1 2 0; mk_row 0 0 2 3 0;
   mk_row 1 1 0 1 0; mk_row 1 1 1 2 1; mk_row 1 2 0 3 0; mk_row 1 3 0 4 0;
   mk_row 2 1 0 1 5; mk_row 2 1 1 2 0; mk_row 2 2 0 3 0; mk_row 2 2 1 4 (-2); mk_row 2 3 0 1 3; mk_row 2 3 1 6 0; mk_row 2 4 0 1 5; mk_row 2 4 1 5 (-2);
   mk_row 3 1 0 1 0; mk_row 3 1 1 2 1; mk_row 3 2 0 2 0; mk_row 3 3 0 2 0; mk_row 3 4 0 2 0; mk_row 3 5 0 3 0; mk_row 3 6 0 4 0;
   mk_row 4 1 0 1 0; mk_row 4 2 0 2 1; mk_row 4 2 1 3 1; mk_row 4 3 0 2 0; mk_row 4 4 0 4 0;
   mk_row 5 1 0 1 10; mk_row 5 2 0 1 0; mk_row 5 3 0 1 0; mk_row 5 4 0 1 14;
   mk_row 0 9 0 9 0; mk_row 1 9 0 9 0; mk_row 2 9 0 9 1; mk_row 3 9 0 9 (-1); mk_row 4 9 0 9 1; mk_row 5 9 0 9 14] 9 [] 100.
Definition cfgR := t_cfg tabR 2 LastExactLayer.
Lemma tabR_ok : table_ok tabR 1000 = true. Proof. vm_compute. reflexivity. Qed.
Lemma tabR_opt : optimum tstate (t_problem tabR) t_nv 15.
Proof. apply (table_optimum tabR 15). vm_compute. reflexivity. Qed.

(** Thread 0 processes the root. Thread 1 pops g. Thread 2 pops u. Thread 0 compiles h until it has read the (absent)
    threshold of s and is about to write 3. Thread 2 processes u, and pops s with value 5: its threshold becomes 5. Thread 1
    compiles g: s is pruned below q, so the bound of q (14) does not take the optimum into account. Thread 0 writes: the
    threshold of s is 3. Thread 1 pops q and expands s: the threshold of n becomes 5, and n is pushed with the bound 14 of q. *)
Definition race : schedule := go 30 0 ++ go 5 1 ++ go 4 2 ++ go 19 0 ++ go 35 2 ++ go 32 1 ++ go 1 0 ++ go 48 1.
(** Thread 2 then prunes n below s; thread 0 finds a solution of value 14, after which n is not worth a try. *)
Definition sol14 := [mk_dec 0 1; mk_dec 5 0; mk_dec 4 0; mk_dec 3 0; mk_dec 2 1; mk_dec 1 0].
Lemma race_run : blook (brun cfgR 3 3 (race ++ go 6 2 ++ go 60 0 ++ go 50 1 ++ go 50 2)) = Some (mk_view true false 14 14 (Some 14) (Some sol14)).
Proof. vm_compute. reflexivity. Qed.
(** The thresholds of s and n around the race. *)
Definition entry {cfg} (o : boutcome tstate cfg) (s : tstate) : option (option info) := option_map (fun T => tget ts_eqb (nth (fst s) T []) s) (table_at o).
Lemma race_entries :
  entry (brun cfgR 3 3 (go 30 0 ++ go 5 1 ++ go 4 2 ++ go 19 0)) (3%nat, 1) = Some None /\
  entry (brun cfgR 3 3 (go 30 0 ++ go 5 1 ++ go 4 2 ++ go 19 0 ++ go 35 2)) (3%nat, 1) = Some (Some (mk_info 5 true)) /\
  entry (brun cfgR 3 3 (go 30 0 ++ go 5 1 ++ go 4 2 ++ go 19 0 ++ go 35 2 ++ go 32 1 ++ go 1 0)) (3%nat, 1) = Some (Some (mk_info 3 false)) /\
  entry (brun cfgR 3 3 race) (4%nat, 1) = Some (Some (mk_info 5 false)).
Proof. vm_compute. auto. Qed.

(** What the threads hold, what is pending, the lower bound and the threshold of n. *)
Definition subh := mk_sub (1%nat, 2) 0 [mk_dec 0 1] 15.
Definition subw := mk_sub (3%nat, 1) 5 [mk_dec 0 2; mk_dec 2 0; mk_dec 1 0] 15.
Definition subn := mk_sub (4%nat, 1) 5 [mk_dec 0 2; mk_dec 1 0; mk_dec 2 0; mk_dec 3 0] 0.
Definition scene {cfg} (pend : fr_t (cf_fr cfg) -> list (subproblem tstate)) (o : boutcome tstate cfg) :=
  match o with
  | BNext st => Some (map place_of (q_threads st), forallb (fun q => sp_ub q <? 15) (pend (c_fringe (k_c (q_crit st)))), blower_bound cfg st,
      threshold_of tstate ts_eqb cfg st 4 (4%nat, 1), c_interrupted (k_c (q_crit st)))
  | _ => None
  end.
Lemma race_scene : scene (cfg := cfgR) (nd_list tstate) (brun cfgR 3 3 race) = Some ([AtRelaxing subh; AtIdle; AtStart subw], true, 7, Some (mk_info 5 false), false).
Proof. vm_compute. reflexivity. Qed.
Lemma subn_genuine : genuine tstate (t_problem tabR) t_nv subn.
Proof.
  exists [mk_dec 0 2; mk_dec 1 0; mk_dec 2 0; mk_dec 3 0], (0 + (0 + (5 + (0 + 0)))). split; [apply Permutation_refl|]. split; [|reflexivity].
  apply (run_cons tstate (t_problem tabR) t_nv 0 (0%nat, 0) (mk_dec 0 2)); [cbn; lia|cbn; auto|].
  apply (run_cons tstate (t_problem tabR) t_nv 1 (1%nat, 3) (mk_dec 1 0)); [cbn; lia|cbn; auto|].
  apply (run_cons tstate (t_problem tabR) t_nv 2 (2%nat, 4) (mk_dec 2 0)); [cbn; lia|cbn; auto|].
  apply (run_cons tstate (t_problem tabR) t_nv 3 (3%nat, 1) (mk_dec 3 0)); [cbn; lia|cbn; auto|]. apply run_nil.
Qed.
Lemma subn_completes : completes tstate (t_problem tabR) t_nv subn [mk_dec 4 0; mk_dec 5 0] 15.
Proof.
  exists (0 + (10 + 0)). split; [|reflexivity]. eexists.
  apply (run_cons tstate (t_problem tabR) t_nv 4 (4%nat, 1) (mk_dec 4 0)); [cbn; lia|cbn; auto|].
  apply (run_cons tstate (t_problem tabR) t_nv 5 (5%nat, 1) (mk_dec 5 0)); [cbn; lia|cbn; auto|]. apply run_nil.
Qed.
Lemma subh_completes ds x : completes tstate (t_problem tabR) t_nv subh ds x -> x <= 14.
Proof.
  intros (c & Hc & ->). destruct (tbest_ge tabR 5 (1%nat, 2) ds c eq_refl Hc) as (v & Hv & Hl).
  assert (E : tbest tabR 5 (1%nat, 2) = Some 14) by (vm_compute; reflexivity). rewrite E in Hv. injection Hv as <-. cbn [sp_value subh]. lia.
Qed.
Lemma scene_inv (o : boutcome tstate cfgR) t3 b lb th it : scene (cfg := cfgR) (nd_list tstate) o = Some (t3, b, lb, th, it) -> exists st, o = BNext st /\
  map place_of (q_threads st) = t3 /\ forallb (fun q => sp_ub q <? 15) (nd_list tstate (c_fringe (k_c (q_crit st)))) = b /\ blower_bound cfgR st = lb /\
  threshold_of tstate ts_eqb cfgR st 4 (4%nat, 1) = th /\ c_interrupted (k_c (q_crit st)) = it.
Proof.
  destruct o as [st| |]; cbn [scene]; [|discriminate..]. intros H. exists st. split; [reflexivity|].
  pose (f := fun x : option (list place * bool * Z * option info * bool) => match x with Some y => y | None => (t3, b, lb, th, it) end).
  apply (f_equal f) in H. unfold f in H. cbn iota in H. apply pair_equal_spec in H as (H & H5). apply pair_equal_spec in H as (H & H4).
  apply pair_equal_spec in H as (H & H3). apply pair_equal_spec in H as (H1 & H2). auto.
Qed.
Lemma race_scene_state : exists st t0 t1 d, breachable tstate ts_eqb cfgR 3 3 st /\ c_interrupted (k_c (q_crit st)) = false /\
  q_threads st = [t0; t1; mk_bth (BStart subw) d] /\
  threshold_of tstate ts_eqb cfgR st 4 (4%nat, 1) = Some (mk_info 5 false) /\
  ~ still_promised tstate cfgR t_nv (nd_list tstate (c_fringe (k_c (q_crit st))) ++ held tstate t0 ++ held tstate t1) (blower_bound cfgR st) 15.
Proof.
  destruct (scene_inv _ _ _ _ _ _ race_scene) as (st & E & H1 & H2 & H3 & H4 & H5). apply brun_reachable in E.
  destruct (q_threads st) as [|t0 [|t1 [|t2 [|? ?]]]] eqn:Et; try discriminate H1. cbn [map] in H1.
  assert (P0 : place_of t0 = AtRelaxing subh) by congruence. assert (P1 : place_of t1 = AtIdle) by congruence. assert (P2 : place_of t2 = AtStart subw) by congruence. clear H1.
  destruct t2 as [p2 d]. assert (p2 = BStart subw) by (unfold place_of in P2; cbn [u_pc] in P2; destruct p2; try discriminate P2; injection P2 as ->; reflexivity). subst p2.
  exists st, t0, t1, d. split; [exact E|]. split; [exact H5|]. split; [exact Et|]. split; [exact H4|].
  assert (h0 : held tstate t0 = [subh]) by (unfold place_of in P0; unfold held; destruct (u_pc t0); try discriminate P0; injection P0 as ->; reflexivity).
  assert (h1 : held tstate t1 = []) by (unfold place_of in P1; unfold held; destruct (u_pc t1); try discriminate P1; reflexivity).
  rewrite h0, h1, H3. intros [Hx|(q & ds & w & Hq & Hc & Hw & Hu)]; [lia|].
  apply in_app_or in Hq as [Hq|[<-|[]]].
  - rewrite forallb_forall in H2. specialize (H2 q Hq). apply Z.ltb_lt in H2. lia.
  - assert (Hs := subh_completes ds w Hc). lia.
Qed.

(** Two threads. States 3, 2, 1 of layer 1 are called h, u, g; state 7 of layer 2 (below g): q; state 1 of layer 3, below q
    (value 5), h (value 3) and u (value 5): s; state 1 of layer 4, below s: n; the optimum 15 goes through n. *)
Definition tabD : table := mk_table 6 0 0
  [mk_row 0 0 0 1 0; mk_row 0 0 1 2 0; mk_row 0 0 2 3 0;
   mk_row 1 1 0 7 0; mk_row 1 1 1 2 1; mk_row 1 3 0 3 0; mk_row 1 2 0 4 0;
   mk_row 2 7 0 1 5; mk_row 2 7 1 2 0; mk_row 2 2 0 3 0; mk_row 2 2 1 4 (-2); mk_row 2 3 0 1 3; mk_row 2 3 1 6 0; mk_row 2 4 0 1 5; mk_row 2 4 1 5 (-2);
   mk_row 3 1 0 1 0; mk_row 3 1 1 2 1; mk_row 3 2 0 2 0; mk_row 3 3 0 2 0; mk_row 3 4 0 2 0; mk_row 3 5 0 3 0; mk_row 3 6 0 4 0;
   mk_row 4 1 0 1 0; mk_row 4 2 0 2 1; mk_row 4 2 1 3 1; mk_row 4 3 0 2 0; mk_row 4 4 0 4 0;
   mk_row 5 1 0 1 10; mk_row 5 2 0 1 0; mk_row 5 3 0 1 0; mk_row 5 4 0 1 14;
   mk_row 0 9 0 9 0; mk_row 1 9 0 9 0; mk_row 2 9 0 9 2; mk_row 3 9 0 9 (-1); mk_row 4 9 0 9 1; mk_row 5 9 0 9 14] 9 [(3%nat, 6, 14)] 100.
Definition cfgD := t_cfg tabD 2 LastExactLayer.
Lemma tabD_ok : table_ok tabD 1000 = true. Proof. vm_compute. reflexivity. Qed.
Lemma tabD_opt : optimum tstate (t_problem tabD) t_nv 15.
Proof. apply (table_optimum tabD 15). vm_compute. reflexivity. Qed.

(** Thread 0 processes the root, and compiles h until it has read the (absent) threshold of s and is about to write 3.
    Thread 1 processes u: s is pushed with value 5, its threshold becomes 5. Thread 1 processes g: s is pruned below q, so the
    bound of q (14) does not take the optimum into account. Thread 1 pops s. Thread 0 writes: the threshold of s is 3. Thread 0
    processes what is below h except state 6 of layer 3, then pops q and expands s: the threshold of n becomes 5, and n is
    pushed with the bound 14 of q. *)
Definition race2 : schedule := go 50 0 ++ go 88 1 ++ go 87 0.
(** Thread 0 then finds a solution of value 14, after which n is not worth a try, and thread 1 prunes n below s. *)
Definition sol14d := [mk_dec 0 2; mk_dec 2 1; mk_dec 1 0; mk_dec 5 0; mk_dec 4 0; mk_dec 3 0].
Lemma race2_run : blook (brun cfgD 2 2 (race2 ++ go 17 0 ++ go 60 1 ++ go 10 0)) = Some (mk_view true false 14 14 (Some 14) (Some sol14d)).
Proof. vm_compute. reflexivity. Qed.
Lemma race2_entries :
  entry (brun cfgD 2 2 (go 50 0)) (3%nat, 1) = Some None /\
  entry (brun cfgD 2 2 (go 50 0 ++ go 88 1)) (3%nat, 1) = Some (Some (mk_info 5 true)) /\
  entry (brun cfgD 2 2 (go 50 0 ++ go 88 1 ++ go 1 0)) (3%nat, 1) = Some (Some (mk_info 3 false)) /\
  entry (brun cfgD 2 2 race2) (4%nat, 1) = Some (Some (mk_info 5 false)).
Proof. vm_compute. auto. Qed.
Definition subwd := mk_sub (3%nat, 1) 5 [mk_dec 0 1; mk_dec 2 0; mk_dec 1 0] 16.
Definition subnd := mk_sub (4%nat, 1) 5 [mk_dec 0 1; mk_dec 1 0; mk_dec 2 0; mk_dec 3 0] 0.
Lemma race2_scene : scene (cfg := cfgD) (nd_list tstate) (brun cfgD 2 2 race2) = Some ([AtIdle; AtStart subwd], true, 13, Some (mk_info 5 false), false).
Proof. vm_compute. reflexivity. Qed.
Lemma subnd_genuine : genuine tstate (t_problem tabD) t_nv subnd.
Proof.
  exists [mk_dec 0 1; mk_dec 1 0; mk_dec 2 0; mk_dec 3 0], (0 + (0 + (5 + (0 + 0)))). split; [apply Permutation_refl|]. split; [|reflexivity].
  apply (run_cons tstate (t_problem tabD) t_nv 0 (0%nat, 0) (mk_dec 0 1)); [cbn; lia|cbn; auto|].
  apply (run_cons tstate (t_problem tabD) t_nv 1 (1%nat, 2) (mk_dec 1 0)); [cbn; lia|cbn; auto|].
  apply (run_cons tstate (t_problem tabD) t_nv 2 (2%nat, 4) (mk_dec 2 0)); [cbn; lia|cbn; auto|].
  apply (run_cons tstate (t_problem tabD) t_nv 3 (3%nat, 1) (mk_dec 3 0)); [cbn; lia|cbn; auto|]. apply run_nil.
Qed.
Lemma subnd_completes : completes tstate (t_problem tabD) t_nv subnd [mk_dec 4 0; mk_dec 5 0] 15.
Proof.
  exists (0 + (10 + 0)). split; [|reflexivity]. eexists.
  apply (run_cons tstate (t_problem tabD) t_nv 4 (4%nat, 1) (mk_dec 4 0)); [cbn; lia|cbn; auto|].
  apply (run_cons tstate (t_problem tabD) t_nv 5 (5%nat, 1) (mk_dec 5 0)); [cbn; lia|cbn; auto|]. apply run_nil.
Qed.
Lemma scene2_inv (o : boutcome tstate cfgD) t3 b lb th it : scene (cfg := cfgD) (nd_list tstate) o = Some (t3, b, lb, th, it) -> exists st, o = BNext st /\
  map place_of (q_threads st) = t3 /\ forallb (fun q => sp_ub q <? 15) (nd_list tstate (c_fringe (k_c (q_crit st)))) = b /\ blower_bound cfgD st = lb /\
  threshold_of tstate ts_eqb cfgD st 4 (4%nat, 1) = th /\ c_interrupted (k_c (q_crit st)) = it.
Proof.
  destruct o as [st| |]; cbn [scene]; [|discriminate..]. intros H. exists st. split; [reflexivity|].
  pose (f := fun x : option (list place * bool * Z * option info * bool) => match x with Some y => y | None => (t3, b, lb, th, it) end).
  apply (f_equal f) in H. unfold f in H. cbn iota in H. apply pair_equal_spec in H as (H & H5). apply pair_equal_spec in H as (H & H4).
  apply pair_equal_spec in H as (H & H3). apply pair_equal_spec in H as (H1 & H2). auto.
Qed.
Lemma race2_scene_state : exists st t0 d, breachable tstate ts_eqb cfgD 2 2 st /\ c_interrupted (k_c (q_crit st)) = false /\
  q_threads st = [t0; mk_bth (BStart subwd) d] /\
  threshold_of tstate ts_eqb cfgD st 4 (4%nat, 1) = Some (mk_info 5 false) /\
  ~ still_promised tstate cfgD t_nv (nd_list tstate (c_fringe (k_c (q_crit st))) ++ held tstate t0) (blower_bound cfgD st) 15.
Proof.
  destruct (scene2_inv _ _ _ _ _ _ race2_scene) as (st & E & H1 & H2 & H3 & H4 & H5). apply brun_reachable in E.
  destruct (q_threads st) as [|t0 [|t1 [|? ?]]] eqn:Et; try discriminate H1. cbn [map] in H1.
  assert (P0 : place_of t0 = AtIdle) by congruence. assert (P1 : place_of t1 = AtStart subwd) by congruence. clear H1.
  destruct t1 as [p1 d]. assert (p1 = BStart subwd) by (unfold place_of in P1; cbn [u_pc] in P1; destruct p1; try discriminate P1; injection P1 as ->; reflexivity). subst p1.
  exists st, t0, d. split; [exact E|]. split; [exact H5|]. split; [exact Et|]. split; [exact H4|].
  assert (h0 : held tstate t0 = []) by (unfold place_of in P0; unfold held; destruct (u_pc t0); try discriminate P0; reflexivity).
  rewrite h0, H3. intros [Hx|(q & ds & w & Hq & Hc & Hw & Hu)]; [lia|].
  apply in_app_or in Hq as [Hq|[]]. rewrite forallb_forall in H2. specialize (H2 q Hq). apply Z.ltb_lt in H2. lia.
Qed.
