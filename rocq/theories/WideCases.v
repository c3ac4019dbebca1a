(** Statements of PropWide.v on diagrams with thresholds, and concrete cases. *)
From Verif Require Import Spec Dd DdSpec WideSpec WideCount ParSpec ParFacts ParProofs BarSpec BarProofs ParCases NoDupFacts ExecAny MddAll TsptwSpec BitsFacts TsptwFacts TsptwMerge TsptwTours TsptwCases TsptwWide.
From Verif Require Import Psp PspSpec PspProofs PspCases PspWide Srflp SrflpSpec SrflpLayouts SrflpProofs SrflpCases SrflpWide Table TableFacts MddCases.
Open Scope Z_scope.

(** The instance on which both solvers are wrong with a width of 5 per layer fits in 10. *)
Lemma tw_eqb_ok : forall a b, tw_eqb a b = true <-> a = b.
Proof. exact (wfd_eqb _ _ _ _ _ _ _ (tsptw_formed false lost 23 lost_ok)). Qed.
Lemma lost_fits : no_layer_exceeds tw_state (tw_problem false lost) tw_nv 10.
Proof. apply (layers_checked _ tw_eqb tw_eqb_ok). vm_compute. reflexivity. Qed.
Lemma lost_wide ct : wide_enough tw_state (tw_problem false lost) tw_nv (cf_width (tw_cfg false lost 2 ct)).
Proof. intros k s _. exact (wider false lost 2 lost_fits s). Qed.
Definition lost_call (factor : nat) (ty : comp_type) : input tw_state := call (tw_cfg false lost factor LastExactLayer) ty (ParSolver.root_node (tw_cfg false lost factor LastExactLayer)) IMIN.
Lemma lost_good factor ty : (1 <= factor)%nat -> good_call tw_state (tw_problem false lost) (tw_relax lost) tw_nv false orc_fwd (lost_call factor ty).
Proof.
  intros Hf. destruct (tw_cfg_solver false lost 23 factor LastExactLayer lost_ok Hf) as (inv & content & G).
  apply (good_call_of _ _ _ _ _ _ _ _ _ G orc_fwd ty); [apply orc_fwd_ok|apply root_genuine].
Qed.
Definition answer {S} (o : option (dd S)) : option (bool * option (option Z)) := option_map (fun d => (g_exact d, best_value d)) o.
Lemma lost_narrow : answer (compile tw_eqb false orc_fwd (lost_call 1 Relaxed) (dd_new LastExactLayer)) = Some (true, Some None).
Proof. vm_compute. reflexivity. Qed.
Lemma lost_diagram : answer (compile tw_eqb false orc_fwd (lost_call 2 Relaxed) (dd_new LastExactLayer)) = Some (true, Some (Some (-46))).
Proof. vm_compute. reflexivity. Qed.
Definition lost_sol := [mk_dec 4 0; mk_dec 3 2; mk_dec 2 3; mk_dec 1 4; mk_dec 0 1].
Lemma lost_solved_par ct : plook _ _ (prun tw_state tw_eqb (tw_cfg false lost 2 ct) 2 2 (go 60 0 ++ go 60 1)) = Some (mk_view true false (-46) (-46) (Some (-46)) (Some lost_sol)).
Proof. destruct ct; vm_compute; reflexivity. Qed.
Lemma lost_solved_bar ct : qlook _ _ (qrun tw_state tw_eqb (tw_cfg false lost 2 ct) 2 2 (go 100 0 ++ go 100 1)) = Some (mk_view true false (-46) (-46) (Some (-46)) (Some lost_sol)).
Proof. destruct ct; vm_compute; reflexivity. Qed.
Lemma lost_solved ct :
  (exists st, reachable tw_state tw_eqb (tw_cfg false lost 2 ct) 2 2 st /\ proved _ st /\ best_value_of _ st = Some (-46)) /\
  (exists st, breachable tw_state tw_eqb (tw_cfg false lost 2 ct) 2 2 st /\ bproved _ st /\ bbest_value _ st = Some (-46)).
Proof.
  split.
  - destruct (prun_look _ _ _ _ _ _ _ (lost_solved_par ct)) as (st & H1 & H2 & H3 & H4 & _). exists st. split; [exact H1|]. split; [exact (conj (H2 eq_refl) H3)|exact H4].
  - destruct (qrun_look _ _ _ _ _ _ _ (lost_solved_bar ct)) as (st & H1 & H2 & H3 & H4 & _). exists st. split; [exact H1|]. split; [exact (conj (H2 eq_refl) H3)|exact H4].
Qed.

(** The instance of the pigment sequencing problem without triangle inequality on which they are wrong with a width of 7. *)
Lemma cheap_fits : no_layer_exceeds psp_state (psp_pb (psp_load cheap) false) (psp_nv cheap) (7 * 3).
Proof. apply (layers_checked _ psp_eqb psp_eqb_spec). vm_compute. reflexivity. Qed.
Lemma cheap_solved_par ct : option_map (fun v => (v_done v, v_int v, v_val v)) (plook _ _ (prun psp_state psp_eqb (psp_cfg (psp_load cheap) 3 ct) 2 2 (go 60 0 ++ go 60 1))) = Some (true, false, Some (-4)).
Proof. destruct ct; vm_compute; reflexivity. Qed.
Lemma cheap_solved_bar ct : option_map (fun v => (v_done v, v_int v, v_val v)) (qlook _ _ (qrun psp_state psp_eqb (psp_cfg (psp_load cheap) 3 ct) 2 2 (go 200 0 ++ go 100 1))) = Some (true, false, Some (-4)).
Proof. destruct ct; vm_compute; reflexivity. Qed.
Lemma cheap_solved ct :
  (exists st, reachable psp_state psp_eqb (psp_cfg (psp_load cheap) 3 ct) 2 2 st /\ proved _ st /\ best_value_of _ st = Some (-4)) /\
  (exists st, breachable psp_state psp_eqb (psp_cfg (psp_load cheap) 3 ct) 2 2 st /\ bproved _ st /\ bbest_value _ st = Some (-4)).
Proof.
  split.
  - pose proof (cheap_solved_par ct) as H. destruct (plook _ _ _) as [v|] eqn:E; [|discriminate]. cbn [option_map] in H. injection H as e1 e2 e3.
    destruct (prun_look _ _ _ _ _ _ _ E) as (st & H1 & H2 & H3 & H4 & _). exists st. split; [exact H1|]. split; [split; [exact (H2 e1)|congruence]|congruence].
  - pose proof (cheap_solved_bar ct) as H. destruct (qlook _ _ _) as [v|] eqn:E; [|discriminate]. cbn [option_map] in H. injection H as e1 e2 e3.
    destruct (qrun_look _ _ _ _ _ _ _ E) as (st & H1 & H2 & H3 & H4 & _). exists st. split; [exact H1|]. split; [split; [exact (H2 e1)|congruence]|congruence].
Qed.

(** A layout problem with the frontier cutset. *)
Lemma row_fits : no_layer_exceeds sr_state (sr_problem false row) sr_nv (5 * 2).
Proof. apply (layers_checked _ sr_eqb sr_eqb_spec). vm_compute. reflexivity. Qed.
Lemma row_wide_par ct : option_map (fun v => (v_done v, v_int v, v_val v)) (plook _ _ (prun sr_state sr_eqb (sr_cfg false row 2 ct) 2 2 (go 60 0 ++ go 60 1))) = Some (true, false, Some (-28)).
Proof. destruct ct; vm_compute; reflexivity. Qed.
Lemma row_wide_bar ct : option_map (fun v => (v_done v, v_int v, v_val v)) (qlook _ _ (qrun sr_state sr_eqb (sr_cfg false row 2 ct) 2 2 (go 200 0 ++ go 100 1))) = Some (true, false, Some (-28)).
Proof. destruct ct; vm_compute; reflexivity. Qed.
Lemma row_wide_solved ct :
  (exists st, reachable sr_state sr_eqb (sr_cfg false row 2 ct) 2 2 st /\ proved _ st /\ best_value_of _ st = Some (-28)) /\
  (exists st, breachable sr_state sr_eqb (sr_cfg false row 2 ct) 2 2 st /\ bproved _ st /\ bbest_value _ st = Some (-28)).
Proof.
  split.
  - pose proof (row_wide_par ct) as H. destruct (plook _ _ _) as [v|] eqn:E; [|discriminate]. cbn [option_map] in H. injection H as e1 e2 e3.
    destruct (prun_look _ _ _ _ _ _ _ E) as (st & H1 & H2 & H3 & H4 & _). exists st. split; [exact H1|]. split; [split; [exact (H2 e1)|congruence]|congruence].
  - pose proof (row_wide_bar ct) as H. destruct (qlook _ _ _) as [v|] eqn:E; [|discriminate]. cbn [option_map] in H. injection H as e1 e2 e3.
    destruct (qrun_look _ _ _ _ _ _ _ E) as (st & H1 & H2 & H3 & H4 & _). exists st. split; [exact H1|]. split; [split; [exact (H2 e1)|congruence]|congruence].
Qed.

(** A table with three states per layer at most. *)
Lemma tabA_fits : no_layer_exceeds tstate (t_problem tabA) t_nv 3.
Proof. apply (layers_checked _ ts_eqb ts_eqb_spec). vm_compute. reflexivity. Qed.
Definition two_then_one (k : nat) : nat := match k with 2%nat => 1%nat | _ => 2%nat end.
Lemma tabA_few : forall k s, (k < 3)%nat -> reached tstate (t_problem tabA) t_nv k s -> (length (pb_domain (t_problem tabA) (t_nv k) s) <= two_then_one k)%nat.
Proof. apply (few_checked _ ts_eqb ts_eqb_spec (t_problem tabA)). vm_compute. reflexivity. Qed.
Lemma tabA_product : forall k, (k <= 3)%nat -> (product two_then_one k <= 4)%nat.
Proof. intros k Hk. destruct k as [|[|[|[|k]]]]; cbn; lia. Qed.
