(** What the three programs print. Nothing here models code of /repo. *)
From Verif Require Import Base Names Text TextSpec Report ReportSpec ReportProofs Spec DdSpec WideSpec ParSpec ParProofs BarSpec BarProofs.
From Verif Require Import Psp PspSpec PspProofs PspWide PspFile PspFileSpec PspFileProofs Srflp SrflpSpec SrflpLayouts SrflpProofs SrflpWide SrflpFile SrflpFileSpec SrflpFileSolve.
From Verif Require Import Tsptw TsptwSpec TsptwFacts TsptwTours TsptwCases TsptwWide TsptwFile TsptwFileSpec TsptwFileProofs Program ProgramSpec.
From Coq Require Import Lia ZArith List String.
Import ListNotations.
Open Scope string_scope.
Open Scope Z_scope.

(** * In general *)
Section Any.
Variable S : Type.
Variable eqb : S -> S -> bool.
Variable cfg : config S.
Variable at_depth : nat -> S -> Prop.
Variable nv : nat -> nat.
Variable C : Z.
Notation P := (cf_pb cfg).
Hypothesis G : good_solver S eqb cfg at_depth nv C.
Variable value : Z -> Prop.
Hypothesis Hvalue : forall l v, reported_solution S P nv l v -> value v.

Lemma conclude_found name sv i b lb ub e1 e2 : (b = None \/ exists l v, b = Some v /\ reported_solution S P nv l v) ->
  exists r u, conclude false name sv i b lb ub e1 e2 = Some (r, u) /\ rp_name r = name /\ rp_solver r = show_solver sv /\ found r value.
Proof.
  intros Hb. unfold conclude, gap_checked. cbn [andb]. do 2 eexists. split; [reflexivity|]. cbn [rp_name rp_solver]. split; [reflexivity|]. split; [reflexivity|].
  unfold found. cbn [rp_best]. destruct Hb as [->|(l & v & -> & Hv)]; [left; reflexivity|]. right. exists v.
  split; [apply show_isize_integer; pose proof (reported_range S eqb cfg at_depth nv C G l v Hv); unfold in_isize; lia|apply (Hvalue l), Hv].
Qed.
Lemma ends_found name threads cpus sv out : solve_timeout_ends eqb cfg false name threads cpus sv out ->
  exists r u, out = Some (r, u) /\ rp_name r = name /\ rp_solver r = show_solver sv /\ found r value.
Proof.
  intros He. inversion He as [st Hr Hd|st Hr Hd|sv' Hn]; subst; [| |destruct (nobody_panics S eqb cfg at_depth nv C G _ _ Hn)].
  - apply conclude_found. destruct (par_solution S eqb cfg at_depth nv C _ _ st G (Nat.le_refl _) Hr) as [(_ & H1 & _)|(l & v & _ & H1 & _ & H3)]; [left; exact H1|right; exists l, v; auto].
  - apply conclude_found. destruct (bar_solution S eqb cfg at_depth nv C _ _ st G (Nat.le_refl _) Hr) as [(_ & H1 & _)|(l & v & _ & H1 & _ & H3)]; [left; exact H1|right; exists l, v; auto].
Qed.

Lemma found_line name cpus o out : solve_timeout_ends eqb cfg false name (op_threads o) cpus (op_solver o) out ->
  exists r u, out = Some (r, u) /\ signed r name o /\ found r value.
Proof. intros He. destruct (ends_found _ _ _ _ _ He) as (r & u & Hs & H2 & H3 & H4). exists r, u. unfold signed. auto. Qed.
Variable best : Z -> Prop.
Variable none : Prop.
Hypothesis Hbest : forall v, optimum S P nv v -> best v.
Hypothesis Hnone : infeasible S P nv -> none.
Lemma good_line name threads cpus sv out : good_end eqb cfg nv false name threads cpus sv out ->
  exists r u, out = Some (r, u) /\ rp_name r = name /\ rp_solver r = show_solver sv /\ right_line r value best none.
Proof.
  unfold good_end. destruct out as [[r u]|]; [|intros (H & _); discriminate H]. intros (H1 & H2 & H3). exists r, u. split; [reflexivity|]. split; [exact H1|]. split; [exact H2|].
  destruct H3 as [[(Ho & Hs)|(Hi & _ & Hs)]|(Ht & _ & Hf)].
  - right. left. exists u. auto.
  - right. right. auto.
  - left. split; [exact Ht|]. destruct Hf as [(Hf & _)|(v & l & Hv & _ & Hr)]; [left; exact Hf|]. right. exists v. split; [exact Hv|apply (Hvalue l), Hr].
Qed.

(** With options under which C58 holds, or with a width that no layer exceeds. *)
Lemma careful_line name cpus o out : well_behaved S eqb P (cf_rx cfg) at_depth nv C -> cf_ctype cfg = op_cutset o -> decided_once S cfg nv -> careful o cpus ->
  solve_timeout_ends eqb cfg false name (op_threads o) cpus (op_solver o) out ->
  exists r u, out = Some (r, u) /\ signed r name o /\ right_line r value best none.
Proof.
  intros WB Hc HD ((_ & Ht) & HL & H1) He. rewrite HL in Hc.
  destruct (good_line name (op_threads o) cpus (op_solver o) out) as (r & u & Hs & H2 & H3 & H4); [|exists r, u; unfold signed; auto].
  destruct (op_solver o).
  - apply (report_parallel S eqb cfg at_depth nv C G); auto.
  - rewrite (H1 eq_refl) in *. apply (report_barrier S eqb cfg at_depth nv C G); auto.
Qed.
Lemma wide_line name cpus o out : admissible_reached S P nv -> wide_enough S P nv (cf_width cfg) -> decided_once S cfg nv -> usable o cpus ->
  solve_timeout_ends eqb cfg false name (op_threads o) cpus (op_solver o) out ->
  exists r u, out = Some (r, u) /\ signed r name o /\ right_line r value best none.
Proof.
  intros HA HW HD (_ & Ht) He.
  destruct (good_line name (op_threads o) cpus (op_solver o) out) as (r & u & Hs & H2 & H3 & H4); [|exists r, u; unfold signed; auto].
  apply (report_wide S eqb cfg at_depth nv C G); assumption.
Qed.
End Any.

Lemma own_solution S (P : problem S) nv ds v : solution S P nv ds v -> reported_solution S P nv ds v.
Proof. intros H. exists ds. split; [apply Permutation_refl|exact H]. Qed.

(** * Pigment sequencing *)
Section PspProgram.
Variable sort : list (Z * nat * nat) -> list (Z * nat * nat).
Hypothesis Hsort : forall l, Permutation l (sort l).
Variables (lines : list string) (D : psp_data) (orders : Z) (opt : option Z) (M : Z).
Hypothesis Hsays : psp_says lines D orders opt.
Hypothesis Hok : psp_ok D M.

Lemma psp_inverts name cpus o out : psp_program sort lines name cpus o out -> exists J, loaded D J /\ psp_read false sort lines = Fine (J, orders, opt) /\
  solve_timeout_ends psp_eqb (psp_cfg J (op_factor o) (op_cutset o)) false name (op_threads o) cpus (op_solver o) out.
Proof.
  destruct (psp_file_read false sort lines D orders opt M Hsort Hsays Hok) as (J & E & HJ). intros H. exists J. split; [exact HJ|]. split; [exact E|].
  destruct H as [H|J' orders' opt' out H He]; [destruct (H _ E)|]. rewrite E in H. injection H as <- _ _. exact He.
Qed.
Lemma psp_starts name cpus o : (1 <= op_factor o)%nat -> exists out, psp_program sort lines name cpus o out.
Proof.
  intros Hf. destruct (psp_file_read false sort lines D orders opt M Hsort Hsays Hok) as (J & E & HJ).
  destruct (some_end _ _ _ _ _ _ false name (op_threads o) cpus (op_solver o) (psp_solver D M Hok J HJ (op_factor o) Hf (op_cutset o))) as (out & He).
  exists out. exact (psp_solves _ _ _ _ _ J orders opt out E He).
Qed.
Section Values.
Variable J : psp.
Hypothesis HJ : loaded D J.
Variable factor : nat.
Hypothesis Hfac : (1 <= factor)%nat.
Lemma psp_value l v : reported_solution psp_state (psp_pb J false) (psp_nv D) l v -> plan_worth D v.
Proof. intros H. destruct (reported_plan D M Hok J HJ l v H) as (p & H1 & _ & H2). exists p. auto. Qed.
Lemma psp_best v : optimum psp_state (psp_pb J false) (psp_nv D) v -> best_plan_worth D v.
Proof.
  intros Ho. pose proof Ho as ((ds & Hd) & _). destruct (optimum_plan D M Hok J HJ factor Hfac ds v Ho (own_solution _ _ _ _ _ Hd)) as (p & H1 & _ & H2). exists p. auto.
Qed.
Lemma psp_none : infeasible psp_state (psp_pb J false) (psp_nv D) -> no_plan D.
Proof. exact (infeasible_plan D M Hok J HJ). Qed.
End Values.
Lemma psp_found name cpus o out : (1 <= op_factor o)%nat -> psp_program sort lines name cpus o out ->
  exists r u, out = Some (r, u) /\ signed r name o /\ found r (plan_worth D).
Proof.
  intros Hf H. destruct (psp_inverts name cpus o out H) as (J & HJ & _ & He).
  exact (found_line _ _ _ _ _ _ (psp_solver D M Hok J HJ (op_factor o) Hf (op_cutset o)) (plan_worth D) (psp_value J HJ) name cpus o out He).
Qed.
Lemma psp_prints name cpus o out : change_triangle D -> careful o cpus -> psp_program sort lines name cpus o out ->
  exists r u, out = Some (r, u) /\ signed r name o /\ right_line r (plan_worth D) (best_plan_worth D) (no_plan D).
Proof.
  intros Ht Hc H. destruct (psp_inverts name cpus o out H) as (J & HJ & _ & He). pose proof Hc as ((Hf & _) & _).
  exact (careful_line _ _ _ _ _ _ (psp_solver D M Hok J HJ (op_factor o) Hf (op_cutset o)) _ (psp_value J HJ) _ _ (psp_best J HJ (op_factor o) Hf) (psp_none J HJ)
    name cpus o out (psp_behaved D M Hok J HJ Ht) eq_refl (psp_decided D M Hok J HJ (op_factor o) Hf (op_cutset o)) Hc He).
Qed.
Lemma psp_prints_wide name cpus o out : (forall J orders' opt', psp_read false sort lines = Fine (J, orders', opt') -> no_layer_exceeds psp_state (psp_pb J false) (psp_nv D) (pd_T D * op_factor o)) -> usable o cpus ->
  psp_program sort lines name cpus o out ->
  exists r u, out = Some (r, u) /\ signed r name o /\ right_line r (plan_worth D) (best_plan_worth D) (no_plan D).
Proof.
  intros Hw Hu H. destruct (psp_inverts name cpus o out H) as (J & HJ & E & He). pose proof Hu as (Hf & _). specialize (Hw J _ _ E). rewrite <- (T_eq D M Hok J HJ) in Hw.
  exact (wide_line _ _ _ _ _ _ (psp_solver D M Hok J HJ (op_factor o) Hf (op_cutset o)) _ (psp_value J HJ) _ _ (psp_best J HJ (op_factor o) Hf) (psp_none J HJ)
    name cpus o out (psp_reached D M Hok J HJ) (fun _ _ _ => Hw) (psp_decided D M Hok J HJ (op_factor o) Hf (op_cutset o)) Hu He).
Qed.
End PspProgram.

(** * Single row facility layout *)
Section SrflpProgram.
Variables (lines : list string) (n : nat) (lens : list Z) (a : matrix Z) (F L : Z).
Hypothesis Hsays : sr_says lines n lens a.
Hypothesis Hsmall : small_file n lens a F L.

Lemma srflp_reads : exists I, sr_read false lines = Some I /\ sr_means n lens a I /\ sr_ok I (2 * F) L.
Proof. destruct Hsmall as (H1 & H2 & H3 & H4 & H5 & _). exact (sr_file_ok false lines n lens a Hsays F L H1 H2 H3 H4 H5). Qed.
Lemma srflp_inverts name cpus o out : srflp_program lines name cpus o out -> exists I, sr_read false lines = Some I /\ sr_means n lens a I /\ sr_ok I (2 * F) L /\
  solve_timeout_ends sr_eqb (sr_cfg false I (op_factor o) (op_cutset o)) false name (op_threads o) cpus (op_solver o) out.
Proof.
  destruct srflp_reads as (I & E & HI & Hok). intros H. exists I. split; [exact E|]. split; [exact HI|]. split; [exact Hok|].
  destruct H as [H|I' out H He]; [congruence|]. rewrite E in H. injection H as <-. exact He.
Qed.
Lemma srflp_starts name cpus o : (1 <= op_factor o)%nat -> exists out, srflp_program lines name cpus o out.
Proof.
  intros Hf. destruct srflp_reads as (I & E & HI & Hok).
  destruct (some_end _ _ _ _ _ _ false name (op_threads o) cpus (op_solver o) (sr_solver I (2 * F) L Hok (op_factor o) Hf (op_cutset o))) as (out & He).
  exists out. exact (srflp_solves _ _ _ _ I out E He).
Qed.
Section Values.
Variable I : sr_inst.
Hypothesis Hok : sr_ok I (2 * F) L.
Variable factor : nat.
Hypothesis Hfac : (1 <= factor)%nat.
Lemma srflp_value l v : reported_solution sr_state (sr_problem false I) sr_nv l v -> layout_worth I v.
Proof. intros H. destruct (reported_layout I (2 * F) L Hok l v H) as (p & H1 & _ & H2). exists p. auto. Qed.
Lemma srflp_best v : optimum sr_state (sr_problem false I) sr_nv v -> best_layout_worth I v.
Proof.
  intros Ho. pose proof Ho as ((ds & Hd) & _). destruct (optimum_layout I (2 * F) L Hok factor Hfac ds v Ho (own_solution _ _ _ _ _ Hd)) as (p & H1 & _ & H2). exists p. auto.
Qed.
Lemma srflp_none : infeasible sr_state (sr_problem false I) sr_nv -> False.
Proof. exact (not_infeasible I (2 * F) L Hok factor Hfac). Qed.
End Values.
Lemma srflp_found name cpus o out : (1 <= op_factor o)%nat -> srflp_program lines name cpus o out ->
  exists I r u, sr_means n lens a I /\ out = Some (r, u) /\ signed r name o /\ found r (layout_worth I).
Proof.
  intros Hf H. destruct (srflp_inverts name cpus o out H) as (I & _ & HI & Hok & He). exists I.
  destruct (found_line _ _ _ _ _ _ (sr_solver I (2 * F) L Hok (op_factor o) Hf (op_cutset o)) (layout_worth I) (srflp_value I Hok) name cpus o out He) as (r & u & H1). exists r, u. auto.
Qed.
Lemma small_float I : sr_means n lens a I -> Z.of_nat (sr_n I) * (2 * F) * L < 2 ^ 23.
Proof. intros (-> & _). apply Hsmall. Qed.
Lemma srflp_prints name cpus o out : careful o cpus -> srflp_program lines name cpus o out ->
  exists I r u, sr_means n lens a I /\ out = Some (r, u) /\ signed r name o /\ right_line r (layout_worth I) (best_layout_worth I) False.
Proof.
  intros Hc H. destruct (srflp_inverts name cpus o out H) as (I & _ & HI & Hok & He). exists I. pose proof Hc as ((Hf & _) & _).
  destruct (careful_line _ _ _ _ _ _ (sr_solver I (2 * F) L Hok (op_factor o) Hf (op_cutset o)) _ (srflp_value I Hok) _ _ (srflp_best I Hok (op_factor o) Hf) (srflp_none I Hok (op_factor o) Hf)
    name cpus o out (sr_behaved I (2 * F) L Hok (small_float I HI)) eq_refl (sr_decided I (2 * F) L (op_factor o) Hf (op_cutset o)) Hc He) as (r & u & H1). exists r, u. auto.
Qed.
Lemma srflp_prints_wide name cpus o out : (forall I, sr_read false lines = Some I -> no_layer_exceeds sr_state (sr_problem false I) sr_nv (n * op_factor o)) -> usable o cpus ->
  srflp_program lines name cpus o out ->
  exists I r u, sr_means n lens a I /\ out = Some (r, u) /\ signed r name o /\ right_line r (layout_worth I) (best_layout_worth I) False.
Proof.
  intros Hw Hu H. destruct (srflp_inverts name cpus o out H) as (I & E & HI & Hok & He). exists I. pose proof Hu as (Hf & _). specialize (Hw I E). pose proof HI as (En & _). rewrite <- En in Hw.
  destruct (wide_line _ _ _ _ _ _ (sr_solver I (2 * F) L Hok (op_factor o) Hf (op_cutset o)) _ (srflp_value I Hok) _ _ (srflp_best I Hok (op_factor o) Hf) (srflp_none I Hok (op_factor o) Hf)
    name cpus o out (sr_reached I (2 * F) L Hok (small_float I HI)) (fun _ _ _ => Hw) (sr_decided I (2 * F) L (op_factor o) Hf (op_cutset o)) Hu He) as (r & u & H1). exists r, u. auto.
Qed.
End SrflpProgram.

(** * Travelling salesman with time windows *)
Section TsptwProgram.
Variables (lines : list string) (I : tw_inst) (M : Z).
Hypothesis Hfile : file_denotes lines I.
Hypothesis Hplain : plain_times I.
Hypothesis Hok : tw_inst_ok I M.

Lemma tsptw_reads : tw_read false lines = Some I.
Proof. destruct Hplain as (H1 & H2). exact (file_exact false lines I Hfile H1 H2). Qed.
Lemma tsptw_inverts name cpus o out : tsptw_program lines name cpus o out ->
  solve_timeout_ends tw_eqb (tw_cfg false I (op_factor o) (op_cutset o)) false name (op_threads o) cpus (op_solver o) out.
Proof. intros H. destruct H as [H|I' out H He]; rewrite tsptw_reads in H; [discriminate|]. injection H as <-. exact He. Qed.
Lemma tsptw_starts name cpus o : (1 <= op_factor o)%nat -> exists out, tsptw_program lines name cpus o out.
Proof.
  intros Hf. destruct (some_end _ _ _ _ _ _ false name (op_threads o) cpus (op_solver o) (tw_cfg_solver false I M (op_factor o) (op_cutset o) Hok Hf)) as (out & He).
  exists out. exact (tsptw_solves _ _ _ _ I out tsptw_reads He).
Qed.
Lemma tsptw_value l v : reported_solution tw_state (tw_problem false I) tw_nv l v -> tour_worth I v.
Proof. intros H. destruct (reported_tour false I M l v Hok H) as (t & T & H1 & _ & H2). exists t, T. auto. Qed.
Lemma tsptw_best v : triangle I -> optimum tw_state (tw_problem false I) tw_nv v -> best_tour_worth I v.
Proof.
  intros Ht ((ds & Hd) & Hb). split; [exact (tsptw_value ds v (own_solution _ _ _ _ _ Hd))|].
  intros w (t & T & H1 & ->). exact (Hb _ _ (tours_are_solutions false I M Hok t T Ht H1)).
Qed.
Lemma tsptw_none : triangle I -> infeasible tw_state (tw_problem false I) tw_nv -> no_tour I.
Proof. intros Ht Hi t T H. exact (Hi _ _ (tours_are_solutions false I M Hok t T Ht H)). Qed.
Lemma tsptw_found name cpus o out : (1 <= op_factor o)%nat -> tsptw_program lines name cpus o out ->
  exists r u, out = Some (r, u) /\ signed r name o /\ found r (tour_worth I).
Proof.
  intros Hf H. exact (found_line _ _ _ _ _ _ (tw_cfg_solver false I M (op_factor o) (op_cutset o) Hok Hf) (tour_worth I) tsptw_value name cpus o out (tsptw_inverts _ _ _ _ H)).
Qed.
Lemma tsptw_prints name cpus o out : triangle I -> no_layer_exceeds tw_state (tw_problem false I) tw_nv (tw_n I * op_factor o) -> usable o cpus ->
  tsptw_program lines name cpus o out ->
  exists r u, out = Some (r, u) /\ signed r name o /\ right_line r (tour_worth I) (best_tour_worth I) (no_tour I).
Proof.
  intros Ht Hw Hu H. pose proof Hu as (Hf & _).
  exact (wide_line _ _ _ _ _ _ (tw_cfg_solver false I M (op_factor o) (op_cutset o) Hok Hf) _ tsptw_value _ _ (fun v => tsptw_best v Ht) (tsptw_none Ht) name cpus o out
    (tw_reached_admissible false I M Hok) (fun _ s _ => wider false I (op_factor o) Hw s) (tw_decided false I (op_factor o) (op_cutset o)) Hu (tsptw_inverts _ _ _ _ H)).
Qed.
End TsptwProgram.
