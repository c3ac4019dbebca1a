(** Concrete executions of the three programs. Nothing here models code of /repo. *)
From Verif Require Import Spec Dd DdSpec WideSpec WideCount MddAll ParSpec BarSpec MddCases ParCases ExecAny Names F32 F32Spec Text TextSpec TextCheck Report ReportSpec ReportProofs.
From Verif Require Import Psp PspSpec PspProofs PspCases PspFile PspFileSpec PspFileCases Srflp SrflpSpec SrflpLayouts SrflpProofs SrflpCases SrflpFile SrflpFileSpec.
From Verif Require Import Tsptw TsptwSpec TsptwCases WideCases TsptwFile TsptwFileSpec TsptwFileCases Program ProgramSpec ProgramProofs.
From Verif Require SrflpFileCases.
From Coq Require Import Lia ZArith List String.
Import ListNotations.
Open Scope string_scope.
Open Scope Z_scope.

(** * What is printed at the end of a run *)
Section Any.
Variable S : Type.
Variable eqb : S -> S -> bool.
Variable cfg : config S.
Definition prun_report (name : string) (n : nat) (s : schedule) : option (option (report * Z)) :=
  match prun S eqb cfg n n s with
  | Next st => if forallb (fun t => pdone S (t_pc t)) (s_threads st) then Some (parallel_conclusion cfg false name st) else None
  | _ => None
  end.
Definition qrun_report (name : string) (n : nat) (s : schedule) : option (option (report * Z)) :=
  match qrun S eqb cfg n n s with
  | BNext st => if forallb (fun t => qdone S (u_pc t)) (q_threads st) then Some (barrier_conclusion cfg false name st) else None
  | _ => None
  end.
Lemma prun_report_ends name threads cpus s out : prun_report name (thread_count threads cpus) s = Some out ->
  solve_timeout_ends eqb cfg false name threads cpus ParallelS out.
Proof.
  unfold prun_report, prun. destruct (initial cfg _ _) as [st0|] eqn:E0; [|discriminate]. destruct (pexec S eqb cfg s st0) as [st| |] eqn:E; try discriminate.
  destruct (forallb _ _) eqn:Ed; [|discriminate]. intros H. injection H as <-. apply ends_parallel.
  - exists st0. split; [exact E0|eapply pexec_reaches; eauto].
  - intros t Ht. rewrite forallb_forall in Ed. specialize (Ed t Ht). destruct (t_pc t); cbn in Ed; try discriminate. reflexivity.
Qed.
Lemma qrun_report_ends name threads cpus s out : qrun_report name (thread_count threads cpus) s = Some out ->
  solve_timeout_ends eqb cfg false name threads cpus BarrierS out.
Proof.
  unfold qrun_report, qrun. destruct (binitial cfg _ _) as [st0|] eqn:E0; [|discriminate]. destruct (qexec S eqb cfg s st0) as [st| |] eqn:E; try discriminate.
  destruct (forallb _ _) eqn:Ed; [|discriminate]. intros H. injection H as <-. apply ends_barrier.
  - exists st0. split; [exact E0|eapply qexec_reaches; eauto].
  - intros t Ht. rewrite forallb_forall in Ed. specialize (Ed t Ht). destruct (u_pc t); cbn in Ed; try discriminate. reflexivity.
Qed.
(** Both solvers. *)
Definition any_report (name : string) (sv : solver_type) (n : nat) (s : schedule) : option (option (report * Z)) :=
  match sv with ParallelS => prun_report name n s | BarrierS => qrun_report name n s end.
Lemma any_report_ends name threads cpus sv s out : any_report name sv (thread_count threads cpus) s = Some out -> solve_timeout_ends eqb cfg false name threads cpus sv out.
Proof. destruct sv; [apply prun_report_ends|apply qrun_report_ends]. Qed.
End Any.

(** Lines that say that [v] is the optimum, or that there is no solution. *)
Definition optimum_line (name : string) (sv : solver_type) (v nodes dd : string) : report := mk_report name (show_solver sv) "Proved" v v v (S754_zero false) nodes dd.
Definition nothing_line (name : string) (sv : solver_type) (nodes dd : string) : report :=
  mk_report name (show_solver sv) "Proved" "not found" "-9223372036854775808" "-9223372036854775808" (S754_zero true) nodes dd.

(** * Pigment sequencing *)
Lemma pfile_fine : psp_read false edge_sort pfile = Fine (psp_load small, 3, Some 5). Proof. vm_compute. reflexivity. Qed.
Definition run_small sv := any_report _ psp_eqb (psp_cfg (psp_load small) 1 LastExactLayer) "small" sv 1 (go 600 0).
Lemma small_printed sv : run_small sv = Some (Some (optimum_line "small" sv "-5" "2" "37", -5)).
Proof. destruct sv; vm_compute; reflexivity. Qed.
Definition options1 (sv : solver_type) (ct : cutset_type) : options := mk_options None (Some 1%nat) sv ct.
Lemma options1_careful sv cpus : careful (options1 sv LastExactLayer) cpus.
Proof. split; [split; apply Nat.le_refl|]. split; [reflexivity|reflexivity]. Qed.
Lemma options1_usable sv ct cpus : usable (options1 sv ct) cpus.
Proof. split; apply Nat.le_refl. Qed.
Lemma psp_case sv : psp_program edge_sort pfile "small" 8 (options1 sv LastExactLayer) (Some (optimum_line "small" sv "-5" "2" "37", -5)).
Proof. eapply psp_solves; [exact pfile_fine|]. exact (any_report_ends _ _ _ _ (Some 1%nat) 8 sv _ _ (small_printed sv)). Qed.
(** The file of an instance without the triangle inequality. *)
Definition cfile : list string := ["7"; "4"; "6"; ""; "0 0 50 0"; "50 0 0 50"; "0 0 0 0"; "0 0 0 0"; ""; "1 0 0 1"; ""; "0 0 1 0 0 0 1"; "1 0 0 0 0 1 0"; "0 0 0 0 0 1 0"; "0 0 0 0 0 1 0"].
Lemma cfile_says : psp_says cfile cheap 6 None.
Proof.
  apply (check_says_ok "7" "4" "6" "" ["0 0 50 0"; "50 0 0 50"; "0 0 0 0"; "0 0 0 0"] "" "1 0 0 1" "" ["0 0 1 0 0 0 1"; "1 0 0 0 0 1 0"; "0 0 0 0 0 1 0"; "0 0 0 0 0 1 0"] []); [vm_compute; reflexivity|constructor].
Qed.
Lemma cfile_fine : psp_read false edge_sort cfile = Fine (psp_load cheap, 6, None). Proof. vm_compute. reflexivity. Qed.
Definition run_cheap sv ct := any_report _ psp_eqb (psp_cfg (psp_load cheap) 1 ct) "cheap" sv 1 (go 600 0).
Lemma cheap_printed sv ct : run_cheap sv ct = Some (Some (optimum_line "cheap" sv "-50" "1" "66", -50)).
Proof. destruct sv, ct; vm_compute; reflexivity. Qed.
Lemma cheap_case sv ct : psp_program edge_sort cfile "cheap" 8 (options1 sv ct) (Some (optimum_line "cheap" sv "-50" "1" "66", -50)).
Proof. eapply psp_solves; [exact cfile_fine|]. exact (any_report_ends _ _ _ _ (Some 1%nat) 8 sv _ _ (cheap_printed sv ct)). Qed.
Lemma psp_refutes : exists sort lines D M opt orders, (forall l, Permutation l (sort l)) /\ psp_says lines D orders opt /\ psp_ok D M /\ (exists p, feasible_plan D p /\ plan_cost D p = 4) /\
  forall sv ct, exists name cpus o r u, op_solver o = sv /\ op_cutset o = ct /\ usable o cpus /\ psp_program sort lines name cpus o (Some (r, u)) /\ rp_status r = "Proved" /\ rp_best r = "-50".
Proof.
  exists edge_sort, cfile, cheap, 50, None, 6. split; [exact edge_sort_perm|]. split; [exact cfile_says|]. split; [exact cheap_ok|]. split; [exact (ex_intro _ cheap_plan (conj cheap_feasible cheap_cost))|].
  intros sv ct. exists "cheap", 8%nat, (options1 sv ct), (optimum_line "cheap" sv "-50" "1" "66"), (-50). split; [reflexivity|]. split; [reflexivity|]. split; [apply options1_usable|].
  split; [apply cheap_case|]. split; reflexivity.
Qed.

(** * Single row facility layout *)
Definition run_sfile sv := any_report _ sr_eqb (sr_cfg false SrflpFileCases.sinst 1 LastExactLayer) "s3" sv 1 (go 600 0).
Lemma sfile_printed sv : run_sfile sv = Some (Some (optimum_line "s3" sv "-8" "1" "7", -8)).
Proof. destruct sv; vm_compute; reflexivity. Qed.
Lemma sfile_fine : sr_read false SrflpFileCases.sfile = Some SrflpFileCases.sinst. Proof. vm_compute. reflexivity. Qed.
Lemma srflp_case sv : srflp_program SrflpFileCases.sfile "s3" 8 (options1 sv LastExactLayer) (Some (optimum_line "s3" sv "-8" "1" "7", -8)).
Proof. eapply srflp_solves; [exact sfile_fine|]. exact (any_report_ends _ _ _ _ (Some 1%nat) 8 sv _ _ (sfile_printed sv)). Qed.
Lemma sfile_small_file : small_file 3 [4; 2; 6] SrflpFileCases.sraw 5 6.
Proof.
  destruct SrflpFileCases.sfile_case as (_ & _ & _ & _ & H1 & H2 & H3 & H4). split; [lia|]. split; [lia|]. auto.
Qed.
(** No thread at all. *)
Definition run_idle sv := any_report _ sr_eqb (sr_cfg false SrflpFileCases.sinst 1 LastExactLayer) "s3" sv 0 [].
Definition idle_line (sv : solver_type) : report :=
  mk_report "s3" (show_solver sv) "Proved" "not found" "-9223372036854775808" "9223372036854775807" (S754_finite true 8388608 (-86)) "0" "0".
Lemma idle_printed sv : run_idle sv = Some (Some (idle_line sv, 2 ^ 63 - 1)).
Proof. destruct sv; vm_compute; reflexivity. Qed.
Lemma idle_refutes : exists lines n lens a F L, sr_says lines n lens a /\ small_file n lens a F L /\
  forall sv, exists name cpus o r u, op_solver o = sv /\ op_cutset o = LastExactLayer /\ op_threads o = Some 0%nat /\ srflp_program lines name cpus o (Some (r, u)) /\ rp_status r = "Proved" /\ rp_best r = "not found".
Proof.
  exists SrflpFileCases.sfile, 3%nat, [4; 2; 6], SrflpFileCases.sraw, 5, 6. split; [exact SrflpFileCases.sfile_says|]. split; [exact sfile_small_file|]. intros sv.
  exists "s3", 8%nat, (mk_options None (Some 0%nat) sv LastExactLayer), (idle_line sv), (2 ^ 63 - 1). split; [reflexivity|]. split; [reflexivity|]. split; [reflexivity|]. split; [|split; reflexivity].
  eapply srflp_solves; [exact sfile_fine|]. exact (any_report_ends _ _ _ _ (Some 0%nat) 8 sv _ _ (idle_printed sv)).
Qed.

(** * Travelling salesman with time windows *)
(** A file with integers only. *)
Definition check_time (t : string) (x : Z) : bool := check_digits t (x / 10000) (String.length t) && (x =? 10000 * (x / 10000)).
Lemma check_time_ok t x : check_time t x = true -> denotes t x.
Proof. intros H. apply andb_prop in H as [H1 H2]. apply Z.eqb_eq in H2. exact (denotes_int _ _ _ _ H1 H2). Qed.
Definition check_file (words : list (list string)) (I : tw_inst) : bool :=
  let n := tw_n I in
  match words with
  | (h :: ex) :: R =>
    check_lines words && check_digits h (Z.of_nat n) (String.length h) && Nat.eqb (List.length R) (2 * n) &&
    forallb (fun i => Nat.eqb (List.length (nth i R [])) n) (seq 0 n) &&
    forallb (fun i => forallb (fun j => check_time (nth j (nth i R []) "") (dist I i j)) (seq 0 n)) (seq 0 n) &&
    forallb (fun i => match nth (n + i) R [] with [a; b] => check_time a (opens I i) && check_time b (closes I i) | _ => false end) (seq 0 n) &&
    Nat.eqb (mx_n (tw_dist I)) n && Nat.eqb (mx_m (tw_dist I)) n && Nat.eqb (List.length (mx_data (tw_dist I))) (n * n) && Nat.eqb (List.length (tw_win I)) n
  | _ => false
  end.
Lemma forallb_seq n f : forallb f (seq 0 n) = true -> forall i, (i < n)%nat -> f i = true.
Proof. intros H i Hi. rewrite forallb_forall in H. apply H, in_seq. lia. Qed.
Lemma check_file_ok words I : check_file words I = true -> file_denotes (map join words) I.
Proof.
  unfold check_file. destruct words as [|[|h ex] R]; try discriminate. set (n := tw_n I). intros H.
  apply andb_prop in H as [H H10]. apply andb_prop in H as [H H9]. apply andb_prop in H as [H H8]. apply andb_prop in H as [H H7]. apply andb_prop in H as [H H6].
  apply andb_prop in H as [H H5]. apply andb_prop in H as [H H4]. apply andb_prop in H as [H H3]. apply andb_prop in H as [H1 H2].
  apply Nat.eqb_eq in H3, H7, H8, H9, H10. split; [|auto|exact H10]. exists h, ex, (firstn n R), (skipn n R), (String.length h). rewrite firstn_skipn.
  split; [apply check_lines_ok, H1|]. split; [apply check_digits_ok, H2|]. fold n. assert (List.length (firstn n R) = n) as Lf by (rewrite firstn_length; lia).
  assert (forall i, (i < n)%nat -> nth i (firstn n R) [] = nth i R []) as Ef by (intros i Hi; rewrite <- (firstn_skipn n R) at 2; rewrite app_nth1 by lia; reflexivity).
  split; [exact Lf|]. split; [rewrite skipn_length; lia|]. split; [|split].
  - intros i Hi. rewrite Ef by exact Hi. apply Nat.eqb_eq. exact (forallb_seq _ _ H4 i Hi).
  - intros i j Hi Hj. rewrite Ef by exact Hi. apply check_time_ok. exact (forallb_seq _ _ (forallb_seq _ _ H5 i Hi) j Hj).
  - intros i Hi. pose proof (forallb_seq _ _ H6 i Hi) as H. cbv beta in H. replace (nth i (skipn n R) []) with (nth (n + i) R []).
    + destruct (nth (n + i) R []) as [|a [|b [|]]]; try discriminate H. apply andb_prop in H as [Ha Hb]. exists a, b. split; [reflexivity|]. split; apply check_time_ok; assumption.
    + rewrite <- (firstn_skipn n R) at 1. rewrite app_nth2 by lia. f_equal. lia.
Qed.
Definition check_plain (x : Z) : bool := (0 <=? x) && (x <=? 10000 * 26843) && (x =? 10000 * (x / 10000)).
Definition check_times (I : tw_inst) : bool :=
  let n := tw_n I in
  (2 * Z.of_nat n + 1 <=? 65535) && forallb (fun i => forallb (fun j => check_plain (dist I i j)) (seq 0 n) && check_plain (opens I i) && check_plain (closes I i)) (seq 0 n).
Lemma check_plain_ok x : check_plain x = true -> exists j s, 0 <= j <= 26843 /\ 0 <= s <= 10 /\ x = 625 * j * 2 ^ s.
Proof.
  unfold check_plain. intros H. apply andb_prop in H as [H H3]. apply andb_prop in H as [H1 H2]. apply Z.leb_le in H1, H2. apply Z.eqb_eq in H3. exists (x / 10000), 4.
  split; [lia|]. split; [lia|]. change (2 ^ 4) with 16. lia.
Qed.
Lemma check_times_ok I : check_times I = true -> plain_times I.
Proof.
  unfold check_times. intros H. apply andb_prop in H as [H1 H2]. split; [apply Z.leb_le, H1|]. intros p Hp.
  assert (forall i, (i < tw_n I)%nat -> (forall j, (j < tw_n I)%nat -> check_plain (dist I i j) = true) /\ check_plain (opens I i) = true /\ check_plain (closes I i) = true) as Hi.
  { intros i Hi. pose proof (forallb_seq _ _ H2 i Hi) as H. cbv beta in H. apply andb_prop in H as [H H5]. apply andb_prop in H as [H3 H4]. split; [apply forallb_seq, H3|auto]. }
  destruct p as [i j|i|i]; cbn [time_at]; apply check_plain_ok; [destruct Hp as [Hp1 Hp2]; apply (proj1 (Hi i Hp1)), Hp2|apply (Hi i Hp)|apply (Hi i Hp)].
Qed.

(** The file of the instance on which both solvers are wrong. *)
Definition lwords : list (list string) := [["5"]; ["0"; "6"; "7"; "7"; "9"]; ["6"; "0"; "11"; "13"; "15"]; ["7"; "11"; "0"; "4"; "16"]; ["7"; "13"; "4"; "0"; "12"]; ["9"; "15"; "16"; "12"; "0"];
  ["0"; "1000"]; ["1"; "20"]; ["0"; "1000"]; ["0"; "1000"]; ["23"; "26"]].
Definition lfile : list string := map join lwords.
Definition lost4 : tw_inst := tw_make 5 (map (Z.mul 10000) [0; 6; 7; 7; 9; 6; 0; 11; 13; 15; 7; 11; 0; 4; 16; 7; 13; 4; 0; 12; 9; 15; 16; 12; 0])
  (map (fun p => (10000 * fst p, 10000 * snd p)) [(0, 1000); (1, 20); (0, 1000); (0, 1000); (23, 26)]).
Lemma lfile_denotes : file_denotes lfile lost4. Proof. apply check_file_ok. vm_compute. reflexivity. Qed.
Lemma lfile_plain : plain_times lost4. Proof. apply check_times_ok. vm_compute. reflexivity. Qed.
Lemma lost4_ok : tw_inst_ok lost4 230000. Proof. apply inst_checked. vm_compute. reflexivity. Qed.
Lemma lost4_triangle : triangle lost4. Proof. apply triangle_checked. vm_compute. reflexivity. Qed.
Lemma lost4_tour : feasible_tour lost4 [1; 4; 3; 2]%nat 460000.
Proof. split; [|vm_compute; reflexivity]. apply NoDup_Permutation; [repeat constructor; cbn; lia|apply seq_NoDup|]. intros x. rewrite in_seq. cbn. lia. Qed.
Lemma lost4_fits : no_layer_exceeds tw_state (tw_problem false lost4) tw_nv 10.
Proof. apply (layers_checked _ tw_eqb tw_eqb_ok). vm_compute. reflexivity. Qed.
Definition run_lost factor sv ct n := any_report _ tw_eqb (tw_cfg false lost4 factor ct) "lost" sv n (go 200 0 ++ go 200 1)%list.
Lemma lost_printed sv ct : run_lost 1 sv ct 1 = Some (Some (nothing_line "lost" sv "1" "14", - 2 ^ 63)).
Proof. destruct sv, ct; vm_compute; reflexivity. Qed.
Lemma lost_printed_wide sv ct : run_lost 2 sv ct 2 = Some (Some (optimum_line "lost" sv "-460000" "1" "12", -460000)).
Proof. destruct sv, ct; vm_compute; reflexivity. Qed.
Lemma lfile_fine : tw_read false lfile = Some lost4. Proof. vm_compute. reflexivity. Qed.
Definition options2 (sv : solver_type) (ct : cutset_type) : options := mk_options (Some 2%nat) (Some 2%nat) sv ct.
Lemma options2_usable sv ct cpus : usable (options2 sv ct) cpus.
Proof. split; cbn; lia. Qed.
Lemma tsptw_case sv ct : tsptw_program lfile "lost" 8 (options2 sv ct) (Some (optimum_line "lost" sv "-460000" "1" "12", -460000)).
Proof. eapply tsptw_solves; [exact lfile_fine|]. exact (any_report_ends _ _ _ _ (Some 2%nat) 8 sv _ _ (lost_printed_wide sv ct)). Qed.
Lemma tsptw_refutes : exists lines I M l T, file_denotes lines I /\ plain_times I /\ tw_inst_ok I M /\ triangle I /\ feasible_tour I l T /\
  forall sv ct, exists name cpus o r u, op_solver o = sv /\ op_cutset o = ct /\ usable o cpus /\ tsptw_program lines name cpus o (Some (r, u)) /\ rp_status r = "Proved" /\ rp_best r = "not found".
Proof.
  exists lfile, lost4, 230000, [1; 4; 3; 2]%nat, 460000. split; [exact lfile_denotes|]. split; [exact lfile_plain|]. split; [exact lost4_ok|]. split; [exact lost4_triangle|]. split; [exact lost4_tour|].
  intros sv ct. exists "lost", 8%nat, (options1 sv ct), (nothing_line "lost" sv "1" "14"), (- 2 ^ 63). split; [reflexivity|]. split; [reflexivity|]. split; [apply options1_usable|].
  split; [|split; reflexivity]. eapply tsptw_solves; [exact lfile_fine|]. exact (any_report_ends _ _ _ _ (Some 1%nat) 8 sv _ _ (lost_printed sv ct)).
Qed.
(** A file that is not read exactly. *)
Definition run_round sv ct := any_report _ tw_eqb (tw_cfg false inst2' 1 ct) "round" sv 1 (go 200 0).
Lemma round_printed sv ct : run_round sv ct = Some (Some (nothing_line "round" sv "1" "0", - 2 ^ 63)).
Proof. destruct sv, ct; vm_compute; reflexivity. Qed.
Lemma inst2_ok : tw_inst_ok inst2 403113. Proof. apply inst_checked. vm_compute. reflexivity. Qed.
Lemma inst2_triangle : triangle inst2. Proof. apply triangle_checked. vm_compute. reflexivity. Qed.
Lemma inst2_fits : no_layer_exceeds tw_state (tw_problem false inst2) tw_nv 1.
Proof. apply (layers_checked _ tw_eqb tw_eqb_ok). vm_compute. reflexivity. Qed.
Lemma round_refutes : exists lines I M l T, file_denotes lines I /\ tw_inst_ok I M /\ triangle I /\ no_layer_exceeds tw_state (tw_problem false I) tw_nv 1 /\ feasible_tour I l T /\
  forall sv ct, exists name cpus o r u, op_solver o = sv /\ op_cutset o = ct /\ usable o cpus /\ tsptw_program lines name cpus o (Some (r, u)) /\ rp_status r = "Proved" /\ rp_best r = "not found".
Proof.
  exists file2, inst2, 403113, [1]%nat, 403113. split; [exact case2|]. split; [exact inst2_ok|]. split; [exact inst2_triangle|]. split; [exact inst2_fits|]. split; [exact case2_tour|].
  intros sv ct. exists "round", 8%nat, (options1 sv ct), (nothing_line "round" sv "1" "0"), (- 2 ^ 63). split; [reflexivity|]. split; [reflexivity|]. split; [apply options1_usable|].
  split; [|split; reflexivity]. eapply tsptw_solves; [exact (proj2 case2_read)|]. exact (any_report_ends _ _ _ _ (Some 1%nat) 8 sv _ _ (round_printed sv ct)).
Qed.

(** * Widths that no layer exceeds *)
Definition options3 (sv : solver_type) (ct : cutset_type) : options := mk_options (Some 3%nat) (Some 2%nat) sv ct.
Lemma options3_usable sv ct cpus : usable (options3 sv ct) cpus.
Proof. split; cbn; lia. Qed.
Lemma cheap_layers sv ct J orders opt : psp_read false edge_sort cfile = Fine (J, orders, opt) -> no_layer_exceeds psp_state (psp_pb J false) (psp_nv cheap) (pd_T cheap * op_factor (options3 sv ct)).
Proof. rewrite cfile_fine. intros H. injection H as <- _ _. exact cheap_fits. Qed.
Definition run_cheap_wide sv ct := any_report _ psp_eqb (psp_cfg (psp_load cheap) 3 ct) "cheap" sv 2 (go 600 0 ++ go 600 1)%list.
Lemma cheap_wide_printed sv ct : run_cheap_wide sv ct = Some (Some (optimum_line "cheap" sv "-4" "1" "55", -4)).
Proof. destruct sv, ct; vm_compute; reflexivity. Qed.
Lemma cheap_wide_case sv ct : psp_program edge_sort cfile "cheap" 8 (options3 sv ct) (Some (optimum_line "cheap" sv "-4" "1" "55", -4)).
Proof. eapply psp_solves; [exact cfile_fine|]. exact (any_report_ends _ _ _ _ (Some 2%nat) 8 sv _ _ (cheap_wide_printed sv ct)). Qed.
Lemma sfile_layers sv ct I : sr_read false SrflpFileCases.sfile = Some I -> no_layer_exceeds sr_state (sr_problem false I) sr_nv (3 * op_factor (options2 sv ct)).
Proof. rewrite sfile_fine. intros H. injection H as <-. apply (layers_checked _ sr_eqb sr_eqb_spec). vm_compute. reflexivity. Qed.
Definition run_sfile_wide sv ct := any_report _ sr_eqb (sr_cfg false SrflpFileCases.sinst 2 ct) "s3" sv 2 (go 600 0 ++ go 600 1)%list.
Lemma sfile_wide_printed sv ct : run_sfile_wide sv ct = Some (Some (optimum_line "s3" sv "-8" "1" "7", -8)).
Proof. destruct sv, ct; vm_compute; reflexivity. Qed.
Lemma srflp_wide_case sv ct : srflp_program SrflpFileCases.sfile "s3" 8 (options2 sv ct) (Some (optimum_line "s3" sv "-8" "1" "7", -8)).
Proof. eapply srflp_solves; [exact sfile_fine|]. exact (any_report_ends _ _ _ _ (Some 2%nat) 8 sv _ _ (sfile_wide_printed sv ct)). Qed.

(** * Without options *)
Lemma default_careful cpus : (1 <= cpus)%nat -> careful default_options cpus.
Proof. intros H. split; [split; [apply Nat.le_refl|exact H]|]. split; [reflexivity|discriminate]. Qed.
Lemma default_texts : parse_solver "parallel" = Some (op_solver default_options) /\ parse_cutset "lel" = Some (op_cutset default_options) /\
  op_factor default_options = 1%nat /\ forall cpus, thread_count (op_threads default_options) cpus = cpus.
Proof. repeat split. Qed.
Lemma default_psp_printed : prun_report psp_state psp_eqb (psp_cfg (psp_load small) 1 LastExactLayer) "small" 2 (turns 300) = Some (Some (optimum_line "small" ParallelS "-5" "2" "37", -5)).
Proof. vm_compute. reflexivity. Qed.
Lemma default_psp_case : psp_program edge_sort pfile "small" 2 default_options (Some (optimum_line "small" ParallelS "-5" "2" "37", -5)).
Proof.
  eapply psp_solves; [exact pfile_fine|]. apply (prun_report_ends psp_state psp_eqb (psp_cfg (psp_load small) 1 LastExactLayer) "small" None 2 (turns 300)).
  cbn [thread_count]. exact default_psp_printed.
Qed.
Lemma default_srflp_printed : prun_report sr_state sr_eqb (sr_cfg false SrflpFileCases.sinst 1 LastExactLayer) "s3" 2 (turns 300) = Some (Some (optimum_line "s3" ParallelS "-8" "1" "7", -8)).
Proof. vm_compute. reflexivity. Qed.
Lemma default_srflp_case : srflp_program SrflpFileCases.sfile "s3" 2 default_options (Some (optimum_line "s3" ParallelS "-8" "1" "7", -8)).
Proof.
  eapply srflp_solves; [exact sfile_fine|]. apply (prun_report_ends sr_state sr_eqb (sr_cfg false SrflpFileCases.sinst 1 LastExactLayer) "s3" None 2 (turns 300)).
  cbn [thread_count]. exact default_srflp_printed.
Qed.
