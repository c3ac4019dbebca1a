(** Property theorems C59: the three programs, from the file to the line printed (release build). *)
From Verif Require Import Base Spec WideSpec Names Text TextSpec Report ReportSpec Psp PspSpec PspCases PspFile PspFileSpec PspFileCases Srflp SrflpSpec SrflpLayouts SrflpFile SrflpFileSpec.
From Verif Require Import Tsptw TsptwSpec TsptwFile TsptwFileSpec TsptwFileCases Program ProgramSpec ProgramProofs ProgramCases.
From Verif Require SrflpFileCases.
Open Scope string_scope.
Open Scope Z_scope.

(** * Whatever the options *)
(** A well-formed file, a width of at least one: the program ends in some way, never panics, and prints the name, the solver, and the
    value of a plan of the file or "not found". That every execution ends is C26. The cases below meet these hypotheses. *)
Theorem C59_psp_found : forall sort lines D orders opt M name cpus o, (forall l, Permutation l (sort l)) -> psp_says lines D orders opt -> psp_ok D M -> (1 <= op_factor o)%nat ->
  (exists out, psp_program sort lines name cpus o out) /\
  forall out, psp_program sort lines name cpus o out -> exists r u, out = Some (r, u) /\ signed r name o /\ found r (plan_worth D).
Proof.
  exact (fun sort lines D orders opt M name cpus o Hs Hf Hok Hw => conj (psp_starts sort Hs lines D orders opt M Hf Hok name cpus o Hw)
    (fun out => psp_found sort Hs lines D orders opt M Hf Hok name cpus o out Hw)).
Qed.
Print Assumptions C59_psp_found.

Theorem C59_srflp_found : forall lines n lens a F L name cpus o, sr_says lines n lens a -> small_file n lens a F L -> (1 <= op_factor o)%nat ->
  (exists out, srflp_program lines name cpus o out) /\
  forall out, srflp_program lines name cpus o out -> exists I r u, sr_means n lens a I /\ out = Some (r, u) /\ signed r name o /\ found r (layout_worth I).
Proof.
  exact (fun lines n lens a F L name cpus o Hf Hs Hw => conj (srflp_starts lines n lens a F L Hf Hs name cpus o Hw) (fun out => srflp_found lines n lens a F L Hf Hs name cpus o out Hw)).
Qed.
Print Assumptions C59_srflp_found.

Theorem C59_tsptw_found : forall lines I M name cpus o, file_denotes lines I -> plain_times I -> tw_inst_ok I M -> (1 <= op_factor o)%nat ->
  (exists out, tsptw_program lines name cpus o out) /\
  forall out, tsptw_program lines name cpus o out -> exists r u, out = Some (r, u) /\ signed r name o /\ found r (tour_worth I).
Proof.
  exact (fun lines I M name cpus o Hf Hp Hok Hw => conj (tsptw_starts lines I M Hf Hp Hok name cpus o Hw) (fun out => tsptw_found lines I M Hf Hp Hok name cpus o out Hw)).
Qed.
Print Assumptions C59_tsptw_found.

(** * Proved means proved *)
(** With a last exact layer cutset, and one thread if the solver is the one with a barrier, a line that says "Proved" is right, whatever the
    interleaving of the threads. Missing: frontier cutsets and several threads with the barrier, for which it is false of the solvers (C19,
    C29); PSP without the triangle inequality (below). *)
Theorem C59_psp_partial : forall sort lines D orders opt M name cpus o out, (forall l, Permutation l (sort l)) -> psp_says lines D orders opt -> psp_ok D M -> change_triangle D ->
  careful o cpus -> psp_program sort lines name cpus o out ->
  exists r u, out = Some (r, u) /\ signed r name o /\ right_line r (plan_worth D) (best_plan_worth D) (no_plan D).
Proof. exact (fun sort lines D orders opt M name cpus o out Hs Hf Hok => psp_prints sort Hs lines D orders opt M Hf Hok name cpus o out). Qed.
Print Assumptions C59_psp_partial.
Example C59_psp_case : forall sv, (forall l, Permutation l (edge_sort l)) /\ psp_says pfile small 3 (Some 5) /\ psp_ok small 4 /\ change_triangle small /\
  careful (options1 sv LastExactLayer) 8 /\ psp_program edge_sort pfile "small" 8 (options1 sv LastExactLayer) (Some (optimum_line "small" sv "-5" "2" "37", -5)).
Proof. exact (fun sv => conj edge_sort_perm (conj pfile_says (conj small_ok (conj small_triangle (conj (options1_careful sv 8) (psp_case sv)))))). Qed.

Theorem C59_srflp_partial : forall lines n lens a F L name cpus o out, sr_says lines n lens a -> small_file n lens a F L -> careful o cpus -> srflp_program lines name cpus o out ->
  exists I r u, sr_means n lens a I /\ out = Some (r, u) /\ signed r name o /\ right_line r (layout_worth I) (best_layout_worth I) False.
Proof. exact (fun lines n lens a F L name cpus o out Hf Hs => srflp_prints lines n lens a F L Hf Hs name cpus o out). Qed.
Print Assumptions C59_srflp_partial.
Example C59_srflp_case : forall sv, sr_says SrflpFileCases.sfile 3 [4; 2; 6] SrflpFileCases.sraw /\ small_file 3 [4; 2; 6] SrflpFileCases.sraw 5 6 /\
  careful (options1 sv LastExactLayer) 8 /\ srflp_program SrflpFileCases.sfile "s3" 8 (options1 sv LastExactLayer) (Some (optimum_line "s3" sv "-8" "1" "7", -8)).
Proof. exact (fun sv => conj SrflpFileCases.sfile_says (conj sfile_small_file (conj (options1_careful sv 8) (srflp_case sv)))). Qed.

(** Without options, on a machine with at least one processor: the defaults are what "parallel" and "lel" name, one time the number of
    variables as width and a thread per processor; the line is right. *)
Theorem C59_psp_default : forall sort lines D orders opt M name cpus out, (forall l, Permutation l (sort l)) -> psp_says lines D orders opt -> psp_ok D M -> change_triangle D ->
  (1 <= cpus)%nat -> psp_program sort lines name cpus default_options out ->
  exists r u, out = Some (r, u) /\ signed r name default_options /\ right_line r (plan_worth D) (best_plan_worth D) (no_plan D).
Proof.
  exact (fun sort lines D orders opt M name cpus out Hs Hf Hok Ht Hc => psp_prints sort Hs lines D orders opt M Hf Hok name cpus default_options out Ht (default_careful cpus Hc)).
Qed.
Print Assumptions C59_psp_default.
Example C59_psp_default_case : (forall l, Permutation l (edge_sort l)) /\ psp_says pfile small 3 (Some 5) /\ psp_ok small 4 /\ change_triangle small /\
  psp_program edge_sort pfile "small" 2 default_options (Some (optimum_line "small" ParallelS "-5" "2" "37", -5)).
Proof. exact (conj edge_sort_perm (conj pfile_says (conj small_ok (conj small_triangle default_psp_case)))). Qed.
Theorem C59_srflp_default : forall lines n lens a F L name cpus out, sr_says lines n lens a -> small_file n lens a F L -> (1 <= cpus)%nat -> srflp_program lines name cpus default_options out ->
  exists I r u, sr_means n lens a I /\ out = Some (r, u) /\ signed r name default_options /\ right_line r (layout_worth I) (best_layout_worth I) False.
Proof. exact (fun lines n lens a F L name cpus out Hf Hs Hc => srflp_prints lines n lens a F L Hf Hs name cpus default_options out (default_careful cpus Hc)). Qed.
Print Assumptions C59_srflp_default.
Example C59_srflp_default_case : sr_says SrflpFileCases.sfile 3 [4; 2; 6] SrflpFileCases.sraw /\ small_file 3 [4; 2; 6] SrflpFileCases.sraw 5 6 /\
  srflp_program SrflpFileCases.sfile "s3" 2 default_options (Some (optimum_line "s3" ParallelS "-8" "1" "7", -8)).
Proof. exact (conj SrflpFileCases.sfile_says (conj sfile_small_file default_srflp_case)). Qed.
Theorem C59_default_texts : parse_solver "parallel" = Some (op_solver default_options) /\ parse_cutset "lel" = Some (op_cutset default_options) /\
  op_factor default_options = 1%nat /\ forall cpus, thread_count (op_threads default_options) cpus = cpus.
Proof. exact default_texts. Qed.
Print Assumptions C59_default_texts.

(** With a width that no layer exceeds: either solver, either cutset, any number of threads. *)
Theorem C59_psp_wide_partial : forall sort lines D orders opt M name cpus o out, (forall l, Permutation l (sort l)) -> psp_says lines D orders opt -> psp_ok D M ->
  (forall J orders' opt', psp_read false sort lines = Fine (J, orders', opt') -> no_layer_exceeds psp_state (psp_pb J false) (psp_nv D) (pd_T D * op_factor o)) -> usable o cpus -> psp_program sort lines name cpus o out ->
  exists r u, out = Some (r, u) /\ signed r name o /\ right_line r (plan_worth D) (best_plan_worth D) (no_plan D).
Proof. exact (fun sort lines D orders opt M name cpus o out Hs Hf Hok => psp_prints_wide sort Hs lines D orders opt M Hf Hok name cpus o out). Qed.
Print Assumptions C59_psp_wide_partial.
Example C59_psp_wide_case : forall sv ct, (forall l, Permutation l (edge_sort l)) /\ psp_says cfile cheap 6 None /\ psp_ok cheap 50 /\
  (forall J orders' opt', psp_read false edge_sort cfile = Fine (J, orders', opt') -> no_layer_exceeds psp_state (psp_pb J false) (psp_nv cheap) (pd_T cheap * op_factor (options3 sv ct))) /\
  usable (options3 sv ct) 8 /\ psp_program edge_sort cfile "cheap" 8 (options3 sv ct) (Some (optimum_line "cheap" sv "-4" "1" "55", -4)).
Proof. exact (fun sv ct => conj edge_sort_perm (conj cfile_says (conj cheap_ok (conj (cheap_layers sv ct) (conj (options3_usable sv ct 8) (cheap_wide_case sv ct)))))). Qed.

Theorem C59_srflp_wide_partial : forall lines n lens a F L name cpus o out, sr_says lines n lens a -> small_file n lens a F L ->
  (forall I, sr_read false lines = Some I -> no_layer_exceeds sr_state (sr_problem false I) sr_nv (n * op_factor o)) -> usable o cpus -> srflp_program lines name cpus o out ->
  exists I r u, sr_means n lens a I /\ out = Some (r, u) /\ signed r name o /\ right_line r (layout_worth I) (best_layout_worth I) False.
Proof. exact (fun lines n lens a F L name cpus o out Hf Hs => srflp_prints_wide lines n lens a F L Hf Hs name cpus o out). Qed.
Print Assumptions C59_srflp_wide_partial.
Example C59_srflp_wide_case : forall sv ct, sr_says SrflpFileCases.sfile 3 [4; 2; 6] SrflpFileCases.sraw /\ small_file 3 [4; 2; 6] SrflpFileCases.sraw 5 6 /\
  (forall I, sr_read false SrflpFileCases.sfile = Some I -> no_layer_exceeds sr_state (sr_problem false I) sr_nv (3 * op_factor (options2 sv ct))) /\
  usable (options2 sv ct) 8 /\ srflp_program SrflpFileCases.sfile "s3" 8 (options2 sv ct) (Some (optimum_line "s3" sv "-8" "1" "7", -8)).
Proof. exact (fun sv ct => conj SrflpFileCases.sfile_says (conj sfile_small_file (conj (sfile_layers sv ct) (conj (options2_usable sv ct 8) (srflp_wide_case sv ct))))). Qed.

Theorem C59_tsptw_wide_partial : forall lines I M name cpus o out, file_denotes lines I -> plain_times I -> tw_inst_ok I M -> triangle I ->
  no_layer_exceeds tw_state (tw_problem false I) tw_nv (tw_n I * op_factor o) -> usable o cpus -> tsptw_program lines name cpus o out ->
  exists r u, out = Some (r, u) /\ signed r name o /\ right_line r (tour_worth I) (best_tour_worth I) (no_tour I).
Proof. exact (fun lines I M name cpus o out Hf Hp Hok => tsptw_prints lines I M Hf Hp Hok name cpus o out). Qed.
Print Assumptions C59_tsptw_wide_partial.
Example C59_tsptw_wide_case : forall sv ct, file_denotes lfile lost4 /\ plain_times lost4 /\ tw_inst_ok lost4 230000 /\ triangle lost4 /\
  no_layer_exceeds tw_state (tw_problem false lost4) tw_nv (tw_n lost4 * op_factor (options2 sv ct)) /\ usable (options2 sv ct) 8 /\
  tsptw_program lfile "lost" 8 (options2 sv ct) (Some (optimum_line "lost" sv "-460000" "1" "12", -460000)).
Proof. exact (fun sv ct => conj lfile_denotes (conj lfile_plain (conj lost4_ok (conj lost4_triangle (conj lost4_fits (conj (options2_usable sv ct 8) (tsptw_case sv ct))))))). Qed.

(** * Where it is false *)
(** TSPTW, either solver, either cutset, the default width, one thread: "Proved" and "not found" are printed for a file that has a tour. *)
Theorem C59_tsptw_refuted : exists lines I M l T, file_denotes lines I /\ plain_times I /\ tw_inst_ok I M /\ triangle I /\ feasible_tour I l T /\
  forall sv ct, exists name cpus o r u, op_solver o = sv /\ op_cutset o = ct /\ usable o cpus /\ tsptw_program lines name cpus o (Some (r, u)) /\ rp_status r = "Proved" /\ rp_best r = "not found".
Proof. exact tsptw_refutes. Qed.
Print Assumptions C59_tsptw_refuted.

(** TSPTW, a file whose times are not read exactly: the same although no layer has more than one state. *)
Theorem C59_rounding_refuted : exists lines I M l T, file_denotes lines I /\ tw_inst_ok I M /\ triangle I /\ no_layer_exceeds tw_state (tw_problem false I) tw_nv 1 /\ feasible_tour I l T /\
  forall sv ct, exists name cpus o r u, op_solver o = sv /\ op_cutset o = ct /\ usable o cpus /\ tsptw_program lines name cpus o (Some (r, u)) /\ rp_status r = "Proved" /\ rp_best r = "not found".
Proof. exact round_refutes. Qed.
Print Assumptions C59_rounding_refuted.

(** PSP, change costs without the triangle inequality: "Proved" and -50 for a file with a plan that costs 4. *)
Theorem C59_psp_refuted : exists sort lines D M opt orders, (forall l, Permutation l (sort l)) /\ psp_says lines D orders opt /\ psp_ok D M /\ (exists p, feasible_plan D p /\ plan_cost D p = 4) /\
  forall sv ct, exists name cpus o r u, op_solver o = sv /\ op_cutset o = ct /\ usable o cpus /\ psp_program sort lines name cpus o (Some (r, u)) /\ rp_status r = "Proved" /\ rp_best r = "-50".
Proof. exact psp_refutes. Qed.
Print Assumptions C59_psp_refuted.

(** The option [-T 0]: "Proved" and "not found" for departments that can be laid out. *)
Theorem C59_no_thread_refuted : exists lines n lens a F L, sr_says lines n lens a /\ small_file n lens a F L /\
  forall sv, exists name cpus o r u, op_solver o = sv /\ op_cutset o = LastExactLayer /\ op_threads o = Some 0%nat /\ srflp_program lines name cpus o (Some (r, u)) /\ rp_status r = "Proved" /\ rp_best r = "not found".
Proof. exact idle_refutes. Qed.
Print Assumptions C59_no_thread_refuted.
