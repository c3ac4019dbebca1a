(** Property theorem C55 (SRFLP example: reading files). *)
From Verif Require Import Spec DdSpec ParSpec BarSpec Srflp SrflpSpec SrflpProofs SrflpFile SrflpFileSpec SrflpFileProofs SrflpFileSolve SrflpFileCases.
From Coq Require Import List ZArith.
Import ListNotations.
Open Scope string_scope.
Open Scope Z_scope.

(** C55. The instance read from a file is the one written in it, the flows of both directions being put together; a file that is
    not an instance is rejected. The first part: *)
Theorem C55_read_partial : forall debug lines n lens a I, sr_says lines n lens a -> sr_small n lens a -> sr_means n lens a I ->
  sr_read debug lines = Some I.
Proof. exact sr_file_exact. Qed.
Print Assumptions C55_read_partial.
(** There is such an instance, and when the numbers are small enough for C47 the solvers find the best layout of what the file
    says. *)
Theorem C55_solved_partial : forall debug lines n lens a, sr_says lines n lens a -> forall F L, 1 <= F -> 1 <= L ->
  (forall i, (i < n)%nat -> 1 <= nth i lens 0 <= L) -> (forall i j, (i < n)%nat -> (j < n)%nat -> 0 <= entry a i j <= F) ->
  (Z.of_nat n + 2) * (Z.of_nat n * Z.of_nat n * (2 * F) * L) <= IMAX -> Z.of_nat n * (2 * F) * L < 2 ^ 23 ->
  exists I, sr_read debug lines = Some I /\ sr_means n lens a I /\ forall factor, (1 <= factor)%nat ->
  (forall nt m st, (1 <= m <= nt)%nat -> reachable sr_state sr_eqb (sr_cfg false I factor LastExactLayer) nt m st -> proved _ st ->
    exists v l p, best_value_of _ st = Some v /\ best_solution_of _ st = Some l /\ best_layout I p /\ Permutation l (layout_decisions p) /\
      2 * v = unavoidable2 I - layout_cost2 I p) /\
  (forall nt st, (1 <= nt)%nat -> breachable sr_state sr_eqb (sr_cfg false I factor LastExactLayer) nt 1 st -> bproved _ st ->
    exists v l p, bbest_value _ st = Some v /\ bbest_solution _ st = Some l /\ best_layout I p /\ Permutation l (layout_decisions p) /\
      2 * v = unavoidable2 I - layout_cost2 I p).
Proof. exact sr_file_best. Qed.
Print Assumptions C55_solved_partial.

(** A file with blanks, commas and tabulations, a signed number, an empty line and a last line that does not matter; the flows
    between the first two departments are 1 and 2. *)
Example C55_case : sr_says sfile 3 [4; 2; 6] sraw /\ sr_small 3 [4; 2; 6] sraw /\ sr_means 3 [4; 2; 6] sraw sinst /\ sr_read true sfile = Some sinst /\
  (forall i, (i < 3)%nat -> 1 <= nth i [4; 2; 6] 0 <= 6) /\ (forall i j, (i < 3)%nat -> (j < 3)%nat -> 0 <= entry sraw i j <= 5) /\
  (Z.of_nat 3 + 2) * (Z.of_nat 3 * Z.of_nat 3 * (2 * 5) * 6) <= IMAX /\ Z.of_nat 3 * (2 * 5) * 6 < 2 ^ 23.
Proof. exact sfile_case. Qed.

(** The second part is false: a file without its last row, one with a row that is too short, one without the length of the last
    department are all accepted. *)
Theorem C55_malformed_refuted : exists lines1 lines2 lines3,
  (forall n lens a, ~ sr_says lines1 n lens a /\ ~ sr_says lines2 n lens a /\ ~ sr_says lines3 n lens a) /\ forall debug,
  (exists I, sr_read debug lines1 = Some I) /\ (exists I, sr_read debug lines2 = Some I) /\
  (exists I, sr_read debug lines3 = Some I /\ (List.length (sr_len I) < sr_n I)%nat).
Proof. exact short_refutes. Qed.
Print Assumptions C55_malformed_refuted.
(** So is an empty file, as an instance without departments. *)
Theorem C55_empty_refuted : (forall n lens a, ~ sr_says [] n lens a) /\ forall debug, exists I, sr_read debug [] = Some I /\ sr_n I = 0%nat.
Proof. exact empty_refutes. Qed.
Print Assumptions C55_empty_refuted.
(** The first part is false of flows that can be represented while their sum cannot: a debug build panics, a release build
    reads a negative flow. *)
Theorem C55_overflow_refuted : exists lines n lens a, sr_says lines n lens a /\ (forall i, (i < n)%nat -> in_isize (nth i lens 0)) /\
  (forall i j, (i < n)%nat -> (j < n)%nat -> 0 <= entry a i j /\ in_isize (entry a i j)) /\
  sr_read true lines = None /\ exists I, sr_read false lines = Some I /\ entry (sr_flow I) 0 1 = IMIN.
Proof. exact huge_refutes. Qed.
Print Assumptions C55_overflow_refuted.
