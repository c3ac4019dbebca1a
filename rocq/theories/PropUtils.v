(** Property theorems C01-C05 and C33 (utilities). *)
From Verif Require Import BitSet BitSetFacts Matrix MatrixFacts Flags FlagsFacts Names NamesFacts F32Spec GapFacts.
From Coq Require Import Sorting.Sorted String List.
Import ListNotations.
Open Scope Z_scope.

(* ------------------------------------------------------------------ *)
(** C01. Iterating a bit set yields exactly the set bits, strictly increasing; then it stops. *)
Theorem C01_bitset_iteration : forall ws : list N,
  exists l, bsi_collect (64 * length ws + 1) (bsi_new ws) = Some l /\
    StronglySorted N.lt l /\ (forall i, In i l <-> bit ws i = true).
Proof. exact bitset_iter_spec. Qed.
Print Assumptions C01_bitset_iteration.

Theorem C01_bitset_iteration_stops : forall fuel it it',
  bsi_next fuel it = Some (None, it') -> forall n, bsi_next (S n) it' = Some (None, it').
Proof. exact bitset_iter_fused. Qed.
Print Assumptions C01_bitset_iteration_stops.

Example C01_case : bsi_collect (64 * 4 + 1) (bsi_new [9223372036854775809%N; 0%N; 6%N; 0%N]) =
  Some [0%N; 63%N; 129%N; 130%N].
Proof. vm_compute. reflexivity. Qed.
Example C01_case_stops : exists it', bsi_next 4 (bsi_new [0%N]) = Some (None, it').
Proof. eexists. vm_compute. reflexivity. Qed.

(* ------------------------------------------------------------------ *)
(** C02. [LexBitSet] comparison: decided by the smallest element on which the sets differ;
    total, antisymmetric, transitive; equality is set equality. *)
Theorem C02_lex_decided_by_first_difference : forall x y, Forall word_ok x -> Forall word_ok y ->
  (lex_cmp x y = Lt <-> set_lt x y) /\ (lex_cmp x y = Eq <-> set_eq x y) /\ (lex_cmp x y = Gt <-> set_lt y x).
Proof. exact lex_iff. Qed.
Print Assumptions C02_lex_decided_by_first_difference.

Theorem C02_lex_antisymmetric : forall x y, Forall word_ok x -> Forall word_ok y ->
  lex_cmp y x = CompOpp (lex_cmp x y).
Proof. exact lex_antisym. Qed.
Print Assumptions C02_lex_antisymmetric.

Theorem C02_lex_transitive : forall x y z, Forall word_ok x -> Forall word_ok y -> Forall word_ok z ->
  lex_cmp x y <> Gt -> lex_cmp y z <> Gt ->
  lex_cmp x z <> Gt /\ (lex_cmp x z = Eq -> lex_cmp x y = Eq /\ lex_cmp y z = Eq).
Proof. exact lex_trans. Qed.
Print Assumptions C02_lex_transitive.

Theorem C02_lex_equality : forall x y, Forall word_ok x -> Forall word_ok y ->
  (lex_eq x y = true <-> set_eq x y).
Proof. exact lex_eq_spec. Qed.
Print Assumptions C02_lex_equality.

Example C02_case :
  Forall word_ok [5%N; 3%N] /\ Forall word_ok [5%N; 9%N] /\ lex_cmp [5%N; 9%N] [5%N; 3%N] = Lt /\
  lex_cmp [4%N; 0%N] [12%N; 0%N] = Lt /\ lex_eq [4%N] [4%N; 0%N] = true.
Proof. unfold word_ok. repeat split; repeat constructor; vm_compute; reflexivity. Qed.

(* ------------------------------------------------------------------ *)
(** C03. Matrix cells do not alias; rows and columns enumerate the right cells. *)
Theorem C03_matrix_read_write : forall (T : Type) (a : matrix T) i j x, mat_wf a -> in_range a i j ->
  exists a', mat_set a i j x = Some a' /\ mat_wf a' /\ mx_n a' = mx_n a /\ mx_m a' = mx_m a /\
    mat_get a' i j = Some x /\
    (forall i' j', in_range a i' j' -> (i', j') <> (i, j) -> mat_get a' i' j' = mat_get a i' j').
Proof. exact @mat_rw. Qed.
Print Assumptions C03_matrix_read_write.

Theorem C03_matrix_new : forall (T : Type) m n (x : T),
  mat_wf (mat_new m n x) /\ mat_wf (pmat_new n m x) /\
  forall i j, (i < n)%nat -> (j < m)%nat ->
    mat_get (mat_new m n x) i j = Some x /\ mat_get (pmat_new n m x) i j = Some x.
Proof.
  intros T m n x. split; [apply mat_new_wf|]. split; [apply pmat_new_wf|]. intros i j Hi Hj.
  split; apply mat_get_new; try (split; assumption); cbn; f_equal; apply Nat.mul_comm.
Qed.
Print Assumptions C03_matrix_new.

(** The matrix of the PSP example, in a debug or in a release build. Outside of the range a debug build panics. *)
Theorem C03_psp_matrix : forall (T : Type) debug (a : matrix T) i j x,
  (in_range a i j -> pmat_get debug a i j = mat_get a i j /\ pmat_set debug a i j x = mat_set a i j x) /\
  (~ in_range a i j -> pmat_get true a i j = None /\ pmat_set true a i j x = None).
Proof. intros T debug a i j x. split; [intros H; split; [apply pmat_get_in|apply pmat_set_in]; exact H|apply pmat_out]. Qed.
Print Assumptions C03_psp_matrix.

(** Its rows and columns. [row] computes the position of the cell after the last one of the row: in a debug build it
    always panics (nothing in the example calls it). *)
Theorem C03_matrix_rows_columns : forall (T : Type) debug (a : matrix T) i, mat_wf a ->
  ((i < mx_n a)%nat -> exists l, pmat_row false a i = Some l /\ length l = mx_m a /\
      forall j, (j < mx_m a)%nat -> nth_error l j = mat_get a i j) /\
  pmat_row true a i = None /\
  ((i < mx_m a)%nat -> exists l, pmat_col debug a i = Some l /\ length l = mx_n a /\
      forall r, (r < mx_n a)%nat -> nth_error l r = mat_get a r i).
Proof. intros T debug a i Hw. split; [|split]; [intros Hi; apply pmat_row_spec; assumption|apply pmat_row_debug|intros Hi; apply pmat_col_spec; assumption]. Qed.
Print Assumptions C03_matrix_rows_columns.

Example C03_case : mat_wf (mat_new 3 2 0) /\ in_range (mat_new 3 2 0) 1 2 /\
  (do a <- mat_set (mat_new 3 2 0) 1 2 7; do r <- pmat_row false a 1; do c <- pmat_col true a 2; Some (r, c))
  = Some ([0; 0; 7], [0; 7]).
Proof. unfold mat_wf, in_range. repeat split; cbn; lia. Qed.

(* ------------------------------------------------------------------ *)
(** C04. Whatever the history of setters, the queries answer like six independent booleans. *)
Theorem C04_flags_independent : forall r ops,
  queries (fold_left fop_run ops (new_flags r)) =
  six_queries (fold_left six_run ops (mk_six (negb r) r false false false false)).
Proof. exact flags_history. Qed.
Print Assumptions C04_flags_independent.

Theorem C04_flags_add_remove : forall f m j, (j < 8)%N ->
  N.testbit (f_add f m) j = N.testbit f j || N.testbit m j /\
  N.testbit (f_remove f m) j = N.testbit f j && negb (N.testbit m j).
Proof. exact flags_masks. Qed.
Print Assumptions C04_flags_add_remove.

Theorem C04_flags_test : forall f m,
  f_test f m = true <-> (forall j, N.testbit m j = true -> N.testbit f j = true).
Proof. exact flags_test_incl. Qed.
Print Assumptions C04_flags_test.

Example C04_case :
  queries (fold_left fop_run [SetMarked true; SetRelaxed true; SetExact false; SetRelaxed false; SetCutset true] default_flags)
  = [false; false; true; true; false; false].
Proof. reflexivity. Qed.

(* ------------------------------------------------------------------ *)
(** C05. A text parses to an option value exactly when it is the text printed for that value. *)
Theorem C05_compilation_type_names : forall s c, parse_comp s = Some c <-> s = show_comp c.
Proof. exact comp_roundtrip. Qed.
Print Assumptions C05_compilation_type_names.
Theorem C05_cutset_type_names : forall s c, parse_cutset s = Some c <-> s = show_cutset c.
Proof. exact cutset_roundtrip. Qed.
Print Assumptions C05_cutset_type_names.
Theorem C05_solver_type_names : forall s c, parse_solver s = Some c <-> s = show_solver c.
Proof. exact solver_roundtrip. Qed.
Print Assumptions C05_solver_type_names.

Example C05_case : parse_cutset "lel" = Some LastExactLayer /\ parse_cutset "LEL" = None /\
  parse_comp (show_comp Restricted) = Some Restricted.
Proof. repeat split. Qed.

(* ------------------------------------------------------------------ *)
(** C33. The gap, as the [f32] printed: for bounds of the same sign, not both zero, it lies between 0 and 1, is zero only for
    equal bounds, and is [(ub - lb) / max(|lb|, |ub|)] up to a relative error of [2 ^ -22]. Missing from the full claim:
    the other bounds a solver can report, for which it is false, see below. *)
Theorem C33_gap_partial : forall lb ub,
  IMIN < lb -> ub <= IMAX -> lb <= ub -> 0 <= lb * ub -> (lb <> 0 \/ ub <> 0) ->
  let exact := (inject_Z (ub - lb) / inject_Z (Z.max (Z.abs lb) (Z.abs ub)))%Q in
  exists v, f32_value (gap lb ub) = Some v /\ (0 <= v <= 1)%Q /\ (v == 0 <-> lb = ub)%Q /\ (Qabs (v - exact) <= exact * (1 # 4194304))%Q.
Proof. exact gap_value. Qed.
Print Assumptions C33_gap_partial.

(** The gap between -4 and -3 is 1/4; the one between 0 and 10 is 1; the one between 7 and 10 is not exactly 3/10. *)
Example C33_case : gap (-4) (-3) = S754_finite false 8388608 (-25) /\ gap 0 10 = S754_finite false 8388608 (-23) /\
  gap 7 10 = S754_finite false 10066330 (-25) /\ f32_value (gap (-4) (-3)) = Some (8388608 # 33554432)%Q.
Proof. vm_compute. auto. Qed.

(** No solution was found ([lb = isize::MIN]) and the search was interrupted with a bound of 10: the gap is
    hugely negative. Both bounds zero: [NaN]. Bounds of opposite signs: a zero gap with an open interval. *)
Theorem C33_gap_refuted :
  (exists lb ub v, in_isize lb /\ in_isize ub /\ lb <= ub /\ f32_value (gap lb ub) = Some v /\ (v < -(900000000000000000 # 1))%Q) /\
  (exists lb ub, in_isize lb /\ in_isize ub /\ lb = ub /\ f32_value (gap lb ub) = None) /\
  (exists lb ub, in_isize lb /\ in_isize ub /\ lb < ub /\ f32_value (gap lb ub) = Some 0%Q).
Proof.
  unfold in_isize. split; [exists IMIN, 10, (-922337217429372928 # 1)%Q | split; [exists 0, 0 | exists (-5), 5]];
    vm_compute; repeat split; congruence.
Qed.
Print Assumptions C33_gap_refuted.

(** What is returned for every pair of bounds. Signs are ignored: away from [isize::MIN] it is the relative difference of the
    magnitudes, so that it vanishes exactly when [lb = ub] or [lb = - ub]. With [isize::MIN] as one of the bounds (no solution
    found) it is negative. *)
Theorem C33_every_pair : forall lb ub, in_isize lb -> in_isize ub ->
  gap lb ub = gap ub lb /\
  (lb <> IMIN -> ub <> IMIN -> (lb <> 0 \/ ub <> 0) ->
    let big := Z.max (Z.abs lb) (Z.abs ub) in let small := Z.min (Z.abs lb) (Z.abs ub) in
    let exact := (inject_Z (big - small) / inject_Z big)%Q in
    exists v, f32_value (gap lb ub) = Some v /\ (0 <= v <= 1)%Q /\ ((v == 0)%Q <-> lb = ub \/ lb = - ub) /\ (Qabs (v - exact) <= exact * (1 # 4194304))%Q) /\
  (lb = IMIN -> ub <> IMIN -> ub <> 0 ->
    let exact := (inject_Z (2 ^ 63 - Z.abs ub) / inject_Z (Z.abs ub))%Q in
    exists v, f32_value (gap lb ub) = Some v /\ (v < 0)%Q /\ (Qabs (v + exact) <= exact * (1 # 4194304))%Q) /\
  (lb = 0 -> ub = 0 -> gap lb ub = S754_nan) /\ (lb = IMIN -> ub = 0 -> gap lb ub = S754_infinity true) /\ (lb = IMIN -> ub = IMIN -> f32_value (gap lb ub) = Some 0%Q).
Proof. exact gap_every_pair. Qed.
Print Assumptions C33_every_pair.

(** Between -10 and 5, a half; with no solution and an upper bound of [isize::MAX] (interrupted at once), slightly negative. *)
Example C33_every_case : in_isize (-10) /\ in_isize 5 /\ gap (-10) 5 = S754_finite false 8388608 (-24) /\ gap 5 (-10) = gap (-10) 5 /\
  gap IMIN IMAX = S754_finite true 8388608 (-86).
Proof. unfold in_isize. vm_compute. repeat split; congruence. Qed.
