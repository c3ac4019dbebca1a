(** Concrete instances of the SRFLP example. Nothing here models code of /repo. *)
From Verif Require Import Spec Dd DdSpec ParSpec BarSpec ParCases ExecAny Srflp SrflpSpec SrflpFacts SrflpFlows SrflpAdmissible SrflpLayouts SrflpMerge SrflpProofs PspCases.
From Coq Require Import Lia.
Open Scope Z_scope.

Definition sr_make (n : nat) (ls fl : list Z) : sr_inst := mk_sr n ls (mk_mat n n fl).
(** Checking an instance. *)
Definition sr_check (I : sr_inst) (F L : Z) : bool :=
  let n := sr_n I in
  (1 <=? n)%nat && (length (sr_len I) =? n)%nat && ((mx_n (sr_flow I) =? n)%nat && (mx_m (sr_flow I) =? n)%nat && (length (mx_data (sr_flow I)) =? n * n)%nat) &&
  (1 <=? F) && (1 <=? L) && forallb (fun i => (1 <=? len I i) && (len I i <=? L)) (seq 0 n) &&
  all_pairs n (fun i j => (0 <=? flow I i j) && (flow I i j <=? F)) && all_pairs n (fun i j => flow I i j =? flow I j i) &&
  ((Z.of_nat n + 2) * (Z.of_nat n * Z.of_nat n * F * L) <=? IMAX).
Lemma sr_checked I F L : sr_check I F L = true -> sr_ok I F L.
Proof.
  unfold sr_check. rewrite !andb_true_iff, !Nat.eqb_eq, !Nat.leb_le, !Z.leb_le.
  intros ((((((((H1 & H2) & ((H3 & H4) & H5)) & H6) & H7) & H8) & H9) & H10) & H11). constructor; auto.
  - intros i Hi. rewrite forallb_forall in H8. specialize (H8 i ltac:(apply in_seq; lia)). rewrite andb_true_iff, !Z.leb_le in H8. exact H8.
  - intros i j Hi Hj. pose proof (all_pairs_ok _ _ H9 i j Hi Hj) as H. rewrite andb_true_iff, !Z.leb_le in H. exact H.
  - intros i j Hi Hj. pose proof (all_pairs_ok _ _ H10 i j Hi Hj) as H. apply Z.eqb_eq in H. exact H.
Qed.

(** 1. Five departments. *)
Definition row : sr_inst := sr_make 5 [2; 4; 1; 3; 5] [0; 5; 2; 0; 3;  5; 0; 4; 1; 0;  2; 4; 0; 6; 2;  0; 1; 6; 0; 1;  3; 0; 2; 1; 0].
Lemma row_ok : sr_ok row 6 5. Proof. apply sr_checked. vm_compute. reflexivity. Qed.
Lemma row_float : Z.of_nat (sr_n row) * 6 * 5 < 2 ^ 23. Proof. reflexivity. Qed.
Definition row_best : list nat := [3; 2; 1; 0; 4]%nat.
Lemma row_layout : layout row row_best.
Proof. unfold layout. apply NoDup_Permutation; [apply seq_NoDup| |]; [unfold row_best; repeat (constructor; [cbn; lia|]); constructor|]. intros x. rewrite in_seq. cbn. lia. Qed.
Lemma row_case : sr_ok row 6 5 /\ layout row row_best /\ layout_cost2 row row_best = 184 /\ unavoidable2 row = 128 /\
  solution sr_state (sr_problem false row) sr_nv [mk_dec 0 3; mk_dec 1 2; mk_dec 2 1; mk_dec 3 0; mk_dec 4 4] (- 28).
Proof.
  split; [exact row_ok|]. split; [exact row_layout|]. split; [vm_compute; reflexivity|]. split; [vm_compute; reflexivity|].
  apply (solutions_are_layouts false row 6 5 row_ok). exists row_best. split; [exact row_layout|]. split; vm_compute; reflexivity.
Qed.
(** Departments 0, 1 placed in the one and 0, 2 in the other: one of 1 and 2 is left to place after merging, and 3 and 4. *)
Definition row_next (b : nat) : sr_state := pb_trans (sr_problem false row) (pb_trans (sr_problem false row) (sr_init row) (mk_dec 0 0)) (mk_dec 1 (Z.of_nat b)).
Definition row_mix : sr_state := mk_srs 24 (Some 6%N) [IMAX; 9; 6; 1; 3] 2.
Lemma row_layer b : b = 1%nat \/ b = 2%nat -> sr_layer row 6 2 (row_next b).
Proof.
  intros Hb. destruct (wfd_problem _ _ _ _ _ _ _ (sr_formed row 6 5 row_ok false)) as [Hi _ _ _ Ht].
  assert (In (mk_dec 0 0) (pb_domain (sr_problem false row) (sr_nv 0) (sr_init row))) as H0 by (vm_compute; auto).
  assert (In (mk_dec 1 (Z.of_nat b)) (pb_domain (sr_problem false row) (sr_nv 1) (pb_trans (sr_problem false row) (sr_init row) (mk_dec 0 0)))) as H1 by (destruct Hb as [-> | ->]; vm_compute; auto).
  exact (Ht 1%nat _ _ ltac:(cbn; lia) (Ht 0%nat _ _ ltac:(cbn; lia) Hi H0) H1).
Qed.
Lemma row_mixed : sr_merge row [row_next 1; row_next 2] = Some row_mix. Proof. vm_compute. reflexivity. Qed.
Lemma row_mix_layer : sr_layer row 6 2 row_mix.
Proof.
  destruct (merge_spec row 6 5 row_ok 2 [row_next 1; row_next 2]) as (m & E & _ & Hm); [discriminate| |].
  - constructor; [apply row_layer; auto|constructor; [apply row_layer; auto|constructor]].
  - rewrite row_mixed in E. congruence.
Qed.
Definition last_three : list decision := [mk_dec 2 1; mk_dec 3 3; mk_dec 4 4].
Lemma row_completions : completion sr_state (sr_problem false row) sr_nv 2 (row_next 2) last_three (- 59) /\ completion sr_state (sr_problem false row) sr_nv 2 row_mix last_three (- 25).
Proof. split; apply (completions_only _ (sr_problem false row) sr_nv 3); try reflexivity; vm_compute; tauto. Qed.
Lemma row_merge_case : sr_ok row 6 5 /\ sr_layer row 6 2 (row_next 1) /\ sr_layer row 6 2 (row_next 2) /\
  row_next 1 = mk_srs 28 None [0; 0; 6; 1; 3] 2 /\ row_next 2 = mk_srs 26 None [0; 9; 0; 6; 5] 2 /\
  sr_merge row [row_next 1; row_next 2] = Some (mk_srs 24 (Some 6%N) [IMAX; 9; 6; 1; 3] 2) /\
  completion sr_state (sr_problem false row) sr_nv 2 (row_next 2) last_three (- 59) /\
  completion sr_state (sr_problem false row) sr_nv 2 (mk_srs 24 (Some 6%N) [IMAX; 9; 6; 1; 3] 2) last_three (- 25).
Proof.
  split; [exact row_ok|]. split; [apply row_layer; auto|]. split; [apply row_layer; auto|]. split; [vm_compute; reflexivity|]. split; [vm_compute; reflexivity|]. split; [exact row_mixed|exact row_completions].
Qed.
Lemma row_estimate_case : sr_ok row 6 5 /\ Z.of_nat (sr_n row) * 6 * 5 < 2 ^ 23 /\ sr_layer row 6 2 row_mix /\ (size row (must row_mix) < sr_n row - 2)%nat /\
  sr_estimate false row row_mix = Some (- 9) /\ sr_estimate true row row_mix = Some (- 9) /\
  completion sr_state (sr_problem false row) sr_nv 2 row_mix [mk_dec 2 2; mk_dec 3 3; mk_dec 4 4] (- 19).
Proof.
  split; [exact row_ok|]. split; [exact row_float|]. split; [exact row_mix_layer|]. split; [vm_compute; lia|]. split; [vm_compute; reflexivity|]. split; [vm_compute; reflexivity|].
  apply (completions_only _ (sr_problem false row) sr_nv 3); try reflexivity; vm_compute; tauto.
Qed.
Lemma row_debug : sr_ok row 6 5 /\ run sr_state (sr_problem true row) sr_nv 0 (sr_init row) [mk_dec 0 0; mk_dec 1 2] 2 (row_next 2) (- 8) /\ sr_estimate false row (row_next 2) = Some (- 59) /\ sr_estimate true row (row_next 2) = None.
Proof.
  split; [exact row_ok|]. split; [|split; vm_compute; reflexivity]. change 2%nat with (0 + length [mk_dec 0 0; mk_dec 1 2])%nat at 2. apply (follow_run sr_state (sr_problem true row)). vm_compute. reflexivity.
Qed.

(** 2. Two lengths of which 32 bits keep too few digits. *)
Definition wide : sr_inst := sr_make 3 [1; 1; 2 ^ 24 + 1] [0; 1; 2 ^ 24; 1; 0; 0; 2 ^ 24; 0; 0].
Lemma wide_ok : sr_ok wide (2 ^ 24) (2 ^ 24 + 1). Proof. apply sr_checked. vm_compute. reflexivity. Qed.
Definition wide_next : sr_state := pb_trans (sr_problem false wide) (sr_init wide) (mk_dec 0 0).
Lemma wide_refutes : exists I F L k s ds0 c0 ds c e, sr_ok I F L /\ run sr_state (sr_problem false I) sr_nv 0 (sr_init I) ds0 k s c0 /\ (k < sr_n I)%nat /\
  completion sr_state (sr_problem false I) sr_nv k s ds c /\ sr_estimate false I s = Some e /\ e < c.
Proof.
  exists wide, (2 ^ 24), (2 ^ 24 + 1), 1%nat, wide_next, [mk_dec 0 0], 0, [mk_dec 1 1; mk_dec 2 2], (- 2 ^ 24), (- 2 ^ 24 - 1).
  split; [exact wide_ok|]. split; [change 1%nat with (0 + length [mk_dec 0 0])%nat; apply (follow_run sr_state (sr_problem false wide)); vm_compute; reflexivity|]. split; [cbn; lia|]. split; [|split; vm_compute; reflexivity].
  apply (completions_only _ (sr_problem false wide) sr_nv 2); [reflexivity|]. vm_compute. tauto.
Qed.

(** 3. The solvers on the five departments, and on five wide ones. *)
Definition row_sol : list decision := [mk_dec 4 4; mk_dec 3 0; mk_dec 2 1; mk_dec 1 2; mk_dec 0 3].
Lemma row_par : plook _ _ (prun sr_state sr_eqb (sr_cfg false row 1 LastExactLayer) 2 2 (go 100 0 ++ go 100 1)) = Some (mk_view true false (-28) (-28) (Some (-28)) (Some row_sol)).
Proof. vm_compute. reflexivity. Qed.
Definition row_los : list decision := [mk_dec 4 3; mk_dec 3 2; mk_dec 2 1; mk_dec 1 0; mk_dec 0 4].
Lemma row_bar : qlook _ _ (qrun sr_state sr_eqb (sr_cfg false row 1 LastExactLayer) 1 1 (go 600 0)) = Some (mk_view true false (-28) (-28) (Some (-28)) (Some row_los)).
Proof. vm_compute. reflexivity. Qed.
Lemma row_solved : sr_ok row 6 5 /\ Z.of_nat (sr_n row) * 6 * 5 < 2 ^ 23 /\
  (exists st, reachable sr_state sr_eqb (sr_cfg false row 1 LastExactLayer) 2 2 st /\ proved _ st /\ best_value_of _ st = Some (-28)) /\
  (exists st, breachable sr_state sr_eqb (sr_cfg false row 1 LastExactLayer) 1 1 st /\ bproved _ st /\ bbest_value _ st = Some (-28)).
Proof.
  split; [exact row_ok|]. split; [exact row_float|]. split.
  - destruct (prun_look _ _ _ _ _ _ _ row_par) as (st & H1 & H2 & H3 & H4 & _). exists st. split; [exact H1|]. split; [exact (conj (H2 eq_refl) H3)|exact H4].
  - destruct (qrun_look _ _ _ _ _ _ _ row_bar) as (st & H1 & H2 & H3 & H4 & _). exists st. split; [exact H1|]. split; [exact (conj (H2 eq_refl) H3)|exact H4].
Qed.

Definition star : sr_inst := sr_make 5 [134217735; 134217733; 134217735; 134217732; 134217735]
  [0; 134217731; 134217732; 134217735; 134217731;  134217731; 0; 0; 0; 0;  134217732; 0; 0; 0; 0;  134217735; 0; 0; 0; 0;  134217731; 0; 0; 0; 0].
Lemma star_ok : sr_ok star 134217735 134217735. Proof. apply sr_checked. vm_compute. reflexivity. Qed.
Definition star_best : list nat := [2; 3; 0; 1; 4]%nat.
Lemma star_layout : layout star star_best.
Proof. unfold layout. apply NoDup_Permutation; [apply seq_NoDup| |]; [unfold star_best; repeat (constructor; [cbn; lia|]); constructor|]. intros x. rewrite in_seq. cbn. lia. Qed.
Lemma star_cost : unavoidable2 star - layout_cost2 star star_best = 2 * - 36028799166447647. Proof. vm_compute. reflexivity. Qed.
Lemma star_par ct : exists sol, plook _ _ (prun sr_state sr_eqb (sr_cfg false star 1 ct) 1 1 (go 600 0)) = Some (mk_view true false (- 36028799300665377) (- 36028799300665377) (Some (- 36028799300665377)) (Some sol)).
Proof. destruct ct; eexists; vm_compute; reflexivity. Qed.
Lemma star_bar ct : exists sol, qlook _ _ (qrun sr_state sr_eqb (sr_cfg false star 1 ct) 1 1 (go 600 0)) = Some (mk_view true false (- 36028799300665377) (- 36028799300665377) (Some (- 36028799300665377)) (Some sol)).
Proof. destruct ct; eexists; vm_compute; reflexivity. Qed.
Lemma star_refutes : exists I F L p v, sr_ok I F L /\ layout I p /\ 2 * v < unavoidable2 I - layout_cost2 I p /\ forall ct,
  (exists st, reachable sr_state sr_eqb (sr_cfg false I 1 ct) 1 1 st /\ proved _ st /\ best_value_of _ st = Some v) /\
  (exists st, breachable sr_state sr_eqb (sr_cfg false I 1 ct) 1 1 st /\ bproved _ st /\ bbest_value _ st = Some v).
Proof.
  exists star, 134217735, 134217735, star_best, (- 36028799300665377). split; [exact star_ok|]. split; [exact star_layout|]. split; [rewrite star_cost; reflexivity|]. intros ct. split.
  - destruct (star_par ct) as (sol & E). destruct (prun_look _ _ _ _ _ _ _ E) as (st & H1 & H2 & H3 & H4 & _). exists st. split; [exact H1|]. split; [exact (conj (H2 eq_refl) H3)|exact H4].
  - destruct (star_bar ct) as (sol & E). destruct (qrun_look _ _ _ _ _ _ _ E) as (st & H1 & H2 & H3 & H4 & _). exists st. split; [exact H1|]. split; [exact (conj (H2 eq_refl) H3)|exact H4].
Qed.

(** 4. A matrix of flows as it may be read from a file. *)
Definition uneven : matrix Z := mk_mat 3 3 [7; 1; 4; 2; 8; 5; 4; 0; 9].
Lemma uneven_case : square 3 uneven /\
  (forall i j, (i < 3)%nat -> (j < 3)%nat -> i <> j -> in_isize (total_flow (entry uneven i j) (entry uneven j i))) /\
  sr_fold_flows true 3 uneven = Some (mk_mat 3 3 [7; 3; 4; 3; 8; 5; 4; 5; 9]).
Proof.
  split; [split; [reflexivity|split; reflexivity]|]. split; [|vm_compute; reflexivity].
  intros i j Hi Hj _. unfold in_isize. do 3 (destruct i as [|i]; [do 3 (destruct j as [|j]; [vm_compute; split; discriminate|]); lia|]). lia.
Qed.
