(** Concrete instances of the TSPTW example. Nothing here models code of /repo. *)
From Verif Require Import Spec Dd DdSpec MddAll FrontierSpec ParSpec ParProofs MddBarrier BarSpec BarProofs ParCases NoDupFacts ExecAny TsptwSpec BitsFacts TsptwFacts TsptwMerge TsptwTours TsptwPanic.
Open Scope Z_scope.

Definition tw_make (n : nat) (D : list Z) (W : list (Z * Z)) : tw_inst := mk_tw n (mk_mat n n D) (map (fun p => mk_window (fst p) (snd p)) W).

(** Checking an instance. *)
Definition all2 (n : nat) (f : nat -> nat -> bool) : bool := forallb (fun i => forallb (f i) (seq 0 n)) (seq 0 n).
Lemma all2_ok n f : all2 n f = true -> forall i j, (i < n)%nat -> (j < n)%nat -> f i j = true.
Proof.
  intros H i j Hi Hj. unfold all2 in H. rewrite forallb_forall in H. specialize (H i ltac:(apply in_seq; lia)). rewrite forallb_forall in H. apply H. apply in_seq. lia.
Qed.
Definition inst_check (I : tw_inst) (M : Z) : bool :=
  let n := tw_n I in
  (1 <=? n)%nat && ((mx_n (tw_dist I) =? n)%nat && (mx_m (tw_dist I) =? n)%nat && (length (mx_data (tw_dist I)) =? n * n)%nat) && (length (tw_win I) =? n)%nat &&
  all2 n (fun i j => (0 <=? dist I i j) && (dist I i j <=? M)) &&
  forallb (fun j => (0 <=? opens I j) && (opens I j <=? M) && (opens I j <=? closes I j)) (seq 0 n) &&
  ((Z.of_nat n + 2) * ((Z.of_nat n + 1) * M) <=? IMAX).
Lemma inst_checked I M : inst_check I M = true -> tw_inst_ok I M.
Proof.
  unfold inst_check. rewrite !andb_true_iff, !Nat.eqb_eq, Nat.leb_le, Z.leb_le. intros (((((H1 & ((H2 & H3) & H4)) & H5) & H6) & H7) & H8). constructor; auto.
  - intros i j Hi Hj. pose proof (all2_ok _ _ H6 i j Hi Hj) as H. rewrite andb_true_iff, !Z.leb_le in H. exact H.
  - intros j Hj. rewrite forallb_forall in H7. specialize (H7 j ltac:(apply in_seq; lia)). rewrite !andb_true_iff, !Z.leb_le in H7. tauto.
Qed.
Definition triangle_check (I : tw_inst) : bool :=
  forallb (fun k => all2 (tw_n I) (fun i j => dist I i k <=? dist I i j + dist I j k)) (seq 0 (tw_n I)).
Lemma triangle_checked I : triangle_check I = true -> triangle I.
Proof.
  intros H i j k Hi Hj Hk. unfold triangle_check in H. rewrite forallb_forall in H. specialize (H k ltac:(apply in_seq; lia)).
  pose proof (all2_ok _ _ H i j Hi Hj) as H'. apply Z.leb_le in H'. exact H'.
Qed.

(** 1. Without the triangle inequality: the tour 0, 1, 2, 0 meets all the time windows, but node 2 cannot be reached in time
    directly from the depot. *)
Definition no_triangle : tw_inst := tw_make 3 [0; 1; 10; 1; 0; 1; 10; 1; 0] [(0, 100); (0, 100); (0, 5)].

Lemma no_triangle_ok : tw_inst_ok no_triangle 10. Proof. apply inst_checked. vm_compute. reflexivity. Qed.
Lemma no_triangle_tour : feasible_tour no_triangle [1%nat; 2%nat] 12. Proof. split; [reflexivity|vm_compute; reflexivity]. Qed.
Lemma no_triangle_none debug ds v : ~ solution tw_state (tw_problem debug no_triangle) tw_nv ds v.
Proof.
  intros (c & Hc & _). apply completion_in in Hc. assert (E : completions (tw_problem debug no_triangle) tw_nv 3 0 (pb_init (tw_problem debug no_triangle)) = []) by (vm_compute; reflexivity).
  change (pb_nb_vars (tw_problem debug no_triangle) - 0)%nat with 3%nat in Hc. rewrite E in Hc. destruct Hc.
Qed.

(** 2. Five nodes at distance 1 from each other. Node 1 opens at 10, nodes 3 and 4 at 20. *)
Definition waiting : tw_inst := tw_make 5 [0; 1; 1; 1; 1; 1; 0; 1; 1; 1; 1; 1; 0; 1; 1; 1; 1; 1; 0; 1; 1; 1; 1; 1; 0] [(0, 100); (10, 100); (0, 100); (20, 100); (20, 100)].
Lemma waiting_ok : tw_inst_ok waiting 20. Proof. apply inst_checked. vm_compute. reflexivity. Qed.
Lemma waiting_triangle : triangle waiting. Proof. apply triangle_checked. vm_compute. reflexivity. Qed.
Definition first_visit (I : tw_inst) (j : nat) : tw_state := pb_trans (tw_problem false I) (pb_init (tw_problem false I)) (mk_dec 0 (Z.of_nat j)).
Lemma waiting_reached debug j : (1 <= j <= 4)%nat -> exists c, run tw_state (tw_problem debug waiting) tw_nv 0 (pb_init (tw_problem debug waiting)) (visits 0 [j]) 1 (first_visit waiting j) c.
Proof.
  intros Hj. assert (E : exists c, follow (tw_problem debug waiting) tw_nv 0 (pb_init (tw_problem debug waiting)) (visits 0 [j]) = Some (first_visit waiting j, c)).
  { destruct j as [|[|[|[|[|j]]]]]; try lia; eexists; vm_compute; reflexivity. }
  destruct E as (c & E). exists c. apply (follow_run _ _ _ _ _ _ _ _ E).
Qed.
(** Having waited for node 1 to open, nodes 2, 3, 4 and the depot are visited in 12; from the merged state it takes 20. *)
Lemma waiting_one debug : completion tw_state (tw_problem debug waiting) tw_nv 1 (first_visit waiting 1) (visits 1 [2; 3; 4; 0]%nat) (-12).
Proof.
  assert (E : exists s', follow (tw_problem debug waiting) tw_nv 1 (first_visit waiting 1) (visits 1 [2; 3; 4; 0]%nat) = Some (s', -12)) by (eexists; vm_compute; reflexivity).
  destruct E as (s' & E). exists s'. apply (follow_run _ _ _ _ _ _ _ _ E).
Qed.
Lemma waiting_merged debug ds c : completion tw_state (tw_problem debug waiting) tw_nv 1 (tw_merge waiting [first_visit waiting 1; first_visit waiting 2]) ds c -> c <= -20.
Proof.
  intros H. apply completion_in in H. change (pb_nb_vars (tw_problem debug waiting) - 1)%nat with 4%nat in H.
  assert (E : forallb (fun x => snd x <=? -20) (completions (tw_problem debug waiting) tw_nv 4 1 (tw_merge waiting [first_visit waiting 1; first_visit waiting 2])) = true) by (vm_compute; reflexivity).
  rewrite forallb_forall in E. specialize (E _ H). apply Z.leb_le in E. exact E.
Qed.

(** 3. Four nodes at distance 1 from each other, always open. *)
Definition uniform (n : nat) : tw_inst := tw_make n (flat_map (fun i => map (fun j => if (i =? j)%nat then 0 else 1) (seq 0 n)) (seq 0 n)) (map (fun _ => (0, 100)) (seq 0 n)).
Lemma uniform4_ok : tw_inst_ok (uniform 4) 1. Proof. apply inst_checked. vm_compute. reflexivity. Qed.
Lemma uniform4_triangle : triangle (uniform 4). Proof. apply triangle_checked. vm_compute. reflexivity. Qed.
Lemma uniform4_reached debug j : (1 <= j <= 3)%nat -> exists c, run tw_state (tw_problem debug (uniform 4)) tw_nv 0 (pb_init (tw_problem debug (uniform 4))) (visits 0 [j]) 1 (first_visit (uniform 4) j) c.
Proof.
  intros Hj. assert (E : exists c, follow (tw_problem debug (uniform 4)) tw_nv 0 (pb_init (tw_problem debug (uniform 4))) (visits 0 [j]) = Some (first_visit (uniform 4) j, c)).
  { destruct j as [|[|[|[|j]]]]; try lia; eexists; vm_compute; reflexivity. }
  destruct E as (c & E). exists c. apply (follow_run _ _ _ _ _ _ _ _ E).
Qed.
Definition merged4 : tw_state := tw_merge (uniform 4) [first_visit (uniform 4) 1; first_visit (uniform 4) 2].
Lemma merged4_estimate debug : tw_estimate debug (uniform 4) merged4 = Some (-4). Proof. vm_compute. reflexivity. Qed.
Lemma merged4_one debug : completion tw_state (tw_problem debug (uniform 4)) tw_nv 1 (first_visit (uniform 4) 1) (visits 1 [2; 3; 0]%nat) (-3).
Proof.
  assert (E : exists s', follow (tw_problem debug (uniform 4)) tw_nv 1 (first_visit (uniform 4) 1) (visits 1 [2; 3; 0]%nat) = Some (s', -3)) by (eexists; vm_compute; reflexivity).
  destruct E as (s' & E). exists s'. apply (follow_run _ _ _ _ _ _ _ _ E).
Qed.

Lemma merged4_all debug : completion tw_state (tw_problem debug (uniform 4)) tw_nv 1 merged4 (visits 1 [2; 3; 0]%nat) (-2).
Proof.
  assert (E : exists s', follow (tw_problem debug (uniform 4)) tw_nv 1 merged4 (visits 1 [2; 3; 0]%nat) = Some (s', -2)) by (eexists; vm_compute; reflexivity).
  destruct E as (s' & E). exists s'. apply (follow_run _ _ _ _ _ _ _ _ E).
Qed.

Lemma merged4_layer : tw_layer (uniform 4) 1 1 merged4 /\ covers (uniform 4) merged4 (first_visit (uniform 4) 1).
Proof.
  assert (HF : Forall (tw_layer (uniform 4) 1 1) [first_visit (uniform 4) 1; first_visit (uniform 4) 2]).
  { assert (H : forall j, (1 <= j <= 3)%nat -> tw_layer (uniform 4) 1 1 (first_visit (uniform 4) j)).
    { intros j Hj. destruct (uniform4_reached false j Hj) as (c & Hr). apply (run_time false (uniform 4) 1 uniform4_ok _ _ _ _ _ _ Hr); [apply init_layer; exact uniform4_ok|lia]. }
    constructor; [apply H; lia|constructor; [apply H; lia|constructor]]. }
  split.
  - exact (proj2 (merge_spec (uniform 4) 1 uniform4_ok 1 [first_visit (uniform 4) 1; first_visit (uniform 4) 2] ltac:(cbn; lia) ltac:(discriminate) HF)).
  - exact (merge_covers (uniform 4) 1 uniform4_ok 1 _ _ ltac:(cbn; lia) HF (or_introl eq_refl)).
Qed.
Lemma merged4_other : may_visit merged4 1 /\ ~ must_visit (first_visit (uniform 4) 1) 1.
Proof. split; [eexists; split; vm_compute; reflexivity|vm_compute; discriminate]. Qed.
Lemma merged4_case : tw_inst_ok (uniform 4) 1 /\ tw_layer (uniform 4) 1 1 merged4 /\ covers (uniform 4) merged4 (first_visit (uniform 4) 1) /\
  tw_estimate true (uniform 4) merged4 = Some (-4) /\
  completion tw_state (tw_problem true (uniform 4)) tw_nv 1 (first_visit (uniform 4) 1) (visits 1 [2; 3; 0]%nat) (-3) /\
  may_visit merged4 1 /\ ~ must_visit (first_visit (uniform 4) 1) 1 /\ dist (uniform 4) 2 1 = 1 /\
  time_of merged4 + 1 <= closes (uniform 4) 1 /\ time_of merged4 + 3 + 1 <= closes (uniform 4) 0.
Proof.
  destruct merged4_layer as [H1 H2]. destruct merged4_other as [H3 H4].
  repeat apply conj; [exact uniform4_ok|exact H1|exact H2|exact (merged4_estimate true)|exact (merged4_one true)|exact H3|exact H4|vm_compute; reflexivity|vm_compute; discriminate|vm_compute; discriminate].
Qed.
(** 4. Seven nodes: two states that have visited 1 and 2, or 3 and 4, are merged, then all four are visited. *)
Definition two_visits (a b : nat) : tw_state := pb_trans (tw_problem false (uniform 7)) (first_visit (uniform 7) a) (mk_dec 1 (Z.of_nat b)).
Definition merged7 : tw_state := tw_merge (uniform 7) [two_visits 1 2; two_visits 3 4].
Definition late7 : option (tw_state * Z) := follow (tw_problem true (uniform 7)) tw_nv 2 merged7 (visits 2 [1; 2; 3; 4]%nat).
Lemma uniform7_ok : tw_inst_ok (uniform 7) 1. Proof. apply inst_checked. vm_compute. reflexivity. Qed.
Lemma two_reached debug a b : (a, b) = (1, 2)%nat \/ (a, b) = (3, 4)%nat ->
  exists c, run tw_state (tw_problem debug (uniform 7)) tw_nv 0 (pb_init (tw_problem debug (uniform 7))) (visits 0 [a; b]) 2 (two_visits a b) c.
Proof.
  intros Hj. assert (E : exists c, follow (tw_problem debug (uniform 7)) tw_nv 0 (pb_init (tw_problem debug (uniform 7))) (visits 0 [a; b]) = Some (two_visits a b, c)).
  { destruct Hj as [Hj|Hj]; injection Hj as -> ->; eexists; vm_compute; reflexivity. }
  destruct E as (c & E). exists c. apply (follow_run _ _ _ _ _ _ _ _ E).
Qed.
Lemma late7_panics : exists s c, run tw_state (tw_problem true (uniform 7)) tw_nv 2 merged7 (visits 2 [1; 2; 3; 4]%nat) 6 s c /\ tw_estimate true (uniform 7) s = None.
Proof.
  assert (E : exists s c, follow (tw_problem true (uniform 7)) tw_nv 2 merged7 (visits 2 [1; 2; 3; 4]%nat) = Some (s, c) /\ tw_estimate true (uniform 7) s = None).
  { eexists _, _. split; [vm_compute; reflexivity|vm_compute; reflexivity]. }
  destruct E as (s & c & E & H). exists s, c. split; [|exact H]. apply (follow_run _ _ _ _ _ _ _ _ E).
Qed.

(** 5. The solvers, as the example runs them. *)
Definition tw_cfg (debug : bool) (I : tw_inst) (factor : nat) (ct : cutset_type) : config tw_state :=
  mk_cfg (tw_problem debug I) (tw_relax I) tw_rank (tw_width I factor) ct (nodup_frontier tw_eqb tw_rank).
Lemma tw_rank_preorder : total_preorder tw_rank.
Proof.
  unfold tw_rank. split.
  - intros a b. apply Nat.compare_antisym.
  - intros a b c. rewrite !Nat.compare_le_iff. lia.
Qed.
Lemma tw_cfg_solver debug I M factor ct : tw_inst_ok I M -> (1 <= factor)%nat ->
  good_solver tw_state tw_eqb (tw_cfg debug I factor ct) (tw_layer I M) tw_nv ((Z.of_nat (tw_n I) + 1) * M).
Proof.
  intros Hok Hf. apply nodup_solver; [apply tsptw_formed, Hok| |exact tw_rank_preorder]. intros s. unfold tw_width. pose proof (io_n _ _ Hok). nia.
Qed.
Lemma reported_tour debug I M l v : tw_inst_ok I M -> reported_solution tw_state (tw_problem debug I) tw_nv l v ->
  exists t T, feasible_tour I t T /\ Permutation l (visits 0 (t ++ [0%nat])) /\ v = - T.
Proof. intros Hok (ds & HP & Hs). destruct (solutions_are_tours debug I M Hok ds v Hs) as (t & T & H1 & -> & H3). exists t, T. auto. Qed.
Lemma par_tour debug I M factor ct n m st v : tw_inst_ok I M -> (1 <= factor)%nat -> (m <= n)%nat ->
  reachable tw_state tw_eqb (tw_cfg debug I factor ct) n m st -> best_value_of _ st = Some v ->
  exists l t T, best_solution_of _ st = Some l /\ feasible_tour I t T /\ Permutation l (visits 0 (t ++ [0%nat])) /\ v = - T.
Proof.
  intros Hok Hf Hm Hr Hv. destruct (par_solution _ _ _ _ _ _ n m st (tw_cfg_solver debug I M factor ct Hok Hf) Hm Hr) as [(_ & H & _)|(l & w & H1 & H2 & _ & H3)]; [congruence|].
  assert (w = v) by congruence. subst w. destruct (reported_tour debug I M l v Hok H3) as (t & T & H4 & H5 & H6). exists l, t, T. auto.
Qed.
Lemma bar_tour debug I M factor ct n m st v : tw_inst_ok I M -> (1 <= factor)%nat -> (m <= n)%nat ->
  breachable tw_state tw_eqb (tw_cfg debug I factor ct) n m st -> bbest_value _ st = Some v ->
  exists l t T, bbest_solution _ st = Some l /\ feasible_tour I t T /\ Permutation l (visits 0 (t ++ [0%nat])) /\ v = - T.
Proof.
  intros Hok Hf Hm Hr Hv. destruct (bar_solution _ _ _ _ _ _ n m st (tw_cfg_solver debug I M factor ct Hok Hf) Hm Hr) as [(_ & H & _)|(l & w & H1 & H2 & _ & H3)]; [congruence|].
  assert (w = v) by congruence. subst w. destruct (reported_tour debug I M l v Hok H3) as (t & T & H4 & H5 & H6). exists l, t, T. auto.
Qed.

(** Five nodes in the plane (Manhattan distances): the solvers answer that there is no tour. *)
Definition lost : tw_inst := tw_make 5 [0; 6; 7; 7; 9; 6; 0; 11; 13; 15; 7; 11; 0; 4; 16; 7; 13; 4; 0; 12; 9; 15; 16; 12; 0]
  [(0, 1000); (1, 20); (0, 1000); (0, 1000); (23, 26)].
Lemma lost_ok : tw_inst_ok lost 23. Proof. apply inst_checked. vm_compute. reflexivity. Qed.
Lemma lost_triangle : triangle lost. Proof. apply triangle_checked. vm_compute. reflexivity. Qed.
Lemma lost_tour : feasible_tour lost [1; 4; 3; 2]%nat 46.
Proof. split; [|vm_compute; reflexivity]. apply NoDup_Permutation; [repeat constructor; cbn; lia|apply seq_NoDup|]. intros x. rewrite in_seq. cbn. lia. Qed.
Lemma lost_par ct : plook _ _ (prun tw_state tw_eqb (tw_cfg false lost 1 ct) 1 1 (go 200 0)) = Some (mk_view true false IMIN IMIN None None).
Proof. destruct ct; vm_compute; reflexivity. Qed.
Lemma lost_bar ct : qlook _ _ (qrun tw_state tw_eqb (tw_cfg false lost 1 ct) 1 1 (go 200 0)) = Some (mk_view true false IMIN IMIN None None).
Proof. destruct ct; vm_compute; reflexivity. Qed.
(** And here that the best tour takes 75. *)
Definition worse : tw_inst := tw_make 5 [0; 2; 15; 12; 4; 2; 0; 17; 10; 6; 15; 17; 0; 11; 11; 12; 10; 11; 0; 12; 4; 6; 11; 12; 0]
  [(0, 1000); (34, 73); (47, 66); (47, 60); (33, 47)].
Lemma worse_ok : tw_inst_ok worse 47. Proof. apply inst_checked. vm_compute. reflexivity. Qed.
Lemma worse_triangle : triangle worse. Proof. apply triangle_checked. vm_compute. reflexivity. Qed.
Lemma worse_tour : feasible_tour worse [4; 2; 3; 1]%nat 70.
Proof. split; [|vm_compute; reflexivity]. apply NoDup_Permutation; [repeat constructor; cbn; lia|apply seq_NoDup|]. intros x. rewrite in_seq. cbn. lia. Qed.
Definition sol75 := [mk_dec 4 0; mk_dec 3 2; mk_dec 2 3; mk_dec 1 1; mk_dec 0 4].
Lemma worse_par ct : plook _ _ (prun tw_state tw_eqb (tw_cfg false worse 1 ct) 1 1 (go 200 0)) = Some (mk_view true false (-75) (-75) (Some (-75)) (Some sol75)).
Proof. destruct ct; vm_compute; reflexivity. Qed.
Lemma worse_bar ct : qlook _ _ (qrun tw_state tw_eqb (tw_cfg false worse 1 ct) 1 1 (go 200 0)) = Some (mk_view true false (-75) (-75) (Some (-75)) (Some sol75)).
Proof. destruct ct; vm_compute; reflexivity. Qed.

(** Six nodes in the plane without time windows: the solvers answer 44. *)
Definition open6 : tw_inst := tw_make 6 [0; 13; 6; 12; 6; 10; 13; 0; 7; 17; 13; 7; 6; 7; 0; 12; 6; 10; 12; 17; 12; 0; 6; 10; 6; 13; 6; 6; 0; 6; 10; 7; 10; 10; 6; 0]
  (repeat (0, 1000) 6).
Lemma open6_ok : tw_inst_ok open6 17. Proof. apply inst_checked. vm_compute. reflexivity. Qed.
Lemma open6_triangle : triangle open6. Proof. apply triangle_checked. vm_compute. reflexivity. Qed.
Lemma open6_windows j : (j < tw_n open6)%nat -> opens open6 j = 0 /\ Z.of_nat (tw_n open6) * 17 <= closes open6 j.
Proof. intros Hj. do 6 (destruct j as [|j]; [split; vm_compute; congruence|]). cbn in Hj. lia. Qed.
Lemma open6_tour : feasible_tour open6 [2; 1; 5; 3; 4]%nat 42.
Proof. split; [|vm_compute; reflexivity]. apply NoDup_Permutation; [repeat constructor; cbn; lia|apply seq_NoDup|]. intros x. rewrite in_seq. cbn. lia. Qed.
Lemma open6_par ct : option_map (fun v => (v_done v, v_int v, v_val v)) (plook _ _ (prun tw_state tw_eqb (tw_cfg false open6 1 ct) 1 1 (go 300 0))) = Some (true, false, Some (-44)).
Proof. destruct ct; vm_compute; reflexivity. Qed.
Lemma open6_bar ct : option_map (fun v => (v_done v, v_int v, v_val v)) (qlook _ _ (qrun tw_state tw_eqb (tw_cfg false open6 1 ct) 1 1 (go 1000 0))) = Some (true, false, Some (-44)).
Proof. destruct ct; vm_compute; reflexivity. Qed.

(** The statements of PropTsptw.v on these cases. *)
Lemma lost_not_tour : ~ exists T, feasible_tour lost [4; 1; 2; 3]%nat T.
Proof. intros (T & _ & H). vm_compute in H. discriminate. Qed.
Lemma first_two debug s : In s [first_visit waiting 1; first_visit waiting 2] ->
  exists ds0 c0, run tw_state (tw_problem debug waiting) tw_nv 0 (pb_init (tw_problem debug waiting)) ds0 1 s c0.
Proof.
  intros [<-|[<-|[]]]; [destruct (waiting_reached debug 1 ltac:(lia)) as (c & H)|destruct (waiting_reached debug 2 ltac:(lia)) as (c & H)]; eauto.
Qed.
Lemma waiting_loses : exists I M l src d ds c, forall debug,
  let P := tw_problem debug I in
  tw_inst_ok I M /\ triangle I /\
  (forall s, In s l -> exists ds0 c0, run tw_state P tw_nv 0 (pb_init P) ds0 1 s c0) /\
  In d (pb_domain P 0 src) /\ src = pb_init P /\ In (pb_trans P src d) l /\ completion tw_state P tw_nv 1 (pb_trans P src d) ds c /\
  forall ds' c', completion tw_state P tw_nv 1 (rx_merge (tw_relax I) l) ds' c' ->
    rx_relax (tw_relax I) src (pb_trans P src d) (rx_merge (tw_relax I) l) d (pb_cost P src d) + c' < pb_cost P src d + c.
Proof.
  exists waiting, 20, [first_visit waiting 1; first_visit waiting 2], (tw_init waiting), (mk_dec 0 1), (visits 1 [2; 3; 4; 0]%nat), (-12).
  intros debug P. split; [exact waiting_ok|]. split; [exact waiting_triangle|]. split; [exact (first_two debug)|].
  split; [left; reflexivity|]. split; [reflexivity|]. split; [left; reflexivity|]. split; [exact (waiting_one debug)|].
  intros ds' c' H. pose proof (waiting_merged debug ds' c' H). cbn [tw_relax rx_relax]. lia.
Qed.
Lemma reached_layer debug I M k s ds c : tw_inst_ok I M -> run tw_state (tw_problem debug I) tw_nv 0 (pb_init (tw_problem debug I)) ds k s c -> tw_layer I M k s.
Proof. intros Hok Hr. apply (run_time debug I M Hok _ _ _ _ _ _ Hr (init_layer debug I M Hok)). lia. Qed.
Lemma waiting_case : tw_inst_ok waiting 20 /\ Forall (tw_layer waiting 20 1) [first_visit waiting 1; first_visit waiting 2] /\
  completion tw_state (tw_problem true waiting) tw_nv 1 (first_visit waiting 1) (visits 1 [2; 3; 4; 0]%nat) (-12) /\
  tw_inst_ok (uniform 4) 1 /\ forall j, (j < 4)%nat -> opens (uniform 4) j = 0.
Proof.
  split; [exact waiting_ok|]. split; [|split; [exact (waiting_one true)|split; [exact uniform4_ok|]]].
  - apply Forall_forall. intros s Hs. destruct (first_two true s Hs) as (ds & c & Hr). exact (reached_layer true waiting 20 1 s ds c waiting_ok Hr).
  - intros j Hj. destruct j as [|[|[|[|j]]]]; try lia; reflexivity.
Qed.
Lemma estimate_too_low : exists I M l s e ds c, forall debug,
  let P := tw_problem debug I in
  tw_inst_ok I M /\ triangle I /\
  (forall s', In s' l -> exists ds0 c0, run tw_state P tw_nv 0 (pb_init P) ds0 1 s' c0) /\
  In s l /\ completion tw_state P tw_nv 1 s ds c /\
  tw_estimate debug I (rx_merge (tw_relax I) l) = Some e /\ e < c /\
  exists c', completion tw_state P tw_nv 1 (rx_merge (tw_relax I) l) ds c' /\ e < c'.
Proof.
  exists (uniform 4), 1, [first_visit (uniform 4) 1; first_visit (uniform 4) 2], (first_visit (uniform 4) 1), (-4), (visits 1 [2; 3; 0]%nat), (-3).
  intros debug P. split; [exact uniform4_ok|]. split; [exact uniform4_triangle|]. split.
  - intros s' [<-|[<-|[]]]; [destruct (uniform4_reached debug 1 ltac:(lia)) as (c & H)|destruct (uniform4_reached debug 2 ltac:(lia)) as (c & H)]; eauto.
  - split; [left; reflexivity|]. split; [exact (merged4_one debug)|]. split; [exact (merged4_estimate debug)|]. split; [lia|]. exists (-2). split; [exact (merged4_all debug)|lia].
Qed.
(** Three nodes at distance 1 from each other, the first of which closes at 1. *)
Definition tight : tw_inst := tw_make 3 [0; 1; 1; 1; 0; 1; 1; 1; 0] [(0, 10); (0, 1); (0, 10)].
Lemma called_hopeless : exists I M l s ds c, forall debug,
  let P := tw_problem debug I in
  tw_inst_ok I M /\ triangle I /\
  (forall s', In s' l -> exists ds0 c0, run tw_state P tw_nv 0 (pb_init P) ds0 1 s' c0) /\
  In s l /\ completion tw_state P tw_nv 1 s ds c /\ tw_estimate debug I (rx_merge (tw_relax I) l) = Some IMIN.
Proof.
  exists tight, 1, [first_visit tight 1; first_visit tight 2], (first_visit tight 1), (visits 1 [2; 0]%nat), (-2).
  intros debug P. split; [apply inst_checked; vm_compute; reflexivity|]. split; [apply triangle_checked; vm_compute; reflexivity|]. split.
  - assert (E : forall j, j = 1%nat \/ j = 2%nat -> exists c, follow P tw_nv 0 (pb_init P) (visits 0 [j]) = Some (first_visit tight j, c)).
    { intros j [->| ->]; eexists; unfold P; vm_compute; reflexivity. }
    intros s' [<-|[<-|[]]]; [destruct (E 1%nat (or_introl eq_refl)) as (c & H)|destruct (E 2%nat (or_intror eq_refl)) as (c & H)]; do 2 eexists; exact (follow_run _ _ _ _ _ _ _ _ H).
  - split; [left; reflexivity|]. split; [|unfold P; vm_compute; reflexivity].
    assert (E : exists s', follow P tw_nv 1 (first_visit tight 1) (visits 1 [2; 0]%nat) = Some (s', -2)) by (eexists; unfold P; vm_compute; reflexivity).
    destruct E as (s' & E). exists s'. exact (follow_run _ _ _ _ _ _ _ _ E).
Qed.
Lemma no_panic : forall debug I M, tw_inst_ok I M -> forall k s, (k < tw_n I)%nat -> tw_layer I M k s ->
  (exists l, tw_domain debug I (tw_nv k) s = Some l /\
     forall d, In d l -> (exists s', tw_trans I s d = Some s') /\ (exists c, tw_cost I s d = Some c)) /\
  (exists e, tw_estimate false I s = Some e).
Proof.
  intros debug I M Hok k s Hk HL. split; [|exact (estimate_release I M Hok k s HL Hk)].
  destruct (domain_some debug I M Hok k s (tw_nv k) HL Hk) as (l & E & Hl). exists l. split; [exact E|]. intros d Hd. apply Hl in Hd as (j & -> & Hal).
  pose proof (allowed_lt I M k s j HL Hk Hal) as Hj. split.
  - destruct (trans_some I M Hok k s (tw_nv k) j HL Hj) as (s' & E' & _). eauto.
  - eexists. apply (cost_some I M Hok k s (tw_nv k) j HL Hj).
Qed.
Lemma two_first debug s : In s [two_visits 1 2; two_visits 3 4] ->
  exists ds0 c0, run tw_state (tw_problem debug (uniform 7)) tw_nv 0 (pb_init (tw_problem debug (uniform 7))) ds0 2 s c0.
Proof. intros [<-|[<-|[]]]; [destruct (two_reached debug 1 2 ltac:(auto)) as (c & H)|destruct (two_reached debug 3 4 ltac:(auto)) as (c & H)]; eauto. Qed.
Lemma debug_panics : exists I M l ds s c,
  let P := tw_problem true I in
  tw_inst_ok I M /\ (forall s', In s' l -> exists ds0 c0, run tw_state P tw_nv 0 (pb_init P) ds0 2 s' c0) /\
  run tw_state P tw_nv 2 (rx_merge (tw_relax I) l) ds 6 s c /\ (6 < tw_n I)%nat /\ tw_estimate true I s = None.
Proof.
  destruct late7_panics as (s & c & H1 & H2). exists (uniform 7), 1, [two_visits 1 2; two_visits 3 4], (visits 2 [1; 2; 3; 4]%nat), s, c.
  split; [exact uniform7_ok|]. split; [exact (two_first true)|]. split; [exact H1|]. split; [cbn; lia|exact H2].
Qed.
Lemma merged7_case : tw_inst_ok (uniform 7) 1 /\ tw_layer (uniform 7) 1 2 merged7 /\
  tw_estimate true (uniform 7) merged7 = Some (-6) /\ length (pb_domain (tw_problem true (uniform 7)) 2 merged7) = 6%nat.
Proof.
  split; [exact uniform7_ok|]. split; [|split; vm_compute; reflexivity]. apply (merge_spec (uniform 7) 1 uniform7_ok 2); [cbn; lia|discriminate|].
  apply Forall_forall. intros s Hs. destruct (two_first true s Hs) as (ds & c & Hr). exact (reached_layer true (uniform 7) 1 2 s ds c uniform7_ok Hr).
Qed.
Lemma lost_refutes : exists I M l T, tw_inst_ok I M /\ triangle I /\ feasible_tour I l T /\
  forall ct,
  (exists st, reachable tw_state tw_eqb (tw_cfg false I 1 ct) 1 1 st /\ proved _ st /\ best_value_of _ st = None) /\
  (exists st, breachable tw_state tw_eqb (tw_cfg false I 1 ct) 1 1 st /\ bproved _ st /\ bbest_value _ st = None).
Proof.
  exists lost, 23, [1; 4; 3; 2]%nat, 46. split; [exact lost_ok|]. split; [exact lost_triangle|]. split; [exact lost_tour|]. intros ct. split.
  - destruct (prun_look _ _ _ _ _ _ _ (lost_par ct)) as (st & H1 & H2 & H3 & H4 & _). exists st. split; [exact H1|]. split; [exact (conj (H2 eq_refl) H3)|exact H4].
  - destruct (qrun_look _ _ _ _ _ _ _ (lost_bar ct)) as (st & H1 & H2 & H3 & H4 & _). exists st. split; [exact H1|]. split; [exact (conj (H2 eq_refl) H3)|exact H4].
Qed.
Lemma worse_refutes : exists I M l T T', tw_inst_ok I M /\ triangle I /\ feasible_tour I l T /\ T < T' /\
  forall ct,
  (exists st, reachable tw_state tw_eqb (tw_cfg false I 1 ct) 1 1 st /\ proved _ st /\ best_value_of _ st = Some (- T')) /\
  (exists st, breachable tw_state tw_eqb (tw_cfg false I 1 ct) 1 1 st /\ bproved _ st /\ bbest_value _ st = Some (- T')).
Proof.
  exists worse, 47, [4; 2; 3; 1]%nat, 70, 75. split; [exact worse_ok|]. split; [exact worse_triangle|]. split; [exact worse_tour|]. split; [lia|]. intros ct. split.
  - destruct (prun_look _ _ _ _ _ _ _ (worse_par ct)) as (st & H1 & H2 & H3 & H4 & _). exists st. split; [exact H1|]. split; [exact (conj (H2 eq_refl) H3)|exact H4].
  - destruct (qrun_look _ _ _ _ _ _ _ (worse_bar ct)) as (st & H1 & H2 & H3 & H4 & _). exists st. split; [exact H1|]. split; [exact (conj (H2 eq_refl) H3)|exact H4].
Qed.
Lemma open_refutes : exists I M l T T', tw_inst_ok I M /\ triangle I /\ (forall j, (j < tw_n I)%nat -> opens I j = 0 /\ Z.of_nat (tw_n I) * M <= closes I j) /\
  feasible_tour I l T /\ T < T' /\
  forall ct,
  (exists st, reachable tw_state tw_eqb (tw_cfg false I 1 ct) 1 1 st /\ proved _ st /\ best_value_of _ st = Some (- T')) /\
  (exists st, breachable tw_state tw_eqb (tw_cfg false I 1 ct) 1 1 st /\ bproved _ st /\ bbest_value _ st = Some (- T')).
Proof.
  exists open6, 17, [2; 1; 5; 3; 4]%nat, 42, 44. split; [exact open6_ok|]. split; [exact open6_triangle|]. split; [exact open6_windows|]. split; [exact open6_tour|]. split; [lia|]. intros ct. split.
  - assert (H := open6_par ct). destruct (plook _ _ _) as [v|] eqn:E; [|discriminate H]. destruct v. injection H as -> -> ->.
    destruct (prun_look _ _ _ _ _ _ _ E) as (st & H1 & H2 & H3 & H4 & _). exists st. split; [exact H1|]. split; [exact (conj (H2 eq_refl) H3)|exact H4].
  - assert (H := open6_bar ct). destruct (qlook _ _ _) as [v|] eqn:E; [|discriminate H]. destruct v. injection H as -> -> ->.
    destruct (qrun_look _ _ _ _ _ _ _ E) as (st & H1 & H2 & H3 & H4 & _). exists st. split; [exact H1|]. split; [exact (conj (H2 eq_refl) H3)|exact H4].
Qed.
Lemma worse_case : exists st, reachable tw_state tw_eqb (tw_cfg false worse 1 LastExactLayer) 1 1 st /\ best_value_of _ st = Some (-75) /\ best_solution_of _ st = Some sol75.
Proof. destruct (prun_look _ _ _ _ _ _ _ (worse_par LastExactLayer)) as (st & H1 & _ & _ & H4 & H5). exists st. auto. Qed.
