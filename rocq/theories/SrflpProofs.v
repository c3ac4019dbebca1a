(** The SRFLP example handed to the solvers. *)
From Verif Require Import Spec DdSpec ParSpec ParProofs BarSpec BarProofs Fringe Srflp SrflpSpec Bits BitsFacts MatrixFacts PspFacts SrflpFacts SrflpLayouts SrflpMerge SrflpAdmissible.
From Coq Require Import Lia.
Open Scope Z_scope.

Lemma cut_eqb_spec : forall a b, cut_eqb a b = true <-> a = b.
Proof.
  induction a as [|x a IH]; intros [|y b]; cbn [cut_eqb]; split; intros H; try discriminate; auto.
  - apply andb_prop in H. destruct H as [H1 H2]. apply Z.eqb_eq in H1. apply IH in H2. congruence.
  - inversion H; subst. rewrite Z.eqb_refl. apply IH. reflexivity.
Qed.
Lemma sr_eqb_spec a b : sr_eqb a b = true <-> a = b.
Proof.
  unfold sr_eqb. destruct a as [m y c d], b as [m' y' c' d']. cbn [sr_must sr_maybe sr_cut sr_depth]. rewrite !andb_true_iff, Nat.eqb_eq, N.eqb_eq, cut_eqb_spec. split.
  - intros [[[-> H] ->] ->]. destruct y as [y|], y' as [y'|]; try discriminate; [apply N.eqb_eq in H; subst|]; reflexivity.
  - intros H. inversion H. subst. destruct y' as [y|]; rewrite ?N.eqb_refl; auto.
Qed.
Lemma sr_rank_preorder : total_preorder sr_rank.
Proof.
  split.
  - intros a b. unfold sr_rank. apply Nat.compare_antisym.
  - intros a b c. unfold sr_rank. rewrite !Nat.compare_le_iff. lia.
Qed.

(** The configuration of examples/srflp/main.rs:54 (width) and src/xputils.rs [solve_timeout] (frontier without duplicates). *)
Definition sr_cfg (debug : bool) (I : sr_inst) (factor : nat) (ct : cutset_type) : config sr_state :=
  mk_cfg (sr_problem debug I) (sr_relax I) sr_rank (sr_width I factor) ct (nodup_frontier sr_eqb sr_rank).

Section Proofs.
Variable I : sr_inst.
Variables F L : Z.
Hypothesis Hok : sr_ok I F L.
Let n := sr_n I.
Let C := Z.of_nat n * Z.of_nat n * F * L.
Notation layer := (sr_layer I F).

Lemma zsum_range B l : (forall x, In x l -> 0 <= x <= B) -> 0 <= zsum l <= Z.of_nat (length l) * B.
Proof. induction l as [|x l IH]; intros H; [cbn; lia|]. pose proof (H x (or_introl eq_refl)). specialize (IH (fun y Hy => H y (or_intror Hy))). cbn [zsum length]. rewrite zsum_cons || idtac. rewrite Nat2Z.inj_succ. cbn [fold_right] in *. nia. Qed.

Lemma crossing_range k s i : layer k s -> (k < n)%nat -> placeable I k s i -> 0 <= crossing I k s i <= Z.of_nat n * (Z.of_nat n * F).
Proof.
  intros Hs Hk Hi. pose proof (wo_must_le I F L Hok k s i Hs Hk Hi) as Hw. fold n in Hw. pose proof (so_F _ _ _ Hok) as HF. set (B := Z.of_nat n * F).
  assert (forall j, free s j = true -> 0 <= cut s j <= B) as Hc. { intros j Hj. pose proof (sl_cut _ _ _ _ Hs j Hj). unfold B. nia. }
  unfold crossing. fold n.
  pose proof (zsum_range B (map (cut s) (wo i (mustl I s)))) as H1. rewrite map_length in H1.
  assert (0 <= zsum (map (cut s) (wo i (mustl I s))) <= Z.of_nat (length (wo i (mustl I s))) * B) as H1'.
  { apply H1. intros x Hx. apply in_map_iff in Hx. destruct Hx as (j & <- & Hj). apply Hc. apply in_wo in Hj. destruct Hj as [Hj _]. apply (in_mustl I F k s j Hs) in Hj. unfold free. rewrite Hj. reflexivity. }
  set (q := (n - S k - length (wo i (mustl I s)))%nat).
  assert (0 <= mins q (map (cut s) (wo i (maybel I s))) <= Z.of_nat q * B) as H2.
  { unfold mins. set (z := firstn q (zsort (map (cut s) (wo i (maybel I s))))). assert (0 <= zsum z <= Z.of_nat (length z) * B) as Hz.
    { apply zsum_range. intros x Hx. assert (In x (zsort (map (cut s) (wo i (maybel I s))))) as Hx'.
      { rewrite <- (firstn_skipn q). apply in_or_app. left. exact Hx. }
      apply (Permutation_in _ (Permutation_sym (zsort_perm _))) in Hx'. apply in_map_iff in Hx'. destruct Hx' as (j & <- & Hj). apply Hc. apply in_wo in Hj. destruct Hj as [Hj _]. apply (in_maybel I F k s j Hs) in Hj. unfold free. rewrite Hj. apply orb_true_r. }
    pose proof (firstn_le_length q (zsort (map (cut s) (wo i (maybel I s))))) as Hl. fold z in Hl. assert (0 <= B) by (unfold B; nia). nia. }
  assert (0 <= B) by (unfold B; nia). assert (Z.of_nat (length (wo i (mustl I s))) + Z.of_nat q <= Z.of_nat n) by (unfold q; lia). nia.
Qed.
Lemma C_pos : 1 <= C.
Proof. pose proof (so_F _ _ _ Hok). pose proof (so_L _ _ _ Hok). pose proof (so_n _ _ _ Hok) as H1. fold n in H1. unfold C. assert (1 <= Z.of_nat n * Z.of_nat n) by nia. assert (1 <= Z.of_nat n * Z.of_nat n * F) by nia. nia. Qed.

Lemma cost_range debug k s d : (k < n)%nat -> layer k s -> In d (pb_domain (sr_problem debug I) (sr_nv k) s) -> Z.abs (pb_cost (sr_problem debug I) s d) <= C.
Proof.
  intros Hk Hs Hd. cbn [sr_problem pb_domain] in Hd. apply (domain_in debug I F k s d _ Hs) in Hd. destruct Hd as (i & Hi & ->). cbn [sr_problem pb_cost].
  rewrite (cost_spec debug I F L Hok k s i _ Hs Hk Hi). cbn [or_else]. pose proof (crossing_range k s i Hs Hk Hi) as H1. pose proof (so_len_range _ _ _ Hok i (placeable_lt I F k s i Hs Hi)) as H2.
  unfold C. rewrite Z.abs_opp, Z.abs_eq by nia. replace (Z.of_nat n * Z.of_nat n * F * L) with (L * (Z.of_nat n * (Z.of_nat n * F))) by ring. apply Z.mul_le_mono_nonneg; lia.
Qed.

Theorem sr_formed : forall debug, well_formed sr_state sr_eqb (sr_problem debug I) (sr_relax I) layer sr_nv C.
Proof.
  intros debug. constructor.
  - exact sr_eqb_spec.
  - constructor.
    + apply (init_layer I F).
    + reflexivity.
    + intros k l Hl Hf Hk. destruct l as [|s l]; [contradiction|]. inversion Hf as [|s' l' Hs _]; subst. cbn [sr_problem pb_next_var sr_next_var].
      destruct (sl_depth _ _ _ _ Hs) as [_ Ht]. cbn [sr_problem pb_nb_vars] in Hk. rewrite Ht. rewrite (proj2 (Nat.eqb_neq _ _)) by lia. reflexivity.
    + intros l Hl Hf. destruct l as [|s l]; [contradiction|]. inversion Hf as [|s' l' Hs _]; subst. cbn [sr_problem pb_next_var sr_next_var].
      destruct (sl_depth _ _ _ _ Hs) as [_ Ht]. cbn [sr_problem pb_nb_vars] in Ht. rewrite Ht, Nat.eqb_refl. reflexivity.
    + intros k s d Hk Hs Hd. cbn [sr_problem pb_domain] in Hd. apply (domain_in debug I F k s d _ Hs) in Hd. destruct Hd as (i & Hi & ->). exact (next_layer debug I F L Hok k s i Hs Hk Hi).
  - intros k l Hk Hl Hf. destruct (merge_spec I F L Hok k l Hl Hf) as (m & E & _ & Hm). cbn [sr_relax rx_merge]. rewrite E. exact Hm.
  - pose proof C_pos as HC. constructor.
    + lia.
    + cbn [sr_problem pb_nb_vars]. pose proof (so_range _ _ _ Hok) as Hr. fold n in Hr. fold C in Hr. exact Hr.
    + cbn. lia.
    + intros k s d Hk. apply cost_range. exact Hk.
    + intros k l s d Hk Hs Hd _ _. cbn [sr_relax rx_relax]. apply (cost_range debug k); assumption.
Qed.
Lemma sr_cover debug : relaxation_cover sr_state (sr_problem debug I) layer sr_nv (sr_relax I).
Proof.
  intros k l src d ds c Hk Hs Hd Hf Hin Hc. cbn [sr_problem pb_nb_vars] in Hk.
  destruct (merge_completion debug I F L Hok (S k) l _ ds c ltac:(lia) Hf Hin Hc) as (m & c' & E & H1 & H2).
  exists ds, c'. cbn [sr_relax rx_merge rx_relax]. rewrite E. split; [exact H1|]. lia.
Qed.
Theorem sr_behaved : Z.of_nat n * F * L < 2 ^ 23 -> well_behaved sr_state sr_eqb (sr_problem false I) (sr_relax I) layer sr_nv C.
Proof.
  intros Hf. constructor; [apply sr_formed| |apply sr_cover].
  intros k s ds c Hk Hs Hc. destruct (estimate_admissible I F L Hok false k s ds c Hs Hk (or_introl eq_refl) Hf Hc) as (e & He & H). cbn [sr_problem pb_estimate]. rewrite He. exact H.
Qed.

Theorem panic_free : forall k s, (k < n)%nat -> layer k s ->
  (forall debug, exists l, sr_domain debug I (sr_nv k) s = Some l /\
     forall d, In d l -> (exists s', sr_trans I s d = Some s') /\ (exists c, sr_cost debug I s d = Some c)) /\
  (forall l, Forall (layer k) l -> l <> [] -> exists m, sr_merge I l = Some m) /\
  exists e, sr_estimate false I s = Some e.
Proof.
  intros k s Hk Hs. split; [|split].
  - intros debug. apply (no_panic debug I F L Hok k s (sr_nv k) Hk Hs).
  - intros l Hl Hne. destruct (merge_spec I F L Hok k l Hne Hl) as (m & E & _). exists m. exact E.
  - apply (estimate_release I F L Hok k s Hs Hk).
Qed.

(** ** Solvers *)
Variable factor : nat.
Hypothesis Hfac : (1 <= factor)%nat.
Lemma sr_solver ct : good_solver sr_state sr_eqb (sr_cfg false I factor ct) layer sr_nv C.
Proof.
  apply nodup_solver; [apply sr_formed| |exact sr_rank_preorder]. intros s. unfold sr_width. pose proof (so_n _ _ _ Hok) as H. nia.
Qed.
Lemma sr_decided ct : decided_once sr_state (sr_cfg false I factor ct) sr_nv.
Proof. intros k k'. cbn [sr_cfg cf_pb sr_problem pb_nb_vars]. unfold sr_nv. lia. Qed.
Lemma reported_layout l v : reported_solution sr_state (sr_problem false I) sr_nv l v ->
  exists p, layout I p /\ Permutation l (layout_decisions p) /\ 2 * v = unavoidable2 I - layout_cost2 I p.
Proof. intros (ds & Hp & Hs). apply (solutions_are_layouts false I F L Hok) in Hs. destruct Hs as (p & H1 & -> & H2). exists p. auto. Qed.
Lemma half_exact p : layout I p -> exists v, 2 * v = unavoidable2 I - layout_cost2 I p.
Proof. intros Hp. exists (- over_all I p). rewrite (layout_cost_over I F L Hok p Hp). lia. Qed.
Lemma optimum_layout l v : optimum sr_state (sr_problem false I) sr_nv v -> reported_solution sr_state (sr_problem false I) sr_nv l v ->
  exists p, best_layout I p /\ Permutation l (layout_decisions p) /\ 2 * v = unavoidable2 I - layout_cost2 I p.
Proof.
  intros [_ Hopt] Hr. destruct (reported_layout l v Hr) as (p & H1 & H2 & H3). exists p. split; [|auto]. split; [exact H1|].
  intros p' Hp'. destruct (half_exact p' Hp') as (w & Hw). specialize (Hopt (layout_decisions p') w ltac:(apply (solutions_are_layouts false I F L Hok); exists p'; auto)). lia.
Qed.
Lemma not_infeasible : ~ infeasible sr_state (sr_problem false I) sr_nv.
Proof.
  intros H. destruct (half_exact (seq 0 n) (Permutation_refl _)) as (w & Hw). apply (H (layout_decisions (seq 0 n)) w). apply (solutions_are_layouts false I F L Hok). exists (seq 0 n). split; [apply Permutation_refl|auto].
Qed.

Theorem par_sr : Z.of_nat n * F * L < 2 ^ 23 -> forall nt m st, (1 <= m <= nt)%nat ->
  reachable sr_state sr_eqb (sr_cfg false I factor LastExactLayer) nt m st -> proved _ st ->
  exists v l p, best_value_of _ st = Some v /\ best_solution_of _ st = Some l /\ best_layout I p /\ Permutation l (layout_decisions p) /\
    2 * v = unavoidable2 I - layout_cost2 I p.
Proof.
  intros Hf nt m st Hm Hr Hp.
  pose proof (par_optimum _ _ _ _ _ _ nt m st (sr_solver LastExactLayer) (sr_behaved Hf) eq_refl (sr_decided _) Hm Hr Hp) as [_ H].
  destruct (best_value_of _ st) as [v|].
  - destruct H as (Ho & _ & l & Hl & Hs). destruct (optimum_layout l v Ho Hs) as (p & H1 & H2 & H3). exists v, l, p. auto.
  - destruct H as (Hi & Hn). exfalso. apply not_infeasible. exact Hi.
Qed.
Theorem bar_sr : Z.of_nat n * F * L < 2 ^ 23 -> forall nt st, (1 <= nt)%nat ->
  breachable sr_state sr_eqb (sr_cfg false I factor LastExactLayer) nt 1 st -> bproved _ st ->
  exists v l p, bbest_value _ st = Some v /\ bbest_solution _ st = Some l /\ best_layout I p /\ Permutation l (layout_decisions p) /\
    2 * v = unavoidable2 I - layout_cost2 I p.
Proof.
  intros Hf nt st Hm Hr Hp.
  pose proof (bar_optimum _ _ _ _ _ _ nt st (sr_solver LastExactLayer) (sr_behaved Hf) eq_refl (sr_decided _) Hm Hr Hp) as [_ H].
  destruct (bbest_value _ st) as [v|].
  - destruct H as (Ho & _ & l & Hl & Hs). destruct (optimum_layout l v Ho Hs) as (p & H1 & H2 & H3). exists v, l, p. auto.
  - destruct H as (Hi & Hn). exfalso. apply not_infeasible. exact Hi.
Qed.
Theorem par_layout : forall ct nt m st v, (m <= nt)%nat -> reachable sr_state sr_eqb (sr_cfg false I factor ct) nt m st -> best_value_of _ st = Some v ->
  exists l p, best_solution_of _ st = Some l /\ layout I p /\ Permutation l (layout_decisions p) /\ 2 * v = unavoidable2 I - layout_cost2 I p.
Proof.
  intros ct nt m st v Hm Hr Hv. destruct (par_solution _ _ _ _ _ _ nt m st (sr_solver ct) Hm Hr) as [(_ & H & _)|(l & w & H1 & H2 & _ & H3)]; [congruence|].
  assert (w = v) by congruence. subst w. destruct (reported_layout l v H3) as (p & H4 & H5 & H6). exists l, p. auto.
Qed.
Theorem bar_layout : forall ct nt m st v, (m <= nt)%nat -> breachable sr_state sr_eqb (sr_cfg false I factor ct) nt m st -> bbest_value _ st = Some v ->
  exists l p, bbest_solution _ st = Some l /\ layout I p /\ Permutation l (layout_decisions p) /\ 2 * v = unavoidable2 I - layout_cost2 I p.
Proof.
  intros ct nt m st v Hm Hr Hv. destruct (bar_solution _ _ _ _ _ _ nt m st (sr_solver ct) Hm Hr) as [(_ & H & _)|(l & w & H1 & H2 & _ & H3)]; [congruence|].
  assert (w = v) by congruence. subst w. destruct (reported_layout l v H3) as (p & H4 & H5 & H6). exists l, p. auto.
Qed.
End Proofs.

(** ** Debug builds *)
Section Debug.
Variable I : sr_inst.
Variables F L : Z.
Hypothesis Hok : sr_ok I F L.
Let n := sr_n I.

Lemma exact_run debug ds : forall k s k' s' c, run sr_state (sr_problem debug I) sr_nv k s ds k' s' c ->
  sr_layer I F k s -> (forall i, maybe s i = false) -> sr_layer I F k' s' /\ forall i, maybe s' i = false.
Proof.
  intros k s k' s' c H. induction H as [k s|k s d ds k' s' c Hk Hd Hr IH]; intros Hs Hm; [auto|]. cbn [sr_problem pb_nb_vars] in Hk. cbn [sr_problem pb_domain] in Hd.
  apply (domain_in debug I F k s d _ Hs) in Hd. destruct Hd as (i & Hi & ->). apply IH.
  - exact (next_layer debug I F L Hok k s i Hs Hk Hi).
  - intros j. pose proof (next_placed debug I F L Hok k s i Hs Hi) as Hp. pose proof (pd_maybe _ _ _ _ Hp j) as H. unfold next in H. change (sr_nv k) with k. rewrite H, Hm. apply andb_false_r.
Qed.
Theorem exact_debug_panics : forall ds k s c, run sr_state (sr_problem true I) sr_nv 0 (sr_init I) ds k s c -> (k < n)%nat -> sr_estimate true I s = None.
Proof.
  intros ds k s c Hr Hk. destruct (exact_run true ds _ _ _ _ _ Hr (init_layer I F) (init_maybe I)) as [Hs Hm].
  apply (estimate_debug_panics I F L Hok k s Hs Hk). pose proof (sl_must _ _ _ _ Hs) as H1. pose proof (sl_free _ _ _ _ Hs) as H2.
  assert (size I (free s) = size I (must s)) as E. { unfold size. f_equal. apply filter_ext. intros i. unfold free. rewrite Hm, orb_false_r. reflexivity. }
  unfold n in Hk. lia.
Qed.
Theorem merged_debug : forall k s, sr_layer I F k s -> (k < n)%nat -> (size I (must s) < n - k)%nat -> exists e, sr_estimate true I s = Some e.
Proof.
  intros k s Hs Hk Hm. eexists. apply (estimate_eq I F L Hok true k s Hs Hk). right. rewrite size_must in Hm. unfold n in Hm. lia.
Qed.
End Debug.
