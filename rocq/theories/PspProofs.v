(** The PSP example handed to the solvers. *)
From Verif Require Import Spec DdSpec ParSpec ParProofs BarSpec BarProofs Fringe Psp PspSpec Bits BitsFacts MatrixFacts PspFacts PspPlans PspMerge PspEstimate.
Open Scope Z_scope.

Lemma zlist_eqb_spec : forall a b, zlist_eqb a b = true <-> a = b.
Proof.
  induction a as [|x a IH]; intros [|y b]; cbn [zlist_eqb]; split; intros H; try discriminate; auto.
  - apply andb_prop in H. destruct H as [H1 H2]. apply Z.eqb_eq in H1. apply IH in H2. congruence.
  - inversion H; subst. rewrite Z.eqb_refl. apply IH. reflexivity.
Qed.
Lemma psp_eqb_spec a b : psp_eqb a b = true <-> a = b.
Proof.
  unfold psp_eqb. destruct a as [t k u], b as [t' k' u']. cbn [pt_time pt_k pt_u]. rewrite !andb_true_iff, Nat.eqb_eq, Z.eqb_eq, zlist_eqb_spec. split.
  - intros [[-> ->] ->]. reflexivity.
  - intros H. inversion H. auto.
Qed.

Lemma zlist_cmp_anti : forall a b, zlist_cmp b a = CompOpp (zlist_cmp a b).
Proof.
  induction a as [|x a IH]; intros [|y b]; cbn [zlist_cmp]; try reflexivity. rewrite (Z.compare_antisym x y). destruct (x ?= y); cbn; auto.
Qed.
Lemma zlist_cmp_trans : forall a b c, zlist_cmp a b <> Gt -> zlist_cmp b c <> Gt -> zlist_cmp a c <> Gt.
Proof.
  induction a as [|x a IH]; intros [|y b] [|z c]; cbn [zlist_cmp]; try congruence.
  destruct (Z.compare_spec x y) as [->|Hxy|Hxy]; [|destruct (Z.compare_spec y z) as [->|Hyz|Hyz]|congruence].
  - destruct (Z.compare_spec y z) as [->|Hyz|Hyz]; [apply IH|congruence|congruence].
  - intros _ _. rewrite (proj2 (Z.compare_lt_iff x z) Hxy). congruence.
  - intros _ _. rewrite (proj2 (Z.compare_lt_iff x z) ltac:(lia)). congruence.
  - congruence.
Qed.
Lemma ps_rank_preorder : total_preorder ps_rank.
Proof.
  split.
  - intros a b. unfold ps_rank. rewrite (Nat.compare_antisym (pt_time a) (pt_time b)), (Z.compare_antisym (pt_k a) (pt_k b)), (zlist_cmp_anti (pt_u a) (pt_u b)).
    destruct (Nat.compare (pt_time a) (pt_time b)); cbn; auto. destruct (pt_k a ?= pt_k b); cbn; auto.
  - intros a b c. unfold ps_rank.
    pose proof (zlist_cmp_trans (pt_u a) (pt_u b) (pt_u c)) as Hu.
    destruct (Nat.compare_spec (pt_time a) (pt_time b)), (Nat.compare_spec (pt_time b) (pt_time c)), (Nat.compare_spec (pt_time a) (pt_time c)); try congruence; try lia;
    destruct (Z.compare_spec (pt_k a) (pt_k b)), (Z.compare_spec (pt_k b) (pt_k c)), (Z.compare_spec (pt_k a) (pt_k c)); try congruence; try lia; exact Hu.
Qed.

(** The configuration of examples/psp/main.rs: width [factor * nb_periods], frontier without duplicates. *)
Definition psp_cfg (J : psp) (factor : nat) (ct : cutset_type) : config psp_state :=
  mk_cfg (psp_pb J false) psp_rx ps_rank (ps_width J factor) ct (nodup_frontier psp_eqb ps_rank).

Section Proofs.
Variable D : psp_data.
Variable M : Z.
Hypothesis Hok : psp_ok D M.
Let T := pd_T D.
Let n := pd_n D.
Let C := (Z.of_nat T + 1) * M.
Variable J : psp.
Hypothesis HJ : loaded D J.

Lemma T_eq : ps_T J = T.
Proof. destruct (loaded_ok D M Hok J HJ) as (mst & _ & ->). reflexivity. Qed.

Lemma step_range k t s x : psp_layer D k s -> allowed D t s x -> Z.abs (step_cost D t s x) <= C.
Proof.
  intros Hs Ha. pose proof (po_M _ _ Hok) as HM. destruct x as [i|]; cbn [allowed step_cost] in *; [|unfold C; nia].
  destruct Ha as (Hi & Hd & _). pose proof (po_stock_range _ _ Hok i Hi).
  assert (0 <= (if pt_k s =? BOT then 0 else change D i (Z.to_nat (pt_k s))) <= M) as Hc.
  { destruct (Z.eqb_spec (pt_k s) BOT); [lia|]. apply (po_change_range _ _ Hok); [exact Hi|]. destruct (pl_k _ _ _ Hs) as [|Hk]; [contradiction|]. lia. }
  destruct (pl_deadline _ _ _ Hs i Hi) as [He|[He _]]; [rewrite He in Hd; lia|]. fold T in He. unfold C. nia.
Qed.

Theorem psp_formed : forall debug, well_formed psp_state psp_eqb (psp_pb J debug) psp_rx (psp_layer D) (psp_nv D) C.
Proof.
  intros debug. destruct (loaded_ok D M Hok J HJ) as (mst & Hmst & ->). constructor.
  - exact psp_eqb_spec.
  - constructor.
    + destruct (init_spec D M Hok mst debug) as (s & _ & -> & Hs & _). exact Hs.
    + reflexivity.
    + intros k l Hl Hf Hk. destruct l as [|s l]; [contradiction|]. inversion Hf as [|s' l' Hs _]; subst. cbn [psp_pb pb_next_var ps_next].
      destruct (pl_time _ _ _ Hs) as [_ Ht]. cbn in Hk. rewrite Ht. destruct (pd_T D - k)%nat as [|t] eqn:E; [lia|]. f_equal. unfold psp_nv. lia.
    + intros l Hl Hf. destruct l as [|s l]; [contradiction|]. inversion Hf as [|s' l' Hs _]; subst. cbn [psp_pb pb_next_var ps_next].
      destruct (pl_time _ _ _ Hs) as [_ Ht]. cbn [psp_pb pb_nb_vars] in Ht. change (ps_T (psp_build D mst)) with (pd_T D) in Ht. rewrite Nat.sub_diag in Ht. rewrite Ht. reflexivity.
    + intros k s d Hk Hs Hd. apply (domain_in D M Hok mst debug k) in Hd; [|exact Hs]. destruct Hd as (x & Ha & ->).
      apply (layer_trans D M Hok mst debug k); auto.
  - intros k l Hk Hl Hf. apply (layer_merge D k l Hl Hf).
  - assert (forall k s d, (k < T)%nat -> psp_layer D k s -> In d (pb_domain (psp_pb (psp_build D mst) debug) (psp_nv D k) s) -> Z.abs (pb_cost (psp_pb (psp_build D mst) debug) s d) <= C) as Hc.
    { intros k s d Hk Hs Hd. apply (domain_in D M Hok mst debug k) in Hd; [|exact Hs]. destruct Hd as (x & Ha & ->).
      cbn [psp_pb pb_cost]. rewrite (cost_spec D M Hok mst debug k s x _ Hs Ha). cbn [or_else]. apply (step_range k); assumption. }
    pose proof (po_M _ _ Hok) as HM. constructor.
    + unfold C. nia.
    + cbn [psp_pb pb_nb_vars]. change (ps_T (psp_build D mst)) with T. pose proof (po_range _ _ Hok) as Hr. fold T in Hr. fold n in Hr. fold C in Hr.
      assert (0 <= C) by (unfold C; nia). nia.
    + cbn. unfold C. nia.
    + intros k s d Hk. apply Hc. exact Hk.
    + intros k l s d Hk Hs Hd _ _. cbn [psp_rx rx_relax]. apply (Hc k); assumption.
Qed.

Lemma psp_cover debug : change_triangle D -> relaxation_cover psp_state (psp_pb J debug) (psp_layer D) (psp_nv D) psp_rx.
Proof.
  intros Htri. destruct (loaded_ok D M Hok J HJ) as (mst & _ & ->). intros k l src d ds c Hk Hs Hd Hf Hin Hc.
  destruct (merge_covers D M Hok mst debug Htri (S k) l _ ds c ltac:(cbn in Hk; lia) Hf Hin Hc) as (ds' & c' & H1 & H2).
  exists ds', c'. split; [exact H1|]. cbn [psp_rx rx_relax]. lia.
Qed.

Lemma completion_nonpos debug k s ds c : psp_layer D k s -> completion psp_state (psp_pb J debug) (psp_nv D) k s ds c -> c <= 0.
Proof.
  destruct (loaded_ok D M Hok J HJ) as (mst & _ & ->). intros Hs (s' & Hr).
  remember (pb_nb_vars (psp_pb (psp_build D mst) debug)) as N eqn:HN. revert Hs HN. induction Hr as [k s|k s d ds k' s' c Hk Hd Hr IH]; intros Hs HN; [lia|].
  apply (domain_in D M Hok mst debug k) in Hd; [|exact Hs]. destruct Hd as (x & Ha & ->).
  specialize (IH (layer_trans D M Hok mst debug k s x _ Hs Hk eq_refl Ha) HN).
  cbn [psp_pb pb_cost]. rewrite (cost_spec D M Hok mst debug k s x _ Hs Ha). cbn [or_else]. enough (step_cost D (psp_nv D k) s x <= 0) by lia.
  destruct x as [i|]; cbn [allowed step_cost] in *; [|lia]. destruct Ha as (Hi & Hd' & _). pose proof (po_stock_range _ _ Hok i Hi).
  assert (0 <= (if pt_k s =? BOT then 0 else change D i (Z.to_nat (pt_k s)))) as Hc.
  { destruct (Z.eqb_spec (pt_k s) BOT); [lia|]. apply (po_change_range _ _ Hok); [exact Hi|]. destruct (pl_k _ _ _ Hs) as [|Hk']; [contradiction|]. lia. }
  nia.
Qed.

Theorem estimate_bounds : forall k s, psp_layer D k s -> exists e, ps_estimate J false s = Some e /\ 0 <= e <= IMAX /\
  forall ds c, completion psp_state (psp_pb J false) (psp_nv D) k s ds c -> c <= e.
Proof.
  intros k s Hs. assert (exists e, ps_estimate J false s = Some e /\ 0 <= e <= IMAX) as (e & He & Hr).
  { destruct (loaded_ok D M Hok J HJ) as (mst & Hmst & ->). exact (estimate_release D M Hok mst Hmst k s Hs). }
  exists e. split; [exact He|]. split; [exact Hr|]. intros ds c Hc. pose proof (completion_nonpos false k s ds c Hs Hc). lia.
Qed.

Theorem psp_behaved : change_triangle D -> well_behaved psp_state psp_eqb (psp_pb J false) psp_rx (psp_layer D) (psp_nv D) C.
Proof.
  intros Htri. constructor; [apply psp_formed| |apply psp_cover; exact Htri].
  intros k s ds c _ Hs Hc. destruct (estimate_bounds k s Hs) as (e & He & _ & H). cbn [psp_pb pb_estimate]. rewrite He. cbn [or_else]. apply (H ds). exact Hc.
Qed.

Theorem panic_free : forall debug k s, (k < T)%nat -> psp_layer D k s ->
  (exists l, ps_domain J debug (psp_nv D k) s = Some l /\
     forall d, In d l -> (exists s', ps_trans J debug s d = Some s') /\ (exists c, ps_cost J debug s d = Some c)) /\
  (exists s0, ps_init J debug = Some s0) /\ exists e, ps_estimate J false s = Some e.
Proof.
  intros debug k s Hk Hs. destruct (loaded_ok D M Hok J HJ) as (mst & Hmst & ->). split; [|split].
  - pose proof (domain_eq D M Hok mst debug k s (psp_nv D k) Hs) as E. eexists. split; [exact E|]. intros d Hd.
    assert (In d (pb_domain (psp_pb (psp_build D mst) debug) (psp_nv D k) s)) as Hd' by (cbn [psp_pb pb_domain]; rewrite E; exact Hd).
    apply (domain_in D M Hok mst debug k) in Hd'; [|exact Hs]. destruct Hd' as (x & Ha & ->).
    destruct (pl_time _ _ _ Hs) as [_ Ht]. fold T in Ht.
    destruct (trans_spec D M Hok mst debug k s x (psp_nv D k) Hs ltac:(unfold psp_nv; fold T; lia) Ha) as (H & _). split; [eexists; exact H|].
    eexists. exact (cost_spec D M Hok mst debug k s x _ Hs Ha).
  - destruct (init_spec D M Hok mst debug) as (s0 & H & _). exists s0. exact H.
  - destruct (estimate_release D M Hok mst Hmst k s Hs) as (e & He & _). exists e. exact He.
Qed.

Theorem debug_panics : forall k s, psp_layer D k s ->
  zsum (map (fun i => orders D i (deadline s i)) (seq 0 n)) + 1 < Z.of_nat (pt_time s) -> ps_estimate J true s = None.
Proof.
  intros k s Hs H. destruct (loaded_ok D M Hok J HJ) as (mst & _ & ->). exact (estimate_debug_panics D M Hok mst k s Hs H).
Qed.

Theorem psp_solutions : forall debug ds v, solution psp_state (psp_pb J debug) (psp_nv D) ds v <->
  exists p, feasible_plan D p /\ ds = plan_decisions p /\ v = - plan_cost D p.
Proof. intros debug. destruct (loaded_ok D M Hok J HJ) as (mst & _ & ->). apply (solutions_are_plans D M Hok). Qed.

(** ** Solvers *)
Variable factor : nat.
Hypothesis Hfac : (1 <= factor)%nat.

Lemma psp_solver ct : good_solver psp_state psp_eqb (psp_cfg J factor ct) (psp_layer D) (psp_nv D) C.
Proof.
  apply nodup_solver; [apply psp_formed| |exact ps_rank_preorder]. intros s. unfold ps_width. rewrite T_eq. pose proof (po_T _ _ Hok) as H. fold T in H. nia.
Qed.
Lemma psp_decided ct : decided_once psp_state (psp_cfg J factor ct) (psp_nv D).
Proof. intros k k'. cbn [psp_cfg cf_pb psp_pb pb_nb_vars]. rewrite T_eq. unfold psp_nv. fold T. lia. Qed.

Lemma reported_plan l v : reported_solution psp_state (psp_pb J false) (psp_nv D) l v ->
  exists p, feasible_plan D p /\ Permutation l (plan_decisions p) /\ v = - plan_cost D p.
Proof. intros (ds & Hp & Hs). apply psp_solutions in Hs. destruct Hs as (p & H1 & -> & H2). exists p. auto. Qed.

Lemma optimum_plan l v : optimum psp_state (psp_pb J false) (psp_nv D) v -> reported_solution psp_state (psp_pb J false) (psp_nv D) l v ->
  exists p, cheapest D p /\ Permutation l (plan_decisions p) /\ v = - plan_cost D p.
Proof.
  intros [_ Hopt] Hr. destruct (reported_plan l v Hr) as (p & H1 & H2 & ->). exists p. split; [|auto]. split; [exact H1|].
  intros q Hq. specialize (Hopt (plan_decisions q) (- plan_cost D q) ltac:(apply psp_solutions; exists q; auto)). lia.
Qed.
Lemma infeasible_plan : infeasible psp_state (psp_pb J false) (psp_nv D) -> forall q, ~ feasible_plan D q.
Proof. intros H q Hq. apply (H (plan_decisions q) (- plan_cost D q)). apply psp_solutions. exists q. auto. Qed.

Theorem par_psp : change_triangle D -> forall nt m st, (1 <= m <= nt)%nat ->
  reachable psp_state psp_eqb (psp_cfg J factor LastExactLayer) nt m st -> proved _ st ->
  match best_value_of _ st with
  | Some v => exists l p, best_solution_of _ st = Some l /\ cheapest D p /\ Permutation l (plan_decisions p) /\ v = - plan_cost D p
  | None => best_solution_of _ st = None /\ forall q, ~ feasible_plan D q
  end.
Proof.
  intros Htri nt m st Hm Hr Hp.
  pose proof (par_optimum _ _ _ _ _ _ nt m st (psp_solver LastExactLayer) (psp_behaved Htri) eq_refl (psp_decided _) Hm Hr Hp) as [_ H].
  destruct (best_value_of _ st) as [v|].
  - destruct H as (Ho & _ & l & Hl & Hs). destruct (optimum_plan l v Ho Hs) as (p & H1 & H2 & H3). exists l, p. auto.
  - destruct H as (Hi & Hn). split; [exact Hn|apply infeasible_plan; exact Hi].
Qed.
Theorem bar_psp : change_triangle D -> forall nt st, (1 <= nt)%nat ->
  breachable psp_state psp_eqb (psp_cfg J factor LastExactLayer) nt 1 st -> bproved _ st ->
  match bbest_value _ st with
  | Some v => exists l p, bbest_solution _ st = Some l /\ cheapest D p /\ Permutation l (plan_decisions p) /\ v = - plan_cost D p
  | None => bbest_solution _ st = None /\ forall q, ~ feasible_plan D q
  end.
Proof.
  intros Htri nt st Hm Hr Hp.
  pose proof (bar_optimum _ _ _ _ _ _ nt st (psp_solver LastExactLayer) (psp_behaved Htri) eq_refl (psp_decided _) Hm Hr Hp) as [_ H].
  destruct (bbest_value _ st) as [v|].
  - destruct H as (Ho & _ & l & Hl & Hs). destruct (optimum_plan l v Ho Hs) as (p & H1 & H2 & H3). exists l, p. auto.
  - destruct H as (Hi & Hn). split; [exact Hn|apply infeasible_plan; exact Hi].
Qed.
Theorem par_plan : forall ct nt m st v, (m <= nt)%nat -> reachable psp_state psp_eqb (psp_cfg J factor ct) nt m st -> best_value_of _ st = Some v ->
  exists l p, best_solution_of _ st = Some l /\ feasible_plan D p /\ Permutation l (plan_decisions p) /\ v = - plan_cost D p.
Proof.
  intros ct nt m st v Hm Hr Hv. destruct (par_solution _ _ _ _ _ _ nt m st (psp_solver ct) Hm Hr) as [(_ & H & _)|(l & w & H1 & H2 & _ & H3)]; [congruence|].
  assert (w = v) by congruence. subst w. destruct (reported_plan l v H3) as (p & H4 & H5 & H6). exists l, p. auto.
Qed.
Theorem bar_plan : forall ct nt m st v, (m <= nt)%nat -> breachable psp_state psp_eqb (psp_cfg J factor ct) nt m st -> bbest_value _ st = Some v ->
  exists l p, bbest_solution _ st = Some l /\ feasible_plan D p /\ Permutation l (plan_decisions p) /\ v = - plan_cost D p.
Proof.
  intros ct nt m st v Hm Hr Hv. destruct (bar_solution _ _ _ _ _ _ nt m st (psp_solver ct) Hm Hr) as [(_ & H & _)|(l & w & H1 & H2 & _ & H3)]; [congruence|].
  assert (w = v) by congruence. subst w. destruct (reported_plan l v H3) as (p & H4 & H5 & H6). exists l, p. auto.
Qed.
End Proofs.
