(** Proofs of the statements of PropParallel.v. *)
From Verif Require Import Spec Dd DdSpec MddAll MddAllProofs FrontierSpec NoDupFacts FrontierFacts FringeSpec FringeFacts ParSpec ParFacts ParOpt ParInt ParTerm SortBy.
Open Scope Z_scope.

Section Proofs.
Variable S : Type.
Variable eqb : S -> S -> bool.
Variable cfg : config S.
Variable at_depth : nat -> S -> Prop.
Variable nv : nat -> nat.
Variable C : Z.
Notation P := (cf_pb cfg).
Notation R := (cf_rx cfg).
Notation reachable := (reachable S eqb cfg).
Notation good_solver := (good_solver S eqb cfg at_depth nv C).
Notation solution := (solution S P nv).

Lemma par_optimum_any n m st : good_solver -> well_behaved S eqb P R at_depth nv C -> cf_ctype cfg = LastExactLayer \/ one_end S cfg at_depth -> decided_once S cfg nv ->
  (1 <= m <= n)%nat -> reachable n m st -> proved cfg st ->
  upper_bound_of cfg st = lower_bound_of cfg st /\
  match best_value_of cfg st with
  | Some v => optimum S P nv v /\ lower_bound_of cfg st = v /\ exists l, best_solution_of cfg st = Some l /\ reported_solution S P nv l v
  | None => infeasible S P nv /\ best_solution_of cfg st = None
  end.
Proof.
  intros (inv & content & G) WB HL HD Hm Hr Hp.
  destruct (proved_best S eqb cfg at_depth nv C True inv content G (fun _ => HD)
    (exact_closes S eqb cfg at_depth nv C True inv content G WB) (cutset_covers S eqb cfg at_depth nv C True inv content G WB HL) n m st Hm Hr Hp) as (H1 & H2 & H3).
  unfold upper_bound_of, lower_bound_of, best_value_of, best_solution_of. split; [exact H2|]. unfold sol_ok in H3. destruct (c_sol (s_crit st)) as [l|]; cbn [option_map].
  - split; [|split; [reflexivity|exists l; auto]]. destruct H3 as (ds & _ & Hs). split; [eauto|]. exact H1.
  - split; [|reflexivity]. intros ds w Hs. assert (Hb := H1 ds w Hs). destruct (solution_gt S eqb cfg at_depth nv C True inv content G ds w Hs). lia.
Qed.
Lemma par_optimum n m st : good_solver -> well_behaved S eqb P R at_depth nv C -> cf_ctype cfg = LastExactLayer -> decided_once S cfg nv ->
  (1 <= m <= n)%nat -> reachable n m st -> proved cfg st ->
  upper_bound_of cfg st = lower_bound_of cfg st /\
  match best_value_of cfg st with
  | Some v => optimum S P nv v /\ lower_bound_of cfg st = v /\ exists l, best_solution_of cfg st = Some l /\ reported_solution S P nv l v
  | None => infeasible S P nv /\ best_solution_of cfg st = None
  end.
Proof. intros Hg WB HL. exact (par_optimum_any n m st Hg WB (or_introl HL)). Qed.
Lemma par_one_end n m st : good_solver -> well_behaved S eqb P R at_depth nv C -> one_end S cfg at_depth -> decided_once S cfg nv ->
  (1 <= m <= n)%nat -> reachable n m st -> proved cfg st ->
  upper_bound_of cfg st = lower_bound_of cfg st /\
  match best_value_of cfg st with
  | Some v => optimum S P nv v /\ lower_bound_of cfg st = v /\ exists l, best_solution_of cfg st = Some l /\ reported_solution S P nv l v
  | None => infeasible S P nv /\ best_solution_of cfg st = None
  end.
Proof. intros Hg WB HL. exact (par_optimum_any n m st Hg WB (or_intror HL)). Qed.

Lemma maximize_reachable n m st : maximize_reaches S eqb cfg n m st -> reachable n m st /\ (good_solver -> c_interrupted (s_crit st) = false).
Proof.
  induction 1 as [st E|st st' H IH Hs].
  - split; [exists st; split; [exact E|apply reaches_refl]|]. unfold initial in E. destruct (fr_push _ _ _); [|discriminate]. injection E as <-. reflexivity.
  - destruct IH as ((st0 & E & Hr) & Hi). split.
    + exists st0. split; [exact E|]. eapply reaches_step; [exact Hr|]. destruct Hs as [(orc & i & Ho & Hs)|Hs]; [left; exists orc, false, i; auto|auto].
    + intros Hg. specialize (Hi Hg). destruct Hs as [(orc & i & Ho & Hs)|(i & d & _ & ->)]; [|exact Hi].
      unfold thread_step in Hs. destruct (nth_error (s_threads st) i) as [[p d]|]; [|discriminate]. cbn [t_pc t_dd] in Hs. cbn zeta in Hs.
      assert (Hup : forall d c, maybe_update_best cfg (s_crit st) d = Some c -> c_interrupted c = false).
      { intros d0 c Hc. unfold maybe_update_best in Hc. destruct (best_value d0) as [bv|]; cbn [obind] in Hc; [|discriminate]. cbn zeta in Hc.
        destruct (_ <? _); [|congruence]. destruct (best_solution d0); cbn [obind] in Hc; [|discriminate]. injection Hc as <-. exact Hi. }
      destruct p; try discriminate.
      * unfold get_workload in Hs. rewrite Hi in Hs. destruct (_ && _); cbn [obind lift] in Hs; [injection Hs as <-; first [exact Hi|reflexivity]|].
        destruct (fr_empty _ _); cbn [obind lift] in Hs; [injection Hs as <-; first [exact Hi|reflexivity]|].
        destruct (fr_pop _ _) as [[[nn|] f]|]; cbn [obind lift] in Hs; try discriminate.
        destruct (_ <=? _); cbn [obind lift] in Hs; [injection Hs as <-; first [exact Hi|reflexivity]|].
        destruct (upd _ _ _); cbn [obind lift] in Hs; [injection Hs as <-; first [exact Hi|reflexivity]|discriminate].
      * destruct (_ <=? _); cbn [obind lift] in Hs; [injection Hs as <-; exact Hi|]. destruct (compile _ _ _ _ _); cbn [obind lift] in Hs; [injection Hs as <-; exact Hi|discriminate].
      * destruct (maybe_update_best _ _ _) as [c|] eqn:Ec; cbn [obind lift] in Hs; [|discriminate]. injection Hs as <-. eapply Hup; eauto.
      * destruct (compile _ _ _ _ _); cbn [obind lift] in Hs; [injection Hs as <-; exact Hi|discriminate].
      * destruct (g_exact d).
        -- destruct (maybe_update_best _ _ _) as [c|] eqn:Ec; cbn [obind lift] in Hs; [|discriminate]. injection Hs as <-. eapply Hup; eauto.
        -- unfold enqueue_cutset in Hs. destruct (drain_cutset d) as [[L d']|]; cbn [obind lift] in Hs; [|discriminate].
           destruct (ofold _ _ _); cbn [obind lift] in Hs; [injection Hs as <-; exact Hi|discriminate].
      * unfold finish_node in Hs. destruct (c_ongoing (s_crit st)); [discriminate|]. destruct (upd _ _ _); cbn [obind] in Hs; [|discriminate]. injection Hs as <-. exact Hi.
Qed.

Lemma par_maximize n m st : good_solver -> well_behaved S eqb P R at_depth nv C -> cf_ctype cfg = LastExactLayer -> decided_once S cfg nv ->
  (1 <= m <= n)%nat -> maximize_reaches S eqb cfg n m st -> all_done cfg st ->
  match best_value_of cfg st with
  | Some v => optimum S P nv v /\ exists l, best_solution_of cfg st = Some l /\ reported_solution S P nv l v
  | None => infeasible S P nv /\ best_solution_of cfg st = None
  end.
Proof.
  intros Hg WB HL HD Hm Hr Hd. destruct (maximize_reachable n m st Hr) as (Hr' & Hi).
  destruct (par_optimum n m st Hg WB HL HD Hm Hr' (conj Hd (Hi Hg))) as (_ & H). destruct (best_value_of cfg st); [|exact H]. destruct H as (H1 & _ & H2). auto.
Qed.

Lemma par_solution n m st : good_solver -> (m <= n)%nat -> reachable n m st ->
  (best_solution_of cfg st = None /\ best_value_of cfg st = None /\ lower_bound_of cfg st = IMIN) \/
  (exists l v, best_solution_of cfg st = Some l /\ best_value_of cfg st = Some v /\ lower_bound_of cfg st = v /\ reported_solution S P nv l v).
Proof.
  intros (inv & content & G) Hm Hr. assert (H := i_sol _ _ _ _ _ _ _ (reachable_inv1 S eqb cfg at_depth nv C True inv content G n m st Hm Hr)).
  unfold sol_ok, best_solution_of, best_value_of, lower_bound_of in *. destruct (c_sol (s_crit st)) as [l|]; cbn [option_map]; [right|left; auto]. exists l, (c_lb (s_crit st)). auto.
Qed.

Lemma par_monotone n m st st' : good_solver -> (m <= n)%nat -> reachable n m st -> reaches S eqb cfg st st' -> lower_bound_of cfg st <= lower_bound_of cfg st'.
Proof.
  intros (inv & content & G) Hm Hr Hs. assert (H := reachable_inv1 S eqb cfg at_depth nv C True inv content G n m st Hm Hr).
  apply (reaches_inv1 S eqb cfg at_depth nv C True inv content G st st' H Hs).
Qed.
Lemma par_below n m st v : good_solver -> (m <= n)%nat -> reachable n m st -> optimum S P nv v -> lower_bound_of cfg st <= v.
Proof.
  intros Hg Hm Hr ((ds0 & Hs0) & Hv). destruct (par_solution n m st Hg Hm Hr) as [(_ & _ & ->)|(l & w & _ & _ & -> & (ds & _ & Hs))].
  - destruct Hg as (inv & content & G). destruct (solution_gt S eqb cfg at_depth nv C True inv content G ds0 v Hs0). lia.
  - eapply Hv; eauto.
Qed.

Lemma par_interrupted n st v : good_solver -> well_behaved S eqb P R at_depth nv C -> cf_ctype cfg = LastExactLayer \/ one_end S cfg at_depth -> decided_once S cfg nv ->
  (1 <= n)%nat -> reachable n 1 st -> interrupted cfg st -> optimum S P nv v -> v <= Z.max (lower_bound_of cfg st) (upper_bound_of cfg st).
Proof.
  intros (inv & content & G) WB HL HD Hn Hr Hi ((ds & Hs) & _).
  assert (H := interrupted_bound S eqb cfg at_depth nv C True inv content G (fun _ => HD)
    (exact_closes S eqb cfg at_depth nv C True inv content G WB) (cutset_covers S eqb cfg at_depth nv C True inv content G WB HL) n st Hn Hr Hi ds v Hs). unfold lower_bound_of, upper_bound_of. lia.
Qed.

Lemma par_nothing_waiting n m st st' st'' v : good_solver -> well_behaved S eqb P R at_depth nv C -> cf_ctype cfg = LastExactLayer \/ one_end S cfg at_depth -> decided_once S cfg nv ->
  (m <= n)%nat -> reachable n m st -> step S eqb cfg st st' -> c_interrupted (s_crit st) = false -> c_interrupted (s_crit st') = true ->
  fr_empty (cf_fr cfg) (c_fringe (s_crit st)) = true -> reaches S eqb cfg st' st'' -> optimum S P nv v -> v <= Z.max (lower_bound_of cfg st'') (upper_bound_of cfg st'').
Proof.
  intros (inv & content & G) WB HL HD Hm Hr Hs F T Hem Hre ((ds & Hv) & _).
  assert (H := nothing_waiting S eqb cfg at_depth nv C True inv content G (fun _ => HD) WB HL n m st st' st'' Hm Hr Hs F T Hem Hre ds v Hv). unfold lower_bound_of, upper_bound_of. lia.
Qed.
Lemma par_forgotten inv content n m st st' st'' v : good_config S eqb cfg at_depth nv C True inv content -> well_behaved S eqb P R at_depth nv C -> cf_ctype cfg = LastExactLayer \/ one_end S cfg at_depth -> decided_once S cfg nv ->
  (m <= n)%nat -> reachable n m st -> step S eqb cfg st st' -> c_interrupted (s_crit st) = false -> c_interrupted (s_crit st') = true ->
  reaches S eqb cfg st' st'' -> optimum S P nv v ->
  v <= Z.max (lower_bound_of cfg st'') (upper_bound_of cfg st') \/ exists q, In q (content (c_fringe (s_crit st))) /\ v <= sp_ub q.
Proof.
  intros G WB HL HD Hm Hr Hs F T Hre ((ds & Hv) & _).
  assert (H := bound_at_interruption S eqb cfg at_depth nv C True inv content G (fun _ => HD) WB HL n m st st' Hm Hr Hs F T ds v Hv).
  assert (I0 := reachable_inv1 S eqb cfg at_depth nv C True inv content G n m st Hm Hr).
  destruct (move_inv1 S eqb cfg nv inv content st st' I0 (step_move S eqb cfg at_depth nv C True inv content G _ _ I0 Hs)) as (I1 & _).
  destruct (reaches_inv1 S eqb cfg at_depth nv C True inv content G st' st'' I1 Hre) as (_ & Hlb).
  unfold lower_bound_of, upper_bound_of. destruct H as [H|[H|H]]; [left; lia|left; lia|right; exact H].
Qed.

Lemma par_no_infinite n m st : good_solver -> (m <= n)%nat -> reachable n m st -> ~ exists f : nat -> state S cfg, f 0%nat = st /\ forall k, step S eqb cfg (f k) (f (Datatypes.S k)).
Proof. intros (inv & content & G) Hm Hr. exact (no_infinite_run S eqb cfg at_depth nv C True inv content G n m st Hm Hr). Qed.

Lemma par_no_panic n m st orc intr i : good_solver -> (m <= n)%nat -> reachable n m st -> library_ok S orc -> thread_step eqb cfg orc intr i st <> Panic.
Proof.
  intros (inv & content & G) Hm Hr Ho. eapply inv1_no_panic; eauto. eapply reachable_inv1; eauto.
Qed.
Lemma par_no_deadlock n m st : good_solver -> (m <= n)%nat -> reachable n m st -> all_done cfg st \/ can_move S eqb cfg st.
Proof.
  intros (inv & content & G) Hm Hr. assert (H := reachable_inv1 S eqb cfg at_depth nv C True inv content G n m st Hm Hr).
  assert (Hdec : all_done cfg st \/ ~ all_done cfg st).
  { unfold all_done. clear. induction (s_threads st) as [|t l IH]; [left; intros t []|].
    assert (Ht : t_pc t = PDone \/ t_pc t <> PDone) by (destruct (t_pc t); auto; right; discriminate).
    destruct Ht as [Ht|Ht]; [|right; intros Hx; apply Ht, Hx; left; auto]. destruct IH as [IH|IH]; [left; intros x [<-|Hx]; auto|right; intros Hx; apply IH; intros y Hy; apply Hx; right; exact Hy]. }
  destruct Hdec as [Hd|Hd]; [auto|right]. eapply inv1_moves; eauto.
Qed.
Lemma par_waiting n m st t : good_solver -> (m <= n)%nat -> reachable n m st -> In t (s_threads st) -> t_pc t = PWait -> exists t', In t' (s_threads st) /\ busy S t'.
Proof.
  intros (inv & content & G) Hm Hr Ht Hp. assert (H := reachable_inv1 S eqb cfg at_depth nv C True inv content G n m st Hm Hr).
  assert (Hw := i_wait _ _ _ _ _ _ _ H t Ht Hp). rewrite (i_on _ _ _ _ _ _ _ H) in Hw. clear -Hw.
  induction (s_threads st) as [|x l IH]; [cbn in Hw; lia|]. change (nworking S (x :: l)) with (working S x + nworking S l)%nat in Hw.
  destruct (working S x) eqn:E.
  - destruct IH as (t' & h1 & h2); [lia|]. exists t'. split; [right; auto|auto].
  - exists x. split; [left; auto|]. destruct x as [[]]; cbn in E; try discriminate; exact I.
Qed.

Lemma reaches_left a b c : step S eqb cfg a b -> reaches S eqb cfg b c -> reaches S eqb cfg a c.
Proof.
  intros H Hr. induction Hr as [b|b c' c'' _ IH Hs].
  - eapply reaches_step; [apply reaches_refl|auto].
  - eapply reaches_step; [apply IH; exact H|exact Hs].
Qed.
Lemma par_ends n m st : good_solver -> (m <= n)%nat -> reachable n m st -> exists st', reaches S eqb cfg st st' /\ all_done cfg st'.
Proof.
  intros Hg Hm Hr. assert (Ha : Acc (fun b a => step S eqb cfg a b) st).
  { destruct Hg as (inv & content & G). eapply inv1_acc; eauto. eapply reachable_inv1; eauto. }
  assert (Hex : exists orc, library_ok S orc) by (exists orc_fwd; apply orc_fwd_ok).
  destruct Hex as (orc & Ho).
  induction Ha as [st _ IH]. destruct (par_no_deadlock n m st Hg Hm Hr) as [Hd|(i & Hi)]; [exists st; split; [apply reaches_refl|exact Hd]|].
  destruct (Hi orc false Ho) as (st1 & E1). assert (Hs : step S eqb cfg st st1) by (exists orc, false, i; auto).
  assert (Hr1 : reachable n m st1) by (destruct Hr as (sti & E & Hr); exists sti; split; [exact E|eapply reaches_step; eauto]).
  destruct (IH st1 Hs Hr1) as (st' & h1 & h2). exists st'. split; [|exact h2]. eapply reaches_left; eauto.
Qed.

Lemma par_threads n m st : good_solver -> well_behaved S eqb P R at_depth nv C -> cf_ctype cfg = LastExactLayer \/ one_end S cfg at_depth -> decided_once S cfg nv ->
  (1 <= m <= n)%nat -> reachable n m st ->
  (forall orc intr i, library_ok S orc -> thread_step eqb cfg orc intr i st <> Panic) /\
  (proved cfg st -> forall v, optimum S P nv v -> best_value_of cfg st = Some v).
Proof.
  intros Hg WB HL HD Hm Hr. split; [intros orc intr i Ho; apply (par_no_panic n m); auto; lia|]. intros Hp v Hv.
  destruct (par_optimum_any n m st Hg WB HL HD Hm Hr Hp) as (_ & H). destruct (best_value_of cfg st) as [w|].
  - destruct H as (((ds & Hs) & Hb) & _). destruct Hv as ((ds' & Hs') & Hb'). f_equal. assert (h1 := Hb _ _ Hs'). assert (h2 := Hb' _ _ Hs). lia.
  - destruct H as (H & _). destruct Hv as ((ds' & Hs') & _). exfalso. eapply H; eauto.
Qed.
End Proofs.

(** Both frontiers of the library make a good solver. *)
Lemma nodup_solver S eqb P R rank frank width ct at_depth nv C :
  well_formed S eqb P R at_depth nv C -> (forall s, (1 <= width s)%nat) -> total_preorder frank ->
  good_solver S eqb (mk_cfg P R rank width ct (nodup_frontier eqb frank)) at_depth nv C.
Proof.
  intros Hw Hs Hr. exists (NoDupFacts.Inv S frank), (nd_list S). constructor; cbn [cf_pb cf_rx cf_width cf_fr]; auto.
  apply nodup_frontier_ok; [apply (wfd_eqb _ _ _ _ _ _ _ Hw)|exact Hr].
Qed.
Lemma simple_solver S eqb P R rank frank choose width ct at_depth nv C :
  well_formed S eqb P R at_depth nv C -> (forall s, (1 <= width s)%nat) -> total_preorder frank -> heap_oracle choose ->
  good_solver S eqb (mk_cfg P R rank width ct (simple_frontier frank choose)) at_depth nv C.
Proof.
  intros Hw Hs Hr Ho. exists (fun _ => True), (fun f => f). constructor; cbn [cf_pb cf_rx cf_width cf_fr]; auto.
  destruct (simple_frontier_ok S frank choose Hr Ho) as [f1 f2 f3 f4 f5]. constructor; auto.
  intros f n Hi. destruct (f2 f n Hi) as (f1' & h1 & h2 & [h3|([] & _)]). exists f1'. auto.
Qed.
