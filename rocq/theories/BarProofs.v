(** Proofs of the statements of PropBarrier.v. *)
From Verif Require Import Spec Dd DdSpec MddAll MddAllProofs FrontierSpec FringeSpec FringeFacts ParSpec ParFacts ParOpt ParTerm ParProofs MddBarrier BarWp MddBarrierProofs BarSpec BarFacts BarTerm BarSeq SortBy.
Open Scope Z_scope.

Section Proofs.
Variable S : Type.
Variable eqb : S -> S -> bool.
Variable cfg : config S.
Variable at_depth : nat -> S -> Prop.
Variable nv : nat -> nat.
Variable C : Z.
Notation P := (cf_pb cfg).
Notation R := (cf_rx cfg).
Notation breachable := (breachable S eqb cfg).
Notation good_solver := (good_solver S eqb cfg at_depth nv C).
Notation good_config := (good_config S eqb cfg at_depth nv C).
Notation solution := (solution S P nv).
Notation lookup := (lookup S eqb).

Lemma bar_optimum_any n st : good_solver -> well_behaved S eqb P R at_depth nv C -> (cf_ctype cfg = LastExactLayer \/ one_end S cfg at_depth) -> decided_once S cfg nv ->
  (1 <= n)%nat -> breachable n 1 st -> bproved cfg st ->
  bupper_bound cfg st = blower_bound cfg st /\
  match bbest_value cfg st with
  | Some v => optimum S P nv v /\ blower_bound cfg st = v /\ exists l, bbest_solution cfg st = Some l /\ reported_solution S P nv l v
  | None => infeasible S P nv /\ bbest_solution cfg st = None
  end.
Proof.
  intros (inv & content & G) WB HL HD Hn Hr Hp.
  destruct (seq_best S eqb cfg at_depth nv C True inv content G WB HL (fun _ => HD) n st Hn Hr Hp) as (H1 & H2 & H3).
  unfold bupper_bound, blower_bound, bbest_value, bbest_solution. split; [exact H2|]. unfold sol_ok in H3. destruct (c_sol (k_c (q_crit st))) as [l|]; cbn [option_map].
  - split; [|split; [reflexivity|exists l; auto]]. destruct H3 as (ds & _ & Hs). split; [eauto|]. exact H1.
  - split; [|reflexivity]. intros ds w Hs. assert (Hb := H1 ds w Hs). destruct (solution_gt S eqb cfg at_depth nv C True inv content G ds w Hs). lia.
Qed.

Lemma bar_optimum n st : good_solver -> well_behaved S eqb P R at_depth nv C -> cf_ctype cfg = LastExactLayer -> decided_once S cfg nv ->
  (1 <= n)%nat -> breachable n 1 st -> bproved cfg st ->
  bupper_bound cfg st = blower_bound cfg st /\
  match bbest_value cfg st with
  | Some v => optimum S P nv v /\ blower_bound cfg st = v /\ exists l, bbest_solution cfg st = Some l /\ reported_solution S P nv l v
  | None => infeasible S P nv /\ bbest_solution cfg st = None
  end.
Proof. intros Hg WB HL. exact (bar_optimum_any n st Hg WB (or_introl HL)). Qed.
Lemma bar_one_end n st : good_solver -> well_behaved S eqb P R at_depth nv C -> one_end S cfg at_depth -> decided_once S cfg nv ->
  (1 <= n)%nat -> breachable n 1 st -> bproved cfg st ->
  bupper_bound cfg st = blower_bound cfg st /\
  match bbest_value cfg st with
  | Some v => optimum S P nv v /\ blower_bound cfg st = v /\ exists l, bbest_solution cfg st = Some l /\ reported_solution S P nv l v
  | None => infeasible S P nv /\ bbest_solution cfg st = None
  end.
Proof. intros Hg WB HL. exact (bar_optimum_any n st Hg WB (or_intror HL)). Qed.

Lemma bmaximize_reachable n m st : bmaximize_reaches S eqb cfg n m st -> breachable n m st /\ c_interrupted (k_c (q_crit st)) = false.
Proof.
  induction 1 as [st E|st st' H IH Hs].
  - split; [exists st; split; [exact E|apply breaches_refl]|]. unfold binitial in E. destruct (fr_push _ _ _); [|discriminate]. cbn [obind repeat upd] in E. injection E as <-. reflexivity.
  - destruct IH as ((st0 & E & Hr) & Hi). split.
    + exists st0. split; [exact E|]. eapply breaches_step; [exact Hr|]. destruct Hs as [(orc & i & Ho & Hs)|Hs]; [left; exists orc, false, i; auto|auto].
    + destruct Hs as [(orc & i & Ho & Hs)|(i & d & _ & ->)]; [|exact Hi].
      unfold bthread_step in Hs. destruct (nth_error (q_threads st) i) as [[p d]|]; [|discriminate]. cbn [u_pc u_dd] in Hs. cbn zeta in Hs.
      assert (Hup : forall d c, maybe_update_best cfg (k_c (q_crit st)) d = Some c -> c_interrupted c = false).
      { intros d0 c Hc. unfold maybe_update_best in Hc. destruct (best_value d0) as [bv|]; cbn [obind] in Hc; [|discriminate]. cbn zeta in Hc.
        destruct (_ <? _); [|congruence]. destruct (best_solution d0); cbn [obind] in Hc; [|discriminate]. injection Hc as <-. exact Hi. }
      assert (Hcs : forall p f, compile_step eqb cfg st i p f d = BNext st' -> c_interrupted (k_c (q_crit st')) = false).
      { intros p0 f Hx. unfold compile_step, goto in Hx. destruct (access eqb p0 (q_table st)) as [[]|]; [|discriminate]. injection Hx as <-. exact Hi. }
      unfold goto in Hs. destruct p; try discriminate.
      * destruct (locked cfg st); [discriminate|]. injection Hs as <-. exact Hi.
      * unfold clean_turn, decide in Hs. rewrite Hi in Hs. destruct (_ <? _)%nat.
        -- destruct (nth_error (k_open _) _); cbn [obind] in Hs; [|discriminate]. destruct (nth_error (k_ongoing _) _); cbn [obind] in Hs; [|discriminate].
           destruct (_ =? _)%nat; [destruct (upd _ _ _); cbn [obind] in Hs; [injection Hs as <-; exact Hi|discriminate]|].
           destruct (_ && _); [injection Hs as <-; exact Hi|]. destruct (fr_empty _ _); [injection Hs as <-; exact Hi|].
           destruct (fr_pop _ _) as [[[nn|] f]|]; cbn [obind] in Hs; try discriminate. injection Hs as <-. exact Hi.
        -- destruct (_ && _); [injection Hs as <-; exact Hi|]. destruct (fr_empty _ _); [injection Hs as <-; exact Hi|].
           destruct (fr_pop _ _) as [[[nn|] f]|]; cbn [obind] in Hs; try discriminate. injection Hs as <-. exact Hi.
      * unfold try_node in Hs. destruct (_ <=? _); [injection Hs as <-; exact Hi|]. destruct (nth_error _ _); cbn [obind] in Hs; [|discriminate].
        destruct (match tget _ _ _ with None => _ | Some _ => _ end); [injection Hs as <-; exact Hi|]. destruct (decr _ _); cbn [obind] in Hs; [|discriminate].
        destruct (fr_empty _ _); [injection Hs as <-; exact Hi|]. destruct (fr_pop _ _) as [[[nn|] f]|]; cbn [obind] in Hs; try discriminate. injection Hs as <-. exact Hi.
      * unfold take_node in Hs. destruct (nth_error _ _); cbn [obind] in Hs; [|discriminate]. destruct (upd (q_table st) _ _); cbn [obind] in Hs; [|discriminate].
        destruct (upd _ _ _); cbn [obind] in Hs; [|discriminate]. destruct (decr _ _); cbn [obind] in Hs; [|discriminate]. destruct (incr _ _); cbn [obind] in Hs; [|discriminate]. injection Hs as <-. exact Hi.
      * destruct (locked cfg st); [discriminate|]. injection Hs as <-. exact Hi.
      * destruct p; try (eapply Hcs; eassumption). destruct (locked cfg st); [discriminate|].
        destruct (maybe_update_best _ _ _) as [c|] eqn:Ec; cbn [obind] in Hs; [|discriminate]. injection Hs as <-. eapply Hup; eauto.
      * destruct (locked cfg st); [discriminate|]. injection Hs as <-. exact Hi.
      * destruct p; try (eapply Hcs; eassumption). destruct (locked cfg st); [discriminate|]. destruct (g_exact a).
        -- destruct (maybe_update_best _ _ _) as [c|] eqn:Ec; cbn [obind] in Hs; [|discriminate]. injection Hs as <-. eapply Hup; eauto.
        -- unfold benqueue_cutset in Hs. destruct (drain_cutset a) as [[L d']|]; cbn [obind] in Hs; [|discriminate].
           destruct (ofold _ _ _) as [[]|]; cbn [obind] in Hs; [injection Hs as <-; exact Hi|discriminate].
      * destruct (locked cfg st); [discriminate|]. unfold bfinish_node, finish_node in Hs. destruct (c_ongoing (k_c (q_crit st))); [discriminate|]. destruct (upd _ _ _); cbn [obind] in Hs; [|discriminate].
        destruct (decr _ _); cbn [obind] in Hs; [|discriminate]. injection Hs as <-. exact Hi.
Qed.

Lemma bar_maximize n st : good_solver -> well_behaved S eqb P R at_depth nv C -> cf_ctype cfg = LastExactLayer -> decided_once S cfg nv ->
  (1 <= n)%nat -> bmaximize_reaches S eqb cfg n 1 st -> ball_done cfg st ->
  match bbest_value cfg st with
  | Some v => optimum S P nv v /\ exists l, bbest_solution cfg st = Some l /\ reported_solution S P nv l v
  | None => infeasible S P nv /\ bbest_solution cfg st = None
  end.
Proof.
  intros Hg WB HL HD Hn Hr Hd. destruct (bmaximize_reachable n 1 st Hr) as (Hr' & Hi).
  destruct (bar_optimum n st Hg WB HL HD Hn Hr' (conj Hd Hi)) as (_ & H). destruct (bbest_value cfg st); [|exact H]. destruct H as (H1 & _ & H2). auto.
Qed.

Lemma bar_solution n m st : good_solver -> (m <= n)%nat -> breachable n m st ->
  (bbest_solution cfg st = None /\ bbest_value cfg st = None /\ blower_bound cfg st = IMIN) \/
  (exists l v, bbest_solution cfg st = Some l /\ bbest_value cfg st = Some v /\ blower_bound cfg st = v /\ reported_solution S P nv l v).
Proof.
  intros (inv & content & G) Hm Hr. assert (H := i_sol _ _ _ _ _ _ _ _ _ _ (reachable_inv1 S eqb cfg at_depth nv C True inv content G n m st Hm Hr)).
  unfold sol_ok, bbest_solution, bbest_value, blower_bound in *. destruct (c_sol (k_c (q_crit st))) as [l|]; cbn [option_map]; [right|left; auto]. exists l, (c_lb (k_c (q_crit st))). auto.
Qed.
Lemma bar_monotone n m st st' : good_solver -> (m <= n)%nat -> breachable n m st -> breaches S eqb cfg st st' -> blower_bound cfg st <= blower_bound cfg st'.
Proof.
  intros (inv & content & G) Hm Hr Hs. assert (H := reachable_inv1 S eqb cfg at_depth nv C True inv content G n m st Hm Hr).
  apply (reaches_inv1 S eqb cfg at_depth nv C True inv content G st st' H Hs).
Qed.
Lemma bar_below n m st v : good_solver -> (m <= n)%nat -> breachable n m st -> optimum S P nv v -> blower_bound cfg st <= v.
Proof.
  intros Hg Hm Hr ((ds0 & Hs0) & Hv). destruct (bar_solution n m st Hg Hm Hr) as [(_ & _ & ->)|(l & w & _ & _ & -> & (ds & _ & Hs))].
  - destruct Hg as (inv & content & G). destruct (solution_gt S eqb cfg at_depth nv C True inv content G ds0 v Hs0). lia.
  - eapply Hv; eauto.
Qed.
Lemma bar_interrupted n st v : good_solver -> well_behaved S eqb P R at_depth nv C -> (cf_ctype cfg = LastExactLayer \/ one_end S cfg at_depth) -> decided_once S cfg nv ->
  (1 <= n)%nat -> breachable n 1 st -> binterrupted cfg st -> optimum S P nv v -> v <= Z.max (blower_bound cfg st) (bupper_bound cfg st).
Proof.
  intros (inv & content & G) WB HL HD Hn Hr Hi ((ds & Hs) & _).
  assert (H := interrupted_bound S eqb cfg at_depth nv C True inv content G WB HL (fun _ => HD) n st Hn Hr Hi ds v Hs). unfold blower_bound, bupper_bound. lia.
Qed.

Lemma bar_no_infinite n m st : good_solver -> (m <= n)%nat -> breachable n m st -> ~ exists f : nat -> bstate S cfg, f 0%nat = st /\ forall k, bstep S eqb cfg (f k) (f (Datatypes.S k)).
Proof. intros (inv & content & G) Hm Hr. exact (no_infinite_run S eqb cfg at_depth nv C True inv content G n m st Hm Hr). Qed.
Lemma bar_no_panic n m st orc intr i : good_solver -> (m <= n)%nat -> breachable n m st -> library_ok S orc -> bthread_step eqb cfg orc intr i st <> BPanic.
Proof. intros (inv & content & G) Hm Hr Ho. eapply inv1_no_panic; eauto. eapply reachable_inv1; eauto. Qed.
Lemma bar_no_deadlock n m st : good_solver -> (m <= n)%nat -> breachable n m st -> ball_done cfg st \/ bcan_move S eqb cfg st.
Proof.
  intros (inv & content & G) Hm Hr. assert (H := reachable_inv1 S eqb cfg at_depth nv C True inv content G n m st Hm Hr).
  assert (Hdec : ball_done cfg st \/ ~ ball_done cfg st).
  { unfold ball_done. clear. induction (q_threads st) as [|t l IH]; [left; intros t []|].
    assert (Ht : u_pc t = BDone \/ u_pc t <> BDone) by (destruct (u_pc t); auto; right; discriminate).
    destruct Ht as [Ht|Ht]; [|right; intros Hx; apply Ht, Hx; left; auto]. destruct IH as [IH|IH]; [left; intros x [<-|Hx]; auto|right; intros Hx; apply IH; intros y Hy; apply Hx; right; exact Hy]. }
  destruct Hdec as [Hd|Hd]; [auto|right]. eapply inv1_moves; eauto.
Qed.
Lemma bar_waiting n m st t : good_solver -> (m <= n)%nat -> breachable n m st -> In t (q_threads st) -> u_pc t = BWait -> exists t', In t' (q_threads st) /\ bbusy S t'.
Proof.
  intros (inv & content & G) Hm Hr Ht Hp. assert (H := reachable_inv1 S eqb cfg at_depth nv C True inv content G n m st Hm Hr).
  assert (Hw := i_wait _ _ _ _ _ _ _ _ _ _ H t Ht Hp). rewrite (i_on _ _ _ _ _ _ _ _ _ _ H) in Hw. clear -Hw.
  induction (q_threads st) as [|x l IH]; [cbn in Hw; lia|]. change (total S (working S) (x :: l)) with (working S x + total S (working S) l)%nat in Hw.
  destruct (working S x) eqn:E.
  - destruct IH as (t' & h1 & h2); [lia|]. exists t'. split; [right; auto|auto].
  - exists x. split; [left; auto|]. destruct x as [[]]; cbn in E; try discriminate; exact I.
Qed.
Lemma breaches_left a b c : bstep S eqb cfg a b -> breaches S eqb cfg b c -> breaches S eqb cfg a c.
Proof.
  intros H Hr. induction Hr as [b|b c' c'' _ IH Hs].
  - eapply breaches_step; [apply breaches_refl|auto].
  - eapply breaches_step; [apply IH; exact H|exact Hs].
Qed.
Lemma bar_ends n m st : good_solver -> (m <= n)%nat -> breachable n m st -> exists st', breaches S eqb cfg st st' /\ ball_done cfg st'.
Proof.
  intros Hg Hm Hr. assert (Ha : Acc (fun b a => bstep S eqb cfg a b) st).
  { destruct Hg as (inv & content & G). eapply inv1_acc; eauto. eapply reachable_inv1; eauto. }
  assert (Hex : exists orc, library_ok S orc) by (exists orc_fwd; apply orc_fwd_ok).
  destruct Hex as (orc & Ho).
  induction Ha as [st _ IH]. destruct (bar_no_deadlock n m st Hg Hm Hr) as [Hd|(i & Hi)]; [exists st; split; [apply breaches_refl|exact Hd]|].
  destruct (Hi orc false Ho) as (st1 & E1). assert (Hs : bstep S eqb cfg st st1) by (exists orc, false, i; auto).
  assert (Hr1 : breachable n m st1) by (destruct Hr as (sti & E & Hr); exists sti; split; [exact E|eapply breaches_step; eauto]).
  destruct (IH st1 Hs Hr1) as (st' & h1 & h2). exists st'. split; [|exact h2]. eapply breaches_left; eauto.
Qed.
Lemma bar_threads n st : good_solver -> well_behaved S eqb P R at_depth nv C -> cf_ctype cfg = LastExactLayer \/ one_end S cfg at_depth -> decided_once S cfg nv ->
  (1 <= n)%nat -> breachable n 1 st ->
  (forall orc intr i, library_ok S orc -> bthread_step eqb cfg orc intr i st <> BPanic) /\
  (bproved cfg st -> forall v, optimum S P nv v -> bbest_value cfg st = Some v).
Proof.
  intros Hg WB HL HD Hm Hr. split; [intros orc intr i Ho; apply (bar_no_panic n 1); auto; lia|]. intros Hp v Hv.
  destruct (bar_optimum_any n st Hg WB HL HD Hm Hr Hp) as (_ & H). destruct (bbest_value cfg st) as [w|].
  - destruct H as (((ds & Hs) & Hb) & _). destruct Hv as ((ds' & Hs') & Hb'). f_equal. assert (h1 := Hb _ _ Hs'). assert (h2 := Hb' _ _ Hs). lia.
  - destruct H as (H & _). destruct Hv as ((ds' & Hs') & _). exfalso. eapply H; eauto.
Qed.

(** * Layers *)
Lemma count_zero k l (q : subproblem S) : count S k l = 0%nat -> In q l -> depth_of q <> k.
Proof. intros H Hq E. assert (Hc := count_in S q l Hq). rewrite E in Hc. lia. Qed.
Lemma occ_zero k l (x : nat) : occ k l = 0%nat -> In x l -> x <> k.
Proof. intros H Hx E. subst x. induction l as [|y l IH]; [destruct Hx|]. unfold occ in *. cbn in H. destruct (Nat.eqb_spec y k); [discriminate|]. destruct Hx as [->|Hx]; [congruence|]. apply IH; auto. Qed.

Lemma put_kept T T' d l s i k s' j : well_formed S eqb P R at_depth nv C -> nth_error T d = Some l -> upd T d (tput eqb l s i) = Some T' -> lookup T k s' = Some j -> lookup T' k s' <> None.
Proof.
  intros WF Hn Hu Hl. rewrite (lookup_put S eqb (wfd_eqb _ _ _ _ _ _ _ WF) _ _ _ _ _ _ k s' Hn Hu). destruct (_ && _); congruence.
Qed.

Lemma bar_dropped n m inv content st st' k s : good_config True inv content -> (m <= n)%nat -> breachable n m st -> bstep S eqb cfg st st' ->
  lookup (q_table st) k s <> None -> lookup (q_table st') k s = None ->
  (forall q, In q (content (c_fringe (k_c (q_crit st)))) -> (k < depth_of q)%nat) /\ (forall t j, In t (q_threads st) -> in_hand S t j -> (k < j)%nat).
Proof.
  intros G Hm Hr Hs Hl Hl'. assert (HI := reachable_inv1 S eqb cfg at_depth nv C True inv content G n m st Hm Hr).
  assert (WF := gs_formed _ _ _ _ _ _ _ _ _ G).
  assert (HM := step_move S eqb cfg at_depth nv C True inv content G _ _ HI Hs).
  assert (Hcase : k = k_lowest (q_crit st) /\ get (k_open (q_crit st)) k = 0%nat /\ get (k_ongoing (q_crit st)) k = 0%nat).
  { destruct (lookup (q_table st) k s) as [j|] eqn:Ej; [|congruence]. clear Hl. 
    destruct HM as [l1 l2 p p' d d' k' T' E Hlk Ha | l1 l2 x y d c' g E Hlk h1 h2 h3 h4 h5 h6 h7 h8 h9]; cbn [q_table] in *; [|congruence].
    assert (Hacc : forall ty b p0 p1 T1, thread_ok S eqb cfg at_depth nv C (c_lb (k_c (q_crit st))) (mk_bth p d) ->
      (p = BRestrict b p0 /\ ty = Restricted \/ (exists z, p = BRelaxing b z p0) /\ ty = Relaxed) -> access eqb p0 (q_table st) = Some (p1, T1) -> lookup T1 k s = None -> False).
    { intros ty b p0 p1 T1 (_ & _ & _ & Hth) Hp Ha1 Hn1. assert (Hc : compiling S eqb cfg at_depth nv C (c_lb (k_c (q_crit st))) ty b p0) by (destruct Hp as [(-> & ->)|((z & ->) & ->)]; exact Hth).
      destruct Hc as (T0 & Hwp). destruct (wp_write S eqb false _ _ _ _ _ _ _ _ _ Hwp Ha1) as [->|(d0 & s0 & i0 & l0 & _ & Hn0 & Hu0)]; [congruence|]. exact (put_kept _ _ _ _ _ _ _ _ _ WF Hn0 Hu0 Ej Hn1). }
    assert (Hth := i_th _ _ _ _ _ _ _ _ _ _ HI). rewrite E in Hth. apply Forall_app in Hth as (_ & Hth). inversion Hth as [|? ? Ht _]; subst.
    inversion Ha; subst; cbn [q_table] in *; try congruence; try (exfalso; eapply Hacc; eauto; fail).
    - destruct (Nat.eq_dec k (k_lowest (q_crit st))) as [->|Hne]; [auto|]. exfalso.
      match goal with H : upd _ _ _ = Some _ |- _ => unfold BarWp.lookup in Hl'; rewrite (upd_other _ _ _ _ k H Hne) in Hl'; unfold BarWp.lookup in Ej; congruence end.
    - exfalso. eapply put_kept; eauto. }
  destruct Hcase as (-> & Ho & Hg). clear HM Hs Hl Hl'.
  assert (Hcnt : forall k, (k <= k_lowest (q_crit st))%nat -> count S k (content (c_fringe (k_c (q_crit st))) ++ flat_map (trying S) (q_threads st)) = 0%nat /\ occ k (flat_map (running S) (q_threads st)) = 0%nat).
  { intros k Hk. destruct (Nat.eq_dec k (k_lowest (q_crit st))) as [->|Hne]; [|apply (i_low _ _ _ _ _ _ _ _ _ _ HI I); lia].
    assert (H1 := i_open _ _ _ _ _ _ _ _ _ _ HI (k_lowest (q_crit st))). assert (H2 := i_run _ _ _ _ _ _ _ _ _ _ HI (k_lowest (q_crit st))). lia. }
  split.
  - intros q Hq. destruct (Nat.lt_ge_cases (k_lowest (q_crit st)) (depth_of q)) as [H|H]; [exact H|]. destruct (Hcnt _ H) as (Hc & _). rewrite count_app in Hc.
    exfalso. eapply (count_zero (depth_of q) (content (c_fringe (k_c (q_crit st)))) q); eauto. lia.
  - intros t j Ht Hj. destruct (Nat.lt_ge_cases (k_lowest (q_crit st)) j) as [H|H]; [exact H|]. exfalso. destruct (Hcnt _ H) as (Hc & Hc'). rewrite count_app in Hc.
    assert (Hh : (exists q, In q (trying S t) /\ depth_of q = j) \/ In j (running S t)).
    { unfold in_hand in Hj. unfold trying, running. destruct (u_pc t); try destruct Hj; cbn; eauto. }
    destruct Hh as [(q & Hq & <-)|Hh].
    + eapply (count_zero (depth_of q) (flat_map (trying S) (q_threads st)) q); auto; [lia|]. apply in_flat_map. eauto.
    + eapply (occ_zero j (flat_map (running S) (q_threads st)) j); auto. apply in_flat_map. eauto.
Qed.

(** The counters of running subproblems are exact, those of pending ones never too small. *)
Lemma bar_counters n m inv content st k : good_config True inv content -> (m <= n)%nat -> breachable n m st -> (k <= pb_nb_vars P)%nat ->
  (exists g, nth_error (k_ongoing (q_crit st)) k = Some g /\
     g = length (filter (runs_in S k) (q_threads st))) /\
  (exists o, nth_error (k_open (q_crit st)) k = Some o /\
     (length (filter (fun q => Nat.eqb (depth_of q) k) (content (c_fringe (k_c (q_crit st))))) +
      length (filter (tries_in S k) (q_threads st)) <= o)%nat).
Proof.
  intros G Hm Hr Hk. assert (HI := reachable_inv1 S eqb cfg at_depth nv C True inv content G n m st Hm Hr). split.
  - exists (get (k_ongoing (q_crit st)) k). split; [apply get_nth; rewrite (i_rlen _ _ _ _ _ _ _ _ _ _ HI); lia|]. rewrite (i_run _ _ _ _ _ _ _ _ _ _ HI). clear.
    induction (q_threads st) as [|[p d] l IH]; [reflexivity|]. cbn [flat_map]. rewrite occ_app, IH. cbn [filter].
    destruct p; cbn [running u_pc]; try reflexivity; rewrite occ_cons; match goal with |- context [if runs_in S k ?t then _ else _] => let r := eval cbn in (runs_in S k t) in change (runs_in S k t) with r end; match goal with |- context [Nat.eqb ?a k] => destruct (Nat.eqb a k) end; reflexivity.
  - exists (get (k_open (q_crit st)) k). split; [apply get_nth; rewrite (i_olen _ _ _ _ _ _ _ _ _ _ HI); lia|]. assert (H := i_open _ _ _ _ _ _ _ _ _ _ HI k). rewrite count_app in H.
    assert (He : count S k (flat_map (trying S) (q_threads st)) = length (filter (tries_in S k) (q_threads st))); [|unfold count at 1 in H; lia].
    clear. induction (q_threads st) as [|[p d] l IH]; [reflexivity|]. cbn [flat_map]. rewrite count_app, IH. cbn [filter].
    destruct p; cbn [trying u_pc]; try reflexivity; rewrite count_cons; match goal with |- context [if tries_in S k ?t then _ else _] => let r := eval cbn in (tries_in S k t) in change (tries_in S k t) with r end; match goal with |- context [Nat.eqb ?a k] => destruct (Nat.eqb a k) end; reflexivity.
Qed.

(** * Discarding *)
Lemma bar_popped inv content n st t d i : good_config True inv content -> well_behaved S eqb P R at_depth nv C ->
  (cf_ctype cfg = LastExactLayer \/ one_end S cfg at_depth) -> decided_once S cfg nv -> (1 <= n)%nat -> breachable n 1 st ->
  c_interrupted (k_c (q_crit st)) = false -> q_threads st = [mk_bth (BTry t) d] ->
  threshold_of S eqb cfg st (depth_of t) (sp_state t) = Some i ->
  sp_value t < b_theta i \/ (sp_value t = b_theta i /\ b_explored i = true) ->
  forall ds x, completes S P nv t ds x -> still_promised S cfg nv (content (c_fringe (k_c (q_crit st)))) (blower_bound cfg st) x.
Proof.
  intros G WB HL HD Hn Hr Hi Ht He Hv ds x Hc.
  apply (discard_popped S eqb cfg at_depth nv C True inv content G WB HL (fun _ => HD) n st t d Hn Hr Hi Ht) with (ds := ds); [|exact Hc].
  exists i. split; [exact He|]. split; [destruct Hv; lia|]. intros E. destruct Hv as [Hv|(_ & Hv)]; [lia|exact Hv].
Qed.
Lemma bar_compiling inv content n st t p d q i : good_config True inv content -> well_behaved S eqb P R at_depth nv C ->
  (cf_ctype cfg = LastExactLayer \/ one_end S cfg at_depth) -> decided_once S cfg nv -> (1 <= n)%nat -> breachable n 1 st ->
  c_interrupted (k_c (q_crit st)) = false -> q_threads st = [mk_bth p d] ->
  p = BStart t \/ (exists y, p = BRelax t y) \/ (exists y, p = BRestrict t y) ->
  genuine S P nv q -> (depth_of t < depth_of q)%nat ->
  threshold_of S eqb cfg st (depth_of q) (sp_state q) = Some i -> sp_value q <= b_theta i ->
  forall ds x, completes S P nv q ds x -> still_promised S cfg nv (content (c_fringe (k_c (q_crit st)))) (blower_bound cfg st) x.
Proof.
  intros G WB HL HD Hn Hr Hi Ht Hp Hq Hd He Hv ds x Hc.
  exact (discard_compiling S eqb cfg at_depth nv C True inv content G WB HL (fun _ => HD) n st t p d Hn Hr Hi Ht Hp q i ds x Hq Hd He Hv Hc).
Qed.
End Proofs.
