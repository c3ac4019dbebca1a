(** What [solve_timeout] prints and returns. Nothing here models code of /repo. *)
From Verif Require Import Base Names NamesFacts GapFacts F32 F32Spec Text TextSpec TextFacts Report ReportSpec Spec DdSpec ParSpec ParProofs BarSpec BarProofs WideSpec WideProofs BarWide.
From Coq Require Import Lia ZArith List String Ascii.
Import ListNotations.
Open Scope string_scope.
Open Scope Z_scope.

(** * Numbers as texts *)
Lemma digit_char_ok d : 0 <= d -> digit_char d = ascii_of_N (48 + Z.to_N d).
Proof. intros H. unfold digit_char. f_equal. lia. Qed.
Lemma show_digits_ok fuel : forall n s, 0 <= n < 10 ^ Z.of_nat (S fuel) -> exists d k, show_digits fuel n s = d ++ s /\ digits d n k.
Proof.
  induction fuel as [|f IH]; intros n s Hn.
  - cbn [show_digits]. change (10 ^ Z.of_nat 1) with 10 in Hn. rewrite Z.mod_small by lia. replace (n <? 10) with true by (symmetry; apply Z.ltb_lt; lia).
    exists (String (digit_char n) ""), 1%nat. split; [reflexivity|]. rewrite digit_char_ok by lia. constructor. lia.
  - cbn [show_digits]. pose proof (Z.mod_pos_bound n 10 ltac:(lia)) as Hm. destruct (n <? 10) eqn:E.
    + apply Z.ltb_lt in E. rewrite Z.mod_small by lia. exists (String (digit_char n) ""), 1%nat. split; [reflexivity|]. rewrite digit_char_ok by lia. constructor. lia.
    + apply Z.ltb_ge in E. destruct (IH (n / 10) (String (digit_char (n mod 10)) s)) as (d & k & Hd & Hk).
      { split; [apply Z.div_pos; lia|]. apply Z.div_lt_upper_bound; [lia|]. rewrite Nat2Z.inj_succ, Z.pow_succ_r in Hn by lia. lia. }
      exists (d ++ String (digit_char (n mod 10)) ""), (S k). split; [rewrite Hd, app_assoc_s; reflexivity|].
      rewrite digit_char_ok by lia. replace n with (10 * (n / 10) + n mod 10) at 2 by (symmetry; apply Z.div_mod; lia). constructor; assumption.
Qed.
Lemma show_isize_integer z : in_isize z -> integer (show_isize z) z.
Proof.
  intros [H1 H2]. change IMIN with (- 2 ^ 63) in H1. change IMAX with (2 ^ 63 - 1) in H2. assert (2 ^ 63 < 10 ^ Z.of_nat 21) as Hb by reflexivity.
  unfold show_isize. destruct (z <? 0) eqn:E.
  - apply Z.ltb_lt in E. destruct (show_digits_ok 20 (- z) "" ltac:(lia)) as (d & k & -> & Hk). rewrite app_empty. rewrite <- (Z.opp_involutive z). apply int_minus. exists k. exact Hk.
  - apply Z.ltb_ge in E. destruct (show_digits_ok 20 z "" ltac:(lia)) as (d & k & -> & Hk). rewrite app_empty. apply int_nat. exists k. exact Hk.
Qed.
Lemma show_isize_read z : in_isize z -> parse_isize (show_isize z) = Some z.
Proof. intros H. apply parse_isize_integer; [apply show_isize_integer|]; assumption. Qed.

(** * The gap between equal bounds *)
Lemma gap_closed v : IMIN < v <= IMAX -> f32_value (gap v v) = if v =? 0 then None else Some 0%Q.
Proof.
  intros [H1 H2]. change IMIN with (- 2 ^ 63) in H1. change IMAX with (2 ^ 63 - 1) in H2. unfold gap, gap_fraction, wrap_abs. change IMIN with (- 2 ^ 63).
  replace (v =? - 2 ^ 63) with false by (symmetry; apply Z.eqb_neq; lia). rewrite Z.max_id, Z.min_id.
  replace (wrap_sub (Z.abs v) (Z.abs v)) with 0 by (unfold wrap_sub; rewrite Z.sub_diag; reflexivity).
  destruct (v =? 0) eqn:E; [apply Z.eqb_eq in E; subst; reflexivity|]. apply Z.eqb_neq in E.
  destruct (F32Facts.f32_of_rounds (Z.abs v) ltac:(lia)) as (f & e & -> & _ & _). reflexivity.
Qed.
Lemma gap_none : f32_value (gap IMIN IMIN) = Some 0%Q.
Proof. vm_compute. reflexivity. Qed.

(** * Conclusions *)
Lemma conclude_optimum debug name sv v e1 e2 : IMIN < v <= IMAX ->
  exists r, conclude debug name sv false (Some v) v v e1 e2 = Some (r, v) /\ rp_name r = name /\ rp_solver r = show_solver sv /\ says_optimum r v.
Proof.
  intros H. unfold conclude, gap_checked. replace (v =? IMIN) with false by (symmetry; apply Z.eqb_neq; lia). rewrite andb_false_r. cbn [obind].
  eexists. split; [reflexivity|]. cbn. split; [reflexivity|]. split; [reflexivity|]. assert (in_isize v) as Hv by (unfold in_isize; lia).
  split; [reflexivity|]. split; [apply show_isize_integer, Hv|]. split; [apply show_isize_integer, Hv|]. split; [apply show_isize_integer, Hv|]. apply gap_closed, H.
Qed.
Lemma conclude_none (debug : bool) name sv e1 e2 :
  if debug then conclude debug name sv false None IMIN IMIN e1 e2 = None else
  exists r, conclude debug name sv false None IMIN IMIN e1 e2 = Some (r, IMIN) /\ rp_name r = name /\ rp_solver r = show_solver sv /\ says_infeasible r.
Proof.
  destruct debug; [reflexivity|]. eexists. split; [reflexivity|]. cbn [rp_name rp_solver]. split; [reflexivity|]. split; [reflexivity|].
  assert (in_isize IMIN) as Hv by (split; vm_compute; discriminate).
  split; [reflexivity|]. split; [reflexivity|]. split; [apply show_isize_integer, Hv|]. split; [apply show_isize_integer, Hv|exact gap_none].
Qed.
Lemma conclude_timeout debug name sv b lb u e1 e2 r u' : conclude debug name sv true b lb u e1 e2 = Some (r, u') ->
  u' = u /\ rp_name r = name /\ rp_solver r = show_solver sv /\ rp_status r = "Timeout" /\ rp_ub r = show_isize u /\ rp_lb r = show_isize lb /\
  rp_best r = match b with Some v => show_isize v | None => "not found" end.
Proof. unfold conclude. destruct (gap_checked debug lb u); [|discriminate]. cbn [obind]. intros H. injection H as <- <-. repeat split; reflexivity. Qed.
Lemma conclude_release name sv i b lb u e1 e2 : exists r, conclude false name sv i b lb u e1 e2 = Some (r, u) /\ rp_status r = show_status i.
Proof. eexists. split; reflexivity. Qed.
Lemma conclude_panics debug name sv i b lb u e1 e2 : conclude debug name sv i b lb u e1 e2 = None -> debug = true.
Proof. unfold conclude, gap_checked. destruct debug; [reflexivity|discriminate]. Qed.

Section Ends.
Variable S : Type.
Variable eqb : S -> S -> bool.
Variable cfg : config S.
Variable at_depth : nat -> S -> Prop.
Variable nv : nat -> nat.
Variable C : Z.
Notation P := (cf_pb cfg).
Hypothesis G : good_solver S eqb cfg at_depth nv C.

Lemma reported_range l v : reported_solution S P nv l v -> IMIN < v <= IMAX.
Proof.
  intros (ds & _ & Hs). destruct G as (inv & content & G'). exact (ParOpt.solution_gt S eqb cfg at_depth nv C True inv content G' ds v Hs).
Qed.
Lemma ends_ok debug name threads cpus sv i b lb ub e1 e2 :
  (b = None /\ lb = IMIN) \/ (exists l v, b = Some v /\ lb = v /\ reported_solution S P nv l v) ->
  (i = false -> ub = lb /\ match b with Some v => optimum S P nv v | None => infeasible S P nv end) ->
  (forall r u, conclude false name sv i b lb ub e1 e2 = Some (r, u) -> solve_timeout_ends eqb cfg false name threads cpus sv (Some (r, u))) ->
  good_end eqb cfg nv debug name threads cpus sv (conclude debug name sv i b lb ub e1 e2).
Proof.
  intros Hs Hp He. unfold good_end. destruct i.
  - destruct (conclude debug name sv true b lb ub e1 e2) as [[r u]|] eqn:E.
    + apply conclude_timeout in E as (-> & H1 & H2 & H3 & H4 & H5 & H6). split; [exact H1|]. split; [exact H2|]. right. split; [exact H3|]. rewrite H4, H5, H6.
      split; [apply show_isize_integer|]. destruct Hs as [(-> & ->)|(l & v & -> & -> & Hv)].
      * left. split; [reflexivity|]. apply show_isize_integer. split; vm_compute; discriminate.
      * right. exists v, l. pose proof (reported_range l v Hv). split; [|split; [|exact Hv]]; apply show_isize_integer; unfold in_isize; lia.
    + split; [eapply conclude_panics, E|]. right. destruct (conclude_release name sv true b lb ub e1 e2) as (r & Er & Es). exists r, ub. split; [apply He, Er|exact Es].
  - destruct (Hp eq_refl) as (-> & Hb). destruct Hs as [(-> & ->)|(l & v & -> & -> & Hv)].
    + pose proof (conclude_none debug name sv e1 e2) as H. destruct debug; [rewrite H; auto|]. destruct H as (r & -> & H1 & H2 & H3).
      split; [exact H1|]. split; [exact H2|]. left. right. auto.
    + destruct (conclude_optimum debug name sv v e1 e2 (reported_range l v Hv)) as (r & -> & H1 & H2 & H3).
      split; [exact H1|]. split; [exact H2|]. left. left. auto.
Qed.

Lemma nobody_panics n sv : ~ a_thread_panics eqb cfg n sv.
Proof.
  destruct G as (inv & content & G'). destruct sv; intros [H|(st & orc & intr & i & Hr & Hl & H)].
  - destruct (ParFacts.initial_ok S eqb cfg at_depth nv C True inv content G' n n) as (st & E & _). congruence.
  - exact (par_no_panic S eqb cfg at_depth nv C n n st orc intr i G (Nat.le_refl _) Hr Hl H).
  - destruct (BarFacts.initial_ok S eqb cfg at_depth nv C True inv content G' n n) as (st & E & _). congruence.
  - exact (bar_no_panic S eqb cfg at_depth nv C n n st orc intr i G (Nat.le_refl _) Hr Hl H).
Qed.
(** [solve_timeout] can always end. *)
Lemma timeout_ends debug name threads cpus sv : exists out, solve_timeout_ends eqb cfg debug name threads cpus sv out.
Proof.
  destruct G as (inv & content & G'). set (n := thread_count threads cpus). destruct sv.
  - destruct (ParFacts.initial_ok S eqb cfg at_depth nv C True inv content G' n n) as (st & E & _).
    destruct (par_ends S eqb cfg at_depth nv C n n st G (Nat.le_refl _)) as (st' & H1 & H2).
    { exists st. split; [exact E|constructor]. }
    exists (parallel_conclusion cfg debug name st'). apply ends_parallel; [exists st; split; [exact E|exact H1]|exact H2].
  - destruct (BarFacts.initial_ok S eqb cfg at_depth nv C True inv content G' n n) as (st & E & _).
    destruct (bar_ends S eqb cfg at_depth nv C n n st G (Nat.le_refl _)) as (st' & H1 & H2).
    { exists st. split; [exact E|constructor]. }
    exists (barrier_conclusion cfg debug name st'). apply ends_barrier; [exists st; split; [exact E|exact H1]|exact H2].
Qed.

Lemma parallel_ends debug name threads cpus out :
  (forall st, reachable S eqb cfg (thread_count threads cpus) (thread_count threads cpus) st -> proved cfg st ->
     upper_bound_of cfg st = lower_bound_of cfg st /\ match best_value_of cfg st with Some v => optimum S P nv v | None => infeasible S P nv end) ->
  solve_timeout_ends eqb cfg debug name threads cpus ParallelS out -> good_end eqb cfg nv debug name threads cpus ParallelS out.
Proof.
  intros Hp He. inversion He as [st Hr Hd| |sv Hn]; subst; [|destruct (nobody_panics _ _ Hn)]. apply ends_ok.
  - destruct (par_solution S eqb cfg at_depth nv C _ _ st G (Nat.le_refl _) Hr) as [(_ & H1 & H2)|(l & v & _ & H1 & H2 & H3)]; [left; auto|right; exists l, v; auto].
  - intros Hi. apply Hp; [exact Hr|split; assumption].
  - intros r u E. unfold parallel_conclusion in *. rewrite <- E. apply ends_parallel; assumption.
Qed.
Lemma barrier_ends debug name threads cpus out :
  (forall st, breachable S eqb cfg (thread_count threads cpus) (thread_count threads cpus) st -> bproved cfg st ->
     bupper_bound cfg st = blower_bound cfg st /\ match bbest_value cfg st with Some v => optimum S P nv v | None => infeasible S P nv end) ->
  solve_timeout_ends eqb cfg debug name threads cpus BarrierS out -> good_end eqb cfg nv debug name threads cpus BarrierS out.
Proof.
  intros Hp He. inversion He as [|st Hr Hd|sv Hn]; subst; [|destruct (nobody_panics _ _ Hn)]. apply ends_ok.
  - destruct (bar_solution S eqb cfg at_depth nv C _ _ st G (Nat.le_refl _) Hr) as [(_ & H1 & H2)|(l & v & _ & H1 & H2 & H3)]; [left; auto|right; exists l, v; auto].
  - intros Hi. apply Hp; [exact Hr|split; assumption].
  - intros r u E. unfold barrier_conclusion in *. rewrite <- E. apply ends_barrier; assumption.
Qed.

Lemma report_parallel debug name threads cpus out : well_behaved S eqb P (cf_rx cfg) at_depth nv C -> cf_ctype cfg = LastExactLayer \/ one_end S cfg at_depth -> decided_once S cfg nv ->
  (1 <= thread_count threads cpus)%nat ->
  solve_timeout_ends eqb cfg debug name threads cpus ParallelS out -> good_end eqb cfg nv debug name threads cpus ParallelS out.
Proof.
  intros WB HL HD Hn. apply parallel_ends. intros st Hr Hp. destruct (par_optimum_any S eqb cfg at_depth nv C _ _ st G WB HL HD (conj Hn (Nat.le_refl _)) Hr Hp) as (H1 & H2).
  split; [exact H1|]. destruct (best_value_of cfg st); apply H2.
Qed.
Lemma report_barrier debug name cpus out : well_behaved S eqb P (cf_rx cfg) at_depth nv C -> cf_ctype cfg = LastExactLayer \/ one_end S cfg at_depth -> decided_once S cfg nv ->
  solve_timeout_ends eqb cfg debug name (Some 1%nat) cpus BarrierS out -> good_end eqb cfg nv debug name (Some 1%nat) cpus BarrierS out.
Proof.
  intros WB HL HD. apply barrier_ends. intros st Hr Hp. destruct (bar_optimum_any S eqb cfg at_depth nv C _ st G WB HL HD (Nat.le_refl _) Hr Hp) as (H1 & H2).
  split; [exact H1|]. destruct (bbest_value cfg st); apply H2.
Qed.
Lemma report_wide debug name threads cpus sv out : admissible_reached S P nv -> wide_enough S P nv (cf_width cfg) -> decided_once S cfg nv ->
  (1 <= thread_count threads cpus)%nat ->
  solve_timeout_ends eqb cfg debug name threads cpus sv out -> good_end eqb cfg nv debug name threads cpus sv out.
Proof.
  intros HA HW HD Hn. destruct sv.
  - apply parallel_ends. intros st Hr Hp. destruct (par_wide S eqb cfg at_depth nv C _ _ st G HA HW HD (conj Hn (Nat.le_refl _)) Hr Hp) as (H1 & H2).
    split; [exact H1|]. destruct (best_value_of cfg st); apply H2.
  - apply barrier_ends. intros st Hr Hp. destruct (bar_wide S eqb cfg at_depth nv C _ _ st G HA (HW 0%nat _ (ex_intro _ [] (ex_intro _ 0 (run_nil _ _ _ _ _)))) (conj Hn (Nat.le_refl _)) Hr Hp) as (H1 & H2).
    split; [exact H1|]. destruct (bbest_value cfg st); apply H2.
Qed.
End Ends.
Lemma show_isize_faithful z : in_isize z -> integer (show_isize z) z /\ parse_isize (show_isize z) = Some z.
Proof. split; [apply show_isize_integer|apply show_isize_read]; assumption. Qed.
Lemma some_end S eqb (cfg : config S) at_depth nv C debug name threads cpus sv :
  good_solver S eqb cfg at_depth nv C -> exists out, solve_timeout_ends eqb cfg debug name threads cpus sv out.
Proof. intros G. exact (timeout_ends S eqb cfg at_depth nv C G debug name threads cpus sv). Qed.
