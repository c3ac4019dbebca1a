(** Several calls on the same solver with thresholds. *)
From Verif Require Import Spec Dd DdSpec MddAll MddAllProofs FrontierSpec FringeSpec ParFacts ParOpt ParTerm MddBarrier BarWp BarFacts BarTerm BarProofs AgainSpec AgainProofs.
Open Scope Z_scope.

Section Bar.
Variable S : Type.
Variable eqb : S -> S -> bool.
Variable cfg : config S.
Variable at_depth : nat -> S -> Prop.
Variable nv : nat -> nat.
Variable C : Z.
Notation P := (cf_pb cfg).
Notation R := (cf_rx cfg).
Notation solution := (solution S P nv).
Notation good_solver := (good_solver S eqb cfg at_depth nv C).
Notation later := (blater S eqb cfg).
Notation session := (bsession S eqb cfg).
Notation stays := (stays S cfg).
Notation KC st := (k_c (q_crit st)).

(** * What a step leaves alone *)
Lemma stays_decide k intr k' p : decide cfg k intr = Some (k', p) -> stays (k_c k) (k_c k').
Proof.
  unfold decide. intros H. cbn zeta in H. destruct (_ && _); [injection H as <- <-; split; cbn; auto|]. destruct (c_interrupted (k_c k)) eqn:Ei; [injection H as <- <-; apply stays_same; reflexivity|]. destruct intr.
  - destruct (0 <? _)%nat; cbn [obind] in H; [injection H as <- <-; split; cbn; [auto|split; [auto|discriminate]]|]. destruct (fr_pop _ _) as [[[nn|] f]|]; cbn [obind] in H; try discriminate.
    injection H as <- <-. split; cbn; [auto|split; [auto|discriminate]].
  - destruct (fr_empty _ _); [injection H as <- <-; apply stays_same; reflexivity|]. destruct (fr_pop _ _) as [[[nn|] f]|]; cbn [obind] in H; try discriminate. injection H as <- <-. apply stays_same; cbn; auto.
Qed.
Lemma stays_try k T n k' p : try_node eqb cfg k T n = Some (k', p) -> stays (k_c k) (k_c k').
Proof.
  unfold try_node. intros H. cbn zeta in H. destruct (_ <=? _)%Z; [injection H as <- <-; apply stays_same; reflexivity|]. destruct (nth_error T _) as [l|]; cbn [obind] in H; [|discriminate].
  destruct (match tget _ _ _ with Some _ => _ | None => _ end); [injection H as <- <-; apply stays_same; reflexivity|]. destruct (decr _ _) as [o|]; cbn [obind] in H; [|discriminate].
  destruct (fr_empty _ _); [injection H as <- <-; apply stays_same; reflexivity|]. destruct (fr_pop _ _) as [[[nn|] f]|]; cbn [obind] in H; try discriminate. injection H as <- <-. apply stays_same; reflexivity.
Qed.
Lemma stays_take k T i n k' T' : take_node eqb cfg k T i n = Some (k', T') -> stays (k_c k) (k_c k').
Proof.
  unfold take_node. intros H. cbn zeta in H. destruct (nth_error T _) as [l|]; cbn [obind] in H; [|discriminate]. destruct (upd T _ _); cbn [obind] in H; [|discriminate].
  destruct (upd (c_ubs _) _ _); cbn [obind] in H; [|discriminate]. destruct (decr _ _); cbn [obind] in H; [|discriminate]. destruct (incr _ _); cbn [obind] in H; [|discriminate].
  injection H as <- <-. apply stays_same; reflexivity.
Qed.
Lemma stays_bstep orc intr i st st' : bthread_step eqb cfg orc intr i st = BNext st' -> stays (KC st) (KC st').
Proof.
  unfold bthread_step. destruct (nth_error (q_threads st) i) as [[p d]|]; [|discriminate]. cbn [u_pc u_dd]. cbn zeta. intros H.
  assert (Hg : forall k T t, goto cfg st i k T t = BNext st' -> q_crit st' = k) by (unfold goto; intros k T t E; injection E as <-; reflexivity).
  assert (Hs : q_crit st' = q_crit st -> stays (KC st) (KC st')) by (intros ->; apply stays_same; reflexivity).
  assert (Hc : forall n f d', compile_step eqb cfg st i n f d' = BNext st' -> q_crit st' = q_crit st).
  { intros n f d' E. unfold compile_step in E. destruct (access _ _ _) as [[p' T']|]; [|discriminate]. eapply Hg; eauto. }
  destruct p as [| | |n|n|n|n pr|n x|n x pr|n x|]; try discriminate.
  - destruct (locked cfg st); [discriminate|]. eauto.
  - destruct (clean_turn cfg (q_crit st) (q_table st)) as [[[k' T']|]|] eqn:E; [| |discriminate].
    + apply Hg in H. rewrite H. unfold clean_turn in E. destruct (_ <? _)%nat; [|discriminate]. destruct (nth_error _ _); cbn [obind] in E; [|discriminate]. destruct (nth_error _ _); cbn [obind] in E; [|discriminate].
      destruct (_ =? _)%nat; [|discriminate]. destruct (upd _ _ _); cbn [obind] in E; [|discriminate]. injection E as <- <-. apply stays_same; reflexivity.
    + destruct (decide cfg (q_crit st) intr) as [[k' p]|] eqn:E2; [|discriminate]. apply Hg in H. rewrite H. eapply stays_decide; eauto.
  - destruct (try_node eqb cfg (q_crit st) (q_table st) n) as [[k' p]|] eqn:E2; [|discriminate]. apply Hg in H. rewrite H. eapply stays_try; eauto.
  - destruct (take_node eqb cfg (q_crit st) (q_table st) i n) as [[k' T']|] eqn:E2; [|discriminate]. apply Hg in H. rewrite H. eapply stays_take; eauto.
  - destruct (locked cfg st); [discriminate|]. eauto.
  - destruct pr as [d'| |j f|j s f|j s f g]; eauto. destruct (locked cfg st); [discriminate|].
    destruct (maybe_update_best cfg (KC st) d') as [c'|] eqn:E; cbn [obind] in H; [|discriminate]. apply Hg in H. rewrite H. eapply stays_update; eauto.
  - destruct (locked cfg st); [discriminate|]. eauto.
  - destruct pr as [d'| |j f|j s f|j s f g]; eauto. destruct (locked cfg st); [discriminate|]. destruct (g_exact d').
    + destruct (maybe_update_best cfg (KC st) d') as [c'|] eqn:E; cbn [obind] in H; [|discriminate]. apply Hg in H. rewrite H. eapply stays_update; eauto.
    + unfold benqueue_cutset in H. destruct (drain_cutset d') as [[l d2]|]; cbn [obind] in H; [|discriminate]. destruct (ofold _ _ _) as [[f o]|]; cbn [obind] in H; [|discriminate]. apply Hg in H. rewrite H. apply stays_same; reflexivity.
  - destruct (locked cfg st); [discriminate|]. unfold bfinish_node, finish_node in H. destruct (c_ongoing _); [discriminate|]. destruct (upd _ _ _); cbn [obind] in H; [|discriminate]. destruct (decr _ _); cbn [obind] in H; [|discriminate].
    injection H as <-. apply stays_same; reflexivity.
Qed.

Section Inv.
Variable inv : fr_t (cf_fr cfg) -> Prop.
Variable content : fr_t (cf_fr cfg) -> list (subproblem S).
Hypothesis G : good_config S eqb cfg at_depth nv C True inv content.
Notation winv := (winv S eqb cfg at_depth nv C inv content False).

(** Between two calls and inside them: the invariant of one call, except that the root may lie below the lowest active layer. *)
Definition fine (n : nat) (st : bstate S cfg) : Prop := winv st /\ length (c_ubs (KC st)) = n.
Lemma weaken first st : BarFacts.winv S eqb cfg at_depth nv C inv content first st -> winv st.
Proof. intros []. constructor; auto; intros []. Qed.
Lemma move_ubs st st' : winv st -> BarFacts.move S eqb cfg nv inv content st st' -> length (c_ubs (KC st')) = length (c_ubs (KC st)).
Proof.
  intros HI [l1 l2 p p' d d' k' T' E Hlk Ha | l1 l2 n x d c' g E Hlk h1 h2 h3 h4 h5 h6 h7 h8 h9]; cbn [q_crit k_c]; [|exact h2].
  assert (HL := loc_of S eqb cfg at_depth nv C inv content False st l1 _ l2 HI E).
  assert (Hfree : p = BIdle -> total S (holding S) (l1 ++ l2) = 0%nat) by (intros ->; eapply locked_free; eauto).
  apply (act_loc S eqb cfg at_depth nv C True inv content G False _ _ _ _ _ _ _ _ _ _ _ _ Ha Hfree HL).
Qed.
Lemma fine_step n a b : fine n a -> bstep S eqb cfg a b \/ bspurious S cfg a b -> fine n b /\ c_lb (KC a) <= c_lb (KC b) /\ stays (KC a) (KC b).
Proof.
  intros (HI & HU) [H|H].
  - assert (HM := step_move S eqb cfg at_depth nv C True inv content G _ _ HI H). destruct (move_inv1 S eqb cfg at_depth nv C True inv content G _ _ HI HM) as (I2 & L2).
    split; [split; [exact I2|rewrite (move_ubs _ _ HI HM); exact HU]|]. split; [exact L2|]. destruct H as (orc & intr & i & _ & H). eapply stays_bstep; eauto.
  - destruct (spurious_inv1 S eqb cfg at_depth nv C inv content _ _ HI H) as (I2 & E2). rewrite E2. split; [split; [exact I2|rewrite E2; exact HU]|]. split; [lia|apply stays_same; reflexivity].
Qed.
Lemma done_none {A} (f : bthread S -> list A) (l : list (bthread S)) : (forall t, u_pc t = BDone -> f t = []) -> (forall t, In t l -> u_pc t = BDone) -> flat_map f l = [].
Proof. intros Hf. induction l as [|t l IH]; intros H; [reflexivity|]. cbn. rewrite (Hf t (H t (or_introl eq_refl))). apply IH. intros x Hx. apply H. right. exact Hx. Qed.
Lemma idle_none {A} (f : bthread S -> list A) d m : f (mk_bth BIdle d) = [] -> flat_map f (repeat (mk_bth BIdle d) m) = [].
Proof. intros Hf. induction m as [|m IH]; [reflexivity|]. cbn. rewrite Hf. exact IH. Qed.
Lemma idle_total f d m : f (mk_bth BIdle d) = 0%nat -> total S f (repeat (mk_bth BIdle d) m) = 0%nat.
Proof. intros Hf. induction m as [|m IH]; [reflexivity|]. change (f (mk_bth BIdle d) + total S f (repeat (mk_bth BIdle d) m) = 0)%nat. lia. Qed.
Lemma done_working (l : list (bthread S)) : (forall t, In t l -> u_pc t = BDone) -> total S (working S) l = 0%nat.
Proof.
  induction l as [|t l IH]; intros H; [reflexivity|]. change (working S t + total S (working S) l = 0)%nat. rewrite IH by (intros x Hx; apply H; right; exact Hx). unfold working, running. rewrite (H t (or_introl eq_refl)). reflexivity.
Qed.
Lemma fine_again n m a : fine n a -> ball_done cfg a -> (m <= n)%nat ->
  exists b, bagain cfg m a = Some b /\ fine n b /\ content (c_fringe (KC b)) <> [] /\ q_threads b = repeat (mk_bth BIdle (dd_new (cf_ctype cfg))) m /\
    c_lb (KC b) = c_lb (KC a) /\ c_ub (KC b) = c_ub (KC a) /\ c_sol (KC b) = c_sol (KC a) /\ c_interrupted (KC b) = c_interrupted (KC a) /\
    c_explored (KC b) = c_explored (KC a) /\ c_explored_dd (KC b) = c_explored_dd (KC a).
Proof.
  intros ([i1 i2 i3 i4 i5 i6 i7 i8 i9 i10 i11 i12 i13 i14 i15 i16] & HU) Hd Hm.
  destruct (push_counts S eqb cfg at_depth nv C True inv content G _ _ i1 i2 (root_genuine S cfg nv)) as (f & E & f1 & f2 & f4).
  assert (f3 : content f <> []).
  { destruct (fo_push _ _ _ _ (gs_frontier _ _ _ _ _ _ _ _ _ G) (c_fringe (KC a)) (root_node cfg) i1) as (f' & E' & _ & H). rewrite E in E'. injection E' as <-.
    intros Hz. rewrite Hz in H. destruct H as [H|(_ & old & l & _ & _ & H)]; apply Permutation_nil in H; discriminate. }
  destruct (incr_ok (k_open (q_crit a)) 0) as (o & Eo & o1 & o2); [lia|].
  unfold bagain. rewrite E. cbn [obind]. rewrite Eo. cbn [obind]. eexists. split; [reflexivity|]. split; [|cbn; auto 10].
  split; [|exact HU]. rewrite (done_working _ Hd) in i4.
  constructor; cbn [q_crit q_table q_threads k_c k_open k_ongoing k_lowest set_fringe c_fringe c_lb c_ongoing c_ubs c_sol]; auto.
  - apply Forall_forall. intros t Ht. apply repeat_spec in Ht. subst t. split; [reflexivity|]. split; [constructor|]. split; [constructor|exact I].
  - rewrite i4. symmetry. apply idle_total. reflexivity.
  - rewrite repeat_length. lia.
  - intros t Ht. apply repeat_spec in Ht. subst t. discriminate.
  - rewrite idle_total; [lia|reflexivity].
  - lia.
  - intros k. rewrite idle_none, app_nil_r by reflexivity. specialize (i11 k). rewrite (done_none (trying S)), app_nil_r in i11 by (try exact Hd; intros t Ht; unfold trying; rewrite Ht; reflexivity).
    specialize (f4 k). rewrite o2. change (depth_of (root_node cfg)) with 0%nat in f4. lia.
  - intros k. rewrite idle_none by reflexivity. rewrite i13. rewrite (done_none (running S)) by (try exact Hd; intros t Ht; unfold running; rewrite Ht; reflexivity). reflexivity.
  - intros [].
Qed.
Lemma fine_later n a b : later n a b -> fine n a -> fine n b /\ c_lb (KC a) <= c_lb (KC b) /\ (c_interrupted (KC a) = true -> c_interrupted (KC b) = true).
Proof.
  induction 1 as [|b c _ IH Hs|b m c _ IH Hd Hm E]; intros HF; [split; [exact HF|split; [lia|auto]]| |]; destruct (IH HF) as (F1 & L1 & I1).
  - destruct (fine_step n _ _ F1 Hs) as (F2 & L2 & _ & I2 & _). split; [exact F2|]. split; [lia|auto].
  - destruct (fine_again n m b F1 Hd) as (c' & E' & F2 & _ & _ & e1 & _ & _ & e2 & _); [lia|]. rewrite E in E'. injection E' as <-. rewrite e1, e2. auto.
Qed.
Lemma fine_initial n m st : (m <= n)%nat -> binitial cfg n m = Some st -> fine n st.
Proof.
  intros Hm E. split; [exact (weaken _ _ (initial_inv1 S eqb cfg at_depth nv C True inv content G n m st Hm E))|]. unfold binitial in E. destruct (fr_push _ _ _); cbn [obind] in E; [|discriminate].
  destruct (upd _ _ _); cbn [obind] in E; [|discriminate]. injection E as <-. apply repeat_length.
Qed.
Lemma fine_session n st : session n st -> fine n st.
Proof. intros (m & st0 & Hm & E & H). apply (fine_later n st0 st H). apply (fine_initial n m); [lia|exact E]. Qed.

(** * After an answer *)
Lemma answer_stays n a b : fine n a -> (forall ds x, solution ds x -> x <= c_lb (KC a)) -> c_ub (KC a) = c_lb (KC a) -> later n a b ->
  c_lb (KC b) = c_lb (KC a) /\ c_sol (KC b) = c_sol (KC a) /\ (c_interrupted (KC b) = false -> c_ub (KC b) = c_lb (KC b)).
Proof.
  intros HF Hopt Hub H. induction H as [|b c H IH Hs|b m c H IH Hd Hm E]; [auto| |].
  - destruct IH as (h1 & h2 & h3). assert (F1 := proj1 (fine_later n a b H HF)). destruct (fine_step n b c F1 Hs) as (F2 & L2 & s1 & s2 & s3).
    assert (Hlb : c_lb (KC c) = c_lb (KC b)).
    { assert (Hs0 := i_sol _ _ _ _ _ _ _ _ _ _ (proj1 F2)). unfold sol_ok in Hs0. destruct (c_sol (KC c)) as [l|].
      - destruct Hs0 as (ds & _ & Hs0). specialize (Hopt _ _ Hs0). lia.
      - assert (Hb0 := i_sol _ _ _ _ _ _ _ _ _ _ (proj1 F1)). unfold sol_ok in Hb0. destruct (c_sol (KC b)) as [l|]; [|congruence]. destruct Hb0 as (ds & _ & Hb0).
        destruct (solution_gt S eqb cfg at_depth nv C True inv content G _ _ Hb0). lia. }
    split; [congruence|]. split; [rewrite s1; auto|]. intros Hi. specialize (s3 Hi).
    assert (Hi' : c_interrupted (KC b) = false) by (destruct (c_interrupted (KC b)); [rewrite (s2 eq_refl) in Hi; discriminate|reflexivity]).
    specialize (h3 Hi'). destruct s3; congruence.
  - destruct IH as (h1 & h2 & h3). assert (F1 := proj1 (fine_later n a b H HF)). destruct (fine_again n m b F1 Hd) as (c' & E' & F2 & _ & _ & e1 & e2 & e3 & e4 & _); [lia|].
    rewrite E in E'. injection E' as <-. rewrite e1, e2, e3, e4. auto.
Qed.

(** * After an interruption *)
Definition frozen (c c' : critical S cfg) : Prop :=
  c_lb c' = c_lb c /\ c_ub c' = c_ub c /\ c_sol c' = c_sol c /\ c_explored c' = c_explored c /\ c_explored_dd c' = c_explored_dd c /\ c_interrupted c' = true.
Definition leaving (st : bstate S cfg) : Prop :=
  ball_done cfg st \/ (content (c_fringe (KC st)) <> [] /\ forall t, In t (q_threads st) -> u_pc t = BIdle \/ u_pc t = BClean \/ u_pc t = BDone).
Lemma leaving_step n a b : fine n a -> leaving a -> c_interrupted (KC a) = true -> bstep S eqb cfg a b \/ bspurious S cfg a b -> leaving b /\ KC b = KC a.
Proof.
  intros (HI & _) HL Hi [(orc & intr & i & _ & H)|(i & d & Hn & _)].
  - unfold bthread_step in H. destruct (nth_error (q_threads a) i) as [[p d]|] eqn:Hn; [|discriminate]. cbn [u_pc u_dd] in H. cbn zeta in H. assert (Hin := nth_error_In _ _ Hn).
    destruct HL as [HL|(h1 & h2)]; [specialize (HL _ Hin); cbn in HL; subst p; discriminate|].
    assert (Hput : forall k T p' d', goto cfg a i k T (mk_bth p' d') = BNext b -> k_c k = KC a -> p' = BClean \/ p' = BDone -> leaving b /\ KC b = KC a).
    { intros k T p' d' E Ek Hp'. unfold goto in E. injection E as <-. cbn [q_crit]. split; [|exact Ek]. right. cbn [q_crit q_threads]. rewrite Ek. split; [exact h1|].
      intros t Ht. apply in_put in Ht as [->|Ht]; [cbn; tauto|auto]. }
    destruct (h2 _ Hin) as [Hp|[Hp|Hp]]; cbn in Hp; subst p; [| |discriminate].
    + destruct (locked cfg a); [discriminate|]. eapply Hput; eauto.
    + destruct (clean_turn cfg (q_crit a) (q_table a)) as [[[k' T']|]|] eqn:E; [| |discriminate].
      * eapply Hput; [exact H| |auto]. unfold clean_turn in E. destruct (_ <? _)%nat; [|discriminate]. destruct (nth_error _ _); cbn [obind] in E; [|discriminate]. destruct (nth_error _ _); cbn [obind] in E; [|discriminate].
        destruct (_ =? _)%nat; [|discriminate]. destruct (upd _ _ _); cbn [obind] in E; [|discriminate]. injection E as <- <-. reflexivity.
      * assert (Hne : fr_empty (cf_fr cfg) (c_fringe (KC a)) = false).
        { destruct (fr_empty _ _) eqn:E2; [|reflexivity]. exfalso. apply h1. apply (fo_empty _ _ _ _ (gs_frontier _ _ _ _ _ _ _ _ _ G)); [apply HI|exact E2]. }
        unfold decide in H. cbn zeta in H. rewrite Hne, andb_false_r, Hi in H. eapply Hput; eauto.
  - apply nth_error_In in Hn. exfalso. destruct HL as [HL|(_ & HL)]; [specialize (HL _ Hn)|destruct (HL _ Hn) as [HL'|[HL'|HL']]]; cbn in *; discriminate.
Qed.
Lemma interrupted_stays n a b : fine n a -> ball_done cfg a -> c_interrupted (KC a) = true -> later n a b -> frozen (KC a) (KC b).
Proof.
  intros HF Hd Hi H. enough (frozen (KC a) (KC b) /\ leaving b) by tauto.
  induction H as [|b c H IH Hs|b m c H IH Hd' Hm E]; [split; [repeat split; auto|left; auto]| |].
  - destruct IH as (I1 & I2). assert (F1 := proj1 (fine_later n a b H HF)). destruct (leaving_step n b c F1 I2 ltac:(apply I1) Hs) as (J1 & ->). auto.
  - destruct IH as (I1 & I2). assert (F1 := proj1 (fine_later n a b H HF)). destruct (fine_again n m b F1 Hd') as (c' & E' & F2 & e0 & et & e1 & e2 & e3 & e4 & e5 & e6); [lia|].
    rewrite E in E'. injection E' as <-. split; [unfold frozen in *; rewrite e1, e2, e3, e4, e5, e6; exact I1|]. right. split; [exact e0|]. intros t Ht. rewrite et in Ht. apply repeat_spec in Ht. subst t. auto.
Qed.
End Inv.

(** * The statements *)
Lemma ball_done_dec (st : bstate S cfg) : ball_done cfg st \/ ~ ball_done cfg st.
Proof.
  unfold ball_done. induction (q_threads st) as [|t l IH]; [left; intros t []|].
  assert (Ht : u_pc t = BDone \/ u_pc t <> BDone) by (destruct (u_pc t); auto; right; discriminate).
  destruct Ht as [Ht|Ht]; [|right; intros Hx; apply Ht, Hx; left; auto]. destruct IH as [IH|IH]; [left; intros x [<-|Hx]; auto|right; intros Hx; apply IH; intros y Hy; apply Hx; right; exact Hy].
Qed.
Theorem bar_again_runs n st : good_solver -> session n st ->
  (forall orc intr i, library_ok S orc -> bthread_step eqb cfg orc intr i st <> BPanic) /\
  (ball_done cfg st \/ bcan_move S eqb cfg st) /\
  (~ exists f : nat -> bstate S cfg, f 0%nat = st /\ forall k, bstep S eqb cfg (f k) (f (Datatypes.S k))) /\
  (forall m, ball_done cfg st -> (m <= n)%nat -> exists st', bagain cfg m st = Some st').
Proof.
  intros (inv & content & G) Hs. assert (HF := fine_session inv content G n st Hs). split; [|split; [|split]].
  - intros orc intr i Ho. exact (inv1_no_panic S eqb cfg at_depth nv C True inv content G st orc intr i (proj1 HF) Ho).
  - destruct (ball_done_dec st) as [H|H]; [auto|right]. exact (inv1_moves S eqb cfg at_depth nv C True inv content G st (proj1 HF) H).
  - intros (f & Hf & Hk). assert (Ha := inv1_acc S eqb cfg at_depth nv C True inv content G st (proj1 HF)). rewrite <- Hf in Ha. clear Hf Hs HF.
    remember (f 0%nat) as a eqn:Ea. assert (He : exists k, a = f k) by eauto. clear Ea. induction Ha as [a _ IH]. destruct He as (k & ->). eapply (IH (f (Datatypes.S k))); eauto.
  - intros m Hd Hm. destruct (fine_again inv content G n m st HF Hd Hm) as (b & E & _). eauto.
Qed.
Theorem bar_again_sound n st st' : good_solver -> session n st -> later n st st' ->
  blower_bound cfg st <= blower_bound cfg st' /\
  ((bbest_solution cfg st' = None /\ bbest_value cfg st' = None /\ blower_bound cfg st' = IMIN) \/
   (exists l v, bbest_solution cfg st' = Some l /\ bbest_value cfg st' = Some v /\ blower_bound cfg st' = v /\ reported_solution S P nv l v)).
Proof.
  intros (inv & content & G) Hs Hl. assert (HF := fine_session inv content G n st Hs). destruct (fine_later inv content G n st st' Hl HF) as (HF' & HL & _). split; [exact HL|].
  assert (H := i_sol _ _ _ _ _ _ _ _ _ _ (proj1 HF')). unfold sol_ok, bbest_solution, bbest_value, blower_bound in *. destruct (c_sol (KC st')) as [l|]; cbn [option_map]; [right|left; auto].
  exists l, (c_lb (KC st')). auto.
Qed.
Theorem bar_again_answer n st st' : good_solver -> well_behaved S eqb P R at_depth nv C -> cf_ctype cfg = LastExactLayer \/ one_end S cfg at_depth -> decided_once S cfg nv ->
  (1 <= n)%nat -> breachable S eqb cfg n 1 st -> bproved cfg st -> later n st st' ->
  bbest_value cfg st' = bbest_value cfg st /\ bbest_solution cfg st' = bbest_solution cfg st /\
  blower_bound cfg st' = blower_bound cfg st /\ (c_interrupted (KC st') = false -> bupper_bound cfg st' = blower_bound cfg st') /\
  match bbest_value cfg st' with
  | Some v => optimum S P nv v /\ exists l, bbest_solution cfg st' = Some l /\ reported_solution S P nv l v
  | None => infeasible S P nv /\ bbest_solution cfg st' = None
  end.
Proof.
  intros Hg WB HL HD Hm Hr Hp Hla. destruct (bar_optimum_any S eqb cfg at_depth nv C n st Hg WB HL HD Hm Hr Hp) as (Hu & Hv).
  destruct Hg as (inv & content & G).
  assert (HF : fine inv content n st).
  { apply (fine_session inv content G). destruct Hr as (st0 & E & Hr). exists 1%nat, st0. split; [lia|]. split; [exact E|]. clear -Hr. induction Hr as [|a b c _ IH H]; [apply blater_refl|]. eapply blater_step; eauto. }
  assert (Hopt : forall ds x, solution ds x -> x <= c_lb (KC st)).
  { unfold bbest_value, blower_bound in Hv. destruct (c_sol (KC st)); cbn [option_map] in Hv; [exact (proj2 (proj1 Hv))|]. intros ds x Hx. exfalso. eapply (proj1 Hv); eauto. }
  destruct (answer_stays inv content G n st st' HF Hopt Hu Hla) as (h1 & h2 & h3).
  unfold bbest_value, bbest_solution, blower_bound, bupper_bound in *. rewrite h1, h2 in *. do 3 (split; [reflexivity|]). split; [exact h3|].
  destruct (c_sol (KC st)); cbn [option_map] in *; [|exact Hv]. destruct Hv as (v1 & _ & v2). split; assumption.
Qed.
Theorem bar_interrupted_for_good n st st' : good_solver -> session n st -> binterrupted cfg st -> later n st st' ->
  c_interrupted (KC st') = true /\ bbest_value cfg st' = bbest_value cfg st /\ bbest_solution cfg st' = bbest_solution cfg st /\
  blower_bound cfg st' = blower_bound cfg st /\ bupper_bound cfg st' = bupper_bound cfg st /\
  c_explored (KC st') = c_explored (KC st) /\ c_explored_dd (KC st') = c_explored_dd (KC st).
Proof.
  intros (inv & content & G) Hs (Hd & Hi) Hl. assert (HF := fine_session inv content G n st Hs).
  destruct (interrupted_stays inv content G n st st' HF Hd Hi Hl) as (h1 & h2 & h3 & h4 & h5 & h6).
  unfold bbest_value, bbest_solution, blower_bound, bupper_bound. rewrite h1, h2, h3, h4, h5. auto 10.
Qed.
End Bar.

(** The last of any number of calls, the first of them on one thread. *)
Lemma bsession_split (S : Type) eqb (cfg : config S) n m st0 st : binitial cfg n m = Some st0 -> blater S eqb cfg n st0 st ->
  breachable S eqb cfg n m st \/ exists a, breachable S eqb cfg n m a /\ ball_done cfg a /\ blater S eqb cfg n a st.
Proof.
  intros H0. induction 1 as [|a b Ha IH Hs|a k b Ha IH Hd Hk Hb].
  - left. exists st0. split; [exact H0|constructor].
  - destruct IH as [(x & Hx & Hr)|(x & Hx & Hdx & Hl)].
    + left. exists x. split; [exact Hx|]. eapply breaches_step; eauto.
    + right. exists x. split; [exact Hx|]. split; [exact Hdx|]. eapply blater_step; eauto.
  - right. destruct IH as [Hx|(x & Hx & Hdx & Hl)].
    + exists a. split; [exact Hx|]. split; [exact Hd|]. eapply blater_call; [apply blater_refl| | |]; eauto.
    + exists x. split; [exact Hx|]. split; [exact Hdx|]. eapply blater_call; eauto.
Qed.
Theorem bar_session_answer (S : Type) eqb (cfg : config S) at_depth nv C n st0 st : good_solver S eqb cfg at_depth nv C -> well_behaved S eqb (cf_pb cfg) (cf_rx cfg) at_depth nv C ->
  cf_ctype cfg = LastExactLayer \/ one_end S cfg at_depth -> decided_once S cfg nv -> (1 <= n)%nat -> binitial cfg n 1 = Some st0 -> blater S eqb cfg n st0 st -> bproved cfg st ->
  bupper_bound cfg st = blower_bound cfg st /\
  match bbest_value cfg st with
  | Some v => optimum S (cf_pb cfg) nv v /\ exists l, bbest_solution cfg st = Some l /\ reported_solution S (cf_pb cfg) nv l v
  | None => infeasible S (cf_pb cfg) nv /\ bbest_solution cfg st = None
  end.
Proof.
  intros Hg Hw Hc Ho Hn H0 Hl [Hd Hi].
  assert (Hx : exists a, breachable S eqb cfg n 1 a /\ ball_done cfg a /\ blater S eqb cfg n a st).
  { destruct (bsession_split _ _ _ _ _ _ _ H0 Hl) as [H|H]; [|exact H]. exists st. split; [exact H|]. split; [exact Hd|constructor]. }
  destruct Hx as (a & Ha & Hda & Hla). destruct (c_interrupted (k_c (q_crit a))) eqn:Ea.
  - assert (Hs : bsession S eqb cfg n a).
    { destruct Ha as (x & Hx & Hr). exists 1%nat, x. split; [lia|]. split; [exact Hx|]. clear -Hr. induction Hr as [a|a b c _ IH Hs]; [constructor|eapply blater_step; eauto]. }
    destruct (bar_interrupted_for_good S eqb cfg at_depth nv C n a st Hg Hs (conj Hda Ea) Hla) as [H _]. congruence.
  - destruct (bar_again_answer S eqb cfg at_depth nv C n a st Hg Hw Hc Ho Hn Ha (conj Hda Ea) Hla) as (_ & _ & _ & H1 & H2). split; [exact (H1 Hi)|exact H2].
Qed.
