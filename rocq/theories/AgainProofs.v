(** Several calls on the same solver. *)
From Verif Require Import Spec Dd DdSpec MddAll MddAllProofs FrontierSpec FringeSpec ParFacts ParOpt ParTerm ParProofs AgainSpec.
Open Scope Z_scope.

(** * What a step leaves alone *)
Section Frame.
Variable S : Type.
Variable eqb : S -> S -> bool.
Variable cfg : config S.
Notation crit := (critical S cfg).

(** [stays c c']: a better bound comes with its solution and only so; an interruption is for good; the upper bound is only set to the
    lower one, unless interrupted. *)
Definition stays (c c' : crit) : Prop :=
  (c_lb c' = c_lb c -> c_sol c' = c_sol c) /\ (c_interrupted c = true -> c_interrupted c' = true) /\
  (c_interrupted c' = false -> c_ub c' = c_ub c \/ c_ub c' = c_lb c').
Lemma stays_same c c' : c_sol c' = c_sol c -> c_interrupted c' = c_interrupted c -> c_ub c' = c_ub c -> stays c c'.
Proof. intros h1 h2 h3. unfold stays. rewrite h1, h2, h3. auto. Qed.
Lemma stays_update c d c' : maybe_update_best cfg c d = Some c' -> stays c c'.
Proof.
  unfold maybe_update_best. destruct (best_value d) as [bv|]; cbn [obind]; [|discriminate]. cbn zeta. destruct (_ <? _) eqn:E; [|intros H; injection H as <-; apply stays_same; reflexivity].
  destruct (best_solution d); cbn [obind]; [|discriminate]. intros H; injection H as <-. split; cbn; [|auto]. intros H. lia.
Qed.
Lemma stays_workload c i intr c' w : get_workload cfg c i intr = Some (c', w) -> stays c c'.
Proof.
  unfold get_workload. intros G. destruct (_ && _); [injection G as <- <-; split; cbn; auto|]. destruct (c_interrupted c) eqn:Ei; [injection G as <- <-; apply stays_same; reflexivity|]. destruct intr.
  - destruct (0 <? c_ongoing c)%nat; cbn [obind] in G; [injection G as <- <-; split; cbn; [auto|split; [auto|discriminate]]|].
    destruct (fr_pop _ _) as [[[nn|] f]|]; cbn [obind] in G; try discriminate. injection G as <- <-. split; cbn; [auto|split; [auto|discriminate]].
  - destruct (fr_empty _ _); [injection G as <- <-; apply stays_same; reflexivity|].
    destruct (fr_pop _ _) as [[[nn|] f]|]; cbn [obind] in G; try discriminate. destruct (_ <=? _)%Z; [injection G as <- <-; apply stays_same; cbn; auto|].
    destruct (upd _ _ _); cbn [obind] in G; [|discriminate]. injection G as <- <-. apply stays_same; cbn; auto.
Qed.
Lemma stays_step orc intr i st st' : thread_step eqb cfg orc intr i st = Next st' -> stays (s_crit st) (s_crit st').
Proof.
  unfold thread_step. destruct (nth_error (s_threads st) i) as [[p d]|]; [|discriminate]. cbn [t_pc t_dd]. cbn zeta. intros H.
  assert (L : forall o : option (crit * thread S), lift cfg o i st = Next st' -> exists t, o = Some (s_crit st', t)).
  { intros [[c t]|] HL; [|discriminate]. cbn in HL. injection HL as <-. cbn. eauto. }
  destruct p; try discriminate; try apply L in H as (t1 & E).
  - destruct (get_workload cfg (s_crit st) i intr) as [[c2 w]|] eqn:G; cbn [obind] in E; [|discriminate]. injection E as <- _. eapply stays_workload; eauto.
  - destruct (_ <=? _)%Z; [injection E as <- _; apply stays_same; reflexivity|]. destruct (MddAll.compile _ _ _ _ _); cbn [obind] in E; [|discriminate]. injection E as <- _. apply stays_same; reflexivity.
  - destruct (maybe_update_best _ _ _) as [c2|] eqn:G; cbn [obind] in E; [|discriminate]. injection E as <- _. eapply stays_update; eauto.
  - destruct (MddAll.compile _ _ _ _ _); cbn [obind] in E; [|discriminate]. injection E as <- _. apply stays_same; reflexivity.
  - destruct (g_exact d).
    + destruct (maybe_update_best _ _ _) as [c2|] eqn:G; cbn [obind] in E; [|discriminate]. injection E as <- _. eapply stays_update; eauto.
    + unfold enqueue_cutset in E. destruct (drain_cutset d) as [[l d2]|]; cbn [obind] in E; [|discriminate]. destruct (ofold _ _ _); cbn [obind] in E; [|discriminate]. injection E as <- _. apply stays_same; reflexivity.
  - unfold finish_node in H. destruct (c_ongoing (s_crit st)); [discriminate|]. destruct (upd _ _ _); cbn [obind] in H; [|discriminate]. injection H as <-. apply stays_same; reflexivity.
Qed.
End Frame.

Section Par.
Variable S : Type.
Variable eqb : S -> S -> bool.
Variable cfg : config S.
Variable at_depth : nat -> S -> Prop.
Variable nv : nat -> nat.
Variable C : Z.
Notation P := (cf_pb cfg).
Notation R := (cf_rx cfg).
Notation solution := (solution S P nv).
Notation good_solver := (good_solver S eqb cfg at_depth nv C).
Notation later := (later S eqb cfg).
Notation session := (session S eqb cfg).

Section Inv.
Variable inv : fr_t (cf_fr cfg) -> Prop.
Variable content : fr_t (cf_fr cfg) -> list (subproblem S).
Hypothesis G : good_config S eqb cfg at_depth nv C True inv content.
Notation inv1 := (inv1 S eqb cfg nv inv content).
Notation stays := (stays S cfg).

(** Between two calls and inside them. *)
Definition fine (n : nat) (st : state S cfg) : Prop := inv1 st /\ length (c_ubs (s_crit st)) = n.
Lemma move_ubs st st' : inv1 st -> move S eqb cfg nv inv content st st' -> length (c_ubs (s_crit st')) = length (c_ubs (s_crit st)).
Proof.
  intros HI [l1 l2 p p' d d' c' E Ha | l1 l2 k d c' E h1 h2 h3 h4 h5 h6 h7]; cbn [s_crit]; [|exact h2].
  assert (Hth := i_th _ _ _ _ _ _ _ HI). rewrite E in Hth. apply Forall_app in Hth as (_ & Hth). inversion Hth as [|? ? Ht _]; subst.
  apply (act_frame S eqb cfg nv inv content _ _ _ _ _ _ Ha); auto; apply HI.
Qed.
Lemma fine_step n a b : fine n a -> step S eqb cfg a b \/ spurious S cfg a b -> fine n b /\ c_lb (s_crit a) <= c_lb (s_crit b) /\ stays (s_crit a) (s_crit b).
Proof.
  intros (HI & HU) [H|H].
  - assert (HM := step_move S eqb cfg at_depth nv C True inv content G _ _ HI H). destruct (move_inv1 S eqb cfg nv inv content _ _ HI HM) as (I2 & L2).
    split; [split; [exact I2|rewrite (move_ubs _ _ HI HM); exact HU]|]. split; [exact L2|]. destruct H as (orc & intr & i & _ & H). eapply stays_step; eauto.
  - destruct (spurious_inv1 S eqb cfg nv inv content _ _ HI H) as (I2 & E2). rewrite E2. split; [split; [exact I2|rewrite E2; exact HU]|]. split; [lia|apply stays_same; reflexivity].
Qed.
Lemma done_idle (l : list (thread S)) : (forall t, In t l -> t_pc t = PDone) -> nworking S l = 0%nat.
Proof.
  induction l as [|t l IH]; intros H; [reflexivity|]. change (nworking S (t :: l)) with (working S t + nworking S l)%nat. unfold working at 1. rewrite (H t (or_introl eq_refl)). apply IH. intros x Hx. apply H. right. exact Hx.
Qed.
Lemma fine_again n m a : fine n a -> all_done cfg a -> (m <= n)%nat ->
  exists b, again cfg m a = Some b /\ fine n b /\ content (c_fringe (s_crit b)) <> [] /\ s_threads b = repeat (mk_th PIdle (dd_new (cf_ctype cfg))) m /\
    c_lb (s_crit b) = c_lb (s_crit a) /\ c_ub (s_crit b) = c_ub (s_crit a) /\ c_sol (s_crit b) = c_sol (s_crit a) /\ c_interrupted (s_crit b) = c_interrupted (s_crit a) /\
    c_explored (s_crit b) = c_explored (s_crit a) /\ c_explored_dd (s_crit b) = c_explored_dd (s_crit a).
Proof.
  intros ([i1 i2 i3 i4 i5 i6 i7] & HU) Hd Hm.
  destruct (fr_push_genuine S eqb cfg at_depth nv C True inv content G _ _ i1 i2 (root_genuine S cfg nv)) as (f & E & f1 & f2).
  assert (f3 : content f <> []).
  { destruct (fo_push _ _ _ _ (gs_frontier _ _ _ _ _ _ _ _ _ G) (c_fringe (s_crit a)) (root_node cfg) i1) as (f' & E' & _ & H). rewrite E in E'. injection E' as <-.
    intros Hz. rewrite Hz in H. destruct H as [H|(_ & old & l & _ & _ & H)]; apply Permutation_nil in H; discriminate. }
  exists (mk_st (set_fringe cfg (s_crit a) f) (repeat (mk_th PIdle (dd_new (cf_ctype cfg))) m)). unfold again. rewrite E. split; [reflexivity|]. split; [|cbn; auto 10].
  split; [|exact HU]. rewrite (done_idle _ Hd) in i4. constructor; cbn [s_crit s_threads set_fringe c_fringe c_lb c_ongoing c_ubs c_sol]; auto.
  - apply Forall_forall. intros t Ht. apply repeat_spec in Ht. subst t. split; [reflexivity|]. split; [constructor|exact I].
  - rewrite i4. symmetry. apply nworking_idle.
  - rewrite repeat_length. lia.
  - intros t Ht. apply repeat_spec in Ht. subst t. discriminate.
Qed.
Lemma fine_later n a b : later n a b -> fine n a -> fine n b /\ c_lb (s_crit a) <= c_lb (s_crit b) /\ (c_interrupted (s_crit a) = true -> c_interrupted (s_crit b) = true).
Proof.
  induction 1 as [|b c _ IH Hs|b m c _ IH Hd Hm E]; intros HF; [split; [exact HF|split; [lia|auto]]| |]; destruct (IH HF) as (F1 & L1 & I1).
  - destruct (fine_step n _ _ F1 Hs) as (F2 & L2 & _ & I2 & _). split; [exact F2|]. split; [lia|auto].
  - destruct (fine_again n m b F1 Hd) as (c' & E' & F2 & _ & _ & e1 & _ & _ & e2 & _); [lia|]. rewrite E in E'. injection E' as <-. rewrite e1, e2. auto.
Qed.
Lemma fine_initial n m st : (m <= n)%nat -> initial cfg n m = Some st -> fine n st.
Proof.
  intros Hm E. split; [exact (initial_inv1 S eqb cfg at_depth nv C True inv content G n m st Hm E)|]. unfold initial in E. destruct (fr_push _ _ _); cbn [obind] in E; [|discriminate]. injection E as <-. apply repeat_length.
Qed.
Lemma fine_session n st : session n st -> fine n st.
Proof. intros (m & st0 & Hm & E & H). apply (fine_later n st0 st H). apply (fine_initial n m); [lia|exact E]. Qed.

(** * After an answer *)
Lemma answer_stays n a b : fine n a -> (forall ds x, solution ds x -> x <= c_lb (s_crit a)) -> c_ub (s_crit a) = c_lb (s_crit a) -> later n a b ->
  c_lb (s_crit b) = c_lb (s_crit a) /\ c_sol (s_crit b) = c_sol (s_crit a) /\ (c_interrupted (s_crit b) = false -> c_ub (s_crit b) = c_lb (s_crit b)).
Proof.
  intros HF Hopt Hub H. induction H as [|b c H IH Hs|b m c H IH Hd Hm E]; [auto| |].
  - destruct IH as (h1 & h2 & h3). assert (F1 := proj1 (fine_later n a b H HF)). destruct (fine_step n b c F1 Hs) as (F2 & L2 & s1 & s2 & s3).
    assert (Hlb : c_lb (s_crit c) = c_lb (s_crit b)).
    { assert (Hs0 := i_sol _ _ _ _ _ _ _ (proj1 F2)). unfold sol_ok in Hs0. destruct (c_sol (s_crit c)) as [l|].
      - destruct Hs0 as (ds & _ & Hs0). specialize (Hopt _ _ Hs0). lia.
      - assert (Hb0 := i_sol _ _ _ _ _ _ _ (proj1 F1)). unfold sol_ok in Hb0. destruct (c_sol (s_crit b)) as [l|]; [|congruence]. destruct Hb0 as (ds & _ & Hb0).
        destruct (solution_gt S eqb cfg at_depth nv C True inv content G _ _ Hb0). lia. }
    split; [congruence|]. split; [rewrite s1; auto|]. intros Hi. specialize (s3 Hi). assert (Hi' : c_interrupted (s_crit b) = false) by (destruct (c_interrupted (s_crit b)); [rewrite (s2 eq_refl) in Hi; discriminate|reflexivity]).
    specialize (h3 Hi'). destruct s3; congruence.
  - destruct IH as (h1 & h2 & h3). assert (F1 := proj1 (fine_later n a b H HF)). destruct (fine_again n m b F1 Hd) as (c' & E' & F2 & _ & _ & e1 & e2 & e3 & e4 & _); [lia|].
    rewrite E in E'. injection E' as <-. rewrite e1, e2, e3, e4. auto.
Qed.

(** * After an interruption *)
Definition frozen (c c' : critical S cfg) : Prop :=
  c_lb c' = c_lb c /\ c_ub c' = c_ub c /\ c_sol c' = c_sol c /\ c_explored c' = c_explored c /\ c_explored_dd c' = c_explored_dd c /\ c_interrupted c' = true.
Definition leaving (st : state S cfg) : Prop :=
  all_done cfg st \/ (content (c_fringe (s_crit st)) <> [] /\ forall t, In t (s_threads st) -> t_pc t = PIdle \/ t_pc t = PDone).
Lemma in_put {A} i (x : A) : forall l y, In y (put i x l) -> y = x \/ In y l.
Proof. induction i as [|i IH]; intros [|h l] y H; cbn in *; auto; [destruct H; auto|]. destruct H as [H|H]; [auto|]. destruct (IH _ _ H); auto. Qed.
Lemma leaving_step n a b : fine n a -> leaving a -> c_interrupted (s_crit a) = true -> step S eqb cfg a b \/ spurious S cfg a b -> leaving b /\ s_crit b = s_crit a.
Proof.
  intros (HI & _) HL Hi [(orc & intr & i & _ & H)|(i & d & Hn & _)].
  - unfold thread_step in H. destruct (nth_error (s_threads a) i) as [[p d]|] eqn:Hn; [|discriminate]. cbn [t_pc t_dd] in H. cbn zeta in H. assert (Hin := nth_error_In _ _ Hn).
    destruct HL as [HL|(h1 & h2)]; [specialize (HL _ Hin); cbn in HL; subst p; discriminate|].
    destruct (h2 _ Hin) as [Hp|Hp]; cbn in Hp; subst p; [|discriminate].
    assert (Hne : fr_empty (cf_fr cfg) (c_fringe (s_crit a)) = false).
    { destruct (fr_empty _ _) eqn:E; [|reflexivity]. exfalso. apply h1. apply (fo_empty _ _ _ _ (gs_frontier _ _ _ _ _ _ _ _ _ G)); [apply HI|exact E]. }
    unfold get_workload in H. rewrite Hne, andb_false_r, Hi in H. cbn [obind lift] in H. injection H as <-. cbn [s_crit]. split; [|reflexivity]. right. split; [exact h1|].
    intros t Ht. apply in_put in Ht as [->|Ht]; [right; reflexivity|auto].
  - apply nth_error_In in Hn. exfalso. destruct HL as [HL|(_ & HL)]; [specialize (HL _ Hn)|destruct (HL _ Hn) as [HL'|HL']]; cbn in *; discriminate.
Qed.
Lemma interrupted_stays n a b : fine n a -> all_done cfg a -> c_interrupted (s_crit a) = true -> later n a b -> frozen (s_crit a) (s_crit b).
Proof.
  intros HF Hd Hi H. enough (frozen (s_crit a) (s_crit b) /\ leaving b) by tauto.
  induction H as [|b c H IH Hs|b m c H IH Hd' Hm E]; [split; [repeat split; auto|left; auto]| |].
  - destruct IH as (I1 & I2). assert (F1 := proj1 (fine_later n a b H HF)). destruct (leaving_step n b c F1 I2 ltac:(apply I1) Hs) as (J1 & ->). auto.
  - destruct IH as (I1 & I2). assert (F1 := proj1 (fine_later n a b H HF)). destruct (fine_again n m b F1 Hd') as (c' & E' & F2 & e0 & et & e1 & e2 & e3 & e4 & e5 & e6); [lia|].
    rewrite E in E'. injection E' as <-. split; [unfold frozen in *; rewrite e1, e2, e3, e4, e5, e6; exact I1|]. right. split; [exact e0|]. intros t Ht. rewrite et in Ht. apply repeat_spec in Ht. subst t. auto.
Qed.
End Inv.

(** * The statements *)
Lemma all_done_dec (st : state S cfg) : all_done cfg st \/ ~ all_done cfg st.
Proof.
  unfold all_done. induction (s_threads st) as [|t l IH]; [left; intros t []|].
  assert (Ht : t_pc t = PDone \/ t_pc t <> PDone) by (destruct (t_pc t); auto; right; discriminate).
  destruct Ht as [Ht|Ht]; [|right; intros Hx; apply Ht, Hx; left; auto]. destruct IH as [IH|IH]; [left; intros x [<-|Hx]; auto|right; intros Hx; apply IH; intros y Hy; apply Hx; right; exact Hy].
Qed.
Theorem par_again_runs n st : good_solver -> session n st ->
  (forall orc intr i, library_ok S orc -> thread_step eqb cfg orc intr i st <> Panic) /\
  (all_done cfg st \/ can_move S eqb cfg st) /\
  (~ exists f : nat -> state S cfg, f 0%nat = st /\ forall k, step S eqb cfg (f k) (f (Datatypes.S k))) /\
  (forall m, all_done cfg st -> (m <= n)%nat -> exists st', again cfg m st = Some st').
Proof.
  intros (inv & content & G) Hs. assert (HF := fine_session inv content G n st Hs). split; [|split; [|split]].
  - intros orc intr i Ho. exact (inv1_no_panic S eqb cfg at_depth nv C True inv content G st orc intr i (proj1 HF) Ho).
  - destruct (all_done_dec st) as [H|H]; [auto|right]. exact (inv1_moves S eqb cfg at_depth nv C True inv content G st (proj1 HF) H).
  - intros (f & Hf & Hk). assert (Ha := inv1_acc S eqb cfg at_depth nv C True inv content G st (proj1 HF)). rewrite <- Hf in Ha. clear Hf Hs HF.
    remember (f 0%nat) as a eqn:Ea. assert (He : exists k, a = f k) by eauto. clear Ea. induction Ha as [a _ IH]. destruct He as (k & ->). eapply (IH (f (Datatypes.S k))); eauto.
  - intros m Hd Hm. destruct (fine_again inv content G n m st HF Hd Hm) as (b & E & _). eauto.
Qed.
Theorem par_again_sound n st st' : good_solver -> session n st -> later n st st' ->
  lower_bound_of cfg st <= lower_bound_of cfg st' /\
  ((best_solution_of cfg st' = None /\ best_value_of cfg st' = None /\ lower_bound_of cfg st' = IMIN) \/
   (exists l v, best_solution_of cfg st' = Some l /\ best_value_of cfg st' = Some v /\ lower_bound_of cfg st' = v /\ reported_solution S P nv l v)).
Proof.
  intros (inv & content & G) Hs Hl. assert (HF := fine_session inv content G n st Hs). destruct (fine_later inv content G n st st' Hl HF) as (HF' & HL & _). split; [exact HL|].
  assert (H := i_sol _ _ _ _ _ _ _ (proj1 HF')). unfold sol_ok, best_solution_of, best_value_of, lower_bound_of in *. destruct (c_sol (s_crit st')) as [l|]; cbn [option_map]; [right|left; auto].
  exists l, (c_lb (s_crit st')). auto.
Qed.
Theorem par_again_answer n m st st' : good_solver -> well_behaved S eqb P R at_depth nv C -> cf_ctype cfg = LastExactLayer \/ one_end S cfg at_depth -> decided_once S cfg nv ->
  (1 <= m <= n)%nat -> reachable S eqb cfg n m st -> proved cfg st -> later n st st' ->
  best_value_of cfg st' = best_value_of cfg st /\ best_solution_of cfg st' = best_solution_of cfg st /\
  lower_bound_of cfg st' = lower_bound_of cfg st /\ (c_interrupted (s_crit st') = false -> upper_bound_of cfg st' = lower_bound_of cfg st') /\
  match best_value_of cfg st' with
  | Some v => optimum S P nv v /\ exists l, best_solution_of cfg st' = Some l /\ reported_solution S P nv l v
  | None => infeasible S P nv /\ best_solution_of cfg st' = None
  end.
Proof.
  intros Hg WB HL HD Hm Hr Hp Hla. destruct (par_optimum_any S eqb cfg at_depth nv C n m st Hg WB HL HD Hm Hr Hp) as (Hu & Hv).
  destruct Hg as (inv & content & G).
  assert (HF : fine inv content n st).
  { apply (fine_session inv content G). destruct Hr as (st0 & E & Hr). exists m, st0. split; [exact Hm|]. split; [exact E|]. clear -Hr. induction Hr as [|a b c _ IH H]; [apply later_refl|]. eapply later_step; eauto. }
  assert (Hopt : forall ds x, solution ds x -> x <= c_lb (s_crit st)).
  { unfold best_value_of, lower_bound_of in Hv. destruct (c_sol (s_crit st)); cbn [option_map] in Hv; [exact (proj2 (proj1 Hv))|]. intros ds x Hx. exfalso. eapply (proj1 Hv); eauto. }
  destruct (answer_stays inv content G n st st' HF Hopt Hu Hla) as (h1 & h2 & h3).
  unfold best_value_of, best_solution_of, lower_bound_of, upper_bound_of in *. rewrite h1, h2 in *. do 3 (split; [reflexivity|]). split; [exact h3|].
  destruct (c_sol (s_crit st)); cbn [option_map] in *; [|exact Hv]. destruct Hv as (v1 & _ & v2). split; assumption.
Qed.
Theorem par_interrupted_for_good n st st' : good_solver -> session n st -> interrupted cfg st -> later n st st' ->
  c_interrupted (s_crit st') = true /\ best_value_of cfg st' = best_value_of cfg st /\ best_solution_of cfg st' = best_solution_of cfg st /\
  lower_bound_of cfg st' = lower_bound_of cfg st /\ upper_bound_of cfg st' = upper_bound_of cfg st /\
  c_explored (s_crit st') = c_explored (s_crit st) /\ c_explored_dd (s_crit st') = c_explored_dd (s_crit st).
Proof.
  intros (inv & content & G) Hs (Hd & Hi) Hl. assert (HF := fine_session inv content G n st Hs).
  destruct (interrupted_stays inv content G n st st' HF Hd Hi Hl) as (h1 & h2 & h3 & h4 & h5 & h6).
  unfold best_value_of, best_solution_of, lower_bound_of, upper_bound_of. rewrite h1, h2, h3, h4, h5. auto 10.
Qed.
End Par.

(** The last of any number of calls. *)
Lemma session_split (S : Type) eqb (cfg : config S) n m st0 st : initial cfg n m = Some st0 -> later S eqb cfg n st0 st ->
  reachable S eqb cfg n m st \/ exists a, reachable S eqb cfg n m a /\ all_done cfg a /\ later S eqb cfg n a st.
Proof.
  intros H0. induction 1 as [|a b Ha IH Hs|a k b Ha IH Hd Hk Hb].
  - left. exists st0. split; [exact H0|constructor].
  - destruct IH as [(x & Hx & Hr)|(x & Hx & Hdx & Hl)].
    + left. exists x. split; [exact Hx|]. eapply reaches_step; eauto.
    + right. exists x. split; [exact Hx|]. split; [exact Hdx|]. eapply later_step; eauto.
  - right. destruct IH as [Hx|(x & Hx & Hdx & Hl)].
    + exists a. split; [exact Hx|]. split; [exact Hd|]. eapply later_call; [apply later_refl| | |]; eauto.
    + exists x. split; [exact Hx|]. split; [exact Hdx|]. eapply later_call; eauto.
Qed.
Theorem par_session_answer (S : Type) eqb (cfg : config S) at_depth nv C n st : good_solver S eqb cfg at_depth nv C -> well_behaved S eqb (cf_pb cfg) (cf_rx cfg) at_depth nv C ->
  cf_ctype cfg = LastExactLayer \/ one_end S cfg at_depth -> decided_once S cfg nv -> session S eqb cfg n st -> proved cfg st ->
  upper_bound_of cfg st = lower_bound_of cfg st /\
  match best_value_of cfg st with
  | Some v => optimum S (cf_pb cfg) nv v /\ exists l, best_solution_of cfg st = Some l /\ reported_solution S (cf_pb cfg) nv l v
  | None => infeasible S (cf_pb cfg) nv /\ best_solution_of cfg st = None
  end.
Proof.
  intros Hg Hw Hc Ho (m & st0 & Hm & H0 & Hl) [Hd Hi].
  assert (Hx : exists a, reachable S eqb cfg n m a /\ all_done cfg a /\ later S eqb cfg n a st).
  { destruct (session_split _ _ _ _ _ _ _ H0 Hl) as [H|H]; [|exact H]. exists st. split; [exact H|]. split; [exact Hd|constructor]. }
  destruct Hx as (a & Ha & Hda & Hla). destruct (c_interrupted (s_crit a)) eqn:Ea.
  - assert (Hs : session S eqb cfg n a).
    { destruct Ha as (x & Hx & Hr). exists m, x. split; [exact Hm|]. split; [exact Hx|]. clear -Hr. induction Hr as [a|a b c _ IH Hs]; [constructor|eapply later_step; eauto]. }
    destruct (par_interrupted_for_good S eqb cfg at_depth nv C n a st Hg Hs (conj Hda Ea) Hla) as [H _]. congruence.
  - destruct (par_again_answer S eqb cfg at_depth nv C n m a st Hg Hw Hc Ho Hm Ha (conj Hda Ea) Hla) as (_ & _ & _ & H1 & H2). split; [exact (H1 Hi)|exact H2].
Qed.
