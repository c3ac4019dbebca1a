(** The parallel solver interrupted while several threads work. *)
From Verif Require Import Spec Dd DdSpec MddAll MddAllProofs FringeSpec ParSpec ParFacts ParOpt.
From Verif Require Import DdFacts DdLoop DdFinal MddAllObs.
From Coq Require Import ZifyNat.
Open Scope Z_scope.

Section Int.
Variable S : Type.
Variable eqb : S -> S -> bool.
Variable cfg : config S.
Variable at_depth : nat -> S -> Prop.
Variable nv : nat -> nat.
Variable C : Z.
Variable merging : Prop.
Variable inv : fr_t (cf_fr cfg) -> Prop.
Variable content : fr_t (cf_fr cfg) -> list (subproblem S).
Notation P := (cf_pb cfg).
Notation R := (cf_rx cfg).
Notation N := (pb_nb_vars P).
Notation sub := (subproblem S).
Notation genuine := (genuine S P nv).
Notation completes := (completes S P nv).
Notation thread := (thread S).
Notation state := (state S cfg).
Notation fr := (cf_fr cfg).
Notation inv1 := (inv1 S eqb cfg nv inv content).
Notation inv2 := (inv2 S cfg nv content).
Notation move := (move S eqb cfg nv inv content).
Notation act := (act S eqb cfg nv inv content).
Notation compiled := (compiled S eqb cfg).
Notation solution := (solution S P nv).
Notation held := (held S).
Notation pending := (pending S cfg content).
Notation ub_ok := (ub_ok S cfg nv).
Notation covered := (covered S cfg nv).
Hypothesis G : good_config S eqb cfg at_depth nv C merging inv content.
Hypothesis LAY : merging -> decided_once S cfg nv.
Hypothesis WB : well_behaved S eqb P R at_depth nv C.
Hypothesis CUT : cf_ctype cfg = LastExactLayer \/ one_end S cfg at_depth.
Let WF := gs_formed _ _ _ _ _ _ _ _ _ G.
Let FO := gs_frontier _ _ _ _ _ _ _ _ _ G.
Let CLOSES := exact_closes S eqb cfg at_depth nv C merging inv content G WB.
Let COVERS := cutset_covers S eqb cfg at_depth nv C merging inv content G WB CUT.

(** * Only the root has an infinite bound *)
Lemma best_small lb ty n d v : genuine n -> compiled lb ty n d -> best_value d = Some (Some v) -> v < IMAX.
Proof.
  intros Hg (orc & lb0 & d0 & Ho & _ & _ & E) Hv. destruct WF as [H1 H2 H3 H4].
  assert (Hgc := good_call_of S eqb cfg at_depth nv C merging inv content G orc ty n lb0 Ho Hg).
  destruct (compile_good S eqb H1 P R at_depth nv C H2 H3 H4 (depth_of n) n Hg eq_refl false orc (call cfg ty n lb0) d0 eq_refl Hgc) as (dF' & d1 & past & curr & kF & b & e & E' & HL & Hend & Hb & He & HF).
  rewrite E in E'. injection E' as <-. destruct (final_best S d d1 b e _ HF) as (F1 & _ & _ & _ & _ & F6).
  unfold best_value in Hv. rewrite F1 in Hv. destruct b as [i|]; [|discriminate]. destruct Hb as (bn & Hi & Gi & _). destruct (F6 i bn Gi) as (bn' & G' & Hc). rewrite G' in Hv. cbn [obind] in Hv. injection Hv as <-.
  rewrite (ce_value _ _ _ Hc).
  assert (HA := li_arena _ _ _ _ _ _ _ _ _ _ _ _ _ _ _ HL). destruct (a_nodes _ _ _ _ _ _ _ _ _ _ HA i bn Gi ltac:(discriminate)) as [[Hd _ _ _ _ _] Hw _].
  assert (Hx := vbound_range S P R at_depth nv C H4 (n_depth bn) (n_value bn) (proj2 Hd) Hw). assert (0 < IMAX) by reflexivity. lia.
Qed.
Lemma drain_list_le (d : dd S) best : forall l L q, drain_list d best l = Some L -> In q L -> sp_ub q <= best.
Proof.
  induction l as [|id l IH]; intros L q E Hq; cbn [drain_list] in E; [injection E as <-; destruct Hq|].
  destruct (drain_node d best id) as [a|] eqn:Ea; cbn [obind] in E; [|discriminate]. destruct (drain_list d best l) as [b|] eqn:Eb; cbn [obind] in E; [|discriminate].
  injection E as <-. apply in_app_iff in Hq as [Hq|Hq]; [|eapply IH; eauto]. unfold drain_node in Ea. destruct (get_node d id) as [n|]; cbn [obind] in Ea; [|discriminate].
  destruct (is_marked (n_flags n)); [|injection Ea as <-; destruct Hq]. destruct (best_path d id); cbn [obind] in Ea; [|discriminate]. injection Ea as <-.
  destruct Hq as [<-|[]]. cbn [sp_ub]. lia.
Qed.
Lemma cut_small lb ty n d L d2 q : genuine n -> compiled lb ty n d -> drain_cutset d = Some (L, d2) -> In q L -> sp_ub q < IMAX.
Proof.
  intros Hg Hc E Hq. unfold drain_cutset in E. destruct (best_value d) as [[b|]|] eqn:Eb; cbn [obind] in E; try discriminate.
  - destruct (drain_list d b (g_cutset d)) as [l|] eqn:El; cbn [obind] in E; [|discriminate]. injection E as <- _.
    assert (H := drain_list_le d b _ _ q El Hq). assert (H' := best_small lb ty n d b Hg Hc Eb). lia.
  - injection E as <- _. destruct Hq.
Qed.

(** * Pushing raises no bound *)
Lemma push_under f n f' u : inv f -> fr_push fr f n = Some f' -> Forall (fun q => sp_ub q <= u) (content f) -> sp_ub n <= u -> Forall (fun q => sp_ub q <= u) (content f').
Proof.
  intros Hi E Hf Hn. destruct (fo_push _ _ _ _ FO f n Hi) as (f1 & E1 & _ & H). rewrite E in E1. injection E1 as <-.
  destruct H as [H|(_ & old & l & _ & H1 & H2)].
  - eapply Permutation_Forall; [symmetry; exact H|]. constructor; auto.
  - assert (Hf' := Permutation_Forall H1 Hf). inversion Hf' as [|? ? Ho Hl]; subst. eapply Permutation_Forall; [symmetry; exact H2|].
    constructor; auto. unfold merge_sub. destruct (_ <? _); cbn [sp_ub with_ub]; lia.
Qed.
Lemma enqueue_under lb ub u L : forall f f', inv f -> Forall genuine (content f) -> Forall genuine L -> ofold (enqueue_node cfg lb ub) L f = Some f' ->
  Forall (fun q => sp_ub q <= u) (content f) -> (forall q, In q L -> Z.min ub (sp_ub q) <= u) -> Forall (fun q => sp_ub q <= u) (content f').
Proof.
  induction L as [|q L IH]; intros f f' Hi Hc HL E Hf Hq; cbn [ofold] in E; [injection E as <-; exact Hf|].
  inversion HL as [|? ? Hq' HL']; subst. unfold enqueue_node at 1 in E. cbn zeta in E. destruct (lb <? _); cbn [obind] in E.
  - destruct (fr_push_genuine S eqb cfg at_depth nv C merging inv content G f (with_ub q (Z.min ub (sp_ub q))) Hi Hc Hq') as (f1 & E1 & Hi1 & Hc1). rewrite E1 in E. cbn [obind] in E.
    apply (IH f1 f'); auto; [|intros x Hx; apply Hq; right; exact Hx]. apply (push_under f _ f1 u Hi E1 Hf). apply Hq. left. reflexivity.
  - apply (IH f f'); auto. intros x Hx. apply Hq. right. exact Hx.
Qed.

(** * The bounds a step leaves pending *)
Definition under (u : Z) (l : list sub) : Prop := Forall (fun q => sp_ub q <= u) l.
Lemma under_incl u l l' : incl l' l -> under u l -> under u l'.
Proof. intros Hi H. apply Forall_forall. intros q Hq. apply (proj1 (Forall_forall _ _) H). apply Hi. exact Hq. Qed.

Lemma act_under c d p c' p' d' u : act c d p c' p' d' -> inv (c_fringe c) -> Forall genuine (content (c_fringe c)) -> thread_ok S eqb cfg nv (c_lb c) (mk_th p d) ->
  under u (content (c_fringe c) ++ held (mk_th p d)) -> under u (content (c_fringe c') ++ held (mk_th p' d')).
Proof.
  intros Ha Hi Hg (Hct & Hgen & Hpc) HU. unfold under in *.
  destruct Ha as [c' e1 e2 -> | e1 | c' e1 e2 e3 e4 e5 e6 e7 e8 e9 | e1 e2 e3 | p f' c' -> e1 e2 e3 e4 e5 e6 | p c' e1 e2 e3 e4 e5 e6 e7 e8 e9 e10
    | n e1 | n d' e1 e2 e3 | n c' k e1 e2 e3 | n c' k e1 | n k d' k' e1 e2 | n k c' e1 e2 e3 | n k L d' f' e1 e2 e3 e4 e5 e6 e7];
  unfold upd_of, set_fringe in *; cbn [c_fringe c_lb c_interrupted t_pc t_dd ParFacts.held] in *; rewrite ?app_nil_r in *; auto.
  - rewrite e4. constructor.
  - rewrite e6. constructor.
  - assert (HU' := Permutation_Forall e2 HU). inversion HU'; subst. apply Forall_app. auto.
  - apply Forall_app in HU. tauto.
  - destruct e2 as (_ & _ & -> & _). apply Forall_app in HU. tauto.
  - destruct e1 as (_ & _ & -> & _). exact HU.
  - destruct e2 as (_ & _ & -> & _). apply Forall_app in HU. tauto.
  - apply Forall_app in HU as (U1 & U2). inversion U2 as [|? ? U3 _]; subst. apply (enqueue_under _ _ u L _ _ Hi Hg e4 e5 U1). intros q Hq. lia.
Qed.
(** A single subproblem stays single, or leaves its cutset. *)
Lemma act_single c d p c' p' d' r : act c d p c' p' d' -> inv (c_fringe c) -> Forall genuine (content (c_fringe c)) -> thread_ok S eqb cfg nv (c_lb c) (mk_th p d) ->
  Permutation (content (c_fringe c) ++ held (mk_th p d)) [r] ->
  Permutation (content (c_fringe c') ++ held (mk_th p' d')) [r] \/ under (IMAX - 1) (content (c_fringe c') ++ held (mk_th p' d')).
Proof.
  intros Ha Hi Hg (Hct & Hgen & Hpc) HU. unfold under.
  destruct Ha as [c' e1 e2 -> | e1 | c' e1 e2 e3 e4 e5 e6 e7 e8 e9 | e1 e2 e3 | p f' c' -> e1 e2 e3 e4 e5 e6 | p c' e1 e2 e3 e4 e5 e6 e7 e8 e9 e10
    | n e1 | n d' e1 e2 e3 | n c' k e1 e2 e3 | n c' k e1 | n k d' k' e1 e2 | n k c' e1 e2 e3 | n k L d' f' e1 e2 e3 e4 e5 e6 e7];
  unfold upd_of, set_fringe in *; cbn [c_fringe c_lb c_interrupted t_pc t_dd ParFacts.held] in *; rewrite ?app_nil_r in *; auto;
  try (assert (Hnil : forall f n, Permutation (content f ++ [n]) [r] -> content f = [])
    by (clear; intros f n H; apply Permutation_length in H; rewrite app_length in H; cbn in H; destruct (content f); [reflexivity|cbn in H; lia])).
  - right. rewrite e4. constructor.
  - right. rewrite e6. constructor.
  - left. etransitivity; [apply Permutation_app_comm|]. cbn. rewrite <- e2. exact HU.
  - right. rewrite (Hnil _ _ HU). constructor.
  - destruct e2 as (_ & _ & -> & _). right. rewrite (Hnil _ _ HU). constructor.
  - destruct e1 as (_ & _ & -> & _). auto.
  - destruct e2 as (_ & _ & -> & _). right. rewrite (Hnil _ _ HU). constructor.
  - right. inversion Hgen as [|? ? Hg0 _]; subst. apply (enqueue_under _ _ (IMAX - 1) L _ _ Hi Hg e4 e5).
    + rewrite (Hnil _ _ HU). constructor.
    + intros q Hq. assert (H := cut_small _ _ _ _ _ _ q Hg0 Hpc e2 Hq). lia.
Qed.

(** * The bounds written by the threads *)
Lemma put_nth {A} i (x : A) : forall l j, nth_error (put i x l) j = if (j =? i)%nat then option_map (fun _ => x) (nth_error l j) else nth_error l j.
Proof.
  induction i as [|i IH]; intros [|h l] [|j]; cbn; try reflexivity. destruct (j =? i)%nat; reflexivity. apply IH.
Qed.
Lemma upd_nth {A} (x : A) : forall l i l', upd l i x = Some l' -> forall j, nth_error l' j = if (j =? i)%nat then Some x else nth_error l j.
Proof.
  induction l as [|h l IH]; intros [|i] l' E; cbn in E; try discriminate.
  - injection E as <-. intros [|j]; reflexivity.
  - destruct (upd l i x) as [l1|] eqn:E1; [|discriminate]. injection E as <-. intros [|j]; [reflexivity|]. cbn. apply (IH i l1 E1).
Qed.
Lemma wake_held t : held (wake t) = held t.
Proof. destruct t as [[]]; reflexivity. Qed.

Definition wrote (st : state) : Prop :=
  forall i t n, nth_error (s_threads st) i = Some t -> held t = [n] -> nth_error (c_ubs (s_crit st)) i = Some (sp_ub n).

(** What one step does to the bounds and to the threads. *)
Lemma workload_ubs (c c' : critical S cfg) i intr w : get_workload cfg c i intr = Some (c', w) ->
  (c_ubs c' = c_ubs c /\ forall n, w <> WItem n) \/ exists n, w = WItem n /\ upd (c_ubs c) i (sp_ub n) = Some (c_ubs c').
Proof.
  unfold get_workload. destruct (_ && _); [injection 1 as <- <-; left; split; [reflexivity|discriminate]|].
  destruct (c_interrupted c); [injection 1 as <- <-; left; split; [reflexivity|discriminate]|].
  destruct intr.
  - intros H. left. destruct (0 <? c_ongoing c)%nat; cbn [obind] in H.
    + injection H as <- <-. split; [reflexivity|discriminate].
    + destruct (fr_pop fr (c_fringe c)) as [[[nn|] f]|]; cbn [obind] in H; try discriminate. injection H as <- <-. split; [reflexivity|discriminate].
  - destruct (fr_empty fr (c_fringe c)); [injection 1 as <- <-; left; split; [reflexivity|discriminate]|].
    destruct (fr_pop fr (c_fringe c)) as [[[nn|] f]|]; cbn [obind]; try discriminate. destruct (sp_ub nn <=? c_lb c).
    + injection 1 as <- <-. left. split; [reflexivity|discriminate].
    + destruct (upd (c_ubs c) i (sp_ub nn)) as [ubs|] eqn:E; cbn [obind]; [|discriminate]. injection 1 as <- <-. right. exists nn. split; [reflexivity|exact E].
Qed.
Lemma update_ubs (c c' : critical S cfg) d : maybe_update_best cfg c d = Some c' -> c_ubs c' = c_ubs c.
Proof.
  unfold maybe_update_best. destruct (best_value d) as [bv|]; cbn [obind]; [|discriminate]. destruct (_ <? _).
  - destruct (best_solution d); cbn [obind]; [|discriminate]. injection 1 as <-. reflexivity.
  - injection 1 as <-. reflexivity.
Qed.
Lemma step_ubs st st' orc intr i : thread_step eqb cfg orc intr i st = Next st' ->
  exists t t', nth_error (s_threads st) i = Some t /\
  (s_threads st' = put i t' (s_threads st) /\
     (c_ubs (s_crit st') = c_ubs (s_crit st) /\ (held t' = [] \/ held t' = held t) \/
      exists n, held t' = [n] /\ upd (c_ubs (s_crit st)) i (sp_ub n) = Some (c_ubs (s_crit st'))) \/
   s_threads st' = map wake (put i t' (s_threads st)) /\ held t' = [] /\ upd (c_ubs (s_crit st)) i IMAX = Some (c_ubs (s_crit st'))).
Proof.
  unfold thread_step. destruct (nth_error (s_threads st) i) as [t|] eqn:En; [|discriminate]. cbn zeta.
  destruct t as [p d]. cbn [t_pc t_dd]. unfold lift. intros H.
  destruct p as [| |n|n|n k|n k|k|]; try discriminate.
  - destruct (get_workload cfg (s_crit st) i intr) as [[c' w]|] eqn:Ew; cbn [obind] in H; [|discriminate]. injection H as <-. eexists; eexists; split; [reflexivity|]. left. split; [reflexivity|].
    cbn [s_crit]. destruct (workload_ubs _ _ _ _ _ Ew) as [(Hu & Hw)|(n & -> & Hu)]; [left; split; [exact Hu|]|right; exists n; split; [reflexivity|exact Hu]].
    left. destruct w; try reflexivity. exfalso. eapply Hw. reflexivity.
  - destruct (_ <=? _).
    + injection H as <-. do 2 eexists; split; [reflexivity|]. left. split; [reflexivity|]. left. cbn. auto.
    + destruct (compile _ _ _ _ _); cbn [obind] in H; [|discriminate]. injection H as <-. do 2 eexists; split; [reflexivity|]. left. split; [reflexivity|]. left. cbn. auto.
  - destruct (maybe_update_best cfg (s_crit st) d) as [c'|] eqn:Eu; cbn [obind] in H; [|discriminate]. injection H as <-. do 2 eexists; split; [reflexivity|]. left. split; [reflexivity|]. left. cbn [s_crit]. split; [eapply update_ubs; eauto|].
    destruct (g_exact d); cbn; auto.
  - destruct (compile _ _ _ _ _); cbn [obind] in H; [|discriminate]. injection H as <-. do 2 eexists; split; [reflexivity|]. left. split; [reflexivity|]. left. cbn. auto.
  - destruct (g_exact d).
    + destruct (maybe_update_best cfg (s_crit st) d) as [c'|] eqn:Eu; cbn [obind] in H; [|discriminate]. injection H as <-. do 2 eexists; split; [reflexivity|]. left. split; [reflexivity|]. left. cbn [s_crit]. split; [eapply update_ubs; eauto|].
      cbn; auto.
    + destruct (enqueue_cutset cfg (s_crit st) d (sp_ub n)) as [[c' d']|] eqn:Eu; cbn [obind] in H; [|discriminate]. injection H as <-. do 2 eexists; split; [reflexivity|]. left. split; [reflexivity|]. left. cbn [s_crit].
      split; [|cbn; auto]. unfold enqueue_cutset in Eu. destruct (drain_cutset d) as [[l d2]|]; cbn [obind] in Eu; [|discriminate]. destruct (ofold _ _ _); cbn [obind] in Eu; [|discriminate]. injection Eu as <- _. reflexivity.
  - destruct (finish_node cfg (s_crit st) i k) as [c'|] eqn:Ef; [|discriminate]. injection H as <-. do 2 eexists; split; [reflexivity|]. right. split; [reflexivity|]. split; [reflexivity|]. cbn [s_crit].
    unfold finish_node in Ef. destruct (c_ongoing (s_crit st)); [discriminate|]. destruct (upd (c_ubs (s_crit st)) i IMAX) eqn:E; cbn [obind] in Ef; [|discriminate]. injection Ef as <-. reflexivity.
Qed.

Lemma step_wrote st st' orc intr i : thread_step eqb cfg orc intr i st = Next st' -> wrote st -> wrote st'.
Proof.
  intros H W. destruct (step_ubs _ _ _ _ _ H) as (t & t' & Ht & [(Hp & Hu)|(Hp & Hh & Hu)]); intros j x n Hj Hx; rewrite Hp in Hj.
  - rewrite put_nth in Hj. destruct (j =? i)%nat eqn:Ej.
    + apply Nat.eqb_eq in Ej. subst j. rewrite Ht in Hj. injection Hj as <-. destruct Hu as [(-> & [Hy|Hy])|(n' & Hn & Hu)].
      * congruence.
      * apply (W i t n Ht). congruence.
      * rewrite (upd_nth _ _ _ _ Hu), Nat.eqb_refl. congruence.
    + destruct Hu as [(-> & _)|(n' & Hn & Hu)]; [eapply W; eauto|]. rewrite (upd_nth _ _ _ _ Hu), Ej. eapply W; eauto.
  - rewrite nth_error_map, put_nth in Hj. destruct (j =? i)%nat eqn:Ej.
    + apply Nat.eqb_eq in Ej. subst j. rewrite Ht in Hj. injection Hj as <-. rewrite wake_held in Hx. congruence.
    + destruct (nth_error (s_threads st) j) as [y|] eqn:Ey; [|discriminate]. injection Hj as <-. rewrite wake_held in Hx. rewrite (upd_nth _ _ _ _ Hu), Ej. eapply W; eauto.
Qed.

(** * Bounded, or still at the root *)
Definition at_root (st : state) : Prop := Forall (eq IMAX) (c_ubs (s_crit st)) /\ exists r, Permutation (pending st) [r] /\ sp_ub r = IMAX.
Definition small (st : state) : Prop := under (IMAX - 1) (pending st) \/ at_root st.

Lemma move_under u st st' : inv1 st -> move st st' -> under u (pending st) -> under u (pending st').
Proof.
  intros HI HM HU. destruct HM as [l1 l2 p p' d d' c' E Ha | l1 l2 k d c' E h1 h2 h3 h4 h5 h6 h7].
  - assert (Hth := i_th _ _ _ _ _ _ _ HI). rewrite E in Hth. apply Forall_app in Hth as (t1 & t2). inversion t2 as [|? ? t3 t4]; subst.
    assert (Hp := pending_split S cfg content st l1 _ l2 E). assert (HU' := Permutation_Forall Hp HU). apply Forall_app in HU' as (U1 & U2).
    assert (Hp' := pending_split S cfg content (mk_st c' (l1 ++ mk_th p' d' :: l2)) l1 _ l2 eq_refl). cbn [s_crit] in Hp'.
    eapply Permutation_Forall; [symmetry; exact Hp'|]. apply Forall_app. split; [|exact U2].
    eapply act_under; eauto; apply HI.
  - assert (pending (mk_st c' (map wake (l1 ++ mk_th PIdle d :: l2))) = pending st) as ->; [|exact HU].
    unfold ParOpt.pending. cbn [s_crit s_threads]. rewrite flat_held_wake, h3, E, !flat_map_app. reflexivity.
Qed.
Lemma move_single st st' r : inv1 st -> move st st' -> Permutation (pending st) [r] -> Permutation (pending st') [r] \/ under (IMAX - 1) (pending st').
Proof.
  intros HI HM HU. destruct HM as [l1 l2 p p' d d' c' E Ha | l1 l2 k d c' E h1 h2 h3 h4 h5 h6 h7].
  - assert (Hth := i_th _ _ _ _ _ _ _ HI). rewrite E in Hth. apply Forall_app in Hth as (t1 & t2). inversion t2 as [|? ? t3 t4]; subst.
    assert (Hp := pending_split S cfg content st l1 _ l2 E). rewrite HU in Hp.
    assert (Hp' := pending_split S cfg content (mk_st c' (l1 ++ mk_th p' d' :: l2)) l1 _ l2 eq_refl). cbn [s_crit] in Hp'.
    set (A := content (c_fringe (s_crit st)) ++ held (mk_th p d)) in *. set (A' := content (c_fringe c') ++ held (mk_th p' d')) in *. set (B := flat_map held (l1 ++ l2)) in *.
    assert (Hlen := Permutation_length Hp). rewrite app_length in Hlen. cbn in Hlen.
    destruct B as [|b B].
    + rewrite app_nil_r in *. destruct (act_single _ _ _ _ _ _ r Ha (i_fr _ _ _ _ _ _ _ HI) (i_gen _ _ _ _ _ _ _ HI) t3 (Permutation_sym Hp)) as [H|H].
      * left. etransitivity; [exact Hp'|exact H].
      * right. eapply Permutation_Forall; [symmetry; exact Hp'|exact H].
    + cbn in Hlen. destruct A as [|? ?] eqn:EA; [|cbn in Hlen; lia]. destruct B; [|cbn in Hlen; lia]. cbn [app] in Hp. apply Permutation_length_1 in Hp. subst b.
      assert (H : forall u, under u A') by (intros u; eapply act_under; eauto; try apply HI; unfold A in EA; rewrite EA; constructor).
      left. destruct A' as [|a A'']; [rewrite Hp'; reflexivity|]. specialize (H (sp_ub a - 1)). inversion H. lia.
  - left. assert (pending (mk_st c' (map wake (l1 ++ mk_th PIdle d :: l2))) = pending st) as ->; [|exact HU].
    unfold ParOpt.pending. cbn [s_crit s_threads]. rewrite flat_held_wake, h3, E, !flat_map_app. reflexivity.
Qed.

Lemma step_small st st' orc intr i : library_ok S orc -> inv1 st -> thread_step eqb cfg orc intr i st = Next st' -> small st -> small st'.
Proof.
  intros Ho HI H [HU|(HF & r & Hp & Hr)]; assert (HM := step_move S eqb cfg at_depth nv C merging inv content G st st' HI ltac:(exists orc, intr, i; auto)).
  - left. eapply move_under; eauto.
  - destruct (move_single _ _ _ HI HM Hp) as [Hp'|HU]; [right|left; exact HU]. split; [|exists r; auto].
    assert (Hk : forall l j l', Forall (eq IMAX) l -> upd l j IMAX = Some l' -> Forall (eq IMAX) l').
    { clear. intros l j l' Hl E. apply Forall_forall. intros x Hx. apply In_nth_error in Hx as (k & Hk). rewrite (upd_nth _ _ _ _ E) in Hk. destruct (k =? j)%nat; [congruence|].
      apply (proj1 (Forall_forall _ _) Hl). eapply nth_error_In; eauto. }
    destruct (step_ubs _ _ _ _ _ H) as (t & t' & Ht & [(Hth & [(-> & _)|(n & Hn & Hu)])|(_ & _ & Hu)]); [exact HF| |eapply Hk; eauto].
    assert (sp_ub n = IMAX) as En; [|rewrite En in Hu; eapply Hk; eauto].
    assert (Hin : In n (pending st')).
    { unfold ParOpt.pending. apply in_app_iff. right. apply in_flat_map. exists t'. split; [|rewrite Hn; left; reflexivity]. rewrite Hth. apply (nth_error_In _ i). rewrite put_nth, Nat.eqb_refl, Ht. reflexivity. }
    apply (Permutation_in n Hp') in Hin. destruct Hin as [<-|[]]. exact Hr.
Qed.
Lemma spurious_small st st' : spurious S cfg st st' -> wrote st -> small st -> wrote st' /\ small st'.
Proof.
  intros (i & d & Hn & ->) W HS. split.
  - intros j t n Hj Ht. cbn [s_crit s_threads] in *. rewrite put_nth in Hj. destruct (j =? i)%nat eqn:E; [|eapply W; eauto].
    apply Nat.eqb_eq in E. subst j. rewrite Hn in Hj. injection Hj as <-. discriminate.
  - assert (Hpe : pending (mk_st (s_crit st) (put i (mk_th PIdle d) (s_threads st))) = pending st).
    { destruct (put_split i (mk_th PIdle d) _ _ Hn) as (l1 & l2 & h1 & h2 & _). unfold ParOpt.pending. cbn [s_crit s_threads]. rewrite h2, h1, !flat_map_app. reflexivity. }
    unfold small, at_root in *. rewrite Hpe. exact HS.
Qed.
Lemma initial_small n m st : initial cfg n m = Some st -> wrote st /\ small st.
Proof.
  intros E. destruct (initial_ok S eqb cfg at_depth nv C merging inv content G n m) as (st0 & E' & e1 & e2 & e3 & e4 & e5 & e6 & e7 & e8 & e9). rewrite E in E'. injection E' as <-. split.
  - intros i t q Hi Hh. rewrite e9 in Hi. apply nth_error_In, repeat_spec in Hi. subst t. discriminate.
  - right. split; [rewrite e8; apply Forall_forall; intros x Hx; apply repeat_spec in Hx; auto|]. exists (ParSolver.root_node cfg). split; [|reflexivity].
    unfold ParOpt.pending. rewrite e9, e2. assert (flat_map held (repeat (mk_th PIdle (dd_new (cf_ctype cfg))) m) = []) as -> by (clear; induction m; [reflexivity|exact IHm]). reflexivity.
Qed.
Lemma reachable_small n m st : (m <= n)%nat -> reachable S eqb cfg n m st -> wrote st /\ small st.
Proof.
  intros Hm (st0 & E & H). assert (H0 := initial_inv1 S eqb cfg at_depth nv C merging inv content G n m st0 Hm E). assert (H1 := initial_small n m st0 E).
  assert (inv1 st /\ wrote st /\ small st) as (_ & X); [|exact X].
  induction H as [st0|st0 st1 st2 _ IH H]; [auto|]. destruct (IH E H0 H1) as (I1 & W & HS). destruct H as [H|H].
  - assert (HM := step_move S eqb cfg at_depth nv C merging inv content G _ _ I1 H). split; [eapply move_inv1; eauto|].
    destruct H as (orc & intr & i & Ho & H). split; [eapply step_wrote; eauto|eapply step_small; eauto].
  - split; [eapply spurious_inv1; eauto|]. eapply spurious_small; eauto.
Qed.

(** * The interruption *)
Lemma max_ongoing_ge l x : In x l -> x < IMAX -> x <= max_ongoing l.
Proof.
  intros Hx Hm. unfold max_ongoing. assert (Hf : In x (filter (fun y => negb (y =? IMAX)) l)) by (apply filter_In; split; [exact Hx|]; apply negb_true_iff, Z.eqb_neq; lia).
  destruct (filter _ l) as [|y t]; [destruct Hf|].
  assert (Hge : forall t y z, z <= y \/ In z t -> z <= fold_left Z.max t y).
  { clear. induction t as [|a t IH]; intros y z Hz; cbn [fold_left]; [destruct Hz as [Hz|[]]; exact Hz|]. apply IH. destruct Hz as [Hz|[->|Hz]]; [left; lia|left; lia|right; exact Hz]. }
  apply Hge. destruct Hf as [->|Hf]; [left; lia|right; exact Hf].
Qed.
Lemma max_ongoing_all l : Forall (eq IMAX) l -> max_ongoing l = IMAX.
Proof.
  intros H. unfold max_ongoing. assert (filter (fun y => negb (y =? IMAX)) l = []) as ->; [|reflexivity].
  induction H as [|x l <- _ IH]; [reflexivity|]. cbn. rewrite IH. reflexivity.
Qed.
Lemma step_intr_ub st st' orc intr i : thread_step eqb cfg orc intr i st = Next st' -> c_interrupted (s_crit st) = false -> c_interrupted (s_crit st') = true ->
  (0 < c_ongoing (s_crit st))%nat -> c_ub (s_crit st') = max_ongoing (c_ubs (s_crit st)).
Proof.
  unfold thread_step. destruct (nth_error (s_threads st) i) as [t|] eqn:En; [|discriminate]. cbn zeta.
  destruct t as [p d]. cbn [t_pc t_dd]. unfold lift. intros H F T Hon.
  assert (Hup : forall c' d, maybe_update_best cfg (s_crit st) d = Some c' -> c_interrupted c' = false).
  { clear -F. intros c' d. unfold maybe_update_best. destruct (best_value d) as [bv|]; cbn [obind]; [|discriminate]. destruct (_ <? _).
    - destruct (best_solution d); cbn [obind]; [|discriminate]. injection 1 as <-. exact F.
    - injection 1 as <-. exact F. }
  destruct p as [| |n|n|n k|n k|k|]; try discriminate.
  - destruct (get_workload cfg (s_crit st) i intr) as [[c' w]|] eqn:Ew; cbn [obind] in H; [|discriminate]. injection H as <-. cbn [s_crit] in *.
    unfold get_workload in Ew. assert (Nat.eqb (c_ongoing (s_crit st)) 0 = false) as Hz by (apply Nat.eqb_neq; lia). rewrite Hz in Ew. cbn [andb] in Ew. rewrite F in Ew.
    assert (Hl : (0 <? c_ongoing (s_crit st))%nat = true) by (apply Nat.ltb_lt; exact Hon). rewrite Hl in Ew.
    destruct intr; [cbn [obind] in Ew; injection Ew as <- _; reflexivity|exfalso].
    destruct (fr_empty fr (c_fringe (s_crit st))); [injection Ew as <- _; congruence|].
    destruct (fr_pop fr (c_fringe (s_crit st))) as [[[nn|] f]|]; cbn [obind] in Ew; try discriminate. destruct (sp_ub nn <=? _); [injection Ew as <- _; cbn in T; congruence|].
    destruct (upd _ _ _); cbn [obind] in Ew; [|discriminate]. injection Ew as <- _. cbn in T. congruence.
  - exfalso. destruct (_ <=? _); [injection H as <-; cbn in T; congruence|].
    destruct (compile _ _ _ _ _); cbn [obind] in H; [|discriminate]. injection H as <-. cbn in T. congruence.
  - exfalso. destruct (maybe_update_best cfg (s_crit st) d) as [c'|] eqn:Eu; cbn [obind] in H; [|discriminate]. injection H as <-. apply Hup in Eu. cbn in T. congruence.
  - exfalso. destruct (compile _ _ _ _ _); cbn [obind] in H; [|discriminate]. injection H as <-. cbn in T. congruence.
  - exfalso. destruct (g_exact d).
    + destruct (maybe_update_best cfg (s_crit st) d) as [c'|] eqn:Eu; cbn [obind] in H; [|discriminate]. injection H as <-. apply Hup in Eu. cbn in T. congruence.
    + unfold enqueue_cutset in H. destruct (drain_cutset d) as [[l d2]|]; cbn [obind] in H; [|discriminate]. destruct (ofold _ _ _); cbn [obind] in H; [|discriminate]. injection H as <-. cbn in T. congruence.
  - exfalso. unfold finish_node in H. destruct (c_ongoing (s_crit st)); [discriminate|]. destruct (upd _ _ _); cbn [obind] in H; [|discriminate]. injection H as <-. cbn in T. congruence.
Qed.

Lemma held_working (l : list thread) n : In n (flat_map held l) -> (0 < nworking S l)%nat.
Proof.
  intros H. apply in_flat_map in H as (t & Ht & Hn). apply in_split in Ht as (l1 & l2 & ->). rewrite nworking_app. destruct t as [[]]; cbn in *; try contradiction; lia.
Qed.

(** At that moment the subproblems in hand are below the bound set. *)
Lemma interruption st st' : inv1 st -> wrote st -> small st -> step S eqb cfg st st' -> c_interrupted (s_crit st) = false -> c_interrupted (s_crit st') = true ->
  c_lb (s_crit st') = c_lb (s_crit st) /\ pending st' = flat_map held (s_threads st) /\ under (c_ub (s_crit st')) (pending st').
Proof.
  intros HI W HS Hst F T. assert (HM := step_move S eqb cfg at_depth nv C merging inv content G _ _ HI Hst). destruct Hst as (orc & intr & i & Ho & H).
  assert (Hub := step_intr_ub _ _ _ _ _ H F T).
  assert (c_lb (s_crit st') = c_lb (s_crit st) /\ pending st' = flat_map held (s_threads st)) as (Hlb & Hpe).
  { destruct HM as [l1 l2 p p' d d' c' E2 Ha | l1 l2 k d c' E2 h1 h2 h3 h4 h5 h6 h7]; cbn [s_crit] in *; [|congruence]. rewrite E2. unfold ParOpt.pending. cbn [s_crit s_threads].
    inversion Ha; subst; unfold upd_of, set_fringe in *; cbn [c_interrupted] in *; try congruence; try (intuition congruence).
    split; [assumption|]. match goal with H : content (c_fringe c') = [] |- _ => rewrite H end. rewrite !flat_map_app. reflexivity. }
  split; [exact Hlb|]. split; [exact Hpe|]. apply Forall_forall. intros q Hq. rewrite Hpe in Hq. assert (Hwk := held_working _ _ Hq). rewrite <- (i_on _ _ _ _ _ _ _ HI) in Hwk. rewrite (Hub Hwk).
  assert (Hin : In q (pending st)) by (unfold ParOpt.pending; apply in_app_iff; auto).
  destruct HS as [HU|(HF & r & Hp & Hr)].
  - assert (Hq1 := proj1 (Forall_forall _ _) HU q Hin). cbn in Hq1. apply max_ongoing_ge; [|lia].
    apply in_flat_map in Hq as (t & Ht & Hq). apply In_nth_error in Ht as (j & Hj). apply (nth_error_In _ j). apply (W j t q Hj). destruct t as [[]]; cbn in *; try contradiction; destruct Hq as [->|[]]; reflexivity.
  - rewrite (max_ongoing_all _ HF). apply (Permutation_in q Hp) in Hin. destruct Hin as [<-|[]]. lia.
Qed.

Lemma bound_at_interruption n m st st' : (m <= n)%nat -> reachable S eqb cfg n m st -> step S eqb cfg st st' -> c_interrupted (s_crit st) = false -> c_interrupted (s_crit st') = true ->
  forall ds x, solution ds x -> x <= c_lb (s_crit st') \/ x <= c_ub (s_crit st') \/ exists q, In q (content (c_fringe (s_crit st))) /\ x <= sp_ub q.
Proof.
  intros Hm Hr Hst F T ds x Hx. destruct (reachable_inv2 S eqb cfg at_depth nv C merging inv content G LAY CLOSES COVERS n m st Hm Hr) as (I1 & J1). destruct (J1 F) as [j1 j2 _].
  destruct (reachable_small n m st Hm Hr) as (W & HS). destruct (interruption st st' I1 W HS Hst F T) as (Hlb & Hpe & HU).
  destruct (j2 ds x Hx) as [H|(q & ds' & w & Hq & Hc & Hw)]; [left; lia|].
  destruct (proj1 (Forall_forall _ _) j1 q Hq ds' w Hc) as [H|H]; [left; lia|]. unfold ParOpt.pending in Hq. apply in_app_iff in Hq as [Hq|Hq].
  - right. right. exists q. split; [exact Hq|lia].
  - right. left. rewrite <- Hpe in Hq. assert (H' := proj1 (Forall_forall _ _) HU q Hq). cbn in H'. lia.
Qed.

(** * After the interruption, when nothing was waiting *)
Definition off (c : critical S cfg) : critical S cfg :=
  mk_crit (c_fringe c) (c_ongoing c) (c_explored c) (c_explored_dd c) (c_lb c) (c_ub c) (c_sol c) (c_ubs c) false.
Lemma act_off c d p c' p' d' : act c d p c' p' d' -> c_interrupted c = true -> c_interrupted c' = true /\
  (c' = c /\ p = PIdle /\ p' = PDone \/ act (off c) d p (off c') p' d' /\ (c_ub c' = c_ub c \/ c_ongoing c = 0%nat /\ content (c_fringe c) = [])).
Proof.
  intros Ha Ht.
  destruct Ha as [c' e1 e2 -> | e1 | c' e1 e2 e3 e4 e5 e6 e7 e8 e9 | e1 e2 e3 | p f' c' -> e1 e2 e3 e4 e5 e6 | p c' e1 e2 e3 e4 e5 e6 e7 e8 e9 e10
    | n e1 | n d' e1 e2 e3 | n c' k e1 e2 e3 | n c' k e1 | n k d' k' e1 e2 | n k c' e1 e2 e3 | n k L d' f' e1 e2 e3 e4 e5 e6 e7]; try congruence.
  - split; [exact Ht|]. right. split; [|auto]. apply (act_complete S eqb cfg nv inv content); auto.
  - auto.
  - split; [exact Ht|]. right. split; [|auto]. apply act_drop. exact e1.
  - split; [exact Ht|]. right. split; [|auto]. apply act_restrict; auto.
  - destruct e2 as (u1 & u2 & u3 & u4 & u5 & u6 & u7). split; [congruence|]. right. split; [|auto]. apply act_closed; auto. unfold upd_of, off; cbn. auto 10.
  - destruct e1 as (u1 & u2 & u3 & u4 & u5 & u6 & u7). split; [congruence|]. right. split; [|auto]. apply act_open; auto. unfold upd_of, off; cbn. auto 10.
  - split; [exact Ht|]. right. split; [|auto]. apply act_relax; auto.
  - destruct e2 as (u1 & u2 & u3 & u4 & u5 & u6 & u7). split; [congruence|]. right. split; [|auto]. apply act_solved; auto. unfold upd_of, off; cbn. auto 10.
  - split; [exact Ht|]. right. split; [|auto]. change (off (set_fringe cfg c f')) with (set_fringe cfg (off c) f'). eapply act_branch; eauto.
Qed.

Record after (st : state) : Prop := {
  f_int : c_interrupted (s_crit st) = true;
  f_ub : Forall (ub_ok (c_lb (s_crit st))) (pending st);
  f_cov : forall ds x, solution ds x -> covered (c_lb (s_crit st)) (pending st) x;
  f_under : under (c_ub (s_crit st)) (pending st) \/ pending st = [] }.

Lemma move_after st st' : inv1 st -> after st -> move st st' -> after st'.
Proof.
  intros HI [f1 f2 f3 f4] HM.
  assert (HE : pending st = [] -> pending st' = []).
  { intros Hp. assert (H : forall u, under u (pending st')) by (intros u; eapply move_under; eauto; rewrite Hp; constructor).
    destruct (pending st') as [|a l]; [reflexivity|]. specialize (H (sp_ub a - 1)). inversion H. lia. }
  assert (HU : under (c_ub (s_crit st)) (pending st) -> under (c_ub (s_crit st)) (pending st')) by (apply move_under; auto).
  destruct HM as [l1 l2 p p' d d' c' E Ha | l1 l2 k d c' E h1 h2 h3 h4 h5 h6 h7].
  - destruct (act_off _ _ _ _ _ _ Ha f1) as (Ht & Hcase).
    assert (Hth := i_th _ _ _ _ _ _ _ HI). rewrite E in Hth. apply Forall_app in Hth as (t1 & t2). inversion t2 as [|? ? t3 t4]; subst.
    assert (Hp := pending_split S cfg content st l1 _ l2 E). assert (j1' := Permutation_Forall Hp f2). apply Forall_app in j1' as (j1a & j1b).
    assert (Hp' := pending_split S cfg content (mk_st c' (l1 ++ mk_th p' d' :: l2)) l1 _ l2 eq_refl). cbn [s_crit] in Hp'.
    assert (K : c_lb (s_crit st) <= c_lb c' /\ Forall (ub_ok (c_lb c')) (content (c_fringe c') ++ held (mk_th p' d')) /\
      (forall n ds w, In n (content (c_fringe (s_crit st)) ++ held (mk_th p d)) -> completes n ds w -> covered (c_lb c') (content (c_fringe c') ++ held (mk_th p' d')) w)).
    { destruct Hcase as [(-> & -> & ->)|(Ha' & _)].
      - split; [lia|]. split; [exact j1a|]. intros n ds w Hn Hc. eapply covered_in; eauto.
      - exact (act_keeps S eqb cfg at_depth nv C merging inv content G LAY CLOSES COVERS _ _ _ _ _ _ Ha' eq_refl (i_fr _ _ _ _ _ _ _ HI) (i_gen _ _ _ _ _ _ _ HI) t3 j1a). }
    destruct K as (K1 & K2 & K3). constructor; cbn [s_crit].
    + exact Ht.
    + eapply Permutation_Forall; [symmetry; exact Hp'|]. apply Forall_app. split; [exact K2|]. eapply Forall_impl; [intros q; apply ub_ok_mono; exact K1|exact j1b].
    + intros ds x Hx. specialize (f3 ds x Hx). apply (covered_incl S cfg nv _ ((content (c_fringe c') ++ held (mk_th p' d')) ++ flat_map held (l1 ++ l2))); [intros q; apply Permutation_in; symmetry; exact Hp'|].
      eapply covered_mono; [exact K1| |exact f3]. intros n ds' w Hn Hc. apply (Permutation_in n Hp) in Hn. apply in_app_iff in Hn as [Hn|Hn].
      * eapply covered_incl; [|eapply K3; eauto]. apply incl_appl, incl_refl.
      * eapply covered_in; [|exact Hc]. apply in_app_iff. auto.
    + assert (Hz : c_ongoing (s_crit st) = 0%nat -> content (c_fringe (s_crit st)) = [] -> pending st = []).
      { intros Hz Hc. unfold ParOpt.pending. rewrite Hc. cbn [app]. destruct (flat_map held (s_threads st)) as [|q l] eqn:Eh; [reflexivity|exfalso].
        assert (H := held_working (s_threads st) q ltac:(rewrite Eh; left; reflexivity)). rewrite <- (i_on _ _ _ _ _ _ _ HI) in H. lia. }
      destruct f4 as [f4|f4]; [|right; auto]. destruct Hcase as [(-> & _)|(_ & [Hu|(Hz1 & Hz2)])]; [left; auto|left; rewrite Hu; auto|right; auto].
  - assert (Hpe : pending (mk_st c' (map wake (l1 ++ mk_th PIdle d :: l2))) = pending st).
    { unfold ParOpt.pending. cbn [s_crit s_threads]. rewrite flat_held_wake, h3, E, !flat_map_app. reflexivity. }
    constructor; rewrite ?Hpe; cbn [s_crit s_threads]; rewrite ?h4, ?h5; auto. congruence.
Qed.
Lemma spurious_after st st' : spurious S cfg st st' -> after st -> after st'.
Proof.
  intros (i & d & Hn & ->) [f1 f2 f3 f4].
  assert (Hpe : pending (mk_st (s_crit st) (put i (mk_th PIdle d) (s_threads st))) = pending st).
  { destruct (put_split i (mk_th PIdle d) _ _ Hn) as (l1 & l2 & h1 & h2 & _). unfold ParOpt.pending. cbn [s_crit s_threads]. rewrite h2, h1, !flat_map_app. reflexivity. }
  constructor; rewrite ?Hpe; cbn [s_crit]; auto.
Qed.

Lemma nothing_waiting n m st st' st'' : (m <= n)%nat -> reachable S eqb cfg n m st -> step S eqb cfg st st' -> c_interrupted (s_crit st) = false -> c_interrupted (s_crit st') = true ->
  fr_empty fr (c_fringe (s_crit st)) = true -> reaches S eqb cfg st' st'' ->
  forall ds x, solution ds x -> x <= c_lb (s_crit st'') \/ x <= c_ub (s_crit st'').
Proof.
  intros Hm Hr Hst F T Hem Hre. destruct (reachable_inv2 S eqb cfg at_depth nv C merging inv content G LAY CLOSES COVERS n m st Hm Hr) as (I1 & J1). destruct (J1 F) as [j1 j2 _].
  destruct (reachable_small n m st Hm Hr) as (W & HS). destruct (interruption st st' I1 W HS Hst F T) as (Hlb & Hpe & HU).
  apply (fo_empty _ _ _ _ FO _ (i_fr _ _ _ _ _ _ _ I1)) in Hem.
  assert (Hps : pending st' = pending st) by (rewrite Hpe; unfold ParOpt.pending; rewrite Hem; reflexivity).
  assert (H1 : inv1 st') by (destruct (move_inv1 S eqb cfg nv inv content st st' I1 (step_move S eqb cfg at_depth nv C merging inv content G _ _ I1 Hst)); auto).
  assert (H2 : after st') by (constructor; rewrite ?Hps, ?Hlb; auto; left; rewrite <- Hps; exact HU).
  assert (H3 : inv1 st'' /\ after st'').
  { clear -H1 H2 Hre G LAY WB CUT WF FO CLOSES COVERS. induction Hre as [st|st0 st1 st2 _ IH H]; [auto|]. destruct (IH H1 H2) as (I1 & A1). destruct H as [H|H].
    - assert (HM := step_move S eqb cfg at_depth nv C merging inv content G _ _ I1 H). split; [eapply move_inv1; eauto|eapply move_after; eauto].
    - split; [eapply spurious_inv1; eauto|eapply spurious_after; eauto]. }
  destruct H3 as (_ & [f1 f2 f3 f4]). intros ds x Hx. destruct (f3 ds x Hx) as [H|(q & ds' & w & Hq & Hc & Hw)]; [left; exact H|].
  destruct (proj1 (Forall_forall _ _) f2 q Hq ds' w Hc) as [H|H]; [left; lia|]. right. destruct f4 as [f4|f4]; [|rewrite f4 in Hq; destruct Hq].
  assert (H' := proj1 (Forall_forall _ _) f4 q Hq). cbn in H'. lia.
Qed.
End Int.
