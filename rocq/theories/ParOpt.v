(** The parallel solver with a last exact layer cutset loses no solution. *)
From Verif Require Import Spec Dd DdSpec MddAll MddAllProofs FringeSpec ParSpec ParFacts.
From Verif Require Import DdFacts DdFinal.
From Coq Require Import ZifyNat.
Open Scope Z_scope.

Section Opt.
Variable S : Type.
Variable eqb : S -> S -> bool.
Variable cfg : config S.
Variable at_depth : nat -> S -> Prop.
Variable nv : nat -> nat.
Variable C : Z.
Variable merging : Prop.
Variable inv : fr_t (cf_fr cfg) -> Prop.
Variable content : fr_t (cf_fr cfg) -> list (subproblem S).
Notation P := (cf_pb cfg).
Notation R := (cf_rx cfg).
Notation N := (pb_nb_vars P).
Notation sub := (subproblem S).
Notation genuine := (genuine S P nv).
Notation completes := (completes S P nv).
Notation thread := (thread S).
Notation state := (state S cfg).
Notation fr := (cf_fr cfg).
Notation root_node := ParSolver.root_node.
Notation inv1 := (inv1 S eqb cfg nv inv content).
Notation move := (move S eqb cfg nv inv content).
Notation act := (act S eqb cfg nv inv content).
Notation compiled := (compiled S eqb cfg).
Notation solution := (solution S P nv).
Notation held := (held S).
Hypothesis G : good_config S eqb cfg at_depth nv C merging inv content.
Hypothesis LAY : merging -> decided_once S cfg nv.
Let WF := gs_formed _ _ _ _ _ _ _ _ _ G.
Let FO := gs_frontier _ _ _ _ _ _ _ _ _ G.

Lemma genuine_at q : genuine q -> at_depth (depth_of q) (sp_state q).
Proof.
  intros (ds & c & _ & Hr & _). destruct WF as [H1 H2 H3 H4].
  destruct (run_bound S eqb H1 P R at_depth nv C H2 H4 _ _ _ _ _ _ Hr (wf_init _ _ _ _ H2)) as ((_ & H & _) & _). exact H.
Qed.
Lemma solution_gt ds x : solution ds x -> IMIN < x <= IMAX.
Proof.
  intros (c & (s' & Hr) & Hv). destruct WF as [H1 H2 H3 H4].
  destruct (run_bound S eqb H1 P R at_depth nv C H2 H4 _ _ _ _ _ _ Hr (wf_init _ _ _ _ H2)) as (_ & Hb).
  assert (H5 := bd_range _ _ _ _ _ _ H4). assert (H6 := bd_init _ _ _ _ _ _ H4). rewrite IMIN_IMAX. assert (H7 := bd_pos _ _ _ _ _ _ H4). rewrite Nat.sub_0_r in Hb. nia.
Qed.
Lemma completes_solution q ds w : genuine q -> completes q ds w -> exists ds', solution ds' w.
Proof.
  intros (ds0 & c0 & _ & Hr & Hv) (c & (s' & Hc) & ->). exists (ds0 ++ ds), (c0 + c). split; [|lia]. exists s'. exact (run_app S P nv _ _ _ _ _ _ Hr _ _ _ _ Hc).
Qed.
Lemma descends_completes p q ds w : descends S P nv p q -> completes q ds w -> exists ds', completes p ds' w.
Proof.
  intros (r & c & _ & _ & Hr & Hv) (c' & (s' & Hc) & ->). exists (rev r ++ ds), (c + c'). split; [|lia]. exists s'. exact (run_app S P nv _ _ _ _ _ _ Hr _ _ _ _ Hc).
Qed.
Lemma completes_ub q u ds w : completes (with_ub q u) ds w <-> completes q ds w.
Proof. reflexivity. Qed.

(** The variable decided next tells the layer. *)
Lemma same_layer p q : merging -> genuine p -> genuine q -> sp_state p = sp_state q -> depth_of p = depth_of q.
Proof.
  intros Hm Hp Hq Hs. assert (Ap := genuine_at p Hp). assert (Aq := genuine_at q Hq). rewrite Hs in Ap.
  assert (Dp := genuine_depth S eqb P R at_depth nv C p WF Hp). assert (Dq := genuine_depth S eqb P R at_depth nv C q WF Hq).
  destruct WF as [_ H2 _ _].
  assert (Hn : forall k, (k < N)%nat -> at_depth k (sp_state q) -> pb_next_var P [sp_state q] = Some (nv k)) by (intros k Hk Ha; apply (wf_next _ _ _ _ H2); auto; discriminate).
  assert (Hl : at_depth N (sp_state q) -> pb_next_var P [sp_state q] = None) by (intros Ha; apply (wf_last _ _ _ _ H2); auto; discriminate).
  destruct (Nat.eq_dec (depth_of p) N) as [Ep|Ep], (Nat.eq_dec (depth_of q) N) as [Eq|Eq].
  - congruence.
  - rewrite Ep in Ap. assert (h1 := Hl Ap). assert (h2 := Hn (depth_of q) ltac:(lia) Aq). congruence.
  - rewrite Eq in Aq. assert (h1 := Hl Aq). assert (h2 := Hn (depth_of p) ltac:(lia) Ap). congruence.
  - assert (h1 := Hn (depth_of p) ltac:(lia) Ap). assert (h2 := Hn (depth_of q) ltac:(lia) Aq). apply (LAY Hm); [lia|lia|congruence].
Qed.

Definition ub_ok (lb : Z) (n : sub) : Prop := forall ds w, completes n ds w -> w <= lb \/ w <= sp_ub n.
Definition covered (lb : Z) (l : list sub) (x : Z) : Prop := x <= lb \/ exists n ds w, In n l /\ completes n ds w /\ x <= w.

Lemma ub_ok_mono lb lb' n : lb <= lb' -> ub_ok lb n -> ub_ok lb' n.
Proof. intros H Hu ds w Hc. destruct (Hu ds w Hc); [left; lia|auto]. Qed.
Lemma covered_mono lb lb' l l' x : lb <= lb' -> (forall n ds w, In n l -> completes n ds w -> covered lb' l' w) -> covered lb l x -> covered lb' l' x.
Proof.
  intros Hl H [Hx|(n & ds & w & h1 & h2 & h3)]; [left; lia|]. destruct (H n ds w h1 h2) as [Hw|(n' & ds' & w' & g1 & g2 & g3)]; [left; lia|].
  right. exists n', ds', w'. split; [auto|]. split; [auto|lia].
Qed.
Lemma covered_in lb l n ds w : In n l -> completes n ds w -> covered lb l w.
Proof. intros. right. exists n, ds, w. split; [auto|]. split; [auto|lia]. Qed.
Lemma covered_incl lb l l' x : incl l l' -> covered lb l x -> covered lb l' x.
Proof. intros Hi. apply covered_mono; [lia|]. intros. eapply covered_in; eauto. Qed.

(** * Pushing loses nothing *)
Lemma push_keeps f n f' : inv f -> Forall genuine (content f) -> genuine n -> fr_push fr f n = Some f' ->
  (forall lb, Forall (ub_ok lb) (content f) -> ub_ok lb n -> Forall (ub_ok lb) (content f')) /\
  (forall lb q ds w, In q (n :: content f) -> completes q ds w -> covered lb (content f') w).
Proof.
  intros Hi Hg Hn E. destruct (fo_push _ _ _ _ FO f n Hi) as (f1 & E1 & Hi1 & H). rewrite E in E1. injection E1 as <-.
  destruct H as [H|(Hm & old & l & Hs & H1 & H2)].
  - split.
    + intros lb Hu Hun. eapply Permutation_Forall; [symmetry; exact H|]. constructor; auto.
    + intros lb q ds w Hq Hc. eapply covered_in; [|exact Hc]. eapply Permutation_in; [symmetry; exact H|exact Hq].
  - assert (Hg' := Permutation_Forall H1 Hg). inversion Hg' as [|? ? Ho Hl]; subst. split.
    + intros lb Hu Hun. assert (Hu' := Permutation_Forall H1 Hu). inversion Hu' as [|? ? Huo Hul]; subst.
      eapply Permutation_Forall; [symmetry; exact H2|]. constructor; auto. intros ds w Hc. unfold merge_sub in *. cbn [sp_ub with_ub]. destruct (_ <? _).
      * destruct (Hun ds w Hc); [left; lia|right; lia].
      * destruct (Huo ds w Hc); [left; lia|right; lia].
    + assert (Hd : depth_of old = depth_of n) by (apply same_layer; auto).
      assert (Hmd : depth_of (merge_sub old n) = depth_of n) by (unfold merge_sub; destruct (_ <? _); [reflexivity|exact Hd]).
      assert (Hms : sp_state (merge_sub old n) = sp_state n) by (unfold merge_sub; destruct (_ <? _); [reflexivity|exact Hs]).
      assert (Hmv : sp_value old <= sp_value (merge_sub old n) /\ sp_value n <= sp_value (merge_sub old n)) by (unfold merge_sub; destruct (_ <? _) eqn:E0; cbn [sp_value with_ub]; lia).
      assert (Hmi : In (merge_sub old n) (content f')) by (eapply Permutation_in; [symmetry; exact H2|left; auto]).
      assert (Hk : forall q ds w, sp_state q = sp_state n -> depth_of q = depth_of n -> sp_value q <= sp_value (merge_sub old n) -> completes q ds w -> forall lb, covered lb (content f') w).
      { intros q ds w q1 q2 q3 (c & Hc & ->) lb. right. exists (merge_sub old n), ds, (sp_value (merge_sub old n) + c). split; [exact Hmi|]. split; [|lia].
        exists c. split; [|lia]. rewrite Hmd, Hms, <- q1, <- q2. exact Hc. }
      intros lb q ds w [<-|Hq] Hc; [eapply (Hk n); eauto; lia|]. assert (Hq' := Permutation_in q H1 Hq). destruct Hq' as [<-|Hq']; [eapply (Hk old); eauto; lia|].
      eapply covered_in; [|exact Hc]. eapply Permutation_in; [symmetry; exact H2|right; exact Hq'].
Qed.

Lemma enqueue_keeps lb ub L : forall f f', inv f -> Forall genuine (content f) -> Forall genuine L -> ofold (enqueue_node cfg lb ub) L f = Some f' ->
  (Forall (ub_ok lb) (content f) -> (forall q, In q L -> ub_ok lb (with_ub q (Z.min ub (sp_ub q)))) -> Forall (ub_ok lb) (content f')) /\
  (forall q ds w, In q (content f) -> completes q ds w -> covered lb (content f') w) /\
  (forall q ds w, In q L -> completes q ds w -> w <= ub -> w <= sp_ub q -> covered lb (content f') w).
Proof.
  induction L as [|q L IH]; intros f f' Hi Hc HL E; cbn [ofold] in E.
  - injection E as <-. split; [auto|]. split; [intros; eapply covered_in; eauto|intros q ds w []].
  - inversion HL as [|? ? Hq HL']; subst. unfold enqueue_node at 1 in E. cbn zeta in E. set (q' := with_ub q (Z.min ub (sp_ub q))) in *.
    assert (Hq' : genuine q') by exact Hq.
    destruct (lb <? sp_ub q') eqn:El; cbn [obind] in E.
    + destruct (fr_push_genuine S eqb cfg at_depth nv C merging inv content G f q' Hi Hc Hq') as (f1 & E1 & Hi1 & Hc1). rewrite E1 in E. cbn [obind] in E.
      destruct (push_keeps f q' f1 Hi Hc Hq' E1) as (K1 & K2). destruct (IH f1 f' Hi1 Hc1 HL' E) as (I1 & I2 & I3). split; [|split].
      * intros Hu HuL. apply I1; [apply K1; auto; apply HuL; left; auto|]. intros x Hx. apply HuL. right. exact Hx.
      * intros x ds w Hx Hcx. assert (Hcv := K2 lb x ds w (or_intror Hx) Hcx). eapply covered_mono; [|exact I2|exact Hcv]. lia.
      * intros x ds w [<-|Hx] Hcx Hw1 Hw2; [|eapply I3; eauto].
        assert (Hcv := K2 lb q' ds w (or_introl eq_refl) Hcx). eapply covered_mono; [|exact I2|exact Hcv]. lia.
    + destruct (IH f f' Hi Hc HL' E) as (I1 & I2 & I3). split; [|split].
      * intros Hu HuL. apply I1; auto. intros x Hx. apply HuL. right. exact Hx.
      * exact I2.
      * intros x ds w [<-|Hx] Hcx Hw1 Hw2; [|eapply I3; eauto]. left. unfold q' in El. cbn in El. lia.
Qed.

(** * The second invariant *)
Definition pending (st : state) : list sub := content (c_fringe (s_crit st)) ++ flat_map held (s_threads st).
Record inv2 (st : state) : Prop := {
  j_ub : Forall (ub_ok (c_lb (s_crit st))) (pending st);
  j_cov : forall ds x, solution ds x -> covered (c_lb (s_crit st)) (pending st) x;
  j_done : forall t, In t (s_threads st) -> t_pc t = PDone ->
     content (c_fringe (s_crit st)) = [] /\ c_ongoing (s_crit st) = 0%nat /\ c_ub (s_crit st) = c_lb (s_crit st) }.

(** What an exact diagram establishes. *)
Lemma exact_closes : well_behaved S eqb P R at_depth nv C -> forall lb ty n d lb', genuine n -> compiled lb ty n d -> g_exact d = true -> lb <= lb' ->
  (forall v, best_value d = Some (Some v) -> v <= lb') -> forall ds w, completes n ds w -> w <= lb'.
Proof.
  intros WB lb ty n d lb' Hn (orc & lb0 & d0 & Ho & Hlb & _ & E) Hex Hl Hb ds w Hc. destruct (Z_le_gt_dec w lb0) as [H|H]; [lia|].
  destruct (all_bound S eqb P R at_depth nv C false orc _ d0 d ds w WB (good_call_of S eqb cfg at_depth nv C merging inv content G orc ty n lb0 Ho Hn) E (or_intror Hex) Hc) as (b & Hb1 & Hb2); [cbn; lia|].
  assert (H' := Hb b Hb1). lia.
Qed.

(** What an inexact relaxed diagram hands out. *)
Lemma cutset_covers : well_behaved S eqb P R at_depth nv C -> cf_ctype cfg = LastExactLayer \/ one_end S cfg at_depth ->
  forall lb n d L d2, genuine n -> compiled lb Relaxed n d -> g_exact d = false -> drain_cutset d = Some (L, d2) -> ub_ok lb n ->
  (forall q, In q L -> ub_ok lb (with_ub q (Z.min (sp_ub n) (sp_ub q)))) /\
  (forall ds w, completes n ds w -> lb < w -> exists q ds' w', In q L /\ completes q ds' w' /\ w <= w' /\ w' <= sp_ub n /\ w' <= sp_ub q).
Proof.
  intros WB LEL lb n d L d2 Hn (orc & lb0 & d0 & Ho & Hlb & Hct & E) Hex ED Hu.
  assert (Hgc := good_call_of S eqb cfg at_depth nv C merging inv content G orc Relaxed n lb0 Ho Hn).
  destruct (all_cut_ub S eqb P R at_depth nv C false orc _ d0 d WB Hgc E) as (L1 & d1 & ED1 & HU). rewrite ED in ED1. injection ED1 as <- <-.
  destruct (all_cut_genuine S eqb P R at_depth nv C false orc _ d0 d WF Hgc E) as (L1 & d1 & ED1 & HD). rewrite ED in ED1. injection ED1 as <- <-.
  assert (HB : forall q ds w, In q L -> completes q ds w -> lb < w -> w <= sp_ub n /\ w <= sp_ub q).
  { intros q ds w Hq Hc Hw. split; [|apply (HU q ds w Hq Hc); cbn; lia].
    destruct (descends_completes n q ds w (proj1 (proj2 (HD q Hq))) Hc) as (ds' & Hc'). destruct (Hu ds' w Hc'); lia. }
  split.
  - intros q Hq ds w Hc. destruct (Z_le_gt_dec w lb) as [H|H]; [left; exact H|]. destruct (HB q ds w Hq Hc); [lia|]. right. cbn. lia.
  - intros ds w Hc Hw.
    assert (HC : exists q ds2 w', In q L /\ completes q ds2 w' /\ w <= w').
    { destruct (cf_ctype cfg) eqn:Ect.
      - destruct (all_lel S eqb P R at_depth nv C false orc _ d0 d WB Hgc E eq_refl Hex Hct) as (L1 & d1 & ED1 & HC). rewrite ED in ED1. injection ED1 as <- <-.
        destruct (HC ds w Hc) as (q & ds1 & ds2 & w' & c1 & Hq & _ & _ & _ & Hcq & Hle); [cbn; lia|]. eauto 6.
      - destruct LEL as [H|H]; [congruence|].
        destruct (all_one_end S eqb P R at_depth nv C false orc _ d0 d WB Hgc E eq_refl Hex Hct H) as (L1 & d1 & ED1 & HC). rewrite ED in ED1. injection ED1 as <- <-.
        apply (HC ds w Hc). cbn. lia. }
    destruct HC as (q & ds2 & w' & Hq & Hcq & Hle). exists q, ds2, w'. split; [exact Hq|]. split; [exact Hcq|]. split; [exact Hle|].
    apply (HB q ds2 w' Hq Hcq). lia.
Qed.

(** All that matters of the two kinds of diagrams. *)
Hypothesis CLOSES : forall lb ty n d lb', genuine n -> compiled lb ty n d -> g_exact d = true -> lb <= lb' ->
  (forall v, best_value d = Some (Some v) -> v <= lb') -> forall ds w, completes n ds w -> w <= lb'.
Hypothesis COVERS : forall lb n d L d2, genuine n -> compiled lb Relaxed n d -> g_exact d = false -> drain_cutset d = Some (L, d2) -> ub_ok lb n ->
  (forall q, In q L -> ub_ok lb (with_ub q (Z.min (sp_ub n) (sp_ub q)))) /\
  (forall ds w, completes n ds w -> lb < w -> exists q ds' w', In q L /\ completes q ds' w' /\ w <= w' /\ w' <= sp_ub n /\ w' <= sp_ub q).

(** Only the subproblems of the frontier and of the acting thread matter. *)
Lemma act_keeps c d p c' p' d' : act c d p c' p' d' -> c_interrupted c' = false ->
  inv (c_fringe c) -> Forall genuine (content (c_fringe c)) -> thread_ok S eqb cfg nv (c_lb c) (mk_th p d) ->
  Forall (ub_ok (c_lb c)) (content (c_fringe c) ++ held (mk_th p d)) ->
  c_lb c <= c_lb c' /\ Forall (ub_ok (c_lb c')) (content (c_fringe c') ++ held (mk_th p' d')) /\
  (forall n ds w, In n (content (c_fringe c) ++ held (mk_th p d)) -> completes n ds w -> covered (c_lb c') (content (c_fringe c') ++ held (mk_th p' d')) w).
Proof.
  intros Ha Hint Hi Hg (Hct & Hgen & Hpc) HU.
  destruct Ha as [c' e1 e2 -> | e1 | c' e1 e2 e3 e4 e5 e6 e7 e8 e9 | e1 e2 e3 | p f' c' -> e1 e2 e3 e4 e5 e6 | p c' e1 e2 e3 e4 e5 e6 e7 e8 e9 e10
    | n e1 | n d' e1 e2 e3 | n c' k e1 e2 e3 | n c' k e1 | n k d' k' e1 e2 | n k c' e1 e2 e3 | n k L d' f' e1 e2 e3 e4 e5 e6 e7];
  unfold upd_of, set_fringe in *; cbn [c_fringe c_lb c_interrupted t_pc t_dd ParFacts.held] in *; rewrite ?app_nil_r in *; try congruence.
  - split; [lia|]. split; [exact HU|]. intros. eapply covered_in; eauto.
  - split; [lia|]. split; [exact HU|]. intros. eapply covered_in; eauto.
  - split; [lia|]. rewrite e6. split; [constructor|]. intros n ds w Hn Hc. left. apply (proj1 (Forall_forall _ _) HU n Hn) in Hc. specialize (e3 n Hn). lia.
  - split; [lia|]. rewrite e5. split.
    + assert (HU' := Permutation_Forall e2 HU). inversion HU'; subst. apply Forall_app. split; auto.
    + intros n ds w Hn Hc. eapply covered_in; [|exact Hc]. apply (Permutation_in n e2) in Hn. destruct Hn as [<-|Hn]; apply in_app_iff; cbn; auto.
  - apply Forall_app in HU as (U1 & U2). inversion U2 as [|? ? U3 _]; subst. split; [lia|]. split; [exact U1|]. intros m ds w Hm Hc. apply in_app_iff in Hm as [Hm|[<-|[]]]; [eapply covered_in; eauto|].
    left. destruct (U3 ds w Hc); lia.
  - split; [lia|]. split; [exact HU|]. intros. eapply covered_in; eauto.
  - destruct e2 as (u1 & u2 & u3 & u4 & u5 & u6 & u7). rewrite u3. apply Forall_app in HU as (U1 & U2). inversion U2 as [|? ? U3 _]; subst. inversion Hgen as [|? ? Hg0 _]; subst. split; [lia|]. split.
    + eapply Forall_impl; [intros q; apply ub_ok_mono; exact u2|exact U1].
    + intros m ds w Hm Hc. apply in_app_iff in Hm as [Hm|[<-|[]]]; [eapply covered_in; eauto|]. left. eapply CLOSES; eauto.
  - destruct e1 as (u1 & u2 & u3 & u4 & u5 & u6 & u7). rewrite u3. split; [lia|]. split.
    + eapply Forall_impl; [intros q; apply ub_ok_mono; exact u2|exact HU].
    + intros. eapply covered_in; eauto.
  - split; [lia|]. split; [exact HU|]. intros. eapply covered_in; eauto.
  - destruct e2 as (u1 & u2 & u3 & u4 & u5 & u6 & u7). rewrite u3. apply Forall_app in HU as (U1 & U2). inversion U2 as [|? ? U3 _]; subst. inversion Hgen as [|? ? Hg0 _]; subst. split; [lia|]. split.
    + eapply Forall_impl; [intros q; apply ub_ok_mono; exact u2|exact U1].
    + intros m ds w Hm Hc. apply in_app_iff in Hm as [Hm|[<-|[]]]; [eapply covered_in; eauto|]. left. eapply CLOSES; eauto.
  - apply Forall_app in HU as (U1 & U2). inversion U2 as [|? ? U3 _]; subst. inversion Hgen as [|? ? Hg0 _]; subst.
    destruct (enqueue_keeps (c_lb c) (sp_ub n) L _ _ Hi Hg e4 e5) as (K1 & K2 & K3).
    destruct (COVERS (c_lb c) n d L d' Hg0 Hpc e1 e2 U3) as (V1 & V2).
    split; [lia|]. split; [apply K1; auto|]. intros m ds w Hm Hc. apply in_app_iff in Hm as [Hm|[<-|[]]]; [eapply K2; eauto|].
    destruct (Z_le_gt_dec w (c_lb c)) as [H|H]; [left; exact H|]. destruct (V2 ds w Hc) as (q & ds' & w' & q1 & q2 & q3 & q4 & q5); [lia|].
    destruct (K3 q ds' w' q1 q2 q4 q5) as [Hx|(x & dsx & wx & x1 & x2 & x3)]; [left; lia|]. right. exists x, dsx, wx. split; [auto|]. split; [auto|lia].
Qed.

Lemma flat_held_wake l : flat_map held (map wake l) = flat_map held l.
Proof. induction l as [|t l IH]; [reflexivity|]. cbn. rewrite IH. destruct t as [[]]; reflexivity. Qed.

Lemma pending_split st l1 t l2 : s_threads st = l1 ++ t :: l2 ->
  Permutation (pending st) ((content (c_fringe (s_crit st)) ++ held t) ++ flat_map held (l1 ++ l2)).
Proof.
  intros E. unfold pending. rewrite E, <- app_assoc. apply Permutation_app_head. rewrite !flat_map_app. cbn [flat_map].
  rewrite !app_assoc. apply Permutation_app_tail. apply Permutation_app_comm.
Qed.

Lemma move_inv2 st st' : inv1 st -> (c_interrupted (s_crit st) = false -> inv2 st) -> move st st' -> c_interrupted (s_crit st') = false -> inv2 st'.
Proof.
  intros HI HJ HM Hint. destruct HM as [l1 l2 p p' d d' c' E Ha | l1 l2 k d c' E h1 h2 h3 h4 h5 h6 h7]; cbn [s_crit] in *.
  - assert (Hint0 : c_interrupted (s_crit st) = false).
    { inversion Ha; subst; unfold upd_of in *; cbn [c_interrupted] in *; try congruence; intuition congruence. }
    destruct (HJ Hint0) as [j1 j2 j3]. clear HJ.
    assert (Hth := i_th _ _ _ _ _ _ _ HI). rewrite E in Hth. apply Forall_app in Hth as (t1 & t2). inversion t2 as [|? ? t3 t4]; subst.
    assert (Hp := pending_split st l1 _ l2 E). assert (j1' := Permutation_Forall Hp j1). apply Forall_app in j1' as (j1a & j1b).
    destruct (act_keeps _ _ _ _ _ _ Ha Hint (i_fr _ _ _ _ _ _ _ HI) (i_gen _ _ _ _ _ _ _ HI) t3 j1a) as (K1 & K2 & K3).
    assert (Hp' := pending_split (mk_st c' (l1 ++ mk_th p' d' :: l2)) l1 _ l2 eq_refl). cbn [s_crit] in Hp'. constructor; cbn [s_crit s_threads].
    + eapply Permutation_Forall; [symmetry; exact Hp'|]. apply Forall_app. split; [exact K2|]. eapply Forall_impl; [intros q; apply ub_ok_mono; exact K1|exact j1b].
    + intros ds x Hx. specialize (j2 ds x Hx). apply (covered_incl _ ((content (c_fringe c') ++ held (mk_th p' d')) ++ flat_map held (l1 ++ l2))); [intros q; apply Permutation_in; symmetry; exact Hp'|].
      eapply covered_mono; [exact K1| |exact j2]. intros n ds' w Hn Hc. apply (Permutation_in n Hp) in Hn. apply in_app_iff in Hn as [Hn|Hn].
      * eapply covered_incl; [|eapply K3; eauto]. apply incl_appl, incl_refl.
      * eapply covered_in; [|exact Hc]. apply in_app_iff. auto.
    + assert (Hold : forall t, In t (l1 ++ mk_th p' d' :: l2) -> t_pc t = PDone -> (exists t0, In t0 (s_threads st) /\ t_pc t0 = PDone) \/ p' = PDone).
      { intros t Ht Hd. apply in_app_iff in Ht as [Ht|[<-|Ht]]; [left; exists t; split; auto; rewrite E; apply in_app_iff; auto|right; exact Hd|left; exists t; split; auto; rewrite E; apply in_app_iff; cbn; auto]. }
      assert (Hon := i_on _ _ _ _ _ _ _ HI). rewrite E, nworking_app in Hon.
      intros t Ht Hd. destruct (Hold t Ht Hd) as [(t0 & Ht0 & Hd0)|Hpd]; [|subst p'].
      * destruct (j3 t0 Ht0 Hd0) as (e1 & e2 & e3). rewrite e2 in Hon.
        inversion Ha; subst; unfold working in Hon; cbn [t_pc c_fringe c_ongoing c_ub c_lb] in *; try lia; auto; try congruence; exfalso;
        match goal with
        | H : In ?x (content (c_fringe (s_crit st))) |- _ => rewrite e1 in H; destruct H
        | H : Permutation (content (c_fringe (s_crit st))) _ |- _ => rewrite e1 in H; apply Permutation_nil in H; discriminate
        end.
      * inversion Ha; subst; cbn [c_fringe c_ongoing c_ub c_lb] in *; try congruence. auto.
  - rewrite h7 in Hint. destruct (HJ Hint) as [j1 j2 j3]. assert (Hpe : pending (mk_st c' (map wake (l1 ++ mk_th PIdle d :: l2))) = pending st).
    { unfold pending. cbn [s_crit s_threads]. rewrite flat_held_wake, h3, E, !flat_map_app. reflexivity. }
    constructor; rewrite ?Hpe; cbn [s_crit s_threads]; rewrite ?h4; auto.
    intros t Ht Hd. exfalso. apply in_map_iff in Ht as ([q e] & <- & Ht). destruct q; cbn in Hd; try discriminate.
    assert (Hin : In (mk_th PDone e) (s_threads st)).
    { rewrite E. apply in_app_iff in Ht as [Ht|[Ht|Ht]]; [apply in_app_iff; auto|discriminate|apply in_app_iff; cbn; auto]. }
    destruct (j3 _ Hin eq_refl) as (_ & Hz & _). lia.
Qed.

Lemma spurious_inv2 st st' : inv2 st -> spurious S cfg st st' -> inv2 st'.
Proof.
  intros [j1 j2 j3] (i & d & Hn & ->). destruct (put_split i (mk_th PIdle d) _ _ Hn) as (l1 & l2 & h1 & h2 & _).
  assert (Hpe : pending (mk_st (s_crit st) (put i (mk_th PIdle d) (s_threads st))) = pending st).
  { unfold pending. cbn [s_crit s_threads]. rewrite h2, h1, !flat_map_app. reflexivity. }
  constructor; rewrite ?Hpe; cbn [s_crit s_threads]; auto. rewrite h2. intros t Ht Hd. apply (j3 t); auto. rewrite h1.
  apply in_app_iff in Ht as [Ht|[<-|Ht]]; [apply in_app_iff; auto|discriminate|apply in_app_iff; cbn; auto].
Qed.

Lemma initial_inv2 n m st : initial cfg n m = Some st -> inv2 st.
Proof.
  intros E. destruct (initial_ok S eqb cfg at_depth nv C merging inv content G n m) as (st0 & E' & e1 & e2 & e3 & e4 & e5 & e6 & e7 & e8 & e9). rewrite E in E'. injection E' as <-.
  assert (Hpe : Permutation (pending st) [root_node cfg]).
  { unfold pending. rewrite e9, e2. assert (flat_map held (repeat (mk_th PIdle (dd_new (cf_ctype cfg))) m) = []) as -> by (clear; induction m; [reflexivity|exact IHm]). reflexivity. }
  assert (Hrs : forall ds w, completes (root_node cfg) ds w <-> solution ds w) by (intros; reflexivity).
  constructor.
  - eapply Permutation_Forall; [symmetry; exact Hpe|]. constructor; [|constructor]. intros ds w Hc. right. apply Hrs in Hc. apply solution_gt in Hc. cbn. lia.
  - intros ds x Hx. eapply covered_in; [eapply Permutation_in; [symmetry; exact Hpe|left; auto]|]. apply Hrs. exact Hx.
  - intros t Ht Hd. rewrite e9 in Ht. apply repeat_spec in Ht. subst t. discriminate.
Qed.

Lemma reachable_inv2 n m st : (m <= n)%nat -> reachable S eqb cfg n m st -> inv1 st /\ (c_interrupted (s_crit st) = false -> inv2 st).
Proof.
  intros Hm (st0 & E & H). assert (H0 := initial_inv1 S eqb cfg at_depth nv C merging inv content G n m st0 Hm E).
  induction H as [st0|st0 st1 st2 _ IH H]; [split; [exact H0|intros _; eapply initial_inv2; eauto]|].
  destruct (IH E H0) as (I1 & J1). destruct H as [H|H].
  - assert (HM := step_move S eqb cfg at_depth nv C merging inv content G _ _ I1 H). split; [eapply move_inv1; eauto|]. eapply move_inv2; eauto.
  - destruct (spurious_inv1 S eqb cfg nv inv content _ _ I1 H) as (I2 & Hc). split; [exact I2|]. intros Hint. rewrite Hc in Hint. eapply spurious_inv2; eauto.
Qed.

(** * Proved runs *)
Lemma proved_best n m st : (1 <= m <= n)%nat -> reachable S eqb cfg n m st -> proved cfg st ->
  (forall ds x, solution ds x -> x <= c_lb (s_crit st)) /\ c_ub (s_crit st) = c_lb (s_crit st) /\ sol_ok S cfg nv (s_crit st).
Proof.
  intros Hm Hr (Hd & Hint). destruct (reachable_inv2 n m st) as (I1 & J1); auto; [lia|]. destruct (J1 Hint) as [j1 j2 j3].
  assert (Hlen : length (s_threads st) = m).
  { destruct Hr as (st0 & E & Hr). destruct (initial_ok S eqb cfg at_depth nv C merging inv content G n m) as (st0' & E' & _ & _ & _ & _ & _ & _ & _ & _ & e9). rewrite E in E'. injection E' as <-.
    assert (H0 := initial_inv1 S eqb cfg at_depth nv C merging inv content G n m st0 (proj2 Hm) E). clear I1 J1 j1 j2 j3 Hint Hd.
    assert (inv1 st /\ length (s_threads st) = m) as [_ H]; [|exact H].
    induction Hr as [st0|st0 st1 st2 Hr IH H]; [split; [auto|rewrite e9, repeat_length; reflexivity]|]. destruct (IH E e9 H0) as (I1 & L1). destruct H as [H|H].
    - assert (HM := step_move S eqb cfg at_depth nv C merging inv content G _ _ I1 H). split; [eapply move_inv1; eauto|]. rewrite <- L1.
      destruct HM as [l1 l2 p p' d d' c' E2 _ | l1 l2 k d c' E2 _ _ _ _ _ _ _]; rewrite E2; cbn [s_threads]; rewrite ?map_length, !app_length; reflexivity.
    - split; [eapply spurious_inv1; eauto|]. destruct H as (i & d & Hn & ->). cbn [s_threads].
      destruct (put_split i (mk_th PIdle d) _ _ Hn) as (l1 & l2 & h1 & h2 & _). rewrite h2. rewrite h1, app_length in L1. rewrite app_length. exact L1. }
  destruct (s_threads st) as [|t l] eqn:Et; [cbn in Hlen; lia|]. destruct (j3 t) as (k1 & k2 & k3); [left; auto|apply Hd; rewrite Et; left; auto|].
  assert (Hpe : pending st = []).
  { unfold pending. rewrite k1, Et. cbn [app]. assert (Hall : forall t0, In t0 (t :: l) -> held t0 = []) by (intros t0 Ht0; unfold ParFacts.held; rewrite (Hd t0); [reflexivity|rewrite Et; exact Ht0]).
    clear -Hall. induction (t :: l) as [|a r IH]; [reflexivity|]. cbn. rewrite (Hall a), IH; auto; [intros; apply Hall; right; auto|left; auto]. }
  split; [|split; [exact k3|apply (i_sol _ _ _ _ _ _ _ I1)]].
  intros ds x Hx. destruct (j2 ds x Hx) as [H|(q & _ & _ & Hq & _)]; [exact H|]. rewrite Hpe in Hq. destruct Hq.
Qed.

(** * Interrupted runs of a single thread *)
Definition inv3 (st : state) : Prop := length (s_threads st) = 1%nat /\
  (c_interrupted (s_crit st) = true -> all_done cfg st /\ forall ds x, solution ds x -> x <= c_lb (s_crit st) \/ x <= c_ub (s_crit st)).

Lemma move_inv3 st st' : inv1 st -> (c_interrupted (s_crit st) = false -> inv2 st) -> move st st' -> inv3 st -> inv3 st'.
Proof.
  intros HI HJ HM (Hl & Hi). split.
  { destruct HM as [l1 l2 p p' d d' c' E2 _ | l1 l2 k d c' E2 _ _ _ _ _ _ _]; rewrite E2 in Hl; cbn [s_threads]; rewrite ?map_length, app_length in *; exact Hl. }
  destruct (c_interrupted (s_crit st)) eqn:Ei.
  - exfalso. destruct (Hi eq_refl) as (Hd & _).
    destruct HM as [l1 l2 p p' d d' c' E2 Ha | l1 l2 k d c' E2 _ _ _ _ _ _ _].
    + assert (H := Hd (mk_th p d)). rewrite E2 in H. assert (Hp : p = PDone) by (apply H; apply in_app_iff; right; left; reflexivity). subst p. inversion Ha.
    + assert (H := Hd (mk_th (PNotify k) d)). rewrite E2 in H. assert (Hp : PNotify k = PDone) by (apply H; apply in_app_iff; right; left; reflexivity). discriminate.
  - intros Hint. destruct (HJ eq_refl) as [j1 j2 j3]. destruct HM as [l1 l2 p p' d d' c' E2 Ha | l1 l2 k d c' E2 h1 h2 h3 h4 h5 h6 h7]; cbn [s_crit] in *; [|congruence].
    rewrite E2 in Hl. rewrite app_length in Hl. cbn in Hl. destruct l1 as [|? ?], l2 as [|? ?]; cbn in Hl; try lia. cbn [app] in *.
    assert (Hon := i_on _ _ _ _ _ _ _ HI). rewrite E2 in Hon.
    inversion Ha; subst; unfold upd_of, set_fringe in *; cbn [c_interrupted] in *; try congruence; try (intuition congruence).
    match goal with H : c_ongoing (s_crit st) = 0%nat -> _ |- _ => destruct H as (p & Hp1 & Hp2 & Hp3); [rewrite Hon; reflexivity|] end.
    split; [intros t [<-|[]]; reflexivity|]. intros ds x Hx. unfold pending in *. rewrite E2 in *. cbn [flat_map ParFacts.held t_pc app] in *. rewrite app_nil_r in *.
    destruct (j2 ds x Hx) as [Hy|(n & ds' & w & Hn & Hc & Hw)]; [left; lia|].
    destruct (proj1 (Forall_forall _ _) j1 n Hn ds' w Hc) as [Hy|Hy]; [left; lia|]. right. specialize (Hp3 n Hn). lia.
Qed.

Lemma interrupted_bound n st : (1 <= n)%nat -> reachable S eqb cfg n 1 st -> interrupted cfg st ->
  forall ds x, solution ds x -> x <= c_lb (s_crit st) \/ x <= c_ub (s_crit st).
Proof.
  intros Hn Hr (_ & Hint). assert (inv3 st) as (_ & H); [|apply H; exact Hint].
  destruct Hr as (st0 & E & Hr). clear Hint.
  assert (Hr0 : reachable S eqb cfg n 1 st0) by (exists st0; split; [auto|constructor]).
  assert (H0 : inv3 st0).
  { destruct (initial_ok S eqb cfg at_depth nv C merging inv content G n 1) as (st0' & E' & e1 & e2 & e3 & e4 & e5 & e6 & e7 & e8 & e9). rewrite E in E'. injection E' as <-.
    split; [rewrite e9; reflexivity|congruence]. }
  induction Hr as [st0|st0 st1 st2 Hr IH H]; [exact H0|]. assert (I1 := IH E Hr0 H0). assert (Hr1 : reachable S eqb cfg n 1 st1) by (exists st0; auto).
  destruct (reachable_inv2 n 1 st1 Hn Hr1) as (A1 & A2). destruct H as [H|H].
  - eapply move_inv3; eauto. eapply step_move; eauto.
  - exfalso. destruct H as (i & d & Hnth & _). destruct I1 as (Hl & _). assert (Hw := i_wait _ _ _ _ _ _ _ A1 (mk_th PWait d) (nth_error_In _ _ Hnth) eq_refl).
    rewrite (i_on _ _ _ _ _ _ _ A1) in Hw. destruct (s_threads st1) as [|t [|? ?]]; cbn in Hl; try lia. destruct i as [|[|?]]; cbn in Hnth; try discriminate. injection Hnth as ->. cbn in Hw. lia.
Qed.
End Opt.
