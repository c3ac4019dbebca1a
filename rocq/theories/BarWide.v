(** The solver with thresholds, with any number of threads and any cutset type, when no layer exceeds the maximum width: only
    the root is ever processed, and nobody touches the thresholds meanwhile. *)
From Verif Require Import Spec Dd DdSpec WideSpec MddAll MddAllProofs FringeSpec ParSpec ParFacts ParTerm ParOpt MddBarrier BarWp MddBarrierProofs MddBarrierWide BarSpec BarFacts BarSeq.
From Coq Require Import ZifyNat.
Open Scope Z_scope.

Section Wide.
Variable S : Type.
Variable eqb : S -> S -> bool.
Variable cfg : config S.
Variable at_depth : nat -> S -> Prop.
Variable nv : nat -> nat.
Variable C : Z.
Variable merging : Prop.
Variable inv : fr_t (cf_fr cfg) -> Prop.
Variable content : fr_t (cf_fr cfg) -> list (subproblem S).
Notation P := (cf_pb cfg).
Notation R := (cf_rx cfg).
Notation N := (pb_nb_vars P).
Notation L := (Datatypes.S N).
Notation sub := (subproblem S).
Notation genuine := (genuine S P nv).
Notation thread := (bthread S).
Notation state := (bstate S cfg).
Notation crit := (bcritical S cfg).
Notation root := (ParSolver.root_node cfg).
Notation KF k := (c_fringe (k_c k)).
Notation LB k := (c_lb (k_c k)).
Notation winv := (winv S eqb cfg at_depth nv C inv content).
Notation inv1 := (winv True).
Notation move := (move S eqb cfg nv inv content).
Notation act := (act S eqb cfg nv inv content).
Notation solution := (solution S P nv).
Notation results := (results S eqb P R at_depth nv C).
Notation lookup := (lookup S eqb).
Notation thresholds := (thresholds S).
Notation trying := (trying S).
Notation running := (running S).
Notation held := (BarFacts.held S).
Hypothesis G : good_config S eqb cfg at_depth nv C merging inv content.
Hypothesis ADM : admissible_reached S P nv.
Hypothesis WIDE : no_layer_exceeds S P nv (cf_width cfg (pb_init P)).
Let WF := gs_formed _ _ _ _ _ _ _ _ _ G.

Definition alone (n : sub) (lb : Z) (p : prog S (dd S)) (T : thresholds) : Prop :=
  exists lb0, lb0 <= lb /\ wp S eqb true L (fun _ _ _ => False) p T (results true (call cfg Restricted n lb0) (cf_ctype cfg) T).

Lemma alone_starts n lb d orc T : library_ok S orc -> genuine n -> g_ctype d = cf_ctype cfg -> length T = L ->
  alone n lb (compile eqb false orc (call cfg Restricted n lb) d) T.
Proof.
  intros Ho Hn Hct HT. exists lb. split; [lia|]. rewrite <- Hct.
  apply (bar_total S eqb P R at_depth nv C true _ false orc (call cfg Restricted n lb) d T WF (good_call_of S eqb cfg at_depth nv C merging inv content G orc Restricted n lb Ho Hn) HT).
  cbn. discriminate.
Qed.
Lemma alone_access n lb p T p' T' : alone n lb p T -> length T = L -> access eqb p T = Some (p', T') -> alone n lb p' T /\ T' = T.
Proof.
  intros (lb0 & h1 & h2) HT E. assert (Hacc := wp_access S eqb true L _ p T T _ h2 HT ltac:(auto)).
  assert (HW := wp_write S eqb true L _ _ _ _ _ _ _ _ h2 E). destruct HW as [->|(d & s & i & l & [] & _)]. split; [|reflexivity].
  exists lb0. split; [exact h1|].
  assert (Hx : exists p1 T1, access eqb p T = Some (p1, T1) /\ wp S eqb true L (fun _ _ _ => False) p1 T1 (results true (call cfg Restricted n lb0) (cf_ctype cfg) T) /\ length T1 = L) by (destruct p; [discriminate E|exact Hacc..]).
  destruct Hx as (p1 & T1 & E1 & g1 & g2). rewrite E in E1. injection E1 as <- <-. exact g1.
Qed.

Lemma root_gen : genuine root.
Proof. exact (root_genuine S cfg nv). Qed.

Lemma alone_best lb d T lb' : alone root lb (Ret d) T -> (forall k s, (0 < k)%nat -> lookup T k s = None) -> lb <= lb' ->
  g_exact d = true /\ ((forall v, best_value d = Some (Some v) -> v <= lb') -> forall ds x, solution ds x -> x <= lb').
Proof.
  intros (lb0 & h1 & h2) HT Hl. cbn [wp] in h2. split; [exact (bar_wide_exact S eqb P R at_depth nv C true (call cfg Restricted root lb0) _ _ _ _ WF root_gen WIDE h2)|].
  intros Hb ds x (c & Hc & Hv). destruct (Z_le_gt_dec x lb0) as [H|H]; [lia|].
  destruct (bar_wide_best S eqb P R at_depth nv C (call cfg Restricted root lb0) _ _ _ _ ds x WF ADM root_gen WIDE h2 HT) as (b & e1 & e2); [exists c; split; [exact Hc|cbn; lia]|cbn; lia|].
  specialize (Hb b e1). lia.
Qed.

(** * The three stages *)
Definition solved (k : crit) : Prop := forall ds x, solution ds x -> x <= LB k.
Definition stage1 (k : crit) (T : thresholds) (th : list thread) : Prop :=
  content (KF k) ++ flat_map trying th = [root] /\ flat_map running th = [] /\ Forall (fun t => u_pc t <> BDone) th /\ forall j s, lookup T j s = None.
Definition second (k : crit) (T : thresholds) (t : thread) : Prop :=
  match u_pc t with
  | BIdle | BWait | BClean => True
  | BStart n => n = root
  | BRestrict n p => n = root /\ alone n (LB k) p T
  | _ => False
  end.
Definition stage2 (k : crit) (T : thresholds) (th : list thread) : Prop :=
  content (KF k) = [] /\ flat_map running th = [0%nat] /\ Forall (second k T) th /\ forall j s, (0 < j)%nat -> lookup T j s = None.
Definition stage3 (k : crit) (th : list thread) : Prop :=
  content (KF k) = [] /\ flat_map held th = [] /\ solved k /\ forall t, In t th -> u_pc t = BDone -> c_ub (k_c k) = LB k.
Definition stages (k : crit) (T : thresholds) (th : list thread) : Prop := stage1 k T th \/ stage2 k T th \/ stage3 k th.

Lemma mid_map {A} (f : thread -> list A) l1 t l2 : flat_map f (l1 ++ t :: l2) = flat_map f l1 ++ f t ++ flat_map f l2.
Proof. rewrite flat_map_app. reflexivity. Qed.
Lemma mid_forall (Q : thread -> Prop) l1 t l2 : Forall Q (l1 ++ t :: l2) <-> Forall Q l1 /\ Q t /\ Forall Q l2.
Proof. rewrite Forall_app, Forall_cons_iff. tauto. Qed.
Lemma upd_lookup T i T' j s : upd T i [] = Some T' -> lookup T j s = None -> lookup T' j s = None.
Proof. intros E H. unfold BarWp.lookup in *. rewrite (upd_nth _ _ _ _ j E). destruct (Nat.eqb j i); [reflexivity|exact H]. Qed.

Lemma top_solved k : IMAX <= LB k -> solved k.
Proof. intros H ds x Hx. assert (Hb := solution_gt S eqb cfg at_depth nv C merging inv content G ds x Hx). lia. Qed.

(** Nobody tries a subproblem while another thread holds the lock. *)
Lemma lock_trying (l1 l2 : list thread) t : (total S (holding S) (l1 ++ t :: l2) <= 1)%nat -> holds t = true -> flat_map trying l1 = [] /\ flat_map trying l2 = [].
Proof.
  assert (Hz : forall l, total S (holding S) l = 0%nat -> flat_map trying l = []).
  { induction l as [|u l IH]; [reflexivity|]. intros H. change (holding S u + total S (holding S) l = 0)%nat in H. cbn [flat_map]. rewrite IH by lia.
    unfold holding in H. unfold BarFacts.trying. destruct u as [[] ?]; cbn in *; try reflexivity; lia. }
  intros H Ht. rewrite total_app in H. unfold holding at 2 in H. rewrite Ht in H. split; apply Hz; lia.
Qed.

Lemma act_stage1 l1 l2 k T d p k' T' p' d' : act k T d p k' T' p' d' -> c_interrupted (k_c k') = false ->
  (total S (holding S) (l1 ++ mk_bth p d :: l2) <= 1)%nat ->
  stage1 k T (l1 ++ mk_bth p d :: l2) -> stages k' T' (l1 ++ mk_bth p' d' :: l2).
Proof.
  intros Ha Hint Hlock (h1 & h2 & h3 & h4). rewrite mid_map in h1. rewrite mid_map in h2. apply mid_forall in h3 as (h3a & h3b & h3c).
  apply app_eq_nil in h2 as (r1 & r2). apply app_eq_nil in r2 as (r2 & r3).
  assert (Hlk := lock_trying l1 l2 (mk_bth p d) Hlock).
  unfold stages, stage1, stage2, stage3. rewrite !mid_map, !mid_forall.
  destruct Ha as [ | T1 e1 e2 e3 e4 | e1 e2 | e1 | c' e1 e2 e3 e4 e5 e6 e7 e8 e9 | e1 e2 e3 | q f' e1 e2 e3 e4
    | n f' o e1 e2 e3 e4 | n e1 e2 | n o e1 e2 e3 e4 e5 | n o q f' e1 e2 e3 e4 e5 e6 e7 | n l0 T1 c' o0 g0 e1 e2 e3 e4 e5 e6 e7 e8 e9 e10 e11 e12 e13
    | n e1 | n orc e1 e2 | n p p1 T1 e1 | n d1 c' x e1 e2 e3 | n d1 c' x e1 e2 | n x orc e1 | n x p p1 T1 e1 | n x y d1 c' e1 e2 e3
    | n x y d1 LL d2 f' o e1 e2 e3 e4 e5 e6 e7 e8 e9 e10 e11];
  try discriminate r2;
  unfold set_fringe, with_c, with_ubound in *; cbn [k_c c_fringe c_lb c_interrupted u_pc BarFacts.trying BarFacts.running BarFacts.held app holds] in *; try (exfalso; congruence).
  - (* enter *) left. repeat split; auto; try discriminate. rewrite r1, r3. reflexivity.
  - (* sweep *) left. rewrite r1, r3. repeat split; auto; try discriminate. intros j s. eapply upd_lookup; eauto.
  - (* complete *) exfalso. destruct (Hlk eq_refl) as (k1 & k2). rewrite k1, k2, e2 in h1. discriminate.
  - (* park *) left. rewrite r1, r3. repeat split; auto; discriminate.
  - (* pop *) destruct (Hlk eq_refl) as (k1 & k2). rewrite k1, k2 in *. cbn [app] in h1. rewrite app_nil_r in h1. rewrite h1 in e2.
    apply Permutation_length_1_inv in e2. injection e2 as -> e2. left. rewrite e2, r1, r3. repeat split; auto; discriminate.
  - (* starve *) destruct (Hlk eq_refl) as (k1 & k2). rewrite k1, k2 in *. cbn [app] in h1.
    assert (Hx : content (KF k) = [] /\ n = root). { destruct (content (KF k)) as [|a [|b l]]; cbn in h1; [injection h1 as ->; auto|discriminate|discriminate]. }
    destruct Hx as (_ & ->). right. right. split; [exact e3|]. split.
    { assert (Hh : forall l, flat_map trying l = [] -> flat_map running l = [] -> flat_map held l = []).
      { induction l as [|u l IH]; [reflexivity|]. cbn [flat_map]. intros a1 a2. apply app_eq_nil in a1 as (a1 & a1'). apply app_eq_nil in a2 as (a2 & a2'). rewrite IH by auto.
        destruct u as [[] ?]; cbn in *; try discriminate; reflexivity. }
      rewrite (Hh l1), (Hh l2); auto. }
    split; [apply top_solved; exact e1|]. intros t Ht Hp. exfalso. apply in_app_iff in Ht as [Ht|[<-|Ht]]; [|discriminate|]; [apply (proj1 (Forall_forall _ _) h3a t Ht Hp)|apply (proj1 (Forall_forall _ _) h3c t Ht Hp)].
  - (* insert *) left. rewrite r1, r3. repeat split; auto; discriminate.
  - (* skip *) exfalso. destruct e2 as (i & Hi & _). rewrite h4 in Hi. discriminate.
  - (* next *) exfalso. destruct e2 as (i & Hi & _). rewrite h4 in Hi. discriminate.
  - (* take *) destruct (Hlk eq_refl) as (k1 & k2). rewrite k1, k2 in *. cbn [app] in h1.
    assert (Hx : content (KF k) = [] /\ n = root). { destruct (content (KF k)) as [|a [|b l]]; cbn in h1; [injection h1 as ->; auto|discriminate|discriminate]. }
    destruct Hx as (Hc & ->). right. left. rewrite e7. split; [exact Hc|]. rewrite r1, r3. split; [reflexivity|]. split.
    + assert (Hh : forall l, flat_map trying l = [] -> flat_map running l = [] -> Forall (fun t => u_pc t <> BDone) l -> Forall (second (mk_bc c' o0 g0 (k_lowest k)) T1) l).
      { induction l as [|u l IH]; [constructor|]. cbn [flat_map]. intros a1 a2 a3. apply app_eq_nil in a1 as (a1 & a1'). apply app_eq_nil in a2 as (a2 & a2'). inversion a3; subst.
        constructor; [|apply IH; auto]. destruct u as [[] ?]; cbn in *; try discriminate; unfold second; cbn; auto; congruence. }
      split; [apply Hh; auto|]. split; [reflexivity|apply Hh; auto].
    + intros j s Hj. rewrite (lookup_put S eqb (wfd_eqb _ _ _ _ _ _ _ WF) T T1 _ _ _ _ j s e1 e2). cbn. destruct j; [lia|]. cbn. apply h4.
Qed.

Lemma second_lb k T t k' : LB k = LB k' -> second k T t -> second k' T t.
Proof. intros H. unfold second. rewrite H. auto. Qed.

Lemma act_stage2 l1 l2 k T d p k' T' p' d' : act k T d p k' T' p' d' -> c_interrupted (k_c k') = false ->
  length T = L -> g_ctype d = cf_ctype cfg -> c_ongoing (k_c k) = total S (working S) (l1 ++ mk_bth p d :: l2) ->
  (forall j, get (k_ongoing k) j = occ j (flat_map running (l1 ++ mk_bth p d :: l2))) ->
  (forall j, (j < k_lowest k)%nat -> occ j (flat_map running (l1 ++ mk_bth p d :: l2)) = 0%nat) ->
  stage2 k T (l1 ++ mk_bth p d :: l2) -> stages k' T' (l1 ++ mk_bth p' d' :: l2).
Proof.
  intros Ha Hint HT Hct Hon Hocc Hlow (h1 & h2 & h3 & h4). assert (h3' := h3). rewrite mid_map in h2. apply mid_forall in h3 as (h3a & h3b & h3c).
  assert (Hdone : forall t, In t (l1 ++ mk_bth p d :: l2) -> u_pc t <> BDone).
  { intros t Ht Hp. assert (H := proj1 (Forall_forall _ _) h3' t Ht). unfold second in H. rewrite Hp in H. exact H. }
  assert (Hother : forall l, flat_map running l = [] -> Forall (second k T) l -> flat_map held l = []).
  { induction l as [|u l IH]; [reflexivity|]. cbn [flat_map]. intros a1 a2. apply app_eq_nil in a1 as (a1 & a1'). inversion a2 as [|? ? b1 b2]; subst. rewrite IH by auto.
    destruct u as [[] ?]; cbn in *; try discriminate; try reflexivity; destruct b1. }
  assert (Hmine : forall x, running (mk_bth p d) = [x] -> x = 0%nat /\ flat_map running l1 = [] /\ flat_map running l2 = []).
  { intros x Hx. rewrite Hx in h2. destruct (flat_map running l1) as [|a [|b l]]; cbn in h2; [injection h2 as -> ->; auto| |]; injection h2 as _ h2; discriminate. }
  assert (Hend : forall kk dd x, content (KF kk) = [] -> solved kk -> running (mk_bth p d) = [0%nat] -> stages kk T (l1 ++ mk_bth (BNotify 0 x) dd :: l2)).
  { intros kk dd x c1 c2 Hr. destruct (Hmine _ Hr) as (_ & m1 & m2). right. right. split; [exact c1|]. rewrite mid_map. cbn [BarFacts.held u_pc app]. rewrite (Hother l1), (Hother l2) by auto.
    split; [reflexivity|]. split; [exact c2|]. intros t Ht Hp. exfalso. apply in_app_iff in Ht as [Ht|[<-|Ht]]; [|discriminate|]; apply (Hdone t); auto; apply in_app_iff; [left|right; right]; exact Ht. }
  destruct Ha as [ | T1 e1 e2 e3 e4 | e1 e2 | e1 | c' e1 e2 e3 e4 e5 e6 e7 e8 e9 | e1 e2 e3 | q f' e1 e2 e3 e4
    | n f' o e1 e2 e3 e4 | n e1 e2 | n o e1 e2 e3 e4 e5 | n o q f' e1 e2 e3 e4 e5 e6 e7 | n l0 T1 c' o0 g0 e1 e2 e3 e4 e5 e6 e7 e8 e9 e10 e11 e12 e13
    | n e1 | n orc e1 e2 | n p p1 T1 e1 | n d1 c' x e1 e2 e3 | n d1 c' x e1 e2 | n x orc e1 | n x p p1 T1 e1 | n x y d1 c' e1 e2 e3
    | n x y d1 LL d2 f' o e1 e2 e3 e4 e5 e6 e7 e8 e9 e10 e11];
  try exact (False_ind _ h3b);
  unfold set_fringe, with_c, with_ubound in *; cbn [k_c c_fringe c_lb c_interrupted u_pc] in *; try (exfalso; congruence);
  try (right; left; unfold stage2; rewrite mid_map, mid_forall; cbn [k_c c_fringe]; split; [assumption|]; split; [exact h2|]; split; [|assumption]; split; [assumption|]; split; [exact I|assumption]).
  - (* sweep *) exfalso. rewrite Hocc, mid_map, h2 in e3. assert (k_lowest k = 0%nat) as E0.
    { destruct (k_lowest k) eqn:El; [reflexivity|]. specialize (Hlow 0%nat ltac:(lia)). rewrite mid_map, h2 in Hlow. discriminate. }
    rewrite E0 in e3. discriminate.
  - (* complete *) exfalso. rewrite Hon in e1. enough (total S (working S) (l1 ++ mk_bth BClean d :: l2) = 1%nat) by lia.
    assert (Hlen : forall l, total S (working S) l = length (flat_map running l)) by (induction l as [|u l IH]; [reflexivity|]; cbn [flat_map]; rewrite app_length, <- IH; reflexivity).
    rewrite Hlen, mid_map, h2. reflexivity.
  - (* pop *) exfalso. rewrite h1 in e2. apply Permutation_nil in e2. discriminate.
  - (* drop *) unfold second in h3b. cbn [u_pc] in h3b. subst n. apply Hend; auto. apply top_solved. exact e1.
  - (* restrict *) unfold second in h3b. cbn [u_pc] in h3b. subst n. right. left. unfold stage2. rewrite mid_map, mid_forall. split; [assumption|]. split; [exact h2|]. split; [|assumption].
    split; [assumption|]. split; [|assumption]. unfold second. cbn [u_pc]. split; [reflexivity|]. apply alone_starts; auto. apply root_gen.
  - (* restricting *) unfold second in h3b. cbn [u_pc] in h3b. destruct h3b as (-> & Hal). destruct (alone_access _ _ _ _ _ _ Hal HT e1) as (a1 & ->).
    right. left. unfold stage2. rewrite mid_map, mid_forall. split; [assumption|]. split; [exact h2|]. split; [|assumption]. split; [assumption|]. split; [|assumption]. split; auto.
  - (* closed *) unfold second in h3b. cbn [u_pc] in h3b. destruct h3b as (-> & Hal). destruct e2 as (u1 & u2 & u3 & u4 & u5 & u6 & u7).
    apply Hend; [rewrite <- h1; cbn [k_c]; rewrite u3; reflexivity| |reflexivity]. destruct (alone_best _ _ _ (c_lb c') Hal h4 u2) as (_ & H). exact (H e3).
  - (* open *) exfalso. unfold second in h3b. cbn [u_pc] in h3b. destruct h3b as (-> & Hal). destruct (alone_best _ _ _ (LB k) Hal h4 (Z.le_refl _)) as (H & _). congruence.
Qed.

Lemma act_stage3 l1 l2 k T d p k' T' p' d' : act k T d p k' T' p' d' -> c_interrupted (k_c k') = false ->
  stage3 k (l1 ++ mk_bth p d :: l2) -> stages k' T' (l1 ++ mk_bth p' d' :: l2).
Proof.
  intros Ha Hint (h1 & h2 & h3 & h4). rewrite mid_map in h2. apply app_eq_nil in h2 as (r1 & r2). apply app_eq_nil in r2 as (r2 & r3).
  assert (Hkeep : forall t, In t l1 \/ In t l2 -> u_pc t = BDone -> c_ub (k_c k) = LB k).
  { intros t Ht Hp. apply (h4 t); auto. apply in_app_iff. destruct Ht as [Ht|Ht]; [left; exact Ht|right; right; exact Ht]. }
  right. right. unfold stage3. rewrite mid_map.
  destruct Ha as [ | T1 e1 e2 e3 e4 | e1 e2 | e1 | c' e1 e2 e3 e4 e5 e6 e7 e8 e9 | e1 e2 e3 | q f' e1 e2 e3 e4
    | n f' o e1 e2 e3 e4 | n e1 e2 | n o e1 e2 e3 e4 e5 | n o q f' e1 e2 e3 e4 e5 e6 e7 | n l0 T1 c' o0 g0 e1 e2 e3 e4 e5 e6 e7 e8 e9 e10 e11 e12 e13
    | n e1 | n orc e1 e2 | n p p1 T1 e1 | n d1 c' x e1 e2 e3 | n d1 c' x e1 e2 | n x orc e1 | n x p p1 T1 e1 | n x y d1 c' e1 e2 e3
    | n x y d1 LL d2 f' o e1 e2 e3 e4 e5 e6 e7 e8 e9 e10 e11];
  try discriminate r2;
  unfold set_fringe, with_c, with_ubound, solved in *; cbn [k_c c_fringe c_lb c_ub c_interrupted u_pc BarFacts.held app] in *; try (exfalso; congruence);
  rewrite ?r1, ?r3;
  try (split; [assumption|]; split; [reflexivity|]; split; [assumption|]; intros t Ht Hp; apply in_app_iff in Ht as [Ht|[<-|Ht]]; [apply (Hkeep t); auto|discriminate Hp || reflexivity|apply (Hkeep t); auto]).
  - (* complete *) split; [assumption|]. split; [reflexivity|]. split; [assumption|]. intros; reflexivity.
  - (* pop *) exfalso. rewrite h1 in e2. apply Permutation_nil in e2. discriminate.
Qed.

Lemma move_stages st st' : inv1 st -> c_interrupted (k_c (q_crit st')) = false -> move st st' ->
  stages (q_crit st) (q_table st) (q_threads st) -> stages (q_crit st') (q_table st') (q_threads st').
Proof.
  intros HI Hint HM HS. destruct HM as [l1 l2 p p' d d' k' T' E Hlk Ha | l1 l2 n x d c' g E Hlk h1 h2 h3 h4 h5 h6 h7 h8 h9]; cbn [q_crit q_table q_threads] in *.
  - rewrite E in HS. destruct HS as [HS|[HS|HS]].
    + apply (act_stage1 l1 l2 _ _ _ _ _ _ _ _ Ha Hint); [rewrite <- E; apply HI|exact HS].
    + assert (Hth := i_th _ _ _ _ _ _ _ _ _ _ HI). rewrite E in Hth. apply mid_forall in Hth as (_ & Ht & _). destruct Ht as (Hct & _).
      apply (act_stage2 l1 l2 _ _ _ _ _ _ _ _ Ha Hint); [apply HI|exact Hct|rewrite <- E; apply HI|intros j; rewrite <- E; apply HI| |exact HS].
      intros j Hj. rewrite <- E. apply (i_low _ _ _ _ _ _ _ _ _ _ HI I j Hj).
    + eapply act_stage3; eauto.
  - rewrite E in HS. destruct HS as [(s1 & s2 & s3 & s4)|[(s1 & s2 & s3 & s4)|(s1 & s2 & s3 & s4)]].
    + exfalso. rewrite mid_map in s2. apply app_eq_nil in s2 as (_ & s2). discriminate.
    + exfalso. apply mid_forall in s3 as (_ & s3 & _). exact s3.
    + right. right. split; [cbn [k_c]; rewrite h3; exact s1|]. rewrite flat_wake by apply wake_held. split; [rewrite mid_map in *; exact s2|]. split; [intros ds y Hy; cbn [k_c]; rewrite h4; exact (s3 ds y Hy)|].
      intros t Ht Hp. cbn [k_c]. rewrite h4, h5. apply in_map_iff in Ht as (u & <- & Hu).
      assert (Hpu : u_pc u = BDone) by (destruct u as [[] ?]; cbn in *; congruence).
      apply (s4 u); auto. apply in_app_iff in Hu as [Hu|[<-|Hu]]; [apply in_app_iff; auto|discriminate|apply in_app_iff; right; right; exact Hu].
Qed.

Lemma spurious_stages st st' : bspurious S cfg st st' -> stages (q_crit st) (q_table st) (q_threads st) -> stages (q_crit st') (q_table st') (q_threads st').
Proof.
  intros (i & d & Hn & ->) HS. cbn [q_crit q_table q_threads]. destruct (put_split i (mk_bth BIdle d) _ _ Hn) as (l1 & l2 & E & -> & _). rewrite E in HS.
  destruct HS as [(s1 & s2 & s3 & s4)|[(s1 & s2 & s3 & s4)|(s1 & s2 & s3 & s4)]].
  - left. unfold stage1. rewrite !mid_map, mid_forall in *. repeat split; auto; try apply s3. discriminate.
  - right. left. unfold stage2. rewrite !mid_map, mid_forall in *. repeat split; auto; apply s3.
  - right. right. unfold stage3. rewrite !mid_map in *. split; [exact s1|]. split; [exact s2|]. split; [exact s3|]. intros t Ht Hp. apply (s4 t); auto.
    apply in_app_iff in Ht as [Ht|[<-|Ht]]; [apply in_app_iff; auto|discriminate|apply in_app_iff; right; right; exact Ht].
Qed.

Lemma initial_stages n m st : binitial cfg n m = Some st -> stages (q_crit st) (q_table st) (q_threads st).
Proof.
  intros E. destruct (initial_ok S eqb cfg at_depth nv C merging inv content G n m) as (st0 & E' & e1 & e2 & e3 & e4 & e5 & e6 & e7 & e8 & e9 & e10 & e11 & e12 & e13 & e14).
  rewrite E in E'. injection E' as <-. left. apply Permutation_sym, Permutation_length_1_inv in e2.
  assert (Hz : forall (A : Type) (f : thread -> list A), f (mk_bth BIdle (dd_new (cf_ctype cfg))) = [] -> flat_map f (q_threads st) = []).
  { intros A f Hf. rewrite e9. clear -Hf. induction m; [reflexivity|]. cbn. rewrite Hf, IHm. reflexivity. }
  split; [rewrite e2, Hz; reflexivity|]. split; [apply Hz; reflexivity|]. split.
  - rewrite e9. apply Forall_forall. intros t Ht. apply repeat_spec in Ht. subst t. discriminate.
  - intros j s. unfold BarWp.lookup. rewrite e10. destruct (nth_error (repeat [] L) j) as [l|] eqn:En; [|reflexivity]. apply nth_error_In, repeat_spec in En. subst l. reflexivity.
Qed.

Lemma move_interrupted st st' : move st st' -> c_interrupted (k_c (q_crit st')) = false -> c_interrupted (k_c (q_crit st)) = false.
Proof.
  intros [l1 l2 p p' d d' k' T' E Hlk Ha | l1 l2 n x d c' g E Hlk h1 h2 h3 h4 h5 h6 h7 h8 h9] H; cbn [q_crit k_c] in *; [|congruence].
  eapply act_interrupted; eauto.
Qed.

Lemma reachable_stages n m st : (m <= n)%nat -> breachable S eqb cfg n m st -> inv1 st /\ (c_interrupted (k_c (q_crit st)) = false -> stages (q_crit st) (q_table st) (q_threads st)).
Proof.
  intros Hm (st0 & E & H). assert (H0 := initial_inv1 S eqb cfg at_depth nv C merging inv content G n m st0 Hm E). assert (J0 := initial_stages n m st0 E). clear E.
  induction H as [st0|st0 st1 st2 _ IH H]; [auto|]. destruct (IH H0 J0) as (I1 & J1). destruct H as [H|H].
  - assert (HM := step_move S eqb cfg at_depth nv C merging inv content G _ _ I1 H). split; [eapply move_inv1; eauto|]. intros Hint. eapply move_stages; eauto. apply J1. eapply move_interrupted; eauto.
  - destruct (spurious_inv1 S eqb cfg at_depth nv C inv content _ _ I1 H) as (I2 & E2). split; [exact I2|]. intros Hint. eapply spurious_stages; eauto. apply J1. congruence.
Qed.

Lemma reachable_threads n m st : (m <= n)%nat -> breachable S eqb cfg n m st -> length (q_threads st) = m.
Proof.
  intros Hm (st0 & E & H). assert (H0 := initial_inv1 S eqb cfg at_depth nv C merging inv content G n m st0 Hm E).
  destruct (initial_ok S eqb cfg at_depth nv C merging inv content G n m) as (st0' & E' & _ & _ & _ & _ & _ & _ & _ & _ & e9 & _). rewrite E in E'. injection E' as <-.
  assert (L0 : length (q_threads st0) = m) by (rewrite e9; apply repeat_length). clear E e9.
  enough (inv1 st /\ length (q_threads st) = m) by tauto. induction H as [st0|st0 st1 st2 _ IH H]; [auto|]. destruct (IH H0 L0) as (I1 & L1). destruct H as [H|H].
  - assert (HM := step_move S eqb cfg at_depth nv C merging inv content G _ _ I1 H). split; [eapply move_inv1; eauto|].
    destruct HM as [l1 l2 p p' d d' k' T' E Hlk Ha | l1 l2 k x d c' g E Hlk h1 h2 h3 h4 h5 h6 h7 h8 h9]; cbn [q_threads]; rewrite E in L1; rewrite ?map_length, app_length in *; exact L1.
  - destruct (spurious_inv1 S eqb cfg at_depth nv C inv content _ _ I1 H) as (I2 & _). split; [exact I2|]. destruct H as (i & d & Hn & ->). cbn [q_threads].
    destruct (put_split i (mk_bth BIdle d) _ _ Hn) as (l1 & l2 & E & -> & _). rewrite E in L1. rewrite app_length in *. exact L1.
Qed.

Lemma wide_best n m st : (1 <= m <= n)%nat -> breachable S eqb cfg n m st -> bproved cfg st ->
  (forall ds x, solution ds x -> x <= c_lb (k_c (q_crit st))) /\ c_ub (k_c (q_crit st)) = c_lb (k_c (q_crit st)) /\ sol_ok S cfg nv (k_c (q_crit st)).
Proof.
  intros Hm Hr (Hd & Hint). destruct (reachable_stages n m st ltac:(lia) Hr) as (I1 & J1). specialize (J1 Hint).
  assert (Hlen : length (q_threads st) = m) by exact (reachable_threads n m st ltac:(lia) Hr).
  destruct (q_threads st) as [|t th] eqn:Et; [cbn in Hlen; lia|]. assert (Hp : u_pc t = BDone) by (apply Hd; rewrite Et; left; reflexivity).
  destruct J1 as [(s1 & s2 & s3 & s4)|[(s1 & s2 & s3 & s4)|(s1 & s2 & s3 & s4)]].
  - exfalso. inversion s3; subst. contradiction.
  - exfalso. inversion s3 as [|? ? Hs _]; subst. unfold second in Hs. rewrite Hp in Hs. exact Hs.
  - split; [exact s3|]. split; [apply (s4 t); [left; reflexivity|exact Hp]|apply I1].
Qed.
End Wide.

Lemma bar_wide (S : Type) eqb (cfg : config S) at_depth nv C n m st : good_solver S eqb cfg at_depth nv C -> admissible_reached S (cf_pb cfg) nv ->
  no_layer_exceeds S (cf_pb cfg) nv (cf_width cfg (pb_init (cf_pb cfg))) ->
  (1 <= m <= n)%nat -> breachable S eqb cfg n m st -> bproved cfg st ->
  bupper_bound cfg st = blower_bound cfg st /\
  match bbest_value cfg st with
  | Some v => optimum S (cf_pb cfg) nv v /\ blower_bound cfg st = v /\ exists l, bbest_solution cfg st = Some l /\ reported_solution S (cf_pb cfg) nv l v
  | None => infeasible S (cf_pb cfg) nv /\ bbest_solution cfg st = None
  end.
Proof.
  intros (inv & content & G) HA HW Hn Hr Hp.
  destruct (wide_best S eqb cfg at_depth nv C True inv content G HA HW n m st Hn Hr Hp) as (H1 & H2 & H3).
  unfold bupper_bound, blower_bound, bbest_value, bbest_solution. split; [exact H2|]. unfold sol_ok in H3. destruct (c_sol (k_c (q_crit st))) as [l|]; cbn [option_map].
  - split; [|split; [reflexivity|exists l; auto]]. destruct H3 as (ds & _ & Hs). split; [eauto|]. exact H1.
  - split; [|reflexivity]. intros ds w Hs. assert (Hb := H1 ds w Hs). destruct (solution_gt S eqb cfg at_depth nv C True inv content G ds w Hs). lia.
Qed.
