(** The solver with thresholds, with one thread and a last exact layer cutset, loses no solution. *)
From Verif Require Import Spec Dd DdSpec MddAll MddAllProofs FringeSpec ParSpec ParFacts ParTerm ParOpt MddBarrier BarWp MddBarrierObs MddBarrierProofs BarSpec BarFacts.
From Verif Require Import DdFacts DdFinal.
From Coq Require Import ZifyNat.
Open Scope Z_scope.

Section Seq.
Variable S : Type.
Variable eqb : S -> S -> bool.
Variable cfg : config S.
Variable at_depth : nat -> S -> Prop.
Variable nv : nat -> nat.
Variable C : Z.
Variable merging : Prop.
Variable inv : fr_t (cf_fr cfg) -> Prop.
Variable content : fr_t (cf_fr cfg) -> list (subproblem S).
Notation P := (cf_pb cfg).
Notation R := (cf_rx cfg).
Notation N := (pb_nb_vars P).
Notation L := (Datatypes.S N).
Notation sub := (subproblem S).
Notation genuine := (genuine S P nv).
Notation thread := (bthread S).
Notation state := (bstate S cfg).
Notation crit := (bcritical S cfg).
Notation fr := (cf_fr cfg).
Notation root_node := ParSolver.root_node.
Notation KF k := (c_fringe (k_c k)).
Notation LB k := (c_lb (k_c k)).
Notation winv := (winv S eqb cfg at_depth nv C inv content).
Notation inv1 := (winv True).
Notation move := (move S eqb cfg nv inv content).
Notation act := (act S eqb cfg nv inv content).
Notation solution := (solution S P nv).
Notation point := (point S P at_depth nv C).
Notation alt := (alt S eqb P at_depth nv C).
Notation results := (results S eqb P R at_depth nv C).
Notation lookup := (lookup S eqb).
Notation thresholds := (thresholds S).
Hypothesis G : good_config S eqb cfg at_depth nv C merging inv content.
Hypothesis WB : well_behaved S eqb P R at_depth nv C.
Hypothesis LEL : cf_ctype cfg = LastExactLayer \/ one_end S cfg at_depth.
Hypothesis LAY : merging -> decided_once S cfg nv.
Let WF := gs_formed _ _ _ _ _ _ _ _ _ G.
Let FO := gs_frontier _ _ _ _ _ _ _ _ _ G.

Notation at_node x q := (point x (depth_of q) (sp_state q) (sp_value q)).

Lemma genuine_value q : genuine q -> vbound C (depth_of q) (sp_value q).
Proof.
  intros (ds & c & _ & Hr & Hv). assert (W := WF). destruct W as [H1 H2 H3 H4].
  destruct (run_bound S eqb H1 P R at_depth nv C H2 H4 _ _ _ _ _ _ Hr (wf_init _ _ _ _ H2)) as (_ & Hb).
  assert (H6 := bd_init _ _ _ _ _ _ H4). unfold vbound. rewrite Hv, Nat.sub_0_r in *. lia.
Qed.
Lemma point_up x k s v q : point x k s v -> genuine q -> depth_of q = k -> sp_state q = s -> v <= sp_value q -> at_node x q.
Proof. intros (_ & h2 & ds & c & h3 & h4) Hq <- <- Hv. split; [apply genuine_value; exact Hq|]. split; [exact h2|]. exists ds, c. split; [exact h3|lia]. Qed.
Lemma node_solution x q : genuine q -> at_node x q -> exists ds x', solution ds x' /\ x <= x'.
Proof.
  intros (ds0 & c0 & _ & Hr & Hv) (_ & _ & ds & c & (s' & Hc) & Hx). exists (ds0 ++ ds), (pb_init_val P + (c0 + c)). split; [|lia].
  exists (c0 + c). split; [|lia]. exists s'. exact (run_app S P nv _ _ _ _ _ _ Hr _ _ _ _ Hc).
Qed.

(** * What is still to come *)
Definition good (x : Z) (q : sub) : Prop := at_node x q /\ x <= sp_ub q.
Definition cov (F : list sub) (lb x : Z) (r : nat) : Prop := x <= lb \/ exists q, In q F /\ (r <= depth_of q)%nat /\ good x q.
Definition twin (F : list sub) (k : nat) (s : S) (theta x : Z) : Prop :=
  exists q, In q F /\ depth_of q = k /\ sp_state q = s /\ theta <= sp_value q /\ x <= sp_ub q.
Definition sound (F : list sub) (lb : Z) : Prop := forall ds x, solution ds x -> cov F lb x 0.
Definition justified (F : list sub) (T : thresholds) (lb : Z) : Prop := forall k s i v x, lookup T k s = Some i -> v <= b_theta i -> point x k s v ->
  cov F lb x (Datatypes.S k) \/ (b_explored i = false /\ twin F k s (b_theta i) x).
(** The same while [n] is being processed: its own entry counts for nothing. *)
Definition excused (F : list sub) (n : sub) (T : thresholds) (lb : Z) : Prop := forall k s i v x, lookup T k s = Some i -> v <= b_theta i -> point x k s v ->
  cov (n :: F) lb x (Datatypes.S k) \/ (b_explored i = false /\ twin F k s (b_theta i) x) \/ (k = depth_of n /\ good x n).
Definition top (F : list sub) (n : sub) : Prop := forall q, In q F -> sp_ub q <= sp_ub n.
(** Whatever [F] has is in [F'] too, or better. *)
Definition kept (F F' : list sub) : Prop := forall q, In q F -> exists q', In q' F' /\ depth_of q' = depth_of q /\ sp_state q' = sp_state q /\ sp_value q <= sp_value q' /\ sp_ub q <= sp_ub q' /\ genuine q'.

Lemma cov_lb F lb lb' x r : lb <= lb' -> cov F lb x r -> cov F lb' x r.
Proof. intros H [Hx|Hx]; [left; lia|right; exact Hx]. Qed.
Lemma cov_r F lb x r r' : (r' <= r)%nat -> cov F lb x r -> cov F lb x r'.
Proof. intros H [Hx|(q & h1 & h2 & h3)]; [left; exact Hx|right; exists q; split; [auto|]; split; [lia|auto]]. Qed.
Lemma cov_incl F F' lb x r : (forall q, In q F -> In q F') -> cov F lb x r -> cov F' lb x r.
Proof. intros H [Hx|(q & h1 & h2 & h3)]; [left; exact Hx|right; exists q; auto]. Qed.
Lemma cov_deeper F n lb x r : (depth_of n < r)%nat -> cov (n :: F) lb x r -> cov F lb x r.
Proof. intros H [Hx|(q & [<-|h1] & h2 & h3)]; [left; exact Hx|lia|right; exists q; auto]. Qed.
Lemma good_kept x q q' : good x q -> depth_of q' = depth_of q -> sp_state q' = sp_state q -> sp_value q <= sp_value q' -> sp_ub q <= sp_ub q' -> genuine q' -> good x q'.
Proof. intros (h1 & h2) e1 e2 e3 e4 Hg. split; [|lia]. eapply point_up; eauto. Qed.
Lemma cov_kept F F' lb lb' x r : lb <= lb' -> kept F F' -> cov F lb x r -> cov F' lb' x r.
Proof.
  intros Hl H [Hx|(q & h1 & h2 & h3)]; [left; lia|]. destruct (H q h1) as (q' & e1 & e2 & e3 & e4 & e5 & e6). right. exists q'. split; [auto|]. split; [lia|]. eapply good_kept; eauto.
Qed.
Lemma twin_kept F F' k s th x : kept F F' -> twin F k s th x -> twin F' k s th x.
Proof.
  intros H (q & h1 & h2 & h3 & h4 & h5). destruct (H q h1) as (q' & e1 & e2 & e3 & e4 & e5 & e6). exists q'. repeat (split; [congruence || lia || auto|]). lia.
Qed.
Lemma kept_refl F : Forall genuine F -> kept F F.
Proof. intros H q Hq. exists q. do 3 (split; [auto|]). split; [lia|]. split; [lia|]. exact (proj1 (Forall_forall _ _) H q Hq). Qed.
Lemma kept_trans F F' F'' : kept F F' -> kept F' F'' -> kept F F''.
Proof.
  intros H H' q Hq. destruct (H q Hq) as (q1 & a1 & a2 & a3 & a4 & a5 & a6). destruct (H' q1 a1) as (q2 & b1 & b2 & b3 & b4 & b5 & b6).
  exists q2. split; [auto|]. split; [congruence|]. split; [congruence|]. split; [lia|]. split; [lia|auto].
Qed.
Lemma twin_good F k s th x v : Forall genuine F -> twin F k s th x -> v <= th -> point x k s v -> exists q, In q F /\ depth_of q = k /\ good x q.
Proof.
  intros HF (q & h1 & h2 & h3 & h4 & h5) Hv Hp. exists q. split; [auto|]. split; [auto|]. split; [|exact h5].
  apply (point_up x k s v q); auto; [exact (proj1 (Forall_forall _ _) HF q h1)|lia].
Qed.

Lemma top_bound F n lb x : sound (n :: F) lb -> top F n -> (exists ds x', solution ds x' /\ x <= x') -> x <= lb \/ x <= sp_ub n.
Proof.
  intros Hs Ht (ds & x' & Hx & Hle). destruct (Hs ds x' Hx) as [H|(q & [<-|Hq] & _ & _ & Hu)]; [left; lia|right; lia|]. specialize (Ht q Hq). right. lia.
Qed.

(** * Pushing *)
Lemma push_kept f n f' : inv f -> Forall genuine (content f) -> genuine n -> fr_push fr f n = Some f' -> kept (n :: content f) (content f').
Proof.
  intros Hi Hc Hn E. destruct (fo_push _ _ _ _ FO f n Hi) as (f1 & E1 & Hi1 & H). rewrite E in E1. injection E1 as <-.
  destruct H as [H|(Hm & old & l & Hs & H1 & H2)].
  - intros q Hq. apply (kept_refl (n :: content f)) in Hq; [|constructor; auto]. destruct Hq as (q' & h1 & h2). exists q'. split; [|exact h2].
    eapply Permutation_in; [symmetry; exact H|exact h1].
  - assert (Hc' := Permutation_Forall H1 Hc). inversion Hc' as [|? ? Ho Hl]; subst.
    assert (Hd : depth_of old = depth_of n) by (eapply (same_layer S eqb cfg at_depth nv C merging inv content G LAY); eauto).
    set (m := merge_sub old n) in *.
    assert (Hm1 : depth_of m = depth_of n) by (unfold m, merge_sub; destruct (_ <? _); [reflexivity|exact Hd]).
    assert (Hm2 : sp_state m = sp_state n) by (unfold m, merge_sub; destruct (_ <? _); [reflexivity|exact Hs]).
    assert (Hm3 : sp_value old <= sp_value m /\ sp_value n <= sp_value m) by (unfold m, merge_sub; destruct (_ <? _) eqn:E0; cbn [sp_value with_ub]; lia).
    assert (Hm4 : sp_ub old <= sp_ub m /\ sp_ub n <= sp_ub m) by (unfold m, merge_sub; cbn [sp_ub with_ub]; lia).
    assert (Hm5 : genuine m) by (unfold m, merge_sub; destruct (_ <? _); [exact Hn|exact Ho]).
    assert (Hm6 : In m (content f')) by (eapply Permutation_in; [symmetry; exact H2|left; auto]).
    intros q [<-|Hq].
    + exists m. repeat (split; [auto; lia|]). exact Hm5.
    + apply (Permutation_in q H1) in Hq. destruct Hq as [<-|Hq].
      * exists m. split; [auto|]. split; [congruence|]. split; [congruence|]. split; [lia|]. split; [lia|exact Hm5].
      * exists q. split; [eapply Permutation_in; [symmetry; exact H2|right; exact Hq]|]. do 2 (split; [auto|]). split; [lia|]. split; [lia|]. exact (proj1 (Forall_forall _ _) Hl q Hq).
Qed.

Lemma enqueue_kept lb ub LL : forall f f', inv f -> Forall genuine (content f) -> Forall genuine LL -> ofold (enqueue_node cfg lb ub) LL f = Some f' ->
  kept (content f) (content f') /\ forall q, In q LL -> lb < Z.min ub (sp_ub q) -> kept [with_ub q (Z.min ub (sp_ub q))] (content f').
Proof.
  induction LL as [|q LL IH]; intros f f' Hi Hc HL E; cbn [ofold] in E.
  - injection E as <-. split; [apply kept_refl; exact Hc|intros q []].
  - inversion HL as [|? ? Hq HL']; subst. unfold enqueue_node at 1 in E. cbn zeta in E. set (q' := with_ub q (Z.min ub (sp_ub q))) in *.
    assert (Hq' : genuine q') by exact Hq.
    destruct (lb <? sp_ub q') eqn:El; cbn [obind] in E.
    + destruct (fr_push_genuine S eqb cfg at_depth nv C merging inv content G f q' Hi Hc Hq') as (f1 & E1 & Hi1 & Hc1). rewrite E1 in E. cbn [obind] in E.
      assert (K := push_kept f q' f1 Hi Hc Hq' E1). destruct (IH f1 f' Hi1 Hc1 HL' E) as (I1 & I2). split.
      * intros y Hy. apply (kept_trans _ _ _ K I1 y). right. exact Hy.
      * intros y [<-|Hy] Hlt; [|apply I2; auto]. intros z [<-|[]]. apply (kept_trans _ _ _ K I1). left. reflexivity.
    + destruct (IH f f' Hi Hc HL' E) as (I1 & I2). split; [exact I1|]. intros y [<-|Hy] Hlt; [|apply I2; auto]. unfold q' in El. cbn in El. lia.
Qed.

(** * When the node in hand is dealt with *)
Lemma settle F F' n T0 lb lb' dF x r : Forall genuine F -> excused F n T0 lb -> lb <= lb' -> kept F F' -> (depth_of n < r)%nat -> alt T0 dF x r ->
  (forall v, g_exact dF = true -> best_value dF = Some (Some v) -> v <= lb') ->
  (forall LL d2 q, g_exact dF = false -> drain_cutset dF = Some (LL, d2) -> In q LL -> at_node x q -> x <= sp_ub q -> cov F' lb' x (depth_of q)) ->
  cov F' lb' x r.
Proof.
  intros HF HE Hl HK Hr [(k & s & i & v & h1 & h2 & h3 & h4)|[(h1 & bv & h2 & h3)|(h1 & LL & d2 & q & h2 & h3 & h4 & h5 & h6)]] Hb Hc.
  - destruct (HE k s i v x h2 h3 h4) as [H|[(_ & H)|(H & _)]].
    + apply cov_deeper in H; [|lia]. apply (cov_r _ _ _ (Datatypes.S k)); [lia|]. eapply cov_kept; eauto.
    + destruct (twin_good F k s (b_theta i) x v HF H h3 h4) as (q & q1 & q2 & q3). apply (cov_kept F F' lb lb' x r); auto. right. exists q. split; [auto|]. split; [lia|auto].
    + lia.
  - left. specialize (Hb bv h1 h2). lia.
  - apply (cov_r _ _ _ (depth_of q)); [lia|]. eapply Hc; eauto.
Qed.

Lemma finish F F' n T0 T' lb lb' : Forall genuine F -> sound (n :: F) lb -> excused F n T0 lb -> lb <= lb' -> kept F F' ->
  (forall x, good x n -> cov F' lb' x (Datatypes.S (depth_of n))) ->
  (forall k s, lookup T' k s = lookup T0 k s \/ exists i, lookup T' k s = Some i /\ forall x v, v <= b_theta i -> point x k s v ->
     cov F' lb' x (Datatypes.S k) \/ (b_explored i = false /\ twin F' k s (b_theta i) x)) ->
  sound F' lb' /\ justified F' T' lb'.
Proof.
  intros HF HS HE Hl HK Hn HT.
  assert (Hcov : forall x r, cov (n :: F) lb x r -> cov F' lb' x r).
  { intros x r [Hx|(q & [<-|Hq] & h2 & h3)]; [left; lia| |apply (cov_kept F F' lb lb' x r); auto; right; exists q; auto].
    apply (cov_r _ _ _ (Datatypes.S (depth_of n))); [lia|]. apply Hn. exact h3. }
  split; [intros ds x Hx; apply Hcov; eapply HS; eauto|].
  intros k s i v x Hi Hv Hp. destruct (HT k s) as [H|(i' & H1 & H2)].
  - rewrite H in Hi. destruct (HE k s i v x Hi Hv Hp) as [Hc|[(Hx & Htw)|(-> & Hg)]].
    + left. apply Hcov. exact Hc.
    + right. split; [exact Hx|]. eapply twin_kept; eauto.
    + left. apply Hn. exact Hg.
  - rewrite H1 in Hi. injection Hi as <-. eapply H2; eauto.
Qed.

(** * The invariant *)
Definition inert (k : nat) (s : S) (i : info) : Prop := False.
Definition solo_call (ty : comp_type) (n : sub) (lb : Z) (T0 : thresholds) (p : prog S (dd S)) (T : thresholds) : Prop :=
  exists lb0, lb0 <= lb /\
    wp S eqb true L (fun k s i => ty = Relaxed /\ (depth_of n <= k)%nat) p T (results true (call cfg ty n lb0) (cf_ctype cfg) T0).

Definition seq_ok (k : crit) (T : thresholds) (p : bpc S) : Prop :=
  let F := content (KF k) in
  let lb := LB k in
  match p with
  | BIdle | BWait | BClean | BNotify _ _ => sound F lb /\ justified F T lb
  | BTry n | BInsert n => sound (n :: F) lb /\ justified (n :: F) T lb /\ top F n
  | BStart n | BRelax n _ => sound (n :: F) lb /\ excused F n T lb /\ top F n
  | BRestrict n p => sound (n :: F) lb /\ excused F n T lb /\ top F n /\ solo_call Restricted n lb T p T
  | BRelaxing n _ p => sound (n :: F) lb /\ top F n /\ exists T0, excused F n T0 lb /\ solo_call Relaxed n lb T0 p T
  | BDone => sound F lb /\ justified F T lb /\ F = [] /\ c_ub (k_c k) = lb
  end.

Lemma sound_perm F F' lb : (forall q, In q F -> In q F') -> sound F lb -> sound F' lb.
Proof. intros H Hs ds x Hx. eapply cov_incl; eauto. Qed.
Lemma justified_perm F F' T lb : (forall q, In q F -> In q F') -> justified F T lb -> justified F' T lb.
Proof.
  intros H Hs k s i v x h1 h2 h3. destruct (Hs k s i v x h1 h2 h3) as [Hc|(Hx & q & Hq & Hr)]; [left; eapply cov_incl; eauto|right; split; [auto|]; exists q; auto].
Qed.
Lemma sound_lb F lb lb' : lb <= lb' -> sound F lb -> sound F lb'.
Proof. intros H Hs ds x Hx. eapply cov_lb; eauto. Qed.
Lemma excused_lb F n T lb lb' : lb <= lb' -> excused F n T lb -> excused F n T lb'.
Proof. intros H Hs k s i v x h1 h2 h3. destruct (Hs k s i v x h1 h2 h3) as [Hc|Hc]; [left; eapply cov_lb; eauto|right; exact Hc]. Qed.
Lemma solo_lb ty n lb lb' T0 p T : lb <= lb' -> solo_call ty n lb T0 p T -> solo_call ty n lb' T0 p T.
Proof. intros H (lb0 & h1 & h2). exists lb0. split; [lia|exact h2]. Qed.

(** Dropping a node that the thresholds forbid. *)
Lemma drop_blocked F n T lb : Forall genuine F -> blocked S eqb T n -> sound (n :: F) lb -> justified (n :: F) T lb -> sound F lb /\ justified F T lb.
Proof.
  intros HF (i & Hi & Hv & Hx) Hs Hj.
  assert (Hn : forall x, good x n -> cov F lb x (depth_of n)).
  { intros x (Hp & Hu). destruct (Hj _ _ i _ x Hi Hv Hp) as [H|(He & q & [<-|Hq] & q2 & q3 & q4 & q5)].
    - apply (cov_r _ _ _ (Datatypes.S (depth_of n))); [lia|]. eapply cov_deeper; [|exact H]. lia.
    - assert (sp_value n = b_theta i) by lia. rewrite (Hx H) in He. discriminate.
    - right. exists q. split; [auto|]. split; [lia|]. split; [|lia]. apply (point_up x (depth_of n) (sp_state n) (sp_value n) q); auto; [exact (proj1 (Forall_forall _ _) HF q Hq)|lia]. }
  assert (Hcov : forall x r, cov (n :: F) lb x r -> cov F lb x r).
  { intros x r [Hx'|(q & [<-|Hq] & h2 & h3)]; [left; lia|eapply cov_r; [|apply Hn; exact h3]; lia|right; exists q; auto]. }
  split; [intros ds x Hsol; eapply Hcov; eauto|]. intros k s j v x Hl Hle Hp. destruct (Hj k s j v x Hl Hle Hp) as [H|(He & q & [<-|Hq] & q2 & q3 & q4 & q5)].
  - left. apply Hcov. exact H.
  - rewrite q2, q3, Hl in Hi. injection Hi as <-. assert (sp_value n = b_theta j) by lia. rewrite (Hx H) in He. discriminate.
  - right. split; [exact He|]. exists q. auto.
Qed.

Lemma call_finished ty n lb T0 d T : solo_call ty n lb T0 (Ret d) T -> exists lb0, lb0 <= lb /\ results true (call cfg ty n lb0) (cf_ctype cfg) T0 d T.
Proof. intros (lb0 & h1 & h2). exists lb0. split; [exact h1|exact h2]. Qed.
Lemma call_access ty n lb T0 p T p' T' : solo_call ty n lb T0 p T -> length T = L -> access eqb p T = Some (p', T') ->
  solo_call ty n lb T0 p' T' /\ (ty <> Relaxed -> T' = T).
Proof.
  intros (lb0 & h1 & h2) HT E. assert (Hacc := wp_access S eqb true L _ p T T _ h2 HT ltac:(auto)). assert (HW := wp_write S eqb true L _ _ _ _ _ _ _ _ h2 E). split.
  - exists lb0. split; [exact h1|]. assert (Hx : exists p1 T1, access eqb p T = Some (p1, T1) /\ wp S eqb true L (fun k s i => ty = Relaxed /\ (depth_of n <= k)%nat) p1 T1 (results true (call cfg ty n lb0) (cf_ctype cfg) T0) /\ length T1 = L) by (destruct p; [discriminate E|exact Hacc..]).
    destruct Hx as (p1 & T1 & E1 & g1 & g2). rewrite E in E1. injection E1 as <- <-. exact g1.
  - intros Hne. destruct HW as [HW|(d & s & i & l & (Hr & _) & _)]; [exact HW|contradiction].
Qed.
Lemma call_starts ty n lb d orc T : library_ok S orc -> genuine n -> g_ctype d = cf_ctype cfg -> length T = L ->
  solo_call ty n lb T (compile eqb false orc (call cfg ty n lb) d) T.
Proof.
  intros Ho Hn Hct HT. exists lb. split; [lia|]. rewrite <- Hct.
  apply (bar_total S eqb P R at_depth nv C true _ false orc (call cfg ty n lb) d T WF (good_call_of S eqb cfg at_depth nv C merging inv content G orc ty n lb Ho Hn) HT).
  cbn. auto.
Qed.

(** What follows from an exact diagram. *)
Lemma closed_ok ty n F lb lb' T0 d T : genuine n -> Forall genuine F -> sound (n :: F) lb -> excused F n T0 lb -> lb <= lb' -> solo_call ty n lb T0 (Ret d) T ->
  ty = Restricted /\ T = T0 \/ ty = Relaxed -> g_exact d = true -> (forall v, best_value d = Some (Some v) -> v <= lb') -> sound F lb' /\ justified F T lb'.
Proof.
  intros Hn HF HS HE Hl Hc Hty Hex Hb. destruct (call_finished _ _ _ _ _ _ Hc) as (lb0 & Hlb0 & HR).
  assert (Hroot : forall x, lb0 < x -> at_node x n -> alt T0 d x (Datatypes.S (depth_of n))).
  { intros x Hx Hp. apply (bar_root S eqb P R at_depth nv C (call cfg ty n lb0) (cf_ctype cfg) T0 d T x WB HR); auto.
    destruct Hty as [(-> & _)| ->]; [right; split; [discriminate|exact Hex]|left; auto]. }
  assert (Hset : forall x r, (depth_of n < r)%nat -> alt T0 d x r -> cov F lb' x r).
  { intros x r Hr Ha. eapply (settle F F n T0 lb lb' d x r); eauto; [apply kept_refl; exact HF|]. intros; congruence. }
  eapply (finish F F n T0 T lb lb'); auto.
  - apply kept_refl; exact HF.
  - intros x (Hp & _). destruct (Z_le_gt_dec x lb0); [left; lia|]. apply Hset; [lia|]. apply Hroot; auto. lia.
  - intros k s. destruct Hty as [(-> & ->)| ->]; [left; reflexivity|].
    destruct (bar_entry S eqb P R at_depth nv C (call cfg Relaxed n lb0) (cf_ctype cfg) T0 d T k s WB HR eq_refl LEL) as [H|(i & H1 & H2 & H3)]; [left; exact H|]. right. exists i. split; [exact H1|].
    intros x v Hv Hp. destruct (Z_le_gt_dec x lb0); [left; left; lia|]. destruct (H3 x v) as [H|(_ & H & _)]; auto; [cbn; lia| |congruence]. left. apply Hset; [|exact H]. cbn in H2. lia.
Qed.

(** What follows from an inexact relaxed diagram. *)
Lemma branch_ok n f lb T0 d T LL d2 f' : genuine n -> inv f -> Forall genuine (content f) -> sound (n :: content f) lb -> top (content f) n -> excused (content f) n T0 lb ->
  solo_call Relaxed n lb T0 (Ret d) T -> g_exact d = false -> drain_cutset d = Some (LL, d2) -> Forall genuine LL ->
  ofold (enqueue_node cfg lb (sp_ub n)) LL f = Some f' -> sound (content f') lb /\ justified (content f') T lb.
Proof.
  intros Hn Hi HF HS Ht HE Hc Hex ED HL EQ. destruct (call_finished _ _ _ _ _ _ Hc) as (lb0 & Hlb0 & HR).
  destruct (enqueue_kept lb (sp_ub n) LL f f' Hi HF HL EQ) as (K1 & K2).
  assert (Hcut : forall q x, In q LL -> at_node x q -> x <= sp_ub q -> x <= lb \/ exists q', In q' (content f') /\ depth_of q' = depth_of q /\ sp_state q' = sp_state q /\ sp_value q <= sp_value q' /\ x <= sp_ub q' /\ genuine q').
  { intros q x Hq Hp Hu. assert (Hgq := proj1 (Forall_forall _ _) HL q Hq). destruct (Z_le_gt_dec x lb) as [Hx|Hx]; [left; exact Hx|].
    destruct (top_bound (content f) n lb x HS Ht (node_solution x q Hgq Hp)) as [H|H]; [left; exact H|]. right.
    destruct (K2 q Hq ltac:(lia) _ (or_introl eq_refl)) as (q' & a1 & a2 & a3 & a4 & a5 & a6). exists q'. do 4 (split; [auto|]). split; [cbn in a5; lia|auto]. }
  assert (Hset : forall x r, (depth_of n < r)%nat -> alt T0 d x r -> cov (content f') lb x r).
  { intros x r Hr Ha. eapply (settle (content f) (content f') n T0 lb lb d x r); eauto; [lia|intros; congruence|].
    intros L1 d1 q _ ED1 Hq Hp Hu. rewrite ED in ED1. injection ED1 as <- <-. destruct (Hcut q x Hq Hp Hu) as [H|(q' & a1 & a2 & a3 & a4 & a5 & a6)]; [left; exact H|].
    right. exists q'. split; [auto|]. split; [lia|]. split; [|exact a5]. eapply point_up; eauto. }
  eapply (finish (content f) (content f') n T0 T lb lb); auto; [lia| |].
  - intros x (Hp & _). destruct (Z_le_gt_dec x lb0); [left; lia|]. apply Hset; [lia|].
    apply (bar_root S eqb P R at_depth nv C (call cfg Relaxed n lb0) (cf_ctype cfg) T0 d T x WB HR); auto. cbn. lia.
  - intros k s. destruct (bar_entry S eqb P R at_depth nv C (call cfg Relaxed n lb0) (cf_ctype cfg) T0 d T k s WB HR eq_refl LEL) as [H|(i & H1 & H2 & H3)]; [left; exact H|]. right. exists i. split; [exact H1|].
    intros x v Hv Hp. destruct (Z_le_gt_dec x lb0); [left; left; lia|]. destruct (H3 x v) as [H|(He & _ & L1 & d1 & q & ED1 & q1 & q2 & q3 & q4 & q5)]; auto; [cbn; lia| |].
    + left. apply Hset; [|exact H]. cbn in H2. lia.
    + rewrite ED in ED1. injection ED1 as <- <-. assert (Hgq := proj1 (Forall_forall _ _) HL q q1).
      assert (Hpq : at_node x q) by (apply (point_up x k s v q); auto; lia).
      destruct (Hcut q x q1 Hpq q5) as [H|(q' & a1 & a2 & a3 & a4 & a5 & a6)]; [left; left; exact H|]. right. split; [exact He|]. exists q'. repeat (split; [congruence || lia || auto|]). lia.
Qed.

Lemma act_seq k T d p k' T' p' d' : act k T d p k' T' p' d' -> c_interrupted (k_c k') = false ->
  inv (KF k) -> Forall genuine (content (KF k)) -> thread_ok S eqb cfg at_depth nv C (LB k) (mk_bth p d) -> length T = L ->
  seq_ok k T p -> seq_ok k' T' p'.
Proof.
  intros Ha Hint Hi HF (Hct & Hgen & _) HT HJ.
  destruct Ha as [ | T1 e1 e2 e3 e4 | e1 e2 | e1 | c' e1 e2 e3 e4 e5 e6 e7 e8 e9 | e1 e2 e3 | p f' e1 e2 e3 e4
    | n f' o e1 e2 e3 e4 | n e1 e2 | n o e1 e2 e3 e4 e5 | n o p f' e1 e2 e3 e4 e5 e6 e7 | n l0 T1 c' o0 g0 e1 e2 e3 e4 e5 e6 e7 e8 e9 e10 e11 e12 e13
    | n e1 | n orc e1 e2 | n p p1 T1 e1 | n d1 c' x e1 e2 e3 | n d1 c' x e1 | n x orc e1 | n x p p1 T1 e1 | n x y d1 c' e1 e2 e3
    | n x y d1 LL d2 f' o e1 e2 e3 e4 e5 e6 e7 e8 e9 e10 e11];
  unfold ParFacts.upd_of, set_fringe, with_c, with_ubound in *; unfold seq_ok in *;
  cbn [k_c k_open k_ongoing k_lowest c_fringe c_ongoing c_lb c_ub c_interrupted u_pc u_dd BarFacts.held] in *; try (exfalso; congruence).
  - exact HJ.
  - (* sweep *) destruct HJ as (h1 & h2). split; [exact h1|]. intros j s i v x Hl. apply h2. unfold BarWp.lookup in *. rewrite (upd_nth _ _ _ _ j e4) in Hl.
    destruct (Nat.eqb j (k_lowest k)); [discriminate|exact Hl].
  - destruct HJ as (h1 & h2). auto.
  - exact HJ.
  - (* pop *) destruct HJ as (h1 & h2). split; [eapply sound_perm; [|exact h1]; intros q; apply Permutation_in; exact e2|].
    split; [eapply justified_perm; [|exact h2]; intros q; apply Permutation_in; exact e2|]. intros q Hq. apply e4. eapply Permutation_in; [symmetry; exact e2|right; exact Hq].
  - (* starve *) destruct HJ as (h1 & h2 & h3). rewrite e3.
    assert (Hcov : forall x r, cov (n :: content (KF k)) (LB k) x r -> cov [] (LB k) x r).
    { intros x r [Hx|(q & [<-|Hq] & _ & _ & Hu)]; [left; exact Hx|left; lia|]. specialize (h3 q Hq). left. lia. }
    split; [intros ds x Hx; eapply Hcov; eauto|]. intros j s i v x a1 a2 a3. destruct (h2 j s i v x a1 a2 a3) as [H|(_ & q & [<-|Hq] & _ & _ & _ & Hu)]; [left; eapply Hcov; eauto|left; left; lia|].
    specialize (h3 q Hq). left. left. lia.
  - exact HJ.
  - (* skip *) destruct HJ as (h1 & h2 & h3). apply (drop_blocked (content (KF k)) n T (LB k)); auto.
  - (* next *) destruct HJ as (h1 & h2 & h3). destruct (drop_blocked (content (KF k)) n T (LB k) HF e2 h1 h2) as (g1 & g2).
    split; [eapply sound_perm; [|exact g1]; intros q; apply Permutation_in; exact e5|].
    split; [eapply justified_perm; [|exact g2]; intros q; apply Permutation_in; exact e5|]. intros q Hq. apply e7. eapply Permutation_in; [symmetry; exact e5|right; exact Hq].
  - (* take *) destruct HJ as (h1 & h2 & h3). rewrite e7, e9. split; [exact h1|]. split; [|exact h3]. inversion Hgen as [|? ? Hgn _]; subst.
    intros j s i v x Hl Hv Hp. rewrite (lookup_put S eqb (wfd_eqb _ _ _ _ _ _ _ WF) T T1 _ _ _ _ j s e1 e2) in Hl.
    destruct (Nat.eqb_spec j (depth_of n)) as [->|Hne]; cbn [andb] in Hl; [destruct (eqb (sp_state n) s) eqn:Es|].
    + apply (wfd_eqb _ _ _ _ _ _ _ WF) in Es. subst s. injection Hl as <-. cbn [b_theta] in Hv. assert (Hpn : at_node x n) by (eapply point_up; eauto).
      destruct (top_bound (content (KF k)) n (LB k) x h1 h3 (node_solution x n Hgn Hpn)) as [H|H]; [left; left; exact H|]. right; right. split; [reflexivity|split; auto].
    + destruct (h2 _ _ _ _ _ Hl Hv Hp) as [H|(He & q & [<-|Hq] & q2 & q3 & q4)]; [left; exact H| |right; left; split; [auto|exists q; auto]].
      exfalso. rewrite q3 in Es. assert (eqb s s = true) by (apply (wfd_eqb _ _ _ _ _ _ _ WF); reflexivity). congruence.
    + destruct (h2 _ _ _ _ _ Hl Hv Hp) as [H|(He & q & [<-|Hq] & q2 & q3 & q4)]; [left; exact H|congruence|right; left; split; [auto|exists q; auto]].
  - (* drop *) destruct HJ as (h1 & h2 & h3). apply (finish _ _ n T T (LB k) (LB k) HF h1 h2 (Z.le_refl _) (kept_refl _ HF)); [|intros; left; reflexivity].
    intros x (_ & Hu). left. lia.
  - (* restrict *) destruct HJ as (h1 & h2 & h3). inversion Hgen; subst. do 3 (split; [auto|]). apply call_starts; auto.
  - (* restricting *) destruct HJ as (h1 & h2 & h3 & h4). destruct (call_access _ _ _ _ _ _ _ _ h4 HT e1) as (g1 & g2). rewrite (g2 ltac:(discriminate)) in *. auto.
  - (* closed *) destruct HJ as (h1 & h2 & h3 & h4). destruct e2 as (u1 & u2 & u3 & u4 & u5 & u6 & u7). inversion Hgen; subst. rewrite u3. eapply closed_ok; eauto.
  - (* open *) destruct HJ as (h1 & h2 & h3 & h4). destruct e1 as (u1 & u2 & u3 & u4 & u5 & u6 & u7). rewrite u3. split; [eapply sound_lb; eauto|]. split; [eapply excused_lb; eauto|exact h3].
  - (* relax *) destruct HJ as (h1 & h2 & h3). inversion Hgen; subst. do 2 (split; [auto|]). exists T. split; [auto|]. apply call_starts; auto.
  - (* relaxing *) destruct HJ as (h1 & h2 & T0 & h3 & h4). destruct (call_access _ _ _ _ _ _ _ _ h4 HT e1) as (g1 & g2). do 2 (split; [auto|]). exists T0. auto.
  - (* solved *) destruct HJ as (h1 & h2 & T0 & h3 & h4). destruct e2 as (u1 & u2 & u3 & u4 & u5 & u6 & u7). inversion Hgen; subst. rewrite u3. eapply closed_ok; eauto.
  - (* branch *) destruct HJ as (h1 & h2 & T0 & h3 & h4). inversion Hgen; subst. eapply branch_ok; eauto.
Qed.

Definition seq (st : state) : Prop := exists t, q_threads st = [t] /\ (c_interrupted (k_c (q_crit st)) = false -> seq_ok (q_crit st) (q_table st) (u_pc t)).

Lemma act_interrupted k T d p k' T' p' d' : act k T d p k' T' p' d' -> c_interrupted (k_c k') = false -> c_interrupted (k_c k) = false.
Proof.
  clear LEL. intros Ha H. inversion Ha; subst; unfold ParFacts.upd_of, set_fringe, with_c, with_ubound in *; cbn [k_c c_interrupted] in *; try congruence; intuition congruence.
Qed.
Lemma move_seq st st' : inv1 st -> seq st -> move st st' -> seq st'.
Proof.
  intros HI (t & Et & HJ) [l1 l2 p p' d d' k' T' E Hlk Ha | l1 l2 n x d c' g E Hlk h1 h2 h3 h4 h5 h6 h7 h8 h9].
  - rewrite Et in E. destruct l1 as [|? [|? ?]]; cbn in E; try discriminate. injection E as -> <-. exists (mk_bth p' d'). split; [reflexivity|].
    cbn [q_crit q_table u_pc] in *. intros Hint. assert (Hint0 := act_interrupted _ _ _ _ _ _ _ _ Ha Hint).
    assert (Hth := i_th _ _ _ _ _ _ _ _ _ _ HI). rewrite Et in Hth. inversion Hth as [|? ? Ht _]; subst.
    eapply act_seq; eauto; [apply HI|apply HI|apply HI].
  - rewrite Et in E. destruct l1 as [|? [|? ?]]; cbn in E; try discriminate. injection E as -> <-. exists (mk_bth BIdle d). split; [reflexivity|].
    cbn [q_crit q_table u_pc k_c] in *. rewrite h7. intros Hint. specialize (HJ Hint). unfold seq_ok in *. cbn [k_c]. rewrite h3, h4. exact HJ.
Qed.
Lemma spurious_seq st st' : inv1 st -> seq st -> ~ bspurious S cfg st st'.
Proof.
  intros HI (t & Et & _) (i & d & Hn & _). rewrite Et in Hn. destruct i as [|[|?]]; cbn in Hn; try discriminate. injection Hn as ->.
  assert (Hw := i_wait _ _ _ _ _ _ _ _ _ _ HI (mk_bth BWait d)). rewrite Et in Hw. specialize (Hw (or_introl eq_refl) eq_refl). rewrite (i_on _ _ _ _ _ _ _ _ _ _ HI), Et in Hw. cbn in Hw. lia.
Qed.
Lemma initial_seq n st : binitial cfg n 1 = Some st -> seq st.
Proof.
  intros E. destruct (initial_ok S eqb cfg at_depth nv C merging inv content G n 1) as (st0 & E' & e1 & e2 & e3 & e4 & e5 & e6 & e7 & e8 & e9 & e10 & e11 & e12 & e13 & e14).
  rewrite E in E'. injection E' as <-. eexists. split; [exact e9|]. intros _. cbn [u_pc seq_ok]. split.
  - intros ds x Hx. right. exists (root_node cfg). split; [eapply Permutation_in; [symmetry; exact e2|left; reflexivity]|]. split; [lia|].
    assert (Hb := solution_gt S eqb cfg at_depth nv C merging inv content G ds x Hx). split; [|cbn; lia]. destruct Hx as (c & Hc & Hv).
    assert (Hg := root_genuine S cfg nv). split; [apply genuine_value; exact Hg|]. split; [exact (genuine_at S eqb cfg at_depth nv C merging inv content G _ Hg)|]. exists ds, c. split; [exact Hc|]. cbn. lia.
  - intros k s i v x Hl. exfalso. unfold BarWp.lookup in Hl. rewrite e10 in Hl. destruct (nth_error (repeat [] L) k) as [l|] eqn:En; [|discriminate].
    apply nth_error_In, repeat_spec in En. subst l. discriminate.
Qed.

Lemma reachable_seq n st : (1 <= n)%nat -> breachable S eqb cfg n 1 st -> inv1 st /\ seq st.
Proof.
  intros Hn (st0 & E & H). assert (H0 := initial_inv1 S eqb cfg at_depth nv C merging inv content G n 1 st0 Hn E). assert (J0 := initial_seq n st0 E). clear E.
  induction H as [st0|st0 st1 st2 _ IH H]; [auto|]. destruct (IH H0 J0) as (I1 & J1). destruct H as [H|H].
  - assert (HM := step_move S eqb cfg at_depth nv C merging inv content G _ _ I1 H). split; [eapply move_inv1; eauto|eapply move_seq; eauto].
  - destruct (spurious_seq _ _ I1 J1 H).
Qed.

Lemma seq_best n st : (1 <= n)%nat -> breachable S eqb cfg n 1 st -> bproved cfg st ->
  (forall ds x, solution ds x -> x <= c_lb (k_c (q_crit st))) /\ c_ub (k_c (q_crit st)) = c_lb (k_c (q_crit st)) /\ sol_ok S cfg nv (k_c (q_crit st)).
Proof.
  intros Hn Hr (Hd & Hint). destruct (reachable_seq n st Hn Hr) as (I1 & t & Et & J1). specialize (J1 Hint).
  assert (Hp : u_pc t = BDone) by (apply Hd; rewrite Et; left; reflexivity). rewrite Hp in J1. destruct J1 as (h1 & h2 & h3 & h4).
  split; [|split; [exact h4|apply I1]]. intros ds x Hx. destruct (h1 ds x Hx) as [H|(q & Hq & _)]; [exact H|]. rewrite h3 in Hq. destruct Hq.
Qed.
(** * What the thresholds discard *)
Notation completes := (completes S P nv).
Definition pays (l : list sub) (lb x : Z) : Prop := x <= lb \/ exists q ds w, In q l /\ completes q ds w /\ x <= w /\ x <= sp_ub q.

Lemma good_completes x q : good x q -> exists ds w, completes q ds w /\ x <= w.
Proof. intros ((_ & _ & ds & c & Hc & Hx) & _). exists ds, (sp_value q + c). split; [exists c; auto|exact Hx]. Qed.
Lemma cov_pays F lb x r : cov F lb x r -> pays F lb x.
Proof. intros [H|(q & h1 & _ & h3)]; [left; exact H|right]. destruct (good_completes x q h3) as (ds & w & e1 & e2). exists q, ds, w. destruct h3. auto. Qed.
Lemma node_point q ds x : genuine q -> completes q ds x -> at_node x q.
Proof.
  intros Hq (c & Hc & ->). split; [apply genuine_value; exact Hq|]. split; [exact (genuine_at S eqb cfg at_depth nv C merging inv content G _ Hq)|]. exists ds, c. split; [exact Hc|lia].
Qed.

Lemma discard_popped n st t d : (1 <= n)%nat -> breachable S eqb cfg n 1 st -> c_interrupted (k_c (q_crit st)) = false -> q_threads st = [mk_bth (BTry t) d] -> blocked S eqb (q_table st) t ->
  forall ds x, completes t ds x -> pays (content (KF (q_crit st))) (LB (q_crit st)) x.
Proof.
  intros Hn Hr Hint Et Hb ds x Hc. destruct (reachable_seq n st Hn Hr) as (I1 & t' & Et' & J1). rewrite Et in Et'. injection Et' as <-. specialize (J1 Hint). cbn [u_pc seq_ok] in J1.
  destruct J1 as (h1 & h2 & h3). assert (Hth := i_th _ _ _ _ _ _ _ _ _ _ I1). rewrite Et in Hth. inversion Hth as [|? ? (_ & Hg & _) _]; subst. inversion Hg as [|? ? Hgt _]; subst.
  destruct Hb as (i & Hi & Hv & Hx). assert (Hp := node_point t ds x Hgt Hc).
  assert (HF := i_gen _ _ _ _ _ _ _ _ _ _ I1).
  destruct (h2 _ _ i _ x Hi Hv Hp) as [H|(He & q & [<-|Hq] & q2 & q3 & q4 & q5)].
  - eapply cov_pays. eapply cov_deeper; [|exact H]. lia.
  - assert (sp_value t = b_theta i) by lia. rewrite (Hx H) in He. discriminate.
  - apply (cov_pays _ _ _ 0). right. exists q. split; [auto|]. split; [lia|]. split; [|lia]. apply (point_up x (depth_of t) (sp_state t) (sp_value t) q); auto; [exact (proj1 (Forall_forall _ _) HF q Hq)|lia].
Qed.

Lemma discard_compiling n st t p d : (1 <= n)%nat -> breachable S eqb cfg n 1 st -> c_interrupted (k_c (q_crit st)) = false -> q_threads st = [mk_bth p d] ->
  (p = BStart t \/ (exists y, p = BRelax t y) \/ exists y, p = BRestrict t y) ->
  forall q i ds x, genuine q -> (depth_of t < depth_of q)%nat -> lookup (q_table st) (depth_of q) (sp_state q) = Some i -> sp_value q <= b_theta i ->
  completes q ds x -> pays (content (KF (q_crit st))) (LB (q_crit st)) x.
Proof.
  intros Hn Hr Hint Et Hp q i ds x Hq Hd Hi Hv Hc. destruct (reachable_seq n st Hn Hr) as (I1 & t' & Et' & J1). rewrite Et in Et'. injection Et' as <-. specialize (J1 Hint). cbn [u_pc] in J1.
  assert (HE : excused (content (KF (q_crit st))) t (q_table st) (LB (q_crit st))) by (destruct Hp as [->|[(y & ->)|(y & ->)]]; cbn [seq_ok] in J1; tauto).
  destruct (HE _ _ i _ x Hi Hv (node_point q ds x Hq Hc)) as [H|[(_ & H)|(H & _)]].
  - eapply cov_pays. eapply cov_deeper; [|exact H]. lia.
  - destruct (twin_good _ _ _ _ x _ (i_gen _ _ _ _ _ _ _ _ _ _ I1) H Hv (node_point q ds x Hq Hc)) as (q' & q1 & q2 & q3). apply (cov_pays _ _ _ 0). right. exists q'. split; [auto|]. split; [lia|auto].
  - lia.
Qed.

(** * Interrupted runs *)
Definition inv3 (st : state) : Prop :=
  c_interrupted (k_c (q_crit st)) = true -> ball_done cfg st /\ forall ds x, solution ds x -> x <= LB (q_crit st) \/ x <= c_ub (k_c (q_crit st)).
Lemma move_inv3 st st' : inv1 st -> seq st -> move st st' -> inv3 st -> inv3 st'.
Proof.
  intros HI (t & Et & HJ) HM Hi. destruct (c_interrupted (k_c (q_crit st))) eqn:Ei.
  - exfalso. destruct (Hi Ei) as (Hd & _). unfold ball_done in Hd.
    destruct HM as [l1 l2 p p' d d' k' T' E Hlk Ha | l1 l2 n x d c' g E _ _ _ _ _ _ _ _ _ _].
    + assert (H := Hd (mk_bth p d)). rewrite E in H. assert (Hp : p = BDone) by (apply H; apply in_app_iff; right; left; reflexivity). subst p. inversion Ha.
    + assert (H := Hd (mk_bth (BNotify n x) d)). rewrite E in H. assert (Hp : BNotify n x = BDone) by (apply H; apply in_app_iff; right; left; reflexivity). discriminate.
  - intros Hint. specialize (HJ eq_refl). destruct HM as [l1 l2 p p' d d' k' T' E Hlk Ha | l1 l2 n x d c' g E Hlk h1 h2 h3 h4 h5 h6 h7 h8 h9]; cbn [q_crit k_c] in *; [|congruence].
    rewrite Et in E. destruct l1 as [|? [|? ?]]; cbn in E; try discriminate. injection E as -> <-. cbn [u_pc app] in *.
    assert (Hon := i_on _ _ _ _ _ _ _ _ _ _ HI). rewrite Et in Hon.
    inversion Ha; subst; unfold ParFacts.upd_of, set_fringe, with_c, with_ubound in *; cbn [k_c c_interrupted] in *; try congruence; try (intuition congruence).
    match goal with H : c_ongoing (k_c (q_crit st)) = 0%nat -> _ |- _ => destruct H as (p & Hp1 & Hp2 & Hp3); [rewrite Hon; reflexivity|] end.
    split; [intros t [<-|[]]; reflexivity|]. intros ds x Hx. cbn [seq_ok] in HJ. destruct HJ as (g1 & g2).
    destruct (g1 ds x Hx) as [Hy|(q & Hq & _ & _ & Hu)]; [left; cbn in *; lia|]. right. specialize (Hp3 q Hq). cbn in *. lia.
Qed.
Lemma interrupted_bound n st : (1 <= n)%nat -> breachable S eqb cfg n 1 st -> binterrupted cfg st ->
  forall ds x, solution ds x -> x <= LB (q_crit st) \/ x <= c_ub (k_c (q_crit st)).
Proof.
  intros Hn (st0 & E & Hr) (_ & Hint). assert (inv3 st) as H; [|apply H; exact Hint]. clear Hint.
  assert (Hr0 : breachable S eqb cfg n 1 st0) by (exists st0; split; [auto|constructor]).
  assert (H0 : inv3 st0).
  { destruct (initial_ok S eqb cfg at_depth nv C merging inv content G n 1) as (st0' & E' & _ & _ & _ & _ & _ & _ & e7 & _). rewrite E in E'. injection E' as <-. intros Hx. congruence. }
  induction Hr as [st0|st0 st1 st2 Hr IH H]; [exact H0|]. assert (I1 := IH E Hr0 H0). assert (Hr1 : breachable S eqb cfg n 1 st1) by (exists st0; auto).
  destruct (reachable_seq n st1 Hn Hr1) as (A1 & A2). destruct H as [H|H].
  - eapply move_inv3; eauto. eapply step_move; eauto.
  - destruct (spurious_seq _ _ A1 A2 H).
Qed.
End Seq.
