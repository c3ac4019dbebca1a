(** The compilation of src/mdd/with_barrier.rs among other threads: proofs. *)
From Verif Require Import Spec Dd DdSpec FlagsFacts MddAll MddAllProofs DdFacts DdLoop DdFinal MddAllObs MddBarrier BarWp MddBarrierObs MddBarrierProofs MddBarrierSpec.
Open Scope Z_scope.

Section Runs.
Variable S : Type.
Variable eqb : S -> S -> bool.
Variable L : nat.
Variable G : nat -> S -> info -> Prop.
Notation thresholds := (thresholds S).
Notation prog := (prog S).

Lemma meanwhile_env solo T T' : length T = L -> meanwhile S solo T T' -> length T' = L /\ (solo = true -> T' = T).
Proof. intros HL. destruct solo; cbn; [intros ->; auto|]. intros ->. split; [exact HL|discriminate]. Qed.

Lemma wp_gets solo {A} (p : prog A) T p' T' Q : gets eqb solo p T p' T' -> length T = L ->
  wp S eqb solo L G p T Q -> length T' = L /\ wp S eqb solo L G p' T' Q.
Proof.
  intros H. induction H as [p T|p T T1 p' T' pn Tn Hm Ha H IH]; intros HL Hw; [auto|].
  destruct (meanwhile_env _ _ _ HL Hm) as [HL1 He]. assert (X := wp_access S eqb solo L G p T T1 Q Hw HL1 He).
  destruct p; try (discriminate Ha); destruct X as (p2 & T2 & h1 & h2 & h3); rewrite Ha in h1; injection h1 as <- <-; apply IH; assumption.
Qed.
Lemma wp_returns solo {A} (p : prog A) T a T' Q : returns eqb solo p T a T' -> length T = L -> wp S eqb solo L G p T Q -> Q a T'.
Proof. intros H HL Hw. destruct (wp_gets _ _ _ _ _ _ H HL Hw) as [_ X]. exact X. Qed.
Lemma wp_no_panic solo {A} (p : prog A) T p' T' T1 Q : gets eqb solo p T p' T' -> length T = L -> wp S eqb solo L G p T Q -> meanwhile S solo T' T1 ->
  (exists a, p' = Ret a) \/ exists p2 T2, access eqb p' T1 = Some (p2, T2).
Proof.
  intros H HL Hw Hm. destruct (wp_gets _ _ _ _ _ _ H HL Hw) as [HL' X]. destruct (meanwhile_env _ _ _ HL' Hm) as [HL1 He].
  assert (Y := wp_access S eqb solo L G p' T' T1 Q X HL1 He). destruct p'; try (left; eexists; reflexivity); right; destruct Y as (p2 & T2 & h1 & _); eauto.
Qed.
Lemma wp_runs solo {A} (p : prog A) : forall T Q, length T = L -> wp S eqb solo L G p T Q -> exists a T', returns eqb solo p T a T'.
Proof.
  assert (X : forall p2 T T1 T2 Q (p1 : prog A), length T = L -> wp S eqb solo L G p1 T Q -> meanwhile S solo T T1 -> access eqb p1 T1 = Some (p2, T2) ->
     (forall T Q, length T = L -> wp S eqb solo L G p2 T Q -> exists a T', returns eqb solo p2 T a T') -> exists a T', returns eqb solo p1 T a T').
  { intros p2 T T1 T2 Q p1 HL Hw Hm Ha IH. assert (Hg : gets eqb solo p1 T p2 T2) by (econstructor; [exact Hm|exact Ha|constructor]).
    destruct (wp_gets _ _ _ _ _ _ Hg HL Hw) as [HL2 Hw2]. destruct (IH _ _ HL2 Hw2) as (a & T' & H). exists a, T'. econstructor; [exact Hm|exact Ha|exact H]. }
  assert (Hid : forall T, meanwhile S solo T T) by (intros T; destruct solo; reflexivity).
  induction p as [a| |d k IH|d s k IH|d s i k IH]; intros T Q HL Hw.
  - exists a, T. constructor.
  - destruct Hw.
  - destruct (wp_no_panic solo (IsEmpty d k) T _ _ T Q (gets_refl _ _ _ _ _) HL Hw (Hid T)) as [[a Ha]|(p2 & T2 & Ha)]; [discriminate|].
    eapply X; eauto. cbn [access] in Ha. destruct (nth_error T d); [|discriminate]. injection Ha as <- <-. apply IH.
  - destruct (wp_no_panic solo (Get d s k) T _ _ T Q (gets_refl _ _ _ _ _) HL Hw (Hid T)) as [[a Ha]|(p2 & T2 & Ha)]; [discriminate|].
    eapply X; eauto. cbn [access] in Ha. destruct (nth_error T d); [|discriminate]. injection Ha as <- <-. apply IH.
  - destruct (wp_no_panic solo (Put d s i k) T _ _ T Q (gets_refl _ _ _ _ _) HL Hw (Hid T)) as [[a Ha]|(p2 & T2 & Ha)]; [discriminate|].
    eapply X; eauto. cbn [access] in Ha. destruct (nth_error T d); [|discriminate]. cbn [obind] in Ha. destruct (upd T d _); [|discriminate]. injection Ha as <- <-. apply IH.
Qed.

(** What is written when nobody else writes. *)
Lemma wp_kept {A} (p : prog A) T p' T' Q : (forall a b, eqb a b = true <-> a = b) -> gets eqb true p T p' T' -> length T = L ->
  wp S eqb true L G p T Q -> forall k s, lookup S eqb T' k s = lookup S eqb T k s \/ exists i, G k s i.
Proof.
  intros Heq H. induction H as [p T|p T T1 p' T' pn Tn Hm Ha H IH]; intros HL Hw k s; [auto|]. cbn in Hm. subst T1.
  destruct (wp_gets true p T p' T' Q ltac:(econstructor; [reflexivity|exact Ha|constructor]) HL Hw) as [HL' Hw'].
  destruct (IH HL' Hw' k s) as [->|X]; [|right; exact X].
  destruct p as [a| |d f|d s0 f|d s0 i f]; cbn [access] in Ha; try discriminate.
  - destruct (nth_error T d); [|discriminate]. injection Ha as _ ->. auto.
  - destruct (nth_error T d); [|discriminate]. injection Ha as _ ->. auto.
  - destruct (nth_error T d) as [l|] eqn:El; [|discriminate]. cbn [obind] in Ha. destruct (upd T d _) as [T2|] eqn:Eu; [|discriminate]. injection Ha as _ ->.
    rewrite (lookup_put S eqb Heq _ _ _ _ _ _ k s El Eu). destruct (Nat.eqb_spec k d) as [->|]; [|auto]. cbn [andb]. destruct (eqb s0 s) eqn:Es; [|auto].
    apply Heq in Es. subst s0. right. exists i. destruct Hw as (_ & h & _). exact h.
Qed.

(** No execution goes on forever. *)
Lemma prog_finite {A} (p : prog A) : forall (f : nat -> prog A), f 0%nat = p -> ~ (forall n, exists T T', access eqb (f n) T = Some (f (Datatypes.S n), T')).
Proof.
  induction p as [a| |d k IH|d s k IH|d s i k IH]; intros f E H; destruct (H 0%nat) as (T & T' & H0); rewrite E in H0; cbn [access] in H0; try discriminate.
  - destruct (nth_error T d) as [l|]; [|discriminate]. injection H0 as H0 _. eapply (IH _ (fun n => f (Datatypes.S n))); [symmetry; exact H0|]. intros n. apply H.
  - destruct (nth_error T d) as [l|]; [|discriminate]. injection H0 as H0 _. eapply (IH _ (fun n => f (Datatypes.S n))); [symmetry; exact H0|]. intros n. apply H.
  - destruct (nth_error T d) as [l|]; [|discriminate]. cbn [obind] in H0. destruct (upd T d _); [|discriminate]. injection H0 as H0 _.
    eapply (IH (fun n => f (Datatypes.S n))); [symmetry; exact H0|]. intros n. apply H.
Qed.
End Runs.

Section Diagram.
Variable S : Type.
Variable eqb : S -> S -> bool.
Variable P : problem S.
Variable R : relaxation S.
Variable at_depth : nat -> S -> Prop.
Variable nv : nat -> nat.
Variable C : Z.
Notation L := (Datatypes.S (pb_nb_vars P)).
Notation well_formed := (well_formed S eqb P R at_depth nv C).
Notation well_behaved := (well_behaved S eqb P R at_depth nv C).
Notation good_call := (good_call S P R nv).
Notation completes := (completes S P nv).
Notation genuine := (genuine S P nv).
Notation results := (results S eqb P R at_depth nv C).
Notation answered := (answered S P nv).
Notation promised := (promised S eqb P nv).
Notation entry := (entry S eqb).

Lemma barm_wp solo debug orc inp d T : well_formed -> good_call debug orc inp -> length T = L ->
  wp S eqb solo L (fun _ _ _ => True) (compile eqb debug orc inp d) T (results solo inp (g_ctype d) T).
Proof. intros. apply bar_total; auto. Qed.

Lemma barm_no_panic solo debug orc inp d T p' T' T1 : well_formed -> good_call debug orc inp -> length T = L ->
  gets eqb solo (compile eqb debug orc inp d) T p' T' -> meanwhile S solo T' T1 ->
  (exists dF, p' = Ret dF) \/ exists p2 T2, access eqb p' T1 = Some (p2, T2).
Proof. intros. eapply wp_no_panic; eauto. apply barm_wp; assumption. Qed.
Lemma barm_returns solo debug orc inp d T : well_formed -> good_call debug orc inp -> length T = L ->
  exists dF T', returns eqb solo (compile eqb debug orc inp d) T dF T'.
Proof. intros. eapply wp_runs; eauto. apply barm_wp; assumption. Qed.
Lemma barm_results solo debug orc inp d T dF T' : well_formed -> good_call debug orc inp -> length T = L ->
  returns eqb solo (compile eqb debug orc inp d) T dF T' -> results solo inp (g_ctype d) T dF T'.
Proof. intros. eapply wp_returns; eauto. apply barm_wp; assumption. Qed.

Lemma lookup_entry T k s i : lookup S eqb T k s = Some i <-> entry T k s i.
Proof.
  unfold lookup, MddBarrierSpec.entry. split.
  - destruct (nth_error T k) as [l|]; [eauto|discriminate].
  - intros (l & -> & H). exact H.
Qed.
Lemma alt_answered T dF x r : alt S eqb P at_depth nv C T dF x r -> promised T x r \/ answered dF x r.
Proof.
  intros [(k & s & i & v & h1 & h2 & h3 & _ & _ & ds & c & h4 & h5)|[H|(h1 & l & d2 & q & h2 & h3 & h4 & (_ & _ & ds & c & h5 & h6) & h7)]].
  - left. exists k, s, i, ds, c. split; [exact h1|]. split; [apply lookup_entry; exact h2|]. split; [exact h4|lia].
  - right. left. exact H.
  - right. right. split; [exact h1|]. exists l, d2, q, ds, (sp_value q + c). split; [exact h2|]. split; [exact h3|]. split; [exact h4|].
    split; [exists c; auto|]. split; [exact h6|exact h7].
Qed.

Lemma genuine_point q ds x : well_formed -> genuine q -> completes q ds x -> point S P at_depth nv C x (depth_of q) (sp_state q) (sp_value q).
Proof.
  intros [H1 H2 H3 H4] Hg (c & Hc & ->). destruct Hg as (ds0 & c0 & _ & Hr & Hv).
  destruct (run_bound S eqb H1 P R at_depth nv C H2 H4 _ _ _ _ _ _ Hr (wf_init _ _ _ _ H2)) as ((_ & Hat & _) & Hb).
  assert (H6 := bd_init _ _ _ _ _ _ H4). split; [|split; [exact Hat|exists ds, c; split; [exact Hc|lia]]].
  unfold vbound. rewrite Hv, Nat.sub_0_r in *. lia.
Qed.

Lemma barm_feasible solo debug orc inp d T dF T' : well_formed -> good_call debug orc inp -> length T = L ->
  returns eqb solo (compile eqb debug orc inp d) T dF T' -> i_type inp <> Relaxed \/ g_exact dF = true ->
  (best_value dF = Some None /\ best_solution dF = Some None) \/
  (exists v l, best_value dF = Some (Some v) /\ best_solution dF = Some (Some l) /\ reported_solution S P nv l v /\
     exists ds, completes (i_res inp) ds v).
Proof.
  intros Hf Hg HL Hr Hx. eapply bar_feasible; [exact Hf|exact (gc_res _ _ _ _ _ _ _ Hg)| |exact Hx]. eapply barm_results; eauto.
Qed.
Lemma barm_cut solo debug orc inp d T dF T' : well_formed -> good_call debug orc inp -> length T = L ->
  returns eqb solo (compile eqb debug orc inp d) T dF T' ->
  exists l d2, drain_cutset dF = Some (l, d2) /\
    forall q, In q l -> genuine q /\ descends S P nv (i_res inp) q /\ (depth_of (i_res inp) < depth_of q)%nat.
Proof.
  intros Hf Hg HL Hr. destruct (bar_cut S eqb P R at_depth nv C solo inp (g_ctype d) T dF T' Hf (gc_res _ _ _ _ _ _ _ Hg)) as (_ & l & d2 & h1 & _ & h2); [eapply barm_results; eauto|]. eauto.
Qed.
Lemma barm_covers debug orc inp d T dF T' ds x : well_behaved -> good_call debug orc inp -> length T = L ->
  returns eqb true (compile eqb debug orc inp d) T dF T' ->
  i_type inp = Relaxed /\ (g_ctype d = LastExactLayer \/ forall s s', at_depth (pb_nb_vars P) s -> at_depth (pb_nb_vars P) s' -> s = s') \/ i_type inp <> Relaxed /\ g_exact dF = true ->
  completes (i_res inp) ds x -> i_lb inp < x ->
  promised T x (Datatypes.S (depth_of (i_res inp))) \/ answered dF x (Datatypes.S (depth_of (i_res inp))).
Proof.
  intros Hw Hg HL Hr Hc Hx Hl. assert (Hf := wb_formed _ _ _ _ _ _ _ Hw). apply alt_answered.
  eapply bar_root; [exact Hw|eapply barm_results; eauto|exact Hc|exact Hl|].
  eapply genuine_point; [exact Hf|exact (gc_res _ _ _ _ _ _ _ Hg)|exact Hx].
Qed.
Lemma barm_entry debug orc inp d T dF T' k s i q ds x : well_behaved -> good_call debug orc inp -> length T = L ->
  returns eqb true (compile eqb debug orc inp d) T dF T' -> i_type inp = Relaxed ->
  (g_ctype d = LastExactLayer \/ forall s s', at_depth (pb_nb_vars P) s -> at_depth (pb_nb_vars P) s' -> s = s') ->
  entry T' k s i -> ~ entry T k s i ->
  genuine q -> depth_of q = k -> sp_state q = s -> sp_value q <= b_theta i -> completes q ds x -> i_lb inp < x ->
  promised T x (Datatypes.S k) \/ answered dF x (Datatypes.S k) \/
  (b_explored i = false /\ g_exact dF = false /\
   exists l d2 q', drain_cutset dF = Some (l, d2) /\ In q' l /\ depth_of q' = k /\ sp_state q' = s /\ b_theta i <= sp_value q' /\ x <= sp_ub q').
Proof.
  intros Hw Hg HL Hr Ht Hct He Hne Hq Hk Hs Hv Hc Hl. assert (Hf := wb_formed _ _ _ _ _ _ _ Hw).
  assert (Hres := barm_results _ _ _ _ _ _ _ _ Hf Hg HL Hr).
  destruct (bar_entry S eqb P R at_depth nv C inp (g_ctype d) T dF T' k s Hw Hres Ht Hct) as [H|(j & h1 & h2 & h3)].
  - exfalso. apply Hne. apply lookup_entry. rewrite <- H. apply lookup_entry. exact He.
  - apply lookup_entry in He. rewrite h1 in He. injection He as ->. subst k s.
    destruct (h3 x (sp_value q) Hl Hv (genuine_point q ds x Hf Hq Hc)) as [H|H]; [|right; right; exact H].
    apply alt_answered in H. tauto.
Qed.
Lemma barm_written debug orc inp d T dF T' k s i : well_formed -> good_call debug orc inp -> length T = L ->
  returns eqb true (compile eqb debug orc inp d) T dF T' ->
  entry T' k s i -> ~ entry T k s i -> i_type inp = Relaxed /\ (depth_of (i_res inp) <= k)%nat.
Proof.
  intros Hf Hg HL Hr He Hne.
  assert (Hw : wp S eqb true L (fun k s i => i_type inp = Relaxed /\ (depth_of (i_res inp) <= k)%nat) (compile eqb debug orc inp d) T (results true inp (g_ctype d) T)) by (apply bar_total; auto).
  destruct (wp_kept S eqb L _ _ T _ T' _ (wfd_eqb _ _ _ _ _ _ _ Hf) Hr HL Hw k s) as [H|[j H]]; [|exact H].
  exfalso. apply Hne. apply lookup_entry. rewrite <- H. apply lookup_entry. exact He.
Qed.
Lemma barm_erased debug orc inp d T dF T' k s i : well_formed -> good_call debug orc inp -> length T = L ->
  returns eqb true (compile eqb debug orc inp d) T dF T' -> i_type inp <> Relaxed \/ (k < depth_of (i_res inp))%nat ->
  entry T k s i -> entry T' k s i.
Proof.
  intros Hf Hg HL Hr Hx He.
  assert (Hw : wp S eqb true L (fun k s i => i_type inp = Relaxed /\ (depth_of (i_res inp) <= k)%nat) (compile eqb debug orc inp d) T (results true inp (g_ctype d) T)) by (apply bar_total; auto).
  destruct (wp_kept S eqb L _ _ T _ T' _ (wfd_eqb _ _ _ _ _ _ _ Hf) Hr HL Hw k s) as [H|[j [h1 h2]]]; [|exfalso; destruct Hx; [contradiction|lia]].
  apply lookup_entry. rewrite H. apply lookup_entry. exact He.
Qed.
End Diagram.
