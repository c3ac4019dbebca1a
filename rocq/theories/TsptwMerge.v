(** Merging in the TSPTW example: what the merged state is, and that it simulates the states it stands for. *)
From Verif Require Import TsptwSpec BitsFacts MatrixFacts TsptwFacts DdSpec.
Open Scope Z_scope.

Section Merge.
Variable debug : bool.
Variable I : tw_inst.
Variable M : Z.
Hypothesis Hok : tw_inst_ok I M.
Notation n := (tw_n I).
Notation P := (tw_problem debug I).
Notation layer := (tw_layer I M).
Notation may_be_at := (may_be_at I).
Notation covers := (covers I).
Notation late s := (match tw_el s with FixedAmount d => d | FuzzyAmount _ l => l end).

(** Running the helper over the states. *)
Record tracked (l : list tw_state) (h h' : tw_helper) : Prop := {
  tr_depth : forall k, Forall (fun s => tw_depth s = k) l -> l <> [] -> (h_depth h <= k)%nat -> h_depth h' = k;
  tr_pos : forall i, (i < n)%nat -> (bs_get (h_pos h') i = true <-> bs_get (h_pos h) i = true \/ exists s, In s l /\ may_be_at s i);
  tr_early : h_earliest h' <= h_earliest h /\ (forall s, In s l -> h_earliest h' <= time_of s) /\ (h_earliest h' = h_earliest h \/ exists s, In s l /\ h_earliest h' = time_of s);
  tr_late : h_latest h <= h_latest h' /\ (h_latest h' = h_latest h \/ exists s, In s l /\ h_latest h' = late s);
  tr_must : forall i, bs_get (h_must h') i = true <-> bs_get (h_must h) i = true \/ exists s, In s l /\ must_visit s i;
  tr_agree : forall i, bs_get (h_agree h') i = true <-> bs_get (h_agree h) i = true /\ forall s, In s l -> must_visit s i;
  tr_maybe : forall i, bs_get (h_maybe h') i = true <-> bs_get (h_maybe h) i = true \/ exists s, In s l /\ may_visit s i }.

Lemma track_all l : forall h, tracked l h (fold_left helper_track l h).
Proof.
  induction l as [|s l IH]; intros h; cbn [fold_left].
  - constructor; try (intros i; intros; split; [tauto|]; intros [Hx|(s & [] & _)]; exact Hx).
    + intros k _ H. congruence.
    + split; [lia|]. split; [intros s []|left; reflexivity].
    + split; [lia|left; reflexivity].
    + intros i. split; [intros H; split; [exact H|intros s []]|tauto].
  - destruct (IH (helper_track h s)) as [K1 K2 K3 K4 K5 K6 K7]. constructor.
    + intros k HF _ Hk. inversion HF as [|? ? Hd HF']; subst. destruct l as [|s2 l2].
      * cbn [fold_left helper_track h_depth]. lia.
      * apply K1; [exact HF'|discriminate|]. cbn [helper_track h_depth]. lia.
    + intros i Hi. rewrite (K2 i Hi). cbn [helper_track h_pos]. unfold TsptwSpec.may_be_at at 2.
      assert (E : bs_get (match tw_pos s with AtNode x => bs_on (h_pos h) x | Virtual xs => N.lor (h_pos h) xs end) i = true <-> bs_get (h_pos h) i = true \/ may_be_at s i).
      { unfold TsptwSpec.may_be_at. destruct (tw_pos s) as [x|xs]; [rewrite get_on, orb_true_iff, Nat.eqb_eq; tauto|rewrite get_or, orb_true_iff; tauto]. }
      rewrite E. split.
      * intros [[H|H]|(s' & H1 & H2)]; [left; exact H|right; exists s; split; [left; reflexivity|exact H]|right; exists s'; split; [right; exact H1|exact H2]].
      * intros [H|(s' & [<-|H1] & H2)]; [left; left; exact H|left; right; exact H2|right; eauto].
    + cbn [helper_track h_earliest] in K3. fold (time_of s) in *.
      assert (E : match tw_el s with FixedAmount d => Z.min (h_earliest h) d | FuzzyAmount e _ => Z.min (h_earliest h) e end = Z.min (h_earliest h) (time_of s)) by (unfold time_of; destruct (tw_el s); reflexivity).
      rewrite E in K3. destruct K3 as (H1 & H2 & H3). split; [lia|]. split.
      * intros s' [<-|H]; [lia|auto].
      * destruct H3 as [H3|(s' & H3 & H4)]; [|right; exists s'; split; [right; exact H3|exact H4]].
        destruct (Z.min_spec (h_earliest h) (time_of s)) as [[_ Em]|[_ Em]]; rewrite Em in H3; [left; exact H3|right; exists s; split; [left; reflexivity|exact H3]].
    + cbn [helper_track h_latest] in K4.
      assert (E : match tw_el s with FixedAmount d => Z.max (h_latest h) d | FuzzyAmount _ l => Z.max (h_latest h) l end = Z.max (h_latest h) (late s)) by (destruct (tw_el s); reflexivity).
      rewrite E in K4. destruct K4 as (H1 & H2). split; [lia|].
      destruct H2 as [H2|(s' & H2 & H3)]; [|right; exists s'; split; [right; exact H2|exact H3]].
      destruct (Z.max_spec (h_latest h) (late s)) as [[_ Em]|[_ Em]]; rewrite Em in H2; [right; exists s; split; [left; reflexivity|exact H2]|left; exact H2].
    + intros i. rewrite K5. cbn [helper_track h_must]. rewrite get_or, orb_true_iff. fold (must_visit s i). split.
      * intros [[H|H]|(s' & H1 & H2)]; [left; exact H|right; exists s; split; [left; reflexivity|exact H]|right; exists s'; split; [right; exact H1|exact H2]].
      * intros [H|(s' & [<-|H1] & H2)]; [left; left; exact H|left; right; exact H2|right; eauto].
    + intros i. rewrite K6. cbn [helper_track h_agree]. rewrite get_and, andb_true_iff. fold (must_visit s i). split.
      * intros [[H1 H2] H3]. split; [exact H1|]. intros s' [<-|H]; auto.
      * intros [H1 H2]. split; [split; [exact H1|apply H2; left; reflexivity]|]. intros s' H. apply H2. right. exact H.
    + intros i. rewrite K7. cbn [helper_track h_maybe].
      assert (E : bs_get (match tw_maybe s with Some m => N.lor (h_maybe h) m | None => h_maybe h end) i = true <-> bs_get (h_maybe h) i = true \/ may_visit s i).
      { unfold may_visit. destruct (tw_maybe s) as [m|].
        - rewrite get_or, orb_true_iff. split; [intros [H|H]; [left; exact H|right; eauto]|intros [H|(m' & E & H)]; [left; exact H|inversion E; subst; right; exact H]].
        - split; [tauto|]. intros [H|(m' & E & _)]; [exact H|discriminate]. }
      rewrite E. split.
      * intros [[H|H]|(s' & H1 & H2)]; [left; exact H|right; exists s; split; [left; reflexivity|exact H]|right; exists s'; split; [right; exact H1|exact H2]].
      * intros [H|(s' & [<-|H1] & H2)]; [left; left; exact H|left; right; exact H2|right; eauto].
Qed.

(** The merged state. *)
Record merged_from (l : list tw_state) (m : tw_state) : Prop := {
  mg_pos : forall i, may_be_at m i <-> exists s, In s l /\ may_be_at s i;
  mg_time : (forall s, In s l -> time_of m <= time_of s) /\ exists s, In s l /\ time_of m = time_of s;
  mg_must : forall i, must_visit m i <-> forall s, In s l -> must_visit s i;
  mg_may : forall i, may_visit m i <-> (exists s, In s l /\ (must_visit s i \/ may_visit s i)) /\ ~ must_visit m i }.

Lemma merge_spec k l : (k <= n)%nat -> l <> [] -> Forall (layer k) l -> merged_from l (tw_merge I l) /\ layer k (tw_merge I l).
Proof.
  intros HkN Hne HF. rewrite Forall_forall in HF. destruct l as [|s0 l0]; [congruence|]. set (l := s0 :: l0) in *.
  assert (H0 : In s0 l) by (left; reflexivity). pose proof (HF s0 H0) as HL0.
  set (h := fold_left helper_track l (helper_new I)). destruct (track_all l (helper_new I)) as [K1 K2 K3 K4 K5 K6 K7]. fold h in K1, K2, K3, K4, K5, K6, K7.
  cbn [helper_new h_depth h_pos h_earliest h_latest h_must h_agree h_maybe] in *.
  set (m := tw_merge I l). set (mb := N.lxor (N.lor (h_maybe h) (h_must h)) (h_agree h)).
  assert (Epos : tw_pos m = Virtual (h_pos h)) by reflexivity.
  assert (Emust : tw_must m = h_agree h) by reflexivity.
  assert (Emay : tw_maybe m = if (0 <? bs_count n mb)%nat then Some mb else None) by reflexivity.
  assert (Ed : tw_depth m = k). { apply K1; [|discriminate|lia]. apply Forall_forall. intros s Hs. apply (tl_depth _ _ _ _ (HF s Hs)). }
  assert (Et : time_of m = h_earliest h). { unfold time_of, m, tw_merge. cbn [tw_el]. fold l. fold h. destruct (h_earliest h =? h_latest h); reflexivity. }
  assert (HM := M_pos I M Hok).
  assert (Hbig : forall s, In s l -> time_of s <= UMAX).
  { intros s Hs. pose proof (tl_time _ _ _ _ (HF s Hs)). pose proof (io_range _ _ Hok).
    assert (Hi : IMAX <= UMAX) by (unfold IMAX, UMAX; lia). assert ((Z.of_nat k + 1) * M <= (Z.of_nat n + 2) * ((Z.of_nat n + 1) * M)); [|lia]. nia. }
  destruct K3 as (E1 & E2 & E3). assert (E3' : exists s, In s l /\ h_earliest h = time_of s).
  { destruct E3 as [E3|E3]; [|exact E3]. exists s0. split; [exact H0|]. pose proof (E2 s0 H0). pose proof (Hbig s0 H0). lia. }
  assert (Hmust : forall i, must_visit m i <-> forall s, In s l -> must_visit s i).
  { intros i. unfold must_visit at 1. rewrite Emust, K6, get_all. split; [tauto|]. intros H. split; [|exact H]. apply Nat.ltb_lt. pose proof (tl_must _ _ _ _ HL0 i (H s0 H0)). lia. }
  assert (Hmb : forall i, bs_get mb i = true <-> (exists s, In s l /\ (must_visit s i \/ may_visit s i)) /\ ~ must_visit m i).
  { intros i. unfold mb. rewrite get_xor, get_or.
    assert (Ha : bs_get (h_agree h) i = true <-> must_visit m i) by (unfold must_visit; rewrite Emust; tauto).
    assert (Hu : bs_get (h_maybe h) i || bs_get (h_must h) i = true <-> exists s, In s l /\ (must_visit s i \/ may_visit s i)).
    { rewrite orb_true_iff, K5, K7, get_none. split.
      - intros [[H|(s & H1 & H2)]|[H|(s & H1 & H2)]]; try discriminate; exists s; auto.
      - intros (s & H1 & [H2|H2]); [right; right; eauto|left; right; eauto]. }
    assert (Hin : must_visit m i -> exists s, In s l /\ (must_visit s i \/ may_visit s i)). { intros H. exists s0. split; [exact H0|left; apply Hmust; assumption]. }
    destruct (bs_get (h_maybe h) i || bs_get (h_must h) i) eqn:Eb; destruct (bs_get (h_agree h) i) eqn:Ea; cbn [xorb].
    - split; [discriminate|]. intros [_ H]. exfalso. apply H, Ha. reflexivity.
    - split; [intros _|reflexivity]. split; [apply Hu; reflexivity|]. intros H. apply Ha in H. discriminate.
    - exfalso. assert (false = true); [|discriminate]. apply Hu, Hin, Ha. reflexivity.
    - split; [discriminate|]. intros [H _]. apply Hu in H. discriminate. }
  assert (Hmay : forall i, may_visit m i <-> (exists s, In s l /\ (must_visit s i \/ may_visit s i)) /\ ~ must_visit m i).
  { intros i. rewrite <- Hmb. unfold may_visit. rewrite Emay. destruct (0 <? bs_count n mb)%nat eqn:Ec.
    - split; [intros (x & E & H); inversion E; subst; exact H|]. intros H. exists mb. auto.
    - split; [intros (x & E & _); discriminate|]. intros H. exfalso. assert (false = true); [|discriminate]. rewrite <- Ec. apply count_pos.
      exists i. split; [|exact H]. apply Hmb in H as [(s & Hs & [H|H]) _]; [apply (tl_must _ _ _ _ (HF s Hs)) in H|apply (tl_maybe _ _ _ _ (HF s Hs)) in H]; lia. }
  assert (Hpos : forall i, may_be_at m i <-> exists s, In s l /\ may_be_at s i).
  { intros i. unfold TsptwSpec.may_be_at at 1. rewrite Epos. split.
    - intros [Hi H]. apply (K2 i Hi) in H as [H|H]; [discriminate|exact H].
    - intros (s & Hs & H). pose proof (tl_virt _ _ _ _ (HF s Hs) i H) as Hi. split; [exact Hi|]. apply (K2 i Hi). right. eauto. }
  split.
  - constructor; auto. rewrite Et. split; [exact E2|exact E3'].
  - constructor; auto.
    + destruct (tl_pos _ _ _ _ HL0) as (i & Hi & H). exists i. split; [exact Hi|]. apply Hpos. eauto.
    + intros i H. apply Hpos in H as (s & Hs & H). apply (tl_virt _ _ _ _ (HF s Hs) i H).
    + rewrite Et. destruct E3' as (s & Hs & ->). apply (tl_time _ _ _ _ (HF s Hs)).
    + unfold m, tw_merge. cbn [tw_el]. fold l. fold h. destruct (h_earliest h =? h_latest h); [exact Logic.I|].
      destruct K4 as (L1 & [L2|(s & Hs & L2)]); [rewrite L2; nia|]. rewrite L2.
      pose proof (tl_late _ _ _ _ (HF s Hs)) as Hlt. pose proof (tl_time _ _ _ _ (HF s Hs)) as Htm. unfold time_of in Htm. destruct (tw_el s); cbn [el_earliest] in *; assumption.
    + intros i H. apply (tl_must _ _ _ _ HL0 i). apply Hmust; assumption.
    + intros i H. apply Hmay in H as [(s & Hs & [H|H]) _]; [apply (tl_must _ _ _ _ (HF s Hs) i H)|apply (tl_maybe _ _ _ _ (HF s Hs) i H)].
    + intros i H1 H2. apply Hmay in H2 as [_ H2]. contradiction.
Qed.

Lemma merge_covers k l s : (k <= n)%nat -> Forall (layer k) l -> In s l -> covers (tw_merge I l) s.
Proof.
  intros Hk HF Hs. destruct (merge_spec k l Hk ltac:(intros ->; destruct Hs) HF) as [[K1 K2 K3 K4] _]. constructor.
  - intros i H. apply K1. eauto.
  - apply K2. exact Hs.
  - intros i H. apply K3; assumption.
  - intros i H. destruct (bs_get (tw_must (tw_merge I l)) i) eqn:E; [left; exact E|right]. apply K4. split; [eauto|]. unfold must_visit. congruence.
Qed.
Lemma covers_gap k m s j : layer k m -> layer k s -> covers m s -> (j < n)%nat -> gap I m j <= gap I s j.
Proof.
  intros Hm Hs Hc Hj. destruct (gap_spec I M Hok k m j Hm Hj) as (_ & _ & H1). destruct (gap_spec I M Hok k s j Hs Hj) as (_ & (i & Hi & ->) & _).
  apply H1, (cv_pos _ _ _ Hc), Hi.
Qed.
Lemma covers_in_time k m s j : layer k m -> layer k s -> covers m s -> (j < n)%nat -> in_time I s j -> in_time I m j.
Proof. intros Hm Hs Hc Hj H. pose proof (covers_gap k m s j Hm Hs Hc Hj). pose proof (cv_time _ _ _ Hc). unfold in_time in *. lia. Qed.
Lemma covers_allowed k m s j : layer k m -> layer k s -> (k < n)%nat -> covers m s -> allowed I k s j -> allowed I k m j.
Proof.
  intros Hm Hs Hk Hc Hal. pose proof (allowed_lt I M k s j Hs Hk Hal) as Hj. destruct Hal as [H1 H2]. split; [apply (covers_in_time k m s j); assumption|].
  destruct H2 as [H2|(H2 & H3 & H4)]; [left; exact H2|right]. split; [exact H2|]. split; [apply (cv_all _ _ _ Hc), H3|].
  intros i Hi. apply (covers_in_time k m s i); auto; [pose proof (tl_must _ _ _ _ Hm i Hi); lia|]. apply H4, (cv_must _ _ _ Hc), Hi.
Qed.
Lemma covers_step k m s v j : layer k m -> layer k s -> covers m s -> (j < n)%nat ->
  covers (pb_trans P m (mk_dec v (Z.of_nat j))) (pb_trans P s (mk_dec v (Z.of_nat j))).
Proof.
  intros Hm Hs Hc Hj. destruct (trans_spec debug I M Hok k m v j Hm Hj) as [Tm _]. destruct (trans_spec debug I M Hok k s v j Hs Hj) as [Ts _]. constructor.
  - intros i. unfold TsptwSpec.may_be_at. rewrite (mv_pos _ _ _ _ Tm), (mv_pos _ _ _ _ Ts). auto.
  - rewrite (mv_time _ _ _ _ Tm), (mv_time _ _ _ _ Ts). pose proof (covers_gap k m s j Hm Hs Hc Hj). pose proof (cv_time _ _ _ Hc). lia.
  - intros i H. apply (mv_must _ _ _ _ Tm) in H. apply (mv_must _ _ _ _ Ts). split; [apply (cv_must _ _ _ Hc)|]; tauto.
  - intros i H. assert (Hi : (must_visit s i \/ may_visit s i) /\ i <> j).
    { destruct H as [H|H]; [apply (mv_must _ _ _ _ Ts) in H|apply (mv_maybe _ _ _ _ Ts) in H]; tauto. }
    destruct Hi as [Hi Hne]. destruct (cv_all _ _ _ Hc i Hi) as [H'|H']; [left; apply (mv_must _ _ _ _ Tm)|right; apply (mv_maybe _ _ _ _ Tm)]; auto.
Qed.
Lemma covers_run k s ds k' s' c : run tw_state P tw_nv k s ds k' s' c -> forall m, layer k m -> layer k s -> covers m s ->
  exists m' c', run tw_state P tw_nv k m ds k' m' c' /\ covers m' s'.
Proof.
  induction 1 as [k s|k s d ds k' s' c Hk Hd Hr IH]; intros m Hm Hs Hc.
  - exists m, 0. split; [constructor|exact Hc].
  - apply (in_domain debug I M Hok k) in Hd; [|exact Hs|exact Hk]. destruct Hd as (j & -> & Hal). pose proof (allowed_lt I M k s j Hs Hk Hal) as Hj.
    destruct (IH (pb_trans P m (mk_dec (tw_nv k) (Z.of_nat j)))) as (m' & c' & Hr' & Hc').
    + apply (trans_spec debug I M Hok k m _ j Hm Hj).
    + apply (trans_spec debug I M Hok k s _ j Hs Hj).
    + apply (covers_step k); assumption.
    + exists m', (pb_cost P m (mk_dec (tw_nv k) (Z.of_nat j)) + c'). split; [|exact Hc']. constructor; [exact Hk| |exact Hr'].
      apply (in_domain debug I M Hok k); [exact Hm|exact Hk|]. exists j. split; [reflexivity|]. apply (covers_allowed k m s); assumption.
Qed.

(** Every way to finish from a state is a way to finish from the merged state, and finishes no later. *)
Lemma merge_finishes k l s ds c : (k <= n)%nat -> Forall (layer k) l -> In s l -> completion tw_state P tw_nv k s ds c ->
  exists c', completion tw_state P tw_nv k (tw_merge I l) ds c' /\ time_of (tw_merge I l) - c' <= time_of s - c.
Proof.
  intros Hk HF Hs (s' & Hr). destruct (merge_spec k l Hk ltac:(intros ->; destruct Hs) HF) as [_ HLm]. rewrite Forall_forall in HF.
  destruct (covers_run _ _ _ _ _ _ Hr (tw_merge I l) HLm (HF s Hs)) as (m' & c' & Hr' & Hc).
  - apply (merge_covers k); auto. apply Forall_forall. exact HF.
  - exists c'. split; [exists m'; exact Hr'|]. destruct (run_time debug I M Hok _ _ _ _ _ _ Hr (HF s Hs) Hk) as (_ & _ & ->).
    destruct (run_time debug I M Hok _ _ _ _ _ _ Hr' HLm Hk) as (_ & _ & ->). pose proof (cv_time _ _ _ Hc). lia.
Qed.

(** Without waiting, the steps themselves are no longer. *)
Lemma covers_cost : (forall j, (j < n)%nat -> opens I j = 0) -> forall k s ds k' s' c, run tw_state P tw_nv k s ds k' s' c -> forall m, layer k m -> layer k s -> covers m s ->
  exists m' c', run tw_state P tw_nv k m ds k' m' c' /\ c <= c'.
Proof.
  intros Hop. induction 1 as [k s|k s d ds k' s' c Hk Hd Hr IH]; intros m Hm Hs Hc.
  - exists m, 0. split; [constructor|lia].
  - apply (in_domain debug I M Hok k) in Hd; [|exact Hs|exact Hk]. destruct Hd as (j & -> & Hal). pose proof (allowed_lt I M k s j Hs Hk Hal) as Hj.
    destruct (IH (pb_trans P m (mk_dec (tw_nv k) (Z.of_nat j)))) as (m' & c' & Hr' & Hc').
    + apply (trans_spec debug I M Hok k m _ j Hm Hj).
    + apply (trans_spec debug I M Hok k s _ j Hs Hj).
    + apply (covers_step k); assumption.
    + exists m', (pb_cost P m (mk_dec (tw_nv k) (Z.of_nat j)) + c'). split.
      * constructor; [exact Hk| |exact Hr'].
        apply (in_domain debug I M Hok k); [exact Hm|exact Hk|]. exists j. split; [reflexivity|]. apply (covers_allowed k m s); assumption.
      * pose proof (covers_gap k m s j Hm Hs Hc Hj). cbn [tw_problem pb_cost]. rewrite (cost_some I M Hok k m _ j Hm Hj), (cost_some I M Hok k s _ j Hs Hj). cbn [or_else].
        rewrite (Hop j Hj). pose proof (gap_range I M Hok k s j Hs Hj). pose proof (gap_range I M Hok k m j Hm Hj). pose proof (tl_time _ _ _ _ Hs). pose proof (tl_time _ _ _ _ Hm). lia.
Qed.
Lemma cover_no_waiting : (forall j, (j < n)%nat -> opens I j = 0) -> relaxation_cover tw_state P layer tw_nv (tw_relax I).
Proof.
  intros Hop k l src d ds c Hk HL Hd HF Hin (s' & Hr). cbn [tw_relax rx_merge rx_relax]. cbn [tw_problem pb_nb_vars] in Hk.
  destruct (merge_spec (S k) l ltac:(lia) ltac:(intros ->; destruct Hin) HF) as [_ HLm]. pose proof HF as HF'. rewrite Forall_forall in HF'.
  destruct (covers_cost Hop _ _ _ _ _ _ Hr (tw_merge I l) HLm (HF' _ Hin)) as (m' & c' & Hr' & Hc).
  - apply (merge_covers (S k)); auto.
  - exists ds, c'. split; [exists m'; exact Hr'|lia].
Qed.

Lemma tw_eqb_spec a b : tw_eqb a b = true <-> a = b.
Proof.
  unfold tw_eqb. rewrite !andb_true_iff, N.eqb_eq, Nat.eqb_eq. destruct a as [p e mu my d], b as [p' e' mu' my' d']. cbn [tw_pos tw_el tw_must tw_maybe tw_depth].
  assert (E1 : position_eqb p p' = true <-> p = p').
  { destruct p, p'; cbn [position_eqb]; rewrite ?Nat.eqb_eq, ?N.eqb_eq; split; intros H; try congruence; discriminate. }
  assert (E2 : elapsed_eqb e e' = true <-> e = e').
  { destruct e, e'; cbn [elapsed_eqb]; rewrite ?andb_true_iff, ?Z.eqb_eq; split; intros H; try congruence; try discriminate; [destruct H; congruence|inversion H; auto]. }
  assert (E3 : opt_eqb N.eqb my my' = true <-> my = my').
  { destruct my, my'; cbn [opt_eqb]; rewrite ?N.eqb_eq; split; intros H; try congruence; discriminate. }
  rewrite E1, E2, E3. split; [intros ((((-> & ->) & ->) & ->) & ->); reflexivity|]. intros H. inversion H. auto 10.
Qed.

(** The example keeps the rules of the library, except for what C39 and C40 are about. *)
Lemma tsptw_formed : well_formed tw_state tw_eqb P (tw_relax I) layer tw_nv ((Z.of_nat n + 1) * M).
Proof.
  assert (HM := M_pos I M Hok).
  assert (Hcost : forall k s d, (k < n)%nat -> layer k s -> In d (pb_domain P (tw_nv k) s) -> Z.abs (pb_cost P s d) <= (Z.of_nat n + 1) * M).
  { intros k s d Hk HL Hd. apply (in_domain debug I M Hok k) in Hd; [|exact HL|exact Hk]. destruct Hd as (j & -> & Hal). pose proof (allowed_lt I M k s j HL Hk Hal) as Hj.
    rewrite (cost_spec debug I M Hok k s _ j HL Hj). destruct (trans_spec debug I M Hok k s (tw_nv k) j HL Hj) as [Hm HL'].
    pose proof (tl_time _ _ _ _ HL) as H1. pose proof (tl_time _ _ _ _ HL') as H2. nia. }
  constructor.
  - exact tw_eqb_spec.
  - apply wf_tsptw. exact Hok.
  - intros k l Hk Hne HF. cbn [tw_relax rx_merge]. apply merge_spec; assumption.
  - constructor; cbn [tw_problem pb_nb_vars pb_init_val].
    + nia.
    + apply (io_range _ _ Hok).
    + cbn. nia.
    + exact Hcost.
    + intros k l src d Hk HL Hd _ _. cbn [tw_relax rx_relax]. exact (Hcost k src d Hk HL Hd).
Qed.
End Merge.
