(** Thresholds never decrease when one thread works: proofs for src/mdd/with_barrier.rs and src/solver/barrier.rs. *)
From Verif Require Import Spec Dd DdSpec MddAll ParSpec MddBarrier BarWp BarSpec BarSolver MddBarrierSpec MddBarrierRuns.
Open Scope Z_scope.

Lemma stronger_refl i : stronger i i.
Proof. right. auto. Qed.

Section Climb.
Variable S : Type.
Variable eqb : S -> S -> bool.
Hypothesis eqb_spec : forall a b, eqb a b = true <-> a = b.
Notation thresholds := (thresholds S).
Notation prog := (prog S).
Notation lookup := (lookup S eqb).

(** When nobody else writes, [p] only replaces entries by stronger ones. *)
Fixpoint climbs {A} (p : prog A) (T : thresholds) : Prop :=
  match p with
  | Ret _ | Fail => True
  | IsEmpty d k => forall b, climbs (k b) T
  | Get d s k => climbs (k (lookup T d s)) T
  | Put d s i k => (forall i0, lookup T d s = Some i0 -> stronger i0 i) /\ forall T', climbs k T'
  end.

Lemma climbs_bind {A B} (p : prog A) (f : A -> prog B) : (forall a T, climbs (f a) T) -> forall T, climbs p T -> climbs (pbind p f) T.
Proof.
  intros Hf. induction p as [a| |d k IH|d s k IH|d s i k IH]; intros T H; cbn [pbind climbs] in *; auto.
  destruct H as [h1 h2]. split; auto.
Qed.
Lemma climbs_pure {A B} (o : option A) (f : A -> prog B) T : (forall a, climbs (f a) T) -> climbs (pbind (pure o) f) T.
Proof. intros H. destruct o; cbn; auto. Qed.
Lemma climbs_fold {A B} (f : A -> B -> prog A) (l : list B) : (forall a b T, climbs (f a b) T) -> forall a T, climbs (pfold f l a) T.
Proof.
  intros Hf. induction l as [|b l IH]; intros a T; cbn [pfold climbs]; [exact I|]. apply climbs_bind; auto.
Qed.

Lemma climbs_update (d : dd S) depth s theta explored T : climbs (try_update_barrier d depth s theta explored) T.
Proof.
  unfold try_update_barrier. destruct (match g_ctype d with LastExactLayer => _ | Frontier => _ end); cbn [climbs]; [exact I|].
  destruct (lookup T depth s) as [i|] eqn:E; cbn [climbs].
  - destruct ((b_theta i <? theta) || (theta =? b_theta i) && negb (b_explored i) && explored) eqn:Eb; cbn [climbs]; [|exact I]. split; [|intros; exact I].
    intros i0 H0. rewrite E in H0. injection H0 as <-. unfold stronger. cbn.
    apply orb_true_iff in Eb as [Eb|Eb]; [left; lia|]. apply andb_true_iff in Eb as [Eb h3]. apply andb_true_iff in Eb as [h1 h2]. right. split; [lia|auto].
  - split; [|intros; exact I]. intros i0 H0. rewrite E in H0. discriminate.
Qed.

Lemma climbs_retain_node depth (d : dd S) id T : climbs (retain_node depth d id) T.
Proof.
  unfold retain_node. apply climbs_pure. intros n. destruct (is_relaxed (n_flags n)); cbn [climbs]; [exact I|].
  destruct (lookup T depth (n_state n)) as [i|]; cbn [climbs].
  - destruct (b_theta i <? n_value n); cbn [climbs]; [exact I|]. apply climbs_pure. intros; exact I.
  - destruct (IMIN <? n_value n); cbn [climbs]; [exact I|]. apply climbs_pure. intros; exact I.
Qed.
Lemma climbs_retain depth l : forall (d : dd S) T, climbs (retain depth d l) T.
Proof.
  induction l as [|id t IH]; intros d T; cbn [retain climbs]; [exact I|]. apply climbs_bind; [|apply climbs_retain_node].
  intros [d1 b] T1. apply climbs_bind; [|apply IH]. intros [d2 r] T2. exact I.
Qed.
Lemma climbs_prune rd depth (d : dd S) curr T : climbs (prune rd depth d curr) T.
Proof. unfold prune. destruct (rd <? depth)%nat; cbn [climbs]; [|exact I]. intros [|]; [exact I|apply climbs_retain]. Qed.
Lemma climbs_expand inp var depth (d : dd S) id T : climbs (expand_one eqb inp var depth d id) T.
Proof.
  unfold expand_one. apply climbs_pure. intros n. apply climbs_pure. intros d1. apply climbs_pure. intros n1.
  destruct (i_type inp); try exact I. destruct (is_exact (n_flags n1)); [|exact I]. apply climbs_bind; [intros; exact I|apply climbs_update].
Qed.
Lemma climbs_layer orc inp rd depth var (d : dd S) curr T : climbs (layer_step eqb orc inp rd depth var d curr) T.
Proof.
  unfold layer_step. destruct (map snd _) as [|x l]; [exact I|]. apply climbs_bind; [|apply climbs_prune]. intros [d3 c2] T1.
  apply climbs_pure. intros [d4 c3]. apply climbs_bind; [intros; exact I|]. apply climbs_fold. intros. apply climbs_expand.
Qed.
Lemma climbs_layers fuel : forall orc inp rd depth (d : dd S) curr T, climbs (layers eqb fuel orc inp rd depth d curr) T.
Proof.
  induction fuel as [|k IH]; intros; cbn [layers climbs]; [exact I|]. destruct (pb_next_var _ _); [|exact I].
  apply climbs_bind; [|apply climbs_layer]. intros [d1 [c|]] T1; [apply IH|exact I].
Qed.
Lemma climbs_bottom lb (d : dd S) id T : climbs (bottom_up_node lb d id) T.
Proof.
  unfold bottom_up_node. apply climbs_pure. intros n. destruct (is_deleted (n_flags n)); [exact I|]. apply climbs_pure. intros d1. apply climbs_pure. intros n1.
  apply climbs_bind.
  - intros _ T1. destruct (edges_loop _ _ _ _); exact I.
  - destruct (is_exact (n_flags n1) && _); [apply climbs_update|exact I].
Qed.
Lemma climbs_compile debug orc inp (d : dd S) T : climbs (compile eqb debug orc inp d) T.
Proof.
  unfold compile. apply climbs_pure. intros d0. apply climbs_bind; [|apply climbs_layers]. intros [d1 [|]] T1; [exact I|].
  unfold finalize. apply climbs_pure. intros best. apply climbs_pure. intros ex. destruct (i_type inp); try exact I.
  unfold compute_local_bounds_and_theta. apply climbs_pure. intros d2. apply climbs_fold. intros. apply climbs_bottom.
Qed.

Lemma climbs_access {A} (p : prog A) T p' T' : access eqb p T = Some (p', T') -> climbs p T ->
  climbs p' T' /\ forall k s i, lookup T k s = Some i -> exists j, lookup T' k s = Some j /\ stronger i j.
Proof.
  intros Ha Hc. assert (Hid : forall k s i, lookup T k s = Some i -> exists j, lookup T k s = Some j /\ stronger i j) by (intros k s i H; exists i; split; [exact H|apply stronger_refl]).
  destruct p as [a| |d f|d s f|d s i f]; cbn [access climbs] in *; try discriminate.
  - destruct (nth_error T d); [|discriminate]. injection Ha as <- <-. auto.
  - unfold BarWp.lookup in Hc at 1. destruct (nth_error T d); [|discriminate]. injection Ha as <- <-. auto.
  - destruct (nth_error T d) as [l|] eqn:El; [|discriminate]. cbn [obind] in Ha. destruct (upd T d _) as [T2|] eqn:Eu; [|discriminate]. injection Ha as <- <-.
    destruct Hc as [h1 h2]. split; [apply h2|]. intros k s0 j Hj. rewrite (lookup_put S eqb eqb_spec _ _ _ _ _ _ k s0 El Eu).
    destruct (Nat.eqb_spec k d) as [->|]; cbn [andb]; [|eauto using stronger_refl]. destruct (eqb s s0) eqn:Es; [|eauto using stronger_refl].
    apply eqb_spec in Es. subst s0. exists i. split; [reflexivity|]. apply h1. exact Hj.
Qed.
Lemma stronger_trans i j k : stronger i j -> stronger j k -> stronger i k.
Proof. unfold stronger. intros [h1|[h1 h2]] [h3|[h3 h4]]; try (left; lia). right. split; [lia|auto]. Qed.
Lemma climbs_gets {A} (p : prog A) T p' T' : gets eqb true p T p' T' -> climbs p T ->
  forall k s i, lookup T k s = Some i -> exists j, lookup T' k s = Some j /\ stronger i j.
Proof.
  intros H. induction H as [p T|p T T1 p' T' pn Tn Hm Ha H IH]; intros Hc k s i Hi; [exists i; split; [exact Hi|apply stronger_refl]|].
  cbn in Hm. subst T1. destruct (climbs_access _ _ _ _ Ha Hc) as [h1 h2]. destruct (h2 _ _ _ Hi) as (j & h3 & h4).
  destruct (IH h1 _ _ _ h3) as (j2 & h5 & h6). exists j2. split; [exact h5|eapply stronger_trans; eauto].
Qed.

Lemma compile_raised debug orc inp (d : dd S) T dF T' k s i : returns eqb true (compile eqb debug orc inp d) T dF T' ->
  entry S eqb T k s i -> exists j, entry S eqb T' k s j /\ stronger i j.
Proof.
  intros H He. apply lookup_entry in He. destruct (climbs_gets _ _ _ _ H (climbs_compile debug orc inp d T) k s i He) as (j & h1 & h2).
  exists j. split; [apply lookup_entry; exact h1|exact h2].
Qed.

(** ** The solver with one thread *)
Variable cfg : config S.
Definition climbing (st : bstate S cfg) : Prop :=
  exists t, q_threads st = [t] /\
    match u_pc t with
    | BInsert n => forall i, lookup (q_table st) (length (sp_path n)) (sp_state n) = Some i -> stronger i (mk_info (sp_value n) true)
    | BRestrict _ p | BRelaxing _ _ p => climbs p (q_table st)
    | _ => True
    end.

Lemma initial_climbing n st : binitial cfg n 1 = Some st -> climbing st.
Proof.
  unfold binitial. intros H. destruct (fr_push _ _ _); [|discriminate]. cbn [obind] in H. destruct (upd _ _ _); [|discriminate]. injection H as <-.
  eexists. split; [reflexivity|exact I].
Qed.

Definition raised (T T' : thresholds) : Prop := forall k s i j, lookup T k s = Some i -> lookup T' k s = Some j -> stronger i j.
Lemma raised_refl T : raised T T.
Proof. intros k s i j h1 h2. rewrite h1 in h2. injection h2 as ->. apply stronger_refl. Qed.

Lemma step_climbing st st' : climbing st -> bstep S eqb cfg st st' -> climbing st' /\ raised (q_table st) (q_table st').
Proof.
  intros (t & Ht & Hp) (orc & intr & i & _ & H).
  assert (Hi : i = 0%nat). { unfold bthread_step in H. rewrite Ht in H. destruct i as [|[|i]]; [reflexivity| |]; cbn in H; discriminate. } subst i.
  unfold bthread_step in H. rewrite Ht in H. cbn [nth_error] in H. cbv zeta in H.
  assert (Hgo : forall k T t', goto cfg st 0 k T t' = BNext st' -> st' = mk_bst k T [t']).
  { intros k T t' E. unfold goto in E. rewrite Ht in E. injection E as <-. reflexivity. }
  assert (Hin : forall k t', match u_pc t' with BInsert n => False | BRestrict _ p | BRelaxing _ _ p => climbs p (q_table st) | _ => True end -> st' = mk_bst k (q_table st) [t'] ->
    climbing st' /\ raised (q_table st) (q_table st')).
  { intros k t' Hx ->. split; [|apply raised_refl]. exists t'. split; [reflexivity|]. cbn. destruct (u_pc t'); auto; contradiction. }
  assert (Hcr : forall o : option (bcritical S cfg * bthread S), (if locked cfg st then BDisabled else match o with None => BPanic | Some (k', t') => goto cfg st 0 k' (q_table st) t' end) = BNext st' ->
    exists k' t', o = Some (k', t') /\ st' = mk_bst k' (q_table st) [t']).
  { intros o E. destruct (locked cfg st); [discriminate|]. destruct o as [[k' t']|]; [|discriminate]. eauto. }
  assert (Hcomp : forall p f, climbs p (q_table st) -> compile_step eqb cfg st 0 p f (u_dd t) = BNext st' ->
    (exists q, f = BRestrict q) \/ (exists q x, f = BRelaxing q x) -> climbing st' /\ raised (q_table st) (q_table st')).
  { intros p f Hc E Hf. unfold compile_step in E. destruct (access eqb p (q_table st)) as [[p' T']|] eqn:Ea; [|discriminate]. apply Hgo in E. subst st'.
    destruct (climbs_access _ _ _ _ Ea Hc) as [h1 h2]. split.
    - eexists. split; [reflexivity|]. destruct Hf as [[q ->]|(q & x & ->)]; exact h1.
    - intros k s i j h3 h4. cbn in h4. destruct (h2 _ _ _ h3) as (j' & h5 & h6). rewrite h5 in h4. injection h4 as <-. exact h6. }
  destruct (u_pc t) as [| | |n|n|n|n p|n x|n x p|dd0 x|] eqn:Epc; try discriminate.
  - apply (Hcr (Some (_, _))) in H as (k' & t' & E & H). injection E as <- <-. eapply Hin; [|exact H]. exact I.
  - destruct (clean_turn cfg (q_crit st) (q_table st)) as [[[k' T']|]|] eqn:Ec; [| |discriminate].
    + apply Hgo in H. subst st'. split; [eexists; split; [reflexivity|exact I]|]. cbn. unfold clean_turn in Ec.
      destruct (k_lowest (q_crit st) <? _)%nat; [|discriminate]. destruct (nth_error (k_open _) _); [|discriminate]. destruct (nth_error (k_ongoing _) _); [|discriminate]. cbn [obind] in Ec.
      destruct (_ =? 0)%nat; [|discriminate]. destruct (upd (q_table st) _ []) as [T2|] eqn:Eu; [|discriminate]. cbn [obind] in Ec. injection Ec as _ <-.
      intros k s i j h1 h2. unfold BarWp.lookup in h2. rewrite (upd_nth _ _ _ _ k Eu) in h2. destruct (Nat.eqb k _); [discriminate|].
      fold (lookup (q_table st) k s) in h2. rewrite h1 in h2. injection h2 as ->. apply stronger_refl.
    + destruct (decide cfg (q_crit st) intr) as [[k' p]|] eqn:Ed; [|discriminate]. apply Hgo in H. eapply Hin; [|exact H]. cbn.
      unfold decide in Ed. destruct (Nat.eqb _ _ && _); [injection Ed as _ <-; exact I|]. destruct (c_interrupted _); [injection Ed as _ <-; exact I|].
      destruct intr.
      * destruct (0 <? _)%nat; cbn [obind] in Ed; [injection Ed as _ <-; exact I|]. destruct (fr_pop _ _) as [[[r|] f]|]; cbn [obind] in Ed; try discriminate. injection Ed as _ <-; exact I.
      * destruct (fr_empty _ _); [injection Ed as _ <-; exact I|]. destruct (fr_pop _ _) as [[[r|] f]|]; cbn [obind] in Ed; try discriminate. injection Ed as _ <-; exact I.
  - destruct (try_node eqb cfg (q_crit st) (q_table st) n) as [[k' p]|] eqn:Et; [|discriminate]. apply Hgo in H. unfold try_node in Et.
    destruct (sp_ub n <=? _); [injection Et as <- <-; eapply Hin; [|exact H]; exact I|]. destruct (nth_error (q_table st) _) as [l|] eqn:El; [|discriminate]. cbn [obind] in Et.
    destruct (match tget eqb l (sp_state n) with Some _ => _ | None => _ end) eqn:Eb.
    + injection Et as <- <-. subst st'. split; [|apply raised_refl]. eexists. split; [reflexivity|]. cbn [u_pc q_table]. intros i Hi.
      unfold BarWp.lookup in Hi. rewrite El in Hi. rewrite Hi in Eb. unfold stronger. cbn. apply orb_true_iff in Eb as [Eb|Eb]; [left; lia|].
      apply andb_true_iff in Eb as [h1 h2]. right. split; [lia|auto].
    + destruct (decr _ _); [|discriminate]. cbn [obind] in Et. destruct (fr_empty _ _); [injection Et as <- <-; eapply Hin; [|exact H]; exact I|].
      destruct (fr_pop _ _) as [[[r|] f]|]; cbn [obind] in Et; try discriminate. injection Et as <- <-. eapply Hin; [|exact H]. exact I.
  - destruct (take_node eqb cfg (q_crit st) (q_table st) 0 n) as [[k' T']|] eqn:Et; [|discriminate]. apply Hgo in H. subst st'. split; [eexists; split; [reflexivity|exact I]|].
    unfold take_node in Et. destruct (nth_error (q_table st) _) as [l|] eqn:El; [|discriminate]. cbn [obind] in Et. destruct (upd (q_table st) _ _) as [T2|] eqn:Eu; [|discriminate].
    cbn [obind] in Et. destruct (upd (c_ubs _) _ _); [|discriminate]. cbn [obind] in Et. destruct (decr _ _); [|discriminate]. cbn [obind] in Et. destruct (incr _ _); [|discriminate].
    injection Et as _ <-. cbn. intros k s i j h1 h2. rewrite (lookup_put S eqb eqb_spec _ _ _ _ _ _ k s El Eu) in h2.
    destruct (Nat.eqb_spec k (length (sp_path n))) as [->|]; cbn [andb] in h2; [|rewrite h1 in h2; injection h2 as ->; apply stronger_refl].
    destruct (eqb (sp_state n) s) eqn:Es; [|rewrite h1 in h2; injection h2 as ->; apply stronger_refl]. apply eqb_spec in Es. subst s. injection h2 as <-. apply Hp. exact h1.
  - apply (Hcr (Some (_, _))) in H as (k' & t' & E & H). injection E as <- <-. eapply Hin; [|exact H]. cbn. destruct (_ <=? _); [exact I|apply climbs_compile].
  - destruct p; try (eapply Hcomp; [exact Hp|exact H|left; eexists; reflexivity]). apply Hcr in H as (k' & t' & E & H).
    destruct (maybe_update_best _ _ _); [|discriminate]. cbn [obind] in E. injection E as <- <-. eapply Hin; [|exact H]. cbn. destruct (g_exact _); exact I.
  - apply (Hcr (Some (_, _))) in H as (k' & t' & E & H). injection E as <- <-. eapply Hin; [|exact H]. cbn. apply climbs_compile.
  - destruct p; try (eapply Hcomp; [exact Hp|exact H|right; do 2 eexists; reflexivity]). apply Hcr in H as (k' & t' & E & H). destruct (g_exact _).
    + destruct (maybe_update_best _ _ _); [|discriminate]. cbn [obind] in E. injection E as <- <-. eapply Hin; [|exact H]. exact I.
    + destruct (benqueue_cutset _ _ _ _) as [[k2 d2]|]; [|discriminate]. cbn [obind] in E. injection E as <- <-. eapply Hin; [|exact H]. exact I.
  - destruct (locked cfg st); [discriminate|]. destruct (bfinish_node _ _ _ _ _); [|discriminate]. injection H as H. cbn in H. eapply Hin; [|symmetry; exact H]. exact I.
Qed.

Lemma bar_raised n st st' k s i j : breachable S eqb cfg n 1 st -> bstep S eqb cfg st st' ->
  threshold_of S eqb cfg st k s = Some i -> threshold_of S eqb cfg st' k s = Some j -> stronger i j.
Proof.
  intros (st0 & H0 & Hr) Hs. assert (Hc : climbing st).
  { clear Hs. induction Hr as [|st1 st2 st3 Hr IH [Hs|(i' & d & h1 & ->)]]; [eapply initial_climbing; eauto|eapply step_climbing; [apply IH; exact H0|exact Hs]|].
    destruct (IH H0) as (t & Ht & _). rewrite Ht in *. destruct i' as [|[|i']]; try discriminate h1. exists (mk_bth BIdle d). split; [reflexivity|exact I]. }
  destruct (step_climbing _ _ Hc Hs) as [_ H]. apply H.
Qed.
End Climb.
