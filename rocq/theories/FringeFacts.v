(** Both frontiers meet the specification of FringeSpec.v. *)
From Verif Require Import Fringe FringeSpec FrontierSpec NoDupFacts FrontierFacts.
Open Scope Z_scope.

Section NoDupOk.
Variable S : Type.
Variable eqb : S -> S -> bool.
Variable rank : ranking S.
Hypothesis eqb_spec : forall a b, eqb a b = true <-> a = b.
Hypothesis rank_ok : total_preorder rank.
Notation sub := (subproblem S).

Definition nd_list (f : nodup S) : list sub :=
  flat_map (fun p => match nth_error (nd_nodes f) (snd p) with Some n => [n] | None => [] end) (nd_states f).
Notation Inv := (NoDupFacts.Inv S rank).
Notation content := (NoDupFacts.content S eqb).

Lemma flat_states (nodes : list sub) : forall m, (forall s id, In (s, id) m -> exists n, nth_error nodes id = Some n /\ sp_state n = s) ->
  map sp_state (flat_map (fun p => match nth_error nodes (snd p) with Some n => [n] | None => [] end) m) = map fst m.
Proof.
  induction m as [|[s id] m IH]; intros H; [reflexivity|]. cbn [flat_map map fst snd].
  destruct (H s id (or_introl eq_refl)) as (n & E & Hs). rewrite E. cbn [app map]. rewrite IH, Hs; [reflexivity|]. intros s' id' Hin. apply H. right. exact Hin.
Qed.

Lemma nd_list_states f : Inv f -> NoDup (map sp_state (nd_list f)).
Proof.
  intros (_ & _ & (_ & Hnd & Hs) & _). unfold nd_list. rewrite flat_states by exact Hs. exact Hnd.
Qed.

Lemma nd_list_in f q : Inv f -> (In q (nd_list f) <-> content f (sp_state q) = Some q).
Proof.
  intros (_ & _ & (_ & Hnd & Hs) & _). unfold nd_list, NoDupFacts.content. rewrite in_flat_map. split.
  - intros ([s id] & Hin & Hq). cbn [snd] in Hq. destruct (Hs s id Hin) as (n & E & Hst). rewrite E in Hq. destruct Hq as [<-|[]].
    rewrite Hst. rewrite (proj2 (map_get_in S eqb eqb_spec (nd_states f) s id Hnd) Hin). exact E.
  - destruct (map_get eqb (nd_states f) (sp_state q)) as [id|] eqn:E; [|discriminate]. cbn [obind]. intros Hn.
    apply (map_get_in S eqb eqb_spec) in E; [|exact Hnd]. exists (sp_state q, id). split; [exact E|]. cbn [snd]. rewrite Hn. left. reflexivity.
Qed.

Lemma nd_list_nodup f : Inv f -> NoDup (nd_list f).
Proof. intros H. apply (NoDup_map_inv sp_state). apply nd_list_states. exact H. Qed.

Lemma in_split_nodup (l : list sub) q : In q l -> NoDup l -> exists l', Permutation l (q :: l') /\ NoDup (q :: l').
Proof.
  intros Hin Hnd. apply in_split in Hin as (l1 & l2 & ->). exists (l1 ++ l2).
  assert (Permutation (l1 ++ q :: l2) (q :: l1 ++ l2)) by (symmetry; apply Permutation_middle).
  split; [exact H|]. eapply Permutation_NoDup; eauto.
Qed.

Lemma content_state f s q : Inv f -> content f s = Some q -> sp_state q = s.
Proof. intros HI Hc. apply (content_in_heap S eqb rank eqb_spec f s q HI Hc). Qed.

Lemma nodup_frontier_ok : frontier_ok True (nodup_frontier eqb rank) Inv nd_list.
Proof.
  assert (Hrank := rank_ok). constructor; cbn [nodup_frontier fr_t fr_new fr_push fr_pop fr_clear fr_empty].
  - split; [apply Inv_new|reflexivity].
  - intros f n HI. destruct (push_spec S eqb rank eqb_spec rank_ok f n HI) as (f' & Hp & HI' & Hc). exists f'. split; [exact Hp|]. split; [exact HI'|].
    assert (Hin' := fun q => nd_list_in f' q HI'). assert (Hin := fun q => nd_list_in f q HI).
    destruct (content f (sp_state n)) as [old|] eqn:Eo.
    + right. split; [exact I|]. assert (Hso := content_state f _ _ HI Eo).
      destruct (in_split_nodup (nd_list f) old) as (l & HP & Hnd); [apply Hin; rewrite Hso; exact Eo|apply nd_list_nodup; exact HI|].
      exists old, l. split; [exact Hso|]. split; [exact HP|].
      assert (Hsm : sp_state (merge_sub old n) = sp_state n) by (unfold merge_sub; destruct (sp_value old <? sp_value n); [reflexivity|exact Hso]).
      assert (Hone : forall q, In q l -> sp_state q <> sp_state n).
      { intros q Hq Hs. assert (Hq' : In q (nd_list f)) by (eapply Permutation_in; [symmetry; exact HP|right; exact Hq]). apply Hin in Hq'.
        rewrite Hs, Eo in Hq'. inversion Hq'; subst q. inversion Hnd. contradiction. }
      apply NoDup_Permutation.
      * apply nd_list_nodup. exact HI'.
      * constructor; [|inversion Hnd; assumption]. intros H. apply Hone in H. congruence.
      * intros q. rewrite Hin', Hc. destruct (eqb (sp_state n) (sp_state q)) eqn:E.
        -- apply eqb_spec in E. rewrite <- E, Eo. change (NoDupFacts.merged S old n) with (merge_sub old n). split; [intros H; inversion H; subst; left; reflexivity|].
           intros [<-|H]; [reflexivity|]. apply Hone in H. congruence.
        -- rewrite <- Hin. split.
           ++ intros H. right. apply (Permutation_in _ HP) in H. destruct H as [<-|H]; [|exact H]. rewrite Hso in E. rewrite (proj2 (eqb_spec _ _) eq_refl) in E. discriminate.
           ++ intros [<-|H]; [|eapply Permutation_in; [symmetry; exact HP|right; exact H]]. rewrite Hsm, (proj2 (eqb_spec _ _) eq_refl) in E. discriminate.
    + left. assert (Hone : forall q, In q (nd_list f) -> sp_state q <> sp_state n) by (intros q Hq Hs; apply Hin in Hq; congruence).
      apply NoDup_Permutation.
      * apply nd_list_nodup. exact HI'.
      * constructor; [|apply nd_list_nodup; exact HI]. intros H. apply Hone in H. congruence.
      * intros q. rewrite Hin', Hc. destruct (eqb (sp_state n) (sp_state q)) eqn:E.
        -- apply eqb_spec in E. rewrite <- E, Eo. split; [intros H; inversion H; subst; left; reflexivity|]. intros [<-|H]; [reflexivity|]. apply Hone in H. congruence.
        -- rewrite <- Hin. split; [intros H; right; exact H|]. intros [<-|H]; [|exact H]. rewrite (proj2 (eqb_spec _ _) eq_refl) in E. discriminate.
  - intros f HI Hne. assert (Hin := fun q => nd_list_in f q HI).
    destruct (nd_heap f) as [|id t] eqn:Eh.
    { exfalso. destruct (pop_empty S eqb rank eqb_spec f HI Eh) as (_ & Hnone). destruct (nd_list f) as [|q l]; [congruence|].
      specialize (proj1 (Hin q) (or_introl eq_refl)). rewrite Hnone. discriminate. }
    destruct (pop_spec S eqb rank eqb_spec rank_ok f id t HI Eh) as (n & f' & Hp & HI' & Hcn & Hmax & Hc).
    exists n, f'. split; [exact Hp|]. split; [exact HI'|]. assert (Hin' := fun q => nd_list_in f' q HI'). split.
    + apply NoDup_Permutation.
      * apply nd_list_nodup. exact HI.
      * constructor; [|apply nd_list_nodup; exact HI']. rewrite Hin', Hc, (proj2 (eqb_spec _ _) eq_refl). discriminate.
      * intros q. split.
        -- intros Hq. apply Hin in Hq. destruct (eqb (sp_state n) (sp_state q)) eqn:E.
           ++ apply eqb_spec in E. rewrite <- E, Hcn in Hq. inversion Hq. left. reflexivity.
           ++ right. apply Hin'. rewrite Hc, E. exact Hq.
        -- intros [<-|Hq]; [apply Hin; exact Hcn|]. apply Hin' in Hq. rewrite Hc in Hq. destruct (eqb (sp_state n) (sp_state q)); [discriminate|]. apply Hin. exact Hq.
    + intros q Hq. apply Hin in Hq. specialize (Hmax _ _ Hq). apply (le_no_priority S rank) in Hmax. destruct Hmax as [H|[H _]]; lia.
  - intros f HI. split; [apply Inv_new|reflexivity].
  - intros f HI. assert (Hin := fun q => nd_list_in f q HI). unfold nd_is_empty. destruct (nd_heap f) as [|id t] eqn:Eh.
    + split; [intros _|reflexivity]. destruct (pop_empty S eqb rank eqb_spec f HI Eh) as (_ & Hnone). destruct (nd_list f) as [|q l]; [reflexivity|].
      specialize (proj1 (Hin q) (or_introl eq_refl)). rewrite Hnone. discriminate.
    + split; [discriminate|]. intros He. destruct (pop_spec S eqb rank eqb_spec rank_ok f id t HI Eh) as (n & f' & _ & _ & Hcn & _).
      apply Hin in Hcn. rewrite He in Hcn. destruct Hcn.
Qed.
End NoDupOk.

Section SimpleOk.
Variable S : Type.
Variable rank : ranking S.
Variable choose : (subproblem S -> subproblem S -> comparison) -> list (subproblem S) -> nat.
Hypothesis rank_ok : total_preorder rank.
Hypothesis choose_ok : heap_oracle choose.

Lemma simple_frontier_ok : frontier_ok False (simple_frontier rank choose) (fun _ => True) (fun f => f).
Proof.
  constructor; cbn [simple_frontier fr_t fr_new fr_push fr_pop fr_clear fr_empty].
  - split; [exact I|reflexivity].
  - intros f n _. exists (si_push f n). split; [reflexivity|]. split; [exact I|]. left. apply Permutation_refl.
  - intros f _ Hne. destruct (choose_ok (max_ub rank) f (max_ub_preorder S rank rank_ok) Hne) as (x & Hx & Hmax).
    exists x, (firstn (choose (max_ub rank) f) f ++ skipn (Datatypes.S (choose (max_ub rank) f)) f).
    split; [|split; [exact I|split]].
    + unfold si_pop. destruct f as [|a f]; [congruence|]. rewrite Hx. reflexivity.
    + rewrite (split_nth S f _ x Hx) at 1. symmetry. apply Permutation_middle.
    + intros q Hq. specialize (Hmax q Hq). apply (le_no_priority S rank) in Hmax. destruct Hmax as [H|[H _]]; lia.
  - intros f _. split; [exact I|reflexivity].
  - intros f _. destruct f; split; congruence.
Qed.
End SimpleOk.
