(** Proofs about the counter [explored]: both compilations. *)
From Verif Require Import Spec Dd DdSpec MddAll MddBarrier MddBarrierSpec CountersSpec DdCount.
From Coq Require Import Lia ZArith List Permutation.
Import ListNotations.
Open Scope nat_scope.

Section Count.
Variable S : Type.
Variable eqb : S -> S -> bool.
Variable inp : input S.
Variable orc : oracle S.
Hypothesis Hiter : forall i l, Permutation l (o_iter orc i l).
Hypothesis Hsort : forall cmp l, Permutation l (o_sort orc cmp l).
Notation dd := (dd S).
Notation node := (node S).
Notation between := (DdCount.between S inp).
Notation some_between := (some_between S inp).
Notation keeps := (keeps S).
Notation outside := (outside S).
Notation still := (still S).
Notation counts := (counts S inp).
Ltac quiet := intros ?; repeat match goal with |- context [if ?b then _ else _] => destruct b end; cbn; auto.

Lemma start_during X (d d3 : dd) l : between X d -> keeps X d d3 -> g_next d3 = [] -> outside d3 X l -> during S inp X d3 l.
Proof. intros. eapply between_during; eauto. Qed.
Lemma from_between X (d : dd) : between X d -> (forall i, In i X -> i < length (g_nodes d)) /\ forall e, In e (g_edges d) -> In (e_from e) X.
Proof. intros [B1 B2]. split; [apply (inv_lt _ _ _ _ B1)|apply (iv_from _ _ _ _ B1)]. Qed.

(** ** with_all.rs *)
Lemma all_layer depth var (d : dd) curr d' c : some_between d -> MddAll.layer_step eqb orc inp depth var d curr = Some (d', c) -> some_between d'.
Proof.
  intros (X & B). unfold MddAll.layer_step. destruct (taken S inp orc Hiter X d (3 * depth + 1) curr B) as [K O]. destruct (from_between X d B) as [F1 F2].
  set (d2 := set_next (set_prev d curr) []) in *. set (c1 := map snd _) in *. destruct c1 as [|c0 ct] eqn:Ec.
  - intros H. injection H as <- <-. exists X. split; [eapply keeps_inv; [exact K|apply B]|]. split; cbn; [constructor|contradiction].
  - rewrite <- Ec in *. clear Ec. match goal with |- context [obind ?x _] => destruct x as [[d3 curr2]|] eqn:E3 end; cbn [obind]; [|discriminate].
    assert (G : keeps X d2 d3 /\ g_next d3 = g_next d2 /\ outside d3 X curr2).
    { assert (G0 : Some (d2, c1) = Some (d3, curr2) -> keeps X d2 d3 /\ g_next d3 = g_next d2 /\ outside d3 X curr2).
      { intros H. injection H as <- <-. split; [apply keeps_refl|]. split; [reflexivity|exact O]. }
      destruct (i_type inp); [auto| |].
      - destruct (_ && _); [|auto]. eapply relax_keeps; eauto.
      - destruct (_ <? _); [|auto]. eapply restrict_keeps; eauto. }
    destruct G as (G1 & G2 & G3). destruct (ofold _ curr2 d3) as [d4|] eqn:E4; cbn [obind]; [|discriminate]. intros H. injection H as <- <-.
    eapply expands_between; [|exact E4]. eapply start_during; [exact B|eapply keeps_trans; eauto| |exact G3]. rewrite G2. reflexivity.
Qed.
Lemma all_layers : forall fuel depth (d : dd) curr d' b, some_between d -> MddAll.layers eqb fuel orc inp depth d curr = Some (d', b) -> some_between d'.
Proof.
  induction fuel as [|k IH]; cbn [MddAll.layers]; intros depth d curr d' b B; [discriminate|]. destruct (pb_next_var _ _) as [var|]; [|intros H; injection H as <- _; exact B].
  destruct (MddAll.layer_step _ _ _ _ _ _ _) as [[d1 c]|] eqn:E; cbn [obind]; [|discriminate]. pose proof (all_layer _ _ _ _ _ _ B E) as B1.
  destruct c as [curr1|]; [eapply IH; exact B1|]. intros H. injection H as <- _. exact B1.
Qed.
Lemma bounds_edges_still : forall fuel id (d : dd) visit e d' v', MddAll.bounds_edges fuel id d visit e = Some (d', v') -> still d d'.
Proof.
  induction fuel as [|k IH]; intros id d visit [eid|] d' v'; cbn [MddAll.bounds_edges]; try discriminate; try (intros H; injection H as <- <-; apply still_refl).
  destruct (nth_error _ eid) as [ed|]; cbn [obind]; [|discriminate]. destruct (get_node d id) as [n|]; cbn [obind]; [|discriminate].
  destruct (upd_node d _ _) as [d1|] eqn:E1; cbn [obind]; [|discriminate]. destruct (get_node d1 _) as [m1|]; cbn [obind]; [|discriminate].
  match goal with |- context [obind ?x _] => destruct x as [[d2 visit2]|] eqn:E2 end; cbn [obind]; [|discriminate].
  assert (K2 : still d1 d2).
  { destruct (negb _); [|injection E2 as <- <-; apply still_refl]. destruct (upd_node d1 _ _) as [dx|] eqn:Ex; cbn [obind] in E2; [|discriminate].
    destruct (get_node dx _) as [mx|]; cbn [obind] in E2; [|discriminate]. injection E2 as <- _. eapply still_upd; [exact Ex|quiet]. }
  destruct (get_node d2 id) as [n2|]; cbn [obind]; [|discriminate]. destruct (get_node d2 (e_from ed)) as [m2|]; cbn [obind]; [|discriminate].
  match goal with |- context [obind ?x _] => destruct x as [d3|] eqn:E3 end; cbn [obind]; [|discriminate].
  assert (K3 : still d2 d3).
  { destruct (g_ctype d2); [injection E3 as <-; apply still_refl|]. destruct (_ && _); [|injection E3 as <-; apply still_refl].
    destruct (upd_node d2 _ _) as [dx|] eqn:Ex; cbn [obind] in E3; [|discriminate]. injection E3 as <-. eapply still_trans; [eapply still_upd; [exact Ex|quiet]|]. apply still_same; reflexivity. }
  intros H. eapply still_trans; [eapply still_upd; [exact E1|quiet]|]. eapply still_trans; [exact K2|]. eapply still_trans; [exact K3|]. eapply IH; exact H.
Qed.
Lemma bounds_nodes_still : forall l (d : dd) visit d' v', ofold (@MddAll.bounds_node S) l (d, visit) = Some (d', v') -> still d d'.
Proof.
  induction l as [|i t IH]; cbn [ofold]; intros d visit d' v' H; [injection H as <- _; apply still_refl|].
  destruct (MddAll.bounds_node (d, visit) i) as [[d1 v1]|] eqn:E; cbn [obind] in H; [|discriminate]. eapply still_trans; [|eapply IH; exact H].
  unfold MddAll.bounds_node in E. destruct (get_node d i) as [n|]; cbn [obind] in E; [|discriminate]. eapply bounds_edges_still; exact E.
Qed.
Lemma bounds_loop_still : forall fuel (d : dd) visit d', MddAll.bounds_loop fuel d visit = Some d' -> still d d'.
Proof.
  induction fuel as [|k IH]; intros d [|i t] d'; cbn [MddAll.bounds_loop]; try discriminate; try (intros H; injection H as <-; apply still_refl).
  destruct (ofold _ _ _) as [[d1 v1]|] eqn:E; cbn [obind]; [|discriminate]. intros H. eapply still_trans; [eapply bounds_nodes_still; exact E|eapply IH; exact H].
Qed.
Lemma all_finalize depth (d d' : dd) : MddAll.finalize orc inp depth d = Some d' -> still d d'.
Proof.
  unfold MddAll.finalize. destruct (max_by_value _ _) as [best|]; cbn [obind]; [|discriminate]. destruct (compute_exact _ _) as [ex|]; cbn [obind]; [|discriminate].
  set (d2 := set_best_exact _ best ex). assert (K : still d d2) by (apply still_same; reflexivity).
  destruct (i_type inp); try (intros H; injection H as <-; exact K). unfold MddAll.compute_local_bounds.
  destruct (negb _); [|intros H; injection H as <-; exact K]. destruct (ofold _ _ d2) as [d3|] eqn:E; cbn [obind]; [|discriminate]. intros H.
  eapply still_trans; [exact K|]. eapply still_trans; [|eapply bounds_loop_still; exact H]. eapply ofold_still; [|exact E].
  intros a i b Hab. eapply still_upd; [exact Hab|quiet].
Qed.
Theorem all_counts debug (d d' : dd) : MddAll.compile eqb debug orc inp d = Some d' -> counts d'.
Proof.
  unfold MddAll.compile. destruct (root_dd _ _ _) as [d0|] eqn:E0; cbn [obind]; [|discriminate]. destruct (MddAll.layers _ _ _ _ _ _ _) as [[d1 r]|] eqn:E1; cbn [obind]; [|discriminate].
  pose proof (all_layers _ _ _ _ _ _ (root_between _ _ _ _ _ E0) E1) as B. apply between_counts in B.
  destruct r; [intros H; injection H as <-; exact B|]. intros H. eapply still_counts; [eapply all_finalize; exact H|exact B].
Qed.

(** ** with_barrier.rs *)
Fixpoint pw {A} (p : prog S A) (Q : A -> Prop) : Prop :=
  match p with
  | Ret a => Q a
  | Fail => True
  | IsEmpty _ k => forall b, pw (k b) Q
  | Get _ _ k => forall r, pw (k r) Q
  | Put _ _ _ k => pw k Q
  end.
Lemma pw_bind {A B} (p : prog S A) (f : A -> prog S B) Q : pw p (fun a => pw (f a) Q) -> pw (pbind p f) Q.
Proof. induction p; cbn; auto. Qed.
Lemma pw_mono {A} (p : prog S A) (Q Q' : A -> Prop) : (forall a, Q a -> Q' a) -> pw p Q -> pw p Q'.
Proof. intros H. induction p; cbn; auto. Qed.
Lemma pw_pure {A} (o : option A) (Q : A -> Prop) : (forall a, o = Some a -> Q a) -> pw (pure o) Q.
Proof. destruct o; cbn; auto. Qed.
Lemma pw_gets {A} alone (p : prog S A) T p' T' Q : gets eqb alone p T p' T' -> pw p Q -> pw p' Q.
Proof.
  induction 1 as [|p T T1 p' T' pn Tn Hm Ha Hg IH]; auto. intros H. apply IH. clear IH Hg. destruct p; cbn in Ha; try discriminate.
  - destruct (nth_error T1 depth); cbn in Ha; [|discriminate]. injection Ha as <- _. apply H.
  - destruct (nth_error T1 depth); cbn in Ha; [|discriminate]. injection Ha as <- _. apply H.
  - destruct (nth_error T1 depth); cbn in Ha; [|discriminate]. destruct (upd T1 depth _); cbn in Ha; [|discriminate]. injection Ha as <- _. exact H.
Qed.
Lemma pw_any {A} (p : prog S A) (Q : A -> Prop) : (forall a, Q a) -> pw p Q.
Proof. intros H. induction p; cbn; auto. Qed.
Lemma pw_try (d : dd) depth s theta x (Q : unit -> Prop) : Q tt -> pw (try_update_barrier d depth s theta x) Q.
Proof. intros H. apply pw_any. intros []. exact H. Qed.

Lemma retain_pw depth X : forall l (d : dd), outside d X l ->
  pw (retain depth d l) (fun r => keeps X d (fst r) /\ g_next (fst r) = g_next d /\ outside (fst r) X (snd r) /\ incl (snd r) l).
Proof.
  induction l as [|id t IH]; cbn [retain]; intros d O.
  - split; [apply keeps_refl|]. split; [reflexivity|]. split; [exact O|apply incl_refl].
  - assert (Ot : outside d X t). { destruct O as [A B]. inversion A; subst. split; [assumption|]. intros i Hi. apply B. right. exact Hi. }
    apply pw_bind. assert (H1 : pw (retain_node depth d id) (fun r => keeps X d (fst r) /\ g_next (fst r) = g_next d)).
    { unfold retain_node. apply pw_bind, pw_pure. intros n Hn. destruct (is_relaxed _); [cbn; split; [apply keeps_refl|reflexivity]|]. cbn. intros r.
      destruct (_ <? _)%Z; [cbn; split; [apply keeps_refl|reflexivity]|]. apply pw_bind, pw_pure. intros d1 H1. cbn. apply (upd_keeps S X _ _ _ _ H1). left. quiet. }
    eapply pw_mono; [|exact H1]. cbn beta. intros [d1 b] [K N]. apply pw_bind. eapply pw_mono; [|apply IH; eapply outside_keeps; eauto].
    cbn beta. intros [d2 r] (K2 & N2 & O2 & I2). cbn in *. split; [eapply keeps_trans; eauto|]. split; [congruence|].
    destruct b; [|split; [exact O2|apply incl_tl, I2]]. split; [|apply incl_cons; [left; reflexivity|apply incl_tl, I2]].
    destruct O as [A B]. inversion A; subst. destruct O2 as [A2 B2]. split; [constructor; [intros Hi; apply I2 in Hi; contradiction|exact A2]|].
    intros i [<-|Hi]; [|auto]. destruct (B id ltac:(left; reflexivity)). split; [|assumption]. eapply Nat.lt_le_trans; [eassumption|]. eapply Nat.le_trans; [apply K|apply K2].
Qed.
Lemma prune_pw X rd depth (d : dd) l : outside d X l ->
  pw (prune rd depth d l) (fun r => keeps X d (fst r) /\ g_next (fst r) = g_next d /\ outside (fst r) X (snd r)).
Proof.
  intros O. assert (G : keeps X d d /\ g_next d = g_next d /\ outside d X l) by (split; [apply keeps_refl|split; [reflexivity|exact O]]).
  unfold prune. destruct (_ <? _); [|exact G]. cbn. intros [|]; [exact G|]. eapply pw_mono; [|apply retain_pw; exact O]. cbn beta. tauto.
Qed.
Lemma expand_pw var depth : forall l X (d : dd), during S inp X d l -> pw (pfold (expand_one eqb inp var depth) l d) some_between.
Proof.
  induction l as [|id t IH]; cbn [pfold]; intros X d D; [exact (during_end _ _ _ _ D)|]. apply pw_bind.
  assert (G : pw (expand_one eqb inp var depth d id) (fun d1 => exists X', during S inp X' d1 t)).
  { unfold expand_one. apply pw_bind, pw_pure. intros n Hn. apply pw_bind, pw_pure. intros d1 E1. apply pw_bind, pw_pure. intros n1 Hn1.
    pose proof (expand_during _ _ _ _ _ _ _ _ _ _ D E1) as H. destruct (i_type inp); try exact H. destruct (is_exact (n_flags n1)); [|exact H]. apply pw_bind, pw_try. exact H. }
  eapply pw_mono; [|exact G]. cbn beta. intros d1 [X' D']. eapply IH; exact D'.
Qed.
Lemma bar_layer rd depth var (d : dd) curr : some_between d -> pw (MddBarrier.layer_step eqb orc inp rd depth var d curr) (fun r => some_between (fst r)).
Proof.
  intros (X & B). unfold MddBarrier.layer_step. destruct (taken S inp orc Hiter X d (3 * depth + 1) curr B) as [K O]. destruct (from_between X d B) as [F1 F2].
  set (d2 := set_next (set_prev d curr) []) in *. set (c1 := map snd _) in *. destruct c1 as [|c0 ct] eqn:Ec.
  - cbn. exists X. split; [eapply keeps_inv; [exact K|apply B]|]. split; cbn; [constructor|contradiction].
  - rewrite <- Ec in *. clear Ec. apply pw_bind. eapply pw_mono; [|apply (prune_pw X); exact O]. cbn beta. intros [d3 curr2] (K3 & N3 & O3). cbn in K3, N3, O3.
    assert (F1' : forall i, In i X -> i < length (g_nodes d3)) by (intros i Hi; eapply Nat.lt_le_trans; [apply F1, Hi|]; eapply Nat.le_trans; [apply K|apply K3]).
    assert (F2' : forall e, In e (g_edges d3) -> In (e_from e) X) by (apply K3, K, F2).
    apply pw_bind, pw_pure. intros [d4 curr3] E4. assert (G : keeps X d3 d4 /\ g_next d4 = g_next d3 /\ outside d4 X curr3).
    { assert (G0 : Some (d3, curr2) = Some (d4, curr3) -> keeps X d3 d4 /\ g_next d4 = g_next d3 /\ outside d4 X curr3).
      { intros H. injection H as <- <-. split; [apply keeps_refl|]. split; [reflexivity|exact O3]. }
      unfold shrink in E4. destruct (i_type inp); [auto| |].
      - destruct (_ && _); [|auto]. eapply relax_keeps; eauto.
      - destruct (_ <? _); [|auto]. eapply restrict_keeps; eauto. }
    destruct G as (G1 & G2 & G3). apply pw_bind. eapply pw_mono; [|eapply expand_pw, start_during; [exact B| |rewrite G2, N3; reflexivity|exact G3]].
    + cbn. auto.
    + eapply keeps_trans; [exact K|]. eapply keeps_trans; eauto.
Qed.
Lemma bar_layers : forall fuel rd depth (d : dd) curr, some_between d -> pw (MddBarrier.layers eqb fuel orc inp rd depth d curr) (fun r => some_between (fst r)).
Proof.
  induction fuel as [|k IH]; cbn [MddBarrier.layers]; intros rd depth d curr B; [exact I|]. destruct (pb_next_var _ _) as [var|]; [|exact B].
  apply pw_bind. eapply pw_mono; [|apply bar_layer, B]. intros [d1 c] B1. cbn in B1. destruct c as [curr1|]; [apply IH, B1|exact B1].
Qed.
Lemma edge_step_still id (d : dd) ed d' : MddBarrier.edge_step id d ed = Some d' -> still d d'.
Proof.
  unfold MddBarrier.edge_step. destruct (get_node d id) as [n|]; cbn [obind]; [|discriminate].
  match goal with |- context [obind ?x _] => destruct x as [d1|] eqn:E1 end; cbn [obind]; [|discriminate].
  assert (K1 : still d d1). { destruct (is_marked _); [|injection E1 as <-; apply still_refl]. eapply still_upd; [exact E1|quiet]. }
  destruct (get_node d1 id) as [n1|]; cbn [obind]; [|discriminate]. destruct (upd_node d1 _ _) as [d2|] eqn:E2; cbn [obind]; [|discriminate].
  assert (K2 : still d d2) by (eapply still_trans; [exact K1|eapply still_upd; [exact E2|quiet]]).
  destruct (get_node d2 id) as [n2|]; cbn [obind]; [|discriminate]. destruct (get_node d2 (e_from ed)) as [m2|]; cbn [obind]; [|discriminate].
  destruct (g_ctype d2); [intros H; injection H as <-; exact K2|]. destruct (_ && _); [|intros H; injection H as <-; exact K2].
  destruct (upd_node d2 _ _) as [dx|] eqn:Ex; cbn [obind]; [|discriminate]. intros H. injection H as <-. eapply still_trans; [exact K2|].
  eapply still_trans; [eapply still_upd; [exact Ex|quiet]|]. apply still_same; reflexivity.
Qed.
Lemma edges_still : forall fuel id (d : dd) e d', MddBarrier.edges_loop fuel id d e = Some d' -> still d d'.
Proof.
  induction fuel as [|k IH]; intros id d [eid|] d'; cbn [MddBarrier.edges_loop]; try discriminate; try (intros H; injection H as <-; apply still_refl).
  destruct (nth_error _ eid) as [ed|]; cbn [obind]; [|discriminate]. destruct (edge_step id d ed) as [d1|] eqn:E; cbn [obind]; [|discriminate].
  intros H. eapply still_trans; [eapply edge_step_still; exact E|eapply IH; exact H].
Qed.
Lemma bottom_node_pw lb (d : dd) id : pw (bottom_up_node lb d id) (fun d' => still d d').
Proof.
  unfold bottom_up_node. apply pw_bind, pw_pure. intros n Hn. destruct (is_deleted _); [cbn; apply still_refl|].
  apply pw_bind, pw_pure. intros d1 E1. apply pw_bind, pw_pure. intros n1 Hn1.
  assert (K1 : still d d1) by (eapply still_upd; [exact E1|]; unfold cut_theta; quiet).
  assert (G : pw (pure (edges_loop (Datatypes.S (length (g_edges d1))) id d1 (n_inbound n1))) (fun d' => still d d')).
  { apply pw_pure. intros d' H. eapply still_trans; [exact K1|eapply edges_still; exact H]. }
  apply pw_bind. apply pw_any. intros []. exact G.
Qed.
Lemma bottom_pw lb : forall l (d : dd), pw (pfold (bottom_up_node lb) l d) (fun d' => still d d').
Proof.
  induction l as [|id t IH]; cbn [pfold]; intros d; [cbn; apply still_refl|]. apply pw_bind. eapply pw_mono; [|apply bottom_node_pw]. cbn beta. intros d1 K.
  eapply pw_mono; [|apply IH]. cbn beta. intros d2 K2. eapply still_trans; eauto.
Qed.
Lemma bar_finalize depth (d : dd) : pw (MddBarrier.finalize orc inp depth d) (fun d' => still d d').
Proof.
  unfold MddBarrier.finalize. apply pw_bind, pw_pure. intros best _. apply pw_bind, pw_pure. intros ex _.
  set (d2 := set_best_exact _ best ex). assert (K : still d d2) by (apply still_same; reflexivity).
  destruct (i_type inp); try exact K. unfold compute_local_bounds_and_theta. apply pw_bind, pw_pure. intros d3 E3.
  eapply pw_mono; [|apply bottom_pw]. cbn beta. intros d4 K4. eapply still_trans; [exact K|]. eapply still_trans; [|exact K4]. eapply ofold_still; [|exact E3].
  intros a i b. unfold MddBarrier.init_bottom. destruct (upd_node a i _) as [d5|] eqn:E5; cbn [obind]; [|discriminate]. destruct (get_node d5 i) as [n|]; cbn [obind]; [|discriminate].
  assert (K5 : still a d5) by (eapply still_upd; [exact E5|quiet]). match goal with |- context [if ?b then _ else _] => destruct b end.
  - intros H. eapply still_trans; [exact K5|]. eapply still_upd; [exact H|quiet].
  - intros H. injection H as <-. exact K5.
Qed.
Theorem bar_pw debug (d : dd) : pw (MddBarrier.compile eqb debug orc inp d) counts.
Proof.
  unfold MddBarrier.compile. apply pw_bind, pw_pure. intros d0 E0. apply pw_bind. eapply pw_mono; [|apply bar_layers; eapply root_between; exact E0].
  intros [d1 r] B. cbn in B. apply between_counts in B. destruct r; [exact B|]. eapply pw_mono; [|apply bar_finalize]. cbn beta. intros d2 K. eapply still_counts; eauto.
Qed.
Theorem bar_counts alone debug (d d' : dd) T T' : returns eqb alone (MddBarrier.compile eqb debug orc inp d) T d' T' -> counts d'.
Proof. intros H. exact (pw_gets _ _ _ _ _ _ H (bar_pw debug d)). Qed.
End Count.

Section Sources.
Variable S : Type.
Variable inp : input S.
(** Where no domain is empty, the nodes expanded are those that edges leave. *)
Lemma sources_eq (d : dd S) : counts S inp d -> (forall var s, pb_domain (i_pb inp) var s <> []) ->
  g_explored d = length (nodup Nat.eq_dec (map e_from (g_edges d))).
Proof.
  intros (X & (H1 & H2 & H3) & <-) Hne. apply Permutation_length, NoDup_Permutation; [exact H1|apply NoDup_nodup|]. intros i. rewrite nodup_In, in_map_iff. split.
  - intros Hi. destruct (H3 i Hi) as (n & var & _ & _ & Hd). destruct (pb_domain (i_pb inp) var (n_state n)) as [|dec t] eqn:E; [destruct (Hne _ _ E)|].
    destruct (Hd dec ltac:(left; reflexivity)) as (e & He & Hf & _). exists e. auto.
  - intros (e & <- & He). auto.
Qed.
End Sources.
