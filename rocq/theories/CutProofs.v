(** Proofs about the number of subproblems a diagram with a last exact layer hands out. *)
From Verif Require Import Spec Dd DdSpec MddAll MddBarrier MddBarrierSpec SizeSpec DdCount DdCountMdd SizeProofs SizeSolvers EdgeProofs.
From Coq Require Import Lia ZArith List Permutation.
Import ListNotations.
Open Scope nat_scope.

Section Cuts.
Variable S : Type.
Variable eqb : S -> S -> bool.
Variable inp : input S.
Variable orc : oracle S.
Variable P : problem S.
Variable R : relaxation S.
Variable at_depth : nat -> S -> Prop.
Variable nv : nat -> nat.
Variable D : nat.
Hypothesis Hpb : i_pb inp = P.
Hypothesis Hrx : i_rx inp = R.
Hypothesis Hiter : forall i l, Permutation l (o_iter orc i l).
Hypothesis Hsort : forall cmp l, Permutation l (o_sort orc cmp l).
Hypothesis Hwf : wf_problem S P at_depth nv.
Hypothesis Hrel : relaxation_depth S P at_depth R.
Hypothesis HD : domains_within S P at_depth nv D.
Notation dd := (dd S).
Notation N := (pb_nb_vars P).
Notation pw := (pw S).
Notation upto := (upto S inp at_depth D).
Notation layer := (layer S at_depth).

(** What most steps leave alone. *)
Definition fixed (d d' : dd) : Prop := g_ctype d' = g_ctype d /\ g_approx d' = g_approx d /\ g_cutset d' = g_cutset d.
Lemma fixed_refl d : fixed d d.
Proof. unfold fixed. auto. Qed.
Lemma fixed_trans x y z : fixed x y -> fixed y z -> fixed x z.
Proof. unfold fixed. intros (A & B & C) (A' & B' & C'). repeat split; congruence. Qed.
Lemma fixed_upd (d : dd) id f d' : upd_node d id f = Some d' -> fixed d d'.
Proof. unfold upd_node. destruct (get_node d id); cbn [obind]; [|discriminate]. destruct (upd _ _ _); cbn [obind]; [|discriminate]. intros H. injection H as <-. unfold fixed. auto. Qed.
Lemma fixed_ofold {A} (f : dd -> A -> option dd) : (forall d a d', f d a = Some d' -> fixed d d') -> forall l d d', ofold f l d = Some d' -> fixed d d'.
Proof.
  intros Hf. induction l as [|a t IH]; cbn [ofold]; intros d d' H; [injection H as <-; (split; [|split]; reflexivity)|].
  destruct (f d a) as [d1|] eqn:E; cbn [obind] in H; [|discriminate]. eapply fixed_trans; [eapply Hf; exact E|eapply IH; exact H].
Qed.
Lemma branch_fixed v from (d : dd) dec d' : branch_on eqb v (i_pb inp) from d dec = Some d' -> fixed d d'.
Proof.
  unfold branch_on. destruct (get_node d from); cbn [obind]; [|discriminate]. destruct (next_get _ _ _) as [tid|].
  - destruct (get_node d tid); cbn [obind]; [|discriminate]. destruct (upd _ tid _); cbn [obind]; [|discriminate]. intros E. injection E as <-. (split; [|split]; reflexivity).
  - intros E. injection E as <-. (split; [|split]; reflexivity).
Qed.
Lemma expand_fixed v var (d : dd) id d' : expand_node eqb v inp var d id = Some d' -> fixed d d'.
Proof.
  unfold expand_node. destruct (get_node d id) as [n|]; cbn [obind]; [|discriminate]. destruct (upd_node d id _) as [d1|] eqn:E1; cbn [obind]; [|discriminate].
  destruct (get_node d1 id) as [n1|]; cbn [obind]; [|discriminate]. apply fixed_upd in E1. destruct (_ <? _)%Z.
  - destruct (ofold _ _ d1) as [d2|] eqn:E2; cbn [obind]; [|discriminate]. intros H. injection H as <-. eapply fixed_trans; [exact E1|]. eapply fixed_trans; [eapply fixed_ofold; [|exact E2]; intros; eapply branch_fixed; eassumption|]. (split; [|split]; reflexivity).
  - destruct v; [intros H; injection H as <-; exact E1|]. intros H. apply fixed_upd in H. eapply fixed_trans; eauto.
Qed.
Lemma redirect_fixed rx merged mid dropped : forall fuel (d : dd) e d', redirect fuel rx merged mid dropped d e = Some d' -> fixed d d'.
Proof.
  induction fuel as [|f IH]; intros d [eid|] d'; cbn [redirect]; try discriminate; try (intros H; injection H as <-; (split; [|split]; reflexivity)).
  destruct (nth_error _ eid) as [ed|]; cbn [obind]; [|discriminate]. destruct (get_node d (e_from ed)); cbn [obind]; [|discriminate].
  destruct (get_node d mid) as [m|]; cbn [obind]; [|discriminate]. destruct (upd_node _ mid _) as [d2|] eqn:E2; cbn [obind]; [|discriminate].
  destruct (get_node d2 (e_from ed)); cbn [obind]; [|discriminate]. destruct (get_node d2 mid) as [m2|]; cbn [obind]; [|discriminate].
  match goal with |- context [obind ?x _] => destruct x as [d3|] eqn:E3 end; cbn [obind]; [|discriminate].
  intros H. apply fixed_upd in E2. eapply fixed_trans; [exact E2|]. eapply fixed_trans; [|eapply IH; exact H].
  destruct (_ <=? _)%Z; [eapply fixed_upd; exact E3|injection E3 as <-; (split; [|split]; reflexivity)].
Qed.
Lemma drop_fixed v rx merged mid (d : dd) id d' : drop_node v rx merged mid d id = Some d' -> fixed d d'.
Proof.
  unfold drop_node. match goal with |- context [obind ?x _] => destruct x as [d1|] eqn:E1 end; cbn [obind]; [|discriminate].
  destruct (get_node d1 id) as [n|]; cbn [obind]; [|discriminate]. intros H. eapply fixed_trans; [|eapply redirect_fixed; exact H].
  destruct v; [injection E1 as <-; (split; [|split]; reflexivity)|eapply fixed_upd; exact E1].
Qed.
Lemma marks_cut v : forall l (d : dd) d', ofold (mark_cutset v) l d = Some d' -> g_ctype d' = g_ctype d /\ g_cutset d' = g_cutset d ++ l.
Proof.
  induction l as [|id t IH]; cbn [ofold]; intros d d' H; [injection H as <-; rewrite app_nil_r; auto|]. destruct (mark_cutset v d id) as [d1|] eqn:E; cbn [obind] in H; [|discriminate].
  destruct (IH _ _ H) as [A B]. revert E. unfold mark_cutset. destruct (upd_node d id _) as [d2|] eqn:E2; cbn [obind]; [|discriminate]. destruct (get_node d2 id); cbn [obind]; [|discriminate].
  intros E. injection E as <-. apply fixed_upd in E2 as (A2 & _ & C2). cbn in A, B. rewrite A, B, A2, C2, <- app_assoc. auto.
Qed.
Lemma relax_cut v (d : dd) curr d' curr' : g_ctype d = LastExactLayer -> relax eqb v orc inp d curr = Some (d', curr') ->
  g_ctype d' = LastExactLayer /\ g_approx d' = true /\ g_cutset d' = if g_approx d then g_cutset d else g_cutset d ++ g_prev d.
Proof.
  intros Hct. unfold relax. rewrite Hct. match goal with |- context [obind ?x _] => destruct x as [d1|] eqn:E1 end; cbn [obind]; [|discriminate].
  assert (K : g_ctype d1 = LastExactLayer /\ g_cutset d1 = if g_approx d then g_cutset d else g_cutset d ++ g_prev d).
  { destruct (g_approx d); cbn [negb] in E1; [injection E1 as <-; auto|]. destruct (marks_cut _ _ _ _ E1) as [A B]. split; [congruence|exact B]. }
  destruct (all_present d1 curr); [|discriminate]. set (d2 := set_approx d1 true).
  assert (K2 : g_ctype d2 = LastExactLayer /\ g_approx d2 = true /\ g_cutset d2 = if g_approx d then g_cutset d else g_cutset d ++ g_prev d) by (destruct K; split; [assumption|split; [reflexivity|assumption]]).
  set (sorted := o_sort orc _ curr). clearbody sorted d2. destruct (i_width inp) as [|w1]; [discriminate|]. destruct (w1 <=? length sorted); [|discriminate].
  destruct (map_states d2 (firstn w1 sorted)) as [ks|]; cbn [obind]; [|discriminate]. destruct (map_states d2 (skipn w1 sorted)) as [ms|]; cbn [obind]; [|discriminate].
  set (merged := rx_merge (i_rx inp) ms) in *. clearbody merged. set (rec := option_map fst _). clearbody rec.
  match goal with |- context [obind ?x _] => destruct x as [[mid d3]|] eqn:E3 end; cbn [obind]; [|discriminate].
  assert (F3 : fixed d2 d3). { destruct rec; [injection E3 as <- <-; (split; [|split]; reflexivity)|]. match type of E3 with obind ?x _ = _ => destruct x as [dep|] end; cbn [obind] in E3; [|discriminate]. injection E3 as <- <-. (split; [|split]; reflexivity). }
  destruct (upd_node d3 mid _) as [d4|] eqn:E4; cbn [obind]; [|discriminate]. apply fixed_upd in E4. destruct (ofold _ _ d4) as [d5|] eqn:E5; cbn [obind]; [|discriminate].
  assert (F5 : fixed d2 d5). { eapply fixed_trans; [exact F3|]. eapply fixed_trans; [exact E4|]. eapply fixed_ofold; [|exact E5]. intros. eapply drop_fixed; eassumption. }
  assert (G : forall d6, fixed d5 d6 -> g_ctype d6 = LastExactLayer /\ g_approx d6 = true /\ g_cutset d6 = if g_approx d then g_cutset d else g_cutset d ++ g_prev d).
  { intros d6 F6. destruct (fixed_trans _ _ _ F5 F6) as (A & B & C). rewrite A, B, C. exact K2. }
  destruct rec as [rid|].
  - match goal with |- context [obind ?x _] => destruct x as [d6|] eqn:E6 end; cbn [obind]; [|discriminate]. intros H. pose proof (f_equal (fun o => match o with Some (x, _) => x | None => d6 end) H) as Hd. cbv beta iota in Hd. subst d'.
    apply G. destruct v; [injection E6 as <-; (split; [|split]; reflexivity)|]. destruct (nth_error _ w1); cbn [obind] in E6; [|discriminate]. eapply fixed_upd; exact E6.
  - intros H. pose proof (f_equal (fun o => match o with Some (x, _) => x | None => d5 end) H) as Hd. cbv beta iota in Hd. subst d'. apply G, fixed_refl.
Qed.

(** * After the layers *)
Definition lel_fixed (d d' : dd) : Prop := g_ctype d = LastExactLayer -> fixed d d'.
Lemma lel_trans x y z : lel_fixed x y -> lel_fixed y z -> lel_fixed x z.
Proof. intros A B H. destruct (A H) as (A1 & A2 & A3). eapply fixed_trans; [exact (A H)|]. apply B. congruence. Qed.
Lemma fixed_lel d d' : fixed d d' -> lel_fixed d d'.
Proof. intros H _. exact H. Qed.
Lemma bounds_edges_lel : forall fuel id (d : dd) visit e d' v', MddAll.bounds_edges fuel id d visit e = Some (d', v') -> lel_fixed d d'.
Proof.
  induction fuel as [|f IH]; intros id d visit [eid|] d' v'; cbn [MddAll.bounds_edges]; try discriminate; try (intros H; injection H as <- _; apply fixed_lel, fixed_refl).
  destruct (nth_error _ eid) as [ed|]; cbn [obind]; [|discriminate]. destruct (get_node d id) as [n|]; cbn [obind]; [|discriminate].
  destruct (upd_node d _ _) as [d1|] eqn:E1; cbn [obind]; [|discriminate]. destruct (get_node d1 _) as [m1|]; cbn [obind]; [|discriminate].
  match goal with |- context [obind ?x _] => destruct x as [[d2 visit2]|] eqn:E2 end; cbn [obind]; [|discriminate].
  assert (F2 : fixed d d2).
  { eapply fixed_trans; [eapply fixed_upd; exact E1|]. destruct (negb _); [|injection E2 as <- _; (split; [|split]; reflexivity)]. destruct (upd_node d1 _ _) as [dx|] eqn:Ex; cbn [obind] in E2; [|discriminate].
    destruct (get_node dx _); cbn [obind] in E2; [|discriminate]. injection E2 as <- _. eapply fixed_upd; exact Ex. }
  destruct (get_node d2 id) as [n2|]; cbn [obind]; [|discriminate]. destruct (get_node d2 (e_from ed)) as [m2|]; cbn [obind]; [|discriminate].
  intros H Hct. destruct F2 as (A & B & C). rewrite Hct in A. rewrite A in H. cbn [obind] in H. specialize (IH _ _ _ _ _ _ H A). eapply fixed_trans; [|exact IH]. split; [congruence|auto].
Qed.
Lemma bounds_nodes_lel : forall l (d : dd) visit d' v', ofold (@MddAll.bounds_node S) l (d, visit) = Some (d', v') -> lel_fixed d d'.
Proof.
  induction l as [|i t IH]; cbn [ofold]; intros d visit d' v' H; [injection H as <- _; apply fixed_lel, fixed_refl|].
  destruct (MddAll.bounds_node (d, visit) i) as [[d1 v1]|] eqn:E; cbn [obind] in H; [|discriminate]. eapply lel_trans; [|eapply IH; exact H].
  unfold MddAll.bounds_node in E. destruct (get_node d i); cbn [obind] in E; [|discriminate]. eapply bounds_edges_lel; exact E.
Qed.
Lemma bounds_loop_lel : forall fuel (d : dd) visit d', MddAll.bounds_loop fuel d visit = Some d' -> lel_fixed d d'.
Proof.
  induction fuel as [|k IH]; intros d [|i t] d'; cbn [MddAll.bounds_loop]; try discriminate; try (intros H; injection H as <-; apply fixed_lel, fixed_refl).
  destruct (ofold _ _ _) as [[d1 v1]|] eqn:E; cbn [obind]; [|discriminate]. intros H. eapply lel_trans; [eapply bounds_nodes_lel; exact E|eapply IH; exact H].
Qed.
Lemma all_end_lel depth (d d' : dd) : MddAll.finalize orc inp depth d = Some d' -> lel_fixed d d'.
Proof.
  unfold MddAll.finalize. destruct (max_by_value _ _) as [best|]; cbn [obind]; [|discriminate]. destruct (compute_exact _ _) as [ex|]; cbn [obind]; [|discriminate].
  set (d2 := set_best_exact _ best ex). assert (K : fixed d d2) by (split; [|split]; reflexivity).
  destruct (i_type inp); try (intros H; injection H as <-; exact (fixed_lel _ _ K)). unfold MddAll.compute_local_bounds.
  destruct (negb _); [|intros H; injection H as <-; exact (fixed_lel _ _ K)]. destruct (ofold _ _ d2) as [d3|] eqn:E; cbn [obind]; [|discriminate]. intros H.
  eapply lel_trans; [exact (fixed_lel _ _ K)|]. eapply lel_trans; [|eapply bounds_loop_lel; exact H]. apply fixed_lel. eapply fixed_ofold; [|exact E]. intros a i b Hab. eapply fixed_upd; exact Hab.
Qed.
Lemma edge_step_lel id (d : dd) ed d' : MddBarrier.edge_step id d ed = Some d' -> lel_fixed d d'.
Proof.
  unfold MddBarrier.edge_step. destruct (get_node d id) as [n|]; cbn [obind]; [|discriminate].
  match goal with |- context [obind ?x _] => destruct x as [d1|] eqn:E1 end; cbn [obind]; [|discriminate].
  assert (K1 : fixed d d1). { destruct (is_marked _); [|injection E1 as <-; (split; [|split]; reflexivity)]. eapply fixed_upd; exact E1. }
  destruct (get_node d1 id) as [n1|]; cbn [obind]; [|discriminate]. destruct (upd_node d1 _ _) as [d2|] eqn:E2; cbn [obind]; [|discriminate].
  assert (K2 : fixed d d2) by (eapply fixed_trans; [exact K1|eapply fixed_upd; exact E2]).
  destruct (get_node d2 id) as [n2|]; cbn [obind]; [|discriminate]. destruct (get_node d2 (e_from ed)) as [m2|]; cbn [obind]; [|discriminate].
  intros H Hct. destruct K2 as (A & B & C). rewrite Hct in A. rewrite A in H. injection H as <-. split; [congruence|auto].
Qed.
Lemma edges_lel : forall fuel id (d : dd) e d', MddBarrier.edges_loop fuel id d e = Some d' -> lel_fixed d d'.
Proof.
  induction fuel as [|k IH]; intros id d [eid|] d'; cbn [MddBarrier.edges_loop]; try discriminate; try (intros H; injection H as <-; apply fixed_lel, fixed_refl).
  destruct (nth_error _ eid) as [ed|]; cbn [obind]; [|discriminate]. destruct (edge_step id d ed) as [d1|] eqn:E; cbn [obind]; [|discriminate].
  intros H. eapply lel_trans; [eapply edge_step_lel; exact E|eapply IH; exact H].
Qed.
Lemma bottom_node_lel lb (d : dd) id : pw (bottom_up_node lb d id) (fun d' => lel_fixed d d').
Proof.
  unfold bottom_up_node. apply pw_bind, pw_pure. intros n Hn. destruct (is_deleted _); [cbn; apply fixed_lel, fixed_refl|].
  apply pw_bind, pw_pure. intros d1 E1. apply pw_bind, pw_pure. intros n1 Hn1. apply fixed_upd in E1.
  apply pw_bind. apply pw_any. intros []. apply pw_pure. intros d' H. eapply lel_trans; [exact (fixed_lel _ _ E1)|eapply edges_lel; exact H].
Qed.
Lemma bottom_lel lb : forall l (d : dd), pw (pfold (bottom_up_node lb) l d) (fun d' => lel_fixed d d').
Proof.
  induction l as [|id t IH]; cbn [pfold]; intros d; [cbn; apply fixed_lel, fixed_refl|]. apply pw_bind. eapply pw_mono; [|apply bottom_node_lel]. cbn beta. intros d1 K.
  eapply pw_mono; [|apply IH]. cbn beta. intros d2 K2. eapply lel_trans; eauto.
Qed.
Lemma bar_end_lel depth (d : dd) : pw (MddBarrier.finalize orc inp depth d) (fun d' => lel_fixed d d').
Proof.
  unfold MddBarrier.finalize. apply pw_bind, pw_pure. intros best _. apply pw_bind, pw_pure. intros ex _.
  set (d2 := set_best_exact _ best ex). assert (K : fixed d d2) by (split; [|split]; reflexivity).
  destruct (i_type inp); try exact (fixed_lel _ _ K). unfold compute_local_bounds_and_theta. apply pw_bind, pw_pure. intros d3 E3.
  eapply pw_mono; [|apply bottom_lel]. cbn beta. intros d4 K4. eapply lel_trans; [exact (fixed_lel _ _ K)|]. eapply lel_trans; [|exact K4]. apply fixed_lel. eapply fixed_ofold; [|exact E3].
  intros a i b. unfold MddBarrier.init_bottom. destruct (upd_node a i _) as [d5|] eqn:E5; cbn [obind]; [|discriminate]. destruct (get_node d5 i) as [n|]; cbn [obind]; [|discriminate].
  apply fixed_upd in E5. match goal with |- context [if ?b then _ else _] => destruct b end.
  - intros H. eapply fixed_trans; [exact E5|]. eapply fixed_upd; exact H.
  - intros H. injection H as <-. exact E5.
Qed.

(** * The loop *)
Notation M := (Nat.max (i_width inp) D).
Record trim (t : nat) (d : dd) (curr : list nat) : Prop := {
  tr_ct : g_ctype d = LastExactLayer;
  tr_no : g_approx d = false -> g_cutset d = [];
  tr_len : length (g_cutset d) <= M;
  tr_curr : i_type inp = Relaxed -> 2 <= t -> length curr <= M }.
Definition cut_ok (d : dd) : Prop := length (g_cutset d) <= M.
(** The turn, once the layer is reduced: either nothing happened to the cutset, or it is the previous layer. *)
Lemma trim_step t (d d4 : dd) curr curr2 (c1 : list nat) : i_type inp <> Exact -> trim t d curr -> (t = 1 -> i_type inp = Relaxed -> length c1 <= D) -> length curr2 <= length c1 ->
  (i_type inp = Relaxed -> 2 <= t -> length curr2 <= i_width inp) -> g_ctype d4 = LastExactLayer ->
  (g_approx d4 = g_approx d /\ g_cutset d4 = g_cutset d \/ i_type inp = Restricted /\ g_cutset d4 = g_cutset d /\ g_approx d4 = true \/
    i_type inp = Relaxed /\ 2 <= t /\ g_approx d4 = true /\ g_cutset d4 = if g_approx d then g_cutset d else g_cutset d ++ curr) ->
  trim (Datatypes.S t) d4 curr2.
Proof.
  intros Hty [A B C E] H1 Hl Hw Hct Hc. split; [exact Hct| | |].
  - destruct Hc as [[X Y]|[(_ & _ & X)|(_ & _ & X & _)]]; try congruence. rewrite X, Y. exact B.
  - destruct Hc as [[X Y]|[(_ & Y & X)|(X1 & X2 & X3 & Y)]]; rewrite Y; try exact C. destruct (g_approx d); [exact C|]. rewrite (B eq_refl). cbn. apply E; assumption.
  - intros Hr Ht. destruct (Nat.eq_dec t 1) as [->|Hne]; [specialize (H1 eq_refl Hr); lia|]. specialize (Hw Hr ltac:(lia)). lia.
Qed.
Lemma all_trim_turn k0 t (d : dd) curr d' c : i_type inp <> Exact -> upto k0 t d -> trim t d curr -> k0 + t < N -> MddAll.layer_step eqb orc inp t (nv (k0 + t)) d curr = Some (d', c) ->
  match c with None => g_ctype d' = LastExactLayer /\ cut_ok d' | Some curr' => trim (Datatypes.S t) d' curr' end.
Proof.
  intros Hty U Tr Hk. unfold MddAll.layer_step. destruct (taken_layer S inp orc at_depth D Hiter k0 t d curr (3 * t + 1) U) as [HL Hlen].
  set (d2 := set_next (set_prev d curr) []) in *. set (c1 := map snd _) in *. destruct c1 as [|c0 ct] eqn:Ec.
  - intros H. injection H as <- <-. split; apply Tr.
  - rewrite <- Ec in *. clear Ec. match goal with |- context [obind ?x _] => destruct x as [[d3 curr2]|] eqn:E3 end; cbn [obind]; [|discriminate].
    destruct (ofold _ curr2 d3) as [d4|] eqn:E4; cbn [obind]; [|discriminate]. intros H. injection H as <- <-.
    assert (F4 : fixed d3 d4) by (eapply fixed_ofold; [|exact E4]; intros; eapply expand_fixed; eassumption). destruct F4 as (F1 & F2 & F3).
    assert (H1 : t = 1 -> i_type inp = Relaxed -> length c1 <= D) by (intros -> Hr; rewrite Hlen; apply (up_one _ _ _ _ _ _ _ U); [exact Hr|reflexivity]).
    assert (Hct : g_ctype d2 = LastExactLayer) by apply Tr.
    assert (Hkeep : Some (d2, c1) = Some (d3, curr2) -> (i_type inp = Relaxed -> 2 <= t -> length c1 <= i_width inp) -> trim (Datatypes.S t) d4 curr2).
    { intros H Hw. injection H as <- <-. apply (trim_step t d d4 curr c1 c1); auto; congruence. }
    destruct (i_type inp) eqn:Et; [congruence| |].
    + destruct (i_width inp <? length c1) eqn:Ew; cbn [andb] in E3.
      * apply Nat.ltb_lt in Ew. destruct (1 <? t) eqn:Ed; cbn [andb] in E3.
        -- apply Nat.ltb_lt in Ed. destruct (relax_size S eqb inp orc P R at_depth Hrx Hsort Hrel _ (k0 + t) d2 c1 d3 curr2 ltac:(lia) HL Ew E3) as (_ & _ & W).
           destruct (relax_cut _ _ _ _ _ Hct E3) as (X1 & X2 & X3). apply (trim_step t d d4 curr curr2 c1); auto; try congruence; try lia. right. right. split; [exact Et|]. split; [lia|]. split; [congruence|]. rewrite F3, X3. reflexivity.
        -- apply Nat.ltb_ge in Ed. apply Hkeep; [exact E3|]. lia.
      * apply Nat.ltb_ge in Ew. apply Hkeep; [exact E3|]. auto.
    + destruct (i_width inp <? length c1) eqn:Ew; [|apply Hkeep; [exact E3|discriminate]]. apply Nat.ltb_lt in Ew.
      destruct (restrict_size S inp orc at_depth Hsort (k0 + t) d2 c1 d3 curr2 HL E3) as (_ & _ & W). unfold restrict in E3. destruct (all_present d2 c1); [|discriminate].
      pose proof (f_equal (fun o => match o with Some (x, _) => x | None => d2 end) E3) as Hd. cbv beta iota in Hd. subst d3.
      apply (trim_step t d d4 curr curr2 c1); auto; try congruence; try (intros; congruence); try lia; solve [rewrite F1; exact Hct | right; left; split; [exact Et|]; split; [exact F3|exact F2]].
Qed.
Lemma trim_ok t d curr : trim t d curr -> g_ctype d = LastExactLayer /\ cut_ok d.
Proof. intros T. split; apply T. Qed.
Lemma all_trim_turns k0 : i_type inp <> Exact -> forall fuel t (d : dd) curr d' b, upto k0 t d -> trim t d curr -> k0 + t <= N -> MddAll.layers eqb fuel orc inp t d curr = Some (d', b) ->
  g_ctype d' = LastExactLayer /\ cut_ok d'.
Proof.
  intros Hty. induction fuel as [|f IH]; cbn [MddAll.layers]; intros t d curr d' b U Tr Hk; [discriminate|].
  destruct (pb_next_var _ _) as [var|] eqn:Ev; [|intros H; injection H as <- _; eapply trim_ok; exact Tr].
  destruct (next_var_is S inp orc P at_depth nv D Hpb Hiter Hwf k0 t d _ var Hk U Ev) as [Hlt ->]. destruct (MddAll.layer_step _ _ _ _ _ _ _) as [[d1 c]|] eqn:E; cbn [obind]; [|discriminate].
  pose proof (all_turn S eqb inp orc P R at_depth nv D Hpb Hrx Hiter Hsort Hwf Hrel HD k0 t d curr d1 c Hty U Hlt E) as H1. pose proof (all_trim_turn k0 t d curr d1 c Hty U Tr Hlt E) as H2.
  destruct c as [curr1|]; [intros H; eapply IH; [exact H1|exact H2|lia|exact H]|]. intros H. injection H as <- _. exact H2.
Qed.
Lemma root_trim debug (d d0 : dd) : g_ctype d = LastExactLayer -> root_dd debug inp d = Some d0 -> trim 0 d0 [].
Proof. intros Hct. unfold root_dd. destruct (sub_isize _ _ _); cbn [obind]; [|discriminate]. intros H. injection H as <-. split; cbn; auto; lia. Qed.
Lemma end_ok (d d' : dd) : g_ctype d = LastExactLayer /\ cut_ok d -> lel_fixed d d' -> cut_ok d'.
Proof. intros [A B] H. destruct (H A) as (_ & _ & C). unfold cut_ok in *. rewrite C. exact B. Qed.
Theorem all_cut debug (d d' : dd) : i_type inp <> Exact -> g_ctype d = LastExactLayer -> at_depth (depth_of (i_res inp)) (sp_state (i_res inp)) -> depth_of (i_res inp) <= N ->
  MddAll.compile eqb debug orc inp d = Some d' -> cut_ok d'.
Proof.
  intros Hty Hct Ha Hk. unfold MddAll.compile. destruct (root_dd _ _ _) as [d0|] eqn:E0; cbn [obind]; [|discriminate]. destruct (MddAll.layers _ _ _ _ _ _ _) as [[d1 r]|] eqn:E1; cbn [obind]; [|discriminate].
  destruct (root_upto S inp at_depth D debug _ d d0 Ha E0) as [U _]. pose proof (all_trim_turns _ Hty _ _ _ _ _ _ U (root_trim _ _ _ Hct E0) ltac:(lia) E1) as H1.
  destruct r; [intros H; injection H as <-; apply H1|]. intros H. eapply end_ok; [exact H1|eapply all_end_lel; exact H].
Qed.

(** * with_barrier.rs *)
Lemma prune_fixed rd depth : forall l (d : dd), pw (prune rd depth d l) (fun r => fixed d (fst r)).
Proof.
  assert (G : forall l (d : dd), pw (retain depth d l) (fun r => fixed d (fst r))).
  { induction l as [|id t IH]; cbn [retain]; intros d; [cbn; (split; [|split]; reflexivity)|]. apply pw_bind.
    assert (H1 : pw (retain_node depth d id) (fun r => fixed d (fst r))).
    { unfold retain_node. apply pw_bind, pw_pure. intros n Hn. destruct (is_relaxed _); [cbn; (split; [|split]; reflexivity)|]. cbn. intros r. destruct (_ <? _)%Z; [cbn; (split; [|split]; reflexivity)|].
      apply pw_bind, pw_pure. intros d1 H1. cbn. eapply fixed_upd; exact H1. }
    eapply pw_mono; [|exact H1]. cbn beta. intros [d1 b] K. apply pw_bind. eapply pw_mono; [|apply IH]. cbn beta. intros [d2 r] K2. cbn in *. eapply fixed_trans; eauto. }
  intros l d. unfold prune. destruct (_ <? _); [|cbn; (split; [|split]; reflexivity)]. cbn. intros [|]; [cbn; (split; [|split]; reflexivity)|]. apply G.
Qed.
Lemma upd_prev (d : dd) id f d' : upd_node d id f = Some d' -> g_prev d' = g_prev d.
Proof. unfold upd_node. destruct (get_node d id); cbn [obind]; [|discriminate]. destruct (upd _ _ _); cbn [obind]; [|discriminate]. intros H. injection H as <-. reflexivity. Qed.
Lemma prune_prev rd depth : forall l (d : dd), pw (prune rd depth d l) (fun r => g_prev (fst r) = g_prev d).
Proof.
  assert (G : forall l (d : dd), pw (retain depth d l) (fun r => g_prev (fst r) = g_prev d)).
  { induction l as [|id t IH]; cbn [retain]; intros d; [reflexivity|]. apply pw_bind.
    assert (H1 : pw (retain_node depth d id) (fun r => g_prev (fst r) = g_prev d)).
    { unfold retain_node. apply pw_bind, pw_pure. intros n Hn. destruct (is_relaxed _); [reflexivity|]. cbn. intros r. destruct (_ <? _)%Z; [reflexivity|].
      apply pw_bind, pw_pure. intros d1 H1. cbn. eapply upd_prev; exact H1. }
    eapply pw_mono; [|exact H1]. cbn beta. intros [d1 b] K. apply pw_bind. eapply pw_mono; [|apply IH]. cbn beta. intros [d2 r] K2. cbn in *. congruence. }
  intros l d. unfold prune. destruct (_ <? _); [|reflexivity]. cbn. intros [|]; [reflexivity|]. apply G.
Qed.
Lemma expand_ones_fixed var depth : forall l (d : dd), pw (pfold (expand_one eqb inp var depth) l d) (fun d' => fixed d d').
Proof.
  induction l as [|id t IH]; cbn [pfold]; intros d; [cbn; (split; [|split]; reflexivity)|]. apply pw_bind.
  assert (G : pw (expand_one eqb inp var depth d id) (fun d1 => fixed d d1)).
  { unfold expand_one. apply pw_bind, pw_pure. intros n Hn. apply pw_bind, pw_pure. intros d1 E1. apply pw_bind, pw_pure. intros n1 Hn1. apply expand_fixed in E1.
    destruct (i_type inp); try exact E1. destruct (is_exact (n_flags n1)); [|exact E1]. apply pw_bind, pw_try. exact E1. }
  eapply pw_mono; [|exact G]. cbn beta. intros d1 F1. eapply pw_mono; [|apply IH]. cbn beta. intros d2 F2. eapply fixed_trans; eauto.
Qed.
Lemma bar_trim_turn k0 t (d : dd) curr : i_type inp <> Exact -> upto k0 t d -> trim t d curr -> k0 + t < N ->
  pw (MddBarrier.layer_step eqb orc inp k0 (k0 + t) (nv (k0 + t)) d curr) (fun r => match snd r with None => g_ctype (fst r) = LastExactLayer /\ cut_ok (fst r) | Some curr' => trim (Datatypes.S t) (fst r) curr' end).
Proof.
  intros Hty U Tr Hk. unfold MddBarrier.layer_step. destruct (taken_layer S inp orc at_depth D Hiter k0 t d curr (3 * (k0 + t) + 1) U) as [HL Hlen].
  set (d2 := set_next (set_prev d curr) []) in *. set (c1 := map snd _) in *. destruct c1 as [|c0 ct] eqn:Ec.
  - cbn. split; apply Tr.
  - rewrite <- Ec in *. clear Ec. apply pw_bind. eapply pw_mono; [|apply (pw_and S); [apply (prune_size S at_depth (k0 + t)); exact HL|apply pw_and; [apply prune_fixed|apply (prune_prev k0 (k0 + t))]]].
    cbn beta. intros [d3 curr2] ((_ & L3 & N3) & (Y1 & Y2 & Y3) & Y4). cbn [fst snd] in *.
    apply pw_bind, pw_pure. intros [d4 curr3] E4. apply pw_bind. eapply pw_mono; [|apply expand_ones_fixed]. cbn beta. intros d5 (F1 & F2 & F3). cbn.
    assert (H1 : t = 1 -> i_type inp = Relaxed -> length c1 <= D) by (intros -> Hr; rewrite Hlen; apply (up_one _ _ _ _ _ _ _ U); [exact Hr|reflexivity]).
    assert (Hct : g_ctype d3 = LastExactLayer) by (rewrite Y1; apply Tr).
    assert (Z2 : g_approx d3 = g_approx d) by exact Y2. assert (Z3 : g_cutset d3 = g_cutset d) by exact Y3. assert (Z4 : g_prev d3 = curr) by exact Y4.
    assert (Hkeep : Some (d3, curr2) = Some (d4, curr3) -> (i_type inp = Relaxed -> 2 <= t -> length curr2 <= i_width inp) -> trim (Datatypes.S t) d5 curr3).
    { intros H Hw. injection H as <- <-. apply (trim_step t d d5 curr curr2 c1); auto; try congruence. left. split; congruence. }
    unfold shrink in E4. destruct (i_type inp) eqn:Et; [congruence| |].
    + destruct (i_width inp <? length curr2) eqn:Ew; cbn [andb] in E4.
      * apply Nat.ltb_lt in Ew. destruct (k0 + 1 <? k0 + t) eqn:Ed; cbn [andb] in E4.
        -- apply Nat.ltb_lt in Ed. destruct (relax_size S eqb inp orc P R at_depth Hrx Hsort Hrel _ (k0 + t) d3 curr2 d4 curr3 ltac:(lia) L3 Ew E4) as (_ & _ & W).
           destruct (relax_cut _ _ _ _ _ Hct E4) as (X1 & X2 & X3). apply (trim_step t d d5 curr curr3 c1); auto; try congruence; try lia. right. right. split; [exact Et|]. split; [lia|]. split; [congruence|]. rewrite F3, X3, Z2, Z3, Z4. reflexivity.
        -- apply Nat.ltb_ge in Ed. apply Hkeep; [exact E4|]. lia.
      * apply Nat.ltb_ge in Ew. apply Hkeep; [exact E4|]. auto.
    + destruct (i_width inp <? length curr2) eqn:Ew; [|apply Hkeep; [exact E4|discriminate]]. apply Nat.ltb_lt in Ew.
      destruct (restrict_size S inp orc at_depth Hsort (k0 + t) d3 curr2 d4 curr3 L3 E4) as (_ & _ & W). unfold restrict in E4. destruct (all_present d3 curr2); [|discriminate].
      pose proof (f_equal (fun o => match o with Some (x, _) => x | None => d3 end) E4) as Hd. cbv beta iota in Hd. subst d4.
      apply (trim_step t d d5 curr curr3 c1); auto; try congruence; try (intros; congruence); try lia; solve [rewrite F1; exact Hct | right; left; split; [exact Et|]; split; [rewrite F3; exact Z3|exact F2]].
Qed.
Lemma bar_trim_turns k0 : i_type inp <> Exact -> forall fuel t (d : dd) curr, upto k0 t d -> trim t d curr -> k0 + t <= N ->
  pw (MddBarrier.layers eqb fuel orc inp k0 (k0 + t) d curr) (fun r => g_ctype (fst r) = LastExactLayer /\ cut_ok (fst r)).
Proof.
  intros Hty. induction fuel as [|f IH]; cbn [MddBarrier.layers]; intros t d curr U Tr Hk; [exact I|].
  destruct (pb_next_var _ _) as [var|] eqn:Ev; [|cbn; eapply trim_ok; exact Tr].
  destruct (next_var_is S inp orc P at_depth nv D Hpb Hiter Hwf k0 t d _ var Hk U Ev) as [Hlt ->]. apply pw_bind.
  eapply pw_mono; [|apply (pw_and S); [apply (bar_turn S eqb inp orc P R at_depth nv D Hpb Hrx Hiter Hsort Hwf Hrel HD k0 t d curr Hty U Hlt)|apply (bar_trim_turn k0 t d curr Hty U Tr Hlt)]].
  cbn beta. intros [d1 [curr1|]] [H1 H2]; cbn [fst snd] in H1, H2; [|exact H2]. rewrite <- Nat.add_succ_r. apply IH; [exact H1|exact H2|lia].
Qed.
Lemma bar_cut_pw debug (d : dd) : i_type inp <> Exact -> g_ctype d = LastExactLayer -> at_depth (depth_of (i_res inp)) (sp_state (i_res inp)) -> depth_of (i_res inp) <= N ->
  pw (MddBarrier.compile eqb debug orc inp d) cut_ok.
Proof.
  intros Hty Hct Ha Hk. unfold MddBarrier.compile. apply pw_bind, pw_pure. intros d0 E0. destruct (root_upto S inp at_depth D debug _ d d0 Ha E0) as [U Hr]. rewrite Hr.
  apply pw_bind. eapply pw_mono; [|rewrite <- (Nat.add_0_r (depth_of (i_res inp))) at 2; apply bar_trim_turns; [exact Hty|exact U|eapply root_trim; [exact Hct|exact E0]|lia]].
  cbn beta. intros [d1 r] H1. cbn [fst] in H1. destruct r; [apply H1|]. eapply pw_mono; [|apply bar_end_lel]. cbn beta. intros d2 K. eapply end_ok; eauto.
Qed.
End Cuts.
(** Draining hands out at most the nodes of the cutset. *)
Lemma drain_at_most S (d : dd S) l d' : drain_cutset d = Some (l, d') -> length l <= length (g_cutset d).
Proof.
  unfold drain_cutset. destruct (best_value d) as [[best|]|]; cbn [obind]; [| |discriminate].
  - destruct (drain_list d best (g_cutset d)) as [l1|] eqn:E; cbn [obind]; [|discriminate]. intros H. injection H as <- _. revert l1 E. induction (g_cutset d) as [|i t IH]; cbn [drain_list]; intros l1 E; [injection E as <-; cbn; lia|].
    destruct (drain_node d best i) as [a|] eqn:Ea; cbn [obind] in E; [|discriminate]. destruct (drain_list d best t) as [b|]; cbn [obind] in E; [|discriminate]. injection E as <-.
    specialize (IH b eq_refl). rewrite app_length. cbn. unfold drain_node in Ea. destruct (get_node d i) as [n|]; cbn [obind] in Ea; [|discriminate]. destruct (is_marked _); [|injection Ea as <-; cbn; lia].
    destruct (best_path d i); cbn [obind] in Ea; [|discriminate]. injection Ea as <-. cbn. lia.
  - intros H. injection H as <- _. cbn. lia.
Qed.
