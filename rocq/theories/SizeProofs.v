(** Proofs about the size of a diagram: how many nodes it holds and how many it expands. *)
From Verif Require Import Spec Dd DdSpec MddAll MddBarrier MddBarrierSpec SizeSpec DdCount DdCountMdd.
From Coq Require Import Lia ZArith List Permutation.
Import ListNotations.
Open Scope nat_scope.

(** * What no step after the layers changes *)
Section Same.
Variable S : Type.
Variable inp : input S.
Variable orc : oracle S.
Notation dd := (dd S).
Notation node := (node S).
Notation pw := (pw S).
Ltac quiet := intros ?; repeat match goal with |- context [if ?b then _ else _] => destruct b end; cbn; auto.

Definition same (d d' : dd) : Prop :=
  length (g_nodes d') = length (g_nodes d) /\ length (g_edges d') = length (g_edges d) /\ g_explored d' = g_explored d.
Lemma same_refl d : same d d.
Proof. unfold same. auto. Qed.
Lemma same_trans a b c : same a b -> same b c -> same a c.
Proof. unfold same. intros (A1 & A2 & A3) (B1 & B2 & B3). repeat split; congruence. Qed.
Lemma same_upd d id f d' : upd_node d id f = Some d' -> quiet S f -> same d d'.
Proof. intros H _. destruct (upd_node_spec _ _ _ _ _ H) as (n & _ & _ & H1 & H2 & _ & H3). unfold same. rewrite H2. auto. Qed.
Lemma same_same (d d' : dd) : g_nodes d' = g_nodes d -> g_edges d' = g_edges d -> g_explored d' = g_explored d -> same d d'.
Proof. unfold same. intros -> -> ->. auto. Qed.
Lemma ofold_same {A} (f : dd -> A -> option dd) : (forall d a d', f d a = Some d' -> same d d') -> forall l d d', ofold f l d = Some d' -> same d d'.
Proof.
  intros Hf. induction l as [|a t IH]; cbn [ofold]; intros d d' H; [injection H as <-; apply same_refl|].
  destruct (f d a) as [d1|] eqn:E; cbn [obind] in H; [|discriminate]. eapply same_trans; [eapply Hf; exact E|eapply IH; exact H].
Qed.
Notation pw_bind := (pw_bind S).
Notation pw_mono := (pw_mono S).
Notation pw_pure := (pw_pure S).
Notation pw_any := (pw_any S).
Lemma bounds_edges_same : forall fuel id (d : dd) visit e d' v', MddAll.bounds_edges fuel id d visit e = Some (d', v') -> same d d'.
Proof.
  induction fuel as [|k IH]; intros id d visit [eid|] d' v'; cbn [MddAll.bounds_edges]; try discriminate; try (intros H; injection H as <- <-; apply same_refl).
  destruct (nth_error _ eid) as [ed|]; cbn [obind]; [|discriminate]. destruct (get_node d id) as [n|]; cbn [obind]; [|discriminate].
  destruct (upd_node d _ _) as [d1|] eqn:E1; cbn [obind]; [|discriminate]. destruct (get_node d1 _) as [m1|]; cbn [obind]; [|discriminate].
  match goal with |- context [obind ?x _] => destruct x as [[d2 visit2]|] eqn:E2 end; cbn [obind]; [|discriminate].
  assert (K2 : same d1 d2).
  { destruct (negb _); [|injection E2 as <- <-; apply same_refl]. destruct (upd_node d1 _ _) as [dx|] eqn:Ex; cbn [obind] in E2; [|discriminate].
    destruct (get_node dx _) as [mx|]; cbn [obind] in E2; [|discriminate]. injection E2 as <- _. eapply same_upd; [exact Ex|quiet]. }
  destruct (get_node d2 id) as [n2|]; cbn [obind]; [|discriminate]. destruct (get_node d2 (e_from ed)) as [m2|]; cbn [obind]; [|discriminate].
  match goal with |- context [obind ?x _] => destruct x as [d3|] eqn:E3 end; cbn [obind]; [|discriminate].
  assert (K3 : same d2 d3).
  { destruct (g_ctype d2); [injection E3 as <-; apply same_refl|]. destruct (_ && _); [|injection E3 as <-; apply same_refl].
    destruct (upd_node d2 _ _) as [dx|] eqn:Ex; cbn [obind] in E3; [|discriminate]. injection E3 as <-. eapply same_trans; [eapply same_upd; [exact Ex|quiet]|]. apply same_same; reflexivity. }
  intros H. eapply same_trans; [eapply same_upd; [exact E1|quiet]|]. eapply same_trans; [exact K2|]. eapply same_trans; [exact K3|]. eapply IH; exact H.
Qed.
Lemma bounds_nodes_same : forall l (d : dd) visit d' v', ofold (@MddAll.bounds_node S) l (d, visit) = Some (d', v') -> same d d'.
Proof.
  induction l as [|i t IH]; cbn [ofold]; intros d visit d' v' H; [injection H as <- _; apply same_refl|].
  destruct (MddAll.bounds_node (d, visit) i) as [[d1 v1]|] eqn:E; cbn [obind] in H; [|discriminate]. eapply same_trans; [|eapply IH; exact H].
  unfold MddAll.bounds_node in E. destruct (get_node d i) as [n|]; cbn [obind] in E; [|discriminate]. eapply bounds_edges_same; exact E.
Qed.
Lemma bounds_loop_same : forall fuel (d : dd) visit d', MddAll.bounds_loop fuel d visit = Some d' -> same d d'.
Proof.
  induction fuel as [|k IH]; intros d [|i t] d'; cbn [MddAll.bounds_loop]; try discriminate; try (intros H; injection H as <-; apply same_refl).
  destruct (ofold _ _ _) as [[d1 v1]|] eqn:E; cbn [obind]; [|discriminate]. intros H. eapply same_trans; [eapply bounds_nodes_same; exact E|eapply IH; exact H].
Qed.
Lemma all_end_same depth (d d' : dd) : MddAll.finalize orc inp depth d = Some d' -> same d d'.
Proof.
  unfold MddAll.finalize. destruct (max_by_value _ _) as [best|]; cbn [obind]; [|discriminate]. destruct (compute_exact _ _) as [ex|]; cbn [obind]; [|discriminate].
  set (d2 := set_best_exact _ best ex). assert (K : same d d2) by (apply same_same; reflexivity).
  destruct (i_type inp); try (intros H; injection H as <-; exact K). unfold MddAll.compute_local_bounds.
  destruct (negb _); [|intros H; injection H as <-; exact K]. destruct (ofold _ _ d2) as [d3|] eqn:E; cbn [obind]; [|discriminate]. intros H.
  eapply same_trans; [exact K|]. eapply same_trans; [|eapply bounds_loop_same; exact H]. eapply ofold_same; [|exact E].
  intros a i b Hab. eapply same_upd; [exact Hab|quiet].
Qed.
Lemma edge_step_same id (d : dd) ed d' : MddBarrier.edge_step id d ed = Some d' -> same d d'.
Proof.
  unfold MddBarrier.edge_step. destruct (get_node d id) as [n|]; cbn [obind]; [|discriminate].
  match goal with |- context [obind ?x _] => destruct x as [d1|] eqn:E1 end; cbn [obind]; [|discriminate].
  assert (K1 : same d d1). { destruct (is_marked _); [|injection E1 as <-; apply same_refl]. eapply same_upd; [exact E1|quiet]. }
  destruct (get_node d1 id) as [n1|]; cbn [obind]; [|discriminate]. destruct (upd_node d1 _ _) as [d2|] eqn:E2; cbn [obind]; [|discriminate].
  assert (K2 : same d d2) by (eapply same_trans; [exact K1|eapply same_upd; [exact E2|quiet]]).
  destruct (get_node d2 id) as [n2|]; cbn [obind]; [|discriminate]. destruct (get_node d2 (e_from ed)) as [m2|]; cbn [obind]; [|discriminate].
  destruct (g_ctype d2); [intros H; injection H as <-; exact K2|]. destruct (_ && _); [|intros H; injection H as <-; exact K2].
  destruct (upd_node d2 _ _) as [dx|] eqn:Ex; cbn [obind]; [|discriminate]. intros H. injection H as <-. eapply same_trans; [exact K2|].
  eapply same_trans; [eapply same_upd; [exact Ex|quiet]|]. apply same_same; reflexivity.
Qed.
Lemma edges_same : forall fuel id (d : dd) e d', MddBarrier.edges_loop fuel id d e = Some d' -> same d d'.
Proof.
  induction fuel as [|k IH]; intros id d [eid|] d'; cbn [MddBarrier.edges_loop]; try discriminate; try (intros H; injection H as <-; apply same_refl).
  destruct (nth_error _ eid) as [ed|]; cbn [obind]; [|discriminate]. destruct (edge_step id d ed) as [d1|] eqn:E; cbn [obind]; [|discriminate].
  intros H. eapply same_trans; [eapply edge_step_same; exact E|eapply IH; exact H].
Qed.
Lemma bottom_node_pw lb (d : dd) id : pw (bottom_up_node lb d id) (fun d' => same d d').
Proof.
  unfold bottom_up_node. apply pw_bind, pw_pure. intros n Hn. destruct (is_deleted _); [cbn; apply same_refl|].
  apply pw_bind, pw_pure. intros d1 E1. apply pw_bind, pw_pure. intros n1 Hn1.
  assert (K1 : same d d1) by (eapply same_upd; [exact E1|]; unfold cut_theta; quiet).
  assert (G : pw (pure (edges_loop (Datatypes.S (length (g_edges d1))) id d1 (n_inbound n1))) (fun d' => same d d')).
  { apply pw_pure. intros d' H. eapply same_trans; [exact K1|eapply edges_same; exact H]. }
  apply pw_bind. apply pw_any. intros []. exact G.
Qed.
Lemma bottom_pw lb : forall l (d : dd), pw (pfold (bottom_up_node lb) l d) (fun d' => same d d').
Proof.
  induction l as [|id t IH]; cbn [pfold]; intros d; [cbn; apply same_refl|]. apply pw_bind. eapply pw_mono; [|apply bottom_node_pw]. cbn beta. intros d1 K.
  eapply pw_mono; [|apply IH]. cbn beta. intros d2 K2. eapply same_trans; eauto.
Qed.
Lemma bar_end_same depth (d : dd) : pw (MddBarrier.finalize orc inp depth d) (fun d' => same d d').
Proof.
  unfold MddBarrier.finalize. apply pw_bind, pw_pure. intros best _. apply pw_bind, pw_pure. intros ex _.
  set (d2 := set_best_exact _ best ex). assert (K : same d d2) by (apply same_same; reflexivity).
  destruct (i_type inp); try exact K. unfold compute_local_bounds_and_theta. apply pw_bind, pw_pure. intros d3 E3.
  eapply pw_mono; [|apply bottom_pw]. cbn beta. intros d4 K4. eapply same_trans; [exact K|]. eapply same_trans; [|exact K4]. eapply ofold_same; [|exact E3].
  intros a i b. unfold MddBarrier.init_bottom. destruct (upd_node a i _) as [d5|] eqn:E5; cbn [obind]; [|discriminate]. destruct (get_node d5 i) as [n|]; cbn [obind]; [|discriminate].
  assert (K5 : same a d5) by (eapply same_upd; [exact E5|quiet]). match goal with |- context [if ?b then _ else _] => destruct b end.
  - intros H. eapply same_trans; [exact K5|]. eapply same_upd; [exact H|quiet].
  - intros H. injection H as <-. exact K5.
Qed.
End Same.

(** * The layers *)
Section Layers.
Variable S : Type.
Variable eqb : S -> S -> bool.
Variable inp : input S.
Variable orc : oracle S.
Variable P : problem S.
Variable R : relaxation S.
Variable at_depth : nat -> S -> Prop.
Variable nv : nat -> nat.
Variable D : nat.
Hypothesis Hpb : i_pb inp = P.
Hypothesis Hrx : i_rx inp = R.
Hypothesis Hiter : forall i l, Permutation l (o_iter orc i l).
Hypothesis Hsort : forall cmp l, Permutation l (o_sort orc cmp l).
Hypothesis Hwf : wf_problem S P at_depth nv.
Hypothesis Hrel : relaxation_depth S P at_depth R.
Hypothesis HD : domains_within S P at_depth nv D.
Notation dd := (dd S).
Notation node := (node S).
Notation N := (pb_nb_vars P).
Notation pw := (pw S).

(** The listed nodes exist and their states may stand in layer [k]. *)
Definition layer (k : nat) (d : dd) (l : list nat) : Prop := forall i, In i l -> exists n, get_node d i = Some n /\ at_depth k (n_state n).
(** Nodes stay, with their states; at most [a] are added. *)
Record grows (a : nat) (d d' : dd) : Prop := {
  gr_old : forall i n, get_node d i = Some n -> exists n', get_node d' i = Some n' /\ n_state n' = n_state n;
  gr_len : length (g_nodes d') <= length (g_nodes d) + a;
  gr_next : g_next d' = g_next d;
  gr_expl : g_explored d' = g_explored d }.
Lemma grows_refl d : grows 0 d d.
Proof. split; eauto; lia. Qed.
Lemma grows_trans a b x y z : grows a x y -> grows b y z -> grows (a + b) x z.
Proof.
  intros [A1 A2 A3 A4] [B1 B2 B3 B4]. split; [|lia|congruence|congruence]. intros i n Hn. destruct (A1 i n Hn) as (n1 & H1 & E1).
  destruct (B1 i n1 H1) as (n2 & H2 & E2). exists n2. split; congruence.
Qed.
Lemma grows_same (d d' : dd) : g_nodes d' = g_nodes d -> g_next d' = g_next d -> g_explored d' = g_explored d -> grows 0 d d'.
Proof. intros A B C0. split; try assumption; [|rewrite A; lia]. intros i n Hn. exists n. split; [|reflexivity]. unfold get_node in *. rewrite A. exact Hn. Qed.
Definition stately (f : node -> node) : Prop := forall n, n_state (f n) = n_state n.
Lemma grows_upd (d : dd) id f d' : upd_node d id f = Some d' -> stately f -> grows 0 d d'.
Proof.
  intros H Hf. destruct (upd_node_spec _ _ _ _ _ H) as (n & Hn & Hg & H1 & H2 & H3 & H4). split; [|lia|exact H3|exact H4].
  intros i m Hm. rewrite Hg. destruct (Nat.eqb_spec i id) as [->|_]; [|eauto]. exists (f n). split; [reflexivity|]. rewrite Hf. congruence.
Qed.
Ltac stately := intros ?; repeat match goal with |- context [if ?b then _ else _] => destruct b end; reflexivity.
Lemma grows_ofold {A} (f : dd -> A -> option dd) : (forall d a d', f d a = Some d' -> grows 0 d d') -> forall l d d', ofold f l d = Some d' -> grows 0 d d'.
Proof.
  intros Hf. induction l as [|a t IH]; cbn [ofold]; intros d d' H; [injection H as <-; apply grows_refl|].
  destruct (f d a) as [d1|] eqn:E; cbn [obind] in H; [|discriminate]. change 0 with (0 + 0). eapply grows_trans; [eapply Hf; exact E|eapply IH; exact H].
Qed.
Lemma layer_grows k a d d' l : grows a d d' -> layer k d l -> layer k d' l.
Proof. intros G H i Hi. destruct (H i Hi) as (n & Hn & Ha). destruct (gr_old _ _ _ G i n Hn) as (n' & H1 & H2). exists n'. split; [exact H1|]. rewrite H2. exact Ha. Qed.
Lemma layer_incl k d l l' : incl l' l -> layer k d l -> layer k d l'.
Proof. intros I H i Hi. apply H, I, Hi. Qed.

Lemma mark_grows v (d : dd) id d' : mark_cutset v d id = Some d' -> grows 0 d d'.
Proof.
  unfold mark_cutset. destruct (upd_node d id _) as [d1|] eqn:E; cbn [obind]; [|discriminate]. destruct (get_node d1 id); cbn [obind]; [|discriminate].
  intros H. injection H as <-. change 0 with (0 + 0). eapply grows_trans; [eapply grows_upd; [exact E|stately]|apply grows_same; reflexivity].
Qed.
Lemma redirect_grows rx merged mid dropped : forall fuel (d : dd) e d', redirect fuel rx merged mid dropped d e = Some d' -> grows 0 d d'.
Proof.
  induction fuel as [|k IH]; intros d [eid|] d'; cbn [redirect]; try discriminate; try (intros H; injection H as <-; apply grows_refl).
  destruct (nth_error _ eid) as [ed|]; cbn [obind]; [|discriminate]. destruct (get_node d (e_from ed)); cbn [obind]; [|discriminate].
  destruct (get_node d mid) as [m|]; cbn [obind]; [|discriminate]. destruct (upd_node _ mid _) as [d2|] eqn:E2; cbn [obind]; [|discriminate].
  destruct (get_node d2 (e_from ed)); cbn [obind]; [|discriminate]. destruct (get_node d2 mid) as [m2|]; cbn [obind]; [|discriminate].
  match goal with |- context [obind ?x _] => destruct x as [d3|] eqn:E3 end; cbn [obind]; [|discriminate].
  intros H. change 0 with (0 + (0 + (0 + 0))). eapply grows_trans; [|eapply grows_trans; [eapply grows_upd; [exact E2|stately]|eapply grows_trans; [|eapply IH; exact H]]].
  - apply grows_same; reflexivity.
  - destruct (_ <=? _)%Z; [eapply grows_upd; [exact E3|stately]|injection E3 as <-; apply grows_refl].
Qed.
Lemma drop_grows v rx merged mid (d : dd) id d' : drop_node v rx merged mid d id = Some d' -> grows 0 d d'.
Proof.
  unfold drop_node. match goal with |- context [obind ?x _] => destruct x as [d1|] eqn:E1 end; cbn [obind]; [|discriminate].
  destruct (get_node d1 id) as [n|]; cbn [obind]; [|discriminate]. intros H. change 0 with (0 + 0). eapply grows_trans; [|eapply redirect_grows; exact H].
  destruct v; [injection E1 as <-; apply grows_refl|eapply grows_upd; [exact E1|stately]].
Qed.
Lemma all_present_get (d : dd) l : forall ss, map_states d l = Some ss -> forall k, layer k d l -> Forall (at_depth k) ss /\ length ss = length l.
Proof.
  induction l as [|i t IH]; cbn [map_states]; intros ss H k HL; [injection H as <-; split; [constructor|reflexivity]|].
  destruct (get_node d i) as [n|] eqn:En; cbn [obind] in H; [|discriminate]. destruct (map_states d t) as [r|] eqn:Er; cbn [obind] in H; [|discriminate]. injection H as <-.
  destruct (IH r eq_refl k) as [F1 F2]; [intros j Hj; apply HL; right; exact Hj|]. destruct (HL i (or_introl eq_refl)) as (n' & Hn' & Ha). split; [constructor; [congruence|exact F1]|cbn; congruence].
Qed.
Lemma skipn_incl {A} k (l : list A) : incl (skipn k l) l.
Proof. intros x Hx. rewrite <- (firstn_skipn k l). apply in_or_app. right. exact Hx. Qed.

Lemma restrict_size k (d : dd) curr d' curr' : layer k d curr -> restrict orc inp d curr = Some (d', curr') ->
  grows 0 d d' /\ layer k d' curr' /\ length curr' <= i_width inp.
Proof.
  unfold restrict. intros HL. destruct (all_present d curr); [|discriminate]. intros H. injection H as <- <-.
  split; [apply grows_same; reflexivity|]. split; [|rewrite firstn_length; lia]. eapply layer_incl; [apply firstn_incl|].
  intros i Hi. apply HL. eapply Permutation_in; [apply Permutation_sym, Hsort|exact Hi].
Qed.
Lemma relax_size v k (d : dd) curr d' curr' : k <= N -> layer k d curr -> i_width inp < length curr -> relax eqb v orc inp d curr = Some (d', curr') ->
  grows 1 d d' /\ layer k d' curr' /\ length curr' <= i_width inp.
Proof.
  intros Hk HL Hlen. unfold relax. match goal with |- context [obind ?x _] => destruct x as [d1|] eqn:E1 end; cbn [obind]; [|discriminate].
  assert (G1 : grows 0 d d1).
  { destruct (g_ctype d); [|injection E1 as <-; apply grows_refl]. destruct (negb _); [|injection E1 as <-; apply grows_refl]. eapply grows_ofold; [|exact E1]. intros. eapply mark_grows; eassumption. }
  destruct (all_present d1 curr); [|discriminate]. set (d2 := set_approx d1 true). assert (G2 : grows 0 d d2) by (change 0 with (0 + 0); eapply grows_trans; [exact G1|apply grows_same; reflexivity]).
  set (sorted := o_sort orc _ curr). assert (Ps : Permutation curr sorted) by apply Hsort. clearbody sorted.
  destruct (i_width inp) as [|w1] eqn:Ew; [discriminate|]. destruct (w1 <=? length sorted); [|discriminate].
  assert (L2 : layer k d2 sorted). { eapply layer_grows; [exact G2|]. intros i Hi. apply HL. eapply Permutation_in; [apply Permutation_sym, Ps|exact Hi]. }
  destruct (map_states d2 (firstn w1 sorted)) as [ks|]; cbn [obind]; [|discriminate]. destruct (map_states d2 (skipn w1 sorted)) as [ms|] eqn:Em; cbn [obind]; [|discriminate].
  destruct (all_present_get d2 (skipn w1 sorted) ms Em k) as [Fm Lm]; [eapply layer_incl; [apply skipn_incl|exact L2]|].
  assert (Hne : ms <> []). { intros ->. cbn in Lm. rewrite skipn_length, <- (Permutation_length Ps) in Lm. lia. }
  assert (Hm : at_depth k (rx_merge (i_rx inp) ms)) by (rewrite Hrx; apply Hrel; auto).
  set (merged := rx_merge (i_rx inp) ms) in *. clearbody merged. set (rec := option_map fst _). clearbody rec.
  match goal with |- context [obind ?x _] => destruct x as [[mid d3]|] eqn:E3 end; cbn [obind]; [|discriminate].
  destruct (upd_node d3 mid _) as [d4|] eqn:E4; cbn [obind]; [|discriminate]. destruct (ofold _ _ d4) as [d5|] eqn:E5; cbn [obind]; [|discriminate].
  assert (G35 : grows 0 d3 d5). { change 0 with (0 + 0). eapply grows_trans; [eapply grows_upd; [exact E4|stately]|]. eapply grows_ofold; [|exact E5]. intros. eapply drop_grows; eassumption. }
  destruct rec as [rid|].
  - injection E3 as <- <-. match goal with |- context [obind ?x _] => destruct x as [d6|] eqn:E6 end; cbn [obind]; [|discriminate]. intros H. pose proof (f_equal (fun o => match o with Some (_, l) => l | None => [] end) H) as Hc. pose proof (f_equal (fun o => match o with Some (x, _) => x | None => d6 end) H) as Hd.
    cbv beta iota in Hc, Hd. clear H. subst d' curr'.
    assert (G6 : grows 0 d5 d6). { destruct v; [injection E6 as <-; apply grows_refl|]. destruct (nth_error _ w1); cbn [obind] in E6; [|discriminate]. eapply grows_upd; [exact E6|stately]. }
    assert (G : grows (0 + (0 + 0)) d d6) by (eapply grows_trans; [exact G2|eapply grows_trans; eauto]).
    split; [destruct G; split; auto; lia|]. split; [|rewrite firstn_length; lia]. eapply layer_grows; [eapply grows_trans; [exact G35|exact G6]|]. eapply layer_incl; [apply firstn_incl|exact L2].
  - match type of E3 with obind ?x _ = _ => destruct x as [dep|] end; cbn [obind] in E3; [|discriminate]. injection E3 as <- <-.
    set (nd := mk_node _ _ _ _ _ _ _ _ _) in *. assert (G3 : grows 1 d2 (set_nodes d2 (g_nodes d2 ++ [nd]))).
    { split; try reflexivity; [|cbn; rewrite app_length; cbn; lia]. intros i n Hn. exists n. split; [|reflexivity]. unfold get_node in *. cbn [set_nodes g_nodes]. rewrite nth_error_app1; [exact Hn|]. apply nth_error_Some. congruence. }
    intros H. injection H as <- <-. assert (G25 : grows 1 d2 d5) by (eapply (grows_trans 1 0); eauto).
    split; [eapply (grows_trans 0 1); eauto|]. split.
    + intros i Hi. apply in_app_or in Hi as [Hi|[<-|[]]].
      * apply (layer_grows _ _ _ _ _ G25 L2). eapply firstn_incl; exact Hi.
      * destruct (gr_old _ _ _ G35 (length (g_nodes d2)) nd) as (n' & H1 & H2).
        { unfold get_node. cbn. rewrite nth_error_app2 by lia. rewrite Nat.sub_diag. reflexivity. }
        exists n'. split; [exact H1|]. rewrite H2. exact Hm.
    + rewrite app_length, firstn_length. cbn. lia.
Qed.

(** One decision, one node, one list of nodes. *)
Record step_to (k e a : nat) (d d' : dd) : Prop := {
  st_old : forall i n, get_node d i = Some n -> exists n', get_node d' i = Some n' /\ n_state n' = n_state n;
  st_len : length (g_nodes d') <= length (g_nodes d) + a;
  st_next : length (g_next d') <= length (g_next d) + a;
  st_keys : (forall s i, In (s, i) (g_next d) -> at_depth k s) -> forall s i, In (s, i) (g_next d') -> at_depth k s;
  st_layer : layer k d (nextids S d) -> layer k d' (nextids S d');
  st_expl : g_explored d' <= g_explored d + e }.
Lemma step_to_trans k e a e' a' x y z : step_to k e a x y -> step_to k e' a' y z -> step_to k (e + e') (a + a') x z.
Proof.
  intros [A1 A2 A3 A4 A5 A6] [B1 B2 B3 B4 B5 B6]. split; try lia; [|eauto..]. intros i n Hn. destruct (A1 i n Hn) as (n1 & H1 & E1).
  destruct (B1 i n1 H1) as (n2 & H2 & E2). exists n2. split; congruence.
Qed.
Lemma grows_step k d d' : grows 0 d d' -> step_to k 0 0 d d'.
Proof.
  intros G. pose proof G as [A1 A2 A3 A4]. split; rewrite ?A3; try lia; eauto. intros H. unfold nextids. rewrite A3. eapply layer_grows; eauto.
Qed.
Lemma step_to_le k e a e' a' d d' : e <= e' -> a <= a' -> step_to k e a d d' -> step_to k e' a' d d'.
Proof. intros He Ha [A1 A2 A3 A4 A5 A6]. split; eauto; lia. Qed.
Lemma branch_size v k from (d : dd) dec d' n : get_node d from = Some n -> at_depth (Datatypes.S k) (pb_trans P (n_state n) dec) -> branch_on eqb v P from d dec = Some d' -> step_to (Datatypes.S k) 0 1 d d'.
Proof.
  unfold branch_on. intros Hn Ha. rewrite Hn. cbn [obind]. set (s' := pb_trans P (n_state n) dec) in *. set (es := g_edges d).
  destruct (next_get eqb (g_next d) s') as [tid|].
  - destruct (get_node d tid) as [nd|] eqn:Et; cbn [obind]; [|discriminate].
    match goal with |- context [obind (upd _ _ ?x) _] => set (nd2 := x); destruct (upd (g_nodes d) tid nd2) as [ns|] eqn:Eu end; cbn [obind]; [|discriminate].
    intros H. injection H as <-. assert (Hs2 : n_state nd2 = n_state nd). { unfold nd2. destruct v; cbn; repeat match goal with |- context [if ?b then _ else _] => destruct b end; reflexivity. }
    destruct (upd_spec _ _ _ _ Eu) as [Le Ng]. match goal with |- step_to _ _ _ _ ?x => assert (G : grows 0 d x) end.
    { split; cbn; try reflexivity; [|lia]. unfold get_node. cbn. intros i m Hm. rewrite Ng. destruct (Nat.eqb_spec i tid) as [->|_]; [|exists m; split; [exact Hm|reflexivity]].
      exists nd2. split; [reflexivity|]. rewrite Hs2. unfold get_node in Et. congruence. }
    eapply (step_to_le _ 0 0); [lia|lia|]. apply grows_step, G.
  - intros H. injection H as <-. set (nd := mk_node _ _ _ _ _ _ _ _ _). 
    assert (Hold : forall i m, get_node d i = Some m -> nth_error (g_nodes d ++ [nd]) i = Some m).
    { intros i m Hm. unfold get_node in Hm. rewrite nth_error_app1; [exact Hm|]. apply nth_error_Some. congruence. }
    split; cbn; try lia.
    + intros i m Hm. exists m. split; [apply Hold, Hm|reflexivity].
    + rewrite app_length. cbn. lia.
    + intros H s i [E|Hi]; [injection E as <- _; exact Ha|eapply H; exact Hi].
    + intros H i [<-|Hi]; unfold get_node; cbn.
      * exists nd. split; [|exact Ha]. rewrite nth_error_app2 by lia. rewrite Nat.sub_diag. reflexivity.
      * destruct (H i Hi) as (m & Hm & Hd). exists m. split; [apply Hold, Hm|exact Hd].
Qed.
Lemma branches_size v k from s : forall l (d : dd) d' n, get_node d from = Some n -> n_state n = s -> (forall dec, In dec l -> at_depth (Datatypes.S k) (pb_trans P s dec)) ->
  ofold (branch_on eqb v P from) l d = Some d' -> step_to (Datatypes.S k) 0 (length l) d d'.
Proof.
  induction l as [|dec t IH]; cbn [ofold]; intros d d' n Hn Hs Hl H; [injection H as <-; apply grows_step, grows_refl|].
  destruct (branch_on _ _ _ _ d dec) as [d1|] eqn:E; cbn [obind] in H; [|discriminate].
  assert (S1 : step_to (Datatypes.S k) 0 1 d d1) by (eapply branch_size; [exact Hn|rewrite Hs; apply Hl; left; reflexivity|exact E]).
  destruct (st_old _ _ _ _ _ S1 from n Hn) as (n1 & Hn1 & E1). change (length (dec :: t)) with (1 + length t). change 0 with (0 + 0).
  eapply step_to_trans; [exact S1|]. eapply IH; [exact Hn1|congruence|intros; apply Hl; right; assumption|exact H].
Qed.
Lemma expand_size v k (d : dd) id d' : k < N -> layer k d [id] -> expand_node eqb v inp (nv k) d id = Some d' -> step_to (Datatypes.S k) 1 D d d'.
Proof.
  intros Hk HL. unfold expand_node. destruct (HL id (or_introl eq_refl)) as (n & Hn & Ha). rewrite Hn. cbn [obind].
  destruct (upd_node d id _) as [d1|] eqn:E1; cbn [obind]; [|discriminate]. assert (G1 : grows 0 d d1) by (eapply grows_upd; [exact E1|stately]).
  destruct (get_node d1 id) as [n1|] eqn:En1; cbn [obind]; [|discriminate]. assert (Es : n_state n1 = n_state n). { destruct (gr_old _ _ _ G1 id n Hn) as (n' & H1 & H2). congruence. }
  destruct (_ <? _)%Z.
  - destruct (ofold _ _ d1) as [d2|] eqn:E2; cbn [obind]; [|discriminate]. intros H. injection H as <-. rewrite Hpb in E2.
    apply (step_to_le _ (0 + 1) (0 + length (pb_domain P (nv k) (n_state n)))); [lia|apply HD; assumption|].
    eapply step_to_trans; [apply grows_step; exact G1|]. replace 1 with (0 + 1) by reflexivity.
    replace (length _) with (length (pb_domain P (nv k) (n_state n)) + 0) by lia.
    eapply step_to_trans; [eapply branches_size; [exact En1|exact Es| |exact E2]|].
    + intros dec Hd. eapply wf_trans; eauto.
    + split; cbn; try lia; eauto.
  - intros H. apply (step_to_le _ (0 + 0) (0 + 0)); [lia|lia|]. eapply step_to_trans; [apply grows_step; exact G1|]. apply grows_step.
    destruct v; [injection H as <-; apply grows_refl|eapply grows_upd; [exact H|stately]].
Qed.
Lemma layer_step_to k j e a d d' l : step_to j e a d d' -> layer k d l -> layer k d' l.
Proof. intros G H i Hi. destruct (H i Hi) as (n & Hn & Ha). destruct (st_old _ _ _ _ _ G i n Hn) as (n' & H1 & H2). exists n'. split; [exact H1|]. rewrite H2. exact Ha. Qed.
Lemma expands_size v k : k < N -> forall l (d : dd) d', layer k d l -> ofold (expand_node eqb v inp (nv k)) l d = Some d' -> step_to (Datatypes.S k) (length l) (length l * D) d d'.
Proof.
  intros Hk. induction l as [|id t IH]; cbn [ofold]; intros d d' HL H; [injection H as <-; apply grows_step, grows_refl|].
  destruct (expand_node _ _ _ _ d id) as [d1|] eqn:E; cbn [obind] in H; [|discriminate].
  assert (S1 : step_to (Datatypes.S k) 1 D d d1) by (eapply expand_size; [exact Hk| |exact E]; eapply layer_incl; [|exact HL]; intros i [<-|[]]; left; reflexivity).
  change (length (id :: t)) with (1 + length t). replace ((1 + length t) * D) with (D + length t * D) by lia.
  eapply step_to_trans; [exact S1|]. apply IH; [|exact H]. eapply layer_step_to; [exact S1|]. eapply layer_incl; [|exact HL]. intros i Hi. right. exact Hi.
Qed.

(** ** Bounds after [t] turns of the loop *)
Definition most (t : nat) : nat := match i_type inp with Relaxed => most_relaxed (i_width inp) D t | _ => most_restricted (i_width inp) t end.
Definition extra (t : nat) : nat := match i_type inp with Relaxed => t - 2 | _ => 0 end.
Record upto (k0 t : nat) (d : dd) : Prop := {
  up_keys : forall s i, In (s, i) (g_next d) -> at_depth (k0 + t) s;
  up_layer : layer (k0 + t) d (nextids S d);
  up_expl : g_explored d <= most t;
  up_len : length (g_nodes d) <= 1 + most t * D + extra t;
  up_zero : t = 0 -> length (g_next d) <= 1;
  up_one : i_type inp = Relaxed -> t = 1 -> length (g_next d) <= D }.
Definition small (k0 t : nat) (d : dd) : Prop := exists t', t' <= t /\ g_explored d <= most t' /\ length (g_nodes d) <= 1 + most t' * D + extra t'.

(** The middle of a turn: what was in [g_next] is now a list of nodes. *)
Lemma turn_shrunk k0 t (d d2 d3 : dd) (l : list nat) a : i_type inp <> Exact -> upto k0 t d -> k0 + t < N -> grows a d2 d3 -> g_nodes d2 = g_nodes d -> g_next d2 = [] -> g_explored d2 = g_explored d ->
  (t < 2 -> a = 0) -> (i_type inp = Relaxed \/ a = 0) -> a <= 1 -> layer (k0 + t) d3 l -> length l <= length (g_next d) ->
  (i_type inp = Restricted \/ 2 <= t -> length l <= i_width inp) ->
  forall d4, step_to (Datatypes.S (k0 + t)) (length l) (length l * D) d3 d4 -> upto k0 (Datatypes.S t) d4.
Proof.
  intros Hty [U1 U2 U3 U4 U5 U6] Hk [G1 G2 G3 G4] Hn2 Hx2 He2 Ha0 Har Ha1 HL Hlen Hw d4 [T1 T2 T3 T4 T5 T6]. rewrite Hn2 in G2. rewrite G3, Hx2 in T3. cbn in T3. rewrite He2 in G4. rewrite G4 in T6.
  assert (Hm : most t + length l <= most (Datatypes.S t) /\ (i_type inp = Relaxed -> t = 0 -> length l <= 1) /\ extra t + a <= extra (Datatypes.S t)).
  { unfold most, extra, most_relaxed, most_restricted in *. destruct (i_type inp) eqn:E; [congruence| |].
    - destruct t as [|[|u]].
      + specialize (U5 eq_refl). specialize (Ha0 ltac:(lia)). repeat split; try lia.
      + specialize (U6 eq_refl eq_refl). specialize (Ha0 ltac:(lia)). repeat split; try lia.
      + specialize (Hw ltac:(right; lia)). repeat split; try lia.
    - specialize (Hw ltac:(left; reflexivity)). destruct Har as [Har| ->]; [discriminate|]. repeat split; try lia; discriminate. }
  destruct Hm as (Hm & Hm0 & Hx).
  split.
  - rewrite Nat.add_succ_r. apply T4. rewrite G3, Hx2. intros ? ? [].
  - rewrite Nat.add_succ_r. apply T5. unfold nextids. rewrite G3, Hx2. intros ? [].
  - lia.
  - nia.
  - discriminate.
  - intros Hr E. assert (t = 0) by lia. specialize (Hm0 Hr ltac:(assumption)). nia.
Qed.

(** ** with_all.rs *)
Lemma taken_layer k0 t (d : dd) curr j : upto k0 t d -> let l := map snd (o_iter orc j (g_next (set_prev d curr))) in
  layer (k0 + t) (set_next (set_prev d curr) []) l /\ length l = length (g_next d).
Proof.
  intros [U1 U2 _ _ _ _] l. assert (Pl : Permutation (nextids S d) l) by (unfold nextids, l; apply Permutation_map, Hiter). split.
  - intros i Hi. apply (U2 i). eapply Permutation_in; [apply Permutation_sym, Pl|exact Hi].
  - rewrite <- (Permutation_length Pl). unfold nextids. apply map_length.
Qed.
Lemma all_turn k0 t (d : dd) curr d' c : i_type inp <> Exact -> upto k0 t d -> k0 + t < N -> MddAll.layer_step eqb orc inp t (nv (k0 + t)) d curr = Some (d', c) ->
  match c with None => small k0 t d' | Some _ => upto k0 (Datatypes.S t) d' end.
Proof.
  intros Hty U Hk. unfold MddAll.layer_step. destruct (taken_layer k0 t d curr (3 * t + 1) U) as [HL Hlen]. set (d2 := set_next (set_prev d curr) []) in *. set (c1 := map snd _) in *.
  destruct c1 as [|c0 ct] eqn:Ec.
  - intros H. injection H as <- <-. exists t. split; [lia|]. split; [apply U|apply U].
  - rewrite <- Ec in *. clear Ec. match goal with |- context [obind ?x _] => destruct x as [[d3 curr2]|] eqn:E3 end; cbn [obind]; [|discriminate].
    destruct (ofold _ curr2 d3) as [d4|] eqn:E4; cbn [obind]; [|discriminate]. intros H. injection H as <- <-.
    assert (Hkeep : forall (W : i_type inp = Restricted \/ 2 <= t -> length c1 <= i_width inp), Some (d2, c1) = Some (d3, curr2) -> upto k0 (Datatypes.S t) d4).
    { intros W H. injection H as <- <-. apply (turn_shrunk k0 t d d2 d2 c1 0); auto; try lia; first [apply grows_refl|eapply expands_size; eassumption]. }
    destruct (i_type inp) eqn:Et; [congruence| |].
    + destruct (i_width inp <? length c1) eqn:Ew; cbn [andb] in E3.
      * apply Nat.ltb_lt in Ew. destruct (1 <? t) eqn:Ed; cbn [andb] in E3.
        -- apply Nat.ltb_lt in Ed. destruct (relax_size _ (k0 + t) d2 c1 d3 curr2 ltac:(lia) HL Ew E3) as (G & L3 & W). apply (turn_shrunk k0 t d d2 d3 curr2 1); auto; try congruence; try lia; eapply expands_size; eassumption.
        -- apply Nat.ltb_ge in Ed. apply Hkeep; [|exact E3]. intros [?|?]; [discriminate|lia].
      * apply Nat.ltb_ge in Ew. apply Hkeep; [|exact E3]. intros _. exact Ew.
    + destruct (i_width inp <? length c1) eqn:Ew.
      * apply Nat.ltb_lt in Ew. destruct (restrict_size (k0 + t) d2 c1 d3 curr2 HL E3) as (G & L3 & W). apply (turn_shrunk k0 t d d2 d3 curr2 0); auto; try congruence; try lia; eapply expands_size; eassumption.
      * apply Nat.ltb_ge in Ew. apply Hkeep; [|exact E3]. intros _. exact Ew.
Qed.
(** When there is a variable left, the layer is not the last one and the variable is that of the layer. *)
Lemma next_var_is k0 t (d : dd) j var : k0 + t <= N -> upto k0 t d -> pb_next_var (i_pb inp) (map fst (o_iter orc j (g_next d))) = Some var -> k0 + t < N /\ var = nv (k0 + t).
Proof.
  intros Hk [U1 _ _ _ _ _] Hv. rewrite Hpb in Hv. set (l := map fst _) in *. assert (Hf : Forall (at_depth (k0 + t)) l).
  { apply Forall_forall. intros s Hs. unfold l in Hs. apply in_map_iff in Hs as ((s' & i) & <- & Hi). cbn. apply (U1 s' i). eapply Permutation_in; [apply Permutation_sym, Hiter|exact Hi]. }
  destruct l as [|s l'] eqn:El; [rewrite (wf_next_empty _ _ _ _ Hwf) in Hv; discriminate|]. assert (Hne : s :: l' <> []) by discriminate. destruct (Nat.eq_dec (k0 + t) N) as [E|E].
  - rewrite E in Hf. rewrite (wf_last _ _ _ _ Hwf _ Hne Hf) in Hv. discriminate.
  - assert (Hlt : k0 + t < N) by lia. rewrite (wf_next _ _ _ _ Hwf _ _ Hne Hf Hlt) in Hv. split; [exact Hlt|congruence].
Qed.
Lemma upto_small k0 t d : upto k0 t d -> k0 + t <= N -> small k0 (N - k0) d.
Proof. intros U H. exists t. split; [lia|]. split; apply U. Qed.
Lemma small_le k0 t t' d : t <= t' -> small k0 t d -> small k0 t' d.
Proof. intros H (x & Hx & A). exists x. split; [lia|exact A]. Qed.
Lemma all_turns k0 : i_type inp <> Exact -> forall fuel t (d : dd) curr d' b, upto k0 t d -> k0 + t <= N -> MddAll.layers eqb fuel orc inp t d curr = Some (d', b) -> small k0 (N - k0) d'.
Proof.
  intros Hty. induction fuel as [|f IH]; cbn [MddAll.layers]; intros t d curr d' b U Hk; [discriminate|].
  destruct (pb_next_var _ _) as [var|] eqn:Ev; [|intros H; injection H as <- _; eapply upto_small; eauto].
  destruct (next_var_is k0 t d _ var Hk U Ev) as [Hlt ->]. destruct (MddAll.layer_step _ _ _ _ _ _ _) as [[d1 c]|] eqn:E; cbn [obind]; [|discriminate].
  pose proof (all_turn k0 t d curr d1 c Hty U Hlt E) as H1. destruct c as [curr1|]; [intros H; eapply IH; [exact H1|lia|exact H]|].
  intros H. injection H as <- _. eapply small_le; [|exact H1]. lia.
Qed.
Lemma root_upto debug k0 (d d0 : dd) : at_depth k0 (sp_state (i_res inp)) -> root_dd debug inp d = Some d0 -> upto k0 0 d0 /\ length (g_root_pa d0) = depth_of (i_res inp).
Proof.
  intros Ha. unfold root_dd. destruct (sub_isize _ _ _); cbn [obind]; [|discriminate]. intros H. injection H as <-. split; [|reflexivity].
  split; cbn; rewrite ?Nat.add_0_r.
  - intros s i [E|[]]. injection E as <- _. exact Ha.
  - intros i [<-|[]]. eexists. split; [reflexivity|exact Ha].
  - lia.
  - lia.
  - lia.
  - discriminate.
Qed.
Lemma most_mono a b : a <= b -> most a <= most b /\ extra a <= extra b.
Proof.
  intros H. unfold most, extra, most_relaxed, most_restricted. destruct (i_type inp); split; try nia. destruct a as [|[|a]], b as [|[|b]]; try nia.
Qed.
Definition sized (d : dd) : Prop :=
  g_explored d <= most (N - depth_of (i_res inp)) /\ length (g_nodes d) <= 1 + most (N - depth_of (i_res inp)) * D + extra (N - depth_of (i_res inp)).
Lemma small_sized k0 d : k0 = depth_of (i_res inp) -> small k0 (N - k0) d -> sized d.
Proof. intros -> (t & Ht & A & B). destruct (most_mono t _ Ht) as [M1 M2]. split; [lia|]. nia. Qed.
Lemma same_sized d d' : same S d d' -> sized d -> sized d'.
Proof. intros (A & _ & B) [H1 H2]. split; lia. Qed.
Theorem all_sized debug (d d' : dd) : i_type inp <> Exact -> at_depth (depth_of (i_res inp)) (sp_state (i_res inp)) -> depth_of (i_res inp) <= N ->
  MddAll.compile eqb debug orc inp d = Some d' -> sized d'.
Proof.
  intros Hty Ha Hk. unfold MddAll.compile. destruct (root_dd _ _ _) as [d0|] eqn:E0; cbn [obind]; [|discriminate]. destruct (MddAll.layers _ _ _ _ _ _ _) as [[d1 r]|] eqn:E1; cbn [obind]; [|discriminate].
  destruct (root_upto debug _ d d0 Ha E0) as [U _]. pose proof (all_turns _ Hty _ _ _ _ _ _ U ltac:(lia) E1) as H1. apply small_sized in H1; [|reflexivity].
  destruct r; [intros H; injection H as <-; exact H1|]. intros H. eapply same_sized; [eapply all_end_same; exact H|exact H1].
Qed.

(** ** with_barrier.rs *)
Lemma retain_size k depth : forall l (d : dd), layer k d l -> pw (retain depth d l) (fun r => grows 0 d (fst r) /\ layer k (fst r) (snd r) /\ length (snd r) <= length l).
Proof.
  intros l. assert (G : forall d : dd, pw (retain depth d l) (fun r => grows 0 d (fst r) /\ incl (snd r) l /\ length (snd r) <= length l)).
  { induction l as [|id t IH]; cbn [retain]; intros d; [cbn; split; [apply grows_refl|split; [apply incl_refl|lia]]|]. apply pw_bind.
    assert (H1 : pw (retain_node depth d id) (fun r => grows 0 d (fst r))).
    { unfold retain_node. apply pw_bind, pw_pure. intros n Hn. destruct (is_relaxed _); [cbn; apply grows_refl|]. cbn. intros r. destruct (_ <? _)%Z; [cbn; apply grows_refl|].
      apply pw_bind, pw_pure. intros d1 H1. cbn. eapply grows_upd; [exact H1|stately]. }
    eapply pw_mono; [|exact H1]. cbn beta. intros [d1 b] K. apply pw_bind. eapply pw_mono; [|apply IH]. cbn beta. intros [d2 r] (K2 & I2 & L2). cbn in *.
    split; [change 0 with (0 + 0); eapply grows_trans; eauto|]. destruct b; cbn; split; try lia; [apply incl_cons; [left; reflexivity|apply incl_tl, I2]|apply incl_tl, I2]. }
  intros d HL. eapply pw_mono; [|apply G]. cbn beta. intros [d1 r] (K & I & L). cbn in *. split; [exact K|]. split; [|exact L]. eapply layer_grows; [exact K|]. eapply layer_incl; eauto.
Qed.
Lemma prune_size k rd depth (d : dd) l : layer k d l -> pw (prune rd depth d l) (fun r => grows 0 d (fst r) /\ layer k (fst r) (snd r) /\ length (snd r) <= length l).
Proof.
  intros HL. assert (G : grows 0 d d /\ layer k d l /\ length l <= length l) by (split; [apply grows_refl|split; [exact HL|lia]]).
  unfold prune. destruct (_ <? _); [|exact G]. cbn. intros [|]; [exact G|]. apply retain_size, HL.
Qed.
Lemma expand_ones_size k depth : k < N -> forall l (d : dd), layer k d l -> pw (pfold (expand_one eqb inp (nv k) depth) l d) (fun d' => step_to (Datatypes.S k) (length l) (length l * D) d d').
Proof.
  intros Hk. induction l as [|id t IH]; cbn [pfold]; intros d HL; [cbn; apply grows_step, grows_refl|]. apply pw_bind.
  assert (G : pw (expand_one eqb inp (nv k) depth d id) (fun d1 => step_to (Datatypes.S k) 1 D d d1)).
  { unfold expand_one. apply pw_bind, pw_pure. intros n Hn. apply pw_bind, pw_pure. intros d1 E1. apply pw_bind, pw_pure. intros n1 Hn1.
    assert (H : step_to (Datatypes.S k) 1 D d d1) by (eapply expand_size; [exact Hk| |exact E1]; eapply layer_incl; [|exact HL]; intros i [<-|[]]; left; reflexivity).
    destruct (i_type inp); try exact H. destruct (is_exact (n_flags n1)); [|exact H]. apply pw_bind, pw_try. exact H. }
  eapply pw_mono; [|exact G]. cbn beta. intros d1 S1. eapply pw_mono; [|apply IH]. 
  - cbn beta. intros d2 S2. change (length (id :: t)) with (1 + length t). replace ((1 + length t) * D) with (D + length t * D) by lia. eapply step_to_trans; eauto.
  - eapply layer_step_to; [exact S1|]. eapply layer_incl; [|exact HL]. intros i Hi. right. exact Hi.
Qed.
Lemma bar_turn k0 t (d : dd) curr : i_type inp <> Exact -> upto k0 t d -> k0 + t < N ->
  pw (MddBarrier.layer_step eqb orc inp k0 (k0 + t) (nv (k0 + t)) d curr) (fun r => match snd r with None => small k0 t (fst r) | Some _ => upto k0 (Datatypes.S t) (fst r) end).
Proof.
  intros Hty U Hk. unfold MddBarrier.layer_step. destruct (taken_layer k0 t d curr (3 * (k0 + t) + 1) U) as [HL Hlen]. set (d2 := set_next (set_prev d curr) []) in *. set (c1 := map snd _) in *.
  destruct c1 as [|c0 ct] eqn:Ec.
  - cbn. exists t. split; [lia|]. split; [apply U|apply U].
  - rewrite <- Ec in *. clear Ec. apply pw_bind. eapply pw_mono; [|apply (prune_size (k0 + t)); exact HL]. cbn beta. intros [d3 curr2] (G3 & L3 & N3). cbn in G3, L3, N3.
    apply pw_bind, pw_pure. intros [d4 curr3] E4. apply pw_bind.
    assert (Gen : exists a, grows a d2 d4 /\ (t < 2 -> a = 0) /\ (i_type inp = Relaxed \/ a = 0) /\ a <= 1 /\ layer (k0 + t) d4 curr3 /\ length curr3 <= length (g_next d) /\
      (i_type inp = Restricted \/ 2 <= t -> length curr3 <= i_width inp)).
    { assert (Hkeep : forall (W : i_type inp = Restricted \/ 2 <= t -> length curr2 <= i_width inp), Some (d3, curr2) = Some (d4, curr3) -> exists a, grows a d2 d4 /\ (t < 2 -> a = 0) /\ (i_type inp = Relaxed \/ a = 0) /\ a <= 1 /\ layer (k0 + t) d4 curr3 /\ length curr3 <= length (g_next d) /\
        (i_type inp = Restricted \/ 2 <= t -> length curr3 <= i_width inp)).
      { intros W H. injection H as <- <-. exists 0. split; [exact G3|]. repeat split; auto; lia. }
      unfold shrink in E4. destruct (i_type inp) eqn:Et; [congruence| |].
      - destruct (i_width inp <? length curr2) eqn:Ew; cbn [andb] in E4.
        + apply Nat.ltb_lt in Ew. destruct (k0 + 1 <? k0 + t) eqn:Ed; cbn [andb] in E4.
          * apply Nat.ltb_lt in Ed. destruct (relax_size _ (k0 + t) d3 curr2 d4 curr3 ltac:(lia) L3 Ew E4) as (G & L4 & W). exists 1. split; [eapply (grows_trans 0 1); eauto|]. repeat split; auto; lia.
          * apply Nat.ltb_ge in Ed. apply Hkeep; [|exact E4]. intros [?|?]; [discriminate|lia].
        + apply Nat.ltb_ge in Ew. apply Hkeep; [|exact E4]. intros _. exact Ew.
      - destruct (i_width inp <? length curr2) eqn:Ew.
        + apply Nat.ltb_lt in Ew. destruct (restrict_size (k0 + t) d3 curr2 d4 curr3 L3 E4) as (G & L4 & W). exists 0. split; [eapply (grows_trans 0 0); eauto|]. repeat split; auto; lia.
        + apply Nat.ltb_ge in Ew. apply Hkeep; [|exact E4]. intros _. exact Ew. }
    destruct Gen as (a & G & A1 & A2 & A3 & L4 & A4 & A5). eapply pw_mono; [|apply (expand_ones_size (k0 + t) (k0 + t) Hk curr3 d4 L4)]. cbn beta. intros d5 S5. cbn.
    eapply (turn_shrunk k0 t d d2 d4 curr3 a); eauto; reflexivity.
Qed.
Lemma bar_turns k0 : i_type inp <> Exact -> forall fuel t (d : dd) curr, upto k0 t d -> k0 + t <= N -> pw (MddBarrier.layers eqb fuel orc inp k0 (k0 + t) d curr) (fun r => small k0 (N - k0) (fst r)).
Proof.
  intros Hty. induction fuel as [|f IH]; cbn [MddBarrier.layers]; intros t d curr U Hk; [exact I|].
  destruct (pb_next_var _ _) as [var|] eqn:Ev; [|cbn; eapply upto_small; eauto].
  destruct (next_var_is k0 t d _ var Hk U Ev) as [Hlt ->]. apply pw_bind. eapply pw_mono; [|apply bar_turn; auto]. cbn beta. intros [d1 [curr1|]] H1; cbn [fst snd] in H1.
  - rewrite <- Nat.add_succ_r. apply IH; [exact H1|lia].
  - cbn. eapply small_le; [|exact H1]. lia.
Qed.
Lemma bar_sized_pw debug (d : dd) : i_type inp <> Exact -> at_depth (depth_of (i_res inp)) (sp_state (i_res inp)) -> depth_of (i_res inp) <= N ->
  pw (MddBarrier.compile eqb debug orc inp d) sized.
Proof.
  intros Hty Ha Hk. unfold MddBarrier.compile. apply pw_bind, pw_pure. intros d0 E0. destruct (root_upto debug _ d d0 Ha E0) as [U Hr]. rewrite Hr.
  apply pw_bind. eapply pw_mono; [|rewrite <- (Nat.add_0_r (depth_of (i_res inp))) at 2; apply bar_turns; [exact Hty|exact U|lia]].
  cbn beta. intros [d1 r] H1. cbn [fst] in H1. apply small_sized in H1; [|reflexivity]. destruct r; [exact H1|]. eapply pw_mono; [|apply bar_end_same]. cbn beta. intros d2 K. eapply same_sized; eauto.
Qed.
Theorem bar_sized alone debug (d d' : dd) T T' : i_type inp <> Exact -> at_depth (depth_of (i_res inp)) (sp_state (i_res inp)) -> depth_of (i_res inp) <= N ->
  returns eqb alone (MddBarrier.compile eqb debug orc inp d) T d' T' -> sized d'.
Proof. intros A B C0 H. exact (pw_gets _ _ _ _ _ _ _ _ H (bar_sized_pw debug d A B C0)). Qed.
End Layers.
