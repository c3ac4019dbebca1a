(** Proofs about what draining a cutset hands out: within a layer no two nodes have the same state, and the cutset holds no node
    twice. Nothing is assumed of the problem. *)
From Verif Require Import Spec Dd DdSpec MddAll MddBarrier MddBarrierSpec FlagsFacts DdCount DdCountMdd.
From Coq Require Import Lia ZArith List Permutation.
Import ListNotations.
Open Scope nat_scope.

Section Inv.
Variable S : Type.
Variable eqb : S -> S -> bool.
Hypothesis Heqb : forall a b, eqb a b = true <-> a = b.
Variable inp : input S.
Variable orc : oracle S.
Hypothesis Hiter : forall i l, Permutation l (o_iter orc i l).
Hypothesis Hsort : forall cmp l, Permutation l (o_sort orc cmp l).
Notation dd := (dd S).
Notation node := (node S).
Notation nextids := (DdCount.nextids S).

(** Nodes keep their states and depths, and every edge leaves a node of [X]. *)
Definition from (X : list nat) (d : dd) : Prop := forall e, In e (g_edges d) -> In (e_from e) X.
Record same (d d' : dd) : Prop := {
  sm_node : forall i n, get_node d i = Some n -> exists n', get_node d' i = Some n' /\ n_state n' = n_state n /\ n_depth n' = n_depth n;
  sm_ctype : g_ctype d' = g_ctype d }.
Record step (X : list nat) (d d' : dd) : Prop := {
  st_same : same d d';
  st_from : from X d -> from X d';
  st_next : g_next d' = g_next d;
  st_cut : g_cutset d' = g_cutset d;
  st_prev : g_prev d' = g_prev d;
  st_approx : g_approx d' = g_approx d }.
Lemma same_refl d : same d d.
Proof. constructor; eauto. Qed.
Lemma same_trans a b c : same a b -> same b c -> same a c.
Proof.
  intros [A1 A2] [B1 B2]. constructor; [|congruence]. intros i n Hn. destruct (A1 i n Hn) as (n1 & H1 & E1 & E2). destruct (B1 i n1 H1) as (n2 & H2 & E3 & E4).
  exists n2. split; [exact H2|]. split; congruence.
Qed.
Lemma same_nodes (d d' : dd) : g_nodes d' = g_nodes d -> g_ctype d' = g_ctype d -> same d d'.
Proof. intros H1 H2. constructor; [|exact H2]. unfold get_node. rewrite H1. eauto. Qed.
Lemma same_app (d : dd) l : same d (set_nodes d (g_nodes d ++ l)).
Proof.
  constructor; [|reflexivity]. unfold get_node. cbn. intros i n Hn. exists n. split; [|auto]. rewrite nth_error_app1; [exact Hn|]. apply nth_error_Some. congruence.
Qed.
Lemma step_refl X d : step X d d.
Proof. constructor; auto using same_refl. Qed.
Lemma step_trans X a b c : step X a b -> step X b c -> step X a c.
Proof. intros [A1 A2 A3 A4 A5 A6] [B1 B2 B3 B4 B5 B6]. constructor; try congruence; [eapply same_trans; eauto|auto]. Qed.
Definition still1 (f : node -> node) : Prop := forall n, n_state (f n) = n_state n /\ n_depth (f n) = n_depth n.
Ltac still := intros ?; repeat match goal with |- context [if ?b then _ else _] => destruct b end; cbn; auto.
Lemma upd_step X (d : dd) id f d' : upd_node d id f = Some d' -> still1 f -> step X d d'.
Proof.
  unfold upd_node, get_node. destruct (nth_error (g_nodes d) id) as [n|] eqn:E; cbn [obind]; [|discriminate].
  destruct (upd (g_nodes d) id (f n)) as [ns|] eqn:U; cbn [obind]; [|discriminate]. intros H Hf. injection H as <-. destruct (upd_spec _ _ _ _ U) as [L N].
  constructor; try reflexivity; [|auto]. constructor; [|reflexivity]. unfold get_node. cbn. intros i m Hm. rewrite N. destruct (Nat.eqb_spec i id) as [->|]; [|eauto].
  rewrite E in Hm. injection Hm as <-. exists (f n). destruct (Hf n). auto.
Qed.

(** A layer: nodes at depth [k], with different states. *)
Record layer (k : nat) (d : dd) (l : list nat) : Prop := {
  ly_dup : NoDup l;
  ly_node : forall i, In i l -> exists n, get_node d i = Some n /\ n_depth n = k;
  ly_key : forall i j n m, In i l -> In j l -> get_node d i = Some n -> get_node d j = Some m -> n_state n = n_state m -> i = j }.
Record past (k : nat) (d : dd) (X : list nat) : Prop := {
  pa_node : forall i, In i X -> exists n, get_node d i = Some n /\ n_depth n < k;
  pa_key : forall i j n m, In i X -> In j X -> get_node d i = Some n -> get_node d j = Some m -> n_depth n = n_depth m -> n_state n = n_state m -> i = j }.
Lemma layer_same k d d' l : same d d' -> layer k d l -> layer k d' l.
Proof.
  intros H [L1 L2 L3]. assert (G : forall i, In i l -> exists n n', get_node d i = Some n /\ get_node d' i = Some n' /\ n_state n' = n_state n /\ n_depth n' = k).
  { intros i Hi. destruct (L2 i Hi) as (n & Hn & Hk). destruct (sm_node _ _ H i n Hn) as (n' & Hn' & E1 & E2). exists n, n'. repeat split; auto. congruence. }
  constructor; [exact L1| |].
  - intros i Hi. destruct (G i Hi) as (n & n' & _ & H1 & _ & H2). eauto.
  - intros i j n m Hi Hj Hn Hm E. destruct (G i Hi) as (ni & ni' & A1 & A2 & A3 & _). destruct (G j Hj) as (nj & nj' & B1 & B2 & B3 & _).
    assert (ni' = n) as -> by congruence. assert (nj' = m) as -> by congruence. eapply L3; eauto. congruence.
Qed.
Lemma past_same k d d' X : same d d' -> past k d X -> past k d' X.
Proof.
  intros H [P1 P2]. assert (G : forall i, In i X -> exists n n', get_node d i = Some n /\ get_node d' i = Some n' /\ n_state n' = n_state n /\ n_depth n' = n_depth n /\ n_depth n < k).
  { intros i Hi. destruct (P1 i Hi) as (n & Hn & Hk). destruct (sm_node _ _ H i n Hn) as (n' & Hn' & E1 & E2). exists n, n'. repeat split; auto. }
  constructor.
  - intros i Hi. destruct (G i Hi) as (n & n' & _ & H1 & _ & H2 & H3). exists n'. split; [exact H1|lia].
  - intros i j n m Hi Hj Hn Hm E1 E2. destruct (G i Hi) as (ni & ni' & A1 & A2 & A3 & A4 & _). destruct (G j Hj) as (nj & nj' & B1 & B2 & B3 & B4 & _).
    assert (ni' = n) as -> by congruence. assert (nj' = m) as -> by congruence. eapply P2; eauto; congruence.
Qed.
Lemma past_layer k d X l : past k d X -> layer k d l -> past (Datatypes.S k) d (l ++ X).
Proof.
  intros [P1 P2] [L1 L2 L3]. constructor.
  - intros i Hi. apply in_app_or in Hi. destruct Hi as [Hi|Hi]; [destruct (L2 i Hi) as (n & H1 & H2)|destruct (P1 i Hi) as (n & H1 & H2)]; exists n; (split; [exact H1|lia]).
  - intros i j n m Hi Hj Hn Hm E1 E2. apply in_app_or in Hi. apply in_app_or in Hj.
    assert (A : forall x y, In x l -> get_node d x = Some y -> n_depth y = k) by (intros x y Hx Hy; destruct (L2 x Hx) as (z & H1 & H2); congruence).
    assert (B : forall x y, In x X -> get_node d x = Some y -> n_depth y < k) by (intros x y Hx Hy; destruct (P1 x Hx) as (z & H1 & H2); assert (z = y) as <- by congruence; exact H2).
    destruct Hi as [Hi|Hi], Hj as [Hj|Hj].
    + eapply L3; eauto.
    + exfalso. pose proof (A _ _ Hi Hn). pose proof (B _ _ Hj Hm). lia.
    + exfalso. pose proof (A _ _ Hj Hm). pose proof (B _ _ Hi Hn). lia.
    + eapply P2; eauto.
Qed.
Lemma layer_sub k d l l' : NoDup l' -> incl l' l -> layer k d l -> layer k d l'.
Proof. intros D I [L1 L2 L3]. constructor; [exact D|auto|]. intros i j n m Hi Hj. apply L3; auto. Qed.
Lemma layer_perm k d l l' : Permutation l l' -> layer k d l -> layer k d l'.
Proof.
  intros P H. eapply layer_sub; [|intros x Hx; eapply Permutation_in; [apply Permutation_sym; exact P|exact Hx]|exact H]. eapply Permutation_NoDup; [exact P|apply H].
Qed.

(** ** Before the expansion *)
Lemma redirect_step X rx merged mid dropped : forall fuel d e d', from X d -> redirect fuel rx merged mid dropped d e = Some d' -> step X d d'.
Proof.
  induction fuel as [|k IH]; intros d [eid|] d' HX; cbn [redirect]; try discriminate; try (intros H; injection H as <-; apply step_refl).
  destruct (nth_error (g_edges d) eid) as [ed|] eqn:Ee; cbn [obind]; [|discriminate].
  destruct (get_node d (e_from ed)) as [src|]; cbn [obind]; [|discriminate]. destruct (get_node d mid) as [m|]; cbn [obind]; [|discriminate].
  set (d1 := set_edges d _). destruct (upd_node d1 mid _) as [d2|] eqn:E2; cbn [obind]; [|discriminate].
  assert (K1 : step X d d1).
  { constructor; try reflexivity; [apply same_nodes; reflexivity|]. intros _ x Hx. cbn in Hx. apply in_app_or in Hx. destruct Hx as [Hx|[<-|[]]]; [auto|]. cbn. apply HX. eapply nth_error_In; eauto. }
  assert (K2 : step X d d2) by (eapply step_trans; [exact K1|]; eapply upd_step; [exact E2|still]).
  destruct (get_node d2 (e_from ed)) as [src2|]; cbn [obind]; [|discriminate]. destruct (get_node d2 mid) as [m2|]; cbn [obind]; [|discriminate].
  match goal with |- context [obind ?x _] => destruct x as [d3|] eqn:E3 end; cbn [obind]; [|discriminate]. intros H.
  assert (K3 : step X d d3).
  { destruct (n_value m2 <=? _)%Z; [|injection E3 as <-; exact K2]. eapply step_trans; [exact K2|]. eapply upd_step; [exact E3|still]. }
  eapply step_trans; [exact K3|]. eapply IH; [apply K3, HX|exact H].
Qed.
Lemma drops_step X v rx merged mid : forall l d d', from X d -> ofold (drop_node v rx merged mid) l d = Some d' -> step X d d'.
Proof.
  induction l as [|a t IH]; cbn; intros d d' HX E; [injection E as <-; apply step_refl|].
  destruct (drop_node v rx merged mid d a) as [d1|] eqn:E1; cbn in E; [|discriminate].
  assert (K : step X d d1).
  { revert E1. unfold drop_node. match goal with |- context [obind ?x _] => destruct x as [d2|] eqn:E2 end; cbn [obind]; [|discriminate].
    assert (K2 : step X d d2) by (destruct v; [injection E2 as <-; apply step_refl|eapply upd_step; [exact E2|still]]).
    destruct (get_node d2 a) as [n|]; cbn [obind]; [|discriminate]. intros H. eapply step_trans; [exact K2|]. eapply redirect_step; [apply K2, HX|exact H]. }
  eapply step_trans; [exact K|]. eapply IH; [apply K, HX|exact E].
Qed.
Lemma marks X v : forall l d d', ofold (mark_cutset v) l d = Some d' ->
  same d d' /\ (from X d -> from X d') /\ g_next d' = g_next d /\ g_prev d' = g_prev d /\ g_approx d' = g_approx d /\ g_cutset d' = g_cutset d ++ l.
Proof.
  induction l as [|a t IH]; cbn; intros d d' E; [injection E as <-; rewrite app_nil_r; auto 10 using same_refl|].
  destruct (mark_cutset v d a) as [d1|] eqn:E1; cbn in E; [|discriminate]. revert E1. unfold mark_cutset.
  destruct (upd_node d a _) as [d2|] eqn:E2; cbn [obind]; [|discriminate]. destruct (get_node d2 a) as [n|]; cbn [obind]; [|discriminate]. intros H.
  destruct (upd_step X _ _ _ _ E2) as [A1 A2 A3 A4 A5 A6]; [still|]. destruct (IH _ _ E) as (B1 & B2 & B3 & B4 & B5 & B6). injection H as <-.
  split; [eapply same_trans; [exact A1|]; eapply same_trans; [|exact B1]; apply same_nodes; reflexivity|].
  split; [intros HX; apply B2; exact (A2 HX)|]. split; [rewrite B3; exact A3|]. split; [rewrite B4; exact A5|]. split; [rewrite B5; exact A6|].
  rewrite B6. cbn. rewrite A4, <- app_assoc. reflexivity.
Qed.
Lemma map_states_combine (d : dd) : forall l ss, map_states d l = Some ss -> forall i n, In i l -> get_node d i = Some n -> In (i, n_state n) (combine l ss).
Proof.
  induction l as [|a t IH]; cbn; intros ss H i n Hi Hn; [contradiction|]. destruct (get_node d a) as [na|] eqn:Ea; cbn in H; [|discriminate].
  destruct (map_states d t) as [r|]; cbn in H; [|discriminate]. injection H as <-. cbn. destruct Hi as [->|Hi]; [left; congruence|right; eauto].
Qed.
(** The cutset: nothing in it before the first merge, and then the previous layer. *)
Record after (X : list nat) (k : nat) (d d' : dd) (l : list nat) : Prop := {
  af_same : same d d';
  af_from : from X d -> from X d';
  af_next : g_next d' = g_next d;
  af_prev : g_prev d' = g_prev d;
  af_layer : layer k d' l;
  af_cut : g_cutset d' = g_cutset d /\ (g_approx d' = false -> g_approx d = false) \/ g_ctype d = LastExactLayer /\ g_approx d = false /\ g_approx d' = true /\ g_cutset d' = g_cutset d ++ g_prev d }.
Lemma after_refl X k d l : layer k d l -> after X k d d l.
Proof. constructor; auto using same_refl. Qed.
Lemma restrict_after X k d curr d' l : layer k d curr -> restrict orc inp d curr = Some (d', l) -> after X k d d' l.
Proof.
  intros HL. unfold restrict. destruct (all_present d curr); [|discriminate]. intros H. injection H as <- <-.
  constructor; try reflexivity; [apply same_nodes; reflexivity|auto| |].
  - apply (layer_same k d); [apply same_nodes; reflexivity|]. assert (HP : layer k d (o_sort orc (node_cmp (i_rank inp) (set_approx d true)) curr)) by (eapply layer_perm; [apply Hsort|exact HL]).
    eapply layer_sub; [apply NoDup_first, HP|apply firstn_incl|exact HP].
  - left. split; [reflexivity|]. cbn. discriminate.
Qed.
Lemma relax_after X k v d curr d' l : from X d -> layer k d curr -> i_width inp < length curr -> relax eqb v orc inp d curr = Some (d', l) -> after X k d d' l.
Proof.
  intros HX HL Hw. unfold relax. match goal with |- context [obind ?x _] => destruct x as [d1|] eqn:E1 end; cbn [obind]; [|discriminate].
  assert (K1 : same d d1 /\ (from X d -> from X d1) /\ g_next d1 = g_next d /\ g_prev d1 = g_prev d /\
    (g_cutset d1 = g_cutset d \/ g_ctype d = LastExactLayer /\ g_approx d = false /\ g_cutset d1 = g_cutset d ++ g_prev d)).
  { destruct (g_ctype d) eqn:Ec; [destruct (g_approx d) eqn:Ea; cbn in E1|]; try (injection E1 as <-; auto 10 using same_refl).
    destruct (marks X v _ _ _ E1) as (A1 & A2 & A3 & A4 & A5 & A6). auto 10. }
  destruct K1 as (A1 & A2 & A3 & A4 & A6). destruct (all_present d1 curr); [|discriminate]. set (d2 := set_approx d1 true). set (sorted := o_sort orc _ curr).
  assert (S2 : same d d2) by (eapply same_trans; [exact A1|apply same_nodes; reflexivity]).
  assert (HS : layer k d2 sorted) by (eapply layer_same; [exact S2|]; eapply layer_perm; [apply Hsort|exact HL]).
  assert (Hlen : length sorted = length curr) by (apply Permutation_length, Permutation_sym, Hsort).
  destruct (i_width inp) as [|w1] eqn:Ew; [discriminate|]. destruct (w1 <=? length sorted) eqn:Eb; [|discriminate].
  destruct (map_states d2 (firstn w1 sorted)) as [ks|] eqn:Ek; cbn [obind]; [|discriminate].
  destruct (map_states d2 (skipn w1 sorted)) as [ms|] eqn:Em; cbn [obind]; [|discriminate].
  set (merged := rx_merge _ ms). set (rec := option_map fst _).
  match goal with |- context [obind ?x _] => destruct x as [[mid d3]|] eqn:E3 end; cbn [obind]; [|discriminate].
  assert (HF : layer k d2 (firstn w1 sorted)) by (eapply layer_sub; [apply NoDup_first, HS|apply firstn_incl|exact HS]).
  assert (K3 : step X d2 d3 /\ match rec with Some _ => True | None => layer k d3 (firstn w1 sorted ++ [mid]) end).
  { destruct rec as [r|] eqn:Er; [injection E3 as <- <-; split; [apply step_refl|exact I]|].
    match type of E3 with context [obind ?x _] => destruct x as [dep|] eqn:Ed end; cbn [obind] in E3; [|discriminate]. injection E3 as <- <-.
    assert (Hdep : dep = k).
    { destruct (skipn w1 sorted) as [|m0 mt] eqn:Es; [exfalso; apply (f_equal (@length nat)) in Es; rewrite skipn_length in Es; cbn in Es; lia|].
      assert (Hm0 : In m0 sorted) by (rewrite <- (firstn_skipn w1 sorted); apply in_or_app; right; rewrite Es; left; reflexivity).
      destruct (ly_node _ _ _ HS m0 Hm0) as (n0 & Hn0 & Hk0). destruct v; cbn [nth_error obind] in Ed; rewrite Hn0 in Ed; cbn [obind] in Ed; injection Ed as <-; exact Hk0. }
    set (nn := mk_node _ _ _ _ _ _ _ _ _). change (g_nodes d1) with (g_nodes d2). split.
    - constructor; try reflexivity; [exact (same_app d2 [nn])|auto].
    - assert (HF' := layer_same _ _ _ _ (same_app d2 [nn]) HF). set (d3 := set_nodes d2 _) in *.
      assert (Hmid : get_node d3 (length (g_nodes d2)) = Some nn) by (unfold get_node, d3; cbn; rewrite nth_error_app2, Nat.sub_diag by lia; reflexivity).
      assert (Hlt : forall i, In i (firstn w1 sorted) -> i < length (g_nodes d2)).
      { intros i Hi. destruct (ly_node _ _ _ HF i Hi) as (n & Hn & _). unfold get_node in Hn. apply nth_error_Some. congruence. }
      assert (Hne : forall i n, In i (firstn w1 sorted) -> get_node d3 i = Some n -> n_state n <> merged).
      { intros i n Hi Hn Heq. unfold get_node, d3 in Hn. cbn [g_nodes set_nodes] in Hn. rewrite nth_error_app1 in Hn by (apply Hlt, Hi).
        pose proof (map_states_combine d2 _ _ Ek i n Hi Hn) as Hc. subst rec. destruct (find _ _) as [x|] eqn:Ef; [discriminate|].
        pose proof (find_none _ _ Ef _ Hc) as Hb. cbn in Hb. assert (eqb (n_state n) merged = true) by (apply Heqb; exact Heq). congruence. }
      assert (Hex : forall i, In i (firstn w1 sorted ++ [length (g_nodes d2)]) -> In i (firstn w1 sorted) \/ i = length (g_nodes d2)).
      { intros i Hi. apply in_app_or in Hi. destruct Hi as [Hi|[<-|[]]]; auto. }
      constructor.
      + apply NoDup_Add with (a := length (g_nodes d2)) (l := firstn w1 sorted).
        * rewrite <- (app_nil_r (firstn w1 sorted)) at 1. apply Add_app.
        * split; [apply HF|]. intros Hi. apply Hlt in Hi. lia.
      + intros i Hi. destruct (Hex i Hi) as [H| ->]; [apply (ly_node _ _ _ HF'), H|]. exists nn. split; [exact Hmid|exact Hdep].
      + intros i j n m Hi Hj Hn Hm E. destruct (Hex i Hi) as [H1| ->]; destruct (Hex j Hj) as [H2| ->]; [|exfalso|exfalso|reflexivity].
        * eapply (ly_key _ _ _ HF'); eauto.
        * apply (Hne i n H1 Hn). assert (m = nn) as -> by congruence. exact E.
        * apply (Hne j m H2 Hm). assert (n = nn) as -> by congruence. symmetry. exact E. }
  destruct K3 as [K3 Ho]. destruct (upd_node d3 mid _) as [d4|] eqn:E4; cbn [obind]; [|discriminate].
  assert (K4 : step X d2 d4) by (eapply step_trans; [exact K3|]; eapply upd_step; [exact E4|still]).
  assert (X2 : from X d2) by exact (A2 HX).
  destruct (ofold _ _ d4) as [d5|] eqn:E5; cbn [obind]; [|discriminate]. pose proof (drops_step X _ _ _ _ _ _ _ (st_from _ _ _ K4 X2) E5) as K45.
  assert (K5 : step X d2 d5) by (eapply step_trans; eauto).
  assert (Fin : forall d6 l6, step X d2 d6 -> layer k d6 l6 -> after X k d d6 l6).
  { intros d6 l6 [B1 B2 B3 B4 B5 B6] HL6. constructor; auto.
    - eapply same_trans; [exact S2|exact B1].
    - rewrite B3. exact A3.
    - rewrite B5. exact A4.
    - rewrite B4, B6. cbn. destruct A6 as [A6|(A6 & A7 & A8)]; [left|right]; auto. split; [exact A6|discriminate]. }
  destruct rec as [r|].
  - match goal with |- context [obind ?x _] => destruct x as [d6|] eqn:E6 end; cbn [obind]; [|discriminate]. intros H. injection H as <- <-.
    assert (K6 : step X d2 d6).
    { destruct v; [injection E6 as <-; exact K5|]. destruct (nth_error _ w1); cbn [obind] in E6; [|discriminate]. eapply step_trans; [exact K5|]. eapply upd_step; [exact E6|still]. }
    apply Fin; [exact K6|]. eapply layer_same; [apply K6|]. change (layer k d2 (firstn (Datatypes.S w1) sorted)). eapply layer_sub; [apply NoDup_first, HS|apply firstn_incl|exact HS].
  - intros H. injection H as <- <-. apply Fin; [exact K5|]. eapply layer_same; [|exact Ho]. eapply same_trans; [|apply K45]. eapply (upd_step X _ _ _ _ E4). still.
Qed.

(** ** The expansion *)
Definition keyed (d : dd) : Prop := forall s i, In (s, i) (g_next d) -> exists n, get_node d i = Some n /\ n_state n = s.
Record grow (X : list nat) (k : nat) (d d' : dd) : Prop := {
  gr_same : same d d';
  gr_from : from X d -> from X d';
  gr_next : layer k d (nextids d) -> keyed d -> layer k d' (nextids d') /\ keyed d';
  gr_cut : g_cutset d' = g_cutset d;
  gr_prev : g_prev d' = g_prev d;
  gr_approx : g_approx d' = g_approx d }.
Lemma grow_trans X k a b c : grow X k a b -> grow X k b c -> grow X k a c.
Proof.
  intros [A1 A2 A3 A4 A5 A6] [B1 B2 B3 B4 B5 B6]. constructor; try congruence; [eapply same_trans; eauto|auto|].
  intros H1 H2. destruct (A3 H1 H2). auto.
Qed.
Lemma keyed_same (d d' : dd) : same d d' -> g_next d' = g_next d -> keyed d -> keyed d'.
Proof. intros H N K s i Hi. rewrite N in Hi. destruct (K s i Hi) as (n & Hn & <-). destruct (sm_node _ _ H i n Hn) as (n' & H1 & H2 & _). eauto. Qed.
Lemma step_grow X k d d' : step X d d' -> grow X k d d'.
Proof.
  intros [A1 A2 A3 A4 A5 A6]. constructor; auto. intros H1 H2. split; [unfold DdCount.nextids; rewrite A3; eapply layer_same; [exact A1|exact H1]|eapply keyed_same; eauto].
Qed.
Lemma grow_refl X k d : grow X k d d.
Proof. apply step_grow, step_refl. Qed.
Lemma next_get_in (l : list (S * nat)) s i : next_get eqb l s = Some i -> In (s, i) l.
Proof.
  induction l as [|[a j] t IH]; cbn; [discriminate|]. destruct (eqb a s) eqn:E; [|auto]. intros H. injection H as <-. apply Heqb in E. subst a. auto.
Qed.
Lemma next_get_not (l : list (S * nat)) s : next_get eqb l s = None -> forall i, ~ In (s, i) l.
Proof.
  induction l as [|[a j] t IH]; cbn; [auto|]. destruct (eqb a s) eqn:E; [discriminate|]. intros H i [Hi|Hi]; [|eapply IH; eauto].
  injection Hi as -> ->. assert (eqb s s = true) by (apply Heqb; reflexivity). congruence.
Qed.
Lemma branch_grow X k v pb id d dec d' : In id X -> (exists n, get_node d id = Some n /\ n_depth n = k) -> branch_on eqb v pb id d dec = Some d' -> grow X (Datatypes.S k) d d'.
Proof.
  intros HX (n & Hn & Hk). unfold branch_on. rewrite Hn. cbn [obind]. set (s := pb_trans _ _ _). destruct (next_get eqb (g_next d) s) as [nid|] eqn:En.
  - destruct (get_node d nid) as [nd0|] eqn:E0; cbn [obind]; [|discriminate].
    match goal with |- context [obind (upd _ _ ?x) _] => set (nd2 := x); destruct (upd (g_nodes d) nid nd2) as [ns|] eqn:Eu end; cbn [obind]; [|discriminate].
    intros H. injection H as <-. destruct (upd_spec _ _ _ _ Eu) as [L N].
    apply step_grow. constructor; try reflexivity.
    + constructor; [|reflexivity]. unfold get_node. cbn. intros i m Hm. rewrite N. destruct (Nat.eqb_spec i nid) as [->|]; [|eauto].
      exists nd2. split; [reflexivity|]. unfold get_node in E0. assert (m = nd0) as -> by congruence. subst nd2. destruct v; cbn; destruct (_ <? _)%Z; cbn; auto; destruct (_ && _); cbn; auto.
    + intros Hf e He. cbn in He. apply in_app_or in He. destruct He as [He|[<-|[]]]; [auto|exact HX].
  - intros H. injection H as <-. set (es := _ ++ [mk_edge _ _ _ _]). set (nd := mk_node _ _ _ _ _ _ _ _ _).
    match goal with |- grow _ _ _ ?x => set (d' := x) end.
    assert (Sm : same d d').
    { constructor; [|reflexivity]. unfold get_node, d'. cbn. intros i m Hm. exists m. split; [|auto]. rewrite nth_error_app1; [exact Hm|]. apply nth_error_Some. congruence. }
    assert (Hnew : get_node d' (length (g_nodes d)) = Some nd) by (unfold get_node, d'; cbn; rewrite nth_error_app2, Nat.sub_diag by lia; reflexivity).
    constructor; try reflexivity; [exact Sm| |].
    + intros Hf e He. cbn in He. apply in_app_or in He. destruct He as [He|[<-|[]]]; [auto|exact HX].
    + intros HL HK. assert (HK' : keyed d').
      { intros a i [Hi|Hi]; [injection Hi as <- <-; exists nd; auto|]. destruct (HK a i Hi) as (m & Hm & <-). destruct (sm_node _ _ Sm i m Hm) as (m' & H1 & H2 & _). eauto. }
      split; [|exact HK']. pose proof (layer_same _ _ _ _ Sm HL) as HL'. change (nextids d') with (length (g_nodes d) :: nextids d).
      assert (Hlt : forall i, In i (nextids d) -> i < length (g_nodes d)).
      { intros i Hi. destruct (ly_node _ _ _ HL i Hi) as (m & Hm & _). unfold get_node in Hm. apply nth_error_Some. congruence. }
      assert (Hne : forall i m, In i (nextids d) -> get_node d' i = Some m -> n_state m <> s).
      { intros i m Hi Hm E. unfold DdCount.nextids in Hi. apply in_map_iff in Hi as ([a j] & Hj & Hi). cbn in Hj. subst j.
        destruct (HK' a i ltac:(right; exact Hi)) as (m' & Hm' & Ha). assert (m' = m) as -> by congruence. apply (next_get_not _ _ En i). rewrite <- E, Ha. exact Hi. }
      constructor.
      * constructor; [|apply HL]. intros Hi. apply Hlt in Hi. lia.
      * intros i [<-|Hi]; [exists nd; split; [exact Hnew|cbn; congruence]|apply (ly_node _ _ _ HL'), Hi].
      * intros i j a b [<-|Hi] [<-|Hj] Ha Hb E; [reflexivity|exfalso|exfalso|eapply (ly_key _ _ _ HL'); eauto].
        -- apply (Hne j b Hj Hb). assert (a = nd) as -> by congruence. symmetry. exact E.
        -- apply (Hne i a Hi Ha). assert (b = nd) as -> by congruence. exact E.
Qed.
Lemma branches_grow X k v pb id : In id X -> forall l d d', (exists n, get_node d id = Some n /\ n_depth n = k) -> ofold (branch_on eqb v pb id) l d = Some d' -> grow X (Datatypes.S k) d d'.
Proof.
  intros HX. induction l as [|a t IH]; cbn [ofold]; intros d d' Hd E; [injection E as <-; apply grow_refl|].
  destruct (branch_on eqb v pb id d a) as [d1|] eqn:E1; cbn [obind] in E; [|discriminate]. pose proof (branch_grow X k _ _ _ _ _ _ HX Hd E1) as G.
  eapply grow_trans; [exact G|]. eapply IH; [|exact E]. destruct Hd as (n & Hn & Hk). destruct (sm_node _ _ (gr_same _ _ _ _ G) id n Hn) as (n' & H1 & _ & H2). exists n'. split; [exact H1|congruence].
Qed.
Lemma expand_grow X k v var d id d' : In id X -> (exists n, get_node d id = Some n /\ n_depth n = k) -> expand_node eqb v inp var d id = Some d' -> grow X (Datatypes.S k) d d'.
Proof.
  intros HX (n & Hn & Hk). unfold expand_node. rewrite Hn. cbn [obind]. destruct (upd_node d id _) as [d1|] eqn:E1; cbn [obind]; [|discriminate].
  pose proof (upd_step X _ _ _ _ E1 ltac:(still)) as K1. destruct (get_node d1 id) as [n1|]; cbn [obind]; [|discriminate].
  destruct (_ <? _)%Z.
  - destruct (ofold _ _ d1) as [d2|] eqn:E2; cbn [obind]; [|discriminate]. intros H. injection H as <-. eapply grow_trans; [apply step_grow; exact K1|].
    eapply grow_trans; [eapply branches_grow; [exact HX| |exact E2]|].
    + destruct (sm_node _ _ (st_same _ _ _ K1) id n Hn) as (n' & H1 & _ & H2). exists n'. split; [exact H1|congruence].
    + apply step_grow. constructor; try reflexivity; [apply same_nodes; reflexivity|auto].
  - destruct v; intros H; [injection H as <-; apply step_grow; exact K1|]. apply step_grow. eapply step_trans; [exact K1|]. eapply upd_step; [exact H|still].
Qed.
Lemma expands_grow X k v var : forall l d d', incl l X -> (forall i, In i l -> exists n, get_node d i = Some n /\ n_depth n = k) ->
  ofold (expand_node eqb v inp var) l d = Some d' -> grow X (Datatypes.S k) d d'.
Proof.
  induction l as [|a t IH]; cbn [ofold]; intros d d' HX Hd E; [injection E as <-; apply grow_refl|].
  destruct (expand_node eqb v inp var d a) as [d1|] eqn:E1; cbn [obind] in E; [|discriminate].
  pose proof (expand_grow X k _ _ _ _ _ (HX a ltac:(left; reflexivity)) (Hd a ltac:(left; reflexivity)) E1) as G.
  eapply grow_trans; [exact G|]. eapply IH; [intros i Hi; apply HX; right; exact Hi| |exact E].
  intros i Hi. destruct (Hd i ltac:(right; exact Hi)) as (n & Hn & Hk). destruct (sm_node _ _ (gr_same _ _ _ _ G) i n Hn) as (n' & H1 & _ & H2). exists n'. split; [exact H1|congruence].
Qed.

(** ** Between two layers *)
Record inv (X : list nat) (k : nat) (d : dd) (curr : list nat) : Prop := {
  in_past : past k d X;
  in_from : from X d;
  in_next : layer k d (nextids d);
  in_keyed : keyed d;
  in_curr : NoDup curr /\ incl curr X;
  in_cut : NoDup (g_cutset d) /\ incl (g_cutset d) X;
  in_nocut : g_approx d = false \/ g_ctype d = Frontier -> g_cutset d = [] }.
Lemma shrunk X k d curr d3 curr2 : inv X k d curr -> after X k (set_next (set_prev d curr) []) d3 curr2 ->
  forall d4, grow (curr2 ++ X) (Datatypes.S k) d3 d4 -> inv (curr2 ++ X) (Datatypes.S k) d4 curr2.
Proof.
  intros [I1 I2 I3 I4 [I5 I6] [I7 I8] I9] [A1 A2 A3 A4 A5 A6] d4 [G1 G2 G3 G4 G5 G6]. set (d2 := set_next (set_prev d curr) []) in *.
  assert (S2 : same d d2) by (apply same_nodes; reflexivity). assert (S3 : same d d3) by (eapply same_trans; eauto). assert (S4 : same d d4) by (eapply same_trans; eauto).
  assert (N3 : g_next d3 = []) by (rewrite A3; reflexivity). cbn in A4, A6.
  assert (HC : (NoDup (g_cutset d3) /\ incl (g_cutset d3) X) /\ (g_approx d3 = false \/ g_ctype d3 = Frontier -> g_cutset d3 = [])).
  { rewrite (sm_ctype _ _ S3). destruct A6 as [[-> H]|(H1 & H2 & H3 & ->)].
    - split; [auto|]. intros [Ha|Ha]; apply I9; auto.
    - rewrite (I9 (or_introl H2)). cbn. split; [auto|]. intros [Ha|Ha]; congruence. }
  destruct G3 as [G3 G7]. { unfold DdCount.nextids. rewrite N3. constructor; [constructor|contradiction|contradiction]. } { intros s i Hi. rewrite N3 in Hi. destruct Hi. }
  constructor; auto.
  - eapply past_same; [exact G1|]. apply past_layer; [eapply past_same; [exact S3|exact I1]|exact A5].
  - apply G2. intros e He. apply in_or_app. right. apply (A2 I2). exact He.
  - split; [apply A5|apply incl_appl, incl_refl].
  - rewrite G4. split; [apply HC|]. apply incl_appr, HC.
  - rewrite G4, G6, (sm_ctype _ _ G1). apply HC.
Qed.
Lemma taken_layer X k d curr i : inv X k d curr -> layer k (set_next (set_prev d curr) []) (map snd (o_iter orc i (g_next (set_prev d curr)))).
Proof.
  intros HI. apply (layer_same k d); [apply same_nodes; reflexivity|]. eapply layer_perm; [apply Permutation_map, Hiter|]. apply HI.
Qed.
Lemma emptied X k d curr curr' : inv X k d curr -> NoDup curr' /\ incl curr' X -> inv X k (set_next (set_prev d curr) []) curr'.
Proof.
  intros [I1 I2 I3 I4 I5 I6 I7] HC. constructor; auto.
  - apply (past_same k d); [apply same_nodes; reflexivity|exact I1].
  - constructor; [constructor|contradiction|contradiction].
  - intros s i [].
Qed.
Lemma root_inv debug d d0 : root_dd debug inp d = Some d0 -> inv [] (length (sp_path (i_res inp))) d0 [].
Proof.
  unfold root_dd. destruct (sub_isize _ _ _) as [r|]; cbn [obind]; [|discriminate]. intros H. injection H as <-.
  constructor; cbn; auto using NoDup_nil, incl_refl.
  - constructor; contradiction.
  - intros e [].
  - constructor; cbn.
    + constructor; [auto|constructor].
    + intros i [<-|[]]. eexists. split; [reflexivity|reflexivity].
    + intros i j n m [<-|[]] [<-|[]]. reflexivity.
  - intros s i [H|[]]. injection H as <- <-. eexists. split; reflexivity.
Qed.

(** ** with_all.rs *)
Definition some_inv (k : nat) (d : dd) (curr : list nat) : Prop := exists X, inv X k d curr.
Lemma all_layer depth var k d curr d' c : some_inv k d curr -> MddAll.layer_step eqb orc inp depth var d curr = Some (d', c) ->
  match c with Some curr' => some_inv (Datatypes.S k) d' curr' | None => some_inv k d' [] end.
Proof.
  intros (X & HI). unfold MddAll.layer_step. pose proof (taken_layer X k d curr (3 * depth + 1) HI) as HL.
  assert (Hnil : some_inv k (set_next (set_prev d curr) []) []).
  { exists X. apply emptied; [exact HI|]. split; [constructor|intros x []]. }
  cbv zeta. set (d2 := set_next (set_prev d curr) []) in *. set (c1 := map snd _) in *. destruct c1 as [|c0 ct] eqn:Ec.
  - intros H. injection H as <- <-. exact Hnil.
  - rewrite <- Ec in *. clear Ec. match goal with |- context [obind ?x _] => destruct x as [[d3 curr2]|] eqn:E3 end; cbn [obind]; [|discriminate].
    assert (HX : from X d2) by (apply HI).
    assert (G : after X k d2 d3 curr2).
    { revert E3. assert (G0 : Some (d2, c1) = Some (d3, curr2) -> after X k d2 d3 curr2) by (intros H; injection H as <- <-; apply after_refl; exact HL).
      destruct (i_type inp); [auto| |].
      - destruct (i_width inp <? length c1) eqn:Ew; cbn [andb]; [|auto]. destruct (1 <? depth); [|auto]. apply Nat.ltb_lt in Ew. intros H. eapply relax_after; eauto.
      - destruct (_ <? _); [|auto]. eapply restrict_after; eauto. }
    destruct (ofold _ curr2 d3) as [d4|] eqn:E4; cbn [obind]; [|discriminate]. intros H. injection H as <- <-. exists (curr2 ++ X).
    eapply shrunk; [exact HI|exact G|]. eapply expands_grow; [apply incl_appl, incl_refl|apply (af_layer _ _ _ _ _ G)|exact E4].
Qed.
Lemma all_layers : forall fuel depth k d curr d' b, some_inv k d curr -> MddAll.layers eqb fuel orc inp depth d curr = Some (d', b) -> exists k' curr', some_inv k' d' curr'.
Proof.
  induction fuel as [|f IH]; cbn [MddAll.layers]; intros depth k d curr d' b B; [discriminate|]. destruct (pb_next_var _ _) as [var|]; [|intros H; injection H as <- _; eauto].
  destruct (MddAll.layer_step _ _ _ _ _ _ _) as [[d1 c]|] eqn:E; cbn [obind]; [|discriminate]. pose proof (all_layer _ _ _ _ _ _ _ B E) as B1.
  destruct c as [curr1|]; [eapply IH; exact B1|]. intros H. injection H as <- _. eauto.
Qed.

(** ** with_barrier.rs *)
Notation pw := (DdCountMdd.pw S).
Lemma retain_layer depth X k : forall l (d : dd), layer k d l ->
  pw (retain depth d l) (fun r => step X d (fst r) /\ layer k (fst r) (snd r) /\ incl (snd r) l).
Proof.
  induction l as [|id t IH]; cbn [retain]; intros d HL.
  - split; [apply step_refl|]. split; [exact HL|apply incl_refl].
  - assert (HD : NoDup (id :: t)) by apply HL. inversion HD as [|? ? Hni HD']; subst.
    assert (Ht : layer k d t) by (apply (layer_sub k d (id :: t)); [exact HD'|intros i Hi; right; exact Hi|exact HL]).
    apply pw_bind. assert (H1 : pw (retain_node depth d id) (fun r => step X d (fst r))).
    { unfold retain_node. apply pw_bind, pw_pure. intros n Hn. destruct (is_relaxed _); [apply step_refl|]. cbn. intros r.
      destruct (_ <? _)%Z; [apply step_refl|]. apply pw_bind, pw_pure. intros d1 H1. cbn. eapply upd_step; [exact H1|still]. }
    eapply pw_mono; [|exact H1]. cbn beta. intros [d1 b] K. cbn in K. apply pw_bind. eapply pw_mono; [|apply IH; eapply layer_same; [apply K|exact Ht]].
    cbn beta. intros [d2 r] (K2 & L2 & I2). cbn in K2, L2, I2. assert (K' : step X d d2) by (eapply step_trans; eauto). split; [exact K'|].
    destruct b; cbn; [|split; [exact L2|apply incl_tl, I2]].
    assert (Hi : incl (id :: r) (id :: t)) by (apply incl_cons; [left; reflexivity|apply incl_tl, I2]). split; [|exact Hi].
    eapply layer_sub; [|exact Hi|eapply layer_same; [apply K'|exact HL]]. constructor; [intros H; apply Hni, I2, H|apply L2].
Qed.
Lemma prune_layer X rd depth k (d : dd) l : layer k d l -> pw (prune rd depth d l) (fun r => step X d (fst r) /\ layer k (fst r) (snd r)).
Proof.
  intros HL. assert (G : step X d d /\ layer k d l) by (split; [apply step_refl|exact HL]).
  unfold prune. destruct (_ <? _); [|exact G]. cbn. intros [|]; [exact G|]. eapply pw_mono; [|apply (retain_layer depth X k); exact HL]. cbn beta. intros r (A & B & _). split; assumption.
Qed.
Lemma expands_pw X k var depth : forall l (d : dd), incl l X -> (forall i, In i l -> exists n, get_node d i = Some n /\ n_depth n = k) ->
  pw (pfold (expand_one eqb inp var depth) l d) (grow X (Datatypes.S k) d).
Proof.
  induction l as [|id t IH]; cbn [pfold]; intros d HX Hd; [apply grow_refl|]. apply pw_bind.
  assert (G : pw (expand_one eqb inp var depth d id) (grow X (Datatypes.S k) d)).
  { unfold expand_one. apply pw_bind, pw_pure. intros n Hn. apply pw_bind, pw_pure. intros d1 E1. apply pw_bind, pw_pure. intros n1 Hn1.
    pose proof (expand_grow X k _ _ _ _ _ (HX id ltac:(left; reflexivity)) (Hd id ltac:(left; reflexivity)) E1) as H.
    destruct (i_type inp); try exact H. destruct (is_exact (n_flags n1)); [|exact H]. apply pw_bind, pw_try. exact H. }
  eapply pw_mono; [|exact G]. cbn beta. intros d1 G1. eapply pw_mono; [intros d2 G2; eapply grow_trans; [exact G1|exact G2]|].
  apply IH; [intros i Hi; apply HX; right; exact Hi|].
  intros i Hi. destruct (Hd i ltac:(right; exact Hi)) as (n & Hn & Hk). destruct (sm_node _ _ (gr_same _ _ _ _ G1) i n Hn) as (n' & H1 & _ & H2). exists n'. split; [exact H1|congruence].
Qed.
Lemma step_after X k (d d3 d4 : dd) l : step X d d3 -> after X k d3 d4 l -> after X k d d4 l.
Proof.
  intros [A1 A2 A3 A4 A5 A6] [B1 B2 B3 B4 B5 B6]. constructor; try congruence; auto; [eapply same_trans; eauto|].
  rewrite A4, A5, A6, (sm_ctype _ _ A1) in B6. exact B6.
Qed.
Lemma bar_layer rd depth var k d curr : some_inv k d curr -> pw (MddBarrier.layer_step eqb orc inp rd depth var d curr)
  (fun r => match snd r with Some curr' => some_inv (Datatypes.S k) (fst r) curr' | None => some_inv k (fst r) [] end).
Proof.
  intros (X & HI). unfold MddBarrier.layer_step. pose proof (taken_layer X k d curr (3 * depth + 1) HI) as HL.
  assert (Hnil : some_inv k (set_next (set_prev d curr) []) []).
  { exists X. apply emptied; [exact HI|]. split; [constructor|intros x []]. }
  cbv zeta. set (d2 := set_next (set_prev d curr) []) in *. set (c1 := map snd _) in *. destruct c1 as [|c0 ct] eqn:Ec; [exact Hnil|].
  rewrite <- Ec in *. clear Ec. assert (HX : from X d2) by (apply HI).
  apply pw_bind. eapply pw_mono; [|apply (prune_layer X); exact HL]. cbn beta. intros [d3 curr2] [K3 L3]. cbn in K3, L3.
  apply pw_bind, pw_pure. intros [d4 curr3] E4. assert (G : after X k d3 d4 curr3).
  { assert (G0 : Some (d3, curr2) = Some (d4, curr3) -> after X k d3 d4 curr3) by (intros H; injection H as <- <-; apply after_refl; exact L3).
    unfold shrink in E4. destruct (i_type inp); [auto| |].
    - destruct (i_width inp <? length curr2) eqn:Ew; cbn [andb] in E4; [|auto]. destruct (_ <? depth); [|auto]. apply Nat.ltb_lt in Ew. eapply relax_after; eauto. apply K3, HX.
    - destruct (_ <? _); [|auto]. eapply restrict_after; eauto. }
  apply pw_bind. eapply pw_mono; [|apply (expands_pw (curr3 ++ X) k); [apply incl_appl, incl_refl|apply (af_layer _ _ _ _ _ G)]].
  cbn. intros d5 G5. exists (curr3 ++ X). eapply shrunk; [exact HI|eapply step_after; [exact K3|exact G]|exact G5].
Qed.
Lemma bar_layers : forall fuel rd depth k d curr, some_inv k d curr -> pw (MddBarrier.layers eqb fuel orc inp rd depth d curr) (fun r => exists k' curr', some_inv k' (fst r) curr').
Proof.
  induction fuel as [|f IH]; cbn [MddBarrier.layers]; intros rd depth k d curr B; [exact I|]. destruct (pb_next_var _ _) as [var|]; [|cbn; eauto].
  apply pw_bind. eapply pw_mono; [|apply bar_layer, B]. intros [d1 c] B1. cbn in B1. destruct c as [curr1|]; [eapply IH, B1|cbn; eauto].
Qed.

(** ** After the main loop *)
(** The cutset holds distinct nodes with different states or depths; the nodes of the cutset built here carry their flag. *)
Definition flagged (d : dd) : Prop := g_ctype d = Frontier -> forall i n, In i (g_cutset d) -> get_node d i = Some n -> is_cutset (n_flags n) = true.
Record done (X : list nat) (d : dd) : Prop := {
  do_key : forall i j n m, In i X -> In j X -> get_node d i = Some n -> get_node d j = Some m -> n_depth n = n_depth m -> n_state n = n_state m -> i = j;
  do_node : forall i, In i X -> exists n, get_node d i = Some n;
  do_from : from X d;
  do_cut : NoDup (g_cutset d) /\ incl (g_cutset d) X;
  do_flag : flagged d }.
Lemma inv_done X k d curr : inv X k d curr -> done X d.
Proof.
  intros [[P1 P2] I2 I3 I4 I5 I6 I7]. constructor; auto.
  - intros i Hi. destruct (P1 i Hi) as (n & Hn & _). eauto.
  - intros Hc i n Hi. rewrite I7 in Hi by auto. destruct Hi.
Qed.
Lemma done_same X (d d' : dd) : same d d' -> g_edges d' = g_edges d -> g_cutset d' = g_cutset d ->
  (forall i n n', get_node d i = Some n -> get_node d' i = Some n' -> is_cutset (n_flags n) = true -> is_cutset (n_flags n') = true) -> done X d -> done X d'.
Proof.
  intros Sm E C F [D1 D2 D3 D4 D5]. assert (G : forall i, In i X -> exists n n', get_node d i = Some n /\ get_node d' i = Some n' /\ n_state n' = n_state n /\ n_depth n' = n_depth n).
  { intros i Hi. destruct (D2 i Hi) as (n & Hn). destruct (sm_node _ _ Sm i n Hn) as (n' & Hn' & E1 & E2). exists n, n'. auto. }
  constructor.
  - intros i j n m Hi Hj Hn Hm E1 E2. destruct (G i Hi) as (ni & ni' & A1 & A2 & A3 & A4). destruct (G j Hj) as (nj & nj' & B1 & B2 & B3 & B4).
    assert (ni' = n) as -> by congruence. assert (nj' = m) as -> by congruence. eapply D1; eauto; congruence.
  - intros i Hi. destruct (G i Hi) as (n & n' & _ & H & _). eauto.
  - unfold from. rewrite E. exact D3.
  - rewrite C. exact D4.
  - unfold flagged. rewrite (sm_ctype _ _ Sm), C. intros Hc i n' Hi Hn'. destruct (G i) as (n & n2 & A1 & A2 & _); [apply D4, Hi|]. eapply F; eauto.
Qed.
Definition cut_still (f : node -> node) : Prop := forall n, n_state (f n) = n_state n /\ n_depth (f n) = n_depth n /\ (is_cutset (n_flags n) = true -> is_cutset (n_flags (f n)) = true).
Lemma done_upd X (d : dd) id f d' : upd_node d id f = Some d' -> cut_still f -> done X d -> done X d'.
Proof.
  intros E Hf HD. assert (Sm : step X d d') by (eapply upd_step; [exact E|]; intros n; split; apply Hf). destruct (upd_node_spec _ _ _ _ _ E) as (m & Hm & Hj & _ & He & _).
  eapply done_same; [apply Sm|exact He|apply Sm| |exact HD]. intros i n n' Hn Hn'. rewrite Hj in Hn'. destruct (Nat.eqb_spec i id) as [->|]; [|congruence].
  assert (m = n) as -> by congruence. injection Hn' as <-. apply Hf.
Qed.
Lemma done_cut X (d : dd) id n d' : get_node d id = Some n -> is_cutset (n_flags n) = false -> In id X -> g_ctype d = Frontier ->
  upd_node d id (fun m => node_flags m (set_cutset (n_flags m) true)) = Some d' -> done X d -> done X (set_cut d' (g_cutset d' ++ [id])).
Proof.
  intros Hn Hf Hi Hc E HD. assert (HD' : done X d') by (eapply done_upd; [exact E| |exact HD]; intros m; split; [reflexivity|]; split; [reflexivity|]; intros _; apply cutset_set_cutset).
  destruct (upd_node_spec _ _ _ _ _ E) as (m & Hm & Hj & _ & He & _). assert (Sm : step X d d') by (eapply upd_step; [exact E|still]).
  assert (Hid : get_node d' id = Some (node_flags n (set_cutset (n_flags n) true))) by (rewrite Hj, Nat.eqb_refl; congruence).
  destruct HD' as [D1 D2 D3 [D4 D5] D6]. constructor; auto.
  - cbn. split.
    + apply NoDup_Add with (a := id) (l := g_cutset d'); [rewrite <- (app_nil_r (g_cutset d')) at 1; apply Add_app|]. split; [exact D4|].
      rewrite (st_cut _ _ _ Sm). intros H. rewrite (do_flag _ _ HD Hc id n H Hn) in Hf. discriminate.
    + intros i Hx. apply in_app_or in Hx. destruct Hx as [Hx|[<-|[]]]; auto.
  - intros Hc' i x Hx Hg. cbn in Hx. apply in_app_or in Hx. change (get_node d' i = Some x) in Hg. destruct Hx as [Hx|[<-|[]]]; [eapply D6; eauto|].
    rewrite Hid in Hg. assert (x = node_flags n (set_cutset (n_flags n) true)) as -> by congruence. apply cutset_set_cutset.
Qed.

Ltac cuts := intros ?; repeat match goal with |- context [if ?b then _ else _] => destruct b end; (split; [reflexivity|]); (split; [reflexivity|]);
  cbn [n_flags node_flags node_bot node_theta]; rewrite ?cutset_set_marked, ?cutset_set_cutset; auto.
(** *** with_all.rs *)
Lemma bounds_edges_done X : forall fuel id (d : dd) visit e d' v', MddAll.bounds_edges fuel id d visit e = Some (d', v') -> done X d -> done X d'.
Proof.
  induction fuel as [|k IH]; intros id d visit [eid|] d' v'; cbn [MddAll.bounds_edges]; try discriminate; try (intros H; injection H as <- <-; auto; fail).
  destruct (nth_error _ eid) as [ed|] eqn:Ee; cbn [obind]; [|discriminate]. destruct (get_node d id) as [n|]; cbn [obind]; [|discriminate].
  destruct (upd_node d _ _) as [d1|] eqn:E1; cbn [obind]; [|discriminate]. destruct (get_node d1 _) as [m1|]; cbn [obind]; [|discriminate].
  match goal with |- context [obind ?x _] => destruct x as [[d2 visit2]|] eqn:E2 end; cbn [obind]; [|discriminate].
  destruct (get_node d2 id) as [n2|]; cbn [obind]; [|discriminate]. destruct (get_node d2 (e_from ed)) as [m2|] eqn:Em2; cbn [obind]; [|discriminate].
  match goal with |- context [obind ?x _] => destruct x as [d3|] eqn:E3 end; cbn [obind]; [|discriminate]. intros H HD.
  assert (Hin : In (e_from ed) X) by (apply (do_from _ _ HD); eapply nth_error_In; exact Ee).
  assert (D1 : done X d1) by (eapply done_upd; [exact E1|cuts|exact HD]).
  assert (D2 : done X d2).
  { destruct (negb _); [|injection E2 as <- <-; exact D1]. destruct (upd_node d1 _ _) as [dx|] eqn:Ex; cbn [obind] in E2; [|discriminate].
    destruct (get_node dx _) as [mx|]; cbn [obind] in E2; [|discriminate]. injection E2 as <- _. eapply done_upd; [exact Ex|cuts|exact D1]. }
  eapply IH; [exact H|]. destruct (g_ctype d2) eqn:Ec; [injection E3 as <-; exact D2|]. destruct (_ && _) eqn:Eb; [|injection E3 as <-; exact D2].
  destruct (upd_node d2 _ _) as [dx|] eqn:Ex; cbn [obind] in E3; [|discriminate]. injection E3 as <-. apply andb_prop in Eb. destruct Eb as [_ Eb]. apply negb_true_iff in Eb.
  eapply done_cut; eauto.
Qed.
Lemma bounds_nodes_done X : forall l (d : dd) visit d' v', ofold (@MddAll.bounds_node S) l (d, visit) = Some (d', v') -> done X d -> done X d'.
Proof.
  induction l as [|i t IH]; cbn [ofold]; intros d visit d' v' H HD; [injection H as <- _; exact HD|].
  destruct (MddAll.bounds_node (d, visit) i) as [[d1 v1]|] eqn:E; cbn [obind] in H; [|discriminate]. eapply IH; [exact H|].
  unfold MddAll.bounds_node in E. destruct (get_node d i) as [n|]; cbn [obind] in E; [|discriminate]. eapply bounds_edges_done; [exact E|exact HD].
Qed.
Lemma bounds_loop_done X : forall fuel (d : dd) visit d', MddAll.bounds_loop fuel d visit = Some d' -> done X d -> done X d'.
Proof.
  induction fuel as [|k IH]; intros d [|i t] d'; cbn [MddAll.bounds_loop]; try discriminate; try (intros H; injection H as <-; auto; fail).
  destruct (ofold _ _ _) as [[d1 v1]|] eqn:E; cbn [obind]; [|discriminate]. intros H HD. eapply IH; [exact H|]. eapply bounds_nodes_done; [exact E|exact HD].
Qed.
Lemma ofold_done {A} X (f : dd -> A -> option dd) : (forall d a d', f d a = Some d' -> done X d -> done X d') -> forall l d d', ofold f l d = Some d' -> done X d -> done X d'.
Proof.
  intros H. induction l as [|a t IH]; cbn; intros d d' E HD; [injection E as <-; exact HD|]. destruct (f d a) as [d1|] eqn:E1; cbn in E; [|discriminate]. eauto.
Qed.
Lemma done_best X (d : dd) b e : done X d -> done X (set_best_exact d b e).
Proof.
  intros HD. apply (done_same X d); try reflexivity; [apply same_nodes; reflexivity| |exact HD]. intros i n n' H1 H2. change (get_node d i = Some n') in H2. congruence.
Qed.
Lemma all_finalize_done X depth (d d' : dd) : MddAll.finalize orc inp depth d = Some d' -> done X d -> done X d'.
Proof.
  unfold MddAll.finalize. destruct (max_by_value _ _) as [best|]; cbn [obind]; [|discriminate]. destruct (compute_exact _ _) as [ex|]; cbn [obind]; [|discriminate].
  intros H HD. pose proof (done_best X d best (g_exact d) HD) as K0. pose proof (done_best X _ best ex K0) as K. set (d2 := set_best_exact _ best ex) in *.
  destruct (i_type inp); try (injection H as <-; exact K). revert H. unfold MddAll.compute_local_bounds.
  destruct (negb _); [|intros H; injection H as <-; exact K]. destruct (ofold _ _ d2) as [d3|] eqn:E; cbn [obind]; [|discriminate]. intros H.
  eapply bounds_loop_done; [exact H|]. eapply ofold_done; [|exact E|exact K]. intros a i b Hab HA. eapply done_upd; [exact Hab|cuts|exact HA].
Qed.
Theorem all_done debug (d d' : dd) : MddAll.compile eqb debug orc inp d = Some d' -> exists X, done X d'.
Proof.
  unfold MddAll.compile. destruct (root_dd _ _ _) as [d0|] eqn:E0; cbn [obind]; [|discriminate]. destruct (MddAll.layers _ _ _ _ _ _ _) as [[d1 r]|] eqn:E1; cbn [obind]; [|discriminate].
  destruct (all_layers _ _ _ _ _ _ _ (ex_intro _ [] (root_inv _ _ _ E0)) E1) as (k & curr & X & HI). apply inv_done in HI.
  destruct r; [intros H; injection H as <-; eauto|]. intros H. exists X. eapply all_finalize_done; eauto.
Qed.

(** *** with_barrier.rs *)
Lemma edge_step_done X id (d : dd) ed d' : In (e_from ed) X -> MddBarrier.edge_step id d ed = Some d' -> done X d -> done X d'.
Proof.
  intros Hin. unfold MddBarrier.edge_step. destruct (get_node d id) as [n|]; cbn [obind]; [|discriminate].
  match goal with |- context [obind ?x _] => destruct x as [d1|] eqn:E1 end; cbn [obind]; [|discriminate].
  destruct (get_node d1 id) as [n1|]; cbn [obind]; [|discriminate]. destruct (upd_node d1 _ _) as [d2|] eqn:E2; cbn [obind]; [|discriminate].
  destruct (get_node d2 id) as [n2|]; cbn [obind]; [|discriminate]. destruct (get_node d2 (e_from ed)) as [m2|] eqn:Em2; cbn [obind]; [|discriminate]. intros H HD.
  assert (D1 : done X d1) by (destruct (is_marked _); [eapply done_upd; [exact E1|cuts|exact HD]|injection E1 as <-; exact HD]).
  assert (D2 : done X d2) by (eapply done_upd; [exact E2|cuts|exact D1]).
  destruct (g_ctype d2) eqn:Ec; [injection H as <-; exact D2|]. destruct (_ && _) eqn:Eb; [|injection H as <-; exact D2].
  destruct (upd_node d2 _ _) as [dx|] eqn:Ex; cbn [obind] in H; [|discriminate]. injection H as <-. apply andb_prop in Eb. destruct Eb as [_ Eb]. apply negb_true_iff in Eb.
  eapply done_cut; eauto.
Qed.
Lemma edges_done X : forall fuel id (d : dd) e d', MddBarrier.edges_loop fuel id d e = Some d' -> done X d -> done X d'.
Proof.
  induction fuel as [|k IH]; intros id d [eid|] d'; cbn [MddBarrier.edges_loop]; try discriminate; try (intros H; injection H as <-; auto; fail).
  destruct (nth_error _ eid) as [ed|] eqn:Ee; cbn [obind]; [|discriminate]. destruct (edge_step id d ed) as [d1|] eqn:E; cbn [obind]; [|discriminate].
  intros H HD. eapply IH; [exact H|]. eapply edge_step_done; [|exact E|exact HD]. apply (do_from _ _ HD). eapply nth_error_In; exact Ee.
Qed.
Lemma bottom_done X lb : forall l (d : dd), done X d -> pw (pfold (bottom_up_node lb) l d) (done X).
Proof.
  induction l as [|id t IH]; cbn [pfold]; intros d HD; [exact HD|]. apply pw_bind. eapply pw_mono; [intros d1 H1; apply IH, H1|].
  unfold bottom_up_node. apply pw_bind, pw_pure. intros n Hn. destruct (is_deleted _); [exact HD|].
  apply pw_bind, pw_pure. intros d1 E1. apply pw_bind, pw_pure. intros n1 Hn1.
  assert (D1 : done X d1) by (eapply done_upd; [exact E1|intros x; unfold cut_theta; destruct (is_cutset (n_flags x)) eqn:Ex; [destruct (_ <? _)%Z|]; cbn; rewrite Ex; auto|exact HD]).
  apply pw_bind, pw_any. intros []. apply pw_pure. intros d' H. eapply edges_done; [exact H|exact D1].
Qed.
Lemma init_bottom_done X (d : dd) id d' : MddBarrier.init_bottom d id = Some d' -> done X d -> done X d'.
Proof.
  unfold MddBarrier.init_bottom. destruct (upd_node d id _) as [d1|] eqn:E1; cbn [obind]; [|discriminate]. destruct (get_node d1 id) as [n|]; cbn [obind]; [|discriminate]. intros H HD.
  assert (D1 : done X d1) by (eapply done_upd; [exact E1|cuts|exact HD]).
  match type of H with (if ?b then _ else _) = _ => destruct b end; [eapply done_upd; [exact H|cuts|exact D1]|injection H as <-; exact D1].
Qed.
Theorem bar_done debug (d : dd) : pw (MddBarrier.compile eqb debug orc inp d) (fun d' => exists X, done X d').
Proof.
  unfold MddBarrier.compile. apply pw_bind, pw_pure. intros d0 E0. cbv zeta. apply pw_bind. eapply pw_mono; [|eapply bar_layers; exists []; eapply root_inv; exact E0].
  cbn beta. intros [d1 r] (k & curr & X & HI). cbn in HI. apply inv_done in HI. destruct r; [cbn; eauto|].
  unfold MddBarrier.finalize. apply pw_bind, pw_pure. intros best _. apply pw_bind, pw_pure. intros ex _.
  pose proof (done_best X d1 best (g_exact d1) HI) as K0. pose proof (done_best X _ best ex K0) as K. cbv zeta. set (d2 := set_best_exact _ best ex) in *.
  destruct (i_type inp); try (cbn; eauto; fail). unfold compute_local_bounds_and_theta. apply pw_bind, pw_pure. intros d3 E3.
  eapply pw_mono; [intros a Ha; exists X; exact Ha|]. apply bottom_done. eapply ofold_done; [|exact E3|exact K]. intros a i b Hab HA. eapply init_bottom_done; eauto.
Qed.

(** ** Draining *)
Definition key (q : subproblem S) : nat * S := (depth_of q, sp_state q).
Lemma drain_keys X (d : dd) best : done X d -> (forall i n, In i (g_cutset d) -> get_node d i = Some n -> exists p, best_path d i = Some p /\ length p = n_depth n) ->
  forall l, NoDup l -> incl l (g_cutset d) -> forall L, drain_list d best l = Some L ->
  NoDup (map key L) /\ forall q, In q L -> exists i n, In i l /\ get_node d i = Some n /\ key q = (n_depth n, n_state n).
Proof.
  intros HD HP. induction l as [|i t IH]; cbn [drain_list]; intros Hl Hi L H; [injection H as <-; split; [constructor|intros q []]|].
  inversion Hl as [|? ? Hni Hl']; subst. destruct (drain_node d best i) as [a|] eqn:E1; cbn [obind] in H; [|discriminate].
  destruct (drain_list d best t) as [b|] eqn:E2; cbn [obind] in H; [|discriminate]. injection H as <-.
  destruct (IH Hl' (fun x Hx => Hi x (or_intror Hx)) b eq_refl) as [B1 B2]. revert E1. unfold drain_node.
  destruct (get_node d i) as [n|] eqn:En; cbn [obind]; [|discriminate]. destruct (is_marked _).
  - destruct (HP i n (Hi i (or_introl eq_refl)) En) as (p & Hp & Hlen). rewrite Hp. cbn [obind]. intros H. injection H as <-. cbn [app map]. split.
    + constructor; [|exact B1]. intros Hin. apply in_map_iff in Hin as (q & Hq & Hin). destruct (B2 q Hin) as (j & m & Hj & Hm & Hk). rewrite Hk in Hq.
      unfold key, depth_of in Hq. cbn in Hq. injection Hq as Q1 Q2. apply Hni. rewrite Hlen in Q1.
      assert (i = j) as ->; [|exact Hj]. eapply (do_key _ _ HD i j n m); eauto; apply (do_cut _ _ HD), Hi; [left; reflexivity|right; exact Hj].
    + intros q [<-|Hq]; [|destruct (B2 q Hq) as (j & m & Hj & Hm & Hk); exists j, m; split; [right; exact Hj|auto]].
      exists i, n. split; [left; reflexivity|]. split; [exact En|]. unfold key, depth_of. cbn. rewrite Hlen. reflexivity.
  - intros H. injection H as <-. cbn [app]. split; [exact B1|]. intros q Hq. destruct (B2 q Hq) as (j & m & Hj & Hm & Hk). exists j, m. split; [right; exact Hj|auto].
Qed.
Lemma drained_keys X (d : dd) L d2 : done X d -> (forall i n, In i (g_cutset d) -> get_node d i = Some n -> exists p, best_path d i = Some p /\ length p = n_depth n) ->
  drain_cutset d = Some (L, d2) -> NoDup (map key L).
Proof.
  intros HD HP. unfold drain_cutset. destruct (best_value d) as [[best|]|]; cbn [obind]; [|intros H; injection H as <- _; constructor|discriminate].
  destruct (drain_list d best (g_cutset d)) as [l|] eqn:E; cbn [obind]; [|discriminate]. intros H. injection H as <- _.
  apply (drain_keys X d best HD HP (g_cutset d) ltac:(apply HD) (incl_refl _) l E).
Qed.
End Inv.
