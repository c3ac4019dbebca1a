(** Proofs about the counter [explored] of a diagram. *)
From Verif Require Import Spec Dd DdSpec MddAll MddBarrier MddBarrierSpec CountersSpec.
From Coq Require Import Lia ZArith List Permutation.
Import ListNotations.
Open Scope nat_scope.

Section Count.
Variable S : Type.
Variable eqb : S -> S -> bool.
Variable inp : input S.
Variable orc : oracle S.
Hypothesis Hiter : forall i l, Permutation l (o_iter orc i l).
Hypothesis Hsort : forall cmp l, Permutation l (o_sort orc cmp l).
Notation dd := (dd S).
Notation node := (node S).

Definition nextids (d : dd) := map snd (g_next d).
Definition outside (d : dd) (X l : list nat) : Prop := NoDup l /\ forall i, In i l -> i < length (g_nodes d) /\ ~ In i X.

(** The nodes of [X] keep their states and values, and the new edges leave nodes of [X]. *)
Record keeps (X : list nat) (d d' : dd) : Prop := {
  kp_len : length (g_nodes d) <= length (g_nodes d');
  kp_node : forall i n, In i X -> get_node d i = Some n -> exists n', get_node d' i = Some n' /\ n_state n' = n_state n /\ n_value n' = n_value n;
  kp_old : incl (g_edges d) (g_edges d');
  kp_new : (forall e, In e (g_edges d) -> In (e_from e) X) -> forall e, In e (g_edges d') -> In (e_from e) X;
  kp_expl : g_explored d' = g_explored d }.
Definition done (d : dd) (i : nat) : Prop := exists n var, get_node d i = Some n /\ (i_lb inp < sat_add (pb_estimate (i_pb inp) (n_state n)) (n_value n))%Z /\
    forall dec, In dec (pb_domain (i_pb inp) var (n_state n)) -> exists e, In e (g_edges d) /\ e_from e = i /\ e_dec e = dec.
Record inv (X : list nat) (d : dd) : Prop := {
  iv_dup : NoDup X;
  iv_from : forall e, In e (g_edges d) -> In (e_from e) X;
  iv_done : forall i, In i X -> done d i;
  iv_expl : length X = g_explored d }.
Lemma keeps_refl X d : keeps X d d.
Proof. constructor; eauto using incl_refl. Qed.
Lemma keeps_trans X a b c : keeps X a b -> keeps X b c -> keeps X a c.
Proof.
  intros [A1 A2 A3 A4 A5] [B1 B2 B3 B4 B5]. constructor; [lia| |eapply incl_tran; eauto|auto|congruence].
  intros i n Hi Hn. destruct (A2 i n Hi Hn) as (n1 & H1 & E1 & E2). destruct (B2 i n1 Hi H1) as (n2 & H2 & E3 & E4). exists n2. rewrite E3, E4. auto.
Qed.
Lemma keeps_incl X Y a b : incl X Y -> keeps Y a b -> (forall e, In e (g_edges b) -> In e (g_edges a)) -> keeps X a b.
Proof. intros H [A1 A2 A3 A4 A5] E. constructor; auto. Qed.
Lemma keeps_done X d d' i : keeps X d d' -> In i X -> done d i -> done d' i.
Proof.
  intros [A1 A2 A3 A4 A5] Hi (n & var & Hn & Hb & Hd). destruct (A2 i n Hi Hn) as (n' & Hn' & E1 & E2). exists n', var. rewrite E1, E2.
  split; [exact Hn'|]. split; [exact Hb|]. intros dec Hdec. destruct (Hd dec Hdec) as (e & He & H). exists e. split; [apply A3, He|exact H].
Qed.
Lemma keeps_inv X d d' : keeps X d d' -> inv X d -> inv X d'.
Proof.
  intros K [I1 I2 I3 I4]. constructor; [exact I1|apply K; exact I2| |rewrite (kp_expl _ _ _ K); exact I4].
  intros i Hi. eapply keeps_done; eauto.
Qed.
Lemma outside_keeps X d d' l : keeps X d d' -> outside d X l -> outside d' X l.
Proof. intros K [H1 H2]. split; [exact H1|]. intros i Hi. destruct (H2 i Hi). pose proof (kp_len _ _ _ K). split; [lia|assumption]. Qed.
Lemma outside_perm d X l l' : Permutation l l' -> outside d X l -> outside d X l'.
Proof.
  intros P [H1 H2]. split; [eapply Permutation_NoDup; eauto|]. intros i Hi. apply H2. eapply Permutation_in; [symmetry; exact P|exact Hi].
Qed.
Lemma firstn_incl {A} k (l : list A) : incl (firstn k l) l.
Proof. intros x H. rewrite <- (firstn_skipn k l). apply in_or_app. auto. Qed.
Lemma NoDup_first {A} k (l : list A) : NoDup l -> NoDup (firstn k l).
Proof.
  revert k. induction l as [|x t IH]; intros [|k] H; cbn; try constructor. - inversion H; subst. intros Hi. apply (firstn_incl k) in Hi. contradiction.
  - inversion H; subst. apply IH. assumption.
Qed.
Lemma outside_firstn d X l k : outside d X l -> outside d X (firstn k l).
Proof. intros [H1 H2]. split; [apply NoDup_first, H1|]. intros i Hi. apply H2, (firstn_incl k), Hi. Qed.

(** ** Updates *)
Lemma upd_spec {A} (l : list A) : forall i x l', upd l i x = Some l' -> length l' = length l /\ forall j, nth_error l' j = if Nat.eqb j i then Some x else nth_error l j.
Proof.
  induction l as [|h t IH]; intros [|i] x l' H; cbn in H; try discriminate.
  - inversion H. split; [reflexivity|]. intros [|j]; reflexivity.
  - destruct (upd t i x) eqn:E; [|discriminate]. inversion H. destruct (IH i x l E) as [L N]. split; [cbn; congruence|].
    intros [|j]; [reflexivity|]. cbn. apply N.
Qed.
Lemma upd_node_spec (d : dd) id f d' : upd_node d id f = Some d' ->
  exists n, get_node d id = Some n /\ (forall j, get_node d' j = if Nat.eqb j id then Some (f n) else get_node d j) /\ length (g_nodes d') = length (g_nodes d) /\
    g_edges d' = g_edges d /\ g_next d' = g_next d /\ g_explored d' = g_explored d.
Proof.
  unfold upd_node, get_node. destruct (nth_error (g_nodes d) id) as [n|] eqn:E; cbn; [|discriminate].
  destruct (upd (g_nodes d) id (f n)) as [ns|] eqn:U; cbn; [|discriminate]. intros H. inversion H. destruct (upd_spec _ _ _ _ U) as [L N].
  exists n. cbn. repeat split; auto.
Qed.
Definition quiet (f : node -> node) : Prop := forall n, n_state (f n) = n_state n /\ n_value (f n) = n_value n.
Lemma upd_keeps X (d : dd) id f d' : upd_node d id f = Some d' -> quiet f \/ ~ In id X -> keeps X d d' /\ g_next d' = g_next d.
Proof.
  intros H Q. destruct (upd_node_spec _ _ _ _ H) as (n & Hn & Hj & L & E & N & X0). split; [|exact N]. constructor; [lia| |rewrite E; apply incl_refl|rewrite E; auto|exact X0].
  intros i m Hi Hm. rewrite Hj. destruct (Nat.eqb_spec i id) as [->|Ne]; [|exists m; auto].
  destruct Q as [Q|Q]; [|contradiction]. rewrite Hn in Hm. injection Hm as <-. exists (f n). destruct (Q n). auto.
Qed.
Ltac quiet := left; intros ?; repeat match goal with |- context [if ?b then _ else _] => destruct b end; cbn; auto.
Lemma keeps_same X (d d' : dd) : g_nodes d' = g_nodes d -> g_edges d' = g_edges d -> g_explored d' = g_explored d -> keeps X d d'.
Proof. intros H1 H2 H3. constructor; unfold get_node; rewrite ?H1, ?H2; eauto using incl_refl. Qed.
Lemma ofold_keeps {A} X (f : dd -> A -> option dd) : (forall d a d', f d a = Some d' -> keeps X d d' /\ g_next d' = g_next d) ->
  forall l d d', ofold f l d = Some d' -> keeps X d d' /\ g_next d' = g_next d.
Proof.
  intros H. induction l as [|a t IH]; cbn; intros d d' E; [injection E as <-; split; [apply keeps_refl|reflexivity]|].
  destruct (f d a) as [d1|] eqn:E1; cbn in E; [|discriminate]. destruct (H _ _ _ E1) as [K N]. destruct (IH _ _ E) as [K' N']. split; [eapply keeps_trans; eauto|congruence].
Qed.

(** ** Before the expansion *)
Lemma mark_keeps X v d id d' : mark_cutset v d id = Some d' -> keeps X d d' /\ g_next d' = g_next d.
Proof.
  unfold mark_cutset. destruct (upd_node _ _ _) as [d1|] eqn:E; cbn; [|discriminate]. destruct (get_node d1 id) as [n|]; cbn; [|discriminate]. intros H.
  destruct (upd_keeps X _ _ _ _ E) as [K N]; [quiet|]. injection H as <-. split; [|exact N]. eapply keeps_trans; [exact K|]. apply keeps_same; reflexivity.
Qed.
Lemma redirect_keeps X rx merged mid dropped : ~ In mid X -> forall fuel d e d', (forall e, In e (g_edges d) -> In (e_from e) X) ->
  redirect fuel rx merged mid dropped d e = Some d' -> keeps X d d' /\ g_next d' = g_next d.
Proof.
  intros Hm. induction fuel as [|k IH]; intros d [eid|] d' HX; cbn [redirect]; try discriminate; try (intros H; injection H as <-; split; [apply keeps_refl|reflexivity]).
  destruct (nth_error (g_edges d) eid) as [ed|] eqn:Ee; cbn [obind]; [|discriminate].
  destruct (get_node d (e_from ed)) as [src|]; cbn [obind]; [|discriminate]. destruct (get_node d mid) as [m|]; cbn [obind]; [|discriminate].
  set (d1 := set_edges d _). destruct (upd_node d1 mid _) as [d2|] eqn:E2; cbn [obind]; [|discriminate].
  assert (K1 : keeps X d d1).
  { constructor; cbn; auto. - intros i n Hi Hn. exists n. auto.
    - intros x Hx. apply in_or_app. auto.
    - intros H x Hx. apply in_app_or in Hx. destruct Hx as [Hx|[<-|[]]]; [auto|]. cbn. apply HX. eapply nth_error_In; eauto. }
  destruct (upd_keeps X _ _ _ _ E2) as [K2 N2]; [auto|].
  destruct (get_node d2 (e_from ed)) as [src2|]; cbn [obind]; [|discriminate]. destruct (get_node d2 mid) as [m2|]; cbn [obind]; [|discriminate].
  match goal with |- context [obind ?x _] => destruct x as [d3|] eqn:E3 end; cbn [obind]; [|discriminate]. intros H.
  assert (K3 : keeps X d2 d3 /\ g_next d3 = g_next d2).
  { destruct (n_value m2 <=? _)%Z; [|injection E3 as <-; split; [apply keeps_refl|reflexivity]]. apply (upd_keeps X _ _ _ _ E3); auto. }
  destruct K3 as [K3 N3]. assert (K : keeps X d d3) by (eapply keeps_trans; [exact K1|]; eapply keeps_trans; eauto).
  destruct (IH d3 _ d' ltac:(apply K; exact HX) H) as [K' N']. split; [eapply keeps_trans; eauto|]. rewrite N', N3, N2. reflexivity.
Qed.
Lemma drop_keeps X v rx merged mid d id d' : ~ In mid X -> (forall e, In e (g_edges d) -> In (e_from e) X) ->
  drop_node v rx merged mid d id = Some d' -> keeps X d d' /\ g_next d' = g_next d.
Proof.
  intros Hm HX. unfold drop_node. match goal with |- context [obind ?x _] => destruct x as [d1|] eqn:E1 end; cbn [obind]; [|discriminate].
  assert (K1 : keeps X d d1 /\ g_next d1 = g_next d).
  { destruct v; [injection E1 as <-; split; [apply keeps_refl|reflexivity]|]. apply (upd_keeps X _ _ _ _ E1). quiet. }
  destruct K1 as [K1 N1]. destruct (get_node d1 id) as [n|]; cbn [obind]; [|discriminate]. intros H.
  destruct (redirect_keeps X _ _ _ _ Hm _ _ _ _ ltac:(apply K1; exact HX) H) as [K N]. split; [eapply keeps_trans; eauto|congruence].
Qed.
Lemma drops_keep X v rx merged mid : ~ In mid X -> forall l d d', (forall e, In e (g_edges d) -> In (e_from e) X) ->
  ofold (drop_node v rx merged mid) l d = Some d' -> keeps X d d' /\ g_next d' = g_next d.
Proof.
  intros Hm. induction l as [|a t IH]; cbn; intros d d' HX E; [injection E as <-; split; [apply keeps_refl|reflexivity]|].
  destruct (drop_node v rx merged mid d a) as [d1|] eqn:E1; cbn in E; [|discriminate]. destruct (drop_keeps X _ _ _ _ _ _ _ Hm HX E1) as [K N].
  destruct (IH _ _ ltac:(apply K; exact HX) E) as [K' N']. split; [eapply keeps_trans; eauto|congruence].
Qed.
Lemma restrict_keeps X d curr d' curr' : outside d X curr -> restrict orc inp d curr = Some (d', curr') ->
  keeps X d d' /\ g_next d' = g_next d /\ outside d' X curr'.
Proof.
  intros HO. unfold restrict. destruct (all_present d curr); [|discriminate]. intros H. injection H as <- <-.
  split; [apply keeps_same; reflexivity|]. split; [reflexivity|]. apply outside_firstn. eapply outside_perm; [apply Hsort|]. exact HO.
Qed.
Lemma find_keep {A} (p : nat * A -> bool) ks ss x : find p (combine ks ss) = Some x -> In (fst x) ks.
Proof. intros H. apply find_some in H. destruct H as [H _]. destruct x as [i s]. apply in_combine_l in H. exact H. Qed.
Lemma relax_keeps X v d curr d' curr' : (forall i, In i X -> i < length (g_nodes d)) -> (forall e, In e (g_edges d) -> In (e_from e) X) -> outside d X curr -> relax eqb v orc inp d curr = Some (d', curr') ->
  keeps X d d' /\ g_next d' = g_next d /\ outside d' X curr'.
Proof.
  intros HL HX HO. unfold relax. match goal with |- context [obind ?x _] => destruct x as [d1|] eqn:E1 end; cbn [obind]; [|discriminate].
  assert (K1 : keeps X d d1 /\ g_next d1 = g_next d).
  { destruct (g_ctype d); [destruct (negb (g_approx d))|]; try (injection E1 as <-; split; [apply keeps_refl|reflexivity]).
    eapply ofold_keeps; [|exact E1]. intros. eapply mark_keeps; eauto. }
  destruct K1 as [K1 N1]. destruct (all_present d1 curr); [|discriminate]. set (d2 := set_approx d1 true). set (sorted := o_sort orc _ curr).
  assert (K2 : keeps X d d2) by (eapply keeps_trans; [exact K1|apply keeps_same; reflexivity]).
  assert (HS : outside d2 X sorted) by (eapply outside_perm; [apply Hsort|]; eapply outside_keeps; eauto).
  destruct (i_width inp) as [|w1] eqn:Ew; [discriminate|]. destruct (w1 <=? length sorted) eqn:Eb; [|discriminate].
  destruct (map_states d2 (firstn w1 sorted)) as [ks|] eqn:Ek; cbn [obind]; [|discriminate].
  destruct (map_states d2 (skipn w1 sorted)) as [ms|] eqn:Em; cbn [obind]; [|discriminate].
  set (merged := rx_merge _ ms). set (rec := option_map fst _).
  match goal with |- context [obind ?x _] => destruct x as [[mid d3]|] eqn:E3 end; cbn [obind]; [|discriminate].
  assert (HL2 : forall i, In i X -> i < length (g_nodes d2)) by (intros i Hi; specialize (HL i Hi); pose proof (kp_len _ _ _ K2); lia).
  assert (K3 : keeps X d2 d3 /\ g_next d3 = g_next d2 /\ ~ In mid X /\
     match rec with Some r => True | None => outside d3 X (firstn w1 sorted ++ [mid]) end).
  { destruct rec as [r|] eqn:Er.
    - injection E3 as <- <-. split; [apply keeps_refl|]. split; [reflexivity|]. split; [|exact I].
      subst rec. destruct (find _ _) as [x|] eqn:Ef; cbn in Er; [|discriminate]. injection Er as <-. apply find_keep in Ef. apply HS, (firstn_incl w1), Ef.
    - match type of E3 with context [obind ?x _] => destruct x as [dep|] end; cbn [obind] in E3; [|discriminate]. injection E3 as <- <-.
      set (nn := mk_node _ _ _ _ _ _ _ _ _). assert (Hlt : ~ In (length (g_nodes d1)) X) by (intros Hi; specialize (HL2 _ Hi); cbn in HL2; lia).
      assert (K : keeps X d2 (set_nodes d2 (g_nodes d2 ++ [nn]))).
      { constructor; cbn; auto using incl_refl. - rewrite app_length. cbn. lia.
        - unfold get_node. cbn. intros i n Hi Hn. exists n. rewrite nth_error_app1; auto. }
      split; [exact K|]. split; [reflexivity|]. split; [exact Hlt|].
      destruct (outside_firstn _ _ _ w1 HS) as [D1 D2]. split.
      + apply NoDup_Add with (a := length (g_nodes d1)) (l := firstn w1 sorted); [|split; [exact D1|]].
        * rewrite <- (app_nil_r (firstn w1 sorted)) at 1. apply Add_app.
        * intros Hi. destruct (D2 _ Hi) as [Hi' _]. cbn in Hi'. lia.
      + intros i Hi. apply in_app_or in Hi. destruct Hi as [Hi|[<-|[]]].
        * destruct (D2 _ Hi). split; [|assumption]. eapply Nat.lt_le_trans; [eassumption|apply K].
        * split; [cbn; rewrite app_length; cbn; lia|exact Hlt]. }
  destruct K3 as (K3 & N3 & Hm & Ho). destruct (upd_node d3 mid _) as [d4|] eqn:E4; cbn [obind]; [|discriminate].
  destruct (upd_keeps X _ _ _ _ E4) as [K4 N4]; [auto|]. destruct (ofold _ _ d4) as [d5|] eqn:E5; cbn [obind]; [|discriminate].
  assert (K24 : keeps X d d4) by (eapply keeps_trans; [exact K2|]; eapply keeps_trans; eauto).
  destruct (drops_keep X _ _ _ _ Hm _ _ _ ltac:(apply K24; exact HX) E5) as [K5 N5].
  assert (K05 : keeps X d d5) by (eapply keeps_trans; eauto). assert (N05 : g_next d5 = g_next d) by (rewrite N5, N4, N3; exact N1).
  destruct rec as [r|].
  - match goal with |- context [obind ?x _] => destruct x as [d6|] eqn:E6 end; cbn [obind]; [|discriminate]. intros H. injection H as <- <-.
    assert (K6 : keeps X d5 d6 /\ g_next d6 = g_next d5).
    { destruct v; [injection E6 as <-; split; [apply keeps_refl|reflexivity]|]. destruct (nth_error _ w1); cbn [obind] in E6; [|discriminate].
      apply (upd_keeps X _ _ _ _ E6). quiet. }
    destruct K6 as [K6 N6]. assert (K : keeps X d d6) by (eapply keeps_trans; eauto). split; [exact K|]. split; [congruence|].
    eapply outside_keeps; [eapply keeps_trans; [exact K5|exact K6]|]. eapply outside_keeps; [eapply keeps_trans; [exact K3|exact K4]|]. exact (outside_firstn _ _ _ (Datatypes.S w1) HS).
  - intros H. injection H as <- <-. split; [exact K05|]. split; [exact N05|]. eapply outside_keeps; [eapply keeps_trans; [exact K4|exact K5]|exact Ho].
Qed.

(** ** The expansion of a node *)
Lemma branch_keeps X v pb from d dec d' : In from X -> (forall i, In i X -> i < length (g_nodes d)) -> outside d X (nextids d) -> branch_on eqb v pb from d dec = Some d' ->
  keeps X d d' /\ outside d' X (nextids d') /\ (exists e, In e (g_edges d') /\ e_from e = from /\ e_dec e = dec).
Proof.
  intros HF HL HO. unfold branch_on. destruct (get_node d from) as [fn|] eqn:Ef; cbn [obind]; [|discriminate].
  destruct (next_get eqb (g_next d) _) as [nid|] eqn:En.
  - assert (Hin : In nid (nextids d)).
    { unfold nextids. revert En. generalize (g_next d). intros l. induction l as [|[s i] t IH]; cbn; [discriminate|]. destruct (eqb _ _); [intros H; injection H as <-; auto|auto]. }
    destruct (proj2 HO nid Hin) as [_ Hnx]. destruct (get_node d nid) as [nd0|] eqn:E0; cbn [obind]; [|discriminate].
    match goal with |- context [obind (upd _ _ ?x) _] => set (nd2 := x); destruct (upd (g_nodes d) nid nd2) as [ns|] eqn:Eu end; cbn [obind]; [|discriminate].
    intros H. injection H as <-. destruct (upd_spec _ _ _ _ Eu) as [L N]. split; [|split].
    + constructor; cbn; auto; [lia| | |].
      * unfold get_node. cbn. intros i n Hi Hn. rewrite N. destruct (Nat.eqb_spec i nid) as [->|]; [contradiction|]. eauto.
      * intros x Hx. apply in_or_app. auto.
      * intros H x Hx. apply in_app_or in Hx. destruct Hx as [Hx|[<-|[]]]; auto.
    + destruct HO as [O1 O2]. split; [exact O1|]. cbn. intros i Hi. destruct (O2 i Hi). split; [lia|assumption].
    + eexists. cbn. split; [apply in_or_app; right; left; reflexivity|]. auto.
  - intros H. injection H as <-. split; [|split].
    + constructor; cbn; auto; [rewrite app_length; lia| | |].
      * unfold get_node. cbn. intros i n Hi Hn. exists n. rewrite nth_error_app1; auto.
      * intros x Hx. apply in_or_app. auto.
      * intros H x Hx. apply in_app_or in Hx. destruct Hx as [Hx|[<-|[]]]; auto.
    + destruct HO as [O1 O2]. unfold nextids in *. cbn. split.
      * constructor; [|exact O1]. intros Hi. destruct (O2 _ Hi). lia.
      * cbn. rewrite app_length. cbn. intros i [<-|Hi]; [split; [lia|]; intros Hi; specialize (HL _ Hi); lia|]. destruct (O2 _ Hi). split; [lia|assumption].
    + eexists. cbn. split; [apply in_or_app; right; left; reflexivity|]. auto.
Qed.
Lemma branches_keep X v pb from : In from X -> forall l d d', (forall i, In i X -> i < length (g_nodes d)) -> outside d X (nextids d) -> ofold (branch_on eqb v pb from) l d = Some d' ->
  keeps X d d' /\ outside d' X (nextids d') /\ forall dec, In dec l -> exists e, In e (g_edges d') /\ e_from e = from /\ e_dec e = dec.
Proof.
  intros HF. induction l as [|a t IH]; cbn; intros d d' HL HO E.
  - injection E as <-. split; [apply keeps_refl|]. split; [exact HO|]. contradiction.
  - destruct (branch_on _ _ _ _ d a) as [d1|] eqn:E1; cbn in E; [|discriminate]. destruct (branch_keeps X _ _ _ _ _ _ HF HL HO E1) as (K & O1 & e & He & H1).
    assert (HL1 : forall i, In i X -> i < length (g_nodes d1)) by (intros i Hi; specialize (HL i Hi); pose proof (kp_len _ _ _ K); lia).
    destruct (IH _ _ HL1 O1 E) as (K' & O' & H'). split; [eapply keeps_trans; eauto|]. split; [exact O'|]. intros dec [<-|Hd]; [|auto].
    exists e. split; [apply (kp_old _ _ _ K'), He|exact H1].
Qed.

(** The nodes of the layer that are still to be expanded. *)
Record during (X : list nat) (d : dd) (todo : list nat) : Prop := {
  du_inv : inv X d;
  du_todo : outside d X todo;
  du_next : outside d X (nextids d);
  du_apart : forall i, In i todo -> ~ In i (nextids d) }.
Lemma inv_lt X d : inv X d -> forall i, In i X -> i < length (g_nodes d).
Proof. intros H i Hi. destruct (iv_done _ _ H i Hi) as (n & _ & Hn & _). unfold get_node in Hn. apply nth_error_Some. congruence. Qed.
Lemma expand_during X v var d id todo d' : during X d (id :: todo) -> expand_node eqb v inp var d id = Some d' -> exists X', during X' d' todo.
Proof.
  intros [DI DT DN DA]. unfold expand_node. destruct (get_node d id) as [n|] eqn:En; cbn [obind]; [|discriminate]. set (rub := pb_estimate _ _).
  destruct (upd_node d id _) as [d1|] eqn:E1; cbn [obind]; [|discriminate]. destruct (get_node d1 id) as [n1|] eqn:En1; cbn [obind]; [|discriminate].
  destruct (upd_keeps X _ _ _ _ E1) as [K1 N1]; [quiet|]. destruct (upd_node_spec _ _ _ _ E1) as (n0 & Hn0 & Hj & Hlen & Hed & _ & Hex).
  assert (DI1 : inv X d1) by (eapply keeps_inv; eauto). assert (DT1 : outside d1 X (id :: todo)) by (eapply outside_keeps; eauto).
  assert (DN1 : outside d1 X (nextids d1)) by (unfold nextids; rewrite N1; eapply outside_keeps; eauto).
  destruct (i_lb inp <? sat_add rub (n_value n1))%Z eqn:Eb.
  - destruct (ofold _ _ d1) as [d2|] eqn:E2; cbn [obind]; [|discriminate]. intros H. injection H as <-. exists (id :: X).
    rewrite En in Hn0. injection Hn0 as <-. rewrite Hj, Nat.eqb_refl in En1. injection En1 as <-.
    destruct DT1 as [DT1 DT2]. inversion DT1 as [|? ? Hnt DT3]; subst. assert (HiX : id < length (g_nodes d1) /\ ~ In id X) by (apply DT2; left; reflexivity).
    assert (HL : forall i, In i (id :: X) -> i < length (g_nodes d1)) by (intros i [<-|Hi]; [apply HiX|apply (inv_lt _ _ DI1), Hi]).
    assert (HO : outside d1 (id :: X) (nextids d1)).
    { destruct DN1 as [P1 P2]. split; [exact P1|]. intros i Hi. destruct (P2 i Hi). split; [assumption|]. intros [<-|]; [|contradiction].
      apply (DA id); [left; reflexivity|]. unfold nextids in *. rewrite N1 in Hi. exact Hi. }
    destruct (branches_keep (id :: X) _ _ id ltac:(left; reflexivity) _ _ _ HL HO E2) as (K2 & O2 & Hall).
    assert (Hfr : forall e, In e (g_edges d2) -> In (e_from e) (id :: X)) by (apply K2; intros e He; right; apply (iv_from _ _ DI1), He).
    assert (Kx : forall i, In i X -> done d2 i) by (intros i Hi; eapply (keeps_done (id :: X)); [exact K2|right; exact Hi|apply (iv_done _ _ DI1), Hi]).
    destruct (kp_node _ _ _ K2 id (node_rub n rub) ltac:(left; reflexivity)) as (n2 & Hn2 & S2 & V2); [rewrite Hj, Nat.eqb_refl; reflexivity|].
    assert (D2 : forall l, outside d1 X (id :: l) -> (forall i, In i l -> i < length (g_nodes d2) /\ ~ In i (id :: X))).
    { intros l [Hl1 Hl2] i Hi. destruct (Hl2 i ltac:(right; exact Hi)). pose proof (kp_len _ _ _ K2). split; [lia|]. inversion Hl1; subst. intros [<-|]; contradiction. }
    constructor.
    + constructor.
      * constructor; [apply HiX|apply DI1].
      * exact Hfr.
      * intros i [<-|Hi].
        -- exists n2, var. split; [exact Hn2|]. rewrite S2, V2. cbn. split; [apply Z.ltb_lt in Eb; exact Eb|]. exact Hall.
        -- exact (Kx i Hi).
      * cbn. rewrite (iv_expl _ _ DI1), (kp_expl _ _ _ K2). reflexivity.
    + split; [exact DT3|]. apply D2. split; assumption.
    + exact O2.
    + intros i Hi Hn. assert (Hlt : i < length (g_nodes d1)) by (apply DT2; right; exact Hi).
      assert (Hg : forall i, In i (nextids d2) -> In i (nextids d1) \/ length (g_nodes d1) <= i).
      { clear - E2. revert E2. generalize (pb_domain (i_pb inp) var (n_state n)). intros l. revert d1. induction l as [|a t IH]; cbn; intros d1 E i Hi; [injection E as <-; auto|].
        destruct (branch_on eqb v (i_pb inp) id d1 a) as [d3|] eqn:E3; cbn in E; [|discriminate].
        assert (G : (forall i, In i (nextids d3) -> In i (nextids d1) \/ length (g_nodes d1) <= i) /\ length (g_nodes d1) <= length (g_nodes d3)).
        { clear - E3. revert E3. unfold branch_on. destruct (get_node d1 id) as [fn|]; cbn [obind]; [|discriminate]. destruct (next_get _ _ _) as [nid|].
          - destruct (get_node d1 nid) as [nd0|]; cbn [obind]; [|discriminate]. match goal with |- context [upd ?a ?b ?c] => destruct (upd a b c) as [ns|] eqn:Eu end; cbn [obind]; [|discriminate].
            intros H. injection H as <-. cbn. apply upd_spec in Eu. split; [auto|lia].
          - intros H. injection H as <-. unfold nextids. cbn. rewrite app_length. cbn. split; [|lia]. intros i [<-|Hi]; [right; lia|auto]. }
        destruct G as [G1 G2]. destruct (IH _ E i Hi) as [H|H]; [apply G1, H|right; lia]. }
      destruct (Hg i Hn) as [H|H]; [|lia]. apply (DA i); [right; exact Hi|]. unfold nextids in *. rewrite N1 in H. exact H.
  - assert (G : forall d2, keeps X d1 d2 -> g_next d2 = g_next d1 -> exists X', during X' d2 todo).
    { intros d2 K N. exists X. constructor.
      - eapply keeps_inv; eauto.
      - eapply outside_keeps; [exact K|]. destruct DT1 as [A B]. inversion A; subst. split; [assumption|]. intros i Hi. apply B. right. exact Hi.
      - unfold nextids. rewrite N. eapply outside_keeps; eauto.
      - unfold nextids. rewrite N, N1. intros i Hi. apply DA. right. exact Hi. }
    destruct v; [intros H; injection H as <-; apply G; [apply keeps_refl|reflexivity]|]. intros H. destruct (upd_keeps X _ _ _ _ H) as [K N]; [quiet|]. apply G; assumption.
Qed.
Definition between (X : list nat) (d : dd) : Prop := inv X d /\ outside d X (nextids d).
Definition some_between (d : dd) : Prop := exists X, between X d.
Lemma between_during X d d2 d3 curr2 : between X d -> keeps X d d3 -> g_next d3 = [] -> outside d3 X curr2 -> d2 = d3 -> during X d3 curr2.
Proof. intros [B1 B2] K N O _. constructor; [eapply keeps_inv; eauto|exact O| |]; unfold nextids; rewrite N; cbn; [split; [constructor|contradiction]|auto]. Qed.
Lemma during_end X d : during X d [] -> some_between d.
Proof. intros [D1 _ D3 _]. exists X. split; assumption. Qed.
Lemma expands_between v var : forall l X d d', during X d l -> ofold (expand_node eqb v inp var) l d = Some d' -> some_between d'.
Proof.
  induction l as [|id t IH]; cbn; intros X d d' D E; [injection E as <-; eapply during_end; eauto|].
  destruct (expand_node eqb v inp var d id) as [d1|] eqn:E1; cbn in E; [|discriminate]. destruct (expand_during _ _ _ _ _ _ _ D E1) as [X' D']. eapply IH; eauto.
Qed.
(** The layer taken from [next]. *)
Lemma taken X d k curr : between X d -> keeps X d (set_next (set_prev d curr) []) /\ outside (set_next (set_prev d curr) []) X (map snd (o_iter orc k (g_next (set_prev d curr)))).
Proof.
  intros [B1 B2]. split; [apply keeps_same; reflexivity|]. cbn. eapply outside_perm; [apply Permutation_map, Hiter|]. exact B2.
Qed.
Lemma root_between debug d d0 : root_dd debug inp d = Some d0 -> some_between d0.
Proof.
  unfold root_dd. destruct (sub_isize _ _ _) as [r|]; cbn [obind]; [|discriminate]. intros H. injection H as <-. exists []. split.
  - constructor; cbn; try contradiction; [constructor|reflexivity].
  - split; cbn; [constructor; [auto|constructor]|]. intros i [<-|[]]. split; [lia|auto].
Qed.
(** After the main loop. *)
Definition counts (d : dd) : Prop := exists X, expanded_nodes inp d X /\ length X = g_explored d.
Lemma between_counts d : some_between d -> counts d.
Proof. intros (X & [I1 I2 I3 I4] & _). exists X. split; [split; [exact I1|split; [exact I2|exact I3]]|exact I4]. Qed.
Definition still (d d' : dd) : Prop := forall X, keeps X d d'.
Lemma still_between d d' : still d d' -> g_next d' = g_next d -> some_between d -> some_between d'.
Proof. intros H N (X & B1 & B2). exists X. split; [eapply keeps_inv; eauto|]. unfold nextids. rewrite N. eapply outside_keeps; eauto. Qed.
Lemma still_counts d d' : still d d' -> counts d -> counts d'.
Proof.
  intros H (X & (I1 & I2 & I3) & I4). exists X. destruct (keeps_inv X d d' (H X)) as [J1 J2 J3 J4]; [constructor; assumption|]. split; [split; [exact J1|split; [exact J2|exact J3]]|exact J4].
Qed.
Lemma still_trans a b c : still a b -> still b c -> still a c.
Proof. intros H1 H2 X. eapply keeps_trans; eauto. Qed.
Lemma still_refl a : still a a.
Proof. intros X. apply keeps_refl. Qed.
Lemma still_upd d id f d' : upd_node d id f = Some d' -> quiet f -> still d d'.
Proof. intros H Q X. apply (upd_keeps X _ _ _ _ H). auto. Qed.
Lemma still_same (d d' : dd) : g_nodes d' = g_nodes d -> g_edges d' = g_edges d -> g_explored d' = g_explored d -> still d d'.
Proof. intros H1 H2 H3 X. apply keeps_same; assumption. Qed.
Lemma ofold_still {A} (f : dd -> A -> option dd) : (forall d a d', f d a = Some d' -> still d d') -> forall l d d', ofold f l d = Some d' -> still d d'.
Proof.
  intros H. induction l as [|a t IH]; cbn; intros d d' E; [injection E as <-; apply still_refl|].
  destruct (f d a) as [d1|] eqn:E1; cbn in E; [|discriminate]. eapply still_trans; [eapply H; eauto|eapply IH; eauto].
Qed.
End Count.
