(** Facts about the parts shared by the two decision diagrams. *)
From Verif Require Import Spec Dd FlagsFacts MatrixFacts.
From Coq Require Import ZifyNat.
Open Scope Z_scope.

Lemma sat_add_id a b : IMIN <= a + b <= IMAX -> sat_add a b = a + b.
Proof. unfold sat_add, clamp. lia. Qed.
Lemma sat_add_mono a b a' b' : a <= a' -> b <= b' -> sat_add a b <= sat_add a' b'.
Proof. unfold sat_add, clamp. lia. Qed.
Lemma sat_add_ge a b c : c <= a + b -> c <= IMAX -> c <= sat_add a b.
Proof. unfold sat_add, clamp. lia. Qed.
Lemma IMAX_pos : 0 <= IMAX. Proof. unfold IMAX. lia. Qed.
Lemma IMIN_IMAX : IMIN = - IMAX - 1. Proof. unfold IMIN, IMAX. lia. Qed.
Global Opaque IMIN IMAX.
#[global] Opaque is_exact is_relaxed is_marked is_cutset is_deleted is_pruned_by_barrier set_exact set_relaxed set_marked set_cutset set_deleted set_pruned_by_barrier.

(** ** Chains of inbound edges *)
Inductive inb (es : list edge) : option nat -> nat -> edge -> Prop :=
| inb_here e ed : nth_error es e = Some ed -> inb es (Some e) e ed
| inb_next e ed e' ed' : nth_error es e = Some ed -> inb es (e_next ed) e' ed' -> inb es (Some e) e' ed'.

Definition head_ok (es : list edge) (h : option nat) : Prop :=
  match h with None => True | Some e => (e < length es)%nat end.
Definition wf_edges (es : list edge) : Prop :=
  forall e ed, nth_error es e = Some ed -> match e_next ed with None => True | Some e' => (e' < e)%nat end.

Lemma inb_none es e ed : ~ inb es None e ed.
Proof. intros H. inversion H. Qed.
Lemma inb_nth es h e ed : inb es h e ed -> nth_error es e = Some ed.
Proof. induction 1; assumption. Qed.
Lemma inb_app es xs h e ed : inb es h e ed -> inb (es ++ xs) h e ed.
Proof.
  induction 1 as [e ed H|e ed e' ed' H H' IH].
  - apply inb_here. rewrite nth_error_app1; [exact H|]. apply nth_error_Some. congruence.
  - eapply inb_next; [|exact IH]. rewrite nth_error_app1; [exact H|]. apply nth_error_Some. congruence.
Qed.
Lemma inb_app_inv es xs : wf_edges es -> forall h e ed, head_ok es h -> inb (es ++ xs) h e ed -> inb es h e ed.
Proof.
  intros Hw h e ed Hh H. induction H as [e ed H|e ed e' ed' H H' IH]; cbn in Hh.
  - apply inb_here. rewrite nth_error_app1 in H by exact Hh. exact H.
  - rewrite nth_error_app1 in H by exact Hh. eapply inb_next; [exact H|]. apply IH.
    specialize (Hw e ed H). unfold head_ok. destruct (e_next ed); [lia|exact I].
Qed.
Lemma inb_snoc es ed e' ed' : wf_edges es -> head_ok es (e_next ed) ->
  (inb (es ++ [ed]) (Some (length es)) e' ed' <-> (e' = length es /\ ed' = ed) \/ inb es (e_next ed) e' ed').
Proof.
  intros Hw Hh. assert (Hn : nth_error (es ++ [ed]) (length es) = Some ed).
  { rewrite nth_error_app2, Nat.sub_diag by lia. reflexivity. }
  split.
  - intros H. inversion H as [? ? H1|? ? ? ? H1 H2]; subst.
    + left. rewrite Hn in H1. inversion H1. auto.
    + right. rewrite Hn in H1. inversion H1; subst. eapply inb_app_inv; eauto.
  - intros [[-> ->]|H]; [apply inb_here; exact Hn|]. eapply inb_next; [exact Hn|]. apply inb_app. exact H.
Qed.
Lemma wf_edges_snoc es ed : wf_edges es -> head_ok es (e_next ed) -> wf_edges (es ++ [ed]).
Proof.
  intros Hw Hh e x H. destruct (Nat.lt_ge_cases e (length es)) as [Hl|Hl].
  - rewrite nth_error_app1 in H by exact Hl. apply (Hw e x H).
  - rewrite nth_error_app2 in H by exact Hl. destruct (e - length es)%nat as [|k] eqn:E; [|destruct k; discriminate].
    cbn in H. inversion H; subst. unfold head_ok in Hh. destruct (e_next x); [lia|exact I].
Qed.
Lemma head_ok_app es xs h : head_ok es h -> head_ok (es ++ xs) h.
Proof. destruct h; cbn; [rewrite app_length; lia|auto]. Qed.

Section Facts.
Variable S : Type.
Variable eqb : S -> S -> bool.
Hypothesis eqb_spec : forall a b, eqb a b = true <-> a = b.
Variable P : problem S.
Variable R : relaxation S.
Variable at_depth : nat -> S -> Prop.
Variable nv : nat -> nat.
Variable C : Z.
Hypothesis Hwf : wf_problem S P at_depth nv.
Hypothesis Hvr : relaxation_depth S P at_depth R.
Hypothesis Hbd : bounded S P at_depth nv R C.

(** The subproblem at the root of the diagram, in layer [k0]. *)
Variable k0 : nat.
Variable sp : subproblem S.
Notation N := (pb_nb_vars P).
Definition vbound (k : nat) (v : Z) : Prop := Z.abs v <= (Z.of_nat k + 1) * C.
Record valid_root : Prop := {
  vr_path : k0 = length (sp_path sp);
  vr_le : (k0 <= N)%nat;
  vr_at : at_depth k0 (sp_state sp);
  vr_val : vbound k0 (sp_value sp) }.
Hypothesis Hroot : valid_root.

Notation node := (node S).
Notation dd := (dd S).
Definition nextids (d : dd) : list nat := map snd (g_next d).

Lemma vbound_range k v : (k <= N)%nat -> vbound k v -> IMIN < v < IMAX \/ C = 0 /\ v = 0.
Proof.
  intros Hk Hv. unfold vbound in Hv. destruct Hbd as [H0 H1 _ _ _]. rewrite IMIN_IMAX.
  assert ((Z.of_nat k + 1) * C <= (Z.of_nat N + 1) * C) by (apply Z.mul_le_mono_nonneg_r; lia).
  destruct (Z.eq_dec C 0) as [->|Hc]; [right; lia|left]. lia.
Qed.
Lemma vbound_step k v c : (k < N)%nat -> vbound k v -> Z.abs c <= C ->
  sat_add v c = v + c /\ vbound (Datatypes.S k) (v + c).
Proof.
  intros Hk Hv Hc. unfold vbound in *. destruct Hbd as [H0 H1 _ _ _].
  assert (Hs : Z.abs (v + c) <= (Z.of_nat (Datatypes.S k) + 1) * C) by lia.
  split; [|exact Hs]. apply sat_add_id. rewrite IMIN_IMAX.
  assert ((Z.of_nat (Datatypes.S k) + 1) * C <= (Z.of_nat N + 1) * C) by (apply Z.mul_le_mono_nonneg_r; lia).
  lia.
Qed.

(** ** What does not change *)
Record coreeq (n n' : node) : Prop := {
  ce_state : n_state n' = n_state n; ce_value : n_value n' = n_value n; ce_best : n_best n' = n_best n;
  ce_inb : n_inbound n' = n_inbound n; ce_depth : n_depth n' = n_depth n;
  ce_exact : is_exact (n_flags n') = is_exact (n_flags n); ce_relaxed : is_relaxed (n_flags n') = is_relaxed (n_flags n) }.
Record samenode (n n' : node) : Prop := {
  sn_core : coreeq n n'; sn_rub : n_rub n' = n_rub n; sn_theta : n_theta n' = n_theta n; sn_bot : n_bot n' = n_bot n;
  sn_marked : is_marked (n_flags n') = is_marked (n_flags n);
  sn_deleted : is_deleted (n_flags n') = is_deleted (n_flags n);
  sn_barrier : is_pruned_by_barrier (n_flags n') = is_pruned_by_barrier (n_flags n) }.
Lemma coreeq_refl n : coreeq n n. Proof. constructor; reflexivity. Qed.
Lemma samenode_refl n : samenode n n. Proof. constructor; auto using coreeq_refl. Qed.
Lemma coreeq_trans a b c : coreeq a b -> coreeq b c -> coreeq a c.
Proof. intros [] []. constructor; congruence. Qed.
Lemma samenode_trans a b c : samenode a b -> samenode b c -> samenode a c.
Proof. intros [] []. constructor; try congruence. eapply coreeq_trans; eauto. Qed.

Record stable (X : nat -> Prop) (d d' : dd) : Prop := {
  st_edges : exists xs, g_edges d' = g_edges d ++ xs;
  st_len : (length (g_nodes d) <= length (g_nodes d'))%nat;
  st_nodes : forall id n, get_node d id = Some n -> ~ X id -> exists n', get_node d' id = Some n' /\ samenode n n';
  st_root : g_root_pa d' = g_root_pa d;
  st_ctype : g_ctype d' = g_ctype d }.
Lemma stable_refl X d : stable X d d.
Proof. constructor; auto; [exists []; rewrite app_nil_r; reflexivity|]. intros id n H _. exists n. auto using samenode_refl. Qed.
Lemma stable_trans X a b c : stable X a b -> stable X b c -> stable X a c.
Proof.
  intros [[x1 E1] L1 N1 R1 C1] [[x2 E2] L2 N2 R2 C2]. constructor; try congruence; try lia.
  - exists (x1 ++ x2). rewrite E2, E1, app_assoc. reflexivity.
  - intros id n H Hx. destruct (N1 id n H Hx) as (n1 & H1 & S1). destruct (N2 id n1 H1 Hx) as (n2 & H2 & S2).
    exists n2. split; [exact H2|]. eapply samenode_trans; eauto.
Qed.
Lemma stable_weaken (X Y : nat -> Prop) a b : (forall id, X id -> Y id) -> stable X a b -> stable Y a b.
Proof. intros H [E1 L1 N1 R1 C1]. constructor; auto. Qed.

(** ** The invariant of the arena *)
Record edge_ok (d : dd) (past : list nat) (id : nat) (n : node) (ed : edge) : Prop := {
  eo_past : In (e_from ed) past;
  eo_lt : (e_from ed < id)%nat;
  eo_cost : Z.abs (e_cost ed) <= C;
  eo_parent : exists pn, get_node d (e_from ed) = Some pn /\ n_depth n = Datatypes.S (n_depth pn) /\ (n_depth pn < N)%nat /\
     In (e_dec ed) (pb_domain P (nv (n_depth pn)) (n_state pn)) /\ n_value pn + e_cost ed <= n_value n }.

(** The edge is a transition of the problem. *)
Definition orig_edge (d : dd) (n : node) (ed : edge) : Prop :=
  exists pn, get_node d (e_from ed) = Some pn /\ e_cost ed = pb_cost P (n_state pn) (e_dec ed) /\
    n_state n = pb_trans P (n_state pn) (e_dec ed).
Definition orig_all (d : dd) (n : node) : Prop :=
  forall e ed, inb (g_edges d) (n_inbound n) e ed -> orig_edge d n ed.

Definition is_root (id : nat) (n : node) : Prop :=
  id = 0%nat /\ n_best n = None /\ n_inbound n = None /\ n_state n = sp_state sp /\ n_value n = sp_value sp /\
  n_depth n = k0 /\ is_exact (n_flags n) = true.
Definition best_ok (d : dd) (id : nat) (n : node) : Prop :=
  is_root id n \/
  (id <> 0%nat /\ exists e ed pn, n_best n = Some e /\ inb (g_edges d) (n_inbound n) e ed /\
     get_node d (e_from ed) = Some pn /\ n_value n = n_value pn + e_cost ed /\
     (is_relaxed (n_flags n) = false -> orig_edge d n ed) /\
     (is_exact (n_flags n) = true -> is_exact (n_flags pn) = true)).

Record node_base (d : dd) (past : list nat) (id : nat) (n : node) : Prop := {
  no_depth : (k0 <= n_depth n <= N)%nat;
  no_at : at_depth (n_depth n) (n_state n);
  no_head : head_ok (g_edges d) (n_inbound n);
  no_edges : forall e ed, inb (g_edges d) (n_inbound n) e ed -> edge_ok d past id n ed;
  no_marked : is_marked (n_flags n) = false;
  no_bot : n_bot n = IMIN }.
Record node_ok (d : dd) (past : list nat) (id : nat) (n : node) : Prop := {
  no_base : node_base d past id n;
  no_val : vbound (n_depth n) (n_value n);
  no_best : best_ok d id n }.

(** Neither dropped by the relaxation nor pruned thanks to a threshold. *)
Definition cleanf (n : node) : Prop := is_deleted (n_flags n) = false /\ is_pruned_by_barrier (n_flags n) = false.
Definition clean (n : node) : Prop := cleanf n /\ n_theta n = IMAX.

Record arena (tmp : option nat) (d : dd) (past : list nat) : Prop := {
  a_edges : wf_edges (g_edges d);
  a_len : (0 < length (g_nodes d))%nat;
  a_nodes : forall id n, get_node d id = Some n -> tmp <> Some id -> node_ok d past id n;
  a_past : forall id, In id past -> (id < length (g_nodes d))%nat;
  a_lt : forall p id, In p past -> In id (nextids d) -> (p < id)%nat;
  a_keys : NoDup (map fst (g_next d));
  a_next : forall s id, In (s, id) (g_next d) -> exists n, get_node d id = Some n /\ n_state n = s /\ orig_all d n /\ clean n;
  a_cut : forall id n, get_node d id = Some n -> (is_cutset (n_flags n) = true <-> In id (g_cutset d));
  a_cutpast : incl (g_cutset d) past;
  a_root : g_root_pa d = sp_path sp }.

Definition layer_at (d : dd) (l : list nat) (k : nat) : Prop :=
  forall id, In id l -> exists n, get_node d id = Some n /\ n_depth n = k.

Lemma get_lt (d : dd) id n : get_node d id = Some n -> (id < length (g_nodes d))%nat.
Proof. intros H. apply nth_error_Some. unfold get_node in H. congruence. Qed.
Lemma get_some (d : dd) id : (id < length (g_nodes d))%nat -> exists n, get_node d id = Some n.
Proof. intros H. unfold get_node. destruct (nth_error (g_nodes d) id) eqn:E; [eauto|]. apply nth_error_None in E. lia. Qed.

Lemma upd_node_spec (d : dd) id f n : get_node d id = Some n ->
  exists ns, upd_node d id f = Some (set_nodes d ns) /\ length ns = length (g_nodes d) /\
    (forall j, nth_error ns j = if Nat.eqb j id then Some (f n) else get_node d j).
Proof.
  intros H. unfold upd_node. rewrite H. cbn [obind].
  destruct (upd_some (g_nodes d) id (f n)) as [ns E]; [eapply get_lt; eauto|]. rewrite E. cbn [obind].
  exists ns. split; [reflexivity|]. split; [eapply upd_length; eauto|]. intros j. apply (upd_nth _ _ _ _ E).
Qed.

(** Moving a property of a node to a later arena. *)
Lemma orig_edge_mono (d d' : dd) n n' ed : orig_edge d n ed -> n_state n' = n_state n ->
  (forall pn, get_node d (e_from ed) = Some pn -> exists pn', get_node d' (e_from ed) = Some pn' /\ coreeq pn pn') ->
  orig_edge d' n' ed.
Proof.
  intros (pn & H1 & H2 & H3) Hs Hp. destruct (Hp pn H1) as (pn' & H1' & []). exists pn'. repeat split; congruence.
Qed.
Lemma edge_ok_mono (d d' : dd) past past' id n n' ed : edge_ok d past id n ed ->
  n_depth n' = n_depth n -> n_value n <= n_value n' -> incl past past' ->
  (forall pn, get_node d (e_from ed) = Some pn -> exists pn', get_node d' (e_from ed) = Some pn' /\ coreeq pn pn') ->
  edge_ok d' past' id n' ed.
Proof.
  intros [H1 H2 H3 (pn & E & H4 & H5 & H6 & H7)] Hd Hv Hi Hp. destruct (Hp pn E) as (pn' & E' & []).
  constructor; auto. exists pn'. rewrite ce_depth0, ce_state0, ce_value0. repeat split; auto; try congruence. lia.
Qed.

Definition past_frozen (d d' : dd) (past : list nat) : Prop :=
  forall p pn, In p past -> get_node d p = Some pn -> exists pn', get_node d' p = Some pn' /\ coreeq pn pn'.

Lemma node_base_mono (d d' : dd) past past' id n n' : wf_edges (g_edges d) -> node_base d past id n -> coreeq n n' ->
  n_bot n' = n_bot n -> is_marked (n_flags n') = is_marked (n_flags n) ->
  incl past past' -> past_frozen d d' past -> (exists xs, g_edges d' = g_edges d ++ xs) -> node_base d' past' id n'.
Proof.
  intros Hw [H1 H2 H3 H4 H5 H6] Hc Hb Hm Hi Hp [xs Ex]. assert (Hc' := Hc). destruct Hc'. constructor; try congruence.
  - rewrite ce_inb0, Ex. apply head_ok_app. exact H3.
  - intros e ed He. rewrite ce_inb0, Ex in He. apply inb_app_inv in He; [|exact Hw|exact H3].
    specialize (H4 e ed He). eapply edge_ok_mono; eauto; [lia|]. intros pn Hpn. apply Hp; [|exact Hpn]. apply H4.
Qed.
Lemma best_ok_mono (d d' : dd) past id n n' : wf_edges (g_edges d) -> node_base d past id n -> best_ok d id n -> coreeq n n' ->
  past_frozen d d' past -> (exists xs, g_edges d' = g_edges d ++ xs) -> best_ok d' id n'.
Proof.
  intros Hw Hb H Hc Hp [xs Ex]. destruct H as [H|(Hid & e & ed & pn & H1 & H2 & H3 & H4 & H5 & H6)].
  - left. destruct Hc. unfold is_root in *. intuition congruence.
  - right. split; [exact Hid|]. pose proof (no_edges _ _ _ _ Hb e ed H2) as Heo.
    destruct (Hp (e_from ed) pn (eo_past _ _ _ _ _ Heo) H3) as (pn' & Hpn' & Hcp).
    exists e, ed, pn'. destruct Hc. destruct Hcp.
    split; [congruence|]. split; [rewrite ce_inb0, Ex; apply inb_app; exact H2|]. split; [exact Hpn'|].
    split; [congruence|]. split; [|rewrite ce_exact0, ce_exact1; exact H6].
    rewrite ce_relaxed0. intros Hr. eapply orig_edge_mono; [apply H5; exact Hr|congruence|].
    intros q Hq. exists pn'. split; [exact Hpn'|]. assert (q = pn) as -> by congruence. constructor; congruence.
Qed.
Lemma node_ok_mono (d d' : dd) past past' id n n' : wf_edges (g_edges d) -> node_ok d past id n -> coreeq n n' ->
  n_bot n' = n_bot n -> is_marked (n_flags n') = is_marked (n_flags n) ->
  incl past past' -> past_frozen d d' past -> (exists xs, g_edges d' = g_edges d ++ xs) -> node_ok d' past' id n'.
Proof.
  intros Hw [H1 H2 H3] Hc Hb Hm Hi Hp Hx. constructor.
  - eapply node_base_mono; eauto.
  - destruct Hc. rewrite ce_depth0, ce_value0. exact H2.
  - eapply best_ok_mono; eauto.
Qed.
Lemma orig_all_mono (d d' : dd) past id n n' : wf_edges (g_edges d) -> node_base d past id n -> orig_all d n -> coreeq n n' ->
  past_frozen d d' past -> (exists xs, g_edges d' = g_edges d ++ xs) -> orig_all d' n'.
Proof.
  intros Hw Hb H Hc Hp [xs Ex] e ed He. destruct Hc. rewrite ce_inb0, Ex in He.
  apply inb_app_inv in He; [|exact Hw|apply Hb]. pose proof (no_edges _ _ _ _ Hb e ed He) as Heo.
  eapply orig_edge_mono; [apply (H e ed He)|congruence|]. intros pn Hpn. apply Hp; [apply Heo|exact Hpn].
Qed.
Lemma stable_past (X : nat -> Prop) d d' past : stable X d d' -> (forall p, In p past -> ~ X p) -> past_frozen d d' past.
Proof. intros H Hx p pn Hp Hg. destruct (st_nodes _ _ _ H p pn Hg (Hx p Hp)) as (n' & H1 & H2). exists n'. split; [exact H1|apply H2]. Qed.

Lemma next_get_in m s id : NoDup (map fst m) -> (next_get eqb m s = Some id <-> In (s, id) m).
Proof.
  induction m as [|[k w] m IH]; cbn [map fst next_get In]; intros Hn.
  - split; [discriminate|tauto].
  - inversion Hn as [|x l Hx Hl]; subst. destruct (eqb k s) eqn:E.
    + apply eqb_spec in E. subst k. split.
      * intros [= ->]. left. reflexivity.
      * intros [[= ->]|H]; [reflexivity|]. exfalso. apply Hx. apply in_map_iff. exists (s, id). auto.
    + rewrite IH by exact Hl. split; [auto|]. intros [[= -> ->]|H]; [|exact H].
      rewrite (proj2 (eqb_spec s s) eq_refl) in E. discriminate.
Qed.
Lemma next_get_none m s : next_get eqb m s = None <-> ~ In s (map fst m).
Proof.
  induction m as [|[k w] m IH]; cbn [map fst next_get In]; [tauto|].
  destruct (eqb k s) eqn:E.
  - apply eqb_spec in E. split; [discriminate|tauto].
  - rewrite IH. split; [|tauto]. intros H [->|H']; [rewrite (proj2 (eqb_spec s s) eq_refl) in E; discriminate | tauto].
Qed.
Lemma nextids_in (d : dd) id : In id (nextids d) <-> exists s, In (s, id) (g_next d).
Proof.
  unfold nextids. rewrite in_map_iff. split.
  - intros ([s i] & H1 & H2). cbn in H1. subst i. eauto.
  - intros (s & H). exists (s, id). auto.
Qed.

(** ** Branching *)
Definition all_exact (d : dd) : Prop := forall id n, get_node d id = Some n -> is_exact (n_flags n) = true.
Record grows (d d' : dd) : Prop := {
  gr_incl : incl (g_next d) (g_next d');
  gr_fresh : forall id, In id (nextids d') -> In id (nextids d) \/ (length (g_nodes d) <= id)%nat;
  gr_nodes : forall id n, In id (nextids d) -> get_node d id = Some n ->
     exists n', get_node d' id = Some n' /\ n_state n' = n_state n /\ n_value n <= n_value n' /\ n_depth n' = n_depth n /\
       (forall e ed, inb (g_edges d) (n_inbound n) e ed -> inb (g_edges d') (n_inbound n') e ed) }.
Lemma grows_refl d : grows d d.
Proof. constructor; [apply incl_refl|auto|]. intros id n _ H. exists n. repeat split; auto; lia. Qed.
Lemma nextids_incl (d d' : dd) : incl (g_next d) (g_next d') -> incl (nextids d) (nextids d').
Proof. intros H id Hi. apply nextids_in in Hi as (s & Hs). apply nextids_in. exists s. apply H. exact Hs. Qed.
Lemma grows_trans a b c : grows a b -> grows b c -> (length (g_nodes a) <= length (g_nodes b))%nat -> grows a c.
Proof.
  intros [I1 F1 N1] [I2 F2 N2] Hl. constructor.
  - eapply incl_tran; eauto.
  - intros id H. destruct (F2 id H) as [H'|H']; [|right; lia]. auto.
  - intros id n Hi Hg. destruct (N1 id n Hi Hg) as (n1 & G1 & A1 & B1 & D1 & E1).
    destruct (N2 id n1 (nextids_incl _ _ I1 id Hi) G1) as (n2 & G2 & A2 & B2 & D2 & E2).
    exists n2. repeat split; auto; try congruence; lia.
Qed.

Record same_rest (d d' : dd) : Prop := {
  sr_prev : g_prev d' = g_prev d; sr_cut : g_cutset d' = g_cutset d; sr_lel : g_lel d' = g_lel d;
  sr_best : g_best d' = g_best d; sr_exact : g_exact d' = g_exact d; sr_approx : g_approx d' = g_approx d }.
Lemma same_rest_refl d : same_rest d d. Proof. constructor; reflexivity. Qed.
Lemma same_rest_trans a b c : same_rest a b -> same_rest b c -> same_rest a c.
Proof. intros [] []. constructor; congruence. Qed.

(** There is an edge for decision [dec] from [p] to a node of the next layer. *)
Definition has_edge (d : dd) (p : nat) (pn : node) (dec : decision) : Prop :=
  exists m mn e ed, In (pb_trans P (n_state pn) dec, m) (g_next d) /\ get_node d m = Some mn /\
    inb (g_edges d) (n_inbound mn) e ed /\ e_from ed = p /\ e_dec ed = dec /\ e_cost ed = pb_cost P (n_state pn) dec.
Lemma has_edge_grows d d' p pn dec : grows d d' -> has_edge d p pn dec -> has_edge d' p pn dec.
Proof.
  intros [I1 F1 N1] (m & mn & e & ed & H1 & H2 & H3 & H4 & H5 & H6).
  destruct (N1 m mn) as (n' & G & _ & _ & _ & E); [apply nextids_in; eauto|exact H2|].
  exists m, n', e, ed. repeat split; auto.
Qed.

(** Flags of inexact nodes never matter for the exactness of others: what is common to both variants. *)
Lemma branch_spec v past d from fn dec :
  arena None d past -> In from past -> ~ In from (nextids d) -> get_node d from = Some fn -> (n_depth fn < N)%nat ->
  In dec (pb_domain P (nv (n_depth fn)) (n_state fn)) -> layer_at d (nextids d) (Datatypes.S (n_depth fn)) -> cleanf fn -> ~ In from (g_cutset d) ->
  (forall p, In p past -> ~ In p (nextids d)) ->
  exists d', branch_on eqb v P from d dec = Some d' /\ arena None d' past /\
    layer_at d' (nextids d') (Datatypes.S (n_depth fn)) /\ stable (fun i => In i (nextids d)) d d' /\ grows d d' /\ same_rest d d' /\
    g_explored d' = g_explored d /\ (forall p, In p past -> ~ In p (nextids d')) /\
    has_edge d' from fn dec /\ (all_exact d -> all_exact d').
Proof.
  intros HA Hfp Hfn Hfrom Hdep Hdec Hlay Hfc Hfcut Hpn. unfold branch_on. rewrite Hfrom. cbn [obind].
  set (ns := pb_trans P (n_state fn) dec). set (cost := pb_cost P (n_state fn) dec).
  assert (Hfok := a_nodes _ _ _ HA from fn Hfrom ltac:(discriminate)).
  assert (Hfb := no_base _ _ _ _ Hfok).
  assert (Hcost : Z.abs cost <= C) by (eapply (bd_cost _ _ _ _ _ _ Hbd); eauto; apply Hfb).
  destruct (vbound_step (n_depth fn) (n_value fn) cost Hdep (no_val _ _ _ _ Hfok) Hcost) as [Hsat Hvb].
  rewrite Hsat. set (value := n_value fn + cost) in *.
  assert (Hat : at_depth (Datatypes.S (n_depth fn)) ns) by (apply (wf_trans _ _ _ _ Hwf); auto; apply Hfb).
  destruct (next_get eqb (g_next d) ns) as [m|] eqn:Eg.
  - (* the state is already in the next layer *)
    assert (Hfcf : is_cutset (n_flags fn) = false).
    { destruct (is_cutset (n_flags fn)) eqn:E; [|reflexivity]. apply (a_cut _ _ _ HA from fn Hfrom) in E. contradiction. }
    apply next_get_in in Eg; [|apply HA]. destruct (a_next _ _ _ HA ns m Eg) as (mn & Hm & Hms & Horig & Hmc).
    assert (Hmcut : is_cutset (n_flags mn) = false).
    { destruct (is_cutset (n_flags mn)) eqn:E; [|reflexivity]. apply (a_cut _ _ _ HA m mn Hm) in E. apply (a_cutpast _ _ _ HA) in E.
      exfalso. apply (Hpn m E). apply nextids_in. eauto. }
    rewrite Hm. cbn [obind].
    assert (Hmin : In m (nextids d)) by (apply nextids_in; eauto).
    assert (Hmok := a_nodes _ _ _ HA m mn Hm ltac:(discriminate)). assert (Hmb := no_base _ _ _ _ Hmok).
    destruct (Hlay m Hmin) as (mn' & Hm' & Hmd). assert (mn' = mn) as -> by congruence. clear Hm'.
    set (ed := mk_edge from dec cost (n_inbound mn)).
    set (es := g_edges d ++ [ed]).
    set (nd0 := match v with VAll => node_flags mn (set_exact (n_flags mn) (is_exact (n_flags fn) && is_exact (n_flags mn))) | VBarrier => mn end).
    set (nd2 := match v with
        | VAll => if n_value (node_inbound nd0 (Some (length (g_edges d)))) <? value
                  then node_best (node_inbound nd0 (Some (length (g_edges d)))) value (Some (length (g_edges d)))
                  else node_inbound nd0 (Some (length (g_edges d)))
        | VBarrier =>
            if (n_value (node_inbound nd0 (Some (length (g_edges d)))) <? value)
               || ((value =? n_value (node_inbound nd0 (Some (length (g_edges d))))) && is_exact (n_flags fn))
            then node_flags (node_best (node_inbound nd0 (Some (length (g_edges d)))) value (Some (length (g_edges d)))) (n_flags fn)
            else node_inbound nd0 (Some (length (g_edges d)))
        end).
    assert (Hinb0 : n_inbound nd0 = n_inbound mn) by (unfold nd0; destruct v; reflexivity). rewrite Hinb0. fold ed. fold es.
    destruct (upd_some (g_nodes d) m nd2) as [nl Enl]; [eapply get_lt; eauto|]. fold nd2. rewrite Enl. cbn [obind].
    set (d' := set_nodes (set_edges d es) nl).
    pose proof (upd_nth _ _ _ _ Enl) as Hnl. pose proof (upd_length _ _ _ _ Enl) as Hll.
    (* what is known of the new node *)
    assert (F1 : n_state nd2 = ns /\ n_depth nd2 = n_depth mn /\ n_inbound nd2 = Some (length (g_edges d)) /\
                 n_value nd2 = Z.max (n_value mn) value /\ n_bot nd2 = n_bot mn /\ is_marked (n_flags nd2) = false).
    { pose proof (no_marked _ _ _ _ Hmb). pose proof (no_marked _ _ _ _ Hfb).
      unfold nd2, nd0. destruct v; cbn [n_value n_flags node_inbound node_flags node_best].
      - destruct (Z.ltb_spec (n_value mn) value); cbn; rewrite marked_set_exact; repeat split; auto; lia.
      - destruct (Z.ltb_spec (n_value mn) value); cbn [orb]; [cbn; repeat split; auto; lia|].
        destruct (Z.eqb_spec value (n_value mn)); cbn [andb]; [|cbn; repeat split; auto; lia].
        destruct (is_exact (n_flags fn)); cbn; repeat split; auto; lia. }
    destruct F1 as (Fs & Fd & Fi & Fv & Fb & Fm).
    assert (Fbest : (n_best nd2 = Some (length (g_edges d)) /\ n_value nd2 = value /\
                      (is_exact (n_flags nd2) = true -> is_exact (n_flags fn) = true)) \/
                    (n_best nd2 = n_best mn /\ n_value nd2 = n_value mn /\ (is_relaxed (n_flags nd2) = false -> is_relaxed (n_flags mn) = false)
                      /\ (is_exact (n_flags nd2) = true -> is_exact (n_flags mn) = true))).
    { unfold nd2, nd0. destruct v; cbn [n_value n_flags node_inbound node_flags node_best].
      - destruct (Z.ltb_spec (n_value mn) value); cbn; rewrite exact_set_exact, relaxed_set_exact; [left|right];
          repeat split; auto; rewrite ?andb_true_iff; tauto.
      - destruct (Z.ltb_spec (n_value mn) value); cbn [orb]; [left; cbn; auto|].
        destruct (Z.eqb_spec value (n_value mn)); cbn [andb]; [|right; cbn; auto].
        destruct (is_exact (n_flags fn)); [left|right]; cbn; auto. }
    assert (Fex : is_exact (n_flags fn) = true -> is_exact (n_flags mn) = true -> is_exact (n_flags nd2) = true).
    { intros X1 X2. pose proof (exact_not_relaxed _ X2) as X3. unfold nd2, nd0. rewrite X1, X2. destruct v; cbn [n_value n_flags node_inbound node_flags node_best andb].
      - destruct (n_value mn <? value); cbn; rewrite exact_set_exact, X3; reflexivity.
      - match goal with |- context [if ?b then _ else _] => destruct b end; cbn; auto. }
    assert (Fcut : is_cutset (n_flags nd2) = false).
    { unfold nd2, nd0. destruct v; cbn [n_value n_flags node_inbound node_flags node_best].
      - destruct (n_value mn <? value); cbn; rewrite cutset_set_exact; exact Hmcut.
      - match goal with |- context [if ?b then _ else _] => destruct b end; cbn; auto. }
    assert (Fclean : clean nd2).
    { destruct Hmc as [[M1 M2] M3]. destruct Hfc as [Q1 Q2]. unfold clean, cleanf, nd2, nd0. destruct v; cbn [n_value n_flags node_inbound node_flags node_best].
      - destruct (n_value mn <? value); cbn; rewrite deleted_set_exact, barrier_set_exact; auto.
      - match goal with |- context [if ?b then _ else _] => destruct b end; cbn; auto. }
    clearbody nd2. clear nd0 Hinb0.
    assert (Hget : forall j, get_node d' j = if Nat.eqb j m then Some nd2 else get_node d j).
    { intros j. unfold get_node, d'. cbn. apply Hnl. }
    assert (Hst : stable (fun i => In i (nextids d)) d d').
    { constructor; cbn; auto.
      - exists [ed]. reflexivity.
      - rewrite Hll. lia.
      - intros id n Hg Hx. rewrite Hget. destruct (Nat.eqb_spec id m) as [->|]; [contradiction|].
        exists n. auto using samenode_refl. }
    assert (Hpf : past_frozen d d' past) by (eapply stable_past; eauto).
    assert (Hex : exists xs, g_edges d' = g_edges d ++ xs) by (exists [ed]; reflexivity).
    assert (Hwe : wf_edges es) by (apply wf_edges_snoc; [apply HA|apply Hmb]).
    assert (Hinbnew : forall e' ed', inb es (n_inbound nd2) e' ed' <-> (e' = length (g_edges d) /\ ed' = ed) \/ inb (g_edges d) (n_inbound mn) e' ed').
    { intros e' ed'. rewrite Fi. unfold es. rewrite inb_snoc; [reflexivity|apply HA|apply Hmb]. }
    assert (Hfrom' : get_node d' from = Some fn).
    { rewrite Hget. destruct (Nat.eqb_spec from m) as [->|]; [contradiction|exact Hfrom]. }
    assert (Hne : from <> m) by (intros ->; contradiction).
    assert (Hedok : forall e' ed', inb es (n_inbound nd2) e' ed' -> edge_ok d' past m nd2 ed').
    { intros e' ed' He. apply Hinbnew in He. destruct He as [[-> ->]|He].
      - constructor; cbn; auto; [apply (a_lt _ _ _ HA); auto|].
        exists fn. rewrite Fd, Hmd. repeat split; auto. rewrite Fv. unfold value. lia.
      - pose proof (no_edges _ _ _ _ Hmb e' ed' He) as Heo. eapply edge_ok_mono; eauto; [lia|apply incl_refl|].
        intros pn Hpn'. apply Hpf; [apply Heo|exact Hpn']. }
    assert (Horig' : orig_all d' nd2).
    { intros e' ed' He. apply Hinbnew in He. destruct He as [[-> ->]|He].
      - exists fn. cbn. auto.
      - pose proof (no_edges _ _ _ _ Hmb e' ed' He) as Heo.
        eapply orig_edge_mono; [apply (Horig e' ed' He)|congruence|]. intros pn Hpn'. apply Hpf; [apply Heo|exact Hpn']. }
    assert (Hnok : node_ok d' past m nd2).
    { constructor.
      - constructor; try (rewrite Fd); try (rewrite Fb); try apply Hmb.
        + rewrite Fs, Hmd. exact Hat.
        + unfold head_ok. rewrite Fi. cbn. unfold es. rewrite app_length. cbn. lia.
        + exact Hedok.
        + exact Fm.
      - rewrite Fd, Fv, Hmd. rewrite Z.max_comm. unfold Z.max. destruct (value ?= n_value mn); [exact Hvb| |exact Hvb].
        rewrite <- Hmd. apply Hmok.
      - right. assert (Hm0 : m <> 0%nat) by (intros ->; pose proof (a_lt _ _ _ HA from 0%nat Hfp Hmin); lia).
        split; [exact Hm0|]. destruct Fbest as [(B1 & B2 & B3)|(B1 & B2 & B3 & B4)].
        + exists (length (g_edges d)), ed, fn. split; [exact B1|]. split; [apply Hinbnew; auto|]. split; [exact Hfrom'|].
          split; [rewrite B2; reflexivity|]. split; [|exact B3].
          intros _. apply (Horig' (length (g_edges d))). apply Hinbnew. auto.
        + destruct (no_best _ _ _ _ Hmok) as [[H0 _]|(_ & e & ed0 & pn & H1 & H2 & H3 & H4 & H5 & H6)]; [contradiction|].
          pose proof (no_edges _ _ _ _ Hmb e ed0 H2) as Heo.
          destruct (Hpf (e_from ed0) pn (eo_past _ _ _ _ _ Heo) H3) as (pn' & Hpn' & Hcp). destruct Hcp.
          exists e, ed0, pn'. split; [congruence|]. split; [apply Hinbnew; auto|]. split; [exact Hpn'|].
          split; [congruence|]. split; [intros _; apply (Horig' e); apply Hinbnew; auto|].
          intros He. rewrite ce_exact0. auto. }
    assert (Hlen' : length (g_nodes d') = length (g_nodes d)) by exact Hll.
    assert (HA' : arena None d' past).
    { constructor.
      - exact Hwe.
      - rewrite Hlen'. apply HA.
      - intros id n Hg _. rewrite Hget in Hg. destruct (Nat.eqb_spec id m) as [->|Hid].
        + inversion Hg; subst n. exact Hnok.
        + eapply node_ok_mono; [apply HA|eapply a_nodes; eauto; discriminate|apply coreeq_refl|reflexivity|reflexivity|apply incl_refl|exact Hpf|exact Hex].
      - intros id Hid. rewrite Hlen'. apply HA. exact Hid.
      - apply HA.
      - apply HA.
      - intros s id Hid. destruct (a_next _ _ _ HA s id Hid) as (n & Hg & Hs & Ho & Hcl).
        rewrite Hget. destruct (Nat.eqb_spec id m) as [->|Hne2].
        + exists nd2. split; [reflexivity|]. split; [congruence|]. split; [exact Horig'|exact Fclean].
        + exists n. split; [exact Hg|]. split; [exact Hs|]. split; [|exact Hcl].
          eapply orig_all_mono; [apply HA|apply (a_nodes _ _ _ HA id n Hg); discriminate|exact Ho|apply coreeq_refl|exact Hpf|exact Hex].
      - intros id n Hg. rewrite Hget in Hg. destruct (Nat.eqb_spec id m) as [->|Hid].
        + inversion Hg; subst n. rewrite Fcut. change (g_cutset d') with (g_cutset d). rewrite <- (a_cut _ _ _ HA m mn Hm), Hmcut. reflexivity.
        + apply (a_cut _ _ _ HA id n Hg).
      - apply HA.
      - apply HA. }
    exists d'. split; [reflexivity|]. split; [exact HA'|]. split.
    { intros id Hid. change (nextids d') with (nextids d) in Hid. destruct (Hlay id Hid) as (n & Hg & Hdn).
      rewrite Hget. destruct (Nat.eqb_spec id m) as [->|]; [exists nd2; split; congruence|eauto]. }
    split; [exact Hst|]. split.
    { constructor.
      - apply incl_refl.
      - auto.
      - intros id n Hi Hg. rewrite Hget. destruct (Nat.eqb_spec id m) as [->|].
        + assert (n = mn) as -> by congruence. exists nd2. split; [reflexivity|]. split; [congruence|]. split; [lia|]. split; [exact Fd|].
          intros e' ed' He. apply Hinbnew. auto.
        + exists n. split; [exact Hg|]. repeat split; auto; [lia|]. intros e' ed' He. apply inb_app. exact He. }
    split; [constructor; reflexivity|]. split; [reflexivity|]. split; [exact Hpn|]. split.
    { exists m, nd2, (length (g_edges d)), ed. split; [exact Eg|]. split; [rewrite Hget, Nat.eqb_refl; reflexivity|].
      split; [apply Hinbnew; auto|]. auto. }
    { intros Hall id n Hg. rewrite Hget in Hg. destruct (Nat.eqb_spec id m) as [->|]; [|eapply Hall; eauto].
      inversion Hg; subst n. apply Fex; eapply Hall; eauto. }
  - (* a new node *)
    apply next_get_none in Eg.
    set (m := length (g_nodes d)). set (ed := mk_edge from dec cost None). set (es := g_edges d ++ [ed]).
    set (nd := mk_node ns value (Some (length (g_edges d))) (Some (length (g_edges d))) (Datatypes.S (n_depth fn)) IMIN IMAX IMAX (n_flags fn)).
    eexists. split; [reflexivity|]. set (d' := set_next _ _).
    assert (Hget : forall j, get_node d' j = if Nat.eqb j m then Some nd else get_node d j).
    { intros j. unfold get_node, d'. cbn. destruct (Nat.eqb_spec j m) as [->|Hj].
      - unfold m. rewrite nth_error_app2, Nat.sub_diag by lia. reflexivity.
      - destruct (Nat.lt_ge_cases j (length (g_nodes d))); [apply nth_error_app1; assumption|].
        rewrite (proj2 (nth_error_None _ _)) by (rewrite app_length; cbn; unfold m in *; lia).
        symmetry. apply nth_error_None. assumption. }
    assert (Hnx : nextids d' = m :: nextids d) by reflexivity.
    assert (Hold : forall id n, get_node d id = Some n -> get_node d' id = Some n).
    { intros id n Hg. rewrite Hget. pose proof (get_lt _ _ _ Hg). destruct (Nat.eqb_spec id m); [unfold m in *; lia|exact Hg]. }
    assert (Hst : stable (fun i => In i (nextids d)) d d').
    { constructor; cbn; auto.
      - exists [ed]. reflexivity.
      - rewrite app_length. lia.
      - intros id n Hg Hx. exists n. auto using samenode_refl. }
    assert (Hpf : past_frozen d d' past) by (eapply stable_past; eauto).
    assert (Hex : exists xs, g_edges d' = g_edges d ++ xs) by (exists [ed]; reflexivity).
    assert (Hwe : wf_edges es) by (apply wf_edges_snoc; [apply HA|exact I]).
    assert (Hinbnew : forall e' ed', inb es (Some (length (g_edges d))) e' ed' <-> (e' = length (g_edges d) /\ ed' = ed)).
    { intros e' ed'. unfold es. rewrite inb_snoc; [|apply HA|exact I]. cbn. split; [|auto].
      intros [H|H]; [exact H|]. apply inb_none in H. destruct H. }
    pose proof (get_lt _ _ _ Hfrom) as Hfl.
    assert (Hnok : node_ok d' past m nd).
    { constructor.
      - constructor.
        + pose proof (no_depth _ _ _ _ Hfb). cbn. lia.
        + exact Hat.
        + change (length (g_edges d) < length es)%nat. unfold es. rewrite app_length. cbn. lia.
        + intros e' ed' He. apply Hinbnew in He as [-> ->]. constructor; cbn; auto.
          exists fn. split; [apply Hold; exact Hfrom|]. repeat split; auto. unfold value. lia.
        + apply Hfb.
        + reflexivity.
      - exact Hvb.
      - right. split; [unfold m; lia|]. exists (length (g_edges d)), ed, fn. split; [reflexivity|].
        split; [apply Hinbnew; auto|]. split; [apply Hold; exact Hfrom|]. split; [reflexivity|].
        split; [|auto]. intros _. exists fn. auto. }
    assert (Hmfresh : forall id, In id (nextids d) -> (id < m)%nat).
    { intros id Hid. destruct (Hlay id Hid) as (n & Hg & _). exact (get_lt _ _ _ Hg). }
    assert (HA' : arena None d' past).
    { constructor.
      - exact Hwe.
      - cbn. rewrite app_length. cbn. lia.
      - intros id n Hg _. rewrite Hget in Hg. destruct (Nat.eqb_spec id m) as [->|Hid].
        + inversion Hg; subst n. exact Hnok.
        + eapply node_ok_mono; [apply HA|eapply a_nodes; eauto; discriminate|apply coreeq_refl|reflexivity|reflexivity|apply incl_refl|exact Hpf|exact Hex].
      - intros id Hid. cbn. rewrite app_length. pose proof (a_past _ _ _ HA id Hid). lia.
      - intros p id Hp Hi. rewrite Hnx in Hi. destruct Hi as [<-|Hi]; [apply (a_past _ _ _ HA); exact Hp|].
        apply (a_lt _ _ _ HA); assumption.
      - cbn. constructor; [exact Eg|apply HA].
      - intros s id [[= <- <-]|Hid].
        + exists nd. rewrite Hget, Nat.eqb_refl. split; [reflexivity|]. split; [reflexivity|]. split.
          * intros e' ed' He. apply Hinbnew in He as [-> ->]. exists fn. auto.
          * split; [exact Hfc|reflexivity].
        + destruct (a_next _ _ _ HA s id Hid) as (n & Hg & Hs & Ho & Hcl). exists n. split; [apply Hold; exact Hg|]. split; [exact Hs|]. split; [|exact Hcl].
          eapply orig_all_mono; [apply HA|apply (a_nodes _ _ _ HA id n Hg); discriminate|exact Ho|apply coreeq_refl|exact Hpf|exact Hex].
      - intros id n Hg. rewrite Hget in Hg. destruct (Nat.eqb_spec id m) as [->|Hid].
        + inversion Hg; subst n. change (is_cutset (n_flags nd)) with (is_cutset (n_flags fn)). rewrite (a_cut _ _ _ HA from fn Hfrom).
          split; [contradiction|]. intros Hin. apply (a_cutpast _ _ _ HA), (a_past _ _ _ HA) in Hin. unfold m in Hin. lia.
        + apply (a_cut _ _ _ HA id n Hg).
      - apply HA.
      - apply HA. }
    split; [exact HA'|]. split.
    { intros id Hid. rewrite Hnx in Hid. rewrite Hget. destruct Hid as [<-|Hid].
      - rewrite Nat.eqb_refl. exists nd. auto.
      - destruct (Hlay id Hid) as (n & Hg & Hdn). pose proof (Hmfresh id Hid).
        destruct (Nat.eqb_spec id m); [lia|]. eauto. }
    split; [exact Hst|]. split.
    { constructor.
      - intros x Hx. cbn. right. exact Hx.
      - intros id Hi. rewrite Hnx in Hi. destruct Hi as [<-|Hi]; [right; unfold m; lia|left; exact Hi].
      - intros id n Hi Hg. exists n. split; [apply Hold; exact Hg|]. repeat split; auto; [lia|].
        intros e' ed' He. apply inb_app. exact He. }
    split; [constructor; reflexivity|]. split; [reflexivity|]. split.
    { intros p Hp Hi. rewrite Hnx in Hi. destruct Hi as [<-|Hi]; [|exact (Hpn p Hp Hi)].
      pose proof (a_past _ _ _ HA _ Hp). unfold m in *. lia. }
    split.
    { exists m, nd, (length (g_edges d)), ed. split; [left; reflexivity|]. split; [rewrite Hget, Nat.eqb_refl; reflexivity|].
      split; [apply Hinbnew; auto|]. auto. }
    { intros Hall id n Hg. rewrite Hget in Hg. destruct (Nat.eqb_spec id m) as [->|]; [|eapply Hall; eauto].
      inversion Hg; subst n. cbn. eapply Hall; eauto. }
Qed.

End Facts.
