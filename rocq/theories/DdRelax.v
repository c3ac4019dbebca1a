(** The relaxation of a layer, common to the two decision diagrams. *)
From Verif Require Import Spec Dd FlagsFacts MatrixFacts DdFacts.
From Coq Require Import ZifyNat.
Open Scope Z_scope.

Section Facts.
Variable S : Type.
Variable eqb : S -> S -> bool.
Hypothesis eqb_spec : forall a b, eqb a b = true <-> a = b.
Variable P : problem S.
Variable R : relaxation S.
Variable at_depth : nat -> S -> Prop.
Variable nv : nat -> nat.
Variable C : Z.
Hypothesis Hwf : wf_problem S P at_depth nv.
Hypothesis Hvr : relaxation_depth S P at_depth R.
Hypothesis Hbd : bounded S P at_depth nv R C.
Variable k0 : nat.
Variable sp : subproblem S.
Notation N := (pb_nb_vars P).
Notation node := (node S).
Notation dd := (dd S).
Local Notation vbound := (@DdFacts.vbound C).
Local Notation valid_root := (@DdFacts.valid_root S P at_depth C k0 sp).
Local Notation nextids := (@DdFacts.nextids S).
Local Notation vbound_range := (@DdFacts.vbound_range S P R at_depth nv C Hbd).
Local Notation vbound_step := (@DdFacts.vbound_step S P R at_depth nv C Hbd).
Local Notation coreeq := (@DdFacts.coreeq S).
Local Notation samenode := (@DdFacts.samenode S).
Local Notation coreeq_refl := (@DdFacts.coreeq_refl S).
Local Notation samenode_refl := (@DdFacts.samenode_refl S).
Local Notation coreeq_trans := (@DdFacts.coreeq_trans S).
Local Notation samenode_trans := (@DdFacts.samenode_trans S).
Local Notation stable := (@DdFacts.stable S).
Local Notation stable_refl := (@DdFacts.stable_refl S).
Local Notation stable_trans := (@DdFacts.stable_trans S k0).
Local Notation stable_weaken := (@DdFacts.stable_weaken S).
Local Notation edge_ok := (@DdFacts.edge_ok S P nv C).
Local Notation orig_edge := (@DdFacts.orig_edge S P).
Local Notation orig_all := (@DdFacts.orig_all S P).
Local Notation is_root := (@DdFacts.is_root S k0 sp).
Local Notation best_ok := (@DdFacts.best_ok S P k0 sp).
Local Notation node_base := (@DdFacts.node_base S P at_depth nv C k0).
Local Notation node_ok := (@DdFacts.node_ok S P at_depth nv C k0 sp).
Local Notation cleanf := (@DdFacts.cleanf S).
Local Notation clean := (@DdFacts.clean S).
Local Notation arena := (@DdFacts.arena S P at_depth nv C k0 sp).
Local Notation layer_at := (@DdFacts.layer_at S).
Local Notation get_lt := (@DdFacts.get_lt S).
Local Notation get_some := (@DdFacts.get_some S).
Local Notation upd_node_spec := (@DdFacts.upd_node_spec S).
Local Notation orig_edge_mono := (@DdFacts.orig_edge_mono S P).
Local Notation edge_ok_mono := (@DdFacts.edge_ok_mono S P nv C).
Local Notation past_frozen := (@DdFacts.past_frozen S).
Local Notation node_base_mono := (@DdFacts.node_base_mono S P at_depth nv C k0).
Local Notation best_ok_mono := (@DdFacts.best_ok_mono S P at_depth nv C k0 sp).
Local Notation node_ok_mono := (@DdFacts.node_ok_mono S P at_depth nv C k0 sp).
Local Notation orig_all_mono := (@DdFacts.orig_all_mono S P at_depth nv C k0).
Local Notation stable_past := (@DdFacts.stable_past S).
Local Notation next_get_in := (@DdFacts.next_get_in S eqb eqb_spec).
Local Notation next_get_none := (@DdFacts.next_get_none S eqb eqb_spec).
Local Notation nextids_in := (@DdFacts.nextids_in S).
Local Notation all_exact := (@DdFacts.all_exact S).
Local Notation grows := (@DdFacts.grows S).
Local Notation grows_refl := (@DdFacts.grows_refl S).
Local Notation nextids_incl := (@DdFacts.nextids_incl S).
Local Notation grows_trans := (@DdFacts.grows_trans S).
Local Notation same_rest := (@DdFacts.same_rest S).
Local Notation same_rest_refl := (@DdFacts.same_rest_refl S).
Local Notation same_rest_trans := (@DdFacts.same_rest_trans S).
Local Notation has_edge := (@DdFacts.has_edge S P).
Local Notation has_edge_grows := (@DdFacts.has_edge_grows S P).
Local Notation branch_spec := (@DdFacts.branch_spec S eqb eqb_spec P R at_depth nv C Hwf Hbd k0 sp).
Local Notation vr_path := (@DdFacts.vr_path S P at_depth C k0 sp).
Local Notation vr_le := (@DdFacts.vr_le S P at_depth C k0 sp).
Local Notation vr_at := (@DdFacts.vr_at S P at_depth C k0 sp).
Local Notation vr_val := (@DdFacts.vr_val S P at_depth C k0 sp).
Local Notation ce_state := (@DdFacts.ce_state S).
Local Notation ce_value := (@DdFacts.ce_value S).
Local Notation ce_best := (@DdFacts.ce_best S).
Local Notation ce_inb := (@DdFacts.ce_inb S).
Local Notation ce_depth := (@DdFacts.ce_depth S).
Local Notation ce_exact := (@DdFacts.ce_exact S).
Local Notation ce_relaxed := (@DdFacts.ce_relaxed S).
Local Notation sn_core := (@DdFacts.sn_core S).
Local Notation sn_rub := (@DdFacts.sn_rub S).
Local Notation sn_theta := (@DdFacts.sn_theta S).
Local Notation sn_bot := (@DdFacts.sn_bot S).
Local Notation sn_marked := (@DdFacts.sn_marked S).
Local Notation sn_deleted := (@DdFacts.sn_deleted S).
Local Notation sn_barrier := (@DdFacts.sn_barrier S).
Local Notation st_edges := (@DdFacts.st_edges S).
Local Notation st_len := (@DdFacts.st_len S).
Local Notation st_nodes := (@DdFacts.st_nodes S).
Local Notation st_root := (@DdFacts.st_root S).
Local Notation st_ctype := (@DdFacts.st_ctype S).
Local Notation eo_past := (@DdFacts.eo_past S P nv C).
Local Notation eo_lt := (@DdFacts.eo_lt S P nv C).
Local Notation eo_cost := (@DdFacts.eo_cost S P nv C).
Local Notation eo_parent := (@DdFacts.eo_parent S P nv C).
Local Notation no_depth := (@DdFacts.no_depth S P at_depth nv C k0).
Local Notation no_at := (@DdFacts.no_at S P at_depth nv C k0).
Local Notation no_head := (@DdFacts.no_head S P at_depth nv C k0).
Local Notation no_edges := (@DdFacts.no_edges S P at_depth nv C k0).
Local Notation no_marked := (@DdFacts.no_marked S P at_depth nv C k0).
Local Notation no_bot := (@DdFacts.no_bot S P at_depth nv C k0).
Local Notation no_base := (@DdFacts.no_base S P at_depth nv C k0 sp).
Local Notation no_val := (@DdFacts.no_val S P at_depth nv C k0 sp).
Local Notation no_best := (@DdFacts.no_best S P at_depth nv C k0 sp).
Local Notation a_edges := (@DdFacts.a_edges S P at_depth nv C k0 sp).
Local Notation a_len := (@DdFacts.a_len S P at_depth nv C k0 sp).
Local Notation a_nodes := (@DdFacts.a_nodes S P at_depth nv C k0 sp).
Local Notation a_past := (@DdFacts.a_past S P at_depth nv C k0 sp).
Local Notation a_lt := (@DdFacts.a_lt S P at_depth nv C k0 sp).
Local Notation a_keys := (@DdFacts.a_keys S P at_depth nv C k0 sp).
Local Notation a_next := (@DdFacts.a_next S P at_depth nv C k0 sp).
Local Notation a_cut := (@DdFacts.a_cut S P at_depth nv C k0 sp).
Local Notation a_cutpast := (@DdFacts.a_cutpast S P at_depth nv C k0 sp).
Local Notation a_root := (@DdFacts.a_root S P at_depth nv C k0 sp).
Local Notation gr_incl := (@DdFacts.gr_incl S).
Local Notation gr_fresh := (@DdFacts.gr_fresh S).
Local Notation gr_nodes := (@DdFacts.gr_nodes S).
Local Notation sr_prev := (@DdFacts.sr_prev S).
Local Notation sr_cut := (@DdFacts.sr_cut S).
Local Notation sr_lel := (@DdFacts.sr_lel S).
Local Notation sr_best := (@DdFacts.sr_best S).
Local Notation sr_exact := (@DdFacts.sr_exact S).
Local Notation sr_approx := (@DdFacts.sr_approx S).

Hypothesis Hroot : valid_root.

(** ** Changes confined to a set of nodes *)
Record chg (X : nat -> Prop) (d d' : dd) : Prop := {
  cg_edges : exists xs, g_edges d' = g_edges d ++ xs;
  cg_len : length (g_nodes d') = length (g_nodes d);
  cg_nodes : forall id, ~ X id -> get_node d' id = get_node d id;
  cg_rest : same_rest d d';
  cg_next : g_next d' = g_next d;
  cg_root : g_root_pa d' = g_root_pa d;
  cg_ctype : g_ctype d' = g_ctype d;
  cg_expl : g_explored d' = g_explored d }.
Lemma chg_refl X d : chg X d d.
Proof. constructor; auto; [exists []; rewrite app_nil_r; reflexivity|apply same_rest_refl]. Qed.
Lemma chg_trans X a b c : chg X a b -> chg X b c -> chg X a c.
Proof.
  intros [[x1 E1] L1 N1 R1 X1 P1 C1 T1] [[x2 E2] L2 N2 R2 X2 P2 C2 T2]. constructor; try congruence.
  - exists (x1 ++ x2). rewrite E2, E1, app_assoc. reflexivity.
  - intros id H. rewrite N2, N1 by exact H. reflexivity.
  - eapply same_rest_trans; eauto.
Qed.
Lemma chg_weaken (X Y : nat -> Prop) a b : (forall id, X id -> Y id) -> chg X a b -> chg Y a b.
Proof. intros H [E1 L1 N1 R1 X1 P1 C1 T1]. constructor; auto. Qed.
Lemma chg_frozen (X : nat -> Prop) d d' past : chg X d d' -> (forall p, In p past -> ~ X p) -> past_frozen d d' past.
Proof. intros H Hx p pn Hp Hg. exists pn. split; [|apply coreeq_refl]. rewrite (cg_nodes _ _ _ H) by auto. exact Hg. Qed.

Lemma upd_node_chg (d : dd) id f n : get_node d id = Some n ->
  exists d', upd_node d id f = Some d' /\ chg (eq id) d d' /\ g_edges d' = g_edges d /\ get_node d' id = Some (f n).
Proof.
  intros H. destruct (upd_node_spec d id f n H) as (ns & E & El & En). rewrite E. eexists. split; [reflexivity|].
  split; [|split; [reflexivity|unfold get_node; cbn; rewrite En, Nat.eqb_refl; reflexivity]].
  constructor; cbn; auto.
  - exists []. rewrite app_nil_r. reflexivity.
  - intros j Hj. unfold get_node. cbn. rewrite En. destruct (Nat.eqb_spec j id); [congruence|reflexivity].
  - constructor; reflexivity.
Qed.

(** ** The merged node while edges are being redirected to it *)
Record mok (d : dd) (past : list nat) (mid k : nat) (merged : S) (mn : node) : Prop := {
  mk_base : node_base d past mid mn;
  mk_state : n_state mn = merged;
  mk_depth : n_depth mn = k;
  mk_rel : is_relaxed (n_flags mn) = true;
  mk_clean : clean mn;
  mk_cut : is_cutset (n_flags mn) = false;
  mk_cases : node_ok d past mid mn \/ (n_inbound mn = None /\ n_value mn = IMIN) }.

(** The inbound edges of a node about to be merged. *)
Definition chain_ok (d : dd) (past : list nat) (k : nat) (s : S) (h : option nat) : Prop :=
  forall e ed, inb (g_edges d) h e ed -> In (e_from ed) past /\
    exists pn, get_node d (e_from ed) = Some pn /\ Datatypes.S (n_depth pn) = k /\ (n_depth pn < N)%nat /\
      In (e_dec ed) (pb_domain P (nv (n_depth pn)) (n_state pn)) /\ e_cost ed = pb_cost P (n_state pn) (e_dec ed) /\
      s = pb_trans P (n_state pn) (e_dec ed).

Lemma arena_chg tmp d d' past mid : arena tmp d past -> chg (eq mid) d d' -> wf_edges (g_edges d') -> ~ In mid past ->
  tmp = Some mid -> ~ In mid (nextids d) ->
  (forall mn', get_node d' mid = Some mn' -> is_cutset (n_flags mn') = false) -> arena tmp d' past.
Proof.
  intros HA Hc Hw Hmp -> Hmn Hcut.
  assert (Hpf : past_frozen d d' past) by (eapply chg_frozen; eauto; intros p Hp <-; contradiction).
  assert (Hnx : nextids d' = nextids d) by (unfold nextids; rewrite (cg_next _ _ _ Hc); reflexivity).
  constructor.
  - exact Hw.
  - rewrite (cg_len _ _ _ Hc). apply HA.
  - intros id n Hg Ht. assert (mid <> id) by congruence. rewrite (cg_nodes _ _ _ Hc) in Hg by assumption.
    eapply node_ok_mono; [apply HA|apply (a_nodes _ _ _ HA id n Hg Ht)|apply coreeq_refl|reflexivity|reflexivity|apply incl_refl|exact Hpf|apply Hc].
  - intros id Hid. rewrite (cg_len _ _ _ Hc). apply HA. exact Hid.
  - rewrite Hnx. apply HA.
  - rewrite (cg_next _ _ _ Hc). apply HA.
  - intros s id Hid. rewrite (cg_next _ _ _ Hc) in Hid. destruct (a_next _ _ _ HA s id Hid) as (n & Hg & Hs & Ho & Hcl).
    assert (mid <> id) by (intros ->; apply Hmn; apply nextids_in; eauto).
    exists n. rewrite (cg_nodes _ _ _ Hc) by assumption. split; [exact Hg|]. split; [exact Hs|]. split; [|exact Hcl].
    eapply orig_all_mono; [apply HA|apply (a_nodes _ _ _ HA id n Hg); congruence|exact Ho|apply coreeq_refl|exact Hpf|apply Hc].
  - intros id n Hg. destruct (Nat.eq_dec mid id) as [<-|Hne].
    + rewrite (Hcut n Hg). rewrite (sr_cut _ _ (cg_rest _ _ _ Hc)). split; [discriminate|].
      intros Hi. apply (a_cutpast _ _ _ HA) in Hi. contradiction.
    + rewrite (cg_nodes _ _ _ Hc) in Hg by assumption. rewrite (sr_cut _ _ (cg_rest _ _ _ Hc)). apply (a_cut _ _ _ HA id n Hg).
  - rewrite (sr_cut _ _ (cg_rest _ _ _ Hc)). apply HA.
  - rewrite (cg_root _ _ _ Hc). apply HA.
Qed.

Lemma chain_ok_mono (d d' : dd) past k s h : wf_edges (g_edges d) -> head_ok (g_edges d) h ->
  (exists xs, g_edges d' = g_edges d ++ xs) -> past_frozen d d' past -> chain_ok d past k s h -> chain_ok d' past k s h.
Proof.
  intros Hw Hh [xs Ex] Hp H e ed He. rewrite Ex in He. apply inb_app_inv in He; [|exact Hw|exact Hh].
  destruct (H e ed He) as (H1 & pn & H2 & H3 & H4 & H5 & H6 & H7). split; [exact H1|].
  destruct (Hp _ pn H1 H2) as (pn' & H2' & []). exists pn'. rewrite ce_depth, ce_state. auto 10.
Qed.

(** Changing fields of one node that the invariant does not mention. *)
Lemma arena_touch tmp d d' past id n n' : arena tmp d past -> chg (eq id) d d' -> g_edges d' = g_edges d ->
  get_node d id = Some n -> get_node d' id = Some n' -> coreeq n n' -> n_bot n' = n_bot n ->
  is_marked (n_flags n') = is_marked (n_flags n) -> is_cutset (n_flags n') = is_cutset (n_flags n) ->
  (In id (nextids d) -> clean n') -> arena tmp d' past.
Proof.
  intros HA Hc He Hg Hg' Hce Hb Hm Hcu Hcl.
  assert (Hget : forall j nj, get_node d' j = Some nj -> exists nj0, get_node d j = Some nj0 /\ coreeq nj0 nj /\ n_bot nj = n_bot nj0 /\
     is_marked (n_flags nj) = is_marked (n_flags nj0) /\ is_cutset (n_flags nj) = is_cutset (n_flags nj0)).
  { intros j nj Hj. destruct (Nat.eq_dec id j) as [<-|Hne].
    - exists n. assert (nj = n') as -> by congruence. auto.
    - rewrite (cg_nodes _ _ _ Hc) in Hj by exact Hne. exists nj. auto using coreeq_refl. }
  assert (Hpf : past_frozen d d' past).
  { intros p pn Hp Hpn. destruct (Nat.eq_dec id p) as [<-|Hne].
    - exists n'. assert (pn = n) as -> by congruence. auto.
    - exists pn. rewrite (cg_nodes _ _ _ Hc) by exact Hne. auto using coreeq_refl. }
  assert (Hnx : nextids d' = nextids d) by (unfold nextids; rewrite (cg_next _ _ _ Hc); reflexivity).
  constructor.
  - rewrite He. apply HA.
  - rewrite (cg_len _ _ _ Hc). apply HA.
  - intros j nj Hj Ht. destruct (Hget j nj Hj) as (nj0 & Q1 & Q2 & Q3 & Q4 & _).
    eapply node_ok_mono; [apply HA|apply (a_nodes _ _ _ HA j nj0 Q1 Ht)|exact Q2|exact Q3|exact Q4|apply incl_refl|exact Hpf|apply Hc].
  - intros j Hj. rewrite (cg_len _ _ _ Hc). apply HA. exact Hj.
  - rewrite Hnx. apply HA.
  - rewrite (cg_next _ _ _ Hc). apply HA.
  - intros s j Hj. rewrite (cg_next _ _ _ Hc) in Hj. destruct (a_next _ _ _ HA s j Hj) as (nj & Q1 & Q2 & Q3 & Q4).
    assert (Hold : forall nj', coreeq nj nj' -> node_base d past j nj -> orig_all d' nj').
    { intros nj' Hcn Hb'. eapply orig_all_mono; [apply HA|exact Hb'|exact Q3|exact Hcn|exact Hpf|apply Hc]. }
    assert (Hnb : forall e ed, inb (g_edges d) (n_inbound nj) e ed -> orig_edge d nj ed) by exact Q3.
    destruct (Nat.eq_dec id j) as [<-|Hne].
    + exists n'. assert (nj = n) as -> by congruence. split; [exact Hg'|]. split; [destruct Hce; congruence|].
      split; [|apply Hcl; apply nextids_in; eauto].
      intros e ed Hin. destruct Hce as [ce1 ce2 ce3 ce4 ce5 ce6 ce7]. rewrite ce4, He in Hin. destruct (Hnb e ed Hin) as (pn & P1 & P2 & P3).
      destruct (Nat.eq_dec id (e_from ed)) as [Heq|Hne2].
      * exists n'. rewrite <- Heq in *. assert (pn = n) as -> by congruence. split; [exact Hg'|]. rewrite ce1. auto.
      * exists pn. rewrite (cg_nodes _ _ _ Hc) by exact Hne2. rewrite ce1. auto.
    + exists nj. rewrite (cg_nodes _ _ _ Hc) by exact Hne. split; [exact Q1|]. split; [exact Q2|]. split; [|exact Q4].
      intros e ed Hin. rewrite He in Hin. destruct (Hnb e ed Hin) as (pn & P1 & P2 & P3).
      destruct (Nat.eq_dec id (e_from ed)) as [Heq|Hne2].
      * exists n'. rewrite <- Heq in *. assert (pn = n) as -> by congruence. destruct Hce as [ce1 ce2 ce3 ce4 ce5 ce6 ce7]. split; [exact Hg'|]. rewrite ce1. auto.
      * exists pn. rewrite (cg_nodes _ _ _ Hc) by exact Hne2. auto.
  - intros j nj Hj. destruct (Hget j nj Hj) as (nj0 & Q1 & _ & _ & _ & Q5). rewrite Q5, (sr_cut _ _ (cg_rest _ _ _ Hc)). apply (a_cut _ _ _ HA j nj0 Q1).
  - rewrite (sr_cut _ _ (cg_rest _ _ _ Hc)). apply HA.
  - rewrite (cg_root _ _ _ Hc). apply HA.
Qed.
Lemma mok_mono d d' past mid k merged mn : wf_edges (g_edges d) -> mok d past mid k merged mn -> past_frozen d d' past ->
  (exists xs, g_edges d' = g_edges d ++ xs) -> mok d' past mid k merged mn.
Proof.
  intros Hw [H1 H2 H3 H4 H5 H6 H7] Hpf Hx. constructor; auto.
  - eapply node_base_mono; eauto using coreeq_refl, incl_refl.
  - destruct H7 as [H7|H7]; [left|right; exact H7]. eapply node_ok_mono; eauto using coreeq_refl, incl_refl.
Qed.

Section Redirect.
Variable past : list nat.
Variable mid k : nat.
Variable L : list S.
Notation merged := (rx_merge R L).
Hypothesis HL : Forall (at_depth k) L.
Hypothesis Hmp : ~ In mid past.
Hypothesis Hplt : forall p, In p past -> (p < mid)%nat.
Hypothesis Hkk : (k0 < k <= N)%nat.

Definition redirected (d d' : dd) (mn' : node) (s : S) (h : option nat) : Prop :=
  forall e ed, inb (g_edges d) h e ed -> exists e2 ed2 pn, inb (g_edges d') (n_inbound mn') e2 ed2 /\
    e_from ed2 = e_from ed /\ e_dec ed2 = e_dec ed /\ get_node d (e_from ed) = Some pn /\
    e_cost ed2 = rx_relax R (n_state pn) s merged (e_dec ed) (e_cost ed).

Lemma redirect_spec : forall fuel d mn dn h,
  arena (Some mid) d past -> ~ In mid (nextids d) -> get_node d mid = Some mn -> mok d past mid k merged mn ->
  In (n_state dn) L -> head_ok (g_edges d) h -> chain_ok d past k (n_state dn) h ->
  match h with None => True | Some e => (e < fuel)%nat end ->
  exists d' mn', redirect fuel R merged mid dn d h = Some d' /\ arena (Some mid) d' past /\ chg (eq mid) d d' /\
    get_node d' mid = Some mn' /\ mok d' past mid k merged mn' /\ n_value mn <= n_value mn' /\
    (forall e ed, inb (g_edges d) (n_inbound mn) e ed -> inb (g_edges d') (n_inbound mn') e ed) /\
    redirected d d' mn' (n_state dn) h /\ (h <> None \/ node_ok d past mid mn -> node_ok d' past mid mn').
Proof.
  induction fuel as [|fuel IH]; intros d mn dn h HA Hmn Hg Hm HinL Hh Hch Hf.
  { destruct h as [e|]; [exfalso; lia|]. exists d, mn. cbn [redirect]. split; [reflexivity|]. split; [exact HA|].
    split; [apply chg_refl|]. split; [exact Hg|]. split; [exact Hm|]. split; [lia|]. split; [auto|]. split.
    - intros e ed He. apply inb_none in He. destruct He.
    - intros [H|H]; [congruence|exact H]. }
  destruct h as [eid|].
  2:{ exists d, mn. cbn [redirect]. split; [reflexivity|]. split; [exact HA|].
    split; [apply chg_refl|]. split; [exact Hg|]. split; [exact Hm|]. split; [lia|]. split; [auto|]. split.
    - intros e ed He. apply inb_none in He. destruct He.
    - intros [H|H]; [congruence|exact H]. }
  cbn [redirect]. cbn [head_ok] in Hh.
  destruct (nth_error (g_edges d) eid) as [ed|] eqn:Eed; [|apply nth_error_None in Eed; lia].
  cbn [obind]. destruct (Hch eid ed (inb_here _ _ _ Eed)) as (Hfp & pn & Hpn & Hdp & Hdn & Hdom & Hcost & Htr).
  rewrite Hpn. cbn [obind]. rewrite Hg. cbn [obind].
  set (rcost := rx_relax R (n_state pn) (n_state dn) merged (e_dec ed) (e_cost ed)).
  set (ned := mk_edge (e_from ed) (e_dec ed) rcost (n_inbound mn)).
  set (d1 := set_edges d (g_edges d ++ [ned])).
  assert (Hg1 : get_node d1 mid = Some mn) by exact Hg.
  destruct (upd_node_chg d1 mid (fun m => node_inbound m (Some (length (g_edges d)))) mn Hg1) as (d2 & E2 & C2 & Ee2 & G2).
  rewrite E2. cbn [obind].
  assert (Hfne : mid <> e_from ed) by (intros ->; contradiction).
  rewrite (cg_nodes _ _ _ C2 (e_from ed) Hfne). change (get_node d1 (e_from ed)) with (get_node d (e_from ed)). rewrite Hpn. cbn [obind].
  rewrite G2. cbn [obind node_inbound n_value].
  assert (Hpok := a_nodes _ _ _ HA (e_from ed) pn Hpn ltac:(congruence)).
  assert (Hrc : Z.abs rcost <= C).
  { unfold rcost. rewrite Hcost, Htr. eapply (bd_relax _ _ _ _ _ _ Hbd); [exact Hdn|apply Hpok|exact Hdom| |].
    - rewrite Hdp. exact HL.
    - rewrite <- Htr. exact HinL. }
  destruct (vbound_step (n_depth pn) (n_value pn) rcost Hdn (no_val _ _ _ _ Hpok) Hrc) as [Hsat Hvb]. rewrite Hsat.
  set (nval := n_value pn + rcost) in *. rewrite Hdp in Hvb.
  (* the updated merged node *)
  assert (E3 : exists d3 mn3, (if n_value mn <=? nval then upd_node d2 mid (fun m => node_best m nval (Some (length (g_edges d)))) else Some d2) = Some d3 /\
     chg (eq mid) d d3 /\ g_edges d3 = g_edges d ++ [ned] /\ get_node d3 mid = Some mn3 /\ n_inbound mn3 = Some (length (g_edges d)) /\
     n_state mn3 = n_state mn /\ n_depth mn3 = n_depth mn /\ n_flags mn3 = n_flags mn /\ n_bot mn3 = n_bot mn /\ n_theta mn3 = n_theta mn /\
     ((n_value mn <= nval /\ n_value mn3 = nval /\ n_best mn3 = Some (length (g_edges d))) \/ (nval < n_value mn /\ n_value mn3 = n_value mn /\ n_best mn3 = n_best mn))).
  { assert (C12 : chg (eq mid) d d2).
    { eapply chg_trans; [|exact C2]. constructor; auto; [exists [ned]; reflexivity|constructor; reflexivity]. }
    destruct (Z.leb_spec (n_value mn) nval) as [Hle|Hgt].
    - destruct (upd_node_chg d2 mid (fun m => node_best m nval (Some (length (g_edges d)))) _ G2) as (d3 & E3 & C3 & Ee3 & G3).
      eexists d3, _. split; [exact E3|]. split; [eapply chg_trans; eauto|]. split; [rewrite Ee3, Ee2; reflexivity|]. split; [exact G3|]. cbn. auto 12.
    - eexists d2, _. split; [reflexivity|]. split; [exact C12|]. split; [rewrite Ee2; reflexivity|]. split; [exact G2|]. cbn. auto 12. }
  destruct E3 as (d3 & mn3 & E3 & C3 & Ee3 & G3 & Fi & Fs & Fd & Ff & Fb & Ft & Fv). rewrite E3. cbn [obind]. clear E3 E2 C2 Ee2 G2 d2 d1 Hg1.
  destruct Hm as [Hbase Hst Hdep Hrel Hcl Hcut Hcases].
  assert (Hpf : past_frozen d d3 past) by (eapply chg_frozen; eauto; intros p Hp <-; contradiction).
  assert (Hw3 : wf_edges (g_edges d3)) by (rewrite Ee3; apply wf_edges_snoc; [apply HA|apply Hbase]).
  assert (Hin3 : forall e' ed', inb (g_edges d3) (n_inbound mn3) e' ed' <-> (e' = length (g_edges d) /\ ed' = ned) \/ inb (g_edges d) (n_inbound mn) e' ed').
  { intros e' ed'. rewrite Fi, Ee3. rewrite inb_snoc; [reflexivity|apply HA|apply Hbase]. }
  assert (Hvge : n_value mn <= n_value mn3 /\ nval <= n_value mn3) by lia.
  assert (Hb3 : node_base d3 past mid mn3).
  { constructor.
    - rewrite Fd. apply Hbase.
    - rewrite Fd, Fs. apply Hbase.
    - rewrite Fi, Ee3. cbn. rewrite app_length. cbn. lia.
    - intros e' ed' He. apply Hin3 in He. destruct He as [[-> ->]|He].
      + constructor; cbn; auto. exists pn. split; [rewrite (cg_nodes _ _ _ C3) by exact Hfne; exact Hpn|].
        rewrite Fd, Hdep. repeat split; auto. unfold nval in *. lia.
      + pose proof (no_edges _ _ _ _ Hbase e' ed' He) as Heo. eapply edge_ok_mono; eauto; [lia|apply incl_refl|].
        intros q Hq. apply Hpf; [apply Heo|exact Hq].
    - rewrite Ff. apply Hbase.
    - rewrite Fb. apply Hbase. }
  assert (Hok3 : node_ok d3 past mid mn3).
  { constructor; [exact Hb3| |].
    - rewrite Fd, Hdep. destruct Fv as [(_ & -> & _)|(Hlt & -> & _)]; [exact Hvb|].
      destruct Hcases as [Hok|[_ Hv]]; [rewrite <- Hdep; apply Hok|].
      exfalso. rewrite Hv in Hlt. pose proof (vbound_range k nval ltac:(lia) Hvb). pose proof IMAX_pos. pose proof IMIN_IMAX. lia.
    - right. split; [intros ->; pose proof (Hplt _ Hfp); lia|].
      destruct Fv as [(_ & Fv1 & Fv2)|(Hlt & Fv1 & Fv2)].
      + exists (length (g_edges d)), ned, pn. split; [exact Fv2|]. split; [apply Hin3; auto|].
        split; [cbn; rewrite (cg_nodes _ _ _ C3) by exact Hfne; exact Hpn|]. split; [exact Fv1|].
        split; [rewrite Ff, Hrel; discriminate|]. rewrite Ff. intros Hex. apply exact_not_relaxed in Hex. congruence.
      + destruct Hcases as [Hok|[_ Hv]].
        2:{ exfalso. rewrite Hv in Hlt. pose proof (vbound_range k nval ltac:(lia) Hvb). pose proof IMAX_pos. pose proof IMIN_IMAX. lia. }
        destruct (no_best _ _ _ _ Hok) as [[H0 _]|(_ & e & ed0 & pn0 & H1 & H2 & H3 & H4 & H5 & H6)].
        { exfalso. pose proof (Hplt _ Hfp). lia. }
        pose proof (no_edges _ _ _ _ Hbase e ed0 H2) as Heo.
        destruct (Hpf _ pn0 (eo_past _ _ _ _ _ Heo) H3) as (pn1 & Hpn1 & Hcp). destruct Hcp.
        exists e, ed0, pn1. split; [congruence|]. split; [apply Hin3; auto|]. split; [exact Hpn1|]. split; [congruence|].
        split; [rewrite Ff, Hrel; discriminate|]. rewrite Ff. intros Hex. apply exact_not_relaxed in Hex. congruence. }
  assert (Hm3 : mok d3 past mid k merged mn3).
  { constructor; auto; try congruence. destruct Hcl as [[H1 H2] H3]. split; [split|]; congruence. }
  assert (HA3 : arena (Some mid) d3 past).
  { eapply arena_chg; eauto. intros x Hx. rewrite G3 in Hx. inversion Hx; subst x. congruence. }
  assert (Hwe : match e_next ed with None => True | Some e' => (e' < eid)%nat end) by (apply (a_edges _ _ _ HA eid ed Eed)).
  assert (Hh' : head_ok (g_edges d) (e_next ed)) by (unfold head_ok; destruct (e_next ed); [lia|exact I]).
  destruct (IH d3 mn3 dn (e_next ed)) as (d' & mn' & E' & HA' & C' & G' & M' & V' & I' & R' & O').
  - exact HA3.
  - unfold nextids in *. rewrite (cg_next _ _ _ C3). exact Hmn.
  - exact G3.
  - exact Hm3.
  - exact HinL.
  - rewrite Ee3. apply head_ok_app. exact Hh'.
  - eapply chain_ok_mono; [apply HA|exact Hh'|exists [ned]; exact Ee3|exact Hpf|].
    intros e' ed' He. apply (Hch e' ed'). eapply inb_next; eauto.
  - destruct (e_next ed); [lia|exact I].
  - exists d', mn'. split; [exact E'|]. split; [exact HA'|]. split; [eapply chg_trans; eauto|]. split; [exact G'|].
    split; [exact M'|]. split; [lia|]. split.
    + intros e' ed' He. apply I'. apply Hin3. auto.
    + split; [|intros _; apply O'; right; exact Hok3].
      intros e' ed' He. inversion He as [? ? H1|? ? ? ? H1 H2]; subst.
      * assert (ed' = ed) as -> by congruence. exists (length (g_edges d)), ned, pn. split; [apply I'; apply Hin3; auto|].
        repeat split; auto.
      * assert (ed0 = ed) as -> by congruence.
        destruct (R' e' ed') as (e2 & ed2 & q & Q1 & Q2 & Q3 & Q4 & Q5).
        { rewrite Ee3. apply inb_app. exact H2. }
        exists e2, ed2, q. repeat split; auto.
        assert (Hq : In (e_from ed') past) by (apply (Hch e' ed'); exact He).
        rewrite <- Q4. symmetry. apply (cg_nodes _ _ _ C3). intros Hx. rewrite <- Hx in Hq. contradiction.
Qed.

Definition dropped (v : variant) (n : node) : node :=
  match v with VAll => n | VBarrier => node_flags n (set_deleted (n_flags n) true) end.

Lemma drop_fold v : forall l d mn,
  arena (Some mid) d past -> ~ In mid (nextids d) -> get_node d mid = Some mn -> mok d past mid k merged mn ->
  NoDup l -> ~ In mid l ->
  (forall x, In x l -> ~ In x past /\ ~ In x (nextids d) /\ x <> 0%nat /\
     exists xn, get_node d x = Some xn /\ n_depth xn = k /\ In (n_state xn) L /\ orig_all d xn) ->
  exists d' mn', ofold (drop_node v R merged mid) l d = Some d' /\ arena (Some mid) d' past /\
    chg (fun i => i = mid \/ In i l) d d' /\
    get_node d' mid = Some mn' /\ mok d' past mid k merged mn' /\ n_value mn <= n_value mn' /\
    (forall e ed, inb (g_edges d) (n_inbound mn) e ed -> inb (g_edges d') (n_inbound mn') e ed) /\
    (forall x xn, In x l -> get_node d x = Some xn -> get_node d' x = Some (dropped v xn) /\ redirected d d' mn' (n_state xn) (n_inbound xn)) /\
    (l <> [] \/ node_ok d past mid mn -> node_ok d' past mid mn').
Proof.
  induction l as [|x l IH]; intros d mn HA Hmn Hg Hm Hnd Hml Hl; cbn [ofold].
  { exists d, mn. split; [reflexivity|]. split; [exact HA|]. split; [apply chg_refl|]. split; [exact Hg|]. split; [exact Hm|].
    split; [lia|]. split; [auto|]. split; [intros y yn []|]. intros [H|H]; [congruence|exact H]. }
  inversion Hnd as [|? ? Hxl Hnd']; subst.
  destruct (Hl x (or_introl eq_refl)) as (Hxp & Hxn & Hx0 & xn & Hgx & Hdx & HxL & Hox).
  assert (Hxm : x <> mid) by (intros ->; apply Hml; left; reflexivity).
  assert (Hxok := a_nodes _ _ _ HA x xn Hgx ltac:(congruence)).
  unfold drop_node at 1.
  (* the deleted flag *)
  assert (E1 : exists d1, (match v with VBarrier => upd_node d x (fun n => node_flags n (set_deleted (n_flags n) true)) | VAll => Some d end) = Some d1 /\
     chg (eq x) d d1 /\ g_edges d1 = g_edges d /\ get_node d1 x = Some (dropped v xn)).
  { destruct v; [exists d; split; [reflexivity|]; split; [apply chg_refl|]; auto|].
    destruct (upd_node_chg d x (fun n => node_flags n (set_deleted (n_flags n) true)) xn Hgx) as (d1 & Q1 & Q2 & Q3 & Q4).
    exists d1. auto. }
  destruct E1 as (d1 & E1 & C1 & Ee1 & G1). rewrite E1. cbn [obind]. rewrite G1. cbn [obind].
  assert (Hdr : coreeq xn (dropped v xn) /\ n_bot (dropped v xn) = n_bot xn /\ is_marked (n_flags (dropped v xn)) = is_marked (n_flags xn) /\
     is_cutset (n_flags (dropped v xn)) = is_cutset (n_flags xn)).
  { destruct v; cbn; [auto using coreeq_refl|]. rewrite marked_set_deleted, cutset_set_deleted. repeat split; cbn; auto using exact_set_deleted, relaxed_set_deleted. }
  destruct Hdr as (Hd1 & Hd2 & Hd3 & Hd4).
  assert (HA1 : arena (Some mid) d1 past).
  { eapply arena_touch; eauto. contradiction. }
  assert (Hpf1 : past_frozen d d1 past) by (eapply chg_frozen; eauto; intros p Hp <-; contradiction).
  assert (Hst : n_state (dropped v xn) = n_state xn) by (destruct v; reflexivity).
  assert (Hib : n_inbound (dropped v xn) = n_inbound xn) by (destruct v; reflexivity).
  assert (Hnx1 : nextids d1 = nextids d) by (unfold nextids; rewrite (cg_next _ _ _ C1); reflexivity).
  assert (Hchain : chain_ok d past k (n_state xn) (n_inbound xn)).
  { intros e ed He. pose proof (no_edges _ _ _ _ (no_base _ _ _ _ Hxok) e ed He) as [Q1 Q2 Q3 (pn & Q4 & Q5 & Q6 & Q7 & Q8)].
    split; [exact Q1|]. exists pn. destruct (Hox e ed He) as (pn' & P1 & P2 & P3). assert (pn' = pn) as -> by congruence.
    repeat split; auto. congruence. }
  rewrite Hib.
  assert (Hhead : head_ok (g_edges d) (n_inbound xn)) by (apply (no_base _ _ _ _ Hxok)).
  destruct (redirect_spec (Datatypes.S (length (g_edges d1))) d1 mn (dropped v xn) (n_inbound xn)) as (d2 & mn2 & E2 & HA2 & C2 & G2 & M2 & V2 & I2 & R2 & O2).
  - exact HA1.
  - rewrite Hnx1. exact Hmn.
  - rewrite (cg_nodes _ _ _ C1) by exact Hxm. exact Hg.
  - eapply mok_mono; [apply HA|exact Hm|exact Hpf1|apply C1].
  - rewrite Hst. exact HxL.
  - rewrite Ee1. exact Hhead.
  - rewrite Hst. eapply chain_ok_mono; [apply HA|exact Hhead|apply C1|exact Hpf1|exact Hchain].
  - rewrite Ee1. unfold head_ok in Hhead. destruct (n_inbound xn); [lia|exact I].
  - rewrite E2. cbn [obind].
    assert (Hpf2 : past_frozen d1 d2 past) by (eapply chg_frozen; eauto; intros p Hp <-; contradiction).
    assert (C12 : chg (fun i => i = mid \/ In i (x :: l)) d d2).
    { eapply chg_trans; [eapply chg_weaken; [|exact C1]|eapply chg_weaken; [|exact C2]].
      - intros i <-. right. left. reflexivity.
      - intros i <-. left. reflexivity. }
    assert (Hpf12 : past_frozen d d2 past).
    { intros p pn Hp Hpn. destruct (Hpf1 p pn Hp Hpn) as (p1 & Q1 & Q2). destruct (Hpf2 p p1 Hp Q1) as (p2 & Q3 & Q4).
      exists p2. split; [exact Q3|]. eapply coreeq_trans; eauto. }
    destruct (IH d2 mn2) as (d' & mn' & E' & HA' & C' & G' & M' & V' & I' & R' & O').
    + exact HA2.
    + unfold nextids. rewrite (cg_next _ _ _ C12). exact Hmn.
    + exact G2.
    + exact M2.
    + exact Hnd'.
    + intros H. apply Hml. right. exact H.
    + intros y Hy. destruct (Hl y (or_intror Hy)) as (Y1 & Y2 & Y3 & yn & Y4 & Y5 & Y6 & Y7).
      assert (Hym : y <> mid) by (intros ->; apply Hml; right; exact Hy).
      assert (Hyx : y <> x) by (intros ->; contradiction).
      split; [exact Y1|]. split; [unfold nextids; rewrite (cg_next _ _ _ C12); exact Y2|]. split; [exact Y3|].
      exists yn. split; [rewrite (cg_nodes _ _ _ C2), (cg_nodes _ _ _ C1) by congruence; exact Y4|].
      split; [exact Y5|]. split; [exact Y6|].
      eapply orig_all_mono; [apply HA|apply (a_nodes _ _ _ HA y yn Y4); congruence|exact Y7|apply coreeq_refl|exact Hpf12|apply C12].
    + exists d', mn'. split; [exact E'|]. split; [exact HA'|]. split.
      { eapply chg_trans; [exact C12|]. eapply chg_weaken; [|exact C']. intros i [->|Hi]; [left; reflexivity|right; right; exact Hi]. }
      split; [exact G'|]. split; [exact M'|]. split; [lia|]. split; [intros e ed He; apply I', I2; rewrite Ee1; exact He|]. split.
      * intros y yn [<-|Hy] Hgy.
        -- assert (yn = xn) as -> by congruence. split.
           { rewrite (cg_nodes _ _ _ C') by (intros [->|Hx]; [congruence|contradiction]).
             rewrite (cg_nodes _ _ _ C2) by congruence. exact G1. }
           intros e ed He. destruct (R2 e ed) as (e2 & ed2 & pn & Q1 & Q2 & Q3 & Q4 & Q5); [rewrite Ee1; exact He|].
           exists e2, ed2, pn. split; [apply I'; exact Q1|]. split; [exact Q2|]. split; [exact Q3|]. split; [|rewrite Q5, Hst; reflexivity].
           rewrite <- Q4. symmetry. apply (cg_nodes _ _ _ C1). intros Heq. destruct (Hchain e ed He) as [Hp _]. rewrite <- Heq in Hp. contradiction.
        -- assert (Hym : y <> mid) by (intros ->; apply Hml; right; exact Hy).
           assert (Hyx : y <> x) by (intros ->; contradiction).
           assert (Hg2y : get_node d2 y = Some yn) by (rewrite (cg_nodes _ _ _ C2), (cg_nodes _ _ _ C1) by congruence; exact Hgy).
           destruct (R' y yn Hy Hg2y) as [Q1 Q2]. split; [exact Q1|].
           intros e ed He. destruct (cg_edges _ _ _ C12) as [xs Ex].
           destruct (Q2 e ed) as (e2 & ed2 & pn & W1 & W2 & W3 & W4 & W5); [rewrite Ex; apply inb_app; exact He|].
           exists e2, ed2, pn. split; [exact W1|]. split; [exact W2|]. split; [exact W3|]. split; [|exact W5].
           rewrite <- W4. symmetry.
           destruct (Hl y (or_intror Hy)) as (Y1 & Y2 & Y3 & yn' & Y4 & Y5 & Y6 & Y7). assert (yn' = yn) as -> by congruence.
           assert (Hp : In (e_from ed) past).
           { apply (no_edges _ _ _ _ (no_base _ _ _ _ (a_nodes _ _ _ HA y yn Hgy ltac:(congruence))) e ed He). }
           rewrite (cg_nodes _ _ _ C2) by (intros Heq; rewrite <- Heq in Hp; contradiction).
           apply (cg_nodes _ _ _ C1). intros Heq. rewrite <- Heq in Hp. contradiction.
      * intros _. apply O'. right. apply O2. left.
        destruct (no_best _ _ _ _ Hxok) as [[H0 _]|(_ & e & ed & pn & H1 & H2 & _)]; [contradiction|].
        intros Hnone. rewrite Hnone in H2. apply inb_none in H2. exact H2.
Qed.
End Redirect.

Lemma arena_tmp d past mid : arena None d past -> arena (Some mid) d past.
Proof. intros [F1 F2 F3 F4 F5 F6 F7 F8 F9 F10]. constructor; auto. intros id n Hg _. apply F3; [exact Hg|discriminate]. Qed.
Lemma arena_tmp_close d past mid mn : arena (Some mid) d past -> get_node d mid = Some mn -> node_ok d past mid mn -> arena None d past.
Proof.
  intros [F1 F2 F3 F4 F5 F6 F7 F8 F9 F10] Hg Hok. constructor; auto. intros id n Hn _.
  destruct (Nat.eq_dec id mid) as [->|Hne]; [|apply F3; congruence]. assert (n = mn) as -> by congruence. exact Hok.
Qed.

(** The invariant only looks at part of the diagram. *)
Lemma arena_ext tmp (d d' : dd) past : arena tmp d past -> g_nodes d' = g_nodes d -> g_edges d' = g_edges d -> g_next d' = g_next d ->
  g_cutset d' = g_cutset d -> g_root_pa d' = g_root_pa d -> arena tmp d' past.
Proof.
  intros HA Hn He Hx Hc Hr.
  assert (Hget : forall j, get_node d' j = get_node d j) by (intros j; unfold get_node; rewrite Hn; reflexivity).
  assert (Hpf : past_frozen d d' past) by (intros p pn _ Hg; exists pn; rewrite Hget; auto using coreeq_refl).
  assert (Hxs : exists xs, g_edges d' = g_edges d ++ xs) by (exists []; rewrite app_nil_r; exact He).
  destruct HA as [F1 F2 F3 F4 F5 F6 F7 F8 F9 F10]. constructor; unfold nextids in *; rewrite ?He, ?Hn, ?Hx, ?Hc, ?Hr; auto.
  - intros id n Hg Ht. rewrite Hget in Hg. eapply node_ok_mono; eauto using coreeq_refl, incl_refl.
  - intros s id Hid. destruct (F7 s id Hid) as (n & Q1 & Q2 & Q3 & Q4). exists n. rewrite Hget. split; [exact Q1|]. split; [exact Q2|]. split; [|exact Q4].
    intros e ed Hin. rewrite He in Hin. destruct (Q3 e ed Hin) as (pn & W1 & W2). exists pn. rewrite Hget. auto.
  - intros id n Hg. rewrite Hget in Hg. auto.
Qed.

(** ** Marking the previous layer as the cutset *)
Lemma mark_spec v d past id : arena None d past -> In id past ->
  exists d', mark_cutset v d id = Some d' /\ arena None d' past /\ stable (fun _ => False) d d' /\
    length (g_nodes d') = length (g_nodes d) /\ g_edges d' = g_edges d /\ g_next d' = g_next d /\ g_cutset d' = g_cutset d ++ [id] /\
    g_prev d' = g_prev d /\ g_best d' = g_best d /\ g_exact d' = g_exact d /\ g_approx d' = g_approx d /\ g_explored d' = g_explored d /\
    (v = VBarrier -> forall n, get_node d id = Some n -> g_lel d' = Some (n_depth n)).
Proof.
  intros HA Hid. unfold mark_cutset. destruct (get_some d id (a_past _ _ _ HA id Hid)) as (n & Hg).
  destruct (upd_node_chg d id (fun n => node_flags n (set_cutset (n_flags n) true)) n Hg) as (d1 & E1 & C1 & Ee1 & G1).
  rewrite E1. cbn [obind]. rewrite G1. cbn [obind]. eexists. split; [reflexivity|].
  set (d' := set_lel _ _).
  set (n' := node_flags n (set_cutset (n_flags n) true)) in *.
  assert (Hsn : samenode n n').
  { constructor; cbn; auto using marked_set_cutset, deleted_set_cutset, barrier_set_cutset.
    constructor; cbn; auto using exact_set_cutset, relaxed_set_cutset. }
  assert (Hget : forall j, get_node d' j = if Nat.eqb id j then Some n' else get_node d j).
  { intros j. change (get_node d' j) with (get_node d1 j). destruct (Nat.eqb_spec id j) as [<-|Hne]; [exact G1|]. apply (cg_nodes _ _ _ C1). exact Hne. }
  assert (Hst : stable (fun _ => False) d d').
  { constructor.
    - destruct C1 as [[xs Ex] _ _ _ _ _ _ _]. exists xs. exact Ex.
    - change (length (g_nodes d')) with (length (g_nodes d1)). rewrite (cg_len _ _ _ C1). lia.
    - intros j nj Hj _. rewrite Hget. destruct (Nat.eqb_spec id j) as [<-|Hne].
      + exists n'. assert (nj = n) as -> by congruence. auto.
      + exists nj. auto using samenode_refl.
    - apply (cg_root _ _ _ C1).
    - apply (cg_ctype _ _ _ C1). }
  assert (Hpf : past_frozen d d' past) by (eapply stable_past; eauto).
  assert (Hxs : exists xs, g_edges d' = g_edges d ++ xs) by apply Hst.
  assert (Hold : forall j nj, get_node d' j = Some nj -> exists nj0, get_node d j = Some nj0 /\ samenode nj0 nj).
  { intros j nj Hj. rewrite Hget in Hj. destruct (Nat.eqb_spec id j) as [<-|Hne].
    - inversion Hj; subst nj. exists n. auto.
    - exists nj. auto using samenode_refl. }
  assert (Hcut : g_cutset d' = g_cutset d ++ [id]).
  { change (g_cutset d') with (g_cutset d1 ++ [id]). rewrite (sr_cut _ _ (cg_rest _ _ _ C1)). reflexivity. }
  assert (Hlen : length (g_nodes d') = length (g_nodes d)) by apply (cg_len _ _ _ C1).
  assert (Hnext : g_next d' = g_next d) by apply (cg_next _ _ _ C1).
  assert (HA' : arena None d' past).
  { constructor.
    - change (g_edges d') with (g_edges d1). rewrite Ee1. apply HA.
    - rewrite Hlen. apply HA.
    - intros j nj Hj _. destruct (Hold j nj Hj) as (nj0 & Q1 & Q2). destruct Q2.
      eapply node_ok_mono; [apply HA|apply (a_nodes _ _ _ HA j nj0 Q1); discriminate|eassumption|assumption|assumption|apply incl_refl|exact Hpf|exact Hxs].
    - intros j Hj. rewrite Hlen. apply HA. exact Hj.
    - unfold nextids. rewrite Hnext. apply HA.
    - rewrite Hnext. apply HA.
    - intros s j Hj. rewrite Hnext in Hj. destruct (a_next _ _ _ HA s j Hj) as (nj & Q1 & Q2 & Q3 & Q4).
      destruct (st_nodes _ _ _ Hst j nj Q1 (fun x => x)) as (nj' & W1 & W2).
      exists nj'. split; [exact W1|]. assert (Q5 := sn_core _ _ W2). split; [destruct Q5; congruence|]. split.
      + eapply orig_all_mono; [apply HA|apply (a_nodes _ _ _ HA j nj Q1); discriminate|exact Q3|exact Q5|exact Hpf|exact Hxs].
      + destruct Q4 as [[Z1 Z2] Z3]. destruct W2. split; [split|]; congruence.
    - intros j nj Hj. rewrite Hcut, in_app_iff. rewrite Hget in Hj. destruct (Nat.eqb_spec id j) as [<-|Hne].
      + inversion Hj; subst nj. cbn. rewrite cutset_set_cutset. tauto.
      + rewrite (a_cut _ _ _ HA j nj Hj). cbn. intuition congruence.
    - rewrite Hcut. apply incl_app; [apply HA|]. intros x [<-|[]]. exact Hid.
    - change (g_root_pa d') with (g_root_pa d1). rewrite (cg_root _ _ _ C1). apply HA. }
  destruct (cg_rest _ _ _ C1). split; [exact HA'|]. split; [exact Hst|]. split; [exact Hlen|]. split; [exact Ee1|]. split; [exact Hnext|].
  split; [exact Hcut|]. split; [assumption|]. split; [assumption|]. split; [assumption|]. split; [assumption|]. split; [apply (cg_expl _ _ _ C1)|].
  intros -> m Hm. assert (m = n) as -> by congruence. reflexivity.
Qed.

Lemma mark_fold v past : forall l d, arena None d past -> incl l past ->
  exists d', ofold (mark_cutset v) l d = Some d' /\ arena None d' past /\ stable (fun _ => False) d d' /\
    length (g_nodes d') = length (g_nodes d) /\ g_edges d' = g_edges d /\ g_next d' = g_next d /\ g_cutset d' = g_cutset d ++ l /\
    g_prev d' = g_prev d /\ g_best d' = g_best d /\ g_exact d' = g_exact d /\ g_approx d' = g_approx d /\ g_explored d' = g_explored d /\
    (v = VBarrier -> forall kk, l <> [] -> layer_at d l kk -> g_lel d' = Some kk).
Proof.
  induction l as [|x l IH]; intros d HA Hl; cbn [ofold].
  - exists d. rewrite app_nil_r. split; [reflexivity|]. split; [exact HA|]. split; [apply stable_refl|]. repeat (split; [reflexivity|]). congruence.
  - destruct (mark_spec v d past x HA (Hl x (or_introl eq_refl))) as (d1 & E1 & A1 & S1 & L1 & X1 & N1 & K1 & P1 & B1 & Z1 & Y1 & W1 & V1).
    rewrite E1. cbn [obind].
    destruct (IH d1 A1) as (d' & E' & A' & S' & L' & X' & N' & K' & P' & B' & Z' & Y' & W' & V').
    { intros y Hy. apply Hl. right. exact Hy. }
    exists d'. split; [exact E'|]. split; [exact A'|]. split; [eapply stable_trans; eauto|]. split; [congruence|]. split; [congruence|]. split; [congruence|].
    split; [rewrite K', K1, <- app_assoc; reflexivity|]. repeat (split; [congruence|]).
    intros Hv kk _ Hlay. destruct (Hlay x (or_introl eq_refl)) as (n & Hg & Hd).
    destruct l as [|y l].
    + cbn in E'. inversion E'; subst d'. rewrite (V1 Hv n Hg). congruence.
    + apply V'; [exact Hv|discriminate|]. intros z Hz. destruct (Hlay z (or_intror Hz)) as (zn & Hzg & Hzd).
      destruct (st_nodes _ _ _ S1 z zn Hzg (fun x => x)) as (zn' & Q1 & Q2). exists zn'. split; [exact Q1|]. destruct Q2 as [[]]. congruence.
Qed.

Lemma nodup_app {A} (a b : list A) : NoDup (a ++ b) -> NoDup a /\ NoDup b /\ (forall x, In x a -> In x b -> False).
Proof.
  induction a as [|x a IH]; cbn; intros H; [split; [constructor|]; split; [exact H|intros ? []]|].
  inversion H as [|? ? H1 H2]; subst. destruct (IH H2) as (Q1 & Q2 & Q3). split.
  - constructor; [|exact Q1]. intros Hx. apply H1, in_app_iff. auto.
  - split; [exact Q2|]. intros y [<-|Hy] Hb; [apply H1, in_app_iff; auto|eauto].
Qed.

(** ** The whole relaxation *)
Record layer_ok (d : dd) (past : list nat) (l : list nat) (k : nat) : Prop := {
  lo_nodup : NoDup l;
  lo_node : forall id, In id l -> ~ In id past /\ (forall p, In p past -> (p < id)%nat) /\
     exists n, get_node d id = Some n /\ n_depth n = k /\ clean n }.

Definition sorts (orc : oracle S) : Prop := forall c l, Permutation l (o_sort orc c l).

Lemma map_states_some (d : dd) : forall l, (forall id, In id l -> exists n, get_node d id = Some n) ->
  exists ss, map_states d l = Some ss /\ length ss = length l /\
   (forall i id, nth_error l i = Some id -> exists n, get_node d id = Some n /\ nth_error ss i = Some (n_state n)) /\
   (forall s, In s ss -> exists id n, In id l /\ get_node d id = Some n /\ s = n_state n).
Proof.
  induction l as [|x l IH]; intros H; cbn [map_states].
  - exists []. repeat split; auto; [intros [|i] id Hi; discriminate|intros s []].
  - destruct (H x (or_introl eq_refl)) as (n & Hg). rewrite Hg. cbn [obind].
    destruct IH as (ss & E & L1 & I1 & J1); [intros id Hi; apply H; right; exact Hi|]. rewrite E. cbn [obind].
    exists (n_state n :: ss). split; [reflexivity|]. split; [cbn; congruence|]. split.
    + intros [|i] id Hi; cbn in *; [inversion Hi; subst; eauto|apply I1; exact Hi].
    + intros s [<-|Hs]; [exists x, n; cbn; auto|]. destruct (J1 s Hs) as (id & m & Q1 & Q2 & Q3). exists id, m. cbn. auto.
Qed.
Lemma map_states_in (d : dd) l ss id n : map_states d l = Some ss -> In id l -> get_node d id = Some n -> In (n_state n) ss.
Proof.
  revert ss. induction l as [|x l IH]; intros ss E Hi Hg; [destruct Hi|]. cbn [map_states] in E.
  destruct (get_node d x) as [m|] eqn:Ex; [|discriminate]. cbn [obind] in E. destruct (map_states d l) as [r|]; [|discriminate].
  cbn [obind] in E. inversion E; subst ss. destruct Hi as [<-|Hi]; [left; congruence|right; eapply IH; eauto].
Qed.

Definition kept (d d' : dd) (mn mn' : node) : Prop :=
  n_state mn' = n_state mn /\ n_value mn <= n_value mn' /\
  (forall e ed, inb (g_edges d) (n_inbound mn) e ed -> inb (g_edges d') (n_inbound mn') e ed).
Definition merged_into (d d' : dd) (k : nat) (mn mn' : node) : Prop :=
  exists L, n_state mn' = rx_merge R L /\ Forall (at_depth k) L /\ In (n_state mn) L /\
    redirected L d d' mn' (n_state mn) (n_inbound mn).

Lemma relax_spec v orc inp d past curr k :
  arena None d past -> g_next d = [] -> layer_ok d past curr k -> (k0 < k <= N)%nat ->
  (forall id n, In id curr -> get_node d id = Some n -> orig_all d n) ->
  i_rx inp = R -> sorts orc -> (0 < i_width inp < length curr)%nat -> incl (g_prev d) past ->
  exists d' curr', relax eqb v orc inp d curr = Some (d', curr') /\ arena None d' past /\ g_next d' = [] /\
    layer_ok d' past curr' k /\ curr' <> [] /\ (length curr' <= i_width inp)%nat /\ stable (fun i => In i curr) d d' /\
    g_approx d' = true /\ g_prev d' = g_prev d /\ g_best d' = g_best d /\ g_exact d' = g_exact d /\ g_explored d' = g_explored d /\
    g_cutset d' = match g_ctype d with LastExactLayer => if g_approx d then g_cutset d else g_cutset d ++ g_prev d | Frontier => g_cutset d end /\
    (v = VBarrier -> g_ctype d = LastExactLayer -> g_approx d = false -> forall kk, g_prev d <> [] -> layer_at d (g_prev d) kk -> g_lel d' = Some kk) /\
    (v = VBarrier -> (g_ctype d = LastExactLayer -> g_approx d = true) -> g_lel d' = g_lel d) /\
    (forall id, In id curr' -> In id curr \/ id = length (g_nodes d)) /\
    (forall m mn, In m curr -> get_node d m = Some mn ->
       exists m' mn', In m' curr' /\ get_node d' m' = Some mn' /\ (kept d d' mn mn' \/ merged_into d d' k mn mn')) /\
    (forall id n, In id curr -> ~ In id curr' -> get_node d' id = Some n -> v = VBarrier -> is_deleted (n_flags n) = true).
Proof.
  intros HA Hnext Hlay Hk Horig Hrx Hsort Hw Hprev. unfold relax.
  (* the cutset *)
  assert (E1 : exists d1, (match g_ctype d with LastExactLayer => if negb (g_approx d) then ofold (mark_cutset v) (g_prev d) d else Some d | Frontier => Some d end) = Some d1 /\
    arena None d1 past /\ stable (fun _ => False) d d1 /\
    length (g_nodes d1) = length (g_nodes d) /\ g_edges d1 = g_edges d /\ g_next d1 = g_next d /\
    g_cutset d1 = match g_ctype d with LastExactLayer => if g_approx d then g_cutset d else g_cutset d ++ g_prev d | Frontier => g_cutset d end /\
    g_prev d1 = g_prev d /\ g_best d1 = g_best d /\ g_exact d1 = g_exact d /\ g_explored d1 = g_explored d /\
    (v = VBarrier -> g_ctype d = LastExactLayer -> g_approx d = false -> forall kk, g_prev d <> [] -> layer_at d (g_prev d) kk -> g_lel d1 = Some kk) /\
    (v = VBarrier -> (g_ctype d = LastExactLayer -> g_approx d = true) -> g_lel d1 = g_lel d)).
  { destruct (g_ctype d) eqn:Ect.
    - destruct (g_approx d) eqn:Eap; cbn [negb].
      + exists d. split; [reflexivity|]. split; [exact HA|]. split; [apply stable_refl|]. repeat (split; [reflexivity|]). split; [congruence|auto].
      + destruct (mark_fold v past (g_prev d) d HA Hprev) as (d1 & Q1 & Q2 & Q3 & Q4 & Q5 & Q6 & Q7 & Q8 & Q9 & Q10 & Q11 & Q12 & Q13).
        exists d1. repeat (split; [first [assumption|congruence]|]). split.
        * intros Hv _ _. exact (Q13 Hv).
        * intros _ H. specialize (H eq_refl). discriminate.
    - exists d. split; [reflexivity|]. split; [exact HA|]. split; [apply stable_refl|]. repeat (split; [reflexivity|]). split; [congruence|auto]. }
  destruct E1 as (d1 & E1 & A1 & S1 & L1 & X1 & N1 & K1 & P1 & B1 & Z1 & Y1 & V1 & V1').
  rewrite E1. cbn [obind]. clear E1.
  assert (Hpres : all_present d1 curr = true).
  { unfold all_present. apply forallb_forall. intros id Hid. apply Nat.ltb_lt. rewrite L1.
    destruct (lo_node _ _ _ _ Hlay id Hid) as (_ & _ & n & Hg & _). eapply get_lt; eauto. }
  rewrite Hpres.
  set (d2 := set_approx d1 true). set (sorted := o_sort orc (node_cmp (i_rank inp) d2) curr).
  assert (Hperm : Permutation curr sorted) by apply Hsort.
  assert (Hslen : length sorted = length curr) by (symmetry; apply Permutation_length; exact Hperm).
  destruct (i_width inp) as [|w1] eqn:Ew; [lia|].
  destruct (Nat.leb_spec w1 (length sorted)) as [_|Hbad]; [|lia].
  set (keep := firstn w1 sorted). set (mrg := skipn w1 sorted).
  assert (Hsplit : sorted = keep ++ mrg) by (symmetry; apply firstn_skipn).
  assert (Hsnd : NoDup sorted) by (eapply Permutation_NoDup; [exact Hperm|apply Hlay]).
  assert (Hnd3 : NoDup keep /\ NoDup mrg /\ (forall x, In x keep -> In x mrg -> False)) by (apply nodup_app; rewrite <- Hsplit; exact Hsnd).
  destruct Hnd3 as (Hknd & Hmnd & Hdisj).
  assert (Hin : forall x, In x curr <-> In x keep \/ In x mrg).
  { intros x. rewrite <- in_app_iff, <- Hsplit. split; intros H; [eapply Permutation_in; eauto|].
    eapply Permutation_in; [apply Permutation_sym; exact Hperm|exact H]. }
  assert (Hmlen : (0 < length mrg)%nat) by (unfold mrg; rewrite skipn_length; lia).
  assert (Hklen : length keep = w1) by (unfold keep; rewrite firstn_length; lia).
  (* the arena d2 *)
  assert (A2 : arena None d2 past) by (eapply arena_ext; [exact A1|reflexivity..]).
  assert (S2 : stable (fun _ => False) d d2).
  { destruct S1. constructor; assumption. }
  assert (Hpf02 : past_frozen d d2 past) by (eapply stable_past; eauto).
  assert (Hl2 : forall id, In id curr -> ~ In id past /\ (forall p, In p past -> (p < id)%nat) /\ id <> 0%nat /\
     exists n0 n, get_node d id = Some n0 /\ samenode n0 n /\ get_node d2 id = Some n /\ n_depth n = k /\ clean n /\ orig_all d2 n /\ is_cutset (n_flags n) = false).
  { intros id Hid. destruct (lo_node _ _ _ _ Hlay id Hid) as (Q1 & Q2 & n0 & Q3 & Q4 & Q5). split; [exact Q1|]. split; [exact Q2|].
    assert (Hok0 := a_nodes _ _ _ HA id n0 Q3 ltac:(discriminate)). split.
    - intros ->. destruct (no_best _ _ _ _ Hok0) as [(_ & _ & _ & _ & _ & Hd & _)|(H0 & _)]; [|congruence]. lia.
    - destruct (st_nodes _ _ _ S2 id n0 Q3 (fun x => x)) as (n & W1 & W2). exists n0, n. split; [exact Q3|]. split; [exact W2|]. split; [exact W1|].
      split; [destruct W2 as [[]]; congruence|]. split; [destruct Q5 as [[]]; destruct W2; split; [split|]; congruence|]. split.
      + eapply orig_all_mono; [apply HA|apply Hok0|apply (Horig id n0 Hid Q3)|apply W2|exact Hpf02|apply S2].
      + destruct (is_cutset (n_flags n)) eqn:E; [|reflexivity]. apply (a_cut _ _ _ A2 id n W1) in E. apply (a_cutpast _ _ _ A2) in E. contradiction. }
  destruct (map_states_some d2 keep) as (ks & Eks & Lks & Iks & _).
  { intros id Hid. destruct (Hl2 id (proj2 (Hin id) (or_introl Hid))) as (_ & _ & _ & n0 & n & _ & _ & Hg & _). eauto. }
  destruct (map_states_some d2 mrg) as (ms & Ems & Lms & Ims & Jms).
  { intros id Hid. destruct (Hl2 id (proj2 (Hin id) (or_intror Hid))) as (_ & _ & _ & n0 & n & _ & _ & Hg & _). eauto. }
  rewrite Eks. cbn [obind]. rewrite Ems. cbn [obind]. rewrite Hrx.
  set (merged := rx_merge R ms).
  assert (HLms : Forall (at_depth k) ms).
  { apply Forall_forall. intros s Hs. destruct (Jms s Hs) as (id & n & Q1 & Q2 & ->).
    destruct (Hl2 id (proj2 (Hin id) (or_intror Q1))) as (_ & _ & _ & n0 & n' & _ & _ & Hg & Hd & _). assert (n' = n) as -> by congruence.
    rewrite <- Hd. apply (no_base _ _ _ _ (a_nodes _ _ _ A2 id n Q2 ltac:(discriminate))). }
  assert (Hmsne : ms <> []) by (intros ->; cbn in Lms; lia).
  assert (Hmat : at_depth k merged) by (apply Hvr; auto; lia).
  set (recycled := option_map fst (find (fun p => eqb (snd p) merged) (combine keep ks))).
  (* the merged node *)
  set (dep := match v with
     | VAll => Some match mrg with m0 :: _ => match get_node d2 m0 with Some n0 => n_depth n0 | None => 0%nat end | [] => 0%nat end
     | VBarrier => do m0 <- nth_error mrg 0; do n0 <- get_node d2 m0; Some (n_depth n0) end).
  assert (Hdep : dep = Some k).
  { unfold dep. destruct mrg as [|m0 mt] eqn:Em; [cbn in Hmlen; lia|].
    destruct (Hl2 m0 (proj2 (Hin m0) (or_intror (or_introl eq_refl)))) as (_ & _ & _ & n0 & n & _ & _ & Hg & Hd & _).
    cbn [nth_error obind]. rewrite Hg. cbn [obind]. rewrite Hd. destruct v; reflexivity. }
  assert (E4 : exists mid d3 mn d4,
     (match recycled with Some id => Some (id, d2) | None => do dp <- dep; Some (length (g_nodes d2),
        set_nodes d2 (g_nodes d2 ++ [mk_node merged IMIN None None dp IMIN IMAX IMAX new_relaxed])) end) = Some (mid, d3) /\
     upd_node d3 mid (fun n => node_flags n (set_relaxed (n_flags n) true)) = Some d4 /\
     arena (Some mid) d4 past /\ get_node d4 mid = Some mn /\ mok d4 past mid k merged mn /\
     ~ In mid past /\ (forall p, In p past -> (p < mid)%nat) /\ ~ In mid mrg /\
     g_edges d4 = g_edges d2 /\ same_rest d2 d4 /\ g_next d4 = [] /\ g_root_pa d4 = g_root_pa d2 /\ g_ctype d4 = g_ctype d2 /\ g_explored d4 = g_explored d2 /\
     (length (g_nodes d2) <= length (g_nodes d4))%nat /\
     (forall j, j <> mid -> get_node d4 j = get_node d2 j) /\
     ((recycled = Some mid /\ In mid keep /\ exists mn0, get_node d2 mid = Some mn0 /\ n_state mn = n_state mn0 /\ n_value mn = n_value mn0 /\ n_inbound mn = n_inbound mn0) \/
      (recycled = None /\ mid = length (g_nodes d2)))).
  { destruct recycled as [rid|] eqn:Er.
    - unfold recycled in Er. destruct (find _ (combine keep ks)) as [[rid' rs]|] eqn:Ef; [|discriminate].
      cbn in Er. inversion Er; subst rid'. apply find_some in Ef as [Hc Heq]. cbn in Heq. apply eqb_spec in Heq. subst rs.
      assert (Hrk : In rid keep) by (apply in_combine_l in Hc; exact Hc).
      destruct (Hl2 rid (proj2 (Hin rid) (or_introl Hrk))) as (Q1 & Q2 & Q3 & n0 & n & Q4 & Q5 & Q6 & Q7 & Q8 & Q9 & Q10).
      assert (Hns : n_state n = merged).
      { apply In_nth_error in Hc as [i Hi]. assert (Hi1 : nth_error keep i = Some rid /\ nth_error ks i = Some merged).
        { clear -Hi. revert ks i Hi. induction keep as [|a l IH]; intros [|b ks] [|i] Hi; cbn in *; try discriminate; [inversion Hi; auto|apply IH; exact Hi]. }
        destruct Hi1 as [Hi1 Hi2]. destruct (Iks i rid Hi1) as (n' & W1 & W2). congruence. }
      destruct (upd_node_chg d2 rid (fun n => node_flags n (set_relaxed (n_flags n) true)) n Q6) as (d4 & E4 & C4 & Ee4 & G4).
      set (mn := node_flags n (set_relaxed (n_flags n) true)) in *.
      assert (Hnok := a_nodes _ _ _ A2 rid n Q6 ltac:(discriminate)).
      assert (Hpf : past_frozen d2 d4 past) by (eapply chg_frozen; eauto; intros p Hp <-; contradiction).
      assert (Hb4 : node_base d4 past rid mn).
      { destruct (no_base _ _ _ _ Hnok) as [F1 F2 F3 F4 F5 F6]. constructor; cbn; auto.
        - rewrite Ee4. exact F3.
        - rewrite Ee4. intros e ed He. specialize (F4 e ed He). eapply edge_ok_mono; eauto; [cbn; lia|apply incl_refl|].
          intros q Hq. apply Hpf; [apply F4|exact Hq].
        - rewrite marked_set_relaxed. exact F5. }
      assert (Hrelx : is_relaxed (n_flags mn) = true) by (cbn; apply relaxed_set_relaxed).
      assert (Hexx : is_exact (n_flags mn) = false).
      { destruct (is_exact (n_flags mn)) eqn:E; [|reflexivity]. apply exact_not_relaxed in E. congruence. }
      assert (Hok4 : node_ok d4 past rid mn).
      { constructor; [exact Hb4|apply Hnok|]. right. split; [exact Q3|].
        destruct (no_best _ _ _ _ Hnok) as [[H0 _]|(_ & e & ed & pn & H1 & H2 & H3 & H4 & H5 & H6)]; [contradiction|].
        pose proof (no_edges _ _ _ _ (no_base _ _ _ _ Hnok) e ed H2) as Heo.
        destruct (Hpf _ pn (eo_past _ _ _ _ _ Heo) H3) as (pn' & Hpn' & Hcp). destruct Hcp.
        exists e, ed, pn'. split; [exact H1|]. split; [rewrite Ee4; exact H2|]. split; [exact Hpn'|]. split; [cbn; congruence|].
        split; intros; congruence. }
      exists rid, d2, mn, d4. split; [reflexivity|]. split; [exact E4|].
      assert (Hm4 : mok d4 past rid k merged mn).
      { constructor; auto. cbn. destruct Q8 as [[Q81 Q82] Q83]. split; [split|]; cbn; auto; rewrite ?deleted_set_relaxed, ?barrier_set_relaxed; auto.
        cbn. rewrite cutset_set_relaxed. exact Q10. }
      split.
      { eapply arena_chg; [apply arena_tmp; exact A2| exact C4 |rewrite Ee4; apply A2|exact Q1|reflexivity| |].
        - unfold nextids, d2. cbn. rewrite N1, Hnext. intros [].
        - intros x Hx. rewrite G4 in Hx. inversion Hx; subst x. apply Hm4. }
      split; [exact G4|]. split; [exact Hm4|]. split; [exact Q1|]. split; [exact Q2|]. split; [intros H; exact (Hdisj rid Hrk H)|].
      split; [exact Ee4|]. split; [apply C4|]. split; [rewrite (cg_next _ _ _ C4); unfold d2; cbn; rewrite N1; exact Hnext|].
      split; [apply C4|]. split; [apply C4|]. split; [apply C4|]. split; [rewrite (cg_len _ _ _ C4); lia|]. split; [intros j Hj; apply (cg_nodes _ _ _ C4); congruence|].
      left. split; [reflexivity|]. split; [exact Hrk|]. exists n. auto.
    - rewrite Hdep. cbn [obind]. set (mid := length (g_nodes d2)).
      set (n := mk_node merged IMIN None None k IMIN IMAX IMAX new_relaxed).
      set (d3 := set_nodes d2 (g_nodes d2 ++ [n])).
      assert (Hg3 : forall j, get_node d3 j = if Nat.eqb j mid then Some n else get_node d2 j).
      { intros j. unfold get_node, d3. cbn [g_nodes set_nodes]. destruct (Nat.eqb_spec j mid) as [->|Hj].
        - unfold mid. rewrite nth_error_app2, Nat.sub_diag by lia. reflexivity.
        - destruct (Nat.lt_ge_cases j (length (g_nodes d2))); [apply nth_error_app1; assumption|].
          rewrite (proj2 (nth_error_None _ _)) by (rewrite app_length; cbn [length]; unfold mid in *; lia).
          symmetry. apply nth_error_None. assumption. }
      assert (Hg3m : get_node d3 mid = Some n) by (rewrite Hg3, Nat.eqb_refl; reflexivity).
      destruct (upd_node_chg d3 mid (fun n => node_flags n (set_relaxed (n_flags n) true)) n Hg3m) as (d4 & E4 & C4 & Ee4 & G4).
      set (mn := node_flags n (set_relaxed (n_flags n) true)) in *.
      assert (Hmp : ~ In mid past) by (intros H; apply (a_past _ _ _ A2) in H; unfold mid in H; lia).
      assert (Hnx3 : nextids d3 = []) by (unfold nextids, d3, d2; cbn; rewrite N1, Hnext; reflexivity).
      assert (Hpf3 : past_frozen d2 d3 past).
      { intros p pn Hp Hpn. exists pn. rewrite Hg3. destruct (Nat.eqb_spec p mid) as [->|]; [contradiction|]. auto using coreeq_refl. }
      assert (A3 : arena (Some mid) d3 past).
      { destruct A2 as [a_edges0 a_len0 a_nodes0 a_past0 a_lt0 a_keys0 a_next0 a_cut0 a_cutpast0 a_root0]. constructor; auto.
        - change (0 < length (g_nodes d2 ++ [n]))%nat. rewrite app_length. lia.
        - intros id m Hm Ht. rewrite Hg3 in Hm. destruct (Nat.eqb_spec id mid) as [->|Hne]; [congruence|].
          eapply node_ok_mono; [exact a_edges0|apply (a_nodes0 id m Hm); discriminate|apply coreeq_refl|reflexivity|reflexivity|apply incl_refl|exact Hpf3|exists []; rewrite app_nil_r; reflexivity].
        - intros id Hid. change (id < length (g_nodes d2 ++ [n]))%nat. rewrite app_length. pose proof (a_past0 id Hid). lia.
        - intros s id Hid. exfalso. assert (In id (nextids d3)) by (apply nextids_in; eauto). rewrite Hnx3 in H. exact H.
        - intros id m Hm. rewrite Hg3 in Hm. destruct (Nat.eqb_spec id mid) as [->|Hne]; [|apply (a_cut0 id m Hm)].
          inversion Hm; subst m. split; [intros H; exfalso; revert H; cbn; clear; intro H; vm_compute in H; discriminate|].
          intros Hi. apply a_cutpast0 in Hi. contradiction. }
      exists mid, d3, mn, d4. split; [reflexivity|]. split; [exact E4|].
      assert (Hb4 : node_base d4 past mid mn).
      { constructor.
        - cbn. lia.
        - exact Hmat.
        - exact I.
        - intros e ed He. apply inb_none in He. destruct He.
        - cbn. rewrite marked_set_relaxed. vm_compute. reflexivity.
        - reflexivity. }
      assert (Hm4 : mok d4 past mid k merged mn).
      { constructor.
        - exact Hb4.
        - reflexivity.
        - reflexivity.
        - cbn. apply relaxed_set_relaxed.
        - split; [split|]; cbn; rewrite ?deleted_set_relaxed, ?barrier_set_relaxed; vm_compute; reflexivity.
        - cbn. rewrite cutset_set_relaxed. vm_compute. reflexivity.
        - right. auto. }
      split.
      { eapply arena_chg; [exact A3|exact C4|rewrite Ee4; apply A3|exact Hmp|reflexivity|rewrite Hnx3; intros []|].
        intros x Hx. rewrite G4 in Hx. inversion Hx; subst x. apply Hm4. }
      split; [exact G4|]. split; [exact Hm4|]. split; [exact Hmp|]. split; [intros p Hp; apply (a_past _ _ _ A2) in Hp; exact Hp|].
      split; [intros H; destruct (Hl2 mid (proj2 (Hin mid) (or_intror H))) as (_ & _ & _ & n0 & n' & _ & _ & Hg & _); apply get_lt in Hg; unfold mid in Hg; lia|].
      split; [exact Ee4|]. split; [destruct (cg_rest _ _ _ C4); constructor; assumption|].
      split; [rewrite (cg_next _ _ _ C4); unfold d3, d2; cbn; rewrite N1; exact Hnext|].
      split; [apply (cg_root _ _ _ C4)|]. split; [apply (cg_ctype _ _ _ C4)|]. split; [apply (cg_expl _ _ _ C4)|].
      split; [rewrite (cg_len _ _ _ C4); change (length (g_nodes d2) <= length (g_nodes d2 ++ [n]))%nat; rewrite app_length; lia|].
      split; [intros j Hj; rewrite (cg_nodes _ _ _ C4) by congruence; rewrite Hg3; destruct (Nat.eqb_spec j mid); [congruence|reflexivity]|].
      right. auto. }
  destruct E4 as (mid & d3 & mn & d4 & E3 & E4 & A4 & G4 & M4 & Hmp & Hplt & Hmm & Ee4 & R4 & N4 & P4 & T4 & X4 & L4 & O4 & Hcase).
  change (do '(merged_id, d3) <- _ ; _) with
    (do '(merged_id, d3) <- (match recycled with Some id => Some (id, d2) | None => do dp <- dep; Some (length (g_nodes d2),
        set_nodes d2 (g_nodes d2 ++ [mk_node merged IMIN None None dp IMIN IMAX IMAX new_relaxed])) end);
     do d4 <- upd_node d3 merged_id (fun n => node_flags n (set_relaxed (n_flags n) true));
     do d5 <- ofold (drop_node v R merged merged_id) mrg d4;
     match recycled with
     | Some _ => let l := firstn (Datatypes.S w1) sorted in
         do d6 <- (match v with VAll => Some d5 | VBarrier => do saved <- nth_error l w1; upd_node d5 saved (fun n => node_flags n (set_deleted (n_flags n) false)) end);
         Some (d6, l)
     | None => Some (d5, keep ++ [merged_id]) end).
  rewrite E3. cbn [obind]. rewrite E4. cbn [obind]. clear E3 E4.
  assert (R02 : g_prev d2 = g_prev d /\ g_best d2 = g_best d /\ g_exact d2 = g_exact d /\ g_explored d2 = g_explored d) by (cbn; auto).
  assert (Hpf24 : past_frozen d2 d4 past).
  { intros p pn Hp Hpn. exists pn. rewrite O4 by (intros ->; contradiction). auto using coreeq_refl. }
  assert (Hx24 : exists xs, g_edges d4 = g_edges d2 ++ xs) by (exists []; rewrite app_nil_r; exact Ee4).
  destruct (drop_fold past mid k ms HLms Hmp Hplt ltac:(lia) v mrg d4 mn) as (d5 & mn5 & E5 & A5 & C5 & G5 & M5 & V5 & I5 & D5 & O5).
  { exact A4. }
  { unfold nextids. rewrite N4. intros []. }
  { exact G4. }
  { exact M4. }
  { exact Hmnd. }
  { exact Hmm. }
  { intros x Hx. destruct (Hl2 x (proj2 (Hin x) (or_intror Hx))) as (Q1 & Q2 & Q3 & n0 & n & Q4 & Q5 & Q6 & Q7 & Q8 & Q9 & Q10).
    split; [exact Q1|]. split; [unfold nextids; rewrite N4; intros []|]. split; [exact Q3|].
    assert (Hxm : x <> mid) by (intros ->; contradiction).
    exists n. split; [rewrite O4 by exact Hxm; exact Q6|]. split; [exact Q7|]. split; [eapply map_states_in; eauto|].
    eapply orig_all_mono; [apply A2|apply (a_nodes _ _ _ A2 x n Q6); discriminate|exact Q9|apply coreeq_refl|exact Hpf24|exact Hx24]. }
  fold merged in E5. rewrite E5. cbn [obind].
  assert (Hok5 : node_ok d5 past mid mn5).
  { apply O5. left. destruct mrg; [cbn in Hmlen; lia|discriminate]. }
  assert (A5' : arena None d5 past) by (eapply arena_tmp_close; eauto).
  assert (Hmrgin : forall x, In x mrg -> In x curr) by (intros x Hx; apply Hin; auto).
  assert (Hkin : forall x, In x keep -> In x curr) by (intros x Hx; apply Hin; auto).
  (* nodes outside the layer, and nodes of the layer, in d5 *)
  assert (Hout : forall j, j <> mid -> ~ In j mrg -> get_node d5 j = get_node d2 j).
  { intros j H1 H2. rewrite (cg_nodes _ _ _ C5) by (intros [H|H]; contradiction). apply O4. exact H1. }
  assert (Hmrg5 : forall x, In x mrg -> exists n0 n, get_node d x = Some n0 /\ samenode n0 n /\ get_node d2 x = Some n /\ get_node d5 x = Some (dropped v n) /\ clean n /\ n_depth n = k).
  { intros x Hx. destruct (Hl2 x (Hmrgin x Hx)) as (Q1 & Q2 & Q3 & n0 & n & Q4 & Q5 & Q6 & Q7 & Q8 & Q9 & Q10).
    exists n0, n. split; [exact Q4|]. split; [exact Q5|]. split; [exact Q6|]. split; [|auto].
    apply (D5 x n Hx). rewrite O4; [exact Q6|]. intros ->. contradiction. }
  assert (Hkeep5 : forall x, In x keep -> x <> mid -> exists n0 n, get_node d x = Some n0 /\ samenode n0 n /\ get_node d5 x = Some n /\ clean n /\ n_depth n = k).
  { intros x Hx Hne. destruct (Hl2 x (Hkin x Hx)) as (Q1 & Q2 & Q3 & n0 & n & Q4 & Q5 & Q6 & Q7 & Q8 & Q9 & Q10).
    exists n0, n. split; [exact Q4|]. split; [exact Q5|]. split; [|auto]. rewrite Hout; [exact Q6|exact Hne|]. intros H. exact (Hdisj x Hx H). }
  assert (Hx25 : exists xs, g_edges d5 = g_edges d ++ xs).
  { destruct (cg_edges _ _ _ C5) as [xs Ex]. exists xs. rewrite Ex, Ee4. cbn. rewrite X1. reflexivity. }
  assert (Hed : forall h e ed, inb (g_edges d) h e ed -> inb (g_edges d5) h e ed).
  { intros h e ed He. destruct Hx25 as [xs ->]. apply inb_app. exact He. }
  assert (Hstable5 : stable (fun i => In i curr) d d5).
  { constructor.
    - exact Hx25.
    - rewrite (cg_len _ _ _ C5). change (length (g_nodes d2)) with (length (g_nodes d1)) in L4. rewrite L1 in L4. exact L4.
    - intros id n Hg Hnc. destruct (st_nodes _ _ _ S2 id n Hg (fun x => x)) as (n2 & W1 & W2). exists n2. split; [|exact W2].
      rewrite Hout; [exact W1| |intros H; apply Hnc; auto].
      intros ->. destruct Hcase as [(_ & Hc & _)|(_ & Hc)]; [apply Hnc; auto|]. apply get_lt in W1. lia.
    - rewrite (cg_root _ _ _ C5), P4. apply S2.
    - rewrite (cg_ctype _ _ _ C5), T4. apply S2. }
  (* every node of the layer is represented *)
  assert (Hmrgcov : forall m mn0, In m mrg -> get_node d m = Some mn0 -> merged_into d d5 k mn0 mn5).
  { intros m mn0 Hm Hg. destruct (Hmrg5 m Hm) as (n0 & n & Q1 & Q2 & Q3 & Q4 & _). assert (n0 = mn0) as -> by congruence.
    assert (Hne : m <> mid) by (intros ->; contradiction).
    assert (Q5 : get_node d4 m = Some n) by (rewrite O4 by exact Hne; exact Q3).
    destruct (D5 m n Hm Q5) as [_ Hred]. assert (Hc := sn_core _ _ Q2). destruct Hc as [ce1 ce2 ce3 ce4 ce5 ce6 ce7].
    exists ms. split; [apply M5|]. split; [exact HLms|]. split; [rewrite <- ce1; eapply map_states_in; eauto|].
    intros e ed He. assert (Hp : In (e_from ed) past) by (apply (no_edges _ _ _ _ (no_base _ _ _ _ (a_nodes _ _ _ HA m mn0 Hg ltac:(discriminate))) e ed He)).
    destruct (Hred e ed) as (e2 & ed2 & pn & W1 & W2 & W3 & W4 & W5).
    { rewrite ce4, Ee4. cbn. rewrite X1. exact He. }
    rewrite ce1 in W5. rewrite O4 in W4 by (intros Heq; rewrite Heq in Hp; contradiction).
    destruct (get_some d (e_from ed) (a_past _ _ _ HA _ Hp)) as (pn0 & Hpn0).
    destruct (Hpf02 _ pn0 Hp Hpn0) as (pn1 & Hpn1 & Hcp). assert (pn1 = pn) as -> by congruence.
    exists e2, ed2, pn0. repeat split; auto. rewrite W5. destruct Hcp. congruence. }
  assert (Hkeepcov : forall m mn0, In m keep -> get_node d m = Some mn0 -> exists mn', get_node d5 m = Some mn' /\ kept d d5 mn0 mn').
  { intros m mn0 Hm Hg. destruct (Nat.eq_dec m mid) as [->|Hne].
    - exists mn5. split; [exact G5|]. destruct Hcase as [(_ & _ & q & Q1 & Q2 & Q3 & Q4)|(_ & Hc)].
      + destruct (st_nodes _ _ _ S2 mid mn0 Hg (fun x => x)) as (q' & W1 & W2). assert (q' = q) as -> by congruence.
        destruct W2 as [[ce1 ce2 ce3 ce4 ce5 ce6 ce7] _ _ _ _ _ _].
        split; [rewrite (mk_state _ _ _ _ _ _ M5), <- ce1, <- Q2, (mk_state _ _ _ _ _ _ M4); reflexivity|]. split; [lia|].
        intros e ed He. apply I5. rewrite Q4, ce4, Ee4. cbn. rewrite X1. exact He.
      + apply get_lt in Hg. exfalso. change (length (g_nodes d2)) with (length (g_nodes d1)) in Hc. lia.
    - destruct (Hkeep5 m Hm Hne) as (n0 & n & Q1 & Q2 & Q3 & _). assert (n0 = mn0) as -> by congruence. exists n. split; [exact Q3|].
      destruct Q2 as [[ce1 ce2 ce3 ce4 ce5 ce6 ce7] _ _ _ _ _ _]. split; [exact ce1|]. split; [lia|].
      intros e ed He. rewrite ce4. apply Hed. exact He. }
  assert (Hmid_lo : ~ In mid past /\ (forall p, In p past -> (p < mid)%nat) /\ exists n, get_node d5 mid = Some n /\ n_depth n = k /\ clean n).
  { split; [exact Hmp|]. split; [exact Hplt|]. exists mn5. split; [exact G5|]. split; [apply M5|apply M5]. }
  assert (Hrest5 : same_rest d2 d5) by (eapply same_rest_trans; [exact R4|apply C5]).
  destruct Hrest5 as [r1 r2 r3 r4 r5 r6].
  destruct recycled as [rid|] eqn:Er.
  - (* an existing node of the layer has the merged state *)
    destruct Hcase as [(Hc1 & Hc2 & _)|(Hc1 & _)]; [|congruence]. inversion Hc1; subst rid. clear Hc1.
    destruct (nth_error sorted w1) as [saved|] eqn:Esv; [|apply nth_error_None in Esv; lia].
    assert (Hl : firstn (Datatypes.S w1) sorted = keep ++ [saved]).
    { unfold keep. clear -Esv. revert w1 Esv. induction sorted as [|x l IH]; intros [|w] E; try discriminate.
      - cbn in E. inversion E. destruct l; reflexivity.
      - cbn [nth_error] in E. cbn [firstn app]. f_equal. rewrite <- (IH w E). destruct l; reflexivity. }
    assert (Hsvm : In saved mrg).
    { unfold mrg. clear -Esv. revert w1 Esv. induction sorted as [|x l IH]; intros [|w] E; try discriminate; [cbn in E; inversion E; left; reflexivity|].
      cbn in E. cbn [skipn]. apply IH. exact E. }
    assert (Hsne : saved <> mid) by (intros ->; contradiction).
    destruct (Hmrg5 saved Hsvm) as (s0 & sn & T1 & T2 & T3 & T5 & T6 & T7).
    cbv zeta. rewrite Hl.
    assert (E6 : exists d6 sn6, (match v with VAll => Some d5 | VBarrier => do sv <- nth_error (keep ++ [saved]) w1; upd_node d5 sv (fun n => node_flags n (set_deleted (n_flags n) false)) end) = Some d6 /\
       chg (eq saved) d5 d6 /\ g_edges d6 = g_edges d5 /\ get_node d6 saved = Some sn6 /\ coreeq s0 sn6 /\ n_depth sn6 = k /\ clean sn6 /\ arena None d6 past).
    { destruct v.
      - exists d5, sn. split; [reflexivity|]. split; [apply chg_refl|]. split; [reflexivity|]. split; [exact T5|]. split; [apply T2|]. auto.
      - rewrite nth_error_app2, Hklen, Nat.sub_diag by lia. cbn [nth_error obind].
        destruct (upd_node_chg d5 saved (fun n => node_flags n (set_deleted (n_flags n) false)) _ T5) as (d6 & E6 & C6 & Ee6 & G6).
        eexists d6, _. split; [exact E6|]. split; [exact C6|]. split; [exact Ee6|]. split; [exact G6|].
        assert (Hce : coreeq sn (node_flags (dropped VBarrier sn) (set_deleted (n_flags (dropped VBarrier sn)) false))).
        { constructor; cbn; rewrite ?exact_set_deleted, ?relaxed_set_deleted; reflexivity. }
        split; [eapply coreeq_trans; [apply T2|exact Hce]|]. split; [cbn; exact T7|].
        assert (Hcl : clean (node_flags (dropped VBarrier sn) (set_deleted (n_flags (dropped VBarrier sn)) false))).
        { destruct T6 as [[Z11 Z12] Z13]. split; [split|]; cbn; rewrite ?deleted_set_deleted, ?barrier_set_deleted; auto. }
        split; [exact Hcl|].
        eapply arena_touch; [exact A5'|exact C6|exact Ee6|exact T5|exact G6| | | | |].
        + constructor; cbn; rewrite ?exact_set_deleted, ?relaxed_set_deleted; reflexivity.
        + reflexivity.
        + cbn. rewrite !marked_set_deleted. reflexivity.
        + cbn. rewrite !cutset_set_deleted. reflexivity.
        + intros _. exact Hcl. }
    destruct E6 as (d6 & sn6 & E6 & C6 & Ee6 & G6 & Q6 & K6 & L6 & A6). rewrite E6. cbn [obind].
    assert (Hg6 : forall j, j <> saved -> get_node d6 j = get_node d5 j) by (intros j Hj; apply (cg_nodes _ _ _ C6); congruence).
    exists d6, (keep ++ [saved]). split; [reflexivity|]. split; [exact A6|].
    split; [rewrite (cg_next _ _ _ C6), (cg_next _ _ _ C5); exact N4|]. split.
    { constructor.
      - rewrite <- Hl. clear -Hsnd. rewrite <- (firstn_skipn (Datatypes.S w1) sorted) in Hsnd. apply nodup_app in Hsnd. apply Hsnd.
      - intros id Hid. apply in_app_iff in Hid as [Hid|[<-|[]]].
        + destruct (Nat.eq_dec id mid) as [->|Hne]; [rewrite Hg6 by congruence; exact Hmid_lo|].
          destruct (Hl2 id (Hkin id Hid)) as (W1 & W2 & _). split; [exact W1|]. split; [exact W2|].
          destruct (Hkeep5 id Hid Hne) as (n0 & n & W3 & W4 & W5 & W6 & W7). exists n. rewrite Hg6; [auto|]. intros ->. exact (Hdisj _ Hid Hsvm).
        + destruct (Hl2 saved (Hmrgin saved Hsvm)) as (W1 & W2 & _). split; [exact W1|]. split; [exact W2|]. eauto. }
    split; [destruct keep; discriminate|]. split; [rewrite app_length, Hklen; cbn; lia|]. split.
    { eapply stable_trans; [exact Hstable5|]. destruct C6 as [B61 B62 B63 B64 B65 B66 B67 B68]. constructor; auto; [lia|].
      intros id n Hg Hnc. exists n. rewrite Hg6 by (intros ->; apply Hnc; auto). auto using samenode_refl. }
    destruct (cg_rest _ _ _ C6) as [q1 q2 q3 q4 q5 q6].
    split; [rewrite q6, r6; reflexivity|]. split; [rewrite q1, r1; apply R02|]. split; [rewrite q4, r4; apply R02|]. split; [rewrite q5, r5; apply R02|].
    split; [rewrite (cg_expl _ _ _ C6), (cg_expl _ _ _ C5), X4; apply R02|].
    split; [rewrite q2, r2; exact K1|]. split; [intros Hv H1 H2 kk H3 H4; rewrite q3, r3; apply V1; auto|]. split; [intros Hv H; rewrite q3, r3; apply V1'; auto|].
    split.
    { intros id Hid. left. apply in_app_iff in Hid as [Hid|[<-|[]]]; auto. }
    split.
    { intros m mn0 Hm Hg. apply Hin in Hm as [Hm|Hm].
      - destruct (Hkeepcov m mn0 Hm Hg) as (mn' & W1 & W2 & W3 & W4). exists m, mn'. split; [apply in_app_iff; auto|].
        assert (m <> saved) by (intros ->; exact (Hdisj _ Hm Hsvm)). split; [rewrite Hg6 by assumption; exact W1|]. left. split; [exact W2|]. split; [exact W3|].
        intros e ed He. rewrite Ee6. auto.
      - exists mid, mn5. split; [apply in_app_iff; auto|]. split; [rewrite Hg6 by congruence; exact G5|]. right.
        destruct (Hmrgcov m mn0 Hm Hg) as (LL & W1 & W2 & W3 & W4). exists LL. split; [exact W1|]. split; [exact W2|]. split; [exact W3|].
        intros e ed He. destruct (W4 e ed He) as (e2 & ed2 & pn & U1 & U2). exists e2, ed2, pn. rewrite Ee6. auto. }
    { intros id n Hid Hnc Hg ->. apply Hin in Hid as [Hid|Hid]; [exfalso; apply Hnc, in_app_iff; auto|].
      assert (id <> saved) by (intros ->; apply Hnc, in_app_iff; right; left; reflexivity). rewrite Hg6 in Hg by assumption.
      destruct (Hmrg5 id Hid) as (n0 & n' & U1 & U2 & U3 & U4 & _). assert (n = dropped VBarrier n') as -> by congruence. cbn. apply deleted_set_deleted. }
  - (* a new node *)
    destruct Hcase as [(Hc1 & _)|(_ & Hmid)]; [congruence|].
    assert (Hml : mid = length (g_nodes d)) by (rewrite Hmid; change (length (g_nodes d2)) with (length (g_nodes d1)); exact L1).
    exists d5, (keep ++ [mid]). split; [reflexivity|]. split; [exact A5'|]. split; [rewrite (cg_next _ _ _ C5); exact N4|].
    assert (Hmk : ~ In mid keep).
    { intros H. destruct (Hl2 mid (Hkin mid H)) as (_ & _ & _ & n0 & n & Hg & _). apply get_lt in Hg. lia. }
    split.
    { constructor.
      - clear -Hknd Hmk. induction keep as [|x l IH]; cbn; [constructor; [intros []|constructor]|].
        inversion Hknd; subst. constructor; [|apply IH; auto; intros H; apply Hmk; right; exact H].
        rewrite in_app_iff. intros [H|[<-|[]]]; [contradiction|apply Hmk; left; reflexivity].
      - intros id Hid. apply in_app_iff in Hid as [Hid|[<-|[]]]; [|exact Hmid_lo].
        assert (Hne : id <> mid) by (intros ->; contradiction).
        destruct (Hl2 id (Hkin id Hid)) as (W1 & W2 & _). split; [exact W1|]. split; [exact W2|].
        destruct (Hkeep5 id Hid Hne) as (n0 & n & W3 & W4 & W5 & W6 & W7). exists n. auto. }
    split; [destruct keep; discriminate|]. split; [rewrite app_length, Hklen; cbn; lia|]. split; [exact Hstable5|].
    split; [rewrite r6; reflexivity|]. split; [rewrite r1; apply R02|]. split; [rewrite r4; apply R02|]. split; [rewrite r5; apply R02|].
    split; [rewrite (cg_expl _ _ _ C5), X4; apply R02|].
    split; [rewrite r2; exact K1|]. split; [intros Hv H1 H2 kk H3 H4; rewrite r3; apply V1; auto|]. split; [intros Hv H; rewrite r3; apply V1'; auto|].
    split.
    { intros id Hid. apply in_app_iff in Hid as [Hid|[<-|[]]]; auto. }
    split.
    { intros m mn0 Hm Hg. apply Hin in Hm as [Hm|Hm].
      - destruct (Hkeepcov m mn0 Hm Hg) as (mn' & W1 & W2). exists m, mn'. split; [apply in_app_iff; auto|]. auto.
      - exists mid, mn5. split; [apply in_app_iff; right; left; reflexivity|]. split; [exact G5|]. right. apply (Hmrgcov m mn0 Hm Hg). }
    { intros id n Hid Hnc Hg ->. apply Hin in Hid as [Hid|Hid]; [exfalso; apply Hnc, in_app_iff; auto|].
      destruct (Hmrg5 id Hid) as (n0 & n' & U1 & U2 & U3 & U4 & _). assert (n = dropped VBarrier n') as -> by congruence. cbn. apply deleted_set_deleted. }
Qed.
End Facts.
