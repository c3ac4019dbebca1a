(** What a compiled decision diagram says about its subproblem, common to the two variants. *)
From Verif Require Import Spec Dd FlagsFacts MatrixFacts DdFacts DdRelax DdExpand DdLoop.
From Coq Require Import ZifyNat.
Open Scope Z_scope.

Section Facts.
Variable S : Type.
Variable eqb : S -> S -> bool.
Hypothesis eqb_spec : forall a b, eqb a b = true <-> a = b.
Variable P : problem S.
Variable R : relaxation S.
Variable at_depth : nat -> S -> Prop.
Variable nv : nat -> nat.
Variable C : Z.
Hypothesis Hwf : wf_problem S P at_depth nv.
Hypothesis Hvr : relaxation_depth S P at_depth R.
Hypothesis Hbd : bounded S P at_depth nv R C.
Variable k0 : nat.
Variable sp : subproblem S.
Notation N := (pb_nb_vars P).
Notation node := (node S).
Notation dd := (dd S).
Local Notation vbound := (@DdFacts.vbound C).
Local Notation valid_root := (@DdFacts.valid_root S P at_depth C k0 sp).
Local Notation nextids := (@DdFacts.nextids S).
Local Notation vbound_range := (@DdFacts.vbound_range S P R at_depth nv C Hbd).
Local Notation vbound_step := (@DdFacts.vbound_step S P R at_depth nv C Hbd).
Local Notation coreeq := (@DdFacts.coreeq S).
Local Notation samenode := (@DdFacts.samenode S).
Local Notation coreeq_refl := (@DdFacts.coreeq_refl S).
Local Notation samenode_refl := (@DdFacts.samenode_refl S).
Local Notation coreeq_trans := (@DdFacts.coreeq_trans S).
Local Notation samenode_trans := (@DdFacts.samenode_trans S).
Local Notation stable := (@DdFacts.stable S).
Local Notation stable_refl := (@DdFacts.stable_refl S).
Local Notation stable_trans := (@DdFacts.stable_trans S k0).
Local Notation stable_weaken := (@DdFacts.stable_weaken S).
Local Notation edge_ok := (@DdFacts.edge_ok S P nv C).
Local Notation orig_edge := (@DdFacts.orig_edge S P).
Local Notation orig_all := (@DdFacts.orig_all S P).
Local Notation is_root := (@DdFacts.is_root S k0 sp).
Local Notation best_ok := (@DdFacts.best_ok S P k0 sp).
Local Notation node_base := (@DdFacts.node_base S P at_depth nv C k0).
Local Notation node_ok := (@DdFacts.node_ok S P at_depth nv C k0 sp).
Local Notation cleanf := (@DdFacts.cleanf S).
Local Notation clean := (@DdFacts.clean S).
Local Notation arena := (@DdFacts.arena S P at_depth nv C k0 sp).
Local Notation layer_at := (@DdFacts.layer_at S).
Local Notation get_lt := (@DdFacts.get_lt S).
Local Notation get_some := (@DdFacts.get_some S).
Local Notation upd_node_spec := (@DdFacts.upd_node_spec S).
Local Notation orig_edge_mono := (@DdFacts.orig_edge_mono S P).
Local Notation edge_ok_mono := (@DdFacts.edge_ok_mono S P nv C).
Local Notation past_frozen := (@DdFacts.past_frozen S).
Local Notation node_base_mono := (@DdFacts.node_base_mono S P at_depth nv C k0).
Local Notation best_ok_mono := (@DdFacts.best_ok_mono S P at_depth nv C k0 sp).
Local Notation node_ok_mono := (@DdFacts.node_ok_mono S P at_depth nv C k0 sp).
Local Notation orig_all_mono := (@DdFacts.orig_all_mono S P at_depth nv C k0).
Local Notation stable_past := (@DdFacts.stable_past S).
Local Notation next_get_in := (@DdFacts.next_get_in S eqb eqb_spec).
Local Notation next_get_none := (@DdFacts.next_get_none S eqb eqb_spec).
Local Notation nextids_in := (@DdFacts.nextids_in S).
Local Notation all_exact := (@DdFacts.all_exact S).
Local Notation grows := (@DdFacts.grows S).
Local Notation grows_refl := (@DdFacts.grows_refl S).
Local Notation nextids_incl := (@DdFacts.nextids_incl S).
Local Notation grows_trans := (@DdFacts.grows_trans S).
Local Notation same_rest := (@DdFacts.same_rest S).
Local Notation same_rest_refl := (@DdFacts.same_rest_refl S).
Local Notation same_rest_trans := (@DdFacts.same_rest_trans S).
Local Notation has_edge := (@DdFacts.has_edge S P).
Local Notation has_edge_grows := (@DdFacts.has_edge_grows S P).
Local Notation branch_spec := (@DdFacts.branch_spec S eqb eqb_spec P R at_depth nv C Hwf Hbd k0 sp).
Local Notation vr_path := (@DdFacts.vr_path S P at_depth C k0 sp).
Local Notation vr_le := (@DdFacts.vr_le S P at_depth C k0 sp).
Local Notation vr_at := (@DdFacts.vr_at S P at_depth C k0 sp).
Local Notation vr_val := (@DdFacts.vr_val S P at_depth C k0 sp).
Local Notation ce_state := (@DdFacts.ce_state S).
Local Notation ce_value := (@DdFacts.ce_value S).
Local Notation ce_best := (@DdFacts.ce_best S).
Local Notation ce_inb := (@DdFacts.ce_inb S).
Local Notation ce_depth := (@DdFacts.ce_depth S).
Local Notation ce_exact := (@DdFacts.ce_exact S).
Local Notation ce_relaxed := (@DdFacts.ce_relaxed S).
Local Notation sn_core := (@DdFacts.sn_core S).
Local Notation sn_rub := (@DdFacts.sn_rub S).
Local Notation sn_theta := (@DdFacts.sn_theta S).
Local Notation sn_bot := (@DdFacts.sn_bot S).
Local Notation sn_marked := (@DdFacts.sn_marked S).
Local Notation sn_deleted := (@DdFacts.sn_deleted S).
Local Notation sn_barrier := (@DdFacts.sn_barrier S).
Local Notation st_edges := (@DdFacts.st_edges S).
Local Notation st_len := (@DdFacts.st_len S).
Local Notation st_nodes := (@DdFacts.st_nodes S).
Local Notation st_root := (@DdFacts.st_root S).
Local Notation st_ctype := (@DdFacts.st_ctype S).
Local Notation eo_past := (@DdFacts.eo_past S P nv C).
Local Notation eo_lt := (@DdFacts.eo_lt S P nv C).
Local Notation eo_cost := (@DdFacts.eo_cost S P nv C).
Local Notation eo_parent := (@DdFacts.eo_parent S P nv C).
Local Notation no_depth := (@DdFacts.no_depth S P at_depth nv C k0).
Local Notation no_at := (@DdFacts.no_at S P at_depth nv C k0).
Local Notation no_head := (@DdFacts.no_head S P at_depth nv C k0).
Local Notation no_edges := (@DdFacts.no_edges S P at_depth nv C k0).
Local Notation no_marked := (@DdFacts.no_marked S P at_depth nv C k0).
Local Notation no_bot := (@DdFacts.no_bot S P at_depth nv C k0).
Local Notation no_base := (@DdFacts.no_base S P at_depth nv C k0 sp).
Local Notation no_val := (@DdFacts.no_val S P at_depth nv C k0 sp).
Local Notation no_best := (@DdFacts.no_best S P at_depth nv C k0 sp).
Local Notation a_edges := (@DdFacts.a_edges S P at_depth nv C k0 sp).
Local Notation a_len := (@DdFacts.a_len S P at_depth nv C k0 sp).
Local Notation a_nodes := (@DdFacts.a_nodes S P at_depth nv C k0 sp).
Local Notation a_past := (@DdFacts.a_past S P at_depth nv C k0 sp).
Local Notation a_lt := (@DdFacts.a_lt S P at_depth nv C k0 sp).
Local Notation a_keys := (@DdFacts.a_keys S P at_depth nv C k0 sp).
Local Notation a_next := (@DdFacts.a_next S P at_depth nv C k0 sp).
Local Notation a_cut := (@DdFacts.a_cut S P at_depth nv C k0 sp).
Local Notation a_cutpast := (@DdFacts.a_cutpast S P at_depth nv C k0 sp).
Local Notation a_root := (@DdFacts.a_root S P at_depth nv C k0 sp).
Local Notation gr_incl := (@DdFacts.gr_incl S).
Local Notation gr_fresh := (@DdFacts.gr_fresh S).
Local Notation gr_nodes := (@DdFacts.gr_nodes S).
Local Notation sr_prev := (@DdFacts.sr_prev S).
Local Notation sr_cut := (@DdFacts.sr_cut S).
Local Notation sr_lel := (@DdFacts.sr_lel S).
Local Notation sr_best := (@DdFacts.sr_best S).
Local Notation sr_exact := (@DdFacts.sr_exact S).
Local Notation sr_approx := (@DdFacts.sr_approx S).
Local Notation chg := (@DdRelax.chg S).
Local Notation chg_refl := (@DdRelax.chg_refl S).
Local Notation chg_trans := (@DdRelax.chg_trans S).
Local Notation chg_weaken := (@DdRelax.chg_weaken S).
Local Notation chg_frozen := (@DdRelax.chg_frozen S).
Local Notation upd_node_chg := (@DdRelax.upd_node_chg S).
Local Notation mok := (@DdRelax.mok S P at_depth nv C k0 sp).
Local Notation chain_ok := (@DdRelax.chain_ok S P nv).
Local Notation arena_chg := (@DdRelax.arena_chg S P at_depth nv C k0 sp).
Local Notation chain_ok_mono := (@DdRelax.chain_ok_mono S P nv).
Local Notation arena_touch := (@DdRelax.arena_touch S P at_depth nv C k0 sp).
Local Notation mok_mono := (@DdRelax.mok_mono S P at_depth nv C k0 sp).
Local Notation redirected := (@DdRelax.redirected S R).
Local Notation redirect_spec := (@DdRelax.redirect_spec S P R at_depth nv C Hbd k0 sp).
Local Notation dropped := (@DdRelax.dropped S).
Local Notation drop_fold := (@DdRelax.drop_fold S P R at_depth nv C Hbd k0 sp).
Local Notation arena_tmp := (@DdRelax.arena_tmp S P at_depth nv C k0 sp).
Local Notation arena_tmp_close := (@DdRelax.arena_tmp_close S P at_depth nv C k0 sp).
Local Notation arena_ext := (@DdRelax.arena_ext S P at_depth nv C k0 sp).
Local Notation mark_spec := (@DdRelax.mark_spec S P at_depth nv C k0 sp).
Local Notation mark_fold := (@DdRelax.mark_fold S P at_depth nv C k0 sp).
Local Notation layer_ok := (@DdRelax.layer_ok S).
Local Notation sorts := (@DdRelax.sorts S).
Local Notation map_states_some := (@DdRelax.map_states_some S).
Local Notation map_states_in := (@DdRelax.map_states_in S).
Local Notation kept := (@DdRelax.kept S).
Local Notation merged_into := (@DdRelax.merged_into S R at_depth).
Local Notation relax_spec := (@DdRelax.relax_spec S eqb eqb_spec P R at_depth nv C Hvr Hbd k0 sp).
Local Notation cg_edges := (@DdRelax.cg_edges S).
Local Notation cg_len := (@DdRelax.cg_len S).
Local Notation cg_nodes := (@DdRelax.cg_nodes S).
Local Notation cg_rest := (@DdRelax.cg_rest S).
Local Notation cg_next := (@DdRelax.cg_next S).
Local Notation cg_root := (@DdRelax.cg_root S).
Local Notation cg_ctype := (@DdRelax.cg_ctype S).
Local Notation cg_expl := (@DdRelax.cg_expl S).
Local Notation mk_base := (@DdRelax.mk_base S P at_depth nv C k0 sp).
Local Notation mk_state := (@DdRelax.mk_state S P at_depth nv C k0 sp).
Local Notation mk_depth := (@DdRelax.mk_depth S P at_depth nv C k0 sp).
Local Notation mk_rel := (@DdRelax.mk_rel S P at_depth nv C k0 sp).
Local Notation mk_clean := (@DdRelax.mk_clean S P at_depth nv C k0 sp).
Local Notation mk_cut := (@DdRelax.mk_cut S P at_depth nv C k0 sp).
Local Notation mk_cases := (@DdRelax.mk_cases S P at_depth nv C k0 sp).
Local Notation lo_nodup := (@DdRelax.lo_nodup S).
Local Notation lo_node := (@DdRelax.lo_node S).
Local Notation restrict_spec := (@DdExpand.restrict_spec S P at_depth nv C k0 sp).
Local Notation arena_past := (@DdExpand.arena_past S P at_depth nv C k0 sp).
Local Notation doneok := (@DdExpand.doneok S P nv).
Local Notation expanding := (@DdExpand.expanding S P at_depth nv C k0 sp).
Local Notation expanding_init := (@DdExpand.expanding_init S P at_depth nv C k0 sp).
Local Notation has_edge_state := (@DdExpand.has_edge_state S P).
Local Notation doneok_grows := (@DdExpand.doneok_grows S P nv).
Local Notation branch_fold := (@DdExpand.branch_fold S eqb eqb_spec P R at_depth nv C Hwf Hbd k0 sp).
Local Notation expand_step := (@DdExpand.expand_step S eqb eqb_spec P R at_depth nv C Hwf Hbd k0 sp).
Local Notation expand_fold := (@DdExpand.expand_fold S eqb eqb_spec P R at_depth nv C Hwf Hbd k0 sp).
Local Notation dn_rub := (@DdExpand.dn_rub S P nv).
Local Notation dn_bot := (@DdExpand.dn_bot S P nv).
Local Notation dn_marked := (@DdExpand.dn_marked S P nv).
Local Notation dn_deleted := (@DdExpand.dn_deleted S P nv).
Local Notation dn_barrier := (@DdExpand.dn_barrier S P nv).
Local Notation dn_cases := (@DdExpand.dn_cases S P nv).
Local Notation ex_arena := (@DdExpand.ex_arena S P at_depth nv C k0 sp).
Local Notation ex_layer := (@DdExpand.ex_layer S P at_depth nv C k0 sp).
Local Notation ex_fresh := (@DdExpand.ex_fresh S P at_depth nv C k0 sp).
Local Notation ex_rest := (@DdExpand.ex_rest S P at_depth nv C k0 sp).
Local Notation ex_edges := (@DdExpand.ex_edges S P at_depth nv C k0 sp).
Local Notation ex_len := (@DdExpand.ex_len S P at_depth nv C k0 sp).
Local Notation ex_root := (@DdExpand.ex_root S P at_depth nv C k0 sp).
Local Notation ex_ctype := (@DdExpand.ex_ctype S P at_depth nv C k0 sp).
Local Notation ex_old := (@DdExpand.ex_old S P at_depth nv C k0 sp).
Local Notation ex_exact := (@DdExpand.ex_exact S P at_depth nv C k0 sp).
Local Notation ex_expl := (@DdExpand.ex_expl S P at_depth nv C k0 sp).
Local Notation iters := (@DdLoop.iters S).
Local Notation child_ok := (@DdLoop.child_ok S P R at_depth).
Local Notation expd := (@DdLoop.expd S P R at_depth nv).
Local Notation linv := (@DdLoop.linv S P R at_depth nv C k0 sp).
Local Notation mid := (@DdLoop.mid S P R at_depth nv C k0 sp).
Local Notation linv_step := (@DdLoop.linv_step S P R at_depth nv C k0 sp).
Local Notation li_arena := (@DdLoop.li_arena S P R at_depth nv C k0 sp).
Local Notation li_layer := (@DdLoop.li_layer S P R at_depth nv C k0 sp).
Local Notation li_range := (@DdLoop.li_range S P R at_depth nv C k0 sp).
Local Notation li_disj := (@DdLoop.li_disj S P R at_depth nv C k0 sp).
Local Notation li_curr := (@DdLoop.li_curr S P R at_depth nv C k0 sp).
Local Notation li_currin := (@DdLoop.li_currin S P R at_depth nv C k0 sp).
Local Notation li_depth := (@DdLoop.li_depth S P R at_depth nv C k0 sp).
Local Notation li_exp := (@DdLoop.li_exp S P R at_depth nv C k0 sp).
Local Notation li_exact := (@DdLoop.li_exact S P R at_depth nv C k0 sp).
Local Notation li_typ := (@DdLoop.li_typ S P R at_depth nv C k0 sp).
Local Notation li_nocut := (@DdLoop.li_nocut S P R at_depth nv C k0 sp).
Local Notation li_lel := (@DdLoop.li_lel S P R at_depth nv C k0 sp).
Local Notation li_cutexact := (@DdLoop.li_cutexact S P R at_depth nv C k0 sp).
Local Notation li_ctype := (@DdLoop.li_ctype S P R at_depth nv C k0 sp).
Local Notation li_root := (@DdLoop.li_root S P R at_depth nv C k0 sp).
Local Notation li_pastnd := (@DdLoop.li_pastnd S P R at_depth nv C k0 sp).
Local Notation li_width := (@DdLoop.li_width S P R at_depth nv C k0 sp).
Local Notation li_expl := (@DdLoop.li_expl S P R at_depth nv C k0 sp).
Local Notation li_best := (@DdLoop.li_best S P R at_depth nv C k0 sp).
Local Notation li_gone := (@DdLoop.li_gone S P R at_depth nv C k0 sp).
Local Notation li_near := (@DdLoop.li_near S P R at_depth nv C k0 sp).
Local Notation md_arena := (@DdLoop.md_arena S P R at_depth nv C k0 sp).
Local Notation md_next := (@DdLoop.md_next S P R at_depth nv C k0 sp).
Local Notation md_layer := (@DdLoop.md_layer S P R at_depth nv C k0 sp).
Local Notation md_stable := (@DdLoop.md_stable S P R at_depth nv C k0 sp).
Local Notation md_incl := (@DdLoop.md_incl S P R at_depth nv C k0 sp).
Local Notation md_cover := (@DdLoop.md_cover S P R at_depth nv C k0 sp).
Local Notation md_approx := (@DdLoop.md_approx S P R at_depth nv C k0 sp).
Local Notation md_typ := (@DdLoop.md_typ S P R at_depth nv C k0 sp).
Local Notation md_allex := (@DdLoop.md_allex S P R at_depth nv C k0 sp).
Local Notation md_cut := (@DdLoop.md_cut S P R at_depth nv C k0 sp).
Local Notation md_width := (@DdLoop.md_width S P R at_depth nv C k0 sp).
Local Notation md_expl := (@DdLoop.md_expl S P R at_depth nv C k0 sp).
Local Notation md_best := (@DdLoop.md_best S P R at_depth nv C k0 sp).
Local Notation md_near := (@DdLoop.md_near S P R at_depth nv C k0 sp).
Hypothesis Hadm : admissible S P at_depth nv.
Hypothesis Hcov : relaxation_cover S P at_depth nv R.

Lemma run_bound k s ds k' s' c : run S P nv k s ds k' s' c -> at_depth k s -> (k <= k' /\ at_depth k' s' /\ k' = k + length ds)%nat /\ Z.abs c <= Z.of_nat (k' - k) * C.
Proof.
  induction 1 as [k s|k s d ds k' s' c Hk Hd Hr IH]; intros Hat.
  - cbn. split; [split; [lia|split; [exact Hat|lia]]|lia].
  - assert (Hat' : at_depth (Datatypes.S k) (pb_trans P s d)) by (apply (wf_trans _ _ _ _ Hwf); auto).
    destruct (IH Hat') as [(H1 & H2 & H3) H4]. cbn [length]. split; [split; [lia|split; [exact H2|lia]]|].
    assert (Z.abs (pb_cost P s d) <= C) by (eapply (bd_cost _ _ _ _ _ _ Hbd); eauto).
    replace (Z.of_nat (k' - k)) with (Z.of_nat (k' - Datatypes.S k) + 1) by lia. lia.
Qed.
Lemma completion_bound k s ds c : completion S P nv k s ds c -> at_depth k s -> Z.abs c <= Z.of_nat (N - k) * C.
Proof. intros [s' H] Hat. apply (run_bound _ _ _ _ _ _ H Hat). Qed.
Lemma value_bound k v c : (k <= N)%nat -> vbound k v -> Z.abs c <= Z.of_nat (N - k) * C -> IMIN < v + c <= IMAX.
Proof.
  intros Hk Hv Hc. unfold vbound in Hv. destruct Hbd as [H0 H1 _ _ _]. pose proof IMIN_IMAX. pose proof IMAX_pos.
  assert (Z.abs (v + c) <= (Z.of_nat N + 1) * C).
  { assert ((Z.of_nat k + 1) * C + Z.of_nat (N - k) * C = (Z.of_nat N + 1) * C) by (rewrite <- Z.mul_add_distr_r; f_equal; lia). lia. }
  lia.
Qed.
Lemma run_app k s ds k' s' c : run S P nv k s ds k' s' c -> forall ds' k'' s'' c', run S P nv k' s' ds' k'' s'' c' ->
  run S P nv k s (ds ++ ds') k'' s'' (c + c').
Proof.
  induction 1 as [k s|k s d ds k' s' c Hk Hd Hr IH]; intros ds' k'' s'' c' H'; [exact H'|].
  cbn [app]. rewrite <- Z.add_assoc. constructor; auto.
Qed.
Lemma run_snoc k s ds k' s' c d : run S P nv k s ds k' s' c -> (k' < N)%nat -> In d (pb_domain P (nv k') s') ->
  run S P nv k s (ds ++ [d]) (Datatypes.S k') (pb_trans P s' d) (c + pb_cost P s' d).
Proof.
  intros H Hk Hd. eapply run_app; [exact H|]. replace (pb_cost P s' d) with (pb_cost P s' d + 0) at 1 by lia. constructor; auto. constructor.
Qed.

(** ** Paths of the diagram *)
(** [reach d T X id x]: a path of cost [x] leads from [id] to a node of [T], all its nodes but the first avoiding [X]. *)
Inductive reach (d : dd) (T : list nat) (X : nat -> Prop) : nat -> Z -> Prop :=
| reach_term id : In id T -> reach d T X id 0
| reach_step id m mn e ed x : get_node d m = Some mn -> inb (g_edges d) (n_inbound mn) e ed -> e_from ed = id -> ~ X m ->
    reach d T X m x -> reach d T X id (e_cost ed + x).

Lemma reach_value d past T X id x : arena None d past -> (forall t, In t T -> exists tn, get_node d t = Some tn) ->
  reach d T X id x -> forall n, get_node d id = Some n ->
  exists t tn, In t T /\ get_node d t = Some tn /\ n_value n + x <= n_value tn.
Proof.
  intros HA HT. induction 1 as [id Ht|id m mn e ed x Gm He Hf _ Hr IH]; intros n Hg.
  - exists id, n. split; [exact Ht|]. split; [exact Hg|lia].
  - destruct (IH mn Gm) as (t & tn & H1 & H2 & H3). exists t, tn. split; [exact H1|]. split; [exact H2|].
    destruct (no_edges _ _ _ _ (no_base _ _ _ _ (a_nodes _ _ _ HA m mn Gm ltac:(discriminate))) e ed He) as [_ _ _ (pn & Gp & _ & _ & _ & Hv)].
    rewrite Hf in Gp. assert (pn = n) as -> by congruence. lia.
Qed.
Lemma reach_bound d past T X id x k : arena None d past -> layer_at d T k -> (k <= N)%nat ->
  reach d T X id x -> forall n, get_node d id = Some n -> (n_depth n <= k)%nat /\ Z.abs x <= Z.of_nat (k - n_depth n) * C.
Proof.
  intros HA HT Hk. induction 1 as [id Ht|id m mn e ed x Gm He Hf _ Hr IH]; intros n Hg.
  - destruct (HT id Ht) as (n' & G & D). assert (n' = n) as -> by congruence. split; [lia|]. rewrite D, Nat.sub_diag. cbn. lia.
  - destruct (IH mn Gm) as [H1 H2].
    destruct (no_edges _ _ _ _ (no_base _ _ _ _ (a_nodes _ _ _ HA m mn Gm ltac:(discriminate))) e ed He) as [_ _ Hc (pn & Gp & D & _)].
    rewrite Hf in Gp. assert (pn = n) as -> by congruence. split; [lia|].
    replace (Z.of_nat (k - n_depth n)) with (Z.of_nat (k - n_depth mn) + 1) by lia. lia.
Qed.

(** Every completion that improves [lb] is at most as good as some path of the diagram. *)
Lemma expd_step inp d past gone id n ds c : arena None d past -> get_node d id = Some n -> expd inp d past gone id n ->
  (i_type inp = Restricted -> g_approx d = false) -> (n_depth n < N)%nat ->
  completion S P nv (n_depth n) (n_state n) ds c -> i_lb inp < n_value n + c ->
  exists m mn e ed ds' c', (In m past \/ In m (nextids d) \/ In m gone) /\ get_node d m = Some mn /\
    inb (g_edges d) (n_inbound mn) e ed /\ e_from ed = id /\ n_depth mn = Datatypes.S (n_depth n) /\ n_value n + e_cost ed <= n_value mn /\
    completion S P nv (n_depth mn) (n_state mn) ds' c' /\ c <= e_cost ed + c' /\
    ((g_approx d = false \/ exists q qn, In q (g_cutset d) /\ get_node d q = Some qn /\ (n_depth n < n_depth qn)%nat) ->
      exists dec, ds = dec :: ds' /\ c = pb_cost P (n_state n) dec + c' /\ n_state mn = pb_trans P (n_state n) dec /\ In dec (pb_domain P (nv (n_depth n)) (n_state n)) /\ e_cost ed = pb_cost P (n_state n) dec).
Proof.
  intros HA Hg [_ Hex] Hty Hlt Hc Hlb. assert (Hok := a_nodes _ _ _ HA id n Hg ltac:(discriminate)).
  assert (Hat := no_at _ _ _ _ (no_base _ _ _ _ Hok)).
  assert (Hest := Hadm _ _ _ _ Hlt Hat Hc). pose proof (completion_bound _ _ _ _ Hc Hat) as Hcb.
  pose proof (value_bound (n_depth n) (n_value n) c ltac:(lia) (no_val _ _ _ _ Hok) Hcb) as Hvb.
  destruct Hc as [s' Hrun]. inversion Hrun as [|k s dec ds1 k' s1 c1 Hk Hdec Hrun1]; subst; [lia|].
  specialize (Hex Hty). destruct Hex with (dec := dec) as (m & mn & e & ed & Hm & Gm & He & Hf & Hd & Hcase); [|exact Hdec|].
  { unfold sat_add. unfold clamp. lia. }
  assert (Heo := no_edges _ _ _ _ (no_base _ _ _ _ (a_nodes _ _ _ HA m mn Gm ltac:(discriminate))) e ed He).
  destruct Heo as [_ _ _ (pn & Gp & Dm & _ & _ & Hv)]. rewrite Hf in Gp. assert (pn = n) as -> by congruence.
  destruct Hcase as [[Hs Hcost]|(Ha & Hq & L & Hs & HL & Hin & Hcost)].
  - exists m, mn, e, ed, ds1, c1. split; [exact Hm|]. split; [exact Gm|]. split; [exact He|]. split; [exact Hf|]. split; [exact Dm|]. split; [exact Hv|].
    split; [rewrite Dm, Hs; exists s'; exact Hrun1|]. split; [lia|]. intros _. exists dec. auto.
  - destruct (Hcov (n_depth n) L (n_state n) dec ds1 c1) as (ds2 & c2 & Hc2 & Hle); auto; [exists s'; exact Hrun1|].
    exists m, mn, e, ed, ds2, c2. split; [exact Hm|]. split; [exact Gm|]. split; [exact He|]. split; [exact Hf|]. split; [exact Dm|]. split; [exact Hv|].
    split; [rewrite Dm, Hs; exact Hc2|]. split; [lia|]. intros [H|(q & qn & H1 & H2 & H3)]; [congruence|]. specialize (Hq q qn H1 H2). lia.
Qed.

Lemma linv_reach inp ct d past curr k (X : nat -> Prop) b : linv inp ct d past [] curr k -> (g_next d = [] \/ k = N) ->
  (i_type inp = Restricted -> g_approx d = false) ->
  (forall m mn, X m -> get_node d m = Some mn -> (n_depth mn <= b)%nat) ->
  forall id n ds c, (In id past \/ In id (nextids d)) -> get_node d id = Some n -> (b <= n_depth n)%nat ->
  completion S P nv (n_depth n) (n_state n) ds c -> i_lb inp < n_value n + c ->
  exists x, c <= x /\ reach d (nextids d) X id x.
Proof.
  intros HL Hend Hty HX. assert (HA := li_arena _ _ _ _ _ _ _ HL).
  enough (Hind : forall j id n ds c, (N - n_depth n <= j)%nat -> (In id past \/ In id (nextids d)) -> get_node d id = Some n -> (b <= n_depth n)%nat ->
    completion S P nv (n_depth n) (n_state n) ds c -> i_lb inp < n_value n + c -> exists x, c <= x /\ reach d (nextids d) X id x).
  { intros id n ds c. apply (Hind (N - n_depth n)%nat). lia. }
  induction j as [|j IH]; intros id n ds c Hj Hin Hg Hb Hc Hlb.
  - destruct Hin as [Hin|Hin].
    + pose proof (li_depth _ _ _ _ _ _ _ HL id n Hin Hg). pose proof (li_range _ _ _ _ _ _ _ HL). lia.
    + exists 0. split; [|apply reach_term; exact Hin].
      destruct Hc as [s' Hr]. pose proof (no_depth _ _ _ _ (no_base _ _ _ _ (a_nodes _ _ _ HA id n Hg ltac:(discriminate)))).
      inversion Hr; subst; lia.
  - destruct Hin as [Hin|Hin].
    + pose proof (li_depth _ _ _ _ _ _ _ HL id n Hin Hg) as Hd. pose proof (li_range _ _ _ _ _ _ _ HL) as Hr.
      destruct (expd_step inp d past [] id n ds c HA Hg (li_exp _ _ _ _ _ _ _ HL id n Hin Hg) Hty ltac:(lia) Hc Hlb)
        as (m & mn & e & ed & ds' & c' & Hm & Gm & He & Hf & Dm & Hv & Hc' & Hle & _).
      destruct (IH m mn ds' c') as (x & Hx & Hr'); [lia|destruct Hm as [H|[H|[]]]; auto|exact Gm|lia|exact Hc'|lia|].
      exists (e_cost ed + x). split; [lia|]. eapply reach_step; eauto. intros H. specialize (HX m mn H Gm). lia.
    + destruct (li_layer _ _ _ _ _ _ _ HL id Hin) as (n' & G' & D). assert (n' = n) as -> by congruence.
      destruct Hend as [He|He]; [unfold nextids in Hin; rewrite He in Hin; destruct Hin|].
      exists 0. split; [|apply reach_term; exact Hin]. destruct Hc as [s' Hr]. rewrite D, He in Hr. inversion Hr; subst; lia.
Qed.

(** ** The best path into a node *)
Lemma best_chain d past : arena None d past -> forall id n, get_node d id = Some n ->
  exists r, (forall fuel, (id < fuel)%nat -> best_path_from fuel d (n_best n) = Some r) /\ (k0 + length r = n_depth n)%nat /\
    (exists b, forall fuel, (id < fuel)%nat -> has_exact_best_path fuel d (Some id) = Some b /\
      (b = true -> exists c, run S P nv k0 (sp_state sp) (rev r) (n_depth n) (n_state n) c /\ n_value n = sp_value sp + c)) /\
    (is_exact (n_flags n) = true -> exists c, run S P nv k0 (sp_state sp) (rev r) (n_depth n) (n_state n) c /\ n_value n = sp_value sp + c).
Proof.
  intros HA. enough (Hind : forall j id n, (id < j)%nat -> get_node d id = Some n ->
  exists r, (forall fuel, (id < fuel)%nat -> best_path_from fuel d (n_best n) = Some r) /\ (k0 + length r = n_depth n)%nat /\
    (exists b, forall fuel, (id < fuel)%nat -> has_exact_best_path fuel d (Some id) = Some b /\
      (b = true -> exists c, run S P nv k0 (sp_state sp) (rev r) (n_depth n) (n_state n) c /\ n_value n = sp_value sp + c)) /\
    (is_exact (n_flags n) = true -> exists c, run S P nv k0 (sp_state sp) (rev r) (n_depth n) (n_state n) c /\ n_value n = sp_value sp + c)).
  { intros id n. apply (Hind (Datatypes.S id)). lia. }
  induction j as [|j IH]; intros id n Hj Hg; [lia|].
  assert (Hok := a_nodes _ _ _ HA id n Hg ltac:(discriminate)).
  destruct (no_best _ _ _ _ Hok) as [(-> & Hb & _ & Hs & Hv & Hd & Hx)|(Hid & e & ed & pn & Hb & He & Gp & Hv & Ho & Hx)].
  - exists []. rewrite Hb. split; [intros [|f]; [lia|reflexivity]|]. split; [cbn; lia|].
    assert (Hrun : exists c, run S P nv k0 (sp_state sp) (rev []) (n_depth n) (n_state n) c /\ n_value n = sp_value sp + c).
    { exists 0. cbn. rewrite Hd, Hs, Hv. split; [constructor|lia]. }
    split; [|intros _; exact Hrun]. exists true. intros [|f] Hf; [lia|]. cbn [has_exact_best_path]. rewrite Hg. cbn [obind]. rewrite Hx. auto.
  - assert (Heo := no_edges _ _ _ _ (no_base _ _ _ _ Hok) e ed He). destruct Heo as [_ Hlt _ (pn' & Gp' & Dm & DN & Hdec & _)].
    assert (pn' = pn) as -> by congruence. clear Gp'. assert (Hnth := inb_nth _ _ _ _ He).
    destruct (IH (e_from ed) pn ltac:(lia) Gp) as (r & Hr & Hlen & (b & Hbb) & Hex).
    assert (Hrun : forall c, is_relaxed (n_flags n) = false -> run S P nv k0 (sp_state sp) (rev r) (n_depth pn) (n_state pn) c -> n_value pn = sp_value sp + c ->
      exists c, run S P nv k0 (sp_state sp) (rev (e_dec ed :: r)) (n_depth n) (n_state n) c /\ n_value n = sp_value sp + c).
    { intros c Hrel H1 H2. destruct (Ho Hrel) as (pn' & Gp' & O1 & O2). assert (pn' = pn) as -> by congruence.
      exists (c + pb_cost P (n_state pn) (e_dec ed)). cbn [rev]. rewrite Dm, O2. split; [apply run_snoc; auto|]. lia. }
    exists (e_dec ed :: r). rewrite Hb. split; [|split; [cbn [length]; lia|]].
    + intros [|f] Hf; [lia|]. cbn [best_path_from]. rewrite Hnth. cbn [obind]. rewrite Gp. cbn [obind]. rewrite (Hr f) by lia. reflexivity.
    + assert (Hexn : is_exact (n_flags n) = true -> exists c, run S P nv k0 (sp_state sp) (rev (e_dec ed :: r)) (n_depth n) (n_state n) c /\ n_value n = sp_value sp + c).
      { intros Hen. destruct (Hex (Hx Hen)) as (c & H1 & H2). apply (Hrun c); auto. apply exact_not_relaxed. exact Hen. }
      split; [|exact Hexn].
      exists (if is_exact (n_flags n) then true else if is_relaxed (n_flags n) then false else b).
      intros [|f] Hf; [lia|]. cbn [has_exact_best_path]. rewrite Hg. cbn [obind].
      destruct (is_exact (n_flags n)) eqn:Ee; [auto|]. destruct (is_relaxed (n_flags n)) eqn:Er; [split; [reflexivity|discriminate]|].
      rewrite Hb, Hnth. cbn [obind]. destruct (Hbb f ltac:(lia)) as [H1 H2]. split; [exact H1|]. intros Hbt. destruct (H2 Hbt) as (c & H3 & H4). apply (Hrun c); auto.
Qed.

Lemma best_path_ok d past id n : arena None d past -> get_node d id = Some n ->
  exists r, best_path d id = Some (sp_path sp ++ r) /\ (k0 + length r = n_depth n)%nat /\
    (is_exact (n_flags n) = true \/ has_exact_best_path (Datatypes.S (length (g_nodes d))) d (Some id) = Some true ->
     exists c, run S P nv k0 (sp_state sp) (rev r) (n_depth n) (n_state n) c /\ n_value n = sp_value sp + c).
Proof.
  intros HA Hg. destruct (best_chain d past HA id n Hg) as (r & Hr & Hl & (b & Hb) & Hx). exists r.
  assert (Hlt := get_lt _ _ _ Hg). split; [|split; [exact Hl|]].
  - unfold best_path. rewrite Hg. cbn [obind]. rewrite Hr by lia. cbn [obind]. rewrite (a_root _ _ _ HA). reflexivity.
  - intros [H|H]; [auto|]. destruct (Hb (Datatypes.S (length (g_nodes d))) ltac:(lia)) as [H1 H2]. apply H2. congruence.
Qed.

(** ** The best node of the last layer *)
Lemma max_by_value_ok (d : dd) l : (forall id, In id l -> exists n, get_node d id = Some n) ->
  exists b, max_by_value d l = Some b /\
    match b with None => l = []
    | Some i => exists bn, In i l /\ get_node d i = Some bn /\ forall id n, In id l -> get_node d id = Some n -> n_value n <= n_value bn end.
Proof.
  unfold max_by_value. set (f := fun (acc : option nat) id => _). 
  enough (Hind : forall l' acc l0, (forall id, In id (l0 ++ l') -> exists n, get_node d id = Some n) ->
    (match acc with None => l0 = []
     | Some i => exists bn, In i l0 /\ get_node d i = Some bn /\ forall id n, In id l0 -> get_node d id = Some n -> n_value n <= n_value bn end) ->
    exists b, ofold f l' acc = Some b /\
    match b with None => l0 ++ l' = []
    | Some i => exists bn, In i (l0 ++ l') /\ get_node d i = Some bn /\ forall id n, In id (l0 ++ l') -> get_node d id = Some n -> n_value n <= n_value bn end).
  { intros H. apply (Hind l None []); [exact H|reflexivity]. }
  induction l' as [|x l' IH]; intros acc l0 H Ha.
  - rewrite app_nil_r. exists acc. split; [reflexivity|exact Ha].
  - cbn [ofold]. destruct (H x) as [n Hn]; [apply in_app_iff; right; left; reflexivity|].
    assert (Heq : l0 ++ x :: l' = (l0 ++ [x]) ++ l') by (rewrite <- app_assoc; reflexivity). rewrite Heq in *.
    destruct acc as [i|].
    + destruct Ha as (bn & Hi & Gi & Hm). assert (Hf : f (Some i) x = Some (Some (if n_value n <? n_value bn then i else x))) by (unfold f; rewrite Hn; cbn [obind]; rewrite Gi; reflexivity).
      rewrite Hf. cbn [obind].
      apply IH; [exact H|]. destruct (Z.ltb_spec (n_value n) (n_value bn)).
      * exists bn. split; [apply in_app_iff; auto|]. split; [exact Gi|]. intros id m Hid Gm. apply in_app_iff in Hid as [Hid|[<-|[]]]; [eauto|]. assert (m = n) as -> by congruence. lia.
      * exists n. split; [apply in_app_iff; right; left; reflexivity|]. split; [exact Hn|]. intros id m Hid Gm. apply in_app_iff in Hid as [Hid|[<-|[]]]; [specialize (Hm id m Hid Gm); lia|]. assert (m = n) as -> by congruence. lia.
    + assert (Hf : f None x = Some (Some x)) by (unfold f; rewrite Hn; reflexivity). rewrite Hf. cbn [obind]. apply IH; [exact H|]. subst l0. cbn [app].
      exists n. split; [left; reflexivity|]. split; [exact Hn|]. intros id m [<-|[]] Gm. assert (m = n) as -> by congruence. lia.
Qed.

(** ** The last exact layer covers every improving completion *)
Lemma linv_lel inp d past gone curr k kc : linv inp LastExactLayer d past gone curr k -> g_approx d = true ->
  i_type inp = Relaxed -> (kc < k)%nat -> (forall p pn, In p past -> get_node d p = Some pn -> (In p (g_cutset d) <-> n_depth pn = kc)) ->
  g_cutset d <> [] ->
  forall j id n ds c, n_depth n = (kc - j)%nat -> (j <= kc)%nat -> In id past -> get_node d id = Some n ->
  completion S P nv (n_depth n) (n_state n) ds c -> i_lb inp < n_value n + c ->
  (exists q qn ds1 ds2 c1 c2, In q (g_cutset d) /\ get_node d q = Some qn /\ ds = ds1 ++ ds2 /\ c = c1 + c2 /\
    run S P nv (n_depth n) (n_state n) ds1 kc (n_state qn) c1 /\ completion S P nv kc (n_state qn) ds2 c2 /\ n_value n + c1 <= n_value qn) \/
  (exists g gn ds1 ds2 c1 c2, In g gone /\ get_node d g = Some gn /\ ds = ds1 ++ ds2 /\ c = c1 + c2 /\
    run S P nv (n_depth n) (n_state n) ds1 (n_depth gn) (n_state gn) c1 /\ completion S P nv (n_depth gn) (n_state gn) ds2 c2 /\ n_value n + c1 <= n_value gn /\ (n_depth gn <= kc)%nat).
Proof.
  intros HL Ha Hty Hkc Hcut Hne. assert (HA := li_arena _ _ _ _ _ _ _ HL).
  assert (Hq : exists q qn, In q (g_cutset d) /\ get_node d q = Some qn /\ n_depth qn = kc).
  { destruct (g_cutset d) as [|q l] eqn:E; [congruence|]. assert (Hqp : In q past) by (apply (a_cutpast _ _ _ HA); rewrite E; left; reflexivity).
    destruct (get_some d q (a_past _ _ _ HA q Hqp)) as (qn & G). exists q, qn. split; [left; reflexivity|]. split; [exact G|]. apply (Hcut q qn Hqp G). left. reflexivity. }
  destruct Hq as (q & qn & Hq1 & Hq2 & Hq3).
  induction j as [|j IH]; intros id n ds c Hd Hj Hin Hg Hc Hlb.
  - left. assert (Hd' : n_depth n = kc) by lia. exists id, n, [], ds, 0, c. split; [apply (Hcut id n Hin Hg); exact Hd'|]. split; [exact Hg|].
    split; [reflexivity|]. split; [lia|]. rewrite Hd' in *. split; [constructor|]. split; [exact Hc|lia].
  - pose proof (li_range _ _ _ _ _ _ _ HL) as Hr.
    destruct (expd_step inp d past gone id n ds c HA Hg (li_exp _ _ _ _ _ _ _ HL id n Hin Hg) ltac:(congruence) ltac:(lia) Hc Hlb)
        as (m & mn & e & ed & ds' & c' & Hm & Gm & He & Hf & Dm & Hv & Hc' & Hle & Horig).
    destruct Horig as (dec & -> & -> & Hs & Hdec & Hcost).
    { right. exists q, qn. split; [exact Hq1|]. split; [exact Hq2|lia]. }
    assert (Hnx : ~ In m (nextids d)).
    { intros H. destruct (li_layer _ _ _ _ _ _ _ HL m H) as (mn' & G' & D'). assert (mn' = mn) as -> by congruence. lia. }
    destruct Hm as [Hm|[Hm|Hm]]; [|contradiction|].
    + destruct (IH m mn ds' c') as [(q' & qn' & ds1 & ds2 & c1 & c2 & W1 & W2 & W3 & W4 & W5 & W6 & W7)|(q' & qn' & ds1 & ds2 & c1 & c2 & W1 & W2 & W3 & W4 & W5 & W6 & W7 & W8)];
        [lia|lia|exact Hm|exact Gm|exact Hc'|lia| |].
      * left. exists q', qn', (dec :: ds1), ds2, (pb_cost P (n_state n) dec + c1), c2. split; [exact W1|]. split; [exact W2|]. split; [cbn; congruence|]. split; [lia|].
        split; [|split; [exact W6|lia]]. rewrite Dm, Hs in W5. constructor; auto. lia.
      * right. exists q', qn', (dec :: ds1), ds2, (pb_cost P (n_state n) dec + c1), c2. split; [exact W1|]. split; [exact W2|]. split; [cbn; congruence|]. split; [lia|].
        split; [|split; [exact W6|split; [lia|exact W8]]]. rewrite Dm, Hs in W5. constructor; auto. lia.
    + right. exists m, mn, [dec], ds', (pb_cost P (n_state n) dec + 0), c'. split; [exact Hm|]. split; [exact Gm|]. split; [reflexivity|]. split; [lia|].
      split; [|split; [exact Hc'|split; [lia|lia]]]. rewrite Dm, Hs. constructor; auto; [lia|constructor].
Qed.
End Facts.
