(** What the caller of src/mdd/with_all.rs observes. *)
From Verif Require Import Spec Dd FlagsFacts MatrixFacts DdSpec MddAll DdFacts DdRelax DdExpand DdLoop DdFinal MddAllBounds MddAllFacts.
From Coq Require Import ZifyNat.
Open Scope Z_scope.

Section Facts.
Variable S : Type.
Variable eqb : S -> S -> bool.
Hypothesis eqb_spec : forall a b, eqb a b = true <-> a = b.
Variable P : problem S.
Variable R : relaxation S.
Variable at_depth : nat -> S -> Prop.
Variable nv : nat -> nat.
Variable C : Z.
Hypothesis Hwf : wf_problem S P at_depth nv.
Hypothesis Hvr : relaxation_depth S P at_depth R.
Hypothesis Hbd : bounded S P at_depth nv R C.
Variable k0 : nat.
Variable sp : subproblem S.
Notation N := (pb_nb_vars P).
Notation node := (node S).
Notation dd := (dd S).
Local Notation vbound := (@DdFacts.vbound C).
Local Notation valid_root := (@DdFacts.valid_root S P at_depth C k0 sp).
Local Notation nextids := (@DdFacts.nextids S).
Local Notation vbound_range := (@DdFacts.vbound_range S P R at_depth nv C Hbd).
Local Notation vbound_step := (@DdFacts.vbound_step S P R at_depth nv C Hbd).
Local Notation coreeq := (@DdFacts.coreeq S).
Local Notation samenode := (@DdFacts.samenode S).
Local Notation coreeq_refl := (@DdFacts.coreeq_refl S).
Local Notation samenode_refl := (@DdFacts.samenode_refl S).
Local Notation coreeq_trans := (@DdFacts.coreeq_trans S).
Local Notation samenode_trans := (@DdFacts.samenode_trans S).
Local Notation stable := (@DdFacts.stable S).
Local Notation stable_refl := (@DdFacts.stable_refl S).
Local Notation stable_trans := (@DdFacts.stable_trans S k0).
Local Notation stable_weaken := (@DdFacts.stable_weaken S).
Local Notation edge_ok := (@DdFacts.edge_ok S P nv C).
Local Notation orig_edge := (@DdFacts.orig_edge S P).
Local Notation orig_all := (@DdFacts.orig_all S P).
Local Notation is_root := (@DdFacts.is_root S k0 sp).
Local Notation best_ok := (@DdFacts.best_ok S P k0 sp).
Local Notation node_base := (@DdFacts.node_base S P at_depth nv C k0).
Local Notation node_ok := (@DdFacts.node_ok S P at_depth nv C k0 sp).
Local Notation cleanf := (@DdFacts.cleanf S).
Local Notation clean := (@DdFacts.clean S).
Local Notation arena := (@DdFacts.arena S P at_depth nv C k0 sp).
Local Notation layer_at := (@DdFacts.layer_at S).
Local Notation get_lt := (@DdFacts.get_lt S).
Local Notation get_some := (@DdFacts.get_some S).
Local Notation upd_node_spec := (@DdFacts.upd_node_spec S).
Local Notation orig_edge_mono := (@DdFacts.orig_edge_mono S P).
Local Notation edge_ok_mono := (@DdFacts.edge_ok_mono S P nv C).
Local Notation past_frozen := (@DdFacts.past_frozen S).
Local Notation node_base_mono := (@DdFacts.node_base_mono S P at_depth nv C k0).
Local Notation best_ok_mono := (@DdFacts.best_ok_mono S P at_depth nv C k0 sp).
Local Notation node_ok_mono := (@DdFacts.node_ok_mono S P at_depth nv C k0 sp).
Local Notation orig_all_mono := (@DdFacts.orig_all_mono S P at_depth nv C k0).
Local Notation stable_past := (@DdFacts.stable_past S).
Local Notation next_get_in := (@DdFacts.next_get_in S eqb eqb_spec).
Local Notation next_get_none := (@DdFacts.next_get_none S eqb eqb_spec).
Local Notation nextids_in := (@DdFacts.nextids_in S).
Local Notation all_exact := (@DdFacts.all_exact S).
Local Notation grows := (@DdFacts.grows S).
Local Notation grows_refl := (@DdFacts.grows_refl S).
Local Notation nextids_incl := (@DdFacts.nextids_incl S).
Local Notation grows_trans := (@DdFacts.grows_trans S).
Local Notation same_rest := (@DdFacts.same_rest S).
Local Notation same_rest_refl := (@DdFacts.same_rest_refl S).
Local Notation same_rest_trans := (@DdFacts.same_rest_trans S).
Local Notation has_edge := (@DdFacts.has_edge S P).
Local Notation has_edge_grows := (@DdFacts.has_edge_grows S P).
Local Notation branch_spec := (@DdFacts.branch_spec S eqb eqb_spec P R at_depth nv C Hwf Hbd k0 sp).
Local Notation vr_path := (@DdFacts.vr_path S P at_depth C k0 sp).
Local Notation vr_le := (@DdFacts.vr_le S P at_depth C k0 sp).
Local Notation vr_at := (@DdFacts.vr_at S P at_depth C k0 sp).
Local Notation vr_val := (@DdFacts.vr_val S P at_depth C k0 sp).
Local Notation ce_state := (@DdFacts.ce_state S).
Local Notation ce_value := (@DdFacts.ce_value S).
Local Notation ce_best := (@DdFacts.ce_best S).
Local Notation ce_inb := (@DdFacts.ce_inb S).
Local Notation ce_depth := (@DdFacts.ce_depth S).
Local Notation ce_exact := (@DdFacts.ce_exact S).
Local Notation ce_relaxed := (@DdFacts.ce_relaxed S).
Local Notation sn_core := (@DdFacts.sn_core S).
Local Notation sn_rub := (@DdFacts.sn_rub S).
Local Notation sn_theta := (@DdFacts.sn_theta S).
Local Notation sn_bot := (@DdFacts.sn_bot S).
Local Notation sn_marked := (@DdFacts.sn_marked S).
Local Notation sn_deleted := (@DdFacts.sn_deleted S).
Local Notation sn_barrier := (@DdFacts.sn_barrier S).
Local Notation st_edges := (@DdFacts.st_edges S).
Local Notation st_len := (@DdFacts.st_len S).
Local Notation st_nodes := (@DdFacts.st_nodes S).
Local Notation st_root := (@DdFacts.st_root S).
Local Notation st_ctype := (@DdFacts.st_ctype S).
Local Notation eo_past := (@DdFacts.eo_past S P nv C).
Local Notation eo_lt := (@DdFacts.eo_lt S P nv C).
Local Notation eo_cost := (@DdFacts.eo_cost S P nv C).
Local Notation eo_parent := (@DdFacts.eo_parent S P nv C).
Local Notation no_depth := (@DdFacts.no_depth S P at_depth nv C k0).
Local Notation no_at := (@DdFacts.no_at S P at_depth nv C k0).
Local Notation no_head := (@DdFacts.no_head S P at_depth nv C k0).
Local Notation no_edges := (@DdFacts.no_edges S P at_depth nv C k0).
Local Notation no_marked := (@DdFacts.no_marked S P at_depth nv C k0).
Local Notation no_bot := (@DdFacts.no_bot S P at_depth nv C k0).
Local Notation no_base := (@DdFacts.no_base S P at_depth nv C k0 sp).
Local Notation no_val := (@DdFacts.no_val S P at_depth nv C k0 sp).
Local Notation no_best := (@DdFacts.no_best S P at_depth nv C k0 sp).
Local Notation a_edges := (@DdFacts.a_edges S P at_depth nv C k0 sp).
Local Notation a_len := (@DdFacts.a_len S P at_depth nv C k0 sp).
Local Notation a_nodes := (@DdFacts.a_nodes S P at_depth nv C k0 sp).
Local Notation a_past := (@DdFacts.a_past S P at_depth nv C k0 sp).
Local Notation a_lt := (@DdFacts.a_lt S P at_depth nv C k0 sp).
Local Notation a_keys := (@DdFacts.a_keys S P at_depth nv C k0 sp).
Local Notation a_next := (@DdFacts.a_next S P at_depth nv C k0 sp).
Local Notation a_cut := (@DdFacts.a_cut S P at_depth nv C k0 sp).
Local Notation a_cutpast := (@DdFacts.a_cutpast S P at_depth nv C k0 sp).
Local Notation a_root := (@DdFacts.a_root S P at_depth nv C k0 sp).
Local Notation gr_incl := (@DdFacts.gr_incl S).
Local Notation gr_fresh := (@DdFacts.gr_fresh S).
Local Notation gr_nodes := (@DdFacts.gr_nodes S).
Local Notation sr_prev := (@DdFacts.sr_prev S).
Local Notation sr_cut := (@DdFacts.sr_cut S).
Local Notation sr_lel := (@DdFacts.sr_lel S).
Local Notation sr_best := (@DdFacts.sr_best S).
Local Notation sr_exact := (@DdFacts.sr_exact S).
Local Notation sr_approx := (@DdFacts.sr_approx S).
Local Notation chg := (@DdRelax.chg S).
Local Notation chg_refl := (@DdRelax.chg_refl S).
Local Notation chg_trans := (@DdRelax.chg_trans S).
Local Notation chg_weaken := (@DdRelax.chg_weaken S).
Local Notation chg_frozen := (@DdRelax.chg_frozen S).
Local Notation upd_node_chg := (@DdRelax.upd_node_chg S).
Local Notation mok := (@DdRelax.mok S P at_depth nv C k0 sp).
Local Notation chain_ok := (@DdRelax.chain_ok S P nv).
Local Notation arena_chg := (@DdRelax.arena_chg S P at_depth nv C k0 sp).
Local Notation chain_ok_mono := (@DdRelax.chain_ok_mono S P nv).
Local Notation arena_touch := (@DdRelax.arena_touch S P at_depth nv C k0 sp).
Local Notation mok_mono := (@DdRelax.mok_mono S P at_depth nv C k0 sp).
Local Notation redirected := (@DdRelax.redirected S R).
Local Notation redirect_spec := (@DdRelax.redirect_spec S P R at_depth nv C Hbd k0 sp).
Local Notation dropped := (@DdRelax.dropped S).
Local Notation drop_fold := (@DdRelax.drop_fold S P R at_depth nv C Hbd k0 sp).
Local Notation arena_tmp := (@DdRelax.arena_tmp S P at_depth nv C k0 sp).
Local Notation arena_tmp_close := (@DdRelax.arena_tmp_close S P at_depth nv C k0 sp).
Local Notation arena_ext := (@DdRelax.arena_ext S P at_depth nv C k0 sp).
Local Notation mark_spec := (@DdRelax.mark_spec S P at_depth nv C k0 sp).
Local Notation mark_fold := (@DdRelax.mark_fold S P at_depth nv C k0 sp).
Local Notation layer_ok := (@DdRelax.layer_ok S).
Local Notation sorts := (@DdRelax.sorts S).
Local Notation map_states_some := (@DdRelax.map_states_some S).
Local Notation map_states_in := (@DdRelax.map_states_in S).
Local Notation kept := (@DdRelax.kept S).
Local Notation merged_into := (@DdRelax.merged_into S R at_depth).
Local Notation relax_spec := (@DdRelax.relax_spec S eqb eqb_spec P R at_depth nv C Hvr Hbd k0 sp).
Local Notation cg_edges := (@DdRelax.cg_edges S).
Local Notation cg_len := (@DdRelax.cg_len S).
Local Notation cg_nodes := (@DdRelax.cg_nodes S).
Local Notation cg_rest := (@DdRelax.cg_rest S).
Local Notation cg_next := (@DdRelax.cg_next S).
Local Notation cg_root := (@DdRelax.cg_root S).
Local Notation cg_ctype := (@DdRelax.cg_ctype S).
Local Notation cg_expl := (@DdRelax.cg_expl S).
Local Notation mk_base := (@DdRelax.mk_base S P at_depth nv C k0 sp).
Local Notation mk_state := (@DdRelax.mk_state S P at_depth nv C k0 sp).
Local Notation mk_depth := (@DdRelax.mk_depth S P at_depth nv C k0 sp).
Local Notation mk_rel := (@DdRelax.mk_rel S P at_depth nv C k0 sp).
Local Notation mk_clean := (@DdRelax.mk_clean S P at_depth nv C k0 sp).
Local Notation mk_cut := (@DdRelax.mk_cut S P at_depth nv C k0 sp).
Local Notation mk_cases := (@DdRelax.mk_cases S P at_depth nv C k0 sp).
Local Notation lo_nodup := (@DdRelax.lo_nodup S).
Local Notation lo_node := (@DdRelax.lo_node S).
Local Notation restrict_spec := (@DdExpand.restrict_spec S P at_depth nv C k0 sp).
Local Notation arena_past := (@DdExpand.arena_past S P at_depth nv C k0 sp).
Local Notation doneok := (@DdExpand.doneok S P nv).
Local Notation expanding := (@DdExpand.expanding S P at_depth nv C k0 sp).
Local Notation expanding_init := (@DdExpand.expanding_init S P at_depth nv C k0 sp).
Local Notation has_edge_state := (@DdExpand.has_edge_state S P).
Local Notation doneok_grows := (@DdExpand.doneok_grows S P nv).
Local Notation branch_fold := (@DdExpand.branch_fold S eqb eqb_spec P R at_depth nv C Hwf Hbd k0 sp).
Local Notation expand_step := (@DdExpand.expand_step S eqb eqb_spec P R at_depth nv C Hwf Hbd k0 sp).
Local Notation expand_fold := (@DdExpand.expand_fold S eqb eqb_spec P R at_depth nv C Hwf Hbd k0 sp).
Local Notation dn_rub := (@DdExpand.dn_rub S P nv).
Local Notation dn_bot := (@DdExpand.dn_bot S P nv).
Local Notation dn_marked := (@DdExpand.dn_marked S P nv).
Local Notation dn_deleted := (@DdExpand.dn_deleted S P nv).
Local Notation dn_barrier := (@DdExpand.dn_barrier S P nv).
Local Notation dn_cases := (@DdExpand.dn_cases S P nv).
Local Notation ex_arena := (@DdExpand.ex_arena S P at_depth nv C k0 sp).
Local Notation ex_layer := (@DdExpand.ex_layer S P at_depth nv C k0 sp).
Local Notation ex_fresh := (@DdExpand.ex_fresh S P at_depth nv C k0 sp).
Local Notation ex_rest := (@DdExpand.ex_rest S P at_depth nv C k0 sp).
Local Notation ex_edges := (@DdExpand.ex_edges S P at_depth nv C k0 sp).
Local Notation ex_len := (@DdExpand.ex_len S P at_depth nv C k0 sp).
Local Notation ex_root := (@DdExpand.ex_root S P at_depth nv C k0 sp).
Local Notation ex_ctype := (@DdExpand.ex_ctype S P at_depth nv C k0 sp).
Local Notation ex_old := (@DdExpand.ex_old S P at_depth nv C k0 sp).
Local Notation ex_exact := (@DdExpand.ex_exact S P at_depth nv C k0 sp).
Local Notation ex_expl := (@DdExpand.ex_expl S P at_depth nv C k0 sp).
Local Notation iters := (@DdLoop.iters S).
Local Notation child_ok := (@DdLoop.child_ok S P R at_depth).
Local Notation expd := (@DdLoop.expd S P R at_depth nv).
Local Notation linv := (@DdLoop.linv S P R at_depth nv C k0 sp).
Local Notation mid := (@DdLoop.mid S P R at_depth nv C k0 sp).
Local Notation linv_step := (@DdLoop.linv_step S P R at_depth nv C k0 sp).
Local Notation li_arena := (@DdLoop.li_arena S P R at_depth nv C k0 sp).
Local Notation li_layer := (@DdLoop.li_layer S P R at_depth nv C k0 sp).
Local Notation li_range := (@DdLoop.li_range S P R at_depth nv C k0 sp).
Local Notation li_disj := (@DdLoop.li_disj S P R at_depth nv C k0 sp).
Local Notation li_curr := (@DdLoop.li_curr S P R at_depth nv C k0 sp).
Local Notation li_currin := (@DdLoop.li_currin S P R at_depth nv C k0 sp).
Local Notation li_depth := (@DdLoop.li_depth S P R at_depth nv C k0 sp).
Local Notation li_exp := (@DdLoop.li_exp S P R at_depth nv C k0 sp).
Local Notation li_exact := (@DdLoop.li_exact S P R at_depth nv C k0 sp).
Local Notation li_typ := (@DdLoop.li_typ S P R at_depth nv C k0 sp).
Local Notation li_nocut := (@DdLoop.li_nocut S P R at_depth nv C k0 sp).
Local Notation li_lel := (@DdLoop.li_lel S P R at_depth nv C k0 sp).
Local Notation li_cutexact := (@DdLoop.li_cutexact S P R at_depth nv C k0 sp).
Local Notation li_ctype := (@DdLoop.li_ctype S P R at_depth nv C k0 sp).
Local Notation li_root := (@DdLoop.li_root S P R at_depth nv C k0 sp).
Local Notation li_pastnd := (@DdLoop.li_pastnd S P R at_depth nv C k0 sp).
Local Notation li_width := (@DdLoop.li_width S P R at_depth nv C k0 sp).
Local Notation li_expl := (@DdLoop.li_expl S P R at_depth nv C k0 sp).
Local Notation li_best := (@DdLoop.li_best S P R at_depth nv C k0 sp).
Local Notation li_gone := (@DdLoop.li_gone S P R at_depth nv C k0 sp).
Local Notation li_near := (@DdLoop.li_near S P R at_depth nv C k0 sp).
Local Notation md_arena := (@DdLoop.md_arena S P R at_depth nv C k0 sp).
Local Notation md_next := (@DdLoop.md_next S P R at_depth nv C k0 sp).
Local Notation md_layer := (@DdLoop.md_layer S P R at_depth nv C k0 sp).
Local Notation md_stable := (@DdLoop.md_stable S P R at_depth nv C k0 sp).
Local Notation md_incl := (@DdLoop.md_incl S P R at_depth nv C k0 sp).
Local Notation md_cover := (@DdLoop.md_cover S P R at_depth nv C k0 sp).
Local Notation md_approx := (@DdLoop.md_approx S P R at_depth nv C k0 sp).
Local Notation md_typ := (@DdLoop.md_typ S P R at_depth nv C k0 sp).
Local Notation md_allex := (@DdLoop.md_allex S P R at_depth nv C k0 sp).
Local Notation md_cut := (@DdLoop.md_cut S P R at_depth nv C k0 sp).
Local Notation md_width := (@DdLoop.md_width S P R at_depth nv C k0 sp).
Local Notation md_expl := (@DdLoop.md_expl S P R at_depth nv C k0 sp).
Local Notation md_best := (@DdLoop.md_best S P R at_depth nv C k0 sp).
Local Notation md_near := (@DdLoop.md_near S P R at_depth nv C k0 sp).
Local Notation run_bound := (@DdFinal.run_bound S eqb eqb_spec P R at_depth nv C Hwf Hbd).
Local Notation completion_bound := (@DdFinal.completion_bound S eqb eqb_spec P R at_depth nv C Hwf Hbd).
Local Notation value_bound := (@DdFinal.value_bound S P R at_depth nv C Hbd).
Local Notation run_app := (@DdFinal.run_app S P nv).
Local Notation run_snoc := (@DdFinal.run_snoc S eqb eqb_spec P nv).
Local Notation reach := (@DdFinal.reach S).
Local Notation reach_value := (@DdFinal.reach_value S P at_depth nv C k0 sp).
Local Notation reach_bound := (@DdFinal.reach_bound S P at_depth nv C k0 sp).
Local Notation expd_step := (@DdFinal.expd_step S eqb eqb_spec P R at_depth nv C Hwf Hbd k0 sp).
Local Notation linv_reach := (@DdFinal.linv_reach S eqb eqb_spec P R at_depth nv C Hwf Hbd k0 sp).
Local Notation best_chain := (@DdFinal.best_chain S eqb eqb_spec P at_depth nv C k0 sp).
Local Notation best_path_ok := (@DdFinal.best_path_ok S eqb eqb_spec P at_depth nv C k0 sp).
Local Notation max_by_value_ok := (@DdFinal.max_by_value_ok S).
Local Notation linv_lel := (@DdFinal.linv_lel S eqb eqb_spec P R at_depth nv C Hwf Hbd k0 sp).
Local Notation reach_term := (@DdFinal.reach_term S).
Local Notation reach_step := (@DdFinal.reach_step S).
Local Notation live := (@MddAllBounds.live S).
Local Notation wave := (@MddAllBounds.wave S).
Local Notation unch := (@MddAllBounds.unch S).
Local Notation unch_refl := (@MddAllBounds.unch_refl S).
Local Notation unch_trans := (@MddAllBounds.unch_trans S).
Local Notation edge_step := (@MddAllBounds.edge_step S).
Local Notation bounds_edges_unfold := (@MddAllBounds.bounds_edges_unfold S).
Local Notation edge_step_ok := (@MddAllBounds.edge_step_ok S P at_depth nv C k0 sp).
Local Notation seen := (@MddAllBounds.seen S).
Local Notation seen_unch := (@MddAllBounds.seen_unch S).
Local Notation bounds_edges_ok := (@MddAllBounds.bounds_edges_ok S P at_depth nv C k0 sp).
Local Notation bounds_wave := (@MddAllBounds.bounds_wave S P at_depth nv C k0 sp).
Local Notation processed := (@MddAllBounds.processed S).
Local Notation bounds_loop_ok := (@MddAllBounds.bounds_loop_ok S P at_depth nv C k0 sp).
Local Notation init_fold := (@MddAllBounds.init_fold S).
Local Notation local_bounds_ok := (@MddAllBounds.local_bounds_ok S P at_depth nv C k0 sp).
Local Notation w_edges := (@MddAllBounds.w_edges S).
Local Notation w_len := (@MddAllBounds.w_len S).
Local Notation w_frame := (@MddAllBounds.w_frame S).
Local Notation w_nodes := (@MddAllBounds.w_nodes S).
Local Notation w_cutflag := (@MddAllBounds.w_cutflag S).
Local Notation w_cutold := (@MddAllBounds.w_cutold S).
Local Notation w_cutlel := (@MddAllBounds.w_cutlel S).
Local Notation w_cutnew := (@MddAllBounds.w_cutnew S).
Local Notation w_mark := (@MddAllBounds.w_mark S).
Local Notation w_visit := (@MddAllBounds.w_visit S).
Local Notation w_vis := (@MddAllBounds.w_vis S).
Local Notation w_live := (@MddAllBounds.w_live S).
Local Notation u_nodes := (@MddAllBounds.u_nodes S).
Local Notation u_cut := (@MddAllBounds.u_cut S).
Local Notation linv_set_prev := (@MddAllFacts.linv_set_prev S P R at_depth nv C k0 sp).
Local Notation arena_drain := (@MddAllFacts.arena_drain S P at_depth nv C k0 sp).
Local Notation nextids_nodup := (@MddAllFacts.nextids_nodup S P at_depth nv C k0 sp).
Local Notation drained_layer := (@MddAllFacts.drained_layer S P R at_depth nv C k0 sp).
Local Notation mid_keep := (@MddAllFacts.mid_keep S P R at_depth nv C k0 sp).
Local Notation mid_restrict := (@MddAllFacts.mid_restrict S P R at_depth nv C k0 sp).
Local Notation mid_relax := (@MddAllFacts.mid_relax S eqb eqb_spec P R at_depth nv C Hvr Hbd k0 sp).
Local Notation layer_step_ok := (@MddAllFacts.layer_step_ok S eqb eqb_spec P R at_depth nv C Hwf Hvr Hbd k0 sp).
Local Notation layers_ok := (@MddAllFacts.layers_ok S eqb eqb_spec P R at_depth nv C Hwf Hvr Hbd k0 sp).
Local Notation root_linv := (@MddAllFacts.root_linv S P R at_depth nv C k0 sp).
Local Notation compile_ok := (@MddAllFacts.compile_ok S eqb eqb_spec P R at_depth nv C Hwf Hvr Hbd k0 sp).
Notation genuine := (DdSpec.genuine S P nv).
Notation completes := (DdSpec.completes S P nv).
Notation descends := (DdSpec.descends S P nv).
Notation good_call := (DdSpec.good_call S P R nv).

Lemma genuine_root q : genuine q -> @DdFacts.valid_root S P at_depth C (depth_of q) q.
Proof.
  intros (ds & c & Hp & Hr & Hv). destruct (run_bound _ _ _ _ _ _ Hr (wf_init _ _ _ _ Hwf)) as [(_ & Hat & Hlen) Hc].
  assert (Hle : (depth_of q <= N)%nat).
  { clear - Hr. remember 0%nat as k. assert (k <= N)%nat by lia. clear Heqk. induction Hr; [assumption|apply IHHr; lia]. }
  constructor; auto. unfold DdFacts.vbound. rewrite Hv. pose proof (bd_init _ _ _ _ _ _ Hbd). rewrite Nat.sub_0_r in Hc. lia.
Qed.

Hypothesis Hgen : genuine sp.
Hypothesis Hk0 : k0 = depth_of sp.

Lemma genuine_bound : forall q, genuine q -> (depth_of q <= N)%nat.
Proof. intros q Hq. apply (genuine_root q Hq). Qed.

(** The facts about a compilation, with the definitions of [good_call] unfolded. *)
Lemma compile_good debug orc inp d : i_res inp = sp -> good_call debug orc inp ->
  exists dF d1 past curr kF b e, compile eqb debug orc inp d = Some dF /\ linv inp (g_ctype d) d1 past [] curr kF /\ (g_next d1 = [] \/ kF = N) /\
    (match b with None => g_next d1 = []
     | Some i => exists bn, In i (nextids d1) /\ get_node d1 i = Some bn /\ forall id n, In id (nextids d1) -> get_node d1 id = Some n -> n_value n <= n_value bn end) /\
    compute_exact (set_best_exact d1 b true) (i_type inp) = Some e /\
    (if match i_type inp with Relaxed => negb e | _ => false end
     then wave (set_best_exact d1 b e) dF [] 0 0 /\ processed (set_best_exact d1 b e) dF 0 /\
       (forall id n', In id (nextids d1) -> get_node dF id = Some n' -> is_marked (n_flags n') = true /\ 0 <= n_bot n')
     else dF = set_best_exact d1 b e).
Proof.
  intros Hres [(Hit & Hso & _) Hpb Hrx Hw _ Hd]. apply compile_ok; auto; [rewrite Hk0; apply genuine_root, Hgen|].
  rewrite Hres in Hd. exact Hd.
Qed.

(** The observable answers in terms of the arena before the local bounds. *)
Lemma final_best dF d1 b e t : (if match t with Relaxed => negb e | _ => false end
     then wave (set_best_exact d1 b e) dF [] 0 0 /\ processed (set_best_exact d1 b e) dF 0 /\
       (forall id n', In id (nextids d1) -> get_node dF id = Some n' -> is_marked (n_flags n') = true /\ 0 <= n_bot n')
     else dF = set_best_exact d1 b e) ->
  g_best dF = b /\ g_exact dF = e /\ g_edges dF = g_edges d1 /\ g_root_pa dF = g_root_pa d1 /\ length (g_nodes dF) = length (g_nodes d1) /\
  (forall id n, get_node d1 id = Some n -> exists n', get_node dF id = Some n' /\ coreeq n n').
Proof.
  destruct (match t with Relaxed => negb e | _ => false end).
  - intros ([w1 w2 w3 w4 _ _ _ _ _ _ _ _] & _ & _). destruct w3 as (f1 & f2 & f3 & f4 & f5 & f6 & f7 & f8). repeat split; auto.
    intros id n H. destruct (w4 id n H) as (n' & H1 & H2 & _). eauto.
  - intros ->. repeat split; auto. intros id n H. exists n. auto using coreeq_refl.
Qed.

Lemma best_path_from_core (d d' : dd) : g_edges d' = g_edges d -> (forall id n, get_node d id = Some n -> exists n', get_node d' id = Some n' /\ coreeq n n') ->
  forall fuel e r, best_path_from fuel d e = Some r -> best_path_from fuel d' e = Some r.
Proof.
  intros He Hn. induction fuel as [|fuel IH]; intros [e|] r; cbn [best_path_from]; auto. rewrite He.
  destruct (nth_error (g_edges d) e) as [ed|]; cbn [obind]; [|discriminate].
  destruct (get_node d (e_from ed)) as [n|] eqn:G; cbn [obind]; [|discriminate]. destruct (Hn _ _ G) as (n' & -> & Hc). cbn [obind]. rewrite (ce_best _ _ Hc).
  destruct (best_path_from fuel d (n_best n)) as [r0|] eqn:E; cbn [obind]; [|discriminate]. rewrite (IH _ _ E). auto.
Qed.
Lemma best_path_core (d d' : dd) id p : g_edges d' = g_edges d -> g_root_pa d' = g_root_pa d -> length (g_nodes d') = length (g_nodes d) ->
  (forall id n, get_node d id = Some n -> exists n', get_node d' id = Some n' /\ coreeq n n') ->
  best_path d id = Some p -> best_path d' id = Some p.
Proof.
  intros He Hr Hl Hn. unfold best_path. destruct (get_node d id) as [n|] eqn:G; cbn [obind]; [|discriminate].
  destruct (Hn _ _ G) as (n' & -> & Hc). cbn [obind]. rewrite (ce_best _ _ Hc), Hl, Hr.
  destruct (best_path_from (Datatypes.S (length (g_nodes d))) d (n_best n)) as [r0|] eqn:E; cbn [obind]; [|discriminate].
  rewrite (best_path_from_core d d' He Hn _ _ _ E). auto.
Qed.

(** ** Best value and best solution *)
Lemma obs_best debug orc inp d dF : i_res inp = sp -> good_call debug orc inp -> compile eqb debug orc inp d = Some dF ->
  exists ob, best_value dF = Some ob /\
  match ob with
  | None => best_solution dF = Some None
  | Some v => exists r, best_solution dF = Some (Some (sp_path sp ++ r)) /\ (k0 + length r = N)%nat /\
      (i_type inp <> Relaxed \/ g_exact dF = true -> exists c, completion S P nv k0 (sp_state sp) (rev r) c /\ v = sp_value sp + c)
  end.
Proof.
  intros Hres Hgc E. destruct (compile_good debug orc inp d Hres Hgc) as (dF' & d1 & past & curr & kF & b & e & E' & HL & Hend & Hb & He & HF).
  rewrite E in E'. inversion E'; subst dF'. clear E'. destruct (final_best _ _ _ _ _ HF) as (F1 & F2 & F3 & F4 & F5 & F6).
  unfold best_value, best_solution. rewrite F1, F2. destruct b as [i|]; [|exists None; auto].
  destruct Hb as (bn & Hi & G & Hmax). destruct (F6 i bn G) as (bn' & G' & Hc). rewrite G'. cbn [obind]. exists (Some (n_value bn')). split; [reflexivity|].
  assert (HA' : arena None (set_best_exact d1 (Some i) true) past) by (eapply arena_ext; [apply HL|reflexivity..]).
  destruct (best_path_ok (set_best_exact d1 (Some i) true) past i bn HA' G) as (r & Hr & Hlen & Hex).
  exists r. rewrite (best_path_core (set_best_exact d1 (Some i) true) dF i _ F3 F4 F5 F6 Hr). cbn [obind].
  assert (HkN : kF = N). { destruct Hend as [H|H]; [|exact H]. unfold nextids in Hi. rewrite H in Hi. destruct Hi. }
  destruct (li_layer _ _ _ _ _ _ _ HL i Hi) as (bn0 & G0 & D). assert (bn0 = bn) as -> by congruence.
  split; [reflexivity|]. split; [lia|]. intros Hty.
  destruct Hex as (c & Hrun & Hval).
  - unfold compute_exact in He. cbn [g_approx set_best_exact g_nodes g_best] in He. destruct (g_approx d1) eqn:Ea; cbn [negb] in He.
    + destruct (i_type inp) eqn:Ety; [left; eapply (li_exact _ _ _ _ _ _ _ HL); [right; congruence|exact G]| |left; eapply (li_exact _ _ _ _ _ _ _ HL); [right; congruence|exact G]].
      right. destruct Hty as [Hty| ->]; [congruence|]. exact He.
    + left. eapply (li_exact _ _ _ _ _ _ _ HL); [left; exact Ea|exact G].
  - exists c. rewrite (ce_value _ _ Hc). split; [|exact Hval]. exists (n_state bn). rewrite <- HkN, <- D. exact Hrun.
Qed.

(** ** Upper bound *)
Lemma root_node (d : dd) past : arena None d past -> exists n, get_node d 0%nat = Some n /\ n_state n = sp_state sp /\ n_value n = sp_value sp /\ n_depth n = k0.
Proof.
  intros HA. destruct (get_some d 0%nat (a_len _ _ _ HA)) as [n G]. exists n. split; [exact G|].
  destruct (no_best _ _ _ _ (a_nodes _ _ _ HA 0%nat n G ltac:(discriminate))) as [(_ & _ & _ & H1 & H2 & H3 & _)|[H _]]; [auto|congruence].
Qed.

Lemma drain_list_ok (d : dd) best : forall l, (forall id, In id l -> exists n p, get_node d id = Some n /\ best_path d id = Some p) ->
  exists L, drain_list d best l = Some L /\
    (forall q, In q L <-> exists id n p, In id l /\ get_node d id = Some n /\ is_marked (n_flags n) = true /\ best_path d id = Some p /\
       q = mk_sub (n_state n) (n_value n) p (Z.min (Z.min (sat_add (n_value n) (n_rub n)) (sat_add (n_value n) (n_bot n))) best)).
Proof.
  induction l as [|i l IH]; intros H; cbn [drain_list].
  - exists []. split; [reflexivity|]. intros q. split; [intros []|intros (id & n & p & [] & _)].
  - destruct (H i (or_introl eq_refl)) as (n & p & G & Hp). destruct IH as (L & E & HL); [intros; apply H; right; assumption|].
    unfold drain_node at 1. rewrite G. cbn [obind]. rewrite Hp. cbn [obind]. rewrite E. cbn [obind].
    destruct (is_marked (n_flags n)) eqn:Em; cbn [obind]; (eexists; split; [reflexivity|]); intros q; rewrite in_app_iff, HL; split.
    + intros [[<-|[]]|(id & n0 & p0 & H1 & H2)]; [exists i, n, p|exists id, n0, p0]; (split; [|]); [left; reflexivity|auto|right; exact H1|exact H2].
    + intros (id & n0 & p0 & [<-|H1] & H2 & H3 & H4 & ->); [left; left|right; exists id, n0, p0; auto].
      assert (n0 = n) as -> by congruence. assert (p0 = p) as -> by congruence. reflexivity.
    + intros [[]|(id & n0 & p0 & H1 & H2)]. exists id, n0, p0. split; [right; exact H1|exact H2].
    + intros (id & n0 & p0 & [<-|H1] & H2 & H3 & H4); [congruence|]. right. exists id, n0, p0. auto.
Qed.

Lemma cut_node inp ct d1 dF past curr kF b e id : linv inp ct d1 past [] curr kF -> i_type inp = Relaxed -> g_approx d1 = true ->
  wave (set_best_exact d1 b e) dF [] 0 0 -> In id (g_cutset dF) ->
  exists n n', get_node d1 id = Some n /\ get_node dF id = Some n' /\ coreeq n n' /\ n_rub n' = pb_estimate P (n_state n) /\ In id past /\
    is_exact (n_flags n) = true /\ (k0 < n_depth n)%nat /\ (forall q qn, In q (g_cutset d1) -> get_node d1 q = Some qn -> (n_depth qn <= n_depth n)%nat).
Proof.
  intros HL Hty Ha HW Hid. assert (HA := li_arena _ _ _ _ _ _ _ HL).
  assert (Hcase : In id past /\ exists n, get_node d1 id = Some n /\ is_exact (n_flags n) = true /\ (k0 < n_depth n)%nat /\
    (forall q qn, In q (g_cutset d1) -> get_node d1 q = Some qn -> (n_depth qn <= n_depth n)%nat)).
  { assert (Hct := li_ctype _ _ _ _ _ _ _ HL). destruct ct.
    - rewrite (w_cutlel _ _ _ _ _ HW Hct) in Hid. change (In id (g_cutset d1)) in Hid. assert (Hp := a_cutpast _ _ _ HA id Hid). split; [exact Hp|].
      destruct (get_some d1 id (a_past _ _ _ HA id Hp)) as [n G]. exists n. split; [exact G|]. split; [apply (li_cutexact _ _ _ _ _ _ _ HL id n Hid G)|].
      destruct (li_lel _ _ _ _ _ _ _ HL Ha eq_refl Hty) as (kc & Hk & _ & Hkc). assert (n_depth n = kc) by (apply (Hkc id n Hp G); exact Hid). split; [lia|].
      intros q qn Hq Gq. assert (n_depth qn = kc) by (apply (Hkc q qn (a_cutpast _ _ _ HA q Hq) Gq); exact Hq). lia.
    - assert (Hnil : g_cutset d1 = []) by (apply (li_nocut _ _ _ _ _ _ _ HL); auto).
      destruct (w_cutnew _ _ _ _ _ HW id Hid) as [H|(qn & e0 & m & mn & ed & G1 & X1 & M1 & Gm & He & Hf & Xm & Hlv)]; [change (In id (g_cutset d1)) in H; rewrite Hnil in H; destruct H|].
      change (get_node d1 m = Some mn) in Gm. change (inb (g_edges d1) (n_inbound mn) e0 ed) in He.
      assert (Heo := no_edges _ _ _ _ (no_base _ _ _ _ (a_nodes _ _ _ HA m mn Gm ltac:(discriminate))) e0 ed He). destruct Heo as [Hp _ _ (pn & Gp & Dp & _)]. rewrite Hf in Hp, Gp.
      split; [exact Hp|]. exists pn. split; [exact Gp|]. destruct (w_nodes _ _ _ _ _ HW id pn Gp) as (pn' & Gp' & Hc & _). assert (pn' = qn) as -> by congruence.
      split; [rewrite <- (ce_exact _ _ Hc); exact X1|]. split; [|intros q qn0 Hq; rewrite Hnil in Hq; destruct Hq].
      assert (Hm : In m past \/ In m (nextids d1)).
      { destruct Hlv as [H|(m2 & mn2 & e2 & ed2 & Gm2 & He2 & Hf2)]; [right; exact H|left].
        change (get_node d1 m2 = Some mn2) in Gm2. change (inb (g_edges d1) (n_inbound mn2) e2 ed2) in He2.
        destruct (no_edges _ _ _ _ (no_base _ _ _ _ (a_nodes _ _ _ HA m2 mn2 Gm2 ltac:(discriminate))) e2 ed2 He2) as [Hp2 _ _ _]. congruence. }
      destruct (Nat.le_gt_cases (n_depth mn) (k0 + 1)) as [Hd|Hd]; [|lia].
      rewrite (proj2 (li_near _ _ _ _ _ _ _ HL Hty) m mn Hm Gm Hd) in Xm. discriminate. }
  destruct Hcase as (Hp & n & G & Hx & Hd & Hmax). destruct (w_nodes _ _ _ _ _ HW id n G) as (n' & G' & Hc & Hr).
  exists n, n'. split; [exact G|]. split; [exact G'|]. split; [exact Hc|]. split; [|auto].
  rewrite Hr. apply (li_exp _ _ _ _ _ _ _ HL id n Hp G).
Qed.

Lemma obs_desc debug orc inp d dF : i_res inp = sp -> good_call debug orc inp -> compile eqb debug orc inp d = Some dF ->
  exists L d2, drain_cutset dF = Some (L, d2) /\ (i_type inp <> Relaxed \/ g_exact dF = true -> L = []) /\ (forall q, In q L -> descends sp q).
Proof.
  intros Hres Hgc E. destruct (compile_good debug orc inp d Hres Hgc) as (dF' & d1 & past & curr & kF & b & e & E' & HL & Hend & Hb & He & HF).
  rewrite E in E'. inversion E'; subst dF'. clear E'. destruct (final_best _ _ _ _ _ HF) as (F1 & F2 & F3 & F4 & F5 & F6).
  assert (HA := li_arena _ _ _ _ _ _ _ HL).
  unfold drain_cutset, best_value. rewrite F1, F2. destruct b as [i|].
  2: { cbn [obind]. exists [], dF. split; [reflexivity|]. split; [reflexivity|]. intros q []. }
  destruct Hb as (bn & Hi & Gb & Hmax). destruct (F6 i bn Gb) as (bn' & Gb' & Hcb). rewrite Gb'. cbn [obind].
  assert (Hpath : forall id n, get_node d1 id = Some n -> exists r, best_path dF id = Some (sp_path sp ++ r) /\ (k0 + length r = n_depth n)%nat /\
    (is_exact (n_flags n) = true -> exists c, run S P nv k0 (sp_state sp) (rev r) (n_depth n) (n_state n) c /\ n_value n = sp_value sp + c)).
  { intros id n G. destruct (best_path_ok d1 past id n HA G) as (r & Hr & Hlen & Hex). exists r. split; [|split; [exact Hlen|auto]].
    eapply best_path_core; [exact F3|exact F4|exact F5|exact F6|exact Hr]. }
  assert (Hcutn : forall id, In id (g_cutset dF) -> exists n, get_node d1 id = Some n).
  { intros id Hid. destruct (match i_type inp with Relaxed => negb e | _ => false end).
    - destruct HF as (HW & _). destruct (w_cutnew _ _ _ _ _ HW id Hid) as [H|(qn & _ & _ & _ & _ & G1 & _)].
      + apply get_some. apply (a_past _ _ _ HA). apply (a_cutpast _ _ _ HA). exact H.
      + apply get_some. rewrite <- F5. eapply get_lt; eauto.
    - rewrite HF in Hid. apply get_some. apply (a_past _ _ _ HA). apply (a_cutpast _ _ _ HA). exact Hid. }
  destruct (drain_list_ok dF (n_value bn') (g_cutset dF)) as (L & EL & HLL).
  { intros id Hid. destruct (Hcutn id Hid) as [n G]. destruct (F6 id n G) as (n' & G' & _). destruct (Hpath id n G) as (r & Hr & _). eauto. }
  rewrite EL. cbn [obind]. exists L, (set_cut dF []). split; [reflexivity|].
  assert (Hempty : i_type inp <> Relaxed \/ e = true -> L = []).
  { intros Hty. destruct L as [|q L]; [reflexivity|]. exfalso. destruct (proj1 (HLL q) (or_introl eq_refl)) as (id & n & p & Hid & G & Hm & _).
    destruct (match i_type inp with Relaxed => negb e | _ => false end) eqn:Et.
    + destruct (i_type inp); try discriminate. destruct Hty as [Hty| ->]; [congruence|discriminate].
    + rewrite HF in G. change (get_node d1 id = Some n) in G.
      rewrite (no_marked _ _ _ _ (no_base _ _ _ _ (a_nodes _ _ _ HA id n G ltac:(discriminate)))) in Hm. discriminate. }
  split; [exact Hempty|].
  destruct (i_type inp) eqn:Hty; [rewrite Hempty by (left; discriminate); intros q []| |rewrite Hempty by (left; discriminate); intros q []].
  all: try (rewrite Hempty by (left; discriminate); intros q []; fail).
  destruct e; [rewrite Hempty by (right; reflexivity); intros q []|]. cbn [negb] in HF. destruct HF as (HW & HPr & HTm).
  assert (Ha : g_approx d1 = true).
  { unfold compute_exact in He. cbn [g_approx set_best_exact] in He. destruct (g_approx d1); [reflexivity|cbn in He; congruence]. }
  intros q Hin. apply HLL in Hin as (id & n' & p & Hid & G' & Hm & Hp & ->).
  destruct (cut_node inp _ d1 dF past curr kF _ _ id HL Hty Ha HW Hid) as (n & n2 & G & G2 & Hc & Hrub & Hpast & Hx & Hd & _). assert (n2 = n') as -> by congruence.
  destruct (Hpath id n G) as (r & Hr & Hlen & Hrun). assert (p = sp_path sp ++ r) as -> by congruence. destruct (Hrun Hx) as (c & Hc1 & Hc2).
  exists r, c. unfold depth_of. cbn [sp_path sp_state sp_value]. split; [intros ->; cbn in Hlen; lia|]. split; [reflexivity|].
  rewrite (ce_state _ _ Hc), (ce_value _ _ Hc). split; [|exact Hc2]. unfold depth_of in Hk0. rewrite app_length, <- Hk0, Hlen. exact Hc1.
Qed.

Hypothesis Hadm : admissible S P at_depth nv.
Hypothesis Hcov : relaxation_cover S P at_depth nv R.

Lemma root_in inp ct d past gone curr k : linv inp ct d past gone curr k -> In 0%nat past \/ In 0%nat (nextids d).
Proof. intros HL. destruct (li_root _ _ _ _ _ _ _ HL) as [H|(_ & H & _)]; [auto|right]. unfold DdFacts.nextids. rewrite H. left. reflexivity. Qed.

Lemma upper_bound inp ct d1 past curr kF b id n ds c : linv inp ct d1 past [] curr kF -> (g_next d1 = [] \/ kF = N) ->
  (match b with None => g_next d1 = []
     | Some i => exists bn, In i (nextids d1) /\ get_node d1 i = Some bn /\ forall id n, In id (nextids d1) -> get_node d1 id = Some n -> n_value n <= n_value bn end) ->
  (i_type inp = Restricted -> g_approx d1 = false) ->
  (In id past \/ In id (nextids d1)) -> get_node d1 id = Some n ->
  completion S P nv (n_depth n) (n_state n) ds c -> i_lb inp < n_value n + c ->
  exists i bn, b = Some i /\ get_node d1 i = Some bn /\ n_value n + c <= n_value bn.
Proof.
  intros HL Hend Hb Hr Hin G Hc Hlb.
  destruct (linv_reach Hadm Hcov inp ct d1 past curr kF (fun _ => False) 0%nat HL Hend Hr ltac:(intros m mn []) id n ds c Hin G ltac:(lia) Hc Hlb) as (x & Hx & Hreach).
  destruct (reach_value d1 past (nextids d1) _ id x (li_arena _ _ _ _ _ _ _ HL) ltac:(intros t Ht; destruct (li_layer _ _ _ _ _ _ _ HL t Ht) as (tn & Gt & _); eauto) Hreach n G) as (t & tn & Ht & Gt & Hle).
  destruct b as [i|].
  - destruct Hb as (bn & Hi & Gi & Hmax). exists i, bn. split; [reflexivity|]. split; [exact Gi|]. specialize (Hmax t tn Ht Gt). lia.
  - unfold DdFacts.nextids in Ht. rewrite Hb in Ht. destruct Ht.
Qed.

Lemma obs_bound debug orc inp d dF ds c : i_res inp = sp -> good_call debug orc inp -> compile eqb debug orc inp d = Some dF ->
  i_type inp = Relaxed \/ g_exact dF = true ->
  completion S P nv k0 (sp_state sp) ds c -> i_lb inp < sp_value sp + c ->
  exists v, best_value dF = Some (Some v) /\ sp_value sp + c <= v.
Proof.
  intros Hres Hgc E Hty Hc Hlb. destruct (compile_good debug orc inp d Hres Hgc) as (dF' & d1 & past & curr & kF & b & e & E' & HL & Hend & Hb & He & HF).
  rewrite E in E'. inversion E'; subst dF'. clear E'. destruct (final_best _ _ _ _ _ HF) as (F1 & F2 & F3 & F4 & F5 & F6).
  destruct (root_node d1 past (li_arena _ _ _ _ _ _ _ HL)) as (n & G & R1 & R2 & R3).
  destruct (upper_bound inp _ d1 past curr kF b 0%nat n ds c HL Hend Hb) as (i & bn & -> & Gi & Hle); auto; try (rewrite ?R1, ?R2, ?R3; assumption).
  - intros Hr. destruct Hty as [Hty|Hty]; [congruence|]. rewrite F2 in Hty. subst e. unfold compute_exact in He. cbn [g_approx set_best_exact] in He. rewrite Hr in He.
    destruct (g_approx d1); cbn [negb] in He; congruence.
  - eapply root_in; eauto.
  - unfold best_value. rewrite F1. destruct (F6 i bn Gi) as (bn' & -> & Hcc). cbn [obind]. exists (n_value bn'). split; [reflexivity|]. rewrite (ce_value _ _ Hcc). lia.
Qed.

(** ** Cutset *)
(** Every reachable way to the last layer is reflected in the local bound. *)
Lemma reach_marked inp ct d1 dF past curr kF b e id x n' : linv inp ct d1 past [] curr kF ->
  wave (set_best_exact d1 b e) dF [] 0 0 -> processed (set_best_exact d1 b e) dF 0 ->
  (forall id n', In id (nextids d1) -> get_node dF id = Some n' -> is_marked (n_flags n') = true /\ 0 <= n_bot n') ->
  reach d1 (nextids d1) (fun m => In m (g_cutset d1)) id x -> get_node dF id = Some n' -> is_marked (n_flags n') = true /\ x <= n_bot n'.
Proof.
  intros HL W Pr Tm H. revert n'. assert (HA := li_arena _ _ _ _ _ _ _ HL). induction H as [id Hid|id m mn e0 ed x Gm Hinb Hfrom Hnx Hre IH]; intros n' G.
  - exact (Tm id n' Hid G).
  - destruct (w_nodes _ _ _ _ _ W m mn Gm) as (mn' & Gm' & Hc & _). destruct (IH mn' Gm') as [Hmk Hbot].
    assert (Hs : seen (set_best_exact d1 b e) dF mn' ed).
    { eapply (Pr m mn' e0 ed Gm' Hmk Hnx); [lia|]. rewrite (ce_inb _ _ Hc). exact Hinb. }
    destruct Hs as (pn & Gp & Hpm & Hpb & _). rewrite Hfrom in Gp. assert (pn = n') as -> by congruence. split; [exact Hpm|].
    assert (He := no_edges _ _ _ _ (no_base _ _ _ _ (a_nodes _ _ _ HA m mn Gm ltac:(discriminate))) e0 ed Hinb).
    destruct (eo_parent _ _ _ _ _ He) as (pn & Gp1 & _). rewrite Hfrom in Gp1.
    assert (Hre2 : reach d1 (nextids d1) (fun m => In m (g_cutset d1)) id (e_cost ed + x)) by (eapply reach_step; [exact Gm|exact Hinb|exact Hfrom|exact Hnx|exact Hre]).
    destruct (reach_bound d1 past (nextids d1) _ id _ kF HA (li_layer _ _ _ _ _ _ _ HL) (proj2 (li_range _ _ _ _ _ _ _ HL)) Hre2 pn Gp1) as [Hd Hx].
    assert (Hr := bd_range _ _ _ _ _ _ Hbd). assert (Hp := bd_pos _ _ _ _ _ _ Hbd). pose proof (li_range _ _ _ _ _ _ _ HL) as HkN.
    assert (e_cost ed + x <= IMAX). { enough (Z.of_nat (kF - n_depth pn) * C <= IMAX) by lia. nia. }
    pose proof (sat_add_ge (n_bot mn') (e_cost ed) (e_cost ed + x)). lia.
Qed.

Record obs_cut (inp : input S) (ct : cutset_type) (dF : dd) (L : list (subproblem S)) : Prop := {
  oc_desc : forall q, In q L -> descends sp q;
  oc_ub : forall q, In q L -> forall ds v, completes q ds v -> i_lb inp < v -> v <= sp_ub q;
  oc_lel : ct = LastExactLayer -> forall ds v, completes sp ds v -> i_lb inp < v ->
     exists q ds1 ds2 w c1, In q L /\ ds = ds1 ++ ds2 /\ run S P nv k0 (sp_state sp) ds1 (depth_of q) (sp_state q) c1 /\ sp_value sp + c1 <= sp_value q /\ completes q ds2 w /\ v <= w;
  oc_frontier : ct = Frontier -> forall ds v, completes sp ds v -> i_lb inp < v ->
     (exists q ds' w, In q L /\ completes q ds' w /\ v <= w) \/
     (exists id n ds', In id (nextids dF) /\ get_node dF id = Some n /\ is_exact (n_flags n) = true /\ v <= n_value n /\ completes sp ds' (n_value n)) }.



Lemma obs_cutset debug orc inp d dF : i_res inp = sp -> good_call debug orc inp -> compile eqb debug orc inp d = Some dF ->
  exists L d2, drain_cutset dF = Some (L, d2) /\
    (i_type inp <> Relaxed \/ g_exact dF = true -> L = []) /\
    (i_type inp = Relaxed -> g_exact dF = false -> obs_cut inp (g_ctype d) dF L).
Proof.
  intros Hres Hgc E. destruct (compile_good debug orc inp d Hres Hgc) as (dF' & d1 & past & curr & kF & b & e & E' & HL & Hend & Hb & He & HF).
  rewrite E in E'. inversion E'; subst dF'. clear E'. destruct (final_best _ _ _ _ _ HF) as (F1 & F2 & F3 & F4 & F5 & F6).
  assert (HA := li_arena _ _ _ _ _ _ _ HL).
  destruct (root_node d1 past HA) as (rn & Gr & R1 & R2 & R3).
  unfold drain_cutset, best_value. rewrite F1, F2. destruct b as [i|].
  2: { cbn [obind]. exists [], dF. split; [reflexivity|]. split; [reflexivity|]. intros Hty Hex.
    assert (Hno : forall ds v, completes sp ds v -> i_lb inp < v -> False).
    { intros ds v (c & Hc & ->) Hlb. rewrite <- Hk0 in Hc.
      destruct (upper_bound inp _ d1 past curr kF None 0%nat rn ds c HL Hend Hb) as (i & bn & H & _); [congruence|eapply root_in; eauto|exact Gr|congruence|lia|discriminate]. }
    constructor; [intros q []|intros q []| |]; intros _ ds v Hc Hlb; exfalso; eauto. }
  destruct Hb as (bn & Hi & Gb & Hmax). destruct (F6 i bn Gb) as (bn' & Gb' & Hcb). rewrite Gb'. cbn [obind].
  assert (Hfresh : forall n n', coreeq n n' -> True) by auto. clear Hfresh.
  assert (Hpath : forall id n, get_node d1 id = Some n -> exists r, best_path dF id = Some (sp_path sp ++ r) /\ (k0 + length r = n_depth n)%nat /\
    (is_exact (n_flags n) = true -> exists c, run S P nv k0 (sp_state sp) (rev r) (n_depth n) (n_state n) c /\ n_value n = sp_value sp + c)).
  { intros id n G. destruct (best_path_ok d1 past id n HA G) as (r & Hr & Hlen & Hex). exists r. split; [|split; [exact Hlen|auto]].
    eapply best_path_core; [exact F3|exact F4|exact F5|exact F6|exact Hr]. }
  assert (Hcutn : forall id, In id (g_cutset dF) -> exists n, get_node d1 id = Some n).
  { intros id Hid. destruct (match i_type inp with Relaxed => negb e | _ => false end).
    - destruct HF as (HW & _). destruct (w_cutnew _ _ _ _ _ HW id Hid) as [H|(qn & _ & _ & _ & _ & G1 & _)].
      + apply get_some. apply (a_past _ _ _ HA). apply (a_cutpast _ _ _ HA). exact H.
      + apply get_some. rewrite <- F5. eapply get_lt; eauto.
    - rewrite HF in Hid. apply get_some. apply (a_past _ _ _ HA). apply (a_cutpast _ _ _ HA). exact Hid. }
  destruct (drain_list_ok dF (n_value bn') (g_cutset dF)) as (L & EL & HLL).
  { intros id Hid. destruct (Hcutn id Hid) as [n G]. destruct (F6 id n G) as (n' & G' & _). destruct (Hpath id n G) as (r & Hr & _). eauto. }
  rewrite EL. cbn [obind]. exists L, (set_cut dF []). split; [reflexivity|]. split.
  - intros Hty. destruct L as [|q L]; [reflexivity|]. exfalso. destruct (proj1 (HLL q) (or_introl eq_refl)) as (id & n & p & Hid & G & Hm & _).
    destruct (match i_type inp with Relaxed => negb e | _ => false end) eqn:Et.
    + destruct (i_type inp); try discriminate. destruct Hty as [Hty| ->]; [congruence|discriminate].
    + rewrite HF in G. change (get_node d1 id = Some n) in G.
      rewrite (no_marked _ _ _ _ (no_base _ _ _ _ (a_nodes _ _ _ HA id n G ltac:(discriminate)))) in Hm. discriminate.
  - intros Hty Hex. subst e. rewrite Hex in *. rewrite Hty in HF, He. cbn [negb] in HF. destruct HF as (HW & HPr & HTm).
    assert (Ha : g_approx d1 = true).
    { unfold compute_exact in He. cbn [g_approx set_best_exact] in He. destruct (g_approx d1); [reflexivity|cbn in He; congruence]. }
    assert (Hmark : forall id n n' ds c, (In id past \/ In id (nextids d1)) -> get_node d1 id = Some n -> get_node dF id = Some n' ->
      (forall q qn, In q (g_cutset d1) -> get_node d1 q = Some qn -> (n_depth qn <= n_depth n)%nat) ->
      completion S P nv (n_depth n) (n_state n) ds c -> i_lb inp < n_value n + c ->
      is_marked (n_flags n') = true /\ c <= n_bot n').
    { intros id n n' ds c Hin G G' Hcd Hc Hlb.
      destruct (linv_reach Hadm Hcov inp _ d1 past curr kF (fun m => In m (g_cutset d1)) (n_depth n) HL Hend ltac:(congruence) Hcd id n ds c Hin G ltac:(lia) Hc Hlb) as (x & Hx & Hreach).
      destruct (reach_marked inp _ d1 dF past curr kF _ _ id x n' HL HW HPr HTm Hreach G') as [H1 H2]. split; [exact H1|lia]. }
    assert (Hq : forall id n n', In id (g_cutset dF) -> get_node d1 id = Some n -> get_node dF id = Some n' -> is_marked (n_flags n') = true ->
      exists q, In q L /\ sp_state q = n_state n /\ sp_value q = n_value n /\ depth_of q = n_depth n).
    { intros id n n' Hid G G' Hm. destruct (Hpath id n G) as (r & Hr & Hlen & _). eexists. split; [apply HLL; exists id, n', (sp_path sp ++ r); eauto 6|].
      cbn [sp_state sp_value]. destruct (w_nodes _ _ _ _ _ HW id n G) as (n2 & G2 & Hc & _). assert (n2 = n') as -> by congruence.
      split; [apply Hc|]. split; [apply Hc|]. unfold depth_of. cbn [sp_path]. rewrite app_length. unfold depth_of in Hk0. lia. }
    constructor.
    + intros q Hin. apply HLL in Hin as (id & n' & p & Hid & G' & Hm & Hp & ->).
      destruct (cut_node inp _ d1 dF past curr kF _ _ id HL Hty Ha HW Hid) as (n & n2 & G & G2 & Hc & Hrub & Hpast & Hx & Hd & _). assert (n2 = n') as -> by congruence.
      destruct (Hpath id n G) as (r & Hr & Hlen & Hrun). assert (p = sp_path sp ++ r) as -> by congruence. destruct (Hrun Hx) as (c & Hc1 & Hc2).
      exists r, c. unfold depth_of. cbn [sp_path sp_state sp_value]. split; [intros ->; cbn in Hlen; lia|]. split; [reflexivity|].
      rewrite (ce_state _ _ Hc), (ce_value _ _ Hc). split; [|exact Hc2]. unfold depth_of in Hk0. rewrite app_length, <- Hk0, Hlen. exact Hc1.
    + intros q Hin ds v (c & Hc & ->) Hlb. apply HLL in Hin as (id & n' & p & Hid & G' & Hm & Hp & ->). cbn [sp_state sp_value sp_path sp_ub] in *.
      destruct (cut_node inp _ d1 dF past curr kF _ _ id HL Hty Ha HW Hid) as (n & n2 & G & G2 & Hce & Hrub & Hpast & Hx & Hd & Hcd). assert (n2 = n') as -> by congruence.
      destruct (Hpath id n G) as (r & Hr & Hlen & Hrun). assert (p = sp_path sp ++ r) as -> by congruence.
      assert (Hdq : depth_of (mk_sub (n_state n') (n_value n') (sp_path sp ++ r) (Z.min (Z.min (sat_add (n_value n') (n_rub n')) (sat_add (n_value n') (n_bot n'))) (n_value bn'))) = n_depth n).
      { unfold depth_of. cbn [sp_path]. unfold depth_of in Hk0. rewrite app_length. lia. }
      rewrite Hdq in Hc. rewrite (ce_state _ _ Hce) in Hc. rewrite (ce_value _ _ Hce) in *.
      destruct (Hmark id n n' ds c (or_introl Hpast) G G' Hcd Hc Hlb) as [_ Hbot].
      destruct (upper_bound inp _ d1 past curr kF (Some i) id n ds c HL Hend (ex_intro _ bn (conj Hi (conj Gb Hmax)))) as (i' & bn2 & Ei & Gi & Hle); auto; [congruence|].
      inversion Ei; subst i'. assert (bn2 = bn) as -> by congruence. rewrite <- (ce_value _ _ Hcb) in Hle.
      assert (Hok := a_nodes _ _ _ HA id n G ltac:(discriminate)). assert (HdN : (n_depth n < N)%nat) by (pose proof (li_depth _ _ _ _ _ _ _ HL id n Hpast G); pose proof (li_range _ _ _ _ _ _ _ HL); lia).
      assert (Hadn := Hadm _ _ _ _ HdN (no_at _ _ _ _ (no_base _ _ _ _ Hok)) Hc).
      pose proof (value_bound (n_depth n) (n_value n) c (proj2 (no_depth _ _ _ _ (no_base _ _ _ _ Hok))) (no_val _ _ _ _ Hok) (completion_bound _ _ _ _ Hc (no_at _ _ _ _ (no_base _ _ _ _ Hok)))) as Hvb.
      rewrite Hrub. apply Z.min_glb; [|exact Hle]. apply Z.min_glb; apply sat_add_ge; lia.
    + intros Hct ds v (c & Hc & ->) Hlb. rewrite <- Hk0 in Hc. rewrite Hct in HL.
      destruct (li_lel _ _ _ _ _ _ _ HL Ha eq_refl Hty) as (kc & Hk & Hne & Hkc).
      assert (H0 : In 0%nat past) by (destruct (li_root _ _ _ _ _ _ _ HL) as [H|(H & _)]; [exact H|lia]).
      destruct (linv_lel Hadm Hcov inp d1 past [] curr kF kc HL Ha Hty ltac:(lia) Hkc Hne (kc - k0)%nat 0%nat rn ds c) as [(q & qn & ds1 & ds2 & c1 & c2 & Hq1 & Gq & -> & -> & Hrun & Hc2 & Hval)|(g & _ & _ & _ & _ & _ & [] & _)].
      * lia.
      * lia.
      * exact H0.
      * exact Gr.
      * congruence.
      * lia.
      * assert (Hqp := a_cutpast _ _ _ HA q Hq1). assert (n_depth qn = kc) by (apply (Hkc q qn Hqp Gq); exact Hq1).
        destruct (w_nodes _ _ _ _ _ HW q qn Gq) as (qn' & Gq' & Hcq & _).
        destruct (Hmark q qn qn' ds2 c2 (or_introl Hqp) Gq Gq') as [Hm _].
        { intros q0 qn0 Hq0 Gq0. assert (n_depth qn0 = kc) by (apply (Hkc q0 qn0 (a_cutpast _ _ _ HA q0 Hq0) Gq0); exact Hq0). lia. }
        { congruence. }
        { lia. }
        destruct (Hq q qn qn' (w_cutold _ _ _ _ _ HW q Hq1) Gq Gq' Hm) as (sq & Hsq & S1 & S2 & S3).
        exists sq, ds1, ds2, (sp_value sq + c2), c1. split; [exact Hsq|]. split; [reflexivity|]. rewrite S1, S2, S3, H. rewrite R1, R3 in Hrun. split; [exact Hrun|].
        rewrite R2 in Hval. split; [lia|]. split; [exists c2; rewrite S1, S2, S3, H; auto|lia].
    + intros Hct ds v (c & Hc & ->) Hlb. rewrite <- Hk0 in Hc. rewrite Hct in HL.
      assert (Hnil : g_cutset d1 = []) by (apply (li_nocut _ _ _ _ _ _ _ HL); auto).
      assert (Hgo : forall j id n ds c, (N - n_depth n <= j)%nat -> (In id past \/ In id (nextids d1)) -> get_node d1 id = Some n -> is_exact (n_flags n) = true ->
        completion S P nv (n_depth n) (n_state n) ds c -> i_lb inp < n_value n + c ->
        (exists q ds' w, In q L /\ completes q ds' w /\ n_value n + c <= w) \/
        (exists id' n' ds', In id' (nextids dF) /\ get_node dF id' = Some n' /\ is_exact (n_flags n') = true /\ n_value n + c <= n_value n' /\ completes sp ds' (n_value n'))).
      { clear ds c Hc Hlb. induction j as [|j IH]; intros id n ds c Hj Hin G Hx Hc Hlb.
        all: assert (Hok := a_nodes _ _ _ HA id n G ltac:(discriminate)).
        all: assert (Hnext : In id (nextids d1) -> (exists q ds' w, In q L /\ completes q ds' w /\ n_value n + c <= w) \/
          (exists id' n' ds', In id' (nextids dF) /\ get_node dF id' = Some n' /\ is_exact (n_flags n') = true /\ n_value n + c <= n_value n' /\ completes sp ds' (n_value n'))).
        1,3: intros Hid; right; destruct (li_layer _ _ _ _ _ _ _ HL id Hid) as (n2 & G2 & D2); assert (n2 = n) as -> by congruence;
          assert (HkN : kF = N) by (destruct Hend as [H|H]; [unfold DdFacts.nextids in Hid; rewrite H in Hid; destruct Hid|exact H]);
          destruct (w_nodes _ _ _ _ _ HW id n G) as (n' & G' & Hcc & _); destruct (Hpath id n G) as (r & Hr & Hlen & Hrun); destruct (Hrun Hx) as (c1 & Hc1 & Hc2);
          exists id, n', (rev r); split; [unfold DdFacts.nextids; destruct (w_frame _ _ _ _ _ HW) as (_ & -> & _); exact Hid|]; split; [exact G'|]; split; [rewrite (ce_exact _ _ Hcc); exact Hx|];
          rewrite (ce_value _ _ Hcc); destruct Hc as (s' & Hc); rewrite D2, HkN in Hc; assert (Hc0 : c = 0) by (clear - Hc; inversion Hc; [reflexivity|lia]); split; [lia|];
          exists c1; rewrite <- Hk0; split; [exists (n_state n); rewrite <- HkN, <- D2; exact Hc1|exact Hc2].
        - destruct Hin as [Hin|Hin]; [|apply Hnext; exact Hin]. pose proof (li_depth _ _ _ _ _ _ _ HL id n Hin G). pose proof (li_range _ _ _ _ _ _ _ HL). lia.
        - destruct Hin as [Hin|Hin]; [|apply Hnext; exact Hin].
          assert (HdN : (n_depth n < N)%nat) by (pose proof (li_depth _ _ _ _ _ _ _ HL id n Hin G); pose proof (li_range _ _ _ _ _ _ _ HL); lia).
          destruct (expd_step Hadm Hcov inp d1 past [] id n ds c HA G (li_exp _ _ _ _ _ _ _ HL id n Hin G) ltac:(congruence) HdN Hc Hlb) as (m & mn & e0 & ed & ds' & c' & Hm & Gm & Hinb & Hf & Dm & Hv & Hc' & Hle & _).
          assert (Hm' : In m past \/ In m (nextids d1)) by (destruct Hm as [H|[H|[]]]; auto).
          destruct (is_exact (n_flags mn)) eqn:Exm.
          + destruct (IH m mn ds' c') as [(q & dsq & w & H1 & H2 & H3)|(id' & n' & dsq & H1 & H2 & H3 & H4 & H5)]; auto; try lia.
            * left. exists q, dsq, w. split; [exact H1|]. split; [exact H2|lia].
            * right. exists id', n', dsq. split; [exact H1|]. split; [exact H2|]. split; [exact H3|]. split; [lia|exact H5].
          + left. destruct (w_nodes _ _ _ _ _ HW m mn Gm) as (mn' & Gm' & Hcm & _). destruct (Hmark m mn mn' ds' c' Hm' Gm Gm') as [Hmm _]; [intros q qn Hq0; rewrite Hnil in Hq0; destruct Hq0|exact Hc'|lia|].
            assert (Hs : seen (set_best_exact d1 (Some i) false) dF mn' ed).
            { apply (HPr m mn' e0 ed Gm' Hmm); [change (~ In m (g_cutset d1)); rewrite Hnil; intros []|lia|]. rewrite (ce_inb _ _ Hcm). exact Hinb. }
            destruct Hs as (pn & Gp & Hpm & _ & Hpc). rewrite Hf in Gp, Hpc. destruct (w_nodes _ _ _ _ _ HW id n G) as (n' & G' & Hcc & _). assert (pn = n') as -> by congruence.
            assert (Hcut : In id (g_cutset dF)).
            { apply Hpc; [change (g_ctype d1 = Frontier); apply HL|rewrite (ce_exact _ _ Hcm); exact Exm|rewrite (ce_exact _ _ Hcc); exact Hx]. }
            destruct (Hq id n n' Hcut G G' Hpm) as (sq & Hsq & S1 & S2 & S3). exists sq, ds, (sp_value sq + c). split; [exact Hsq|].
            split; [exists c; rewrite S1, S2, S3; auto|lia]. }
      rewrite <- R2. apply (Hgo N 0%nat rn ds c); [lia|eapply root_in; eauto|exact Gr| |congruence|lia].
      destruct (no_best _ _ _ _ (a_nodes _ _ _ HA 0%nat rn Gr ltac:(discriminate))) as [(_ & _ & _ & _ & _ & _ & H)|[H _]]; [exact H|congruence].
Qed.
(** When the last layer has room for one state only, an inexact relaxed diagram has no exact node there. *)
Lemma obs_last debug orc inp d dF : i_res inp = sp -> good_call debug orc inp -> compile eqb debug orc inp d = Some dF ->
  i_type inp = Relaxed -> g_exact dF = false -> (forall s s', at_depth N s -> at_depth N s' -> s = s') ->
  forall id n, In id (nextids dF) -> get_node dF id = Some n -> is_exact (n_flags n) = false.
Proof.
  intros Hres Hgc E Hty Hex Hone id n Hid Gn.
  destruct (compile_good debug orc inp d Hres Hgc) as (dF' & d1 & past & curr & kF & b & e & E' & HL & Hend & Hb & He & HF).
  rewrite E in E'. inversion E'; subst dF'. clear E'. destruct (final_best _ _ _ _ _ HF) as (F1 & F2 & F3 & F4 & F5 & F6).
  assert (HA := li_arena _ _ _ _ _ _ _ HL). rewrite F2 in Hex. subst e. rewrite Hty in HF, He. cbn [negb] in HF. destruct HF as (HW & _).
  assert (Hid1 : In id (nextids d1)). { unfold DdFacts.nextids in Hid. destruct (w_frame _ _ _ _ _ HW) as (_ & Hn & _). rewrite Hn in Hid. exact Hid. }
  assert (HkN : kF = N) by (destruct Hend as [H|H]; [unfold DdFacts.nextids in Hid1; rewrite H in Hid1; destruct Hid1|exact H]).
  destruct b as [i|]; [|unfold DdFacts.nextids in Hid1; rewrite Hb in Hid1; destruct Hid1]. destruct Hb as (bn & Hi & Gb & _).
  destruct (li_layer _ _ _ _ _ _ _ HL id Hid1) as (n1 & G1 & D1). destruct (li_layer _ _ _ _ _ _ _ HL i Hi) as (bn' & Gb' & Db). assert (bn' = bn) as -> by congruence.
  assert (Hst : n_state n1 = n_state bn).
  { apply Hone; [rewrite <- HkN, <- D1|rewrite <- HkN, <- Db]; [apply (no_at _ _ _ _ (no_base _ _ _ _ (a_nodes _ _ _ HA id n1 G1 ltac:(discriminate))))|
      apply (no_at _ _ _ _ (no_base _ _ _ _ (a_nodes _ _ _ HA i bn Gb ltac:(discriminate))))]. }
  assert (Heq : id = i).
  { unfold DdFacts.nextids in Hid1, Hi. apply in_map_iff in Hid1 as ((s1 & x1) & Hx1 & Hin1). apply in_map_iff in Hi as ((s2 & x2) & Hx2 & Hin2). cbn in Hx1, Hx2. subst x1 x2.
    destruct (a_next _ _ _ HA s1 id Hin1) as (m1 & M1 & S1 & _). destruct (a_next _ _ _ HA s2 i Hin2) as (m2 & M2 & S2 & _).
    assert (s1 = s2) by congruence. subst s2. apply (next_get_in _ _ _ (a_keys _ _ _ HA)) in Hin1. apply (next_get_in _ _ _ (a_keys _ _ _ HA)) in Hin2. congruence. }
  subst i. assert (bn = n1) as -> by congruence. destruct (is_exact (n_flags n)) eqn:Hx; [exfalso|reflexivity].
  destruct (F6 id n1 G1) as (n' & Gn' & Hcc). assert (n' = n) as -> by congruence. rewrite (ce_exact _ _ Hcc) in Hx.
  unfold compute_exact in He. cbn [g_approx set_best_exact g_nodes g_best] in He. destruct (negb (g_approx d1)); [discriminate|]. cbn [has_exact_best_path] in He.
  match type of He with context [get_node ?x id] => change (get_node x id) with (get_node d1 id) in He end. rewrite G1 in He. cbn [obind] in He. rewrite Hx in He. discriminate.
Qed.
End Facts.
