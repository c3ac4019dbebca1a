(** What the caller of src/mdd/with_barrier.rs observes. *)
From Verif Require Import Spec Dd FlagsFacts MatrixFacts DdSpec DdFacts DdRelax DdExpand DdLoop DdFinal MddAllFacts MddAllObs MddBarrier BarWp MddBarrierLoop MddBarrierBounds.
From Coq Require Import ZifyNat.
Open Scope Z_scope.

Section Facts.
Variable S : Type.
Variable eqb : S -> S -> bool.
Hypothesis eqb_spec : forall a b, eqb a b = true <-> a = b.
Variable P : problem S.
Variable R : relaxation S.
Variable at_depth : nat -> S -> Prop.
Variable nv : nat -> nat.
Variable C : Z.
Hypothesis Hwf : wf_problem S P at_depth nv.
Hypothesis Hvr : relaxation_depth S P at_depth R.
Hypothesis Hbd : bounded S P at_depth nv R C.
Variable k0 : nat.
Variable sp : subproblem S.
Notation N := (pb_nb_vars P).
Notation node := (node S).
Notation dd := (dd S).
Local Notation vbound := (@DdFacts.vbound C).
Local Notation valid_root := (@DdFacts.valid_root S P at_depth C k0 sp).
Local Notation nextids := (@DdFacts.nextids S).
Local Notation vbound_range := (@DdFacts.vbound_range S P R at_depth nv C Hbd).
Local Notation vbound_step := (@DdFacts.vbound_step S P R at_depth nv C Hbd).
Local Notation coreeq := (@DdFacts.coreeq S).
Local Notation samenode := (@DdFacts.samenode S).
Local Notation coreeq_refl := (@DdFacts.coreeq_refl S).
Local Notation samenode_refl := (@DdFacts.samenode_refl S).
Local Notation coreeq_trans := (@DdFacts.coreeq_trans S).
Local Notation samenode_trans := (@DdFacts.samenode_trans S).
Local Notation stable := (@DdFacts.stable S).
Local Notation stable_refl := (@DdFacts.stable_refl S).
Local Notation stable_trans := (@DdFacts.stable_trans S k0).
Local Notation stable_weaken := (@DdFacts.stable_weaken S).
Local Notation edge_ok := (@DdFacts.edge_ok S P nv C).
Local Notation orig_edge := (@DdFacts.orig_edge S P).
Local Notation orig_all := (@DdFacts.orig_all S P).
Local Notation is_root := (@DdFacts.is_root S k0 sp).
Local Notation best_ok := (@DdFacts.best_ok S P k0 sp).
Local Notation node_base := (@DdFacts.node_base S P at_depth nv C k0).
Local Notation node_ok := (@DdFacts.node_ok S P at_depth nv C k0 sp).
Local Notation cleanf := (@DdFacts.cleanf S).
Local Notation clean := (@DdFacts.clean S).
Local Notation arena := (@DdFacts.arena S P at_depth nv C k0 sp).
Local Notation layer_at := (@DdFacts.layer_at S).
Local Notation get_lt := (@DdFacts.get_lt S).
Local Notation get_some := (@DdFacts.get_some S).
Local Notation upd_node_spec := (@DdFacts.upd_node_spec S).
Local Notation orig_edge_mono := (@DdFacts.orig_edge_mono S P).
Local Notation edge_ok_mono := (@DdFacts.edge_ok_mono S P nv C).
Local Notation past_frozen := (@DdFacts.past_frozen S).
Local Notation node_base_mono := (@DdFacts.node_base_mono S P at_depth nv C k0).
Local Notation best_ok_mono := (@DdFacts.best_ok_mono S P at_depth nv C k0 sp).
Local Notation node_ok_mono := (@DdFacts.node_ok_mono S P at_depth nv C k0 sp).
Local Notation orig_all_mono := (@DdFacts.orig_all_mono S P at_depth nv C k0).
Local Notation stable_past := (@DdFacts.stable_past S).
Local Notation next_get_in := (@DdFacts.next_get_in S eqb eqb_spec).
Local Notation next_get_none := (@DdFacts.next_get_none S eqb eqb_spec).
Local Notation nextids_in := (@DdFacts.nextids_in S).
Local Notation all_exact := (@DdFacts.all_exact S).
Local Notation grows := (@DdFacts.grows S).
Local Notation grows_refl := (@DdFacts.grows_refl S).
Local Notation nextids_incl := (@DdFacts.nextids_incl S).
Local Notation grows_trans := (@DdFacts.grows_trans S).
Local Notation same_rest := (@DdFacts.same_rest S).
Local Notation same_rest_refl := (@DdFacts.same_rest_refl S).
Local Notation same_rest_trans := (@DdFacts.same_rest_trans S).
Local Notation has_edge := (@DdFacts.has_edge S P).
Local Notation has_edge_grows := (@DdFacts.has_edge_grows S P).
Local Notation branch_spec := (@DdFacts.branch_spec S eqb eqb_spec P R at_depth nv C Hwf Hbd k0 sp).
Local Notation vr_path := (@DdFacts.vr_path S P at_depth C k0 sp).
Local Notation vr_le := (@DdFacts.vr_le S P at_depth C k0 sp).
Local Notation vr_at := (@DdFacts.vr_at S P at_depth C k0 sp).
Local Notation vr_val := (@DdFacts.vr_val S P at_depth C k0 sp).
Local Notation ce_state := (@DdFacts.ce_state S).
Local Notation ce_value := (@DdFacts.ce_value S).
Local Notation ce_best := (@DdFacts.ce_best S).
Local Notation ce_inb := (@DdFacts.ce_inb S).
Local Notation ce_depth := (@DdFacts.ce_depth S).
Local Notation ce_exact := (@DdFacts.ce_exact S).
Local Notation ce_relaxed := (@DdFacts.ce_relaxed S).
Local Notation sn_core := (@DdFacts.sn_core S).
Local Notation sn_rub := (@DdFacts.sn_rub S).
Local Notation sn_theta := (@DdFacts.sn_theta S).
Local Notation sn_bot := (@DdFacts.sn_bot S).
Local Notation sn_marked := (@DdFacts.sn_marked S).
Local Notation sn_deleted := (@DdFacts.sn_deleted S).
Local Notation sn_barrier := (@DdFacts.sn_barrier S).
Local Notation st_edges := (@DdFacts.st_edges S).
Local Notation st_len := (@DdFacts.st_len S).
Local Notation st_nodes := (@DdFacts.st_nodes S).
Local Notation st_root := (@DdFacts.st_root S).
Local Notation st_ctype := (@DdFacts.st_ctype S).
Local Notation eo_past := (@DdFacts.eo_past S P nv C).
Local Notation eo_lt := (@DdFacts.eo_lt S P nv C).
Local Notation eo_cost := (@DdFacts.eo_cost S P nv C).
Local Notation eo_parent := (@DdFacts.eo_parent S P nv C).
Local Notation no_depth := (@DdFacts.no_depth S P at_depth nv C k0).
Local Notation no_at := (@DdFacts.no_at S P at_depth nv C k0).
Local Notation no_head := (@DdFacts.no_head S P at_depth nv C k0).
Local Notation no_edges := (@DdFacts.no_edges S P at_depth nv C k0).
Local Notation no_marked := (@DdFacts.no_marked S P at_depth nv C k0).
Local Notation no_bot := (@DdFacts.no_bot S P at_depth nv C k0).
Local Notation no_base := (@DdFacts.no_base S P at_depth nv C k0 sp).
Local Notation no_val := (@DdFacts.no_val S P at_depth nv C k0 sp).
Local Notation no_best := (@DdFacts.no_best S P at_depth nv C k0 sp).
Local Notation a_edges := (@DdFacts.a_edges S P at_depth nv C k0 sp).
Local Notation a_len := (@DdFacts.a_len S P at_depth nv C k0 sp).
Local Notation a_nodes := (@DdFacts.a_nodes S P at_depth nv C k0 sp).
Local Notation a_past := (@DdFacts.a_past S P at_depth nv C k0 sp).
Local Notation a_lt := (@DdFacts.a_lt S P at_depth nv C k0 sp).
Local Notation a_keys := (@DdFacts.a_keys S P at_depth nv C k0 sp).
Local Notation a_next := (@DdFacts.a_next S P at_depth nv C k0 sp).
Local Notation a_cut := (@DdFacts.a_cut S P at_depth nv C k0 sp).
Local Notation a_cutpast := (@DdFacts.a_cutpast S P at_depth nv C k0 sp).
Local Notation a_root := (@DdFacts.a_root S P at_depth nv C k0 sp).
Local Notation gr_incl := (@DdFacts.gr_incl S).
Local Notation gr_fresh := (@DdFacts.gr_fresh S).
Local Notation gr_nodes := (@DdFacts.gr_nodes S).
Local Notation sr_prev := (@DdFacts.sr_prev S).
Local Notation sr_cut := (@DdFacts.sr_cut S).
Local Notation sr_lel := (@DdFacts.sr_lel S).
Local Notation sr_best := (@DdFacts.sr_best S).
Local Notation sr_exact := (@DdFacts.sr_exact S).
Local Notation sr_approx := (@DdFacts.sr_approx S).
Local Notation chg := (@DdRelax.chg S).
Local Notation chg_refl := (@DdRelax.chg_refl S).
Local Notation chg_trans := (@DdRelax.chg_trans S).
Local Notation chg_weaken := (@DdRelax.chg_weaken S).
Local Notation chg_frozen := (@DdRelax.chg_frozen S).
Local Notation upd_node_chg := (@DdRelax.upd_node_chg S).
Local Notation mok := (@DdRelax.mok S P at_depth nv C k0 sp).
Local Notation chain_ok := (@DdRelax.chain_ok S P nv).
Local Notation arena_chg := (@DdRelax.arena_chg S P at_depth nv C k0 sp).
Local Notation chain_ok_mono := (@DdRelax.chain_ok_mono S P nv).
Local Notation arena_touch := (@DdRelax.arena_touch S P at_depth nv C k0 sp).
Local Notation mok_mono := (@DdRelax.mok_mono S P at_depth nv C k0 sp).
Local Notation redirected := (@DdRelax.redirected S R).
Local Notation redirect_spec := (@DdRelax.redirect_spec S P R at_depth nv C Hbd k0 sp).
Local Notation dropped := (@DdRelax.dropped S).
Local Notation drop_fold := (@DdRelax.drop_fold S P R at_depth nv C Hbd k0 sp).
Local Notation arena_tmp := (@DdRelax.arena_tmp S P at_depth nv C k0 sp).
Local Notation arena_tmp_close := (@DdRelax.arena_tmp_close S P at_depth nv C k0 sp).
Local Notation arena_ext := (@DdRelax.arena_ext S P at_depth nv C k0 sp).
Local Notation mark_spec := (@DdRelax.mark_spec S P at_depth nv C k0 sp).
Local Notation mark_fold := (@DdRelax.mark_fold S P at_depth nv C k0 sp).
Local Notation layer_ok := (@DdRelax.layer_ok S).
Local Notation sorts := (@DdRelax.sorts S).
Local Notation map_states_some := (@DdRelax.map_states_some S).
Local Notation map_states_in := (@DdRelax.map_states_in S).
Local Notation kept := (@DdRelax.kept S).
Local Notation merged_into := (@DdRelax.merged_into S R at_depth).
Local Notation relax_spec := (@DdRelax.relax_spec S eqb eqb_spec P R at_depth nv C Hvr Hbd k0 sp).
Local Notation cg_edges := (@DdRelax.cg_edges S).
Local Notation cg_len := (@DdRelax.cg_len S).
Local Notation cg_nodes := (@DdRelax.cg_nodes S).
Local Notation cg_rest := (@DdRelax.cg_rest S).
Local Notation cg_next := (@DdRelax.cg_next S).
Local Notation cg_root := (@DdRelax.cg_root S).
Local Notation cg_ctype := (@DdRelax.cg_ctype S).
Local Notation cg_expl := (@DdRelax.cg_expl S).
Local Notation mk_base := (@DdRelax.mk_base S P at_depth nv C k0 sp).
Local Notation mk_state := (@DdRelax.mk_state S P at_depth nv C k0 sp).
Local Notation mk_depth := (@DdRelax.mk_depth S P at_depth nv C k0 sp).
Local Notation mk_rel := (@DdRelax.mk_rel S P at_depth nv C k0 sp).
Local Notation mk_clean := (@DdRelax.mk_clean S P at_depth nv C k0 sp).
Local Notation mk_cut := (@DdRelax.mk_cut S P at_depth nv C k0 sp).
Local Notation mk_cases := (@DdRelax.mk_cases S P at_depth nv C k0 sp).
Local Notation lo_nodup := (@DdRelax.lo_nodup S).
Local Notation lo_node := (@DdRelax.lo_node S).
Local Notation restrict_spec := (@DdExpand.restrict_spec S P at_depth nv C k0 sp).
Local Notation arena_past := (@DdExpand.arena_past S P at_depth nv C k0 sp).
Local Notation doneok := (@DdExpand.doneok S P nv).
Local Notation expanding := (@DdExpand.expanding S P at_depth nv C k0 sp).
Local Notation expanding_init := (@DdExpand.expanding_init S P at_depth nv C k0 sp).
Local Notation has_edge_state := (@DdExpand.has_edge_state S P).
Local Notation doneok_grows := (@DdExpand.doneok_grows S P nv).
Local Notation branch_fold := (@DdExpand.branch_fold S eqb eqb_spec P R at_depth nv C Hwf Hbd k0 sp).
Local Notation expand_step := (@DdExpand.expand_step S eqb eqb_spec P R at_depth nv C Hwf Hbd k0 sp).
Local Notation expand_fold := (@DdExpand.expand_fold S eqb eqb_spec P R at_depth nv C Hwf Hbd k0 sp).
Local Notation dn_rub := (@DdExpand.dn_rub S P nv).
Local Notation dn_bot := (@DdExpand.dn_bot S P nv).
Local Notation dn_marked := (@DdExpand.dn_marked S P nv).
Local Notation dn_deleted := (@DdExpand.dn_deleted S P nv).
Local Notation dn_barrier := (@DdExpand.dn_barrier S P nv).
Local Notation dn_cases := (@DdExpand.dn_cases S P nv).
Local Notation ex_arena := (@DdExpand.ex_arena S P at_depth nv C k0 sp).
Local Notation ex_layer := (@DdExpand.ex_layer S P at_depth nv C k0 sp).
Local Notation ex_fresh := (@DdExpand.ex_fresh S P at_depth nv C k0 sp).
Local Notation ex_rest := (@DdExpand.ex_rest S P at_depth nv C k0 sp).
Local Notation ex_edges := (@DdExpand.ex_edges S P at_depth nv C k0 sp).
Local Notation ex_len := (@DdExpand.ex_len S P at_depth nv C k0 sp).
Local Notation ex_root := (@DdExpand.ex_root S P at_depth nv C k0 sp).
Local Notation ex_ctype := (@DdExpand.ex_ctype S P at_depth nv C k0 sp).
Local Notation ex_old := (@DdExpand.ex_old S P at_depth nv C k0 sp).
Local Notation ex_exact := (@DdExpand.ex_exact S P at_depth nv C k0 sp).
Local Notation ex_expl := (@DdExpand.ex_expl S P at_depth nv C k0 sp).
Local Notation iters := (@DdLoop.iters S).
Local Notation child_ok := (@DdLoop.child_ok S P R at_depth).
Local Notation expd := (@DdLoop.expd S P R at_depth nv).
Local Notation linv := (@DdLoop.linv S P R at_depth nv C k0 sp).
Local Notation mid := (@DdLoop.mid S P R at_depth nv C k0 sp).
Local Notation linv_step := (@DdLoop.linv_step S P R at_depth nv C k0 sp).
Local Notation li_arena := (@DdLoop.li_arena S P R at_depth nv C k0 sp).
Local Notation li_layer := (@DdLoop.li_layer S P R at_depth nv C k0 sp).
Local Notation li_range := (@DdLoop.li_range S P R at_depth nv C k0 sp).
Local Notation li_disj := (@DdLoop.li_disj S P R at_depth nv C k0 sp).
Local Notation li_curr := (@DdLoop.li_curr S P R at_depth nv C k0 sp).
Local Notation li_currin := (@DdLoop.li_currin S P R at_depth nv C k0 sp).
Local Notation li_depth := (@DdLoop.li_depth S P R at_depth nv C k0 sp).
Local Notation li_exp := (@DdLoop.li_exp S P R at_depth nv C k0 sp).
Local Notation li_exact := (@DdLoop.li_exact S P R at_depth nv C k0 sp).
Local Notation li_typ := (@DdLoop.li_typ S P R at_depth nv C k0 sp).
Local Notation li_nocut := (@DdLoop.li_nocut S P R at_depth nv C k0 sp).
Local Notation li_lel := (@DdLoop.li_lel S P R at_depth nv C k0 sp).
Local Notation li_cutexact := (@DdLoop.li_cutexact S P R at_depth nv C k0 sp).
Local Notation li_ctype := (@DdLoop.li_ctype S P R at_depth nv C k0 sp).
Local Notation li_root := (@DdLoop.li_root S P R at_depth nv C k0 sp).
Local Notation li_pastnd := (@DdLoop.li_pastnd S P R at_depth nv C k0 sp).
Local Notation li_width := (@DdLoop.li_width S P R at_depth nv C k0 sp).
Local Notation li_expl := (@DdLoop.li_expl S P R at_depth nv C k0 sp).
Local Notation li_best := (@DdLoop.li_best S P R at_depth nv C k0 sp).
Local Notation li_gone := (@DdLoop.li_gone S P R at_depth nv C k0 sp).
Local Notation li_near := (@DdLoop.li_near S P R at_depth nv C k0 sp).
Local Notation md_arena := (@DdLoop.md_arena S P R at_depth nv C k0 sp).
Local Notation md_next := (@DdLoop.md_next S P R at_depth nv C k0 sp).
Local Notation md_layer := (@DdLoop.md_layer S P R at_depth nv C k0 sp).
Local Notation md_stable := (@DdLoop.md_stable S P R at_depth nv C k0 sp).
Local Notation md_incl := (@DdLoop.md_incl S P R at_depth nv C k0 sp).
Local Notation md_cover := (@DdLoop.md_cover S P R at_depth nv C k0 sp).
Local Notation md_approx := (@DdLoop.md_approx S P R at_depth nv C k0 sp).
Local Notation md_typ := (@DdLoop.md_typ S P R at_depth nv C k0 sp).
Local Notation md_allex := (@DdLoop.md_allex S P R at_depth nv C k0 sp).
Local Notation md_cut := (@DdLoop.md_cut S P R at_depth nv C k0 sp).
Local Notation md_width := (@DdLoop.md_width S P R at_depth nv C k0 sp).
Local Notation md_expl := (@DdLoop.md_expl S P R at_depth nv C k0 sp).
Local Notation md_best := (@DdLoop.md_best S P R at_depth nv C k0 sp).
Local Notation md_near := (@DdLoop.md_near S P R at_depth nv C k0 sp).
Local Notation run_bound := (@DdFinal.run_bound S eqb eqb_spec P R at_depth nv C Hwf Hbd).
Local Notation completion_bound := (@DdFinal.completion_bound S eqb eqb_spec P R at_depth nv C Hwf Hbd).
Local Notation value_bound := (@DdFinal.value_bound S P R at_depth nv C Hbd).
Local Notation run_app := (@DdFinal.run_app S P nv).
Local Notation run_snoc := (@DdFinal.run_snoc S eqb eqb_spec P nv).
Local Notation reach := (@DdFinal.reach S).
Local Notation reach_value := (@DdFinal.reach_value S P at_depth nv C k0 sp).
Local Notation reach_bound := (@DdFinal.reach_bound S P at_depth nv C k0 sp).
Local Notation expd_step := (@DdFinal.expd_step S eqb eqb_spec P R at_depth nv C Hwf Hbd k0 sp).
Local Notation linv_reach := (@DdFinal.linv_reach S eqb eqb_spec P R at_depth nv C Hwf Hbd k0 sp).
Local Notation best_chain := (@DdFinal.best_chain S eqb eqb_spec P at_depth nv C k0 sp).
Local Notation best_path_ok := (@DdFinal.best_path_ok S eqb eqb_spec P at_depth nv C k0 sp).
Local Notation max_by_value_ok := (@DdFinal.max_by_value_ok S).
Local Notation linv_lel := (@DdFinal.linv_lel S eqb eqb_spec P R at_depth nv C Hwf Hbd k0 sp).
Local Notation reach_term := (@DdFinal.reach_term S).
Local Notation reach_step := (@DdFinal.reach_step S).
Variable solo : bool.
Variable G : nat -> S -> info -> Prop.
Notation L := (Datatypes.S N).
Notation thresholds := (thresholds S).
Local Notation wp := (@BarWp.wp S eqb solo L G).
Local Notation wp_bind := (@BarWp.wp_bind S eqb solo L G).
Local Notation wp_mono := (@BarWp.wp_mono S eqb solo L G).
Local Notation wp_pure := (@BarWp.wp_pure S eqb solo L G).
Local Notation env := (@BarWp.env S solo L).
Local Notation lookup := (@BarWp.lookup S eqb).
Local Notation updated := (@BarWp.updated S eqb).
Local Notation nextids_nodup := (@MddAllFacts.nextids_nodup S P at_depth nv C k0 sp).
Local Notation root_linv := (@MddAllFacts.root_linv S P R at_depth nv C k0 sp).
Local Notation genuine_root := (@MddAllObs.genuine_root S eqb eqb_spec P R at_depth nv C Hwf Hbd).
Local Notation best_path_core := (@MddAllObs.best_path_core S).
Local Notation root_node := (@MddAllObs.root_node S P at_depth nv C k0 sp).
Local Notation drain_list_ok := (@MddAllObs.drain_list_ok S).
Local Notation root_in := (@MddAllObs.root_in S P R at_depth nv C k0 sp).
Local Notation upd_node_len := (@MddBarrierLoop.upd_node_len S).
Local Notation accounted := (@MddBarrierLoop.accounted S).
Local Notation accounted_refl := (@MddBarrierLoop.accounted_refl S).
Local Notation accounted_trans := (@MddBarrierLoop.accounted_trans S).
Local Notation branch_accounted := (@MddBarrierLoop.branch_accounted S eqb G).
Local Notation branches_accounted := (@MddBarrierLoop.branches_accounted S eqb G).
Local Notation expand_accounted := (@MddBarrierLoop.expand_accounted S eqb G).
Local Notation mark_len := (@MddBarrierLoop.mark_len S).
Local Notation redirect_len := (@MddBarrierLoop.redirect_len S eqb eqb_spec G).
Local Notation drop_len := (@MddBarrierLoop.drop_len S eqb eqb_spec G).
Local Notation relax_accounted := (@MddBarrierLoop.relax_accounted S eqb eqb_spec G).
Local Notation theta_at := (@MddBarrierLoop.theta_at S eqb).
Local Notation hidden := (@MddBarrierLoop.hidden S).
Local Notation pruned := (@MddBarrierLoop.pruned S eqb solo).
Local Notation set_nodes_same := (@MddBarrierLoop.set_nodes_same S).
Local Notation pruned_refl := (@MddBarrierLoop.pruned_refl S eqb solo).
Local Notation retain_ok := (@MddBarrierLoop.retain_ok S eqb P solo G).
Local Notation prune_ok := (@MddBarrierLoop.prune_ok S eqb P k0 solo G).
Local Notation keep_next := (@MddBarrierLoop.keep_next S).
Local Notation keep_next_in := (@MddBarrierLoop.keep_next_in S).
Local Notation pruned_dd := (@MddBarrierLoop.pruned_dd S).
Local Notation pruned_nextids := (@MddBarrierLoop.pruned_nextids S).
Local Notation filter_keys := (@MddBarrierLoop.filter_keys S).
Local Notation hidden_core := (@MddBarrierLoop.hidden_core S).
Local Notation linv_prune := (@MddBarrierLoop.linv_prune S eqb P R at_depth nv C k0 sp solo G).
Local Notation shrunk := (@MddBarrierLoop.shrunk S k0).
Local Notation shrink_ok := (@MddBarrierLoop.shrink_ok S eqb eqb_spec P R at_depth nv C Hvr Hbd k0 sp G).
Local Notation early_theta := (@MddBarrierLoop.early_theta S P).
Local Notation written := (@MddBarrierLoop.written S eqb P).
Local Notation early := (@MddBarrierLoop.early S eqb P).
Local Notation early_updated := (@MddBarrierLoop.early_updated S eqb P).
Local Notation early_incl := (@MddBarrierLoop.early_incl S eqb P).
Local Notation expand_all_ok := (@MddBarrierLoop.expand_all_ok S eqb eqb_spec P R at_depth nv C Hwf Hbd k0 sp solo G).
Local Notation binv := (@MddBarrierLoop.binv S eqb P k0 solo).
Local Notation written_mono := (@MddBarrierLoop.written_mono S eqb P).
Local Notation binv_set_prev := (@MddBarrierLoop.binv_set_prev S eqb P k0 solo).
Local Notation binv_prune := (@MddBarrierLoop.binv_prune S eqb eqb_spec P R at_depth nv C Hbd k0 sp solo G).
Local Notation binv_step := (@MddBarrierLoop.binv_step S eqb eqb_spec P R at_depth nv C k0 sp solo G).
Local Notation layer_step_ok := (@MddBarrierLoop.layer_step_ok S eqb eqb_spec P R at_depth nv C Hwf Hvr Hbd k0 sp solo G).
Local Notation layers_ok := (@MddBarrierLoop.layers_ok S eqb eqb_spec P R at_depth nv C Hwf Hvr Hbd k0 sp solo G).
Local Notation root_binv := (@MddBarrierLoop.root_binv S eqb P k0 solo).
Local Notation pr_incl := (@MddBarrierLoop.pr_incl S eqb solo).
Local Notation pr_nodup := (@MddBarrierLoop.pr_nodup S eqb solo).
Local Notation pr_frame := (@MddBarrierLoop.pr_frame S eqb solo).
Local Notation pr_len := (@MddBarrierLoop.pr_len S eqb solo).
Local Notation pr_same := (@MddBarrierLoop.pr_same S eqb solo).
Local Notation pr_cut := (@MddBarrierLoop.pr_cut S eqb solo).
Local Notation sh_lel := (@MddBarrierLoop.sh_lel S k0).
Local Notation sh_rest := (@MddBarrierLoop.sh_rest S k0).
Local Notation sh_root := (@MddBarrierLoop.sh_root S k0).
Local Notation bi_len := (@MddBarrierLoop.bi_len S eqb P k0 solo).
Local Notation bi_past := (@MddBarrierLoop.bi_past S eqb P k0 solo).
Local Notation bi_gone := (@MddBarrierLoop.bi_gone S eqb P k0 solo).
Local Notation bi_rest := (@MddBarrierLoop.bi_rest S eqb P k0 solo).
Local Notation bi_lel := (@MddBarrierLoop.bi_lel S eqb P k0 solo).
Local Notation bi_tab := (@MddBarrierLoop.bi_tab S eqb P k0 solo).
Local Notation live := (@MddBarrierBounds.live S).
Local Notation last_cut := (@MddBarrierBounds.last_cut S).
Local Notation frame := (@MddBarrierBounds.frame S).
Local Notation later := (@MddBarrierBounds.later S).
Local Notation later_refl := (@MddBarrierBounds.later_refl S G).
Local Notation later_trans := (@MddBarrierBounds.later_trans S G).
Local Notation later_weaken := (@MddBarrierBounds.later_weaken S G).
Local Notation seen := (@MddBarrierBounds.seen S).
Local Notation seen_later := (@MddBarrierBounds.seen_later S G).
Local Notation cut_bound := (@MddBarrierBounds.cut_bound S).
Local Notation done := (@MddBarrierBounds.done S).
Local Notation done_later := (@MddBarrierBounds.done_later S G).
Local Notation frame_upd := (@MddBarrierBounds.frame_upd S G).
Local Notation later_upd := (@MddBarrierBounds.later_upd S G).
Local Notation edge_step_ok := (@MddBarrierBounds.edge_step_ok S P at_depth nv C k0 sp G).
Local Notation edges_loop_ok := (@MddBarrierBounds.edges_loop_ok S P at_depth nv C k0 sp G).
Local Notation late_entry := (@MddBarrierBounds.late_entry S eqb).
Local Notation late := (@MddBarrierBounds.late S eqb).
Local Notation late_mono := (@MddBarrierBounds.late_mono S eqb eqb_spec G).
Local Notation cut_theta_core := (@MddBarrierBounds.cut_theta_core S k0 G).
Local Notation bottom_up_node_ok := (@MddBarrierBounds.bottom_up_node_ok S eqb eqb_spec P at_depth nv C k0 sp solo G).
Local Notation bottom_up_loop := (@MddBarrierBounds.bottom_up_loop S eqb eqb_spec P at_depth nv C k0 sp solo G).
Local Notation init_bottom_ok := (@MddBarrierBounds.init_bottom_ok S eqb eqb_spec P at_depth nv C k0 sp G).
Local Notation init_fold_ok := (@MddBarrierBounds.init_fold_ok S eqb eqb_spec P at_depth nv C k0 sp G).
Local Notation bounds_ok := (@MddBarrierBounds.bounds_ok S eqb eqb_spec P at_depth nv C k0 sp solo G).
Local Notation fr_edges := (@MddBarrierBounds.fr_edges S).
Local Notation fr_len := (@MddBarrierBounds.fr_len S).
Local Notation fr_rest := (@MddBarrierBounds.fr_rest S).
Local Notation fr_nodes := (@MddBarrierBounds.fr_nodes S).
Local Notation fr_cutflag := (@MddBarrierBounds.fr_cutflag S).
Local Notation fr_flagcut := (@MddBarrierBounds.fr_flagcut S).
Local Notation fr_cutold := (@MddBarrierBounds.fr_cutold S).
Local Notation fr_cutlel := (@MddBarrierBounds.fr_cutlel S).
Local Notation fr_cutnew := (@MddBarrierBounds.fr_cutnew S).
Local Notation fr_cutnd := (@MddBarrierBounds.fr_cutnd S).
Local Notation fr_live := (@MddBarrierBounds.fr_live S).
Notation genuine := (DdSpec.genuine S P nv).
Notation completes := (DdSpec.completes S P nv).
Notation descends := (DdSpec.descends S P nv).
Notation good_call := (DdSpec.good_call S P R nv).

(** A partial assignment that leads to [s] in layer [k] with value [v] and has a completion of value at least [x]. *)
Definition point (x : Z) (k : nat) (s : S) (v : Z) : Prop :=
  vbound k v /\ at_depth k s /\ exists ds c, completion S P nv k s ds c /\ x <= v + c.

(** What a caller can count on once the compilation is over: [x] can be obtained from something discarded because of
    an entry of the thresholds [T0] of layer [r] or below, from the best solution, or from a subproblem of the cutset. *)
Definition alt (T0 : thresholds) (dF : dd) (x : Z) (r : nat) : Prop :=
  (exists k s i v, (r <= k)%nat /\ lookup T0 k s = Some i /\ v <= b_theta i /\ point x k s v) \/
  (g_exact dF = true /\ exists bv, best_value dF = Some (Some bv) /\ x <= bv) \/
  (g_exact dF = false /\ exists L d2 q, drain_cutset dF = Some (L, d2) /\ In q L /\ (r <= depth_of q)%nat /\
     point x (depth_of q) (sp_state q) (sp_value q) /\ x <= sp_ub q).

Definition best_of (d1 : dd) (b : option nat) : Prop :=
  match b with None => g_next d1 = []
  | Some i => exists bn, In i (nextids d1) /\ get_node d1 i = Some bn /\ forall id n, In id (nextids d1) -> get_node d1 id = Some n -> n_value n <= n_value bn end.

(** What a compilation leaves: [d1] is the diagram after the loop over the layers, [T1] the thresholds at that point. *)
Record compiled (inp : input S) (ct : cutset_type) (T0 T' : thresholds) (d1 dF : dd) (past gone curr : list nat) (kF : nat) (b : option nat) (e : bool) (T1 : thresholds) : Prop := {
  cp_linv : linv inp ct d1 past gone curr kF;
  cp_binv : binv inp ct d1 past gone kF T0 T1;
  cp_end : g_next d1 = [] \/ kF = N;
  cp_best : best_of d1 b;
  cp_exact : compute_exact (set_best_exact d1 b true) (i_type inp) = Some e;
  cp_len : length T' = L;
  cp_fits : MddBarrierLoop.fits S P R at_depth nv C k0 sp inp ct -> g_approx d1 = false;
  cp_rest : i_type inp <> Relaxed -> dF = set_best_exact d1 b e /\ (solo = true -> T' = T1);
  cp_relaxed : i_type inp = Relaxed -> frame (set_best_exact d1 b e) dF /\ done (i_lb inp) (set_best_exact d1 b e) dF 0 /\
     (solo = true -> late (set_best_exact d1 b e) dF 0 T1 T') /\
     (forall t tn, In t (nextids d1) -> get_node dF t = Some tn -> is_marked (n_flags tn) = true /\ 0 <= n_bot tn /\ (last_cut (set_best_exact d1 b e) t -> is_cutset (n_flags tn) = true)) }.

Definition compiles (inp : input S) (ct : cutset_type) (T0 : thresholds) (dF : dd) (T' : thresholds) : Prop :=
  exists d1 past gone curr kF b e T1, compiled inp ct T0 T' d1 dF past gone curr kF b e T1.

Lemma compile_ok debug orc inp d T : valid_root -> i_res inp = sp -> iters orc -> sorts orc -> i_pb inp = P -> i_rx inp = R -> (0 < i_width inp)%nat ->
  (debug = true -> IMIN <= sp_ub sp - sp_value sp <= IMAX) -> length T = L ->
  (i_type inp = Relaxed -> forall k s i, (k0 <= k)%nat -> G k s i) ->
  wp (compile eqb debug orc inp d) T (compiles inp (g_ctype d) T).
Proof.
  intros Hroot Hres Hit Hso Hpb Hrx Hw Hdbg HT HG. unfold compile. rewrite Hpb.
  assert (E0 : exists d0, root_dd debug inp d = Some d0).
  { unfold root_dd, sub_isize. rewrite Hres. destruct ((IMIN <=? sp_ub sp - sp_value sp) && (sp_ub sp - sp_value sp <=? IMAX)) eqn:Eb; [eexists; reflexivity|].
    destruct debug; [|eexists; reflexivity]. exfalso. specialize (Hdbg eq_refl). apply andb_false_iff in Eb as [Eb|Eb]; apply Z.leb_gt in Eb; lia. }
  destruct E0 as [d0 E0]. apply (wp_pure _ d0); [exact E0|]. destruct (root_linv debug inp d d0 Hroot Hres E0) as [HL0 Hn0].
  assert (HB0 := root_binv debug inp d d0 T E0 HT).
  assert (Hk : length (g_root_pa d0) = k0).
  { rewrite (a_root _ _ _ (li_arena _ _ _ _ _ _ _ HL0)). symmetry. apply Hroot. }
  rewrite Hk. apply wp_bind. eapply wp_mono; [|apply (layers_ok orc inp (g_ctype d) T Hit Hso Hpb Hrx Hw HG (N + 2)%nat d0 [] [] [] k0 T HL0 HB0); lia].
  intros (d1, r) T1 (-> & past & gone & curr & kF & HL & HB & Hend & Hfit). cbv beta iota. unfold finalize.
  assert (Hfit' : MddBarrierLoop.fits S P R at_depth nv C k0 sp inp (g_ctype d) -> g_approx d1 = false).
  { intros Hf. apply Hfit; [exact Hf|]. unfold root_dd in E0. destruct (sub_isize _ _ _); [|discriminate]. injection E0 as <-. reflexivity. }
  assert (HA := li_arena _ _ _ _ _ _ _ HL).
  set (l1 := map snd (o_iter orc _ (g_next d1))).
  assert (Hp1 : Permutation (nextids d1) l1) by (apply Permutation_map, Hit).
  destruct (max_by_value_ok d1 l1) as (b & Eb & Hb).
  { intros id Hid. apply (Permutation_in _ (Permutation_sym Hp1)) in Hid. destruct (li_layer _ _ _ _ _ _ _ HL id Hid) as (n & Gn & _). eauto. }
  apply (wp_pure _ b); [exact Eb|]. destruct (li_best _ _ _ _ _ _ _ HL) as [Hb0 Hx0]. rewrite Hx0.
  assert (Hb' : best_of d1 b).
  { destruct b as [i|]; cbn.
    - destruct Hb as (bn & H1 & H2 & H3). exists bn. split; [eapply Permutation_in; [apply Permutation_sym; exact Hp1|exact H1]|]. split; [exact H2|].
      intros id n Hid. apply H3. eapply Permutation_in; eauto.
    - rewrite Hb in Hp1. apply Permutation_sym, Permutation_nil in Hp1. unfold DdFacts.nextids in Hp1. apply map_eq_nil in Hp1. exact Hp1. }
  assert (Ee : exists e, compute_exact (set_best_exact d1 b true) (i_type inp) = Some e).
  { unfold compute_exact. cbn [g_approx set_best_exact]. destruct (g_approx d1); cbn [negb]; [|eexists; reflexivity].
    destruct (i_type inp); try (eexists; reflexivity). cbn [g_best g_nodes set_best_exact].
    destruct b as [i|]; [|eexists; reflexivity]. destruct Hb' as (bn & _ & Gb & _).
    assert (HA' : arena None (set_best_exact d1 (Some i) true) past) by (eapply arena_ext; [exact HA|reflexivity..]).
    destruct (best_chain (set_best_exact d1 (Some i) true) past HA' i bn Gb) as (r & _ & _ & (bb & Hbb) & _). exists bb.
    apply (Hbb (Datatypes.S (length (g_nodes d1)))). apply get_lt in Gb. lia. }
  destruct Ee as [e Ee]. apply (wp_pure _ e); [exact Ee|].
  replace (set_best_exact (set_best_exact d1 b true) b e) with (set_best_exact d1 b e) by reflexivity.
  set (d2 := set_best_exact d1 b e).
  assert (HA2 : arena None d2 past) by (eapply arena_ext; [exact HA|reflexivity..]).
  destruct (i_type inp) eqn:Ety.
  1,3: cbn [BarWp.wp]; exists d1, past, gone, curr, kF, b, e, T1; constructor; auto; [rewrite Ety; exact Ee|apply HB|congruence].
  set (l2 := map snd (o_iter orc _ (g_next d2))).
  assert (Hp2 : Permutation (nextids d2) l2) by (apply Permutation_map, Hit).
  eapply wp_mono; [|apply (bounds_ok (HG eq_refl) (i_lb inp) d2 past l2 T1 HA2)].
  - cbv beta. intros dF T' (F1 & F2 & F3 & F4 & F5). exists d1, past, gone, curr, kF, b, e, T1. constructor; auto; [rewrite Ety; exact Ee|congruence].
  - intros p Hp. exact (li_disj _ _ _ _ _ _ _ HL p Hp).
  - intros id. split; intros H; [eapply Permutation_in; [apply Permutation_sym; exact Hp2|exact H]|eapply Permutation_in; [exact Hp2|exact H]].
  - apply HB.
Qed.

Hypothesis Hadm : admissible S P at_depth nv.
Hypothesis Hcov : relaxation_cover S P at_depth nv R.
Hypothesis Hgen : genuine sp.
Hypothesis Hk0 : k0 = depth_of sp.
Lemma compile_good debug orc inp d T : i_res inp = sp -> good_call debug orc inp -> length T = L ->
  (i_type inp = Relaxed -> forall k s i, (k0 <= k)%nat -> G k s i) ->
  wp (compile eqb debug orc inp d) T (compiles inp (g_ctype d) T).
Proof.
  intros Hres [(Hit & Hso & _) Hpb Hrx Hw _ Hd] HT HG. apply compile_ok; auto; [rewrite Hk0; apply genuine_root, Hgen|].
  rewrite Hres in Hd. exact Hd.
Qed.

(** ** The observable answers in terms of the diagram before the bottom-up pass *)
Section Compiled.
Variable inp : input S.
Variable ct : cutset_type.
Variables T0 T' T1 : thresholds.
Variables d1 dF : dd.
Variables past gone curr : list nat.
Variable kF : nat.
Variable b : option nat.
Variable e : bool.
Hypothesis HC : compiled inp ct T0 T' d1 dF past gone curr kF b e T1.
Let HL := cp_linv _ _ _ _ _ _ _ _ _ _ _ _ _ HC.
Let HB := cp_binv _ _ _ _ _ _ _ _ _ _ _ _ _ HC.
Let HA := li_arena _ _ _ _ _ _ _ HL.

Lemma final_core : g_best dF = b /\ g_exact dF = e /\ g_edges dF = g_edges d1 /\ g_root_pa dF = g_root_pa d1 /\ length (g_nodes dF) = length (g_nodes d1) /\
  g_ctype dF = ct /\ (forall id n, get_node d1 id = Some n -> exists n', get_node dF id = Some n' /\ coreeq n n').
Proof.
  assert (Hty : i_type inp = Relaxed \/ i_type inp <> Relaxed) by (destruct (i_type inp); auto; right; discriminate). destruct Hty as [Hty|Hty].
  - destruct (cp_relaxed _ _ _ _ _ _ _ _ _ _ _ _ _ HC Hty) as (F & _). destruct (fr_rest _ _ F) as (f1 & f2 & f3 & f4 & f5 & f6 & f7 & f8).
    split; [exact f3|]. split; [exact f4|]. split; [apply F|]. split; [exact f1|]. split; [apply F|]. split; [rewrite f6; apply HL|].
    intros id n H. destruct (fr_nodes _ _ F id n H) as (n' & H1 & H2 & _). eauto.
  - destruct (cp_rest _ _ _ _ _ _ _ _ _ _ _ _ _ HC Hty) as (-> & _). do 5 (split; [reflexivity|]). split; [apply HL|]. intros id n H. exists n. auto using coreeq_refl.
Qed.

Lemma exact_approx : g_approx d1 = false -> e = true.
Proof. intros Ha. assert (He := cp_exact _ _ _ _ _ _ _ _ _ _ _ _ _ HC). unfold compute_exact in He. cbn [g_approx set_best_exact] in He. rewrite Ha in He. cbn in He. congruence. Qed.
Lemma exact_restricted : e = true -> i_type inp <> Relaxed -> g_approx d1 = false.
Proof.
  intros -> Hty. assert (He := cp_exact _ _ _ _ _ _ _ _ _ _ _ _ _ HC). unfold compute_exact in He. cbn [g_approx set_best_exact] in He.
  destruct (g_approx d1); [|reflexivity]. cbn in He. destruct (i_type inp); congruence.
Qed.

Lemma obs_best : exists ob, best_value dF = Some ob /\
  match ob with
  | None => best_solution dF = Some None
  | Some v => exists r, best_solution dF = Some (Some (sp_path sp ++ r)) /\ (k0 + length r = N)%nat /\
      (i_type inp <> Relaxed \/ g_exact dF = true -> exists c, completion S P nv k0 (sp_state sp) (rev r) c /\ v = sp_value sp + c)
  end.
Proof.
  destruct final_core as (F1 & F2 & F3 & F4 & F5 & _ & F6). assert (Hb := cp_best _ _ _ _ _ _ _ _ _ _ _ _ _ HC). assert (Hend := cp_end _ _ _ _ _ _ _ _ _ _ _ _ _ HC).
  assert (He := cp_exact _ _ _ _ _ _ _ _ _ _ _ _ _ HC).
  unfold best_value, best_solution. rewrite F1, F2. clear F1. destruct b as [i|]; [|exists None; auto].
  destruct Hb as (bn & Hi & Gb & Hmax). destruct (F6 i bn Gb) as (bn' & G' & Hc). rewrite G'. cbn [obind]. exists (Some (n_value bn')). split; [reflexivity|].
  assert (HA' : arena None (set_best_exact d1 (Some i) true) past) by (eapply arena_ext; [apply HL|reflexivity..]).
  destruct (best_path_ok (set_best_exact d1 (Some i) true) past i bn HA' Gb) as (r & Hr & Hlen & Hex).
  exists r. rewrite (best_path_core (set_best_exact d1 (Some i) true) dF i _ F3 F4 F5 F6 Hr). cbn [obind].
  assert (HkN : kF = N). { destruct Hend as [H|H]; [|exact H]. unfold DdFacts.nextids in Hi. rewrite H in Hi. destruct Hi. }
  destruct (li_layer _ _ _ _ _ _ _ HL i Hi) as (bn0 & G0 & D). assert (bn0 = bn) as -> by congruence.
  split; [reflexivity|]. split; [lia|]. intros Hty.
  destruct Hex as (c & Hrun & Hval).
  - unfold compute_exact in He. cbn [g_approx set_best_exact g_nodes g_best] in He. destruct (g_approx d1) eqn:Ea; cbn [negb] in He.
    + destruct (i_type inp) eqn:Ety; [left; eapply (li_exact _ _ _ _ _ _ _ HL); [right; congruence|exact Gb]| |left; eapply (li_exact _ _ _ _ _ _ _ HL); [right; congruence|exact Gb]].
      right. destruct Hty as [Hty|Hty]; [congruence|]. rewrite Hty in He. exact He.
    + left. eapply (li_exact _ _ _ _ _ _ _ HL); [left; exact Ea|exact Gb].
  - exists c. rewrite (ce_value _ _ Hc). split; [|exact Hval]. exists (n_state bn). rewrite <- HkN, <- D. exact Hrun.
Qed.

Lemma cut_node id : i_type inp = Relaxed -> In id (g_cutset dF) ->
  exists n n', get_node d1 id = Some n /\ get_node dF id = Some n' /\ coreeq n n' /\ n_rub n' = pb_estimate P (n_state n) /\ In id past /\
    is_exact (n_flags n) = true /\ (k0 < n_depth n)%nat.
Proof.
  intros Hty Hid. destruct (cp_relaxed _ _ _ _ _ _ _ _ _ _ _ _ _ HC Hty) as (F & _ & _).
  assert (Hcase : In id past /\ exists n, get_node d1 id = Some n /\ is_exact (n_flags n) = true /\ (k0 < n_depth n)%nat).
  { destruct (fr_cutnew _ _ F id Hid) as [H|(qn & e0 & m & mn & ed & G1 & X1 & M1 & Gm & He & Hf & Xm & Hlv)].
    - change (In id (g_cutset d1)) in H. assert (Hp := a_cutpast _ _ _ HA id H). split; [exact Hp|].
      destruct (get_some d1 id (a_past _ _ _ HA id Hp)) as [n Gn]. exists n. split; [exact Gn|]. split; [apply (li_cutexact _ _ _ _ _ _ _ HL id n H Gn)|].
      assert (Ha : g_approx d1 = true). { destruct (g_approx d1) eqn:Ea; [reflexivity|]. rewrite (li_nocut _ _ _ _ _ _ _ HL (or_introl Ea)) in H. destruct H. }
      assert (Hct : ct = LastExactLayer). { destruct ct eqn:Ec; [reflexivity|]. rewrite (li_nocut _ _ _ _ _ _ _ HL) in H; [destruct H|auto]. }
      destruct (li_lel _ _ _ _ _ _ _ HL Ha Hct Hty) as (kc & Hk & _ & Hkc). assert (n_depth n = kc) by (apply (Hkc id n Hp Gn); exact H). lia.
    - change (get_node d1 m = Some mn) in Gm. change (inb (g_edges d1) (n_inbound mn) e0 ed) in He.
      assert (Heo := no_edges _ _ _ _ (no_base _ _ _ _ (a_nodes _ _ _ HA m mn Gm ltac:(discriminate))) e0 ed He). destruct Heo as [Hp _ _ (pn & Gp & Dp & _)]. rewrite Hf in Hp, Gp.
      split; [exact Hp|]. exists pn. split; [exact Gp|]. destruct (fr_nodes _ _ F id pn Gp) as (pn' & Gp' & Hc & _). assert (pn' = qn) as -> by congruence.
      split; [rewrite <- (ce_exact _ _ Hc); exact X1|].
      assert (Hm : In m past \/ In m (nextids d1)).
      { destruct Hlv as [H|(m2 & mn2 & e2 & ed2 & Gm2 & He2 & Hf2)]; [right; exact H|left].
        change (get_node d1 m2 = Some mn2) in Gm2. change (inb (g_edges d1) (n_inbound mn2) e2 ed2) in He2.
        destruct (no_edges _ _ _ _ (no_base _ _ _ _ (a_nodes _ _ _ HA m2 mn2 Gm2 ltac:(discriminate))) e2 ed2 He2) as [Hp2 _ _ _]. congruence. }
      destruct (Nat.le_gt_cases (n_depth mn) (k0 + 1)) as [Hd|Hd]; [|lia].
      rewrite (proj2 (li_near _ _ _ _ _ _ _ HL Hty) m mn Hm Gm Hd) in Xm. discriminate. }
  destruct Hcase as (Hp & n & Gn & Hx & Hd). destruct (fr_nodes _ _ F id n Gn) as (n' & G' & Hc & Hr & _).
  exists n, n'. split; [exact Gn|]. split; [exact G'|]. split; [exact Hc|]. split; [|auto].
  rewrite Hr. apply (li_exp _ _ _ _ _ _ _ HL id n Hp Gn).
Qed.

Lemma path_of id n : get_node d1 id = Some n -> exists r, best_path dF id = Some (sp_path sp ++ r) /\ (k0 + length r = n_depth n)%nat /\
    (is_exact (n_flags n) = true -> exists c, run S P nv k0 (sp_state sp) (rev r) (n_depth n) (n_state n) c /\ n_value n = sp_value sp + c).
Proof.
  intros Gn. destruct final_core as (F1 & F2 & F3 & F4 & F5 & _ & F6). destruct (best_path_ok d1 past id n HA Gn) as (r & Hr & Hlen & Hex). exists r. split; [|split; [exact Hlen|auto]].
  eapply best_path_core; [exact F3|exact F4|exact F5|exact F6|exact Hr].
Qed.

(** Draining the cutset: always possible; which subproblems come out. *)
Lemma drain_ok : exists L d2, drain_cutset dF = Some (L, d2) /\ g_ctype d2 = ct /\ (i_type inp <> Relaxed -> L = []) /\ (forall q, In q L -> descends sp q) /\
  (i_type inp = Relaxed -> forall id n n' bv, In id (g_cutset dF) -> get_node d1 id = Some n -> get_node dF id = Some n' -> is_marked (n_flags n') = true ->
     best_value dF = Some (Some bv) -> exists q, In q L /\ sp_state q = n_state n /\ sp_value q = n_value n /\ depth_of q = n_depth n /\
       sp_ub q = Z.min (Z.min (sat_add (n_value n) (pb_estimate P (n_state n))) (sat_add (n_value n) (n_bot n'))) bv).
Proof.
  destruct final_core as (F1 & F2 & F3 & F4 & F5 & FC & F6). assert (Hb := cp_best _ _ _ _ _ _ _ _ _ _ _ _ _ HC).
  unfold drain_cutset, best_value. rewrite F1. assert (Hcase : (exists i, b = Some i) \/ b = None) by (destruct b; eauto). destruct Hcase as [[i Eb]|Eb]; rewrite Eb in Hb |- *.
  2: { cbn [obind]. exists [], dF. split; [reflexivity|]. split; [exact FC|]. split; [reflexivity|]. split; [intros q []|]. intros; discriminate. }
  destruct Hb as (bn & Hi & Gb & Hmax). destruct (F6 i bn Gb) as (bn' & Gb' & Hcb). rewrite Gb'. cbn [obind].
  assert (Hty : i_type inp = Relaxed \/ i_type inp <> Relaxed) by (destruct (i_type inp); auto; right; discriminate).
  destruct Hty as [Hty|Hty].
  - destruct (drain_list_ok dF (n_value bn') (g_cutset dF)) as (L & EL & HLL).
    { intros id Hid. destruct (cut_node id Hty Hid) as (n & n' & Gn & G' & _). destruct (path_of id n Gn) as (r & Hr & _). eauto. }
    rewrite EL. cbn [obind]. exists L, (set_cut dF []). split; [reflexivity|]. split; [exact FC|]. split; [congruence|]. split.
    + intros q Hin. apply HLL in Hin as (id & n' & p & Hid & G' & Hm & Hp & ->).
      destruct (cut_node id Hty Hid) as (n & n2 & Gn & G2 & Hc & Hrub & Hpast & Hx & Hd). assert (n2 = n') as -> by congruence.
      destruct (path_of id n Gn) as (r & Hr & Hlen & Hrun). assert (p = sp_path sp ++ r) as -> by congruence. destruct (Hrun Hx) as (c & Hc1 & Hc2).
      exists r, c. unfold depth_of. cbn [sp_path sp_state sp_value]. split; [intros ->; cbn in Hlen; lia|]. split; [reflexivity|].
      rewrite (ce_state _ _ Hc), (ce_value _ _ Hc). split; [|exact Hc2]. unfold depth_of in Hk0. rewrite app_length, <- Hk0, Hlen. exact Hc1.
    + intros _ id n n' bv Hid Gn G' Hm Hbv. assert (bv = n_value bn') as -> by congruence.
      destruct (cut_node id Hty Hid) as (n0 & n2 & G0 & G2 & Hc & Hrub & Hpast & Hx & Hd). assert (n0 = n) as -> by congruence. assert (n2 = n') as -> by congruence.
      destruct (path_of id n Gn) as (r & Hr & Hlen & _). eexists. split; [apply HLL; exists id, n', (sp_path sp ++ r); eauto 6|].
      cbn [sp_state sp_value sp_ub]. rewrite (ce_state _ _ Hc), (ce_value _ _ Hc), Hrub. do 2 (split; [reflexivity|]). split; [|reflexivity]. unfold depth_of in *. cbn [sp_path]. rewrite app_length. lia.
  - assert (Hnil : g_cutset dF = []). { destruct (cp_rest _ _ _ _ _ _ _ _ _ _ _ _ _ HC Hty) as (-> & _). apply (li_nocut _ _ _ _ _ _ _ HL). auto. }
    rewrite Hnil. cbn [drain_list obind]. exists [], (set_cut dF []). split; [reflexivity|]. split; [exact FC|]. split; [reflexivity|]. split; [intros q []|]. congruence.
Qed.

(** ** Following a completion down the diagram *)
Notation anywhere m := (In m past \/ In m (nextids d1) \/ In m gone).
Notation open_dd := (i_type inp = Restricted -> g_approx d1 = false).

Lemma child_step id n v ds c : open_dd -> In id past -> get_node d1 id = Some n -> i_lb inp < sat_add (pb_estimate P (n_state n)) (n_value n) ->
  vbound (n_depth n) v -> completion S P nv (n_depth n) (n_state n) ds c ->
  exists m mn e0 ed ds' c', anywhere m /\ get_node d1 m = Some mn /\ inb (g_edges d1) (n_inbound mn) e0 ed /\ e_from ed = id /\
    n_depth mn = Datatypes.S (n_depth n) /\ completion S P nv (n_depth mn) (n_state mn) ds' c' /\ c <= e_cost ed + c' /\ vbound (n_depth mn) (v + e_cost ed).
Proof.
  intros Hty Hin Gn Hub Hv Hc. assert (Hok := a_nodes _ _ _ HA id n Gn ltac:(discriminate)). assert (Hat := no_at _ _ _ _ (no_base _ _ _ _ Hok)).
  assert (Hdn : (n_depth n < N)%nat) by (pose proof (li_depth _ _ _ _ _ _ _ HL id n Hin Gn); pose proof (li_range _ _ _ _ _ _ _ HL); lia).
  destruct (li_exp _ _ _ _ _ _ _ HL id n Hin Gn) as [_ Hex]. specialize (Hex Hty Hub).
  destruct Hc as [s' Hrun]. inversion Hrun as [|k s dec ds1 k' s1 c1 Hk Hdec Hrun1]; subst; [lia|].
  destruct (Hex dec Hdec) as (m & mn & e0 & ed & Hm & Gm & He & Hf & Hd & Hcase).
  assert (Heo := no_edges _ _ _ _ (no_base _ _ _ _ (a_nodes _ _ _ HA m mn Gm ltac:(discriminate))) e0 ed He).
  destruct Heo as [_ _ Hco (pn & Gp & Dm & _ & _ & _)]. rewrite Hf in Gp. assert (pn = n) as -> by congruence.
  assert (Hvb := proj2 (vbound_step (n_depth n) v (e_cost ed) Hdn Hv Hco)). rewrite <- Dm in Hvb.
  destruct Hcase as [[Hs Hcost]|(Ha & Hq & L0 & Hs & HL0 & HinL & Hcost)].
  - exists m, mn, e0, ed, ds1, c1. do 5 (split; [assumption|]). split; [rewrite Dm, Hs; exists s'; exact Hrun1|]. split; [lia|exact Hvb].
  - destruct (Hcov (n_depth n) L0 (n_state n) dec ds1 c1) as (ds2 & c2 & Hc2 & Hle); auto; [exists s'; exact Hrun1|].
    exists m, mn, e0, ed, ds2, c2. do 5 (split; [assumption|]). split; [rewrite Dm, Hs; exact Hc2|]. split; [lia|exact Hvb].
Qed.

Definition flows (phi : nat -> Z) : Prop :=
  (forall id n m mn e0 ed v, In id past -> get_node d1 id = Some n -> anywhere m -> get_node d1 m = Some mn ->
     inb (g_edges d1) (n_inbound mn) e0 ed -> e_from ed = id -> vbound (n_depth n) v -> v <= phi id -> v + e_cost ed <= phi m) /\
  (forall id n v ds c, In id past -> get_node d1 id = Some n -> sat_add (pb_estimate P (n_state n)) (n_value n) <= i_lb inp ->
     vbound (n_depth n) v -> completion S P nv (n_depth n) (n_state n) ds c -> v <= phi id -> v + c <= i_lb inp).

Definition value_at (id : nat) : Z := match get_node d1 id with Some n => n_value n | None => 0 end.
Definition theta_in (id : nat) : Z := match get_node dF id with Some n => n_theta n | None => 0 end.

Lemma node_range id n v ds c : get_node d1 id = Some n -> vbound (n_depth n) v -> completion S P nv (n_depth n) (n_state n) ds c ->
  (In id past -> c <= pb_estimate P (n_state n)) /\ IMIN < v <= IMAX /\ IMIN < v + c <= IMAX.
Proof.
  intros Gn Hv Hc. assert (Hok := a_nodes _ _ _ HA id n Gn ltac:(discriminate)). assert (Hat := no_at _ _ _ _ (no_base _ _ _ _ Hok)).
  assert (Hdn := proj2 (no_depth _ _ _ _ (no_base _ _ _ _ Hok))). split.
  { intros Hin. eapply Hadm; eauto. pose proof (li_depth _ _ _ _ _ _ _ HL id n Hin Gn). pose proof (li_range _ _ _ _ _ _ _ HL). lia. }
  split.
  - assert (H := value_bound (n_depth n) v 0 Hdn Hv). rewrite Z.add_0_r in H. apply H. pose proof (bd_pos _ _ _ _ _ _ Hbd). cbn [Z.abs]. nia.
  - apply (value_bound (n_depth n)); auto. eapply completion_bound; eauto.
Qed.

Lemma flows_value : flows value_at.
Proof.
  unfold flows, value_at. split.
  - intros id n m mn e0 ed v Hin Gn Hm Gm He Hf Hv Hle. rewrite Gn in Hle. rewrite Gm.
    destruct (no_edges _ _ _ _ (no_base _ _ _ _ (a_nodes _ _ _ HA m mn Gm ltac:(discriminate))) e0 ed He) as [_ _ _ (pn & Gp & _ & _ & _ & Hvp)].
    rewrite Hf in Gp. assert (pn = n) as -> by congruence. lia.
  - intros id n v ds c Hin Gn Hub Hv Hc Hle. rewrite Gn in Hle. destruct (node_range id n v ds c Gn Hv Hc) as (h1 & h2 & h3).
    unfold sat_add, clamp in Hub. lia.
Qed.

Lemma not_deleted m mn : i_type inp = Relaxed -> anywhere m -> get_node dF m = Some mn -> is_deleted (n_flags mn) = false.
Proof.
  intros Hty Hm Gm. destruct (cp_relaxed _ _ _ _ _ _ _ _ _ _ _ _ _ HC Hty) as (F & _).
  assert (Hlt : (m < length (g_nodes d1))%nat). { apply get_lt in Gm. rewrite (fr_len _ _ F) in Gm. exact Gm. }
  destruct (get_some d1 m Hlt) as [n Gn]. destruct (fr_nodes _ _ F m n Gn) as (n' & G' & _ & _ & Hdel & _). assert (n' = mn) as -> by congruence. rewrite Hdel.
  destruct Hm as [Hm|[Hm|Hm]].
  - apply (bi_past _ _ _ _ _ _ _ _ HB m n Hm Gn).
  - apply nextids_in in Hm as (s & Hs). destruct (a_next _ _ _ HA s m Hs) as (n2 & G2 & _ & _ & Hc). assert (n2 = n) as -> by congruence. apply Hc.
  - apply (bi_gone _ _ _ _ _ _ _ _ HB m n Hm Gn).
Qed.

Lemma flows_theta : i_type inp = Relaxed -> flows theta_in.
Proof.
  intros Hty. destruct (cp_relaxed _ _ _ _ _ _ _ _ _ _ _ _ _ HC Hty) as (F & D & _). unfold flows, theta_in. split.
  - intros id n m mn e0 ed v Hin Gn Hm Gm He Hf Hv Hle.
    destruct (fr_nodes _ _ F m mn Gm) as (mn' & Gm' & Hcm & _). rewrite Gm'.
    destruct (D m mn' ltac:(lia) Gm' (not_deleted m mn' Hty Hm Gm')) as [_ Hs]. rewrite (ce_inb _ _ Hcm) in Hs.
    destruct (Hs e0 ed He) as (pn & Gp & Hth & _). rewrite Hf in Gp. rewrite Gp in Hle.
    assert (Hok := a_nodes _ _ _ HA id n Gn ltac:(discriminate)). assert (Hdn := proj2 (no_depth _ _ _ _ (no_base _ _ _ _ Hok))).
    assert (Hr : IMIN < v). { assert (H := value_bound (n_depth n) v 0 Hdn Hv). rewrite Z.add_0_r in H. apply H. pose proof (bd_pos _ _ _ _ _ _ Hbd). cbn [Z.abs]. nia. }
    unfold sat_sub, clamp in Hth. lia.
  - intros id n v ds c Hin Gn Hub Hv Hc Hle. destruct (fr_nodes _ _ F id n Gn) as (n' & G' & _ & _ & _ & _ & Hth & _). rewrite G' in Hle.
    destruct (node_range id n v ds c Gn Hv Hc) as (h1 & h2 & h3).
    destruct (bi_past _ _ _ _ _ _ _ _ HB id n Hin Gn) as (_ & [(H & _)|(_ & H)]); [lia|]. rewrite H in Hth. unfold sat_sub, clamp in Hth. lia.
Qed.

Definition given_up (phi : nat -> Z) (x : Z) (k : nat) : Prop :=
  exists g gn v', In g gone /\ get_node d1 g = Some gn /\ v' <= phi g /\ (k <= n_depth gn)%nat /\ point x (n_depth gn) (n_state gn) v'.

Lemma descend phi x : flows phi -> open_dd -> i_lb inp < x ->
  forall id n v ds c, anywhere id -> get_node d1 id = Some n -> v <= phi id -> vbound (n_depth n) v -> completion S P nv (n_depth n) (n_state n) ds c -> x <= v + c ->
  (exists t tn vt y, In t (nextids d1) /\ get_node d1 t = Some tn /\ vt <= phi t /\ vbound (n_depth tn) vt /\ x <= vt /\ c <= y /\ reach d1 (nextids d1) (fun _ => False) id y) \/
  given_up phi x (if in_dec Nat.eq_dec id past then Datatypes.S (n_depth n) else n_depth n).
Proof.
  intros [Hf1 Hf2] Hty Hx.
  enough (Hind : forall j id n v ds c, (N - n_depth n <= j)%nat -> anywhere id -> get_node d1 id = Some n -> v <= phi id -> vbound (n_depth n) v -> completion S P nv (n_depth n) (n_state n) ds c -> x <= v + c ->
    (exists t tn vt y, In t (nextids d1) /\ get_node d1 t = Some tn /\ vt <= phi t /\ vbound (n_depth tn) vt /\ x <= vt /\ c <= y /\ reach d1 (nextids d1) (fun _ => False) id y) \/
    given_up phi x (if in_dec Nat.eq_dec id past then Datatypes.S (n_depth n) else n_depth n)).
  { intros id n v ds c. apply (Hind (N - n_depth n)%nat). lia. }
  induction j as [j IH] using lt_wf_ind. intros id n v ds c Hj Hin Gn Hle Hv Hc Hxc.
  assert (Hok := a_nodes _ _ _ HA id n Gn ltac:(discriminate)). assert (Hat := no_at _ _ _ _ (no_base _ _ _ _ Hok)).
  destruct (in_dec Nat.eq_dec id past) as [Hp|Hp].
  - assert (Hdn : (n_depth n < N)%nat) by (pose proof (li_depth _ _ _ _ _ _ _ HL id n Hp Gn); pose proof (li_range _ _ _ _ _ _ _ HL); lia).
    destruct (Z_lt_le_dec (i_lb inp) (sat_add (pb_estimate P (n_state n)) (n_value n))) as [Hub|Hub].
    2: { specialize (Hf2 id n v ds c Hp Gn Hub Hv Hc Hle). lia. }
    destruct (child_step id n v ds c Hty Hp Gn Hub Hv Hc) as (m & mn & e0 & ed & ds' & c' & Hm & Gm & He & Hf & Dm & Hc' & Hcc & Hv').
    assert (Hle' := Hf1 id n m mn e0 ed v Hp Gn Hm Gm He Hf Hv Hle).
    destruct (IH (N - n_depth mn)%nat ltac:(lia) m mn (v + e_cost ed) ds' c' ltac:(lia) Hm Gm Hle' Hv' Hc' ltac:(lia)) as [(t & tn & vt & y & H1 & H2 & H3 & Hvt & H4 & H5 & H6)|(g & gn & v' & H1 & H2 & H3 & H4 & H5)].
    + left. exists t, tn, vt, (e_cost ed + y). do 5 (split; [assumption|]). split; [lia|]. eapply reach_step; [exact Gm|exact He|exact Hf|intros []|exact H6].
    + right. exists g, gn, v'. do 3 (split; [assumption|]). split; [|assumption]. destruct (in_dec Nat.eq_dec m past); lia.
  - destruct Hin as [Hin|[Hin|Hin]]; [contradiction| |].
    + left. assert (Hc0 : c = 0).
      { assert (HkN : kF = N). { destruct (cp_end _ _ _ _ _ _ _ _ _ _ _ _ _ HC) as [H|H]; [|exact H]. unfold DdFacts.nextids in Hin. rewrite H in Hin. destruct Hin. }
        destruct (li_layer _ _ _ _ _ _ _ HL id Hin) as (n2 & G2 & D2). assert (n2 = n) as -> by congruence. destruct Hc as (s' & Hc). rewrite D2, HkN in Hc. clear - Hc. inversion Hc; [reflexivity|lia]. }
      exists id, n, v, 0. do 4 (split; [assumption|]). split; [lia|]. split; [lia|]. apply reach_term. exact Hin.
    + right. exists id, n, v. do 3 (split; [assumption|]). split; [lia|]. split; [exact Hv|]. split; [exact Hat|]. eauto.
Qed.

(** Down to the last exact layer. *)
Lemma descend_lel phi x kc : flows phi -> open_dd -> i_lb inp < x ->
  (forall p pn, In p past -> get_node d1 p = Some pn -> (In p (g_cutset d1) <-> n_depth pn = kc)) -> (kc < kF)%nat ->
  forall j id n v ds c, (kc - n_depth n = j)%nat -> (n_depth n <= kc)%nat -> In id past -> get_node d1 id = Some n -> v <= phi id -> vbound (n_depth n) v -> completion S P nv (n_depth n) (n_state n) ds c -> x <= v + c ->
  (exists q qn vq dq cq, In q (g_cutset d1) /\ get_node d1 q = Some qn /\ n_depth qn = kc /\ vq <= phi q /\ vbound kc vq /\ completion S P nv kc (n_state qn) dq cq /\ x <= vq + cq /\ (j = 0%nat -> q = id /\ vq = v)) \/
  given_up phi x (Datatypes.S (n_depth n)).
Proof.
  intros [Hf1 Hf2] Hty Hx Hkc HkF. induction j as [|j IH]; intros id n v ds c Hj Hd Hin Gn Hle Hv Hc Hxc.
  - assert (n_depth n = kc) by lia. left. exists id, n, v, ds, c. split; [apply (Hkc id n Hin Gn); assumption|]. split; [assumption|]. split; [assumption|]. split; [assumption|].
    rewrite <- H. auto.
  - destruct (Z_lt_le_dec (i_lb inp) (sat_add (pb_estimate P (n_state n)) (n_value n))) as [Hub|Hub].
    2: { specialize (Hf2 id n v ds c Hin Gn Hub Hv Hc Hle). lia. }
    destruct (child_step id n v ds c Hty Hin Gn Hub Hv Hc) as (m & mn & e0 & ed & ds' & c' & Hm & Gm & He & Hf & Dm & Hc' & Hcc & Hv').
    assert (Hle' := Hf1 id n m mn e0 ed v Hin Gn Hm Gm He Hf Hv Hle). destruct Hm as [Hm|[Hm|Hm]].
    + destruct (IH m mn (v + e_cost ed) ds' c') as [(q & qn & vq & dq & cq & H1 & H2 & H3 & H4 & H5 & H6 & H7 & _)|(g & gn & v' & H1 & H2 & H3 & H4 & H5)]; auto; try lia.
      * left. exists q, qn, vq, dq, cq. do 7 (split; [assumption|]). discriminate.
      * right. exists g, gn, v'. do 3 (split; [assumption|]). split; [lia|assumption].
    + exfalso. destruct (li_layer _ _ _ _ _ _ _ HL m Hm) as (mn' & Gm' & D). assert (mn' = mn) as -> by congruence. lia.
    + right. exists m, mn, (v + e_cost ed). do 3 (split; [assumption|]). split; [lia|]. split; [exact Hv'|].
      split; [apply (no_at _ _ _ _ (no_base _ _ _ _ (a_nodes _ _ _ HA m mn Gm ltac:(discriminate))))|]. exists ds', c'. split; [exact Hc'|lia].
Qed.

Lemma reach_in id y : reach d1 (nextids d1) (fun _ => False) id y -> In id past \/ In id (nextids d1).
Proof.
  intros H. destruct H as [id Hid|id m mn e0 ed x Gm Hinb Hfrom _ _]; [auto|]. left.
  destruct (no_edges _ _ _ _ (no_base _ _ _ _ (a_nodes _ _ _ HA m mn Gm ltac:(discriminate))) e0 ed Hinb) as [Hp _ _ _]. congruence.
Qed.

Lemma reach_marked id y : i_type inp = Relaxed -> reach d1 (nextids d1) (fun _ => False) id y -> forall n', get_node dF id = Some n' -> is_marked (n_flags n') = true /\ y <= n_bot n'.
Proof.
  intros Hty H. destruct (cp_relaxed _ _ _ _ _ _ _ _ _ _ _ _ _ HC Hty) as (F & D & _ & Tm). induction H as [id Hid|id m mn e0 ed x Gm Hinb Hfrom Hnx Hre IH]; intros n' Gn.
  - destruct (Tm id n' Hid Gn) as (h1 & h2 & _). auto.
  - destruct (fr_nodes _ _ F m mn Gm) as (mn' & Gm' & Hc & _). destruct (IH mn' Gm') as [Hmk Hbot].
    assert (Hm : anywhere m) by (destruct (reach_in m x Hre); auto).
    destruct (D m mn' ltac:(lia) Gm' (not_deleted m mn' Hty Hm Gm')) as [_ Hs]. rewrite (ce_inb _ _ Hc) in Hs.
    destruct (Hs e0 ed Hinb) as (pn & Gp & _ & Hmp & _). destruct (Hmp Hmk) as [Hpm Hpb]. rewrite Hfrom in Gp. assert (pn = n') as -> by congruence. split; [exact Hpm|].
    assert (He := no_edges _ _ _ _ (no_base _ _ _ _ (a_nodes _ _ _ HA m mn Gm ltac:(discriminate))) e0 ed Hinb).
    destruct (eo_parent _ _ _ _ _ He) as (pn & Gp1 & _). rewrite Hfrom in Gp1.
    assert (Hre2 : reach d1 (nextids d1) (fun _ => False) id (e_cost ed + x)) by (eapply reach_step; [exact Gm|exact Hinb|exact Hfrom|exact Hnx|exact Hre]).
    destruct (reach_bound d1 past (nextids d1) _ id _ kF HA (li_layer _ _ _ _ _ _ _ HL) (proj2 (li_range _ _ _ _ _ _ _ HL)) Hre2 pn Gp1) as [Hd Hx].
    assert (Hr := bd_range _ _ _ _ _ _ Hbd). assert (Hp := bd_pos _ _ _ _ _ _ Hbd). pose proof (li_range _ _ _ _ _ _ _ HL) as HkN.
    assert (e_cost ed + x <= IMAX). { enough (Z.of_nat (kF - n_depth pn) * C <= IMAX) by lia. nia. }
    pose proof (sat_add_ge (n_bot mn') (e_cost ed) (e_cost ed + x)). lia.
Qed.

Lemma best_from_reach id n y : get_node d1 id = Some n -> reach d1 (nextids d1) (fun _ => False) id y ->
  exists bv, best_value dF = Some (Some bv) /\ n_value n + y <= bv.
Proof.
  intros Gn Hre. destruct (reach_value d1 past (nextids d1) _ id y HA ltac:(intros t Ht; destruct (li_layer _ _ _ _ _ _ _ HL t Ht) as (tn & Gt & _); eauto) Hre n Gn) as (t & tn & Ht & Gt & Hle).
  destruct final_core as (F1 & _ & _ & _ & _ & _ & F6). assert (Hb := cp_best _ _ _ _ _ _ _ _ _ _ _ _ _ HC).
  unfold best_value. rewrite F1. clear F1. destruct b as [i|].
  - destruct Hb as (bn & Hi & Gi & Hmax). destruct (F6 i bn Gi) as (bn' & -> & Hc). cbn [obind]. exists (n_value bn'). split; [reflexivity|]. rewrite (ce_value _ _ Hc). specialize (Hmax t tn Ht Gt). lia.
  - cbn in Hb. unfold DdFacts.nextids in Ht. rewrite Hb in Ht. destruct Ht.
Qed.

(** ** What is left of an improving solution *)
Lemma gone_theta phi g gn : (phi = value_at \/ i_type inp = Relaxed /\ phi = theta_in) -> In g gone -> get_node d1 g = Some gn -> phi g <= n_theta gn.
Proof.
  intros Hphi Hg Gg. destruct Hphi as [->|[Hty ->]].
  - unfold value_at. rewrite Gg. apply (bi_gone _ _ _ _ _ _ _ _ HB g gn Hg Gg).
  - destruct (cp_relaxed _ _ _ _ _ _ _ _ _ _ _ _ _ HC Hty) as (F & _). unfold theta_in. destruct (fr_nodes _ _ F g gn Gg) as (n' & -> & _ & _ & _ & _ & H & _). exact H.
Qed.

Lemma given_up_alt phi x k : solo = true -> (phi = value_at \/ i_type inp = Relaxed /\ phi = theta_in) -> given_up phi x k -> alt T0 dF x k.
Proof.
  intros Hs Hphi (g & gn & v' & Hg & Gg & Hle & Hk & Hpt). left.
  assert (Hth := gone_theta phi g gn Hphi Hg Gg).
  destruct (bi_gone _ _ _ _ _ _ _ _ HB g gn Hg Gg) as (_ & _ & _ & _ & H). destruct (H Hs) as (i & Hi & Ht).
  exists (n_depth gn), (n_state gn), i, v'. split; [exact Hk|]. split; [exact Hi|]. split; [lia|exact Hpt].
Qed.

Notation potential phi := (phi = value_at \/ i_type inp = Relaxed /\ phi = theta_in).
Lemma potential_flows phi : potential phi -> flows phi.
Proof. intros [->|[Hty ->]]; [apply flows_value|apply flows_theta; exact Hty]. Qed.

(** At a node of the cutset. *)
Lemma settle phi x q qn vq dq cq : solo = true -> i_type inp = Relaxed -> potential phi -> i_lb inp < x ->
  In q past -> In q (g_cutset dF) -> get_node d1 q = Some qn -> vq <= phi q -> vbound (n_depth qn) vq -> completion S P nv (n_depth qn) (n_state qn) dq cq -> x <= vq + cq ->
  alt T0 dF x (Datatypes.S (n_depth qn)) \/
  (g_exact dF = false /\ phi q <= n_value qn /\ exists L d2 q', drain_cutset dF = Some (L, d2) /\ In q' L /\ depth_of q' = n_depth qn /\
     sp_state q' = n_state qn /\ sp_value q' = n_value qn /\ point x (n_depth qn) (n_state qn) (n_value qn) /\ x <= sp_ub q').
Proof.
  intros Hs Hty Hphi Hx Hqp Hcut Gq Hle Hv Hc Hxc.
  destruct (descend phi x (potential_flows phi Hphi) ltac:(congruence) Hx q qn vq dq cq (or_introl Hqp) Gq Hle Hv Hc Hxc) as [(t & tn & vt & y & H1 & H2 & H3 & Hvt & H4 & H5 & H6)|H].
  2: { left. destruct (in_dec Nat.eq_dec q past); [|contradiction]. eapply given_up_alt; eauto. }
  destruct (cp_relaxed _ _ _ _ _ _ _ _ _ _ _ _ _ HC Hty) as (F & D & _).
  destruct (fr_nodes _ _ F q qn Gq) as (qn' & Gq' & Hcq & _).
  destruct (reach_marked q y Hty H6 qn' Gq') as [Hmk Hbot].
  destruct (best_from_reach q qn y Gq H6) as (bv & Hbv & Hby).
  assert (Hphv : phi q <= n_value qn).
  { destruct Hphi as [->|[_ ->]]; [unfold value_at; rewrite Gq; lia|]. unfold theta_in in *. rewrite Gq' in *.
    destruct (D q qn' ltac:(lia) Gq' (not_deleted q qn' Hty (or_introl Hqp) Gq')) as [Hcb _].
    specialize (Hcb (fr_flagcut _ _ F q qn' Gq' Hcut)). unfold cut_bound in Hcb. rewrite (ce_value _ _ Hcq) in Hcb.
    destruct (sat_add (n_value qn) (n_bot qn') <? i_lb inp); [|exact Hcb]. exfalso.
    destruct (node_range q qn vq dq cq Gq Hv Hc) as (h1 & h2 & h3). unfold sat_sub, clamp in Hcb. lia. }
  assert (Hok := a_nodes _ _ _ HA q qn Gq ltac:(discriminate)).
  destruct (node_range q qn (n_value qn) dq cq Gq (no_val _ _ _ _ Hok) Hc) as (h1 & h2 & h3).
  destruct (g_exact dF) eqn:F2.
  - left. right. left. split; [exact F2|]. exists bv. split; [exact Hbv|lia].
  - right. split; [reflexivity|]. split; [exact Hphv|]. destruct drain_ok as (L & d2 & EL & _ & _ & _ & HLL).
    destruct (HLL Hty q qn qn' bv Hcut Gq Gq' Hmk Hbv) as (q' & q1 & q2 & q3 & q4 & q5). exists L, d2, q'. do 2 (split; [assumption|]). do 3 (split; [assumption|]).
    split; [split; [apply Hok|split; [apply Hok|exists dq, cq; split; [exact Hc|lia]]]|]. rewrite q5.
    apply Z.min_glb; [|lia]. apply Z.min_glb; apply sat_add_ge; lia.
Qed.

Lemma lel_depth : i_type inp = Relaxed -> ct = LastExactLayer -> g_approx d1 = true -> exists kc, (k0 < kc < kF)%nat /\ g_lel d1 = Some kc /\
  (forall p pn, In p past -> get_node d1 p = Some pn -> (In p (g_cutset d1) <-> n_depth pn = kc)).
Proof.
  intros Hty Hct Ha. destruct (li_lel _ _ _ _ _ _ _ HL Ha Hct Hty) as (kc & Hk & Hne & Hkc). exists kc. split; [exact Hk|]. split; [|exact Hkc].
  destruct (g_cutset d1) as [|q l] eqn:Ec; [congruence|]. assert (Hq : In q (g_cutset d1)) by (rewrite Ec; left; reflexivity).
  assert (Hqp := a_cutpast _ _ _ HA q Hq). destruct (get_some d1 q (a_past _ _ _ HA q Hqp)) as [qn Gq].
  rewrite (proj2 (bi_lel _ _ _ _ _ _ _ _ HB Hty Hct) q qn Hq Gq). f_equal. apply (Hkc q qn Hqp Gq). rewrite <- Ec. exact Hq.
Qed.

(** The cutsets that lose nothing. *)
Definition one_last : Prop := forall s s', at_depth N s -> at_depth N s' -> s = s'.
Notation cutok := (ct = LastExactLayer \/ one_last).

Lemma exact_last t tn : i_type inp = Relaxed -> one_last -> In t (nextids d1) -> get_node d1 t = Some tn -> is_exact (n_flags tn) = true -> g_exact dF = true.
Proof.
  intros Hty Hone Ht Gt Hx. destruct final_core as (_ & -> & _). assert (Hb := cp_best _ _ _ _ _ _ _ _ _ _ _ _ _ HC). assert (He := cp_exact _ _ _ _ _ _ _ _ _ _ _ _ _ HC).
  assert (HkN : kF = N). { destruct (cp_end _ _ _ _ _ _ _ _ _ _ _ _ _ HC) as [H|H]; [|exact H]. unfold DdFacts.nextids in Ht. rewrite H in Ht. destruct Ht. }
  assert (Hcase : (exists i, b = Some i) \/ b = None) by (destruct b; eauto). destruct Hcase as [[i Eb]|Eb]; rewrite Eb in Hb, He.
  2: { cbn in Hb. unfold DdFacts.nextids in Ht. rewrite Hb in Ht. destruct Ht. }
  destruct Hb as (bn & Hi & Gb & _).
  destruct (li_layer _ _ _ _ _ _ _ HL t Ht) as (n1 & G1 & D1). assert (n1 = tn) as -> by congruence.
  destruct (li_layer _ _ _ _ _ _ _ HL i Hi) as (bn' & Gb' & Db). assert (bn' = bn) as -> by congruence.
  assert (Hst : n_state tn = n_state bn).
  { apply Hone; [rewrite <- HkN, <- D1|rewrite <- HkN, <- Db]; [apply (no_at _ _ _ _ (no_base _ _ _ _ (a_nodes _ _ _ HA t tn Gt ltac:(discriminate))))|
      apply (no_at _ _ _ _ (no_base _ _ _ _ (a_nodes _ _ _ HA i bn Gb ltac:(discriminate))))]. }
  assert (Heq : t = i).
  { unfold DdFacts.nextids in Ht, Hi. apply in_map_iff in Ht as ((s1 & x1) & Hx1 & Hin1). apply in_map_iff in Hi as ((s2 & x2) & Hx2 & Hin2). cbn in Hx1, Hx2. subst x1 x2.
    destruct (a_next _ _ _ HA s1 t Hin1) as (m1 & M1 & S1 & _). destruct (a_next _ _ _ HA s2 i Hin2) as (m2 & M2 & S2 & _).
    assert (s1 = s2) by congruence. subst s2. apply (next_get_in _ _ _ (a_keys _ _ _ HA)) in Hin1. apply (next_get_in _ _ _ (a_keys _ _ _ HA)) in Hin2. congruence. }
  subst i. unfold compute_exact in He. rewrite Hty in He. cbn [g_approx set_best_exact g_nodes g_best] in He. destruct (negb (g_approx d1)); [congruence|]. cbn [has_exact_best_path] in He.
  match type of He with context [get_node ?x t] => change (get_node x t) with (get_node d1 t) in He end. rewrite Gt in He. cbn [obind] in He. rewrite Hx in He. congruence.
Qed.

(** Down to the frontier. *)
Lemma descend_frontier phi x : flows phi -> i_type inp = Relaxed -> ct = Frontier -> i_lb inp < x ->
  forall j id n v ds c, (N - n_depth n <= j)%nat -> In id past -> get_node d1 id = Some n -> is_exact (n_flags n) = true ->
  v <= phi id -> vbound (n_depth n) v -> completion S P nv (n_depth n) (n_state n) ds c -> x <= v + c ->
  (exists q qn vq dq cq, In q past /\ In q (g_cutset dF) /\ get_node d1 q = Some qn /\ vq <= phi q /\ vbound (n_depth qn) vq /\
     completion S P nv (n_depth qn) (n_state qn) dq cq /\ x <= vq + cq /\ (q = id /\ vq = v \/ (n_depth n < n_depth qn)%nat)) \/
  given_up phi x (Datatypes.S (n_depth n)) \/
  (exists t tn vt, In t (nextids d1) /\ get_node d1 t = Some tn /\ is_exact (n_flags tn) = true /\ vt <= phi t /\ vbound (n_depth tn) vt /\ x <= vt).
Proof.
  intros Hfl Hty Hct Hx. assert (Hop : open_dd) by congruence. destruct (cp_relaxed _ _ _ _ _ _ _ _ _ _ _ _ _ HC Hty) as (F & D & _ & Tm).
  induction j as [j IH] using lt_wf_ind. intros id n v ds c Hj Hin Gn Hex Hle Hv Hc Hxc.
  assert (Hdn : (n_depth n < N)%nat) by (pose proof (li_depth _ _ _ _ _ _ _ HL id n Hin Gn); pose proof (li_range _ _ _ _ _ _ _ HL); lia).
  destruct (Z_lt_le_dec (i_lb inp) (sat_add (pb_estimate P (n_state n)) (n_value n))) as [Hub|Hub].
  2: { assert (H := proj2 Hfl id n v ds c Hin Gn Hub Hv Hc Hle). lia. }
  destruct (child_step id n v ds c Hop Hin Gn Hub Hv Hc) as (m & mn & e0 & ed & ds' & c' & Hm & Gm & He & Hf & Dm & Hc' & Hcc & Hv').
  assert (Hle' := proj1 Hfl id n m mn e0 ed v Hin Gn Hm Gm He Hf Hv Hle). destruct (is_exact (n_flags mn)) eqn:Xm.
  - destruct Hm as [Hm|[Hm|Hm]].
    + destruct (IH (N - n_depth mn)%nat ltac:(lia) m mn (v + e_cost ed) ds' c' ltac:(lia) Hm Gm Xm Hle' Hv' Hc' ltac:(lia)) as
        [(q & qn & vq & dq & cq & H1 & H2 & H3 & H4 & H5 & H6 & H7 & H8)|[(g & gn & v' & H1 & H2 & H3 & H4 & H5)|H]]; [left|right; left|right; right; exact H].
      * exists q, qn, vq, dq, cq. do 7 (split; [assumption|]). right. destruct H8 as [[-> _]|H8]; [assert (qn = mn) as -> by congruence|]; lia.
      * exists g, gn, v'. do 3 (split; [assumption|]). split; [lia|assumption].
    + right. right. assert (Hc0 : c' = 0).
      { assert (HkN : kF = N). { destruct (cp_end _ _ _ _ _ _ _ _ _ _ _ _ _ HC) as [H|H]; [|exact H]. unfold DdFacts.nextids in Hm. rewrite H in Hm. destruct Hm. }
        destruct (li_layer _ _ _ _ _ _ _ HL m Hm) as (n2 & G2 & D2). assert (n2 = mn) as -> by congruence. destruct Hc' as (s' & Hc'). rewrite D2, HkN in Hc'. clear - Hc'. inversion Hc'; [reflexivity|lia]. }
      exists m, mn, (v + e_cost ed). do 5 (split; [assumption|]). lia.
    + right. left. exists m, mn, (v + e_cost ed). do 3 (split; [assumption|]). split; [lia|]. split; [exact Hv'|].
      split; [apply (no_at _ _ _ _ (no_base _ _ _ _ (a_nodes _ _ _ HA m mn Gm ltac:(discriminate))))|]. exists ds', c'. split; [exact Hc'|lia].
  - destruct (descend phi x Hfl Hop Hx m mn (v + e_cost ed) ds' c' Hm Gm Hle' Hv' Hc' ltac:(lia)) as [(t & tn & vt & y & H1 & H2 & H3 & Hvt & H4 & H5 & H6)|(g & gn & v' & H1 & H2 & H3 & H4 & H5)].
    + left. exists id, n, v, ds, c. split; [exact Hin|]. split; [|do 5 (split; [assumption|]); left; auto].
      destruct (fr_nodes _ _ F m mn Gm) as (mn' & Gm' & Hcm & _). destruct (fr_nodes _ _ F id n Gn) as (n' & Gn' & Hcn & _).
      destruct (reach_marked m y Hty H6 mn' Gm') as [Hmk _].
      destruct (D m mn' ltac:(lia) Gm' (not_deleted m mn' Hty Hm Gm')) as [_ Hs]. rewrite (ce_inb _ _ Hcm) in Hs.
      destruct (Hs e0 ed He) as (pn & Gp & _ & _ & Hfc). rewrite Hf in Gp. assert (pn = n') as -> by congruence.
      assert (Hflag : is_cutset (n_flags n') = true).
      { apply Hfc; [|exact Hmk|rewrite (ce_exact _ _ Hcm); exact Xm|rewrite (ce_exact _ _ Hcn); exact Hex]. cbn [g_ctype set_best_exact]. rewrite <- Hct. apply HL. }
      destruct (fr_cutflag _ _ F id n' Gn' Hflag) as [H|[H _]]; [exact H|]. exfalso. exact (li_disj _ _ _ _ _ _ _ HL id Hin H).
    + right. left. exists g, gn, v'. do 3 (split; [assumption|]). split; [|assumption]. destruct (in_dec Nat.eq_dec m past); lia.
Qed.

(** From an expanded node at or above the cutset. *)
Lemma from_node phi x id n v ds c : solo = true -> (i_type inp = Relaxed /\ cutok) \/ (i_type inp <> Relaxed /\ g_approx d1 = false) -> potential phi -> i_lb inp < x ->
  In id past -> get_node d1 id = Some n -> is_exact (n_flags n) = true ->
  (i_type inp = Relaxed -> ct = LastExactLayer -> forall l, g_lel d1 = Some l -> (n_depth n <= l)%nat) ->
  v <= phi id -> vbound (n_depth n) v -> completion S P nv (n_depth n) (n_state n) ds c -> x <= v + c ->
  (forall t tn vt, In t (nextids d1) -> get_node d1 t = Some tn -> (ct = LastExactLayer -> g_approx d1 = false) -> (ct = Frontier -> i_type inp = Relaxed -> is_exact (n_flags tn) = true) ->
     vt <= phi t -> vbound (n_depth tn) vt -> x <= vt -> x <= n_value tn) ->
  alt T0 dF x (Datatypes.S (n_depth n)) \/
  (i_type inp = Relaxed /\ In id (g_cutset dF) /\ g_exact dF = false /\ phi id <= n_value n /\ exists L d2 q', drain_cutset dF = Some (L, d2) /\ In q' L /\ depth_of q' = n_depth n /\
     sp_state q' = n_state n /\ sp_value q' = n_value n /\ point x (n_depth n) (n_state n) (n_value n) /\ x <= sp_ub q').
Proof.
  intros Hs Hty Hphi Hx Hin Gn Hex Hlel Hle Hv Hc Hxc Hterm.
  assert (Hlast : forall t tn vt, In t (nextids d1) -> get_node d1 t = Some tn -> (ct = LastExactLayer -> g_approx d1 = false) -> (ct = Frontier -> i_type inp = Relaxed -> is_exact (n_flags tn) = true) ->
     vt <= phi t -> vbound (n_depth tn) vt -> x <= vt -> g_exact dF = true -> alt T0 dF x (Datatypes.S (n_depth n))).
  { intros t tn vt H1 H2 h1 h2 H3 Hvt H4 Hx1. right. left. split; [exact Hx1|].
    assert (Hxt := Hterm t tn vt H1 H2 h1 h2 H3 Hvt H4). destruct (best_from_reach t tn 0 H2 (reach_term _ _ _ _ H1)) as (bv & Hbv & Hle'). exists bv. split; [exact Hbv|lia]. }
  assert (Hsettle : forall q qn vq dq cq, i_type inp = Relaxed -> In q past -> In q (g_cutset dF) -> get_node d1 q = Some qn -> vq <= phi q -> vbound (n_depth qn) vq ->
     completion S P nv (n_depth qn) (n_state qn) dq cq -> x <= vq + cq -> q = id /\ vq = v \/ (n_depth n < n_depth qn)%nat ->
     alt T0 dF x (Datatypes.S (n_depth n)) \/
     (i_type inp = Relaxed /\ In id (g_cutset dF) /\ g_exact dF = false /\ phi id <= n_value n /\ exists L d2 q', drain_cutset dF = Some (L, d2) /\ In q' L /\ depth_of q' = n_depth n /\
       sp_state q' = n_state n /\ sp_value q' = n_value n /\ point x (n_depth n) (n_state n) (n_value n) /\ x <= sp_ub q')).
  { intros q qn vq dq cq Hr Hqp Hqc Gq H4 H5 H6 H7 H8.
    destruct (settle phi x q qn vq dq cq Hs Hr Hphi Hx Hqp Hqc Gq H4 H5 H6 H7) as [H|(E & Hp & L & d2 & q' & q1 & q2 & q3 & q4 & q5 & q6 & q7)].
    - left. assert (Hd : (n_depth n <= n_depth qn)%nat) by (destruct H8 as [[-> _]|H8]; [assert (qn = n) as -> by congruence|]; lia).
      destruct H as [(k & s & i & w & g1 & g2)|[H|(E & L & d2 & q' & q1 & q2 & q3 & q4)]].
      * left. exists k, s, i, w. split; [lia|exact g2].
      * right. left. exact H.
      * right. right. split; [exact E|]. exists L, d2, q'. split; [exact q1|]. split; [exact q2|]. split; [lia|exact q4].
    - destruct H8 as [[-> ->]|H8].
      * right. assert (qn = n) as -> by congruence. split; [exact Hr|]. split; [exact Hqc|]. split; [exact E|]. split; [exact Hp|]. exists L, d2, q'. auto 10.
      * left. right. right. split; [exact E|]. exists L, d2, q'. split; [exact q1|]. split; [exact q2|]. split; [lia|]. rewrite q3, q4, q5. auto. }
  assert (Hno : g_approx d1 = false -> (ct = Frontier -> i_type inp <> Relaxed) -> alt T0 dF x (Datatypes.S (n_depth n))).
  { intros Ha Hct. destruct (descend phi x (potential_flows phi Hphi) ltac:(congruence) Hx id n v ds c (or_introl Hin) Gn Hle Hv Hc Hxc) as [(t & tn & vt & y & H1 & H2 & H3 & Hvt & H4 & H5 & H6)|H].
    2: { destruct (in_dec Nat.eq_dec id past); [|contradiction]. eapply given_up_alt; eauto. }
    apply (Hlast t tn vt); auto; [intros h1 h2; contradiction (Hct h1 h2)|]. destruct final_core as (_ & -> & _). apply exact_approx. exact Ha. }
  destruct Hty as [[Hty Hcut]|[Hty Ha]]; [|left; auto].
  assert (Hcase : ct = LastExactLayer \/ ct = Frontier) by (destruct ct; auto). destruct Hcase as [Hct|Hct].
  - destruct (g_approx d1) eqn:Ha; [|left; apply Hno; [reflexivity|congruence]].
    destruct (lel_depth Hty Hct Ha) as (kc & Hk & Hl & Hkc). specialize (Hlel Hty Hct kc Hl).
    destruct (descend_lel phi x kc (potential_flows phi Hphi) ltac:(congruence) Hx Hkc ltac:(lia) _ id n v ds c eq_refl Hlel Hin Gn Hle Hv Hc Hxc) as [(q & qn & vq & dq & cq & H1 & H2 & H3 & H4 & H5 & H6 & H7 & H8)|H].
    2: { left. eapply given_up_alt; eauto. }
    rewrite <- H3 in H5, H6. destruct (cp_relaxed _ _ _ _ _ _ _ _ _ _ _ _ _ HC Hty) as (F & _).
    apply (Hsettle q qn vq dq cq); auto; [exact (a_cutpast _ _ _ HA q H1)|apply (fr_cutold _ _ F); exact H1|].
    destruct (Nat.eq_dec (n_depth n) kc) as [Hd|Hd]; [left; apply H8; lia|right; lia].
  - destruct Hcut as [Hcut|Hone]; [congruence|].
    destruct (descend_frontier phi x (potential_flows phi Hphi) Hty Hct Hx _ id n v ds c (Nat.le_refl _) Hin Gn Hex Hle Hv Hc Hxc) as [(q & qn & vq & dq & cq & H1 & H2 & H3 & H4 & H5 & H6 & H7 & H8)|[H|(t & tn & vt & H1 & H2 & H3 & H4 & H5 & H6)]].
    + apply (Hsettle q qn vq dq cq); auto.
    + left. eapply given_up_alt; eauto.
    + left. apply (Hlast t tn vt); auto; [congruence|]. eapply exact_last; eauto.
Qed.

Lemma root_alt x : solo = true -> (i_type inp = Relaxed /\ cutok) \/ (i_type inp <> Relaxed /\ g_exact dF = true) -> i_lb inp < x ->
  point x k0 (sp_state sp) (sp_value sp) -> alt T0 dF x (Datatypes.S k0).
Proof.
  intros Hs Hty Hx (Hv & Hat & ds & c & Hc & Hxc). destruct final_core as (_ & F2 & _).
  destruct (root_node d1 past HA) as (rn & Gr & R1 & R2 & R3).
  assert (Hty' : (i_type inp = Relaxed /\ cutok) \/ (i_type inp <> Relaxed /\ g_approx d1 = false)).
  { destruct Hty as [H|[H1 H2]]; [auto|]. right. split; [exact H1|]. apply exact_restricted; congruence. }
  destruct (root_in _ _ _ _ _ _ _ HL) as [H0|H0].
  - destruct (from_node value_at x 0%nat rn (sp_value sp) ds c Hs Hty' (or_introl eq_refl) Hx H0 Gr) as [H|(Hr & H & _)].
    + destruct (no_best _ _ _ _ (a_nodes _ _ _ HA 0%nat rn Gr ltac:(discriminate))) as [(_ & _ & _ & _ & _ & _ & H)|[H _]]; [exact H|congruence].
    + intros Hr Hct l Hl. assert (Ha : g_approx d1 = true \/ g_approx d1 = false) by (destruct (g_approx d1); auto). destruct Ha as [Ha|Ha].
      * destruct (lel_depth Hr Hct Ha) as (kc & Hk & Hl' & _). assert (l = kc) by congruence. lia.
      * rewrite (proj1 (bi_lel _ _ _ _ _ _ _ _ HB Hr Hct) Ha) in Hl. discriminate.
    + unfold value_at. rewrite Gr. lia.
    + rewrite R3. exact Hv.
    + rewrite R1, R3. exact Hc.
    + exact Hxc.
    + intros t tn vt Ht Gt _ _ Hle _ Hxt. unfold value_at in Hle. rewrite Gt in Hle. lia.
    + rewrite R3 in H. exact H.
    + exfalso. destruct (cut_node 0%nat Hr H) as (rn' & _ & Gr' & _ & _ & _ & _ & _ & Hd). assert (rn' = rn) as -> by congruence. lia.
  - (* the root is itself a leaf *)
    right. left. destruct (li_layer _ _ _ _ _ _ _ HL 0%nat H0) as (n2 & G2 & D2). assert (n2 = rn) as -> by congruence.
    assert (HkN : kF = N). { destruct (cp_end _ _ _ _ _ _ _ _ _ _ _ _ _ HC) as [H|H]; [|exact H]. unfold DdFacts.nextids in H0. rewrite H in H0. destruct H0. }
    assert (Ha : g_approx d1 = false).
    { destruct Hty' as [[Hr _]|[_ H]]; [|exact H]. apply (proj1 (li_near _ _ _ _ _ _ _ HL Hr)). lia. }
    split; [rewrite F2; apply exact_approx; exact Ha|].
    destruct (best_from_reach 0%nat rn 0 Gr (reach_term _ _ _ _ H0)) as (bv & Hbv & Hle). exists bv. split; [exact Hbv|].
    assert (c = 0) by (destruct Hc as (s' & Hc); assert (HkN' : k0 = N) by lia; rewrite HkN' in Hc; clear - Hc; inversion Hc; [reflexivity|lia]). lia.
Qed.

(** Every entry of the thresholds left by a relaxed compilation is justified. *)
Lemma entry_alt k s : solo = true -> i_type inp = Relaxed -> cutok ->
  lookup T' k s = lookup T0 k s \/
  exists i, lookup T' k s = Some i /\ (k0 <= k)%nat /\ forall x v, i_lb inp < x -> v <= b_theta i -> point x k s v ->
    alt T0 dF x (Datatypes.S k) \/
    (b_explored i = false /\ g_exact dF = false /\ exists L d2 q, drain_cutset dF = Some (L, d2) /\ In q L /\ depth_of q = k /\ sp_state q = s /\
       b_theta i <= sp_value q /\ x <= sp_ub q).
Proof.
  intros Hs Hty Hcut0. destruct (cp_relaxed _ _ _ _ _ _ _ _ _ _ _ _ _ HC Hty) as (F & D & Hlate & Tm). specialize (Hlate Hs).
  destruct (Hlate k s) as [H1|(id & n' & _ & Gn' & D1 & D2 & Hex & Hpb & Hdel & Hlel & Hlk)].
  - rewrite H1. destruct (bi_tab _ _ _ _ _ _ _ _ HB Hs k s) as [H2|(_ & id & n & Hin & Gn & D1 & D2 & Hex & Hlel & Hlk)]; [left; exact H2|]. right.
    eexists. split; [exact Hlk|]. split; [subst k; apply (no_depth _ _ _ _ (no_base _ _ _ _ (a_nodes _ _ _ HA id n Gn ltac:(discriminate))))|].
    cbn [b_theta b_explored]. intros x v Hx Hle (Hv & Hat & ds & c & Hc & Hxc). subst k s.
    unfold early_theta in Hle. destruct (Z.ltb_spec (i_lb inp) (sat_add (pb_estimate P (n_state n)) (n_value n))) as [Hub|Hub].
    2: { exfalso. destruct (node_range id n v ds c Gn Hv Hc) as (h1 & h2 & h3). unfold sat_sub, clamp in Hle. lia. }
    destruct (from_node value_at x id n v ds c Hs (or_introl (conj Hty Hcut0)) (or_introl eq_refl) Hx Hin Gn) as [H|(_ & Hcut & E & Hp & L & d2 & q' & q1 & q2 & q3 & q4 & q5 & q6 & q7)]; auto.
    + intros _ Hct l Hl. apply Hlel; [rewrite <- Hct; apply HL|exact Hl].
    + unfold value_at. rewrite Gn. exact Hle.
    + intros t tn vt Ht Gt _ _ Hle' _ Hxt. unfold value_at in Hle'. rewrite Gt in Hle'. lia.
    + right. split; [reflexivity|]. split; [exact E|]. exists L, d2, q'. do 4 (split; [assumption|]). split; [|assumption].
      unfold early_theta. destruct (Z.ltb_spec (i_lb inp) (sat_add (pb_estimate P (n_state n)) (n_value n))); lia.
  - right. eexists. split; [exact Hlk|].
    assert (Hlt : (id < length (g_nodes d1))%nat). { apply get_lt in Gn'. rewrite (fr_len _ _ F) in Gn'. exact Gn'. }
    destruct (get_some d1 id Hlt) as [n Gn]. destruct (fr_nodes _ _ F id n Gn) as (n2 & G2 & Hc' & _ & Hd' & Hb' & _). assert (n2 = n') as -> by congruence.
    assert (Ed : n_depth n = k) by (rewrite <- (ce_depth _ _ Hc'); exact D1). assert (Es : n_state n = s) by (rewrite <- (ce_state _ _ Hc'); exact D2).
    split; [rewrite <- Ed; apply (no_depth _ _ _ _ (no_base _ _ _ _ (a_nodes _ _ _ HA id n Gn ltac:(discriminate))))|].
    cbn [b_theta b_explored]. intros x v Hx Hle (Hv & Hat & ds & c & Hc & Hxc). rewrite <- Ed, <- Es in *. clear D1 D2 Ed Es k s.
    assert (Hterm : forall t tn vt, In t (nextids d1) -> get_node d1 t = Some tn -> (ct = LastExactLayer -> g_approx d1 = false) -> (ct = Frontier -> i_type inp = Relaxed -> is_exact (n_flags tn) = true) ->
      vt <= theta_in t -> vbound (n_depth tn) vt -> i_lb inp < vt -> vt <= n_value tn).
    { intros t tn vt Ht Gt Ha Ha' Hlet Hvt Hxt.
      assert (Hr : IMIN < vt). { assert (Hok := a_nodes _ _ _ HA t tn Gt ltac:(discriminate)). assert (H := value_bound (n_depth tn) vt 0 (proj2 (no_depth _ _ _ _ (no_base _ _ _ _ Hok))) Hvt). rewrite Z.add_0_r in H. apply H. pose proof (bd_pos _ _ _ _ _ _ Hbd). cbn [Z.abs]. nia. }
      destruct (fr_nodes _ _ F t tn Gt) as (tn' & Gt' & Hct' & _). unfold theta_in in Hlet. rewrite Gt' in Hlet.
      destruct (Tm t tn' Ht Gt') as (m1 & m2 & m3). destruct (D t tn' ltac:(lia) Gt' (not_deleted t tn' Hty (or_intror (or_introl Ht)) Gt')) as [Hcb _].
      assert (Hl : last_cut (set_best_exact d1 b e) t). { split; [exact Ht|]. cbn [g_ctype set_best_exact]. rewrite (li_ctype _ _ _ _ _ _ _ HL). assert (Hcase : ct = LastExactLayer \/ ct = Frontier) by (destruct ct; auto).
        destruct Hcase as [Ec|Ec]; rewrite Ec; [exact (Ha Ec)|]. exists tn. split; [exact Gt|exact (Ha' Ec Hty)]. }
      specialize (Hcb (m3 Hl)). unfold cut_bound in Hcb. rewrite (ce_value _ _ Hct') in Hcb. destruct (sat_add (n_value tn) (n_bot tn') <? i_lb inp); [|lia].
      unfold sat_sub, clamp in Hcb. lia. }
    destruct (bi_rest _ _ _ _ _ _ _ _ HB Hty id n Gn) as [Hin|[Hin|[Hin|Hin]]].
    + destruct (from_node theta_in x id n v ds c Hs (or_introl (conj Hty Hcut0)) (or_intror (conj Hty eq_refl)) Hx Hin Gn) as [H|(_ & Hcut & E & Hp & L & d2 & q' & q1 & q2 & q3 & q4 & q5 & q6 & q7)]; auto.
      * rewrite <- (ce_exact _ _ Hc'). exact Hex.
      * intros _ Hct l Hl. apply Hlel; [cbn [g_ctype set_best_exact]; rewrite <- Hct; apply HL|exact Hl].
      * unfold theta_in. rewrite Gn'. exact Hle.
      * intros t tn vt Ht Gt Ha Ha' Hle' Hvt Hxt. specialize (Hterm t tn vt Ht Gt Ha Ha' Hle' Hvt). lia.
      * right. unfold theta_in in Hp. rewrite Gn' in Hp. split; [rewrite (fr_flagcut _ _ F id n' Gn' Hcut); reflexivity|]. split; [exact E|]. exists L, d2, q'. do 4 (split; [assumption|]). split; [lia|assumption].
    + left. right. left. assert (Hexn : is_exact (n_flags n) = true) by (rewrite <- (ce_exact _ _ Hc'); exact Hex).
      assert (Ha : ct = LastExactLayer -> g_approx d1 = false).
      { intros Hct. destruct (g_approx d1) eqn:Ha; [exfalso|reflexivity]. destruct (lel_depth Hty Hct Ha) as (kc & Hk & Hl & _). destruct (li_layer _ _ _ _ _ _ _ HL id Hin) as (n2 & G2' & D2). assert (n2 = n) as -> by congruence.
        assert (n_depth n <= kc)%nat; [|lia]. apply Hlel; [cbn [g_ctype set_best_exact]; rewrite <- Hct; apply HL|exact Hl]. }
      split; [destruct Hcut0 as [Hct|Hone]; [destruct final_core as (_ & -> & _); apply exact_approx; auto|eapply exact_last; eauto]|].
      destruct (best_from_reach id n 0 Gn (reach_term _ _ _ _ Hin)) as (bv & Hbv & Hlb). exists bv. split; [exact Hbv|].
      assert (HkN : kF = N). { destruct (cp_end _ _ _ _ _ _ _ _ _ _ _ _ _ HC) as [H|H]; [|exact H]. unfold DdFacts.nextids in Hin. rewrite H in Hin. destruct Hin. }
      destruct (li_layer _ _ _ _ _ _ _ HL id Hin) as (n2 & G2' & D2). assert (n2 = n) as -> by congruence.
      assert (c = 0) by (destruct Hc as (s' & Hc); rewrite D2, HkN in Hc; clear - Hc; inversion Hc; [reflexivity|lia]).
      destruct (node_range id n v ds c Gn Hv Hc) as (h1 & h2 & h3).
      assert (v <= n_value n); [|lia]. apply (Hterm id n v Hin Gn Ha); [auto|unfold theta_in; rewrite Gn'; exact Hle|exact Hv|lia].
    + exfalso. destruct (bi_gone _ _ _ _ _ _ _ _ HB id n Hin Gn) as (_ & _ & H & _). congruence.
    + congruence.
Qed.
End Compiled.
End Facts.
