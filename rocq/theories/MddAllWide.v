(** src/mdd/with_all.rs when no layer exceeds the maximum width: merging plays no role. *)
From Verif Require Import Spec Dd FlagsFacts MatrixFacts DdSpec MddAll DdFacts DdRelax DdExpand DdLoop DdFinal MddAllBounds MddAllFacts MddAllObs WideSpec.
From Coq Require Import ZifyNat.
Open Scope Z_scope.

Section Facts.
Variable S : Type.
Variable eqb : S -> S -> bool.
Hypothesis eqb_spec : forall a b, eqb a b = true <-> a = b.
Variable P : problem S.
Variable R : relaxation S.
Variable at_depth : nat -> S -> Prop.
Variable nv : nat -> nat.
Variable C : Z.
Hypothesis Hwf : wf_problem S P at_depth nv.
Hypothesis Hvr : relaxation_depth S P at_depth R.
Hypothesis Hbd : bounded S P at_depth nv R C.
Variable k0 : nat.
Variable sp : subproblem S.
Notation N := (pb_nb_vars P).
Notation node := (node S).
Notation dd := (dd S).
Local Notation vbound := (@DdFacts.vbound C).
Local Notation valid_root := (@DdFacts.valid_root S P at_depth C k0 sp).
Local Notation nextids := (@DdFacts.nextids S).
Local Notation vbound_range := (@DdFacts.vbound_range S P R at_depth nv C Hbd).
Local Notation vbound_step := (@DdFacts.vbound_step S P R at_depth nv C Hbd).
Local Notation coreeq := (@DdFacts.coreeq S).
Local Notation samenode := (@DdFacts.samenode S).
Local Notation coreeq_refl := (@DdFacts.coreeq_refl S).
Local Notation samenode_refl := (@DdFacts.samenode_refl S).
Local Notation coreeq_trans := (@DdFacts.coreeq_trans S).
Local Notation samenode_trans := (@DdFacts.samenode_trans S).
Local Notation stable := (@DdFacts.stable S).
Local Notation stable_refl := (@DdFacts.stable_refl S).
Local Notation stable_trans := (@DdFacts.stable_trans S k0).
Local Notation stable_weaken := (@DdFacts.stable_weaken S).
Local Notation edge_ok := (@DdFacts.edge_ok S P nv C).
Local Notation orig_edge := (@DdFacts.orig_edge S P).
Local Notation orig_all := (@DdFacts.orig_all S P).
Local Notation is_root := (@DdFacts.is_root S k0 sp).
Local Notation best_ok := (@DdFacts.best_ok S P k0 sp).
Local Notation node_base := (@DdFacts.node_base S P at_depth nv C k0).
Local Notation node_ok := (@DdFacts.node_ok S P at_depth nv C k0 sp).
Local Notation cleanf := (@DdFacts.cleanf S).
Local Notation clean := (@DdFacts.clean S).
Local Notation arena := (@DdFacts.arena S P at_depth nv C k0 sp).
Local Notation layer_at := (@DdFacts.layer_at S).
Local Notation get_lt := (@DdFacts.get_lt S).
Local Notation get_some := (@DdFacts.get_some S).
Local Notation upd_node_spec := (@DdFacts.upd_node_spec S).
Local Notation orig_edge_mono := (@DdFacts.orig_edge_mono S P).
Local Notation edge_ok_mono := (@DdFacts.edge_ok_mono S P nv C).
Local Notation past_frozen := (@DdFacts.past_frozen S).
Local Notation node_base_mono := (@DdFacts.node_base_mono S P at_depth nv C k0).
Local Notation best_ok_mono := (@DdFacts.best_ok_mono S P at_depth nv C k0 sp).
Local Notation node_ok_mono := (@DdFacts.node_ok_mono S P at_depth nv C k0 sp).
Local Notation orig_all_mono := (@DdFacts.orig_all_mono S P at_depth nv C k0).
Local Notation stable_past := (@DdFacts.stable_past S).
Local Notation next_get_in := (@DdFacts.next_get_in S eqb eqb_spec).
Local Notation next_get_none := (@DdFacts.next_get_none S eqb eqb_spec).
Local Notation nextids_in := (@DdFacts.nextids_in S).
Local Notation all_exact := (@DdFacts.all_exact S).
Local Notation grows := (@DdFacts.grows S).
Local Notation grows_refl := (@DdFacts.grows_refl S).
Local Notation nextids_incl := (@DdFacts.nextids_incl S).
Local Notation grows_trans := (@DdFacts.grows_trans S).
Local Notation same_rest := (@DdFacts.same_rest S).
Local Notation same_rest_refl := (@DdFacts.same_rest_refl S).
Local Notation same_rest_trans := (@DdFacts.same_rest_trans S).
Local Notation has_edge := (@DdFacts.has_edge S P).
Local Notation has_edge_grows := (@DdFacts.has_edge_grows S P).
Local Notation branch_spec := (@DdFacts.branch_spec S eqb eqb_spec P R at_depth nv C Hwf Hbd k0 sp).
Local Notation vr_path := (@DdFacts.vr_path S P at_depth C k0 sp).
Local Notation vr_le := (@DdFacts.vr_le S P at_depth C k0 sp).
Local Notation vr_at := (@DdFacts.vr_at S P at_depth C k0 sp).
Local Notation vr_val := (@DdFacts.vr_val S P at_depth C k0 sp).
Local Notation ce_state := (@DdFacts.ce_state S).
Local Notation ce_value := (@DdFacts.ce_value S).
Local Notation ce_best := (@DdFacts.ce_best S).
Local Notation ce_inb := (@DdFacts.ce_inb S).
Local Notation ce_depth := (@DdFacts.ce_depth S).
Local Notation ce_exact := (@DdFacts.ce_exact S).
Local Notation ce_relaxed := (@DdFacts.ce_relaxed S).
Local Notation sn_core := (@DdFacts.sn_core S).
Local Notation sn_rub := (@DdFacts.sn_rub S).
Local Notation sn_theta := (@DdFacts.sn_theta S).
Local Notation sn_bot := (@DdFacts.sn_bot S).
Local Notation sn_marked := (@DdFacts.sn_marked S).
Local Notation sn_deleted := (@DdFacts.sn_deleted S).
Local Notation sn_barrier := (@DdFacts.sn_barrier S).
Local Notation st_edges := (@DdFacts.st_edges S).
Local Notation st_len := (@DdFacts.st_len S).
Local Notation st_nodes := (@DdFacts.st_nodes S).
Local Notation st_root := (@DdFacts.st_root S).
Local Notation st_ctype := (@DdFacts.st_ctype S).
Local Notation eo_past := (@DdFacts.eo_past S P nv C).
Local Notation eo_lt := (@DdFacts.eo_lt S P nv C).
Local Notation eo_cost := (@DdFacts.eo_cost S P nv C).
Local Notation eo_parent := (@DdFacts.eo_parent S P nv C).
Local Notation no_depth := (@DdFacts.no_depth S P at_depth nv C k0).
Local Notation no_at := (@DdFacts.no_at S P at_depth nv C k0).
Local Notation no_head := (@DdFacts.no_head S P at_depth nv C k0).
Local Notation no_edges := (@DdFacts.no_edges S P at_depth nv C k0).
Local Notation no_marked := (@DdFacts.no_marked S P at_depth nv C k0).
Local Notation no_bot := (@DdFacts.no_bot S P at_depth nv C k0).
Local Notation no_base := (@DdFacts.no_base S P at_depth nv C k0 sp).
Local Notation no_val := (@DdFacts.no_val S P at_depth nv C k0 sp).
Local Notation no_best := (@DdFacts.no_best S P at_depth nv C k0 sp).
Local Notation a_edges := (@DdFacts.a_edges S P at_depth nv C k0 sp).
Local Notation a_len := (@DdFacts.a_len S P at_depth nv C k0 sp).
Local Notation a_nodes := (@DdFacts.a_nodes S P at_depth nv C k0 sp).
Local Notation a_past := (@DdFacts.a_past S P at_depth nv C k0 sp).
Local Notation a_lt := (@DdFacts.a_lt S P at_depth nv C k0 sp).
Local Notation a_keys := (@DdFacts.a_keys S P at_depth nv C k0 sp).
Local Notation a_next := (@DdFacts.a_next S P at_depth nv C k0 sp).
Local Notation a_cut := (@DdFacts.a_cut S P at_depth nv C k0 sp).
Local Notation a_cutpast := (@DdFacts.a_cutpast S P at_depth nv C k0 sp).
Local Notation a_root := (@DdFacts.a_root S P at_depth nv C k0 sp).
Local Notation gr_incl := (@DdFacts.gr_incl S).
Local Notation gr_fresh := (@DdFacts.gr_fresh S).
Local Notation gr_nodes := (@DdFacts.gr_nodes S).
Local Notation sr_prev := (@DdFacts.sr_prev S).
Local Notation sr_cut := (@DdFacts.sr_cut S).
Local Notation sr_lel := (@DdFacts.sr_lel S).
Local Notation sr_best := (@DdFacts.sr_best S).
Local Notation sr_exact := (@DdFacts.sr_exact S).
Local Notation sr_approx := (@DdFacts.sr_approx S).
Local Notation chg := (@DdRelax.chg S).
Local Notation chg_refl := (@DdRelax.chg_refl S).
Local Notation chg_trans := (@DdRelax.chg_trans S).
Local Notation chg_weaken := (@DdRelax.chg_weaken S).
Local Notation chg_frozen := (@DdRelax.chg_frozen S).
Local Notation upd_node_chg := (@DdRelax.upd_node_chg S).
Local Notation mok := (@DdRelax.mok S P at_depth nv C k0 sp).
Local Notation chain_ok := (@DdRelax.chain_ok S P nv).
Local Notation arena_chg := (@DdRelax.arena_chg S P at_depth nv C k0 sp).
Local Notation chain_ok_mono := (@DdRelax.chain_ok_mono S P nv).
Local Notation arena_touch := (@DdRelax.arena_touch S P at_depth nv C k0 sp).
Local Notation mok_mono := (@DdRelax.mok_mono S P at_depth nv C k0 sp).
Local Notation redirected := (@DdRelax.redirected S R).
Local Notation redirect_spec := (@DdRelax.redirect_spec S P R at_depth nv C Hbd k0 sp).
Local Notation dropped := (@DdRelax.dropped S).
Local Notation drop_fold := (@DdRelax.drop_fold S P R at_depth nv C Hbd k0 sp).
Local Notation arena_tmp := (@DdRelax.arena_tmp S P at_depth nv C k0 sp).
Local Notation arena_tmp_close := (@DdRelax.arena_tmp_close S P at_depth nv C k0 sp).
Local Notation arena_ext := (@DdRelax.arena_ext S P at_depth nv C k0 sp).
Local Notation mark_spec := (@DdRelax.mark_spec S P at_depth nv C k0 sp).
Local Notation mark_fold := (@DdRelax.mark_fold S P at_depth nv C k0 sp).
Local Notation layer_ok := (@DdRelax.layer_ok S).
Local Notation sorts := (@DdRelax.sorts S).
Local Notation map_states_some := (@DdRelax.map_states_some S).
Local Notation map_states_in := (@DdRelax.map_states_in S).
Local Notation kept := (@DdRelax.kept S).
Local Notation merged_into := (@DdRelax.merged_into S R at_depth).
Local Notation relax_spec := (@DdRelax.relax_spec S eqb eqb_spec P R at_depth nv C Hvr Hbd k0 sp).
Local Notation cg_edges := (@DdRelax.cg_edges S).
Local Notation cg_len := (@DdRelax.cg_len S).
Local Notation cg_nodes := (@DdRelax.cg_nodes S).
Local Notation cg_rest := (@DdRelax.cg_rest S).
Local Notation cg_next := (@DdRelax.cg_next S).
Local Notation cg_root := (@DdRelax.cg_root S).
Local Notation cg_ctype := (@DdRelax.cg_ctype S).
Local Notation cg_expl := (@DdRelax.cg_expl S).
Local Notation mk_base := (@DdRelax.mk_base S P at_depth nv C k0 sp).
Local Notation mk_state := (@DdRelax.mk_state S P at_depth nv C k0 sp).
Local Notation mk_depth := (@DdRelax.mk_depth S P at_depth nv C k0 sp).
Local Notation mk_rel := (@DdRelax.mk_rel S P at_depth nv C k0 sp).
Local Notation mk_clean := (@DdRelax.mk_clean S P at_depth nv C k0 sp).
Local Notation mk_cut := (@DdRelax.mk_cut S P at_depth nv C k0 sp).
Local Notation mk_cases := (@DdRelax.mk_cases S P at_depth nv C k0 sp).
Local Notation lo_nodup := (@DdRelax.lo_nodup S).
Local Notation lo_node := (@DdRelax.lo_node S).
Local Notation restrict_spec := (@DdExpand.restrict_spec S P at_depth nv C k0 sp).
Local Notation arena_past := (@DdExpand.arena_past S P at_depth nv C k0 sp).
Local Notation doneok := (@DdExpand.doneok S P nv).
Local Notation expanding := (@DdExpand.expanding S P at_depth nv C k0 sp).
Local Notation expanding_init := (@DdExpand.expanding_init S P at_depth nv C k0 sp).
Local Notation has_edge_state := (@DdExpand.has_edge_state S P).
Local Notation doneok_grows := (@DdExpand.doneok_grows S P nv).
Local Notation branch_fold := (@DdExpand.branch_fold S eqb eqb_spec P R at_depth nv C Hwf Hbd k0 sp).
Local Notation expand_step := (@DdExpand.expand_step S eqb eqb_spec P R at_depth nv C Hwf Hbd k0 sp).
Local Notation expand_fold := (@DdExpand.expand_fold S eqb eqb_spec P R at_depth nv C Hwf Hbd k0 sp).
Local Notation dn_rub := (@DdExpand.dn_rub S P nv).
Local Notation dn_bot := (@DdExpand.dn_bot S P nv).
Local Notation dn_marked := (@DdExpand.dn_marked S P nv).
Local Notation dn_deleted := (@DdExpand.dn_deleted S P nv).
Local Notation dn_barrier := (@DdExpand.dn_barrier S P nv).
Local Notation dn_cases := (@DdExpand.dn_cases S P nv).
Local Notation ex_arena := (@DdExpand.ex_arena S P at_depth nv C k0 sp).
Local Notation ex_layer := (@DdExpand.ex_layer S P at_depth nv C k0 sp).
Local Notation ex_fresh := (@DdExpand.ex_fresh S P at_depth nv C k0 sp).
Local Notation ex_rest := (@DdExpand.ex_rest S P at_depth nv C k0 sp).
Local Notation ex_edges := (@DdExpand.ex_edges S P at_depth nv C k0 sp).
Local Notation ex_len := (@DdExpand.ex_len S P at_depth nv C k0 sp).
Local Notation ex_root := (@DdExpand.ex_root S P at_depth nv C k0 sp).
Local Notation ex_ctype := (@DdExpand.ex_ctype S P at_depth nv C k0 sp).
Local Notation ex_old := (@DdExpand.ex_old S P at_depth nv C k0 sp).
Local Notation ex_exact := (@DdExpand.ex_exact S P at_depth nv C k0 sp).
Local Notation ex_expl := (@DdExpand.ex_expl S P at_depth nv C k0 sp).
Local Notation iters := (@DdLoop.iters S).
Local Notation child_ok := (@DdLoop.child_ok S P R at_depth).
Local Notation expd := (@DdLoop.expd S P R at_depth nv).
Local Notation linv := (@DdLoop.linv S P R at_depth nv C k0 sp).
Local Notation mid := (@DdLoop.mid S P R at_depth nv C k0 sp).
Local Notation linv_step := (@DdLoop.linv_step S P R at_depth nv C k0 sp).
Local Notation li_arena := (@DdLoop.li_arena S P R at_depth nv C k0 sp).
Local Notation li_layer := (@DdLoop.li_layer S P R at_depth nv C k0 sp).
Local Notation li_range := (@DdLoop.li_range S P R at_depth nv C k0 sp).
Local Notation li_disj := (@DdLoop.li_disj S P R at_depth nv C k0 sp).
Local Notation li_curr := (@DdLoop.li_curr S P R at_depth nv C k0 sp).
Local Notation li_currin := (@DdLoop.li_currin S P R at_depth nv C k0 sp).
Local Notation li_depth := (@DdLoop.li_depth S P R at_depth nv C k0 sp).
Local Notation li_exp := (@DdLoop.li_exp S P R at_depth nv C k0 sp).
Local Notation li_exact := (@DdLoop.li_exact S P R at_depth nv C k0 sp).
Local Notation li_typ := (@DdLoop.li_typ S P R at_depth nv C k0 sp).
Local Notation li_nocut := (@DdLoop.li_nocut S P R at_depth nv C k0 sp).
Local Notation li_lel := (@DdLoop.li_lel S P R at_depth nv C k0 sp).
Local Notation li_cutexact := (@DdLoop.li_cutexact S P R at_depth nv C k0 sp).
Local Notation li_ctype := (@DdLoop.li_ctype S P R at_depth nv C k0 sp).
Local Notation li_root := (@DdLoop.li_root S P R at_depth nv C k0 sp).
Local Notation li_pastnd := (@DdLoop.li_pastnd S P R at_depth nv C k0 sp).
Local Notation li_width := (@DdLoop.li_width S P R at_depth nv C k0 sp).
Local Notation li_expl := (@DdLoop.li_expl S P R at_depth nv C k0 sp).
Local Notation li_best := (@DdLoop.li_best S P R at_depth nv C k0 sp).
Local Notation li_gone := (@DdLoop.li_gone S P R at_depth nv C k0 sp).
Local Notation li_near := (@DdLoop.li_near S P R at_depth nv C k0 sp).
Local Notation md_arena := (@DdLoop.md_arena S P R at_depth nv C k0 sp).
Local Notation md_next := (@DdLoop.md_next S P R at_depth nv C k0 sp).
Local Notation md_layer := (@DdLoop.md_layer S P R at_depth nv C k0 sp).
Local Notation md_stable := (@DdLoop.md_stable S P R at_depth nv C k0 sp).
Local Notation md_incl := (@DdLoop.md_incl S P R at_depth nv C k0 sp).
Local Notation md_cover := (@DdLoop.md_cover S P R at_depth nv C k0 sp).
Local Notation md_approx := (@DdLoop.md_approx S P R at_depth nv C k0 sp).
Local Notation md_typ := (@DdLoop.md_typ S P R at_depth nv C k0 sp).
Local Notation md_allex := (@DdLoop.md_allex S P R at_depth nv C k0 sp).
Local Notation md_cut := (@DdLoop.md_cut S P R at_depth nv C k0 sp).
Local Notation md_width := (@DdLoop.md_width S P R at_depth nv C k0 sp).
Local Notation md_expl := (@DdLoop.md_expl S P R at_depth nv C k0 sp).
Local Notation md_best := (@DdLoop.md_best S P R at_depth nv C k0 sp).
Local Notation md_near := (@DdLoop.md_near S P R at_depth nv C k0 sp).
Local Notation run_bound := (@DdFinal.run_bound S eqb eqb_spec P R at_depth nv C Hwf Hbd).
Local Notation completion_bound := (@DdFinal.completion_bound S eqb eqb_spec P R at_depth nv C Hwf Hbd).
Local Notation value_bound := (@DdFinal.value_bound S P R at_depth nv C Hbd).
Local Notation run_app := (@DdFinal.run_app S P nv).
Local Notation run_snoc := (@DdFinal.run_snoc S eqb eqb_spec P nv).
Local Notation reach := (@DdFinal.reach S).
Local Notation reach_value := (@DdFinal.reach_value S P at_depth nv C k0 sp).
Local Notation reach_bound := (@DdFinal.reach_bound S P at_depth nv C k0 sp).
Local Notation expd_step := (@DdFinal.expd_step S eqb eqb_spec P R at_depth nv C Hwf Hbd k0 sp).
Local Notation linv_reach := (@DdFinal.linv_reach S eqb eqb_spec P R at_depth nv C Hwf Hbd k0 sp).
Local Notation best_chain := (@DdFinal.best_chain S eqb eqb_spec P at_depth nv C k0 sp).
Local Notation best_path_ok := (@DdFinal.best_path_ok S eqb eqb_spec P at_depth nv C k0 sp).
Local Notation max_by_value_ok := (@DdFinal.max_by_value_ok S).
Local Notation linv_lel := (@DdFinal.linv_lel S eqb eqb_spec P R at_depth nv C Hwf Hbd k0 sp).
Local Notation reach_term := (@DdFinal.reach_term S).
Local Notation reach_step := (@DdFinal.reach_step S).
Local Notation live := (@MddAllBounds.live S).
Local Notation wave := (@MddAllBounds.wave S).
Local Notation unch := (@MddAllBounds.unch S).
Local Notation unch_refl := (@MddAllBounds.unch_refl S).
Local Notation unch_trans := (@MddAllBounds.unch_trans S).
Local Notation edge_step := (@MddAllBounds.edge_step S).
Local Notation bounds_edges_unfold := (@MddAllBounds.bounds_edges_unfold S).
Local Notation edge_step_ok := (@MddAllBounds.edge_step_ok S P at_depth nv C k0 sp).
Local Notation seen := (@MddAllBounds.seen S).
Local Notation seen_unch := (@MddAllBounds.seen_unch S).
Local Notation bounds_edges_ok := (@MddAllBounds.bounds_edges_ok S P at_depth nv C k0 sp).
Local Notation bounds_wave := (@MddAllBounds.bounds_wave S P at_depth nv C k0 sp).
Local Notation processed := (@MddAllBounds.processed S).
Local Notation bounds_loop_ok := (@MddAllBounds.bounds_loop_ok S P at_depth nv C k0 sp).
Local Notation init_fold := (@MddAllBounds.init_fold S).
Local Notation local_bounds_ok := (@MddAllBounds.local_bounds_ok S P at_depth nv C k0 sp).
Local Notation w_edges := (@MddAllBounds.w_edges S).
Local Notation w_len := (@MddAllBounds.w_len S).
Local Notation w_frame := (@MddAllBounds.w_frame S).
Local Notation w_nodes := (@MddAllBounds.w_nodes S).
Local Notation w_cutflag := (@MddAllBounds.w_cutflag S).
Local Notation w_cutold := (@MddAllBounds.w_cutold S).
Local Notation w_cutlel := (@MddAllBounds.w_cutlel S).
Local Notation w_cutnew := (@MddAllBounds.w_cutnew S).
Local Notation w_mark := (@MddAllBounds.w_mark S).
Local Notation w_visit := (@MddAllBounds.w_visit S).
Local Notation w_vis := (@MddAllBounds.w_vis S).
Local Notation w_live := (@MddAllBounds.w_live S).
Local Notation u_nodes := (@MddAllBounds.u_nodes S).
Local Notation u_cut := (@MddAllBounds.u_cut S).
Local Notation linv_set_prev := (@MddAllFacts.linv_set_prev S P R at_depth nv C k0 sp).
Local Notation arena_drain := (@MddAllFacts.arena_drain S P at_depth nv C k0 sp).
Local Notation nextids_nodup := (@MddAllFacts.nextids_nodup S P at_depth nv C k0 sp).
Local Notation drained_layer := (@MddAllFacts.drained_layer S P R at_depth nv C k0 sp).
Local Notation mid_keep := (@MddAllFacts.mid_keep S P R at_depth nv C k0 sp).
Local Notation mid_restrict := (@MddAllFacts.mid_restrict S P R at_depth nv C k0 sp).
Local Notation mid_relax := (@MddAllFacts.mid_relax S eqb eqb_spec P R at_depth nv C Hvr Hbd k0 sp).
Local Notation layer_step_ok := (@MddAllFacts.layer_step_ok S eqb eqb_spec P R at_depth nv C Hwf Hvr Hbd k0 sp).
Local Notation layers_ok := (@MddAllFacts.layers_ok S eqb eqb_spec P R at_depth nv C Hwf Hvr Hbd k0 sp).
Local Notation root_linv := (@MddAllFacts.root_linv S P R at_depth nv C k0 sp).
Local Notation compile_ok := (@MddAllFacts.compile_ok S eqb eqb_spec P R at_depth nv C Hwf Hvr Hbd k0 sp).
Notation genuine := (DdSpec.genuine S P nv).
Notation completes := (DdSpec.completes S P nv).
Notation descends := (DdSpec.descends S P nv).
Notation good_call := (DdSpec.good_call S P R nv).

Local Notation compile_good := (@MddAllObs.compile_good S eqb eqb_spec P R at_depth nv C Hwf Hvr Hbd k0 sp).
Local Notation final_best := (@MddAllObs.final_best S).
Local Notation root_node := (@MddAllObs.root_node S P at_depth nv C k0 sp).
Local Notation root_in := (@MddAllObs.root_in S P R at_depth nv C k0 sp).
Notation reached := (WideSpec.reached S P nv).

(** The same call asking for an exact diagram. *)
Definition as_exact (inp : input S) : input S := mk_in Exact (i_width inp) (i_pb inp) (i_rx inp) (i_rank inp) (i_res inp) (i_lb inp).

Hypothesis Hgen : genuine sp.
Hypothesis Hk0 : k0 = depth_of sp.

(** An exact node of the diagram has a reached state. *)
Lemma node_reached (d : dd) past id n : arena None d past -> get_node d id = Some n -> is_exact (n_flags n) = true -> reached (n_depth n) (n_state n).
Proof.
  intros HA G Hx. destruct (best_path_ok d past id n HA G) as (r & _ & _ & Hr). destruct (Hr (or_introl Hx)) as (c & Hrun & _).
  destruct Hgen as (ds0 & c0 & _ & Hr0 & _). rewrite <- Hk0 in Hr0. exists (ds0 ++ rev r), (c0 + c). exact (run_app _ _ _ _ _ _ Hr0 _ _ _ _ Hrun).
Qed.

Lemma layer_len inp ct d past gone curr k w : linv inp ct d past gone curr k -> g_approx d = false -> no_layer_exceeds S P nv w -> (length (g_next d) <= w)%nat.
Proof.
  intros HL Ha Hw. destruct (Hw k) as (l & Hl & Hin). assert (HA := li_arena _ _ _ _ _ _ _ HL).
  enough (length (map fst (g_next d)) <= length l)%nat by (rewrite map_length in *; lia).
  apply NoDup_incl_length; [apply (a_keys _ _ _ HA)|]. intros s Hs. apply in_map_iff in Hs as ([s' id] & Heq & Hs). cbn in Heq. subst s'.
  destruct (a_next _ _ _ HA s id Hs) as (n & G & <- & _). destruct (li_layer _ _ _ _ _ _ _ HL id) as (n' & G' & D); [apply nextids_in; eauto|]. assert (n' = n) as -> by congruence.
  apply Hin. rewrite <- D. apply (node_reached d past id n HA G). apply (li_exact _ _ _ _ _ _ _ HL (or_introl Ha) id n G).
Qed.

Lemma layer_step_wide orc inp ct d past curr k depth var : linv (as_exact inp) ct d past [] curr k -> iters orc -> no_layer_exceeds S P nv (i_width inp) ->
  layer_step eqb orc inp depth var d curr = layer_step eqb orc (as_exact inp) depth var d curr.
Proof.
  intros HL Hit Hw. assert (Hlen := layer_len (as_exact inp) ct d past [] curr k (i_width inp) HL (li_typ _ _ _ _ _ _ _ HL eq_refl) Hw).
  unfold layer_step. cbv zeta. change (g_next (set_prev d curr)) with (g_next d).
  assert (H1 : length (map snd (o_iter orc (3 * depth + 1) (g_next d))) = length (g_next d)) by (rewrite map_length; symmetry; apply Permutation_length, Hit).
  destruct (map snd (o_iter orc (3 * depth + 1) (g_next d))) as [|c l] eqn:E; [reflexivity|]. rewrite <- E in *. clear E.
  assert (Hlt : (i_width inp <? length (map snd (o_iter orc (3 * depth + 1) (g_next d))))%nat = false) by (apply Nat.ltb_ge; lia).
  rewrite Hlt. cbn [andb as_exact i_type]. destruct (i_type inp); reflexivity.
Qed.

Lemma layers_wide orc inp ct : iters orc -> sorts orc -> i_pb inp = P -> i_rx inp = R -> (0 < i_width inp)%nat -> no_layer_exceeds S P nv (i_width inp) ->
  forall fuel d past curr k depth, linv (as_exact inp) ct d past [] curr k -> k = (k0 + depth)%nat ->
  layers eqb fuel orc inp depth d curr = layers eqb fuel orc (as_exact inp) depth d curr.
Proof.
  intros Hit Hso Hpb Hrx Hw Hno. induction fuel as [|fuel IH]; intros d past curr k depth HL Hk; [reflexivity|].
  cbn [layers]. change (i_pb (as_exact inp)) with (i_pb inp). rewrite Hpb. set (states := map fst (o_iter orc (3 * depth) (g_next d))).
  assert (Hperm : Permutation (map fst (g_next d)) states) by (apply Permutation_map, Hit).
  assert (HA := li_arena _ _ _ _ _ _ _ HL).
  assert (Hat : Forall (at_depth k) states).
  { apply Forall_forall. intros s Hs. apply (Permutation_in _ (Permutation_sym Hperm)) in Hs. apply in_map_iff in Hs as ([s' id] & Heq & Hs). cbn in Heq. subst s'.
    destruct (a_next _ _ _ HA s id Hs) as (n & G & <- & _). destruct (li_layer _ _ _ _ _ _ _ HL id) as (n' & G' & D); [apply nextids_in; eauto|]. assert (n' = n) as -> by congruence.
    rewrite <- D. apply (no_base _ _ _ _ (a_nodes _ _ _ HA id n G ltac:(discriminate))). }
  destruct (g_next d) as [|p m] eqn:En.
  - cbn in Hperm. apply Permutation_nil in Hperm. rewrite Hperm, (wf_next_empty _ _ _ _ Hwf). reflexivity.
  - assert (Hne : states <> []) by (intros H; rewrite H in Hperm; apply Permutation_sym, Permutation_nil in Hperm; discriminate).
    pose proof (li_range _ _ _ _ _ _ _ HL) as Hr. destruct (Nat.eq_dec k N) as [HkN|HkN].
    + rewrite HkN in Hat. rewrite (wf_last _ _ _ _ Hwf states Hne Hat). reflexivity.
    + rewrite (wf_next _ _ _ _ Hwf k states Hne Hat) by lia.
      destruct (layer_step_ok orc (as_exact inp) ct d past curr k depth HL Hit Hso Hpb Hrx Hw ltac:(lia) Hk) as (d4 & curr2 & E & HL4); [congruence|].
      rewrite (layer_step_wide orc inp ct d past curr k depth (nv k) HL Hit Hno), E. cbn [obind].
      apply (IH d4 (curr2 ++ past) curr2 (Datatypes.S k) (Datatypes.S depth) HL4). lia.
Qed.

Lemma compile_wide debug orc inp d : i_res inp = sp -> good_call debug orc inp -> no_layer_exceeds S P nv (i_width inp) ->
  compile eqb debug orc inp d = compile eqb debug orc (as_exact inp) d.
Proof.
  intros Hres [(Hit & Hso & _) Hpb Hrx Hw _ Hd] Hno. unfold compile. change (i_pb (as_exact inp)) with (i_pb inp).
  change (root_dd debug (as_exact inp) d) with (root_dd debug inp d). destruct (root_dd debug inp d) as [d0|] eqn:E0; cbn [obind]; [|reflexivity].
  assert (Hvr0 : valid_root) by (rewrite Hk0; apply (MddAllObs.genuine_root S eqb eqb_spec P R at_depth nv C Hwf Hbd); exact Hgen).
  destruct (root_linv debug (as_exact inp) d d0 Hvr0 Hres E0) as (HL0 & _).
  rewrite Hpb. rewrite (layers_wide orc inp (g_ctype d) Hit Hso Hpb Hrx Hw Hno (N + 2)%nat d0 [] [] k0 0%nat HL0 ltac:(lia)).
  destruct (layers_ok orc (as_exact inp) (g_ctype d) Hit Hso Hpb Hrx Hw (N + 2)%nat d0 [] [] k0 0%nat HL0 ltac:(lia) ltac:(lia)) as (d1 & past & curr & kF & E1 & HL & _).
  rewrite E1. cbn [obind]. unfold finalize. destruct (max_by_value _ _) as [b|]; cbn [obind]; [|reflexivity]. unfold compute_exact. cbn [g_approx set_best_exact].
  rewrite (li_typ _ _ _ _ _ _ _ HL eq_refl). cbn [negb obind as_exact i_type]. destruct (i_type inp); reflexivity.
Qed.

Hypothesis Hadm : admissible_reached S P nv.

(** An exact diagram keeps a path as good as any completion that improves [lb]. *)
Lemma exact_step inp d past id n ds c : arena None d past -> get_node d id = Some n -> is_exact (n_flags n) = true -> expd inp d past [] id n ->
  g_approx d = false -> (n_depth n < N)%nat -> completion S P nv (n_depth n) (n_state n) ds c -> i_lb inp < n_value n + c ->
  exists m mn e ed ds' c', (In m past \/ In m (nextids d)) /\ get_node d m = Some mn /\
    inb (g_edges d) (n_inbound mn) e ed /\ e_from ed = id /\ n_depth mn = Datatypes.S (n_depth n) /\ n_value n + e_cost ed <= n_value mn /\
    completion S P nv (n_depth mn) (n_state mn) ds' c' /\ c <= e_cost ed + c'.
Proof.
  intros HA Hg Hx [_ Hex] Ha Hlt Hc Hlb. assert (Hok := a_nodes _ _ _ HA id n Hg ltac:(discriminate)).
  assert (Hat := no_at _ _ _ _ (no_base _ _ _ _ Hok)).
  assert (Hest := Hadm _ _ _ _ Hlt (node_reached d past id n HA Hg Hx) Hc). pose proof (completion_bound _ _ _ _ Hc Hat) as Hcb.
  pose proof (value_bound (n_depth n) (n_value n) c ltac:(lia) (no_val _ _ _ _ Hok) Hcb) as Hvb.
  destruct Hc as [s' Hrun]. clear Hk0. inversion Hrun as [|k s dec ds1 k' s1 c1 Hk Hdec Hrun1]; subst; [lia|].
  specialize (Hex (fun _ => Ha)). destruct Hex with (dec := dec) as (m & mn & e & ed & Hm & Gm & He & Hf & Hd & Hcase); [|exact Hdec|].
  { unfold sat_add. unfold clamp. lia. }
  assert (Heo := no_edges _ _ _ _ (no_base _ _ _ _ (a_nodes _ _ _ HA m mn Gm ltac:(discriminate))) e ed He).
  destruct Heo as [_ _ _ (pn & Gp & Dm & _ & _ & Hv)]. rewrite Hf in Gp. assert (pn = n) as -> by congruence.
  destruct Hcase as [[Hs Hcost]|(Ha' & _)]; [|congruence].
  exists m, mn, e, ed, ds1, c1. split; [destruct Hm as [Hm|[Hm|[]]]; auto|]. split; [exact Gm|]. split; [exact He|]. split; [exact Hf|]. split; [exact Dm|]. split; [exact Hv|].
  split; [rewrite Dm, Hs; exists s'; exact Hrun1|lia].
Qed.

Lemma exact_reach inp ct d past curr k : linv inp ct d past [] curr k -> (g_next d = [] \/ k = N) -> g_approx d = false ->
  forall id n ds c, (In id past \/ In id (nextids d)) -> get_node d id = Some n ->
  completion S P nv (n_depth n) (n_state n) ds c -> i_lb inp < n_value n + c ->
  exists t tn, In t (nextids d) /\ get_node d t = Some tn /\ n_value n + c <= n_value tn.
Proof.
  intros HL Hend Ha. assert (HA := li_arena _ _ _ _ _ _ _ HL).
  enough (Hind : forall j id n ds c, (N - n_depth n <= j)%nat -> (In id past \/ In id (nextids d)) -> get_node d id = Some n ->
    completion S P nv (n_depth n) (n_state n) ds c -> i_lb inp < n_value n + c -> exists t tn, In t (nextids d) /\ get_node d t = Some tn /\ n_value n + c <= n_value tn).
  { intros id n ds c. apply (Hind (N - n_depth n)%nat). lia. }
  induction j as [|j IH]; intros id n ds c Hj Hin Hg Hc Hlb.
  - destruct Hin as [Hin|Hin].
    + pose proof (li_depth _ _ _ _ _ _ _ HL id n Hin Hg). pose proof (li_range _ _ _ _ _ _ _ HL). lia.
    + exists id, n. split; [exact Hin|]. split; [exact Hg|].
      destruct Hc as [s' Hr]. pose proof (no_depth _ _ _ _ (no_base _ _ _ _ (a_nodes _ _ _ HA id n Hg ltac:(discriminate)))). inversion Hr; lia.
  - destruct Hin as [Hin|Hin].
    + pose proof (li_depth _ _ _ _ _ _ _ HL id n Hin Hg) as Hd. pose proof (li_range _ _ _ _ _ _ _ HL) as Hr.
      destruct (exact_step inp d past id n ds c HA Hg (li_exact _ _ _ _ _ _ _ HL (or_introl Ha) id n Hg) (li_exp _ _ _ _ _ _ _ HL id n Hin Hg) Ha ltac:(lia) Hc Hlb)
        as (m & mn & e & ed & ds' & c' & Hm & Gm & He & Hf & Dm & Hv & Hc' & Hle).
      destruct (IH m mn ds' c') as (t & tn & Ht & Gt & Hx); [lia|exact Hm|exact Gm|exact Hc'|lia|]. exists t, tn. split; [exact Ht|]. split; [exact Gt|lia].
    + destruct (li_layer _ _ _ _ _ _ _ HL id Hin) as (n' & G' & D). assert (n' = n) as -> by congruence.
      destruct Hend as [He|He]; [unfold nextids in Hin; rewrite He in Hin; destruct Hin|].
      exists id, n. split; [exact Hin|]. split; [exact Hg|]. destruct Hc as [s' Hr]. rewrite D, He in Hr. inversion Hr; lia.
Qed.

(** A diagram that was not approximated gives the best completion, whatever merging would have done. *)
Lemma obs_exact debug orc inp d dF ds c : i_res inp = sp -> good_call debug orc inp -> compile eqb debug orc inp d = Some dF ->
  i_type inp <> Relaxed -> g_exact dF = true -> completion S P nv k0 (sp_state sp) ds c -> i_lb inp < sp_value sp + c ->
  exists v, best_value dF = Some (Some v) /\ sp_value sp + c <= v.
Proof.
  intros Hres Hgc E Hty Hex Hc Hlb. destruct (compile_good Hgen Hk0 debug orc inp d Hres Hgc) as (dF' & d1 & past & curr & kF & b & e & E' & HL & Hend & Hb & He & HF).
  rewrite E in E'. injection E' as <-. destruct (final_best _ _ _ _ _ HF) as (F1 & F2 & F3 & F4 & F5 & F6).
  assert (Ha : g_approx d1 = false).
  { rewrite F2 in Hex. subst e. unfold compute_exact in He. cbn [g_approx set_best_exact] in He. destruct (g_approx d1); [|reflexivity]. cbn [negb] in He. destruct (i_type inp); congruence. }
  destruct (root_node d1 past (li_arena _ _ _ _ _ _ _ HL)) as (n & G & R1 & R2 & R3).
  destruct (exact_reach inp _ d1 past curr kF HL Hend Ha 0%nat n ds c (root_in _ _ _ _ _ _ _ HL) G) as (t & tn & Ht & Gt & Hle); [rewrite R1, R3; exact Hc|lia|].
  destruct b as [i|]; [|unfold DdFacts.nextids in Ht; rewrite Hb in Ht; destruct Ht].
  destruct Hb as (bn & Hi & Gi & Hmax). unfold best_value. rewrite F1. destruct (F6 i bn Gi) as (bn' & -> & Hcc). cbn [obind]. exists (n_value bn'). split; [reflexivity|].
  rewrite (ce_value _ _ Hcc). specialize (Hmax t tn Ht Gt). lia.
Qed.
End Facts.
