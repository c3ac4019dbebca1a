(** The loop over the layers of src/mdd/with_barrier.rs. *)
From Verif Require Import Spec Dd FlagsFacts MatrixFacts DdFacts DdRelax DdExpand DdLoop DdFinal MddAllFacts MddBarrier BarWp.
From Coq Require Import ZifyNat.
Open Scope Z_scope.

Section Facts.
Variable S : Type.
Variable eqb : S -> S -> bool.
Hypothesis eqb_spec : forall a b, eqb a b = true <-> a = b.
Variable P : problem S.
Variable R : relaxation S.
Variable at_depth : nat -> S -> Prop.
Variable nv : nat -> nat.
Variable C : Z.
Hypothesis Hwf : wf_problem S P at_depth nv.
Hypothesis Hvr : relaxation_depth S P at_depth R.
Hypothesis Hbd : bounded S P at_depth nv R C.
Variable k0 : nat.
Variable sp : subproblem S.
Notation N := (pb_nb_vars P).
Notation node := (node S).
Notation dd := (dd S).
Local Notation vbound := (@DdFacts.vbound C).
Local Notation valid_root := (@DdFacts.valid_root S P at_depth C k0 sp).
Local Notation nextids := (@DdFacts.nextids S).
Local Notation vbound_range := (@DdFacts.vbound_range S P R at_depth nv C Hbd).
Local Notation vbound_step := (@DdFacts.vbound_step S P R at_depth nv C Hbd).
Local Notation coreeq := (@DdFacts.coreeq S).
Local Notation samenode := (@DdFacts.samenode S).
Local Notation coreeq_refl := (@DdFacts.coreeq_refl S).
Local Notation samenode_refl := (@DdFacts.samenode_refl S).
Local Notation coreeq_trans := (@DdFacts.coreeq_trans S).
Local Notation samenode_trans := (@DdFacts.samenode_trans S).
Local Notation stable := (@DdFacts.stable S).
Local Notation stable_refl := (@DdFacts.stable_refl S).
Local Notation stable_trans := (@DdFacts.stable_trans S k0).
Local Notation stable_weaken := (@DdFacts.stable_weaken S).
Local Notation edge_ok := (@DdFacts.edge_ok S P nv C).
Local Notation orig_edge := (@DdFacts.orig_edge S P).
Local Notation orig_all := (@DdFacts.orig_all S P).
Local Notation is_root := (@DdFacts.is_root S k0 sp).
Local Notation best_ok := (@DdFacts.best_ok S P k0 sp).
Local Notation node_base := (@DdFacts.node_base S P at_depth nv C k0).
Local Notation node_ok := (@DdFacts.node_ok S P at_depth nv C k0 sp).
Local Notation cleanf := (@DdFacts.cleanf S).
Local Notation clean := (@DdFacts.clean S).
Local Notation arena := (@DdFacts.arena S P at_depth nv C k0 sp).
Local Notation layer_at := (@DdFacts.layer_at S).
Local Notation get_lt := (@DdFacts.get_lt S).
Local Notation get_some := (@DdFacts.get_some S).
Local Notation upd_node_spec := (@DdFacts.upd_node_spec S).
Local Notation orig_edge_mono := (@DdFacts.orig_edge_mono S P).
Local Notation edge_ok_mono := (@DdFacts.edge_ok_mono S P nv C).
Local Notation past_frozen := (@DdFacts.past_frozen S).
Local Notation node_base_mono := (@DdFacts.node_base_mono S P at_depth nv C k0).
Local Notation best_ok_mono := (@DdFacts.best_ok_mono S P at_depth nv C k0 sp).
Local Notation node_ok_mono := (@DdFacts.node_ok_mono S P at_depth nv C k0 sp).
Local Notation orig_all_mono := (@DdFacts.orig_all_mono S P at_depth nv C k0).
Local Notation stable_past := (@DdFacts.stable_past S).
Local Notation next_get_in := (@DdFacts.next_get_in S eqb eqb_spec).
Local Notation next_get_none := (@DdFacts.next_get_none S eqb eqb_spec).
Local Notation nextids_in := (@DdFacts.nextids_in S).
Local Notation all_exact := (@DdFacts.all_exact S).
Local Notation grows := (@DdFacts.grows S).
Local Notation grows_refl := (@DdFacts.grows_refl S).
Local Notation nextids_incl := (@DdFacts.nextids_incl S).
Local Notation grows_trans := (@DdFacts.grows_trans S).
Local Notation same_rest := (@DdFacts.same_rest S).
Local Notation same_rest_refl := (@DdFacts.same_rest_refl S).
Local Notation same_rest_trans := (@DdFacts.same_rest_trans S).
Local Notation has_edge := (@DdFacts.has_edge S P).
Local Notation has_edge_grows := (@DdFacts.has_edge_grows S P).
Local Notation branch_spec := (@DdFacts.branch_spec S eqb eqb_spec P R at_depth nv C Hwf Hbd k0 sp).
Local Notation vr_path := (@DdFacts.vr_path S P at_depth C k0 sp).
Local Notation vr_le := (@DdFacts.vr_le S P at_depth C k0 sp).
Local Notation vr_at := (@DdFacts.vr_at S P at_depth C k0 sp).
Local Notation vr_val := (@DdFacts.vr_val S P at_depth C k0 sp).
Local Notation ce_state := (@DdFacts.ce_state S).
Local Notation ce_value := (@DdFacts.ce_value S).
Local Notation ce_best := (@DdFacts.ce_best S).
Local Notation ce_inb := (@DdFacts.ce_inb S).
Local Notation ce_depth := (@DdFacts.ce_depth S).
Local Notation ce_exact := (@DdFacts.ce_exact S).
Local Notation ce_relaxed := (@DdFacts.ce_relaxed S).
Local Notation sn_core := (@DdFacts.sn_core S).
Local Notation sn_rub := (@DdFacts.sn_rub S).
Local Notation sn_theta := (@DdFacts.sn_theta S).
Local Notation sn_bot := (@DdFacts.sn_bot S).
Local Notation sn_marked := (@DdFacts.sn_marked S).
Local Notation sn_deleted := (@DdFacts.sn_deleted S).
Local Notation sn_barrier := (@DdFacts.sn_barrier S).
Local Notation st_edges := (@DdFacts.st_edges S).
Local Notation st_len := (@DdFacts.st_len S).
Local Notation st_nodes := (@DdFacts.st_nodes S).
Local Notation st_root := (@DdFacts.st_root S).
Local Notation st_ctype := (@DdFacts.st_ctype S).
Local Notation eo_past := (@DdFacts.eo_past S P nv C).
Local Notation eo_lt := (@DdFacts.eo_lt S P nv C).
Local Notation eo_cost := (@DdFacts.eo_cost S P nv C).
Local Notation eo_parent := (@DdFacts.eo_parent S P nv C).
Local Notation no_depth := (@DdFacts.no_depth S P at_depth nv C k0).
Local Notation no_at := (@DdFacts.no_at S P at_depth nv C k0).
Local Notation no_head := (@DdFacts.no_head S P at_depth nv C k0).
Local Notation no_edges := (@DdFacts.no_edges S P at_depth nv C k0).
Local Notation no_marked := (@DdFacts.no_marked S P at_depth nv C k0).
Local Notation no_bot := (@DdFacts.no_bot S P at_depth nv C k0).
Local Notation no_base := (@DdFacts.no_base S P at_depth nv C k0 sp).
Local Notation no_val := (@DdFacts.no_val S P at_depth nv C k0 sp).
Local Notation no_best := (@DdFacts.no_best S P at_depth nv C k0 sp).
Local Notation a_edges := (@DdFacts.a_edges S P at_depth nv C k0 sp).
Local Notation a_len := (@DdFacts.a_len S P at_depth nv C k0 sp).
Local Notation a_nodes := (@DdFacts.a_nodes S P at_depth nv C k0 sp).
Local Notation a_past := (@DdFacts.a_past S P at_depth nv C k0 sp).
Local Notation a_lt := (@DdFacts.a_lt S P at_depth nv C k0 sp).
Local Notation a_keys := (@DdFacts.a_keys S P at_depth nv C k0 sp).
Local Notation a_next := (@DdFacts.a_next S P at_depth nv C k0 sp).
Local Notation a_cut := (@DdFacts.a_cut S P at_depth nv C k0 sp).
Local Notation a_cutpast := (@DdFacts.a_cutpast S P at_depth nv C k0 sp).
Local Notation a_root := (@DdFacts.a_root S P at_depth nv C k0 sp).
Local Notation gr_incl := (@DdFacts.gr_incl S).
Local Notation gr_fresh := (@DdFacts.gr_fresh S).
Local Notation gr_nodes := (@DdFacts.gr_nodes S).
Local Notation sr_prev := (@DdFacts.sr_prev S).
Local Notation sr_cut := (@DdFacts.sr_cut S).
Local Notation sr_lel := (@DdFacts.sr_lel S).
Local Notation sr_best := (@DdFacts.sr_best S).
Local Notation sr_exact := (@DdFacts.sr_exact S).
Local Notation sr_approx := (@DdFacts.sr_approx S).
Local Notation chg := (@DdRelax.chg S).
Local Notation chg_refl := (@DdRelax.chg_refl S).
Local Notation chg_trans := (@DdRelax.chg_trans S).
Local Notation chg_weaken := (@DdRelax.chg_weaken S).
Local Notation chg_frozen := (@DdRelax.chg_frozen S).
Local Notation upd_node_chg := (@DdRelax.upd_node_chg S).
Local Notation mok := (@DdRelax.mok S P at_depth nv C k0 sp).
Local Notation chain_ok := (@DdRelax.chain_ok S P nv).
Local Notation arena_chg := (@DdRelax.arena_chg S P at_depth nv C k0 sp).
Local Notation chain_ok_mono := (@DdRelax.chain_ok_mono S P nv).
Local Notation arena_touch := (@DdRelax.arena_touch S P at_depth nv C k0 sp).
Local Notation mok_mono := (@DdRelax.mok_mono S P at_depth nv C k0 sp).
Local Notation redirected := (@DdRelax.redirected S R).
Local Notation redirect_spec := (@DdRelax.redirect_spec S P R at_depth nv C Hbd k0 sp).
Local Notation dropped := (@DdRelax.dropped S).
Local Notation drop_fold := (@DdRelax.drop_fold S P R at_depth nv C Hbd k0 sp).
Local Notation arena_tmp := (@DdRelax.arena_tmp S P at_depth nv C k0 sp).
Local Notation arena_tmp_close := (@DdRelax.arena_tmp_close S P at_depth nv C k0 sp).
Local Notation arena_ext := (@DdRelax.arena_ext S P at_depth nv C k0 sp).
Local Notation mark_spec := (@DdRelax.mark_spec S P at_depth nv C k0 sp).
Local Notation mark_fold := (@DdRelax.mark_fold S P at_depth nv C k0 sp).
Local Notation layer_ok := (@DdRelax.layer_ok S).
Local Notation sorts := (@DdRelax.sorts S).
Local Notation map_states_some := (@DdRelax.map_states_some S).
Local Notation map_states_in := (@DdRelax.map_states_in S).
Local Notation kept := (@DdRelax.kept S).
Local Notation merged_into := (@DdRelax.merged_into S R at_depth).
Local Notation relax_spec := (@DdRelax.relax_spec S eqb eqb_spec P R at_depth nv C Hvr Hbd k0 sp).
Local Notation cg_edges := (@DdRelax.cg_edges S).
Local Notation cg_len := (@DdRelax.cg_len S).
Local Notation cg_nodes := (@DdRelax.cg_nodes S).
Local Notation cg_rest := (@DdRelax.cg_rest S).
Local Notation cg_next := (@DdRelax.cg_next S).
Local Notation cg_root := (@DdRelax.cg_root S).
Local Notation cg_ctype := (@DdRelax.cg_ctype S).
Local Notation cg_expl := (@DdRelax.cg_expl S).
Local Notation mk_base := (@DdRelax.mk_base S P at_depth nv C k0 sp).
Local Notation mk_state := (@DdRelax.mk_state S P at_depth nv C k0 sp).
Local Notation mk_depth := (@DdRelax.mk_depth S P at_depth nv C k0 sp).
Local Notation mk_rel := (@DdRelax.mk_rel S P at_depth nv C k0 sp).
Local Notation mk_clean := (@DdRelax.mk_clean S P at_depth nv C k0 sp).
Local Notation mk_cut := (@DdRelax.mk_cut S P at_depth nv C k0 sp).
Local Notation mk_cases := (@DdRelax.mk_cases S P at_depth nv C k0 sp).
Local Notation lo_nodup := (@DdRelax.lo_nodup S).
Local Notation lo_node := (@DdRelax.lo_node S).
Local Notation restrict_spec := (@DdExpand.restrict_spec S P at_depth nv C k0 sp).
Local Notation arena_past := (@DdExpand.arena_past S P at_depth nv C k0 sp).
Local Notation doneok := (@DdExpand.doneok S P nv).
Local Notation expanding := (@DdExpand.expanding S P at_depth nv C k0 sp).
Local Notation expanding_init := (@DdExpand.expanding_init S P at_depth nv C k0 sp).
Local Notation has_edge_state := (@DdExpand.has_edge_state S P).
Local Notation doneok_grows := (@DdExpand.doneok_grows S P nv).
Local Notation branch_fold := (@DdExpand.branch_fold S eqb eqb_spec P R at_depth nv C Hwf Hbd k0 sp).
Local Notation expand_step := (@DdExpand.expand_step S eqb eqb_spec P R at_depth nv C Hwf Hbd k0 sp).
Local Notation expand_fold := (@DdExpand.expand_fold S eqb eqb_spec P R at_depth nv C Hwf Hbd k0 sp).
Local Notation dn_rub := (@DdExpand.dn_rub S P nv).
Local Notation dn_bot := (@DdExpand.dn_bot S P nv).
Local Notation dn_marked := (@DdExpand.dn_marked S P nv).
Local Notation dn_deleted := (@DdExpand.dn_deleted S P nv).
Local Notation dn_barrier := (@DdExpand.dn_barrier S P nv).
Local Notation dn_cases := (@DdExpand.dn_cases S P nv).
Local Notation ex_arena := (@DdExpand.ex_arena S P at_depth nv C k0 sp).
Local Notation ex_layer := (@DdExpand.ex_layer S P at_depth nv C k0 sp).
Local Notation ex_fresh := (@DdExpand.ex_fresh S P at_depth nv C k0 sp).
Local Notation ex_rest := (@DdExpand.ex_rest S P at_depth nv C k0 sp).
Local Notation ex_edges := (@DdExpand.ex_edges S P at_depth nv C k0 sp).
Local Notation ex_len := (@DdExpand.ex_len S P at_depth nv C k0 sp).
Local Notation ex_root := (@DdExpand.ex_root S P at_depth nv C k0 sp).
Local Notation ex_ctype := (@DdExpand.ex_ctype S P at_depth nv C k0 sp).
Local Notation ex_old := (@DdExpand.ex_old S P at_depth nv C k0 sp).
Local Notation ex_exact := (@DdExpand.ex_exact S P at_depth nv C k0 sp).
Local Notation ex_expl := (@DdExpand.ex_expl S P at_depth nv C k0 sp).
Local Notation iters := (@DdLoop.iters S).
Local Notation child_ok := (@DdLoop.child_ok S P R at_depth).
Local Notation expd := (@DdLoop.expd S P R at_depth nv).
Local Notation linv := (@DdLoop.linv S P R at_depth nv C k0 sp).
Local Notation mid := (@DdLoop.mid S P R at_depth nv C k0 sp).
Local Notation linv_step := (@DdLoop.linv_step S P R at_depth nv C k0 sp).
Local Notation li_arena := (@DdLoop.li_arena S P R at_depth nv C k0 sp).
Local Notation li_layer := (@DdLoop.li_layer S P R at_depth nv C k0 sp).
Local Notation li_range := (@DdLoop.li_range S P R at_depth nv C k0 sp).
Local Notation li_disj := (@DdLoop.li_disj S P R at_depth nv C k0 sp).
Local Notation li_curr := (@DdLoop.li_curr S P R at_depth nv C k0 sp).
Local Notation li_currin := (@DdLoop.li_currin S P R at_depth nv C k0 sp).
Local Notation li_depth := (@DdLoop.li_depth S P R at_depth nv C k0 sp).
Local Notation li_exp := (@DdLoop.li_exp S P R at_depth nv C k0 sp).
Local Notation li_exact := (@DdLoop.li_exact S P R at_depth nv C k0 sp).
Local Notation li_typ := (@DdLoop.li_typ S P R at_depth nv C k0 sp).
Local Notation li_nocut := (@DdLoop.li_nocut S P R at_depth nv C k0 sp).
Local Notation li_lel := (@DdLoop.li_lel S P R at_depth nv C k0 sp).
Local Notation li_cutexact := (@DdLoop.li_cutexact S P R at_depth nv C k0 sp).
Local Notation li_ctype := (@DdLoop.li_ctype S P R at_depth nv C k0 sp).
Local Notation li_root := (@DdLoop.li_root S P R at_depth nv C k0 sp).
Local Notation li_pastnd := (@DdLoop.li_pastnd S P R at_depth nv C k0 sp).
Local Notation li_width := (@DdLoop.li_width S P R at_depth nv C k0 sp).
Local Notation li_expl := (@DdLoop.li_expl S P R at_depth nv C k0 sp).
Local Notation li_best := (@DdLoop.li_best S P R at_depth nv C k0 sp).
Local Notation li_gone := (@DdLoop.li_gone S P R at_depth nv C k0 sp).
Local Notation li_near := (@DdLoop.li_near S P R at_depth nv C k0 sp).
Local Notation md_arena := (@DdLoop.md_arena S P R at_depth nv C k0 sp).
Local Notation md_next := (@DdLoop.md_next S P R at_depth nv C k0 sp).
Local Notation md_layer := (@DdLoop.md_layer S P R at_depth nv C k0 sp).
Local Notation md_stable := (@DdLoop.md_stable S P R at_depth nv C k0 sp).
Local Notation md_incl := (@DdLoop.md_incl S P R at_depth nv C k0 sp).
Local Notation md_cover := (@DdLoop.md_cover S P R at_depth nv C k0 sp).
Local Notation md_approx := (@DdLoop.md_approx S P R at_depth nv C k0 sp).
Local Notation md_typ := (@DdLoop.md_typ S P R at_depth nv C k0 sp).
Local Notation md_allex := (@DdLoop.md_allex S P R at_depth nv C k0 sp).
Local Notation md_cut := (@DdLoop.md_cut S P R at_depth nv C k0 sp).
Local Notation md_width := (@DdLoop.md_width S P R at_depth nv C k0 sp).
Local Notation md_expl := (@DdLoop.md_expl S P R at_depth nv C k0 sp).
Local Notation md_best := (@DdLoop.md_best S P R at_depth nv C k0 sp).
Local Notation md_near := (@DdLoop.md_near S P R at_depth nv C k0 sp).
Local Notation run_bound := (@DdFinal.run_bound S eqb eqb_spec P R at_depth nv C Hwf Hbd).
Local Notation completion_bound := (@DdFinal.completion_bound S eqb eqb_spec P R at_depth nv C Hwf Hbd).
Local Notation value_bound := (@DdFinal.value_bound S P R at_depth nv C Hbd).
Local Notation run_app := (@DdFinal.run_app S P nv).
Local Notation run_snoc := (@DdFinal.run_snoc S eqb eqb_spec P nv).
Local Notation reach := (@DdFinal.reach S).
Local Notation reach_value := (@DdFinal.reach_value S P at_depth nv C k0 sp).
Local Notation reach_bound := (@DdFinal.reach_bound S P at_depth nv C k0 sp).
Local Notation expd_step := (@DdFinal.expd_step S eqb eqb_spec P R at_depth nv C Hwf Hbd k0 sp).
Local Notation linv_reach := (@DdFinal.linv_reach S eqb eqb_spec P R at_depth nv C Hwf Hbd k0 sp).
Local Notation best_chain := (@DdFinal.best_chain S eqb eqb_spec P at_depth nv C k0 sp).
Local Notation best_path_ok := (@DdFinal.best_path_ok S eqb eqb_spec P at_depth nv C k0 sp).
Local Notation max_by_value_ok := (@DdFinal.max_by_value_ok S).
Local Notation linv_lel := (@DdFinal.linv_lel S eqb eqb_spec P R at_depth nv C Hwf Hbd k0 sp).
Local Notation reach_term := (@DdFinal.reach_term S).
Local Notation reach_step := (@DdFinal.reach_step S).
Local Notation linv_set_prev := (@MddAllFacts.linv_set_prev S P R at_depth nv C k0 sp).
Local Notation arena_drain := (@MddAllFacts.arena_drain S P at_depth nv C k0 sp).
Local Notation nextids_nodup := (@MddAllFacts.nextids_nodup S P at_depth nv C k0 sp).
Local Notation mid_keep := (@MddAllFacts.mid_keep S P R at_depth nv C k0 sp).
Local Notation mid_restrict := (@MddAllFacts.mid_restrict S P R at_depth nv C k0 sp).
Local Notation mid_relax := (@MddAllFacts.mid_relax S eqb eqb_spec P R at_depth nv C Hvr Hbd k0 sp).
Local Notation root_linv := (@MddAllFacts.root_linv S P R at_depth nv C k0 sp).
Variable solo : bool.
Variable G : nat -> S -> info -> Prop.
Notation L := (Datatypes.S N).
Notation thresholds := (thresholds S).
Local Notation wp := (@BarWp.wp S eqb solo L G).
Local Notation wp_bind := (@BarWp.wp_bind S eqb solo L G).
Local Notation wp_mono := (@BarWp.wp_mono S eqb solo L G).
Local Notation wp_pure := (@BarWp.wp_pure S eqb solo L G).
Local Notation env := (@BarWp.env S solo L).
Local Notation lookup := (@BarWp.lookup S eqb).
Local Notation updated := (@BarWp.updated S eqb).

(** ** No node goes unaccounted for *)
Lemma upd_node_len (d d' : dd) id f : upd_node d id f = Some d' -> length (g_nodes d') = length (g_nodes d) /\ g_next d' = g_next d.
Proof.
  unfold upd_node. destruct (get_node d id) as [n|]; [|discriminate]. cbn [obind]. destruct (upd (g_nodes d) id (f n)) as [ns|] eqn:E; [|discriminate].
  cbn [obind]. intros H. inversion H. split; [|reflexivity]. exact (upd_len _ _ _ _ E).
Qed.
Definition accounted (d d' : dd) : Prop :=
  incl (nextids d) (nextids d') /\ forall id, (id < length (g_nodes d'))%nat -> (id < length (g_nodes d))%nat \/ In id (nextids d').
Lemma accounted_refl d : accounted d d.
Proof. split; [apply incl_refl|auto]. Qed.
Lemma accounted_trans a b c : accounted a b -> accounted b c -> accounted a c.
Proof.
  intros [H1 H2] [H3 H4]. split; [eapply incl_tran; eauto|]. intros id H. destruct (H4 id H) as [H5|H5]; [|auto]. destruct (H2 id H5); auto.
Qed.
Lemma branch_accounted v pb from d dec d' : branch_on eqb v pb from d dec = Some d' -> accounted d d'.
Proof.
  unfold branch_on. destruct (get_node d from) as [fn|]; [|discriminate]. cbn [obind]. destruct (next_get eqb (g_next d) _) as [nid|].
  - destruct (get_node d nid) as [n0|]; [|discriminate]. cbn [obind]. destruct (upd (g_nodes d) nid _) as [ns|] eqn:E; [|discriminate]. cbn [obind].
    intros H. inversion H. split; [apply incl_refl|]. cbn. rewrite (upd_len _ _ _ _ E). auto.
  - intros H. inversion H. split; [unfold nextids; cbn; apply incl_tl, incl_refl|]. cbn. intros id Hid. rewrite app_length in Hid. cbn in Hid.
    destruct (Nat.eq_dec id (length (g_nodes d))) as [->|Hne]; [right; left; reflexivity|left; lia].
Qed.
Lemma branches_accounted v pb from : forall ds d d', ofold (branch_on eqb v pb from) ds d = Some d' -> accounted d d'.
Proof.
  induction ds as [|dec ds IH]; intros d d' H; cbn [ofold] in H; [inversion H; apply accounted_refl|].
  destruct (branch_on eqb v pb from d dec) as [d1|] eqn:E; [|discriminate]. cbn [obind] in H. eapply accounted_trans; [eapply branch_accounted; exact E|eauto].
Qed.
Lemma expand_accounted v inp var d id d' : expand_node eqb v inp var d id = Some d' -> accounted d d'.
Proof.
  unfold expand_node. destruct (get_node d id) as [n|]; [|discriminate]. cbn [obind]. destruct (upd_node d id _) as [d1|] eqn:E1; [|discriminate]. cbn [obind].
  destruct (upd_node_len _ _ _ _ E1) as [L1 N1]. assert (A1 : accounted d d1) by (split; [unfold nextids; rewrite N1; apply incl_refl|rewrite L1; auto]).
  destruct (get_node d1 id) as [n1|]; [|discriminate]. cbn [obind]. destruct (i_lb inp <? _).
  - destruct (ofold _ _ d1) as [d2|] eqn:E2; [|discriminate]. cbn [obind]. intros H. inversion H. eapply accounted_trans; [exact A1|]. eapply branches_accounted in E2. exact E2.
  - destruct v; [intros H; inversion H; subst; exact A1|]. intros E2. destruct (upd_node_len _ _ _ _ E2) as [L2 N2]. eapply accounted_trans; [exact A1|].
    split; [unfold nextids; rewrite N2; apply incl_refl|rewrite L2; auto].
Qed.
Lemma mark_len v : forall l (d d' : dd), ofold (mark_cutset v) l d = Some d' -> length (g_nodes d') = length (g_nodes d).
Proof.
  induction l as [|x l IH]; intros d d' H; cbn [ofold] in H; [inversion H; reflexivity|].
  destruct (mark_cutset v d x) as [d1|] eqn:E; [|discriminate]. cbn [obind] in H. rewrite (IH _ _ H). unfold mark_cutset in E.
  destruct (upd_node d x _) as [d2|] eqn:E2; [|discriminate]. cbn [obind] in E. destruct (get_node d2 x); [|discriminate]. cbn [obind] in E. inversion E. cbn. apply (upd_node_len _ _ _ _ E2).
Qed.
Lemma redirect_len rx merged mid_ dn : forall fuel (d d' : dd) e, redirect fuel rx merged mid_ dn d e = Some d' -> length (g_nodes d') = length (g_nodes d).
Proof.
  induction fuel as [|fuel IH]; intros d d' [e|] H; cbn [redirect] in H; try discriminate; try (inversion H; reflexivity).
  destruct (nth_error (g_edges d) e) as [ed|]; [|discriminate]. cbn [obind] in H. destruct (get_node d (e_from ed)) as [src|]; [|discriminate]. cbn [obind] in H.
  destruct (get_node d mid_) as [m|]; [|discriminate]. cbn [obind] in H. destruct (upd_node (set_edges d _) mid_ _) as [d2|] eqn:E2; [|discriminate]. cbn [obind] in H.
  apply upd_node_len in E2 as [L2 _]. cbn in L2.
  destruct (get_node d2 (e_from ed)) as [src2|]; [|discriminate]. cbn [obind] in H. destruct (get_node d2 mid_) as [m2|]; [|discriminate]. cbn [obind] in H.
  destruct (n_value m2 <=? _).
  - destruct (upd_node d2 mid_ _) as [d3|] eqn:E3; [|discriminate]. cbn [obind] in H. apply upd_node_len in E3 as [L3 _]. rewrite (IH _ _ _ H). lia.
  - cbn [obind] in H. rewrite (IH _ _ _ H). lia.
Qed.
Lemma drop_len v rx merged mid_ : forall l (d d' : dd), ofold (drop_node v rx merged mid_) l d = Some d' -> length (g_nodes d') = length (g_nodes d).
Proof.
  induction l as [|x l IH]; intros d d' H; cbn [ofold] in H; [inversion H; reflexivity|].
  destruct (drop_node v rx merged mid_ d x) as [d1|] eqn:E; [|discriminate]. cbn [obind] in H. rewrite (IH _ _ H). clear IH H. unfold drop_node in E.
  destruct v.
  - cbn [obind] in E. destruct (get_node d x); [|discriminate]. cbn [obind] in E. eapply redirect_len. exact E.
  - destruct (upd_node d x _) as [d2|] eqn:E2; [|discriminate]. cbn [obind] in E. apply upd_node_len in E2 as [L2 _]. destruct (get_node d2 x); [|discriminate]. cbn [obind] in E.
    apply redirect_len in E. lia.
Qed.
Lemma relax_accounted v orc inp d curr d' curr' : relax eqb v orc inp d curr = Some (d', curr') ->
  forall id, (id < length (g_nodes d'))%nat -> (id < length (g_nodes d))%nat \/ In id curr'.
Proof.
  unfold relax. intros H.
  destruct (match g_ctype d with LastExactLayer => if negb (g_approx d) then ofold (mark_cutset v) (g_prev d) d else Some d | Frontier => Some d end) as [d1|] eqn:E1; [|discriminate]. cbn [obind] in H.
  assert (L1 : length (g_nodes d1) = length (g_nodes d)).
  { destruct (g_ctype d); [destruct (negb (g_approx d))|]; [eapply mark_len; exact E1|inversion E1; reflexivity..]. }
  clear E1. destruct (all_present d1 curr); [|discriminate]. cbv zeta in H. set (sorted := o_sort orc _ curr) in *. destruct (i_width inp) as [|w1]; [discriminate|].
  destruct (w1 <=? length sorted)%nat; [|discriminate]. destruct (map_states (set_approx d1 true) (firstn w1 sorted)) as [ks|]; [|discriminate]. cbn [obind] in H.
  destruct (map_states (set_approx d1 true) (skipn w1 sorted)) as [ms|]; [|discriminate]. cbn [obind] in H.
  set (merged := rx_merge (i_rx inp) ms) in *. set (recycled := option_map fst _) in *. clearbody recycled merged.
  destruct recycled as [rid|].
  - cbn [obind] in H. destruct (upd_node (set_approx d1 true) rid _) as [d4|] eqn:E4; [|discriminate]. cbn [obind] in H. apply upd_node_len in E4 as [L4 _]. cbn in L4.
    destruct (ofold _ _ d4) as [d5|] eqn:E5; [|discriminate]. cbn [obind] in H. apply drop_len in E5.
    destruct v.
    + cbn [obind] in H. inversion H. subst. intros. left. lia.
    + destruct (nth_error (firstn (Datatypes.S w1) sorted) w1) as [saved|]; [|discriminate]. cbn [obind] in H. destruct (upd_node d5 saved _) as [d6|] eqn:E6; [|discriminate].
      cbn [obind] in H. inversion H. subst. apply upd_node_len in E6 as [L6 _]. intros. left. lia.
  - match type of H with context [obind ?o _] => destruct o as [[mi d3]|] eqn:E3; [|discriminate] end. cbn [obind] in H.
    match type of E3 with obind ?o _ = _ => destruct o as [dep|]; [|discriminate] end. cbn [obind] in E3. inversion E3. subst mi d3. clear E3.
    destruct (upd_node (set_nodes _ _) _ _) as [d4|] eqn:E4; [|discriminate]. cbn [obind] in H. apply upd_node_len in E4 as [L4 _]. cbn in L4. rewrite app_length in L4. cbn in L4.
    destruct (ofold _ _ d4) as [d5|] eqn:E5; [|discriminate]. cbn [obind] in H. apply drop_len in E5. inversion H. subst. intros id Hid.
    destruct (Nat.eq_dec id (length (g_nodes d))) as [->|]; [|left; lia]. right. apply in_app_iff. right. left. cbn. exact L1.
Qed.

(** ** Pruning a layer *)
Definition theta_at (T : thresholds) (depth : nat) (s : S) : Z := match lookup T depth s with Some i => b_theta i | None => IMIN end.
Definition hidden (n : node) (theta : Z) : node := node_flags (node_theta n theta) (set_pruned_by_barrier (n_flags n) true).
Record pruned (depth : nat) (T : thresholds) (d d' : dd) (l r : list nat) : Prop := {
  pr_incl : incl r l;
  pr_nodup : NoDup r;
  pr_frame : d' = set_nodes d (g_nodes d');
  pr_len : length (g_nodes d') = length (g_nodes d);
  pr_same : forall id, (In id l -> In id r) -> get_node d' id = get_node d id;
  pr_cut : forall id n, In id l -> ~ In id r -> get_node d id = Some n -> exists theta, get_node d' id = Some (hidden n theta) /\
     n_value n <= theta /\ (solo = true -> theta = theta_at T depth (n_state n)) }.
Lemma set_nodes_same (d : dd) : d = set_nodes d (g_nodes d).
Proof. destruct d. reflexivity. Qed.
Lemma pruned_refl depth T d l : NoDup l -> pruned depth T d d l l.
Proof. intros H. constructor; auto using incl_refl, set_nodes_same. intros id n H1 H2. contradiction. Qed.
Lemma retain_ok depth T1 : (depth < L)%nat -> forall l d T, length T = L -> (solo = true -> T = T1) -> NoDup l ->
  (forall id, In id l -> exists n, get_node d id = Some n) ->
  wp (retain depth d l) T (fun '(d', r) T' => length T' = L /\ (solo = true -> T' = T1) /\ pruned depth T1 d d' l r).
Proof.
  intros Hdep. induction l as [|id l IH]; intros d T HL HT Hnd Hin; cbn [retain].
  - cbn. split; [exact HL|]. split; [exact HT|]. apply pruned_refl. constructor.
  - inversion Hnd as [|x l' Hx Hnd']; subst. destruct (Hin id (or_introl eq_refl)) as [n Gn].
    assert (Hkeep : forall d T, length T = L -> (solo = true -> T = T1) -> (forall id, In id l -> exists n, get_node d id = Some n) ->
      wp (prg '(d2, r) <- retain depth d l; Ret (d2, id :: r)) T (fun '(d', r) T' => length T' = L /\ (solo = true -> T' = T1) /\ pruned depth T1 d d' (id :: l) r)).
    { intros d1 T' HL' HT' Hin'. apply wp_bind. eapply wp_mono; [|apply IH; assumption]. intros [d2 r] T2 (H1 & H2 & [p1 p2 p3 p4 p5 p6]). cbn.
      split; [exact H1|]. split; [exact H2|]. constructor; auto.
      - intros x [<-|Hx']; [left; reflexivity|right; auto].
      - constructor; [|exact p2]. intros H. apply p1 in H. contradiction.
      - intros x Hx'. apply p5. intros Hxl. destruct (Hx' (or_intror Hxl)) as [<-|]; [contradiction|assumption].
      - intros x m Hx' Hr Gm. destruct Hx' as [->|Hx']; [exfalso; apply Hr; left; reflexivity|]. apply (p6 x m Hx'); [intros H; apply Hr; right; exact H|exact Gm]. }
    apply wp_bind. unfold retain_node. apply (wp_pure _ n); [exact Gn|]. destruct (is_relaxed (n_flags n)).
    { cbn [BarWp.wp]. apply Hkeep; auto. intros x Hx'. apply Hin. right. exact Hx'. }
    cbn [BarWp.wp]. split; [exact Hdep|]. intros T' tl [HL' He] Hl. set (theta := match tget eqb tl (n_state n) with Some i => b_theta i | None => IMIN end).
    assert (HT' : solo = true -> T' = T1) by (intros Hs; rewrite (He Hs); auto).
    assert (Hth : solo = true -> theta = theta_at T1 depth (n_state n)) by (intros Hs; unfold theta, theta_at, BarWp.lookup; rewrite <- (HT' Hs), Hl; reflexivity).
    destruct (Z.ltb_spec theta (n_value n)) as [Hlt|Hge].
    { cbn [BarWp.wp]. apply Hkeep; auto. intros x Hx'. apply Hin. right. exact Hx'. }
    destruct (upd_node_chg d id (fun n => hidden n theta) n Gn) as (d1 & E1 & C1 & Ed1 & G1).
    apply (wp_pure _ d1); [exact E1|]. cbn [BarWp.wp].
    assert (Hin1 : forall x, In x l -> get_node d1 x = get_node d x) by (intros x Hx'; apply (cg_nodes _ _ _ C1); intros <-; contradiction).
    apply wp_bind. eapply wp_mono; [|apply IH; auto]; [|intros x Hx'; rewrite Hin1 by exact Hx'; apply Hin; right; exact Hx'].
    intros [d2 r] T2 (H1 & H2 & [p1 p2 p3 p4 p5 p6]). cbn. split; [exact H1|]. split; [exact H2|].
    assert (Hr : ~ In id r) by (intros H; apply p1 in H; contradiction).
    unfold upd_node in E1. rewrite Gn in E1. cbn [obind] in E1. destruct (upd (g_nodes d) id _) as [ns|]; [|discriminate]. cbn [obind] in E1. inversion E1 as [E1']. 
    constructor; auto.
    + intros x Hx'. right. auto.
    + rewrite p3, <- E1'. reflexivity.
    + rewrite p4. apply (cg_len _ _ _ C1).
    + intros x Hx'. rewrite p5 by (intros Hxl; apply Hx'; right; exact Hxl). apply (cg_nodes _ _ _ C1). intros <-. apply Hr, Hx'. left. reflexivity.
    + intros x m Hx' Hxr Gm. destruct Hx' as [<-|Hx'].
      * assert (m = n) as -> by congruence. exists theta. split; [|split; [lia|exact Hth]]. rewrite p5 by (intros; contradiction). exact G1.
      * apply (p6 x m Hx' Hxr). rewrite (Hin1 x Hx'). exact Gm.
Qed.
Lemma prune_ok depth T : (depth < L)%nat -> forall l d, length T = L -> NoDup l ->
  (forall id, In id l -> exists n, get_node d id = Some n) ->
  wp (prune k0 depth d l) T (fun '(d', r) T' => length T' = L /\ (solo = true -> T' = T) /\ pruned depth T d d' l r /\ ((depth <= k0)%nat -> r = l /\ d' = d)).
Proof.
  intros Hdep l d HL Hnd Hin. unfold prune. destruct (Nat.ltb_spec k0 depth) as [Hlt|Hge].
  - cbn [BarWp.wp]. split; [exact Hdep|]. intros T' tl [HL' He] Hl. destruct (is_nil tl).
    + cbn. split; [exact HL'|]. split; [exact He|]. split; [apply pruned_refl; exact Hnd|]. intros; lia.
    + eapply wp_mono; [|apply (retain_ok depth T Hdep l d T' HL' He Hnd Hin)]. intros [d' r] T2 (H1 & H2 & H3). split; [exact H1|]. split; [exact H2|]. split; [exact H3|]. intros; lia.
  - cbn. split; [exact HL|]. split; [reflexivity|]. split; [apply pruned_refl; exact Hnd|]. auto.
Qed.

(** What pruning does to the invariant of the loop: the nodes taken out of the layer join [gone]. *)
Definition keep_next (m : list (S * nat)) (r : list nat) : list (S * nat) := filter (fun p => existsb (Nat.eqb (snd p)) r) m.
Lemma keep_next_in m r s id : In (s, id) (keep_next m r) <-> In (s, id) m /\ In id r.
Proof.
  unfold keep_next. rewrite filter_In. cbn [snd]. rewrite existsb_exists. split.
  - intros [H (x & Hx & He)]. apply Nat.eqb_eq in He. subst x. auto.
  - intros [H1 H2]. split; [exact H1|]. exists id. split; [exact H2|apply Nat.eqb_refl].
Qed.
Definition pruned_dd (d d3 : dd) (r : list nat) : dd := set_next d3 (keep_next (g_next d) r).
Lemma pruned_nextids d d3 l r : incl r l -> (forall id, In id (nextids d) <-> In id l) -> forall id, In id (nextids (pruned_dd d d3 r)) <-> In id r.
Proof.
  intros Hr Hl id. rewrite nextids_in. cbn [g_next pruned_dd set_next]. split.
  - intros (s & Hs). apply keep_next_in in Hs. apply Hs.
  - intros H. assert (Hn : In id (nextids d)) by (apply Hl, Hr, H). apply nextids_in in Hn as (s & Hs). exists s. apply keep_next_in. auto.
Qed.
Lemma filter_keys (m : list (S * nat)) f : NoDup (map fst m) -> NoDup (map fst (filter f m)).
Proof.
  induction m as [|p m IH]; cbn; [constructor|]. intros H. inversion H as [|x l Hx Hl]; subst. destruct (f p); [|auto]. cbn. constructor; [|auto].
  intros Hi. apply Hx. apply in_map_iff in Hi as (q & Hq & Hi). apply filter_In in Hi as [Hi _]. apply in_map_iff. eauto.
Qed.
Definition cut_ids (l r : list nat) : list nat := filter (fun x => negb (existsb (Nat.eqb x) r)) l.
Lemma cut_ids_in l r x : In x (cut_ids l r) <-> In x l /\ ~ In x r.
Proof.
  unfold cut_ids. rewrite filter_In, negb_true_iff. split; intros [H1 H2]; split; auto.
  - intros H. assert (existsb (Nat.eqb x) r = true) by (apply existsb_exists; exists x; split; [exact H|apply Nat.eqb_refl]). congruence.
  - destruct (existsb (Nat.eqb x) r) eqn:E; [|reflexivity]. apply existsb_exists in E as (y & Hy & He). apply Nat.eqb_eq in He. subst y. contradiction.
Qed.
Lemma hidden_core n theta : coreeq n (hidden n theta).
Proof. constructor; try reflexivity; cbn; [apply exact_set_barrier|apply relaxed_set_barrier]. Qed.

Lemma linv_prune inp ct d d3 past gone curr k curr1 curr2 T :
  linv inp ct d past gone curr k -> (forall id, In id (nextids d) <-> In id curr1) ->
  pruned k T (set_next d []) d3 curr1 curr2 -> ((k <= k0)%nat -> curr2 = curr1 /\ d3 = set_next d []) ->
  linv inp ct (pruned_dd d d3 curr2) past (cut_ids curr1 curr2 ++ gone) curr k.
Proof.
  intros HL Hin HP Hk0. set (dQ := pruned_dd d d3 curr2). assert (HA := li_arena _ _ _ _ _ _ _ HL).
  assert (Hfr : dQ = set_next (set_nodes d (g_nodes d3)) (keep_next (g_next d) curr2)).
  { unfold dQ, pruned_dd. rewrite (pr_frame _ _ _ _ _ _ HP). reflexivity. }
  assert (Hnx : forall id, In id (nextids dQ) <-> In id curr2) by (apply (pruned_nextids d d3 curr1 curr2); [apply HP|exact Hin]).
  assert (Hpc : forall p, In p past -> ~ In p curr1) by (intros p Hp H; apply (li_disj _ _ _ _ _ _ _ HL p Hp), Hin, H).
  assert (Hsame : forall id, ~ In id (cut_ids curr1 curr2) -> get_node dQ id = get_node d id).
  { intros id Hid. apply (pr_same _ _ _ _ _ _ HP id). intros H. destruct (in_dec Nat.eq_dec id curr2) as [H'|H']; [exact H'|]. exfalso. apply Hid, cut_ids_in. auto. }
  assert (Hcut : forall id n, In id (cut_ids curr1 curr2) -> get_node d id = Some n -> exists theta, get_node dQ id = Some (hidden n theta)).
  { intros id n Hid G0. apply cut_ids_in in Hid as [H1 H2]. destruct (pr_cut _ _ _ _ _ _ HP id n H1 H2 G0) as (theta & G1 & _). exists theta. exact G1. }
  assert (Hn : forall id n, get_node d id = Some n -> exists n', get_node dQ id = Some n' /\ coreeq n n' /\ n_rub n' = n_rub n /\ n_bot n' = n_bot n /\
     is_marked (n_flags n') = is_marked (n_flags n) /\ is_cutset (n_flags n') = is_cutset (n_flags n)).
  { intros id n G0. destruct (in_dec Nat.eq_dec id (cut_ids curr1 curr2)) as [Hid|Hid].
    - destruct (Hcut id n Hid G0) as (theta & G1). exists (hidden n theta). split; [exact G1|]. split; [apply hidden_core|]. cbn. rewrite marked_set_barrier, cutset_set_barrier. auto.
    - exists n. rewrite (Hsame id Hid). auto 10 using coreeq_refl. }
  assert (Hlen : length (g_nodes dQ) = length (g_nodes d)) by exact (pr_len _ _ _ _ _ _ HP).
  assert (Hr : forall id n', get_node dQ id = Some n' -> exists n, get_node d id = Some n /\ coreeq n n' /\ n_rub n' = n_rub n /\ n_bot n' = n_bot n /\
     is_marked (n_flags n') = is_marked (n_flags n) /\ is_cutset (n_flags n') = is_cutset (n_flags n)).
  { intros id n' G1. destruct (get_some d id) as [n G0]; [apply get_lt in G1; lia|]. exists n. split; [exact G0|]. destruct (Hn id n G0) as (n1 & G1' & H). assert (n1 = n') as -> by congruence. exact H. }
  assert (Hpast : forall p, In p past -> get_node dQ p = get_node d p).
  { intros p Hp. apply Hsame. intros H. apply cut_ids_in in H as [H _]. exact (Hpc p Hp H). }
  assert (Hed : g_edges dQ = g_edges d) by (rewrite Hfr; reflexivity).
  assert (Hfz : past_frozen d dQ past) by (intros p pn Hp Gp; exists pn; rewrite (Hpast p Hp); auto using coreeq_refl).
  assert (Hxs : exists xs, g_edges dQ = g_edges d ++ xs) by (exists []; rewrite app_nil_r; exact Hed).
  assert (Hap : g_approx dQ = g_approx d) by (rewrite Hfr; reflexivity).
  assert (Hcs : g_cutset dQ = g_cutset d) by (rewrite Hfr; reflexivity).
  assert (Hgg : forall g, In g (cut_ids curr1 curr2) -> In g (nextids d) /\ ~ In g (nextids dQ)).
  { intros g Hg. apply cut_ids_in in Hg as [H1 H2]. rewrite Hnx, Hin. auto. }
  assert (Hqn : forall q qn, In q (g_cutset d) -> get_node dQ q = Some qn -> get_node d q = Some qn).
  { intros q qn Hq Gq. rewrite <- (Hpast q); [exact Gq|]. apply (a_cutpast _ _ _ HA q Hq). }
  constructor.
  - constructor.
    + rewrite Hed. apply HA.
    + rewrite Hlen. apply HA.
    + intros id n' G1 Ht. destruct (Hr id n' G1) as (n & G0 & C0 & _ & B0 & M0 & _). eapply node_ok_mono; [apply HA|apply (a_nodes _ _ _ HA id n G0 Ht)|exact C0|exact B0|exact M0|apply incl_refl|exact Hfz|exact Hxs].
    + intros id Hid. rewrite Hlen. apply (a_past _ _ _ HA id Hid).
    + intros p id Hp Hid. apply (a_lt _ _ _ HA p id Hp). apply Hin, (pr_incl _ _ _ _ _ _ HP), Hnx, Hid.
    + rewrite Hfr. cbn. apply filter_keys, HA.
    + intros s id Hs. rewrite Hfr in Hs. cbn in Hs. apply keep_next_in in Hs as [Hs Hc]. destruct (a_next _ _ _ HA s id Hs) as (n & G0 & Hst & Ho & Hcl). exists n.
      split; [rewrite Hsame; [exact G0|]; intros H; apply cut_ids_in in H as [_ H]; contradiction|]. split; [exact Hst|]. split; [|exact Hcl].
      eapply orig_all_mono; [apply HA|apply (no_base _ _ _ _ (a_nodes _ _ _ HA id n G0 ltac:(discriminate)))|exact Ho|apply coreeq_refl|exact Hfz|exact Hxs].
    + intros id n' G1. destruct (Hr id n' G1) as (n & G0 & _ & _ & _ & _ & Hc). rewrite Hc, Hcs. apply (a_cut _ _ _ HA id n G0).
    + rewrite Hcs. apply HA.
    + rewrite Hfr. cbn. apply HA.
  - intros id Hid. apply Hnx in Hid. assert (Hid1 : In id (nextids d)) by (apply Hin, (pr_incl _ _ _ _ _ _ HP), Hid).
    destruct (li_layer _ _ _ _ _ _ _ HL id Hid1) as (n & G0 & D0). destruct (Hn id n G0) as (n' & G1 & [] & _). exists n'. split; [exact G1|congruence].
  - apply HL.
  - intros p Hp H. apply Hnx in H. apply (pr_incl _ _ _ _ _ _ HP) in H. exact (Hpc p Hp H).
  - intros p pn Gp. destruct (Hr p pn Gp) as (pn0 & G0 & [] & _). rewrite (li_curr _ _ _ _ _ _ _ HL p pn0 G0), ce_depth. tauto.
  - apply HL.
  - intros p pn Hp Gp. rewrite (Hpast p Hp) in Gp. apply (li_depth _ _ _ _ _ _ _ HL p pn Hp Gp).
  - intros p pn Hp Gp. rewrite (Hpast p Hp) in Gp. destruct (li_exp _ _ _ _ _ _ _ HL p pn Hp Gp) as [Hrub Hch]. split; [exact Hrub|]. rewrite Hap.
    intros Hty Hlb dec Hdec; destruct (Hch Hty Hlb dec Hdec) as (m & mn & e & ed & Hm & Gm & He & Hf & Hd & Hcase).
    destruct (Hn m mn Gm) as (mn' & Gm' & [] & _). exists m, mn', e, ed. split.
    { destruct Hm as [Hm|[Hm|Hm]]; [auto| |right; right; apply in_app_iff; auto]. destruct (in_dec Nat.eq_dec m curr2) as [H|H]; [right; left; apply Hnx; exact H|].
      right. right. apply in_app_iff. left. apply cut_ids_in. split; [apply Hin; exact Hm|exact H]. }
    split; [exact Gm'|]. split; [rewrite Hed, ce_inb; exact He|]. split; [exact Hf|]. split; [exact Hd|]. rewrite Hap, Hcs, ce_state.
    destruct Hcase as [Hc|(H1 & H2 & H3)]; [left; exact Hc|right]. split; [exact H1|]. split; [|exact H3]. intros q qn Hq Gq. apply (H2 q qn Hq). apply (Hqn q qn Hq Gq).
  - intros H id n' G1. rewrite Hap in H. destruct (Hr id n' G1) as (n & G0 & [] & _). rewrite ce_exact. apply (li_exact _ _ _ _ _ _ _ HL H id n G0).
  - rewrite Hap. apply HL.
  - rewrite Hap, Hcs. apply HL.
  - rewrite Hap, Hcs. intros H1 H2 H3. destruct (li_lel _ _ _ _ _ _ _ HL H1 H2 H3) as (kc & Hk1 & Hk2 & Hk3). exists kc. split; [exact Hk1|]. split; [exact Hk2|].
    intros p pn Hp Gp. rewrite (Hpast p Hp) in Gp. auto.
  - rewrite Hcs. intros q qn Hq Gq. apply (li_cutexact _ _ _ _ _ _ _ HL q qn Hq). apply (Hqn q qn Hq Gq).
  - rewrite Hfr. cbn. apply HL.
  - destruct (li_root _ _ _ _ _ _ _ HL) as [H|(H1 & H2 & H3 & H4)]; [left; exact H|right]. split; [exact H1|]. split; [|auto]. destruct (Hk0 ltac:(lia)) as [Hc _].
    rewrite Hfr. cbn [g_next set_next]. rewrite H2. unfold keep_next. cbn [filter snd]. assert (Hz : In 0%nat curr2) by (rewrite Hc; apply Hin; unfold nextids; rewrite H2; left; reflexivity).
    destruct (existsb (Nat.eqb 0) curr2) eqn:E; [reflexivity|]. assert (existsb (Nat.eqb 0) curr2 = true) by (apply existsb_exists; exists 0%nat; auto). congruence.
  - apply HL.
  - intros j l Hnd Hl Hlay Hty. apply (li_width _ _ _ _ _ _ _ HL j l Hnd Hl); [|exact Hty]. intros id Hid. destruct (Hlay id Hid) as (n & G1 & D1). exists n. rewrite <- (Hpast id (Hl id Hid)). auto.
  - rewrite Hfr. cbn. apply HL.
  - rewrite Hfr. cbn. apply HL.
  - intros g Hg. apply in_app_iff in Hg as [Hg|Hg].
    + destruct (Hgg g Hg) as [H1 H2]. split; [intros H; exact (li_disj _ _ _ _ _ _ _ HL g H H1)|]. split; [exact H2|].
      destruct (li_layer _ _ _ _ _ _ _ HL g H1) as (gn & G0 & D0). destruct (Hn g gn G0) as (gn' & G1 & [] & _). exists gn'. split; [exact G1|lia].
    + destruct (li_gone _ _ _ _ _ _ _ HL g Hg) as (H1 & H2 & gn & G0 & D0). split; [exact H1|]. split; [intros H; apply H2, Hin, (pr_incl _ _ _ _ _ _ HP), Hnx, H|].
      destruct (Hn g gn G0) as (gn' & G1 & [] & _). exists gn'. split; [exact G1|lia].
  - intros Hty. rewrite Hap. destruct (li_near _ _ _ _ _ _ _ HL Hty) as [Hn1 Hn2]. split; [exact Hn1|]. intros id n' Hid G1 D1. destruct (Hr id n' G1) as (n & G0 & [] & _).
    rewrite ce_exact. apply (Hn2 id n); [|exact G0|lia]. destruct Hid as [Hid|Hid]; [auto|right]. apply Hin, (pr_incl _ _ _ _ _ _ HP), Hnx, Hid.
Qed.

(** ** Restricting or relaxing a layer *)
Record shrunk (inp : input S) (d d3 : dd) (curr1 curr2 : list nat) (k : nat) : Prop := {
  sh_lel : i_type inp = Relaxed -> (g_lel d3 = g_lel d /\ (g_ctype d = LastExactLayer -> g_approx d3 = g_approx d)) \/
     (g_ctype d = LastExactLayer /\ g_approx d = false /\ g_approx d3 = true /\
      forall kk, g_prev d <> [] -> layer_at d (g_prev d) kk -> g_lel d3 = Some kk);
  sh_rest : i_type inp = Relaxed -> forall id n, get_node d3 id = Some n ->
     In id curr2 \/ (id < length (g_nodes d))%nat /\ (In id curr1 -> is_deleted (n_flags n) = true);
  sh_root : k = k0 -> curr1 = [0%nat] -> curr2 = [0%nat] }.
Lemma shrink_ok orc inp ct d past gone curr k curr1 : linv inp ct d past gone curr k -> incl curr1 (nextids d) -> NoDup curr1 ->
  sorts orc -> i_rx inp = R -> (0 < i_width inp)%nat -> incl (g_prev d) past ->
  exists d3 curr2, shrink eqb orc inp k0 k (set_next d []) curr1 = Some (d3, curr2) /\ mid inp d d3 past curr1 curr2 k /\ shrunk inp d d3 curr1 curr2 k.
Proof.
  intros HL Hi Hnd Hso Hrx Hw Hprev. unfold shrink.
  assert (Hkeep : shrunk inp d (set_next d []) curr1 curr1 k).
  { constructor; [intros _; left; auto| |auto]. intros _ id n G0. destruct (in_dec Nat.eq_dec id curr1) as [H|H]; [auto|right]. split; [apply get_lt in G0; exact G0|contradiction]. }
  destruct (i_type inp) eqn:Ety.
  - eexists _, _. split; [reflexivity|]. split; [|exact Hkeep]. eapply mid_keep; eauto. rewrite Ety. intros [H|[H _]]; discriminate.
  - destruct (Nat.ltb_spec (i_width inp) (length curr1)) as [Hlt|Hge]; cbn [andb]; [destruct (Nat.ltb_spec (k0 + 1) k) as [Hd|Hd]|].
    + destruct (mid_relax VBarrier orc inp ct d past gone curr k curr1) as (d3 & curr2 & E & M & V1 & V2 & D3 & Ha3); auto.
      exists d3, curr2. split; [exact E|]. split; [exact M|].
      constructor.
      * intros _. destruct (g_ctype d) eqn:Ec; [|left; split; [apply V2; [reflexivity|discriminate]|discriminate]].
        destruct (g_approx d) eqn:Ea; [left; split; [apply V2; auto|intros _; apply (md_approx _ _ _ _ _ _ _ M); exact Ea]|right].
        split; [reflexivity|]. split; [reflexivity|]. split; [|intros kk; apply V1; auto].
        exact Ha3.
      * intros _ id n G3. destruct (in_dec Nat.eq_dec id curr2) as [H|H]; [auto|right].
        destruct (relax_accounted _ _ _ _ _ _ _ E id) as [H1|H1]; [apply get_lt in G3; exact G3| |contradiction]. split; [exact H1|]. intros H2. apply (D3 id n H2 H G3 eq_refl).
      * intros ->. lia.
    + eexists _, _. split; [reflexivity|]. split; [|exact Hkeep]. eapply mid_keep; eauto. rewrite Ety. intros [H|[_ H]]; [discriminate|lia].
    + eexists _, _. split; [reflexivity|]. split; [|exact Hkeep]. eapply mid_keep; eauto.
  - destruct (Nat.ltb_spec (i_width inp) (length curr1)) as [Hlt|Hge].
    + destruct (mid_restrict orc inp ct d past gone curr k curr1) as (d3 & curr2 & E & M); auto. exists d3, curr2. split; [exact E|]. split; [exact M|]. constructor; [congruence|congruence|].
      intros _ Hc. subst curr1. cbn in Hlt. lia.
    + eexists _, _. split; [reflexivity|]. split; [|exact Hkeep]. eapply mid_keep; eauto.
Qed.

(** ** Expanding a layer *)
(** The threshold written when an exact node is expanded (or found not worth it). *)
Definition early_theta (inp : input S) (n : node) : Z :=
  if i_lb inp <? sat_add (pb_estimate P (n_state n)) (n_value n) then n_value n else sat_sub (i_lb inp) (pb_estimate P (n_state n)).
(** Entry [(depth, s)] of [T] was written for one of the nodes [ids] of [d]. *)
Definition written (inp : input S) (d : dd) (ids : list nat) (T : thresholds) (depth : nat) (s : S) : Prop :=
  i_type inp = Relaxed /\ exists id n, In id ids /\ get_node d id = Some n /\ n_depth n = depth /\ n_state n = s /\ is_exact (n_flags n) = true /\
    (g_ctype d = LastExactLayer -> forall l, g_lel d = Some l -> (depth <= l)%nat) /\
    lookup T depth s = Some (mk_info (early_theta inp n) false).
Definition early (inp : input S) (d : dd) (ids : list nat) (T0 T : thresholds) : Prop :=
  forall depth s, lookup T depth s = lookup T0 depth s \/ written inp d ids T depth s.
Lemma early_updated inp d ids T0 T T' depth s i : early inp d ids T0 T -> updated T T' depth s i ->
  (lookup T' depth s = Some i -> written inp d ids T' depth s) -> early inp d ids T0 T'.
Proof.
  intros HE HU Hi depth' s'. destruct (HU depth' s') as [H|(-> & -> & H)]; [|right; auto].
  destruct (HE depth' s') as [H'|H']; [left; congruence|right]. destruct H' as (Hty & id & n & H1 & H2 & H3 & H4 & H5 & H6 & H7). split; [exact Hty|].
  exists id, n. repeat (split; [assumption|]). congruence.
Qed.
Lemma early_incl inp d ids ids' T0 T : incl ids ids' -> early inp d ids T0 T -> early inp d ids' T0 T.
Proof.
  intros Hi HE depth s. destruct (HE depth s) as [H|(Hty & id & n & H1 & H2)]; [auto|right]. split; [exact Hty|]. exists id, n. split; [auto|exact H2].
Qed.

Lemma expand_all_ok inp d3 past curr2 k T3 : layer_ok d3 past curr2 k -> (k < N)%nat -> i_pb inp = P -> incl (g_cutset d3) past ->
  (i_type inp = Relaxed -> forall s i, G k s i) ->
  forall todo done d T, expanding VBarrier (i_lb inp) d3 d past curr2 done k -> incl todo curr2 -> NoDup (todo ++ done) ->
  length T = L -> (solo = true -> early inp d3 done T3 T) ->
  wp (pfold (expand_one eqb inp (nv k) k) todo d) T (fun d' T' => expanding VBarrier (i_lb inp) d3 d' past curr2 (rev todo ++ done) k /\
    length T' = L /\ (solo = true -> early inp d3 (rev todo ++ done) T3 T') /\ accounted d d').
Proof.
  intros Hlay Hk Hpb Hcut HG. induction todo as [|id todo IH]; intros done d T HE Hi Hnd HL HT; cbn [pfold].
  - cbn. auto using accounted_refl.
  - cbn [app] in Hnd. inversion Hnd as [|x l Hx Hnd']; subst. apply wp_bind. unfold expand_one at 1.
    assert (Hid : In id curr2) by (apply Hi; left; reflexivity).
    destruct (lo_node _ _ _ _ Hlay id Hid) as (_ & _ & n3 & G3 & D3 & _). destruct (ex_old _ _ _ _ _ _ _ _ HE id n3 G3) as (n & Gn & Cn & _).
    apply (wp_pure _ n); [exact Gn|].
    destruct (expand_step VBarrier inp d3 d past curr2 done k id HE Hlay Hk Hpb Hcut Hid) as (d1 & E1 & HE1); [intros H; apply Hx, in_app_iff; auto|].
    apply (wp_pure _ d1); [exact E1|]. destruct (ex_old _ _ _ _ _ _ _ _ HE1 id n3 G3) as (n1 & Gn1 & Cn1 & _ & Dn1). specialize (Dn1 (or_introl eq_refl)).
    apply (wp_pure _ n1); [exact Gn1|]. assert (Hac := expand_accounted _ _ _ _ _ _ E1).
    assert (Hnext : forall T', length T' = L -> (solo = true -> early inp d3 (id :: done) T3 T') ->
      wp (pfold (expand_one eqb inp (nv k) k) todo d1) T' (fun d' T' => expanding VBarrier (i_lb inp) d3 d' past curr2 (rev (id :: todo) ++ done) k /\
         length T' = L /\ (solo = true -> early inp d3 (rev (id :: todo) ++ done) T3 T') /\ accounted d d')).
    { intros T' HL' HT'. eapply wp_mono; [|apply (IH (id :: done) d1 T' HE1)]; auto.
      - intros d' T2 (H1 & H2 & H3 & H4). cbn [rev]. rewrite <- app_assoc. cbn [app]. split; [exact H1|]. split; [exact H2|]. split; [exact H3|]. eapply accounted_trans; eauto.
      - intros x Hx'. apply Hi. right. exact Hx'.
      - apply (Permutation_NoDup (l := id :: todo ++ done)); [apply Permutation_middle|constructor; assumption]. }
    assert (Hskip : forall T', length T' = L -> (solo = true -> T' = T) -> solo = true -> early inp d3 (id :: done) T3 T').
    { intros T' _ He Hs. rewrite (He Hs). eapply early_incl; [|apply HT; exact Hs]. apply incl_tl, incl_refl. }
    destruct (i_type inp) eqn:Ety; [cbn [BarWp.wp]; apply Hnext; auto| |cbn [BarWp.wp]; apply Hnext; auto].
    destruct (is_exact (n_flags n1)) eqn:Eex; [|cbn [BarWp.wp]; apply Hnext; auto].
    apply wp_bind. destruct (ex_rest _ _ _ _ _ _ _ _ HE1) as [_ _ rl _ _ _]. assert (rct := ex_ctype _ _ _ _ _ _ _ _ HE1).
    assert (Hth : (if i_lb inp <? sat_add (pb_estimate (i_pb inp) (n_state n)) (n_value n) then n_value n1 else n_theta n1) = early_theta inp n3).
    { unfold early_theta. rewrite Hpb, (ce_state _ _ Cn), (ce_value _ _ Cn). destruct (Z.ltb_spec (i_lb inp) (sat_add (pb_estimate P (n_state n3)) (n_value n3))) as [H|H].
      - apply Cn1.
      - destruct (dn_cases _ _ _ _ _ _ Dn1) as [(H1 & _)|(_ & H1)]; [lia|exact H1]. }
    rewrite Hth. eapply wp_mono; [|eapply wp_try_update; [exact eqb_spec|lia|exact HL|]].
    + intros _ T' [HL' HT']. cbn [BarWp.wp]. apply Hnext; [exact HL'|]. intros Hs. destruct (HT' Hs) as [->|[Hsk Hu]]; [apply Hskip; auto|].
      eapply early_updated; [eapply early_incl; [|apply HT; exact Hs]; apply incl_tl, incl_refl|exact Hu|]. intros Hl.
      split; [exact Ety|]. exists id, n3. split; [left; reflexivity|]. split; [exact G3|]. split; [exact D3|]. split; [symmetry; apply Cn|].
      split; [rewrite <- (ce_exact _ _ Cn1); exact Eex|]. split; [|exact Hl]. intros Hct l Hlel. rewrite rct, rl, Hct, Hlel in Hsk. apply Nat.ltb_ge in Hsk. exact Hsk.
    + intros _. apply HG. reflexivity.
Qed.

(** ** The invariant of the loop, beyond what both diagrams have in common *)
(** [T0] are the thresholds before the compilation, [T] the current ones. *)
Record binv (inp : input S) (ct : cutset_type) (d : dd) (past gone : list nat) (k : nat) (T0 T : thresholds) : Prop := {
  bi_len : length T = L;
  bi_past : forall p pn, In p past -> get_node d p = Some pn -> cleanf pn /\
     ((i_lb inp < sat_add (pb_estimate P (n_state pn)) (n_value pn) /\ n_theta pn = IMAX) \/
      (sat_add (pb_estimate P (n_state pn)) (n_value pn) <= i_lb inp /\ n_theta pn = sat_sub (i_lb inp) (pb_estimate P (n_state pn))));
  bi_gone : forall g gn, In g gone -> get_node d g = Some gn -> (k0 < n_depth gn)%nat /\ is_deleted (n_flags gn) = false /\
     is_pruned_by_barrier (n_flags gn) = true /\ n_value gn <= n_theta gn /\
     (solo = true -> exists i, lookup T0 (n_depth gn) (n_state gn) = Some i /\ n_theta gn = b_theta i);
  bi_rest : i_type inp = Relaxed -> forall id n, get_node d id = Some n -> In id past \/ In id (nextids d) \/ In id gone \/ is_deleted (n_flags n) = true;
  bi_lel : i_type inp = Relaxed -> ct = LastExactLayer -> (g_approx d = false -> g_lel d = None) /\
     (forall q qn, In q (g_cutset d) -> get_node d q = Some qn -> g_lel d = Some (n_depth qn));
  bi_tab : solo = true -> early inp d past T0 T }.

Lemma written_mono inp d d' ids ids' T T' depth s : written inp d ids T depth s -> incl ids ids' ->
  (forall id n, In id ids -> get_node d id = Some n -> exists n', get_node d' id = Some n' /\ coreeq n n') ->
  (g_ctype d' = LastExactLayer -> forall l, g_lel d' = Some l -> (depth <= l)%nat \/ g_ctype d = LastExactLayer /\ g_lel d = Some l) ->
  lookup T' depth s = lookup T depth s -> written inp d' ids' T' depth s.
Proof.
  intros (Hty & id & n & H1 & H2 & H3 & H4 & H5 & H6 & H7) Hi Hn Hl HT. split; [exact Hty|]. destruct (Hn id n H1 H2) as (n' & G' & []).
  exists id, n'. split; [auto|]. split; [exact G'|]. split; [congruence|]. split; [congruence|]. split; [congruence|]. split.
  - intros Hct l Hlel. destruct (Hl Hct l Hlel) as [H|[H H']]; [exact H|auto].
  - rewrite HT, H7. f_equal. f_equal. unfold early_theta. rewrite ce_state, ce_value. reflexivity.
Qed.

Lemma binv_set_prev inp ct d past gone k T0 T l : binv inp ct d past gone k T0 T -> binv inp ct (set_prev d l) past gone k T0 T.
Proof. intros [h1 h2 h3 h4 h5 h6]. constructor; assumption. Qed.

Lemma binv_prune inp ct d d3 past gone curr k curr1 curr2 T0 T T' :
  linv inp ct d past gone curr k -> (forall id, In id (nextids d) <-> In id curr1) ->
  pruned k T (set_next d []) d3 curr1 curr2 -> ((k <= k0)%nat -> curr2 = curr1 /\ d3 = set_next d []) ->
  binv inp ct d past gone k T0 T -> length T' = L -> (solo = true -> T' = T) ->
  binv inp ct (pruned_dd d d3 curr2) past (cut_ids curr1 curr2 ++ gone) k T0 T'.
Proof.
  intros HL Hin HP Hk0 HB HLT HT. set (dQ := pruned_dd d d3 curr2). assert (HA := li_arena _ _ _ _ _ _ _ HL).
  assert (Hfr : dQ = set_next (set_nodes d (g_nodes d3)) (keep_next (g_next d) curr2)).
  { unfold dQ, pruned_dd. rewrite (pr_frame _ _ _ _ _ _ HP). reflexivity. }
  assert (Hnx : forall id, In id (nextids dQ) <-> In id curr2) by (apply (pruned_nextids d d3 curr1 curr2); [apply HP|exact Hin]).
  assert (Hsame : forall id, ~ In id (cut_ids curr1 curr2) -> get_node dQ id = get_node d id).
  { intros id Hid. apply (pr_same _ _ _ _ _ _ HP id). intros H. destruct (in_dec Nat.eq_dec id curr2) as [H'|H']; [exact H'|]. exfalso. apply Hid, cut_ids_in. auto. }
  assert (Hpast : forall p, In p past -> get_node dQ p = get_node d p).
  { intros p Hp. apply Hsame. intros H. apply cut_ids_in in H as [H _]. apply (li_disj _ _ _ _ _ _ _ HL p Hp), Hin, H. }
  assert (Hgone : forall g, In g gone -> ~ In g (cut_ids curr1 curr2)).
  { intros g Hg H. apply cut_ids_in in H as [H _]. apply (li_gone _ _ _ _ _ _ _ HL g Hg). apply Hin, H. }
  assert (Hlen : length (g_nodes dQ) = length (g_nodes d)) by exact (pr_len _ _ _ _ _ _ HP).
  constructor.
  - exact HLT.
  - intros p pn Hp Gp. rewrite (Hpast p Hp) in Gp. apply (bi_past _ _ _ _ _ _ _ _ HB p pn Hp Gp).
  - intros g gn Hg Gg. destruct (in_dec Nat.eq_dec g (cut_ids curr1 curr2)) as [Hc|Hc].
    + apply cut_ids_in in Hc as [H1 H2]. assert (Hgx : In g (nextids d)) by (apply Hin; exact H1). destruct (li_layer _ _ _ _ _ _ _ HL g Hgx) as (n & G0 & D0).
      destruct (pr_cut _ _ _ _ _ _ HP g n H1 H2 G0) as (theta & G1 & Hv & Hth). assert (gn = hidden n theta) as -> by (unfold dQ, pruned_dd in Gg; unfold get_node in *; cbn in Gg; congruence).
      apply nextids_in in Hgx as (s & Hs). destruct (a_next _ _ _ HA s g Hs) as (n' & G0' & _ & _ & [[Hdel _] _]). assert (n' = n) as -> by congruence. clear G0'.
      cbn. rewrite deleted_set_barrier, barrier_set_barrier. split.
      { destruct (Nat.le_gt_cases k k0) as [H|H]; [|lia]. destruct (Hk0 H) as [-> _]. contradiction. }
      split; [exact Hdel|]. split; [reflexivity|]. split; [exact Hv|]. intros Hs'. specialize (Hth Hs'). unfold theta_at in Hth.
      assert (Hok := a_nodes _ _ _ HA g n G0 ltac:(discriminate)).
      assert (Hvb := vbound_range _ _ (proj2 (no_depth _ _ _ _ (no_base _ _ _ _ Hok))) (no_val _ _ _ _ Hok)). pose proof IMIN_IMAX. pose proof IMAX_pos.
      destruct (lookup T k (n_state n)) as [i|] eqn:El; [|lia]. exists i. split; [|exact Hth]. rewrite D0.
      destruct (bi_tab _ _ _ _ _ _ _ _ HB Hs' k (n_state n)) as [E|(_ & id & m & H3 & H4 & H5 & _)]; [congruence|].
      pose proof (li_depth _ _ _ _ _ _ _ HL id m H3 H4). lia.
    + apply in_app_iff in Hg as [Hg|Hg]; [contradiction|]. rewrite (Hsame g Hc) in Gg. apply (bi_gone _ _ _ _ _ _ _ _ HB g gn Hg Gg).
  - intros Hty id n G1. destruct (in_dec Nat.eq_dec id (cut_ids curr1 curr2)) as [Hc|Hc]; [right; right; left; apply in_app_iff; auto|].
    rewrite (Hsame id Hc) in G1. destruct (bi_rest _ _ _ _ _ _ _ _ HB Hty id n G1) as [H|[H|[H|H]]]; auto; [|right; right; left; apply in_app_iff; auto].
    right. left. apply Hnx. destruct (in_dec Nat.eq_dec id curr2) as [H'|H']; [exact H'|]. exfalso. apply Hc, cut_ids_in. split; [apply Hin; exact H|exact H'].
  - intros H1 H2. rewrite Hfr. cbn. destruct (bi_lel _ _ _ _ _ _ _ _ HB H1 H2) as [H3 H4]. split; [exact H3|]. intros q qn Hq Gq. apply (H4 q qn Hq).
    rewrite <- (Hpast q); [rewrite Hfr; exact Gq|]. apply (a_cutpast _ _ _ HA q Hq).
  - intros Hs. rewrite (HT Hs). intros depth s. destruct (bi_tab _ _ _ _ _ _ _ _ HB Hs depth s) as [H|H]; [auto|right].
    eapply written_mono; [exact H|apply incl_refl| | |reflexivity].
    + intros id n Hid Gn. exists n. rewrite (Hpast id Hid). auto using coreeq_refl.
    + intros Hct l Hl. right. rewrite Hfr in Hct, Hl. auto.
Qed.

Lemma binv_step inp ct d d3 d4 past gone curr curr1 curr2 k T0 T T' :
  linv inp ct d past gone curr k -> g_prev d = curr ->
  (forall id, In id (nextids d) <-> In id curr1) ->
  mid inp d d3 past curr1 curr2 k -> shrunk inp d d3 curr1 curr2 k ->
  expanding VBarrier (i_lb inp) d3 d4 past curr2 (rev curr2 ++ []) k -> accounted d3 d4 ->
  binv inp ct d past gone k T0 T -> length T' = L -> (solo = true -> early inp d3 curr2 T T') ->
  binv inp ct d4 (curr2 ++ past) gone (Datatypes.S k) T0 T'.
Proof.
  intros HL Hprev Hnx HM HS HE HC HB HLT HT.
  assert (Hdone : forall id, In id (rev curr2 ++ []) <-> In id curr2) by (intros id; rewrite app_nil_r, <- in_rev; tauto).
  assert (HA := li_arena _ _ _ _ _ _ _ HL).
  assert (H03 : forall id n, get_node d id = Some n -> ~ In id curr1 -> exists n3, get_node d3 id = Some n3 /\ samenode n n3).
  { intros id n Hg Hn. apply (st_nodes _ _ _ (md_stable _ _ _ _ _ _ _ HM) id n Hg Hn). }
  assert (Hpc1 : forall p, In p past -> ~ In p curr1) by (intros p Hp H; apply (li_disj _ _ _ _ _ _ _ HL p Hp), Hnx; auto).
  assert (Hpc2 : forall p, In p past -> ~ In p curr2) by (intros p Hp H; apply (lo_node _ _ _ _ (md_layer _ _ _ _ _ _ _ HM) p H); exact Hp).
  assert (Hpr : forall p, In p past -> exists pn, get_node d p = Some pn) by (intros p Hp; apply get_some, (a_past _ _ _ HA p Hp)).
  assert (H34 : forall id n3, get_node d3 id = Some n3 -> ~ In id curr2 -> exists n4, get_node d4 id = Some n4 /\ samenode n3 n4).
  { intros id n3 G3 H. destruct (ex_old _ _ _ _ _ _ _ _ HE id n3 G3) as (n4 & G4 & _ & S4 & _). exists n4. split; [exact G4|]. apply S4. rewrite Hdone. exact H. }
  assert (H04 : forall id n, get_node d id = Some n -> ~ In id curr1 -> ~ In id curr2 -> exists n4, get_node d4 id = Some n4 /\ samenode n n4).
  { intros id n Hg H1 H2. destruct (H03 id n Hg H1) as (n3 & G3 & S3). destruct (H34 id n3 G3 H2) as (n4 & G4 & S4). exists n4. split; [exact G4|]. eapply samenode_trans; eassumption. }
  assert (Hg2 : forall g, In g gone -> ~ In g curr1 /\ ~ In g curr2).
  { intros g Hg. destruct (li_gone _ _ _ _ _ _ _ HL g Hg) as (H1 & H2 & gn & Gg & _). split; [intros H; apply H2, Hnx; exact H|].
    intros H. destruct (md_incl _ _ _ _ _ _ _ HM g H) as [H'|H']; [apply H2, Hnx; auto|]. apply get_lt in Gg. lia. }
  destruct (ex_rest _ _ _ _ _ _ _ _ HE) as [rp rc rl rb re ra].
  assert (rct := ex_ctype _ _ _ _ _ _ _ _ HE). assert (sct := st_ctype _ _ _ (md_stable _ _ _ _ _ _ _ HM)).
  constructor.
  - exact HLT.
  - intros p pn Hp Gp. apply in_app_iff in Hp as [Hp|Hp].
    + destruct (lo_node _ _ _ _ (md_layer _ _ _ _ _ _ _ HM) p Hp) as (_ & _ & n3 & G3 & D3 & [[F1 F2] F3]).
      destruct (ex_old _ _ _ _ _ _ _ _ HE p n3 G3) as (n4 & G4 & C4 & _ & S4). assert (n4 = pn) as -> by congruence. destruct (S4 ltac:(apply Hdone, Hp)) as [z1 z2 z3 z4 z5 z6].
      split; [split; congruence|]. rewrite (ce_state _ _ C4), (ce_value _ _ C4). destruct z6 as [(H1 & H2 & _)|(H1 & H2)]; [left; split; [exact H1|congruence]|right; auto].
    + destruct (Hpr p Hp) as (pn0 & G0). destruct (H04 p pn0 G0 (Hpc1 p Hp) (Hpc2 p Hp)) as (n4 & G4 & S4). assert (n4 = pn) as -> by congruence.
      destruct (bi_past _ _ _ _ _ _ _ _ HB p pn0 Hp G0) as [[F1 F2] F3]. destruct S4 as [[] ? ? ? ? ? ?]. split; [split; congruence|]. rewrite ce_state, ce_value, sn_theta. exact F3.
  - intros g gn Hg Gg. destruct (li_gone _ _ _ _ _ _ _ HL g Hg) as (_ & _ & gn0 & G0 & _). destruct (Hg2 g Hg) as [H1 H2]. destruct (H04 g gn0 G0 H1 H2) as (n4 & G4 & S4).
    assert (n4 = gn) as -> by congruence. destruct (bi_gone _ _ _ _ _ _ _ _ HB g gn0 Hg G0) as (F1 & F2 & F3 & F4 & F5). destruct S4 as [[] ? ? ? ? ? ?].
    rewrite ce_depth, sn_deleted, sn_barrier, ce_value, sn_theta, ce_state. auto.
  - intros Hty id n4 G4. destruct HC as [_ HC]. destruct (HC id) as [Hid|Hid]; [apply get_lt in G4; exact G4| |auto].
    destruct (get_some d3 id Hid) as [n3 G3]. destruct (in_dec Nat.eq_dec id curr2) as [Hc2|Hc2]; [left; apply in_app_iff; auto|].
    destruct (H34 id n3 G3 Hc2) as (n4' & G4' & S4). assert (n4' = n4) as -> by congruence.
    destruct (sh_rest _ _ _ _ _ _ HS Hty id n3 G3) as [H|[H1 H2]]; [contradiction|]. destruct (in_dec Nat.eq_dec id curr1) as [Hc1|Hc1].
    { right. right. right. rewrite (sn_deleted _ _ S4). auto. }
    destruct (get_some d id H1) as [n G0]. destruct (H03 id n G0 Hc1) as (n3' & G3' & S3). assert (n3' = n3) as -> by congruence.
    destruct (bi_rest _ _ _ _ _ _ _ _ HB Hty id n G0) as [H|[H|[H|H]]].
    + left. apply in_app_iff. auto.
    + exfalso. apply Hc1, Hnx, H.
    + auto.
    + right. right. right. rewrite (sn_deleted _ _ S4), (sn_deleted _ _ S3). exact H.
  - intros Hty Hct. destruct (bi_lel _ _ _ _ _ _ _ _ HB Hty Hct) as [B1 B2]. assert (Hctd : g_ctype d = LastExactLayer) by (rewrite (li_ctype _ _ _ _ _ _ _ HL); exact Hct).
    rewrite ra, rl, rc. assert (Hcp := a_cutpast _ _ _ (md_arena _ _ _ _ _ _ _ HM)).
    assert (Hq4 : forall q qn, In q past -> get_node d4 q = Some qn -> exists q0, get_node d q = Some q0 /\ n_depth qn = n_depth q0).
    { intros q qn Hq Gq. destruct (Hpr q Hq) as (q0 & G0). destruct (H04 q q0 G0 (Hpc1 q Hq) (Hpc2 q Hq)) as (n4 & G4 & [[] _ _ _ _ _ _]). exists q0. split; [exact G0|congruence]. }
    destruct (sh_lel _ _ _ _ _ _ HS Hty) as [[S1 S2]|(_ & S2 & S3 & S4)].
    + rewrite (S2 Hctd), S1. split; [exact B1|]. intros q qn Hq Gq. destruct (Hq4 q qn (Hcp q Hq) Gq) as (q0 & G0 & ->). apply (B2 q q0); [|exact G0].
      destruct (md_cut _ _ _ _ _ _ _ HM) as [[Hc _]|(_ & _ & M3 & M4 & _)]; [rewrite <- Hc; exact Hq|]. rewrite (S2 Hctd) in M4. congruence.
    + split; [congruence|]. intros q qn Hq Gq. destruct (md_cut _ _ _ _ _ _ _ HM) as [[_ Hc]|(_ & _ & _ & _ & M5 & _)]; [specialize (Hc S3 Hty Hctd); congruence|].
      assert (Hqp := Hcp q Hq). rewrite M5, (li_nocut _ _ _ _ _ _ _ HL (or_introl S2)) in Hq. cbn [app] in Hq. rewrite Hprev in *.
      destruct (Hq4 q qn Hqp Gq) as (q0 & G0 & ->). apply (S4 (n_depth q0)); [intros ->; destruct Hq|]. intros c Hc. destruct (Hpr c) as (cn & Gc); [apply (li_currin _ _ _ _ _ _ _ HL); exact Hc|].
      exists cn. split; [exact Gc|]. apply (li_curr _ _ _ _ _ _ _ HL c cn Gc) in Hc. apply (li_curr _ _ _ _ _ _ _ HL q q0 G0) in Hq. lia.
  - intros Hs depth s. destruct (HT Hs depth s) as [E|W].
    + destruct (bi_tab _ _ _ _ _ _ _ _ HB Hs depth s) as [E'|W]; [left; congruence|right]. assert (Hdep : (depth < k)%nat).
      { destruct W as (_ & id & n & H1 & H2 & <- & _). apply (li_depth _ _ _ _ _ _ _ HL id n H1 H2). }
      assert (Hty : i_type inp = Relaxed) by apply W. eapply written_mono; [exact W|apply incl_appr, incl_refl| | |exact E].
      * intros id n Hid Gn. destruct (H04 id n Gn (Hpc1 id Hid) (Hpc2 id Hid)) as (n4 & G4 & S4). exists n4. split; [exact G4|apply S4].
      * intros Hct l Hl. rewrite rct, sct in Hct. rewrite rl in Hl. assert (Hctx : ct = LastExactLayer) by (rewrite <- (li_ctype _ _ _ _ _ _ _ HL); exact Hct).
        destruct (sh_lel _ _ _ _ _ _ HS Hty) as [[S1 S2]|(_ & S2 & S3 & S4)]; [right; split; congruence|left].
        destruct (md_cut _ _ _ _ _ _ _ HM) as [[_ Hc]|(_ & _ & _ & _ & M5 & _)]; [specialize (Hc S3 Hty Hct); congruence|].
        destruct W as (_ & id & n & H1 & H2 & _).
        destruct (g_prev d) as [|q qs] eqn:Eq.
        { exfalso. assert (H : g_cutset d4 <> []).
          { destruct (md_cut _ _ _ _ _ _ _ HM) as [[_ Hc]|(_ & _ & _ & _ & _ & M6 & M7)]; [specialize (Hc S3 Hty Hct); congruence|].
            destruct curr1 as [|m l1] eqn:Ec; [congruence|]. assert (Hm : In m (nextids d)) by (apply Hnx; left; reflexivity).
            destruct (li_layer _ _ _ _ _ _ _ HL m Hm) as (mn & Gm & Dm). assert (Hok := a_nodes _ _ _ HA m mn Gm ltac:(discriminate)).
            destruct (no_best _ _ _ _ Hok) as [(_ & _ & _ & _ & _ & D0 & _)|(_ & e & ed & pn & _ & He & Gp & _)]; [lia|].
            destruct (no_edges _ _ _ _ (no_base _ _ _ _ Hok) e ed He) as [Hp _ _ (pn' & Gp' & D1 & _)]. assert (pn' = pn) as -> by congruence.
            assert (Hi : In (e_from ed) curr) by (apply (li_curr _ _ _ _ _ _ _ HL (e_from ed) pn Gp); split; [exact Hp|lia]). rewrite <- Hprev in Hi. destruct Hi. }
          apply H. rewrite rc, M5, app_nil_r. apply (li_nocut _ _ _ _ _ _ _ HL). auto. }
        assert (Hlay : layer_at d (q :: qs) (Nat.pred k)).
        { intros c Hc. rewrite Hprev in Hc. destruct (Hpr c) as (cn & Gc); [apply (li_currin _ _ _ _ _ _ _ HL); exact Hc|]. exists cn. split; [exact Gc|].
          apply (li_curr _ _ _ _ _ _ _ HL c cn Gc) in Hc. lia. }
        assert (g_lel d3 = Some (Nat.pred k)) by (apply S4; [discriminate|exact Hlay]). assert (l = Nat.pred k) by congruence. lia.
    + right. eapply written_mono; [exact W|apply incl_appl, incl_refl| | |reflexivity].
      * intros id n Hid Gn. destruct (ex_old _ _ _ _ _ _ _ _ HE id n Gn) as (n4 & G4 & C4 & _). eauto.
      * intros Hct l Hl. right. split; congruence.
Qed.

Lemma layer_step_ok orc inp ct d past gone curr k T0 T : linv inp ct d past gone curr k -> binv inp ct d past gone k T0 T ->
  iters orc -> sorts orc -> i_pb inp = P -> i_rx inp = R ->
  (0 < i_width inp)%nat -> (k < N)%nat -> g_next d <> [] -> (i_type inp = Relaxed -> forall s i, G k s i) ->
  wp (layer_step eqb orc inp k0 k (nv k) d curr) T (fun '(d4, c) T' => exists curr2 gone',
    c = Some curr2 /\ linv inp ct d4 (curr2 ++ past) gone' curr2 (Datatypes.S k) /\ binv inp ct d4 (curr2 ++ past) gone' (Datatypes.S k) T0 T' /\
    ((length (g_next d) <= i_width inp)%nat -> g_approx d4 = g_approx d)).
Proof.
  intros HL HB Hit Hso Hpb Hrx Hw Hk Hne HG. unfold layer_step.
  set (d1 := set_prev d curr). assert (HL1 : linv inp ct d1 past gone curr k) by (apply linv_set_prev; exact HL).
  assert (HB1 : binv inp ct d1 past gone k T0 T) by (apply binv_set_prev; exact HB).
  set (curr1 := map snd (o_iter orc (3 * k + 1) (g_next d1))).
  assert (Hperm : Permutation (nextids d1) curr1) by (apply Permutation_map, Hit).
  assert (Hin : forall id, In id (nextids d1) <-> In id curr1) by (intros id; split; intros H; [eapply Permutation_in; eauto|eapply Permutation_in; [apply Permutation_sym; exact Hperm|exact H]]).
  assert (Hnd : NoDup curr1) by (eapply Permutation_NoDup; [exact Hperm|eapply nextids_nodup; apply HL1]).
  assert (Hc1 : curr1 <> []).
  { intros H. rewrite H in Hperm. apply Permutation_sym, Permutation_nil in Hperm. unfold nextids in Hperm. apply map_eq_nil in Hperm. apply Hne. exact Hperm. }
  cbv zeta. replace (match curr1 with [] => Ret (set_next d1 [], None) | _ :: _ => _ end) with
    (prg '(d3, curr2) <- prune k0 k (set_next d1 []) curr1;
      prg '(d4, curr3) <- pure (shrink eqb orc inp k0 k d3 curr2);
      prg d5 <- pfold (expand_one eqb inp (nv k) k) curr3 d4;
      Ret (d5, Some curr3)) by (destruct curr1; [congruence|reflexivity]).
  apply wp_bind. eapply wp_mono; [|apply prune_ok; [lia|apply HB|exact Hnd|]].
  2:{ intros id Hid. apply Hin in Hid. destruct (li_layer _ _ _ _ _ _ _ HL1 id Hid) as (n & Gn & _). eauto. }
  intros [d3 curr2] T1 (HT1 & HS1 & HP & Hk0). cbv beta iota.
  set (dQ := pruned_dd d1 d3 curr2). set (gone' := cut_ids curr1 curr2 ++ gone).
  assert (HLQ : linv inp ct dQ past gone' curr k) by (eapply linv_prune; eassumption).
  assert (HBQ : binv inp ct dQ past gone' k T0 T1) by (eapply binv_prune; eassumption).
  assert (HnQ : forall id, In id (nextids dQ) <-> In id curr2) by (apply (pruned_nextids d1 d3 curr1 curr2); [apply HP|exact Hin]).
  assert (EQ : set_next dQ [] = d3). { unfold dQ, pruned_dd. rewrite (pr_frame _ _ _ _ _ _ HP). reflexivity. }
  assert (Eprev : g_prev dQ = curr). { unfold dQ, pruned_dd. rewrite (pr_frame _ _ _ _ _ _ HP). reflexivity. }
  destruct (shrink_ok orc inp ct dQ past gone' curr k curr2 HLQ) as (d4 & curr3 & E4 & HM & HS); auto.
  { intros x Hx. apply HnQ, Hx. }
  { apply HP. }
  { rewrite Eprev. apply HLQ. }
  rewrite EQ in E4.
  assert (Hfit : (length (g_next d) <= i_width inp)%nat -> g_approx d4 = g_approx d).
  { intros Hlen. assert (H1 : length curr1 = length (g_next d)) by (transitivity (length (nextids d1)); [symmetry; apply Permutation_length, Hperm|apply map_length]).
    assert (H2 : (length curr2 <= length curr1)%nat) by (apply NoDup_incl_length; apply HP).
    assert (Hlt : (i_width inp <? length curr2)%nat = false) by (apply Nat.ltb_ge; lia).
    unfold shrink in E4. rewrite Hlt in E4. cbn [andb] in E4. assert (d4 = d3) as -> by (destruct (i_type inp); congruence). rewrite (pr_frame _ _ _ _ _ _ HP). reflexivity. }
  rewrite E4. cbn [pure pbind].
  pose proof (expanding_init VBarrier (i_lb inp) d4 past curr3 k (md_arena _ _ _ _ _ _ _ HM) (md_next _ _ _ _ _ _ _ HM) (md_layer _ _ _ _ _ _ _ HM)) as HE0.
  apply wp_bind. eapply wp_mono; [|eapply (expand_all_ok inp d4 past curr3 k T1 (md_layer _ _ _ _ _ _ _ HM) Hk Hpb (a_cutpast _ _ _ (md_arena _ _ _ _ _ _ _ HM)) HG curr3 [] d4 T1 HE0 (incl_refl _))].
  2:{ rewrite app_nil_r. apply (md_layer _ _ _ _ _ _ _ HM). }
  2:{ exact HT1. }
  2:{ intros _ depth s. auto. }
  intros d5 T2 (HE & HT2 & HS2 & HC). cbn [wp]. exists curr3, gone'. split; [reflexivity|]. split.
  - change gone' with ([] ++ gone'). eapply linv_step with (d := dQ) (curr1 := curr2) (newgone := []); [exact HLQ|exact Hk|exact Eprev| |intros id _ []|exact HM|exact HE|].
    + intros id. rewrite HnQ. cbn. tauto.
    + destruct (li_root _ _ _ _ _ _ _ HL1) as [H|(Hkk & Hnx & _ & _)]; [auto|right].
      assert (Hc : curr1 = [0%nat]).
      { unfold nextids in Hperm. rewrite Hnx in Hperm. cbn in Hperm. apply Permutation_length_1_inv in Hperm. exact Hperm. }
      destruct (Hk0 ltac:(lia)) as [H2 _]. rewrite (sh_root _ _ _ _ _ _ HS Hkk); [left; reflexivity|congruence].
  - split; [|intros Hlen; rewrite (sr_approx _ _ (ex_rest _ _ _ _ _ _ _ _ HE)); exact (Hfit Hlen)].
    eapply (binv_step inp ct dQ d4 d5 past gone' curr curr2 curr3 k T0 T1 T2); try eassumption. intros Hs. specialize (HS2 Hs).
    eapply early_incl; [|exact HS2]. intros x Hx. rewrite app_nil_r, <- in_rev in Hx. exact Hx.
Qed.

(** No layer made of exact nodes exceeds the maximum width. *)
Definition fits (inp : input S) (ct : cutset_type) : Prop :=
  forall d past gone curr k, linv inp ct d past gone curr k -> g_approx d = false -> (length (g_next d) <= i_width inp)%nat.

Lemma layers_ok orc inp ct T0 : iters orc -> sorts orc -> i_pb inp = P -> i_rx inp = R -> (0 < i_width inp)%nat ->
  (i_type inp = Relaxed -> forall k s i, (k0 <= k)%nat -> G k s i) ->
  forall fuel d past gone curr k T, linv inp ct d past gone curr k -> binv inp ct d past gone k T0 T -> (N - k < fuel)%nat ->
  wp (layers eqb fuel orc inp k0 k d curr) T (fun '(dF, b) T' => b = false /\ exists pastF goneF currF kF,
    linv inp ct dF pastF goneF currF kF /\ binv inp ct dF pastF goneF kF T0 T' /\ (g_next dF = [] \/ kF = N) /\
    (fits inp ct -> g_approx d = false -> g_approx dF = false)).
Proof.
  intros Hit Hso Hpb Hrx Hw HG. induction fuel as [|fuel IH]; intros d past gone curr k T HL HB Hf; [lia|].
  cbn [layers]. rewrite Hpb. set (states := map fst (o_iter orc (3 * k) (g_next d))).
  assert (Hperm : Permutation (map fst (g_next d)) states) by (apply Permutation_map, Hit).
  assert (HA := li_arena _ _ _ _ _ _ _ HL).
  assert (Hat : Forall (at_depth k) states).
  { apply Forall_forall. intros s Hs. apply (Permutation_in _ (Permutation_sym Hperm)) in Hs. apply in_map_iff in Hs as ([s' id] & Heq & Hs). cbn in Heq. subst s'.
    destruct (a_next _ _ _ HA s id Hs) as (n & Gn & <- & _). destruct (li_layer _ _ _ _ _ _ _ HL id) as (n' & G' & D); [apply nextids_in; eauto|]. assert (n' = n) as -> by congruence.
    rewrite <- D. apply (no_base _ _ _ _ (a_nodes _ _ _ HA id n Gn ltac:(discriminate))). }
  destruct (g_next d) as [|p m] eqn:En.
  - cbn in Hperm. apply Permutation_nil in Hperm. rewrite Hperm, (wf_next_empty _ _ _ _ Hwf). cbn [wp]. split; [reflexivity|]. exists past, gone, curr, k. auto 6.
  - assert (Hne : states <> []) by (intros H; rewrite H in Hperm; apply Permutation_sym, Permutation_nil in Hperm; discriminate).
    pose proof (li_range _ _ _ _ _ _ _ HL) as Hr. destruct (Nat.eq_dec k N) as [HkN|HkN].
    + rewrite HkN in Hat. rewrite (wf_last _ _ _ _ Hwf states Hne Hat). cbn [wp]. split; [reflexivity|]. exists past, gone, curr, k. auto 6.
    + rewrite (wf_next _ _ _ _ Hwf k states Hne Hat) by lia.
      apply wp_bind. eapply wp_mono; [|eapply (layer_step_ok orc inp ct d past gone curr k T0 T); eauto; [lia|congruence|intros H s i; apply HG; [exact H|lia]]].
      intros [d4 c] T' (curr2 & gone' & -> & HL4 & HB4 & Hap). eapply wp_mono; [|eapply IH; [exact HL4|exact HB4|lia]].
      intros [dF r] T2 (-> & pF & gF & cF & kF & h1 & h2 & h3 & h4). split; [reflexivity|]. exists pF, gF, cF, kF. do 3 (split; [assumption|]). intros Hfit Ha. apply h4; [exact Hfit|].
      rewrite Hap; [exact Ha|]. rewrite En in *. pose proof (Hfit d past gone curr k HL Ha) as Hl. rewrite En in Hl. exact Hl.
Qed.

Lemma root_binv debug inp d d0 T : root_dd debug inp d = Some d0 -> length T = L ->
  binv inp (g_ctype d) d0 [] [] k0 T T.
Proof.
  intros H HT. unfold root_dd in H. destruct (sub_isize debug _ _) as [rub|]; [|discriminate].
  cbn [obind dd_clear g_root_pa g_nodes g_edges g_prev g_next g_cutset g_lel g_best g_exact g_approx g_ctype g_explored app] in H. inversion H; subst d0. clear H. constructor.
  - exact HT.
  - intros p pn [].
  - intros g gn [].
  - intros _ id n Hn. unfold get_node in Hn. cbn in Hn. destruct id as [|[|id]]; cbn in Hn; try discriminate. right. left. left. reflexivity.
  - intros _ _. split; [reflexivity|]. intros q qn [].
  - intros _ depth s. auto.
Qed.
End Facts.
