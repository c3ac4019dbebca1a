(** Compilation of a decision diagram by src/mdd/with_all.rs. *)
From Verif Require Import Spec Dd FlagsFacts MatrixFacts MddAll DdFacts DdRelax DdExpand DdLoop DdFinal MddAllBounds.
From Coq Require Import ZifyNat.
Open Scope Z_scope.

Section Facts.
Variable S : Type.
Variable eqb : S -> S -> bool.
Hypothesis eqb_spec : forall a b, eqb a b = true <-> a = b.
Variable P : problem S.
Variable R : relaxation S.
Variable at_depth : nat -> S -> Prop.
Variable nv : nat -> nat.
Variable C : Z.
Hypothesis Hwf : wf_problem S P at_depth nv.
Hypothesis Hvr : relaxation_depth S P at_depth R.
Hypothesis Hbd : bounded S P at_depth nv R C.
Variable k0 : nat.
Variable sp : subproblem S.
Notation N := (pb_nb_vars P).
Notation node := (node S).
Notation dd := (dd S).
Local Notation vbound := (@DdFacts.vbound C).
Local Notation valid_root := (@DdFacts.valid_root S P at_depth C k0 sp).
Local Notation nextids := (@DdFacts.nextids S).
Local Notation vbound_range := (@DdFacts.vbound_range S P R at_depth nv C Hbd).
Local Notation vbound_step := (@DdFacts.vbound_step S P R at_depth nv C Hbd).
Local Notation coreeq := (@DdFacts.coreeq S).
Local Notation samenode := (@DdFacts.samenode S).
Local Notation coreeq_refl := (@DdFacts.coreeq_refl S).
Local Notation samenode_refl := (@DdFacts.samenode_refl S).
Local Notation coreeq_trans := (@DdFacts.coreeq_trans S).
Local Notation samenode_trans := (@DdFacts.samenode_trans S).
Local Notation stable := (@DdFacts.stable S).
Local Notation stable_refl := (@DdFacts.stable_refl S).
Local Notation stable_trans := (@DdFacts.stable_trans S k0).
Local Notation stable_weaken := (@DdFacts.stable_weaken S).
Local Notation edge_ok := (@DdFacts.edge_ok S P nv C).
Local Notation orig_edge := (@DdFacts.orig_edge S P).
Local Notation orig_all := (@DdFacts.orig_all S P).
Local Notation is_root := (@DdFacts.is_root S k0 sp).
Local Notation best_ok := (@DdFacts.best_ok S P k0 sp).
Local Notation node_base := (@DdFacts.node_base S P at_depth nv C k0).
Local Notation node_ok := (@DdFacts.node_ok S P at_depth nv C k0 sp).
Local Notation cleanf := (@DdFacts.cleanf S).
Local Notation clean := (@DdFacts.clean S).
Local Notation arena := (@DdFacts.arena S P at_depth nv C k0 sp).
Local Notation layer_at := (@DdFacts.layer_at S).
Local Notation get_lt := (@DdFacts.get_lt S).
Local Notation get_some := (@DdFacts.get_some S).
Local Notation upd_node_spec := (@DdFacts.upd_node_spec S).
Local Notation orig_edge_mono := (@DdFacts.orig_edge_mono S P).
Local Notation edge_ok_mono := (@DdFacts.edge_ok_mono S P nv C).
Local Notation past_frozen := (@DdFacts.past_frozen S).
Local Notation node_base_mono := (@DdFacts.node_base_mono S P at_depth nv C k0).
Local Notation best_ok_mono := (@DdFacts.best_ok_mono S P at_depth nv C k0 sp).
Local Notation node_ok_mono := (@DdFacts.node_ok_mono S P at_depth nv C k0 sp).
Local Notation orig_all_mono := (@DdFacts.orig_all_mono S P at_depth nv C k0).
Local Notation stable_past := (@DdFacts.stable_past S).
Local Notation next_get_in := (@DdFacts.next_get_in S eqb eqb_spec).
Local Notation next_get_none := (@DdFacts.next_get_none S eqb eqb_spec).
Local Notation nextids_in := (@DdFacts.nextids_in S).
Local Notation all_exact := (@DdFacts.all_exact S).
Local Notation grows := (@DdFacts.grows S).
Local Notation grows_refl := (@DdFacts.grows_refl S).
Local Notation nextids_incl := (@DdFacts.nextids_incl S).
Local Notation grows_trans := (@DdFacts.grows_trans S).
Local Notation same_rest := (@DdFacts.same_rest S).
Local Notation same_rest_refl := (@DdFacts.same_rest_refl S).
Local Notation same_rest_trans := (@DdFacts.same_rest_trans S).
Local Notation has_edge := (@DdFacts.has_edge S P).
Local Notation has_edge_grows := (@DdFacts.has_edge_grows S P).
Local Notation branch_spec := (@DdFacts.branch_spec S eqb eqb_spec P R at_depth nv C Hwf Hbd k0 sp).
Local Notation vr_path := (@DdFacts.vr_path S P at_depth C k0 sp).
Local Notation vr_le := (@DdFacts.vr_le S P at_depth C k0 sp).
Local Notation vr_at := (@DdFacts.vr_at S P at_depth C k0 sp).
Local Notation vr_val := (@DdFacts.vr_val S P at_depth C k0 sp).
Local Notation ce_state := (@DdFacts.ce_state S).
Local Notation ce_value := (@DdFacts.ce_value S).
Local Notation ce_best := (@DdFacts.ce_best S).
Local Notation ce_inb := (@DdFacts.ce_inb S).
Local Notation ce_depth := (@DdFacts.ce_depth S).
Local Notation ce_exact := (@DdFacts.ce_exact S).
Local Notation ce_relaxed := (@DdFacts.ce_relaxed S).
Local Notation sn_core := (@DdFacts.sn_core S).
Local Notation sn_rub := (@DdFacts.sn_rub S).
Local Notation sn_theta := (@DdFacts.sn_theta S).
Local Notation sn_bot := (@DdFacts.sn_bot S).
Local Notation sn_marked := (@DdFacts.sn_marked S).
Local Notation sn_deleted := (@DdFacts.sn_deleted S).
Local Notation sn_barrier := (@DdFacts.sn_barrier S).
Local Notation st_edges := (@DdFacts.st_edges S).
Local Notation st_len := (@DdFacts.st_len S).
Local Notation st_nodes := (@DdFacts.st_nodes S).
Local Notation st_root := (@DdFacts.st_root S).
Local Notation st_ctype := (@DdFacts.st_ctype S).
Local Notation eo_past := (@DdFacts.eo_past S P nv C).
Local Notation eo_lt := (@DdFacts.eo_lt S P nv C).
Local Notation eo_cost := (@DdFacts.eo_cost S P nv C).
Local Notation eo_parent := (@DdFacts.eo_parent S P nv C).
Local Notation no_depth := (@DdFacts.no_depth S P at_depth nv C k0).
Local Notation no_at := (@DdFacts.no_at S P at_depth nv C k0).
Local Notation no_head := (@DdFacts.no_head S P at_depth nv C k0).
Local Notation no_edges := (@DdFacts.no_edges S P at_depth nv C k0).
Local Notation no_marked := (@DdFacts.no_marked S P at_depth nv C k0).
Local Notation no_bot := (@DdFacts.no_bot S P at_depth nv C k0).
Local Notation no_base := (@DdFacts.no_base S P at_depth nv C k0 sp).
Local Notation no_val := (@DdFacts.no_val S P at_depth nv C k0 sp).
Local Notation no_best := (@DdFacts.no_best S P at_depth nv C k0 sp).
Local Notation a_edges := (@DdFacts.a_edges S P at_depth nv C k0 sp).
Local Notation a_len := (@DdFacts.a_len S P at_depth nv C k0 sp).
Local Notation a_nodes := (@DdFacts.a_nodes S P at_depth nv C k0 sp).
Local Notation a_past := (@DdFacts.a_past S P at_depth nv C k0 sp).
Local Notation a_lt := (@DdFacts.a_lt S P at_depth nv C k0 sp).
Local Notation a_keys := (@DdFacts.a_keys S P at_depth nv C k0 sp).
Local Notation a_next := (@DdFacts.a_next S P at_depth nv C k0 sp).
Local Notation a_cut := (@DdFacts.a_cut S P at_depth nv C k0 sp).
Local Notation a_cutpast := (@DdFacts.a_cutpast S P at_depth nv C k0 sp).
Local Notation a_root := (@DdFacts.a_root S P at_depth nv C k0 sp).
Local Notation gr_incl := (@DdFacts.gr_incl S).
Local Notation gr_fresh := (@DdFacts.gr_fresh S).
Local Notation gr_nodes := (@DdFacts.gr_nodes S).
Local Notation sr_prev := (@DdFacts.sr_prev S).
Local Notation sr_cut := (@DdFacts.sr_cut S).
Local Notation sr_lel := (@DdFacts.sr_lel S).
Local Notation sr_best := (@DdFacts.sr_best S).
Local Notation sr_exact := (@DdFacts.sr_exact S).
Local Notation sr_approx := (@DdFacts.sr_approx S).
Local Notation chg := (@DdRelax.chg S).
Local Notation chg_refl := (@DdRelax.chg_refl S).
Local Notation chg_trans := (@DdRelax.chg_trans S).
Local Notation chg_weaken := (@DdRelax.chg_weaken S).
Local Notation chg_frozen := (@DdRelax.chg_frozen S).
Local Notation upd_node_chg := (@DdRelax.upd_node_chg S).
Local Notation mok := (@DdRelax.mok S P at_depth nv C k0 sp).
Local Notation chain_ok := (@DdRelax.chain_ok S P nv).
Local Notation arena_chg := (@DdRelax.arena_chg S P at_depth nv C k0 sp).
Local Notation chain_ok_mono := (@DdRelax.chain_ok_mono S P nv).
Local Notation arena_touch := (@DdRelax.arena_touch S P at_depth nv C k0 sp).
Local Notation mok_mono := (@DdRelax.mok_mono S P at_depth nv C k0 sp).
Local Notation redirected := (@DdRelax.redirected S R).
Local Notation redirect_spec := (@DdRelax.redirect_spec S P R at_depth nv C Hbd k0 sp).
Local Notation dropped := (@DdRelax.dropped S).
Local Notation drop_fold := (@DdRelax.drop_fold S P R at_depth nv C Hbd k0 sp).
Local Notation arena_tmp := (@DdRelax.arena_tmp S P at_depth nv C k0 sp).
Local Notation arena_tmp_close := (@DdRelax.arena_tmp_close S P at_depth nv C k0 sp).
Local Notation arena_ext := (@DdRelax.arena_ext S P at_depth nv C k0 sp).
Local Notation mark_spec := (@DdRelax.mark_spec S P at_depth nv C k0 sp).
Local Notation mark_fold := (@DdRelax.mark_fold S P at_depth nv C k0 sp).
Local Notation layer_ok := (@DdRelax.layer_ok S).
Local Notation sorts := (@DdRelax.sorts S).
Local Notation map_states_some := (@DdRelax.map_states_some S).
Local Notation map_states_in := (@DdRelax.map_states_in S).
Local Notation kept := (@DdRelax.kept S).
Local Notation merged_into := (@DdRelax.merged_into S R at_depth).
Local Notation relax_spec := (@DdRelax.relax_spec S eqb eqb_spec P R at_depth nv C Hvr Hbd k0 sp).
Local Notation cg_edges := (@DdRelax.cg_edges S).
Local Notation cg_len := (@DdRelax.cg_len S).
Local Notation cg_nodes := (@DdRelax.cg_nodes S).
Local Notation cg_rest := (@DdRelax.cg_rest S).
Local Notation cg_next := (@DdRelax.cg_next S).
Local Notation cg_root := (@DdRelax.cg_root S).
Local Notation cg_ctype := (@DdRelax.cg_ctype S).
Local Notation cg_expl := (@DdRelax.cg_expl S).
Local Notation mk_base := (@DdRelax.mk_base S P at_depth nv C k0 sp).
Local Notation mk_state := (@DdRelax.mk_state S P at_depth nv C k0 sp).
Local Notation mk_depth := (@DdRelax.mk_depth S P at_depth nv C k0 sp).
Local Notation mk_rel := (@DdRelax.mk_rel S P at_depth nv C k0 sp).
Local Notation mk_clean := (@DdRelax.mk_clean S P at_depth nv C k0 sp).
Local Notation mk_cut := (@DdRelax.mk_cut S P at_depth nv C k0 sp).
Local Notation mk_cases := (@DdRelax.mk_cases S P at_depth nv C k0 sp).
Local Notation lo_nodup := (@DdRelax.lo_nodup S).
Local Notation lo_node := (@DdRelax.lo_node S).
Local Notation restrict_spec := (@DdExpand.restrict_spec S P at_depth nv C k0 sp).
Local Notation arena_past := (@DdExpand.arena_past S P at_depth nv C k0 sp).
Local Notation doneok := (@DdExpand.doneok S P nv).
Local Notation expanding := (@DdExpand.expanding S P at_depth nv C k0 sp).
Local Notation expanding_init := (@DdExpand.expanding_init S P at_depth nv C k0 sp).
Local Notation has_edge_state := (@DdExpand.has_edge_state S P).
Local Notation doneok_grows := (@DdExpand.doneok_grows S P nv).
Local Notation branch_fold := (@DdExpand.branch_fold S eqb eqb_spec P R at_depth nv C Hwf Hbd k0 sp).
Local Notation expand_step := (@DdExpand.expand_step S eqb eqb_spec P R at_depth nv C Hwf Hbd k0 sp).
Local Notation expand_fold := (@DdExpand.expand_fold S eqb eqb_spec P R at_depth nv C Hwf Hbd k0 sp).
Local Notation dn_rub := (@DdExpand.dn_rub S P nv).
Local Notation dn_bot := (@DdExpand.dn_bot S P nv).
Local Notation dn_marked := (@DdExpand.dn_marked S P nv).
Local Notation dn_deleted := (@DdExpand.dn_deleted S P nv).
Local Notation dn_barrier := (@DdExpand.dn_barrier S P nv).
Local Notation dn_cases := (@DdExpand.dn_cases S P nv).
Local Notation ex_arena := (@DdExpand.ex_arena S P at_depth nv C k0 sp).
Local Notation ex_layer := (@DdExpand.ex_layer S P at_depth nv C k0 sp).
Local Notation ex_fresh := (@DdExpand.ex_fresh S P at_depth nv C k0 sp).
Local Notation ex_rest := (@DdExpand.ex_rest S P at_depth nv C k0 sp).
Local Notation ex_edges := (@DdExpand.ex_edges S P at_depth nv C k0 sp).
Local Notation ex_len := (@DdExpand.ex_len S P at_depth nv C k0 sp).
Local Notation ex_root := (@DdExpand.ex_root S P at_depth nv C k0 sp).
Local Notation ex_ctype := (@DdExpand.ex_ctype S P at_depth nv C k0 sp).
Local Notation ex_old := (@DdExpand.ex_old S P at_depth nv C k0 sp).
Local Notation ex_exact := (@DdExpand.ex_exact S P at_depth nv C k0 sp).
Local Notation ex_expl := (@DdExpand.ex_expl S P at_depth nv C k0 sp).
Local Notation iters := (@DdLoop.iters S).
Local Notation child_ok := (@DdLoop.child_ok S P R at_depth).
Local Notation expd := (@DdLoop.expd S P R at_depth nv).
Local Notation linv := (@DdLoop.linv S P R at_depth nv C k0 sp).
Local Notation mid := (@DdLoop.mid S P R at_depth nv C k0 sp).
Local Notation linv_step := (@DdLoop.linv_step S P R at_depth nv C k0 sp).
Local Notation li_arena := (@DdLoop.li_arena S P R at_depth nv C k0 sp).
Local Notation li_layer := (@DdLoop.li_layer S P R at_depth nv C k0 sp).
Local Notation li_range := (@DdLoop.li_range S P R at_depth nv C k0 sp).
Local Notation li_disj := (@DdLoop.li_disj S P R at_depth nv C k0 sp).
Local Notation li_curr := (@DdLoop.li_curr S P R at_depth nv C k0 sp).
Local Notation li_currin := (@DdLoop.li_currin S P R at_depth nv C k0 sp).
Local Notation li_depth := (@DdLoop.li_depth S P R at_depth nv C k0 sp).
Local Notation li_exp := (@DdLoop.li_exp S P R at_depth nv C k0 sp).
Local Notation li_exact := (@DdLoop.li_exact S P R at_depth nv C k0 sp).
Local Notation li_typ := (@DdLoop.li_typ S P R at_depth nv C k0 sp).
Local Notation li_nocut := (@DdLoop.li_nocut S P R at_depth nv C k0 sp).
Local Notation li_lel := (@DdLoop.li_lel S P R at_depth nv C k0 sp).
Local Notation li_cutexact := (@DdLoop.li_cutexact S P R at_depth nv C k0 sp).
Local Notation li_ctype := (@DdLoop.li_ctype S P R at_depth nv C k0 sp).
Local Notation li_root := (@DdLoop.li_root S P R at_depth nv C k0 sp).
Local Notation li_pastnd := (@DdLoop.li_pastnd S P R at_depth nv C k0 sp).
Local Notation li_width := (@DdLoop.li_width S P R at_depth nv C k0 sp).
Local Notation li_expl := (@DdLoop.li_expl S P R at_depth nv C k0 sp).
Local Notation li_best := (@DdLoop.li_best S P R at_depth nv C k0 sp).
Local Notation li_gone := (@DdLoop.li_gone S P R at_depth nv C k0 sp).
Local Notation li_near := (@DdLoop.li_near S P R at_depth nv C k0 sp).
Local Notation md_arena := (@DdLoop.md_arena S P R at_depth nv C k0 sp).
Local Notation md_next := (@DdLoop.md_next S P R at_depth nv C k0 sp).
Local Notation md_layer := (@DdLoop.md_layer S P R at_depth nv C k0 sp).
Local Notation md_stable := (@DdLoop.md_stable S P R at_depth nv C k0 sp).
Local Notation md_incl := (@DdLoop.md_incl S P R at_depth nv C k0 sp).
Local Notation md_cover := (@DdLoop.md_cover S P R at_depth nv C k0 sp).
Local Notation md_approx := (@DdLoop.md_approx S P R at_depth nv C k0 sp).
Local Notation md_typ := (@DdLoop.md_typ S P R at_depth nv C k0 sp).
Local Notation md_allex := (@DdLoop.md_allex S P R at_depth nv C k0 sp).
Local Notation md_cut := (@DdLoop.md_cut S P R at_depth nv C k0 sp).
Local Notation md_width := (@DdLoop.md_width S P R at_depth nv C k0 sp).
Local Notation md_expl := (@DdLoop.md_expl S P R at_depth nv C k0 sp).
Local Notation md_best := (@DdLoop.md_best S P R at_depth nv C k0 sp).
Local Notation md_near := (@DdLoop.md_near S P R at_depth nv C k0 sp).
Local Notation run_bound := (@DdFinal.run_bound S eqb eqb_spec P R at_depth nv C Hwf Hbd).
Local Notation completion_bound := (@DdFinal.completion_bound S eqb eqb_spec P R at_depth nv C Hwf Hbd).
Local Notation value_bound := (@DdFinal.value_bound S P R at_depth nv C Hbd).
Local Notation run_app := (@DdFinal.run_app S P nv).
Local Notation run_snoc := (@DdFinal.run_snoc S eqb eqb_spec P nv).
Local Notation reach := (@DdFinal.reach S).
Local Notation reach_value := (@DdFinal.reach_value S P at_depth nv C k0 sp).
Local Notation reach_bound := (@DdFinal.reach_bound S P at_depth nv C k0 sp).
Local Notation expd_step := (@DdFinal.expd_step S eqb eqb_spec P R at_depth nv C Hwf Hbd k0 sp).
Local Notation linv_reach := (@DdFinal.linv_reach S eqb eqb_spec P R at_depth nv C Hwf Hbd k0 sp).
Local Notation best_chain := (@DdFinal.best_chain S eqb eqb_spec P at_depth nv C k0 sp).
Local Notation best_path_ok := (@DdFinal.best_path_ok S eqb eqb_spec P at_depth nv C k0 sp).
Local Notation max_by_value_ok := (@DdFinal.max_by_value_ok S).
Local Notation linv_lel := (@DdFinal.linv_lel S eqb eqb_spec P R at_depth nv C Hwf Hbd k0 sp).
Local Notation reach_term := (@DdFinal.reach_term S).
Local Notation reach_step := (@DdFinal.reach_step S).
Local Notation live := (@MddAllBounds.live S).
Local Notation wave := (@MddAllBounds.wave S).
Local Notation unch := (@MddAllBounds.unch S).
Local Notation unch_refl := (@MddAllBounds.unch_refl S).
Local Notation unch_trans := (@MddAllBounds.unch_trans S).
Local Notation edge_step := (@MddAllBounds.edge_step S).
Local Notation bounds_edges_unfold := (@MddAllBounds.bounds_edges_unfold S).
Local Notation edge_step_ok := (@MddAllBounds.edge_step_ok S P at_depth nv C k0 sp).
Local Notation seen := (@MddAllBounds.seen S).
Local Notation seen_unch := (@MddAllBounds.seen_unch S).
Local Notation bounds_edges_ok := (@MddAllBounds.bounds_edges_ok S P at_depth nv C k0 sp).
Local Notation bounds_wave := (@MddAllBounds.bounds_wave S P at_depth nv C k0 sp).
Local Notation processed := (@MddAllBounds.processed S).
Local Notation bounds_loop_ok := (@MddAllBounds.bounds_loop_ok S P at_depth nv C k0 sp).
Local Notation init_fold := (@MddAllBounds.init_fold S).
Local Notation local_bounds_ok := (@MddAllBounds.local_bounds_ok S P at_depth nv C k0 sp).
Local Notation w_edges := (@MddAllBounds.w_edges S).
Local Notation w_len := (@MddAllBounds.w_len S).
Local Notation w_frame := (@MddAllBounds.w_frame S).
Local Notation w_nodes := (@MddAllBounds.w_nodes S).
Local Notation w_cutflag := (@MddAllBounds.w_cutflag S).
Local Notation w_cutold := (@MddAllBounds.w_cutold S).
Local Notation w_cutlel := (@MddAllBounds.w_cutlel S).
Local Notation w_cutnew := (@MddAllBounds.w_cutnew S).
Local Notation w_mark := (@MddAllBounds.w_mark S).
Local Notation w_visit := (@MddAllBounds.w_visit S).
Local Notation w_vis := (@MddAllBounds.w_vis S).
Local Notation w_live := (@MddAllBounds.w_live S).
Local Notation u_nodes := (@MddAllBounds.u_nodes S).
Local Notation u_cut := (@MddAllBounds.u_cut S).

(** ** One turn of the loop *)
Lemma linv_set_prev inp ct d past gone curr k l : linv inp ct d past gone curr k -> linv inp ct (set_prev d l) past gone curr k.
Proof. intros [h1 h2 h3 h4 h5 h6 h7 h8 h9 h10 h11 h12 h13 h14 h15 h16 h17 h18 h19 h20 h21]. constructor; try assumption. eapply arena_ext; [exact h1|reflexivity..]. Qed.

Lemma arena_drain (d : dd) past : arena None d past -> arena None (set_next d []) past.
Proof.
  intros [h1 h2 h3 h4 h5 h6 h7 h8 h9 h10]. constructor; auto.
  - intros id n Hg Ht. eapply node_ok_mono; [exact h1|apply (h3 id n Hg Ht)|apply coreeq_refl|reflexivity|reflexivity|apply incl_refl| |].
    + intros p pn Hp Hpn. exists pn. auto using coreeq_refl.
    + exists []. rewrite app_nil_r. reflexivity.
  - intros p id _ [].
  - constructor.
  - intros s id [].
Qed.

Lemma nextids_nodup (d : dd) past : arena None d past -> NoDup (nextids d).
Proof.
  intros HA. unfold nextids. assert (Hk := a_keys _ _ _ HA). assert (Hn := a_next _ _ _ HA). induction (g_next d) as [|[s id] m IH]; cbn; [constructor|].
  cbn in Hk. inversion Hk as [|x l Hx Hl]; subst. constructor; [|apply IH; [exact Hl|intros; apply Hn; right; assumption]].
  intros Hin. apply in_map_iff in Hin as ([s' id'] & Heq & Hin). cbn in Heq. subst id'.
  destruct (Hn s id (or_introl eq_refl)) as (n & G & Hs & _). destruct (Hn s' id (or_intror Hin)) as (n' & G' & Hs' & _).
  apply Hx. apply in_map_iff. exists (s', id). split; [cbn; congruence|exact Hin].
Qed.

(** The drained layer. *)
Lemma drained_layer inp ct d past gone curr k l : linv inp ct d past gone curr k -> incl l (nextids d) -> NoDup l ->
  layer_ok (set_next d []) past l k /\ (forall id n, In id l -> get_node d id = Some n -> orig_all (set_next d []) n).
Proof.
  intros HL Hl Hnd. assert (HA := li_arena _ _ _ _ _ _ _ HL). split.
  - constructor; [exact Hnd|]. intros id Hid. apply Hl in Hid. split; [intros H; exact (li_disj _ _ _ _ _ _ _ HL id H Hid)|].
    split; [intros p Hp; apply (a_lt _ _ _ HA p id Hp Hid)|]. destruct (li_layer _ _ _ _ _ _ _ HL id Hid) as (n & G & D). exists n. split; [exact G|]. split; [exact D|].
    apply nextids_in in Hid as (s & Hs). destruct (a_next _ _ _ HA s id Hs) as (n' & G' & _ & _ & Hc). assert (n' = n) as -> by congruence. exact Hc.
  - intros id n Hid G. apply Hl in Hid. apply nextids_in in Hid as (s & Hs). destruct (a_next _ _ _ HA s id Hs) as (n' & G' & _ & Ho & _). assert (n' = n) as -> by congruence. exact Ho.
Qed.

(** Between the construction and the expansion of a layer. *)
Lemma mid_keep inp ct d past gone curr k curr1 : linv inp ct d past gone curr k -> incl curr1 (nextids d) -> NoDup curr1 ->
  ((i_type inp = Restricted \/ i_type inp = Relaxed /\ (k0 + 1 < k)%nat) -> (length curr1 <= i_width inp)%nat) ->
  mid inp d (set_next d []) past curr1 curr1 k.
Proof.
  intros HL Hi Hnd Hw. destruct (drained_layer inp ct d past gone curr k curr1 HL Hi Hnd) as [Hlay _]. constructor.
  - apply arena_drain, HL.
  - reflexivity.
  - exact Hlay.
  - constructor; try reflexivity; [exists []; rewrite app_nil_r; reflexivity|]. intros id n G _. exists n. split; [exact G|apply samenode_refl].
  - auto.
  - intros _ m mn Hm G. exists m, mn. split; [exact Hm|]. split; [exact G|]. left. split; [reflexivity|]. split; [lia|auto].
  - auto.
  - auto.
  - auto.
  - left. split; [reflexivity|auto].
  - exact Hw.
  - reflexivity.
  - auto.
  - auto.
Qed.
Lemma mid_restrict orc inp ct d past gone curr k curr1 : linv inp ct d past gone curr k -> incl curr1 (nextids d) -> NoDup curr1 ->
  i_type inp = Restricted -> sorts orc ->
  exists d3 curr2, restrict orc inp (set_next d []) curr1 = Some (d3, curr2) /\ mid inp d d3 past curr1 curr2 k.
Proof.
  intros HL Hi Hnd Hty Hs. destruct (drained_layer inp ct d past gone curr k curr1 HL Hi Hnd) as [Hlay _].
  destruct (restrict_spec orc inp (set_next d []) past curr1 k (arena_drain _ _ (li_arena _ _ _ _ _ _ _ HL)) Hlay Hs) as (d3 & curr2 & E & A3 & -> & L3 & I3 & W3).
  eexists _, curr2. split; [exact E|]. constructor.
  - exact A3.
  - reflexivity.
  - exact L3.
  - constructor; try reflexivity; [exists []; rewrite app_nil_r; reflexivity|]. intros id n G _. exists n. split; [exact G|apply samenode_refl].
  - intros id Hid. auto.
  - intros H. specialize (H Hty). cbn in H. discriminate.
  - reflexivity.
  - intros H. congruence.
  - intros H _. exact H.
  - left. split; [reflexivity|]. congruence.
  - intros _. exact W3.
  - reflexivity.
  - auto.
  - congruence.
Qed.
Lemma mid_relax v orc inp ct d past gone curr k curr1 : linv inp ct d past gone curr k -> incl curr1 (nextids d) -> NoDup curr1 ->
  i_type inp = Relaxed -> sorts orc -> i_rx inp = R -> (0 < i_width inp < length curr1)%nat -> (k0 + 1 < k)%nat -> incl (g_prev d) past ->
  exists d3 curr2, relax eqb v orc inp (set_next d []) curr1 = Some (d3, curr2) /\ mid inp d d3 past curr1 curr2 k /\
    (v = VBarrier -> g_ctype d = LastExactLayer -> g_approx d = false -> forall kk, g_prev d <> [] -> layer_at d (g_prev d) kk -> g_lel d3 = Some kk) /\
    (v = VBarrier -> (g_ctype d = LastExactLayer -> g_approx d = true) -> g_lel d3 = g_lel d) /\
    (forall id n, In id curr1 -> ~ In id curr2 -> get_node d3 id = Some n -> v = VBarrier -> is_deleted (n_flags n) = true) /\ g_approx d3 = true.
Proof.
  intros HL Hi Hnd Hty Hs Hrx Hw Hk Hprev. destruct (drained_layer inp ct d past gone curr k curr1 HL Hi Hnd) as [Hlay Ho].
  destruct (relax_spec v orc inp (set_next d []) past curr1 k) as (d3 & curr2 & E & A3 & N3 & L3 & Z3 & W3 & S3 & X3 & P3 & B3 & Y3 & T3 & C3 & V3 & V3' & I3 & K3 & D3); auto.
  { apply arena_drain, HL. }
  { pose proof (li_range _ _ _ _ _ _ _ HL). lia. }
  exists d3, curr2. split; [exact E|]. split; [|split; [exact V3|split; [exact V3'|split; [exact D3|exact X3]]]]. constructor.
  - exact A3.
  - exact N3.
  - exact L3.
  - destruct S3. constructor; assumption.
  - exact I3.
  - intros _ m mn Hm G. destruct (K3 m mn Hm G) as (m' & mn' & Q1 & Q2 & Q3). exists m', mn'. split; [exact Q1|]. split; [exact Q2|]. destruct Q3 as [Q3|Q3]; [left|right]; auto.
  - auto.
  - congruence.
  - intros _ [H|H]; congruence.
  - destruct (g_ctype d) eqn:Ec; cbn in C3; rewrite Ec in C3.
    + destruct (g_approx d) eqn:Ea.
      * left. split; [exact C3|]. auto.
      * right. split; [exact Hty|]. split; [reflexivity|]. split; [reflexivity|]. split; [exact X3|]. split; [exact C3|]. split; [exact Hk|]. intros ->. cbn in Hw. lia.
    + left. split; [exact C3|]. congruence.
  - intros _. exact W3.
  - exact T3.
  - auto.
  - lia.
Qed.

Lemma layer_step_ok orc inp ct d past curr k depth : linv inp ct d past [] curr k -> iters orc -> sorts orc -> i_pb inp = P -> i_rx inp = R ->
  (0 < i_width inp)%nat -> (k < N)%nat -> k = (k0 + depth)%nat -> g_next d <> [] ->
  exists d4 curr2, layer_step eqb orc inp depth (nv k) d curr = Some (d4, Some curr2) /\ linv inp ct d4 (curr2 ++ past) [] curr2 (Datatypes.S k).
Proof.
  intros HL Hit Hso Hpb Hrx Hw Hk Hdep Hne. unfold layer_step.
  set (d1 := set_prev d curr). assert (HL1 : linv inp ct d1 past [] curr k) by (apply linv_set_prev; exact HL).
  set (curr1 := map snd (o_iter orc (3 * depth + 1) (g_next d1))).
  assert (Hperm : Permutation (nextids d1) curr1) by (apply Permutation_map, Hit).
  assert (Hin : forall id, In id (nextids d1) <-> In id curr1) by (intros id; split; intros H; [eapply Permutation_in; eauto|eapply Permutation_in; [apply Permutation_sym; exact Hperm|exact H]]).
  assert (Hi1 : incl curr1 (nextids d1)) by (intros x Hx; apply Hin; exact Hx).
  assert (Hnd : NoDup curr1) by (eapply Permutation_NoDup; [exact Hperm|eapply nextids_nodup; apply HL1]).
  assert (Hc1 : curr1 <> []).
  { intros H. rewrite H in Hperm. apply Permutation_sym, Permutation_nil in Hperm. unfold nextids in Hperm. apply map_eq_nil in Hperm. apply Hne. exact Hperm. }
  assert (Hmid : exists d3 curr2, (match i_type inp with
         | Exact => Some (set_next d1 [], curr1)
         | Restricted => if (i_width inp <? length curr1)%nat then restrict orc inp (set_next d1 []) curr1 else Some (set_next d1 [], curr1)
         | Relaxed => if (i_width inp <? length curr1)%nat && (1 <? depth)%nat then relax eqb VAll orc inp (set_next d1 []) curr1
                      else Some (set_next d1 [], curr1) end) = Some (d3, curr2) /\ mid inp d1 d3 past curr1 curr2 k /\ (k = k0 -> curr2 = curr1 \/ curr2 = firstn (i_width inp) (o_sort orc (node_cmp (i_rank inp) (set_approx (set_next d1 []) true)) curr1))).
  { destruct (i_type inp) eqn:Ety.
    - exists (set_next d1 []), curr1. split; [reflexivity|]. split; [eapply mid_keep; eauto; rewrite Ety; intros [H|[H _]]; discriminate|auto].
    - destruct (Nat.ltb_spec (i_width inp) (length curr1)) as [Hlt|Hge]; cbn [andb]; [destruct (Nat.ltb_spec 1 depth) as [Hd|Hd]|].
      + destruct (mid_relax VAll orc inp ct d1 past [] curr k curr1) as (d3 & curr2 & E & M & _); auto; [lia|apply HL1|]. exists d3, curr2. split; [exact E|]. split; [exact M|]. intros ->. lia.
      + exists (set_next d1 []), curr1. split; [reflexivity|]. split; [eapply mid_keep; eauto; rewrite Ety; intros [H|[_ H]]; [discriminate|lia]|auto].
      + exists (set_next d1 []), curr1. split; [reflexivity|]. split; [eapply mid_keep; eauto; lia|auto].
    - destruct (Nat.ltb_spec (i_width inp) (length curr1)) as [Hlt|Hge].
      + destruct (mid_restrict orc inp ct d1 past [] curr k curr1) as (d3 & curr2 & E & M); auto. exists d3, curr2. split; [exact E|]. split; [exact M|]. intros _. right.
        unfold restrict in E. destruct (all_present _ _); [|discriminate]. inversion E. reflexivity.
      + exists (set_next d1 []), curr1. split; [reflexivity|]. split; [eapply mid_keep; eauto; lia|auto]. }
  destruct Hmid as (d3 & curr2 & E & M & Hk0). assert (Hc1' := Hc1). destruct curr1 as [|c0 cs] eqn:Ec1; [congruence|]. rewrite <- Ec1 in *. cbv zeta. fold d1. rewrite E. cbn [obind]. clear E.
  pose proof (expanding_init VAll (i_lb inp) d3 past curr2 k (md_arena _ _ _ _ _ _ _ M) (md_next _ _ _ _ _ _ _ M) (md_layer _ _ _ _ _ _ _ M)) as HE0.
  destruct (expand_fold VAll inp d3 past curr2 k (md_layer _ _ _ _ _ _ _ M) Hk Hpb (a_cutpast _ _ _ (md_arena _ _ _ _ _ _ _ M)) curr2 [] d3 HE0 (incl_refl _)) as (d4 & E4 & HE4).
  { rewrite app_nil_r. apply (md_layer _ _ _ _ _ _ _ M). }
  rewrite E4. cbn [obind]. exists d4, curr2. split; [reflexivity|].
  change ([] : list nat) with (([] : list nat) ++ []). eapply linv_step with (d := d1) (curr1 := curr1) (newgone := []); [exact HL1|exact Hk|reflexivity| |intros id _ []|exact M|exact HE4|].
  - intros id. rewrite Hin. cbn. tauto.
  - destruct (li_root _ _ _ _ _ _ _ HL1) as [H|(Hkk & Hnx & _ & _)]; [auto|right].
    assert (Hc : curr1 = [0%nat]).
    { unfold nextids in Hperm. rewrite Hnx in Hperm. cbn in Hperm. apply Permutation_length_1_inv in Hperm. exact Hperm. }
    destruct (Hk0 Hkk) as [->| ->]; [rewrite Hc; left; reflexivity|]. rewrite Hc.
    assert (Hs1 : o_sort orc (node_cmp (i_rank inp) (set_approx (set_next d1 []) true)) [0%nat] = [0%nat]) by (apply Permutation_length_1_inv, Hso).
    rewrite Hs1. destruct (i_width inp); [lia|]. left. reflexivity.
Qed.

Lemma layers_ok orc inp ct : iters orc -> sorts orc -> i_pb inp = P -> i_rx inp = R -> (0 < i_width inp)%nat ->
  forall fuel d past curr k depth, linv inp ct d past [] curr k -> k = (k0 + depth)%nat -> (N - k < fuel)%nat ->
  exists dF pastF currF kF, layers eqb fuel orc inp depth d curr = Some (dF, false) /\ linv inp ct dF pastF [] currF kF /\ (g_next dF = [] \/ kF = N).
Proof.
  intros Hit Hso Hpb Hrx Hw. induction fuel as [|fuel IH]; intros d past curr k depth HL Hk Hf; [lia|].
  cbn [layers]. rewrite Hpb. set (states := map fst (o_iter orc (3 * depth) (g_next d))).
  assert (Hperm : Permutation (map fst (g_next d)) states) by (apply Permutation_map, Hit).
  assert (HA := li_arena _ _ _ _ _ _ _ HL).
  assert (Hat : Forall (at_depth k) states).
  { apply Forall_forall. intros s Hs. apply (Permutation_in _ (Permutation_sym Hperm)) in Hs. apply in_map_iff in Hs as ([s' id] & Heq & Hs). cbn in Heq. subst s'.
    destruct (a_next _ _ _ HA s id Hs) as (n & G & <- & _). destruct (li_layer _ _ _ _ _ _ _ HL id) as (n' & G' & D); [apply nextids_in; eauto|]. assert (n' = n) as -> by congruence.
    rewrite <- D. apply (no_base _ _ _ _ (a_nodes _ _ _ HA id n G ltac:(discriminate))). }
  destruct (g_next d) as [|p m] eqn:En.
  - cbn in Hperm. apply Permutation_nil in Hperm. rewrite Hperm, (wf_next_empty _ _ _ _ Hwf). exists d, past, curr, k. auto.
  - assert (Hne : states <> []) by (intros H; rewrite H in Hperm; apply Permutation_sym, Permutation_nil in Hperm; discriminate).
    pose proof (li_range _ _ _ _ _ _ _ HL) as Hr. destruct (Nat.eq_dec k N) as [HkN|HkN].
    + rewrite HkN in Hat. rewrite (wf_last _ _ _ _ Hwf states Hne Hat). exists d, past, curr, k. auto.
    + rewrite (wf_next _ _ _ _ Hwf k states Hne Hat) by lia.
      destruct (layer_step_ok orc inp ct d past curr k depth HL Hit Hso Hpb Hrx Hw ltac:(lia) Hk) as (d4 & curr2 & E & HL4); [congruence|].
      rewrite E. cbn [obind]. apply (IH d4 (curr2 ++ past) curr2 (Datatypes.S k) (Datatypes.S depth) HL4); lia.
Qed.

(** The root. *)
Lemma root_linv debug inp d d0 : valid_root -> i_res inp = sp -> root_dd debug inp d = Some d0 ->
  linv inp (g_ctype d) d0 [] [] [] k0 /\ g_next d0 = [(sp_state sp, 0%nat)].
Proof.
  intros Hroot Hres H. unfold root_dd in H. rewrite Hres in H. destruct (sub_isize debug (sp_ub sp) (sp_value sp)) as [rub|]; [|discriminate].
  cbn [obind dd_clear g_root_pa g_nodes g_edges g_prev g_next g_cutset g_lel g_best g_exact g_approx g_ctype g_explored app] in H. inversion H; subst d0. clear H. split; [|reflexivity]. destruct Hroot as [Hp Hle Hat Hv].
  set (root := mk_node (sp_state sp) (sp_value sp) None None (length (sp_path sp)) IMIN IMAX rub new_exact).
  set (d0 := mk_dd _ _ _ _ _ _ _ _ _ _ _ _).
  assert (Hget : forall id n, get_node d0 id = Some n -> id = 0%nat /\ n = root).
  { intros id n H. unfold get_node, d0 in H. cbn in H. destruct id as [|[|id]]; cbn in H; try discriminate. inversion H. auto. }
  assert (Hfl : is_exact new_exact = true /\ is_marked new_exact = false /\ is_cutset new_exact = false /\ is_deleted new_exact = false /\ is_pruned_by_barrier new_exact = false)
    by (vm_compute; auto). destruct Hfl as (F1 & F2 & F3 & F4 & F5).
  assert (Hok : node_ok d0 [] 0 root).
  { constructor.
    - constructor; cbn; auto; [lia|rewrite <- Hp; exact Hat|]. intros e ed He. apply inb_none in He. destruct He.
    - cbn. rewrite <- Hp. exact Hv.
    - left. repeat split; cbn; auto. }
  constructor.
  - constructor.
    + intros [|e] ed H; discriminate.
    + cbn. lia.
    + intros id n H _. destruct (Hget id n H) as [-> ->]. exact Hok.
    + intros id [].
    + intros p id [].
    + cbn. constructor; [intros []|constructor].
    + intros s id [H|[]]. inversion H; subst. exists root. split; [reflexivity|]. split; [reflexivity|]. split; [intros e ed He; apply inb_none in He; destruct He|].
      split; [split; assumption|reflexivity].
    + intros id n H. destruct (Hget id n H) as [-> ->]. cbn. rewrite F3. split; [discriminate|intros []].
    + intros x [].
    + reflexivity.
  - intros id [<-|[]]. exists root. split; [reflexivity|]. cbn. lia.
  - lia.
  - intros p [].
  - intros p pn _. split; [intros []|intros [[] _]].
  - intros x [].
  - intros p pn [].
  - intros p pn [].
  - intros _ id n H. destruct (Hget id n H) as [-> ->]. exact F1.
  - reflexivity.
  - reflexivity.
  - discriminate.
  - intros q qn [].
  - reflexivity.
  - right. auto.
  - constructor.
  - intros j l _ Hl _ _. destruct l as [|x l]; [cbn; lia|]. destruct (Hl x (or_introl eq_refl)).
  - cbn. lia.
  - auto.
  - intros g [].
  - intros _. split; [reflexivity|]. intros id n _ H _. destruct (Hget id n H) as [-> ->]. exact F1.
Qed.

(** ** Compilation *)
Lemma compile_ok debug orc inp d : valid_root -> i_res inp = sp -> iters orc -> sorts orc -> i_pb inp = P -> i_rx inp = R -> (0 < i_width inp)%nat ->
  (debug = true -> IMIN <= sp_ub sp - sp_value sp <= IMAX) ->
  exists dF d1 past curr kF b e, compile eqb debug orc inp d = Some dF /\ linv inp (g_ctype d) d1 past [] curr kF /\ (g_next d1 = [] \/ kF = N) /\
    (match b with None => g_next d1 = []
     | Some i => exists bn, In i (nextids d1) /\ get_node d1 i = Some bn /\ forall id n, In id (nextids d1) -> get_node d1 id = Some n -> n_value n <= n_value bn end) /\
    compute_exact (set_best_exact d1 b true) (i_type inp) = Some e /\
    (if match i_type inp with Relaxed => negb e | _ => false end
     then wave (set_best_exact d1 b e) dF [] 0 0 /\ processed (set_best_exact d1 b e) dF 0 /\
       (forall id n', In id (nextids d1) -> get_node dF id = Some n' -> is_marked (n_flags n') = true /\ 0 <= n_bot n')
     else dF = set_best_exact d1 b e).
Proof.
  intros Hroot Hres Hit Hso Hpb Hrx Hw Hdbg. unfold compile. rewrite Hpb.
  assert (E0 : exists d0, root_dd debug inp d = Some d0).
  { unfold root_dd, sub_isize. rewrite Hres. destruct ((IMIN <=? sp_ub sp - sp_value sp) && (sp_ub sp - sp_value sp <=? IMAX)) eqn:Eb; [eexists; reflexivity|].
    destruct debug; [|eexists; reflexivity]. exfalso. specialize (Hdbg eq_refl). apply andb_false_iff in Eb as [Eb|Eb]; apply Z.leb_gt in Eb; lia. }
  destruct E0 as [d0 E0]. rewrite E0. cbn [obind]. destruct (root_linv debug inp d d0 Hroot Hres E0) as [HL0 Hn0].
  destruct (layers_ok orc inp (g_ctype d) Hit Hso Hpb Hrx Hw (N + 2)%nat d0 [] [] k0 0%nat HL0 ltac:(lia) ltac:(lia)) as (d1 & past & curr & kF & E1 & HL & Hend).
  rewrite E1. cbn [obind]. unfold finalize.
  assert (HA := li_arena _ _ _ _ _ _ _ HL).
  set (l1 := map snd (o_iter orc (3 * (N + 2) + 1) (g_next d1))).
  assert (Hp1 : Permutation (nextids d1) l1) by (apply Permutation_map, Hit).
  destruct (max_by_value_ok d1 l1) as (b & Eb & Hb).
  { intros id Hid. apply (Permutation_in _ (Permutation_sym Hp1)) in Hid. destruct (li_layer _ _ _ _ _ _ _ HL id Hid) as (n & G & _). eauto. }
  rewrite Eb. cbn [obind]. destruct (li_best _ _ _ _ _ _ _ HL) as [Hb0 Hx0]. rewrite Hx0.
  assert (Hb' : match b with None => g_next d1 = []
     | Some i => exists bn, In i (nextids d1) /\ get_node d1 i = Some bn /\ forall id n, In id (nextids d1) -> get_node d1 id = Some n -> n_value n <= n_value bn end).
  { destruct b as [i|].
    - destruct Hb as (bn & H1 & H2 & H3). exists bn. split; [eapply Permutation_in; [apply Permutation_sym; exact Hp1|exact H1]|]. split; [exact H2|].
      intros id n Hid. apply H3. eapply Permutation_in; eauto.
    - rewrite Hb in Hp1. apply Permutation_sym, Permutation_nil in Hp1. unfold nextids in Hp1. apply map_eq_nil in Hp1. exact Hp1. }
  assert (Ee : exists e, compute_exact (set_best_exact d1 b true) (i_type inp) = Some e).
  { unfold compute_exact. cbn [g_approx set_best_exact]. destruct (g_approx d1); cbn [negb]; [|eexists; reflexivity].
    destruct (i_type inp); try (eexists; reflexivity). cbn [g_best g_nodes set_best_exact].
    destruct b as [i|]; [|eexists; reflexivity]. destruct Hb' as (bn & _ & Gb & _).
    assert (HA' : arena None (set_best_exact d1 (Some i) true) past) by (eapply arena_ext; [exact HA|reflexivity..]).
    destruct (best_chain (set_best_exact d1 (Some i) true) past HA' i bn Gb) as (r & _ & _ & (bb & Hbb) & _). exists bb.
    apply (Hbb (Datatypes.S (length (g_nodes d1)))). apply get_lt in Gb. lia. }
  destruct Ee as [e Ee]. rewrite Ee. cbn [obind].
  replace (set_best_exact (set_best_exact d1 b true) b e) with (set_best_exact d1 b e) by reflexivity.
  set (d2 := set_best_exact d1 b e).
  set (l2 := map snd (o_iter orc (3 * (N + 2) + 2) (g_next d2))).
  assert (Hp2 : Permutation (nextids d1) l2) by (apply Permutation_map, Hit).
  assert (HA2 : arena None d2 past) by (eapply arena_ext; [exact HA|reflexivity..]).
  assert (Hfin : exists dF, (match i_type inp with Relaxed => compute_local_bounds l2 d2 | _ => Some d2 end) = Some dF /\
    (if match i_type inp with Relaxed => negb e | _ => false end
     then wave d2 dF [] 0 0 /\ processed d2 dF 0 /\
       (forall id n', In id (nextids d1) -> get_node dF id = Some n' -> is_marked (n_flags n') = true /\ 0 <= n_bot n')
     else dF = d2)).
  { destruct (i_type inp); try (exists d2; auto; fail). destruct e; cbn [negb].
    - exists d2. split; [reflexivity|reflexivity].
    - destruct (local_bounds_ok d2 past kF l2 HA2) as (dF & E & W & Pr & Tm).
      + apply HL.
      + intros id. split; intros H; [eapply Permutation_in; [apply Permutation_sym; exact Hp2|exact H]|eapply Permutation_in; [exact Hp2|exact H]].
      + reflexivity.
      + apply HL.
      + exists dF. auto. }
  destruct Hfin as (dF & EF & HF). exists dF, d1, past, curr, kF, b, e. split; [exact EF|]. split; [exact HL|]. split; [exact Hend|]. split; [exact Hb'|]. split; [exact Ee|exact HF].
Qed.
End Facts.
