(** The bottom-up pass of src/mdd/with_barrier.rs. *)
From Verif Require Import Spec Dd FlagsFacts MatrixFacts DdFacts DdRelax DdExpand DdLoop DdFinal MddBarrier BarWp.
From Coq Require Import ZifyNat.
Open Scope Z_scope.

Section Facts.
Variable S : Type.
Variable eqb : S -> S -> bool.
Hypothesis eqb_spec : forall a b, eqb a b = true <-> a = b.
Variable P : problem S.
Variable R : relaxation S.
Variable at_depth : nat -> S -> Prop.
Variable nv : nat -> nat.
Variable C : Z.
Hypothesis Hwf : wf_problem S P at_depth nv.
Hypothesis Hvr : relaxation_depth S P at_depth R.
Hypothesis Hbd : bounded S P at_depth nv R C.
Variable k0 : nat.
Variable sp : subproblem S.
Notation N := (pb_nb_vars P).
Notation node := (node S).
Notation dd := (dd S).
Local Notation vbound := (@DdFacts.vbound C).
Local Notation valid_root := (@DdFacts.valid_root S P at_depth C k0 sp).
Local Notation nextids := (@DdFacts.nextids S).
Local Notation vbound_range := (@DdFacts.vbound_range S P R at_depth nv C Hbd).
Local Notation vbound_step := (@DdFacts.vbound_step S P R at_depth nv C Hbd).
Local Notation coreeq := (@DdFacts.coreeq S).
Local Notation samenode := (@DdFacts.samenode S).
Local Notation coreeq_refl := (@DdFacts.coreeq_refl S).
Local Notation samenode_refl := (@DdFacts.samenode_refl S).
Local Notation coreeq_trans := (@DdFacts.coreeq_trans S).
Local Notation samenode_trans := (@DdFacts.samenode_trans S).
Local Notation stable := (@DdFacts.stable S).
Local Notation stable_refl := (@DdFacts.stable_refl S).
Local Notation stable_trans := (@DdFacts.stable_trans S k0).
Local Notation stable_weaken := (@DdFacts.stable_weaken S).
Local Notation edge_ok := (@DdFacts.edge_ok S P nv C).
Local Notation orig_edge := (@DdFacts.orig_edge S P).
Local Notation orig_all := (@DdFacts.orig_all S P).
Local Notation is_root := (@DdFacts.is_root S k0 sp).
Local Notation best_ok := (@DdFacts.best_ok S P k0 sp).
Local Notation node_base := (@DdFacts.node_base S P at_depth nv C k0).
Local Notation node_ok := (@DdFacts.node_ok S P at_depth nv C k0 sp).
Local Notation cleanf := (@DdFacts.cleanf S).
Local Notation clean := (@DdFacts.clean S).
Local Notation arena := (@DdFacts.arena S P at_depth nv C k0 sp).
Local Notation layer_at := (@DdFacts.layer_at S).
Local Notation get_lt := (@DdFacts.get_lt S).
Local Notation get_some := (@DdFacts.get_some S).
Local Notation upd_node_spec := (@DdFacts.upd_node_spec S).
Local Notation orig_edge_mono := (@DdFacts.orig_edge_mono S P).
Local Notation edge_ok_mono := (@DdFacts.edge_ok_mono S P nv C).
Local Notation past_frozen := (@DdFacts.past_frozen S).
Local Notation node_base_mono := (@DdFacts.node_base_mono S P at_depth nv C k0).
Local Notation best_ok_mono := (@DdFacts.best_ok_mono S P at_depth nv C k0 sp).
Local Notation node_ok_mono := (@DdFacts.node_ok_mono S P at_depth nv C k0 sp).
Local Notation orig_all_mono := (@DdFacts.orig_all_mono S P at_depth nv C k0).
Local Notation stable_past := (@DdFacts.stable_past S).
Local Notation next_get_in := (@DdFacts.next_get_in S eqb eqb_spec).
Local Notation next_get_none := (@DdFacts.next_get_none S eqb eqb_spec).
Local Notation nextids_in := (@DdFacts.nextids_in S).
Local Notation all_exact := (@DdFacts.all_exact S).
Local Notation grows := (@DdFacts.grows S).
Local Notation grows_refl := (@DdFacts.grows_refl S).
Local Notation nextids_incl := (@DdFacts.nextids_incl S).
Local Notation grows_trans := (@DdFacts.grows_trans S).
Local Notation same_rest := (@DdFacts.same_rest S).
Local Notation same_rest_refl := (@DdFacts.same_rest_refl S).
Local Notation same_rest_trans := (@DdFacts.same_rest_trans S).
Local Notation has_edge := (@DdFacts.has_edge S P).
Local Notation has_edge_grows := (@DdFacts.has_edge_grows S P).
Local Notation branch_spec := (@DdFacts.branch_spec S eqb eqb_spec P R at_depth nv C Hwf Hbd k0 sp).
Local Notation vr_path := (@DdFacts.vr_path S P at_depth C k0 sp).
Local Notation vr_le := (@DdFacts.vr_le S P at_depth C k0 sp).
Local Notation vr_at := (@DdFacts.vr_at S P at_depth C k0 sp).
Local Notation vr_val := (@DdFacts.vr_val S P at_depth C k0 sp).
Local Notation ce_state := (@DdFacts.ce_state S).
Local Notation ce_value := (@DdFacts.ce_value S).
Local Notation ce_best := (@DdFacts.ce_best S).
Local Notation ce_inb := (@DdFacts.ce_inb S).
Local Notation ce_depth := (@DdFacts.ce_depth S).
Local Notation ce_exact := (@DdFacts.ce_exact S).
Local Notation ce_relaxed := (@DdFacts.ce_relaxed S).
Local Notation sn_core := (@DdFacts.sn_core S).
Local Notation sn_rub := (@DdFacts.sn_rub S).
Local Notation sn_theta := (@DdFacts.sn_theta S).
Local Notation sn_bot := (@DdFacts.sn_bot S).
Local Notation sn_marked := (@DdFacts.sn_marked S).
Local Notation sn_deleted := (@DdFacts.sn_deleted S).
Local Notation sn_barrier := (@DdFacts.sn_barrier S).
Local Notation st_edges := (@DdFacts.st_edges S).
Local Notation st_len := (@DdFacts.st_len S).
Local Notation st_nodes := (@DdFacts.st_nodes S).
Local Notation st_root := (@DdFacts.st_root S).
Local Notation st_ctype := (@DdFacts.st_ctype S).
Local Notation eo_past := (@DdFacts.eo_past S P nv C).
Local Notation eo_lt := (@DdFacts.eo_lt S P nv C).
Local Notation eo_cost := (@DdFacts.eo_cost S P nv C).
Local Notation eo_parent := (@DdFacts.eo_parent S P nv C).
Local Notation no_depth := (@DdFacts.no_depth S P at_depth nv C k0).
Local Notation no_at := (@DdFacts.no_at S P at_depth nv C k0).
Local Notation no_head := (@DdFacts.no_head S P at_depth nv C k0).
Local Notation no_edges := (@DdFacts.no_edges S P at_depth nv C k0).
Local Notation no_marked := (@DdFacts.no_marked S P at_depth nv C k0).
Local Notation no_bot := (@DdFacts.no_bot S P at_depth nv C k0).
Local Notation no_base := (@DdFacts.no_base S P at_depth nv C k0 sp).
Local Notation no_val := (@DdFacts.no_val S P at_depth nv C k0 sp).
Local Notation no_best := (@DdFacts.no_best S P at_depth nv C k0 sp).
Local Notation a_edges := (@DdFacts.a_edges S P at_depth nv C k0 sp).
Local Notation a_len := (@DdFacts.a_len S P at_depth nv C k0 sp).
Local Notation a_nodes := (@DdFacts.a_nodes S P at_depth nv C k0 sp).
Local Notation a_past := (@DdFacts.a_past S P at_depth nv C k0 sp).
Local Notation a_lt := (@DdFacts.a_lt S P at_depth nv C k0 sp).
Local Notation a_keys := (@DdFacts.a_keys S P at_depth nv C k0 sp).
Local Notation a_next := (@DdFacts.a_next S P at_depth nv C k0 sp).
Local Notation a_cut := (@DdFacts.a_cut S P at_depth nv C k0 sp).
Local Notation a_cutpast := (@DdFacts.a_cutpast S P at_depth nv C k0 sp).
Local Notation a_root := (@DdFacts.a_root S P at_depth nv C k0 sp).
Local Notation gr_incl := (@DdFacts.gr_incl S).
Local Notation gr_fresh := (@DdFacts.gr_fresh S).
Local Notation gr_nodes := (@DdFacts.gr_nodes S).
Local Notation sr_prev := (@DdFacts.sr_prev S).
Local Notation sr_cut := (@DdFacts.sr_cut S).
Local Notation sr_lel := (@DdFacts.sr_lel S).
Local Notation sr_best := (@DdFacts.sr_best S).
Local Notation sr_exact := (@DdFacts.sr_exact S).
Local Notation sr_approx := (@DdFacts.sr_approx S).
Local Notation chg := (@DdRelax.chg S).
Local Notation chg_refl := (@DdRelax.chg_refl S).
Local Notation chg_trans := (@DdRelax.chg_trans S).
Local Notation chg_weaken := (@DdRelax.chg_weaken S).
Local Notation chg_frozen := (@DdRelax.chg_frozen S).
Local Notation upd_node_chg := (@DdRelax.upd_node_chg S).
Local Notation mok := (@DdRelax.mok S P at_depth nv C k0 sp).
Local Notation chain_ok := (@DdRelax.chain_ok S P nv).
Local Notation arena_chg := (@DdRelax.arena_chg S P at_depth nv C k0 sp).
Local Notation chain_ok_mono := (@DdRelax.chain_ok_mono S P nv).
Local Notation arena_touch := (@DdRelax.arena_touch S P at_depth nv C k0 sp).
Local Notation mok_mono := (@DdRelax.mok_mono S P at_depth nv C k0 sp).
Local Notation redirected := (@DdRelax.redirected S R).
Local Notation redirect_spec := (@DdRelax.redirect_spec S P R at_depth nv C Hbd k0 sp).
Local Notation dropped := (@DdRelax.dropped S).
Local Notation drop_fold := (@DdRelax.drop_fold S P R at_depth nv C Hbd k0 sp).
Local Notation arena_tmp := (@DdRelax.arena_tmp S P at_depth nv C k0 sp).
Local Notation arena_tmp_close := (@DdRelax.arena_tmp_close S P at_depth nv C k0 sp).
Local Notation arena_ext := (@DdRelax.arena_ext S P at_depth nv C k0 sp).
Local Notation mark_spec := (@DdRelax.mark_spec S P at_depth nv C k0 sp).
Local Notation mark_fold := (@DdRelax.mark_fold S P at_depth nv C k0 sp).
Local Notation layer_ok := (@DdRelax.layer_ok S).
Local Notation sorts := (@DdRelax.sorts S).
Local Notation map_states_some := (@DdRelax.map_states_some S).
Local Notation map_states_in := (@DdRelax.map_states_in S).
Local Notation kept := (@DdRelax.kept S).
Local Notation merged_into := (@DdRelax.merged_into S R at_depth).
Local Notation relax_spec := (@DdRelax.relax_spec S eqb eqb_spec P R at_depth nv C Hvr Hbd k0 sp).
Local Notation cg_edges := (@DdRelax.cg_edges S).
Local Notation cg_len := (@DdRelax.cg_len S).
Local Notation cg_nodes := (@DdRelax.cg_nodes S).
Local Notation cg_rest := (@DdRelax.cg_rest S).
Local Notation cg_next := (@DdRelax.cg_next S).
Local Notation cg_root := (@DdRelax.cg_root S).
Local Notation cg_ctype := (@DdRelax.cg_ctype S).
Local Notation cg_expl := (@DdRelax.cg_expl S).
Local Notation mk_base := (@DdRelax.mk_base S P at_depth nv C k0 sp).
Local Notation mk_state := (@DdRelax.mk_state S P at_depth nv C k0 sp).
Local Notation mk_depth := (@DdRelax.mk_depth S P at_depth nv C k0 sp).
Local Notation mk_rel := (@DdRelax.mk_rel S P at_depth nv C k0 sp).
Local Notation mk_clean := (@DdRelax.mk_clean S P at_depth nv C k0 sp).
Local Notation mk_cut := (@DdRelax.mk_cut S P at_depth nv C k0 sp).
Local Notation mk_cases := (@DdRelax.mk_cases S P at_depth nv C k0 sp).
Local Notation lo_nodup := (@DdRelax.lo_nodup S).
Local Notation lo_node := (@DdRelax.lo_node S).
Local Notation restrict_spec := (@DdExpand.restrict_spec S P at_depth nv C k0 sp).
Local Notation arena_past := (@DdExpand.arena_past S P at_depth nv C k0 sp).
Local Notation doneok := (@DdExpand.doneok S P nv).
Local Notation expanding := (@DdExpand.expanding S P at_depth nv C k0 sp).
Local Notation expanding_init := (@DdExpand.expanding_init S P at_depth nv C k0 sp).
Local Notation has_edge_state := (@DdExpand.has_edge_state S P).
Local Notation doneok_grows := (@DdExpand.doneok_grows S P nv).
Local Notation branch_fold := (@DdExpand.branch_fold S eqb eqb_spec P R at_depth nv C Hwf Hbd k0 sp).
Local Notation expand_step := (@DdExpand.expand_step S eqb eqb_spec P R at_depth nv C Hwf Hbd k0 sp).
Local Notation expand_fold := (@DdExpand.expand_fold S eqb eqb_spec P R at_depth nv C Hwf Hbd k0 sp).
Local Notation dn_rub := (@DdExpand.dn_rub S P nv).
Local Notation dn_bot := (@DdExpand.dn_bot S P nv).
Local Notation dn_marked := (@DdExpand.dn_marked S P nv).
Local Notation dn_deleted := (@DdExpand.dn_deleted S P nv).
Local Notation dn_barrier := (@DdExpand.dn_barrier S P nv).
Local Notation dn_cases := (@DdExpand.dn_cases S P nv).
Local Notation ex_arena := (@DdExpand.ex_arena S P at_depth nv C k0 sp).
Local Notation ex_layer := (@DdExpand.ex_layer S P at_depth nv C k0 sp).
Local Notation ex_fresh := (@DdExpand.ex_fresh S P at_depth nv C k0 sp).
Local Notation ex_rest := (@DdExpand.ex_rest S P at_depth nv C k0 sp).
Local Notation ex_edges := (@DdExpand.ex_edges S P at_depth nv C k0 sp).
Local Notation ex_len := (@DdExpand.ex_len S P at_depth nv C k0 sp).
Local Notation ex_root := (@DdExpand.ex_root S P at_depth nv C k0 sp).
Local Notation ex_ctype := (@DdExpand.ex_ctype S P at_depth nv C k0 sp).
Local Notation ex_old := (@DdExpand.ex_old S P at_depth nv C k0 sp).
Local Notation ex_exact := (@DdExpand.ex_exact S P at_depth nv C k0 sp).
Local Notation ex_expl := (@DdExpand.ex_expl S P at_depth nv C k0 sp).
Local Notation iters := (@DdLoop.iters S).
Local Notation child_ok := (@DdLoop.child_ok S P R at_depth).
Local Notation expd := (@DdLoop.expd S P R at_depth nv).
Local Notation linv := (@DdLoop.linv S P R at_depth nv C k0 sp).
Local Notation mid := (@DdLoop.mid S P R at_depth nv C k0 sp).
Local Notation linv_step := (@DdLoop.linv_step S P R at_depth nv C k0 sp).
Local Notation li_arena := (@DdLoop.li_arena S P R at_depth nv C k0 sp).
Local Notation li_layer := (@DdLoop.li_layer S P R at_depth nv C k0 sp).
Local Notation li_range := (@DdLoop.li_range S P R at_depth nv C k0 sp).
Local Notation li_disj := (@DdLoop.li_disj S P R at_depth nv C k0 sp).
Local Notation li_curr := (@DdLoop.li_curr S P R at_depth nv C k0 sp).
Local Notation li_currin := (@DdLoop.li_currin S P R at_depth nv C k0 sp).
Local Notation li_depth := (@DdLoop.li_depth S P R at_depth nv C k0 sp).
Local Notation li_exp := (@DdLoop.li_exp S P R at_depth nv C k0 sp).
Local Notation li_exact := (@DdLoop.li_exact S P R at_depth nv C k0 sp).
Local Notation li_typ := (@DdLoop.li_typ S P R at_depth nv C k0 sp).
Local Notation li_nocut := (@DdLoop.li_nocut S P R at_depth nv C k0 sp).
Local Notation li_lel := (@DdLoop.li_lel S P R at_depth nv C k0 sp).
Local Notation li_cutexact := (@DdLoop.li_cutexact S P R at_depth nv C k0 sp).
Local Notation li_ctype := (@DdLoop.li_ctype S P R at_depth nv C k0 sp).
Local Notation li_root := (@DdLoop.li_root S P R at_depth nv C k0 sp).
Local Notation li_pastnd := (@DdLoop.li_pastnd S P R at_depth nv C k0 sp).
Local Notation li_width := (@DdLoop.li_width S P R at_depth nv C k0 sp).
Local Notation li_expl := (@DdLoop.li_expl S P R at_depth nv C k0 sp).
Local Notation li_best := (@DdLoop.li_best S P R at_depth nv C k0 sp).
Local Notation li_gone := (@DdLoop.li_gone S P R at_depth nv C k0 sp).
Local Notation li_near := (@DdLoop.li_near S P R at_depth nv C k0 sp).
Local Notation md_arena := (@DdLoop.md_arena S P R at_depth nv C k0 sp).
Local Notation md_next := (@DdLoop.md_next S P R at_depth nv C k0 sp).
Local Notation md_layer := (@DdLoop.md_layer S P R at_depth nv C k0 sp).
Local Notation md_stable := (@DdLoop.md_stable S P R at_depth nv C k0 sp).
Local Notation md_incl := (@DdLoop.md_incl S P R at_depth nv C k0 sp).
Local Notation md_cover := (@DdLoop.md_cover S P R at_depth nv C k0 sp).
Local Notation md_approx := (@DdLoop.md_approx S P R at_depth nv C k0 sp).
Local Notation md_typ := (@DdLoop.md_typ S P R at_depth nv C k0 sp).
Local Notation md_allex := (@DdLoop.md_allex S P R at_depth nv C k0 sp).
Local Notation md_cut := (@DdLoop.md_cut S P R at_depth nv C k0 sp).
Local Notation md_width := (@DdLoop.md_width S P R at_depth nv C k0 sp).
Local Notation md_expl := (@DdLoop.md_expl S P R at_depth nv C k0 sp).
Local Notation md_best := (@DdLoop.md_best S P R at_depth nv C k0 sp).
Local Notation md_near := (@DdLoop.md_near S P R at_depth nv C k0 sp).
Local Notation run_bound := (@DdFinal.run_bound S eqb eqb_spec P R at_depth nv C Hwf Hbd).
Local Notation completion_bound := (@DdFinal.completion_bound S eqb eqb_spec P R at_depth nv C Hwf Hbd).
Local Notation value_bound := (@DdFinal.value_bound S P R at_depth nv C Hbd).
Local Notation run_app := (@DdFinal.run_app S P nv).
Local Notation run_snoc := (@DdFinal.run_snoc S eqb eqb_spec P nv).
Local Notation reach := (@DdFinal.reach S).
Local Notation reach_value := (@DdFinal.reach_value S P at_depth nv C k0 sp).
Local Notation reach_bound := (@DdFinal.reach_bound S P at_depth nv C k0 sp).
Local Notation expd_step := (@DdFinal.expd_step S eqb eqb_spec P R at_depth nv C Hwf Hbd k0 sp).
Local Notation linv_reach := (@DdFinal.linv_reach S eqb eqb_spec P R at_depth nv C Hwf Hbd k0 sp).
Local Notation best_chain := (@DdFinal.best_chain S eqb eqb_spec P at_depth nv C k0 sp).
Local Notation best_path_ok := (@DdFinal.best_path_ok S eqb eqb_spec P at_depth nv C k0 sp).
Local Notation max_by_value_ok := (@DdFinal.max_by_value_ok S).
Local Notation linv_lel := (@DdFinal.linv_lel S eqb eqb_spec P R at_depth nv C Hwf Hbd k0 sp).
Local Notation reach_term := (@DdFinal.reach_term S).
Local Notation reach_step := (@DdFinal.reach_step S).
Variable solo : bool.
Variable G : nat -> S -> info -> Prop.
Notation L := (Datatypes.S N).
Notation thresholds := (thresholds S).
Local Notation wp := (@BarWp.wp S eqb solo L G).
Local Notation wp_bind := (@BarWp.wp_bind S eqb solo L G).
Local Notation wp_mono := (@BarWp.wp_mono S eqb solo L G).
Local Notation wp_pure := (@BarWp.wp_pure S eqb solo L G).
Local Notation env := (@BarWp.env S solo L).
Local Notation lookup := (@BarWp.lookup S eqb).
Local Notation updated := (@BarWp.updated S eqb).

(** ** The thresholds of the nodes *)
(** Nodes of the last layer and nodes an edge starts from. *)
Definition live (d : dd) (id : nat) : Prop :=
  In id (nextids d) \/ exists m mn e ed, get_node d m = Some mn /\ inb (g_edges d) (n_inbound mn) e ed /\ e_from ed = id.
(** Nodes of the last layer that get the flag of the cutset without belonging to it. *)
Definition last_cut (d : dd) (id : nat) : Prop :=
  In id (nextids d) /\ match g_ctype d with LastExactLayer => g_approx d = false | Frontier => exists n, get_node d id = Some n /\ is_exact (n_flags n) = true end.

(** What never changes during the pass: [d] before, [d'] now. *)
Record frame (d d' : dd) : Prop := {
  fr_edges : g_edges d' = g_edges d;
  fr_len : length (g_nodes d') = length (g_nodes d);
  fr_rest : g_root_pa d' = g_root_pa d /\ g_next d' = g_next d /\ g_best d' = g_best d /\ g_exact d' = g_exact d /\ g_approx d' = g_approx d /\
     g_ctype d' = g_ctype d /\ g_prev d' = g_prev d /\ g_explored d' = g_explored d /\ g_lel d' = g_lel d;
  fr_nodes : forall id n, get_node d id = Some n -> exists n', get_node d' id = Some n' /\ coreeq n n' /\ n_rub n' = n_rub n /\
     is_deleted (n_flags n') = is_deleted (n_flags n) /\ is_pruned_by_barrier (n_flags n') = is_pruned_by_barrier (n_flags n) /\ n_theta n' <= n_theta n /\
     (~ live d id -> ~ In id (g_cutset d) -> n_theta n' = n_theta n);
  fr_cutflag : forall id n', get_node d' id = Some n' -> is_cutset (n_flags n') = true -> In id (g_cutset d') \/ last_cut d id;
  fr_flagcut : forall id n', get_node d' id = Some n' -> In id (g_cutset d') -> is_cutset (n_flags n') = true;
  fr_cutold : incl (g_cutset d) (g_cutset d');
  fr_cutlel : g_ctype d = LastExactLayer -> g_cutset d' = g_cutset d;
  fr_cutnew : forall q, In q (g_cutset d') -> In q (g_cutset d) \/
     exists qn e m mn ed, get_node d' q = Some qn /\ is_exact (n_flags qn) = true /\ is_marked (n_flags qn) = true /\
       get_node d m = Some mn /\ inb (g_edges d) (n_inbound mn) e ed /\ e_from ed = q /\ is_exact (n_flags mn) = false /\ live d m;
  fr_cutnd : NoDup (g_cutset d) -> NoDup (g_cutset d');
  fr_live : forall id n', get_node d' id = Some n' -> is_marked (n_flags n') = true -> live d id }.

(** From [a] to [b] nothing happens to the nodes from [M] on. *)
Definition later (M : nat) (a b : dd) : Prop := forall id n, get_node a id = Some n -> exists n', get_node b id = Some n' /\
  n_theta n' <= n_theta n /\ n_bot n <= n_bot n' /\ (is_marked (n_flags n) = true -> is_marked (n_flags n') = true) /\
  (is_cutset (n_flags n) = true -> is_cutset (n_flags n') = true) /\ ((M <= id)%nat -> n' = n) /\ is_exact (n_flags n') = is_exact (n_flags n).
Lemma later_refl M a : later M a a.
Proof. intros id n G1. exists n. split; [exact G1|]. split; [lia|]. split; [lia|]. auto. Qed.
Lemma later_trans M a b c : later M a b -> later M b c -> later M a c.
Proof.
  intros H1 H2 id n G1. destruct (H1 id n G1) as (n1 & G2 & A1 & A2 & A3 & A4 & A5 & A6). destruct (H2 id n1 G2) as (n2 & G3 & B1 & B2 & B3 & B4 & B5 & B6).
  exists n2. split; [exact G3|]. split; [lia|]. split; [lia|]. split; [auto|]. split; [auto|]. split; [|congruence]. intros H. rewrite (B5 H). auto.
Qed.
Lemma later_weaken M M' a b : (M <= M')%nat -> later M a b -> later M' a b.
Proof. intros H H1 id n G1. destruct (H1 id n G1) as (n1 & G2 & A1 & A2 & A3 & A4 & A5 & A6). exists n1. do 5 (split; [assumption|]). split; [intros; apply A5; lia|exact A6]. Qed.

(** The edge [ed] into node [n] has been taken into account. *)
Definition seen (ct : cutset_type) (d' : dd) (n : node) (ed : edge) : Prop :=
  exists pn, get_node d' (e_from ed) = Some pn /\ n_theta pn <= sat_sub (n_theta n) (e_cost ed) /\
    (is_marked (n_flags n) = true -> is_marked (n_flags pn) = true /\ sat_add (n_bot n) (e_cost ed) <= n_bot pn) /\
    (ct = Frontier -> is_marked (n_flags n) = true -> is_exact (n_flags n) = false -> is_exact (n_flags pn) = true -> is_cutset (n_flags pn) = true).
Lemma seen_later ct M a b n ed : seen ct a n ed -> later M a b -> seen ct b n ed.
Proof.
  intros (pn & H1 & H2 & H3 & H6) HL. destruct (HL (e_from ed) pn H1) as (pn' & G1 & A1 & A2 & A3 & A4 & _ & A6). exists pn'. split; [exact G1|]. split; [lia|]. split.
  - intros Hm. destruct (H3 Hm) as [H4 H5]. split; [auto|lia].
  - rewrite A6. auto.
Qed.
Definition cut_bound (lb : Z) (n : node) : Z := if sat_add (n_value n) (n_bot n) <? lb then sat_sub lb (n_bot n) else n_value n.
(** The nodes from [M] on have been processed. *)
Definition done (lb : Z) (d d' : dd) (M : nat) : Prop := forall id n', (M <= id)%nat -> get_node d' id = Some n' -> is_deleted (n_flags n') = false ->
  (is_cutset (n_flags n') = true -> n_theta n' <= cut_bound lb n') /\
  (forall e ed, inb (g_edges d) (n_inbound n') e ed -> seen (g_ctype d) d' n' ed).
Lemma done_later lb d a b M : length (g_nodes b) = length (g_nodes a) -> done lb d a M -> later M a b -> done lb d b M.
Proof.
  intros Hlen HD HL id n' Hid Gn Hdel. destruct (get_some a id) as [n Ga]; [rewrite <- Hlen; eapply get_lt; eauto|].
  destruct (HL id n Ga) as (n1 & G1 & _ & _ & _ & _ & H1 & _). assert (n1 = n') as -> by congruence. rewrite (H1 Hid) in *. destruct (HD id n Hid Ga Hdel) as [D1 D2].
  split; [exact D1|]. intros e ed He. eapply seen_later; [eapply D2; exact He|exact HL].
Qed.

(** Frames survive an update of one node. *)
Lemma frame_upd d d' d'' p pn pn' : frame d d' -> chg (eq p) d' d'' -> g_edges d'' = g_edges d' -> g_explored d'' = g_explored d' ->
  get_node d' p = Some pn -> get_node d'' p = Some pn' ->
  coreeq pn pn' -> n_rub pn' = n_rub pn -> is_deleted (n_flags pn') = is_deleted (n_flags pn) ->
  is_pruned_by_barrier (n_flags pn') = is_pruned_by_barrier (n_flags pn) -> n_theta pn' <= n_theta pn ->
  (~ live d p -> ~ In p (g_cutset d) -> n_theta pn' = n_theta pn) ->
  (is_cutset (n_flags pn') = true -> In p (g_cutset d') \/ last_cut d p) ->
  (is_cutset (n_flags pn) = true -> is_cutset (n_flags pn') = true) ->
  (is_marked (n_flags pn) = true -> is_marked (n_flags pn') = true) ->
  (is_marked (n_flags pn') = true -> live d p) -> frame d d''.
Proof.
  intros HF HC HE HX Gp Gp' Cp Rp Dp Bp Tp Up Kp Kp' Mp Mp'. destruct (cg_rest _ _ _ HC) as [r1 r2 r3 r4 r5 r6].
  assert (Hg : forall i m, get_node d'' i = Some m -> (i = p /\ m = pn') \/ (i <> p /\ get_node d' i = Some m)).
  { intros i m Hi. destruct (Nat.eq_dec i p) as [->|Hip]; [left; split; [reflexivity|congruence]|right]. split; [exact Hip|]. rewrite (cg_nodes _ _ _ HC) in Hi by congruence. exact Hi. }
  assert (Hg' : forall i m, i <> p -> get_node d' i = Some m -> get_node d'' i = Some m) by (intros i m Hi Gi; rewrite (cg_nodes _ _ _ HC) by congruence; exact Gi).
  constructor.
  - rewrite HE. apply HF.
  - rewrite (cg_len _ _ _ HC). apply HF.
  - rewrite r1, r3, r4, r5, r6, HX, (cg_root _ _ _ HC), (cg_next _ _ _ HC), (cg_ctype _ _ _ HC). apply HF.
  - intros i m Gi. destruct (fr_nodes _ _ HF i m Gi) as (m' & W1 & W2 & W3 & W4 & W5 & W6 & W7). destruct (Nat.eq_dec i p) as [->|Hip]; [|exists m'; auto 10].
    assert (m' = pn) as -> by congruence. exists pn'. split; [exact Gp'|]. split; [eapply coreeq_trans; eauto|]. split; [congruence|]. split; [congruence|]. split; [congruence|]. split; [lia|].
    intros H1 H2. rewrite (Up H1 H2). auto.
  - intros i m Gi. rewrite r2. destruct (Hg i m Gi) as [[-> ->]|[Hip Gi']]; [exact Kp|apply (fr_cutflag _ _ HF i m Gi')].
  - intros i m Gi. rewrite r2. destruct (Hg i m Gi) as [[-> ->]|[Hip Gi']]; [intros H; apply Kp', (fr_flagcut _ _ HF p pn Gp H)|apply (fr_flagcut _ _ HF i m Gi')].
  - rewrite r2. apply HF.
  - rewrite r2. apply HF.
  - intros q Hq. rewrite r2 in Hq. destruct (fr_cutnew _ _ HF q Hq) as [H|(qn & e1 & m & mn & ed1 & H1 & H2 & H3 & H4)]; [auto|right].
    destruct (Nat.eq_dec q p) as [->|Hqp]; [|exists qn, e1, m, mn, ed1; auto].
    assert (qn = pn) as -> by congruence. exists pn', e1, m, mn, ed1. split; [exact Gp'|]. split; [destruct Cp; congruence|]. auto.
  - rewrite r2. apply HF.
  - intros i m Gi Mi. destruct (Hg i m Gi) as [[-> ->]|[Hip Gi']]; [auto|apply (fr_live _ _ HF i m Gi' Mi)].
Qed.
Lemma later_upd d' d'' p pn pn' M : chg (eq p) d' d'' -> get_node d' p = Some pn -> get_node d'' p = Some pn' -> (p < M)%nat ->
  n_theta pn' <= n_theta pn -> n_bot pn <= n_bot pn' -> (is_marked (n_flags pn) = true -> is_marked (n_flags pn') = true) ->
  (is_cutset (n_flags pn) = true -> is_cutset (n_flags pn') = true) -> is_exact (n_flags pn') = is_exact (n_flags pn) -> later M d' d''.
Proof.
  intros HC Gp Gp' Hlt H1 H2 H3 H4 H5 id n Gn. destruct (Nat.eq_dec id p) as [->|Hip].
  - assert (n = pn) as -> by congruence. exists pn'. split; [exact Gp'|]. split; [exact H1|]. split; [exact H2|]. split; [exact H3|]. split; [exact H4|]. split; [lia|exact H5].
  - exists n. split; [rewrite (cg_nodes _ _ _ HC) by congruence; exact Gn|]. split; [lia|]. split; [lia|]. auto.
Qed.

Lemma edge_step_ok d past d' nid n' e ed : arena None d past -> frame d d' -> get_node d' nid = Some n' ->
  inb (g_edges d) (n_inbound n') e ed ->
  exists d'', edge_step nid d' ed = Some d'' /\ frame d d'' /\ later nid d' d'' /\ seen (g_ctype d) d'' n' ed.
Proof.
  intros HA HF Gn He.
  assert (Hn0 : exists n0, get_node d nid = Some n0 /\ coreeq n0 n').
  { destruct (get_some d nid) as (n0 & G0); [rewrite <- (fr_len _ _ HF); eapply get_lt; eauto|]. exists n0. split; [exact G0|].
    destruct (fr_nodes _ _ HF nid n0 G0) as (n1 & G1 & C1 & _). assert (n1 = n') as -> by congruence. exact C1. }
  destruct Hn0 as (n0 & G0 & C0).
  assert (He0 : inb (g_edges d) (n_inbound n0) e ed) by (destruct C0; congruence).
  assert (Heo : edge_ok d past nid n0 ed) by (apply (no_edges _ _ _ _ (no_base _ _ _ _ (a_nodes _ _ _ HA nid n0 G0 ltac:(discriminate))) e ed He0)).
  destruct Heo as [Hpp Hlt _ (p0 & Gp0 & Dp & _)]. set (p := e_from ed) in *.
  assert (Hlive : live d p) by (right; exists nid, n0, e, ed; auto).
  destruct (fr_nodes _ _ HF p p0 Gp0) as (pn & Gp & Cp & _).
  assert (Hne : nid <> p) by lia.
  unfold edge_step. fold p. rewrite Gn. cbn [obind].
  set (ue := sat_add (n_bot n') (e_cost ed)).
  assert (E1 : exists d1 p1, (if is_marked (n_flags n') then
      upd_node d' p (fun m => node_flags (node_bot m (Z.max (n_bot m) ue)) (set_marked (n_flags m) true)) else Some d') = Some d1 /\
      chg (eq p) d' d1 /\ g_edges d1 = g_edges d' /\ get_node d1 p = Some p1 /\ coreeq pn p1 /\ n_rub p1 = n_rub pn /\ n_theta p1 = n_theta pn /\
      is_deleted (n_flags p1) = is_deleted (n_flags pn) /\ is_pruned_by_barrier (n_flags p1) = is_pruned_by_barrier (n_flags pn) /\ is_cutset (n_flags p1) = is_cutset (n_flags pn) /\
      n_bot pn <= n_bot p1 /\ (is_marked (n_flags pn) = true -> is_marked (n_flags p1) = true) /\ (is_marked (n_flags n') = true -> is_marked (n_flags p1) = true /\ ue <= n_bot p1)).
  { destruct (is_marked (n_flags n')) eqn:Em.
    - destruct (upd_node_chg d' p (fun m => node_flags (node_bot m (Z.max (n_bot m) ue)) (set_marked (n_flags m) true)) pn Gp) as (d1 & E1 & C1 & X1 & G1).
      eexists d1, _. split; [exact E1|]. split; [exact C1|]. split; [exact X1|]. split; [exact G1|]. cbn.
      split; [constructor; try reflexivity; cbn; [rewrite exact_set_marked|rewrite relaxed_set_marked]; reflexivity|]. split; [reflexivity|]. split; [reflexivity|].
      rewrite deleted_set_marked, barrier_set_marked, cutset_set_marked, marked_set_marked. repeat (split; [reflexivity|]). split; [lia|]. split; [auto|]. intros _. split; [reflexivity|lia].
    - exists d', pn. split; [reflexivity|]. split; [constructor; try reflexivity; [exists []; rewrite app_nil_r; reflexivity|constructor; reflexivity]|]. split; [reflexivity|]. split; [exact Gp|].
      split; [apply coreeq_refl|]. do 5 (split; [reflexivity|]). split; [lia|]. split; [auto|discriminate]. }
  destruct E1 as (d1 & p1 & E1 & C1 & X1 & G1 & Cp1 & Rp1 & Tp1 & Dp1 & Bp1 & Kp1 & Op1 & Mp1 & Sp1). rewrite E1. cbn [obind]. clear E1.
  assert (Gn1 : get_node d1 nid = Some n') by (rewrite (cg_nodes _ _ _ C1) by congruence; exact Gn).
  rewrite Gn1. cbn [obind]. set (th := sat_sub (n_theta n') (e_cost ed)).
  destruct (upd_node_chg d1 p (fun m => node_theta m (Z.min (n_theta m) th)) p1 G1) as (d2 & E2 & C2 & X2 & G2). rewrite E2. cbn [obind]. clear E2.
  set (p2 := node_theta p1 (Z.min (n_theta p1) th)) in *.
  assert (Gn2 : get_node d2 nid = Some n') by (rewrite (cg_nodes _ _ _ C2) by congruence; exact Gn1).
  rewrite Gn2. cbn [obind]. rewrite G2. cbn [obind].
  assert (C12 : chg (eq p) d' d2) by (eapply chg_trans; eauto).
  assert (HF2 : frame d d2).
  { eapply (frame_upd d d' d2 p pn p2 HF C12); try assumption; [congruence|apply (cg_expl _ _ _ C12)| |cbn; rewrite Tp1; lia| | | |].
    - eapply coreeq_trans; [exact Cp1|]. constructor; reflexivity.
    - intros H. contradiction.
    - cbn. rewrite Kp1. apply (fr_cutflag _ _ HF p pn Gp).
    - cbn. rewrite Kp1. auto.
    - auto. }
  assert (HL2 : later nid d' d2).
  { apply (later_upd d' d2 p pn p2 nid C12 Gp G2 Hlt); [cbn; rewrite Tp1; lia|exact Op1|exact Mp1|cbn; rewrite Kp1; auto|cbn; exact (ce_exact _ _ Cp1)]. }
  assert (HS2 : n_theta p2 <= sat_sub (n_theta n') (e_cost ed)) by (cbn; unfold th; lia).
  assert (Hct2 : g_ctype d2 = g_ctype d) by apply HF2. rewrite Hct2.
  assert (Hkeep : (g_ctype d = Frontier -> is_marked (n_flags n') = true -> is_exact (n_flags n') = false -> is_exact (n_flags p2) = true -> is_cutset (n_flags p2) = true) ->
    exists d'', Some d2 = Some d'' /\ frame d d'' /\ later nid d' d'' /\ seen (g_ctype d) d'' n' ed).
  { intros H. exists d2. split; [reflexivity|]. split; [exact HF2|]. split; [exact HL2|]. exists p2. split; [exact G2|]. split; [exact HS2|]. split; [exact Sp1|exact H]. }
  destruct (g_ctype d) eqn:Ect; [apply Hkeep; discriminate|].
  destruct (is_marked (n_flags n') && negb (is_exact (n_flags n')) && is_exact (n_flags p2) && negb (is_cutset (n_flags p2))) eqn:Eb; [|apply Hkeep; intros _ h1 h2 h3; rewrite h1, h2, h3 in Eb; destruct (is_cutset (n_flags p2)); [reflexivity|discriminate]].
  clear Hkeep. apply andb_true_iff in Eb as [Eb B4]. apply andb_true_iff in Eb as [Eb B3]. apply andb_true_iff in Eb as [B1 B2]. apply negb_true_iff in B2, B4.
  destruct (upd_node_chg d2 p (fun m => node_flags m (set_cutset (n_flags m) true)) p2 G2) as (d3 & E3 & C3 & X3 & G3). rewrite E3. cbn [obind].
  set (p3 := node_flags p2 (set_cutset (n_flags p2) true)) in *. set (d4 := set_cut d3 (g_cutset d3 ++ [p])).
  destruct (cg_rest _ _ _ C3) as [r1 r2 r3 r4 r5 r6].
  assert (Cp3 : coreeq p2 p3) by (constructor; try reflexivity; cbn; [rewrite exact_set_cutset|rewrite relaxed_set_cutset]; reflexivity).
  assert (Hg : forall i m, get_node d4 i = Some m -> (i = p /\ m = p3) \/ (i <> p /\ get_node d2 i = Some m)).
  { intros i m Hi. change (get_node d3 i = Some m) in Hi. destruct (Nat.eq_dec i p) as [->|Hip]; [left; split; [reflexivity|congruence]|right]. split; [exact Hip|]. rewrite (cg_nodes _ _ _ C3) in Hi by congruence. exact Hi. }
  assert (Hg' : forall i m, i <> p -> get_node d2 i = Some m -> get_node d4 i = Some m) by (intros i m Hi Gi; change (get_node d3 i = Some m); rewrite (cg_nodes _ _ _ C3) by congruence; exact Gi).
  assert (Hnc : ~ In p (g_cutset d2)) by (intros H; apply (fr_flagcut _ _ HF2 p p2 G2) in H; congruence).
  exists d4. split; [reflexivity|]. split; [|split].
  - constructor.
    + cbn. rewrite X3. apply HF2.
    + cbn. rewrite (cg_len _ _ _ C3). apply HF2.
    + cbn. rewrite r1, r3, r4, r5, r6, (cg_expl _ _ _ C3), (cg_root _ _ _ C3), (cg_next _ _ _ C3), (cg_ctype _ _ _ C3). apply HF2.
    + intros i m Gi. destruct (fr_nodes _ _ HF2 i m Gi) as (m' & W1 & W2 & W3 & W4 & W5 & W6 & W7). destruct (Nat.eq_dec i p) as [->|Hip]; [|exists m'; auto 10].
      assert (m' = p2) as -> by congruence. exists p3. split; [exact G3|]. split; [eapply coreeq_trans; eauto|]. split; [exact W3|]. cbn. rewrite deleted_set_cutset, barrier_set_cutset. auto.
    + intros i m Gi. cbn. rewrite r2, in_app_iff. destruct (Hg i m Gi) as [[-> ->]|[Hip Gi']]; [intros _; left; right; left; reflexivity|].
      intros H. destruct (fr_cutflag _ _ HF2 i m Gi' H); auto.
    + intros i m Gi. cbn. rewrite r2, in_app_iff. destruct (Hg i m Gi) as [[-> ->]|[Hip Gi']]; [intros _; cbn; apply cutset_set_cutset|].
      intros [H|[H|[]]]; [apply (fr_flagcut _ _ HF2 i m Gi' H)|congruence].
    + cbn. rewrite r2. apply incl_appl, HF2.
    + congruence.
    + intros q Hq. cbn in Hq. rewrite r2 in Hq. assert (Hq' : In q (g_cutset d2) \/ q = p) by (apply in_app_iff in Hq as [Hq|[Hq|[]]]; auto).
      destruct Hq' as [Hq'| ->].
      * destruct (fr_cutnew _ _ HF2 q Hq') as [H|(qn & e1 & m & mn & ed1 & H1 & H2 & H3 & H4)]; [auto|right].
        exists qn, e1, m, mn, ed1. split; [apply Hg'; [intros ->; contradiction|exact H1]|auto].
      * right. exists p3, e, nid, n0, ed. split; [exact G3|]. split; [cbn; rewrite exact_set_cutset; exact B3|]. split; [cbn; rewrite marked_set_cutset; apply (Sp1 B1)|].
        split; [exact G0|]. split; [exact He0|]. split; [reflexivity|]. split; [destruct C0; congruence|]. apply (fr_live _ _ HF nid n' Gn B1).
    + intros H. cbn. rewrite r2. apply nodup_app_intro; [apply HF2; exact H|constructor; [intros []|constructor]|]. intros x Hx [->|[]]. contradiction.
    + intros i m Gi Mi. destruct (Hg i m Gi) as [[-> ->]|[Hip Gi']]; [exact Hlive|apply (fr_live _ _ HF2 i m Gi' Mi)].
  - eapply later_trans; [exact HL2|]. intros i m Gi. destruct (Nat.eq_dec i p) as [->|Hip]; [|exists m; split; [apply Hg'; auto|split; [lia|split; [lia|auto 6]]]].
    assert (m = p2) as -> by congruence. exists p3. split; [exact G3|]. split; [cbn; lia|]. split; [cbn; lia|]. split; [cbn; rewrite marked_set_cutset; auto|]. split; [intros _; cbn; apply cutset_set_cutset|]. split; [lia|exact (ce_exact _ _ Cp3)].
  - exists p3. split; [exact G3|]. split; [exact HS2|]. split; [intros H; cbn; rewrite marked_set_cutset; auto|intros; cbn; apply cutset_set_cutset].
Qed.

Lemma edges_loop_ok d past nid n' : arena None d past ->
  forall fuel h d', match h with None => True | Some e => (e < fuel)%nat end -> head_ok (g_edges d) h ->
  (forall e ed, inb (g_edges d) h e ed -> inb (g_edges d) (n_inbound n') e ed) ->
  frame d d' -> get_node d' nid = Some n' ->
  exists d'', edges_loop fuel nid d' h = Some d'' /\ frame d d'' /\ later nid d' d'' /\ (forall e ed, inb (g_edges d) h e ed -> seen (g_ctype d) d'' n' ed).
Proof.
  intros HA. induction fuel as [|fuel IH]; intros h d' Hf Hh Hsub HF Gn.
  - destruct h; [lia|]. exists d'. split; [reflexivity|]. split; [exact HF|]. split; [apply later_refl|]. intros e ed H. apply inb_none in H. destruct H.
  - destruct h as [eid|]; cbn [edges_loop].
    + rewrite (fr_edges _ _ HF). cbn in Hh. destruct (nth_error (g_edges d) eid) as [ed|] eqn:Ed; [|apply nth_error_None in Ed; lia].
      cbn [obind]. pose proof (inb_here _ _ _ Ed) as Hhere.
      destruct (edge_step_ok d past d' nid n' eid ed HA HF Gn (Hsub _ _ Hhere)) as (d1 & E1 & F1 & U1 & S1).
      rewrite E1. cbn [obind].
      assert (Hnx := a_edges _ _ _ HA eid ed Ed).
      assert (Gn1 : get_node d1 nid = Some n').
      { destruct (U1 nid n' Gn) as (m & Gm & _ & _ & _ & _ & Hm & _). rewrite Gm, (Hm ltac:(lia)). reflexivity. }
      destruct (IH (e_next ed) d1) as (d2 & E2 & F2 & U2 & S2).
      * destruct (e_next ed); [lia|exact I].
      * destruct (e_next ed); cbn; [lia|exact I].
      * intros e' ed' H. apply Hsub. eapply inb_next; eauto.
      * exact F1.
      * exact Gn1.
      * exists d2. split; [exact E2|]. split; [exact F2|]. split; [eapply later_trans; eauto|].
        intros e' ed' H. inversion H as [? ? H1|? ? ? ? H1 H2]; subst.
        -- assert (ed' = ed) as -> by congruence. eapply seen_later; [exact S1|exact U2].
        -- assert (ed0 = ed) as -> by congruence. apply S2 with (e := e'). exact H2.
    + exists d'. split; [reflexivity|]. split; [exact HF|]. split; [apply later_refl|]. intros e ed H. apply inb_none in H. destruct H.
Qed.

(** What the pass writes: the thresholds [Tb] before, [T] after the nodes from [M] on. *)
Definition late_entry (d d' : dd) (M : nat) (T : thresholds) (depth : nat) (s : S) : Prop :=
  exists id n', (M <= id)%nat /\ get_node d' id = Some n' /\ n_depth n' = depth /\ n_state n' = s /\ is_exact (n_flags n') = true /\
    is_pruned_by_barrier (n_flags n') = false /\ is_deleted (n_flags n') = false /\
    (g_ctype d = LastExactLayer -> forall l, g_lel d = Some l -> (depth <= l)%nat) /\
    lookup T depth s = Some (mk_info (n_theta n') (negb (is_cutset (n_flags n')))).
Definition late (d d' : dd) (M : nat) (Tb T : thresholds) : Prop :=
  forall depth s, lookup T depth s = lookup Tb depth s \/ late_entry d d' M T depth s.

Lemma late_mono d a b M M' Tb T : (M' <= M)%nat -> later M a b -> late d a M Tb T -> late d b M' Tb T.
Proof.
  intros HM HL H depth s. destruct (H depth s) as [E|(id & n & H1 & H2 & H3)]; [auto|right].
  destruct (HL id n H2) as (n' & G' & _ & _ & _ & _ & Hn & _). rewrite (Hn H1) in G'. exists id, n. split; [lia|]. auto.
Qed.

Lemma cut_theta_core lb n : coreeq n (cut_theta lb n) /\ n_flags (cut_theta lb n) = n_flags n /\ n_rub (cut_theta lb n) = n_rub n /\
  n_bot (cut_theta lb n) = n_bot n /\ n_theta (cut_theta lb n) <= n_theta n /\
  (is_cutset (n_flags n) = false -> cut_theta lb n = n) /\ (is_cutset (n_flags n) = true -> n_theta (cut_theta lb n) <= cut_bound lb n).
Proof.
  unfold cut_theta, cut_bound. destruct (is_cutset (n_flags n)).
  - destruct (sat_add (n_value n) (n_bot n) <? lb); cbn; (split; [constructor; reflexivity|]); (split; [reflexivity|]); (split; [reflexivity|]); (split; [reflexivity|]); (split; [lia|]); (split; [discriminate|]); intros _; lia.
  - split; [apply coreeq_refl|]. split; [reflexivity|]. split; [reflexivity|]. split; [reflexivity|]. split; [lia|]. split; [reflexivity|discriminate].
Qed.

Hypothesis HG : forall k s i, (k0 <= k)%nat -> G k s i.

Lemma bottom_up_node_ok lb d past d' i Tb T : arena None d past -> frame d d' -> done lb d d' (Datatypes.S i) -> (i < length (g_nodes d))%nat ->
  length T = L -> (solo = true -> late d d' (Datatypes.S i) Tb T) ->
  wp (bottom_up_node lb d' i) T (fun d'' T' => frame d d'' /\ later (Datatypes.S i) d' d'' /\ done lb d d'' i /\ length T' = L /\ (solo = true -> late d d'' i Tb T')).
Proof.
  intros HA HF HD Hi HT HLt. destruct (get_some d i Hi) as [n0 G0]. destruct (fr_nodes _ _ HF i n0 G0) as (n & Gn & Cn & _).
  unfold bottom_up_node. apply (wp_pure _ n); [exact Gn|]. destruct (is_deleted (n_flags n)) eqn:Edel.
  { cbn [wp]. split; [exact HF|]. split; [apply later_refl|]. split; [|split; [exact HT|intros Hs; eapply late_mono; [|apply later_refl|apply HLt; exact Hs]; lia]].
    intros id n' Hid G' Hdel. destruct (Nat.eq_dec id i) as [->|Hne]; [congruence|]. apply (HD id n'); [lia|exact G'|exact Hdel]. }
  destruct (upd_node_chg d' i (cut_theta lb) n Gn) as (d1 & E1 & C1 & X1 & G1). apply (wp_pure _ d1); [exact E1|].
  destruct (cut_theta_core lb n) as (K1 & K2 & K3 & K4 & K5 & K6 & K7). set (n1 := cut_theta lb n) in *.
  apply (wp_pure _ n1); [exact G1|].
  assert (HF1 : frame d d1).
  { apply (frame_upd d d' d1 i n n1 HF C1 X1 (cg_expl _ _ _ C1) Gn G1 K1 K3); rewrite ?K2; auto.
    - intros Hl Hc. rewrite K6; [reflexivity|]. destruct (is_cutset (n_flags n)) eqn:Ec; [|reflexivity]. exfalso.
      destruct (fr_cutflag _ _ HF i n Gn Ec) as [H|[H _]]; [|apply Hl; left; exact H].
      destruct (fr_cutnew _ _ HF i H) as [H'|(qn & e1 & m & mn & ed1 & H1 & H2 & H3 & H4 & H5 & H6 & _)]; [contradiction|]. apply Hl. right. exists m, mn, e1, ed1. auto.
    - apply (fr_cutflag _ _ HF i n Gn).
    - apply (fr_live _ _ HF i n Gn). }
  assert (HL1 : later (Datatypes.S i) d' d1).
  { apply (later_upd d' d1 i n n1 _ C1 Gn G1); [lia|exact K5|lia|rewrite K2; auto|rewrite K2; auto|rewrite K2; reflexivity]. }
  assert (HD1 : done lb d d1 (Datatypes.S i)) by (eapply done_later; [apply (cg_len _ _ _ C1)|exact HD|exact HL1]).
  assert (Hok := a_nodes _ _ _ HA i n0 G0 ltac:(discriminate)).
  assert (Hdep : n_depth n1 = n_depth n0) by (destruct K1, Cn; congruence).
  assert (Hinb : n_inbound n1 = n_inbound n0) by (destruct K1, Cn; congruence).
  apply wp_bind. apply wp_mono with (Q := fun _ T' => length T' = L /\ (solo = true -> late d d1 i Tb T')).
  - intros _ T' [HT' HLt'].
    destruct (edges_loop_ok d past i n1 HA (Datatypes.S (length (g_edges d1))) (n_inbound n1) d1) as (d2 & E2 & F2 & U2 & S2); auto.
    { rewrite Hinb, X1, (fr_edges _ _ HF). assert (Hh := no_head _ _ _ _ (no_base _ _ _ _ Hok)). destruct (n_inbound n0); [cbn in Hh; lia|exact I]. }
    { rewrite Hinb. apply (no_base _ _ _ _ Hok). }
    rewrite E2. cbn [pure wp]. split; [exact F2|]. assert (U2' : later (Datatypes.S i) d1 d2) by (eapply later_weaken; [|exact U2]; lia).
    split; [eapply later_trans; eauto|]. split; [|split; [exact HT'|intros Hs; eapply late_mono; [|exact U2|apply HLt'; exact Hs]; lia]].
    assert (HD2 : done lb d d2 (Datatypes.S i)) by (eapply done_later; [rewrite (fr_len _ _ F2), (fr_len _ _ HF1); reflexivity|exact HD1|exact U2']).
    intros id n' Hid G' Hdel. destruct (Nat.eq_dec id i) as [->|Hne]; [|apply (HD2 id n'); [lia|exact G'|exact Hdel]].
    destruct (U2 i n1 G1) as (n2 & G2 & _ & _ & _ & _ & H2 & _). rewrite (H2 ltac:(lia)) in G2. assert (n' = n1) as -> by congruence.
    split; [rewrite K2; intros Hc; specialize (K7 Hc); unfold cut_bound in *; rewrite (ce_value _ _ K1), K4; exact K7|exact S2].
  - assert (Hsame : solo = true -> late d d1 i Tb T) by (intros Hs; eapply late_mono; [|exact HL1|apply HLt; exact Hs]; lia).
    destruct (is_exact (n_flags n1) && negb (is_pruned_by_barrier (n_flags n1))) eqn:Eb; [|cbn [wp]; auto].
    apply andb_true_iff in Eb as [B1 B2]. apply negb_true_iff in B2. pose proof (no_depth _ _ _ _ (no_base _ _ _ _ Hok)) as Hr.
    eapply wp_mono; [|apply (wp_try_update S eqb eqb_spec solo L G d1); [lia|exact HT|intros _; apply HG; lia]].
    intros _ T' [HT' HU]. split; [exact HT'|]. intros Hs. destruct (HU Hs) as [->|[Hsk HU']]; [auto|]. intros depth s.
    destruct (HU' depth s) as [E|(-> & -> & E)].
    + destruct (Hsame Hs depth s) as [E'|W]; [left; congruence|right]. destruct W as (id & m & W1 & W2 & W3 & W4 & W5 & W6 & W7 & W8 & W9). exists id, m. rewrite E. auto 12.
    + right. exists i, n1. rewrite K2 in *. split; [lia|]. repeat (split; [assumption || reflexivity|]). split; [|exact E]. intros Hct l Hl.
      destruct (fr_rest _ _ HF1) as (_ & _ & _ & _ & _ & R1 & _ & _ & R2). rewrite R1, R2, Hct, Hl in Hsk. apply Nat.ltb_ge in Hsk. exact Hsk.
Qed.

Lemma bottom_up_loop lb d past Tb : arena None d past -> forall M d' T, frame d d' -> done lb d d' M -> (M <= length (g_nodes d))%nat ->
  length T = L -> (solo = true -> late d d' M Tb T) ->
  wp (pfold (bottom_up_node lb) (rev (seq 0 M)) d') T (fun d'' T' => frame d d'' /\ later (length (g_nodes d)) d' d'' /\ done lb d d'' 0 /\ length T' = L /\ (solo = true -> late d d'' 0 Tb T')).
Proof.
  intros HA. induction M as [|M IH]; intros d' T HF HD HM HT HLt.
  - cbn [seq rev pfold wp]. split; [exact HF|]. split; [apply later_refl|]. auto.
  - rewrite seq_S, rev_app_distr. cbn [rev app pfold Nat.add]. apply wp_bind.
    eapply wp_mono; [|apply (bottom_up_node_ok lb d past d' M Tb T); auto; lia].
    intros d1 T1 (F1 & U1 & D1 & L1 & A1). cbv beta. eapply wp_mono; [|apply IH; auto; lia].
    intros d2 T2 (F2 & U2 & D2 & L2 & A2). split; [exact F2|]. split; [|auto]. eapply later_trans; [eapply later_weaken; [|exact U1]; lia|exact U2].
Qed.

(** The last layer. *)
Lemma init_bottom_ok d past d' t : arena None d past -> frame d d' -> In t (nextids d) -> (forall p, In p past -> ~ In p (nextids d)) ->
  exists d'', init_bottom d' t = Some d'' /\ frame d d'' /\
    (exists tn, get_node d'' t = Some tn /\ is_marked (n_flags tn) = true /\ n_bot tn = 0 /\ (last_cut d t -> is_cutset (n_flags tn) = true)) /\
    (forall id, id <> t -> get_node d'' id = get_node d' id).
Proof.
  intros HA HF Ht Hdisj. apply nextids_in in Ht as Hs. destruct Hs as (s & Hs). destruct (a_next _ _ _ HA s t Hs) as (n0 & G0 & _).
  destruct (fr_nodes _ _ HF t n0 G0) as (n & Gn & Cn & _). unfold init_bottom.
  destruct (upd_node_chg d' t (fun n => node_flags (node_bot n 0) (set_marked (n_flags n) true)) n Gn) as (d1 & E1 & C1 & X1 & G1).
  rewrite E1. cbn [obind]. rewrite G1. cbn [obind]. set (n1 := node_flags (node_bot n 0) (set_marked (n_flags n) true)) in *.
  assert (Hc1 : coreeq n n1) by (constructor; try reflexivity; cbn; [rewrite exact_set_marked|rewrite relaxed_set_marked]; reflexivity).
  assert (HF1 : frame d d1).
  { apply (frame_upd d d' d1 t n n1 HF C1 X1 (cg_expl _ _ _ C1) Gn G1 Hc1); cbn; rewrite ?deleted_set_marked, ?barrier_set_marked, ?cutset_set_marked, ?marked_set_marked; auto; [lia|apply (fr_cutflag _ _ HF t n Gn)|].
    intros _. left. exact Ht. }
  set (b := match g_ctype d1 with LastExactLayer => negb (g_approx d1) | Frontier => is_exact (n_flags n1) end).
  assert (Hb : b = true <-> last_cut d t).
  { unfold b, last_cut. destruct (fr_rest _ _ HF1) as (_ & _ & _ & _ & R0 & R1 & _). rewrite R0, R1. destruct (g_ctype d).
    - rewrite negb_true_iff. tauto.
    - assert (He : is_exact (n_flags n1) = is_exact (n_flags n0)) by (destruct Hc1, Cn; congruence). rewrite He. split; [intros H; split; [exact Ht|eauto]|]. intros [_ (m & Gm & Hm)]. congruence. }
  destruct b eqn:Eb.
  - destruct (upd_node_chg d1 t (fun n => node_flags n (set_cutset (n_flags n) true)) n1 G1) as (d2 & E2 & C2 & X2 & G2). set (n2 := node_flags n1 (set_cutset (n_flags n1) true)) in *.
    exists d2. split; [exact E2|]. split; [|split].
    + assert (Hc2 : coreeq n1 n2) by (constructor; try reflexivity; cbn; [rewrite exact_set_cutset|rewrite relaxed_set_cutset]; reflexivity).
      apply (frame_upd d d1 d2 t n1 n2 HF1 C2 X2 (cg_expl _ _ _ C2) G1 G2 Hc2); cbn; rewrite ?deleted_set_cutset, ?barrier_set_cutset, ?cutset_set_cutset, ?marked_set_cutset; auto; [lia|intros _; right; apply Hb; reflexivity|]. intros _. left. exact Ht.
    + exists n2. split; [exact G2|]. cbn. rewrite marked_set_cutset, marked_set_marked, cutset_set_cutset. auto.
    + intros id Hid. rewrite (cg_nodes _ _ _ C2), (cg_nodes _ _ _ C1) by congruence. reflexivity.
  - exists d1. split; [reflexivity|]. split; [exact HF1|]. split; [|intros id Hid; apply (cg_nodes _ _ _ C1); congruence].
    exists n1. split; [exact G1|]. cbn. rewrite marked_set_marked, cutset_set_marked. split; [reflexivity|]. split; [reflexivity|]. intros H. apply Hb in H. discriminate.
Qed.
Lemma init_fold_ok d past : arena None d past -> (forall p, In p past -> ~ In p (nextids d)) -> forall ids d', frame d d' -> incl ids (nextids d) ->
  exists d'', ofold init_bottom ids d' = Some d'' /\ frame d d'' /\ (forall id, ~ In id ids -> get_node d'' id = get_node d' id) /\
    (forall t, In t ids -> exists tn, get_node d'' t = Some tn /\ is_marked (n_flags tn) = true /\ n_bot tn = 0 /\ (last_cut d t -> is_cutset (n_flags tn) = true)).
Proof.
  intros HA Hdisj. induction ids as [|t ids IH]; intros d' HF Hi.
  - exists d'. split; [reflexivity|]. split; [exact HF|]. split; [reflexivity|]. intros t [].
  - cbn [ofold]. destruct (init_bottom_ok d past d' t HA HF (Hi t (or_introl eq_refl)) Hdisj) as (d1 & E1 & F1 & T1 & O1). rewrite E1. cbn [obind].
    destruct (IH d1 F1 ltac:(intros x Hx; apply Hi; right; exact Hx)) as (d2 & E2 & F2 & O2 & T2). exists d2. split; [exact E2|]. split; [exact F2|]. split.
    + intros id Hid. rewrite O2, O1; [reflexivity| |]; intros H; apply Hid; [left; auto|right; exact H].
    + intros x [<-|Hx]; [|auto]. destruct (in_dec Nat.eq_dec t ids) as [H|H]; [auto|]. rewrite (O2 t H). exact T1.
Qed.

Lemma bounds_ok lb d past ids T : arena None d past -> (forall p, In p past -> ~ In p (nextids d)) -> (forall id, In id ids <-> In id (nextids d)) -> length T = L ->
  wp (compute_local_bounds_and_theta lb ids d) T (fun d'' T' => frame d d'' /\ done lb d d'' 0 /\ length T' = L /\ (solo = true -> late d d'' 0 T T') /\
    (forall t tn, In t (nextids d) -> get_node d'' t = Some tn -> is_marked (n_flags tn) = true /\ 0 <= n_bot tn /\ (last_cut d t -> is_cutset (n_flags tn) = true))).
Proof.
  intros HA Hdisj Hids HT. unfold compute_local_bounds_and_theta.
  assert (HF0 : frame d d).
  { constructor; try reflexivity.
    - repeat split.
    - intros id n Gn. exists n. split; [exact Gn|]. split; [apply coreeq_refl|]. do 3 (split; [reflexivity|]). split; [lia|reflexivity].
    - intros id n Gn H. left. apply (a_cut _ _ _ HA id n Gn). exact H.
    - intros id n Gn H. apply (a_cut _ _ _ HA id n Gn). exact H.
    - apply incl_refl.
    - auto.
    - auto.
    - intros id n Gn M. rewrite (no_marked _ _ _ _ (no_base _ _ _ _ (a_nodes _ _ _ HA id n Gn ltac:(discriminate)))) in M. discriminate. }
  destruct (init_fold_ok d past HA Hdisj ids d HF0) as (d1 & E1 & F1 & O1 & T1); [intros x Hx; apply Hids; exact Hx|].
  apply (wp_pure _ d1); [exact E1|]. rewrite (fr_len _ _ F1). eapply wp_mono; [|eapply (bottom_up_loop lb d past T HA (length (g_nodes d)) d1 T F1); [|lia|exact HT|intros _ depth s; auto]].
  - intros d2 T2 (F2 & U2 & D2 & L2 & A2). split; [exact F2|]. split; [exact D2|]. split; [exact L2|]. split; [exact A2|].
    intros t tn Ht Gt. destruct (T1 t) as (t1 & G1 & M1 & B1 & C1); [apply Hids; exact Ht|]. destruct (U2 t t1 G1) as (t2 & G2 & _ & B2 & M2 & C2 & _). assert (t2 = tn) as -> by congruence.
    split; [auto|]. split; [lia|auto].
  - intros id n' Hid Gn. apply get_lt in Gn. rewrite (fr_len _ _ F1) in Gn. lia.
Qed.
End Facts.
