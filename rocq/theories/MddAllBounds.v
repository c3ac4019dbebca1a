(** The local bounds computed by src/mdd/with_all.rs. *)
From Verif Require Import Spec Dd FlagsFacts MatrixFacts MddAll DdFacts DdRelax DdExpand DdLoop DdFinal.
From Coq Require Import ZifyNat.
Open Scope Z_scope.

Section Facts.
Variable S : Type.
Variable eqb : S -> S -> bool.
Hypothesis eqb_spec : forall a b, eqb a b = true <-> a = b.
Variable P : problem S.
Variable R : relaxation S.
Variable at_depth : nat -> S -> Prop.
Variable nv : nat -> nat.
Variable C : Z.
Hypothesis Hwf : wf_problem S P at_depth nv.
Hypothesis Hvr : relaxation_depth S P at_depth R.
Hypothesis Hbd : bounded S P at_depth nv R C.
Variable k0 : nat.
Variable sp : subproblem S.
Notation N := (pb_nb_vars P).
Notation node := (node S).
Notation dd := (dd S).
Local Notation vbound := (@DdFacts.vbound C).
Local Notation valid_root := (@DdFacts.valid_root S P at_depth C k0 sp).
Local Notation nextids := (@DdFacts.nextids S).
Local Notation vbound_range := (@DdFacts.vbound_range S P R at_depth nv C Hbd).
Local Notation vbound_step := (@DdFacts.vbound_step S P R at_depth nv C Hbd).
Local Notation coreeq := (@DdFacts.coreeq S).
Local Notation samenode := (@DdFacts.samenode S).
Local Notation coreeq_refl := (@DdFacts.coreeq_refl S).
Local Notation samenode_refl := (@DdFacts.samenode_refl S).
Local Notation coreeq_trans := (@DdFacts.coreeq_trans S).
Local Notation samenode_trans := (@DdFacts.samenode_trans S).
Local Notation stable := (@DdFacts.stable S).
Local Notation stable_refl := (@DdFacts.stable_refl S).
Local Notation stable_trans := (@DdFacts.stable_trans S k0).
Local Notation stable_weaken := (@DdFacts.stable_weaken S).
Local Notation edge_ok := (@DdFacts.edge_ok S P nv C).
Local Notation orig_edge := (@DdFacts.orig_edge S P).
Local Notation orig_all := (@DdFacts.orig_all S P).
Local Notation is_root := (@DdFacts.is_root S k0 sp).
Local Notation best_ok := (@DdFacts.best_ok S P k0 sp).
Local Notation node_base := (@DdFacts.node_base S P at_depth nv C k0).
Local Notation node_ok := (@DdFacts.node_ok S P at_depth nv C k0 sp).
Local Notation cleanf := (@DdFacts.cleanf S).
Local Notation clean := (@DdFacts.clean S).
Local Notation arena := (@DdFacts.arena S P at_depth nv C k0 sp).
Local Notation layer_at := (@DdFacts.layer_at S).
Local Notation get_lt := (@DdFacts.get_lt S).
Local Notation get_some := (@DdFacts.get_some S).
Local Notation upd_node_spec := (@DdFacts.upd_node_spec S).
Local Notation orig_edge_mono := (@DdFacts.orig_edge_mono S P).
Local Notation edge_ok_mono := (@DdFacts.edge_ok_mono S P nv C).
Local Notation past_frozen := (@DdFacts.past_frozen S).
Local Notation node_base_mono := (@DdFacts.node_base_mono S P at_depth nv C k0).
Local Notation best_ok_mono := (@DdFacts.best_ok_mono S P at_depth nv C k0 sp).
Local Notation node_ok_mono := (@DdFacts.node_ok_mono S P at_depth nv C k0 sp).
Local Notation orig_all_mono := (@DdFacts.orig_all_mono S P at_depth nv C k0).
Local Notation stable_past := (@DdFacts.stable_past S).
Local Notation next_get_in := (@DdFacts.next_get_in S eqb eqb_spec).
Local Notation next_get_none := (@DdFacts.next_get_none S eqb eqb_spec).
Local Notation nextids_in := (@DdFacts.nextids_in S).
Local Notation all_exact := (@DdFacts.all_exact S).
Local Notation grows := (@DdFacts.grows S).
Local Notation grows_refl := (@DdFacts.grows_refl S).
Local Notation nextids_incl := (@DdFacts.nextids_incl S).
Local Notation grows_trans := (@DdFacts.grows_trans S).
Local Notation same_rest := (@DdFacts.same_rest S).
Local Notation same_rest_refl := (@DdFacts.same_rest_refl S).
Local Notation same_rest_trans := (@DdFacts.same_rest_trans S).
Local Notation has_edge := (@DdFacts.has_edge S P).
Local Notation has_edge_grows := (@DdFacts.has_edge_grows S P).
Local Notation branch_spec := (@DdFacts.branch_spec S eqb eqb_spec P R at_depth nv C Hwf Hbd k0 sp).
Local Notation vr_path := (@DdFacts.vr_path S P at_depth C k0 sp).
Local Notation vr_le := (@DdFacts.vr_le S P at_depth C k0 sp).
Local Notation vr_at := (@DdFacts.vr_at S P at_depth C k0 sp).
Local Notation vr_val := (@DdFacts.vr_val S P at_depth C k0 sp).
Local Notation ce_state := (@DdFacts.ce_state S).
Local Notation ce_value := (@DdFacts.ce_value S).
Local Notation ce_best := (@DdFacts.ce_best S).
Local Notation ce_inb := (@DdFacts.ce_inb S).
Local Notation ce_depth := (@DdFacts.ce_depth S).
Local Notation ce_exact := (@DdFacts.ce_exact S).
Local Notation ce_relaxed := (@DdFacts.ce_relaxed S).
Local Notation sn_core := (@DdFacts.sn_core S).
Local Notation sn_rub := (@DdFacts.sn_rub S).
Local Notation sn_theta := (@DdFacts.sn_theta S).
Local Notation sn_bot := (@DdFacts.sn_bot S).
Local Notation sn_marked := (@DdFacts.sn_marked S).
Local Notation sn_deleted := (@DdFacts.sn_deleted S).
Local Notation sn_barrier := (@DdFacts.sn_barrier S).
Local Notation st_edges := (@DdFacts.st_edges S).
Local Notation st_len := (@DdFacts.st_len S).
Local Notation st_nodes := (@DdFacts.st_nodes S).
Local Notation st_root := (@DdFacts.st_root S).
Local Notation st_ctype := (@DdFacts.st_ctype S).
Local Notation eo_past := (@DdFacts.eo_past S P nv C).
Local Notation eo_lt := (@DdFacts.eo_lt S P nv C).
Local Notation eo_cost := (@DdFacts.eo_cost S P nv C).
Local Notation eo_parent := (@DdFacts.eo_parent S P nv C).
Local Notation no_depth := (@DdFacts.no_depth S P at_depth nv C k0).
Local Notation no_at := (@DdFacts.no_at S P at_depth nv C k0).
Local Notation no_head := (@DdFacts.no_head S P at_depth nv C k0).
Local Notation no_edges := (@DdFacts.no_edges S P at_depth nv C k0).
Local Notation no_marked := (@DdFacts.no_marked S P at_depth nv C k0).
Local Notation no_bot := (@DdFacts.no_bot S P at_depth nv C k0).
Local Notation no_base := (@DdFacts.no_base S P at_depth nv C k0 sp).
Local Notation no_val := (@DdFacts.no_val S P at_depth nv C k0 sp).
Local Notation no_best := (@DdFacts.no_best S P at_depth nv C k0 sp).
Local Notation a_edges := (@DdFacts.a_edges S P at_depth nv C k0 sp).
Local Notation a_len := (@DdFacts.a_len S P at_depth nv C k0 sp).
Local Notation a_nodes := (@DdFacts.a_nodes S P at_depth nv C k0 sp).
Local Notation a_past := (@DdFacts.a_past S P at_depth nv C k0 sp).
Local Notation a_lt := (@DdFacts.a_lt S P at_depth nv C k0 sp).
Local Notation a_keys := (@DdFacts.a_keys S P at_depth nv C k0 sp).
Local Notation a_next := (@DdFacts.a_next S P at_depth nv C k0 sp).
Local Notation a_cut := (@DdFacts.a_cut S P at_depth nv C k0 sp).
Local Notation a_cutpast := (@DdFacts.a_cutpast S P at_depth nv C k0 sp).
Local Notation a_root := (@DdFacts.a_root S P at_depth nv C k0 sp).
Local Notation gr_incl := (@DdFacts.gr_incl S).
Local Notation gr_fresh := (@DdFacts.gr_fresh S).
Local Notation gr_nodes := (@DdFacts.gr_nodes S).
Local Notation sr_prev := (@DdFacts.sr_prev S).
Local Notation sr_cut := (@DdFacts.sr_cut S).
Local Notation sr_lel := (@DdFacts.sr_lel S).
Local Notation sr_best := (@DdFacts.sr_best S).
Local Notation sr_exact := (@DdFacts.sr_exact S).
Local Notation sr_approx := (@DdFacts.sr_approx S).
Local Notation chg := (@DdRelax.chg S).
Local Notation chg_refl := (@DdRelax.chg_refl S).
Local Notation chg_trans := (@DdRelax.chg_trans S).
Local Notation chg_weaken := (@DdRelax.chg_weaken S).
Local Notation chg_frozen := (@DdRelax.chg_frozen S).
Local Notation upd_node_chg := (@DdRelax.upd_node_chg S).
Local Notation mok := (@DdRelax.mok S P at_depth nv C k0 sp).
Local Notation chain_ok := (@DdRelax.chain_ok S P nv).
Local Notation arena_chg := (@DdRelax.arena_chg S P at_depth nv C k0 sp).
Local Notation chain_ok_mono := (@DdRelax.chain_ok_mono S P nv).
Local Notation arena_touch := (@DdRelax.arena_touch S P at_depth nv C k0 sp).
Local Notation mok_mono := (@DdRelax.mok_mono S P at_depth nv C k0 sp).
Local Notation redirected := (@DdRelax.redirected S R).
Local Notation redirect_spec := (@DdRelax.redirect_spec S P R at_depth nv C Hbd k0 sp).
Local Notation dropped := (@DdRelax.dropped S).
Local Notation drop_fold := (@DdRelax.drop_fold S P R at_depth nv C Hbd k0 sp).
Local Notation arena_tmp := (@DdRelax.arena_tmp S P at_depth nv C k0 sp).
Local Notation arena_tmp_close := (@DdRelax.arena_tmp_close S P at_depth nv C k0 sp).
Local Notation arena_ext := (@DdRelax.arena_ext S P at_depth nv C k0 sp).
Local Notation mark_spec := (@DdRelax.mark_spec S P at_depth nv C k0 sp).
Local Notation mark_fold := (@DdRelax.mark_fold S P at_depth nv C k0 sp).
Local Notation layer_ok := (@DdRelax.layer_ok S).
Local Notation sorts := (@DdRelax.sorts S).
Local Notation map_states_some := (@DdRelax.map_states_some S).
Local Notation map_states_in := (@DdRelax.map_states_in S).
Local Notation kept := (@DdRelax.kept S).
Local Notation merged_into := (@DdRelax.merged_into S R at_depth).
Local Notation relax_spec := (@DdRelax.relax_spec S eqb eqb_spec P R at_depth nv C Hvr Hbd k0 sp).
Local Notation cg_edges := (@DdRelax.cg_edges S).
Local Notation cg_len := (@DdRelax.cg_len S).
Local Notation cg_nodes := (@DdRelax.cg_nodes S).
Local Notation cg_rest := (@DdRelax.cg_rest S).
Local Notation cg_next := (@DdRelax.cg_next S).
Local Notation cg_root := (@DdRelax.cg_root S).
Local Notation cg_ctype := (@DdRelax.cg_ctype S).
Local Notation cg_expl := (@DdRelax.cg_expl S).
Local Notation mk_base := (@DdRelax.mk_base S P at_depth nv C k0 sp).
Local Notation mk_state := (@DdRelax.mk_state S P at_depth nv C k0 sp).
Local Notation mk_depth := (@DdRelax.mk_depth S P at_depth nv C k0 sp).
Local Notation mk_rel := (@DdRelax.mk_rel S P at_depth nv C k0 sp).
Local Notation mk_clean := (@DdRelax.mk_clean S P at_depth nv C k0 sp).
Local Notation mk_cut := (@DdRelax.mk_cut S P at_depth nv C k0 sp).
Local Notation mk_cases := (@DdRelax.mk_cases S P at_depth nv C k0 sp).
Local Notation lo_nodup := (@DdRelax.lo_nodup S).
Local Notation lo_node := (@DdRelax.lo_node S).
Local Notation restrict_spec := (@DdExpand.restrict_spec S P at_depth nv C k0 sp).
Local Notation arena_past := (@DdExpand.arena_past S P at_depth nv C k0 sp).
Local Notation doneok := (@DdExpand.doneok S P nv).
Local Notation expanding := (@DdExpand.expanding S P at_depth nv C k0 sp).
Local Notation expanding_init := (@DdExpand.expanding_init S P at_depth nv C k0 sp).
Local Notation has_edge_state := (@DdExpand.has_edge_state S P).
Local Notation doneok_grows := (@DdExpand.doneok_grows S P nv).
Local Notation branch_fold := (@DdExpand.branch_fold S eqb eqb_spec P R at_depth nv C Hwf Hbd k0 sp).
Local Notation expand_step := (@DdExpand.expand_step S eqb eqb_spec P R at_depth nv C Hwf Hbd k0 sp).
Local Notation expand_fold := (@DdExpand.expand_fold S eqb eqb_spec P R at_depth nv C Hwf Hbd k0 sp).
Local Notation dn_rub := (@DdExpand.dn_rub S P nv).
Local Notation dn_bot := (@DdExpand.dn_bot S P nv).
Local Notation dn_marked := (@DdExpand.dn_marked S P nv).
Local Notation dn_deleted := (@DdExpand.dn_deleted S P nv).
Local Notation dn_barrier := (@DdExpand.dn_barrier S P nv).
Local Notation dn_cases := (@DdExpand.dn_cases S P nv).
Local Notation ex_arena := (@DdExpand.ex_arena S P at_depth nv C k0 sp).
Local Notation ex_layer := (@DdExpand.ex_layer S P at_depth nv C k0 sp).
Local Notation ex_fresh := (@DdExpand.ex_fresh S P at_depth nv C k0 sp).
Local Notation ex_rest := (@DdExpand.ex_rest S P at_depth nv C k0 sp).
Local Notation ex_edges := (@DdExpand.ex_edges S P at_depth nv C k0 sp).
Local Notation ex_len := (@DdExpand.ex_len S P at_depth nv C k0 sp).
Local Notation ex_root := (@DdExpand.ex_root S P at_depth nv C k0 sp).
Local Notation ex_ctype := (@DdExpand.ex_ctype S P at_depth nv C k0 sp).
Local Notation ex_old := (@DdExpand.ex_old S P at_depth nv C k0 sp).
Local Notation ex_exact := (@DdExpand.ex_exact S P at_depth nv C k0 sp).
Local Notation ex_expl := (@DdExpand.ex_expl S P at_depth nv C k0 sp).
Local Notation iters := (@DdLoop.iters S).
Local Notation child_ok := (@DdLoop.child_ok S P R at_depth).
Local Notation expd := (@DdLoop.expd S P R at_depth nv).
Local Notation linv := (@DdLoop.linv S P R at_depth nv C k0 sp).
Local Notation mid := (@DdLoop.mid S P R at_depth nv C k0 sp).
Local Notation linv_step := (@DdLoop.linv_step S P R at_depth nv C k0 sp).
Local Notation li_arena := (@DdLoop.li_arena S P R at_depth nv C k0 sp).
Local Notation li_layer := (@DdLoop.li_layer S P R at_depth nv C k0 sp).
Local Notation li_range := (@DdLoop.li_range S P R at_depth nv C k0 sp).
Local Notation li_disj := (@DdLoop.li_disj S P R at_depth nv C k0 sp).
Local Notation li_curr := (@DdLoop.li_curr S P R at_depth nv C k0 sp).
Local Notation li_currin := (@DdLoop.li_currin S P R at_depth nv C k0 sp).
Local Notation li_depth := (@DdLoop.li_depth S P R at_depth nv C k0 sp).
Local Notation li_exp := (@DdLoop.li_exp S P R at_depth nv C k0 sp).
Local Notation li_exact := (@DdLoop.li_exact S P R at_depth nv C k0 sp).
Local Notation li_typ := (@DdLoop.li_typ S P R at_depth nv C k0 sp).
Local Notation li_nocut := (@DdLoop.li_nocut S P R at_depth nv C k0 sp).
Local Notation li_lel := (@DdLoop.li_lel S P R at_depth nv C k0 sp).
Local Notation li_cutexact := (@DdLoop.li_cutexact S P R at_depth nv C k0 sp).
Local Notation li_ctype := (@DdLoop.li_ctype S P R at_depth nv C k0 sp).
Local Notation li_root := (@DdLoop.li_root S P R at_depth nv C k0 sp).
Local Notation li_pastnd := (@DdLoop.li_pastnd S P R at_depth nv C k0 sp).
Local Notation li_width := (@DdLoop.li_width S P R at_depth nv C k0 sp).
Local Notation li_expl := (@DdLoop.li_expl S P R at_depth nv C k0 sp).
Local Notation li_best := (@DdLoop.li_best S P R at_depth nv C k0 sp).
Local Notation li_gone := (@DdLoop.li_gone S P R at_depth nv C k0 sp).
Local Notation li_near := (@DdLoop.li_near S P R at_depth nv C k0 sp).
Local Notation md_arena := (@DdLoop.md_arena S P R at_depth nv C k0 sp).
Local Notation md_next := (@DdLoop.md_next S P R at_depth nv C k0 sp).
Local Notation md_layer := (@DdLoop.md_layer S P R at_depth nv C k0 sp).
Local Notation md_stable := (@DdLoop.md_stable S P R at_depth nv C k0 sp).
Local Notation md_incl := (@DdLoop.md_incl S P R at_depth nv C k0 sp).
Local Notation md_cover := (@DdLoop.md_cover S P R at_depth nv C k0 sp).
Local Notation md_approx := (@DdLoop.md_approx S P R at_depth nv C k0 sp).
Local Notation md_typ := (@DdLoop.md_typ S P R at_depth nv C k0 sp).
Local Notation md_allex := (@DdLoop.md_allex S P R at_depth nv C k0 sp).
Local Notation md_cut := (@DdLoop.md_cut S P R at_depth nv C k0 sp).
Local Notation md_width := (@DdLoop.md_width S P R at_depth nv C k0 sp).
Local Notation md_expl := (@DdLoop.md_expl S P R at_depth nv C k0 sp).
Local Notation md_best := (@DdLoop.md_best S P R at_depth nv C k0 sp).
Local Notation md_near := (@DdLoop.md_near S P R at_depth nv C k0 sp).
Local Notation run_bound := (@DdFinal.run_bound S eqb eqb_spec P R at_depth nv C Hwf Hbd).
Local Notation completion_bound := (@DdFinal.completion_bound S eqb eqb_spec P R at_depth nv C Hwf Hbd).
Local Notation value_bound := (@DdFinal.value_bound S P R at_depth nv C Hbd).
Local Notation run_app := (@DdFinal.run_app S P nv).
Local Notation run_snoc := (@DdFinal.run_snoc S eqb eqb_spec P nv).
Local Notation reach := (@DdFinal.reach S).
Local Notation reach_value := (@DdFinal.reach_value S P at_depth nv C k0 sp).
Local Notation reach_bound := (@DdFinal.reach_bound S P at_depth nv C k0 sp).
Local Notation expd_step := (@DdFinal.expd_step S eqb eqb_spec P R at_depth nv C Hwf Hbd k0 sp).
Local Notation linv_reach := (@DdFinal.linv_reach S eqb eqb_spec P R at_depth nv C Hwf Hbd k0 sp).
Local Notation best_chain := (@DdFinal.best_chain S eqb eqb_spec P at_depth nv C k0 sp).
Local Notation best_path_ok := (@DdFinal.best_path_ok S eqb eqb_spec P at_depth nv C k0 sp).
Local Notation max_by_value_ok := (@DdFinal.max_by_value_ok S).
Local Notation linv_lel := (@DdFinal.linv_lel S eqb eqb_spec P R at_depth nv C Hwf Hbd k0 sp).
Local Notation reach_term := (@DdFinal.reach_term S).
Local Notation reach_step := (@DdFinal.reach_step S).

(** ** The local bounds *)
(** Nodes of the last layer and nodes an edge starts from. *)
Definition live (d : dd) (id : nat) : Prop :=
  In id (nextids d) \/ exists m mn e ed, get_node d m = Some mn /\ inb (g_edges d) (n_inbound mn) e ed /\ e_from ed = id.

Record wave (d d' : dd) (visit : list nat) (j M : nat) : Prop := {
  w_edges : g_edges d' = g_edges d;
  w_len : length (g_nodes d') = length (g_nodes d);
  w_frame : g_root_pa d' = g_root_pa d /\ g_next d' = g_next d /\ g_best d' = g_best d /\ g_exact d' = g_exact d /\ g_approx d' = g_approx d /\
     g_ctype d' = g_ctype d /\ g_prev d' = g_prev d /\ g_explored d' = g_explored d;
  w_nodes : forall id n, get_node d id = Some n -> exists n', get_node d' id = Some n' /\ coreeq n n' /\ n_rub n' = n_rub n;
  w_cutflag : forall id n', get_node d' id = Some n' -> (is_cutset (n_flags n') = true <-> In id (g_cutset d'));
  w_cutold : incl (g_cutset d) (g_cutset d');
  w_cutlel : g_ctype d = LastExactLayer -> g_cutset d' = g_cutset d;
  w_cutnew : forall q, In q (g_cutset d') -> In q (g_cutset d) \/
     exists qn e m mn ed, get_node d' q = Some qn /\ is_exact (n_flags qn) = true /\ is_marked (n_flags qn) = true /\
       get_node d m = Some mn /\ inb (g_edges d) (n_inbound mn) e ed /\ e_from ed = q /\ is_exact (n_flags mn) = false /\ live d m;
  w_mark : forall id n', get_node d' id = Some n' -> is_marked (n_flags n') = true -> (j <= Datatypes.S (n_depth n'))%nat;
  w_visit : forall id n', get_node d' id = Some n' -> is_marked (n_flags n') = true -> Datatypes.S (n_depth n') = j -> ~ In id (g_cutset d) -> In id visit;
  w_vis : forall id, In id visit -> exists n', get_node d' id = Some n' /\ Datatypes.S (n_depth n') = j /\ is_marked (n_flags n') = true /\ (id < M)%nat;
  w_live : forall id n', get_node d' id = Some n' -> is_marked (n_flags n') = true -> live d id }.

Record unch (d d' : dd) (j : nat) : Prop := {
  u_nodes : forall id n, get_node d id = Some n -> exists n', get_node d' id = Some n' /\ coreeq n n' /\ n_bot n <= n_bot n' /\
     (is_marked (n_flags n) = true -> is_marked (n_flags n') = true) /\ (Datatypes.S (n_depth n) <> j -> n' = n);
  u_cut : incl (g_cutset d) (g_cutset d') }.
Lemma unch_refl d j : unch d d j.
Proof. constructor; [|apply incl_refl]. intros id n G. exists n. split; [exact G|]. split; [apply coreeq_refl|]. split; [lia|auto]. Qed.
Lemma unch_trans a b c j : unch a b j -> unch b c j -> unch a c j.
Proof.
  intros [H1 K1] [H2 K2]. constructor; [|eapply incl_tran; eauto]. intros id n G. destruct (H1 id n G) as (n1 & G1 & C1 & B1 & M1 & E1). destruct (H2 id n1 G1) as (n2 & G2 & C2 & B2 & M2 & E2).
  exists n2. split; [exact G2|]. split; [eapply coreeq_trans; eauto|]. split; [lia|]. split; [auto|]. intros Hj. rewrite <- (E1 Hj). apply E2. destruct C1. congruence.
Qed.

(** One inbound edge. *)
Definition edge_step (node_id : nat) (d : dd) (visit : list nat) (ed : edge) : option (dd * list nat) :=
  do n <- get_node d node_id;
  let using_edge := sat_add (n_bot n) (e_cost ed) in
  do d1 <- upd_node d (e_from ed) (fun m => node_bot m (Z.max (n_bot m) using_edge));
  do m1 <- get_node d1 (e_from ed);
  do '(d2, visit2) <-
    (if negb (is_marked (n_flags m1)) then
       do d2 <- upd_node d1 (e_from ed) (fun m => node_flags m (set_marked (n_flags m) true));
       do m2 <- get_node d2 (e_from ed);
       Some (d2, if negb (is_cutset (n_flags m2)) then visit ++ [e_from ed] else visit)
     else Some (d1, visit));
  do n2 <- get_node d2 node_id;
  do m2 <- get_node d2 (e_from ed);
  do d3 <-
    (match g_ctype d2 with
     | Frontier =>
         if is_marked (n_flags n2) && negb (is_exact (n_flags n2)) && is_exact (n_flags m2)
            && negb (is_cutset (n_flags m2))
         then do d3 <- upd_node d2 (e_from ed) (fun m => node_flags m (set_cutset (n_flags m) true));
              Some (set_cut d3 (g_cutset d3 ++ [e_from ed]))
         else Some d2
     | LastExactLayer => Some d2
     end);
  Some (d3, visit2).
Lemma bounds_edges_unfold k node_id d visit eid : bounds_edges (Datatypes.S k) node_id d visit (Some eid) =
  do ed <- nth_error (g_edges d) eid; do '(d3, visit2) <- edge_step node_id d visit ed; bounds_edges k node_id d3 visit2 (e_next ed).
Proof.
  cbn [bounds_edges]. unfold edge_step. destruct (nth_error (g_edges d) eid) as [ed|]; cbn [obind]; [|reflexivity].
  destruct (get_node d node_id) as [n|]; cbn [obind]; [|reflexivity].
  destruct (upd_node d _ _) as [d1|]; cbn [obind]; [|reflexivity]. destruct (get_node d1 _) as [m1|]; cbn [obind]; [|reflexivity].
  match goal with |- (do p <- ?x; _) = _ => destruct x as [[d2 v2]|] end; cbn [obind]; [|reflexivity].
  destruct (get_node d2 node_id); cbn [obind]; [|reflexivity]. destruct (get_node d2 (e_from ed)); cbn [obind]; [|reflexivity].
  match goal with |- (do p <- ?x; _) = _ => destruct x as [d3|] end; cbn [obind]; reflexivity.
Qed.

Lemma edge_step_ok d past d' visit j M nid n' e ed : arena None d past -> wave d d' visit j M ->
  get_node d' nid = Some n' -> n_depth n' = j -> is_marked (n_flags n') = true -> (nid <= M)%nat ->
  inb (g_edges d) (n_inbound n') e ed ->
  exists d'' visit'', edge_step nid d' visit ed = Some (d'', visit'') /\ wave d d'' visit'' j M /\ incl visit visit'' /\ unch d' d'' j /\
    (exists pn, get_node d'' (e_from ed) = Some pn /\ is_marked (n_flags pn) = true /\ sat_add (n_bot n') (e_cost ed) <= n_bot pn /\
      (g_ctype d = Frontier -> is_exact (n_flags n') = false -> is_exact (n_flags pn) = true -> In (e_from ed) (g_cutset d''))).
Proof.
  intros HA HW Gn Dn Mn HM He.
  assert (Hn0 : exists n0, get_node d nid = Some n0 /\ coreeq n0 n').
  { destruct (get_some d nid) as (n0 & G0); [rewrite <- (w_len _ _ _ _ _ HW); eapply get_lt; eauto|]. exists n0. split; [exact G0|].
    destruct (w_nodes _ _ _ _ _ HW nid n0 G0) as (n1 & G1 & C1 & _). assert (n1 = n') as -> by congruence. exact C1. }
  destruct Hn0 as (n0 & G0 & C0).
  assert (Heo : edge_ok d past nid n0 ed).
  { apply (no_edges _ _ _ _ (no_base _ _ _ _ (a_nodes _ _ _ HA nid n0 G0 ltac:(discriminate))) e ed). destruct C0. congruence. }
  destruct Heo as [Hpp Hlt _ (p0 & Gp0 & Dp & _)]. set (p := e_from ed) in *.
  destruct (w_nodes _ _ _ _ _ HW p p0 Gp0) as (pn & Gp & Cp & Rp).
  assert (Dpj : Datatypes.S (n_depth pn) = j) by (destruct C0, Cp; congruence).
  assert (Hne : nid <> p) by (intros ->; assert (pn = n') as -> by congruence; lia).
  unfold edge_step. fold p. rewrite Gn. cbn [obind].
  set (ue := sat_add (n_bot n') (e_cost ed)).
  destruct (upd_node_chg d' p (fun m => node_bot m (Z.max (n_bot m) ue)) pn Gp) as (d1 & E1 & C1 & X1 & G1). rewrite E1. cbn [obind]. rewrite G1. cbn [obind].
  set (p1 := node_bot pn (Z.max (n_bot pn) ue)) in *.
  set (p2 := node_flags p1 (set_marked (n_flags p1) true)).
  set (v2 := if is_marked (n_flags pn) then visit else if is_cutset (n_flags pn) then visit else visit ++ [p]).
  assert (Hfm : forall f, is_marked f = true -> is_exact (set_marked f true) = is_exact f /\ is_relaxed (set_marked f true) = is_relaxed f) by (intros; split; [apply exact_set_marked|apply relaxed_set_marked]).
  assert (E2 : exists d2 q2, (if negb (is_marked (n_flags p1)) then
       do d2 <- upd_node d1 p (fun m => node_flags m (set_marked (n_flags m) true));
       do m2 <- get_node d2 p;
       Some (d2, if negb (is_cutset (n_flags m2)) then visit ++ [p] else visit)
     else Some (d1, visit)) = Some (d2, v2) /\ chg (eq p) d' d2 /\ g_edges d2 = g_edges d' /\ get_node d2 p = Some q2 /\
     coreeq pn q2 /\ n_rub q2 = n_rub pn /\ n_bot q2 = Z.max (n_bot pn) ue /\ is_marked (n_flags q2) = true /\ is_cutset (n_flags q2) = is_cutset (n_flags pn)).
  { unfold v2. change (n_flags p1) with (n_flags pn). destruct (is_marked (n_flags pn)) eqn:Em; cbn [negb].
    - exists d1, p1. split; [reflexivity|]. split; [exact C1|]. split; [exact X1|]. split; [exact G1|]. split; [constructor; reflexivity|]. split; [reflexivity|].
      split; [reflexivity|]. split; [exact Em|reflexivity].
    - destruct (upd_node_chg d1 p (fun m => node_flags m (set_marked (n_flags m) true)) p1 G1) as (d2 & E2 & C2 & X2 & G2). rewrite E2. cbn [obind]. rewrite G2. cbn [obind].
      exists d2, p2. split; [|split; [eapply chg_trans; eauto|split; [congruence|split; [exact G2|]]]].
      + cbn [n_flags node_flags]. rewrite cutset_set_marked. change (n_flags p1) with (n_flags pn). destruct (is_cutset (n_flags pn)); reflexivity.
      + split; [constructor; try reflexivity; cbn; [rewrite exact_set_marked|rewrite relaxed_set_marked]; reflexivity|]. split; [reflexivity|]. split; [reflexivity|].
        split; [cbn; apply marked_set_marked|cbn; rewrite cutset_set_marked; reflexivity]. }
  destruct E2 as (d2 & q2 & E2 & C2 & X2 & G2 & Cq & Rq & Bq & Mq & Kq). rewrite E2. cbn [obind]. clear E2 E1 C1 X1 G1 d1.
  assert (Gn2 : get_node d2 nid = Some n') by (rewrite (cg_nodes _ _ _ C2) by congruence; exact Gn).
  rewrite Gn2. cbn [obind]. rewrite G2. cbn [obind]. rewrite Mn. cbn [andb].
  assert (Hct2 : g_ctype d2 = g_ctype d) by (rewrite (cg_ctype _ _ _ C2); apply (w_frame _ _ _ _ _ HW)). rewrite Hct2.
  set (newc := match g_ctype d with Frontier => negb (is_exact (n_flags n')) && is_exact (n_flags q2) && negb (is_cutset (n_flags q2)) | LastExactLayer => false end).
  assert (E3 : exists d3 q3, (match g_ctype d with
     | Frontier => if negb (is_exact (n_flags n')) && is_exact (n_flags q2) && negb (is_cutset (n_flags q2))
         then do d3 <- upd_node d2 p (fun m => node_flags m (set_cutset (n_flags m) true));
              Some (set_cut d3 (g_cutset d3 ++ [p])) else Some d2
     | LastExactLayer => Some d2 end) = Some d3 /\
     (forall i, i <> p -> get_node d3 i = get_node d2 i) /\ get_node d3 p = Some q3 /\ length (g_nodes d3) = length (g_nodes d2) /\
     g_edges d3 = g_edges d2 /\ g_cutset d3 = (if newc then g_cutset d2 ++ [p] else g_cutset d2) /\
     (g_root_pa d3 = g_root_pa d2 /\ g_next d3 = g_next d2 /\ g_best d3 = g_best d2 /\ g_exact d3 = g_exact d2 /\ g_approx d3 = g_approx d2 /\ g_ctype d3 = g_ctype d2 /\ g_prev d3 = g_prev d2 /\ g_explored d3 = g_explored d2) /\
     coreeq q2 q3 /\ n_rub q3 = n_rub q2 /\ n_bot q3 = n_bot q2 /\ is_marked (n_flags q3) = is_marked (n_flags q2) /\ is_cutset (n_flags q3) = newc || is_cutset (n_flags q2)).
  { assert (Hkeep : newc = false -> exists d3 q3, Some d2 = Some d3 /\
     (forall i, i <> p -> get_node d3 i = get_node d2 i) /\ get_node d3 p = Some q3 /\ length (g_nodes d3) = length (g_nodes d2) /\
     g_edges d3 = g_edges d2 /\ g_cutset d3 = (if newc then g_cutset d2 ++ [p] else g_cutset d2) /\
     (g_root_pa d3 = g_root_pa d2 /\ g_next d3 = g_next d2 /\ g_best d3 = g_best d2 /\ g_exact d3 = g_exact d2 /\ g_approx d3 = g_approx d2 /\ g_ctype d3 = g_ctype d2 /\ g_prev d3 = g_prev d2 /\ g_explored d3 = g_explored d2) /\
     coreeq q2 q3 /\ n_rub q3 = n_rub q2 /\ n_bot q3 = n_bot q2 /\ is_marked (n_flags q3) = is_marked (n_flags q2) /\ is_cutset (n_flags q3) = newc || is_cutset (n_flags q2)).
    { intros ->. exists d2, q2. split; [reflexivity|]. split; [reflexivity|]. split; [exact G2|]. repeat (split; [reflexivity|]). split; [repeat split|]. split; [apply coreeq_refl|]. auto. }
    unfold newc in *. destruct (g_ctype d); [apply Hkeep; reflexivity|].
    destruct (negb (is_exact (n_flags n')) && is_exact (n_flags q2) && negb (is_cutset (n_flags q2))) eqn:Eb; [|apply Hkeep; reflexivity].
    destruct (upd_node_chg d2 p (fun m => node_flags m (set_cutset (n_flags m) true)) q2 G2) as (d3 & E3 & C3 & X3 & G3). rewrite E3. cbn [obind].
    destruct (cg_rest _ _ _ C3) as [r1 r2 r3 r4 r5 r6].
    eexists (set_cut d3 (g_cutset d3 ++ [p])), _. split; [reflexivity|]. split; [intros i Hi; apply (cg_nodes _ _ _ C3); congruence|]. split; [exact G3|].
    split; [apply (cg_len _ _ _ C3)|]. split; [exact X3|]. split; [cbn; rewrite r2; reflexivity|].
    split; [cbn; rewrite (cg_root _ _ _ C3), (cg_next _ _ _ C3), (cg_ctype _ _ _ C3), (cg_expl _ _ _ C3), r1, r4, r5, r6; repeat split|].
    split; [constructor; try reflexivity; cbn; [rewrite exact_set_cutset|rewrite relaxed_set_cutset]; reflexivity|]. split; [reflexivity|]. split; [reflexivity|].
    split; [cbn; apply marked_set_cutset|cbn; apply cutset_set_cutset]. }
  destruct E3 as (d3 & q3 & E3 & O3 & G3 & L3 & X3 & K3 & F3 & C3 & R3 & B3 & M3 & S3). rewrite E3. cbn [obind]. clear E3.
  destruct (cg_rest _ _ _ C2) as [r1 r2 r3 r4 r5 r6].
  exists d3, v2. split; [reflexivity|].
  assert (Hg3 : forall i m, get_node d3 i = Some m -> (i = p /\ m = q3) \/ (i <> p /\ get_node d' i = Some m)).
  { intros i m Hi. destruct (Nat.eq_dec i p) as [->|Hip]; [left; split; [reflexivity|congruence]|right]. split; [exact Hip|].
    rewrite O3, (cg_nodes _ _ _ C2) in Hi by congruence. exact Hi. }
  assert (Hg3' : forall i m, i <> p -> get_node d' i = Some m -> get_node d3 i = Some m).
  { intros i m Hi Gi. rewrite O3, (cg_nodes _ _ _ C2) by congruence. exact Gi. }
  assert (Cp3 : coreeq pn q3) by (eapply coreeq_trans; eauto).
  assert (Mq3 : is_marked (n_flags q3) = true) by congruence.
  assert (Dq3 : n_depth q3 = n_depth pn) by apply Cp3.
  assert (Hcp : is_cutset (n_flags pn) = true <-> In p (g_cutset d')) by apply (w_cutflag _ _ _ _ _ HW p pn Gp).
  assert (Hci : incl (g_cutset d') (g_cutset d3)).
  { rewrite K3, r2. destruct newc; [apply incl_appl, incl_refl|apply incl_refl]. }
  assert (Hvi : incl visit v2) by (unfold v2; destruct (is_marked (n_flags pn)), (is_cutset (n_flags pn)); try apply incl_refl; apply incl_appl, incl_refl).
  split; [|split; [exact Hvi|split]].
  - constructor.
    + rewrite X3, X2. apply HW.
    + rewrite L3, (cg_len _ _ _ C2). apply HW.
    + destruct F3 as (f1 & f2 & f3 & f4 & f5 & f6 & f7 & f8). destruct (w_frame _ _ _ _ _ HW) as (h1 & h2 & h3 & h4 & h5 & h6 & h7 & h8).
      rewrite f1, f2, f3, f4, f5, f6, f7, f8, r1, r4, r5, r6, (cg_root _ _ _ C2), (cg_next _ _ _ C2), (cg_ctype _ _ _ C2), (cg_expl _ _ _ C2). auto 10.
    + intros i m Gi. destruct (w_nodes _ _ _ _ _ HW i m Gi) as (m' & W1 & W2 & W3). destruct (Nat.eq_dec i p) as [->|Hip].
      * assert (m' = pn) as -> by congruence. exists q3. split; [exact G3|]. split; [eapply coreeq_trans; eauto|congruence].
      * exists m'. split; [apply Hg3'; auto|auto].
    + intros i m Gi. rewrite K3, r2. destruct (Hg3 i m Gi) as [[-> ->]|[Hip Gi']].
      * rewrite S3, Kq. destruct newc; cbn [orb]; [|exact Hcp]. split; [intros _; apply in_app_iff; right; left; reflexivity|reflexivity].
      * rewrite (w_cutflag _ _ _ _ _ HW i m Gi'). destruct newc; [|tauto]. rewrite in_app_iff. cbn [In]. split; [auto|]. intros [H|[H|[]]]; [exact H|congruence].
    + eapply incl_tran; [apply (w_cutold _ _ _ _ _ HW)|exact Hci].
    + intros Hct. rewrite K3, r2. unfold newc. rewrite Hct. apply (w_cutlel _ _ _ _ _ HW Hct).
    + intros q Hq. rewrite K3, r2 in Hq. assert (Hq' : In q (g_cutset d') \/ (newc = true /\ q = p)).
      { destruct newc; [|auto]. apply in_app_iff in Hq as [Hq|[Hq|[]]]; auto. }
      destruct Hq' as [Hq'|[Hnc ->]].
      * destruct (w_cutnew _ _ _ _ _ HW q Hq') as [H|(qn & e1 & m & mn & ed1 & H1 & H2 & H3 & H4)]; [auto|right].
        destruct (Nat.eq_dec q p) as [->|Hqp].
        -- assert (qn = pn) as -> by congruence. exists q3, e1, m, mn, ed1. split; [exact G3|]. split; [destruct Cp3; congruence|]. split; [exact Mq3|exact H4].
        -- exists qn, e1, m, mn, ed1. split; [apply Hg3'; auto|auto].
      * right. exists q3, e, nid, n0, ed. split; [exact G3|]. unfold newc in Hnc. destruct (g_ctype d); [discriminate|]. apply andb_true_iff in Hnc as [Hnc _]. apply andb_true_iff in Hnc as [Hn1 Hn2].
        destruct C3, C0. split; [congruence|]. split; [exact Mq3|]. split; [exact G0|]. split; [congruence|]. split; [reflexivity|]. apply negb_true_iff in Hn1. split; [congruence|]. apply (w_live _ _ _ _ _ HW nid n' Gn Mn).
    + intros i m Gi Mi. destruct (Hg3 i m Gi) as [[-> ->]|[Hip Gi']]; [lia|]. apply (w_mark _ _ _ _ _ HW i m Gi' Mi).
    + intros i m Gi Mi Di Hi. destruct (Hg3 i m Gi) as [[-> ->]|[Hip Gi']].
      * unfold v2. destruct (is_marked (n_flags pn)) eqn:Em; [apply (w_visit _ _ _ _ _ HW p pn Gp Em Dpj Hi)|].
        destruct (is_cutset (n_flags pn)) eqn:Ek; [|apply in_app_iff; right; left; reflexivity].
        exfalso. destruct (w_cutnew _ _ _ _ _ HW p (proj1 Hcp eq_refl)) as [H|(qn & e1 & m & mn & ed1 & H1 & H2 & H3 & H4)]; [contradiction|]. congruence.
      * apply Hvi. apply (w_visit _ _ _ _ _ HW i m Gi' Mi Di Hi).
    + intros i Hi. assert (Hi' : In i visit \/ i = p).
      { unfold v2 in Hi. destruct (is_marked (n_flags pn)); [auto|]. destruct (is_cutset (n_flags pn)); [auto|]. apply in_app_iff in Hi as [Hi|[Hi|[]]]; auto. }
      destruct (Nat.eq_dec i p) as [->|Hip].
      * exists q3. split; [exact G3|]. split; [congruence|]. split; [exact Mq3|lia].
      * destruct Hi' as [Hi'|Hi']; [|contradiction]. destruct (w_vis _ _ _ _ _ HW i Hi') as (m & W1 & W2). exists m. split; [apply Hg3'; auto|exact W2].
    + intros i m Gi Mi. destruct (Hg3 i m Gi) as [[-> ->]|[Hip Gi']]; [|apply (w_live _ _ _ _ _ HW i m Gi' Mi)].
      right. exists nid, n0, e, ed. split; [exact G0|]. split; [destruct C0; congruence|reflexivity].
  - constructor; [|exact Hci]. intros i m Gi. destruct (Nat.eq_dec i p) as [->|Hip].
    + assert (m = pn) as -> by congruence. exists q3. split; [exact G3|]. split; [exact Cp3|]. split; [lia|]. split; [auto|]. congruence.
    + exists m. split; [apply Hg3'; auto|]. split; [apply coreeq_refl|]. split; [lia|auto].
  - exists q3. split; [exact G3|]. split; [exact Mq3|]. split; [lia|]. intros Hct Hnx Hpx. rewrite K3, r2. unfold newc. rewrite Hct, Hnx. cbn [negb andb].
    destruct C3 as [ce1 ce2 ce3 ce4 ce5 ce6 ce7]. rewrite ce6 in Hpx. rewrite Hpx. cbn [andb]. rewrite Kq.
    destruct (is_cutset (n_flags pn)); cbn [negb]; [apply Hcp; reflexivity|apply in_app_iff; right; left; reflexivity].
Qed.

(** The edge [ed] into node [n] has been taken into account. *)
Definition seen (d d' : dd) (n : node) (ed : edge) : Prop :=
  exists pn, get_node d' (e_from ed) = Some pn /\ is_marked (n_flags pn) = true /\ sat_add (n_bot n) (e_cost ed) <= n_bot pn /\
    (g_ctype d = Frontier -> is_exact (n_flags n) = false -> is_exact (n_flags pn) = true -> In (e_from ed) (g_cutset d')).
Lemma seen_unch d a b j n ed : seen d a n ed -> unch a b j -> seen d b n ed.
Proof.
  intros (pn & G & M & B & F) [U1 U2]. destruct (U1 _ pn G) as (pn' & G' & [ce1 ce2 ce3 ce4 ce5 ce6 ce7] & B' & M' & _).
  exists pn'. split; [exact G'|]. split; [auto|]. split; [lia|]. intros H1 H2 H3. apply U2, F; auto. congruence.
Qed.

Lemma bounds_edges_ok d past j M nid n' : arena None d past -> n_depth n' = j -> is_marked (n_flags n') = true -> (nid <= M)%nat ->
  forall fuel h d' visit, match h with None => True | Some e => (e < fuel)%nat end -> head_ok (g_edges d) h ->
  (forall e ed, inb (g_edges d) h e ed -> inb (g_edges d) (n_inbound n') e ed) ->
  wave d d' visit j M -> get_node d' nid = Some n' ->
  exists d'' visit'', bounds_edges fuel nid d' visit h = Some (d'', visit'') /\ wave d d'' visit'' j M /\ unch d' d'' j /\
    (forall e ed, inb (g_edges d) h e ed -> seen d d'' n' ed).
Proof.
  intros HA Dn Mn HM. induction fuel as [|fuel IH]; intros h d' visit Hf Hh Hsub HW Gn.
  - destruct h; [lia|]. exists d', visit. split; [reflexivity|]. split; [exact HW|]. split; [apply unch_refl|]. intros e ed H. apply inb_none in H. destruct H.
  - destruct h as [eid|].
    + rewrite bounds_edges_unfold, (w_edges _ _ _ _ _ HW). cbn in Hh. destruct (nth_error (g_edges d) eid) as [ed|] eqn:Ed; [|apply nth_error_None in Ed; lia].
      cbn [obind]. pose proof (inb_here _ _ _ Ed) as Hhere.
      destruct (edge_step_ok d past d' visit j M nid n' eid ed HA HW Gn Dn Mn HM (Hsub _ _ Hhere)) as (d1 & v1 & E1 & W1 & _ & U1 & S1).
      rewrite E1. cbn [obind].
      assert (Hnx := a_edges _ _ _ HA eid ed Ed).
      assert (Gn1 : get_node d1 nid = Some n').
      { destruct (u_nodes _ _ _ U1 nid n' Gn) as (m & Gm & _ & _ & _ & Hm). rewrite Gm, (Hm ltac:(lia)). reflexivity. }
      destruct (IH (e_next ed) d1 v1) as (d2 & v2 & E2 & W2 & U2 & S2).
      * destruct (e_next ed); [lia|exact I].
      * destruct (e_next ed); cbn; [lia|exact I].
      * intros e' ed' H. apply Hsub. eapply inb_next; eauto.
      * exact W1.
      * exact Gn1.
      * exists d2, v2. split; [exact E2|]. split; [exact W2|]. split; [eapply unch_trans; eauto|].
        intros e' ed' H. inversion H as [? ? H1|? ? ? ? H1 H2]; subst.
        -- assert (ed' = ed) as -> by congruence. eapply seen_unch; [exact S1|exact U2].
        -- assert (ed0 = ed) as -> by congruence. apply S2 with (e := e'). exact H2.
    + exists d', visit. split; [reflexivity|]. split; [exact HW|]. split; [apply unch_refl|]. intros e ed H. apply inb_none in H. destruct H.
Qed.

Lemma bounds_wave d past j M : arena None d past -> forall V d' acc, wave d d' acc j M ->
  (forall id, In id V -> exists n', get_node d' id = Some n' /\ n_depth n' = j /\ is_marked (n_flags n') = true /\ (id <= M)%nat) ->
  exists d'' acc'', ofold bounds_node V (d', acc) = Some (d'', acc'') /\ wave d d'' acc'' j M /\ unch d' d'' j /\
    (forall id n' e ed, In id V -> get_node d' id = Some n' -> inb (g_edges d) (n_inbound n') e ed -> seen d d'' n' ed).
Proof.
  intros HA. induction V as [|id V IH]; intros d' acc HW HV.
  - exists d', acc. split; [reflexivity|]. split; [exact HW|]. split; [apply unch_refl|]. intros id n' e ed [].
  - cbn [ofold]. destruct (HV id (or_introl eq_refl)) as (n' & Gn & Dn & Mn & HM). cbn [bounds_node]. rewrite Gn. cbn [obind].
    assert (Hh : head_ok (g_edges d) (n_inbound n')).
    { destruct (get_some d id) as (n0 & G0); [rewrite <- (w_len _ _ _ _ _ HW); eapply get_lt; eauto|].
      destruct (w_nodes _ _ _ _ _ HW id n0 G0) as (n1 & G1 & [ce1 ce2 ce3 ce4 ce5 ce6 ce7] & _). assert (n1 = n') as -> by congruence. rewrite ce4.
      apply (no_base _ _ _ _ (a_nodes _ _ _ HA id n0 G0 ltac:(discriminate))). }
    destruct (bounds_edges_ok d past j M id n' HA Dn Mn HM (Datatypes.S (length (g_edges d'))) (n_inbound n') d' acc) as (d1 & a1 & E1 & W1 & U1 & S1).
    + destruct (n_inbound n'); [|exact I]. rewrite (w_edges _ _ _ _ _ HW). cbn in Hh. lia.
    + exact Hh.
    + auto.
    + exact HW.
    + exact Gn.
    + rewrite E1. cbn [obind].
      assert (Hsame : forall i m, get_node d' i = Some m -> n_depth m = j -> get_node d1 i = Some m).
      { intros i m Gi Di. destruct (u_nodes _ _ _ U1 i m Gi) as (m1 & G1 & _ & _ & _ & H1). rewrite G1, (H1 ltac:(lia)). reflexivity. }
      destruct (IH d1 a1 W1) as (d2 & a2 & E2 & W2 & U2 & S2).
      { intros i Hi. destruct (HV i (or_intror Hi)) as (m & Gm & Dm & Mm & Lm). exists m. auto. }
      exists d2, a2. split; [exact E2|]. split; [exact W2|]. split; [eapply unch_trans; eauto|].
      intros i m e ed [<-|Hi] Gm He.
      * assert (m = n') as -> by congruence. eapply seen_unch; [eapply S1; eauto|exact U2].
      * destruct (HV i (or_intror Hi)) as (m' & Gm' & Dm & _). assert (m' = m) as -> by congruence. eapply S2; eauto.
Qed.

Definition processed (d d' : dd) (lev : nat) : Prop :=
  forall id n' e ed, get_node d' id = Some n' -> is_marked (n_flags n') = true -> ~ In id (g_cutset d) -> (lev <= n_depth n')%nat ->
    inb (g_edges d) (n_inbound n') e ed -> seen d d' n' ed.

Lemma bounds_loop_ok d past : arena None d past -> forall lev fuel d' V M, wave d d' V lev M -> (M <= fuel)%nat -> processed d d' lev ->
  exists d'', bounds_loop fuel d' V = Some d'' /\ wave d d'' [] 0 0 /\ processed d d'' 0 /\
    (forall id n, get_node d' id = Some n -> exists n', get_node d'' id = Some n' /\ n_bot n <= n_bot n' /\ (is_marked (n_flags n) = true -> is_marked (n_flags n') = true)).
Proof.
  intros HA. induction lev as [|j IH]; intros fuel d' V M HW HM HP.
  - assert (V = []) as ->.
    { destruct V as [|id V]; [reflexivity|]. destruct (w_vis _ _ _ _ _ HW id (or_introl eq_refl)) as (n' & _ & H & _). lia. }
    exists d'. split; [destruct fuel; reflexivity|]. split; [destruct HW; constructor; auto; intros id []|]. split; [exact HP|]. intros id n G. exists n. split; [exact G|]. split; [lia|auto].
  - assert (Hdown : forall M', wave d d' [] j M').
    { intros M'. destruct HW. constructor; auto.
      - intros id n' G Hm. specialize (w_mark0 id n' G Hm). lia.
      - intros id n' G Hm Hd. specialize (w_mark0 id n' G Hm). lia.
      - intros id []. }
    assert (Hproc : V = [] -> processed d d' j).
    { intros -> id n' e ed G Hm Hc Hd He. destruct (Nat.eq_dec (n_depth n') j) as [Heq|Hne]; [|apply (HP id n' e ed); auto; lia].
      exfalso. apply (w_visit _ _ _ _ _ HW id n' G Hm); [lia|exact Hc]. }
    destruct V as [|v0 V0] eqn:EV.
    + apply (IH fuel d' [] 0%nat); [apply Hdown|lia|apply Hproc; reflexivity].
    + rewrite <- EV in *. assert (HM1 : (1 <= M)%nat).
      { destruct (w_vis _ _ _ _ _ HW v0) as (n' & _ & _ & _ & H); [rewrite EV; left; reflexivity|lia]. }
      destruct M as [|M']; [lia|]. destruct fuel as [|fuel]; [lia|].
      assert (Hunf : bounds_loop (Datatypes.S fuel) d' V = do '(d1, visit1) <- ofold bounds_node V (d', []); bounds_loop fuel d1 visit1) by (rewrite EV; reflexivity).
      rewrite Hunf. clear Hunf.
      destruct (bounds_wave d past j M' HA V d' [] (Hdown M')) as (d1 & v1 & E1 & W1 & U1 & S1).
      { intros id Hid. destruct (w_vis _ _ _ _ _ HW id Hid) as (n' & G & D & Mk & L). exists n'. split; [exact G|]. split; [lia|]. split; [exact Mk|lia]. }
      rewrite E1. cbn [obind].
      assert (Hpr : processed d d1 j).
      { intros id n1 e ed G Hm Hc Hd He. destruct (get_some d' id) as (n' & G').
        { rewrite (w_len _ _ _ _ _ HW), <- (w_len _ _ _ _ _ W1). eapply get_lt; eauto. }
        destruct (u_nodes _ _ _ U1 id n' G') as (n2 & G2 & [ce1 ce2 ce3 ce4 ce5 ce6 ce7] & _ & _ & Heq). assert (n2 = n1) as -> by congruence.
        assert (n1 = n') as -> by (apply Heq; lia). destruct (Nat.eq_dec (n_depth n') j) as [Hj|Hj].
        - apply (S1 id n' e ed); auto. apply (w_visit _ _ _ _ _ HW id n' G' Hm); [lia|exact Hc].
        - eapply seen_unch; [apply (HP id n' e ed); auto; lia|exact U1]. }
      destruct (IH fuel d1 v1 M' W1 ltac:(lia) Hpr) as (d2 & E2 & W2 & P2 & N2).
      exists d2. split; [exact E2|]. split; [exact W2|]. split; [exact P2|].
      intros id n G. destruct (u_nodes _ _ _ U1 id n G) as (n1 & G1 & _ & B1 & M1 & _). destruct (N2 id n1 G1) as (n2 & G2 & B2 & M2). exists n2. split; [exact G2|]. split; [lia|auto].
Qed.

Lemma init_fold (d : dd) kT : layer_at d (nextids d) kT -> forall T d' T0, incl T (nextids d) -> wave d d' T0 (Datatypes.S kT) (length (g_nodes d)) ->
  (forall id n', In id T0 -> get_node d' id = Some n' -> n_bot n' = 0) -> (forall id n', get_node d' id = Some n' -> is_marked (n_flags n') = true -> In id T0) ->
  exists d'', ofold init_bottom T d' = Some d'' /\ wave d d'' (T0 ++ T) (Datatypes.S kT) (length (g_nodes d)) /\
    (forall id n', In id (T0 ++ T) -> get_node d'' id = Some n' -> n_bot n' = 0) /\
    (forall id n', get_node d'' id = Some n' -> is_marked (n_flags n') = true -> In id (T0 ++ T)).
Proof.
  intros Hl. induction T as [|t T IH]; intros d' T0 Hi HW H0 HMk.
  - exists d'. rewrite app_nil_r. split; [reflexivity|]. auto.
  - cbn [ofold]. destruct (Hl t (Hi t (or_introl eq_refl))) as (n0 & G0 & D0).
    destruct (w_nodes _ _ _ _ _ HW t n0 G0) as (n & G & Hc & Hr).
    destruct (upd_node_chg d' t (fun n => node_flags (node_bot n 0) (set_marked (n_flags n) true)) n G) as (d1 & E1 & C1 & X1 & G1).
    unfold init_bottom at 1. rewrite E1. cbn [obind]. set (n1 := node_flags (node_bot n 0) (set_marked (n_flags n) true)) in *.
    assert (Hc1 : coreeq n n1) by (constructor; try reflexivity; cbn; [rewrite exact_set_marked|rewrite relaxed_set_marked]; reflexivity).
    assert (Hg1 : forall i m, get_node d1 i = Some m -> (i = t /\ m = n1) \/ (i <> t /\ get_node d' i = Some m)).
    { intros i m Hg. destruct (Nat.eq_dec i t) as [->|Hne]; [left; split; [reflexivity|congruence]|right].
      rewrite (cg_nodes _ _ _ C1) in Hg by congruence. auto. }
    assert (Hg1' : forall i m, i <> t -> get_node d' i = Some m -> get_node d1 i = Some m) by (intros i m Hne Hg; rewrite (cg_nodes _ _ _ C1) by congruence; exact Hg).
    assert (D1 : n_depth n1 = kT) by (destruct Hc; cbn; congruence).
    assert (M1 : is_marked (n_flags n1) = true) by (cbn; apply marked_set_marked).
    destruct (cg_rest _ _ _ C1) as [r1 r2 r3 r4 r5 r6].
    destruct (IH d1 (T0 ++ [t])) as (d2 & E2 & W2 & B2 & K2).
    + intros x Hx. apply Hi. right. exact Hx.
    + constructor.
      * rewrite X1. apply HW.
      * rewrite (cg_len _ _ _ C1). apply HW.
      * rewrite r1, r4, r5, r6, (cg_root _ _ _ C1), (cg_next _ _ _ C1), (cg_ctype _ _ _ C1), (cg_expl _ _ _ C1). apply HW.
      * intros i m Gi. destruct (w_nodes _ _ _ _ _ HW i m Gi) as (m' & W1 & W2 & W3). destruct (Nat.eq_dec i t) as [->|Hne].
        -- assert (m' = n) as -> by congruence. exists n1. split; [exact G1|]. split; [eapply coreeq_trans; eauto|exact W3].
        -- exists m'. auto.
      * intros i m Gi. rewrite r2. destruct (Hg1 i m Gi) as [[-> ->]|[Hne Gi']]; [cbn; rewrite cutset_set_marked; apply (w_cutflag _ _ _ _ _ HW t n G)|apply (w_cutflag _ _ _ _ _ HW i m Gi')].
      * rewrite r2. apply HW.
      * rewrite r2. apply HW.
      * intros q Hq. rewrite r2 in Hq. destruct (w_cutnew _ _ _ _ _ HW q Hq) as [H|(qn & e1 & m & mn & ed1 & H1 & H2 & H3 & H4)]; [auto|right].
        destruct (Nat.eq_dec q t) as [->|Hne].
        -- assert (qn = n) as -> by congruence. exists n1, e1, m, mn, ed1. split; [exact G1|]. split; [destruct Hc1; congruence|]. split; [exact M1|exact H4].
        -- exists qn, e1, m, mn, ed1. auto.
      * intros i m Gi Mi. destruct (Hg1 i m Gi) as [[-> ->]|[Hne Gi']]; [lia|apply (w_mark _ _ _ _ _ HW i m Gi' Mi)].
      * intros i m Gi Mi Di Hc'. apply in_app_iff. destruct (Hg1 i m Gi) as [[-> ->]|[Hne Gi']]; [right; left; reflexivity|left; apply (w_visit _ _ _ _ _ HW i m Gi' Mi Di Hc')].
      * intros i Hi'. destruct (Nat.eq_dec i t) as [->|Hne].
        -- exists n1. split; [exact G1|]. split; [lia|]. split; [exact M1|eapply get_lt; eauto].
        -- apply in_app_iff in Hi' as [Hi'|[Hi'|[]]]; [|congruence]. destruct (w_vis _ _ _ _ _ HW i Hi') as (m & Q1 & Q2). exists m. auto.
      * intros i m Gi Mi. destruct (Hg1 i m Gi) as [[-> ->]|[Hne Gi']]; [left; apply Hi; left; reflexivity|apply (w_live _ _ _ _ _ HW i m Gi' Mi)].
    + intros i m Hi' Gi. destruct (Hg1 i m Gi) as [[-> ->]|[Hne Gi']]; [reflexivity|]. apply in_app_iff in Hi' as [Hi'|[Hi'|[]]]; [eauto|congruence].
    + intros i m Gi Mi. apply in_app_iff. destruct (Hg1 i m Gi) as [[-> ->]|[Hne Gi']]; [right; left; reflexivity|left; eauto].
    + exists d2. rewrite <- app_assoc in W2, B2, K2. split; [exact E2|]. auto.
Qed.

Lemma local_bounds_ok d past kT T : arena None d past -> layer_at d (nextids d) kT -> (forall id, In id T <-> In id (nextids d)) -> g_exact d = false ->
  (forall p, In p past -> ~ In p (nextids d)) ->
  exists d', compute_local_bounds T d = Some d' /\ wave d d' [] 0 0 /\ processed d d' 0 /\
    (forall id n', In id (nextids d) -> get_node d' id = Some n' -> is_marked (n_flags n') = true /\ 0 <= n_bot n').
Proof.
  intros HA Hl HT Hx Hdisj. unfold compute_local_bounds. rewrite Hx. cbn [negb].
  assert (HW0 : wave d d [] (Datatypes.S kT) (length (g_nodes d))).
  { constructor; try reflexivity.
    - repeat split.
    - intros id n G. exists n. auto using coreeq_refl.
    - intros id n G. apply (a_cut _ _ _ HA id n G).
    - apply incl_refl.
    - auto.
    - intros id n G M. rewrite (no_marked _ _ _ _ (no_base _ _ _ _ (a_nodes _ _ _ HA id n G ltac:(discriminate)))) in M. discriminate.
    - intros id n G M. rewrite (no_marked _ _ _ _ (no_base _ _ _ _ (a_nodes _ _ _ HA id n G ltac:(discriminate)))) in M. discriminate.
    - intros id [].
    - intros id n G M. rewrite (no_marked _ _ _ _ (no_base _ _ _ _ (a_nodes _ _ _ HA id n G ltac:(discriminate)))) in M. discriminate. }
  destruct (init_fold d kT Hl T d [] ltac:(intros x Hx'; apply HT; exact Hx') HW0 ltac:(intros id n' [])) as (d1 & E1 & W1 & B1 & K1).
  { intros id n G M. rewrite (no_marked _ _ _ _ (no_base _ _ _ _ (a_nodes _ _ _ HA id n G ltac:(discriminate)))) in M. discriminate. }
  cbn [app] in *.
  rewrite E1. cbn [obind].
  destruct (bounds_loop_ok d past HA (Datatypes.S kT) (Datatypes.S (length (g_nodes d))) d1 T (length (g_nodes d)) W1 ltac:(lia)) as (d2 & E2 & W2 & P2 & N2).
  { intros id n' e ed G M Hc Hd He. exfalso.
    destruct (w_vis _ _ _ _ _ W1 id (K1 id n' G M)) as (n1 & G1 & D1 & _). assert (n1 = n') as -> by congruence. lia. }
  exists d2. split; [exact E2|]. split; [exact W2|]. split; [exact P2|].
  intros id n' Hid G. apply HT in Hid. destruct (w_vis _ _ _ _ _ W1 id Hid) as (n1 & G1 & D1 & M1 & _). destruct (N2 id n1 G1) as (n2 & G2 & B2 & M2).
  assert (n2 = n') as -> by congruence. rewrite (B1 id n1 Hid G1) in B2. auto.
Qed.
End Facts.
