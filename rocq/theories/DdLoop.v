(** The loop over the layers, common to the two decision diagrams. *)
From Verif Require Import Spec Dd FlagsFacts MatrixFacts DdFacts DdRelax DdExpand.
From Coq Require Import ZifyNat.
Open Scope Z_scope.

Section Facts.
Variable S : Type.
Variable eqb : S -> S -> bool.
Hypothesis eqb_spec : forall a b, eqb a b = true <-> a = b.
Variable P : problem S.
Variable R : relaxation S.
Variable at_depth : nat -> S -> Prop.
Variable nv : nat -> nat.
Variable C : Z.
Hypothesis Hwf : wf_problem S P at_depth nv.
Hypothesis Hvr : relaxation_depth S P at_depth R.
Hypothesis Hbd : bounded S P at_depth nv R C.
Variable k0 : nat.
Variable sp : subproblem S.
Notation N := (pb_nb_vars P).
Notation node := (node S).
Notation dd := (dd S).
Local Notation vbound := (@DdFacts.vbound C).
Local Notation valid_root := (@DdFacts.valid_root S P at_depth C k0 sp).
Local Notation nextids := (@DdFacts.nextids S).
Local Notation vbound_range := (@DdFacts.vbound_range S P R at_depth nv C Hbd).
Local Notation vbound_step := (@DdFacts.vbound_step S P R at_depth nv C Hbd).
Local Notation coreeq := (@DdFacts.coreeq S).
Local Notation samenode := (@DdFacts.samenode S).
Local Notation coreeq_refl := (@DdFacts.coreeq_refl S).
Local Notation samenode_refl := (@DdFacts.samenode_refl S).
Local Notation coreeq_trans := (@DdFacts.coreeq_trans S).
Local Notation samenode_trans := (@DdFacts.samenode_trans S).
Local Notation stable := (@DdFacts.stable S).
Local Notation stable_refl := (@DdFacts.stable_refl S).
Local Notation stable_trans := (@DdFacts.stable_trans S k0).
Local Notation stable_weaken := (@DdFacts.stable_weaken S).
Local Notation edge_ok := (@DdFacts.edge_ok S P nv C).
Local Notation orig_edge := (@DdFacts.orig_edge S P).
Local Notation orig_all := (@DdFacts.orig_all S P).
Local Notation is_root := (@DdFacts.is_root S k0 sp).
Local Notation best_ok := (@DdFacts.best_ok S P k0 sp).
Local Notation node_base := (@DdFacts.node_base S P at_depth nv C k0).
Local Notation node_ok := (@DdFacts.node_ok S P at_depth nv C k0 sp).
Local Notation cleanf := (@DdFacts.cleanf S).
Local Notation clean := (@DdFacts.clean S).
Local Notation arena := (@DdFacts.arena S P at_depth nv C k0 sp).
Local Notation layer_at := (@DdFacts.layer_at S).
Local Notation get_lt := (@DdFacts.get_lt S).
Local Notation get_some := (@DdFacts.get_some S).
Local Notation upd_node_spec := (@DdFacts.upd_node_spec S).
Local Notation orig_edge_mono := (@DdFacts.orig_edge_mono S P).
Local Notation edge_ok_mono := (@DdFacts.edge_ok_mono S P nv C).
Local Notation past_frozen := (@DdFacts.past_frozen S).
Local Notation node_base_mono := (@DdFacts.node_base_mono S P at_depth nv C k0).
Local Notation best_ok_mono := (@DdFacts.best_ok_mono S P at_depth nv C k0 sp).
Local Notation node_ok_mono := (@DdFacts.node_ok_mono S P at_depth nv C k0 sp).
Local Notation orig_all_mono := (@DdFacts.orig_all_mono S P at_depth nv C k0).
Local Notation stable_past := (@DdFacts.stable_past S).
Local Notation next_get_in := (@DdFacts.next_get_in S eqb eqb_spec).
Local Notation next_get_none := (@DdFacts.next_get_none S eqb eqb_spec).
Local Notation nextids_in := (@DdFacts.nextids_in S).
Local Notation all_exact := (@DdFacts.all_exact S).
Local Notation grows := (@DdFacts.grows S).
Local Notation grows_refl := (@DdFacts.grows_refl S).
Local Notation nextids_incl := (@DdFacts.nextids_incl S).
Local Notation grows_trans := (@DdFacts.grows_trans S).
Local Notation same_rest := (@DdFacts.same_rest S).
Local Notation same_rest_refl := (@DdFacts.same_rest_refl S).
Local Notation same_rest_trans := (@DdFacts.same_rest_trans S).
Local Notation has_edge := (@DdFacts.has_edge S P).
Local Notation has_edge_grows := (@DdFacts.has_edge_grows S P).
Local Notation branch_spec := (@DdFacts.branch_spec S eqb eqb_spec P R at_depth nv C Hwf Hbd k0 sp).
Local Notation vr_path := (@DdFacts.vr_path S P at_depth C k0 sp).
Local Notation vr_le := (@DdFacts.vr_le S P at_depth C k0 sp).
Local Notation vr_at := (@DdFacts.vr_at S P at_depth C k0 sp).
Local Notation vr_val := (@DdFacts.vr_val S P at_depth C k0 sp).
Local Notation ce_state := (@DdFacts.ce_state S).
Local Notation ce_value := (@DdFacts.ce_value S).
Local Notation ce_best := (@DdFacts.ce_best S).
Local Notation ce_inb := (@DdFacts.ce_inb S).
Local Notation ce_depth := (@DdFacts.ce_depth S).
Local Notation ce_exact := (@DdFacts.ce_exact S).
Local Notation ce_relaxed := (@DdFacts.ce_relaxed S).
Local Notation sn_core := (@DdFacts.sn_core S).
Local Notation sn_rub := (@DdFacts.sn_rub S).
Local Notation sn_theta := (@DdFacts.sn_theta S).
Local Notation sn_bot := (@DdFacts.sn_bot S).
Local Notation sn_marked := (@DdFacts.sn_marked S).
Local Notation sn_deleted := (@DdFacts.sn_deleted S).
Local Notation sn_barrier := (@DdFacts.sn_barrier S).
Local Notation st_edges := (@DdFacts.st_edges S).
Local Notation st_len := (@DdFacts.st_len S).
Local Notation st_nodes := (@DdFacts.st_nodes S).
Local Notation st_root := (@DdFacts.st_root S).
Local Notation st_ctype := (@DdFacts.st_ctype S).
Local Notation eo_past := (@DdFacts.eo_past S P nv C).
Local Notation eo_lt := (@DdFacts.eo_lt S P nv C).
Local Notation eo_cost := (@DdFacts.eo_cost S P nv C).
Local Notation eo_parent := (@DdFacts.eo_parent S P nv C).
Local Notation no_depth := (@DdFacts.no_depth S P at_depth nv C k0).
Local Notation no_at := (@DdFacts.no_at S P at_depth nv C k0).
Local Notation no_head := (@DdFacts.no_head S P at_depth nv C k0).
Local Notation no_edges := (@DdFacts.no_edges S P at_depth nv C k0).
Local Notation no_marked := (@DdFacts.no_marked S P at_depth nv C k0).
Local Notation no_bot := (@DdFacts.no_bot S P at_depth nv C k0).
Local Notation no_base := (@DdFacts.no_base S P at_depth nv C k0 sp).
Local Notation no_val := (@DdFacts.no_val S P at_depth nv C k0 sp).
Local Notation no_best := (@DdFacts.no_best S P at_depth nv C k0 sp).
Local Notation a_edges := (@DdFacts.a_edges S P at_depth nv C k0 sp).
Local Notation a_len := (@DdFacts.a_len S P at_depth nv C k0 sp).
Local Notation a_nodes := (@DdFacts.a_nodes S P at_depth nv C k0 sp).
Local Notation a_past := (@DdFacts.a_past S P at_depth nv C k0 sp).
Local Notation a_lt := (@DdFacts.a_lt S P at_depth nv C k0 sp).
Local Notation a_keys := (@DdFacts.a_keys S P at_depth nv C k0 sp).
Local Notation a_next := (@DdFacts.a_next S P at_depth nv C k0 sp).
Local Notation a_cut := (@DdFacts.a_cut S P at_depth nv C k0 sp).
Local Notation a_cutpast := (@DdFacts.a_cutpast S P at_depth nv C k0 sp).
Local Notation a_root := (@DdFacts.a_root S P at_depth nv C k0 sp).
Local Notation gr_incl := (@DdFacts.gr_incl S).
Local Notation gr_fresh := (@DdFacts.gr_fresh S).
Local Notation gr_nodes := (@DdFacts.gr_nodes S).
Local Notation sr_prev := (@DdFacts.sr_prev S).
Local Notation sr_cut := (@DdFacts.sr_cut S).
Local Notation sr_lel := (@DdFacts.sr_lel S).
Local Notation sr_best := (@DdFacts.sr_best S).
Local Notation sr_exact := (@DdFacts.sr_exact S).
Local Notation sr_approx := (@DdFacts.sr_approx S).
Local Notation chg := (@DdRelax.chg S).
Local Notation chg_refl := (@DdRelax.chg_refl S).
Local Notation chg_trans := (@DdRelax.chg_trans S).
Local Notation chg_weaken := (@DdRelax.chg_weaken S).
Local Notation chg_frozen := (@DdRelax.chg_frozen S).
Local Notation upd_node_chg := (@DdRelax.upd_node_chg S).
Local Notation mok := (@DdRelax.mok S P at_depth nv C k0 sp).
Local Notation chain_ok := (@DdRelax.chain_ok S P nv).
Local Notation arena_chg := (@DdRelax.arena_chg S P at_depth nv C k0 sp).
Local Notation chain_ok_mono := (@DdRelax.chain_ok_mono S P nv).
Local Notation arena_touch := (@DdRelax.arena_touch S P at_depth nv C k0 sp).
Local Notation mok_mono := (@DdRelax.mok_mono S P at_depth nv C k0 sp).
Local Notation redirected := (@DdRelax.redirected S R).
Local Notation redirect_spec := (@DdRelax.redirect_spec S P R at_depth nv C Hbd k0 sp).
Local Notation dropped := (@DdRelax.dropped S).
Local Notation drop_fold := (@DdRelax.drop_fold S P R at_depth nv C Hbd k0 sp).
Local Notation arena_tmp := (@DdRelax.arena_tmp S P at_depth nv C k0 sp).
Local Notation arena_tmp_close := (@DdRelax.arena_tmp_close S P at_depth nv C k0 sp).
Local Notation arena_ext := (@DdRelax.arena_ext S P at_depth nv C k0 sp).
Local Notation mark_spec := (@DdRelax.mark_spec S P at_depth nv C k0 sp).
Local Notation mark_fold := (@DdRelax.mark_fold S P at_depth nv C k0 sp).
Local Notation layer_ok := (@DdRelax.layer_ok S).
Local Notation sorts := (@DdRelax.sorts S).
Local Notation map_states_some := (@DdRelax.map_states_some S).
Local Notation map_states_in := (@DdRelax.map_states_in S).
Local Notation kept := (@DdRelax.kept S).
Local Notation merged_into := (@DdRelax.merged_into S R at_depth).
Local Notation relax_spec := (@DdRelax.relax_spec S eqb eqb_spec P R at_depth nv C Hvr Hbd k0 sp).
Local Notation cg_edges := (@DdRelax.cg_edges S).
Local Notation cg_len := (@DdRelax.cg_len S).
Local Notation cg_nodes := (@DdRelax.cg_nodes S).
Local Notation cg_rest := (@DdRelax.cg_rest S).
Local Notation cg_next := (@DdRelax.cg_next S).
Local Notation cg_root := (@DdRelax.cg_root S).
Local Notation cg_ctype := (@DdRelax.cg_ctype S).
Local Notation cg_expl := (@DdRelax.cg_expl S).
Local Notation mk_base := (@DdRelax.mk_base S P at_depth nv C k0 sp).
Local Notation mk_state := (@DdRelax.mk_state S P at_depth nv C k0 sp).
Local Notation mk_depth := (@DdRelax.mk_depth S P at_depth nv C k0 sp).
Local Notation mk_rel := (@DdRelax.mk_rel S P at_depth nv C k0 sp).
Local Notation mk_clean := (@DdRelax.mk_clean S P at_depth nv C k0 sp).
Local Notation mk_cut := (@DdRelax.mk_cut S P at_depth nv C k0 sp).
Local Notation mk_cases := (@DdRelax.mk_cases S P at_depth nv C k0 sp).
Local Notation lo_nodup := (@DdRelax.lo_nodup S).
Local Notation lo_node := (@DdRelax.lo_node S).
Local Notation restrict_spec := (@DdExpand.restrict_spec S P at_depth nv C k0 sp).
Local Notation arena_past := (@DdExpand.arena_past S P at_depth nv C k0 sp).
Local Notation doneok := (@DdExpand.doneok S P nv).
Local Notation expanding := (@DdExpand.expanding S P at_depth nv C k0 sp).
Local Notation expanding_init := (@DdExpand.expanding_init S P at_depth nv C k0 sp).
Local Notation has_edge_state := (@DdExpand.has_edge_state S P).
Local Notation doneok_grows := (@DdExpand.doneok_grows S P nv).
Local Notation branch_fold := (@DdExpand.branch_fold S eqb eqb_spec P R at_depth nv C Hwf Hbd k0 sp).
Local Notation expand_step := (@DdExpand.expand_step S eqb eqb_spec P R at_depth nv C Hwf Hbd k0 sp).
Local Notation expand_fold := (@DdExpand.expand_fold S eqb eqb_spec P R at_depth nv C Hwf Hbd k0 sp).
Local Notation dn_rub := (@DdExpand.dn_rub S P nv).
Local Notation dn_bot := (@DdExpand.dn_bot S P nv).
Local Notation dn_marked := (@DdExpand.dn_marked S P nv).
Local Notation dn_deleted := (@DdExpand.dn_deleted S P nv).
Local Notation dn_barrier := (@DdExpand.dn_barrier S P nv).
Local Notation dn_cases := (@DdExpand.dn_cases S P nv).
Local Notation ex_arena := (@DdExpand.ex_arena S P at_depth nv C k0 sp).
Local Notation ex_layer := (@DdExpand.ex_layer S P at_depth nv C k0 sp).
Local Notation ex_fresh := (@DdExpand.ex_fresh S P at_depth nv C k0 sp).
Local Notation ex_rest := (@DdExpand.ex_rest S P at_depth nv C k0 sp).
Local Notation ex_edges := (@DdExpand.ex_edges S P at_depth nv C k0 sp).
Local Notation ex_len := (@DdExpand.ex_len S P at_depth nv C k0 sp).
Local Notation ex_root := (@DdExpand.ex_root S P at_depth nv C k0 sp).
Local Notation ex_ctype := (@DdExpand.ex_ctype S P at_depth nv C k0 sp).
Local Notation ex_old := (@DdExpand.ex_old S P at_depth nv C k0 sp).
Local Notation ex_exact := (@DdExpand.ex_exact S P at_depth nv C k0 sp).
Local Notation ex_expl := (@DdExpand.ex_expl S P at_depth nv C k0 sp).

Definition iters (orc : oracle S) : Prop := forall i l, Permutation l (o_iter orc i l).

Lemma nodup_app_intro {A} (a b : list A) : NoDup a -> NoDup b -> (forall x, In x a -> ~ In x b) -> NoDup (a ++ b).
Proof.
  intros Ha Hb H. induction Ha as [|x a Hx Ha IH]; cbn; [exact Hb|]. constructor.
  - rewrite in_app_iff. intros [H'|H']; [contradiction|]. apply (H x); [left; reflexivity|exact H'].
  - apply IH. intros y Hy. apply H. right. exact Hy.
Qed.

(** ** The invariant of the loop over the layers *)
(** Node [id] has been expanded: unless the estimate rules it out, there is an edge for each decision. [gone] are the nodes
    that were taken out of their layer thanks to a threshold. *)
Definition child_ok (inp : input S) (d : dd) (past gone : list nat) (id : nat) (n : node) (dec : decision) : Prop :=
  exists m mn e ed, (In m past \/ In m (nextids d) \/ In m gone) /\ get_node d m = Some mn /\
    inb (g_edges d) (n_inbound mn) e ed /\ e_from ed = id /\ e_dec ed = dec /\
    ((n_state mn = pb_trans P (n_state n) dec /\ e_cost ed = pb_cost P (n_state n) dec) \/
     (g_approx d = true /\ (forall q qn, In q (g_cutset d) -> get_node d q = Some qn -> (n_depth qn <= n_depth n)%nat) /\
      exists L, n_state mn = rx_merge R L /\ Forall (at_depth (Datatypes.S (n_depth n))) L /\ In (pb_trans P (n_state n) dec) L /\
        e_cost ed = rx_relax R (n_state n) (pb_trans P (n_state n) dec) (rx_merge R L) dec (pb_cost P (n_state n) dec))).
Definition expd (inp : input S) (d : dd) (past gone : list nat) (id : nat) (n : node) : Prop :=
  n_rub n = pb_estimate P (n_state n) /\
  ((i_type inp = Restricted -> g_approx d = false) -> i_lb inp < sat_add (pb_estimate P (n_state n)) (n_value n) ->
   forall dec, In dec (pb_domain P (nv (n_depth n)) (n_state n)) -> child_ok inp d past gone id n dec).

Record linv (inp : input S) (ct : cutset_type) (d : dd) (past gone curr : list nat) (k : nat) : Prop := {
  li_arena : arena None d past;
  li_layer : layer_at d (nextids d) k;
  li_range : (k0 <= k <= N)%nat;
  li_disj : forall p, In p past -> ~ In p (nextids d);
  li_curr : forall p pn, get_node d p = Some pn -> (In p curr <-> In p past /\ Datatypes.S (n_depth pn) = k);
  li_currin : incl curr past;
  li_depth : forall p pn, In p past -> get_node d p = Some pn -> (n_depth pn < k)%nat;
  li_exp : forall p pn, In p past -> get_node d p = Some pn -> expd inp d past gone p pn;
  li_exact : g_approx d = false \/ i_type inp <> Relaxed -> all_exact d;
  li_typ : i_type inp = Exact -> g_approx d = false;
  li_nocut : g_approx d = false \/ ct = Frontier \/ i_type inp <> Relaxed -> g_cutset d = [];
  li_lel : g_approx d = true -> ct = LastExactLayer -> i_type inp = Relaxed ->
     exists kc, (k0 < kc < k)%nat /\ g_cutset d <> [] /\ (forall p pn, In p past -> get_node d p = Some pn -> (In p (g_cutset d) <-> n_depth pn = kc));
  li_cutexact : forall q qn, In q (g_cutset d) -> get_node d q = Some qn -> is_exact (n_flags qn) = true;
  li_ctype : g_ctype d = ct;
  li_root : In 0%nat past \/ k = k0 /\ g_next d = [(sp_state sp, 0%nat)] /\ past = [] /\ curr = [];
  li_pastnd : NoDup past;
  li_width : forall j l, NoDup l -> incl l past -> layer_at d l j ->
     (i_type inp = Restricted \/ i_type inp = Relaxed /\ (k0 + 1 < j)%nat) -> (length l <= i_width inp)%nat;
  li_expl : (g_explored d <= length past)%nat;
  li_best : g_best d = None /\ g_exact d = true;
  li_gone : forall g, In g gone -> ~ In g past /\ ~ In g (nextids d) /\ exists gn, get_node d g = Some gn /\ (n_depth gn <= k)%nat;
  li_near : i_type inp = Relaxed -> ((k <= k0 + 1)%nat -> g_approx d = false) /\
     forall id n, (In id past \/ In id (nextids d)) -> get_node d id = Some n -> (n_depth n <= k0 + 1)%nat -> is_exact (n_flags n) = true }.

(** What happens to a layer between its construction and its expansion. *)
Record mid (inp : input S) (d d3 : dd) (past curr1 curr2 : list nat) (k : nat) : Prop := {
  md_arena : arena None d3 past;
  md_next : g_next d3 = [];
  md_layer : layer_ok d3 past curr2 k;
  md_stable : stable (fun i => In i curr1) d d3;
  md_incl : forall id, In id curr2 -> In id curr1 \/ id = length (g_nodes d);
  md_cover : (i_type inp = Restricted -> g_approx d3 = false) ->
     forall m mn, In m curr1 -> get_node d m = Some mn -> exists m' mn', In m' curr2 /\ get_node d3 m' = Some mn' /\
       (kept d d3 mn mn' \/ g_approx d3 = true /\ merged_into d d3 k mn mn');
  md_approx : g_approx d = true -> g_approx d3 = true;
  md_typ : i_type inp = Exact -> g_approx d3 = g_approx d;
  md_allex : all_exact d -> g_approx d3 = false \/ i_type inp <> Relaxed -> all_exact d3;
  md_cut : (g_cutset d3 = g_cutset d /\ (g_approx d3 = true -> i_type inp = Relaxed -> g_ctype d = LastExactLayer -> g_approx d = true)) \/
     (i_type inp = Relaxed /\ g_ctype d = LastExactLayer /\ g_approx d = false /\ g_approx d3 = true /\
      g_cutset d3 = g_cutset d ++ g_prev d /\ (k0 + 1 < k)%nat /\ curr1 <> []);
  md_width : (i_type inp = Restricted \/ i_type inp = Relaxed /\ (k0 + 1 < k)%nat) -> (length curr2 <= i_width inp)%nat;
  md_expl : g_explored d3 = g_explored d;
  md_best : g_best d3 = g_best d /\ g_exact d3 = g_exact d;
  md_near : i_type inp = Relaxed -> (k <= k0 + 1)%nat -> g_approx d3 = g_approx d }.

Lemma linv_step v inp ct d d3 d4 past gone newgone curr curr1 curr2 k :
  linv inp ct d past gone curr k -> (k < N)%nat -> g_prev d = curr ->
  (forall id, In id (nextids d) <-> In id curr1 \/ In id newgone) -> (forall id, In id curr1 -> ~ In id newgone) ->
  mid inp d d3 past curr1 curr2 k ->
  expanding v (i_lb inp) d3 d4 past curr2 (rev curr2 ++ []) k ->
  (In 0%nat past \/ In 0%nat curr2) ->
  linv inp ct d4 (curr2 ++ past) (newgone ++ gone) curr2 (Datatypes.S k).
Proof.
  intros HL Hk Hprev Hnx Hng HM HE Hroot.
  assert (Hdone : forall id, In id (rev curr2 ++ []) <-> In id curr2) by (intros id; rewrite app_nil_r, <- in_rev; tauto).
  assert (HA := li_arena _ _ _ _ _ _ _ HL).
  (* nodes of d that are not in curr1 *)
  assert (H03 : forall id n, get_node d id = Some n -> ~ In id curr1 -> exists n3, get_node d3 id = Some n3 /\ samenode n n3).
  { intros id n Hg Hn. apply (st_nodes _ _ _ (md_stable _ _ _ _ _ _ _ HM) id n Hg Hn). }
  assert (Hpc1 : forall p, In p past -> ~ In p curr1) by (intros p Hp H; apply (li_disj _ _ _ _ _ _ _ HL p Hp), Hnx; auto).
  assert (Hpc2 : forall p, In p past -> ~ In p curr2) by (intros p Hp H; apply (lo_node _ _ _ _ (md_layer _ _ _ _ _ _ _ HM) p H); exact Hp).
  assert (Hpr : forall p, In p past -> exists pn, get_node d p = Some pn) by (intros p Hp; apply get_some, (a_past _ _ _ HA p Hp)).
  assert (H04 : forall id n, get_node d id = Some n -> ~ In id curr1 -> ~ In id curr2 -> exists n4, get_node d4 id = Some n4 /\ samenode n n4).
  { intros id n Hg H1 H2. destruct (H03 id n Hg H1) as (n3 & G3 & S3). destruct (ex_old _ _ _ _ _ _ _ _ HE id n3 G3) as (n4 & G4 & _ & S4 & _).
    exists n4. split; [exact G4|]. eapply samenode_trans; [exact S3|apply S4]. rewrite Hdone. exact H2. }
  assert (Hp4 : forall p pn4, In p past -> get_node d4 p = Some pn4 -> exists pn, get_node d p = Some pn /\ samenode pn pn4).
  { intros p pn4 Hp G4. destruct (Hpr p Hp) as (pn & G). exists pn. split; [exact G|]. destruct (H04 p pn G (Hpc1 p Hp) (Hpc2 p Hp)) as (n4 & G4' & S4).
    assert (n4 = pn4) as -> by congruence. exact S4. }
  assert (Hc4 : forall p pn4, In p curr2 -> get_node d4 p = Some pn4 -> exists pn3, get_node d3 p = Some pn3 /\ n_depth pn3 = k /\ coreeq pn3 pn4 /\ doneok v (i_lb inp) d4 p pn3 pn4).
  { intros p pn4 Hp G4. destruct (lo_node _ _ _ _ (md_layer _ _ _ _ _ _ _ HM) p Hp) as (_ & _ & n3 & G3 & D3 & _). exists n3. split; [exact G3|]. split; [exact D3|].
    destruct (ex_old _ _ _ _ _ _ _ _ HE p n3 G3) as (n4 & G4' & C4 & _ & S4). assert (n4 = pn4) as -> by congruence. split; [exact C4|]. apply S4, Hdone, Hp. }
  assert (Hx03 : exists xs, g_edges d3 = g_edges d ++ xs) by apply (md_stable _ _ _ _ _ _ _ HM).
  assert (Hx34 := ex_edges _ _ _ _ _ _ _ _ HE).
  assert (Hi03 : forall h e ed, inb (g_edges d) h e ed -> inb (g_edges d3) h e ed) by (destruct Hx03 as [xs ->]; intros; apply inb_app; assumption).
  assert (Hi34 : forall h e ed, inb (g_edges d3) h e ed -> inb (g_edges d4) h e ed) by (destruct Hx34 as [xs ->]; intros; apply inb_app; assumption).
  destruct (ex_rest _ _ _ _ _ _ _ _ HE) as [rp rc rl rb re ra].
  assert (Hdp4 : forall p pn4, In p (curr2 ++ past) -> get_node d4 p = Some pn4 -> (In p curr2 /\ n_depth pn4 = k) \/ (In p past /\ (n_depth pn4 < k)%nat)).
  { intros p pn4 Hp G4. apply in_app_iff in Hp as [Hp|Hp].
    - left. split; [exact Hp|]. destruct (Hc4 p pn4 Hp G4) as (n3 & _ & D3 & C4 & _). destruct C4. congruence.
    - right. split; [exact Hp|]. destruct (Hp4 p pn4 Hp G4) as (pn & G & [[]]). pose proof (li_depth _ _ _ _ _ _ _ HL p pn Hp G). lia. }
  assert (Hcut3 : incl (g_cutset d3) past) by apply (md_arena _ _ _ _ _ _ _ HM).
  (* the children of the nodes already expanded *)
  assert (Hold : forall p pn, In p past -> get_node d p = Some pn -> (i_type inp = Restricted -> g_approx d4 = false) ->
    forall dec, child_ok inp d past gone p pn dec -> child_ok inp d4 (curr2 ++ past) (newgone ++ gone) p pn dec).
  { intros p pn Hp Hg Hty dec (m & mn & e & ed & Hm & Gm & He & Hf & Hd & Hcase).
    assert (Hqd : forall q qn, In q (g_cutset d4) -> get_node d4 q = Some qn -> (n_depth qn < k)%nat).
    { intros q qn Hq Gq. rewrite rc in Hq. apply Hcut3 in Hq. destruct (Hp4 q qn Hq Gq) as (q0 & Gq0 & [[]]). pose proof (li_depth _ _ _ _ _ _ _ HL q q0 Hq Gq0). lia. }
    (* a child that stays *)
    assert (Hstay : (In m past \/ In m gone) -> ~ In m curr1 -> ~ In m curr2 -> child_ok inp d4 (curr2 ++ past) (newgone ++ gone) p pn dec).
    { intros Hm' H1 H2. destruct (H04 m mn Gm H1 H2) as (m4 & G4 & [[ce1 ce2 ce3 ce4 ce5 ce6 ce7] _ _ _ _ _ _]).
      exists m, m4, e, ed. split; [rewrite !in_app_iff; tauto|]. split; [exact G4|]. split; [rewrite ce4; auto|]. split; [exact Hf|]. split; [exact Hd|].
      destruct Hcase as [[H3 H4]|(H3 & H4 & L & H5 & H6)]; [left; split; [congruence|exact H4]|right].
      assert (Ha3 := md_approx _ _ _ _ _ _ _ HM H3). split; [congruence|]. split; [|exists L; rewrite ce1; auto].
      intros q qn Hq Gq. rewrite rc in Hq. destruct (md_cut _ _ _ _ _ _ _ HM) as [[Hc _]|(_ & _ & Hc & _)]; [|congruence]. rewrite Hc in Hq.
      destruct (Hp4 q qn (a_cutpast _ _ _ HA q Hq) Gq) as (q0 & Gq0 & [[]]). specialize (H4 q q0 Hq Gq0). congruence. }
    destruct Hm as [Hm|[Hm|Hm]].
    - apply Hstay; [auto|apply Hpc1; exact Hm|apply Hpc2; exact Hm].
    - (* a child in the layer *)
      assert (Hnl : In m past \/ In m gone -> False).
      { intros [H|H]; [apply (li_disj _ _ _ _ _ _ _ HL m H Hm)|apply (li_gone _ _ _ _ _ _ _ HL m H); exact Hm]. }
      destruct (li_layer _ _ _ _ _ _ _ HL m Hm) as (mn' & Gm' & Dm). assert (mn' = mn) as -> by congruence. clear Gm'.
      assert (Hor : n_state mn = pb_trans P (n_state pn) dec /\ e_cost ed = pb_cost P (n_state pn) dec).
      { apply nextids_in in Hm as (s & Hs). destruct (a_next _ _ _ HA s m Hs) as (mn' & Gm' & _ & Ho & _). assert (mn' = mn) as -> by congruence.
        destruct (Ho e ed He) as (pn' & Gp & O1 & O2). rewrite Hf in Gp. assert (pn' = pn) as -> by congruence. rewrite Hd in O1, O2. auto. }
      assert (Dp : Datatypes.S (n_depth pn) = k).
      { pose proof (no_edges _ _ _ _ (no_base _ _ _ _ (a_nodes _ _ _ HA m mn Gm ltac:(discriminate))) e ed He) as [_ _ _ (pn' & Gp & D1 & _)].
        rewrite Hf in Gp. assert (pn' = pn) as -> by congruence. congruence. }
      apply Hnx in Hm as [Hm|Hm].
      + destruct (md_cover _ _ _ _ _ _ _ HM) with (m := m) (mn := mn) as (m' & mn' & Q1 & Q2 & Q3); [intros H; rewrite <- ra; auto|exact Hm|exact Gm|].
        destruct (ex_old _ _ _ _ _ _ _ _ HE m' mn' Q2) as (m4 & G4 & [ce1 ce2 ce3 ce4 ce5 ce6 ce7] & _).
        destruct Q3 as [(K1 & K2 & K3)|(Ha & L & K1 & K2 & K3 & K4)].
        * exists m', m4, e, ed. split; [rewrite in_app_iff; auto|]. split; [exact G4|]. split; [rewrite ce4; auto|]. split; [exact Hf|]. split; [exact Hd|].
          left. split; [rewrite ce1, K1; apply Hor|apply Hor].
        * destruct (K4 e ed He) as (e2 & ed2 & pn' & U1 & U2 & U3 & U4 & U5). rewrite Hf in U4. assert (pn' = pn) as -> by congruence.
          exists m', m4, e2, ed2. split; [rewrite in_app_iff; auto|]. split; [exact G4|]. split; [rewrite ce4; auto|]. split; [congruence|]. split; [congruence|].
          right. split; [congruence|]. split; [intros q qn Hq Gq; specialize (Hqd q qn Hq Gq); lia|].
          exists L. rewrite Dp. split; [congruence|]. split; [exact K2|]. destruct Hor as [O1 O2]. rewrite <- O1, <- O2. split; [exact K3|]. rewrite U5, Hd. reflexivity.
      + assert (H1 : ~ In m curr1) by (intros H; exact (Hng m H Hm)).
        assert (H2 : ~ In m curr2).
        { intros H. destruct (md_incl _ _ _ _ _ _ _ HM m H) as [H'|H']; [contradiction|]. apply get_lt in Gm. lia. }
        destruct (H04 m mn Gm H1 H2) as (m4 & G4 & [[ce1 ce2 ce3 ce4 ce5 ce6 ce7] _ _ _ _ _ _]).
        exists m, m4, e, ed. split; [rewrite !in_app_iff; tauto|]. split; [exact G4|]. split; [rewrite ce4; auto|]. split; [exact Hf|]. split; [exact Hd|].
        left. split; [rewrite ce1; apply Hor|apply Hor].
    - destruct (li_gone _ _ _ _ _ _ _ HL m Hm) as (H1 & H2 & _). apply Hstay; [auto|intros H; apply H2, Hnx; auto|].
      intros H. destruct (md_incl _ _ _ _ _ _ _ HM m H) as [H'|H']; [apply H2, Hnx; auto|]. apply get_lt in Gm. lia. }
  constructor.
  - apply (ex_arena _ _ _ _ _ _ _ _ HE).
  - apply (ex_layer _ _ _ _ _ _ _ _ HE).
  - pose proof (li_range _ _ _ _ _ _ _ HL). lia.
  - intros p Hp Hn. apply (ex_fresh _ _ _ _ _ _ _ _ HE) in Hn. apply in_app_iff in Hp as [Hp|Hp].
    + destruct (lo_node _ _ _ _ (md_layer _ _ _ _ _ _ _ HM) p Hp) as (_ & _ & n3 & G3 & _). apply get_lt in G3. lia.
    + pose proof (a_past _ _ _ (md_arena _ _ _ _ _ _ _ HM) p Hp). lia.
  - intros p pn G. split.
    + intros Hp. assert (Hp' : In p (curr2 ++ past)) by (apply in_app_iff; auto). split; [exact Hp'|].
      destruct (Hdp4 p pn Hp' G) as [[_ H]|[H _]]; [congruence|]. exfalso. exact (Hpc2 p H Hp).
    + intros [Hp Hd]. destruct (Hdp4 p pn Hp G) as [[H _]|[_ H]]; [exact H|lia].
  - apply incl_appl, incl_refl.
  - intros p pn Hp G. destruct (Hdp4 p pn Hp G) as [[_ H]|[_ H]]; lia.
  - intros p pn Hp G. apply in_app_iff in Hp as [Hp|Hp].
    + destruct (Hc4 p pn Hp G) as (n3 & G3 & D3 & [ce1 ce2 ce3 ce4 ce5 ce6 ce7] & [z1 z2 z3 z4 z5 z6]). split; [congruence|].
      intros Hty Hlb dec Hdec. destruct z6 as [(_ & _ & z7)|(z7 & _)]; [|rewrite ce1, ce2 in Hlb; lia].
      rewrite ce1, ce5 in Hdec. destruct (z7 dec Hdec) as (m & mn & e & ed & W1 & W2 & W3 & W4 & W5 & W6).
      exists m, mn, e, ed. split; [right; left; apply nextids_in; eauto|]. split; [exact W2|]. split; [exact W3|]. split; [exact W4|]. split; [exact W5|].
      left. rewrite ce1. split; [|exact W6]. destruct (a_next _ _ _ (ex_arena _ _ _ _ _ _ _ _ HE) _ _ W1) as (mn' & Q1 & Q2 & _). congruence.
    + destruct (Hp4 p pn Hp G) as (pn0 & G0 & [[ce1 ce2 ce3 ce4 ce5 ce6 ce7] sn2 _ _ _ _ _]). destruct (li_exp _ _ _ _ _ _ _ HL p pn0 Hp G0) as [Hr Hch].
      split; [congruence|]. rewrite ce1, ce2, ce5. intros Hty Hlb dec Hdec.
      assert (Hty0 : i_type inp = Restricted -> g_approx d = false).
      { intros H. specialize (Hty H). destruct (g_approx d) eqn:Ea; [|reflexivity]. pose proof (md_approx _ _ _ _ _ _ _ HM Ea). congruence. }
      pose proof (Hold p pn0 Hp G0 Hty dec (Hch Hty0 Hlb dec Hdec)) as (m & mn & e & ed & W1 & W2 & W3 & W4 & W5 & W6).
      exists m, mn, e, ed. rewrite ce1, ce5. auto 10.
  - intros H. apply (ex_exact _ _ _ _ _ _ _ _ HE). rewrite ra in H. apply (md_allex _ _ _ _ _ _ _ HM); [|exact H].
    apply (li_exact _ _ _ _ _ _ _ HL). destruct H as [H|H]; [|auto]. left. destruct (g_approx d) eqn:Ea; [|reflexivity]. pose proof (md_approx _ _ _ _ _ _ _ HM Ea). congruence.
  - intros H. rewrite ra, (md_typ _ _ _ _ _ _ _ HM H). apply (li_typ _ _ _ _ _ _ _ HL H).
  - intros H. rewrite rc. rewrite ra in H. destruct (md_cut _ _ _ _ _ _ _ HM) as [[Hc _]|(M1 & M2 & M3 & M4 & _)].
    + rewrite Hc. apply (li_nocut _ _ _ _ _ _ _ HL). destruct H as [H|H]; [|auto]. left. destruct (g_approx d) eqn:Ea; [|reflexivity]. pose proof (md_approx _ _ _ _ _ _ _ HM Ea). congruence.
    + exfalso. rewrite (li_ctype _ _ _ _ _ _ _ HL) in M2. destruct H as [H|[H|H]]; congruence.
  - intros Ha Hct Hty. rewrite ra in Ha. rewrite rc. destruct (md_cut _ _ _ _ _ _ _ HM) as [[Hc Hca]|(M1 & M2 & M3 & M4 & M5 & M6 & M7)].
    + destruct (li_lel _ _ _ _ _ _ _ HL) as (kc & Hk1 & Hk3 & Hk2); auto; [apply Hca; auto; rewrite (li_ctype _ _ _ _ _ _ _ HL); exact Hct|].
      exists kc. split; [lia|]. split; [rewrite Hc; exact Hk3|]. intros p pn Hp G. rewrite Hc. apply in_app_iff in Hp as [Hp|Hp].
      * split; [intros H; apply (a_cutpast _ _ _ HA) in H; exfalso; exact (Hpc2 p H Hp)|].
        intros H. destruct (Hc4 p pn Hp G) as (n3 & _ & D3 & C4 & _). destruct C4. lia.
      * destruct (Hp4 p pn Hp G) as (pn0 & G0 & [[]]). rewrite (Hk2 p pn0 Hp G0). rewrite ce_depth. tauto.
    + exists (Nat.pred k). split; [lia|]. split.
      { destruct curr1 as [|m l] eqn:Ec; [congruence|]. assert (Hm : In m (nextids d)) by (apply Hnx; left; left; reflexivity).
        destruct (li_layer _ _ _ _ _ _ _ HL m Hm) as (mn & Gm & Dm). assert (Hok := a_nodes _ _ _ HA m mn Gm ltac:(discriminate)).
        destruct (no_best _ _ _ _ Hok) as [(_ & _ & _ & _ & _ & D0 & _)|(_ & e & ed & pn & _ & He & Gp & _)]; [lia|].
        destruct (no_edges _ _ _ _ (no_base _ _ _ _ Hok) e ed He) as [Hp _ _ (pn' & Gp' & D1 & _)]. assert (pn' = pn) as -> by congruence.
        assert (Hi : In (e_from ed) curr) by (apply (li_curr _ _ _ _ _ _ _ HL (e_from ed) pn Gp); split; [exact Hp|lia]).
        rewrite M5, Hprev. intros Hnil. apply app_eq_nil in Hnil as [_ Hnil]. rewrite Hnil in Hi. destruct Hi. }
      intros p pn Hp G. rewrite M5, Hprev.
      rewrite (li_nocut _ _ _ _ _ _ _ HL (or_introl M3)). cbn [app]. apply in_app_iff in Hp as [Hp|Hp].
      * split; [intros H; apply (li_currin _ _ _ _ _ _ _ HL) in H; exfalso; exact (Hpc2 p H Hp)|].
        intros H. destruct (Hc4 p pn Hp G) as (n3 & _ & D3 & C4 & _). destruct C4. lia.
      * destruct (Hp4 p pn Hp G) as (pn0 & G0 & [[]]). rewrite (li_curr _ _ _ _ _ _ _ HL p pn0 G0). rewrite ce_depth.
        pose proof (li_depth _ _ _ _ _ _ _ HL p pn0 Hp G0). split; [intros [_ H2]; lia|]. intros H1. split; [exact Hp|lia].
  - intros q qn Hq Gq. rewrite rc in Hq. assert (Hqp := Hcut3 q Hq). destruct (Hp4 q qn Hqp Gq) as (q0 & Gq0 & [[]]). rewrite ce_exact.
    destruct (md_cut _ _ _ _ _ _ _ HM) as [[Hc Hca]|(M1 & M2 & M3 & M4 & M5 & M6 & M7)].
    + rewrite Hc in Hq. apply (li_cutexact _ _ _ _ _ _ _ HL q q0 Hq Gq0).
    + apply (li_exact _ _ _ _ _ _ _ HL (or_introl M3) q q0 Gq0).
  - rewrite (ex_ctype _ _ _ _ _ _ _ _ HE), (st_ctype _ _ _ (md_stable _ _ _ _ _ _ _ HM)). apply HL.
  - left. apply in_app_iff. tauto.
  - apply nodup_app_intro; [apply (md_layer _ _ _ _ _ _ _ HM)|apply HL|]. intros x H1 H2. exact (Hpc2 x H2 H1).
  - intros j l Hnd Hl Hlay Hty. destruct (Nat.eq_dec j k) as [->|Hne].
    + apply (Nat.le_trans _ (length curr2)); [|apply (md_width _ _ _ _ _ _ _ HM); exact Hty].
      apply NoDup_incl_length; [exact Hnd|]. intros x Hx. destruct (Hlay x Hx) as (n & G & D). destruct (Hdp4 x n (Hl x Hx) G) as [[H _]|[_ H]]; [exact H|lia].
    + apply (li_width _ _ _ _ _ _ _ HL j l Hnd); [| |exact Hty].
      * intros x Hx. destruct (Hlay x Hx) as (n & G & D). destruct (Hdp4 x n (Hl x Hx) G) as [[_ H]|[H _]]; [lia|exact H].
      * intros x Hx. destruct (Hlay x Hx) as (n & G & D). destruct (Hdp4 x n (Hl x Hx) G) as [[_ H]|[H _]]; [lia|].
        destruct (Hp4 x n H G) as (n0 & G0 & [[]]). exists n0. split; [exact G0|lia].
  - pose proof (ex_expl _ _ _ _ _ _ _ _ HE) as Hx. rewrite (md_expl _ _ _ _ _ _ _ HM), app_nil_r, rev_length in Hx. pose proof (li_expl _ _ _ _ _ _ _ HL). rewrite app_length. lia.
  - rewrite rb, re. destruct (md_best _ _ _ _ _ _ _ HM) as [-> ->]. apply HL.
  - intros g Hg. assert (Hg' : ~ In g past /\ ~ In g curr1 /\ exists gn, get_node d g = Some gn /\ (n_depth gn <= k)%nat).
    { apply in_app_iff in Hg as [Hg|Hg].
      - assert (Hgn : In g (nextids d)) by (apply Hnx; auto). split; [intros H; exact (li_disj _ _ _ _ _ _ _ HL g H Hgn)|]. split; [intros H; exact (Hng g H Hg)|].
        destruct (li_layer _ _ _ _ _ _ _ HL g Hgn) as (gn & G & D). exists gn. split; [exact G|lia].
      - destruct (li_gone _ _ _ _ _ _ _ HL g Hg) as (H1 & H2 & gn & G & D). split; [exact H1|]. split; [intros H; apply H2, Hnx; auto|]. exists gn. split; [exact G|lia]. }
    destruct Hg' as (H1 & H2 & gn & G & D).
    assert (H3 : ~ In g curr2).
    { intros H. destruct (md_incl _ _ _ _ _ _ _ HM g H) as [H'|H']; [contradiction|]. apply get_lt in G. lia. }
    split; [rewrite in_app_iff; tauto|]. destruct (H04 g gn G H2 H3) as (g4 & G4 & [[]]). split.
    + intros H. apply (ex_fresh _ _ _ _ _ _ _ _ HE) in H. pose proof (st_len _ _ _ (md_stable _ _ _ _ _ _ _ HM)). apply get_lt in G. lia.
    + exists g4. split; [exact G4|lia].
  - intros Hty. destruct (li_near _ _ _ _ _ _ _ HL Hty) as [Hn1 Hn2].
    assert (Hx : (k <= k0 + 1)%nat -> g_approx d3 = false) by (intros H; rewrite (md_near _ _ _ _ _ _ _ HM Hty H); auto).
    assert (Hx3 : (k <= k0 + 1)%nat -> all_exact d3).
    { intros H. apply (md_allex _ _ _ _ _ _ _ HM); [|left; auto]. apply (li_exact _ _ _ _ _ _ _ HL). left. auto. }
    split; [intros H; rewrite ra; apply Hx; lia|]. intros id n [Hid|Hid] G D.
    + destruct (Hdp4 id n Hid G) as [[H1 H2]|[H1 H2]].
      * destruct (Hc4 id n H1 G) as (n3 & G3 & D3 & C4 & _). rewrite (ce_exact _ _ C4). apply (Hx3 ltac:(lia) id n3 G3).
      * destruct (Hp4 id n H1 G) as (n0 & G0 & [C4 _ _ _ _ _ _]). rewrite (ce_exact _ _ C4). apply (Hn2 id n0); [auto|exact G0|]. destruct C4. lia.
    + destruct (ex_layer _ _ _ _ _ _ _ _ HE id Hid) as (n4 & G4 & D4). assert (n4 = n) as -> by congruence.
      apply (ex_exact _ _ _ _ _ _ _ _ HE (Hx3 ltac:(lia)) id n G).
Qed.
End Facts.
