(** Restriction and expansion of a layer, common to the two decision diagrams. *)
From Verif Require Import Spec Dd FlagsFacts MatrixFacts DdFacts DdRelax.
From Coq Require Import ZifyNat.
Open Scope Z_scope.

Section Facts.
Variable S : Type.
Variable eqb : S -> S -> bool.
Hypothesis eqb_spec : forall a b, eqb a b = true <-> a = b.
Variable P : problem S.
Variable R : relaxation S.
Variable at_depth : nat -> S -> Prop.
Variable nv : nat -> nat.
Variable C : Z.
Hypothesis Hwf : wf_problem S P at_depth nv.
Hypothesis Hvr : relaxation_depth S P at_depth R.
Hypothesis Hbd : bounded S P at_depth nv R C.
Variable k0 : nat.
Variable sp : subproblem S.
Notation N := (pb_nb_vars P).
Notation node := (node S).
Notation dd := (dd S).
Local Notation vbound := (@DdFacts.vbound C).
Local Notation valid_root := (@DdFacts.valid_root S P at_depth C k0 sp).
Local Notation nextids := (@DdFacts.nextids S).
Local Notation vbound_range := (@DdFacts.vbound_range S P R at_depth nv C Hbd).
Local Notation vbound_step := (@DdFacts.vbound_step S P R at_depth nv C Hbd).
Local Notation coreeq := (@DdFacts.coreeq S).
Local Notation samenode := (@DdFacts.samenode S).
Local Notation coreeq_refl := (@DdFacts.coreeq_refl S).
Local Notation samenode_refl := (@DdFacts.samenode_refl S).
Local Notation coreeq_trans := (@DdFacts.coreeq_trans S).
Local Notation samenode_trans := (@DdFacts.samenode_trans S).
Local Notation stable := (@DdFacts.stable S).
Local Notation stable_refl := (@DdFacts.stable_refl S).
Local Notation stable_trans := (@DdFacts.stable_trans S k0).
Local Notation stable_weaken := (@DdFacts.stable_weaken S).
Local Notation edge_ok := (@DdFacts.edge_ok S P nv C).
Local Notation orig_edge := (@DdFacts.orig_edge S P).
Local Notation orig_all := (@DdFacts.orig_all S P).
Local Notation is_root := (@DdFacts.is_root S k0 sp).
Local Notation best_ok := (@DdFacts.best_ok S P k0 sp).
Local Notation node_base := (@DdFacts.node_base S P at_depth nv C k0).
Local Notation node_ok := (@DdFacts.node_ok S P at_depth nv C k0 sp).
Local Notation cleanf := (@DdFacts.cleanf S).
Local Notation clean := (@DdFacts.clean S).
Local Notation arena := (@DdFacts.arena S P at_depth nv C k0 sp).
Local Notation layer_at := (@DdFacts.layer_at S).
Local Notation get_lt := (@DdFacts.get_lt S).
Local Notation get_some := (@DdFacts.get_some S).
Local Notation upd_node_spec := (@DdFacts.upd_node_spec S).
Local Notation orig_edge_mono := (@DdFacts.orig_edge_mono S P).
Local Notation edge_ok_mono := (@DdFacts.edge_ok_mono S P nv C).
Local Notation past_frozen := (@DdFacts.past_frozen S).
Local Notation node_base_mono := (@DdFacts.node_base_mono S P at_depth nv C k0).
Local Notation best_ok_mono := (@DdFacts.best_ok_mono S P at_depth nv C k0 sp).
Local Notation node_ok_mono := (@DdFacts.node_ok_mono S P at_depth nv C k0 sp).
Local Notation orig_all_mono := (@DdFacts.orig_all_mono S P at_depth nv C k0).
Local Notation stable_past := (@DdFacts.stable_past S).
Local Notation next_get_in := (@DdFacts.next_get_in S eqb eqb_spec).
Local Notation next_get_none := (@DdFacts.next_get_none S eqb eqb_spec).
Local Notation nextids_in := (@DdFacts.nextids_in S).
Local Notation all_exact := (@DdFacts.all_exact S).
Local Notation grows := (@DdFacts.grows S).
Local Notation grows_refl := (@DdFacts.grows_refl S).
Local Notation nextids_incl := (@DdFacts.nextids_incl S).
Local Notation grows_trans := (@DdFacts.grows_trans S).
Local Notation same_rest := (@DdFacts.same_rest S).
Local Notation same_rest_refl := (@DdFacts.same_rest_refl S).
Local Notation same_rest_trans := (@DdFacts.same_rest_trans S).
Local Notation has_edge := (@DdFacts.has_edge S P).
Local Notation has_edge_grows := (@DdFacts.has_edge_grows S P).
Local Notation branch_spec := (@DdFacts.branch_spec S eqb eqb_spec P R at_depth nv C Hwf Hbd k0 sp).
Local Notation vr_path := (@DdFacts.vr_path S P at_depth C k0 sp).
Local Notation vr_le := (@DdFacts.vr_le S P at_depth C k0 sp).
Local Notation vr_at := (@DdFacts.vr_at S P at_depth C k0 sp).
Local Notation vr_val := (@DdFacts.vr_val S P at_depth C k0 sp).
Local Notation ce_state := (@DdFacts.ce_state S).
Local Notation ce_value := (@DdFacts.ce_value S).
Local Notation ce_best := (@DdFacts.ce_best S).
Local Notation ce_inb := (@DdFacts.ce_inb S).
Local Notation ce_depth := (@DdFacts.ce_depth S).
Local Notation ce_exact := (@DdFacts.ce_exact S).
Local Notation ce_relaxed := (@DdFacts.ce_relaxed S).
Local Notation sn_core := (@DdFacts.sn_core S).
Local Notation sn_rub := (@DdFacts.sn_rub S).
Local Notation sn_theta := (@DdFacts.sn_theta S).
Local Notation sn_bot := (@DdFacts.sn_bot S).
Local Notation sn_marked := (@DdFacts.sn_marked S).
Local Notation sn_deleted := (@DdFacts.sn_deleted S).
Local Notation sn_barrier := (@DdFacts.sn_barrier S).
Local Notation st_edges := (@DdFacts.st_edges S).
Local Notation st_len := (@DdFacts.st_len S).
Local Notation st_nodes := (@DdFacts.st_nodes S).
Local Notation st_root := (@DdFacts.st_root S).
Local Notation st_ctype := (@DdFacts.st_ctype S).
Local Notation eo_past := (@DdFacts.eo_past S P nv C).
Local Notation eo_lt := (@DdFacts.eo_lt S P nv C).
Local Notation eo_cost := (@DdFacts.eo_cost S P nv C).
Local Notation eo_parent := (@DdFacts.eo_parent S P nv C).
Local Notation no_depth := (@DdFacts.no_depth S P at_depth nv C k0).
Local Notation no_at := (@DdFacts.no_at S P at_depth nv C k0).
Local Notation no_head := (@DdFacts.no_head S P at_depth nv C k0).
Local Notation no_edges := (@DdFacts.no_edges S P at_depth nv C k0).
Local Notation no_marked := (@DdFacts.no_marked S P at_depth nv C k0).
Local Notation no_bot := (@DdFacts.no_bot S P at_depth nv C k0).
Local Notation no_base := (@DdFacts.no_base S P at_depth nv C k0 sp).
Local Notation no_val := (@DdFacts.no_val S P at_depth nv C k0 sp).
Local Notation no_best := (@DdFacts.no_best S P at_depth nv C k0 sp).
Local Notation a_edges := (@DdFacts.a_edges S P at_depth nv C k0 sp).
Local Notation a_len := (@DdFacts.a_len S P at_depth nv C k0 sp).
Local Notation a_nodes := (@DdFacts.a_nodes S P at_depth nv C k0 sp).
Local Notation a_past := (@DdFacts.a_past S P at_depth nv C k0 sp).
Local Notation a_lt := (@DdFacts.a_lt S P at_depth nv C k0 sp).
Local Notation a_keys := (@DdFacts.a_keys S P at_depth nv C k0 sp).
Local Notation a_next := (@DdFacts.a_next S P at_depth nv C k0 sp).
Local Notation a_cut := (@DdFacts.a_cut S P at_depth nv C k0 sp).
Local Notation a_cutpast := (@DdFacts.a_cutpast S P at_depth nv C k0 sp).
Local Notation a_root := (@DdFacts.a_root S P at_depth nv C k0 sp).
Local Notation gr_incl := (@DdFacts.gr_incl S).
Local Notation gr_fresh := (@DdFacts.gr_fresh S).
Local Notation gr_nodes := (@DdFacts.gr_nodes S).
Local Notation sr_prev := (@DdFacts.sr_prev S).
Local Notation sr_cut := (@DdFacts.sr_cut S).
Local Notation sr_lel := (@DdFacts.sr_lel S).
Local Notation sr_best := (@DdFacts.sr_best S).
Local Notation sr_exact := (@DdFacts.sr_exact S).
Local Notation sr_approx := (@DdFacts.sr_approx S).
Local Notation chg := (@DdRelax.chg S).
Local Notation chg_refl := (@DdRelax.chg_refl S).
Local Notation chg_trans := (@DdRelax.chg_trans S).
Local Notation chg_weaken := (@DdRelax.chg_weaken S).
Local Notation chg_frozen := (@DdRelax.chg_frozen S).
Local Notation upd_node_chg := (@DdRelax.upd_node_chg S).
Local Notation mok := (@DdRelax.mok S P at_depth nv C k0 sp).
Local Notation chain_ok := (@DdRelax.chain_ok S P nv).
Local Notation arena_chg := (@DdRelax.arena_chg S P at_depth nv C k0 sp).
Local Notation chain_ok_mono := (@DdRelax.chain_ok_mono S P nv).
Local Notation arena_touch := (@DdRelax.arena_touch S P at_depth nv C k0 sp).
Local Notation mok_mono := (@DdRelax.mok_mono S P at_depth nv C k0 sp).
Local Notation redirected := (@DdRelax.redirected S R).
Local Notation redirect_spec := (@DdRelax.redirect_spec S P R at_depth nv C Hbd k0 sp).
Local Notation dropped := (@DdRelax.dropped S).
Local Notation drop_fold := (@DdRelax.drop_fold S P R at_depth nv C Hbd k0 sp).
Local Notation arena_tmp := (@DdRelax.arena_tmp S P at_depth nv C k0 sp).
Local Notation arena_tmp_close := (@DdRelax.arena_tmp_close S P at_depth nv C k0 sp).
Local Notation arena_ext := (@DdRelax.arena_ext S P at_depth nv C k0 sp).
Local Notation mark_spec := (@DdRelax.mark_spec S P at_depth nv C k0 sp).
Local Notation mark_fold := (@DdRelax.mark_fold S P at_depth nv C k0 sp).
Local Notation layer_ok := (@DdRelax.layer_ok S).
Local Notation sorts := (@DdRelax.sorts S).
Local Notation map_states_some := (@DdRelax.map_states_some S).
Local Notation map_states_in := (@DdRelax.map_states_in S).
Local Notation kept := (@DdRelax.kept S).
Local Notation merged_into := (@DdRelax.merged_into S R at_depth).
Local Notation relax_spec := (@DdRelax.relax_spec S eqb eqb_spec P R at_depth nv C Hvr Hbd k0 sp).
Local Notation cg_edges := (@DdRelax.cg_edges S).
Local Notation cg_len := (@DdRelax.cg_len S).
Local Notation cg_nodes := (@DdRelax.cg_nodes S).
Local Notation cg_rest := (@DdRelax.cg_rest S).
Local Notation cg_next := (@DdRelax.cg_next S).
Local Notation cg_root := (@DdRelax.cg_root S).
Local Notation cg_ctype := (@DdRelax.cg_ctype S).
Local Notation cg_expl := (@DdRelax.cg_expl S).
Local Notation mk_base := (@DdRelax.mk_base S P at_depth nv C k0 sp).
Local Notation mk_state := (@DdRelax.mk_state S P at_depth nv C k0 sp).
Local Notation mk_depth := (@DdRelax.mk_depth S P at_depth nv C k0 sp).
Local Notation mk_rel := (@DdRelax.mk_rel S P at_depth nv C k0 sp).
Local Notation mk_clean := (@DdRelax.mk_clean S P at_depth nv C k0 sp).
Local Notation mk_cut := (@DdRelax.mk_cut S P at_depth nv C k0 sp).
Local Notation mk_cases := (@DdRelax.mk_cases S P at_depth nv C k0 sp).
Local Notation lo_nodup := (@DdRelax.lo_nodup S).
Local Notation lo_node := (@DdRelax.lo_node S).

(** ** Restriction of a layer *)
Lemma restrict_spec orc inp d past curr k :
  arena None d past -> layer_ok d past curr k -> sorts orc ->
  exists d' curr', restrict orc inp d curr = Some (d', curr') /\ arena None d' past /\ d' = set_approx d true /\
    layer_ok d' past curr' k /\ incl curr' curr /\ (length curr' <= i_width inp)%nat.
Proof.
  intros HA Hlay Hs. unfold restrict.
  assert (Hp : all_present d curr = true).
  { unfold all_present. apply forallb_forall. intros id Hid. apply Nat.ltb_lt.
    destruct (lo_node _ _ _ _ Hlay id Hid) as (_ & _ & n & Hg & _). eapply get_lt; eauto. }
  rewrite Hp. set (d1 := set_approx d true). set (sorted := o_sort orc _ curr).
  assert (Hperm : Permutation curr sorted) by apply Hs.
  assert (Hincl : incl (firstn (i_width inp) sorted) curr).
  { intros x Hx. eapply Permutation_in; [apply Permutation_sym; exact Hperm|].
    rewrite <- (firstn_skipn (i_width inp) sorted). apply in_app_iff. auto. }
  exists d1, (firstn (i_width inp) sorted). split; [reflexivity|].
  split; [eapply arena_ext; [exact HA|reflexivity..]|]. split; [reflexivity|]. split; [|split; [exact Hincl|rewrite firstn_length; lia]].
  constructor.
  - assert (Hn : NoDup sorted) by (eapply Permutation_NoDup; [exact Hperm|apply Hlay]).
    rewrite <- (firstn_skipn (i_width inp) sorted) in Hn. apply nodup_app in Hn. apply Hn.
  - intros id Hid. apply (lo_node _ _ _ _ Hlay). auto.
Qed.

(** ** Expansion of a layer *)
Lemma arena_past d past past' : arena None d past -> g_next d = [] -> incl past past' ->
  (forall id, In id past' -> (id < length (g_nodes d))%nat) -> arena None d past'.
Proof.
  intros HA Hn Hi Hl. destruct HA as [h1 h2 h3 h4 h5 h6 h7 h8 h9 h10]. constructor; auto.
  - intros id n Hg Ht. eapply node_ok_mono; [exact h1|apply (h3 id n Hg Ht)|apply coreeq_refl|reflexivity|reflexivity|exact Hi| |].
    + intros p pn Hp Hpn. exists pn. auto using coreeq_refl.
    + exists []. rewrite app_nil_r. reflexivity.
  - intros p id Hp Hid. unfold nextids in Hid. rewrite Hn in Hid. destruct Hid.
  - eapply incl_tran; eauto.
Qed.

(** What the expansion of node [id] has done to it. *)
Record doneok (v : variant) (lb : Z) (d : dd) (id : nat) (n n' : node) : Prop := {
  dn_rub : n_rub n' = pb_estimate P (n_state n);
  dn_bot : n_bot n' = n_bot n;
  dn_marked : is_marked (n_flags n') = is_marked (n_flags n);
  dn_deleted : is_deleted (n_flags n') = is_deleted (n_flags n);
  dn_barrier : is_pruned_by_barrier (n_flags n') = is_pruned_by_barrier (n_flags n);
  dn_cases : (lb < sat_add (pb_estimate P (n_state n)) (n_value n) /\ n_theta n' = n_theta n /\
               forall dec, In dec (pb_domain P (nv (n_depth n)) (n_state n)) -> has_edge d id n dec) \/
             (sat_add (pb_estimate P (n_state n)) (n_value n) <= lb /\
               n_theta n' = match v with VAll => n_theta n | VBarrier => sat_sub lb (pb_estimate P (n_state n)) end) }.

Record expanding (v : variant) (lb : Z) (d0 d : dd) (past curr done : list nat) (k : nat) : Prop := {
  ex_arena : arena None d (curr ++ past);
  ex_layer : layer_at d (nextids d) (Datatypes.S k);
  ex_fresh : forall id, In id (nextids d) -> (length (g_nodes d0) <= id)%nat;
  ex_rest : same_rest d0 d;
  ex_edges : exists xs, g_edges d = g_edges d0 ++ xs;
  ex_len : (length (g_nodes d0) <= length (g_nodes d))%nat;
  ex_root : g_root_pa d = g_root_pa d0;
  ex_ctype : g_ctype d = g_ctype d0;
  ex_old : forall id n, get_node d0 id = Some n -> exists n', get_node d id = Some n' /\ coreeq n n' /\
     (~ In id done -> samenode n n') /\ (In id done -> doneok v lb d id n n');
  ex_exact : all_exact d0 -> all_exact d;
  ex_expl : (g_explored d <= g_explored d0 + length done)%nat }.

Lemma expanding_init v lb d past curr k : arena None d past -> g_next d = [] -> layer_ok d past curr k ->
  expanding v lb d d past curr [] k.
Proof.
  intros HA Hn Hl. constructor.
  - eapply arena_past; [exact HA|exact Hn|apply incl_appr, incl_refl|]. intros id Hid. apply in_app_iff in Hid as [Hid|Hid].
    + destruct (lo_node _ _ _ _ Hl id Hid) as (_ & _ & n & Hg & _). eapply get_lt; eauto.
    + apply (a_past _ _ _ HA id Hid).
  - intros id Hid. unfold nextids in Hid. rewrite Hn in Hid. destruct Hid.
  - intros id Hid. unfold nextids in Hid. rewrite Hn in Hid. destruct Hid.
  - apply same_rest_refl.
  - exists []. rewrite app_nil_r. reflexivity.
  - lia.
  - reflexivity.
  - reflexivity.
  - intros id n Hg. exists n. split; [exact Hg|]. split; [apply coreeq_refl|]. split; [intros _; apply samenode_refl|intros []].
  - auto.
  - cbn. lia.
Qed.

Lemma has_edge_state d p (pn pn' : node) dec : n_state pn' = n_state pn -> has_edge d p pn dec -> has_edge d p pn' dec.
Proof. unfold has_edge. intros ->. auto. Qed.
Lemma doneok_grows v lb d d' id n n' n'' : doneok v lb d id n n' -> grows d d' -> samenode n' n'' -> doneok v lb d' id n n''.
Proof.
  intros [E1 E2 E3 E4 E5 E6] G [C1 C2 C3 C4 C5 C6 C7]. constructor; try congruence.
  destruct E6 as [(H1 & H2 & H3)|(H1 & H2)]; [left|right].
  - split; [exact H1|]. split; [congruence|]. intros dec Hd. eapply has_edge_grows; [exact G|auto].
  - split; [exact H1|congruence].
Qed.

(** The branching of one node on a list of decisions. *)
Lemma branch_fold v past from : forall ds d fn,
  arena None d past -> In from past -> get_node d from = Some fn -> (n_depth fn < N)%nat ->
  incl ds (pb_domain P (nv (n_depth fn)) (n_state fn)) -> layer_at d (nextids d) (Datatypes.S (n_depth fn)) -> cleanf fn -> ~ In from (g_cutset d) ->
  (forall p, In p past -> ~ In p (nextids d)) ->
  exists d', ofold (branch_on eqb v P from) ds d = Some d' /\ arena None d' past /\
    layer_at d' (nextids d') (Datatypes.S (n_depth fn)) /\ stable (fun i => In i (nextids d')) d d' /\ grows d d' /\ same_rest d d' /\
    g_explored d' = g_explored d /\ (forall p, In p past -> ~ In p (nextids d')) /\
    (forall dec, In dec ds -> has_edge d' from fn dec) /\ (all_exact d -> all_exact d').
Proof.
  induction ds as [|dec ds IH]; intros d fn HA Hf Hg Hd Hi Hl Hc Hcut Hp.
  - exists d. split; [reflexivity|]. split; [exact HA|]. split; [exact Hl|]. split; [apply stable_refl|]. split; [apply grows_refl|].
    split; [apply same_rest_refl|]. split; [reflexivity|]. split; [exact Hp|]. split; [intros dec []|auto].
  - cbn [ofold]. destruct (branch_spec v past d from fn dec HA Hf (Hp from Hf) Hg Hd) as (d1 & E1 & A1 & L1 & S1 & G1 & R1 & X1 & P1 & H1 & Z1); auto.
    { apply Hi. left. reflexivity. }
    rewrite E1. cbn [obind].
    destruct (st_nodes _ _ _ S1 from fn Hg (Hp from Hf)) as (fn1 & Hg1 & Hs1).
    destruct Hs1 as [[ce1 ce2 ce3 ce4 ce5 ce6 ce7] sn2 sn3 sn4 sn5 sn6 sn7].
    destruct (IH d1 fn1) as (d2 & E2 & A2 & L2 & S2 & G2 & R2 & X2 & P2 & H2 & Z2).
    + exact A1.
    + exact Hf.
    + exact Hg1.
    + rewrite ce5. exact Hd.
    + rewrite ce5, ce1. intros x Hx. apply Hi. right. exact Hx.
    + rewrite ce5. exact L1.
    + destruct Hc. split; congruence.
    + rewrite (sr_cut _ _ R1). exact Hcut.
    + exact P1.
    + rewrite ce5 in L2. exists d2. split; [exact E2|]. split; [exact A2|]. split; [exact L2|].
      split; [eapply stable_trans; [eapply stable_weaken; [|exact S1]|exact S2]|].
      { cbn. intros i Hx. apply (nextids_incl _ _ (gr_incl _ _ G2)), (nextids_incl _ _ (gr_incl _ _ G1)), Hx. }
      split; [eapply grows_trans; [exact G1|exact G2|apply S1]|]. split; [eapply same_rest_trans; eauto|]. split; [congruence|]. split; [exact P2|].
      split; [|auto]. intros x [<-|Hx]; [eapply has_edge_grows; eauto|]. eapply has_edge_state; [symmetry; exact ce1|]. apply H2. exact Hx.
Qed.

Lemma expand_step v inp d0 d past curr done k id :
  expanding v (i_lb inp) d0 d past curr done k -> layer_ok d0 past curr k -> (k < N)%nat -> i_pb inp = P -> incl (g_cutset d0) past ->
  In id curr -> ~ In id done ->
  exists d', expand_node eqb v inp (nv k) d id = Some d' /\ expanding v (i_lb inp) d0 d' past curr (id :: done) k.
Proof.
  intros HE Hlay Hk Hpb Hcp Hid Hnd. destruct HE as [x1 x2 x3 x4 x5 x6 x7 x8 x9 x10 x11].
  destruct (lo_node _ _ _ _ Hlay id Hid) as (Q1 & Q2 & n0 & Q3 & Q4 & Q5).
  destruct (x9 id n0 Q3) as (n & G & Hce & Hsn & _). specialize (Hsn Hnd).
  unfold expand_node. rewrite G. cbn [obind]. rewrite Hpb.
  assert (Hst : n_state n = n_state n0) by apply Hce. assert (Hva : n_value n = n_value n0) by apply Hce. assert (Hde : n_depth n = k) by (destruct Hce; congruence).
  set (rub := pb_estimate P (n_state n)).
  destruct (upd_node_chg d id (fun n => node_rub n rub) n G) as (d1 & E1 & C1 & X1 & G1). rewrite E1. cbn [obind]. rewrite G1. cbn [obind n_value node_rub].
  set (n1 := node_rub n rub) in *.
  assert (Hc1 : coreeq n n1) by (constructor; reflexivity).
  assert (Hidn : ~ In id (nextids d)) by (intros H; apply x3 in H; apply get_lt in Q3; lia).
  assert (A1 : arena None d1 (curr ++ past)).
  { eapply arena_touch; [exact x1|exact C1|exact X1|exact G|exact G1|exact Hc1|reflexivity..|]. intros H. contradiction. }
  assert (Nx1 : nextids d1 = nextids d) by (unfold nextids; rewrite (cg_next _ _ _ C1); reflexivity).
  assert (L1 : layer_at d1 (nextids d1) (Datatypes.S k)).
  { rewrite Nx1. intros j Hj. destruct (x2 j Hj) as (m & W1 & W2). exists m. rewrite (cg_nodes _ _ _ C1) by (intros ->; contradiction). auto. }
  assert (Hg1 : grows d d1).
  { constructor; [rewrite (cg_next _ _ _ C1); apply incl_refl|rewrite Nx1; auto|]. intros j m Hj Hm. exists m.
    rewrite (cg_nodes _ _ _ C1) by (intros ->; contradiction). rewrite X1. repeat split; auto; lia. }
  assert (Hdisj : forall p, In p (curr ++ past) -> ~ In p (nextids d1)).
  { intros p Hp Hx. rewrite Nx1 in Hx. apply x3 in Hx. apply in_app_iff in Hp as [Hp|Hp].
    - destruct (lo_node _ _ _ _ Hlay p Hp) as (_ & _ & m & W & _). apply get_lt in W. lia.
    - pose proof (Q2 p Hp). apply get_lt in Q3. lia. }
  assert (Hcl : cleanf n1).
  { destruct Q5 as [[Q51 Q52] _]. destruct Hsn. split; cbn; congruence. }
  assert (Hncut : ~ In id (g_cutset d1)).
  { rewrite (sr_cut _ _ (cg_rest _ _ _ C1)), (sr_cut _ _ x4). intros H. apply Hcp in H. contradiction. }
  assert (Hex1 : all_exact d0 -> all_exact d1).
  { intros H j m Hj. destruct (Nat.eq_dec id j) as [<-|Hne].
    - assert (m = n1) as -> by congruence. cbn. apply (x10 H id n G).
    - rewrite (cg_nodes _ _ _ C1) in Hj by exact Hne. apply (x10 H j m Hj). }
  (* the nodes of d0 in d1 *)
  assert (Hold1 : forall j m, get_node d0 j = Some m -> exists m', get_node d1 j = Some m' /\ coreeq m m' /\
     (j <> id -> (~ In j done -> samenode m m') /\ (In j done -> doneok v (i_lb inp) d1 j m m'))).
  { intros j m Hj. destruct (Nat.eq_dec j id) as [->|Hne].
    - assert (m = n0) as -> by congruence. exists n1. split; [exact G1|]. split; [eapply coreeq_trans; eauto|congruence].
    - destruct (x9 j m Hj) as (m' & W1 & W2 & W3 & W4). exists m'. rewrite (cg_nodes _ _ _ C1) by congruence. split; [exact W1|]. split; [exact W2|].
      intros _. split; [exact W3|]. intros Hd. eapply doneok_grows; [apply W4; exact Hd|exact Hg1|apply samenode_refl]. }
  destruct (Z.ltb_spec (i_lb inp) (sat_add rub (n_value n))) as [Hlb|Hlb].
  - (* expanded *)
    destruct (branch_fold v (curr ++ past) id (pb_domain P (nv k) (n_state n)) d1 n1) as (d2 & E2 & A2 & L2 & S2 & G2 & R2 & X2 & P2 & H2 & Z2).
    + exact A1.
    + apply in_app_iff. auto.
    + exact G1.
    + cbn. rewrite Hde. exact Hk.
    + cbn. rewrite Hde. apply incl_refl.
    + cbn. rewrite Hde. exact L1.
    + exact Hcl.
    + exact Hncut.
    + exact Hdisj.
    + rewrite E2. cbn [obind]. cbn [n_depth n1 node_rub] in L2. unfold n1 in L2. cbn [n_depth node_rub] in L2. rewrite Hde in L2.
      set (d3 := set_explored d2 (Datatypes.S (g_explored d2))). exists d3. split; [reflexivity|].
      assert (He3 : forall p pn dec, has_edge d2 p pn dec -> has_edge d3 p pn dec) by (intros p pn dec H; exact H).
      constructor.
      * eapply arena_ext; [exact A2|reflexivity..].
      * exact L2.
      * intros j Hj. destruct (gr_fresh _ _ G2 j Hj) as [H|H]; [rewrite Nx1 in H; auto|]. rewrite (cg_len _ _ _ C1) in H. lia.
      * destruct (same_rest_trans _ _ _ x4 (same_rest_trans _ _ _ (cg_rest _ _ _ C1) R2)). constructor; assumption.
      * destruct x5 as [xs Ex]. destruct (st_edges _ _ _ S2) as [ys Ey]. exists (xs ++ ys). cbn. rewrite Ey, X1, Ex, app_assoc. reflexivity.
      * cbn. pose proof (st_len _ _ _ S2). rewrite (cg_len _ _ _ C1) in H. lia.
      * cbn. rewrite (st_root _ _ _ S2), (cg_root _ _ _ C1). exact x7.
      * cbn. rewrite (st_ctype _ _ _ S2), (cg_ctype _ _ _ C1). exact x8.
      * intros j m Hj. destruct (Hold1 j m Hj) as (m1 & W1 & W2 & W3).
        destruct (st_nodes _ _ _ S2 j m1 W1) as (m2 & U1 & U2).
        { intros Hx. destruct (gr_fresh _ _ G2 j Hx) as [H|H]; [rewrite Nx1 in H; apply x3 in H; apply get_lt in Hj; lia|].
          rewrite (cg_len _ _ _ C1) in H. apply get_lt in Hj. lia. }
        exists m2. split; [exact U1|]. split; [eapply coreeq_trans; [exact W2|apply U2]|].
        destruct (Nat.eq_dec j id) as [->|Hne].
        -- split; [intros H; exfalso; apply H; left; reflexivity|]. intros _. assert (m = n0) as -> by congruence. assert (m1 = n1) as -> by congruence.
           destruct U2 as [U20 U21 U22 U23 U24 U25 U26]. destruct Hsn as [V0 V1 V2 V3 V4 V5 V6].
           constructor; cbn in *; try congruence; [rewrite U21; unfold rub; rewrite Hst; reflexivity|].
           left. split; [rewrite <- Hst, <- Hva; exact Hlb|]. split; [congruence|]. intros dec Hdec.
           apply He3. eapply (has_edge_state d2 id n1); [symmetry; exact Hst|]. apply H2. rewrite Hst. rewrite Q4 in Hdec. exact Hdec.
        -- destruct (W3 Hne) as [W4 W5]. split.
           ++ intros H. eapply samenode_trans; [apply W4|exact U2]. intros H'. apply H. right. exact H'.
           ++ intros [H|H]; [congruence|]. assert (D := doneok_grows _ _ d1 d2 j m m1 m2 (W5 H) G2 U2). destruct D as [z1 z2 z3 z4 z5 z6]. constructor; auto.
      * intros H j m Hj. apply (Z2 (Hex1 H) j m Hj).
      * cbn. rewrite X2, (cg_expl _ _ _ C1). lia.
  - (* not worth expanding *)
    set (th := match v with VAll => n_theta n | VBarrier => sat_sub (i_lb inp) rub end).
    assert (E2 : exists d2 n2, (match v with VAll => Some d1 | VBarrier => upd_node d1 id (fun n => node_theta n (sat_sub (i_lb inp) rub)) end) = Some d2 /\
      chg (eq id) d1 d2 /\ g_edges d2 = g_edges d1 /\ get_node d2 id = Some n2 /\ n2 = node_theta n1 th).
    { destruct v.
      - exists d1, n1. split; [reflexivity|]. split; [apply chg_refl|]. split; [reflexivity|]. split; [exact G1|]. unfold th, n1, node_theta, node_rub. cbn. reflexivity.
      - destruct (upd_node_chg d1 id (fun n => node_theta n (sat_sub (i_lb inp) rub)) n1 G1) as (d2 & E2 & C2 & X2 & G2).
        eexists d2, _. split; [exact E2|]. split; [exact C2|]. split; [exact X2|]. split; [exact G2|]. reflexivity. }
    destruct E2 as (d2 & n2 & E2 & C2 & X2 & G2 & ->). rewrite E2. exists d2. split; [reflexivity|].
    assert (Hc2 : coreeq n1 (node_theta n1 th)) by (constructor; reflexivity).
    assert (Nx2 : nextids d2 = nextids d) by (unfold nextids; rewrite (cg_next _ _ _ C2); exact Nx1).
    assert (Hg2 : grows d1 d2).
    { constructor; [rewrite (cg_next _ _ _ C2); apply incl_refl|rewrite Nx2, Nx1; auto|]. intros j m Hj Hm. exists m. rewrite Nx1 in Hj.
      rewrite (cg_nodes _ _ _ C2) by (intros ->; contradiction). rewrite X2. repeat split; auto; lia. }
    constructor.
    + eapply arena_touch; [exact A1|exact C2|exact X2|exact G1|exact G2|exact Hc2|reflexivity..|]. intros H. rewrite Nx1 in H. contradiction.
    + rewrite Nx2. rewrite Nx1 in L1. intros j Hj. destruct (L1 j Hj) as (m & W1 & W2). exists m. rewrite (cg_nodes _ _ _ C2) by (intros ->; contradiction). auto.
    + rewrite Nx2. exact x3.
    + exact (same_rest_trans _ _ _ x4 (same_rest_trans _ _ _ (cg_rest _ _ _ C1) (cg_rest _ _ _ C2))).
    + rewrite X2, X1. exact x5.
    + rewrite (cg_len _ _ _ C2), (cg_len _ _ _ C1). exact x6.
    + rewrite (cg_root _ _ _ C2), (cg_root _ _ _ C1). exact x7.
    + rewrite (cg_ctype _ _ _ C2), (cg_ctype _ _ _ C1). exact x8.
    + intros j m Hj. destruct (Hold1 j m Hj) as (m1 & W1 & W2 & W3). destruct (Nat.eq_dec j id) as [->|Hne].
      * assert (m = n0) as -> by congruence. eexists. split; [exact G2|]. split; [eapply coreeq_trans; [exact Hce|eapply coreeq_trans; [exact Hc1|exact Hc2]]|].
        split; [intros H; exfalso; apply H; left; reflexivity|]. intros _. destruct Hsn as [V0 V1 V2 V3 V4 V5 V6].
        constructor; cbn in *; try congruence; [unfold rub; rewrite Hst; reflexivity|].
        right. split; [rewrite <- Hst, <- Hva; exact Hlb|]. unfold th. destruct v; [congruence|]. unfold rub. rewrite Hst. reflexivity.
      * exists m1. rewrite (cg_nodes _ _ _ C2) by congruence. split; [exact W1|]. split; [exact W2|]. destruct (W3 Hne) as [W4 W5]. split.
        -- intros H. apply W4. intros H'. apply H. right. exact H'.
        -- intros [H|H]; [congruence|]. eapply doneok_grows; [apply W5; exact H|exact Hg2|apply samenode_refl].
    + intros H j m Hj. destruct (Nat.eq_dec id j) as [<-|Hne].
      * rewrite G2 in Hj. inversion Hj. cbn. apply (x10 H id n G).
      * rewrite (cg_nodes _ _ _ C2) in Hj by exact Hne. apply (Hex1 H j m Hj).
    + rewrite (cg_expl _ _ _ C2), (cg_expl _ _ _ C1). cbn [length]. lia.
Qed.

Lemma expand_fold v inp d0 past curr k : layer_ok d0 past curr k -> (k < N)%nat -> i_pb inp = P -> incl (g_cutset d0) past ->
  forall todo done d, expanding v (i_lb inp) d0 d past curr done k -> incl todo curr -> NoDup (todo ++ done) ->
  exists d', ofold (expand_node eqb v inp (nv k)) todo d = Some d' /\ expanding v (i_lb inp) d0 d' past curr (rev todo ++ done) k.
Proof.
  intros Hl Hk Hpb Hcp. induction todo as [|id todo IH]; intros done d HE Hi Hnd.
  - exists d. split; [reflexivity|exact HE].
  - cbn [ofold app] in *. inversion Hnd as [|? ? Hx Hnd']; subst.
    destruct (expand_step v inp d0 d past curr done k id HE Hl Hk Hpb Hcp) as (d1 & E1 & HE1).
    { apply Hi. left. reflexivity. }
    { intros H. apply Hx, in_app_iff. auto. }
    rewrite E1. cbn [obind]. destruct (IH (id :: done) d1 HE1) as (d2 & E2 & HE2).
    + intros x Hx'. apply Hi. right. exact Hx'.
    + apply NoDup_Add with (a := id) (l := todo ++ done); [apply Add_app|]. auto.
    + exists d2. split; [exact E2|]. cbn [rev]. rewrite <- app_assoc. exact HE2.
Qed.
End Facts.
