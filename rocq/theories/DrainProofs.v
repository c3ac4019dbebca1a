(** What [drain_cutset] hands out after a compilation (src/mdd/with_all.rs:178-205, src/mdd/with_barrier.rs:193-220). Proofs for
    PropDrain.v; nothing here models code of /repo. *)
From Verif Require Import Spec Dd DdSpec FlagsFacts DdFacts DdLoop DdFinal MddAll MddAllObs MddAllProofs ParSpec MddBarrier MddBarrierSpec
  DdCountMdd MddBarrierObs MddBarrierProofs MddBarrierRuns DrainInv.
From Coq Require Import Permutation.
Open Scope Z_scope.

Section Drain.
Variable S : Type.
Variable eqb : S -> S -> bool.
Variable P : problem S.
Variable R : relaxation S.
Variable at_depth : nat -> S -> Prop.
Variable nv : nat -> nat.
Variable C : Z.
Notation well_formed := (well_formed S eqb P R at_depth nv C).
Notation good_call := (good_call S P R nv).

(** Every node of the diagram has a path as long as its depth. *)
Lemma all_paths debug orc inp d dF : well_formed -> good_call debug orc inp -> MddAll.compile eqb debug orc inp d = Some dF ->
  forall i n, get_node dF i = Some n -> exists p, best_path dF i = Some p /\ length p = n_depth n.
Proof.
  intros [H1 H2 H3 H4] Hg E i n G. assert (Hgen := gc_res _ _ _ _ _ _ _ Hg).
  destruct (MddAllObs.compile_good S eqb H1 P R at_depth nv C H2 H3 H4 (depth_of (i_res inp)) (i_res inp) Hgen eq_refl debug orc inp d eq_refl Hg) as (dF' & d1 & past & curr & kF & b & e & E' & HL & Hend & Hb & He & HF).
  rewrite E in E'. injection E' as <-. destruct (final_best S dF d1 b e _ HF) as (_ & _ & F3 & F4 & F5 & F6).
  assert (HA := li_arena _ _ _ _ _ _ _ _ _ _ _ _ _ _ _ HL).
  destruct (get_node d1 i) as [m|] eqn:Gm.
  2: { exfalso. unfold get_node in G, Gm. apply nth_error_None in Gm. assert (Hlt : nth_error (g_nodes dF) i <> None) by congruence. apply nth_error_Some in Hlt. lia. }
  destruct (F6 i m Gm) as (n' & G' & Hc). assert (n' = n) as -> by congruence.
  destruct (best_path_ok S eqb H1 P at_depth nv C (depth_of (i_res inp)) (i_res inp) d1 past i m HA Gm) as (r & Hr & Hlen & _).
  exists (sp_path (i_res inp) ++ r). split; [eapply MddAllObs.best_path_core; eauto|].
  rewrite app_length, (ce_depth _ _ _ Hc). unfold depth_of in Hlen. lia.
Qed.

Theorem all_each_once debug orc inp d dF : well_formed -> good_call debug orc inp -> MddAll.compile eqb debug orc inp d = Some dF ->
  exists L d2, drain_cutset dF = Some (L, d2) /\ NoDup (map (fun q => (depth_of q, sp_state q)) L).
Proof.
  intros Hw Hg E. destruct (all_desc S eqb P R at_depth nv C debug orc inp d dF Hw Hg E) as (L & d2 & HD & _). exists L, d2. split; [exact HD|].
  destruct (gc_lib _ _ _ _ _ _ _ Hg) as (L1 & L2 & L3).
  destruct (all_done S eqb (wfd_eqb _ _ _ _ _ _ _ Hw) inp orc L1 L2 debug d dF E) as (X & HX).
  refine (drained_keys S X dF L d2 HX _ HD). intros i n _ G. eapply all_paths; eauto.
Qed.

Theorem all_solved debug orc inp d dF : well_formed -> good_call debug orc inp -> MddAll.compile eqb debug orc inp d = Some dF ->
  i_type inp <> Relaxed \/ g_exact dF = true -> exists d2, drain_cutset dF = Some ([], d2).
Proof.
  intros [H1 H2 H3 H4] Hg E Hty. assert (Hgen := gc_res _ _ _ _ _ _ _ Hg).
  destruct (obs_desc S eqb H1 P R at_depth nv C H2 H3 H4 (depth_of (i_res inp)) (i_res inp) Hgen eq_refl debug orc inp d dF eq_refl Hg E) as (L & d2 & HD & HN & _).
  rewrite (HN Hty) in HD. eauto.
Qed.

Theorem bar_each_once alone debug orc inp d T dF T' : well_formed -> good_call debug orc inp -> length T = Datatypes.S (pb_nb_vars P) ->
  returns eqb alone (MddBarrier.compile eqb debug orc inp d) T dF T' ->
  exists L d2, drain_cutset dF = Some (L, d2) /\ NoDup (map (fun q => (depth_of q, sp_state q)) L) /\ (i_type inp <> Relaxed -> L = []).
Proof.
  intros Hw Hg HT Hr. assert (HR := barm_results S eqb P R at_depth nv C alone debug orc inp d T dF T' Hw Hg HT Hr).
  destruct HR as (d1 & past & gone & curr & kF & b & e & T1 & HC). assert (H1 := wfd_eqb _ _ _ _ _ _ _ Hw).
  destruct (drain_ok S eqb H1 P R at_depth nv C (depth_of (i_res inp)) (i_res inp) alone (fun _ _ _ => True) eq_refl inp _ T T' T1 d1 dF past gone curr kF b e HC) as (L & d2 & HD & _ & HN & _).
  exists L, d2. split; [exact HD|]. split; [|exact HN].
  destruct (gc_lib _ _ _ _ _ _ _ Hg) as (L1 & L2 & L3).
  pose proof (pw_gets S eqb alone _ _ _ _ _ Hr (bar_done S eqb H1 inp orc L1 L2 debug d)) as HP. cbn in HP. destruct HP as (X & HX).
  assert (Hty : i_type inp = Relaxed \/ i_type inp <> Relaxed) by (destruct (i_type inp); (left; reflexivity) || (right; discriminate)).
  destruct Hty as [Hty|Hty]; [|rewrite (HN Hty); constructor].
  refine (drained_keys S X dF L d2 HX _ HD). intros i n Hi G.
  destruct (MddBarrierObs.cut_node S eqb P R at_depth nv C (depth_of (i_res inp)) (i_res inp) alone (fun _ _ _ => True) eq_refl inp _ T T' T1 d1 dF past gone curr kF b e HC i Hty Hi) as (m & n' & Gm & G' & Hc & _).
  assert (n' = n) as -> by congruence.
  destruct (MddBarrierObs.path_of S eqb H1 P R at_depth nv C (depth_of (i_res inp)) (i_res inp) alone inp _ T T' T1 d1 dF past gone curr kF b e HC i m Gm) as (r & Hr2 & Hlen & _).
  exists (sp_path (i_res inp) ++ r). split; [exact Hr2|]. rewrite app_length, (ce_depth _ _ _ Hc). unfold depth_of in Hlen. lia.
Qed.

End Drain.

(** No bound handed out exceeds the best value of the diagram, and draining again hands out nothing. *)
Lemma drain_list_ub {S} (d : dd S) best : forall ids L, drain_list d best ids = Some L -> Forall (fun q => sp_ub q <= best) L.
Proof.
  induction ids as [|i t IH]; cbn [drain_list]; intros L H; [injection H as <-; constructor|].
  destruct (drain_node d best i) as [a|] eqn:Ea; cbn [obind] in H; [|discriminate]. destruct (drain_list d best t) as [b|] eqn:Eb; cbn [obind] in H; [|discriminate].
  injection H as <-. apply Forall_app. split; [|auto]. unfold drain_node in Ea.
  destruct (get_node d i) as [n|]; cbn [obind] in Ea; [|discriminate]. destruct (is_marked (n_flags n)); [|injection Ea as <-; constructor].
  destruct (best_path d i) as [p|]; cbn [obind] in Ea; [|discriminate]. injection Ea as <-. constructor; [|constructor]. cbn [sp_ub]. lia.
Qed.
Theorem drain_below {S} (d : dd S) L d2 q : drain_cutset d = Some (L, d2) -> In q L -> exists b, best_value d = Some (Some b) /\ sp_ub q <= b.
Proof.
  unfold drain_cutset. destruct (best_value d) as [[b|]|]; cbn [obind]; [|intros H; injection H as <- _; intros []|discriminate].
  destruct (drain_list d b (g_cutset d)) as [l|] eqn:E; cbn [obind]; [|discriminate]. intros H Hq. injection H as <- _.
  exists b. split; [reflexivity|]. exact (proj1 (Forall_forall _ _) (drain_list_ub d b _ _ E) q Hq).
Qed.
Lemma best_path_from_cut {S} (d : dd S) k : forall e, best_path_from k (set_cut d []) e = best_path_from k d e.
Proof.
  induction k as [|k IH]; intros [e|]; try reflexivity. cbn [best_path_from]. change (g_edges (set_cut d [])) with (g_edges d).
  destruct (nth_error (g_edges d) e) as [ed|]; cbn [obind]; [|reflexivity]. change (get_node (set_cut d []) (e_from ed)) with (get_node d (e_from ed)).
  destruct (get_node d (e_from ed)) as [n|]; cbn [obind]; [|reflexivity]. rewrite IH. reflexivity.
Qed.
Lemma best_solution_cut {S} (d : dd S) : best_solution (set_cut d []) = best_solution d.
Proof.
  unfold best_solution. change (g_best (set_cut d [])) with (g_best d). destruct (g_best d) as [i|]; [|reflexivity]. unfold best_path.
  change (get_node (set_cut d []) i) with (get_node d i). destruct (get_node d i) as [n|]; cbn [obind]; [|reflexivity].
  rewrite best_path_from_cut. reflexivity.
Qed.
Theorem drain_again {S} (d : dd S) L d2 : drain_cutset d = Some (L, d2) ->
  drain_cutset d2 = Some ([], d2) /\ best_value d2 = best_value d /\ best_solution d2 = best_solution d /\ g_exact d2 = g_exact d.
Proof.
  unfold drain_cutset at 1. destruct (best_value d) as [[b|]|] eqn:Eb; cbn [obind]; [| |discriminate].
  - destruct (drain_list d b (g_cutset d)) as [l|]; cbn [obind]; [|discriminate]. intros H. assert (d2 = set_cut d []) as -> by congruence.
    unfold drain_cutset. assert (best_value (set_cut d []) = Some (Some b)) as -> by exact Eb. cbn [obind]. split; [reflexivity|]. split; [reflexivity|]. split; [apply best_solution_cut|reflexivity].
  - intros H. injection H as _ <-. unfold drain_cutset. rewrite Eb. repeat split; reflexivity.
Qed.
Theorem bar_exact_useless S eqb P R at_depth nv C alone debug orc inp d T (dF : dd S) T' :
  well_formed S eqb P R at_depth nv C -> good_call S P R nv debug orc inp -> length T = Datatypes.S (pb_nb_vars P) ->
  returns eqb alone (MddBarrier.compile eqb debug orc inp d) T dF T' -> g_exact dF = true ->
  exists L d2, drain_cutset dF = Some (L, d2) /\
    forall q, In q L -> exists b l, best_value dF = Some (Some b) /\ best_solution dF = Some (Some l) /\ reported_solution S P nv l b /\ sp_ub q <= b.
Proof.
  intros Hw Hg HT Hr Hx. destruct (barm_cut S eqb P R at_depth nv C alone debug orc inp d T dF T' Hw Hg HT Hr) as (L & d2 & HD & _).
  exists L, d2. split; [exact HD|]. intros q Hq. destruct (drain_below dF L d2 q HD Hq) as (b & Hb & Hu).
  destruct (barm_feasible S eqb P R at_depth nv C alone debug orc inp d T dF T' Hw Hg HT Hr (or_intror Hx)) as [(H & _)|(v & l & H1 & H2 & H3 & _)]; [congruence|].
  assert (v = b) as -> by congruence. eauto 6.
Qed.

(** A diagram nobody compiled. *)
Lemma drain_new S ct : drain_cutset (@dd_new S ct) = Some ([], dd_new ct) /\ best_value (@dd_new S ct) = Some None /\ best_solution (@dd_new S ct) = Some None /\ g_exact (@dd_new S ct) = true.
Proof. repeat split; reflexivity. Qed.
