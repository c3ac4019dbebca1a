(** Proofs of the statements of PropMdd.v. *)
From Verif Require Import Spec Dd DdSpec FlagsFacts MddAll DdFacts DdRelax DdExpand DdLoop DdFinal MddAllBounds MddAllFacts MddAllObs.
From Coq Require Import ZifyNat.
Open Scope Z_scope.

Section Proofs.
Variable S : Type.
Variable eqb : S -> S -> bool.
Variable P : problem S.
Variable R : relaxation S.
Variable at_depth : nat -> S -> Prop.
Variable nv : nat -> nat.
Variable C : Z.
Notation N := (pb_nb_vars P).
Notation well_formed := (well_formed S eqb P R at_depth nv C).
Notation well_behaved := (well_behaved S eqb P R at_depth nv C).
Notation good_call := (good_call S P R nv).
Notation genuine := (genuine S P nv).
Notation completes := (completes S P nv).

Lemma genuine_depth q : well_formed -> genuine q -> (depth_of q <= N)%nat.
Proof. intros [H1 H2 H3 H4] Hg. exact (genuine_bound S eqb H1 P R at_depth nv C H2 H4 q Hg). Qed.

Lemma reported q r c v : genuine q -> completion S P nv (depth_of q) (sp_state q) (rev r) c -> v = sp_value q + c ->
  reported_solution S P nv (sp_path q ++ r) v.
Proof.
  intros (ds & c0 & Hp & Hr & Hv) (s' & Hc) ->. exists (ds ++ rev r). split; [apply Permutation_app; [exact Hp|apply Permutation_rev]|].
  exists (c0 + c). split; [|lia]. exists s'. exact (run_app S P nv _ _ _ _ _ _ Hr _ _ _ _ Hc).
Qed.

Lemma all_total debug orc inp d : well_formed -> good_call debug orc inp ->
  exists dF bv bs L d2, compile eqb debug orc inp d = Some dF /\ best_value dF = Some bv /\ best_solution dF = Some bs /\ drain_cutset dF = Some (L, d2).
Proof.
  intros [H1 H2 H3 H4] Hg. assert (Hgen := gc_res _ _ _ _ _ _ _ Hg).
  destruct (compile_good S eqb H1 P R at_depth nv C H2 H3 H4 (depth_of (i_res inp)) (i_res inp) Hgen eq_refl debug orc inp d eq_refl Hg) as (dF & d1 & past & curr & kF & b & e & E & HL & Hend & Hb & He & HF).
  destruct (obs_best S eqb H1 P R at_depth nv C H2 H3 H4 (depth_of (i_res inp)) (i_res inp) Hgen eq_refl debug orc inp d dF eq_refl Hg E) as (ob & Hob & Hbs).
  assert (exists bs, best_solution dF = Some bs) as [bs Hbs'] by (destruct ob; [destruct Hbs as (r & Hr & _); eauto|eauto]).
  destruct (obs_desc S eqb H1 P R at_depth nv C H2 H3 H4 (depth_of (i_res inp)) (i_res inp) Hgen eq_refl debug orc inp d dF eq_refl Hg E) as (L & d2 & HD & _).
  exists dF, ob, bs, L, d2. auto.
Qed.

Lemma all_feasible debug orc inp d dF : well_formed -> good_call debug orc inp -> compile eqb debug orc inp d = Some dF ->
  i_type inp <> Relaxed \/ g_exact dF = true ->
  (best_value dF = Some None /\ best_solution dF = Some None) \/
  (exists v l, best_value dF = Some (Some v) /\ best_solution dF = Some (Some l) /\ reported_solution S P nv l v /\
     exists ds, completes (i_res inp) ds v).
Proof.
  intros [H1 H2 H3 H4] Hg E Hty. assert (Hgen := gc_res _ _ _ _ _ _ _ Hg).
  destruct (obs_best S eqb H1 P R at_depth nv C H2 H3 H4 (depth_of (i_res inp)) (i_res inp) Hgen eq_refl debug orc inp d dF eq_refl Hg E) as (ob & Hob & Hbs).
  destruct ob as [v|]; [right|left; auto]. destruct Hbs as (r & Hr & _ & Hc). destruct (Hc Hty) as (c & Hc1 & Hc2).
  exists v, (sp_path (i_res inp) ++ r). split; [exact Hob|]. split; [exact Hr|]. split; [eapply reported; eauto|]. exists (rev r), c. auto.
Qed.

Lemma all_bound debug orc inp d dF ds v : well_behaved -> good_call debug orc inp -> compile eqb debug orc inp d = Some dF ->
  i_type inp = Relaxed \/ g_exact dF = true -> completes (i_res inp) ds v -> i_lb inp < v ->
  exists b, best_value dF = Some (Some b) /\ v <= b.
Proof.
  intros [[H1 H2 H3 H4] H5 H6] Hg E Hty (c & Hc & ->) Hlb. assert (Hgen := gc_res _ _ _ _ _ _ _ Hg).
  exact (obs_bound S eqb H1 P R at_depth nv C H2 H3 H4 (depth_of (i_res inp)) (i_res inp) Hgen eq_refl H5 H6 debug orc inp d dF ds c eq_refl Hg E Hty Hc Hlb).
Qed.

Lemma all_exact_type debug orc inp d dF : well_formed -> good_call debug orc inp -> compile eqb debug orc inp d = Some dF ->
  i_type inp = Exact -> g_exact dF = true.
Proof.
  intros [H1 H2 H3 H4] Hg E Hty. assert (Hgen := gc_res _ _ _ _ _ _ _ Hg).
  destruct (compile_good S eqb H1 P R at_depth nv C H2 H3 H4 (depth_of (i_res inp)) (i_res inp) Hgen eq_refl debug orc inp d eq_refl Hg) as (dF' & d1 & past & curr & kF & b & e & E' & HL & Hend & Hb & He & HF).
  rewrite E in E'. inversion E'; subst dF'. destruct (final_best S dF d1 b e _ HF) as (_ & F2 & _). rewrite F2.
  unfold compute_exact in He. cbn [g_approx set_best_exact] in He. rewrite (li_typ _ _ _ _ _ _ _ _ _ _ _ _ _ _ _ HL Hty) in He. cbn in He. congruence.
Qed.

Lemma all_cut debug orc inp d dF : well_behaved -> good_call debug orc inp -> compile eqb debug orc inp d = Some dF ->
  exists L d2, drain_cutset dF = Some (L, d2) /\ (i_type inp <> Relaxed \/ g_exact dF = true -> L = []) /\
    (i_type inp = Relaxed -> g_exact dF = false -> obs_cut S P nv (depth_of (i_res inp)) (i_res inp) inp (g_ctype d) dF L).
Proof.
  intros [[H1 H2 H3 H4] H5 H6] Hg E. assert (Hgen := gc_res _ _ _ _ _ _ _ Hg).
  exact (obs_cutset S eqb H1 P R at_depth nv C H2 H3 H4 (depth_of (i_res inp)) (i_res inp) Hgen eq_refl H5 H6 debug orc inp d dF eq_refl Hg E).
Qed.

Lemma all_last debug orc inp d dF : well_formed -> good_call debug orc inp -> compile eqb debug orc inp d = Some dF ->
  i_type inp = Relaxed -> g_exact dF = false -> (forall s s', at_depth (pb_nb_vars P) s -> at_depth (pb_nb_vars P) s' -> s = s') ->
  forall id n, In id (DdFacts.nextids S dF) -> get_node dF id = Some n -> is_exact (n_flags n) = false.
Proof.
  intros [H1 H2 H3 H4] Hg E Hty Hx Hone. assert (Hgen := gc_res _ _ _ _ _ _ _ Hg).
  exact (obs_last S eqb H1 P R at_depth nv C H2 H3 H4 (depth_of (i_res inp)) (i_res inp) Hgen eq_refl debug orc inp d dF eq_refl Hg E Hty Hx Hone).
Qed.

Lemma all_desc debug orc inp d dF : well_formed -> good_call debug orc inp -> compile eqb debug orc inp d = Some dF ->
  exists L d2, drain_cutset dF = Some (L, d2) /\ forall q, In q L -> descends S P nv (i_res inp) q.
Proof.
  intros [H1 H2 H3 H4] Hg E. assert (Hgen := gc_res _ _ _ _ _ _ _ Hg).
  destruct (obs_desc S eqb H1 P R at_depth nv C H2 H3 H4 (depth_of (i_res inp)) (i_res inp) Hgen eq_refl debug orc inp d dF eq_refl Hg E) as (L & d2 & HD & _ & H).
  eauto.
Qed.

Lemma all_exact_full debug orc inp d dF : well_behaved -> good_call debug orc inp -> compile eqb debug orc inp d = Some dF ->
  i_type inp = Exact -> g_exact dF = true /\
  ((best_value dF = Some None /\ best_solution dF = Some None /\ forall ds v, completes (i_res inp) ds v -> v <= i_lb inp) \/
   (exists b l, best_value dF = Some (Some b) /\ best_solution dF = Some (Some l) /\ reported_solution S P nv l b /\
      (exists ds, completes (i_res inp) ds b) /\ forall ds v, completes (i_res inp) ds v -> v <= b \/ v <= i_lb inp)).
Proof.
  intros Hw Hg E Hty. assert (Hx := all_exact_type debug orc inp d dF (wb_formed _ _ _ _ _ _ _ Hw) Hg E Hty). split; [exact Hx|].
  destruct (all_feasible debug orc inp d dF (wb_formed _ _ _ _ _ _ _ Hw) Hg E (or_intror Hx)) as [(H1 & H2)|(b & l & H1 & H2 & H3 & H4)].
  - left. split; [exact H1|]. split; [exact H2|]. intros ds v Hc. destruct (Z_lt_le_dec (i_lb inp) v) as [Hlt|]; [|assumption].
    destruct (all_bound debug orc inp d dF ds v Hw Hg E (or_intror Hx) Hc Hlt) as (b & Hb & _). congruence.
  - right. exists b, l. split; [exact H1|]. split; [exact H2|]. split; [exact H3|]. split; [exact H4|]. intros ds v Hc. destruct (Z_lt_le_dec (i_lb inp) v) as [Hlt|]; [|auto].
    destruct (all_bound debug orc inp d dF ds v Hw Hg E (or_intror Hx) Hc Hlt) as (b' & Hb & Hle). left. assert (b' = b) as -> by congruence. exact Hle.
Qed.

Lemma all_lel debug orc inp d dF : well_behaved -> good_call debug orc inp -> compile eqb debug orc inp d = Some dF ->
  i_type inp = Relaxed -> g_exact dF = false -> g_ctype d = LastExactLayer ->
  exists L d2, drain_cutset dF = Some (L, d2) /\ forall ds v, completes (i_res inp) ds v -> i_lb inp < v ->
    exists q ds1 ds2 w c1, In q L /\ ds = ds1 ++ ds2 /\ run S P nv (depth_of (i_res inp)) (sp_state (i_res inp)) ds1 (depth_of q) (sp_state q) c1 /\
      sp_value (i_res inp) + c1 <= sp_value q /\ completes q ds2 w /\ v <= w.
Proof.
  intros Hw Hg E Hty Hx Hct. destruct (all_cut debug orc inp d dF Hw Hg E) as (L & d2 & HD & _ & H). exists L, d2. split; [exact HD|].
  exact (oc_lel _ _ _ _ _ _ _ _ _ (H Hty Hx) Hct).
Qed.
Lemma all_frontier debug orc inp d dF : well_behaved -> good_call debug orc inp -> compile eqb debug orc inp d = Some dF ->
  i_type inp = Relaxed -> g_exact dF = false -> g_ctype d = Frontier ->
  exists L d2, drain_cutset dF = Some (L, d2) /\ forall ds v, completes (i_res inp) ds v -> i_lb inp < v ->
    (exists q ds' w, In q L /\ completes q ds' w /\ v <= w) \/
    (exists s id n ds', In (s, id) (g_next dF) /\ get_node dF id = Some n /\ is_exact (n_flags n) = true /\ v <= n_value n /\ completes (i_res inp) ds' (n_value n)).
Proof.
  intros Hw Hg E Hty Hx Hct. destruct (all_cut debug orc inp d dF Hw Hg E) as (L & d2 & HD & _ & H). exists L, d2. split; [exact HD|].
  intros ds v Hc Hlb. destruct (oc_frontier _ _ _ _ _ _ _ _ _ (H Hty Hx) Hct ds v Hc Hlb) as [H1|(id & n & ds' & H1 & H2)]; [auto|right].
  apply in_map_iff in H1 as ((s & id') & Hs & H1). cbn in Hs. subst id'. exists s, id, n, ds'. auto.
Qed.
(** With one possible final state, a frontier cutset loses nothing. *)
Lemma all_one_end debug orc inp d dF : well_behaved -> good_call debug orc inp -> compile eqb debug orc inp d = Some dF ->
  i_type inp = Relaxed -> g_exact dF = false -> g_ctype d = Frontier -> (forall s s', at_depth (pb_nb_vars P) s -> at_depth (pb_nb_vars P) s' -> s = s') ->
  exists L d2, drain_cutset dF = Some (L, d2) /\ forall ds v, completes (i_res inp) ds v -> i_lb inp < v ->
    exists q ds' w, In q L /\ completes q ds' w /\ v <= w.
Proof.
  intros Hw Hg E Hty Hx Hct Hone. destruct (all_frontier debug orc inp d dF Hw Hg E Hty Hx Hct) as (L & d2 & HD & H). exists L, d2. split; [exact HD|].
  intros ds v Hc Hlb. destruct (H ds v Hc Hlb) as [H1|(s & id & n & ds' & H1 & H2 & H3 & _)]; [exact H1|exfalso].
  rewrite (all_last debug orc inp d dF (wb_formed _ _ _ _ _ _ _ Hw) Hg E Hty Hx Hone id n) in H3; [discriminate| |exact H2]. unfold DdFacts.nextids. apply in_map_iff. exists (s, id). auto.
Qed.
Lemma all_cut_ub debug orc inp d dF : well_behaved -> good_call debug orc inp -> compile eqb debug orc inp d = Some dF ->
  exists L d2, drain_cutset dF = Some (L, d2) /\ forall q ds v, In q L -> completes q ds v -> i_lb inp < v -> v <= sp_ub q.
Proof.
  intros Hw Hg E. destruct (all_cut debug orc inp d dF Hw Hg E) as (L & d2 & HD & H0 & H). exists L, d2. split; [exact HD|].
  intros q ds v Hq. destruct (i_type inp) eqn:Hty; [rewrite H0 in Hq by (left; discriminate); destruct Hq| |rewrite H0 in Hq by (left; discriminate); destruct Hq].
  destruct (g_exact dF) eqn:Hx; [rewrite H0 in Hq by auto; destruct Hq|]. exact (oc_ub _ _ _ _ _ _ _ _ _ (H eq_refl eq_refl) q Hq ds v).
Qed.

Lemma count_layers (f : nat -> nat) lo w : forall n l, (forall x, In x l -> (lo <= f x < lo + n)%nat) ->
  (forall j, (length (filter (fun x => f x =? j)%nat l) <= w)%nat) -> (length l <= n * w)%nat.
Proof.
  induction n as [|n IH]; intros l Hr Hw.
  - destruct l as [|x l]; [cbn; lia|]. specialize (Hr x (or_introl eq_refl)). lia.
  - assert (Hsplit : forall m, length m = (length (filter (fun x => f x =? lo + n)%nat m) + length (filter (fun x => negb (f x =? lo + n)%nat) m))%nat).
    { induction m as [|x m IHm]; [reflexivity|]. cbn [filter length]. destruct (f x =? lo + n)%nat; cbn [negb length]; lia. }
    rewrite (Hsplit l). pose proof (Hw (lo + n)%nat).
    assert (length (filter (fun x => negb (f x =? lo + n)%nat) l) <= n * w)%nat; [|nia].
    apply IH.
    + intros x Hx. apply filter_In in Hx as [Hx Hn]. specialize (Hr x Hx). destruct (f x =? lo + n)%nat eqn:E; [discriminate|]. apply Nat.eqb_neq in E. lia.
    + intros j. specialize (Hw j). clear - Hw. assert (forall m, (length (filter (fun x => f x =? j)%nat (filter (fun x => negb (f x =? lo + n)%nat) m)) <= length (filter (fun x => f x =? j)%nat m))%nat); [|specialize (H l); lia].
      induction m as [|x m IHm]; [cbn; lia|]. cbn [filter]. destruct (f x =? lo + n)%nat; cbn [negb filter]; destruct (f x =? j)%nat; cbn [length]; lia.
Qed.

Lemma all_explored debug orc inp d dF : well_formed -> good_call debug orc inp -> compile eqb debug orc inp d = Some dF ->
  i_type inp = Restricted -> (g_explored dF <= (N - depth_of (i_res inp)) * i_width inp)%nat.
Proof.
  intros [H1 H2 H3 H4] Hg E Hty. assert (Hgen := gc_res _ _ _ _ _ _ _ Hg).
  destruct (compile_good S eqb H1 P R at_depth nv C H2 H3 H4 (depth_of (i_res inp)) (i_res inp) Hgen eq_refl debug orc inp d eq_refl Hg) as (dF' & d1 & past & curr & kF & b & e & E' & HL & Hend & Hb & He & HF).
  rewrite E in E'. inversion E'; subst dF'. rewrite Hty in HF. subst dF. cbn [g_explored set_best_exact].
  assert (HA := li_arena _ _ _ _ _ _ _ _ _ _ _ _ _ _ _ HL).
  pose proof (li_expl _ _ _ _ _ _ _ _ _ _ _ _ _ _ _ HL) as Hx.
  set (k0 := depth_of (i_res inp)) in *.
  assert (length past <= (kF - k0) * i_width inp)%nat.
  { apply (count_layers (fun id => match get_node d1 id with Some n => n_depth n | None => 0%nat end) k0).
    - intros x Hin. destruct (get_some S d1 x) as [n G]; [apply (a_past _ _ _ _ _ _ _ _ _ _ HA); exact Hin|]. rewrite G.
      pose proof (li_depth _ _ _ _ _ _ _ _ _ _ _ _ _ _ _ HL x n Hin G). pose proof (no_depth _ _ _ _ _ _ _ _ _ _ (no_base _ _ _ _ _ _ _ _ _ _ _ (a_nodes _ _ _ _ _ _ _ _ _ _ HA x n G ltac:(discriminate)))). lia.
    - intros j. apply (li_width _ _ _ _ _ _ _ _ _ _ _ _ _ _ _ HL j).
      + apply NoDup_filter. apply (li_pastnd _ _ _ _ _ _ _ _ _ _ _ _ _ _ _ HL).
      + intros x Hin. apply filter_In in Hin. tauto.
      + intros x Hin. apply filter_In in Hin as [Hin Hj]. destruct (get_some S d1 x) as [n G]; [apply (a_past _ _ _ _ _ _ _ _ _ _ HA); exact Hin|]. rewrite G in Hj.
        apply Nat.eqb_eq in Hj. eauto.
      + auto. }
  pose proof (li_range _ _ _ _ _ _ _ _ _ _ _ _ _ _ _ HL). nia.
Qed.

Lemma descends_genuine p q : genuine p -> descends S P nv p q -> genuine q.
Proof.
  intros (ds & c0 & Hp & Hr & Hv) (r & c & _ & Hq & Hrun & Hval). exists (ds ++ rev r), (c0 + c).
  split; [rewrite Hq; apply Permutation_app; [exact Hp|apply Permutation_rev]|]. split; [|lia]. exact (run_app S P nv _ _ _ _ _ _ Hr _ _ _ _ Hrun).
Qed.
Lemma descends_deeper p q : descends S P nv p q -> (depth_of p < depth_of q)%nat.
Proof. intros (r & c & Hr & Hq & _). unfold depth_of. rewrite Hq, app_length. destruct r; [congruence|cbn; lia]. Qed.

Lemma all_cut_genuine debug orc inp d dF : well_formed -> good_call debug orc inp -> compile eqb debug orc inp d = Some dF ->
  exists L d2, drain_cutset dF = Some (L, d2) /\
  forall q, In q L -> genuine q /\ descends S P nv (i_res inp) q /\ (depth_of (i_res inp) < depth_of q)%nat.
Proof.
  intros Hw Hg E. destruct (all_desc debug orc inp d dF Hw Hg E) as (L & d2 & HD & H). exists L, d2. split; [exact HD|].
  intros q Hq. specialize (H q Hq). split; [eapply descends_genuine; [eapply gc_res; eauto|exact H]|]. split; [exact H|]. apply descends_deeper. exact H.
Qed.
End Proofs.

(** * Width of one layer, reuse of the object: no hypothesis on the problem *)
Section Free.
Variable S : Type.
Variable eqb : S -> S -> bool.

Lemma restrict_width orc (inp : input S) d curr d' l : restrict orc inp d curr = Some (d', l) -> (length l <= i_width inp)%nat.
Proof. unfold restrict. destruct all_present; [|discriminate]. intros H. inversion H; subst. rewrite firstn_length. lia. Qed.

Lemma relax_width orc (inp : input S) d curr d' l : relax eqb VAll orc inp d curr = Some (d', l) -> (length l <= i_width inp)%nat.
Proof.
  unfold relax. destruct (match g_ctype d with LastExactLayer => _ | Frontier => _ end) as [d1|]; cbn [obind]; [|discriminate].
  destruct all_present; [|discriminate]. destruct (i_width inp) as [|w1]; [discriminate|]. set (sorted := o_sort orc _ curr).
  destruct (w1 <=? length sorted)%nat; [|discriminate].
  destruct (map_states _ (firstn w1 sorted)) as [ks|]; cbn [obind]; [|discriminate].
  destruct (map_states _ (skipn w1 sorted)) as [ms|]; cbn [obind]; [|discriminate].
  set (rec := option_map fst _). destruct rec as [id|].
  - cbn [obind]. destruct (upd_node _ _ _) as [d4|]; cbn [obind]; [|discriminate]. destruct (ofold _ _ _) as [d5|]; cbn [obind]; [|discriminate].
    intros H. assert (l = firstn (Datatypes.S w1) sorted) as -> by congruence. rewrite firstn_length. lia.
  - cbn [obind]. destruct (upd_node _ _ _) as [d4|]; cbn [obind]; [|discriminate]. destruct (ofold _ _ _) as [d5|]; cbn [obind]; [|discriminate].
    intros H. assert (Hl : l = firstn w1 sorted ++ [length (g_nodes (set_approx d1 true))]) by congruence. rewrite Hl, app_length, firstn_length. cbn [length]. lia.
Qed.

Lemma all_width orc (inp : input S) depth var d curr d' l : layer_step eqb orc inp depth var d curr = Some (d', Some l) ->
  i_type inp = Restricted \/ i_type inp = Relaxed /\ (1 < depth)%nat -> (length l <= i_width inp)%nat.
Proof.
  unfold layer_step. set (c1 := map snd _). destruct c1 as [|x c0] eqn:Ec; [discriminate|]. rewrite <- Ec. clearbody c1. clear Ec.
  intros H Hty.
  destruct (i_type inp) eqn:Et; [destruct Hty as [?|[? _]]; discriminate| |].
  - destruct Hty as [?|[_ Hd]]; [discriminate|]. apply Nat.ltb_lt in Hd. rewrite Hd, andb_true_r in H.
    destruct (i_width inp <? length c1)%nat eqn:Ew.
    + destruct (relax _ _ _ _ _ _) as [[d3 c2]|] eqn:Er; cbn [obind] in H; [|discriminate]. destruct (ofold _ _ _); cbn [obind] in H; [|discriminate].
      assert (l = c2) as -> by congruence. eapply relax_width; eauto.
    + cbn [obind] in H. destruct (ofold _ _ _); cbn [obind] in H; [|discriminate]. apply Nat.ltb_ge in Ew. assert (l = c1) as -> by congruence. exact Ew.
  - destruct (i_width inp <? length c1)%nat eqn:Ew.
    + destruct (restrict _ _ _ _) as [[d3 c2]|] eqn:Er; cbn [obind] in H; [|discriminate]. destruct (ofold _ _ _); cbn [obind] in H; [|discriminate].
      assert (l = c2) as -> by congruence. eapply restrict_width; eauto.
    + cbn [obind] in H. destruct (ofold _ _ _); cbn [obind] in H; [|discriminate]. apply Nat.ltb_ge in Ew. assert (l = c1) as -> by congruence. exact Ew.
Qed.

Definition but_prev (a b : option (dd S)) : Prop :=
  match a, b with
  | None, None => True
  | Some x, Some y => exists p, y = set_prev x p
  | _, _ => False
  end.
Lemma but_prev_refl a : but_prev a a.
Proof. destruct a as [x|]; cbn; [|exact I]. exists (g_prev x). destruct x. reflexivity. Qed.

Lemma max_by_value_prev (d : dd S) p l : max_by_value (set_prev d p) l = max_by_value d l.
Proof. reflexivity. Qed.

Lemma all_reuse debug orc (inp : input S) d d' : g_ctype d = g_ctype d' -> but_prev (compile eqb debug orc inp d) (compile eqb debug orc inp d').
Proof.
  intros Hct. unfold compile, root_dd. cbn [app g_root_pa g_nodes g_edges g_next g_prev dd_clear g_cutset g_lel g_best g_exact g_approx g_ctype g_explored]. rewrite Hct.
  destruct (sub_isize _ _ _) as [rub|]; cbn [obind]; [|exact I].
  set (x := mk_dd _ _ _ (g_prev d) _ _ _ _ _ _ _ _). set (y := mk_dd _ _ _ (g_prev d') _ _ _ _ _ _ _ _).
  assert (Hy : y = set_prev x (g_prev d')) by reflexivity.
  assert (Hn : exists m, (pb_nb_vars (i_pb inp) + 2)%nat = Datatypes.S m) by (exists (pb_nb_vars (i_pb inp) + 1)%nat; lia).
  destruct Hn as [m ->]. cbn [layers].
  rewrite Hy. change (g_next (set_prev x (g_prev d'))) with (g_next x).
  destruct (pb_next_var (i_pb inp) (map fst (o_iter orc (3 * 0) (g_next x)))) as [var|].
  - change (layer_step eqb orc inp 0 var (set_prev x (g_prev d')) []) with (layer_step eqb orc inp 0 var x []). apply but_prev_refl.
  - cbn [obind]. unfold finalize. change (g_next (set_prev x (g_prev d'))) with (g_next x). rewrite max_by_value_prev.
    destruct (max_by_value x _) as [b|]; cbn [obind]; [|exact I]. unfold compute_exact. destruct (i_type inp); cbn; exists (g_prev d'); reflexivity.
Qed.

Lemma best_path_from_prev (d : dd S) p : forall fuel e, best_path_from fuel (set_prev d p) e = best_path_from fuel d e.
Proof.
  induction fuel as [|fuel IH]; intros [e|]; cbn [best_path_from]; try reflexivity. change (g_edges (set_prev d p)) with (g_edges d).
  destruct (nth_error _ e) as [ed|]; cbn [obind]; [|reflexivity]. change (get_node (set_prev d p) (e_from ed)) with (get_node d (e_from ed)).
  destruct (get_node _ _) as [n|]; cbn [obind]; [|reflexivity]. rewrite IH. reflexivity.
Qed.
Lemma best_path_prev (d : dd S) p id : best_path (set_prev d p) id = best_path d id.
Proof.
  unfold best_path. change (get_node (set_prev d p) id) with (get_node d id). destruct (get_node d id) as [n|]; cbn [obind]; [|reflexivity].
  rewrite best_path_from_prev. reflexivity.
Qed.
Lemma best_solution_prev (d : dd S) p : best_solution (set_prev d p) = best_solution d.
Proof. unfold best_solution. change (g_best (set_prev d p)) with (g_best d). destruct (g_best d); [|reflexivity]. rewrite best_path_prev. reflexivity. Qed.
Lemma drain_list_prev (d : dd S) p best : forall l, drain_list (set_prev d p) best l = drain_list d best l.
Proof.
  induction l as [|id l IH]; [reflexivity|]. cbn [drain_list]. rewrite IH. f_equal. unfold drain_node. change (get_node (set_prev d p) id) with (get_node d id).
  destruct (get_node d id) as [n|]; cbn [obind]; [|reflexivity]. rewrite best_path_prev. reflexivity.
Qed.
Lemma drain_prev (d : dd S) p : option_map fst (drain_cutset (set_prev d p)) = option_map fst (drain_cutset d).
Proof.
  unfold drain_cutset. change (best_value (set_prev d p)) with (best_value d). destruct (best_value d) as [[v|]|]; cbn [obind]; [|reflexivity|reflexivity].
  change (g_cutset (set_prev d p)) with (g_cutset d). rewrite drain_list_prev. destruct (drain_list d v (g_cutset d)); reflexivity.
Qed.

Lemma all_reuse_answers debug orc (inp : input S) d d' : g_ctype d = g_ctype d' ->
  match compile eqb debug orc inp d, compile eqb debug orc inp d' with
  | Some x, Some y => best_value x = best_value y /\ best_solution x = best_solution y /\ g_exact x = g_exact y /\
      option_map fst (drain_cutset x) = option_map fst (drain_cutset y) /\ g_explored x = g_explored y
  | None, None => True
  | _, _ => False
  end.
Proof.
  intros H. pose proof (all_reuse debug orc inp d d' H) as Hb.
  destruct (compile eqb debug orc inp d) as [x|], (compile eqb debug orc inp d') as [y|]; cbn [but_prev] in Hb; auto.
  destruct Hb as [p ->]. rewrite best_solution_prev, drain_prev. auto.
Qed.
End Free.
