(** Proofs about diagrams and the parallel solver when no layer exceeds the maximum width. *)
From Verif Require Import Spec Dd DdSpec WideSpec MddAll MddAllObs MddAllProofs MddAllWide FrontierSpec FringeSpec ParSpec ParFacts ParOpt ParProofs.
Open Scope Z_scope.

Section Diagrams.
Variable S : Type.
Variable eqb : S -> S -> bool.
Variable P : problem S.
Variable R : relaxation S.
Variable at_depth : nat -> S -> Prop.
Variable nv : nat -> nat.
Variable C : Z.
Notation well_formed := (well_formed S eqb P R at_depth nv C).
Notation good_call := (good_call S P R nv).
Notation genuine := (genuine S P nv).
Notation completes := (completes S P nv).

Lemma as_exact_call debug orc inp : good_call debug orc inp -> good_call debug orc (as_exact S inp).
Proof. intros [H1 H2 H3 H4 H5 H6]. constructor; assumption. Qed.

Lemma wide_same debug orc inp d : well_formed -> good_call debug orc inp -> no_layer_exceeds S P nv (i_width inp) ->
  compile eqb debug orc inp d = compile eqb debug orc (as_exact S inp) d.
Proof.
  intros [H1 H2 H3 H4] Hg Hw.
  exact (compile_wide S eqb H1 P R at_depth nv C H2 H3 H4 (depth_of (i_res inp)) (i_res inp) (gc_res _ _ _ _ _ _ _ Hg) eq_refl debug orc inp d eq_refl Hg Hw).
Qed.

Lemma wide_exact debug orc inp d dF : well_formed -> good_call debug orc inp -> no_layer_exceeds S P nv (i_width inp) ->
  compile eqb debug orc inp d = Some dF -> g_exact dF = true.
Proof.
  intros Hwf Hg Hw E. rewrite (wide_same debug orc inp d Hwf Hg Hw) in E.
  exact (all_exact_type S eqb P R at_depth nv C debug orc (as_exact S inp) d dF Hwf (as_exact_call _ _ _ Hg) E eq_refl).
Qed.

Lemma wide_bound debug orc inp d dF ds v : well_formed -> admissible_reached S P nv -> good_call debug orc inp -> no_layer_exceeds S P nv (i_width inp) ->
  compile eqb debug orc inp d = Some dF -> completes (i_res inp) ds v -> i_lb inp < v -> exists b, best_value dF = Some (Some b) /\ v <= b.
Proof.
  intros Hwf Ha Hg Hw E (c & Hc & ->) Hlb. assert (Hx := wide_exact debug orc inp d dF Hwf Hg Hw E). rewrite (wide_same debug orc inp d Hwf Hg Hw) in E. destruct Hwf as [H1 H2 H3 H4].
  exact (obs_exact S eqb H1 P R at_depth nv C H2 H3 H4 (depth_of (i_res inp)) (i_res inp) (gc_res _ _ _ _ _ _ _ Hg) eq_refl Ha debug orc (as_exact S inp) d dF ds c eq_refl (as_exact_call _ _ _ Hg) E ltac:(discriminate) Hx Hc Hlb).
Qed.

Lemma wide_full debug orc inp d : well_formed -> admissible_reached S P nv -> good_call debug orc inp -> no_layer_exceeds S P nv (i_width inp) ->
  exists dF, compile eqb debug orc inp d = Some dF /\ g_exact dF = true /\
  ((best_value dF = Some None /\ best_solution dF = Some None /\ forall ds v, completes (i_res inp) ds v -> v <= i_lb inp) \/
   (exists b l, best_value dF = Some (Some b) /\ best_solution dF = Some (Some l) /\ reported_solution S P nv l b /\
      (exists ds, completes (i_res inp) ds b) /\ forall ds v, completes (i_res inp) ds v -> v <= b \/ v <= i_lb inp)).
Proof.
  intros Hwf Ha Hg Hw. destruct (all_total S eqb P R at_depth nv C debug orc inp d Hwf Hg) as (dF & bv & bs & L & d2 & E & _ & _ & _).
  exists dF. split; [exact E|]. assert (Hx := wide_exact debug orc inp d dF Hwf Hg Hw E). split; [exact Hx|].
  destruct (all_feasible S eqb P R at_depth nv C debug orc inp d dF Hwf Hg E (or_intror Hx)) as [(H1 & H2)|(b & l & H1 & H2 & H3 & H4)].
  - left. split; [exact H1|]. split; [exact H2|]. intros ds v Hc. destruct (Z_lt_le_dec (i_lb inp) v) as [Hlt|]; [|assumption].
    destruct (wide_bound debug orc inp d dF ds v Hwf Ha Hg Hw E Hc Hlt) as (b & Hb & _). congruence.
  - right. exists b, l. split; [exact H1|]. split; [exact H2|]. split; [exact H3|]. split; [exact H4|]. intros ds v Hc. destruct (Z_lt_le_dec (i_lb inp) v) as [Hlt|]; [|auto].
    destruct (wide_bound debug orc inp d dF ds v Hwf Ha Hg Hw E Hc Hlt) as (b' & Hb & Hle). left. assert (b' = b) as -> by congruence. exact Hle.
Qed.
End Diagrams.

Section Par.
Variable S : Type.
Variable eqb : S -> S -> bool.
Variable cfg : config S.
Variable at_depth : nat -> S -> Prop.
Variable nv : nat -> nat.
Variable C : Z.
Notation P := (cf_pb cfg).
Notation R := (cf_rx cfg).
Notation wide := (wide_enough S P nv (cf_width cfg)).
Section G.
Variable merging : Prop.
Variable inv : fr_t (cf_fr cfg) -> Prop.
Variable content : fr_t (cf_fr cfg) -> list (subproblem S).
Hypothesis G : good_config S eqb cfg at_depth nv C merging inv content.
Hypothesis A : admissible_reached S P nv.
Hypothesis W : wide.
Let WF := gs_formed _ _ _ _ _ _ _ _ _ G.

Lemma genuine_width ty n lb : genuine S P nv n -> no_layer_exceeds S P nv (i_width (call cfg ty n lb)).
Proof. intros (ds & c & _ & Hr & _). apply (W (depth_of n)). exists ds, c. exact Hr. Qed.

Lemma wide_closes : forall lb ty n d lb', genuine S P nv n -> compiled S eqb cfg lb ty n d -> g_exact d = true -> lb <= lb' ->
  (forall v, best_value d = Some (Some v) -> v <= lb') -> forall ds w, completes S P nv n ds w -> w <= lb'.
Proof.
  intros lb ty n d lb' Hn (orc & lb0 & d0 & Ho & Hlb & _ & E) Hex Hl Hb ds w Hc. destruct (Z_le_gt_dec w lb0) as [H|H]; [lia|].
  destruct (wide_bound S eqb P R at_depth nv C false orc _ d0 d ds w WF A (good_call_of S eqb cfg at_depth nv C merging inv content G orc ty n lb0 Ho Hn) (genuine_width ty n lb0 Hn) E Hc) as (b & Hb1 & Hb2); [cbn; lia|].
  assert (H' := Hb b Hb1). lia.
Qed.

Lemma wide_covers : forall lb n d L d2, genuine S P nv n -> compiled S eqb cfg lb Relaxed n d -> g_exact d = false -> drain_cutset d = Some (L, d2) -> ub_ok S cfg nv lb n ->
  (forall q, In q L -> ub_ok S cfg nv lb (with_ub q (Z.min (sp_ub n) (sp_ub q)))) /\
  (forall ds w, completes S P nv n ds w -> lb < w -> exists q ds' w', In q L /\ completes S P nv q ds' w' /\ w <= w' /\ w' <= sp_ub n /\ w' <= sp_ub q).
Proof.
  intros lb n d L d2 Hn (orc & lb0 & d0 & Ho & Hlb & _ & E) Hex. exfalso.
  assert (H := wide_exact S eqb P R at_depth nv C false orc _ d0 d WF (good_call_of S eqb cfg at_depth nv C merging inv content G orc Relaxed n lb0 Ho Hn) (genuine_width Relaxed n lb0 Hn) E). congruence.
Qed.
End G.

Lemma par_wide n m st : good_solver S eqb cfg at_depth nv C -> admissible_reached S P nv -> wide -> decided_once S cfg nv ->
  (1 <= m <= n)%nat -> reachable S eqb cfg n m st -> proved cfg st ->
  upper_bound_of cfg st = lower_bound_of cfg st /\
  match best_value_of cfg st with
  | Some v => optimum S P nv v /\ lower_bound_of cfg st = v /\ exists l, best_solution_of cfg st = Some l /\ reported_solution S P nv l v
  | None => infeasible S P nv /\ best_solution_of cfg st = None
  end.
Proof.
  intros (inv & content & G) A W HD Hm Hr Hp.
  destruct (proved_best S eqb cfg at_depth nv C True inv content G (fun _ => HD) (wide_closes True inv content G A W) (wide_covers True inv content G W) n m st Hm Hr Hp) as (H1 & H2 & H3).
  unfold upper_bound_of, lower_bound_of, best_value_of, best_solution_of. split; [exact H2|]. unfold sol_ok in H3. destruct (c_sol (s_crit st)) as [l|]; cbn [option_map].
  - split; [|split; [reflexivity|exists l; auto]]. destruct H3 as (ds & _ & Hs). split; [eauto|]. exact H1.
  - split; [|reflexivity]. intros ds w Hs. assert (Hb := H1 ds w Hs). destruct (solution_gt S eqb cfg at_depth nv C True inv content G ds w Hs). lia.
Qed.
End Par.
