(** What the solver relies on about src/mdd/with_barrier.rs. *)
From Verif Require Import Spec Dd DdSpec FlagsFacts MddAll MddAllProofs DdFacts DdLoop DdFinal MddAllObs MddBarrier BarWp MddBarrierObs.
From Coq Require Import ZifyNat.
Open Scope Z_scope.

Section Proofs.
Variable S : Type.
Variable eqb : S -> S -> bool.
Variable P : problem S.
Variable R : relaxation S.
Variable at_depth : nat -> S -> Prop.
Variable nv : nat -> nat.
Variable C : Z.
Notation N := (pb_nb_vars P).
Notation L := (Datatypes.S N).
Notation well_formed := (well_formed S eqb P R at_depth nv C).
Notation well_behaved := (well_behaved S eqb P R at_depth nv C).
Notation good_call := (good_call S P R nv).
Notation genuine := (genuine S P nv).
Notation completes := (completes S P nv).
Notation lookup := (lookup S eqb).
Notation point := (point S P at_depth nv C).
Notation alt := (alt S eqb P at_depth nv C).

(** [dF] and [T'] are what a compilation that started with the thresholds [T0] leaves. *)
Definition results (solo : bool) (inp : input S) (ct : cutset_type) (T0 : thresholds S) (dF : dd S) (T' : thresholds S) : Prop :=
  compiles S eqb P R at_depth nv C (depth_of (i_res inp)) (i_res inp) solo inp ct T0 dF T'.

Lemma bar_total solo (G : nat -> S -> info -> Prop) debug orc inp d T : well_formed -> good_call debug orc inp -> length T = L ->
  (i_type inp = Relaxed -> forall k s i, (depth_of (i_res inp) <= k)%nat -> G k s i) ->
  wp S eqb solo L G (compile eqb debug orc inp d) T (results solo inp (g_ctype d) T).
Proof.
  intros [H1 H2 H3 H4] Hg HT HG. assert (Hgen := gc_res _ _ _ _ _ _ _ Hg).
  exact (compile_good S eqb H1 P R at_depth nv C H2 H3 H4 (depth_of (i_res inp)) (i_res inp) solo G Hgen eq_refl debug orc inp d T eq_refl Hg HT HG).
Qed.

Lemma bar_feasible solo inp ct T0 dF T' : well_formed -> genuine (i_res inp) -> results solo inp ct T0 dF T' ->
  i_type inp <> Relaxed \/ g_exact dF = true ->
  (best_value dF = Some None /\ best_solution dF = Some None) \/
  (exists v l, best_value dF = Some (Some v) /\ best_solution dF = Some (Some l) /\ reported_solution S P nv l v /\
     exists ds, completes (i_res inp) ds v).
Proof.
  intros [H1 H2 H3 H4] Hgen (d1 & past & gone & curr & kF & b & e & T1 & HC) Hty.
  destruct (obs_best S eqb H1 P R at_depth nv C (depth_of (i_res inp)) (i_res inp) solo (fun _ _ _ => True) eq_refl inp ct T0 T' T1 d1 dF past gone curr kF b e HC) as (ob & Hob & Hbs).
  destruct ob as [v|]; [right|left; auto]. destruct Hbs as (r & Hr & _ & Hc). destruct (Hc Hty) as (c & Hc1 & Hc2).
  exists v, (sp_path (i_res inp) ++ r). split; [exact Hob|]. split; [exact Hr|]. split; [eapply reported; eauto|]. exists (rev r), c. auto.
Qed.

Lemma bar_cut solo inp ct T0 dF T' : well_formed -> genuine (i_res inp) -> results solo inp ct T0 dF T' ->
  g_ctype dF = ct /\ exists L d2, drain_cutset dF = Some (L, d2) /\ g_ctype d2 = ct /\
  forall q, In q L -> genuine q /\ descends S P nv (i_res inp) q /\ (depth_of (i_res inp) < depth_of q)%nat.
Proof.
  intros [H1 H2 H3 H4] Hgen (d1 & past & gone & curr & kF & b & e & T1 & HC).
  split; [apply (final_core S eqb P R at_depth nv C (depth_of (i_res inp)) (i_res inp) solo inp ct T0 T' T1 d1 dF past gone curr kF b e HC)|].
  destruct (drain_ok S eqb H1 P R at_depth nv C (depth_of (i_res inp)) (i_res inp) solo (fun _ _ _ => True) eq_refl inp ct T0 T' T1 d1 dF past gone curr kF b e HC) as (L & d2 & E & E2 & _ & Hd & _).
  exists L, d2. split; [exact E|]. split; [exact E2|]. intros q Hq. specialize (Hd q Hq). split; [eapply descends_genuine; eauto|]. split; [exact Hd|]. apply descends_deeper in Hd. exact Hd.
Qed.

Lemma bar_root inp ct T0 dF T' x : well_behaved -> results true inp ct T0 dF T' ->
  i_type inp = Relaxed /\ (ct = LastExactLayer \/ forall s s', at_depth N s -> at_depth N s' -> s = s') \/ i_type inp <> Relaxed /\ g_exact dF = true ->
  i_lb inp < x -> point x (depth_of (i_res inp)) (sp_state (i_res inp)) (sp_value (i_res inp)) ->
  alt T0 dF x (Datatypes.S (depth_of (i_res inp))).
Proof.
  intros [[H1 H2 H3 H4] H5 H6] (d1 & past & gone & curr & kF & b & e & T1 & HC) Hty Hx Hp.
  eapply (root_alt S eqb H1 P R at_depth nv C H2 H4 _ _ true (fun _ _ _ => True) H5 H6 eq_refl); eauto.
Qed.

Lemma bar_entry inp ct T0 dF T' k s : well_behaved -> results true inp ct T0 dF T' -> i_type inp = Relaxed ->
  (ct = LastExactLayer \/ forall s s', at_depth N s -> at_depth N s' -> s = s') ->
  lookup T' k s = lookup T0 k s \/
  exists i, lookup T' k s = Some i /\ (depth_of (i_res inp) <= k)%nat /\
    forall x v, i_lb inp < x -> v <= b_theta i -> point x k s v ->
      alt T0 dF x (Datatypes.S k) \/
      (b_explored i = false /\ g_exact dF = false /\ exists L d2 q, drain_cutset dF = Some (L, d2) /\ In q L /\
         depth_of q = k /\ sp_state q = s /\ b_theta i <= sp_value q /\ x <= sp_ub q).
Proof.
  intros [[H1 H2 H3 H4] H5 H6] (d1 & past & gone & curr & kF & b & e & T1 & HC) Hty Hct.
  eapply (entry_alt S eqb H1 P R at_depth nv C H2 H4 _ _ true (fun _ _ _ => True) H5 H6 eq_refl); eauto.
Qed.

End Proofs.
