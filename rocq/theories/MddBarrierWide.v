(** src/mdd/with_barrier.rs when no layer exceeds the maximum width. *)
From Verif Require Import Spec Dd DdSpec WideSpec MddBarrier BarWp MddBarrierProofs MddAllWide.
From Verif Require Import DdFacts DdLoop DdFinal MddAllObs MddBarrierLoop MddBarrierObs.
From Coq Require Import ZifyNat.
Open Scope Z_scope.

Section Wide.
Variable S : Type.
Variable eqb : S -> S -> bool.
Variable P : problem S.
Variable R : relaxation S.
Variable at_depth : nat -> S -> Prop.
Variable nv : nat -> nat.
Variable C : Z.
Notation well_formed := (well_formed S eqb P R at_depth nv C).
Notation results := (results S eqb P R at_depth nv C).

(** Whatever the other threads write meanwhile, the diagram is exact. *)
Lemma bar_wide_exact solo inp ct T0 dF T' : well_formed -> genuine S P nv (i_res inp) -> no_layer_exceeds S P nv (i_width inp) ->
  results solo inp ct T0 dF T' -> g_exact dF = true.
Proof.
  intros [H1 H2 H3 H4] Hgen Hw (d1 & past & gone & curr & kF & b & e & T1 & HC).
  destruct (MddBarrierObs.final_core S eqb P R at_depth nv C _ _ _ inp ct T0 T' T1 d1 dF past gone curr kF b e HC) as (_ & -> & _).
  apply (MddBarrierObs.exact_approx S eqb P R at_depth nv C _ _ _ inp ct T0 T' T1 d1 dF past gone curr kF b e HC).
  apply (cp_fits _ _ _ _ _ _ _ _ _ _ _ _ _ _ _ _ _ _ _ _ _ _ _ HC). intros d past0 gone0 curr0 k HL Ha.
  exact (layer_len S eqb H1 P R at_depth nv C _ _ Hgen eq_refl inp ct d past0 gone0 curr0 k (i_width inp) HL Ha Hw).
Qed.

(** Alone, and without thresholds below the root, it gives the best completion. *)
Lemma bar_wide_best inp ct T0 dF T' ds v : well_formed -> admissible_reached S P nv -> genuine S P nv (i_res inp) -> no_layer_exceeds S P nv (i_width inp) ->
  results true inp ct T0 dF T' -> (forall k s, (depth_of (i_res inp) < k)%nat -> lookup S eqb T0 k s = None) ->
  completes S P nv (i_res inp) ds v -> i_lb inp < v -> exists b, best_value dF = Some (Some b) /\ v <= b.
Proof.
  intros [H1 H2 H3 H4] Hadm Hgen Hw (d1 & past & gone & curr & kF & b & e & T1 & HC) HT (c & Hc & ->) Hlb.
  destruct (MddBarrierObs.final_core S eqb P R at_depth nv C _ _ _ inp ct T0 T' T1 d1 dF past gone curr kF b e HC) as (F1 & _ & _ & _ & _ & _ & F6).
  assert (HL := cp_linv _ _ _ _ _ _ _ _ _ _ _ _ _ _ _ _ _ _ _ _ _ _ _ HC). assert (HB := cp_binv _ _ _ _ _ _ _ _ _ _ _ _ _ _ _ _ _ _ _ _ _ _ _ HC).
  assert (Hb := cp_best _ _ _ _ _ _ _ _ _ _ _ _ _ _ _ _ _ _ _ _ _ _ _ HC). assert (Hend := cp_end _ _ _ _ _ _ _ _ _ _ _ _ _ _ _ _ _ _ _ _ _ _ _ HC).
  assert (Ha : g_approx d1 = false).
  { apply (cp_fits _ _ _ _ _ _ _ _ _ _ _ _ _ _ _ _ _ _ _ _ _ _ _ HC). intros d past0 gone0 curr0 k HL0 Ha.
    exact (layer_len S eqb H1 P R at_depth nv C _ _ Hgen eq_refl inp ct d past0 gone0 curr0 k (i_width inp) HL0 Ha Hw). }
  assert (Hgone : gone = []).
  { destruct gone as [|g gone']; [reflexivity|]. exfalso. destruct (li_gone _ _ _ _ _ _ _ _ _ _ _ _ _ _ _ HL g (or_introl eq_refl)) as (_ & _ & gn & Gg & _).
    destruct (bi_gone _ _ _ _ _ _ _ _ _ _ _ _ _ HB g gn (or_introl eq_refl) Gg) as (Hd & _ & _ & _ & H). destruct (H eq_refl) as (i & Hi & _). rewrite HT in Hi by exact Hd. discriminate. }
  subst gone. destruct (MddAllObs.root_node S P at_depth nv C _ _ d1 past (li_arena _ _ _ _ _ _ _ _ _ _ _ _ _ _ _ HL)) as (n & G & R1 & R2 & R3).
  destruct (exact_reach S eqb H1 P R at_depth nv C H2 H4 _ _ Hgen eq_refl Hadm inp ct d1 past curr kF HL Hend Ha 0%nat n ds c (root_in _ _ _ _ _ _ _ _ _ _ _ _ _ _ _ HL) G) as (t & tn & Ht & Gt & Hle); [rewrite R1, R3; exact Hc|lia|].
  destruct b as [i|]; [|unfold DdFacts.nextids in Ht; rewrite Hb in Ht; destruct Ht].
  destruct Hb as (bn & Hi & Gi & Hmax). unfold best_value. rewrite F1. destruct (F6 i bn Gi) as (bn' & -> & Hcc). cbn [obind]. exists (n_value bn'). split; [reflexivity|].
  rewrite (ce_value _ _ _ Hcc). specialize (Hmax t tn Ht Gt). lia.
Qed.
End Wide.
