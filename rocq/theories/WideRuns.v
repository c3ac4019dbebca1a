(** Executions of the compilation with thresholds when no layer exceeds the maximum width. *)
From Verif Require Import Spec Dd DdSpec WideSpec MddAllProofs MddBarrier BarWp MddBarrierProofs MddBarrierSpec MddBarrierRuns MddBarrierWide MddBarrierCases MddCases Table TableFacts ParCases BarCases.
Open Scope Z_scope.

Section Runs.
Variable S : Type.
Variable eqb : S -> S -> bool.
Variable P : problem S.
Variable R : relaxation S.
Variable at_depth : nat -> S -> Prop.
Variable nv : nat -> nat.
Variable C : Z.
Notation well_formed := (well_formed S eqb P R at_depth nv C).
Notation good_call := (good_call S P R nv).
Notation completes := (completes S P nv).

Lemma barm_wide_exact alone debug orc inp d T dF T' : well_formed -> good_call debug orc inp -> no_layer_exceeds S P nv (i_width inp) ->
  length T = Datatypes.S (pb_nb_vars P) -> returns eqb alone (compile eqb debug orc inp d) T dF T' -> g_exact dF = true.
Proof.
  intros Hf Hg Hw HL Hr. eapply bar_wide_exact; [exact Hf|exact (gc_res _ _ _ _ _ _ _ Hg)|exact Hw|]. eapply barm_results; eauto.
Qed.
Lemma barm_wide_best debug orc inp d T dF T' : well_formed -> admissible_reached S P nv -> good_call debug orc inp -> no_layer_exceeds S P nv (i_width inp) ->
  length T = Datatypes.S (pb_nb_vars P) -> (forall k s i, (depth_of (i_res inp) < k)%nat -> ~ entry S eqb T k s i) ->
  returns eqb true (compile eqb debug orc inp d) T dF T' ->
  g_exact dF = true /\
  ((best_value dF = Some None /\ best_solution dF = Some None /\ forall ds v, completes (i_res inp) ds v -> v <= i_lb inp) \/
   (exists b l, best_value dF = Some (Some b) /\ best_solution dF = Some (Some l) /\ reported_solution S P nv l b /\
      (exists ds, completes (i_res inp) ds b) /\ forall ds v, completes (i_res inp) ds v -> v <= b \/ v <= i_lb inp)).
Proof.
  intros Hf Ha Hg Hw HL HT Hr. assert (Hx := barm_wide_exact true debug orc inp d T dF T' Hf Hg Hw HL Hr). split; [exact Hx|].
  assert (Hb : forall ds v, completes (i_res inp) ds v -> i_lb inp < v -> exists b, best_value dF = Some (Some b) /\ v <= b).
  { intros ds v Hc Hlb. eapply bar_wide_best; [exact Hf|exact Ha|exact (gc_res _ _ _ _ _ _ _ Hg)|exact Hw|eapply barm_results; eauto| |exact Hc|exact Hlb].
    intros k s Hk. destruct (lookup S eqb T k s) as [i|] eqn:E; [|reflexivity]. exfalso. apply (HT k s i Hk). apply (lookup_entry S eqb). exact E. }
  destruct (barm_feasible S eqb P R at_depth nv C true debug orc inp d T dF T' Hf Hg HL Hr (or_intror Hx)) as [(H1 & H2)|(b & l & H1 & H2 & H3 & H4)].
  - left. split; [exact H1|]. split; [exact H2|]. intros ds v Hc. destruct (Z_lt_le_dec (i_lb inp) v) as [Hlt|]; [|assumption].
    destruct (Hb ds v Hc Hlt) as (b & E & _). congruence.
  - right. exists b, l. split; [exact H1|]. split; [exact H2|]. split; [exact H3|]. split; [exact H4|]. intros ds v Hc. destruct (Z_lt_le_dec (i_lb inp) v) as [Hlt|]; [|auto].
    destruct (Hb ds v Hc Hlt) as (b' & E & Hle). left. assert (b' = b) as -> by congruence. exact Hle.
Qed.
End Runs.

(** On the table of C50: alone 8; another thread may make it 7, though the diagram is still exact. *)
Lemma tabA_alone :
  (exists dF, returns ts_eqb true (compile ts_eqb true orc_fwd (t_call tabA Restricted 3 0 (t_root tabA)) (dd_new LastExactLayer)) none4 dF none4 /\
    g_exact dF = true /\ best_value dF = Some (Some 8)) /\
  (exists dF, returns ts_eqb false (compile ts_eqb true orc_fwd (t_call tabA Restricted 3 0 (t_root tabA)) (dd_new LastExactLayer)) none4 dF some4 /\
    g_exact dF = true /\ best_value dF = Some (Some 7)) /\
  forall k s i, ~ entry tstate ts_eqb none4 k s i.
Proof.
  split; [|split].
  - destruct (seen_returns true idle _ _ _ idle_ok restricted_none) as (dF & T' & H & E). injection E as E1 _ E3 _ ->. exists dF. auto.
  - destruct (seen_returns false added _ _ _ added_ok restricted_added) as (dF & T' & H & E). injection E as E1 _ E3 _ ->. exists dF. auto.
  - intros k s i (l & Hl & Ht). destruct k as [|[|[|[|k]]]]; cbn in Hl; try (injection Hl as <-; discriminate Ht). destruct k; discriminate Hl.
Qed.
