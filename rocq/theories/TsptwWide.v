(** The solvers on instances of the travelling salesman with time windows whose layers fit in the maximum width. *)
From Verif Require Import Spec Dd DdSpec WideSpec WideCount ParSpec BarSpec ParProofs WideProofs BarWide TsptwSpec TsptwFacts TsptwMerge TsptwTours TsptwCases.
From Coq Require Import ZifyNat Factorial Arith.
Open Scope Z_scope.

Section Tours.
Variable debug : bool.
Variable I : tw_inst.
Variable M : Z.
Hypothesis OK : tw_inst_ok I M.
Notation n := (tw_n I).
Notation P := (tw_problem debug I).

Definition branches (k : nat) : nat := if (S k <? n)%nat then (n - S k)%nat else 1%nat.
Lemma reached_layer k s : reached tw_state P tw_nv k s -> tw_layer I M k s.
Proof. intros (ds & c & H). apply (run_time debug I M OK _ _ _ _ _ _ H); [apply (init_layer debug I M OK)|lia]. Qed.
Lemma tw_narrow : narrow tw_state P tw_nv branches.
Proof.
  intros k s Hk (ds & c & H). change (pb_nb_vars P) with n in Hk. destruct (run_exact debug I M OK _ _ _ _ _ _ H 0%nat (exact_init debug I M OK) Hk) as (p & He).
  unfold branches. destruct (Nat.ltb_spec (S k) n) as [Hlt|Hge].
  - exists (map (fun j => mk_dec (tw_nv k) (Z.of_nat j)) (bs_iter n (tw_must s))). split; [rewrite map_length; pose proof (ea_len _ _ _ _ _ He); lia|].
    intros d Hd. apply (in_domain debug I M OK k s) in Hd as (j & -> & Ha); [|apply He|exact Hk]. apply in_map_iff. exists j. split; [reflexivity|].
    apply (in_L I M k); [apply He|]. apply (allowed_exact I M OK k s p j He Hlt Ha).
  - exists [mk_dec (tw_nv k) 0]. split; [cbn; lia|]. intros d Hd. apply (in_domain debug I M OK k s) in Hd as (j & -> & Ha); [|apply He|exact Hk].
    destruct (allowed_last I M OK k s p j He ltac:(lia) Ha) as (-> & _). left. reflexivity.
Qed.
Lemma tw_product : forall k, (k <= n)%nat -> (product branches k <= fact (n - 1))%nat.
Proof.
  assert (H : forall k, (S k <= n)%nat -> (product branches k * fact (n - 1 - k) = fact (n - 1))%nat).
  { induction k as [|k IH]; intros Hk; [cbn [product]; rewrite Nat.sub_0_r; lia|]. cbn [product]. unfold branches at 1. destruct (Nat.ltb_spec (S k) n) as [_|]; [|lia].
    rewrite <- (IH ltac:(lia)). replace (n - 1 - k)%nat with (S (n - 1 - S k)) at 1 by lia. cbn [fact]. replace (n - S k)%nat with (S (n - 1 - S k)) by lia. lia. }
  intros k Hk. destruct (Nat.eq_dec k n) as [->|Hne].
  - pose proof (io_n _ _ OK). destruct n as [|n'] eqn:En; [lia|]. cbn [product]. unfold branches at 1. rewrite En, Nat.ltb_irrefl.
    pose proof (H n' ltac:(lia)). pose proof (lt_O_fact (S n' - 1 - n')). nia.
  - pose proof (H k ltac:(lia)). pose proof (lt_O_fact (n - 1 - k)). nia.
Qed.
Lemma tw_layers : no_layer_exceeds tw_state P tw_nv (fact (n - 1)).
Proof. apply (count_wide tw_state P tw_nv branches); [exact tw_narrow|exact tw_product]. Qed.
Lemma tw_reached_admissible : admissible_reached tw_state P tw_nv.
Proof.
  intros k s ds c Hk (ds0 & c0 & H) Hc. destruct (estimate_reached debug I M OK k s ds0 c0 H Hk) as (e & He & Hb).
  change (pb_estimate P s) with (or_else 0 (tw_estimate debug I s)). rewrite He. exact (Hb ds c Hc).
Qed.

Lemma optimum_tour o sol : triangle I ->
  match o with
  | Some v => optimum tw_state P tw_nv v /\ exists l, sol = Some l /\ reported_solution tw_state P tw_nv l v
  | None => infeasible tw_state P tw_nv /\ sol = None
  end -> best_tour I o sol.
Proof.
  intros Ht. destruct o as [v|]; cbn [best_tour].
  - intros ((_ & Hb) & l & -> & Hr). destruct (reported_tour debug I M l v OK Hr) as (t & T & H4 & H5 & H6). exists l, t, T. repeat split; auto; try apply H4.
    intros t' T' H'. pose proof (Hb _ _ (tours_are_solutions debug I M OK t' T' Ht H')). lia.
  - intros (Hn & _) t T H. exact (Hn _ _ (tours_are_solutions debug I M OK t T Ht H)).
Qed.
Lemma tw_decided factor ct : decided_once tw_state (tw_cfg debug I factor ct) tw_nv.
Proof. intros k k' _ _ H. exact H. Qed.

Lemma wider factor : no_layer_exceeds tw_state P tw_nv (n * factor) -> forall s, no_layer_exceeds tw_state P tw_nv (tw_width I factor s).
Proof. intros H s. apply (wide_mono _ _ _ (n * factor)%nat); [unfold tw_width; nia|exact H]. Qed.
Lemma par_best_tour factor ct m0 m st : triangle I -> (1 <= factor)%nat -> no_layer_exceeds tw_state P tw_nv (n * factor) -> (1 <= m <= m0)%nat ->
  reachable tw_state tw_eqb (tw_cfg debug I factor ct) m0 m st -> proved _ st -> best_tour I (best_value_of _ st) (best_solution_of _ st).
Proof.
  intros Ht Hf Hw Hm Hr Hp. apply optimum_tour; [exact Ht|].
  destruct (par_wide tw_state tw_eqb (tw_cfg debug I factor ct) (tw_layer I M) tw_nv ((Z.of_nat n + 1) * M) m0 m st (tw_cfg_solver debug I M factor ct OK Hf) tw_reached_admissible (fun k s _ => wider factor Hw s) (tw_decided factor ct) Hm Hr Hp) as (_ & H).
  destruct (best_value_of _ st); [|exact H]. destruct H as (H1 & _ & H2). auto.
Qed.
Lemma bar_best_tour factor ct m0 m st : triangle I -> (1 <= factor)%nat -> no_layer_exceeds tw_state P tw_nv (n * factor) -> (1 <= m <= m0)%nat ->
  breachable tw_state tw_eqb (tw_cfg debug I factor ct) m0 m st -> bproved _ st -> best_tour I (bbest_value _ st) (bbest_solution _ st).
Proof.
  intros Ht Hf Hw Hm Hr Hp. apply optimum_tour; [exact Ht|].
  destruct (bar_wide tw_state tw_eqb (tw_cfg debug I factor ct) (tw_layer I M) tw_nv ((Z.of_nat n + 1) * M) m0 m st (tw_cfg_solver debug I M factor ct OK Hf) tw_reached_admissible (wider factor Hw _) Hm Hr Hp) as (_ & H).
  destruct (bbest_value _ st); [|exact H]. destruct H as (H1 & _ & H2). auto.
Qed.
End Tours.
