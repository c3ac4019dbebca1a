(** From an SRFLP file to a best layout. Nothing here models code of /repo. *)
From Verif Require Import Base Text TextSpec Srflp SrflpSpec SrflpFlows SrflpProofs ParSpec BarSpec SrflpFile SrflpFileSpec SrflpFileProofs.
From Coq Require Import Lia ZArith List.
Import ListNotations.
Open Scope string_scope.
Open Scope Z_scope.

Lemma sr_content_words lines c : sr_content lines c -> ~ In [] c.
Proof. induction 1 as [|s l c _ _ IH|s a ts l c _ _ _ IH]; [exact (fun H => H)|exact IH|]. intros [H|H]; [discriminate H|exact (IH H)]. Qed.
Lemma sr_says_one lines n lens a : sr_says lines n lens a -> (1 <= n)%nat.
Proof.
  intros (_ & _ & h & ex & Ls & D & rest & Hc & _ & LL & _). apply sr_content_words in Hc. destruct Ls; [|cbn in LL; lia]. exfalso. apply Hc. right. left. reflexivity.
Qed.
(** Small enough numbers make a sensible instance. *)
Lemma sr_file_ok : forall debug lines n lens a, sr_says lines n lens a -> forall F L, 1 <= F -> 1 <= L ->
  (forall i, (i < n)%nat -> 1 <= nth i lens 0 <= L) -> (forall i j, (i < n)%nat -> (j < n)%nat -> 0 <= entry a i j <= F) ->
  (Z.of_nat n + 2) * (Z.of_nat n * Z.of_nat n * (2 * F) * L) <= IMAX ->
  exists I, sr_read debug lines = Some I /\ sr_means n lens a I /\ sr_ok I (2 * F) L.
Proof.
  intros debug lines n lens a Hs F L HF HL Hlen Hfl Hr. pose proof (sr_says_one _ _ _ _ Hs) as Hn. change IMAX with (2 ^ 63 - 1) in Hr.
  assert (1 <= Z.of_nat n) as Hn' by lia. set (N := Z.of_nat n) in *.
  assert (1 <= N * N) as HNN by nia.
  assert (N <= N * N) as HN1 by nia.
  assert (2 * F <= N * N * (2 * F)) as HN2 by nia.
  assert (N * N * (2 * F) <= N * N * (2 * F) * L) as HN3 by nia.
  assert (L <= N * N * (2 * F) * L) as HN4 by nia.
  assert (N * N <= N * N * (2 * F)) as HN5 by nia.
  assert (N * N * (2 * F) * L <= (N + 2) * (N * N * (2 * F) * L)) as HN6 by nia.
  assert (sr_small n lens a) as Hsm.
  { unfold sr_small, in_isize. change IMAX with (2 ^ 63 - 1). change IMIN with (- 2 ^ 63). fold N. split; [lia|]. split; [intros i Hi; specialize (Hlen i Hi); lia|]. intros i j Hi Hj. pose proof (Hfl i j Hi Hj). pose proof (Hfl j i Hj Hi).
    split; [lia|]. unfold total_flow. destruct (entry a i j =? entry a j i); lia. }
  destruct (sr_file_read debug lines n lens a Hs Hsm) as (I & E & HI). exists I. split; [exact E|]. split; [exact HI|]. destruct HI as (I1 & I2 & I3 & I4).
  constructor; rewrite ?I1; fold N; try lia.
  - rewrite I2. apply Hs.
  - exact I3.
  - intros i Hi. unfold len. rewrite I2. apply Hlen, Hi.
  - intros i j Hi Hj. change (flow I i j) with (entry (sr_flow I) i j). rewrite I4 by assumption. pose proof (Hfl i j Hi Hj). pose proof (Hfl j i Hj Hi). unfold total_flow.
      destruct (Nat.eqb i j); [lia|]. destruct (entry a i j =? entry a j i); lia.
  - intros i j Hi Hj. change (flow I i j) with (entry (sr_flow I) i j). change (flow I j i) with (entry (sr_flow I) j i). rewrite !I4 by assumption. rewrite (Nat.eqb_sym j i).
      destruct (Nat.eqb_spec i j) as [->|_]; [reflexivity|apply total_sym].
  - change IMAX with (2 ^ 63 - 1). lia.
Qed.
Theorem sr_file_best : forall debug lines n lens a, sr_says lines n lens a -> forall F L, 1 <= F -> 1 <= L ->
  (forall i, (i < n)%nat -> 1 <= nth i lens 0 <= L) -> (forall i j, (i < n)%nat -> (j < n)%nat -> 0 <= entry a i j <= F) ->
  (Z.of_nat n + 2) * (Z.of_nat n * Z.of_nat n * (2 * F) * L) <= IMAX -> Z.of_nat n * (2 * F) * L < 2 ^ 23 ->
  exists I, sr_read debug lines = Some I /\ sr_means n lens a I /\ forall factor, (1 <= factor)%nat ->
  (forall nt m st, (1 <= m <= nt)%nat -> reachable sr_state sr_eqb (sr_cfg false I factor LastExactLayer) nt m st -> proved _ st ->
    exists v l p, best_value_of _ st = Some v /\ best_solution_of _ st = Some l /\ best_layout I p /\ Permutation l (layout_decisions p) /\
      2 * v = unavoidable2 I - layout_cost2 I p) /\
  (forall nt st, (1 <= nt)%nat -> breachable sr_state sr_eqb (sr_cfg false I factor LastExactLayer) nt 1 st -> bproved _ st ->
    exists v l p, bbest_value _ st = Some v /\ bbest_solution _ st = Some l /\ best_layout I p /\ Permutation l (layout_decisions p) /\
      2 * v = unavoidable2 I - layout_cost2 I p).
Proof.
  intros debug lines n lens a Hs F L HF HL Hlen Hfl Hr Hw. destruct (sr_file_ok debug lines n lens a Hs F L HF HL Hlen Hfl Hr) as (I & E & HI & Hok).
  exists I. split; [exact E|]. split; [exact HI|]. destruct HI as (I1 & _).
  intros factor Hf. split.
  - apply (par_sr I (2 * F) L Hok factor Hf). rewrite I1. exact Hw.
  - apply (bar_sr I (2 * F) L Hok factor Hf). rewrite I1. exact Hw.
Qed.
