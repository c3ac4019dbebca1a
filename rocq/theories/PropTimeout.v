(** Property theorems C60 and C61: the function [timeout] of src/xputils.rs. *)
From Verif Require Import Base Timeout TimeoutSpec TimeoutProofs TimeoutCases.
From Coq Require Import Lia.
Open Scope nat_scope.

(* ------------------------------------------------------------------ *)
(** C60. What the exit code says, whatever the two functions do and however the threads interleave. The process ends with 0, 1
    or 101. *)
Theorem C60_codes : forall duration action at_exit t0 p c,
  preaches duration action at_exit t0 p -> p_code p = Some c -> c = 0%Z \/ c = 1%Z \/ c = 101%Z.
Proof. exact to_codes. Qed.
Print Assumptions C60_codes.
(** 0: the action has returned, and [at_exit] has not been called. *)
Theorem C60_zero : forall duration action at_exit t0 p,
  preaches duration action at_exit t0 p -> p_code p = Some 0%Z ->
  action_done p /\ (exists k, ends Returns action k) /\ ~ at_exit_called p.
Proof. exact to_zero. Qed.
Print Assumptions C60_zero.
(** 1: the deadline has passed, and [at_exit] has been called and has returned. *)
Theorem C60_one : forall duration action at_exit t0 p,
  preaches duration action at_exit t0 p -> p_code p = Some 1%Z ->
  t0 + duration <= p_clock p /\ at_exit_done p /\ exists k, ends Returns at_exit k.
Proof. exact to_one. Qed.
Print Assumptions C60_one.
(** 101: the action panicked; or [at_exit] did, after the deadline, and the action returned. *)
Theorem C60_panic : forall duration action at_exit t0 p,
  preaches duration action at_exit t0 p -> p_code p = Some 101%Z ->
  (exists k, ends Panics action k) \/ (exists k, ends Panics at_exit k) /\ action_done p /\ t0 + duration <= p_clock p.
Proof. exact to_101. Qed.
Print Assumptions C60_panic.
(** [at_exit] is not called before the deadline, and not if the exit code is 0; once called, it is not called again
    (no step goes back to the beginning of [at_exit], which is [TAtExit 0]). *)
Theorem C60_called : forall duration action at_exit t0 p,
  preaches duration action at_exit t0 p -> at_exit_called p -> t0 + duration <= p_clock p /\ p_code p <> Some 0%Z.
Proof. exact to_called. Qed.
Print Assumptions C60_called.
Theorem C60_once : forall duration action at_exit t0 p p',
  at_exit_called p -> pstep duration action at_exit t0 p p' ->
  at_exit_called p' /\ (p_timer p' = TAtExit 0 -> p_timer p = TAtExit 0).
Proof. exact to_not_again. Qed.
Print Assumptions C60_once.
(** No deadlock: as long as the process has not ended, one of the threads can move. *)
Theorem C60_no_deadlock : forall duration action at_exit t0 p,
  preaches duration action at_exit t0 p -> p_code p = None ->
  main_step action p <> None \/ timer_step duration at_exit t0 p <> None.
Proof. exact to_moves. Qed.
Print Assumptions C60_no_deadlock.
(** In every fair execution the process ends, if [at_exit] returns (even if the action does not), or if both functions return or
    panic. There are fair executions. *)
Theorem C60_ends : forall duration action at_exit t0 f k,
  fair_run duration action at_exit t0 f -> ends Returns at_exit k -> exists n c, p_code (f n) = Some c.
Proof. exact (fun d a e t0 f k F => to_ends d a e t0 f F k). Qed.
Print Assumptions C60_ends.
Theorem C60_ends_both : forall duration action at_exit t0 f k r k' r',
  fair_run duration action at_exit t0 f -> ends r at_exit k -> r <> GoesOn -> ends r' action k' -> r' <> GoesOn ->
  exists n c, p_code (f n) = Some c.
Proof. exact (fun d a e t0 f k r k' r' F => to_ends_both d a e t0 f F k r k' r'). Qed.
Print Assumptions C60_ends_both.
Theorem C60_fair : forall duration action at_exit t0, exists f, fair_run duration action at_exit t0 f.
Proof. intros. eexists. apply robin_fair. Qed.
Print Assumptions C60_fair.
(** The four ways to end, for an instance of each. *)
Example C60_case :
  preaches 3 (after 1 Returns) (after 1 Returns) 5 (mk_process 7 MExit TSleep HeldByMain (Some 0%Z)) /\
  preaches 3 (after 9 Returns) (after 1 Returns) 5 (mk_process 8 (MAction 4) TExit HeldByTimer (Some 1%Z)) /\
  preaches 3 (after 1 Panics) (after 1 Returns) 5 (mk_process 6 (MAction 1) TSleep Free (Some 101%Z)) /\
  preaches 1 (after 2 Returns) (after 0 Panics) 5 (mk_process 6 MLock TDead Poisoned (Some 101%Z)) /\
  ends Returns (after 9 Returns) 9 /\ ends Panics (after 0 Panics) 0.
Proof.
  exact (conj (prun_reaches _ _ _ _ _ _ zero_case) (conj (prun_reaches _ _ _ _ _ _ one_case) (conj (prun_reaches _ _ _ _ _ _ panic_case)
    (conj (prun_reaches _ _ _ _ _ _ poison_case) (conj (after_ends 9 Returns) (after_ends 0 Panics)))))).
Qed.

(* ------------------------------------------------------------------ *)
(** C61 is false. (1) An action that returned before the deadline, and an exit with 1 nevertheless: the main thread still has to
    take the lock. *)
Theorem C61_in_time_refuted : exists duration action at_exit t0 p p',
  preaches duration action at_exit t0 p /\ action_done p /\ p_clock p < t0 + duration /\ pgoes duration action at_exit t0 p p' /\ p_code p' = Some 1%Z.
Proof.
  exists 3, (after 0 Returns), (after 0 Returns), 5, (mk_process 5 MLock TSleep Free None), (mk_process 8 MLock TExit HeldByTimer (Some 1%Z)).
  split; [exact (prun_reaches _ _ _ _ _ _ race_before)|]. split; [left; reflexivity|]. split; [cbn; lia|].
  split; [exact (prun_goes _ _ _ _ _ _ _ _ (pg_refl _ _ _ _ _) race_after)|reflexivity].
Qed.
Print Assumptions C61_in_time_refuted.
(** (2) The action returns and the process never ends, because [at_exit] does not. *)
Theorem C61_hang_refuted : exists duration action at_exit t0 f k,
  fair_run duration action at_exit t0 f /\ ends Returns action k /\ forall n, p_code (f n) = None.
Proof.
  exists 0, (after 5 Returns), forever, 0, (robin 0 (after 5 Returns) forever 0), 5.
  exact (conj (robin_fair _ _ _ _) (conj (after_ends 5 Returns) hang_run)).
Qed.
Print Assumptions C61_hang_refuted.
(** (3) The deadline passes and the process never ends, because [at_exit] panics and the action goes on. *)
Theorem C61_deadline_refuted : exists duration action at_exit t0 k,
  ends Panics at_exit k /\ forall p, preaches duration action at_exit t0 p -> p_code p = None.
Proof.
  exists 3, forever, (after 2 Panics), 0, 2. split; [exact (after_ends 2 Panics)|].
  intros p. exact (undead 3 forever (after 2 Panics) 0 2 p (fun _ => eq_refl) (after_ends 2 Panics)).
Qed.
Print Assumptions C61_deadline_refuted.
(** What holds (missing: the time between the return of the action and the moment when the main thread has the lock): once the main
    thread has the lock, the process can only end with 0, whenever the deadline passes, and it does end. *)
Theorem C61_locked_partial : forall duration action at_exit t0 p p',
  preaches duration action at_exit t0 p -> p_main p = MExit -> pgoes duration action at_exit t0 p p' ->
  p_code p' = None \/ p_code p' = Some 0%Z.
Proof. intros duration action at_exit t0 p p' H1 H2 H3. exact (proj2 (to_locked duration action at_exit t0 p p' H1 H2 H3)). Qed.
Print Assumptions C61_locked_partial.
Theorem C61_locked_ends_partial : forall duration action at_exit t0 f n,
  fair_run duration action at_exit t0 f -> p_main (f n) = MExit -> exists m c, p_code (f m) = Some c.
Proof. exact (fun duration action at_exit t0 f n F => exits_main duration action at_exit t0 f F n). Qed.
Print Assumptions C61_locked_ends_partial.
Example C61_case : preaches 3 (after 1 Returns) forever 5 (mk_process 7 MExit TSleep HeldByMain None) /\
  pgoes 3 (after 1 Returns) forever 5 (mk_process 7 MExit TSleep HeldByMain None) (mk_process 9 MExit TLock HeldByMain (Some 0%Z)).
Proof.
  split; [apply (prun_reaches _ _ _ _ [Clock; M; Clock; M; M])|eapply (prun_goes _ _ _ _ [Clock; Clock; T; M]); [apply pg_refl|]]; reflexivity.
Qed.
