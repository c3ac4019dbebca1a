(** Concrete executions of [timeout]. Nothing here models code of /repo. *)
From Verif Require Import Base Timeout TimeoutSpec TimeoutProofs.
From Coq Require Import Lia PeanoNat.
Open Scope nat_scope.

(** A function that returns, panics, or goes on forever. *)
Definition after (k : nat) (r : progress) : behaviour := fun j => if j <? k then GoesOn else r.
Definition forever : behaviour := fun _ => GoesOn.
Lemma after_ends k r : ends r (after k r) k.
Proof.
  unfold ends, after. rewrite Nat.ltb_irrefl. split; [reflexivity|]. intros j Hj. apply Nat.ltb_lt in Hj. rewrite Hj. reflexivity.
Qed.

(** Who moves. *)
Inductive who := M | T | Clock.
Fixpoint prun (duration : nat) (action at_exit : behaviour) (t0 : nat) (l : list who) (p : process) : option process :=
  match l with
  | [] => Some p
  | w :: l' =>
      do p' <- match w with M => main_step action p | T => timer_step duration at_exit t0 p | Clock => Some (tick p) end;
      prun duration action at_exit t0 l' p'
  end.
Lemma prun_goes duration action at_exit t0 l : forall p q p', pgoes duration action at_exit t0 q p -> prun duration action at_exit t0 l p = Some p' -> pgoes duration action at_exit t0 q p'.
Proof.
  induction l as [|w l IH]; intros p q p' Hq H; cbn [prun] in H; [injection H as <-; exact Hq|].
  destruct w; cbn [obind] in H.
  - destruct (main_step action p) as [p1|] eqn:E; [|discriminate]. eapply IH; [|exact H]. eapply pg_step; [exact Hq|]. apply by_main. exact E.
  - destruct (timer_step duration at_exit t0 p) as [p1|] eqn:E; [|discriminate]. eapply IH; [|exact H]. eapply pg_step; [exact Hq|]. apply by_timer. exact E.
  - eapply IH; [|exact H]. eapply pg_step; [exact Hq|]. apply by_clock.
Qed.
Lemma prun_reaches duration action at_exit t0 l p : prun duration action at_exit t0 l (started t0) = Some p -> preaches duration action at_exit t0 p.
Proof. intros H. eapply goes_reach; [apply pr_start|]. eapply prun_goes; [apply pg_refl|exact H]. Qed.

(** Exit codes 0, 1, 101 (the action panics) and 101 (the function called at the end panics, the action returns later). *)
Lemma zero_case : prun 3 (after 1 Returns) (after 1 Returns) 5 [Clock; M; Clock; M; M; M] (started 5) = Some (mk_process 7 MExit TSleep HeldByMain (Some 0%Z)).
Proof. reflexivity. Qed.
Lemma one_case : prun 3 (after 9 Returns) (after 1 Returns) 5 [Clock; M; Clock; M; Clock; T; T; M; T; T; M; T] (started 5) =
  Some (mk_process 8 (MAction 4) TExit HeldByTimer (Some 1%Z)).
Proof. reflexivity. Qed.
Lemma panic_case : prun 3 (after 1 Panics) (after 1 Returns) 5 [Clock; M; M] (started 5) = Some (mk_process 6 (MAction 1) TSleep Free (Some 101%Z)).
Proof. reflexivity. Qed.
Lemma poison_case : prun 1 (after 2 Returns) (after 0 Panics) 5 [Clock; M; T; T; M; T; M; M] (started 5) = Some (mk_process 6 MLock TDead Poisoned (Some 101%Z)).
Proof. reflexivity. Qed.

(** The action returns at once; the main thread is then left aside until the deadline has passed. *)
Lemma race_before : prun 3 (after 0 Returns) (after 0 Returns) 5 [M] (started 5) = Some (mk_process 5 MLock TSleep Free None).
Proof. reflexivity. Qed.
Lemma race_after : prun 3 (after 0 Returns) (after 0 Returns) 5 [Clock; Clock; Clock; T; T; T; T] (mk_process 5 MLock TSleep Free None) =
  Some (mk_process 8 MLock TExit HeldByTimer (Some 1%Z)).
Proof. reflexivity. Qed.

(** [at_exit] never ends: the main thread waits for the lock forever. *)
Lemma hang_state : robin 0 (after 5 Returns) forever 0 30 = mk_process 14 MLock (TAtExit 8) HeldByTimer None.
Proof. vm_compute. reflexivity. Qed.
Lemma robin_goes duration action at_exit t0 n m : n <= m -> pgoes duration action at_exit t0 (robin duration action at_exit t0 n) (robin duration action at_exit t0 m).
Proof. induction 1; [apply pg_refl|]. eapply pg_step; [exact IHle|apply robin_step]. Qed.
Lemma hang_run n : p_code (robin 0 (after 5 Returns) forever 0 n) = None.
Proof.
  assert (Hlate : forall m, 30 <= m -> p_code (robin 0 (after 5 Returns) forever 0 m) = None).
  { intros m Hm. apply (stuck_at_exit 0 (after 5 Returns) forever 0 (robin 0 (after 5 Returns) forever 0 30) _ 8); try (rewrite hang_state; reflexivity); [intros k; reflexivity|].
    apply robin_goes. exact Hm. }
  destruct (p_code (robin 0 (after 5 Returns) forever 0 n)) as [c|] eqn:E; [|reflexivity]. exfalso.
  assert (H := code_le 0 (after 5 Returns) forever 0 _ (robin_fair 0 (after 5 Returns) forever 0) n (Nat.max 30 n) c ltac:(lia) E). rewrite Hlate in H by lia. discriminate.
Qed.
(** [at_exit] panics and the action never ends: neither does the process. *)
Lemma undead duration action at_exit t0 K p : never_ends action -> ends Panics at_exit K -> preaches duration action at_exit t0 p -> p_code p = None.
Proof.
  intros Ha (HK & HK') H. destruct (p_code p) as [c|] eqn:E; [|reflexivity]. exfalso.
  destruct (to_codes duration action at_exit t0 p c H E) as [->|[->| ->]].
  - destruct (to_zero _ _ _ _ p H E) as (_ & (k & Hk & _) & _). rewrite Ha in Hk. discriminate.
  - destruct (to_one _ _ _ _ p H E) as (_ & _ & k & Hk & Hk'). destruct (Nat.lt_trichotomy k K) as [Hlt|[->|Hlt]]; [rewrite (HK' _ Hlt) in Hk|rewrite HK in Hk|rewrite (Hk' _ Hlt) in HK]; discriminate.
  - destruct (to_101 _ _ _ _ p H E) as [(k & Hk & _)|(_ & Hd & _)]; [rewrite Ha in Hk; discriminate|].
    destruct (reach_inv _ _ _ _ p H) as (H1 & _). destruct Hd as [Hd|Hd]; rewrite Hd in H1; destruct H1 as (k & Hk & _); rewrite Ha in Hk; discriminate.
Qed.
