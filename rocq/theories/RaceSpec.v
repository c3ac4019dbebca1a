(** Specification: executions of the solver with thresholds in which the threads do not disturb each other. *)
From Verif Require Import Spec Dd DdSpec MddBarrier BarSpec MddBarrierSpec.
Open Scope Z_scope.

Section Spec.
Variable S : Type.
Variable eqb : S -> S -> bool.
Variable cfg : config S.

(** The thread has begun to process its subproblem, and is not done with its diagrams. *)
Definition compiling (t : bthread S) : Prop :=
  match u_pc t with BRestrict _ _ | BRelax _ _ | BRelaxing _ _ _ => True | _ => False end.
(** At most one thread is. *)
Definition apart (st : bstate S cfg) : Prop :=
  forall i j t u, nth_error (q_threads st) i = Some t -> nth_error (q_threads st) j = Some u -> compiling t -> compiling u -> i = j.
(** No threshold becomes weaker. *)
Definition steady (st st' : bstate S cfg) : Prop :=
  forall k s i j, threshold_of S eqb cfg st k s = Some i -> threshold_of S eqb cfg st' k s = Some j -> stronger i j.

(** [calm n m st]: [st] occurs in an execution of [custom(.., n).with_nb_threads(m)] in which subproblems are processed one at a
    time (although several threads may have taken one) and no threshold ever becomes weaker. *)
Inductive calm (n m : nat) : bstate S cfg -> Prop :=
| calm_init st : binitial cfg n m = Some st -> calm n m st
| calm_step st st' : calm n m st -> bstep S eqb cfg st st' -> steady st st' -> apart st' -> calm n m st'.
End Spec.
