(** Several calls on the same solver. *)
From Verif Require Export Again ParSpec BarSpec.
Open Scope Z_scope.

Section Spec.
Variable S : Type.
Variable eqb : S -> S -> bool.
Variable cfg : config S.

(** [later n st st']: from [st], the threads of the present call may go on, and once they are all done there may be another call, on
    between 1 and [n] threads; [st'] is any state on the way. *)
Inductive later (n : nat) (st : state S cfg) : state S cfg -> Prop :=
| later_refl : later n st st
| later_step a b : later n st a -> step S eqb cfg a b \/ spurious S cfg a b -> later n st b
| later_call a m b : later n st a -> all_done cfg a -> (1 <= m <= n)%nat -> again cfg m a = Some b -> later n st b.
(** A state of any number of calls on a solver made with [n] threads. *)
Definition session (n : nat) (st : state S cfg) : Prop :=
  exists m st0, (1 <= m <= n)%nat /\ initial cfg n m = Some st0 /\ later n st0 st.

(** The present call goes on, and it is one of [maximize], which never interrupts. *)
Inductive maximizes (st : state S cfg) : state S cfg -> Prop :=
| maximizes_refl : maximizes st st
| maximizes_step a b : maximizes st a -> step_no_interrupt S eqb cfg a b \/ spurious S cfg a b -> maximizes st b.

(** The same for the solver with thresholds. *)
Inductive blater (n : nat) (st : bstate S cfg) : bstate S cfg -> Prop :=
| blater_refl : blater n st st
| blater_step a b : blater n st a -> bstep S eqb cfg a b \/ bspurious S cfg a b -> blater n st b
| blater_call a m b : blater n st a -> ball_done cfg a -> (1 <= m <= n)%nat -> bagain cfg m a = Some b -> blater n st b.
Definition bsession (n : nat) (st : bstate S cfg) : Prop :=
  exists m st0, (1 <= m <= n)%nat /\ binitial cfg n m = Some st0 /\ blater n st0 st.
Inductive bmaximizes (st : bstate S cfg) : bstate S cfg -> Prop :=
| bmaximizes_refl : bmaximizes st st
| bmaximizes_step a b : bmaximizes st a -> bstep_no_interrupt S eqb cfg a b \/ bspurious S cfg a b -> bmaximizes st b.
End Spec.
