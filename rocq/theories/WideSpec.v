(** When the maximum width plays no role: the layers of the problem itself, without any diagram. *)
From Verif Require Import Spec Dd.
Open Scope Z_scope.

Section Spec.
Variable S : Type.
Variable P : problem S.
Variable nv : nat -> nat.

(** Some decisions lead from the initial state to [s] in layer [k]. *)
Definition reached (k : nat) (s : S) : Prop := exists ds c, run S P nv 0 (pb_init P) ds k s c.

(** No layer has more than [w] states. *)
Definition no_layer_exceeds (w : nat) : Prop := forall k, exists l, (length l <= w)%nat /\ forall s, reached k s -> In s l.

(** The maximum width chosen at any reached state is no smaller than any layer. *)
Definition wide_enough (width : S -> nat) : Prop := forall k s, reached k s -> no_layer_exceeds (width s).

(** The estimate of a reached state is no lower than any of its completions. States made by merging do not matter. *)
Definition admissible_reached : Prop :=
  forall k s ds c, (k < pb_nb_vars P)%nat -> reached k s -> completion S P nv k s ds c -> c <= pb_estimate P s.
End Spec.

(** The product of the first [k] numbers. *)
Fixpoint product (f : nat -> nat) (k : nat) : nat := match k with O => 1%nat | Datatypes.S k' => (f k' * product f k')%nat end.
