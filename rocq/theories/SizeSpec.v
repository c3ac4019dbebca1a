(** The size of a diagram: what bounds the work and the memory of one compilation. *)
From Verif Require Import Spec Dd.
Open Scope nat_scope.

Section Size.
Variable S : Type.
Variable P : problem S.
Variable at_depth : nat -> S -> Prop.
Variable nv : nat -> nat.

(** No state offers more than [D] values for the variable decided in its layer. *)
Definition domains_within (D : nat) : Prop :=
  forall k s, k < pb_nb_vars P -> at_depth k s -> length (pb_domain P (nv k) s) <= D.

(** How many nodes may be expanded in [r] layers of a diagram of width [w]: a restricted diagram has at most [w] nodes in each layer;
    in a relaxed one the first layer is the root, the second one is never reduced and each of the next ones has at most [w] nodes. *)
Definition most_restricted (w r : nat) : nat := r * w.
Definition most_relaxed (w D r : nat) : nat := match r with O => 0 | 1 => 1 | Datatypes.S (Datatypes.S u) => 1 + D + u * w end.
End Size.
