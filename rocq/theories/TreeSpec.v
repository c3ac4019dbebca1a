(** The number of subproblems of a search in which each subproblem gives at most [M] others, at greater depths. *)
From Verif Require Import SizeSpec.
Open Scope nat_scope.

(** The nodes of a complete tree of [r + 1] levels in which each node that is not on the last level has [M] children. *)
Fixpoint tree (M r : nat) : nat := match r with O => 1 | S k => 1 + M * tree M k end.

(** How many nodes a relaxed diagram of width [w] over [r] variables may have (C67): those below the expanded ones, the root and the merged ones. *)
Definition most_nodes (w D r : nat) : nat := 1 + most_relaxed w D r * D + (r - 2).
