(** What the solvers rely on about a frontier ([content] lists the subproblems it holds). *)
From Verif Require Import Fringe.
Open Scope Z_scope.

(** The subproblem that replaces [old] when [new], of the same state, is pushed on a frontier without duplicates. *)
Definition merge_sub {S} (old new : subproblem S) : subproblem S :=
  with_ub (if sp_value old <? sp_value new then new else old) (Z.max (sp_ub old) (sp_ub new)).

Record frontier_ok {S} (merging : Prop) (fr : frontier S) (inv : fr_t fr -> Prop) (content : fr_t fr -> list (subproblem S)) : Prop := {
  fo_new : inv (fr_new fr) /\ content (fr_new fr) = [];
  fo_push : forall f n, inv f -> exists f', fr_push fr f n = Some f' /\ inv f' /\
     (Permutation (content f') (n :: content f) \/
      merging /\ exists old l, sp_state old = sp_state n /\ Permutation (content f) (old :: l) /\
        Permutation (content f') (merge_sub old n :: l));
  fo_pop : forall f, inv f -> content f <> [] -> exists p f', fr_pop fr f = Some (Some p, f') /\ inv f' /\
     Permutation (content f) (p :: content f') /\ forall q, In q (content f) -> sp_ub q <= sp_ub p;
  fo_clear : forall f, inv f -> inv (fr_clear fr f) /\ content (fr_clear fr f) = [];
  fo_empty : forall f, inv f -> (fr_empty fr f = true <-> content f = []) }.
