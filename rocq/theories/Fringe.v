(** The frontier as the solvers see it. *)
From Verif Require Export NoDup.

(** src/prelude.rs:104-123 trait [Frontier]: a type and its operations; [None] is a panic. *)
Record frontier (S : Type) := mk_fr {
  fr_t : Type;
  fr_new : fr_t;
  fr_push : fr_t -> subproblem S -> option fr_t;
  fr_pop : fr_t -> option (option (subproblem S) * fr_t);
  fr_clear : fr_t -> fr_t;
  fr_empty : fr_t -> bool }.
Arguments mk_fr {S}. Arguments fr_t {S}. Arguments fr_new {S}. Arguments fr_push {S}. Arguments fr_pop {S}.
Arguments fr_clear {S}. Arguments fr_empty {S}.

(** src/frontier/no_dup.rs:51-165 [impl Frontier for NoDupFrontier]. *)
Definition nodup_frontier {S} (eqb : S -> S -> bool) (rank : ranking S) : frontier S :=
  mk_fr (nodup S) nd_new (nd_push eqb rank) (nd_pop eqb rank) nd_clear nd_is_empty.

(** src/frontier/simple.rs:16-34 [impl Frontier for SimpleFrontier]; [choose] stands for the external heap. *)
Definition simple_frontier {S} (rank : ranking S) (choose : (subproblem S -> subproblem S -> comparison) -> list (subproblem S) -> nat)
    : frontier S :=
  mk_fr (list (subproblem S)) si_new (fun f n => Some (si_push f n)) (fun f => Some (si_pop rank choose f)) si_clear
        (fun f => match f with [] => true | _ => false end).
