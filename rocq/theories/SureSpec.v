(** Executions of [maximize] in which the compilation of some subproblems always panics (for example because a callback of the user panics on
    their state, as [estimate], called on the root of each diagram before anything else: src/mdd/with_all.rs:272, src/mdd/with_barrier.rs:313).
    The steps and the panics are those of CrashSpec.v; a thread that is about to compile such a subproblem can only panic. *)
From Verif Require Export CrashSpec.
Open Scope Z_scope.

Section Parallel.
Variable S : Type.
Variable eqb : S -> S -> bool.
Variable cfg : config S.
Variable fatal : subproblem S -> Prop.

(** Thread [i] is about to compile a diagram from a fatal subproblem. *)
Definition at_fault (st : state S cfg) (i : nat) : Prop := exists t n, nth_error (s_threads st) i = Some t /\ fatal n /\
  (t_pc t = PStart n /\ c_lb (s_crit st) < sp_ub n \/ exists k, t_pc t = PRelax n k).
Inductive fstep : cstate S cfg -> cstate S cfg -> Prop :=
| fstep_moves orc i st st' dead : library_ok S orc -> ~ In i dead -> ~ at_fault st i -> thread_step eqb cfg orc false i st = Next st' ->
    fstep (mk_cs st dead) (mk_cs st' dead)
| fstep_dies i t c t' st dead : ~ In i dead -> nth_error (s_threads st) i = Some t -> dies (s_crit st) i false t c t' ->
    fstep (mk_cs st dead) (mk_cs (mk_st c (put i t' (s_threads st))) (i :: dead)).
Inductive fruns : cstate S cfg -> cstate S cfg -> Prop :=
| fruns_refl x : fruns x x
| fruns_step x y z : fruns x y -> fstep y z \/ cwakes S cfg y z -> fruns x z.
Definition freaches (n m : nat) (x : cstate S cfg) : Prop := exists st, initial cfg n m = Some st /\ fruns (mk_cs st []) x.
End Parallel.

Section Barrier.
Variable S : Type.
Variable eqb : S -> S -> bool.
Variable cfg : config S.
Variable fatal : subproblem S -> Prop.

Definition bat_fault (st : bstate S cfg) (i : nat) : Prop := exists t n, nth_error (q_threads st) i = Some t /\ fatal n /\ in_diagram t n.
Inductive bfstep : bcstate S cfg -> bcstate S cfg -> Prop :=
| bfstep_moves orc i st st' dead : library_ok S orc -> ~ In i dead -> ~ bat_fault st i -> bthread_step eqb cfg orc false i st = BNext st' ->
    bfstep (mk_bcs st dead) (mk_bcs st' dead)
| bfstep_dies i t k T t' st dead : ~ In i dead -> nth_error (q_threads st) i = Some t ->
    bdies eqb (q_crit st) (q_table st) i false (negb (locked cfg st)) t k T t' ->
    bfstep (mk_bcs st dead) (mk_bcs (mk_bst k T (put i t' (q_threads st))) (i :: dead)).
Inductive bfruns : bcstate S cfg -> bcstate S cfg -> Prop :=
| bfruns_refl x : bfruns x x
| bfruns_step x y z : bfruns x y -> bfstep y z \/ bcwakes S cfg y z -> bfruns x z.
Definition bfreaches (n m : nat) (x : bcstate S cfg) : Prop := exists st, binitial cfg n m = Some st /\ bfruns (mk_bcs st []) x.
End Barrier.
