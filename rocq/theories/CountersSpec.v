(** Executions of both solvers with two counts kept from outside: how many subproblems were taken, and how many nodes the diagrams
    say they expanded. Nothing here models code of /repo. *)
From Verif Require Export ParSpec BarSpec.
Open Scope nat_scope.

Section Spec.
Variable S : Type.
Variable eqb : S -> S -> bool.
Variable cfg : config S.

(** Thread [i] goes from one position to another: it takes a subproblem; *)
Definition took (p p' : pc S) : nat := match p, p' with PIdle, PStart _ => 1 | _, _ => 0 end.
(** it compiles a diagram, and has [d] afterwards. *)
Definition expanded (p p' : pc S) (d : dd S) : nat :=
  match p, p' with PStart _, PRestricted _ | PRelax _ _, PRelaxed _ _ => g_explored d | _, _ => 0 end.
(** [counted n m a b st]: an execution of [custom(.., n).with_nb_threads(m)] that leads to [st]; [a] subproblems were taken, and the
    diagrams compiled say that they expanded [b] nodes in all. *)
Inductive counted (n m : nat) : nat -> nat -> state S cfg -> Prop :=
| counted_init st : initial cfg n m = Some st -> counted n m 0 0 st
| counted_step a b st orc intr i st' t t' : counted n m a b st -> library_ok S orc -> thread_step eqb cfg orc intr i st = Next st' ->
    nth_error (s_threads st) i = Some t -> nth_error (s_threads st') i = Some t' ->
    counted n m (a + took (t_pc t) (t_pc t')) (b + expanded (t_pc t) (t_pc t') (t_dd t')) st'
| counted_spurious a b st st' : counted n m a b st -> spurious S cfg st st' -> counted n m a b st'.

(** The same for the solver with thresholds: a diagram is known once its compilation has returned. *)
Definition btook (p p' : bpc S) : nat := match p, p' with BInsert _, BStart _ => 1 | _, _ => 0 end.
Definition bexpanded (p p' : bpc S) : nat :=
  match p, p' with
  | BRestrict _ (Ret d), BRelax _ _ | BRestrict _ (Ret d), BNotify _ _ | BRelaxing _ _ (Ret d), BNotify _ _ => g_explored d
  | _, _ => 0
  end.
Inductive bcounted (n m : nat) : nat -> nat -> bstate S cfg -> Prop :=
| bcounted_init st : binitial cfg n m = Some st -> bcounted n m 0 0 st
| bcounted_step a b st orc intr i st' t t' : bcounted n m a b st -> library_ok S orc -> bthread_step eqb cfg orc intr i st = BNext st' ->
    nth_error (q_threads st) i = Some t -> nth_error (q_threads st') i = Some t' ->
    bcounted n m (a + btook (u_pc t) (u_pc t')) (b + bexpanded (u_pc t) (u_pc t')) st'
| bcounted_spurious a b st st' : bcounted n m a b st -> bspurious S cfg st st' -> bcounted n m a b st'.
End Spec.

(** What a diagram counts: [X] are the nodes that it expanded. All edges leave such nodes; each of them might improve on the lower
    bound, and all the decisions in the domain of some variable were taken from it. *)
Definition expanded_nodes {S} (inp : input S) (d : dd S) (X : list nat) : Prop :=
  NoDup X /\ (forall e, In e (g_edges d) -> In (e_from e) X) /\
  forall i, In i X -> exists n var, get_node d i = Some n /\ (i_lb inp < sat_add (pb_estimate (i_pb inp) (n_state n)) (n_value n))%Z /\
    forall dec, In dec (pb_domain (i_pb inp) var (n_state n)) -> exists e, In e (g_edges d) /\ e_from e = i /\ e_dec e = dec.
