(** Executions in which the steps and the diagrams compiled are counted, and executions in which [interrupt()] always answers yes. *)
From Verif Require Export ParSpec BarSpec.
Open Scope Z_scope.

Section Parallel.
Variable S : Type.
Variable eqb : S -> S -> bool.
Variable cfg : config S.

(** The thread is processing a subproblem or about to report that it finished (a test for [busy]). *)
Definition in_charge (t : thread S) : bool :=
  match t_pc t with PStart _ | PRestricted _ | PRelax _ _ | PRelaxed _ _ | PNotify _ => true | PIdle | PWait | PDone => false end.
(** The thread is about to compile a diagram (src/solver/parallel.rs:229, 240), unless line 212 finds that the bound is too low. *)
Definition compiles (st : state S cfg) (i : nat) : bool :=
  match nth_error (s_threads st) i with
  | Some t => match t_pc t with PStart _ | PRelax _ _ => true | _ => false end
  | None => false
  end.
(** [pexec k d st st']: from [st] to [st'] in [k] critical sections, [d] of which may compile a diagram. *)
Inductive pexec : nat -> nat -> state S cfg -> state S cfg -> Prop :=
| pexec_refl st : pexec 0 0 st st
| pexec_step k d st st' st'' orc intr i : pexec k d st st' -> library_ok S orc -> thread_step eqb cfg orc intr i st' = Next st'' ->
    pexec (Datatypes.S k) ((if compiles st' i then 1 else 0) + d) st st''
| pexec_wakes k d st st' st'' : pexec k d st st' -> spurious S cfg st' st'' -> pexec k d st st''.

(** [interrupt()] answers yes whenever it is asked. *)
Inductive refused (n m : nat) : state S cfg -> Prop :=
| refused_init st : initial cfg n m = Some st -> refused n m st
| refused_step st st' orc i : refused n m st -> library_ok S orc -> thread_step eqb cfg orc true i st = Next st' -> refused n m st'
| refused_wakes st st' : refused n m st -> spurious S cfg st st' -> refused n m st'.
End Parallel.

Section Barrier.
Variable S : Type.
Variable eqb : S -> S -> bool.
Variable cfg : config S.

Definition bin_charge (t : bthread S) : bool :=
  match u_pc t with
  | BStart _ | BRestrict _ _ | BRelax _ _ | BRelaxing _ _ _ | BNotify _ _ => true
  | BIdle | BWait | BClean | BTry _ | BInsert _ | BDone => false
  end.
(** The thread is about to start compiling a diagram (src/solver/barrier.rs:248, 259), unless line 231 finds that the bound is too low. *)
Definition bcompiles (st : bstate S cfg) (i : nat) : bool :=
  match nth_error (q_threads st) i with
  | Some t => match u_pc t with BStart _ | BRelax _ _ => true | _ => false end
  | None => false
  end.
(** [qexec d st st']: from [st] to [st'], with [d] steps that may start to compile a diagram. *)
Inductive qexec : nat -> bstate S cfg -> bstate S cfg -> Prop :=
| qexec_refl st : qexec 0 st st
| qexec_step d st st' st'' orc intr i : qexec d st st' -> library_ok S orc -> bthread_step eqb cfg orc intr i st' = BNext st'' ->
    qexec ((if bcompiles st' i then 1 else 0) + d) st st''
| qexec_wakes d st st' st'' : qexec d st st' -> bspurious S cfg st' st'' -> qexec d st st''.

Inductive brefused (n m : nat) : bstate S cfg -> Prop :=
| brefused_init st : binitial cfg n m = Some st -> brefused n m st
| brefused_step st st' orc i : brefused n m st -> library_ok S orc -> bthread_step eqb cfg orc true i st = BNext st' -> brefused n m st'
| brefused_wakes st st' : brefused n m st -> bspurious S cfg st st' -> brefused n m st'.
End Barrier.
