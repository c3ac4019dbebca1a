(** Executions of [solve_timeout], and what a report should say. *)
From Verif Require Export Report TextSpec F32Spec Spec DdSpec ParSpec BarSpec.
Open Scope string_scope.
Open Scope Z_scope.

(** A thread panics in an execution with [n] threads: the program prints a message and no line of results. (With one thread it then ends. With
    several it ends only if they all panic, see C64; the theorems that exclude a panic exclude that too.) *)
Definition a_thread_panics {S : Type} (eqb : S -> S -> bool) (cfg : config S) (n : nat) (sv : solver_type) : Prop :=
  match sv with
  | ParallelS => initial cfg n n = None \/
      exists st orc intr i, reachable S eqb cfg n n st /\ library_ok S orc /\ thread_step eqb cfg orc intr i st = Panic
  | BarrierS => binitial cfg n n = None \/
      exists st orc intr i, breachable S eqb cfg n n st /\ library_ok S orc /\ bthread_step eqb cfg orc intr i st = BPanic
  end.

(** [solve_timeout] may end with [out]: an execution of [maximize_with_interrupt] with that many threads, in which the closure that
    reads the clock answered no for a while and then perhaps yes (the solvers never ask again after a yes), came to its end, and
    [out] is what follows: [None] for a panic, or what is printed and what is returned. It may also panic in the middle. *)
Inductive solve_timeout_ends {S : Type} (eqb : S -> S -> bool) (cfg : config S) (debug : bool) (name : string) (threads : option nat) (cpus : nat) :
  solver_type -> option (report * Z) -> Prop :=
| ends_parallel st : reachable S eqb cfg (thread_count threads cpus) (thread_count threads cpus) st -> all_done cfg st ->
    solve_timeout_ends eqb cfg debug name threads cpus ParallelS (parallel_conclusion cfg debug name st)
| ends_barrier st : breachable S eqb cfg (thread_count threads cpus) (thread_count threads cpus) st -> ball_done cfg st ->
    solve_timeout_ends eqb cfg debug name threads cpus BarrierS (barrier_conclusion cfg debug name st)
| ends_panic sv : a_thread_panics eqb cfg (thread_count threads cpus) sv -> solve_timeout_ends eqb cfg debug name threads cpus sv None.

(** The report says that the optimum is [v]: three columns are the number [v], and the gap is zero ([NaN] when [v] is 0). *)
Definition says_optimum (r : report) (v : Z) : Prop :=
  rp_status r = "Proved" /\ integer (rp_best r) v /\ integer (rp_lb r) v /\ integer (rp_ub r) v /\
  f32_value (rp_gap r) = if v =? 0 then None else Some 0%Q.
(** The report says that there is no solution: both bounds are [isize::MIN], and the gap is zero. *)
Definition says_infeasible (r : report) : Prop :=
  rp_status r = "Proved" /\ rp_best r = "not found" /\ integer (rp_lb r) IMIN /\ integer (rp_ub r) IMIN /\ f32_value (rp_gap r) = Some 0%Q.
(** The report of an interrupted search: the column of the best value is "not found", or the value of a solution, and then the lower
    bound is that value; the upper bound is the number returned (which is an [isize]). *)
Definition says_timeout (S : Type) (P : problem S) (nv : nat -> nat) (r : report) (u : Z) : Prop :=
  rp_status r = "Timeout" /\ (in_isize u -> integer (rp_ub r) u) /\
  ((rp_best r = "not found" /\ integer (rp_lb r) IMIN) \/
   (exists v l, integer (rp_best r) v /\ integer (rp_lb r) v /\ reported_solution S P nv l v)).
(** The report and the returned number are right: those of the optimum, or [isize::MIN] when there is no solution. *)
Definition right_report (S : Type) (P : problem S) (nv : nat -> nat) (r : report) (u : Z) : Prop :=
  (optimum S P nv u /\ says_optimum r u) \/ (infeasible S P nv /\ u = IMIN /\ says_infeasible r).

(** What [solve_timeout] ends with: it panics at most in a debug build, and then there is no solution or the time was up; otherwise the
    report is right or says that the time was up. *)
Definition good_end {S : Type} (eqb : S -> S -> bool) (cfg : config S) (nv : nat -> nat) (debug : bool) (name : string) (threads : option nat) (cpus : nat)
  (sv : solver_type) (out : option (report * Z)) : Prop :=
  match out with
  | Some (r, u) => rp_name r = name /\ rp_solver r = show_solver sv /\ (right_report S (cf_pb cfg) nv r u \/ says_timeout S (cf_pb cfg) nv r u)
  | None => debug = true /\
      (infeasible S (cf_pb cfg) nv \/ exists r u, solve_timeout_ends eqb cfg false name threads cpus sv (Some (r, u)) /\ rp_status r = "Timeout")
  end.

(** Every text is at most as long as the column that the header reserves for it. *)
Definition fits (r : report) (time ram g : string) : Prop :=
  (String.length (rp_name r) <= 30 /\ String.length (rp_solver r) <= 10 /\ String.length (rp_status r) <= 15 /\ String.length time <= 8 /\
   String.length ram <= 8 /\ String.length (rp_best r) <= 15 /\ String.length (rp_lb r) <= 15 /\ String.length (rp_ub r) <= 15 /\
   String.length g <= 5 /\ String.length (rp_explored r) <= 15 /\ String.length (rp_explored_dd r) <= 15)%nat.

(** What someone reads in a line: the parts between vertical bars, without the spaces around them. *)
Fixpoint parts (s : string) : list string :=
  match s with
  | EmptyString => [""]
  | String c s' =>
      if Ascii.eqb c "|" then "" :: parts s' else match parts s' with h :: t => String c h :: t | [] => [] end
  end.
Fixpoint no_space_before (s : string) : string :=
  match s with String c s' => if Ascii.eqb c " " then no_space_before s' else s | EmptyString => EmptyString end.
Fixpoint no_space_after (s : string) : string :=
  match s with
  | EmptyString => EmptyString
  | String c s' => match no_space_after s' with EmptyString => if Ascii.eqb c " " then EmptyString else String c EmptyString | r => String c r end
  end.
Definition cells (line : string) : list string := map (fun s => no_space_after (no_space_before s)) (parts line).
(** A text without vertical bars, and without spaces around it. *)
Definition plain (s : string) : Prop := all (fun c => c <> "|"%char) s /\ no_space_before s = s /\ no_space_after s = s.
