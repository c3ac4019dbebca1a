(** Model of [solve_timeout], which the three examples call: src/xputils.rs:66-185. Not modelled: the texts of the duration,
    of the memory in use and of the gap as an [f32] (they are given), and the clock, of which only the answers of the closure
    [start.elapsed().gt(&to)] matter (see ReportSpec.v). *)
From Verif Require Export Names Text ParSolver BarSolver.
Open Scope string_scope.
Open Scope Z_scope.

(** [Display] for integers. The digits of [n], in front of [s]; [fuel] bounds their number. src/xputils.rs:112-125. *)
Definition digit_char (d : Z) : ascii := ascii_of_N (Z.to_N (48 + d)).
(** Used for src/xputils.rs:105, 112-125, 151-164. *)
Fixpoint show_digits (fuel : nat) (n : Z) (s : string) : string :=
  let s' := String (digit_char (n mod 10)) s in
  if n <? 10 then s' else match fuel with O => s' | S f => show_digits f (n / 10) s' end.
(** [isize::to_string] (src/xputils.rs:105, 144) and [{}] on an [isize] (lines 120-121, 159-160): 20 digits are enough. *)
Definition show_isize (z : Z) : string := if z <? 0 then String "-" (show_digits 20 (- z) "") else show_digits 20 z "".
(** [{}] on a [usize] (lines 123-124, 162-163). src/xputils.rs:123-124, 162-163. *)
Definition show_usize (n : nat) : string := show_digits 20 (Z.of_nat n) "".

(** [{:>w}] on a text or on an integer. src/xputils.rs:112-125, 151-164. *)
Fixpoint spaces (n : nat) : string := match n with O => "" | S n' => String " " (spaces n') end.
(** src/xputils.rs:112-125, 151-164. *)
Definition right_aligned (w : nat) (s : string) : string := spaces (w - String.length s) ++ s.

(** src/prelude.rs:83-90 [Display for ResolutionStatus]. *)
Definition show_status (interrupted : bool) : string := if interrupted then "Timeout" else "Proved".

(** src/xputils.rs:171-178 [gap] with the overflow checks of a debug build: [abs] panics on [isize::MIN]. (Once both absolute
    values are known the subtraction cannot overflow.) *)
Definition gap_checked (debug : bool) (lb ub : Z) : option spec_float :=
  if debug && ((ub =? IMIN) || (lb =? IMIN)) then None else Some (gap lb ub).

(** The values printed: src/xputils.rs:112-125, 151-164. *)
Record report := mk_report {
  rp_name : string; rp_solver : string; rp_status : string; rp_best : string; rp_lb : string; rp_ub : string; rp_gap : spec_float;
  rp_explored : string; rp_explored_dd : string }.

(** src/xputils.rs:103-127 and 142-166: what is printed and what is returned, from what the solver answers. *)
Definition conclude (debug : bool) (name : string) (sv : solver_type) (interrupted : bool) (best : option Z) (lb ub : Z) (explored explored_dd : nat) :
  option (report * Z) :=
  let best_value := match best with Some v => show_isize v | None => "not found" end in
  do g <- gap_checked debug lb ub;
  Some (mk_report name (show_solver sv) (show_status interrupted) best_value (show_isize lb) (show_isize ub) g (show_usize explored) (show_usize explored_dd), ub).

(** The line printed (src/xputils.rs:112-125, 151-164): the solver type and the status ignore their width, because their [Display] writes
    with [write!]. [time], [ram] and [g] are the texts that are not modelled. *)
Definition columns (l : list string) : string := match l with [] => "" | x :: t => fold_left (fun a b => a ++ " | " ++ b) t x end.
(** src/xputils.rs:112-125, 151-164. *)
Definition report_line (r : report) (time ram g : string) : string :=
  columns [right_aligned 30 (rp_name r); rp_solver r; rp_status r; right_aligned 8 time; right_aligned 8 ram; right_aligned 15 (rp_best r);
        right_aligned 15 (rp_lb r); right_aligned 15 (rp_ub r); right_aligned 5 g; right_aligned 15 (rp_explored r); right_aligned 15 (rp_explored_dd r)].
(** src/xputils.rs:180-185 [resolution_header]: [{:>5.4}] also truncates a text to 4 characters. *)
Definition header_line : string :=
  columns [right_aligned 30 "NAME"; right_aligned 10 "SOLVER"; right_aligned 15 "STATUS"; right_aligned 8 "DURATION"; right_aligned 8 "RAM_(MB)"; right_aligned 15 "BEST-VAL";
        right_aligned 15 "LB"; right_aligned 15 "UB"; right_aligned 5 "GAP"; right_aligned 15 "NODES B&B"; right_aligned 15 "NODES DD"].

(** The end of [solve_timeout] on each solver: src/xputils.rs:90-128 and 129-167. *)
Definition parallel_conclusion {S} (cfg : config S) (debug : bool) (name : string) (st : state S cfg) : option (report * Z) :=
  conclude debug name ParallelS (c_interrupted (s_crit st)) (best_value_of cfg st) (lower_bound_of cfg st) (upper_bound_of cfg st)
    (c_explored (s_crit st)) (c_explored_dd (s_crit st)).
(** src/xputils.rs:129-167. *)
Definition barrier_conclusion {S} (cfg : config S) (debug : bool) (name : string) (st : bstate S cfg) : option (report * Z) :=
  conclude debug name BarrierS (c_interrupted (k_c (q_crit st))) (bbest_value cfg st) (blower_bound cfg st) (bupper_bound cfg st)
    (c_explored (k_c (q_crit st))) (c_explored_dd (k_c (q_crit st))).

(** [threads.unwrap_or_else(num_cpus::get)]: src/xputils.rs:98, 137. *)
Definition thread_count (threads : option nat) (cpus : nat) : nat := match threads with Some n => n | None => cpus end.
