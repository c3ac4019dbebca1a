(** What the three programs should print. Nothing here models code of /repo. *)
From Verif Require Export Program PspSpec SrflpSpec TsptwSpec PspFileSpec SrflpFileSpec TsptwFileSpec.
Open Scope string_scope.
Open Scope Z_scope.

(** The options: a width that is not zero and some threads. *)
Definition usable (o : options) (cpus : nat) : Prop := (1 <= op_factor o)%nat /\ (1 <= thread_count (op_threads o) cpus)%nat.
(** Moreover last exact layers and, with the barrier, one thread. *)
Definition careful (o : options) (cpus : nat) : Prop :=
  usable o cpus /\ op_cutset o = LastExactLayer /\ (op_solver o = BarrierS -> op_threads o = Some 1%nat).

(** The line names the file and the solver. *)
Definition signed (r : report) (name : string) (o : options) : Prop := rp_name r = name /\ rp_solver r = show_solver (op_solver o).
(** The column of the best value says "not found", or a value that [value] accepts. *)
Definition found (r : report) (value : Z -> Prop) : Prop := rp_best r = "not found" \/ exists v, integer (rp_best r) v /\ value v.
(** The line says that the time was up, or that [v] is the optimum where [best v], or that there is no solution where that is so. *)
Definition right_line (r : report) (value best : Z -> Prop) (none : Prop) : Prop :=
  (rp_status r = "Timeout" /\ found r value) \/ (exists v, best v /\ says_optimum r v) \/ (none /\ says_infeasible r).

(** Values of plans, layouts and tours: the solvers maximise, and costs and times count negatively. The unavoidable part of the cost of a
    layout is left out. *)
Definition plan_worth (D : psp_data) (v : Z) : Prop := exists p, feasible_plan D p /\ v = - plan_cost D p.
Definition best_plan_worth (D : psp_data) (v : Z) : Prop := exists p, cheapest D p /\ v = - plan_cost D p.
Definition no_plan (D : psp_data) : Prop := forall p, ~ feasible_plan D p.
Definition layout_worth (I : sr_inst) (v : Z) : Prop := exists p, layout I p /\ 2 * v = unavoidable2 I - layout_cost2 I p.
Definition best_layout_worth (I : sr_inst) (v : Z) : Prop := exists p, best_layout I p /\ 2 * v = unavoidable2 I - layout_cost2 I p.
Definition tour_worth (I : tw_inst) (v : Z) : Prop := exists l T, feasible_tour I l T /\ v = - T.
Definition best_tour_worth (I : tw_inst) (v : Z) : Prop := tour_worth I v /\ forall w, tour_worth I w -> w <= v.
Definition no_tour (I : tw_inst) : Prop := forall l T, ~ feasible_tour I l T.

(** A TSPTW file that is read exactly (C49). *)
Definition plain_times (I : tw_inst) : Prop :=
  2 * Z.of_nat (tw_n I) + 1 <= 65535 /\
  forall p, in_inst I p -> exists j s, 0 <= j <= 26843 /\ 0 <= s <= 10 /\ time_at I p = 625 * j * 2 ^ s.
(** An SRFLP file whose numbers are small enough (C55): at most [F] for the flows and [L] for the lengths. *)
Definition small_file (n : nat) (lens : list Z) (a : matrix Z) (F L : Z) : Prop :=
  1 <= F /\ 1 <= L /\ (forall i, (i < n)%nat -> 1 <= nth i lens 0 <= L) /\ (forall i j, (i < n)%nat -> (j < n)%nat -> 0 <= entry a i j <= F) /\
  (Z.of_nat n + 2) * (Z.of_nat n * Z.of_nat n * (2 * F) * L) <= IMAX /\ Z.of_nat n * (2 * F) * L < 2 ^ 23.
