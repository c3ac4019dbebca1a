(** What the TSPTW example is about, stated with the instance only. *)
From Verif Require Export Spec Tsptw.
Open Scope Z_scope.

Section Spec.
Variable I : tw_inst.
Let n := tw_n I.

(** Travel time, and when a node opens and closes. *)
Definition dist (i j : nat) : Z := or_else 0 (mat_get (tw_dist I) i j).
Definition opens (j : nat) : Z := w_earliest (nth j (tw_win I) (mk_window 0 0)).
Definition closes (j : nat) : Z := w_latest (nth j (tw_win I) (mk_window 0 0)).

(** Leaving [i] at time [t] and visiting [l] in turn: the time at which service starts at the last node; [None] when some
    node is reached after it has closed. *)
Fixpoint walk (i : nat) (t : Z) (l : list nat) : option Z :=
  match l with
  | [] => Some t
  | j :: l' => if t + dist i j <=? closes j then walk j (Z.max (t + dist i j) (opens j)) l' else None
  end.

(** A tour visits each customer once; it starts and ends at the depot, node 0. *)
Definition feasible_tour (l : list nat) (makespan : Z) : Prop :=
  Permutation l (seq 1 (n - 1)) /\ walk 0 0 (l ++ [0%nat]) = Some makespan.

(** The decisions that encode a sequence of nodes visited from the [k]-th step on. *)
Fixpoint visits (k : nat) (l : list nat) : list decision :=
  match l with [] => [] | j :: l' => mk_dec k (Z.of_nat j) :: visits (S k) l' end.

(** An answer that is right: the best feasible tour and its makespan, or none where there is none. *)
Definition best_tour (value : option Z) (decisions : option (list decision)) : Prop :=
  match value with
  | Some v => exists l t T, decisions = Some l /\ feasible_tour t T /\ Permutation l (visits 0 (t ++ [0%nat])) /\ v = - T /\
      forall t' T', feasible_tour t' T' -> T <= T'
  | None => forall t T, ~ feasible_tour t T
  end.

(** A sensible instance, with times small enough ([M] bounds travel times and opening times). *)
Record tw_inst_ok (M : Z) : Prop := {
  io_n : (1 <= n)%nat;
  io_dim : mx_n (tw_dist I) = n /\ mx_m (tw_dist I) = n /\ length (mx_data (tw_dist I)) = (n * n)%nat;
  io_win : length (tw_win I) = n;
  io_dist : forall i j, (i < n)%nat -> (j < n)%nat -> 0 <= dist i j <= M;
  io_open : forall j, (j < n)%nat -> 0 <= opens j <= M /\ opens j <= closes j;
  io_range : (Z.of_nat n + 2) * ((Z.of_nat n + 1) * M) <= IMAX }.

Definition triangle : Prop := forall i j k, (i < n)%nat -> (j < n)%nat -> (k < n)%nat -> dist i k <= dist i j + dist j k.

(** The earliest time at which the salesman can be where the state says, and where that may be. *)
Definition time_of (s : tw_state) : Z := el_earliest (tw_el s).
Definition may_be_at (s : tw_state) (i : nat) : Prop :=
  match tw_pos s with AtNode x => i = x | Virtual b => (i < n)%nat /\ bs_get b i = true end.
Definition must_visit (s : tw_state) (i : nat) : Prop := bs_get (tw_must s) i = true.
Definition may_visit (s : tw_state) (i : nat) : Prop := exists m, tw_maybe s = Some m /\ bs_get m i = true.

(** The states that may stand in layer [k], exact or merged. *)
Record tw_layer (M : Z) (k : nat) (s : tw_state) : Prop := {
  tl_depth : tw_depth s = k;
  tl_pos : exists i, (i < n)%nat /\ may_be_at s i;
  tl_virt : forall i, may_be_at s i -> (i < n)%nat;
  tl_time : 0 <= time_of s <= (Z.of_nat k + 1) * M;
  tl_late : match tw_el s with FixedAmount _ => True | FuzzyAmount _ y => 0 <= y <= (Z.of_nat k + 1) * M end;
  tl_must : forall i, must_visit s i -> (1 <= i < n)%nat;
  tl_maybe : forall i, may_visit s i -> (1 <= i < n)%nat;
  tl_disj : forall i, must_visit s i -> may_visit s i -> False }.

(** [m] can do whatever [s] can, at least as early. *)
Record covers (m s : tw_state) : Prop := {
  cv_pos : forall i, may_be_at s i -> may_be_at m i;
  cv_time : time_of m <= time_of s;
  cv_must : forall i, must_visit m i -> must_visit s i;
  cv_all : forall i, must_visit s i \/ may_visit s i -> must_visit m i \/ may_visit m i }.

(** Variable [k] is decided in layer [k]. *)
Definition tw_nv (k : nat) : nat := k.
End Spec.
