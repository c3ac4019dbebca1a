(** What the SRFLP example is about, stated with the data of the instance only. *)
From Verif Require Export Spec Srflp.
Open Scope Z_scope.

(** The sum of [g] over the unordered pairs of elements of a list. *)
Fixpoint pair_sum (g : nat -> nat -> Z) (l : list nat) : Z :=
  match l with [] => 0 | x :: t => zsum (map (g x) t) + pair_sum g t end.

(** What stands before [i] in a list. *)
Fixpoint before (l : list nat) (i : nat) : list nat :=
  match l with [] => [] | x :: t => if Nat.eqb x i then [] else x :: before t i end.

Section Spec.
Variable I : sr_inst.
Let n := sr_n I.
Definition len (i : nat) : Z := nth i (sr_len I) 0.
Definition flow (i j : nat) : Z := or_else 0 (mat_get (sr_flow I) i j).

(** A layout puts the departments side by side on a row, in some order. *)
Definition layout (l : list nat) : Prop := Permutation (seq 0 n) l.
(** Twice the distance from the start of the row to the centre of department [i]. *)
Definition centre2 (l : list nat) (i : nat) : Z := 2 * zsum (map len (before l i)) + len i.
(** Twice the cost of a layout: each pair of departments pays its flow times the distance between the two centres. *)
Definition layout_cost2 (l : list nat) : Z := pair_sum (fun i j => flow i j * Z.abs (centre2 l i - centre2 l j)) (seq 0 n).
(** The part of it that no layout avoids: two departments are half their lengths apart at least (this is twice
    [Srflp::_root_value], examples/srflp/model.rs:272-283, which is to be added to the objective: examples/srflp/main.rs:62). *)
Definition unavoidable2 : Z := pair_sum (fun i j => flow i j * (len i + len j)) (seq 0 n).
Definition best_layout (l : list nat) : Prop := layout l /\ forall l', layout l' -> layout_cost2 l <= layout_cost2 l'.

(** The decisions that encode a layout: its departments from the start of the row to its end. *)
Definition layout_decisions (l : list nat) : list decision :=
  map (fun kx => mk_dec (fst kx) (Z.of_nat (snd kx))) (combine (seq 0 (length l)) l).

(** A sensible instance; [F] bounds the flows and [L] the lengths. *)
Record sr_ok (F L : Z) : Prop := {
  so_n : (1 <= n)%nat;
  so_len : length (sr_len I) = n;
  so_flow : mx_n (sr_flow I) = n /\ mx_m (sr_flow I) = n /\ length (mx_data (sr_flow I)) = (n * n)%nat;
  so_F : 1 <= F;
  so_L : 1 <= L;
  so_len_range : forall i, (i < n)%nat -> 1 <= len i <= L;
  so_flow_range : forall i j, (i < n)%nat -> (j < n)%nat -> 0 <= flow i j <= F;
  so_sym : forall i j, (i < n)%nat -> (j < n)%nat -> flow i j = flow j i;
  so_range : (Z.of_nat n + 2) * (Z.of_nat n * Z.of_nat n * F * L) <= IMAX }.

(** Departments a state says are to be placed, may be placed, or either. *)
Definition must (s : sr_state) (i : nat) : bool := bs_get (sr_must s) i.
Definition maybe (s : sr_state) (i : nat) : bool := match sr_maybe s with Some m => bs_get m i | None => false end.
Definition free (s : sr_state) (i : nat) : bool := must s i || maybe s i.
Definition cut (s : sr_state) (i : nat) : Z := nth i (sr_cut s) 0.
Definition size (f : nat -> bool) : nat := length (filter f (seq 0 n)).

(** The states that may stand in layer [k], exact or merged: [k] departments are placed; those left to place are all of
    [must] and some of [maybe]. *)
Record sr_layer (F : Z) (k : nat) (s : sr_state) : Prop := {
  sl_depth : (k <= n)%nat /\ sr_depth s = k;
  sl_bits : forall i, free s i = true -> (i < n)%nat;
  sl_disjoint : forall i, must s i = true -> maybe s i = true -> False;
  sl_must : (size (must s) <= n - k)%nat;
  sl_free : (n - k <= size (free s))%nat;
  sl_len : length (sr_cut s) = n;
  sl_cut : forall i, free s i = true -> 0 <= cut s i <= Z.of_nat k * F }.
End Spec.

(** Matrices of flows: their size, their entries, and the flow between two departments that the two entries stand for. *)
Definition square (n : nat) (m : matrix Z) : Prop := mx_n m = n /\ mx_m m = n /\ length (mx_data m) = (n * n)%nat.
Definition entry (m : matrix Z) (i j : nat) : Z := or_else 0 (mat_get m i j).
Definition total_flow (a b : Z) : Z := if a =? b then a else a + b.
