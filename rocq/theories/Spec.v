(** Specification of optimisation problems, independent of decision diagrams and solvers. *)
From Verif Require Import Base.
From Coq Require Import Sorting.Permutation.

Section Spec.
Variable S : Type.
Variable P : problem S.
(** [at_depth k s]: [s] may stand in layer [k]; [nv k]: the variable decided in layer [k]. *)
Variable at_depth : nat -> S -> Prop.
Variable nv : nat -> nat.

(** A well formed problem: variables are decided in a fixed order, one per layer; there is no variable left
    after [pb_nb_vars] layers, nor for an empty layer. *)
Record wf_problem : Prop := {
  wf_init : at_depth 0 (pb_init P);
  wf_next_empty : pb_next_var P [] = None;
  wf_next : forall k l, l <> [] -> Forall (at_depth k) l ->
     (k < pb_nb_vars P)%nat -> pb_next_var P l = Some (nv k);
  wf_last : forall l, l <> [] -> Forall (at_depth (pb_nb_vars P)) l -> pb_next_var P l = None;
  wf_trans : forall k s d, (k < pb_nb_vars P)%nat -> at_depth k s -> In d (pb_domain P (nv k) s) ->
     at_depth (Datatypes.S k) (pb_trans P s d) }.

(** [run k s ds k' s' c]: the decisions [ds], taken in layers [k], [k+1], ..., lead from [s] to [s'] in layer [k'] at total cost [c]. *)
Inductive run : nat -> S -> list decision -> nat -> S -> Z -> Prop :=
| run_nil k s : run k s [] k s 0
| run_cons k s d ds k' s' c :
    (k < pb_nb_vars P)%nat -> In d (pb_domain P (nv k) s) ->
    run (Datatypes.S k) (pb_trans P s d) ds k' s' c ->
    run k s (d :: ds) k' s' (pb_cost P s d + c).

(** [completion k s ds c]: the decisions [ds] complete [s] (in layer [k]) to a full assignment, at cost [c]. *)
Definition completion (k : nat) (s : S) (ds : list decision) (c : Z) : Prop :=
  exists s', run k s ds (pb_nb_vars P) s' c.

(** Full assignments of the problem with their objective value. *)
Definition solution (ds : list decision) (v : Z) : Prop :=
  exists c, completion 0 (pb_init P) ds c /\ v = pb_init_val P + c.

(** A reported list of decisions: a full assignment, in whatever order its decisions are listed. *)
Definition reported_solution (l : list decision) (v : Z) : Prop :=
  exists ds, Permutation l ds /\ solution ds v.

Definition optimum (v : Z) : Prop :=
  (exists ds, solution ds v) /\ (forall ds w, solution ds w -> w <= v).
Definition infeasible : Prop := forall ds w, ~ solution ds w.

(** The fast upper bound never underestimates, where at least one variable is left to decide (it is not asked for elsewhere). *)
Definition admissible : Prop :=
  forall k s ds c, (k < pb_nb_vars P)%nat -> at_depth k s -> completion k s ds c -> c <= pb_estimate P s.

(** The relaxation: a merged state stands in the layer of the states it stands for, and merging keeps, for every way into
    a merged state and every completion, a completion of the merged state that is at least as good once the cost of the way
    in has been relaxed. *)
Variable R : relaxation S.
Definition relaxation_depth : Prop :=
  forall k l, (k <= pb_nb_vars P)%nat -> l <> [] -> Forall (at_depth k) l -> at_depth k (rx_merge R l).
Definition relaxation_cover : Prop :=
  forall k l src d ds c, (k < pb_nb_vars P)%nat -> at_depth k src -> In d (pb_domain P (nv k) src) ->
     Forall (at_depth (Datatypes.S k)) l -> In (pb_trans P src d) l ->
     completion (Datatypes.S k) (pb_trans P src d) ds c ->
     exists ds' c', completion (Datatypes.S k) (rx_merge R l) ds' c' /\
       pb_cost P src d + c <=
       rx_relax R src (pb_trans P src d) (rx_merge R l) d (pb_cost P src d) + c'.
Definition valid_relaxation : Prop := relaxation_depth /\ relaxation_cover.

(** All costs are small enough for sums over a whole path to fit in an [isize]. *)
Record bounded (C : Z) : Prop := {
  bd_pos : 0 <= C;
  bd_range : (Z.of_nat (pb_nb_vars P) + 2) * C <= IMAX;
  bd_init : Z.abs (pb_init_val P) <= C;
  bd_cost : forall k s d, (k < pb_nb_vars P)%nat -> at_depth k s -> In d (pb_domain P (nv k) s) ->
     Z.abs (pb_cost P s d) <= C;
  bd_relax : forall k l src d, (k < pb_nb_vars P)%nat -> at_depth k src -> In d (pb_domain P (nv k) src) ->
     Forall (at_depth (Datatypes.S k)) l -> In (pb_trans P src d) l ->
     Z.abs (rx_relax R src (pb_trans P src d) (rx_merge R l) d (pb_cost P src d)) <= C }.

(** A state stands in one layer only. *)
Definition layered_states : Prop := forall k k' s, at_depth k s -> at_depth k' s -> k = k'.

End Spec.
