(** What a user of a decision diagram relies on, stated with the problem and the observable answers only. *)
From Verif Require Import Spec Dd.
From Coq Require Import Sorting.Sorted.
Open Scope Z_scope.

Section Spec.
Variable S : Type.
Variable eqb : S -> S -> bool.
Variable P : problem S.
Variable R : relaxation S.
Variable at_depth : nat -> S -> Prop.
Variable nv : nat -> nat.
Variable C : Z.

(** The number of variables a subproblem has already assigned. *)
Definition depth_of (q : subproblem S) : nat := length (sp_path q).

(** The decisions of the subproblem, in some order, lead from the initial state to its state with its value. *)
Definition genuine (q : subproblem S) : Prop :=
  exists ds c, Permutation (sp_path q) ds /\ run S P nv 0 (pb_init P) ds (depth_of q) (sp_state q) c /\
    sp_value q = pb_init_val P + c.

(** [v] is the value of a full assignment that completes the subproblem. *)
Definition completes (q : subproblem S) (ds : list decision) (v : Z) : Prop :=
  exists c, completion S P nv (depth_of q) (sp_state q) ds c /\ v = sp_value q + c.

(** [q] is obtained from [p] by taking at least one more decision. *)
Definition descends (p q : subproblem S) : Prop :=
  exists r c, r <> [] /\ sp_path q = sp_path p ++ r /\ run S P nv (depth_of p) (sp_state p) (rev r) (depth_of q) (sp_state q) c /\
    sp_value q = sp_value p + c.

(** The user's side: states can be compared, the problem is well formed, merging stays in the layer, sums of costs fit. *)
Record well_formed : Prop := {
  wfd_eqb : forall a b, eqb a b = true <-> a = b;
  wfd_problem : wf_problem S P at_depth nv;
  wfd_depth : relaxation_depth S P at_depth R;
  wfd_bounded : bounded S P at_depth nv R C }.

(** Moreover the estimate is admissible and the relaxation does relax. *)
Record well_behaved : Prop := {
  wb_formed : well_formed;
  wb_admissible : admissible S P at_depth nv;
  wb_cover : relaxation_cover S P at_depth nv R }.

(** What the library guarantees: iterating over a hash map goes through its entries in some order; sorting permutes, and
    sorts when the comparison is consistent. *)
Definition library_ok (orc : oracle S) : Prop :=
  (forall i l, Permutation l (o_iter orc i l)) /\ (forall cmp l, Permutation l (o_sort orc cmp l)) /\
  (forall cmp l, total_preorder cmp -> StronglySorted (fun a b => cmp a b <> Gt) (o_sort orc cmp l)).

(** A legitimate call of [compile]. In a debug build the subtraction computing the bound of the root must not overflow. *)
Record good_call (debug : bool) (orc : oracle S) (inp : input S) : Prop := {
  gc_lib : library_ok orc;
  gc_pb : i_pb inp = P;
  gc_rx : i_rx inp = R;
  gc_width : (1 <= i_width inp)%nat;
  gc_res : genuine (i_res inp);
  gc_debug : debug = true -> in_isize (sp_ub (i_res inp) - sp_value (i_res inp)) }.

End Spec.
Arguments depth_of {S}.
