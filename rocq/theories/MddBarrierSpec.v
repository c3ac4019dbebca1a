(** Specification: what can happen while a diagram of src/mdd/with_barrier.rs is compiled. The compilation reads and writes
    the thresholds shared by all threads ([access] of MddBarrier.v: one access at a time, each under the lock of its layer); between two accesses
    the other threads may do to the thresholds whatever they like. Nothing here models code of /repo. *)
From Verif Require Import Spec Dd DdSpec MddBarrier.
Open Scope Z_scope.

(** The entry [j] excludes all that [i] excludes: it has a larger value, or the same and it is not less explored. *)
Definition stronger (i j : info) : Prop :=
  b_theta i < b_theta j \/ (b_theta i = b_theta j /\ (b_explored i = true -> b_explored j = true)).

Section Executions.
Variable S : Type.
Variable eqb : S -> S -> bool.

(** What becomes of the thresholds between two accesses: anything, as long as there are as many layers; or nothing if the
    compilation is [alone]. *)
Definition meanwhile (alone : bool) (T T' : thresholds S) : Prop :=
  if alone then T' = T else length T' = length T.

(** From [p] and [T], the execution can get to [p'] and [T']. *)
Inductive gets (alone : bool) {A} : prog S A -> thresholds S -> prog S A -> thresholds S -> Prop :=
| gets_refl p T : gets alone p T p T
| gets_step p T T1 p' T' pn Tn : meanwhile alone T T1 -> access eqb p T1 = Some (p', T') -> gets alone p' T' pn Tn -> gets alone p T pn Tn.

(** From [p] and [T], the execution can return [a] and leave [T']. *)
Definition returns (alone : bool) {A} (p : prog S A) (T : thresholds S) (a : A) (T' : thresholds S) : Prop := gets alone p T (Ret a) T'.

(** The thresholds hold the entry [i] for the state [s] of layer [k]. *)
Definition entry (T : thresholds S) (k : nat) (s : S) (i : info) : Prop :=
  exists l, nth_error T k = Some l /\ tget eqb l s = Some i.

Variable P : problem S.
Variable nv : nat -> nat.

(** The objective value [x] is not lost by the compilation that leaves [dF]: the diagram is exact and reports a value that
    is as good; or it is not, and its cutset holds a subproblem that can be completed to a value as good and whose bound allows it. *)
Definition answered (dF : dd S) (x : Z) (r : nat) : Prop :=
  (g_exact dF = true /\ exists b, best_value dF = Some (Some b) /\ x <= b) \/
  (g_exact dF = false /\ exists l d2 q ds w, drain_cutset dF = Some (l, d2) /\ In q l /\ (r <= depth_of q)%nat /\
     completes S P nv q ds w /\ x <= w /\ x <= sp_ub q).

(** [x] was given up because of an entry of the thresholds [T], of layer [r] or below: arriving at its state with exactly the value of
    the entry would be enough to obtain [x]. *)
Definition promised (T : thresholds S) (x : Z) (r : nat) : Prop :=
  exists k s i ds c, (r <= k)%nat /\ entry T k s i /\ completion S P nv k s ds c /\ x <= b_theta i + c.

End Executions.
Arguments gets {S} eqb alone {A}.
Arguments returns {S} eqb alone {A}.
