(** Shared vocabulary of the model: machine integers, vectors, decisions,
    problems and relaxations. Definitions only; no proofs. *)
From Coq Require Export ZArith List Bool Lia Permutation.
Export ListNotations.
Open Scope Z_scope.

(* ------------------------------------------------------------------ *)
(** * Machine integers ([isize], 64 bits) *)

(** [isize::MIN] / [isize::MAX]; used e.g. in src/mdd/with_all.rs:229,332. *)
Definition IMIN : Z := - 2 ^ 63.
(** [isize::MAX], e.g. src/solver/parallel.rs:283. *)
Definition IMAX : Z := 2 ^ 63 - 1.

(** Clamping used by the saturating operations of Rust's [isize]. See [sat_add] and [sat_sub]; e.g. src/mdd/with_all.rs:274. *)
Definition clamp (x : Z) : Z := Z.max IMIN (Z.min IMAX x).

(** [isize::saturating_add], used at src/mdd/with_all.rs:187,188,274,326,341,456,496. *)
Definition sat_add (a b : Z) : Z := clamp (a + b).

(** [isize::saturating_sub], used at src/mdd/with_barrier.rs:330,562,597. *)
Definition sat_sub (a b : Z) : Z := clamp (a - b).

(** Plain [-] on [isize] as compiled by the release profile (two's complement
    wrap-around); used at src/mdd/with_all.rs:230 and src/mdd/with_barrier.rs:255.
    The debug profile panics instead when the result is out of range. *)
Definition wrap_sub (a b : Z) : Z := (a - b + 2 ^ 63) mod 2 ^ 64 - 2 ^ 63.

(** The values of Rust's [isize], e.g. src/prelude.rs:168-181 [best_lb]. *)
Definition in_isize (x : Z) : Prop := IMIN <= x <= IMAX.

(* ------------------------------------------------------------------ *)
(** * Vectors: out of range access is the error value [None] (a panic) *)

(** [v[i] = x] on a [Vec]; [None] models the index-out-of-range panic. E.g. src/solver/parallel.rs:283. *)
Fixpoint upd {A} (l : list A) (i : nat) (x : A) : option (list A) :=
  match l, i with
  | [], _ => None
  | _ :: t, O => Some (x :: t)
  | h :: t, S j => match upd t j x with Some t' => Some (h :: t') | None => None end
  end.

(** Sequencing of computations that may panic. E.g. src/solver/parallel.rs:282-284. *)
Definition obind {A B} (o : option A) (f : A -> option B) : option B :=
  match o with Some a => f a | None => None end.
Notation "'do' x <- e1 ; e2" := (obind e1 (fun x => e2))
  (at level 200, x name, e1 at level 100, e2 at level 200, right associativity).
Notation "'do' ' p <- e1 ; e2" := (obind e1 (fun p => e2))
  (at level 200, p strict pattern, e1 at level 100, e2 at level 200, right associativity).

(** A [for x in l] loop whose body may panic. E.g. src/mdd/with_all.rs:270-282. *)
Fixpoint ofold {A B} (f : B -> A -> option B) (l : list A) (b : B) : option B :=
  match l with
  | [] => Some b
  | x :: t => do b' <- f b x; ofold f t b'
  end.

(* ------------------------------------------------------------------ *)
(** * Decisions, sub-problems, inputs (src/prelude.rs) *)

(** src/prelude.rs:3-16 [Variable], [Decision]. *)
Record decision := mk_dec { d_var : nat; d_val : Z }.

(** src/prelude.rs:128-133 [CompilationType]. *)
Inductive comp_type := Exact | Relaxed | Restricted.

(** src/prelude.rs:135-139 [CutsetType]. *)
Inductive cutset_type := LastExactLayer | Frontier.

(** src/prelude.rs:160-166 [SubProblem]. *)
Record subproblem (S : Type) := mk_sub {
  sp_state : S; sp_value : Z; sp_path : list decision; sp_ub : Z }.
Arguments mk_sub {S}. Arguments sp_state {S}. Arguments sp_value {S}.
Arguments sp_path {S}. Arguments sp_ub {S}.

(** src/prelude.rs:18-43 trait [Problem]. The iterator handed to [next_variable] is the
    list of states of the layer in iteration order; [for_each_in_domain] is the list of decisions
    its callback receives. [impacted_by] is not used by any diagram in the repository and is left out. *)
Record problem (S : Type) := mk_pb {
  pb_nb_vars : nat;
  pb_init : S;
  pb_init_val : Z;
  pb_next_var : list S -> option nat;
  pb_domain : nat -> S -> list decision;
  pb_trans : S -> decision -> S;
  pb_cost : S -> decision -> Z;
  pb_estimate : S -> Z }.
Arguments pb_nb_vars {S}. Arguments pb_init {S}. Arguments pb_init_val {S}.
Arguments pb_next_var {S}. Arguments pb_domain {S}. Arguments pb_trans {S}.
Arguments pb_cost {S}. Arguments pb_estimate {S}. Arguments mk_pb {S}.

(** src/prelude.rs:45-58 trait [Relaxation]. *)
Record relaxation (S : Type) := mk_rx {
  rx_merge : list S -> S;
  rx_relax : S -> S -> S -> decision -> Z -> Z }.
Arguments rx_merge {S}. Arguments rx_relax {S}. Arguments mk_rx {S}.

(** src/prelude.rs:60-65 trait [StateRanking]. *)
Definition ranking (S : Type) := S -> S -> comparison.

(** [Ordering::then_with] and [Ordering::reverse] of the standard library. src/frontier/mod.rs:9-14. *)
Definition then_with (a b : comparison) : comparison := match a with Eq => b | _ => a end.
(** src/mdd/with_all.rs:376-383. *)
Definition cmp_reverse (a : comparison) : comparison := CompOpp a.

(** A ranking is a total preorder: comparing in the other direction gives the opposite answer, and
    "not greater" is transitive. What src/frontier/mod.rs:9-14 needs of a [StateRanking]. *)
Definition total_preorder {A} (cmp : A -> A -> comparison) : Prop :=
  (forall a b, cmp b a = CompOpp (cmp a b)) /\
  (forall a b c, cmp a b <> Gt -> cmp b c <> Gt -> cmp a c <> Gt).
