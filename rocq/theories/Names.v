(** Textual names of options: src/prelude.rs and src/xputils.rs; and the gap computation. *)
From Verif Require Export Base F32.
From Coq Require Export String.
Open Scope Z_scope.

(** src/prelude.rs:204-215 [FromStr for CompilationType]; the error text is dropped. *)
Definition parse_comp (s : string) : option comp_type :=
  if String.eqb s "exact" then Some Exact
  else if String.eqb s "relaxed" then Some Relaxed
  else if String.eqb s "restricted" then Some Restricted
  else None.
(** src/prelude.rs:216-224 [Display for CompilationType]. *)
Definition show_comp (c : comp_type) : string :=
  match c with Exact => "exact" | Relaxed => "relaxed" | Restricted => "restricted" end.

(** src/prelude.rs:140-150 [FromStr for CutsetType]. *)
Definition parse_cutset (s : string) : option cutset_type :=
  if String.eqb s "lel" then Some LastExactLayer
  else if String.eqb s "frontier" then Some Frontier
  else None.
(** src/prelude.rs:151-158 [Display for CutsetType]. *)
Definition show_cutset (c : cutset_type) : string :=
  match c with LastExactLayer => "lel" | Frontier => "frontier" end.

(** src/xputils.rs:42-45 [SolverType]. *)
Inductive solver_type := ParallelS | BarrierS.
(** src/xputils.rs:46-56 [FromStr for SolverType]. *)
Definition parse_solver (s : string) : option solver_type :=
  if String.eqb s "parallel" then Some ParallelS
  else if String.eqb s "barrier" then Some BarrierS
  else None.
(** src/xputils.rs:57-64 [Display for SolverType]. *)
Definition show_solver (c : solver_type) : string :=
  match c with ParallelS => "parallel" | BarrierS => "barrier" end.

(** [isize::abs] as compiled in release mode: the absolute value of [isize::MIN] wraps to itself. src/xputils.rs:171-178. *)
Definition wrap_abs (x : Z) : Z := if x =? IMIN then IMIN else Z.abs x.

(** src/xputils.rs:171-177 [gap]: the numerator and the denominator of the returned quotient, before
    their conversion to [f32]; release mode. *)
Definition gap_fraction (lb ub : Z) : Z * Z :=
  let aub := wrap_abs ub in
  let alb := wrap_abs lb in
  let u := Z.max aub alb in
  let l := Z.min aub alb in
  (wrap_sub u l, u).
(** src/xputils.rs:171-178 [gap]. *)
Definition gap (lb ub : Z) : spec_float := let '(num, den) := gap_fraction lb ub in f32_div (f32_of num) (f32_of den).
