(** Bit sets and small helpers used by the models of the examples. A [BitSet] of the external crate bitset_fixed is
    modelled by the number whose binary digits it holds; its fixed size is passed where an iteration needs it. *)
From Verif Require Export Base.
From Coq Require Export NArith.
Open Scope Z_scope.

(** [BitSet::new(n)] (all bits off) and [BitSet::new(n).not()] (all bits on), as used at examples/tsptw/model.rs:44 and
    examples/tsptw/relax.rs:54-57. *)
Definition bs_none : N := 0%N.
(** examples/tsptw/relax.rs:54-57. *)
Definition bs_all (n : nat) : N := N.ones (N.of_nat n).

(** [bs[i]] and [bs.set(i, b)] for an index below the size. As in examples/tsptw/relax.rs:61-90. *)
Definition bs_get (b : N) (i : nat) : bool := N.testbit b (N.of_nat i).
(** As in examples/tsptw/relax.rs:61-90. *)
Definition bs_on (b : N) (i : nat) : N := N.setbit b (N.of_nat i).
(** As in examples/psp/psp.rs:321-340. *)
Definition bs_off (b : N) (i : nat) : N := N.clearbit b (N.of_nat i).

(** [BitSetIter::new(&bs)] (src/utils.rs:41-74): the indices of the bits that are on, in increasing order (this is what
    C01 proves of the iterator), and [count_ones]. *)
Definition bs_iter (n : nat) (b : N) : list nat := filter (bs_get b) (seq 0 n).
(** examples/tsptw/relax.rs:113, examples/srflp/relax.rs:92. *)
Definition bs_count (n : nat) (b : N) : nat := length (bs_iter n b).

(** [a - b] on [usize]: a debug build panics ([None]) where the result would be negative, a release build wraps around.
    As at examples/tsptw/model.rs:199-208. *)
Definition usub (debug : bool) (a b : Z) : option Z :=
  if b <=? a then Some (a - b) else if debug then None else Some (a - b + 2 ^ 64).

(** [iter.take(k)] for a [usize] that may be huge. examples/tsptw/model.rs:231, examples/srflp/model.rs:152. *)
Definition take {A} (k : Z) (l : list A) : list A := if Z.of_nat (length l) <=? k then l else firstn (Z.to_nat k) l.

(** [iter.map(f)] and [iter.filter(f)] for a function that may panic. As at examples/tsptw/model.rs:307-326. *)
Fixpoint omap {A B} (f : A -> option B) (l : list A) : option (list B) :=
  match l with
  | [] => Some []
  | x :: t => do y <- f x; do r <- omap f t; Some (y :: r)
  end.
(** As [omap]; e.g. examples/psp/psp.rs:153. *)
Fixpoint ofilter {A} (f : A -> option bool) (l : list A) : option (list A) :=
  match l with
  | [] => Some []
  | x :: t => do b <- f x; do r <- ofilter f t; Some (if b then x :: r else r)
  end.

(** [iter.min()] and [iter.max()] of the standard library; [None] for an empty iterator, on which [unwrap] panics. examples/tsptw/model.rs:307-316. *)
Definition zmin_of (l : list Z) : option Z := match l with [] => None | x :: t => Some (fold_left Z.min t x) end.
(** examples/tsptw/model.rs:317-326. *)
Definition zmax_of (l : list Z) : option Z := match l with [] => None | x :: t => Some (fold_left Z.max t x) end.
(** [sum]: examples/tsptw/model.rs:231, examples/srflp/model.rs:152. *)
Definition zsum (l : list Z) : Z := fold_right Z.add 0 l.

(** [sort_unstable] on integers: any sorting algorithm gives the same vector. examples/tsptw/model.rs:230, examples/srflp/model.rs:151. *)
Fixpoint zinsert (x : Z) (l : list Z) : list Z :=
  match l with
  | [] => [x]
  | y :: t => if x <=? y then x :: y :: t else y :: zinsert x t
  end.
(** examples/tsptw/model.rs:230, examples/srflp/model.rs:151. *)
Definition zsort (l : list Z) : list Z := fold_right zinsert [] l.

(** A value or, where the computation panics, a placeholder. The models are only used where they do not panic, which is proved
    for each of them. *)
Definition or_else {A} (d : A) (o : option A) : A := match o with Some a => a | None => d end.
