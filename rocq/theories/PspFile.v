(** Model of the reading of PSP files: examples/psp/psp.rs:343-479. A file is the list of its lines, without their ends
    (reading a line never fails). Memory is unbounded, and [nb_periods + 1] is exact. *)
From Verif Require Export Psp Text.
Open Scope Z_scope.

(** The outcome of [try_from] (examples/psp/psp.rs:346-353, 372): [Ok], [Err], or a panic. *)
Inductive tried (A : Type) := Fine (x : A) | Wrong | Panics.
Arguments Fine {A}. Arguments Wrong {A}. Arguments Panics {A}.
(** The operator [?], and the sequence of statements. examples/psp/psp.rs:372-479. *)
Definition tbind {A B} (t : tried A) (f : A -> tried B) : tried B :=
  match t with Fine x => f x | Wrong => Wrong | Panics => Panics end.
Notation "'try' x <- e1 ; e2" := (tbind e1 (fun x => e2)) (at level 200, x name, e1 at level 100, e2 at level 200, right associativity).
Notation "'try' ' p <- e1 ; e2" := (tbind e1 (fun p => e2)) (at level 200, p strict pattern, e1 at level 100, e2 at level 200, right associativity).
(** A [parse] or a missing line, which make an [Err]; an index or a subtraction, which panic. examples/psp/psp.rs:372-479. *)
Definition checked {A} (o : option A) : tried A := match o with Some x => Fine x | None => Wrong end.
(** Indexing and subtraction in examples/psp/psp.rs:372-479. *)
Definition unchecked {A} (o : option A) : tried A := match o with Some x => Fine x | None => Panics end.
(** A [for] loop. examples/psp/psp.rs:397, 431. *)
Fixpoint tfold {A B} (f : B -> A -> tried B) (l : list A) (b : B) : tried B :=
  match l with [] => Fine b | x :: t => try b' <- f b x; tfold f t b' end.

(** [lines.next()]. examples/psp/psp.rs:404. *)
Definition next_line (lines : list string) : tried (string * list string) :=
  match lines with [] => Wrong | s :: l => Fine (s, l) end.
(** [iter().enumerate()]. examples/psp/psp.rs:397, 431. *)
Definition enumerated {A} (l : list A) : list (nat * A) := combine (seq 0 (List.length l)) l.
(** [x as i32]. examples/psp/psp.rs:440. *)
Definition as_i32 (x : Z) : Z := (x + 2 ^ 31) mod 2 ^ 32 - 2 ^ 31.

Section Read.
(** [true] for a debug build. *)
Variable debug : bool.

(** examples/psp/psp.rs:396-399: one line of changeover costs. *)
Definition pf_change (i : nat) (a : matrix Z) (jt : nat * string) : tried (matrix Z) :=
  try x <- checked (parse_usize (snd jt)); unchecked (pmat_set debug a i (fst jt) x).
(** examples/psp/psp.rs:388-402: the lines up to an empty one; what is left of the file comes with the matrix. *)
Fixpoint pf_changes (i : nat) (a : matrix Z) (lines : list string) : tried (matrix Z * list string) :=
  match lines with
  | [] => Fine (a, [])
  | line :: lines =>
      match trim line with
      | EmptyString => Fine (a, lines)
      | line => try a <- tfold (pf_change i) (enumerated (tokens line)) a; pf_changes (S i) a lines
      end
  end.
(** examples/psp/psp.rs:404-412: the stocking costs; the words after the last item are not looked at, and the items after the
    last word get 0. *)
Fixpoint pf_stock (items : nat) (ts : list string) : tried (list Z) :=
  match items, ts with
  | O, _ => Fine []
  | S k, [] => try l <- pf_stock k []; Fine (0 :: l)
  | S k, t :: ts => try x <- checked (parse_usize t); try l <- pf_stock k ts; Fine (x :: l)
  end.
(** examples/psp/psp.rs:431-449: one word of a line of demands. *)
Definition pf_demand (T i : nat) (acc : Z * matrix Z * matrix Z) (pt : nat * string) : tried (Z * matrix Z * matrix Z) :=
  let '(last, prev, rem) := acc in
  let '(period, text) := pt in
  try prev <- unchecked (pmat_set debug prev i period last);
  try rem <- unchecked (if (0 <? period)%nat then do x <- pmat_get debug rem i (period - 1); pmat_set debug rem i period x else Some rem);
  try demand <- checked (parse_usize text);
  try rem' <- unchecked (if 0 <? demand then do x <- pmat_get debug rem i period; pmat_set debug rem i period (x + 1) else Some rem);
  let last := if 0 <? demand then as_i32 (Z.of_nat period) else last in
  try final <- unchecked (usub debug (Z.of_nat T) 1);
  try prev <- unchecked (if Z.of_nat period =? final then pmat_set debug prev i (1 + period) last else Some prev);
  Fine (last, prev, rem').
(** examples/psp/psp.rs:418-450: the lines up to an empty one. *)
Fixpoint pf_demands (T i : nat) (prev rem : matrix Z) (lines : list string) : tried (matrix Z * matrix Z * list string) :=
  match lines with
  | [] => Fine (prev, rem, [])
  | line :: lines =>
      match trim line with
      | EmptyString => Fine (prev, rem, lines)
      | line =>
          try ' (_, prev, rem) <- tfold (pf_demand T i) (enumerated (tokens line)) (BOT, prev, rem);
          pf_demands T (S i) prev rem lines
      end
  end.
(** examples/psp/psp.rs:454-459: a line is skipped, the next one, if any, holds the known optimum. *)
Definition pf_optimum (lines : list string) : tried (option Z) :=
  match tl lines with [] => Fine None | s :: _ => try v <- checked (parse_usize (trim s)); Fine (Some v) end.
(** examples/psp/psp.rs:369-479 [try_from]: the instance, the number of orders and the optimum. The order of ties in a sort is
    not specified. *)
Definition psp_read (sort : list (Z * nat * nat) -> list (Z * nat * nat)) (lines : list string) : tried (psp * Z * option Z) :=
  try ' (s, lines) <- next_line lines; try T <- checked (parse_usize s);
  try ' (s, lines) <- next_line lines; try n <- checked (parse_usize s);
  try ' (s, lines) <- next_line lines; try orders <- checked (parse_usize s);
  let T := Z.to_nat T in
  let n := Z.to_nat n in
  try ' (change, lines) <- pf_changes 0 (mat_new n n 0) (tl lines);
  try ' (s, lines) <- next_line lines;
  try stock <- pf_stock n (tokens s);
  try ' (prev, rem, lines) <- pf_demands T 0 (pmat_new n (S T) 0) (pmat_new n T 0) (tl lines);
  try optimum <- pf_optimum lines;
  try mst <- unchecked (precompute_all_mst debug sort n change);
  Fine (mk_psp T n change stock prev rem mst, orders, optimum).
End Read.
