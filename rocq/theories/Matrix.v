(** Model of [Matrix] of src/utils.rs (lines 177-219) and of examples/psp/utils.rs. *)
From Verif Require Export Base.

(** src/utils.rs:177-184 [struct Matrix]. *)
Record matrix (T : Type) := mk_mat { mx_n : nat; mx_m : nat; mx_data : list T }.
Arguments mk_mat {T}. Arguments mx_n {T}. Arguments mx_m {T}. Arguments mx_data {T}.

(** src/utils.rs:187-189 [new(m, n)] and 193-195 [new_default(m, n, item)]; [new] uses the type's default as item. *)
Definition mat_new {T} (m n : nat) (item : T) : matrix T := mk_mat n m (repeat item (m * n)).

(** src/utils.rs:199-201 [pos]. *)
Definition mat_pos {T} (a : matrix T) (i j : nat) : nat := (mx_m a * i + j)%nat.

(** src/utils.rs:208-211 [index]; [None] is the out-of-range panic. *)
Definition mat_get {T} (a : matrix T) (i j : nat) : option T := nth_error (mx_data a) (mat_pos a i j).

(** src/utils.rs:215-218 [index_mut], as the assignment [a[(i,j)] = x]. *)
Definition mat_set {T} (a : matrix T) (i j : nat) (x : T) : option (matrix T) :=
  do d <- upd (mx_data a) (mat_pos a i j) x; Some (mk_mat (mx_n a) (mx_m a) d).

(** examples/psp/utils.rs:29-35 [new(n, m)]: same layout, arguments in the other order. *)
Definition pmat_new {T} (n m : nat) (item : T) : matrix T := mk_mat n m (repeat item (m * n)).

(** examples/psp/utils.rs:70-79 [pos]: in a debug build the assertions on the row and on the column panic. *)
Definition pmat_pos {T} (debug : bool) (a : matrix T) (i j : nat) : option nat :=
  if debug && negb ((i <? mx_n a)%nat && (j <? mx_m a)%nat) then None else Some (mat_pos a i j).

(** examples/psp/utils.rs:81-90 [index]. *)
Definition pmat_get {T} (debug : bool) (a : matrix T) (i j : nat) : option T :=
  do p <- pmat_pos debug a i j; nth_error (mx_data a) p.

(** examples/psp/utils.rs:91-97 [index_mut], as the assignment [a[(i,j)] = x]. *)
Definition pmat_set {T} (debug : bool) (a : matrix T) (i j : nat) (x : T) : option (matrix T) :=
  do p <- pmat_pos debug a i j; do d <- upd (mx_data a) p x; Some (mk_mat (mx_n a) (mx_m a) d).

(** examples/psp/utils.rs:38-42 [row]: the slice of the data between two positions
    (slicing out of range is the error value). *)
Definition pmat_row {T} (debug : bool) (a : matrix T) (i : nat) : option (list T) :=
  do start <- pmat_pos debug a i 0;
  do stop <- pmat_pos debug a i (mx_m a);
  if (stop <=? length (mx_data a))%nat then Some (firstn (stop - start) (skipn start (mx_data a))) else None.

(** examples/psp/utils.rs:49-51 [col]: the entries [(r, i)] for each row [r]. *)
Definition pmat_col {T} (debug : bool) (a : matrix T) (i : nat) : option (list T) :=
  ofold (fun acc r => do x <- pmat_get debug a r i; Some (acc ++ [x])) (seq 0 (mx_n a)) [].
