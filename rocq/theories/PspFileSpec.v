(** What a PSP file says. Nothing here models code of /repo. *)
From Verif Require Export PspSpec TextSpec.
Open Scope Z_scope.
Open Scope string_scope.

(** A line that says some natural numbers below 2^64. *)
Definition says_row (row : list Z) (s : string) : Prop :=
  exists ts, spaced ts s /\ Forall2 natural ts row /\ Forall (fun v => v < 2 ^ 64) row.
Definition says_number (v : Z) (s : string) : Prop := natural s v /\ v < 2 ^ 64.

(** The end of the file: an empty line, a line that does not matter, then the optimum, if it is known. *)
Inductive says_end : list string -> option Z -> Prop :=
| se_nil : says_end [] None
| se_empty e : all blank e -> says_end [e] None
| se_line e s : all blank e -> says_end [e; s] None
| se_optimum e s o v rest : all blank e -> says_row [v] o -> says_end (e :: s :: o :: rest) (Some v).

(** The rows of a matrix. *)
Definition row_of (a : matrix Z) (i : nat) : list Z := map (fun j => or_else 0 (mat_get a i j)) (seq 0 (mx_m a)).
Definition rows_of (a : matrix Z) : list (list Z) := map (row_of a) (seq 0 (mx_n a)).

(** The tables have one row, or one entry, per item. *)
Definition psp_shape (D : psp_data) : Prop :=
  let n := pd_n D in
  mx_n (pd_change D) = n /\ mx_m (pd_change D) = n /\ List.length (mx_data (pd_change D)) = (n * n)%nat /\
  List.length (pd_stock D) = n /\ List.length (pd_dem D) = n /\ (forall row, In row (pd_dem D) -> List.length row = pd_T D).

(** The file says the instance [D], with a number of orders and an optimum. *)
Definition psp_says (lines : list string) (D : psp_data) (orders : Z) (optimum : option Z) : Prop :=
  psp_shape D /\ exists s1 s2 s3 any1 changes empty stocks any2 demands final,
    lines = (s1 :: s2 :: s3 :: any1 :: changes ++ empty :: stocks :: any2 :: demands ++ final)%list /\
    says_number (Z.of_nat (pd_T D)) s1 /\ says_number (Z.of_nat (pd_n D)) s2 /\ says_number orders s3 /\
    Forall2 says_row (rows_of (pd_change D)) changes /\ all blank empty /\
    says_row (pd_stock D) stocks /\
    Forall2 says_row (pd_dem D) demands /\ says_end final optimum.
