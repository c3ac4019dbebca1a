(** What a TSPTW file says. Nothing here models code of /repo. *)
From Verif Require Export TsptwSpec TextSpec.
Open Scope Z_scope.
Open Scope string_scope.

(** The lines that count, as lists of words: empty lines and comments do not. *)
Inductive content : list string -> list (list string) -> Prop :=
| ct_nil : content [] []
| ct_empty s l c : all blank s -> content l c -> content (s :: l) c
| ct_comment w s l c : all blank w -> content l c -> content ((w ++ String "#" s) :: l) c
| ct_line s a ts l c : spaced (a :: ts) s -> (forall r, a <> String "#" r) -> content l c -> content (s :: l) ((a :: ts) :: c).

(** [s] is the number [p / 10 ^ k]: digits with at most one point, *)
Inductive plain : string -> Z -> nat -> Prop :=
| pl_int s v n : digits s v n -> plain s v 0
| pl_point s v n : digits s v n -> plain (s ++ ".") v 0
| pl_frac a v n b w k : digits a v n -> digits b w k -> plain (a ++ "." ++ b) (v * 10 ^ Z.of_nat k + w) k
| pl_bare b w k : digits b w k -> plain ("." ++ b) w k.
(** possibly followed by an exponent, possibly after a plus sign. *)
Inductive unsigned : string -> Z -> nat -> Prop :=
| un_plain t p k : plain t p k -> unsigned t p k
| un_exp t p k c s e n : plain t p k -> In c ["e"; "E"; "e+"; "E+"] -> digits s e n -> unsigned (t ++ c ++ s) (p * 10 ^ e) k
| un_neg t p k c s e n : plain t p k -> In c ["e-"; "E-"] -> digits s e n -> unsigned (t ++ c ++ s) p (k + Z.to_nat e).
Inductive decimal : string -> Z -> nat -> Prop :=
| dc_nosign t p k : unsigned t p k -> decimal t p k
| dc_plus t p k : unsigned t p k -> decimal ("+" ++ t) p k.
(** The number written [t] is [x / 10000]. *)
Definition denotes (t : string) (x : Z) : Prop := exists p k, (k <= 20)%nat /\ decimal t p k /\ x * 10 ^ Z.of_nat k = 10000 * p.

(** The file [lines] is the instance [I], in which a unit of time stands for 1/10000: a line with the number of nodes, the
    matrix, the windows. *)
Record file_denotes (lines : list string) (I : tw_inst) : Prop := {
  fd_lines : exists h ex D W n, content lines ((h :: ex) :: D ++ W) /\ digits h (Z.of_nat (tw_n I)) n /\
    List.length D = tw_n I /\ List.length W = tw_n I /\
    (forall i, (i < tw_n I)%nat -> List.length (nth i D []) = tw_n I) /\
    (forall i j, (i < tw_n I)%nat -> (j < tw_n I)%nat -> denotes (nth j (nth i D []) "") (dist I i j)) /\
    (forall i, (i < tw_n I)%nat -> exists a b, nth i W [] = [a; b] /\ denotes a (opens I i) /\ denotes b (closes I i));
  fd_dim : mx_n (tw_dist I) = tw_n I /\ mx_m (tw_dist I) = tw_n I /\ List.length (mx_data (tw_dist I)) = (tw_n I * tw_n I)%nat;
  fd_win : List.length (tw_win I) = tw_n I }.

(** The numbers of an instance. *)
Inductive place := Leg (i j : nat) | Opens (i : nat) | Closes (i : nat).
Definition time_at (I : tw_inst) (p : place) : Z := match p with Leg i j => dist I i j | Opens i => opens I i | Closes i => closes I i end.
Definition in_inst (I : tw_inst) (p : place) : Prop :=
  match p with Leg i j => (i < tw_n I)%nat /\ (j < tw_n I)%nat | Opens i => (i < tw_n I)%nat | Closes i => (i < tw_n I)%nat end.
