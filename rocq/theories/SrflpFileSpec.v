(** What an SRFLP file says. Nothing here models code of /repo. *)
From Verif Require Export SrflpSpec TextSpec.
Open Scope Z_scope.
Open Scope string_scope.

(** The lines that are not empty, as lists of words separated by blanks, tabulations or commas. *)
Definition sr_sep (c : ascii) : Prop := In c [" "; ","; "009"]%char.
Inductive sr_content : list string -> list (list string) -> Prop :=
| sc_nil : sr_content [] []
| sc_empty s l c : all blank s -> sr_content l c -> sr_content (s :: l) c
| sc_line s a ts l c : parted sr_sep (a :: ts) s -> (forall t, In t (a :: ts) -> word t) -> sr_content l c -> sr_content (s :: l) ((a :: ts) :: c).

(** The file [lines] says: [n] departments, of lengths [lens], with flows [a]. The rest of the first line and what follows the
    flows do not matter. *)
Definition sr_says (lines : list string) (n : nat) (lens : list Z) (a : matrix Z) : Prop :=
  square n a /\ List.length lens = n /\
  exists h ex Ls D rest, sr_content lines ((h :: ex) :: Ls :: D ++ rest) /\ natural h (Z.of_nat n) /\
    List.length Ls = n /\ (forall i, (i < n)%nat -> integer (nth i Ls "") (nth i lens 0)) /\
    List.length D = n /\ (forall i, (i < n)%nat -> List.length (nth i D []) = n) /\
    (forall i j, (i < n)%nat -> (j < n)%nat -> integer (nth j (nth i D []) "") (entry a i j)).

(** The instance [I] is the one with these departments: the flow between two of them is the sum of both directions, unless both
    are equal, in which case it is taken once. *)
Definition sr_means (n : nat) (lens : list Z) (a : matrix Z) (I : sr_inst) : Prop :=
  sr_n I = n /\ sr_len I = lens /\ square n (sr_flow I) /\
  forall i j, (i < n)%nat -> (j < n)%nat -> entry (sr_flow I) i j = if Nat.eqb i j then entry a i j else total_flow (entry a i j) (entry a j i).
(** All numbers can be represented. *)
Definition sr_small (n : nat) (lens : list Z) (a : matrix Z) : Prop :=
  Z.of_nat n < 2 ^ 64 /\ (forall i, (i < n)%nat -> in_isize (nth i lens 0)) /\
  forall i j, (i < n)%nat -> (j < n)%nat -> in_isize (entry a i j) /\ in_isize (total_flow (entry a i j) (entry a j i)).
