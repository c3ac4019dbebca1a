(** Facts about option names and the gap. *)
From Verif Require Import Names.
From Coq Require Import ZifyBool.

Lemma comp_roundtrip s c : parse_comp s = Some c <-> s = show_comp c.
Proof.
  unfold parse_comp, show_comp. split.
  - destruct (String.eqb_spec s "exact") as [->|H1]; [intros [= <-]; reflexivity|].
    destruct (String.eqb_spec s "relaxed") as [->|H2]; [intros [= <-]; reflexivity|].
    destruct (String.eqb_spec s "restricted") as [->|H3]; [intros [= <-]; reflexivity|]. discriminate.
  - intros ->. destruct c; reflexivity.
Qed.
Lemma cutset_roundtrip s c : parse_cutset s = Some c <-> s = show_cutset c.
Proof.
  unfold parse_cutset, show_cutset. split.
  - destruct (String.eqb_spec s "lel") as [->|H1]; [intros [= <-]; reflexivity|].
    destruct (String.eqb_spec s "frontier") as [->|H2]; [intros [= <-]; reflexivity|]. discriminate.
  - intros ->. destruct c; reflexivity.
Qed.
Lemma solver_roundtrip s c : parse_solver s = Some c <-> s = show_solver c.
Proof.
  unfold parse_solver, show_solver. split.
  - destruct (String.eqb_spec s "parallel") as [->|H1]; [intros [= <-]; reflexivity|].
    destruct (String.eqb_spec s "barrier") as [->|H2]; [intros [= <-]; reflexivity|]. discriminate.
  - intros ->. destruct c; reflexivity.
Qed.

Lemma wrap_sub_id a b : in_isize (a - b) -> wrap_sub a b = a - b.
Proof. unfold in_isize, IMIN, IMAX, wrap_sub. intros H. rewrite Z.mod_small; lia. Qed.

