(** What a text says. Nothing here models code of /repo. *)
From Verif Require Export Base.
From Coq Require Export String Ascii.
Open Scope Z_scope.
Open Scope string_scope.

(** Blanks, and words. *)
Definition blank (c : ascii) : Prop := In c [" "; "009"; "010"; "011"; "012"; "013"]%char.
Fixpoint all (P : ascii -> Prop) (s : string) : Prop := match s with EmptyString => True | String c s' => P c /\ all P s' end.
Definition word_of (sep : ascii -> Prop) (s : string) : Prop := s <> "" /\ all (fun c => ~ sep c) s.
(** A line made of words, separated by characters that satisfy [sep]. *)
Inductive parted (sep : ascii -> Prop) : list string -> string -> Prop :=
| sp_nil w : all sep w -> parted sep [] w
| sp_last w t : all sep w -> word_of sep t -> parted sep [t] (w ++ t)
| sp_cons w t b s ts : all sep w -> word_of sep t -> sep b -> parted sep ts s -> parted sep (t :: ts) (w ++ t ++ String b s).
(** Words separated by blanks. *)
Notation word := (word_of blank).
Notation spaced := (parted blank).

(** The value of a word made of digits, with their number. *)
Inductive digits : string -> Z -> nat -> Prop :=
| dg_one d : 0 <= d < 10 -> digits (String (ascii_of_N (48 + Z.to_N d)) "") d 1
| dg_more s v n d : digits s v n -> 0 <= d < 10 -> digits (s ++ String (ascii_of_N (48 + Z.to_N d)) "") (10 * v + d) (S n).
(** A natural number; an integer, with or without a sign. *)
Definition natural (s : string) (v : Z) : Prop := exists n, digits s v n.
Inductive integer : string -> Z -> Prop :=
| int_nat s v : natural s v -> integer s v
| int_minus s v : natural s v -> integer (String "-" s) (- v)
| int_plus s v : natural s v -> integer (String "+" s) v.
