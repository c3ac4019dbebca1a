(** Property theorem C49 (TSPTW example: reading files). *)
From Verif Require Import TsptwFile TsptwFileSpec TsptwFileProofs TextCheck TsptwFileCases.
From Coq Require Import List ZArith.
Import ListNotations.
Open Scope string_scope.
Open Scope Z_scope.

(** C49. The instance read from a file is the one written in it, times being counted in units of 1/10000; a file that is not an
    instance is rejected. Proved when every time is a multiple of 1/16 with few enough digits (integers up to 26843 for
    example). *)
Theorem C49_sixteenths_partial : forall debug lines I, file_denotes lines I -> 2 * Z.of_nat (tw_n I) + 1 <= 65535 ->
  (forall p, in_inst I p -> exists j s, 0 <= j <= 26843 /\ 0 <= s <= 10 /\ time_at I p = 625 * j * 2 ^ s) ->
  tw_read debug lines = Some I.
Proof. exact file_exact. Qed.
Print Assumptions C49_sixteenths_partial.

(** Every other time with four decimals, below 1677.7216, is read with an error of at most 1/10000, and the order is kept. Missing:
    exactness, which fails, see below. *)
Theorem C49_near_partial : forall debug lines I, file_denotes lines I -> 2 * Z.of_nat (tw_n I) + 1 <= 65535 ->
  (forall p, in_inst I p -> time_at I p < 2 ^ 24) ->
  exists I', tw_read debug lines = Some I' /\ tw_n I' = tw_n I /\ mx_n (tw_dist I') = tw_n I /\ mx_m (tw_dist I') = tw_n I /\
    List.length (tw_win I') = tw_n I /\
    (forall p, in_inst I p -> 0 <= time_at I' p /\ Z.abs (time_at I' p - time_at I p) <= 1) /\
    (forall p q, in_inst I p -> in_inst I q -> time_at I p < time_at I q -> time_at I' p <= time_at I' q).
Proof. exact file_near. Qed.
Print Assumptions C49_near_partial.

(** A file with comments, halves and quarters. *)
Example C49_case : file_denotes file1 inst1 /\ 2 * Z.of_nat (tw_n inst1) + 1 <= 65535 /\
  (forall p, in_inst inst1 p -> exists j s, 0 <= j <= 26843 /\ 0 <= s <= 10 /\ time_at inst1 p = 625 * j * 2 ^ s) /\
  tw_read true file1 = Some inst1.
Proof. split; [exact case1|]. split; [vm_compute; discriminate|]. split; [exact case1_times|]. vm_compute. reflexivity. Qed.

(** And one with exponents, signs and points without digits on one side: "0 1.9e1" for the first row, for example. *)
Example C49_exponents_case : file_denotes (map join words6) inst6 /\ In "+2.E0 .0" (map join words6) /\
  (forall p, in_inst inst6 p -> exists j s, 0 <= j <= 26843 /\ 0 <= s <= 10 /\ time_at inst6 p = 625 * j * 2 ^ s) /\
  tw_read true (map join words6) = Some inst6.
Proof. split; [exact case6|]. split; [right; right; left; reflexivity|]. split; [exact case6_times|]. vm_compute. reflexivity. Qed.

(** Legs of 20 and 20.3113 and a depot that closes at 40.3113: the tour is on time. 40.3113 is read as 403112/10000, the legs as
    they are, so that the instance read has no tour. *)
Theorem C49_refuted : exists lines I, file_denotes lines I /\ (forall p, in_inst I p -> time_at I p < 2 ^ 24) /\
  (exists l T, feasible_tour I l T) /\
  forall debug, exists I', tw_read debug lines = Some I' /\ forall l T, ~ feasible_tour I' l T.
Proof.
  exists file2, inst2. split; [exact case2|]. split; [exact case2_small|]. split; [exists [1%nat], 403113; exact case2_tour|].
  intros []; exists inst2'; (split; [|exact case2_none]); [exact (proj1 case2_read)|exact (proj2 case2_read)].
Qed.
Print Assumptions C49_refuted.

(** A row in which a word is missing, or a negative time, is accepted: the travel time is zero. *)
Theorem C49_malformed_refuted : exists lines I', (forall I, ~ file_denotes lines I) /\
  (forall debug, tw_read debug lines = Some I') /\ dist I' 0 1 = 0 /\ dist I' 1 0 = 70000.
Proof. exists (map join words3), inst3. split; [exact case3|]. split; [exact (fun d => proj1 (case34_read d))|]. split; reflexivity. Qed.
Print Assumptions C49_malformed_refuted.
Theorem C49_negative_refuted : exists lines I', (forall I, ~ file_denotes lines I) /\ In "0 -5" lines /\
  (forall debug, tw_read debug lines = Some I') /\ dist I' 0 1 = 0.
Proof. exists (map join words4), inst3. split; [exact case4|]. split; [right; left; reflexivity|]. split; [exact (fun d => proj2 (case34_read d))|reflexivity]. Qed.
Print Assumptions C49_negative_refuted.
(** The words for "not a number" and infinity are accepted too, as 0 and the largest number; so are an empty file and one that
    stops after the number of nodes. *)
Theorem C49_words_refuted : exists lines I', (forall I, ~ file_denotes lines I) /\ In "0 NaN" lines /\ In "0 inf" lines /\
  (forall debug, tw_read debug lines = Some I') /\ dist I' 0 1 = 0 /\ closes I' 0 = 2 ^ 64 - 1.
Proof. exists (map join words5), inst5. split; [exact case5|]. split; [right; left; reflexivity|]. split; [do 3 right; left; reflexivity|]. split; [exact case5_read|]. split; reflexivity. Qed.
Print Assumptions C49_words_refuted.
Theorem C49_empty_refuted : (forall I, ~ file_denotes [] I /\ ~ file_denotes ["5"] I) /\
  forall debug, (exists I', tw_read debug [] = Some I' /\ tw_n I' = 0%nat) /\
    (exists I', tw_read debug ["5"] = Some I' /\ tw_n I' = 5%nat /\ tw_win I' = []).
Proof.
  split; [exact case0|]. intros debug. destruct (case0_read debug) as [H1 H2]. split; [exists (inst0 0); auto|exists (inst0 5); auto].
Qed.
Print Assumptions C49_empty_refuted.
