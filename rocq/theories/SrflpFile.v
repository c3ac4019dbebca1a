(** Model of the reading of SRFLP files: examples/srflp/instance.rs:38-101. A file is the list of its lines. Errors ([unwrap],
    indexing) have the error value [None]; memory is unbounded and the counter of lines does not overflow. *)
From Verif Require Export Srflp Text.
Open Scope Z_scope.

(** examples/srflp/instance.rs:67, 72, 80: the separators. *)
Definition sr_sepb (c : ascii) : bool := Ascii.eqb c " " || Ascii.eqb c "," || Ascii.eqb c "009".
(** examples/srflp/instance.rs:67, 72, 80. *)
Definition sr_tokens (s : string) : list string := split_by sr_sepb EmptyString s.

(** examples/srflp/instance.rs:51-54: the local variables. *)
Record sr_reader := mk_srd { sd_lc : Z; sd_nb : Z; sd_len : list Z; sd_flow : matrix Z }.
(** examples/srflp/instance.rs:66-69. *)
Definition sr_header (r : sr_reader) (line : string) : option sr_reader :=
  match sr_tokens line with
  | [] => None
  | t :: _ => do n <- parse_usize t; Some (mk_srd (sd_lc r) n (sd_len r) (mat_new (Z.to_nat n) (Z.to_nat n) 0))
  end.
(** examples/srflp/instance.rs:71-76. *)
Definition sr_lengths (r : sr_reader) (line : string) : option sr_reader :=
  do l <- ofold (fun l t => do x <- parse_isize t; Some (l ++ [x])) (sr_tokens line) (sd_len r);
  Some (mk_srd (sd_lc r) (sd_nb r) l (sd_flow r)).
(** examples/srflp/instance.rs:78-84. *)
Definition sr_row (r : sr_reader) (line : string) : option sr_reader :=
  let i := Z.to_nat (sd_lc r - 2) in
  let ts := sr_tokens line in
  do m <- ofold (fun m jt => do x <- parse_isize (snd jt); mat_set m i (fst jt) x) (combine (seq 0 (List.length ts)) ts) (sd_flow r);
  Some (mk_srd (sd_lc r) (sd_nb r) (sd_len r) m).
(** examples/srflp/instance.rs:56-87: one turn of the loop. *)
Definition sr_line (r : sr_reader) (line : string) : option sr_reader :=
  match trim line with
  | EmptyString => Some r
  | line =>
      do r <- (if sd_lc r =? 0 then sr_header r line
               else if sd_lc r =? 1 then sr_lengths r line
               else if (2 <=? sd_lc r) && (sd_lc r <=? sd_nb r + 1) then sr_row r line
               else Some r);
      Some (mk_srd (sd_lc r + 1) (sd_nb r) (sd_len r) (sd_flow r))
  end.
(** examples/srflp/instance.rs:49-101 [From<Lines> for SrflpInstance]. *)
Definition sr_read (debug : bool) (lines : list string) : option sr_inst :=
  do r <- ofold sr_line lines (mk_srd 0 0 [] (mat_new 0 0 0));
  do m <- sr_fold_flows debug (Z.to_nat (sd_nb r)) (sd_flow r);
  Some (mk_sr (Z.to_nat (sd_nb r)) (sd_len r) m).
