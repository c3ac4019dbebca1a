(** Model of the reading of TSPTW files: examples/tsptw/instance.rs:63-111. A file is the list of its lines. Errors
    ([unwrap], indexing) have the error value [None]. *)
From Verif Require Export Tsptw F32 Text.
Open Scope Z_scope.

(** Parts of [parse::<f32>()] (examples/tsptw/instance.rs:88, 96, 97), whose grammar is documented in Rust's standard library
    (1.55 or later): the exponent at the end of a number, which may be absent, and the words for infinity and [NaN], in upper
    or lower case. Simplified: the exponent is exact (Rust stops reading its digits once it exceeds 65535, when the number is
    already zero or infinite unless it is written with as many digits). *)
Definition parse_exp (s : string) : option Z :=
  match s with
  | EmptyString => Some 0
  | String c s1 =>
      if Ascii.eqb c "e" || Ascii.eqb c "E" then
        let '(sign, s2) := match s1 with
                           | String c s' => if Ascii.eqb c "-" then (- 1, s') else if Ascii.eqb c "+" then (1, s') else (1, s1)
                           | _ => (1, s1)
                           end in
        let '(v, n, s3) := scan_digits 0 0 s2 in
        match s3 with EmptyString => if (n =? 0)%nat then None else Some (sign * v) | _ => None end
      else None
  end.
(** For [parse::<f32>()] at examples/tsptw/instance.rs:88, 96, 97. *)
Fixpoint lower (s : string) : string :=
  match s with
  | EmptyString => EmptyString
  | String c s' => let n := N_of_ascii c in String (if (65 <=? n)%N && (n <=? 90)%N then ascii_of_N (n + 32) else c) (lower s')
  end.
(** For [parse::<f32>()] at examples/tsptw/instance.rs:88, 96, 97. *)
Definition special_f32 (s : string) : option spec_float :=
  let w := lower s in
  if String.eqb w "inf" || String.eqb w "infinity" then Some (S754_infinity false)
  else if String.eqb w "nan" then Some S754_nan
  else None.
(** [parse::<f32>()]: examples/tsptw/instance.rs:88, 96, 97. An optional sign, then digits with at most one point (at least one
    digit in all) and an optional exponent, or one of the words above. *)
Definition parse_f32 (s : string) : option spec_float :=
  let '(neg, s) := match s with
                   | String c s' => if Ascii.eqb c "-" then (true, s') else if Ascii.eqb c "+" then (false, s') else (false, s)
                   | _ => (false, s)
                   end in
  let '(a, na, s1) := scan_digits 0 0 s in
  let '(v, nb, s2) := match s1 with
                      | String c s' => if Ascii.eqb c "." then scan_digits a 0 s' else (a, 0%nat, s1)
                      | _ => (a, 0%nat, s1)
                      end in
  do x <- (if (na + nb =? 0)%nat then special_f32 s
           else do e <- parse_exp s2; Some (f32_ratio (v * 10 ^ Z.max 0 e) (10 ^ (Z.of_nat nb + Z.max 0 (- e)))));
  Some (if neg : bool then SFopp x else x).

(** examples/tsptw/instance.rs:88-89, 96-100: a time is read as an [f32], multiplied by 10000.0 and converted to [usize]. *)
Definition to_time (x : spec_float) : Z := f32_to_usize (f32_mul x (f32_of 10000)).
(** examples/tsptw/instance.rs:88-89, 96-100. *)
Definition read_time (s : string) : option Z := do x <- parse_f32 s; Some (to_time x).

(** examples/tsptw/instance.rs:65-68: the local variables; [lc] is a [u16]. *)
Record tw_reader := mk_rd { rd_lc : Z; rd_nb : Z; rd_dist : matrix Z; rd_win : list window }.

(** examples/tsptw/instance.rs:80-83. *)
Definition read_header (r : tw_reader) (line : string) : option tw_reader :=
  match tokens line with
  | [] => None
  | t :: _ => do n <- parse_u16 t; Some (mk_rd (rd_lc r) n (mat_new (Z.to_nat n) (Z.to_nat n) 0) (rd_win r))
  end.
(** examples/tsptw/instance.rs:85-92. *)
Definition read_row (r : tw_reader) (line : string) : option tw_reader :=
  let i := Z.to_nat (rd_lc r - 1) in
  let ts := tokens line in
  do m <- ofold (fun m jt => do x <- read_time (snd jt); mat_set m i (fst jt) x) (combine (seq 0 (List.length ts)) ts) (rd_dist r);
  Some (mk_rd (rd_lc r) (rd_nb r) m (rd_win r)).
(** examples/tsptw/instance.rs:94-104. *)
Definition read_window (r : tw_reader) (line : string) : option tw_reader :=
  match tokens line with
  | a :: b :: _ => do e <- read_time a; do l <- read_time b; Some (mk_rd (rd_lc r) (rd_nb r) (rd_dist r) (rd_win r ++ [mk_window e l]))
  | _ => None
  end.
(** examples/tsptw/instance.rs:75: the lines skipped. *)
Definition skipped (line : string) : bool := match line with EmptyString => true | String c _ => Ascii.eqb c "#" end.
(** examples/tsptw/instance.rs:70-107: one turn of the loop. [lc += 1] overflows in a debug build. *)
Definition read_line (debug : bool) (r : tw_reader) (line : string) : option tw_reader :=
  let line := trim line in
  if skipped line then Some r
  else
    do r <- (if rd_lc r =? 0 then read_header r line
             else if (1 <=? rd_lc r) && (rd_lc r <=? rd_nb r) then read_row r line
             else read_window r line);
    if rd_lc r <? 65535 then Some (mk_rd (rd_lc r + 1) (rd_nb r) (rd_dist r) (rd_win r))
    else if debug then None else Some (mk_rd 0 (rd_nb r) (rd_dist r) (rd_win r)).
(** examples/tsptw/instance.rs:63-111 [From<Lines> for TsptwInstance]. *)
Definition tw_read (debug : bool) (lines : list string) : option tw_inst :=
  do r <- ofold (read_line debug) lines (mk_rd 0 0 (mat_new 0 0 0) []);
  Some (mk_tw (Z.to_nat (rd_nb r)) (rd_dist r) (rd_win r)).
