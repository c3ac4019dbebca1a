(** Model of the functions of Rust's standard library on text that the examples use to read their files
    (examples/tsptw/instance.rs:63-111, examples/srflp/instance.rs:49-100, examples/psp/psp.rs:368-479). Characters are bytes:
    white space and digits outside ASCII are not modelled. A parsing error has the error value [None]. *)
From Verif Require Export Base.
From Coq Require Export String Ascii.
Open Scope Z_scope.

(** [char::is_whitespace] on ASCII. Used by [trim] and [split_whitespace], e.g. examples/tsptw/instance.rs:72, 81. *)
Definition is_ws (c : ascii) : bool := let n := N_of_ascii c in (n =? 32)%N || ((9 <=? n)%N && (n <=? 13)%N).

(** [str::trim]: examples/tsptw/instance.rs:72, examples/srflp/instance.rs:58, examples/psp/psp.rs:391, 421, 456. *)
Fixpoint trim_start (s : string) : string :=
  match s with
  | EmptyString => EmptyString
  | String c s' => if is_ws c then trim_start s' else s
  end.
(** examples/tsptw/instance.rs:72. *)
Fixpoint trim_end (s : string) : string :=
  match s with
  | EmptyString => EmptyString
  | String c s' => match trim_end s' with EmptyString => if is_ws c then EmptyString else String c EmptyString | r => String c r end
  end.
(** examples/tsptw/instance.rs:72. *)
Definition trim (s : string) : string := trim_end (trim_start s).

(** The non-empty parts of a string between separators: [split(..).filter(|s| !s.is_empty())] at
    examples/srflp/instance.rs:67, 72, 80. [cur] is the part being read. *)
Fixpoint split_by (sep : ascii -> bool) (cur s : string) : list string :=
  match s with
  | EmptyString => match cur with EmptyString => [] | _ => [cur] end
  | String c s' =>
      if sep c then match cur with EmptyString => split_by sep EmptyString s' | _ => cur :: split_by sep EmptyString s' end
      else split_by sep (cur ++ String c EmptyString)%string s'
  end.
(** [str::split_whitespace]: examples/tsptw/instance.rs:81, 87, 95; examples/psp/psp.rs:396, 408, 427. *)
Definition tokens (s : string) : list string := split_by is_ws EmptyString s.

(** Decimal digits. For [parse], e.g. examples/tsptw/instance.rs:81. *)
Definition digit_of (c : ascii) : option Z :=
  let n := N_of_ascii c in if (48 <=? n)%N && (n <=? 57)%N then Some (Z.of_N (n - 48)) else None.
(** The value of the digits of [s] after [acc], or with a minus sign; an error as soon as it does not fit. For [parse], e.g. examples/tsptw/instance.rs:81. *)
Fixpoint parse_digits (fits : Z -> bool) (sign acc : Z) (s : string) : option Z :=
  match s with
  | EmptyString => Some acc
  | String c s' => do d <- digit_of c; let v := acc * 10 + sign * d in if fits v then parse_digits fits sign v s' else None
  end.
(** [parse] to an unsigned type with values below [bound]: an optional plus sign, then at least one digit. E.g. examples/tsptw/instance.rs:81. *)
Definition parse_unsigned (bound : Z) (s : string) : option Z :=
  let s := match s with String c s' => if Ascii.eqb c "+" then s' else s | _ => s end in
  match s with EmptyString => None | _ => parse_digits (fun v => v <? bound) 1 0 s end.
(** [parse::<u16>()]: examples/tsptw/instance.rs:81. *)
Definition parse_u16 : string -> option Z := parse_unsigned 65536.
(** [parse::<usize>()]: examples/srflp/instance.rs:67, examples/psp/psp.rs:375, 379, 383, 398, 411, 438, 456. *)
Definition parse_usize : string -> option Z := parse_unsigned (2 ^ 64).
(** [parse::<isize>()]: examples/srflp/instance.rs:73, 81. *)
Definition parse_isize (s : string) : option Z :=
  let '(sign, s) := match s with
                    | String c s' => if Ascii.eqb c "-" then (- 1, s') else if Ascii.eqb c "+" then (1, s') else (1, s)
                    | _ => (1, s)
                    end in
  match s with EmptyString => None | _ => parse_digits (fun v => (IMIN <=? v) && (v <=? IMAX)) sign 0 s end.
(** The digits at the head of a string: their value (starting from [acc]), how many there are, and what follows
    (for [parse::<f32>()], see TsptwFile.v). examples/tsptw/instance.rs:87-100. *)
Fixpoint scan_digits (acc : Z) (n : nat) (s : string) : Z * nat * string :=
  match s with
  | EmptyString => (acc, n, s)
  | String c s' => match digit_of c with Some d => scan_digits (acc * 10 + d) (S n) s' | None => (acc, n, s) end
  end.
