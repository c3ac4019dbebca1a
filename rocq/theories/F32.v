(** [f32] arithmetic: the [binary32] format of the standard library's [SpecFloat] (24 bits of precision, rounding to nearest
    even). Signed zeros and [NaN] payloads do not matter below. *)
From Verif Require Export Base.
From Coq Require Export Floats.SpecFloat.
Open Scope Z_scope.

(** [x as f32] for an integer: src/xputils.rs:177, examples/srflp/model.rs:227, 242. *)
Definition f32_of (x : Z) : spec_float := binary_normalize 24 128 x 0 false.
(** [/] on [f32]: src/xputils.rs:177, examples/srflp/model.rs:227, 242. *)
Definition f32_div (a b : spec_float) : spec_float := SFdiv 24 128 a b.
(** [*] on [f32]: examples/tsptw/instance.rs:89, 99, 100. *)
Definition f32_mul (a b : spec_float) : spec_float := SFmul 24 128 a b.
(** The [f32] nearest to [p / q], for [0 <= p] and [0 < q]: [parse::<f32>()] of a decimal number is documented to round
    correctly (examples/tsptw/instance.rs:88, 96, 97). *)
Definition f32_ratio (p q : Z) : spec_float :=
  if p =? 0 then S754_zero false
  else let '(m, e, l) := SFdiv_core_binary 24 128 p 0 q 0 in binary_round_aux 24 128 false m e l.
(** [x as usize]: truncation towards zero, saturating; [NaN] becomes 0 (examples/tsptw/instance.rs:89, 99, 100). *)
Definition f32_to_usize (x : spec_float) : Z :=
  match x with
  | S754_finite false m e => Z.min (Z.shiftl (Zpos m) e) (2 ^ 64 - 1)
  | S754_infinity false => 2 ^ 64 - 1
  | _ => 0
  end.
