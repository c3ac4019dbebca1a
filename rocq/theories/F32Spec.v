(** The number an [f32] stands for. Nothing here models code of /repo. *)
From Verif Require Export F32.
From Coq Require Export QArith Qabs Qpower.
Open Scope Z_scope.

(** [None] for infinities and [NaN]. *)
Definition f32_value (x : spec_float) : option Q :=
  match x with
  | S754_zero _ => Some 0%Q
  | S754_finite s m e => Some ((if s then -1 else 1) * inject_Z (Zpos m) * Qpower 2 e)%Q
  | _ => None
  end.
