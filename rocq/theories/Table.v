(** Small problems given by tables: used for the concrete cases shown beside the theorems and for the witnesses of
    refuted claims. Nothing here models code of /repo. *)
From Verif Require Import Spec Dd DdSpec.
From Verif Require Export SortBy.
Open Scope Z_scope.

(** A transition: layer, state, value of the decision, next state, cost. *)
Record trow := mk_row { r_depth : nat; r_from : Z; r_dec : Z; r_to : Z; r_cost : Z }.

Record table := mk_table {
  t_n : nat;                         (* number of variables *)
  t_init : Z; t_val : Z;             (* initial state and value *)
  t_rows : list trow;
  t_top : Z;                         (* the state that stands for merged states *)
  t_est : list (nat * Z * Z);        (* estimates; layer, state, estimate *)
  t_dflt : Z }.                      (* estimate of the other states *)

(** States: layer and label. *)
Definition tstate : Type := nat * Z.
Definition ts_eqb (a b : tstate) : bool := Nat.eqb (fst a) (fst b) && Z.eqb (snd a) (snd b).

Definition row_is (s : tstate) (r : trow) : bool := Nat.eqb (r_depth r) (fst s) && Z.eqb (r_from r) (snd s).
Definition row_of (t : table) (s : tstate) (d : decision) : option trow :=
  find (fun r => row_is s r && Z.eqb (r_dec r) (d_val d)) (t_rows t).
Definition test (t : table) (s : tstate) : Z :=
  match find (fun p => Nat.eqb (fst (fst p)) (fst s) && Z.eqb (snd (fst p)) (snd s)) (t_est t) with
  | Some p => snd p
  | None => t_dflt t
  end.

Definition t_problem (t : table) : problem tstate := {|
  pb_nb_vars := t_n t;
  pb_init := (0%nat, t_init t);
  pb_init_val := t_val t;
  pb_next_var := fun l => match l with [] => None | s :: _ => if (fst s <? t_n t)%nat then Some (fst s) else None end;
  pb_domain := fun v s => map (fun r => mk_dec v (r_dec r)) (filter (row_is s) (t_rows t));
  pb_trans := fun s d => (S (fst s), match row_of t s d with Some r => r_to r | None => 0 end);
  pb_cost := fun s d => match row_of t s d with Some r => r_cost r | None => 0 end;
  pb_estimate := test t |}.

Definition t_relax (t : table) : relaxation tstate := {|
  rx_merge := fun l => match l with [] => (0%nat, 0) | s :: _ => (fst s, t_top t) end;
  rx_relax := fun _ _ _ _ c => c |}.

Definition t_rank : ranking tstate := fun a b => Z.compare (snd a) (snd b).

Definition t_at (k : nat) (s : tstate) : Prop := fst s = k.
Definition t_nv (k : nat) : nat := k.

(** Best completion of a state; [None] when there is none. *)
Fixpoint tbest (t : table) (fuel : nat) (s : tstate) : option Z :=
  match fuel with
  | O => Some 0
  | S k =>
      fold_right (fun d acc =>
        match tbest t k (pb_trans (t_problem t) s d), acc with
        | None, _ => acc
        | Some v, None => Some (pb_cost (t_problem t) s d + v)
        | Some v, Some w => Some (Z.max (pb_cost (t_problem t) s d + v) w)
        end) None (pb_domain (t_problem t) (fst s) s)
  end.
Definition tval (t : table) (s : tstate) : option Z := tbest t (t_n t - fst s) s.

(** The checks that make a table a well behaved problem. *)
Definition ole (a : option Z) (b : option Z) : bool :=
  match a, b with None, _ => true | Some x, Some y => x <=? y | Some _, None => false end.
Definition table_ok (t : table) (C : Z) : bool :=
  (0 <=? C) && ((Z.of_nat (t_n t) + 2) * C <=? IMAX) && (Z.abs (t_val t) <=? C) && (0 <=? t_dflt t) &&
  forallb (fun r => (r_depth r <? t_n t)%nat && (Z.abs (r_cost r) <=? C) &&
    ole (tval t (r_depth r, r_from r)) (tval t (r_depth r, t_top t)) &&
    ole (tval t (r_depth r, r_from r)) (Some (test t (r_depth r, r_from r)))) (t_rows t) &&
  forallb (fun p => negb (Nat.eqb (fst (fst p)) (t_n t)) || (0 <=? snd p)) (t_est t).
