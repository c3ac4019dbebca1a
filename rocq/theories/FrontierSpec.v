(** What a user of a frontier relies on, stated on the sequence of calls and answers only. *)
From Verif Require Import NoDup.

Section Spec.
Variable S : Type.
Variable eqb : S -> S -> bool.
Variable rank : ranking S.
Notation sub := (subproblem S).
Notation event := (fr_event S).

(** [q] has no priority over [p]: smaller bound, or same bound and a state that is not preferred. *)
Definition no_priority (q p : sub) : Prop :=
  sp_ub q < sp_ub p \/ (sp_ub q = sp_ub p /\ rank (sp_state q) (sp_state p) <> Gt).

(** The call that produced an event. *)
Definition call_of (e : event) : fr_op S :=
  match e with EvPush n => OpPush n | EvPop _ => OpPop | EvClear => OpClear | EvLen _ => OpLen end.

(** Subproblems with state [s] pushed since the last time that state was popped or everything cleared. *)
Definition waiting_step (w : S -> list sub) (e : event) : S -> list sub :=
  fun s => match e with
           | EvPush n => if eqb (sp_state n) s then w s ++ [n] else w s
           | EvPop (Some p) => if eqb (sp_state p) s then [] else w s
           | EvPop None => w s
           | EvClear => []
           | EvLen _ => w s
           end.
Definition waiting (tr : list event) : S -> list sub := fold_left waiting_step tr (fun _ => []).

(** Everything pushed since the last clear, and everything popped since the last clear. *)
Definition pushed_step (w : list sub) (e : event) : list sub :=
  match e with EvPush n => w ++ [n] | EvClear => [] | _ => w end.
Definition pushed (tr : list event) : list sub := fold_left pushed_step tr [].
Definition popped_step (w : list sub) (e : event) : list sub :=
  match e with EvPop (Some p) => w ++ [p] | EvClear => [] | _ => w end.
Definition popped (tr : list event) : list sub := fold_left popped_step tr [].

End Spec.
Arguments no_priority {S}. Arguments call_of {S}. Arguments waiting {S}. Arguments pushed {S}. Arguments popped {S}.
Arguments waiting_step {S}. Arguments pushed_step {S}. Arguments popped_step {S}.

(** A comparator-driven binary heap (external crate [binary_heap_plus]): for a total preorder it pops a maximum. *)
Definition heap_oracle {A} (choose : (A -> A -> comparison) -> list A -> nat) : Prop :=
  forall cmp l, total_preorder cmp -> l <> [] ->
    exists x, nth_error l (choose cmp l) = Some x /\ forall y, In y l -> cmp y x <> Gt.
