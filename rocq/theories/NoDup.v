(** Model of the frontiers: src/frontier/mod.rs, no_dup.rs and simple.rs. *)
From Verif Require Export Base.

Section Model.
Variable S : Type.
Variable eqb : S -> S -> bool.          (* [Eq] of the state type *)
Variable rank : ranking S.              (* the user's [StateRanking] *)

Notation sub := (subproblem S).

(** src/frontier/mod.rs:9-14 [MaxUB::compare]. *)
Definition max_ub (l r : sub) : comparison :=
  then_with (Z.compare (sp_ub l) (sp_ub r)) (rank (sp_state l) (sp_state r)).

(** [FxHashMap<Arc<State>, NodeId>] as an association list (keys compared by [eqb]). src/frontier/no_dup.rs:32-49. *)
Fixpoint map_get {V} (m : list (S * V)) (s : S) : option V :=
  match m with
  | [] => None
  | (k, v) :: t => if eqb k s then Some v else map_get t s
  end.
(** src/frontier/no_dup.rs:124-144: the removal of the state in [pop]. *)
Fixpoint map_remove {V} (m : list (S * V)) (s : S) : list (S * V) :=
  match m with
  | [] => []
  | (k, v) :: t => if eqb k s then t else (k, v) :: map_remove t s
  end.

(** src/frontier/no_dup.rs:32-49 [struct NoDupFrontier]. [recycle_bin] is used as a stack only; the head of
    the list is the last element of the vector. *)
Record nodup := mk_nd {
  nd_states : list (S * nat);
  nd_nodes : list sub;
  nd_pos : list nat;
  nd_heap : list nat;
  nd_recycle : list nat }.

(** src/frontier/no_dup.rs:170-179 [new]. *)
Definition nd_new : nodup := mk_nd [] [] [] [] [].

(** src/frontier/no_dup.rs:22-26 [enum Action]. *)
Inductive action := DoNothing | BubbleUp (id : nat) | BubbleDown (id : nat).

(** src/frontier/no_dup.rs:158-160 [len]; 182-184 [is_empty]. *)
Definition nd_len (f : nodup) : nat := length (nd_heap f).
(** src/frontier/no_dup.rs:182-184. *)
Definition nd_is_empty (f : nodup) : bool := match nd_heap f with [] => true | _ => false end.

(** src/frontier/no_dup.rs:196-198 [position]. *)
Definition position (f : nodup) (id : nat) : option nat := nth_error (nd_pos f) id.

(** src/frontier/no_dup.rs:201-205 [compare_at_pos]. *)
Definition compare_at_pos (f : nodup) (x y : nat) : option comparison :=
  do ix <- nth_error (nd_heap f) x;
  do nx <- nth_error (nd_nodes f) ix;
  do iy <- nth_error (nd_heap f) y;
  do ny <- nth_error (nd_nodes f) iy;
  Some (max_ub nx ny).

(** src/frontier/no_dup.rs:242-250 [parent], 288-295 [is_root], [is_left]. *)
Definition parent (pos : nat) : nat :=
  if Nat.eqb pos 0 then pos
  else if Nat.eqb (pos mod 2) 1 then (pos / 2)%nat
  else (pos / 2 - 1)%nat.

(** src/frontier/no_dup.rs:278-285 [left_child], [right_child]. *)
Definition left_child (pos : nat) : nat := (pos * 2 + 1)%nat.
(** src/frontier/no_dup.rs:283-285. *)
Definition right_child (pos : nat) : nat := (pos * 2 + 2)%nat.

(** src/frontier/no_dup.rs:259-275 [max_child_of]; 0 means no child. *)
Definition max_child_of (f : nodup) (pos : nat) : option nat :=
  let size := nd_len f in
  let left := left_child pos in
  let right := right_child pos in
  if (size <=? left)%nat then Some 0%nat
  else if (size <=? right)%nat then Some left
  else do c <- compare_at_pos f left right;
       Some (match c with Gt => left | _ => right end).

(** src/frontier/no_dup.rs:212-217 (and 229-234): exchange the node [id] at [me] with the one at [other]. *)
Definition swap_with (f : nodup) (id me other : nat) : option nodup :=
  do o_id <- nth_error (nd_heap f) other;
  do pos1 <- upd (nd_pos f) o_id me;
  do pos2 <- upd pos1 id other;
  do heap1 <- upd (nd_heap f) me o_id;
  do heap2 <- upd heap1 other id;
  Some (mk_nd (nd_states f) (nd_nodes f) pos2 heap2 (nd_recycle f)).

(** src/frontier/no_dup.rs:207-222 [bubble_up]; [fuel] bounds the loop, running out is the error value. *)
Fixpoint bubble_up_loop (fuel : nat) (f : nodup) (id me : nat) : option nodup :=
  match fuel with
  | O => None
  | Datatypes.S k =>
      if Nat.eqb me 0 then Some f
      else
        do c <- compare_at_pos f me (parent me);
        match c with
        | Gt => do f' <- swap_with f id me (parent me); bubble_up_loop k f' id (parent me)
        | _ => Some f
        end
  end.
(** src/frontier/no_dup.rs:207-222, the whole function. *)
Definition bubble_up (f : nodup) (id : nat) : option nodup :=
  do me <- position f id; bubble_up_loop (Datatypes.S (nd_len f)) f id me.

(** src/frontier/no_dup.rs:224-239 [bubble_down]. *)
Fixpoint bubble_down_loop (fuel : nat) (f : nodup) (id me : nat) : option nodup :=
  match fuel with
  | O => None
  | Datatypes.S k =>
      do kid <- max_child_of f me;
      if Nat.eqb kid 0 then Some f
      else
        do c <- compare_at_pos f me kid;
        match c with
        | Lt => do f' <- swap_with f id me kid; bubble_down_loop k f' id kid
        | _ => Some f
        end
  end.
(** src/frontier/no_dup.rs:224-239, the whole function. *)
Definition bubble_down (f : nodup) (id : nat) : option nodup :=
  do me <- position f id; bubble_down_loop (Datatypes.S (nd_len f)) f id me.

(** src/frontier/no_dup.rs:188-194 [process_action]. *)
Definition process_action (f : nodup) (a : action) : option nodup :=
  match a with
  | BubbleUp id => bubble_up f id
  | BubbleDown id => bubble_down f id
  | DoNothing => Some f
  end.

(** The assignments [node.ub = ..] of src/frontier/no_dup.rs:68-120 and src/solver/parallel.rs:273. *)
Definition with_ub (n : sub) (ub : Z) : sub := mk_sub (sp_state n) (sp_value n) (sp_path n) ub.

(** src/frontier/no_dup.rs:68-120 [push]. *)
Definition nd_push (f : nodup) (node0 : sub) : option nodup :=
  match map_get (nd_states f) (sp_state node0) with
  | Some id =>
      do old <- nth_error (nd_nodes f) id;
      let old_lp := sp_value old in
      let old_ub := sp_ub old in
      let new_lp := sp_value node0 in
      let new_ub := sp_ub node0 in
      let node := with_ub node0 (Z.max new_ub old_ub) in
      let act := match max_ub node old with Gt => BubbleUp id | _ => DoNothing end in
      do nodes1 <- (if old_lp <? new_lp then upd (nd_nodes f) id node else Some (nd_nodes f));
      do nodes2 <- (if old_ub <? new_ub
                    then (do cur <- nth_error nodes1 id; upd nodes1 id (with_ub cur new_ub))
                    else Some nodes1);
      process_action (mk_nd (nd_states f) nodes2 (nd_pos f) (nd_heap f) (nd_recycle f)) act
  | None =>
      do '(id, nodes1, pos1, rec1) <-
        (match nd_recycle f with
         | [] => Some (length (nd_nodes f), nd_nodes f ++ [node0], nd_pos f ++ [0%nat], [])
         | id :: r => do nodes1 <- upd (nd_nodes f) id node0; Some (id, nodes1, nd_pos f, r)
         end);
      let heap1 := nd_heap f ++ [id] in
      do pos2 <- upd pos1 id (length heap1 - 1)%nat;
      process_action (mk_nd ((sp_state node0, id) :: nd_states f) nodes1 pos2 heap1 rec1) (BubbleUp id)
  end.

(** [Vec::swap_remove(0)] of the standard library: removes the first element, the last one takes its place. Used in src/frontier/no_dup.rs:124-144. *)
Definition swap_remove0 (l : list nat) : list nat :=
  match l with
  | [] => []
  | [_] => []
  | _ :: t => last t 0%nat :: removelast t
  end.

(** src/frontier/no_dup.rs:124-144 [pop]. *)
Definition nd_pop (f : nodup) : option (option sub * nodup) :=
  match nd_heap f with
  | [] => Some (None, f)
  | id :: _ =>
      let heap1 := swap_remove0 (nd_heap f) in
      do '(f1, act) <-
        (match heap1 with
         | [] => Some (mk_nd (nd_states f) (nd_nodes f) (nd_pos f) heap1 (nd_recycle f), DoNothing)
         | h0 :: _ =>
             do pos1 <- upd (nd_pos f) h0 0%nat;
             Some (mk_nd (nd_states f) (nd_nodes f) pos1 heap1 (nd_recycle f), BubbleDown h0)
         end);
      do f2 <- process_action f1 act;
      do node <- nth_error (nd_nodes f2) id;
      Some (Some node,
            mk_nd (map_remove (nd_states f2) (sp_state node)) (nd_nodes f2) (nd_pos f2) (nd_heap f2)
                  (id :: nd_recycle f2))
  end.

(** src/frontier/no_dup.rs:148-154 [clear]. *)
Definition nd_clear (f : nodup) : nodup := mk_nd [] [] [] [] [].

(** ** Histories and what a user sees of them *)

(** The operations of the [Frontier] trait (src/prelude.rs:104-123). *)
Inductive fr_op := OpPush (n : sub) | OpPop | OpClear | OpLen.
(** What the user observes: the calls and their answers. src/prelude.rs:104-123. *)
Inductive fr_event := EvPush (n : sub) | EvPop (r : option sub) | EvClear | EvLen (n : nat).

(** One call of a method of src/frontier/no_dup.rs:68-160. *)
Definition nd_step (f : nodup) (o : fr_op) : option (fr_event * nodup) :=
  match o with
  | OpPush n => do f' <- nd_push f n; Some (EvPush n, f')
  | OpPop => do '(r, f') <- nd_pop f; Some (EvPop r, f')
  | OpClear => Some (EvClear, nd_clear f)
  | OpLen => Some (EvLen (nd_len f), f)
  end.
(** Calls one after the other (src/frontier/no_dup.rs:68-160). *)
Fixpoint nd_run (f : nodup) (ops : list fr_op) : option (list fr_event * nodup) :=
  match ops with
  | [] => Some ([], f)
  | o :: t =>
      do '(e, f') <- nd_step f o;
      do '(es, f'') <- nd_run f' t;
      Some (e :: es, f'')
  end.

(** ** SimpleFrontier: src/frontier/simple.rs *)

(** src/frontier/simple.rs: a wrapper around [binary_heap_plus::BinaryHeap] with comparator [MaxUB]. The external heap
    is represented by its contents and an oracle [choose cmp l] giving the position of the element it pops. *)
Variable choose : (sub -> sub -> comparison) -> list sub -> nat.
(** src/frontier/simple.rs:6-8. *)
Definition simple := list sub.
(** src/frontier/simple.rs:10-14. *)
Definition si_new : simple := [].
(** src/frontier/simple.rs:19-21. *)
Definition si_push (f : simple) (n : sub) : simple := n :: f.
(** src/frontier/simple.rs:23-25. *)
Definition si_pop (f : simple) : option sub * simple :=
  match f with
  | [] => (None, [])
  | _ => let k := choose max_ub f in
         match nth_error f k with
         | Some x => (Some x, firstn k f ++ skipn (Datatypes.S k) f)
         | None => (None, f)
         end
  end.
(** src/frontier/simple.rs:27-29. *)
Definition si_clear (f : simple) : simple := [].
(** src/frontier/simple.rs:31-33. *)
Definition si_len (f : simple) : nat := length f.

(** One call of a method of src/frontier/simple.rs:19-33. *)
Definition si_step (f : simple) (o : fr_op) : fr_event * simple :=
  match o with
  | OpPush n => (EvPush n, si_push f n)
  | OpPop => let '(r, f') := si_pop f in (EvPop r, f')
  | OpClear => (EvClear, si_clear f)
  | OpLen => (EvLen (si_len f), f)
  end.
(** Calls one after the other (src/frontier/simple.rs:19-33). *)
Fixpoint si_run (f : simple) (ops : list fr_op) : list fr_event * simple :=
  match ops with
  | [] => ([], f)
  | o :: t =>
      let '(e, f') := si_step f o in
      let '(es, f'') := si_run f' t in
      (e :: es, f'')
  end.

End Model.

Arguments mk_nd {S}. Arguments nd_states {S}. Arguments nd_nodes {S}. Arguments nd_pos {S}.
Arguments nd_heap {S}. Arguments nd_recycle {S}. Arguments nd_new {S}. Arguments nd_len {S}.
Arguments nd_is_empty {S}. Arguments nd_clear {S}. Arguments map_get {S} eqb {V}. Arguments map_remove {S} eqb {V}.
Arguments with_ub {S}. Arguments max_ub {S}. Arguments position {S}. Arguments max_child_of {S}.
Arguments compare_at_pos {S}. Arguments swap_with {S}. Arguments bubble_up_loop {S}. Arguments bubble_up {S}.
Arguments bubble_down_loop {S}. Arguments bubble_down {S}. Arguments process_action {S}.
Arguments nd_push {S}. Arguments nd_pop {S}. Arguments nd_step {S}. Arguments nd_run {S}.
Arguments OpPush {S}. Arguments OpPop {S}. Arguments OpClear {S}. Arguments OpLen {S}.
Arguments EvPush {S}. Arguments EvPop {S}. Arguments EvClear {S}. Arguments EvLen {S}.
Arguments si_new {S}. Arguments si_push {S}. Arguments si_pop {S}. Arguments si_clear {S}. Arguments si_len {S}.
Arguments si_step {S}. Arguments si_run {S}.
