(** Property theorems C06-C10 (frontiers). *)
From Verif Require Import NoDup FrontierSpec NoDupFacts FrontierFacts.
From Coq Require Import Sorting.Permutation.

(* ------------------------------------------------------------------ *)
(** C06. Whatever the history, [pop] answers a subproblem over which nothing waiting has priority, and answers
    [None] exactly when nothing is waiting. *)
Theorem C06_nodup_pops_maximal : forall (S : Type) eqb (rank : ranking S),
  (forall a b, eqb a b = true <-> a = b) -> total_preorder rank ->
  forall ops evs f tr1 p tr2, nd_run eqb rank nd_new ops = Some (evs, f) ->
  evs = tr1 ++ EvPop (Some p) :: tr2 ->
  forall s q, In q (waiting eqb tr1 s) -> no_priority rank q p.
Proof. exact nodup_pop_max. Qed.
Print Assumptions C06_nodup_pops_maximal.

Theorem C06_nodup_pop_none_iff_empty : forall (S : Type) eqb (rank : ranking S),
  (forall a b, eqb a b = true <-> a = b) -> total_preorder rank ->
  forall ops evs f tr1 r tr2, nd_run eqb rank nd_new ops = Some (evs, f) ->
  evs = tr1 ++ EvPop r :: tr2 -> (r = None <-> forall s, waiting eqb tr1 s = []).
Proof. exact nodup_pop_none_complete. Qed.
Print Assumptions C06_nodup_pop_none_iff_empty.

(** C07. The popped subproblem summarises all the pushes of its state since that state was last popped: largest
    value with a path that came with that value, largest bound; nothing of that state is left behind. *)
Theorem C07_nodup_one_entry_per_state : forall (S : Type) eqb (rank : ranking S),
  (forall a b, eqb a b = true <-> a = b) -> total_preorder rank ->
  forall ops evs f tr1 p tr2, nd_run eqb rank nd_new ops = Some (evs, f) ->
  evs = tr1 ++ EvPop (Some p) :: tr2 ->
  let l := waiting eqb tr1 (sp_state p) in
  (forall q, In q l -> sp_state q = sp_state p /\ sp_value q <= sp_value p /\ sp_ub q <= sp_ub p) /\
  (exists q, In q l /\ sp_value q = sp_value p /\ sp_path q = sp_path p) /\
  (exists q, In q l /\ sp_ub q = sp_ub p).
Proof. exact nodup_pop_content. Qed.
Print Assumptions C07_nodup_one_entry_per_state.

(** C08. No operation ever panics, every call is answered, and [len] counts the states that are waiting. *)
Theorem C08_nodup_never_panics : forall (S : Type) eqb (rank : ranking S),
  (forall a b, eqb a b = true <-> a = b) -> total_preorder rank ->
  forall ops, exists evs f, nd_run eqb rank nd_new ops = Some (evs, f) /\ map call_of evs = ops.
Proof. exact nodup_run_total. Qed.
Print Assumptions C08_nodup_never_panics.

Theorem C08_nodup_len : forall (S : Type) eqb (rank : ranking S),
  (forall a b, eqb a b = true <-> a = b) -> total_preorder rank ->
  forall ops evs f tr1 k tr2, nd_run eqb rank nd_new ops = Some (evs, f) ->
  evs = tr1 ++ EvLen k :: tr2 ->
  exists l, NoDup l /\ length l = k /\ forall s, In s l <-> waiting eqb tr1 s <> [].
Proof. exact nodup_len. Qed.
Print Assumptions C08_nodup_len.

(** A history with duplicates, recycled slots, and pops in between. *)
Definition ex_sub (s v u : Z) : subproblem Z := mk_sub s v [mk_dec 0 s] u.
Definition ex_ops : list (fr_op Z) :=
  [OpPush (ex_sub 1 10 50); OpPush (ex_sub 2 20 60); OpPush (ex_sub 3 5 55); OpPush (ex_sub 1 30 40);
   OpPop; OpPush (ex_sub 4 7 52); OpPush (ex_sub 3 9 70); OpLen; OpPop; OpPop; OpPop; OpPop].
Example C06_C07_C08_case :
  total_preorder Z.compare /\ (forall a b, Z.eqb a b = true <-> a = b) /\
  match nd_run Z.eqb Z.compare nd_new ex_ops with
  | Some (evs, _) =>
      evs = map EvPush [ex_sub 1 10 50; ex_sub 2 20 60; ex_sub 3 5 55; ex_sub 1 30 40] ++
            [EvPop (Some (ex_sub 2 20 60)); EvPush (ex_sub 4 7 52); EvPush (ex_sub 3 9 70); EvLen 3;
             EvPop (Some (ex_sub 3 9 70)); EvPop (Some (ex_sub 4 7 52)); EvPop (Some (ex_sub 1 30 50)); EvPop None]
  | None => False
  end.
Proof.
  split; [|split; [apply Z.eqb_eq|vm_compute; reflexivity]]. split.
  - intros a b. apply Z.compare_antisym.
  - intros a b c H1 H2. rewrite Z.compare_gt_iff in *. lia.
Qed.

(* ------------------------------------------------------------------ *)
(** C09. [SimpleFrontier]: at every point of a history, the pushed subproblems are the popped ones plus a rest;
    the next pop takes one of the rest, over which none of the rest has priority; [len] counts the rest. *)
Theorem C09_simple_frontier : forall (S : Type) (rank : ranking S), total_preorder rank ->
  forall choose, heap_oracle choose ->
  forall ops evs f, si_run rank choose si_new ops = (evs, f) ->
  map call_of evs = ops /\
  forall tr1 e tr2, evs = tr1 ++ e :: tr2 ->
    exists rest, Permutation (pushed tr1) (popped tr1 ++ rest) /\
    match e with
    | EvPop None => rest = []
    | EvPop (Some p) => In p rest /\ (forall q, In q rest -> no_priority rank q p)
    | EvLen k => k = length rest
    | _ => True
    end.
Proof. exact simple_run. Qed.
Print Assumptions C09_simple_frontier.

Example C09_case : heap_oracle (@first_max (subproblem Z)) /\
  si_run Z.compare first_max si_new [OpPush (ex_sub 1 10 50); OpPush (ex_sub 2 20 60); OpPush (ex_sub 2 5 60); OpPop; OpLen] =
  ([EvPush (ex_sub 1 10 50); EvPush (ex_sub 2 20 60); EvPush (ex_sub 2 5 60); EvPop (Some (ex_sub 2 5 60)); EvLen 2],
   [ex_sub 2 20 60; ex_sub 1 10 50]).
Proof. split; [apply first_max_ok|]. vm_compute. reflexivity. Qed.

(* ------------------------------------------------------------------ *)
(** C10. [MaxUB]: the bound decides; on equal bounds the user's ranking decides; total preorder if the ranking is. *)
Theorem C10_bound_first : forall (S : Type) (rank : ranking S) a b, sp_ub a < sp_ub b -> max_ub rank a b = Lt.
Proof. exact max_ub_bound_first. Qed.
Print Assumptions C10_bound_first.
Theorem C10_ties_by_ranking : forall (S : Type) (rank : ranking S) a b, sp_ub a = sp_ub b ->
  max_ub rank a b = rank (sp_state a) (sp_state b).
Proof. exact max_ub_tie. Qed.
Print Assumptions C10_ties_by_ranking.
Theorem C10_total_preorder : forall (S : Type) (rank : ranking S), total_preorder rank -> total_preorder (max_ub rank).
Proof. exact max_ub_preorder. Qed.
Print Assumptions C10_total_preorder.
Example C10_case : max_ub Z.compare (ex_sub 9 9 1) (ex_sub 1 1 2) = Lt /\ max_ub Z.compare (ex_sub 9 1 2) (ex_sub 1 9 2) = Gt.
Proof. vm_compute. auto. Qed.
