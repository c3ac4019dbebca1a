(** Model of src/mdd/with_barrier.rs: compilation of a decision diagram that reads and writes thresholds shared with other
    compilations.
    A compilation is a program whose only visible actions are accesses to the shared thresholds; everything else is computed
    as in the rest of the model. Each access locks one layer ([RwLock]) for its own duration only, hence accesses are the
    points where other threads can interfere. *)
From Verif Require Export Dd.

(** src/mdd/with_barrier.rs:46-50 [BarrierInfo]. *)
Record info := mk_info { b_theta : Z; b_explored : bool }.

(** The shared thresholds [barriers] (src/mdd/with_barrier.rs:58): one association list per layer instead of a hash map. *)
Definition thresholds (S : Type) := list (list (S * info)).

(** Programs over the shared thresholds. [Fail] is a panic. src/mdd/with_barrier.rs:277, 284, 620, 629. *)
Inductive prog (S A : Type) : Type :=
| Ret (a : A)
| Fail
| IsEmpty (depth : nat) (k : bool -> prog S A)                  (* [barriers[depth].read().is_empty()] *)
| Get (depth : nat) (s : S) (k : option info -> prog S A)       (* [barriers[depth].read().get(s)] *)
| Put (depth : nat) (s : S) (i : info) (k : prog S A).          (* [barriers[depth].write().insert(s, i)] *)
Arguments Ret {S A}. Arguments Fail {S A}. Arguments IsEmpty {S A}. Arguments Get {S A}. Arguments Put {S A}.

(** One program after the other (the accesses of src/mdd/with_barrier.rs:277, 284, 620, 629). *)
Fixpoint pbind {S A B} (p : prog S A) (f : A -> prog S B) : prog S B :=
  match p with
  | Ret a => f a
  | Fail => Fail
  | IsEmpty d k => IsEmpty d (fun b => pbind (k b) f)
  | Get d s k => Get d s (fun r => pbind (k r) f)
  | Put d s i k => Put d s i (pbind k f)
  end.
Notation "'prg' x <- e ; f" := (pbind e (fun x => f)) (at level 200, x name, e at level 100, f at level 200).
Notation "'prg' ' p <- e ; f" := (pbind e (fun p => f)) (at level 200, p strict pattern, e at level 100, f at level 200).
(** A computation without access to the thresholds. Everything in src/mdd/with_barrier.rs:226-631 but the accesses. *)
Definition pure {S A} (o : option A) : prog S A := match o with Some a => Ret a | None => Fail end.

(** [for] loops. As the loops of src/mdd/with_barrier.rs:226-631. *)
Fixpoint pfold {S A B} (f : A -> B -> prog S A) (l : list B) (a : A) : prog S A :=
  match l with
  | [] => Ret a
  | x :: t => prg a1 <- f a x; pfold f t a1
  end.

Section Model.
Variable S : Type.
Variable eqb : S -> S -> bool.
Notation dd := (dd S).
Notation node := (node S).
Notation prog := (prog S).

(** ** The accesses *)
(** [get] at src/mdd/with_barrier.rs:284, 620. *)
Fixpoint tget (l : list (S * info)) (s : S) : option info :=
  match l with
  | [] => None
  | (k, v) :: t => if eqb k s then Some v else tget t s
  end.
(** [insert] at src/mdd/with_barrier.rs:629. *)
Fixpoint tput (l : list (S * info)) (s : S) (i : info) : list (S * info) :=
  match l with
  | [] => [(s, i)]
  | (k, v) :: t => if eqb k s then (k, i) :: t else (k, v) :: tput t s i
  end.
(** [is_empty] at src/mdd/with_barrier.rs:277. *)
Definition is_nil {A} (l : list A) : bool := match l with [] => true | _ => false end.

(** One access: the rest of the program and the new thresholds. [Ret] and [Fail] make none; indexing [barriers] out of range
    panics. src/mdd/with_barrier.rs:277, 284, 620, 629. *)
Definition access {A} (p : prog A) (T : thresholds S) : option (prog A * thresholds S) :=
  match p with
  | Ret _ | Fail => None
  | IsEmpty d k => do l <- nth_error T d; Some (k (is_nil l), T)
  | Get d s k => do l <- nth_error T d; Some (k (tget l s), T)
  | Put d s i k => do l <- nth_error T d; do T' <- upd T d (tput l s i); Some (k, T')
  end.

(** The program alone: what it returns and the thresholds it leaves. A call of src/mdd/with_barrier.rs:226 with no other thread. *)
Fixpoint alone {A} (p : prog A) (T : thresholds S) : option (A * thresholds S) :=
  match p with
  | Ret a => Some (a, T)
  | Fail => None
  | IsEmpty d k => do l <- nth_error T d; alone (k (is_nil l)) T
  | Get d s k => do l <- nth_error T d; alone (k (tget l s)) T
  | Put d s i k => do l <- nth_error T d; do T' <- upd T d (tput l s i); alone k T'
  end.

(** ** The compilation *)

(** src/mdd/with_barrier.rs:613-631 [try_update_barrier]. Reading and writing are two accesses. *)
Definition try_update_barrier (d : dd) (depth : nat) (s : S) (theta : Z) (explored : bool) : prog unit :=
  if match g_ctype d, g_lel d with LastExactLayer, Some l => (l <? depth)%nat | _, _ => false end then Ret tt
  else Get depth s (fun r =>
    if match r with
       | None => true
       | Some i => (b_theta i <? theta)%Z || ((theta =? b_theta i)%Z && negb (b_explored i) && explored)
       end
    then Put depth s (mk_info theta explored) (Ret tt) else Ret tt).

(** src/mdd/with_barrier.rs:279-294: the closure given to [retain_mut], on one node; the boolean tells whether it is kept. *)
Definition retain_node (depth : nat) (d : dd) (id : nat) : prog (dd * bool) :=
  prg n <- pure (get_node d id);
  if is_relaxed (n_flags n) then Ret (d, true)
  else Get depth (n_state n) (fun r =>
    let theta := match r with Some i => b_theta i | None => IMIN end in
    if (theta <? n_value n)%Z then Ret (d, true)
    else prg d1 <- pure (upd_node d id (fun n => node_flags (node_theta n theta) (set_pruned_by_barrier (n_flags n) true)));
         Ret (d1, false)).
(** src/mdd/with_barrier.rs:279-294, the whole vector. *)
Fixpoint retain (depth : nat) (d : dd) (l : list nat) : prog (dd * list nat) :=
  match l with
  | [] => Ret (d, [])
  | id :: t => prg '(d1, b) <- retain_node depth d id;
               prg '(d2, r) <- retain depth d1 t;
               Ret (d2, if (b : bool) then id :: r else r)
  end.

(** src/mdd/with_barrier.rs:277-295. *)
Definition prune (root_depth depth : nat) (d : dd) (curr : list nat) : prog (dd * list nat) :=
  if (root_depth <? depth)%nat then IsEmpty depth (fun e => if e then Ret (d, curr) else retain depth d curr)
  else Ret (d, curr).

(** src/mdd/with_barrier.rs:297-309. *)
Definition shrink (orc : oracle S) (inp : input S) (root_depth depth : nat) (d : dd) (curr : list nat) : option (dd * list nat) :=
  match i_type inp with
  | Exact => Some (d, curr)
  | Restricted => if (i_width inp <? length curr)%nat then restrict orc inp d curr else Some (d, curr)
  | Relaxed => if (i_width inp <? length curr)%nat && (root_depth + 1 <? depth)%nat then relax eqb VBarrier orc inp d curr
               else Some (d, curr)
  end.

(** src/mdd/with_barrier.rs:311-337: one node of the layer; [expand_node] does all but the update of the thresholds. *)
Definition expand_one (inp : input S) (var depth : nat) (d : dd) (id : nat) : prog dd :=
  prg n <- pure (get_node d id);
  prg d1 <- pure (expand_node eqb VBarrier inp var d id);
  prg n1 <- pure (get_node d1 id);
  match i_type inp with
  | Relaxed =>
      if is_exact (n_flags n1) then
        let ub := sat_add (pb_estimate (i_pb inp) (n_state n)) (n_value n) in
        prg _ <- try_update_barrier d1 depth (n_state n) (if (i_lb inp <? ub)%Z then n_value n1 else n_theta n1) false;
        Ret d1
      else Ret d1
  | _ => Ret d1
  end.

(** src/mdd/with_barrier.rs:265-339: one turn of the main loop once the variable is known; [None] in the second
    component means the early [return] of line 274. *)
Definition layer_step (orc : oracle S) (inp : input S) (root_depth depth var : nat) (d : dd) (curr : list nat)
    : prog (dd * option (list nat)) :=
  let d1 := set_prev d curr in
  let curr1 := map snd (o_iter orc (3 * depth + 1) (g_next d1)) in
  let d2 := set_next d1 [] in
  match curr1 with
  | [] => Ret (d2, None)
  | _ =>
      prg '(d3, curr2) <- prune root_depth depth d2 curr1;
      prg '(d4, curr3) <- pure (shrink orc inp root_depth depth d3 curr2);
      prg d5 <- pfold (expand_one inp var depth) curr3 d4;
      Ret (d5, Some curr3)
  end.

(** src/mdd/with_barrier.rs:264-340: the main loop, on fuel. The boolean tells whether the loop was left by the
    early [return]. *)
Fixpoint layers (fuel : nat) (orc : oracle S) (inp : input S) (root_depth depth : nat) (d : dd) (curr : list nat)
    : prog (dd * bool) :=
  match fuel with
  | O => Fail
  | Datatypes.S k =>
      match pb_next_var (i_pb inp) (map fst (o_iter orc (3 * depth) (g_next d))) with
      | None => Ret (d, false)
      | Some var =>
          prg '(d1, c) <- layer_step orc inp root_depth depth var d curr;
          match c with
          | None => Ret (d1, true)
          | Some curr1 => layers k orc inp root_depth (Datatypes.S depth) d1 curr1
          end
      end
  end.

(** src/mdd/with_barrier.rs:538-548: one node of the last layer. *)
Definition init_bottom (d : dd) (id : nat) : option dd :=
  do d1 <- upd_node d id (fun n => node_flags (node_bot n 0) (set_marked (n_flags n) true));
  do n <- get_node d1 id;
  if match g_ctype d1 with LastExactLayer => negb (g_approx d1) | Frontier => is_exact (n_flags n) end
  then upd_node d1 id (fun n => node_flags n (set_cutset (n_flags n) true))
  else Some d1.

(** src/mdd/with_barrier.rs:558-567: the threshold of a node of the cutset. *)
Definition cut_theta (lb : Z) (n : node) : node :=
  if is_cutset (n_flags n) then
    if (sat_add (n_value n) (n_bot n) <? lb)%Z then node_theta n (Z.min (n_theta n) (sat_sub lb (n_bot n)))
    else node_theta n (Z.min (n_theta n) (n_value n))
  else n.

(** src/mdd/with_barrier.rs:583-606: one inbound edge of a node. *)
Definition edge_step (node_id : nat) (d : dd) (ed : edge) : option dd :=
  do n <- get_node d node_id;
  do d1 <- (if is_marked (n_flags n) then
              upd_node d (e_from ed) (fun m =>
                node_flags (node_bot m (Z.max (n_bot m) (sat_add (n_bot n) (e_cost ed)))) (set_marked (n_flags m) true))
            else Some d);
  do n1 <- get_node d1 node_id;
  do d2 <- upd_node d1 (e_from ed) (fun m => node_theta m (Z.min (n_theta m) (sat_sub (n_theta n1) (e_cost ed))));
  do n2 <- get_node d2 node_id;
  do m2 <- get_node d2 (e_from ed);
  match g_ctype d2 with
  | Frontier =>
      if is_marked (n_flags n2) && negb (is_exact (n_flags n2)) && is_exact (n_flags m2) && negb (is_cutset (n_flags m2))
      then do d3 <- upd_node d2 (e_from ed) (fun m => node_flags m (set_cutset (n_flags m) true));
           Some (set_cut d3 (g_cutset d3 ++ [e_from ed]))
      else Some d2
  | LastExactLayer => Some d2
  end.

(** src/mdd/with_barrier.rs:581-609: all the inbound edges of one node; on fuel (number of edges). *)
Fixpoint edges_loop (fuel : nat) (node_id : nat) (d : dd) (e : option nat) : option dd :=
  match e with
  | None => Some d
  | Some eid =>
      match fuel with
      | O => None
      | Datatypes.S k =>
          do ed <- nth_error (g_edges d) eid;
          do d1 <- edge_step node_id d ed;
          edges_loop k node_id d1 (e_next ed)
      end
  end.

(** src/mdd/with_barrier.rs:552-610: one node. *)
Definition bottom_up_node (lb : Z) (d : dd) (id : nat) : prog dd :=
  prg n <- pure (get_node d id);
  if is_deleted (n_flags n) then Ret d
  else
    prg d1 <- pure (upd_node d id (cut_theta lb));
    prg n1 <- pure (get_node d1 id);
    prg _ <- (if is_exact (n_flags n1) && negb (is_pruned_by_barrier (n_flags n1))
              then try_update_barrier d1 (n_depth n1) (n_state n1) (n_theta n1) (negb (is_cutset (n_flags n1)))
              else Ret tt);
    pure (edges_loop (Datatypes.S (length (g_edges d1))) id d1 (n_inbound n1)).

(** src/mdd/with_barrier.rs:537-611 [compute_local_bounds_and_theta]; [ids] is the iteration order of the last layer. *)
Definition compute_local_bounds_and_theta (lb : Z) (ids : list nat) (d : dd) : prog dd :=
  prg d1 <- pure (ofold init_bottom ids d);
  pfold (bottom_up_node lb) (rev (seq 0 (length (g_nodes d1)))) d1.

(** src/mdd/with_barrier.rs:343-352: after the main loop. *)
Definition finalize (orc : oracle S) (inp : input S) (depth : nat) (d : dd) : prog dd :=
  prg best <- pure (max_by_value d (map snd (o_iter orc (3 * depth + 1) (g_next d))));
  let d1 := set_best_exact d best (g_exact d) in
  prg ex <- pure (compute_exact d1 (i_type inp));
  let d2 := set_best_exact d1 best ex in
  match i_type inp with
  | Relaxed => compute_local_bounds_and_theta (i_lb inp) (map snd (o_iter orc (3 * depth + 2) (g_next d2))) d2
  | _ => Ret d2
  end.

(** src/mdd/with_barrier.rs:226-353 [_compile]. The loop over layers is given [nb_variables + 2] turns. *)
Definition compile (debug : bool) (orc : oracle S) (inp : input S) (d : dd) : prog dd :=
  prg d0 <- pure (root_dd debug inp d);
  let root_depth := length (g_root_pa d0) in
  prg '(d1, returned) <- layers (pb_nb_vars (i_pb inp) + 2) orc inp root_depth root_depth d0 [];
  if (returned : bool) then Ret d1
  else finalize orc inp (root_depth + pb_nb_vars (i_pb inp) + 2) d1.

End Model.
Arguments tget {S}. Arguments tput {S}. Arguments access {S} _ {A}. Arguments alone {S} _ {A}. Arguments try_update_barrier {S}.
Arguments retain_node {S}. Arguments retain {S}. Arguments prune {S}. Arguments shrink {S}. Arguments expand_one {S}.
Arguments layer_step {S}. Arguments layers {S}. Arguments init_bottom {S}. Arguments cut_theta {S}. Arguments edge_step {S}.
Arguments edges_loop {S}. Arguments bottom_up_node {S}. Arguments compute_local_bounds_and_theta {S}. Arguments finalize {S}.
Arguments compile {S}.
