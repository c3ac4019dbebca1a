(** Model of the TSPTW example: examples/tsptw/{instance,state,model,relax,heuristics}.rs. [usize] quantities (times, distances)
    are integers; additions are exact (instances are assumed small enough, see [tw_inst_ok] in TsptwSpec.v); indexing, [unwrap] and, in
    a debug build, subtractions have the error value [None]. *)
From Verif Require Export Base Bits Matrix.
Open Scope Z_scope.

(** [usize::max_value()]. examples/tsptw/model.rs:56, 196; examples/tsptw/relax.rs:54. *)
Definition UMAX : Z := 2 ^ 64 - 1.

(** examples/tsptw/instance.rs:30-40 [TimeWindow] and 43-51 [TsptwInstance]; the reading of files is in
    TsptwFile.v. *)
Record window := mk_window { w_earliest : Z; w_latest : Z }.
(** examples/tsptw/instance.rs:43-51. *)
Record tw_inst := mk_tw { tw_n : nat; tw_dist : matrix Z; tw_win : list window }.

(** examples/tsptw/state.rs:49-56 [Position] and 58-70 [ElapsedTime]. *)
Inductive position := AtNode (i : nat) | Virtual (b : N).
(** examples/tsptw/state.rs:58-70. *)
Inductive elapsed := FixedAmount (duration : Z) | FuzzyAmount (earliest latest : Z).

(** examples/tsptw/state.rs:34-47 [State]. *)
Record tw_state := mk_tws {
  tw_pos : position; tw_el : elapsed; tw_must : N; tw_maybe : option N; tw_depth : nat }.

(** examples/tsptw/state.rs:33: the derived equality. *)
Definition position_eqb (a b : position) : bool :=
  match a, b with AtNode i, AtNode j => Nat.eqb i j | Virtual x, Virtual y => N.eqb x y | _, _ => false end.
(** examples/tsptw/state.rs:58-70: the derived equality. *)
Definition elapsed_eqb (a b : elapsed) : bool :=
  match a, b with
  | FixedAmount d, FixedAmount d' => Z.eqb d d'
  | FuzzyAmount e l, FuzzyAmount e' l' => Z.eqb e e' && Z.eqb l l'
  | _, _ => false
  end.
(** examples/tsptw/state.rs:34-47: the equality of [maybe_visit]. *)
Definition opt_eqb {A} (f : A -> A -> bool) (a b : option A) : bool :=
  match a, b with Some x, Some y => f x y | None, None => true | _, _ => false end.
(** examples/tsptw/state.rs:33-47: the derived equality. *)
Definition tw_eqb (a b : tw_state) : bool :=
  position_eqb (tw_pos a) (tw_pos b) && elapsed_eqb (tw_el a) (tw_el b) && N.eqb (tw_must a) (tw_must b) &&
  opt_eqb N.eqb (tw_maybe a) (tw_maybe b) && Nat.eqb (tw_depth a) (tw_depth b).

(** examples/tsptw/state.rs:72-79 [add_duration] and 89-94 [earliest]. *)
Definition add_duration (e : elapsed) (d : Z) : elapsed :=
  match e with FixedAmount x => FixedAmount (x + d) | FuzzyAmount x y => FuzzyAmount (x + d) (y + d) end.
(** examples/tsptw/state.rs:89-94. *)
Definition el_earliest (e : elapsed) : Z := match e with FixedAmount d => d | FuzzyAmount x _ => x end.

Section Model.
Variable debug : bool.   (* debug or release build *)
Variable I : tw_inst.
Let n := tw_n I.

(** examples/tsptw/model.rs:307-316 [min_distance_to] and 317-326 [max_distance_to]. *)
Definition min_distance_to (s : tw_state) (j : nat) : option Z :=
  match tw_pos s with
  | AtNode i => mat_get (tw_dist I) i j
  | Virtual c => do l <- omap (fun i => mat_get (tw_dist I) i j) (bs_iter n c); zmin_of l
  end.
(** examples/tsptw/model.rs:317-326. *)
Definition max_distance_to (s : tw_state) (j : nat) : option Z :=
  match tw_pos s with
  | AtNode i => mat_get (tw_dist I) i j
  | Virtual c => do l <- omap (fun i => mat_get (tw_dist I) i j) (bs_iter n c); zmax_of l
  end.

(** examples/tsptw/model.rs:261-268 [can_move_to]. *)
Definition can_move_to (s : tw_state) (j : nat) : option bool :=
  do w <- nth_error (tw_win I) j;
  do d <- min_distance_to s j;
  Some (match add_duration (tw_el s) d with
        | FixedAmount x => x <=? w_latest w
        | FuzzyAmount x _ => x <=? w_latest w
        end).

(** examples/tsptw/model.rs:269-306 [arrival_time]. *)
Definition arrival_time (s : tw_state) (j : nat) : option elapsed :=
  do dmin <- min_distance_to s j;
  do dmax <- max_distance_to s j;
  let min_arrival := match add_duration (tw_el s) dmin with FixedAmount x => x | FuzzyAmount x _ => x end in
  let max_arrival := match add_duration (tw_el s) dmax with FixedAmount x => x | FuzzyAmount _ y => y end in
  let arrival := if min_arrival =? max_arrival then FixedAmount min_arrival else FuzzyAmount min_arrival max_arrival in
  do w <- nth_error (tw_win I) j;
  Some (match arrival with
        | FixedAmount x => FixedAmount (Z.max x (w_earliest w))
        | FuzzyAmount x y =>
            let x' := Z.max x (w_earliest w) in
            let y' := Z.min y (w_latest w) in
            if x' =? y' then FixedAmount x' else FuzzyAmount x' y'
        end).

(** examples/tsptw/model.rs:118-122: the loop that gives up as soon as a city that must be visited is out of reach. *)
Fixpoint all_reachable (s : tw_state) (l : list nat) : option bool :=
  match l with
  | [] => Some true
  | i :: t => do b <- can_move_to s i; if b then all_reachable s t else Some false
  end.

(** examples/tsptw/model.rs:99-130 [for_each_in_domain]: the decisions handed to the callback, in order. *)
Definition tw_domain (var : nat) (s : tw_state) : option (list decision) :=
  do last <- usub debug (Z.of_nat n) 1;
  if Z.of_nat (tw_depth s) =? last then
    do b <- can_move_to s 0;
    Some (if b then [mk_dec var 0] else [])
  else
    do ok <- all_reachable s (bs_iter n (tw_must s));
    if ok then
      do extra <- match tw_maybe s with Some m => ofilter (can_move_to s) (bs_iter n m) | None => Some [] end;
      Some (map (fun i => mk_dec var (Z.of_nat i)) (bs_iter n (tw_must s) ++ extra))
    else Some [].

(** examples/tsptw/model.rs:132-151 [transition]. [BitSet::set] panics out of range. *)
Definition tw_trans (s : tw_state) (d : decision) : option tw_state :=
  let j := Z.to_nat (d_val d) in
  if (j <? n)%nat then
    do time <- arrival_time s j;
    Some (mk_tws (AtNode j) time (bs_off (tw_must s) j) (option_map (fun m => bs_off m j) (tw_maybe s)) (S (tw_depth s)))
  else None.

(** examples/tsptw/model.rs:153-175 [transition_cost]. *)
Definition tw_cost (s : tw_state) (d : decision) : option Z :=
  let j := Z.to_nat (d_val d) in
  do w <- nth_error (tw_win I) j;
  do travel <- min_distance_to s j;
  let waiting := match tw_el s with
                 | FixedAmount x => if x + travel <? w_earliest w then w_earliest w - (x + travel) else 0
                 | FuzzyAmount x _ => if x + travel <? w_earliest w then w_earliest w - (x + travel) else 0
                 end in
  Some (- (travel + waiting)).

(** examples/tsptw/model.rs:177-190 [next_variable]. *)
Definition tw_next_var (l : list tw_state) : option nat :=
  match l with
  | [] => None
  | s :: _ => if (tw_depth s =? n)%nat then None else Some (tw_depth s)
  end.

(** examples/tsptw/model.rs:52-66 [compute_cheapest_edges]: the cheapest edge into each node. *)
Definition cheapest_edge (i : nat) : option Z :=
  ofold (fun m j => if (i =? j)%nat then Some m else do d <- mat_get (tw_dist I) j i; Some (Z.min m d)) (seq 0 n) UMAX.
(** examples/tsptw/model.rs:52-66, the outer loop. *)
Definition cheapest_edges : option (list Z) := omap cheapest_edge (seq 0 n).

(** examples/tsptw/model.rs:199-208: one city that must be visited; [None] is a panic, [Some None] the early
    [return isize::min_value()]. *)
Definition est_must (cheapest : list Z) (s : tw_state) (acc : Z * Z * Z) (i : nat) : option (option (Z * Z * Z)) :=
  let '(complete, mandatory, back) := acc in
  do complete' <- usub debug complete 1;
  do c <- nth_error cheapest i;
  do d <- mat_get (tw_dist I) i 0;
  do w <- nth_error (tw_win I) i;
  if w_latest w <? el_earliest (add_duration (tw_el s) c) then Some None
  else Some (Some (complete', mandatory + c, Z.min back d)).
(** examples/tsptw/model.rs:199-208, the loop. *)
Fixpoint est_musts (cheapest : list Z) (s : tw_state) (l : list nat) (acc : Z * Z * Z) : option (option (Z * Z * Z)) :=
  match l with
  | [] => Some (Some acc)
  | i :: t => do r <- est_must cheapest s acc i;
              match r with None => Some None | Some acc' => est_musts cheapest s t acc' end
  end.
(** examples/tsptw/model.rs:213-222: one city that may be visited: [temp], [back_to_depot] and [violations]. *)
Definition est_maybe (cheapest : list Z) (s : tw_state) (acc : list Z * Z * Z) (i : nat) : option (list Z * Z * Z) :=
  let '(temp, back, viol) := acc in
  do c <- nth_error cheapest i;
  do d <- mat_get (tw_dist I) i 0;
  do w <- nth_error (tw_win I) i;
  Some (temp ++ [c], Z.min back d, if w_latest w <? el_earliest (add_duration (tw_el s) c) then viol + 1 else viol).

(** examples/tsptw/model.rs:192-257 [estimate]. *)
Definition tw_estimate (s : tw_state) : option Z :=
  do cheapest <- cheapest_edges;
  do complete0 <- usub debug (Z.of_nat n) (Z.of_nat (tw_depth s));
  do r <- est_musts cheapest s (bs_iter n (tw_must s)) (complete0, 0, UMAX);
  match r with
  | None => Some IMIN
  | Some (complete, mandatory, back) =>
      do r2 <- match tw_maybe s with
               | None => Some (Some (mandatory, back))
               | Some m =>
                   do ' (temp, back', viol) <- ofold (est_maybe cheapest s) (bs_iter n m) ([], back, 0);
                   do free <- usub debug (Z.of_nat (length temp)) viol;
                   if free <? complete then Some None
                   else Some (Some (mandatory + zsum (take complete (zsort temp)), back'))
               end;
      match r2 with
      | None => Some IMIN
      | Some (mandatory, back) =>
          do back' <- (if mandatory =? 0 then
                         do d <- match tw_pos s with
                                 | AtNode x => mat_get (tw_dist I) x 0
                                 | Virtual bs => do l <- omap (fun x => mat_get (tw_dist I) x 0) (bs_iter n bs); zmin_of l
                                 end;
                         Some (Z.min back d)
                       else Some back);
          let total := mandatory + back' in
          do w0 <- nth_error (tw_win I) 0;
          Some (if w_latest w0 <? el_earliest (add_duration (tw_el s) total) then IMIN else - total)
      end
  end.

(** examples/tsptw/model.rs:39-50 [new]: the initial state. *)
Definition tw_init : tw_state := mk_tws (AtNode 0) (FixedAmount 0) (bs_off (bs_all n) 0) None 0.

(** examples/tsptw/model.rs:84-258 [impl Problem for Tsptw]. Where a function panics the record holds a placeholder; the
    theorems of TsptwFacts.v show that this is not used. *)
Definition tw_problem : problem tw_state := {|
  pb_nb_vars := n;
  pb_init := tw_init;
  pb_init_val := 0;
  pb_next_var := tw_next_var;
  pb_domain := fun v s => or_else [] (tw_domain v s);
  pb_trans := fun s d => or_else s (tw_trans s d);
  pb_cost := fun s d => or_else 0 (tw_cost s d);
  pb_estimate := fun s => or_else 0 (tw_estimate s) |}.

(** examples/tsptw/relax.rs:40-60 [RelaxHelper] and [new]. *)
Record tw_helper := mk_twh {
  h_depth : nat; h_pos : N; h_earliest : Z; h_latest : Z; h_must : N; h_agree : N; h_maybe : N }.
(** examples/tsptw/relax.rs:40-60. *)
Definition helper_new : tw_helper := mk_twh 0 bs_none UMAX 0 bs_none (bs_all n) bs_none.

(** examples/tsptw/relax.rs:61-90 [track_depth], [track_position], [track_elapsed], [track_must_visit], [track_maybe], in
    the order in which [merge] calls them (128-134). *)
Definition helper_track (h : tw_helper) (s : tw_state) : tw_helper :=
  mk_twh
    (Nat.max (h_depth h) (tw_depth s))
    (match tw_pos s with AtNode x => bs_on (h_pos h) x | Virtual xs => N.lor (h_pos h) xs end)
    (match tw_el s with FixedAmount d => Z.min (h_earliest h) d | FuzzyAmount e _ => Z.min (h_earliest h) e end)
    (match tw_el s with FixedAmount d => Z.max (h_latest h) d | FuzzyAmount _ l => Z.max (h_latest h) l end)
    (N.lor (h_must h) (tw_must s))
    (N.land (h_agree h) (tw_must s))
    (match tw_maybe s with Some m => N.lor (h_maybe h) m | None => h_maybe h end).

(** examples/tsptw/relax.rs:92-119 the getters, and 125-143 [merge]. *)
Definition tw_merge (l : list tw_state) : tw_state :=
  let h := fold_left helper_track l helper_new in
  let maybe := N.lxor (N.lor (h_maybe h) (h_must h)) (h_agree h) in
  mk_tws
    (Virtual (h_pos h))
    (if h_earliest h =? h_latest h then FixedAmount (h_earliest h) else FuzzyAmount (h_earliest h) (h_latest h))
    (h_agree h)
    (if (0 <? bs_count n maybe)%nat then Some maybe else None)
    (h_depth h).

(** examples/tsptw/relax.rs:122-148 [impl Relaxation for TsptwRelax]. *)
Definition tw_relax : relaxation tw_state := {|
  rx_merge := tw_merge;
  rx_relax := fun _ _ _ _ cost => cost |}.

(** examples/tsptw/heuristics.rs:8-14 [TsptwRanking] and 25-29 [TsptwWidth]. *)
Definition tw_rank : ranking tw_state := fun a b => Nat.compare (tw_depth a) (tw_depth b).
(** examples/tsptw/heuristics.rs:25-29. *)
Definition tw_width (factor : nat) (s : tw_state) : nat := (n * (tw_depth s + 1) * factor)%nat.
End Model.
