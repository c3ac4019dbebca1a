(** Model of src/mdd/with_all.rs: compilation of a decision diagram. *)
From Verif Require Export Dd.

Section Model.
Variable S : Type.
Variable eqb : S -> S -> bool.
Variable debug : bool.

(** src/mdd/with_all.rs:244-282: one turn of the main loop once the variable is known; [None] in the second
    component means the early [return] of line 253. *)
Definition layer_step (orc : oracle S) (inp : input S) (depth : nat) (var : nat) (d : dd S) (curr : list nat)
    : option (dd S * option (list nat)) :=
  let d1 := set_prev d curr in
  let curr1 := map snd (o_iter orc (3 * depth + 1) (g_next d1)) in
  let d2 := set_next d1 [] in
  match curr1 with
  | [] => Some (d2, None)
  | _ =>
      do '(d3, curr2) <-
        (match i_type inp with
         | Exact => Some (d2, curr1)
         | Restricted => if (i_width inp <? length curr1)%nat then restrict orc inp d2 curr1 else Some (d2, curr1)
         | Relaxed => if (i_width inp <? length curr1)%nat && (1 <? depth)%nat then relax eqb VAll orc inp d2 curr1
                      else Some (d2, curr1)
         end);
      do d4 <- ofold (expand_node eqb VAll inp var) curr2 d3;
      Some (d4, Some curr2)
  end.

(** src/mdd/with_all.rs:243-285: the main loop, on fuel. The boolean tells whether the loop was left by the
    early [return]. *)
Fixpoint layers (fuel : nat) (orc : oracle S) (inp : input S) (depth : nat) (d : dd S) (curr : list nat)
    : option (dd S * bool) :=
  match fuel with
  | O => None
  | Datatypes.S k =>
      match pb_next_var (i_pb inp) (map fst (o_iter orc (3 * depth) (g_next d))) with
      | None => Some (d, false)
      | Some var =>
          do '(d1, c) <- layer_step orc inp depth var d curr;
          match c with
          | None => Some (d1, true)
          | Some curr1 => layers k orc inp (Datatypes.S depth) d1 curr1
          end
      end
  end.

(** src/mdd/with_all.rs:492-518: all the inbound edges of one visited node; on fuel (number of edges). *)
Fixpoint bounds_edges (fuel : nat) (node_id : nat) (d : dd S) (visit : list nat) (e : option nat)
    : option (dd S * list nat) :=
  match e with
  | None => Some (d, visit)
  | Some eid =>
      match fuel with
      | O => None
      | Datatypes.S k =>
          do ed <- nth_error (g_edges d) eid;
          do n <- get_node d node_id;
          let using_edge := sat_add (n_bot n) (e_cost ed) in
          do d1 <- upd_node d (e_from ed) (fun m => node_bot m (Z.max (n_bot m) using_edge));
          do m1 <- get_node d1 (e_from ed);
          do '(d2, visit2) <-
            (if negb (is_marked (n_flags m1)) then
               do d2 <- upd_node d1 (e_from ed) (fun m => node_flags m (set_marked (n_flags m) true));
               do m2 <- get_node d2 (e_from ed);
               Some (d2, if negb (is_cutset (n_flags m2)) then visit ++ [e_from ed] else visit)
             else Some (d1, visit));
          do n2 <- get_node d2 node_id;
          do m2 <- get_node d2 (e_from ed);
          do d3 <-
            (match g_ctype d2 with
             | Frontier =>
                 if is_marked (n_flags n2) && negb (is_exact (n_flags n2)) && is_exact (n_flags m2)
                    && negb (is_cutset (n_flags m2))
                 then do d3 <- upd_node d2 (e_from ed) (fun m => node_flags m (set_cutset (n_flags m) true));
                      Some (set_cut d3 (g_cutset d3 ++ [e_from ed]))
                 else Some d2
             | LastExactLayer => Some d2
             end);
          bounds_edges k node_id d3 visit2 (e_next ed)
      end
  end.

(** src/mdd/with_all.rs:490-519: one node taken from [next_v]. *)
Definition bounds_node (acc : dd S * list nat) (node_id : nat) : option (dd S * list nat) :=
  let '(d, visit) := acc in
  do n <- get_node d node_id;
  bounds_edges (Datatypes.S (length (g_edges d))) node_id d visit (n_inbound n).

(** src/mdd/with_all.rs:487-520: the [while] loop, one turn per layer; on fuel. *)
Fixpoint bounds_loop (fuel : nat) (d : dd S) (visit : list nat) : option (dd S) :=
  match visit with
  | [] => Some d
  | _ =>
      match fuel with
      | O => None
      | Datatypes.S k => do '(d1, visit1) <- ofold bounds_node visit (d, []); bounds_loop k d1 visit1
      end
  end.

(** src/mdd/with_all.rs:481-485: the nodes of the last layer. *)
Definition init_bottom (d : dd S) (id : nat) : option (dd S) :=
  upd_node d id (fun n => node_flags (node_bot n 0) (set_marked (n_flags n) true)).

(** src/mdd/with_all.rs:474-522 [compute_local_bounds]; [ids] is the iteration order of the last layer. *)
Definition compute_local_bounds (ids : list nat) (d : dd S) : option (dd S) :=
  if negb (g_exact d) then
    do d1 <- ofold init_bottom ids d;
    bounds_loop (Datatypes.S (length (g_nodes d))) d1 ids
  else Some d.

(** src/mdd/with_all.rs:288-297: after the main loop. *)
Definition finalize (orc : oracle S) (inp : input S) (depth : nat) (d : dd S) : option (dd S) :=
  do best <- max_by_value d (map snd (o_iter orc (3 * depth + 1) (g_next d)));
  let d1 := set_best_exact d best (g_exact d) in
  do ex <- compute_exact d1 (i_type inp);
  let d2 := set_best_exact d1 best ex in
  match i_type inp with
  | Relaxed => compute_local_bounds (map snd (o_iter orc (3 * depth + 2) (g_next d2))) d2
  | _ => Some d2
  end.

(** src/mdd/with_all.rs:211-298 [_compile]. The loop over layers is given [nb_variables + 2] turns. *)
Definition compile (orc : oracle S) (inp : input S) (d : dd S) : option (dd S) :=
  do d0 <- root_dd debug inp d;
  do '(d1, returned) <- layers (pb_nb_vars (i_pb inp) + 2) orc inp 0 d0 [];
  if (returned : bool) then Some d1
  else finalize orc inp (pb_nb_vars (i_pb inp) + 2) d1.

End Model.
Arguments layer_step {S}. Arguments layers {S}. Arguments bounds_edges {S}. Arguments bounds_node {S}.
Arguments bounds_loop {S}. Arguments init_bottom {S}. Arguments compute_local_bounds {S}. Arguments finalize {S}. Arguments compile {S}.
