(** Decision diagrams: what src/mdd/with_all.rs and src/mdd/with_barrier.rs have in common.
    The two files differ in a few lines of [branch_on] and [relax]; those places test a [variant]. *)
From Verif Require Export Base Flags.

(** Which of the two files is being modelled. src/mdd/with_all.rs or src/mdd/with_barrier.rs. *)
Inductive variant := VAll | VBarrier.

(** src/mdd/with_all.rs:18-31 and src/mdd/with_barrier.rs:19-35 [Node]. The fields [n_depth] and [n_theta] exist in
    with_barrier.rs only; the model of with_all.rs carries them along without ever reading them. *)
Record node (S : Type) := mk_node {
  n_state : S; n_value : Z; n_best : option nat; n_inbound : option nat;
  n_depth : nat; n_bot : Z; n_theta : Z; n_rub : Z; n_flags : flags }.
Arguments mk_node {S}. Arguments n_state {S}. Arguments n_value {S}. Arguments n_best {S}.
Arguments n_inbound {S}. Arguments n_depth {S}. Arguments n_bot {S}. Arguments n_theta {S}.
Arguments n_rub {S}. Arguments n_flags {S}.

(** src/mdd/with_all.rs:33-41 and src/mdd/with_barrier.rs:37-45 [Edge]. *)
Record edge := mk_edge { e_from : nat; e_dec : decision; e_cost : Z; e_next : option nat }.

(** src/mdd/with_all.rs:43-65 [struct All] and src/mdd/with_barrier.rs:52-77 [struct Barrier] (without the shared
    barriers, which are passed separately; [g_lel] exists in with_barrier.rs only). [next_l] is an
    association list from states to node identifiers. *)
Record dd (S : Type) := mk_dd {
  g_root_pa : list decision; g_nodes : list (node S); g_edges : list edge;
  g_prev : list nat; g_next : list (S * nat); g_cutset : list nat; g_lel : option nat;
  g_best : option nat; g_exact : bool; g_approx : bool; g_ctype : cutset_type; g_explored : nat }.
Arguments mk_dd {S}. Arguments g_root_pa {S}. Arguments g_nodes {S}. Arguments g_edges {S}.
Arguments g_prev {S}. Arguments g_next {S}. Arguments g_cutset {S}. Arguments g_lel {S}.
Arguments g_best {S}. Arguments g_exact {S}. Arguments g_approx {S}. Arguments g_ctype {S}. Arguments g_explored {S}.

(** src/prelude.rs:168-181 [CompilationInput]. *)
Record input (S : Type) := mk_in {
  i_type : comp_type; i_width : nat; i_pb : problem S; i_rx : relaxation S; i_rank : ranking S;
  i_res : subproblem S; i_lb : Z }.
Arguments mk_in {S}. Arguments i_type {S}. Arguments i_width {S}. Arguments i_pb {S}. Arguments i_rx {S}.
Arguments i_rank {S}. Arguments i_res {S}. Arguments i_lb {S}.

(** What the language and library leave open: the iteration order of the hash map [next_l] (one order per
    iteration, numbered) and the result of [sort_unstable_by] on a list of node identifiers. src/mdd/with_all.rs:288-292, 377-383. *)
Record oracle (S : Type) := mk_orc {
  o_iter : nat -> list (S * nat) -> list (S * nat);
  o_sort : (nat -> nat -> comparison) -> list nat -> list nat }.
Arguments mk_orc {S}. Arguments o_iter {S}. Arguments o_sort {S}.

(** [isize] subtraction written with the operator [-]: overflow panics in a debug build and wraps in a release build.
    src/mdd/with_all.rs:230, src/mdd/with_barrier.rs:255. *)
Definition sub_isize (debug : bool) (a b : Z) : option Z :=
  if (IMIN <=? a - b) && (a - b <=? IMAX) then Some (a - b) else if debug then None else Some (wrap_sub a b).

Section Model.
Variable S : Type.
Variable eqb : S -> S -> bool.

Notation node := (node S).
Notation dd := (dd S).

(** ** Functional update of one field *)
(** The fields are those of src/mdd/with_all.rs:43-65, src/mdd/with_barrier.rs:52-77. *)
Definition set_nodes (d : dd) (ns : list node) : dd :=
  mk_dd (g_root_pa d) ns (g_edges d) (g_prev d) (g_next d) (g_cutset d) (g_lel d) (g_best d) (g_exact d) (g_approx d) (g_ctype d) (g_explored d).
(** src/mdd/with_all.rs:43-65, field [edges]. *)
Definition set_edges (d : dd) (es : list edge) : dd :=
  mk_dd (g_root_pa d) (g_nodes d) es (g_prev d) (g_next d) (g_cutset d) (g_lel d) (g_best d) (g_exact d) (g_approx d) (g_ctype d) (g_explored d).
(** src/mdd/with_all.rs:43-65, field [prev_l]. *)
Definition set_prev (d : dd) (p : list nat) : dd :=
  mk_dd (g_root_pa d) (g_nodes d) (g_edges d) p (g_next d) (g_cutset d) (g_lel d) (g_best d) (g_exact d) (g_approx d) (g_ctype d) (g_explored d).
(** src/mdd/with_all.rs:43-65, field [next_l]. *)
Definition set_next (d : dd) (m : list (S * nat)) : dd :=
  mk_dd (g_root_pa d) (g_nodes d) (g_edges d) (g_prev d) m (g_cutset d) (g_lel d) (g_best d) (g_exact d) (g_approx d) (g_ctype d) (g_explored d).
(** src/mdd/with_all.rs:43-65, field [cutset]. *)
Definition set_cut (d : dd) (c : list nat) : dd :=
  mk_dd (g_root_pa d) (g_nodes d) (g_edges d) (g_prev d) (g_next d) c (g_lel d) (g_best d) (g_exact d) (g_approx d) (g_ctype d) (g_explored d).
(** src/mdd/with_barrier.rs:52-77, field [lel]. *)
Definition set_lel (d : dd) (l : option nat) : dd :=
  mk_dd (g_root_pa d) (g_nodes d) (g_edges d) (g_prev d) (g_next d) (g_cutset d) l (g_best d) (g_exact d) (g_approx d) (g_ctype d) (g_explored d).
(** src/mdd/with_all.rs:43-65, fields [best_n] and [exact]. *)
Definition set_best_exact (d : dd) (b : option nat) (e : bool) : dd :=
  mk_dd (g_root_pa d) (g_nodes d) (g_edges d) (g_prev d) (g_next d) (g_cutset d) (g_lel d) b e (g_approx d) (g_ctype d) (g_explored d).
(** src/mdd/with_all.rs:43-65, field [approximate]. *)
Definition set_approx (d : dd) (a : bool) : dd :=
  mk_dd (g_root_pa d) (g_nodes d) (g_edges d) (g_prev d) (g_next d) (g_cutset d) (g_lel d) (g_best d) (g_exact d) a (g_ctype d) (g_explored d).
(** src/mdd/with_all.rs:43-65, field [explored]. *)
Definition set_explored (d : dd) (x : nat) : dd :=
  mk_dd (g_root_pa d) (g_nodes d) (g_edges d) (g_prev d) (g_next d) (g_cutset d) (g_lel d) (g_best d) (g_exact d) (g_approx d) (g_ctype d) x.

(** Functional update of one field of a node (src/mdd/with_all.rs:18-31, src/mdd/with_barrier.rs:19-35). *)
Definition node_flags (n : node) (f : flags) : node :=
  mk_node (n_state n) (n_value n) (n_best n) (n_inbound n) (n_depth n) (n_bot n) (n_theta n) (n_rub n) f.
(** src/mdd/with_all.rs:273. *)
Definition node_rub (n : node) (r : Z) : node :=
  mk_node (n_state n) (n_value n) (n_best n) (n_inbound n) (n_depth n) (n_bot n) (n_theta n) r (n_flags n).
(** src/mdd/with_barrier.rs:330. *)
Definition node_theta (n : node) (t : Z) : node :=
  mk_node (n_state n) (n_value n) (n_best n) (n_inbound n) (n_depth n) (n_bot n) t (n_rub n) (n_flags n).
(** src/mdd/with_all.rs:482, 498. *)
Definition node_bot (n : node) (b : Z) : node :=
  mk_node (n_state n) (n_value n) (n_best n) (n_inbound n) (n_depth n) b (n_theta n) (n_rub n) (n_flags n).
(** src/mdd/with_all.rs:454. *)
Definition node_inbound (n : node) (i : option nat) : node :=
  mk_node (n_state n) (n_value n) (n_best n) i (n_depth n) (n_bot n) (n_theta n) (n_rub n) (n_flags n).
(** src/mdd/with_all.rs:458-459. *)
Definition node_best (n : node) (v : Z) (b : option nat) : node :=
  mk_node (n_state n) v b (n_inbound n) (n_depth n) (n_bot n) (n_theta n) (n_rub n) (n_flags n).

(** Indexing [self.nodes[id.0]]: reading, and modifying in place. As at src/mdd/with_all.rs:138 and 271. *)
Definition get_node (d : dd) (id : nat) : option node := nth_error (g_nodes d) id.
(** As at src/mdd/with_all.rs:273. *)
Definition upd_node (d : dd) (id : nat) (f : node -> node) : option dd :=
  do n <- get_node d id; do ns <- upd (g_nodes d) id (f n); Some (set_nodes d ns).

(** Lookup in [next_l]. The hash map of src/mdd/with_all.rs:43-65. *)
Fixpoint next_get (m : list (S * nat)) (s : S) : option nat :=
  match m with
  | [] => None
  | (k, v) :: t => if eqb k s then Some v else next_get t s
  end.

(** src/mdd/with_all.rs:104-118, src/mdd/with_barrier.rs:116-132 [new]. *)
Definition dd_new (ct : cutset_type) : dd := mk_dd [] [] [] [] [] [] None None true false ct 0.

(** src/mdd/with_all.rs:119-129, src/mdd/with_barrier.rs:133-144 [clear]; [prev_l] is not cleared. *)
Definition dd_clear (d : dd) : dd :=
  mk_dd [] [] [] (g_prev d) [] [] None None true false (g_ctype d) 0.

(** src/mdd/with_all.rs:136-148, src/mdd/with_barrier.rs:151-163 [has_exact_best_path]; the recursion is on fuel,
    the caller provides the number of nodes. *)
Fixpoint has_exact_best_path (fuel : nat) (d : dd) (id : option nat) : option bool :=
  match id with
  | None => Some true
  | Some i =>
      match fuel with
      | O => None
      | Datatypes.S k =>
          do n <- get_node d i;
          if is_exact (n_flags n) then Some true
          else if is_relaxed (n_flags n) then Some false
          else match n_best n with
               | None => has_exact_best_path k d None
               | Some e => do ed <- nth_error (g_edges d) e; has_exact_best_path k d (Some (e_from ed))
               end
      end
  end.

(** src/mdd/with_all.rs:131-134, src/mdd/with_barrier.rs:146-149 [_is_exact]. *)
Definition compute_exact (d : dd) (t : comp_type) : option bool :=
  if negb (g_approx d) then Some true
  else match t with
       | Relaxed => has_exact_best_path (Datatypes.S (length (g_nodes d))) d (g_best d)
       | _ => Some false
       end.

(** src/mdd/with_all.rs:150-152, src/mdd/with_barrier.rs:165-167 [_best_value]. *)
Definition best_value (d : dd) : option (option Z) :=
  match g_best d with
  | None => Some None
  | Some id => do n <- get_node d id; Some (Some (n_value n))
  end.

(** src/mdd/with_all.rs:162-176, src/mdd/with_barrier.rs:177-191 [_best_path_partial_borrow], the part after the
    root path; the loop is on fuel, the caller provides the number of nodes. *)
Fixpoint best_path_from (fuel : nat) (d : dd) (e : option nat) : option (list decision) :=
  match e with
  | None => Some []
  | Some eid =>
      match fuel with
      | O => None
      | Datatypes.S k =>
          do ed <- nth_error (g_edges d) eid;
          do n <- get_node d (e_from ed);
          do r <- best_path_from k d (n_best n);
          Some (e_dec ed :: r)
      end
  end.
(** src/mdd/with_all.rs:158-176, src/mdd/with_barrier.rs:173-191. *)
Definition best_path (d : dd) (id : nat) : option (list decision) :=
  do n <- get_node d id;
  do r <- best_path_from (Datatypes.S (length (g_nodes d))) d (n_best n);
  Some (g_root_pa d ++ r).

(** src/mdd/with_all.rs:154-160, src/mdd/with_barrier.rs:169-175 [_best_solution]. *)
Definition best_solution (d : dd) : option (option (list decision)) :=
  match g_best d with
  | None => Some None
  | Some id => do p <- best_path d id; Some (Some p)
  end.

(** src/mdd/with_all.rs:178-205, src/mdd/with_barrier.rs:193-220 [_drain_cutset]: the subproblems handed to the callback, in order. *)
Definition drain_node (d : dd) (best : Z) (id : nat) : option (list (subproblem S)) :=
  do n <- get_node d id;
  if is_marked (n_flags n) then
    let rub := sat_add (n_value n) (n_rub n) in
    let locb := sat_add (n_value n) (n_bot n) in
    let ub := Z.min (Z.min rub locb) best in
    do p <- best_path d id;
    Some [mk_sub (n_state n) (n_value n) p ub]
  else Some [].
(** src/mdd/with_all.rs:183-203, the loop. *)
Fixpoint drain_list (d : dd) (best : Z) (ids : list nat) : option (list (subproblem S)) :=
  match ids with
  | [] => Some []
  | id :: t => do a <- drain_node d best id; do b <- drain_list d best t; Some (a ++ b)
  end.
(** src/mdd/with_all.rs:178-205, the whole function. *)
Definition drain_cutset (d : dd) : option (list (subproblem S) * dd) :=
  do bv <- best_value d;
  match bv with
  | Some best => do l <- drain_list d best (g_cutset d); Some (l, set_cut d [])
  | None => Some ([], d)
  end.

(** src/mdd/with_all.rs:300-365, src/mdd/with_barrier.rs:355-420 [branch_on]. *)
Definition branch_on (v : variant) (pb : problem S) (from_id : nat) (d : dd) (dec : decision) : option dd :=
  do from <- get_node d from_id;
  let next_state := pb_trans pb (n_state from) dec in
  let cost := pb_cost pb (n_state from) dec in
  let value := sat_add (n_value from) cost in
  let edge_id := length (g_edges d) in
  match next_get (g_next d) next_state with
  | None =>
      let node_id := length (g_nodes d) in
      let es := g_edges d ++ [mk_edge from_id dec cost None] in
      let nd := mk_node next_state value (Some edge_id) (Some edge_id)
                  (Datatypes.S (n_depth from)) IMIN IMAX IMAX (n_flags from) in
      Some (set_next (set_nodes (set_edges d es) (g_nodes d ++ [nd])) ((next_state, node_id) :: g_next d))
  | Some node_id =>
      do nd0 <- get_node d node_id;
      (* with_all.rs:344-346, only there *)
      let nd := match v with
                | VAll => node_flags nd0 (set_exact (n_flags nd0) (is_exact (n_flags from) && is_exact (n_flags nd0)))
                | VBarrier => nd0
                end in
      let es := g_edges d ++ [mk_edge from_id dec cost (n_inbound nd)] in
      let nd1 := node_inbound nd (Some edge_id) in
      let nd2 :=
        match v with
        | VAll => if n_value nd1 <? value then node_best nd1 value (Some edge_id) else nd1
        | VBarrier =>  (* with_barrier.rs:413-417 *)
            if (n_value nd1 <? value) || ((value =? n_value nd1) && is_exact (n_flags from))
            then node_flags (node_best nd1 value (Some edge_id)) (n_flags from) else nd1
        end in
      do ns <- upd (g_nodes d) node_id nd2;
      Some (set_nodes (set_edges d es) ns)
  end.

(** The comparator of src/mdd/with_all.rs:377-383,401-407 and src/mdd/with_barrier.rs:432-438,457-463. The
    identifiers compared are those of the list being sorted; a missing node (which would panic) compares as equal here, and
    the callers check beforehand that all are present. *)
Definition node_cmp (rank : ranking S) (d : dd) (a b : nat) : comparison :=
  match get_node d a, get_node d b with
  | Some x, Some y => cmp_reverse (then_with (Z.compare (n_value x) (n_value y)) (rank (n_state x) (n_state y)))
  | _, _ => Eq
  end.
(** The indexing at src/mdd/with_all.rs:378-381 does not panic. *)
Definition all_present (d : dd) (l : list nat) : bool := forallb (fun i => (i <? length (g_nodes d))%nat) l.

(** src/mdd/with_all.rs:367-385, src/mdd/with_barrier.rs:422-440 [restrict]. *)
Definition restrict (orc : oracle S) (inp : input S) (d : dd) (curr : list nat) : option (dd * list nat) :=
  if all_present d curr then
    let d1 := set_approx d true in
    let sorted := o_sort orc (node_cmp (i_rank inp) d1) curr in
    Some (d1, firstn (i_width inp) sorted)
  else None.

(** src/mdd/with_all.rs:393-398, src/mdd/with_barrier.rs:448-454: the previous layer becomes the cutset. *)
Definition mark_cutset (v : variant) (d : dd) (id : nat) : option dd :=
  do d1 <- upd_node d id (fun n => node_flags n (set_cutset (n_flags n) true));
  do n <- get_node d1 id;
  Some (set_lel (set_cut d1 (g_cutset d1 ++ [id])) (match v with VBarrier => Some (n_depth n) | VAll => g_lel d1 end)).

(** src/mdd/with_all.rs:435-463, src/mdd/with_barrier.rs:496-524: redirect the inbound edges of a dropped node; the loop is
    on fuel, the caller provides the number of edges. *)
Fixpoint redirect (fuel : nat) (rx : relaxation S) (merged : S) (merged_id : nat) (dropped : node)
    (d : dd) (e : option nat) : option dd :=
  match e with
  | None => Some d
  | Some eid =>
      match fuel with
      | O => None
      | Datatypes.S k =>
          do ed <- nth_error (g_edges d) eid;
          do src <- get_node d (e_from ed);
          let rcost := rx_relax rx (n_state src) (n_state dropped) merged (e_dec ed) (e_cost ed) in
          let new_eid := length (g_edges d) in
          do m <- get_node d merged_id;
          let d1 := set_edges d (g_edges d ++ [mk_edge (e_from ed) (e_dec ed) rcost (n_inbound m)]) in
          do d2 <- upd_node d1 merged_id (fun m => node_inbound m (Some new_eid));
          do src2 <- get_node d2 (e_from ed);
          let new_value := sat_add (n_value src2) rcost in
          do m2 <- get_node d2 merged_id;
          do d3 <- (if n_value m2 <=? new_value
                    then upd_node d2 merged_id (fun m => node_best m new_value (Some new_eid))
                    else Some d2);
          redirect k rx merged merged_id dropped d3 (e_next ed)
      end
  end.

(** src/mdd/with_all.rs:434-464, src/mdd/with_barrier.rs:493-525: one dropped node. *)
Definition drop_node (v : variant) (rx : relaxation S) (merged : S) (merged_id : nat) (d : dd) (drop_id : nat) : option dd :=
  do d1 <- (match v with
            | VBarrier => upd_node d drop_id (fun n => node_flags n (set_deleted (n_flags n) true))
            | VAll => Some d
            end);
  do n <- get_node d1 drop_id;
  redirect (Datatypes.S (length (g_edges d1))) rx merged merged_id n d1 (n_inbound n).

(** The iterator given to [merge] at src/mdd/with_all.rs:411. *)
Fixpoint map_states (d : dd) (l : list nat) : option (list S) :=
  match l with
  | [] => Some []
  | i :: t => do n <- get_node d i; do r <- map_states d t; Some (n_state n :: r)
  end.

(** src/mdd/with_all.rs:387-472, src/mdd/with_barrier.rs:442-535 [relax]. [split_at_mut(max_width - 1)] panics when
    [max_width] is 0 (in a release build the difference wraps around and the split panics). *)
Definition relax (v : variant) (orc : oracle S) (inp : input S) (d : dd) (curr : list nat) : option (dd * list nat) :=
  do d1 <- (match g_ctype d with
            | LastExactLayer => if negb (g_approx d) then ofold (mark_cutset v) (g_prev d) d else Some d
            | Frontier => Some d
            end);
  if all_present d1 curr then
    let d2 := set_approx d1 true in
    let sorted := o_sort orc (node_cmp (i_rank inp) d2) curr in
    match i_width inp with
    | O => None
    | Datatypes.S w1 =>
        if (w1 <=? length sorted)%nat then
          let keep := firstn w1 sorted in
          let merge := skipn w1 sorted in
          do keep_states <- map_states d2 keep;
          do merge_states <- map_states d2 merge;
          let merged := rx_merge (i_rx inp) merge_states in
          let recycled := option_map fst (find (fun p => eqb (snd p) merged) (combine keep keep_states)) in
          do '(merged_id, d3) <-
            (match recycled with
             | Some id => Some (id, d2)
             | None =>
                 do dep <- (match v with
                            | VAll => (* no such field; the model carries it along *)
                                Some (match merge with m0 :: _ => match get_node d2 m0 with Some n0 => n_depth n0 | None => 0%nat end | [] => 0%nat end)
                            | VBarrier => do m0 <- nth_error merge 0; do n0 <- get_node d2 m0; Some (n_depth n0)
                            end);
                 Some (length (g_nodes d2),
                   set_nodes d2 (g_nodes d2 ++ [mk_node merged IMIN None None dep IMIN IMAX IMAX new_relaxed]))
             end);
          do d4 <- upd_node d3 merged_id (fun n => node_flags n (set_relaxed (n_flags n) true));
          do d5 <- ofold (drop_node v (i_rx inp) merged merged_id) merge d4;
          match recycled with
          | Some _ =>
              let l := firstn (i_width inp) sorted in
              do d6 <- (match v with
                        | VAll => Some d5
                        | VBarrier =>
                            do saved <- nth_error l w1;
                            upd_node d5 saved (fun n => node_flags n (set_deleted (n_flags n) false))
                        end);
              Some (d6, l)
          | None => Some (d5, keep ++ [merged_id])
          end
        else None
    end
  else None.

(** src/mdd/with_all.rs:270-282, src/mdd/with_barrier.rs:311-339: one node of the layer is expanded, without the updates of
    the shared barriers in with_barrier.rs (added by the model of that file). *)
Definition expand_node (v : variant) (inp : input S) (var : nat) (d : dd) (id : nat) : option dd :=
  do n <- get_node d id;
  let rub := pb_estimate (i_pb inp) (n_state n) in
  do d1 <- upd_node d id (fun n => node_rub n rub);
  do n1 <- get_node d1 id;
  let ub := sat_add rub (n_value n1) in
  if i_lb inp <? ub then
    do d2 <- ofold (branch_on v (i_pb inp) id) (pb_domain (i_pb inp) var (n_state n)) d1;
    Some (set_explored d2 (Datatypes.S (g_explored d2)))
  else match v with
       | VAll => Some d1
       | VBarrier => upd_node d1 id (fun n => node_theta n (sat_sub (i_lb inp) rub))  (* with_barrier.rs:330 *)
       end.

(** [Iterator::max_by_key] over the node identifiers of the last layer: the last of the maximal elements
    (src/mdd/with_all.rs:288-292, src/mdd/with_barrier.rs:343-347). *)
Definition max_by_value (d : dd) (l : list nat) : option (option nat) :=
  ofold (fun acc id =>
    do n <- get_node d id;
    match acc with
    | None => Some (Some id)
    | Some b => do nb <- get_node d b; Some (Some (if n_value n <? n_value nb then b else id))
    end) l None.

(** src/mdd/with_all.rs:224-241, src/mdd/with_barrier.rs:236-260: the root. *)
Definition root_dd (debug : bool) (inp : input S) (d : dd) : option dd :=
  let d0 := dd_clear d in
  let res := i_res inp in
  do rub <- sub_isize debug (sp_ub res) (sp_value res);
  let root := mk_node (sp_state res) (sp_value res) None None (length (sp_path res)) IMIN IMAX rub new_exact in
  Some (mk_dd (g_root_pa d0 ++ sp_path res) (g_nodes d0 ++ [root]) (g_edges d0) (g_prev d0)
          ((sp_state res, 0%nat) :: g_next d0) (g_cutset d0) (g_lel d0)
          (g_best d0) (g_exact d0) (g_approx d0) (g_ctype d0) (g_explored d0)).

End Model.

Arguments set_nodes {S}. Arguments set_edges {S}. Arguments set_prev {S}. Arguments set_next {S}. Arguments set_cut {S}.
Arguments set_lel {S}. Arguments set_best_exact {S}. Arguments set_approx {S}. Arguments set_explored {S}.
Arguments node_flags {S}. Arguments node_rub {S}. Arguments node_theta {S}. Arguments node_bot {S}. Arguments node_inbound {S}. Arguments node_best {S}.
Arguments get_node {S} _ _ : simpl never. Arguments upd_node {S}. Arguments next_get {S}. Arguments dd_new {S}. Arguments dd_clear {S}.
Arguments has_exact_best_path {S}. Arguments compute_exact {S}. Arguments best_value {S}. Arguments best_path_from {S}.
Arguments best_path {S}. Arguments best_solution {S}. Arguments drain_node {S}. Arguments drain_list {S}. Arguments drain_cutset {S}.
Arguments branch_on {S}. Arguments node_cmp {S}. Arguments all_present {S}. Arguments restrict {S}. Arguments mark_cutset {S}.
Arguments redirect {S}. Arguments drop_node {S}. Arguments map_states {S}. Arguments relax {S}. Arguments expand_node {S}. Arguments max_by_value {S}. Arguments root_dd {S}.
