(** Model of the PSP example (pigment sequencing): examples/psp/psp.rs. [usize], [isize] and [i32] quantities are integers;
    additions and products are exact (instances are assumed small enough, see [psp_ok] in PspSpec.v) except the final cast of the
    estimate; indexing and, in a debug build, the subtraction of the estimate have the error value [None]. *)
From Verif Require Export Base Bits Matrix.
Open Scope Z_scope.

(** The contents of an instance file as read by examples/psp/psp.rs:373-412: the number of periods and of items, the changeover
    costs (row: item produced first, column: item produced next), the stocking costs, and for each item the line of its
    demands. Reading the text is modelled in PspFile.v. *)
Record psp_data := mk_pd {
  pd_T : nat; pd_n : nat; pd_change : matrix Z; pd_stock : list Z; pd_dem : list (list Z) }.

(** examples/psp/psp.rs:99-115 [Psp] ([optimum] and [nb_orders] are only printed; the thread-local buffers are overwritten
    by each use before being read, see [ideal_stocking]). *)
Record psp := mk_psp {
  ps_T : nat; ps_n : nat; ps_change : matrix Z; ps_stock : list Z; ps_prev : matrix Z; ps_rem : matrix Z; ps_mst : list Z }.

(** examples/psp/psp.rs:20-27 [State]; [k] and the entries of [u] are -1 where there is none. *)
Record psp_state := mk_pst { pt_time : nat; pt_k : Z; pt_u : list Z }.

(** examples/psp/psp.rs:17-18. *)
Definition IDLE : Z := -1.
(** examples/psp/psp.rs:17-18. *)
Definition BOT : Z := -1.

(** examples/psp/psp.rs:20: the derived equality. *)
Fixpoint zlist_eqb (a b : list Z) : bool :=
  match a, b with
  | [], [] => true
  | x :: s, y :: t => Z.eqb x y && zlist_eqb s t
  | _, _ => false
  end.
(** examples/psp/psp.rs:20-27. *)
Definition psp_eqb (a b : psp_state) : bool :=
  Nat.eqb (pt_time a) (pt_time b) && Z.eqb (pt_k a) (pt_k b) && zlist_eqb (pt_u a) (pt_u b).

(** *** Tables (examples/psp/psp.rs:414-452) *)

(** examples/psp/psp.rs:428-449, the entries written in row [i] of [prev_demand]: at each period the last period with a
    demand before it, and, after the last one, the last period with a demand ([last_period] starts at [BOT]). The code
    assigns the entries of a zeroed matrix one by one (see PspFile.v); here the row is produced as a list. *)
Fixpoint prev_row (period : nat) (last : Z) (ds : list Z) : list Z :=
  match ds with
  | [] => [last]
  | d :: t => last :: prev_row (S period) (if 0 <? d then Z.of_nat period else last) t
  end.

(** examples/psp/psp.rs:433-441, row [i] of [rem_demand]: the number of periods with a demand so far, this one
    included. *)
Fixpoint rem_row (count : Z) (ds : list Z) : list Z :=
  match ds with
  | [] => []
  | d :: t => let count' := if 0 <? d then count + 1 else count in count' :: rem_row count' t
  end.

(** examples/psp/psp.rs:414-415 with the rows above: [prev_demand] has [nb_periods + 1] columns, [rem_demand] has
    [nb_periods]. For lines with another number of demands see PspFile.v. *)
Definition prev_table (d : psp_data) : matrix Z :=
  mk_mat (pd_n d) (S (pd_T d)) (concat (map (prev_row 0 BOT) (pd_dem d))).
(** examples/psp/psp.rs:414-415. *)
Definition rem_table (d : psp_data) : matrix Z :=
  mk_mat (pd_n d) (pd_T d) (concat (map (rem_row 0) (pd_dem d))).

(** *** Bound on the changeovers: examples/psp/psp.rs:293-341 *)

(** examples/psp/psp.rs:310-319, the edges pushed for a set of vertices. A [Set32] (external crate smallbitset) is the number
    whose binary digits it holds, iterated in increasing order. *)
Definition mst_edges (debug : bool) (ch : matrix Z) (n : nat) (vs : N) : option (list (Z * nat * nat)) :=
  do rows <- omap (fun i => omap (fun j => do a <- pmat_get debug ch i j; do b <- pmat_get debug ch j i; Some (Z.min a b, i, j))
                                 (filter (fun j => negb (Nat.eqb i j)) (bs_iter n vs))) (bs_iter n vs);
  Some (concat rows).

(** examples/psp/psp.rs:321-340, walking the sorted vector; the result is [total - edge_max], which is not negative
    ([mst_ok] in PspEstimate.v). *)
Fixpoint mst_scan (heap : list (Z * nat * nat)) (vs : N) (total edge_max : Z) : Z :=
  if N.eqb vs 0 then total - edge_max
  else match heap with
       | [] => total - edge_max
       | (l, i, j) :: rest =>
           if bs_get vs i || bs_get vs j then mst_scan rest (bs_off (bs_off vs i) j) (total + l) (Z.max edge_max l)
           else mst_scan rest vs total edge_max
       end.

(** examples/psp/psp.rs:305-341 [mst] and 293-304 [precompute_all_mst]. The vector of edges is shared by all calls and never
    cleared; [sort] is [sort_unstable_by_key], whose order of ties is not specified. *)
Definition mst_one (debug : bool) (sort : list (Z * nat * nat) -> list (Z * nat * nat)) (ch : matrix Z) (n : nat)
    (acc : list (Z * nat * nat) * list Z) (i : nat) : option (list (Z * nat * nat) * list Z) :=
  let '(heap, out) := acc in
  do es <- mst_edges debug ch n (N.of_nat i);
  let heap := sort (heap ++ es) in
  Some (heap, out ++ [mst_scan heap (N.of_nat i) 0 0]).
(** examples/psp/psp.rs:293-304. *)
Definition precompute_all_mst (debug : bool) (sort : list (Z * nat * nat) -> list (Z * nat * nat)) (n : nat) (ch : matrix Z) :
    option (list Z) :=
  do ' (_, out) <- ofold (mst_one debug sort ch n) (seq 0 (2 ^ n)) ([], []); Some out.

(** examples/psp/psp.rs:463-484: the instance built from the data and the table of [precompute_all_mst]. *)
Definition psp_build (d : psp_data) (mst : list Z) : psp :=
  mk_psp (pd_T d) (pd_n d) (pd_change d) (pd_stock d) (prev_table d) (rem_table d) mst.

(** *** The problem *)
Section Psp.
Variable p : psp.
(** [true] for a debug build (overflow checks and assertions on). *)
Variable debug : bool.

(** examples/psp/psp.rs:123-130 [initial_state]. *)
Definition ps_init : option psp_state :=
  do u <- pmat_col debug (ps_prev p) (ps_T p); Some (mk_pst (ps_T p) BOT u).

(** examples/psp/psp.rs:136-146 [next_variable]. *)
Definition ps_next (l : list psp_state) : option nat :=
  match l with [] => None | s :: _ => match pt_time s with O => None | S t => Some t end end.

(** examples/psp/psp.rs:154-160, the orders still to serve for item [i]. *)
Definition ps_orders (s : psp_state) (i : nat) : option Z :=
  do u <- nth_error (pt_u s) i;
  if u <? 0 then Some 0 else pmat_get debug (ps_rem p) i (Z.to_nat u).

(** examples/psp/psp.rs:148-173 [for_each_in_domain]. *)
Definition ps_domain (var : nat) (s : psp_state) : option (list decision) :=
  do rems <- omap (ps_orders s) (seq 0 (ps_n p));
  let rem := zsum rems in
  if Z.of_nat var + 1 <? rem then Some []
  else
    do items <- ofilter (fun i => do u <- nth_error (pt_u s) i; Some (Z.of_nat var <=? u)) (seq 0 (ps_n p));
    Some (map (fun i => mk_dec var (Z.of_nat i)) items ++
          (if rem <? Z.of_nat var + 1 then [mk_dec var IDLE] else [])).

(** examples/psp/psp.rs:174-183 [transition]. *)
Definition ps_trans (s : psp_state) (d : decision) : option psp_state :=
  match pt_time s with
  | O => None
  | S t =>
      if d_val d =? IDLE then Some (mk_pst t (pt_k s) (pt_u s))
      else
        let item := Z.to_nat (d_val d) in
        do u <- nth_error (pt_u s) item;
        do before <- pmat_get debug (ps_prev p) item (Z.to_nat u);
        do us <- upd (pt_u s) item before;
        Some (mk_pst t (Z.of_nat item) us)
  end.

(** examples/psp/psp.rs:185-199 [transition_cost]; the subtraction has no error value below zero: it is exact wherever the
    decision comes from the domain. *)
Definition ps_cost (s : psp_state) (d : decision) : option Z :=
  if d_val d =? IDLE then Some 0
  else
    let item := Z.to_nat (d_val d) in
    do changeover <- (if pt_k s =? BOT then Some 0 else pmat_get debug (ps_change p) item (Z.to_nat (pt_k s)));
    do st <- nth_error (ps_stock p) item;
    do u <- nth_error (pt_u s) item;
    if u <? Z.of_nat (d_var d) then None
    else Some (- (changeover + st * (u - Z.of_nat (d_var d)))).

(** *** Estimate *)

(** examples/psp/psp.rs:251-262: the item chosen for period [time], with its deadline and cost, or
    [IDLE], 0 and 0. *)
Definition ideal_pick (st : list Z) (time : Z) (us : list Z) : option (Z * Z * Z) :=
  ofold (fun acc iu => let '(item, deadline, cost) := acc in
           let '(i, u) := iu in
           if u <? time then Some acc
           else do c <- nth_error st i; Some (if cost <=? c then (Z.of_nat i, u, c) else acc))
        (combine (seq 0 (length us)) us) (IDLE, 0, 0).

(** examples/psp/psp.rs:250-269: the periods are visited from the last one down to 0; the storage costs come out in the
    order of the periods. *)
Fixpoint ideal_costs (periods : nat) (us : list Z) : option (list Z) :=
  match periods with
  | O => Some []
  | S time =>
      do ' (item, deadline, cost) <- ideal_pick (ps_stock p) (Z.of_nat time) us;
      do gap <- usub debug deadline (Z.of_nat time);
      do us' <- (if item =? IDLE then Some us
                 else do before <- pmat_get debug (ps_prev p) (Z.to_nat item) (Z.to_nat deadline);
                      upd us (Z.to_nat item) before);
      do l <- ideal_costs time us';
      Some (l ++ [gap * cost])
  end.

(** examples/psp/psp.rs:271-276: the cumulative sum, read at [periods - 1]; only the first [periods] entries of the buffer
    matter for it, and these have just been written. *)
Definition ideal_stocking (periods : nat) (us : list Z) : option Z :=
  do l <- ideal_costs periods us; Some (fold_left (fun tot v => Z.min (2 ^ 64 - 1) (tot + v)) l 0).

(** examples/psp/psp.rs:280-291 [vertices]; inserting 32 or more in a [Set32] is an error. *)
Definition ps_insert (vs : N) (i : nat) : option N := if Nat.ltb i 32 then Some (bs_on vs i) else None.
(** examples/psp/psp.rs:280-291. *)
Definition ps_vertices (k : Z) (us : list Z) : option N :=
  do v0 <- (if k =? -1 then Some bs_none else ps_insert bs_none (Z.to_nat k));
  ofold (fun vs iu => if 0 <=? snd iu then ps_insert vs (fst iu) else Some vs) (combine (seq 0 (length us)) us) v0.

(** [x as isize] for a [usize]. examples/psp/psp.rs:235. *)
Definition as_isize (x : Z) : Z := if x <=? IMAX then x else x - 2 ^ 64.

(** examples/psp/psp.rs:201-237 [estimate]. *)
Definition ps_estimate (s : psp_state) : option Z :=
  match pt_time s with
  | O => Some 0
  | S _ =>
      do greedy <- ideal_stocking (pt_time s) (pt_u s);
      do idx <- ps_vertices (pt_k s) (pt_u s);
      do m <- nth_error (ps_mst p) (N.to_nat idx);
      Some (as_isize (greedy + m))
  end.

(** *** Relaxation *)

(** examples/psp/psp.rs:34-52 [merge]. *)
Definition ps_merge (l : list psp_state) : psp_state :=
  let '(time, xxx) := fold_left (fun acc s => let '(time, xxx) := acc in
      (Nat.max time (pt_time s),
       match xxx with
       | [] => pt_u s
       | _ => map (fun uv => Z.min (fst uv) (snd uv)) (combine xxx (pt_u s)) ++ skipn (length (pt_u s)) xxx
       end)) l (O, []) in
  mk_pst time BOT xxx.

(** examples/psp/psp.rs:66-77 [PspRanking]: derived lexicographic orders. *)
Fixpoint zlist_cmp (a b : list Z) : comparison :=
  match a, b with
  | [], [] => Eq
  | [], _ => Lt
  | _, [] => Gt
  | x :: s, y :: t => match Z.compare x y with Eq => zlist_cmp s t | c => c end
  end.
(** examples/psp/psp.rs:66-77. *)
Definition ps_rank (a b : psp_state) : comparison :=
  match Nat.compare (pt_time a) (pt_time b) with
  | Eq => match Z.compare (pt_k a) (pt_k b) with Eq => zlist_cmp (pt_u a) (pt_u b) | c => c end
  | c => c
  end.

(** examples/psp/psp.rs:83-97 [PspWidth]. *)
Definition ps_width (factor : nat) (_ : psp_state) : nat := (ps_T p * factor)%nat.

(** The problem and the relaxation handed to the solver: examples/psp/psp.rs:117-238 and 30-64. *)
Definition psp_pb : problem psp_state := {|
  pb_nb_vars := ps_T p;
  pb_init := or_else (mk_pst 0 BOT []) ps_init;
  pb_init_val := 0;
  pb_next_var := ps_next;
  pb_domain := fun v s => or_else [] (ps_domain v s);
  pb_trans := fun s d => or_else s (ps_trans s d);
  pb_cost := fun s d => or_else 0 (ps_cost s d);
  pb_estimate := fun s => or_else 0 (ps_estimate s) |}.
(** examples/psp/psp.rs:30-64. *)
Definition psp_rx : relaxation psp_state := {|
  rx_merge := ps_merge; rx_relax := fun _ _ _ _ c => c |}.

End Psp.
