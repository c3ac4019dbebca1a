(** Model of the SRFLP example (single-row facility layout): examples/srflp/{instance,state,model,relax,heuristics}.rs. [isize]
    sums and products are exact (instances are assumed small enough, see [sr_ok] in SrflpSpec.v); indexing and, in a debug
    build, [usize] arithmetic have the error value [None]; [f32] arithmetic is the one of the standard library's [SpecFloat]. *)
From Verif Require Export Base Bits Matrix F32.
Open Scope Z_scope.

(** examples/srflp/instance.rs:28-37 [SrflpInstance]. *)
Record sr_inst := mk_sr { sr_n : nat; sr_len : list Z; sr_flow : matrix Z }.

(** [a + b] on [isize]: an overflow is a panic in a debug build and wraps around in a release build. examples/srflp/instance.rs:89-98. *)
Definition iadd (debug : bool) (a b : Z) : option Z :=
  if (IMIN <=? a + b) && (a + b <=? IMAX) then Some (a + b)
  else if debug then None else Some ((a + b + 2 ^ 63) mod 2 ^ 64 - 2 ^ 63).
(** examples/srflp/instance.rs:89-98, at the end of the reading of a file (see SrflpFile.v): flows that differ in the two
    directions are added up. *)
Definition sr_fold_pair (debug : bool) (m : matrix Z) (ij : nat * nat) : option (matrix Z) :=
  let '(i, j) := ij in
  do a <- mat_get m i j;
  do b <- mat_get m j i;
  if a =? b then Some m
  else do x <- iadd debug a b; do m1 <- mat_set m i j x; do c <- mat_get m1 i j; mat_set m1 j i c.
(** examples/srflp/instance.rs:89-98, the two loops. *)
Definition sr_pairs (n : nat) : list (nat * nat) := flat_map (fun i => map (pair i) (seq (S i) (n - S i))) (seq 0 n).
(** examples/srflp/instance.rs:89-98. *)
Definition sr_fold_flows (debug : bool) (n : nat) (m : matrix Z) : option (matrix Z) := ofold (sr_fold_pair debug) (sr_pairs n) m.

(** examples/srflp/state.rs:28-37 [State] and its derived equality. *)
Record sr_state := mk_srs { sr_must : N; sr_maybe : option N; sr_cut : list Z; sr_depth : nat }.
(** examples/srflp/state.rs:28-37: the equality of [cut]. *)
Fixpoint cut_eqb (a b : list Z) : bool :=
  match a, b with
  | [], [] => true
  | x :: s, y :: t => Z.eqb x y && cut_eqb s t
  | _, _ => false
  end.
(** examples/srflp/state.rs:28-37: the derived equality. *)
Definition sr_eqb (a b : sr_state) : bool :=
  N.eqb (sr_must a) (sr_must b) &&
  match sr_maybe a, sr_maybe b with Some x, Some y => N.eqb x y | None, None => true | _, _ => false end &&
  cut_eqb (sr_cut a) (sr_cut b) && Nat.eqb (sr_depth a) (sr_depth b).

(** [sort_unstable] on tuples: the order is total, so every algorithm gives the same vector. *)
Section Insertion.
Context {A : Type} (leb : A -> A -> bool).
(** Sorting at examples/srflp/model.rs:43, 50, 246. *)
Fixpoint insert_by (x : A) (l : list A) : list A :=
  match l with [] => [x] | y :: t => if leb x y then x :: y :: t else y :: insert_by x t end.
(** Sorting at examples/srflp/model.rs:43, 50, 246. *)
Definition insert_sort (l : list A) : list A := fold_right insert_by [] l.
End Insertion.
(** The order of the pairs of examples/srflp/model.rs:42-43. *)
Definition lex2_leb (a b : Z * nat) : bool :=
  (fst a <? fst b) || ((fst a =? fst b) && (snd a <=? snd b)%nat).
(** The order of the triples of examples/srflp/model.rs:44-50. *)
Definition lex3_leb (a b : Z * nat * nat) : bool :=
  let '(f, i, j) := a in let '(g, k, l) := b in
  (f <? g) || ((f =? g) && ((i <? k)%nat || ((i =? k)%nat && (j <=? l)%nat))).

(** [a * b] on [usize], and indexing a vector with a [usize]. examples/srflp/model.rs:178, 203, 204. *)
Definition umul (debug : bool) (a b : Z) : option Z :=
  if a * b <? 2 ^ 64 then Some (a * b) else if debug then None else Some ((a * b) mod 2 ^ 64).
(** Indexing as at examples/srflp/model.rs:260. *)
Definition vget {A} (l : list A) (i : Z) : option A := if i <? Z.of_nat (length l) then nth_error l (Z.to_nat i) else None.

(** The order of [OrderedFloat] (external crate ordered-float: [NaN] is the greatest value). examples/srflp/model.rs:246. *)
Definition f32_cmp (a b : spec_float) : comparison :=
  match SFcompare a b with
  | Some c => c
  | None => match a, b with S754_nan, S754_nan => Eq | S754_nan, _ => Gt | _, _ => Lt end
  end.

Section Model.
Variable debug : bool.   (* debug or release build *)
Variable I : sr_inst.
Let n := sr_n I.

(** examples/srflp/model.rs:42-43 [sorted_lengths] and 44-50 [sorted_flows]. *)
Definition sorted_lengths : list (Z * nat) := insert_sort lex2_leb (combine (sr_len I) (seq 0 (length (sr_len I)))).
(** examples/srflp/model.rs:44-50. *)
Definition sorted_flows : option (list (Z * nat * nat)) :=
  do l <- omap (fun ij => do f <- mat_get (sr_flow I) (fst ij) (snd ij); Some (f, fst ij, snd ij)) (sr_pairs n);
  Some (insert_sort lex3_leb l).

(** examples/srflp/model.rs:52-57 and 69-75: the initial state and value. *)
Definition sr_init : sr_state := mk_srs (bs_all n) None (repeat 0 n) 0.

(** examples/srflp/model.rs:77-95 [for_each_in_domain]. *)
Definition sr_domain (var : nat) (s : sr_state) : option (list decision) :=
  do complete <- usub debug (Z.of_nat n) (Z.of_nat (sr_depth s));
  do complete <- ofold (fun c _ => usub debug c 1) (bs_iter n (sr_must s)) complete;
  let extra := if 0 <? complete then match sr_maybe s with Some m => bs_iter n m | None => [] end else [] in
  Some (map (fun i => mk_dec var (Z.of_nat i)) (bs_iter n (sr_must s) ++ extra)).

(** [cut[i] += flows[(d, i)]] for each [i] of a list: examples/srflp/model.rs:112-114 and 117-119. *)
Definition add_flows (d : nat) (l : list nat) (cut : list Z) : option (list Z) :=
  ofold (fun cut i => do c <- nth_error cut i; do f <- mat_get (sr_flow I) d i; upd cut i (c + f)) l cut.

(** examples/srflp/model.rs:97-128 [transition]. [BitSet::set] panics out of range. *)
Definition sr_trans (s : sr_state) (d : decision) : option sr_state :=
  let d := Z.to_nat (d_val d) in
  if (d <? n)%nat then
    let remaining := bs_off (sr_must s) d in
    let maybes := option_map (fun m => bs_off m d) (sr_maybe s) in
    do cut <- upd (sr_cut s) d 0;
    do cut <- add_flows d (bs_iter n remaining) cut;
    do cut <- match maybes with Some m => add_flows d (bs_iter n m) cut | None => Some cut end;
    Some (mk_srs remaining maybes cut (S (sr_depth s)))
  else None.

(** examples/srflp/model.rs:130-159 [transition_cost]. *)
Definition sr_cost (s : sr_state) (d : decision) : option Z :=
  let d := Z.to_nat (d_val d) in
  do complete <- usub debug (Z.of_nat n) (Z.of_nat (sr_depth s) + 1);
  do ' (cut, complete) <- ofold (fun acc i => let '(cut, complete) := acc in
        if Nat.eqb i d then Some acc
        else do c <- nth_error (sr_cut s) i; do complete' <- usub debug complete 1; Some (cut + c, complete'))
      (bs_iter n (sr_must s)) (0, complete);
  do cut <- (if 0 <? complete then
               match sr_maybe s with
               | Some m => do temp <- omap (fun i => nth_error (sr_cut s) i) (filter (fun i => negb (Nat.eqb i d)) (bs_iter n m));
                           Some (cut + zsum (take complete (zsort temp)))
               | None => Some cut
               end
             else Some cut);
  do l <- nth_error (sr_len I) d;
  Some (- cut * l).

(** examples/srflp/model.rs:161-174 [next_variable]. *)
Definition sr_next_var (l : list sr_state) : option nat :=
  match l with
  | [] => None
  | s :: _ => if (sr_depth s =? n)%nat then None else Some (sr_depth s)
  end.

(** *** Estimate *)

(** examples/srflp/model.rs:187-201: [lengths], [maybe_lengths] and [n_lengths_from_maybe_place] along [sorted_lengths]. *)
Fixpoint est_lengths (s : sr_state) (complete : Z) (l : list (Z * nat)) (lens may : list Z) (rest : Z) : list Z * list Z :=
  match l with
  | [] => (lens, may)
  | (x, i) :: t =>
      let '(lens, may, rest) :=
        if bs_get (sr_must s) i then (lens ++ [x], may, rest)
        else match sr_maybe s with
             | Some m => if bs_get m i && (0 <? rest) then (lens ++ [x], may ++ [x], rest - 1) else (lens, may, rest)
             | None => (lens, may, rest)
             end in
      if Z.of_nat (length lens) =? complete then (lens, may) else est_lengths s complete t lens may rest
  end.

(** examples/srflp/model.rs:205-224: [flows], [n_flows_from_must_to_maybe_place] and [n_flows_in_maybe_place] along
    [sorted_flows]. *)
Fixpoint est_flows (s : sr_state) (n_flows : Z) (l : list (Z * nat * nat)) (flows : list Z) (cross inside : Z) : list Z :=
  match l with
  | [] => flows
  | (f, i, j) :: t =>
      let '(flows, cross, inside) :=
        if bs_get (sr_must s) i && bs_get (sr_must s) j then (flows ++ [f], cross, inside)
        else match sr_maybe s with
             | Some m =>
                 if bs_get (sr_must s) i && bs_get m j && (0 <? cross) then (flows ++ [f], cross - 1, inside)
                 else if bs_get m i && bs_get (sr_must s) j && (0 <? cross) then (flows ++ [f], cross - 1, inside)
                 else if bs_get m i && bs_get m j && (0 <? inside) then (flows ++ [f], cross, inside - 1)
                 else (flows, cross, inside)
             | None => (flows, cross, inside)
             end in
      if Z.of_nat (length flows) =? n_flows then flows else est_flows s n_flows t flows cross inside
  end.

(** examples/srflp/model.rs:227 and 242: a ratio with its length and cut; 246 [sort_unstable_by_key(|r| Reverse(r))]. *)
Definition ratio : Type := spec_float * Z * Z.
(** examples/srflp/model.rs:227, 242. *)
Definition mk_ratio (l c : Z) : ratio := (f32_div (f32_of c) (f32_of l), l, c).
(** The order of the triples of examples/srflp/model.rs:246. *)
Definition ratio_cmp (a b : ratio) : comparison :=
  let '(x, l, c) := a in let '(y, m, d) := b in
  then_with (f32_cmp x y) (then_with (Z.compare l m) (Z.compare c d)).
(** examples/srflp/model.rs:246, in decreasing order. *)
Definition ratio_geb (a b : ratio) : bool := match ratio_cmp a b with Lt => false | _ => true end.

(** examples/srflp/model.rs:226-244: the ratios of the departments that must be placed, then of the smallest lengths and
    cuts of those that may be. *)
Definition est_ratios (s : sr_state) (from : Z) (may : list Z) : option (list ratio) :=
  do must <- omap (fun i => do c <- nth_error (sr_cut s) i; do l <- nth_error (sr_len I) i; Some (mk_ratio l c)) (bs_iter n (sr_must s));
  do extra <- match sr_maybe s with
              | None => Some []
              | Some m =>
                  do cuts <- omap (fun i => nth_error (sr_cut s) i) (bs_iter n m);
                  let cuts := zsort cuts in
                  omap (fun i => do l <- nth_error may i;
                                 do j <- usub debug from 1; do j <- usub debug j (Z.of_nat i);
                                 do c <- vget cuts j;
                                 Some (mk_ratio l c)) (seq 0 (Z.to_nat from))
              end;
  Some (must ++ extra).

(** examples/srflp/model.rs:248-253. *)
Definition cut_bound (l : list ratio) : Z :=
  fst (fold_left (fun acc r => let '(bound, cumul) := acc in let '(_, len, c) := r in (bound + cumul * c, cumul + len)) l (0, 0)).

(** examples/srflp/model.rs:255-265. With no department left ([complete = 0]) the bounds of the loops are negative: a debug
    build panics there, and a release build when it reads [flows] out of range at once. *)
Definition edge_bound (complete n_flows : Z) (lens flows : list Z) : option Z :=
  if complete =? 0 then None
  else
    do ' (bound, _, _) <- ofold (fun acc i => let '(bound, idx, cumul) := acc in
        do ' (bound, idx) <- ofold (fun acc _ => let '(bound, idx) := acc in
              do j <- usub debug n_flows 1; do j <- usub debug j idx;
              do f <- vget flows j;
              Some (bound + cumul * f, idx + 1)) (seq 0 (Z.to_nat (complete - (Z.of_nat i + 1)))) (bound, idx);
        do l <- nth_error lens i;
        Some (bound, idx, cumul + l)) (seq 0 (Z.to_nat (complete - 1))) (0, 0, 0);
    Some bound.

(** examples/srflp/model.rs:176-268 [estimate]. *)
Definition sr_estimate (s : sr_state) : option Z :=
  do complete <- usub debug (Z.of_nat n) (Z.of_nat (sr_depth s));
  do c1 <- usub debug complete 1;
  do c2 <- umul debug complete c1;
  let n_flows := c2 / 2 in
  let n_must := Z.of_nat (bs_count n (sr_must s)) in
  do from <- usub debug complete n_must;
  let '(lens, may) := est_lengths s complete sorted_lengths [] [] from in
  do cross <- umul debug n_must from;
  do f1 <- usub debug from 1;
  do f2 <- umul debug from f1;
  do sf <- sorted_flows;
  let flows := est_flows s n_flows sf [] cross (f2 / 2) in
  do ratios <- est_ratios s from may;
  do edge <- edge_bound complete n_flows lens flows;
  Some (- (cut_bound (insert_sort ratio_geb ratios) + edge)).

(** examples/srflp/model.rs:62-269 [impl Problem for Srflp]. Where a function panics the record holds a placeholder; the
    theorems of SrflpFacts.v show that this is not used. *)
Definition sr_problem : problem sr_state := {|
  pb_nb_vars := n;
  pb_init := sr_init;
  pb_init_val := 0;
  pb_next_var := sr_next_var;
  pb_domain := fun v s => or_else [] (sr_domain v s);
  pb_trans := fun s d => or_else s (sr_trans s d);
  pb_cost := fun s d => or_else 0 (sr_cost s d);
  pb_estimate := fun s => or_else 0 (sr_estimate s) |}.

(** *** Relaxation *)

(** examples/srflp/relax.rs:39-56 [RelaxHelper] and [new]. *)
Record sr_helper := mk_srh { rh_depth : nat; rh_must : N; rh_agree : N; rh_maybe : N; rh_cut : list Z }.
(** examples/srflp/relax.rs:39-56. *)
Definition sr_helper_new : sr_helper := mk_srh 0 bs_none (bs_all n) bs_none (repeat IMAX n).

(** examples/srflp/relax.rs:69-79 [track_cut]. *)
Definition min_cuts (s : sr_state) (l : list nat) (cut : list Z) : option (list Z) :=
  ofold (fun cut i => do a <- nth_error cut i; do b <- nth_error (sr_cut s) i; upd cut i (Z.min a b)) l cut.
(** examples/srflp/relax.rs:57-79 [track_depth], [track_must_visit], [track_maybe_visit], [track_cut], in the order in which
    [merge] calls them (110-115). *)
Definition sr_track (h : sr_helper) (s : sr_state) : option sr_helper :=
  do cut <- min_cuts s (bs_iter n (sr_must s)) (rh_cut h);
  do cut <- match sr_maybe s with Some m => min_cuts s (bs_iter n m) cut | None => Some cut end;
  Some (mk_srh
    (Nat.max (rh_depth h) (sr_depth s))
    (N.lor (rh_must h) (sr_must s))
    (N.land (rh_agree h) (sr_must s))
    (match sr_maybe s with Some m => N.lor (rh_maybe h) m | None => rh_maybe h end)
    cut).

(** examples/srflp/relax.rs:81-101 the getters, and 107-123 [merge]. *)
Definition sr_merge (l : list sr_state) : option sr_state :=
  do h <- ofold sr_track l sr_helper_new;
  let maybe := N.lxor (N.lor (rh_maybe h) (rh_must h)) (rh_agree h) in
  Some (mk_srs (rh_agree h) (if (0 <? bs_count n maybe)%nat then Some maybe else None) (rh_cut h) (rh_depth h)).

(** examples/srflp/relax.rs:104-136 [impl Relaxation for SrflpRelax]. *)
Definition sr_relax : relaxation sr_state := {|
  rx_merge := fun l => or_else sr_init (sr_merge l);
  rx_relax := fun _ _ _ _ cost => cost |}.

(** examples/srflp/heuristics.rs:8-14 [SrflpRanking] and 25-29 [SrflpWidth]. *)
Definition sr_rank : ranking sr_state := fun a b => Nat.compare (sr_depth a) (sr_depth b).
(** examples/srflp/heuristics.rs:25-29. *)
Definition sr_width (factor : nat) (_ : sr_state) : nat := (n * factor)%nat.
End Model.
