(** Concrete instances of the PSP example. Nothing here models code of /repo. *)
From Verif Require Import Spec Dd DdSpec ParSpec BarSpec ParCases ExecAny Psp PspSpec BitsFacts PspFacts PspPlans PspMerge PspEstimate PspProofs.
Open Scope Z_scope.

(** Sorting edges. *)
Fixpoint edge_ins (x : Z * nat * nat) (l : list (Z * nat * nat)) : list (Z * nat * nat) :=
  match l with
  | [] => [x]
  | y :: t => if fst (fst x) <=? fst (fst y) then x :: y :: t else y :: edge_ins x t
  end.
Definition edge_sort (l : list (Z * nat * nat)) : list (Z * nat * nat) := fold_right edge_ins [] l.
Lemma edge_ins_perm x l : Permutation (x :: l) (edge_ins x l).
Proof. induction l as [|y l IH]; [apply Permutation_refl|]. cbn [edge_ins]. destruct (_ <=? _); [apply Permutation_refl|]. rewrite perm_swap. apply perm_skip, IH. Qed.
Lemma edge_sort_perm l : Permutation l (edge_sort l).
Proof. induction l as [|x l IH]; [apply Permutation_refl|]. cbn [edge_sort fold_right]. rewrite <- edge_ins_perm. apply perm_skip, IH. Qed.

Definition psp_make (T n : nat) (ch st : list Z) (dem : list (list Z)) : psp_data := mk_pd T n (mk_mat n n ch) st dem.
Definition psp_load (D : psp_data) : psp := psp_build D (or_else [] (precompute_all_mst true edge_sort (pd_n D) (pd_change D))).
Lemma psp_loaded D : precompute_all_mst true edge_sort (pd_n D) (pd_change D) <> None -> loaded D (psp_load D).
Proof.
  intros H. unfold psp_load. destruct (precompute_all_mst true edge_sort (pd_n D) (pd_change D)) as [mst|] eqn:E; [|contradiction].
  exists true, edge_sort, mst. split; [exact edge_sort_perm|]. split; [exact E|reflexivity].
Qed.

(** Checking an instance. *)
Definition all_pairs (n : nat) (f : nat -> nat -> bool) : bool := forallb (fun i => forallb (f i) (seq 0 n)) (seq 0 n).
Lemma all_pairs_ok n f : all_pairs n f = true -> forall i j, (i < n)%nat -> (j < n)%nat -> f i j = true.
Proof.
  intros H i j Hi Hj. unfold all_pairs in H. rewrite forallb_forall in H. specialize (H i ltac:(apply in_seq; lia)). rewrite forallb_forall in H. apply H. apply in_seq. lia.
Qed.
Definition psp_check (D : psp_data) (M : Z) : bool :=
  let T := pd_T D in let n := pd_n D in
  (1 <=? T)%nat && (n <=? 32)%nat && ((mx_n (pd_change D) =? n)%nat && (mx_m (pd_change D) =? n)%nat && (length (mx_data (pd_change D)) =? n * n)%nat) &&
  (length (pd_stock D) =? n)%nat && (length (pd_dem D) =? n)%nat && forallb (fun row => (length row =? T)%nat) (pd_dem D) && (0 <=? M) &&
  all_pairs n (fun i j => (0 <=? change D i j) && (change D i j <=? M)) && forallb (fun i => (0 <=? stock D i) && (stock D i <=? M)) (seq 0 n) &&
  (Z.of_nat T <? 2 ^ 31) && ((Z.of_nat T + Z.of_nat n + 2) * ((Z.of_nat T + 1) * M) <=? IMAX).
Lemma psp_checked D M : psp_check D M = true -> psp_ok D M.
Proof.
  unfold psp_check. rewrite !andb_true_iff, !Nat.eqb_eq, !Nat.leb_le, !Z.leb_le, Z.ltb_lt.
  intros ((((((((((H1 & H2) & ((H3 & H4) & H5)) & H6) & H7) & H8) & H9) & H10) & H11) & H12) & H13). constructor; auto.
  - intros row Hr. rewrite forallb_forall in H8. apply Nat.eqb_eq, H8, Hr.
  - intros i j Hi Hj. pose proof (all_pairs_ok _ _ H10 i j Hi Hj) as H. rewrite andb_true_iff, !Z.leb_le in H. exact H.
  - intros i Hi. rewrite forallb_forall in H11. specialize (H11 i ltac:(apply in_seq; lia)). rewrite andb_true_iff, !Z.leb_le in H11. exact H11.
Qed.
Definition change_check (D : psp_data) : bool :=
  forallb (fun k => all_pairs (pd_n D) (fun i j => change D i k <=? change D i j + change D j k)) (seq 0 (pd_n D)).
Lemma change_checked D : change_check D = true -> change_triangle D.
Proof.
  intros H i j k Hi Hj Hk. unfold change_check in H. rewrite forallb_forall in H. specialize (H k ltac:(apply in_seq; lia)).
  pose proof (all_pairs_ok _ _ H i j Hi Hj) as H'. apply Z.leb_le in H'. exact H'.
Qed.
Definition plan_check (D : psp_data) (p : plan) : bool :=
  (length p =? pd_T D)%nat && forallb (fun x => match x with Some i => (i <? pd_n D)%nat | None => true end) p &&
  forallb (fun i => (produced p i (pd_T D) =? demanded D i (pd_T D)) && forallb (fun t => demanded D i t <=? produced p i t) (seq 0 (S (pd_T D)))) (seq 0 (pd_n D)).
Lemma plan_checked D p : plan_check D p = true -> feasible_plan D p.
Proof.
  unfold plan_check. rewrite !andb_true_iff, Nat.eqb_eq, !forallb_forall. intros ((H1 & H2) & H3). constructor; auto.
  - intros i Hi. specialize (H2 _ Hi). apply Nat.ltb_lt in H2. exact H2.
  - intros i Hi. specialize (H3 i ltac:(apply in_seq; lia)). rewrite andb_true_iff in H3. apply Z.eqb_eq, H3.
  - intros i t Hi Ht. specialize (H3 i ltac:(apply in_seq; lia)). rewrite andb_true_iff, forallb_forall in H3. apply Z.leb_le, H3, in_seq. lia.
Qed.

(** 1. Five periods, two items; the changes cost 2 and 3, and storing costs 1 and 4 per period. *)
Definition small : psp_data := psp_make 5 2 [0; 2; 3; 0] [1; 4] [[0; 0; 1; 0; 1]; [0; 0; 0; 1; 0]].
Lemma small_ok : psp_ok small 4. Proof. apply psp_checked. vm_compute. reflexivity. Qed.
Lemma small_triangle : change_triangle small. Proof. apply change_checked. vm_compute. reflexivity. Qed.
Lemma small_loaded : loaded small (psp_load small). Proof. apply psp_loaded. vm_compute. discriminate. Qed.
Definition small_plan : plan := [None; Some 0%nat; Some 0%nat; Some 1%nat; None].
Lemma small_feasible : feasible_plan small small_plan. Proof. apply plan_checked. vm_compute. reflexivity. Qed.
Lemma small_cost : plan_cost small small_plan = 5. Proof. vm_compute. reflexivity. Qed.
Lemma small_late : ~ feasible_plan small [None; None; None; Some 1%nat; Some 0%nat].
Proof. intros [_ _ H _]. specialize (H 0%nat ltac:(cbn; lia)). vm_compute in H. discriminate. Qed.
Lemma small_case : psp_ok small 4 /\ loaded small (psp_load small) /\ feasible_plan small small_plan /\ plan_cost small small_plan = 5 /\
  ~ feasible_plan small [None; None; None; Some 1%nat; Some 0%nat].
Proof. exact (conj small_ok (conj small_loaded (conj small_feasible (conj small_cost small_late)))). Qed.

(** 2. Four periods, three items due in the last one: going from 0 to 1 and from 1 to 2 is free, from 0 to 2 is not. *)
Definition detour : psp_data := psp_make 4 3 [0; 0; 50; 50; 0; 0; 50; 50; 0] [0; 0; 0] [[0; 0; 0; 1]; [0; 0; 0; 1]; [0; 0; 0; 1]].
Lemma detour_ok : psp_ok detour 50. Proof. apply psp_checked. vm_compute. reflexivity. Qed.
Lemma detour_loaded : loaded detour (psp_load detour). Proof. apply psp_loaded. vm_compute. discriminate. Qed.
Definition detour_next (v : Z) : psp_state := pb_trans (psp_pb (psp_load detour) false) (pb_init (psp_pb (psp_load detour) false)) (mk_dec 3 v).
Lemma detour_reached debug v : v = -1 \/ v = 1 -> exists c, run psp_state (psp_pb (psp_load detour) debug) (psp_nv detour) 0 (pb_init (psp_pb (psp_load detour) debug)) [mk_dec 3 v] 1 (detour_next v) c.
Proof.
  intros Hv. assert (E : exists c, follow (psp_pb (psp_load detour) debug) (psp_nv detour) 0 (pb_init (psp_pb (psp_load detour) debug)) [mk_dec 3 v] = Some (detour_next v, c)).
  { destruct Hv as [-> | ->]; eexists; destruct debug; vm_compute; reflexivity. }
  destruct E as (c & E). exists c. apply (follow_run _ _ _ _ _ _ _ _ E).
Qed.
Lemma detour_free debug : completion psp_state (psp_pb (psp_load detour) debug) (psp_nv detour) 1 (detour_next (-1)) [mk_dec 2 2; mk_dec 1 1; mk_dec 0 0] 0.
Proof.
  assert (E : exists s', follow (psp_pb (psp_load detour) debug) (psp_nv detour) 1 (detour_next (-1)) [mk_dec 2 2; mk_dec 1 1; mk_dec 0 0] = Some (s', 0)) by (eexists; destruct debug; vm_compute; reflexivity).
  destruct E as (s' & E). exists s'. apply (follow_run _ _ _ _ _ _ _ _ E).
Qed.
Lemma detour_merged debug ds c : completion psp_state (psp_pb (psp_load detour) debug) (psp_nv detour) 1 (ps_merge [detour_next (-1); detour_next 1]) ds c -> c <= -50.
Proof.
  intros H. apply completion_in in H. change (pb_nb_vars (psp_pb (psp_load detour) debug) - 1)%nat with 3%nat in H.
  assert (E : forallb (fun x => snd x <=? -50) (completions (psp_pb (psp_load detour) debug) (psp_nv detour) 3 1 (ps_merge [detour_next (-1); detour_next 1])) = true) by (destruct debug; vm_compute; reflexivity).
  rewrite forallb_forall in E. specialize (E _ H). apply Z.leb_le in E. exact E.
Qed.
Lemma detour_two debug s : In s [detour_next (-1); detour_next 1] ->
  exists ds0 c0, run psp_state (psp_pb (psp_load detour) debug) (psp_nv detour) 0 (pb_init (psp_pb (psp_load detour) debug)) ds0 1 s c0.
Proof.
  intros [<-|[<-|[]]]; [destruct (detour_reached debug (-1) ltac:(auto)) as (c & H)|destruct (detour_reached debug 1 ltac:(auto)) as (c & H)]; eauto.
Qed.
Lemma detour_loses : exists D M J l src d ds c, psp_ok D M /\ loaded D J /\ forall debug,
  let P := psp_pb J debug in
  (forall s, In s l -> exists ds0 c0, run psp_state P (psp_nv D) 0 (pb_init P) ds0 1 s c0) /\
  src = pb_init P /\ In d (pb_domain P (psp_nv D 0) src) /\ In (pb_trans P src d) l /\ completion psp_state P (psp_nv D) 1 (pb_trans P src d) ds c /\
  forall ds' c', completion psp_state P (psp_nv D) 1 (rx_merge psp_rx l) ds' c' ->
    rx_relax psp_rx src (pb_trans P src d) (rx_merge psp_rx l) d (pb_cost P src d) + c' < pb_cost P src d + c.
Proof.
  exists detour, 50, (psp_load detour), [detour_next (-1); detour_next 1], (pb_init (psp_pb (psp_load detour) false)), (mk_dec 3 (-1)), [mk_dec 2 2; mk_dec 1 1; mk_dec 0 0], 0.
  split; [exact detour_ok|]. split; [exact detour_loaded|]. intros debug P. split; [exact (detour_two debug)|]. split; [destruct debug; vm_compute; reflexivity|].
  split; [destruct debug; vm_compute; tauto|]. split; [left; destruct debug; vm_compute; reflexivity|].
  replace (pb_trans P _ (mk_dec 3 (-1))) with (detour_next (-1)) by (destruct debug; vm_compute; reflexivity). split; [exact (detour_free debug)|].
  intros ds' c' H. pose proof (detour_merged debug ds' c' H). cbn [psp_rx rx_relax]. lia.
Qed.

(** 3. The solvers. Without the triangle inequality: seven periods, four items. *)
Definition cheap : psp_data := psp_make 7 4 [0; 0; 50; 0; 50; 0; 0; 50; 0; 0; 0; 0; 0; 0; 0; 0] [1; 0; 0; 1]
  [[0; 0; 1; 0; 0; 0; 1]; [1; 0; 0; 0; 0; 1; 0]; [0; 0; 0; 0; 0; 1; 0]; [0; 0; 0; 0; 0; 1; 0]].
Lemma cheap_ok : psp_ok cheap 50. Proof. apply psp_checked. vm_compute. reflexivity. Qed.
Lemma cheap_loaded : loaded cheap (psp_load cheap). Proof. apply psp_loaded. vm_compute. discriminate. Qed.
Definition cheap_plan : plan := [Some 1; Some 2; Some 0; Some 0; Some 3; Some 1; None]%nat.
Lemma cheap_feasible : feasible_plan cheap cheap_plan. Proof. apply plan_checked. vm_compute. reflexivity. Qed.
Lemma cheap_cost : plan_cost cheap cheap_plan = 4. Proof. vm_compute. reflexivity. Qed.
Definition cheap_sol := [mk_dec 0 1; mk_dec 1 (-1); mk_dec 2 0; mk_dec 3 1; mk_dec 4 2; mk_dec 5 3; mk_dec 6 0].
Lemma cheap_par ct : plook _ _ (prun psp_state psp_eqb (psp_cfg (psp_load cheap) 1 ct) 1 1 (go 600 0)) = Some (mk_view true false (-50) (-50) (Some (-50)) (Some cheap_sol)).
Proof. destruct ct; vm_compute; reflexivity. Qed.
Lemma cheap_bar ct : qlook _ _ (qrun psp_state psp_eqb (psp_cfg (psp_load cheap) 1 ct) 1 1 (go 600 0)) = Some (mk_view true false (-50) (-50) (Some (-50)) (Some cheap_sol)).
Proof. destruct ct; vm_compute; reflexivity. Qed.
Lemma cheap_refutes : exists D M J p, psp_ok D M /\ loaded D J /\ feasible_plan D p /\ plan_cost D p = 4 /\ forall ct,
  (exists st, reachable psp_state psp_eqb (psp_cfg J 1 ct) 1 1 st /\ proved _ st /\ best_value_of _ st = Some (- 50)) /\
  (exists st, breachable psp_state psp_eqb (psp_cfg J 1 ct) 1 1 st /\ bproved _ st /\ bbest_value _ st = Some (- 50)).
Proof.
  exists cheap, 50, (psp_load cheap), cheap_plan. split; [exact cheap_ok|]. split; [exact cheap_loaded|]. split; [exact cheap_feasible|]. split; [exact cheap_cost|]. intros ct. split.
  - destruct (prun_look _ _ _ _ _ _ _ (cheap_par ct)) as (st & H1 & H2 & H3 & H4 & _). exists st. split; [exact H1|]. split; [exact (conj (H2 eq_refl) H3)|exact H4].
  - destruct (qrun_look _ _ _ _ _ _ _ (cheap_bar ct)) as (st & H1 & H2 & H3 & H4 & _). exists st. split; [exact H1|]. split; [exact (conj (H2 eq_refl) H3)|exact H4].
Qed.

(** With the triangle inequality, but with the frontier cutset: six periods, three items. *)
Definition missed : psp_data := psp_make 6 3 [0; 12; 12; 3; 0; 15; 14; 19; 0] [2; 2; 2] [[0; 0; 0; 1; 1; 0]; [0; 0; 0; 1; 0; 0]; [0; 0; 0; 1; 0; 0]].
Lemma missed_ok : psp_ok missed 19. Proof. apply psp_checked. vm_compute. reflexivity. Qed.
Lemma missed_triangle : change_triangle missed. Proof. apply change_checked. vm_compute. reflexivity. Qed.
Lemma missed_loaded : loaded missed (psp_load missed). Proof. apply psp_loaded. vm_compute. discriminate. Qed.
Definition missed_plan : plan := [None; Some 2; Some 1; Some 0; Some 0; None]%nat.
Lemma missed_feasible : feasible_plan missed missed_plan. Proof. apply plan_checked. vm_compute. reflexivity. Qed.
Lemma missed_cost : plan_cost missed missed_plan = 28. Proof. vm_compute. reflexivity. Qed.
Definition missed_sol := [mk_dec 0 1; mk_dec 1 0; mk_dec 2 0; mk_dec 3 2; mk_dec 4 (-1); mk_dec 5 (-1)].
Lemma missed_bar : qlook _ _ (qrun psp_state psp_eqb (psp_cfg (psp_load missed) 1 Frontier) 1 1 (go 600 0)) = Some (mk_view true false (-29) (-29) (Some (-29)) (Some missed_sol)).
Proof. vm_compute. reflexivity. Qed.
Lemma missed_refutes : exists D M J p, psp_ok D M /\ change_triangle D /\ loaded D J /\ feasible_plan D p /\ plan_cost D p = 28 /\
  exists st, breachable psp_state psp_eqb (psp_cfg J 1 Frontier) 1 1 st /\ bproved _ st /\ bbest_value _ st = Some (- 29).
Proof.
  exists missed, 19, (psp_load missed), missed_plan. split; [exact missed_ok|]. split; [exact missed_triangle|]. split; [exact missed_loaded|]. split; [exact missed_feasible|]. split; [exact missed_cost|].
  destruct (qrun_look _ _ _ _ _ _ _ missed_bar) as (st & H1 & H2 & H3 & H4 & _). exists st. split; [exact H1|]. split; [exact (conj (H2 eq_refl) H3)|exact H4].
Qed.

(** The same with the parallel solver: six periods, three items. *)
Definition gone : psp_data := psp_make 6 3 [0; 6; 8; 6; 0; 8; 8; 2; 0] [1; 1; 0] [[0; 0; 0; 1; 0; 0]; [0; 0; 1; 0; 1; 0]; [0; 0; 0; 0; 0; 1]].
Lemma gone_ok : psp_ok gone 8. Proof. apply psp_checked. vm_compute. reflexivity. Qed.
Lemma gone_triangle : change_triangle gone. Proof. apply change_checked. vm_compute. reflexivity. Qed.
Lemma gone_loaded : loaded gone (psp_load gone). Proof. apply psp_loaded. vm_compute. discriminate. Qed.
Definition gone_plan : plan := [Some 2; Some 1; Some 1; Some 0; None; None]%nat.
Lemma gone_feasible : feasible_plan gone gone_plan. Proof. apply plan_checked. vm_compute. reflexivity. Qed.
Lemma gone_cost : plan_cost gone gone_plan = 11. Proof. vm_compute. reflexivity. Qed.
Definition gone_sol := [mk_dec 0 0; mk_dec 1 2; mk_dec 2 1; mk_dec 3 (-1); mk_dec 4 1; mk_dec 5 (-1)].
Lemma gone_par : plook _ _ (prun psp_state psp_eqb (psp_cfg (psp_load gone) 1 Frontier) 1 1 (go 200 0)) = Some (mk_view true false (-13) (-13) (Some (-13)) (Some gone_sol)).
Proof. vm_compute. reflexivity. Qed.
Lemma gone_refutes : exists D M J p, psp_ok D M /\ change_triangle D /\ loaded D J /\ feasible_plan D p /\ plan_cost D p = 11 /\
  exists st, reachable psp_state psp_eqb (psp_cfg J 1 Frontier) 1 1 st /\ proved _ st /\ best_value_of _ st = Some (- 13).
Proof.
  exists gone, 8, (psp_load gone), gone_plan. split; [exact gone_ok|]. split; [exact gone_triangle|]. split; [exact gone_loaded|]. split; [exact gone_feasible|]. split; [exact gone_cost|].
  destruct (prun_look _ _ _ _ _ _ _ gone_par) as (st & H1 & H2 & H3 & H4 & _). exists st. split; [exact H1|]. split; [exact (conj (H2 eq_refl) H3)|exact H4].
Qed.

(** The small instance, with two threads and with the barrier. *)
Definition small_sol := [mk_dec 0 (-1); mk_dec 1 0; mk_dec 2 0; mk_dec 3 1; mk_dec 4 (-1)].
Lemma small_par : plook _ _ (prun psp_state psp_eqb (psp_cfg (psp_load small) 1 LastExactLayer) 2 2 (go 100 0 ++ go 100 1)) = Some (mk_view true false (-5) (-5) (Some (-5)) (Some small_sol)).
Proof. vm_compute. reflexivity. Qed.
Lemma small_bar : qlook _ _ (qrun psp_state psp_eqb (psp_cfg (psp_load small) 1 LastExactLayer) 1 1 (go 600 0)) = Some (mk_view true false (-5) (-5) (Some (-5)) (Some small_sol)).
Proof. vm_compute. reflexivity. Qed.
Lemma small_solved : psp_ok small 4 /\ change_triangle small /\ loaded small (psp_load small) /\
  (exists st, reachable psp_state psp_eqb (psp_cfg (psp_load small) 1 LastExactLayer) 2 2 st /\ proved _ st /\ best_value_of _ st = Some (-5)) /\
  (exists st, breachable psp_state psp_eqb (psp_cfg (psp_load small) 1 LastExactLayer) 1 1 st /\ bproved _ st /\ bbest_value _ st = Some (-5)).
Proof.
  split; [exact small_ok|]. split; [exact small_triangle|]. split; [exact small_loaded|]. split.
  - destruct (prun_look _ _ _ _ _ _ _ small_par) as (st & H1 & H2 & H3 & H4 & _). exists st. split; [exact H1|]. split; [exact (conj (H2 eq_refl) H3)|exact H4].
  - destruct (qrun_look _ _ _ _ _ _ _ small_bar) as (st & H1 & H2 & H3 & H4 & _). exists st. split; [exact H1|]. split; [exact (conj (H2 eq_refl) H3)|exact H4].
Qed.

(** Two states of the first layer of the small instance, merged: item 0 is then due at period 2 only. *)
Definition small_next (v : Z) : psp_state := pb_trans (psp_pb (psp_load small) false) (pb_init (psp_pb (psp_load small) false)) (mk_dec 4 v).
Lemma small_layer v : v = -1 \/ v = 0 -> psp_layer small 1 (small_next v).
Proof.
  intros Hv. destruct (wfd_problem _ _ _ _ _ _ _ (psp_formed small 4 small_ok (psp_load small) small_loaded false)) as [Hi _ _ _ Ht].
  assert (In (mk_dec 4 v) (pb_domain (psp_pb (psp_load small) false) (psp_nv small 0) (pb_init (psp_pb (psp_load small) false)))) as Hd by (destruct Hv as [-> | ->]; vm_compute; auto).
  exact (Ht 0%nat _ _ ltac:(cbn; lia) Hi Hd).
Qed.
Lemma small_merged : psp_ok small 4 /\ change_triangle small /\ loaded small (psp_load small) /\ psp_layer small 1 (small_next (-1)) /\ psp_layer small 1 (small_next 0) /\
  rx_merge psp_rx [small_next (-1); small_next 0] = mk_pst 4 (-1) [2; 3] /\ small_next (-1) = mk_pst 4 (-1) [4; 3] /\ small_next 0 = mk_pst 4 0 [2; 3] /\
  ps_estimate (psp_load small) false (small_next (-1)) = Some 3.
Proof.
  split; [exact small_ok|]. split; [exact small_triangle|]. split; [exact small_loaded|]. split; [exact (small_layer (-1) ltac:(auto))|]. split; [exact (small_layer 0 ltac:(auto))|].
  repeat split; vm_compute; reflexivity.
Qed.
Lemma small_init : psp_layer small 0 (pb_init (psp_pb (psp_load small) true)).
Proof. destruct (wfd_problem _ _ _ _ _ _ _ (psp_formed small 4 small_ok (psp_load small) small_loaded true)) as [Hi _ _ _ _]. exact Hi. Qed.
(** Three orders in five periods. *)
Lemma small_debug : exists D M J s0, psp_ok D M /\ change_triangle D /\ loaded D J /\ ps_init J true = Some s0 /\ ps_estimate J true s0 = None.
Proof.
  exists small, 4, (psp_load small), (pb_init (psp_pb (psp_load small) true)). split; [exact small_ok|]. split; [exact small_triangle|]. split; [exact small_loaded|].
  split; vm_compute; reflexivity.
Qed.
Lemma small_panics : psp_layer small 0 (pb_init (psp_pb (psp_load small) true)) /\
  zsum (map (fun i => orders small i (deadline (pb_init (psp_pb (psp_load small) true)) i)) (seq 0 (pd_n small))) + 1 < Z.of_nat (pt_time (pb_init (psp_pb (psp_load small) true))).
Proof. split; [exact small_init|vm_compute; reflexivity]. Qed.
