(** Proofs about the number of subproblems a search takes. *)
From Verif Require Import Spec Dd DdSpec Fringe FringeSpec MddAll MddAllProofs MddBarrier MddBarrierSpec MddBarrierProofs ParSolver ParSpec ParFacts BarSolver BarSpec BarFacts CountersSpec CountersProofs SizeSpec DdCountMdd SizeProofs SizeSolvers CutProofs CutSolvers TreeSpec.
From Coq Require Import Lia ZArith List Permutation.
Import ListNotations.
Open Scope nat_scope.

Lemma tree_pos M r : 1 <= tree M r.
Proof. destruct r; cbn [tree]; lia. Qed.
Lemma tree_mono M a b : a <= b -> tree M a <= tree M b.
Proof. intros H. induction H as [|b H IH]; [lia|]. eapply Nat.le_trans; [exact IH|]. clear. induction b as [|b IH]; cbn [tree] in *; nia. Qed.
Lemma sum_perm {A} (w : A -> nat) l l' : Permutation l l' -> list_sum (map w l) = list_sum (map w l').
Proof. induction 1; cbn [map list_sum fold_right] in *; unfold list_sum in *; cbn in *; lia. Qed.
Lemma sum_cons {A} (w : A -> nat) x l : list_sum (map w (x :: l)) = w x + list_sum (map w l).
Proof. reflexivity. Qed.

Section Sizes.
Variable S : Type.
Variable eqb : S -> S -> bool.
Variable cfg : config S.
Variable at_depth : nat -> S -> Prop.
Variable nv : nat -> nat.
Variable C : Z.
Variable M : nat.
Variable inv : fr_t (cf_fr cfg) -> Prop.
Variable content : fr_t (cf_fr cfg) -> list (subproblem S).
Notation P := (cf_pb cfg).
Notation R := (cf_rx cfg).
Notation fr := (cf_fr cfg).
Notation N := (pb_nb_vars P).
Hypothesis G : good_config S eqb cfg at_depth nv C True inv content.
Notation genuine := (genuine S P nv).
Hypothesis HA : forall orc n lb d d', library_ok S orc -> genuine n -> g_ctype d = cf_ctype cfg -> MddAll.compile eqb false orc (call cfg Relaxed n lb) d = Some d' -> length (g_cutset d') <= M.
Hypothesis HB : forall orc n lb d, library_ok S orc -> genuine n -> g_ctype d = cf_ctype cfg -> pw S (MddBarrier.compile eqb false orc (call cfg Relaxed n lb) d) (fun d' => length (g_cutset d') <= M).
Let WF := gs_formed _ _ _ _ _ _ _ _ _ G.
Let FO := gs_frontier _ _ _ _ _ _ _ _ _ G.
Definition weight (q : subproblem S) : nat := tree M (N - depth_of q).
Definition weights (l : list (subproblem S)) : nat := list_sum (map weight l).
Notation size f := (weights (content f)).
Lemma weight_pos q : 1 <= weight q.
Proof. apply tree_pos. Qed.
Lemma weight_ub q u : weight (with_ub q u) = weight q.
Proof. reflexivity. Qed.

(** ** The frontier *)
Lemma push_weight f n f' : inv f -> fr_push fr f n = Some f' -> inv f' /\ size f' <= weight n + size f.
Proof.
  intros Hf H. destruct (fo_push _ _ _ _ FO f n Hf) as (f1 & H1 & Hi & Hc). assert (f1 = f') as -> by congruence. split; [exact Hi|]. unfold weights.
  destruct Hc as [Hc|(_ & old & l & _ & H2 & H3)].
  - rewrite (sum_perm weight _ _ Hc), sum_cons. lia.
  - rewrite (sum_perm weight _ _ H2), (sum_perm weight _ _ H3), !sum_cons. unfold merge_sub. rewrite weight_ub. destruct (_ <? _)%Z; lia.
Qed.
Lemma pop_weight f p f' : inv f -> fr_empty fr f = false -> fr_pop fr f = Some (Some p, f') -> inv f' /\ size f = weight p + size f'.
Proof.
  intros Hf He H. assert (Hn : content f <> []) by (intros E; apply (fo_empty _ _ _ _ FO f Hf) in E; congruence).
  destruct (fo_pop _ _ _ _ FO f Hf Hn) as (p1 & f1 & H1 & Hi & Hc & _). rewrite H1 in H. injection H as <- <-. split; [exact Hi|]. unfold weights. rewrite (sum_perm weight _ _ Hc). apply sum_cons.
Qed.
Lemma clear_weight f : inv f -> size (fr_clear fr f) = 0.
Proof. intros Hf. rewrite (proj2 (fo_clear _ _ _ _ FO f Hf)). reflexivity. Qed.
Lemma enqueue_weight lb ub : forall l f f', inv f -> ofold (enqueue_node cfg lb ub) l f = Some f' -> size f' <= size f + weights l.
Proof.
  induction l as [|q t IH]; cbn [ofold]; intros f f' Hf H; [injection H as <-; lia|]. destruct (enqueue_node cfg lb ub f q) as [f1|] eqn:E; cbn [obind] in H; [|discriminate].
  unfold enqueue_node in E. cbv zeta in E. unfold weights at 3. rewrite sum_cons. fold (weights t). destruct (lb <? _)%Z.
  - destruct (push_weight _ _ _ Hf E) as [Hi Hs]. specialize (IH _ _ Hi H). rewrite weight_ub in Hs. lia.
  - injection E as <-. specialize (IH _ _ Hf H). lia.
Qed.
Lemma benqueue_weight lb ub : forall l f o f' o', inv f -> ofold (benqueue_node cfg lb ub) l (f, o) = Some (f', o') -> size f' <= size f + weights l.
Proof.
  induction l as [|q t IH]; cbn [ofold]; intros f o f' o' Hf H; [injection H as <- _; lia|]. destruct (benqueue_node cfg lb ub (f, o) q) as [[f1 o1]|] eqn:E; cbn [obind] in H; [|discriminate].
  unfold benqueue_node in E. cbv zeta in E. unfold weights at 3. rewrite sum_cons. fold (weights t). destruct (lb <? _)%Z.
  - destruct (fr_push _ _ _) as [f2|] eqn:Ep; cbn [obind] in E; [|discriminate]. destruct (incr _ _) as [o2|]; cbn [obind] in E; [|discriminate]. injection E as <- <-.
    destruct (push_weight _ _ _ Hf Ep) as [Hi Hs]. specialize (IH _ _ _ _ Hi H). rewrite weight_ub in Hs. lia.
  - injection E as <- <-. specialize (IH _ _ _ _ Hf H). lia.
Qed.
(** What a subproblem hands out weighs less than itself. *)
Lemma cut_weight n l : length l <= M -> (forall q, In q l -> genuine q /\ depth_of n < depth_of q) -> weights l + 1 <= weight n.
Proof.
  intros Hl Hd. destruct l as [|q0 t]; [cbn; apply weight_pos|]. assert (Hlt : depth_of n < N). { destruct (Hd q0 (or_introl eq_refl)) as [Hg Hq]. pose proof (proj2 (genuine_at S eqb P R at_depth nv C 0 q0 WF Hg)). lia. }
  unfold weight. replace (N - depth_of n) with (Datatypes.S (N - depth_of n - 1)) by lia. cbn [tree]. set (B := tree M (N - depth_of n - 1)).
  assert (K : weights (q0 :: t) <= length (q0 :: t) * B).
  { clear Hl. revert Hd. generalize (q0 :: t). intros l. induction l as [|q l IH]; intros Hd; [cbn; lia|]. unfold weights. rewrite sum_cons. fold (weights l). specialize (IH (fun x Hx => Hd x (or_intror Hx))).
    destruct (Hd q (or_introl eq_refl)) as [_ Hq]. assert (weight q <= B) by (unfold weight, B; apply tree_mono; lia). cbn [length]. lia. }
  nia.
Qed.

(** ** parallel.rs *)
Definition left (t : thread S) : nat := match t_pc t with PStart n | PRestricted n | PRelax n _ | PRelaxed n _ => weight n - 1 | _ => 0 end.
Definition lefts (l : list (thread S)) : nat := list_sum (map left l).
Lemma lefts_wake l : lefts (map wake l) = lefts l.
Proof. unfold lefts. rewrite map_map. f_equal. apply map_ext. intros [[] d]; reflexivity. Qed.
Definition total_left (st : state S cfg) : nat := size (c_fringe (s_crit st)) + lefts (s_threads st) + c_explored (s_crit st).
Lemma work_weight c i intr c' w : inv (c_fringe c) -> get_workload cfg c i intr = Some (c', w) ->
  match w with WItem n => c_explored c' = Datatypes.S (c_explored c) /\ size (c_fringe c) = weight n + size (c_fringe c')
  | _ => c_explored c' = c_explored c /\ size (c_fringe c') <= size (c_fringe c) end.
Proof.
  intros Hf. unfold get_workload. destruct (Nat.eqb (c_ongoing c) 0 && fr_empty fr (c_fringe c)) eqn:E0; [intros H; injection H as <- <-; cbn; auto|].
  destruct (c_interrupted c); [intros H; injection H as <- <-; auto|]. destruct intr.
  - match goal with |- context [obind ?x _] => destruct x as [[ub f]|] eqn:E1 end; cbn [obind]; [|discriminate]. intros H. injection H as <- <-. cbn [c_explored c_fringe]. split; [reflexivity|].
    assert (Hi : inv f). { destruct (0 <? c_ongoing c) eqn:Eo; [injection E1 as _ <-; exact Hf|]. apply Nat.ltb_ge in Eo. assert (c_ongoing c = 0) as Eo0 by lia. rewrite Eo0 in E0. cbn in E0.
      destruct (fr_pop fr (c_fringe c)) as [[r f1]|] eqn:Ep; cbn [obind] in E1; [|discriminate]. destruct r; cbn [obind] in E1; [|discriminate]. injection E1 as _ <-. apply (pop_weight _ _ _ Hf E0 Ep). }
    rewrite (clear_weight _ Hi). lia.
  - destruct (fr_empty fr (c_fringe c)) eqn:Ee; [intros H; injection H as <- <-; auto|]. destruct (fr_pop fr (c_fringe c)) as [[r f]|] eqn:Ep; cbn [obind]; [|discriminate].
    destruct r as [nn|]; cbn [obind]; [|discriminate]. destruct (pop_weight _ _ _ Hf Ee Ep) as [Hi Hs]. destruct (_ <=? _)%Z.
    + intros H. injection H as <- <-. cbn [c_explored c_fringe]. rewrite (clear_weight _ Hi). lia.
    + destruct (upd _ _ _); cbn [obind]; [|discriminate]. intros H. injection H as <- <-. cbn [c_explored c_fringe]. auto.
Qed.
Lemma step_left orc intr i st st' t t' : inv (c_fringe (s_crit st)) -> Forall (ParFacts.thread_ok S eqb cfg nv (c_lb (s_crit st))) (s_threads st) ->
  thread_step eqb cfg orc intr i st = Next st' -> nth_error (s_threads st) i = Some t -> nth_error (s_threads st') i = Some t' ->
  total_left st' <= total_left st.
Proof.
  intros Hf Hth H Ht Ht'. rewrite Forall_forall in Hth. specialize (Hth t (nth_error_In _ _ Ht)). destruct Hth as (Hct & Hgen & Hcomp).
  unfold thread_step in H. rewrite Ht in H. destruct t as [p d]. cbn [t_pc t_dd] in *. unfold total_left.
  assert (L : forall (o : option (critical S cfg * thread S)), lift cfg o i st = Next st' -> exists c1 t1, o = Some (c1, t1) /\ s_crit st' = c1 /\ lefts (s_threads st') + left (mk_th p d) = lefts (s_threads st) + left t1).
  { intros [[c1 t1]|] HL; cbn in HL; [|discriminate]. injection HL as <-. exists c1, t1. split; [reflexivity|]. split; [reflexivity|]. exact (sum_put left _ _ _ _ Ht). }
  destruct p; try discriminate.
  - destruct (L _ H) as (c1 & t1 & E & -> & Hu). destruct (get_workload cfg (s_crit st) i intr) as [[c2 w]|] eqn:Gw; cbn [obind] in E; [|discriminate]. injection E as <- <-.
    pose proof (work_weight _ _ _ _ _ Hf Gw) as Hw. destruct w as [| | | |nn]; try (cbn [left t_pc] in *; lia). pose proof (weight_pos nn). cbn [left t_pc] in *. lia.
  - destruct (L _ H) as (c1 & t1 & E & -> & Hu). destruct (_ <=? _)%Z; [injection E as <- <-; cbn [left t_pc] in *; lia|].
    destruct (MddAll.compile _ _ _ _ _) as [d'|]; cbn [obind] in E; [|discriminate]. injection E as <- <-. cbn [left t_pc] in *. lia.
  - destruct (L _ H) as (c1 & t1 & E & -> & Hu). destruct (maybe_update_best _ _ _) as [c2|] eqn:Eb; cbn [obind] in E; [|discriminate]. injection E as <- <-. destruct (keep_best _ _ _ _ _ Eb) as [-> ->].
    destruct (g_exact d); cbn [left t_pc] in *; lia.
  - destruct (L _ H) as (c1 & t1 & E & -> & Hu). destruct (MddAll.compile _ _ _ _ _) as [d'|]; cbn [obind] in E; [|discriminate]. injection E as <- <-. cbn [left t_pc] in *. lia.
  - destruct (L _ H) as (c1 & t1 & E & -> & Hu). destruct (g_exact d).
    + destruct (maybe_update_best _ _ _) as [c2|] eqn:Eb; cbn [obind] in E; [|discriminate]. injection E as <- <-. destruct (keep_best _ _ _ _ _ Eb) as [-> ->]. cbn [left t_pc] in *. lia.
    + unfold enqueue_cutset in E. destruct (drain_cutset d) as [[l d2]|] eqn:Ed; cbn [obind] in E; [|discriminate]. destruct (ofold _ _ _) as [f|] eqn:Ef; cbn [obind] in E; [|discriminate]. injection E as <- <-.
      pose proof (enqueue_weight _ _ _ _ _ Hf Ef) as Hs. pose proof (drain_at_most S d l d2 Ed) as Hl. destruct Hcomp as (orc0 & lb0 & d0 & Ho & _ & Hct0 & Ec). apply Forall_inv in Hgen.
      pose proof (HA orc0 _ _ _ _ Ho Hgen Hct0 Ec) as Hm.
      destruct (all_cut_genuine S eqb P R at_depth nv C false orc0 _ _ _ WF (ParFacts.good_call_of S eqb cfg at_depth nv C True inv content G orc0 Relaxed n lb0 Ho Hgen) Ec) as (l' & d2' & Ed' & Hd'). rewrite Ed in Ed'. injection Ed' as <- <-.
      pose proof (cut_weight n l ltac:(lia) (fun q Hq => let (A, B) := Hd' q Hq in conj A (proj2 B))) as Hc.
      cbn [set_fringe c_fringe c_explored left t_pc] in *. lia.
  - destruct (finish_node _ _ _ _) as [c'|] eqn:Ef; [|discriminate]. injection H as <-. cbn [s_threads s_crit] in *. rewrite lefts_wake. unfold finish_node in Ef. destruct (c_ongoing (s_crit st)); [discriminate|].
    destruct (upd _ _ _); cbn [obind] in Ef; [|discriminate]. injection Ef as <-. cbn [c_fringe c_explored].
    assert (Hu := sum_put left i (mk_th PIdle d) _ _ Ht). unfold lefts. cbn [left t_pc] in *. lia.
Qed.
Lemma root_weight : weight (ParSolver.root_node cfg) = tree M N.
Proof. unfold weight. f_equal. cbn. lia. Qed.
Theorem par_left n m a b st : m <= n -> counted S eqb cfg n m a b st -> total_left st <= tree M N.
Proof.
  intros Hm. induction 1 as [st H|a b st orc intr i st' t t' HC IH Hl Hs Ht Ht'|a b st st' HC IH Hs].
  - unfold initial in H. destruct (fr_push _ _ _) as [f|] eqn:E; cbn [obind] in H; [|discriminate]. injection H as <-. unfold total_left. cbn [s_crit c_fringe c_explored s_threads].
    destruct (fo_new _ _ _ _ FO) as [Hi Hc]. destruct (push_weight _ _ _ Hi E) as [_ Hz]. rewrite Hc in Hz. rewrite root_weight in Hz. cbn [weights map list_sum fold_right] in Hz.
    assert (Hz2 : lefts (repeat (mk_th PIdle (dd_new (cf_ctype cfg))) m) = 0) by (unfold lefts; clear; induction m as [|m IH]; cbn; [reflexivity|exact IH]). rewrite Hz2. unfold weights in *. cbn in Hz. lia.
  - pose proof (ParFacts.reachable_inv1 S eqb cfg at_depth nv C True inv content G n m st Hm (counted_reachable _ _ _ _ _ _ _ _ HC)) as I1.
    pose proof (step_left orc intr i st st' t t' (ParFacts.i_fr _ _ _ _ _ _ _ I1) (ParFacts.i_th _ _ _ _ _ _ _ I1) Hs Ht Ht'). lia.
  - destruct Hs as (i & d & Hn & ->). unfold total_left in *. cbn [s_crit s_threads] in *. pose proof (sum_put left i (mk_th PIdle d) _ _ Hn) as Hp. unfold lefts in *. cbn [left t_pc] in Hp. lia.
Qed.
Lemma weights_length l : length l <= weights l.
Proof. induction l as [|q l IH]; [cbn; lia|]. unfold weights. rewrite sum_cons. fold (weights l). pose proof (weight_pos q). cbn [length]. lia. Qed.
Theorem par_taken_any n m st : m <= n -> reachable S eqb cfg n m st -> length (content (c_fringe (s_crit st))) + c_explored (s_crit st) <= tree M N.
Proof.
  intros Hm Hr. destruct (par_counted_all _ _ _ _ _ _ Hr) as (a & b & HC). pose proof (par_left _ _ _ _ _ Hm HC) as H. unfold total_left in H.
  pose proof (weights_length (content (c_fringe (s_crit st)))). lia.
Qed.

(** ** barrier.rs *)
Definition bleft (t : bthread S) : nat :=
  match u_pc t with BTry n | BInsert n => weight n | BStart n | BRestrict n _ | BRelax n _ | BRelaxing n _ _ => weight n - 1 | _ => 0 end.
Definition blefts (l : list (bthread S)) : nat := list_sum (map bleft l).
Lemma blefts_wake l : blefts (map bwake l) = blefts l.
Proof. unfold blefts. rewrite map_map. f_equal. apply map_ext. intros [[] d]; reflexivity. Qed.
Notation bsize k := (size (c_fringe (k_c k))).
Notation ce k := (c_explored (k_c k)).
Definition btotal_left (st : bstate S cfg) : nat := bsize (q_crit st) + blefts (q_threads st) + ce (q_crit st).
Lemma decide_weight k intr k' p : inv (c_fringe (k_c k)) -> decide cfg k intr = Some (k', p) ->
  ce k' = ce k /\ match p with BTry n => bsize k = weight n + bsize k' | BDone | BWait => bsize k' <= bsize k | _ => False end.
Proof.
  intros Hf. unfold decide. cbv zeta. destruct (Nat.eqb (c_ongoing (k_c k)) 0 && fr_empty fr (c_fringe (k_c k))) eqn:E0; [intros H; injection H as <- <-; cbn; auto|].
  destruct (c_interrupted (k_c k)); [intros H; injection H as <- <-; auto|]. destruct intr.
  - match goal with |- context [obind ?x _] => destruct x as [[ub f]|] eqn:E1 end; cbn [obind]; [|discriminate]. intros H. injection H as <- <-. cbn [with_c k_c c_explored c_fringe]. split; [reflexivity|].
    assert (Hi : inv f). { destruct (0 <? c_ongoing (k_c k)) eqn:Eo; [injection E1 as _ <-; exact Hf|]. apply Nat.ltb_ge in Eo. assert (c_ongoing (k_c k) = 0) as Eo0 by lia. rewrite Eo0 in E0. cbn in E0.
      destruct (fr_pop fr (c_fringe (k_c k))) as [[r f1]|] eqn:Ep; cbn [obind] in E1; [|discriminate]. destruct r; cbn [obind] in E1; [|discriminate]. injection E1 as _ <-. apply (pop_weight _ _ _ Hf E0 Ep). }
    rewrite (clear_weight _ Hi). lia.
  - destruct (fr_empty fr (c_fringe (k_c k))) eqn:Ee; [intros H; injection H as <- <-; auto|]. destruct (fr_pop fr (c_fringe (k_c k))) as [[r f]|] eqn:Ep; cbn [obind]; [|discriminate].
    destruct r as [nn|]; cbn [obind]; [|discriminate]. destruct (pop_weight _ _ _ Hf Ee Ep) as [Hi Hs]. intros H. injection H as <- <-. cbn [with_c k_c set_fringe c_explored c_fringe]. auto.
Qed.
Lemma try_weight k T n k' p : inv (c_fringe (k_c k)) -> try_node eqb cfg k T n = Some (k', p) ->
  ce k' = ce k /\ match p with BTry n' => bsize k = weight n' + bsize k' | BInsert n' => n' = n /\ bsize k' <= bsize k | BIdle => bsize k' <= bsize k | _ => False end.
Proof.
  intros Hf. unfold try_node. cbv zeta. destruct (_ <=? _)%Z; [intros H; injection H as <- <-; cbn [k_c set_fringe c_explored c_fringe]; rewrite (clear_weight _ Hf); split; [reflexivity|lia]|].
  destruct (nth_error T _) as [l|]; cbn [obind]; [|discriminate]. destruct (match tget _ _ _ with Some _ => _ | None => _ end); [intros H; injection H as <- <-; auto|].
  destruct (decr _ _) as [o|]; cbn [obind]; [|discriminate]. destruct (fr_empty fr (c_fringe (k_c k))) eqn:Ee; [intros H; injection H as <- <-; cbn; auto|].
  destruct (fr_pop fr (c_fringe (k_c k))) as [[r f]|] eqn:Ep; cbn [obind]; [|discriminate]. destruct r as [nn|]; cbn [obind]; [|discriminate].
  destruct (pop_weight _ _ _ Hf Ee Ep) as [Hi Hs]. intros H. injection H as <- <-. cbn [with_c k_c set_fringe c_explored c_fringe]. auto.
Qed.
Lemma take_weight k T i n k' T' : take_node eqb cfg k T i n = Some (k', T') -> ce k' = Datatypes.S (ce k) /\ bsize k' = bsize k.
Proof. unfold take_node. cbv zeta. intros H. repeat match type of H with obind ?x _ = _ => destruct x; cbn [obind] in H; [|discriminate] end. injection H as <- _. cbn. auto. Qed.
Lemma bstep_left orc intr i st st' t t' : inv (c_fringe (k_c (q_crit st))) -> Forall (BarFacts.thread_ok S eqb cfg at_depth nv C (c_lb (k_c (q_crit st)))) (q_threads st) ->
  Forall (held_cut S M) (q_threads st) -> bthread_step eqb cfg orc intr i st = BNext st' -> nth_error (q_threads st) i = Some t -> nth_error (q_threads st') i = Some t' ->
  btotal_left st' <= btotal_left st.
Proof.
  intros Hf Hth HL H Ht Ht'. rewrite Forall_forall in Hth. specialize (Hth t (nth_error_In _ _ Ht)). destruct Hth as (Hct & Hg & _ & Hpc).
  assert (Hlt : held_cut S M t) by (rewrite Forall_forall in HL; apply HL; eapply nth_error_In; exact Ht).
  unfold bthread_step in H. rewrite Ht in H. destruct t as [p d]. cbn [u_pc u_dd] in *. unfold btotal_left.
  assert (K : forall k T t1, goto cfg st i k T t1 = BNext st' -> q_crit st' = k /\ blefts (q_threads st') + bleft (mk_bth p d) = blefts (q_threads st) + bleft t1).
  { intros k T t1 HG. unfold goto in HG. injection HG as <-. cbn [q_crit q_threads] in *. split; [reflexivity|]. exact (sum_put bleft _ _ _ _ Ht). }
  destruct p; try discriminate.
  - destruct (locked cfg st); [discriminate|]. destruct (K _ _ _ H) as (-> & Hu). cbn [bleft u_pc] in *. lia.
  - destruct (clean_turn _ _ _) as [[[k' T']|]|] eqn:E; [| |discriminate].
    + destruct (K _ _ _ H) as (-> & Hu). apply clean_count in E. rewrite E. cbn [bleft u_pc] in *. lia.
    + destruct (decide _ _ _) as [[k' p]|] eqn:E'; [|discriminate]. destruct (K _ _ _ H) as (-> & Hu). destruct (decide_weight _ _ _ _ Hf E') as (He & Hp).
      rewrite He. destruct p; try (destruct Hp; fail); cbn [bleft u_pc] in *; lia.
  - destruct (try_node _ _ _ _ _) as [[k' p]|] eqn:E'; [|discriminate]. destruct (K _ _ _ H) as (-> & Hu). destruct (try_weight _ _ _ _ _ Hf E') as (He & Hp).
    rewrite He. destruct p; try (destruct Hp; fail); try (match type of Hp with _ /\ _ => destruct Hp as [-> Hp] end); cbn [bleft u_pc] in *; lia.
  - destruct (take_node _ _ _ _ _ _) as [[k' T']|] eqn:E'; [|discriminate]. destruct (K _ _ _ H) as (-> & Hu). destruct (take_weight _ _ _ _ _ _ E') as [He Hz]. rewrite He, Hz. pose proof (weight_pos n). cbn [bleft u_pc] in *. lia.
  - destruct (locked cfg st); [discriminate|]. destruct (K _ _ _ H) as (-> & Hu). destruct (_ <=? _)%Z; cbn [u_pc bleft] in *; lia.
  - destruct p as [d'| | | | ].
    1: { destruct (locked cfg st); [discriminate|]. destruct (maybe_update_best _ _ _) as [c2|] eqn:E; cbn [obind] in H; [|discriminate]. destruct (K _ _ _ H) as (-> & Hu). destruct (keep_best _ _ _ _ _ E) as [Hb1 Hb2].
         cbn [with_c k_c]. rewrite Hb1, Hb2. destruct (g_exact d'); cbn [u_pc bleft] in *; lia. }
    all: unfold compile_step in H; destruct (access _ _ _) as [[p' T']|] eqn:Ea; [|discriminate]; destruct (K _ _ _ H) as (-> & Hu); cbn [u_pc bleft] in *; lia.
  - destruct (locked cfg st); [discriminate|]. destruct (K _ _ _ H) as (-> & Hu). cbn [u_pc bleft] in *. lia.
  - destruct p as [d'| | | | ].
    1: { destruct (locked cfg st); [discriminate|]. cbn [held_cut u_pc pw] in Hlt. destruct (g_exact d').
         - destruct (maybe_update_best _ _ _) as [c2|] eqn:E; cbn [obind] in H; [|discriminate]. destruct (K _ _ _ H) as (-> & Hu). destruct (keep_best _ _ _ _ _ E) as [Hb1 Hb2]. cbn [with_c k_c]. rewrite Hb1, Hb2. cbn [u_pc bleft] in *. lia.
         - unfold benqueue_cutset in H. destruct (drain_cutset d') as [[l d2]|] eqn:Ed; cbn [obind] in H; [|discriminate].
           destruct (ofold _ _ _) as [[f o]|] eqn:Ef; cbn [obind] in H; [|discriminate]. destruct (K _ _ _ H) as (-> & Hu).
           pose proof (benqueue_weight _ _ _ _ _ _ _ Hf Ef) as Hs. pose proof (drain_at_most S d' l d2 Ed) as Hm.
           destruct Hpc as (T0 & Hwp). destruct Hwp as (lb0 & TA & TB & _ & HR). apply Forall_inv in Hg.
           destruct (bar_cut S eqb P R at_depth nv C false (call cfg Relaxed n lb0) _ _ _ _ WF Hg HR) as (_ & l' & d2' & Ed' & _ & Hd'). rewrite Ed in Ed'. injection Ed' as <- <-.
           pose proof (cut_weight n l ltac:(lia) (fun q Hq => let (A, B) := Hd' q Hq in conj A (proj2 B))) as Hc.
           cbn [k_c set_fringe c_fringe c_explored u_pc bleft] in *. lia. }
    all: unfold compile_step in H; destruct (access _ _ _) as [[p' T']|] eqn:Ea; [|discriminate]; destruct (K _ _ _ H) as (-> & Hu); cbn [u_pc bleft] in *; lia.
  - clear K. destruct (locked cfg st); [discriminate|]. destruct (bfinish_node _ _ _ _ _) as [k'|] eqn:Ef; [|discriminate]. injection H as <-. cbn [q_threads q_crit] in *. rewrite blefts_wake.
    unfold bfinish_node, finish_node in Ef. destruct (c_ongoing (k_c (q_crit st))); [discriminate|]. destruct (upd _ _ _); cbn [obind] in Ef; [|discriminate]. destruct (decr _ _); cbn [obind] in Ef; [|discriminate]. injection Ef as <-.
    cbn [k_c c_fringe c_explored]. assert (Hu := sum_put bleft i (mk_bth BIdle d) _ _ Ht). unfold blefts. cbn [u_pc bleft] in *. lia.
Qed.
Theorem bar_left n m a b st : m <= n -> bcounted S eqb cfg n m a b st -> btotal_left st <= tree M N.
Proof.
  intros Hm. induction 1 as [st H|a b st orc intr i st' t t' HC IH Hl Hs Ht Ht'|a b st st' HC IH Hs].
  - unfold binitial in H. destruct (fr_push _ _ _) as [f|] eqn:E; cbn [obind] in H; [|discriminate]. repeat match type of H with obind ?x _ = _ => destruct x; cbn [obind] in H; [|discriminate] end.
    injection H as <-. unfold btotal_left. cbn [q_crit k_c c_fringe c_explored q_threads].
    destruct (fo_new _ _ _ _ FO) as [Hi Hc]. destruct (push_weight _ _ _ Hi E) as [_ Hz]. rewrite Hc in Hz. rewrite root_weight in Hz.
    assert (Hz2 : blefts (repeat (mk_bth BIdle (dd_new (cf_ctype cfg))) m) = 0) by (unfold blefts; clear; induction m as [|m IH]; cbn; [reflexivity|exact IH]). rewrite Hz2. unfold weights in *. cbn in Hz. lia.
  - pose proof (BarFacts.reachable_inv1 S eqb cfg at_depth nv C True inv content G n m st Hm (bcounted_reachable _ _ _ _ _ _ _ _ HC)) as I1.
    pose proof (bar_measure S eqb cfg at_depth nv C M inv content G HA HB n m a b st Hm HC) as [HL _].
    pose proof (bstep_left orc intr i st st' t t' (BarFacts.i_fr _ _ _ _ _ _ _ _ _ _ I1) (BarFacts.i_th _ _ _ _ _ _ _ _ _ _ I1) HL Hs Ht Ht'). lia.
  - destruct Hs as (i & d & Hn & ->). unfold btotal_left in *. cbn [q_crit q_threads] in *.
    pose proof (sum_put bleft i (mk_bth BIdle d) _ _ Hn) as Hp. unfold blefts in *. cbn [bleft u_pc] in Hp. lia.
Qed.
Theorem bar_taken_any n m st : m <= n -> breachable S eqb cfg n m st -> length (content (c_fringe (k_c (q_crit st)))) + ce (q_crit st) <= tree M N.
Proof.
  intros Hm Hr. destruct (bar_counted_all _ _ _ _ _ _ Hr) as (a & b & HC). pose proof (bar_left _ _ _ _ _ Hm HC) as H. unfold btotal_left in H.
  pose proof (weights_length (content (c_fringe (k_c (q_crit st))))). lia.
Qed.
End Sizes.

(** * Subproblems *)
Theorem par_taken S eqb (cfg : config S) at_depth nv C D W inv content : good_config S eqb cfg at_depth nv C True inv content ->
  domains_within S (cf_pb cfg) at_depth nv D -> (forall s, cf_width cfg s <= W) -> cf_ctype cfg = LastExactLayer -> forall n m st, m <= n -> reachable S eqb cfg n m st ->
  length (content (c_fringe (s_crit st))) + c_explored (s_crit st) <= tree (Nat.max W D) (pb_nb_vars (cf_pb cfg)).
Proof.
  intros G HD HW Hl. pose proof (gs_formed _ _ _ _ _ _ _ _ _ G) as WF. apply (par_taken_any S eqb cfg at_depth nv C (Nat.max W D) inv content G).
  all: intros; (eapply (all_cut_call S eqb cfg at_depth nv C D W) || eapply (bar_cut_call S eqb cfg at_depth nv C D W)); eauto; congruence.
Qed.
Theorem bar_taken S eqb (cfg : config S) at_depth nv C D W inv content : good_config S eqb cfg at_depth nv C True inv content ->
  domains_within S (cf_pb cfg) at_depth nv D -> (forall s, cf_width cfg s <= W) -> cf_ctype cfg = LastExactLayer -> forall n m st, m <= n -> breachable S eqb cfg n m st ->
  length (content (c_fringe (k_c (q_crit st)))) + c_explored (k_c (q_crit st)) <= tree (Nat.max W D) (pb_nb_vars (cf_pb cfg)).
Proof.
  intros G HD HW Hl. pose proof (gs_formed _ _ _ _ _ _ _ _ _ G) as WF. apply (bar_taken_any S eqb cfg at_depth nv C (Nat.max W D) inv content G).
  all: intros; (eapply (all_cut_call S eqb cfg at_depth nv C D W) || eapply (bar_cut_call S eqb cfg at_depth nv C D W)); eauto; congruence.
Qed.
Theorem par_taken_cut S eqb (cfg : config S) at_depth nv C D W inv content : good_config S eqb cfg at_depth nv C True inv content ->
  domains_within S (cf_pb cfg) at_depth nv D -> (forall s, cf_width cfg s <= W) -> forall n m st, m <= n -> reachable S eqb cfg n m st ->
  length (content (c_fringe (s_crit st))) + c_explored (s_crit st) <= tree (most_nodes W D (pb_nb_vars (cf_pb cfg))) (pb_nb_vars (cf_pb cfg)).
Proof.
  intros G HD HW. pose proof (gs_formed _ _ _ _ _ _ _ _ _ G) as WF. apply (par_taken_any S eqb cfg at_depth nv C (most_nodes W D (pb_nb_vars (cf_pb cfg))) inv content G).
  all: intros; (eapply (all_nodes_call S eqb cfg at_depth nv C D W) || eapply (bar_nodes_call S eqb cfg at_depth nv C D W)); eauto; congruence.
Qed.
Theorem bar_taken_cut S eqb (cfg : config S) at_depth nv C D W inv content : good_config S eqb cfg at_depth nv C True inv content ->
  domains_within S (cf_pb cfg) at_depth nv D -> (forall s, cf_width cfg s <= W) -> forall n m st, m <= n -> breachable S eqb cfg n m st ->
  length (content (c_fringe (k_c (q_crit st)))) + c_explored (k_c (q_crit st)) <= tree (most_nodes W D (pb_nb_vars (cf_pb cfg))) (pb_nb_vars (cf_pb cfg)).
Proof.
  intros G HD HW. pose proof (gs_formed _ _ _ _ _ _ _ _ _ G) as WF. apply (bar_taken_any S eqb cfg at_depth nv C (most_nodes W D (pb_nb_vars (cf_pb cfg))) inv content G).
  all: intros; (eapply (all_nodes_call S eqb cfg at_depth nv C D W) || eapply (bar_nodes_call S eqb cfg at_depth nv C D W)); eauto; congruence.
Qed.

(** * Subproblems and expanded nodes *)
Theorem par_whole S eqb (cfg : config S) at_depth nv C D W : good_solver S eqb cfg at_depth nv C -> domains_within S (cf_pb cfg) at_depth nv D ->
  (forall s, cf_width cfg s <= W) -> cf_ctype cfg = LastExactLayer -> forall n m st, m <= n -> reachable S eqb cfg n m st ->
  c_explored (s_crit st) <= tree (Nat.max W D) (pb_nb_vars (cf_pb cfg)) /\
  c_explored_dd (s_crit st) <= tree (Nat.max W D) (pb_nb_vars (cf_pb cfg)) * (most_restricted W (pb_nb_vars (cf_pb cfg)) + most_relaxed W D (pb_nb_vars (cf_pb cfg))).
Proof.
  intros G HD HW Hl n m st Hm Hr. pose proof (par_work S eqb cfg at_depth nv C D W n m st G HD HW Hm Hr) as H. destruct G as (inv & content & G).
  pose proof (par_taken S eqb cfg at_depth nv C D W inv content G HD HW Hl n m st Hm Hr). split; [lia|]. eapply Nat.le_trans; [exact H|]. apply Nat.mul_le_mono_r. lia.
Qed.
Theorem bar_whole S eqb (cfg : config S) at_depth nv C D W : good_solver S eqb cfg at_depth nv C -> domains_within S (cf_pb cfg) at_depth nv D ->
  (forall s, cf_width cfg s <= W) -> cf_ctype cfg = LastExactLayer -> forall n m st, m <= n -> breachable S eqb cfg n m st ->
  c_explored (k_c (q_crit st)) <= tree (Nat.max W D) (pb_nb_vars (cf_pb cfg)) /\
  c_explored_dd (k_c (q_crit st)) <= tree (Nat.max W D) (pb_nb_vars (cf_pb cfg)) * (most_restricted W (pb_nb_vars (cf_pb cfg)) + most_relaxed W D (pb_nb_vars (cf_pb cfg))).
Proof.
  intros G HD HW Hl n m st Hm Hr. pose proof (bar_work S eqb cfg at_depth nv C D W n m st G HD HW Hm Hr) as H. destruct G as (inv & content & G).
  pose proof (bar_taken S eqb cfg at_depth nv C D W inv content G HD HW Hl n m st Hm Hr). split; [lia|]. eapply Nat.le_trans; [exact H|]. apply Nat.mul_le_mono_r. lia.
Qed.
Theorem par_whole_cut S eqb (cfg : config S) at_depth nv C D W : good_solver S eqb cfg at_depth nv C -> domains_within S (cf_pb cfg) at_depth nv D ->
  (forall s, cf_width cfg s <= W) -> forall n m st, m <= n -> reachable S eqb cfg n m st ->
  c_explored (s_crit st) <= tree (most_nodes W D (pb_nb_vars (cf_pb cfg))) (pb_nb_vars (cf_pb cfg)) /\
  c_explored_dd (s_crit st) <= tree (most_nodes W D (pb_nb_vars (cf_pb cfg))) (pb_nb_vars (cf_pb cfg)) * (most_restricted W (pb_nb_vars (cf_pb cfg)) + most_relaxed W D (pb_nb_vars (cf_pb cfg))).
Proof.
  intros G HD HW n m st Hm Hr. pose proof (par_work S eqb cfg at_depth nv C D W n m st G HD HW Hm Hr) as H. destruct G as (inv & content & G).
  pose proof (par_taken_cut S eqb cfg at_depth nv C D W inv content G HD HW n m st Hm Hr). split; [lia|]. eapply Nat.le_trans; [exact H|]. apply Nat.mul_le_mono_r. lia.
Qed.
Theorem bar_whole_cut S eqb (cfg : config S) at_depth nv C D W : good_solver S eqb cfg at_depth nv C -> domains_within S (cf_pb cfg) at_depth nv D ->
  (forall s, cf_width cfg s <= W) -> forall n m st, m <= n -> breachable S eqb cfg n m st ->
  c_explored (k_c (q_crit st)) <= tree (most_nodes W D (pb_nb_vars (cf_pb cfg))) (pb_nb_vars (cf_pb cfg)) /\
  c_explored_dd (k_c (q_crit st)) <= tree (most_nodes W D (pb_nb_vars (cf_pb cfg))) (pb_nb_vars (cf_pb cfg)) * (most_restricted W (pb_nb_vars (cf_pb cfg)) + most_relaxed W D (pb_nb_vars (cf_pb cfg))).
Proof.
  intros G HD HW n m st Hm Hr. pose proof (bar_work S eqb cfg at_depth nv C D W n m st G HD HW Hm Hr) as H. destruct G as (inv & content & G).
  pose proof (bar_taken_cut S eqb cfg at_depth nv C D W inv content G HD HW n m st Hm Hr). split; [lia|]. eapply Nat.le_trans; [exact H|]. apply Nat.mul_le_mono_r. lia.
Qed.
