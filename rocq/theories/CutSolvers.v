(** Proofs about the number of subproblems the frontier of a solver holds. *)
From Verif Require Import Spec Dd DdSpec Fringe FringeSpec MddAll MddBarrier MddBarrierSpec ParSolver ParSpec ParFacts BarSolver BarSpec BarFacts CountersSpec CountersProofs SizeSpec DdCountMdd SizeProofs SizeSolvers DrainInv EdgeProofs CutProofs TreeSpec.
From Coq Require Import Lia ZArith List Permutation.
Import ListNotations.
Open Scope nat_scope.

(** * One compilation *)
Section Calls.
Variable S : Type.
Variable eqb : S -> S -> bool.
Variable P : problem S.
Variable R : relaxation S.
Variable at_depth : nat -> S -> Prop.
Variable nv : nat -> nat.
Variable C : Z.
Variable D : nat.
Theorem all_handed debug orc inp (d dF : dd S) l d2 : well_formed S eqb P R at_depth nv C -> good_call S P R nv debug orc inp -> domains_within S P at_depth nv D ->
  g_ctype d = LastExactLayer -> i_type inp <> Exact -> MddAll.compile eqb debug orc inp d = Some dF -> drain_cutset dF = Some (l, d2) -> length l <= Nat.max (i_width inp) D.
Proof.
  intros WF [(L1 & L2 & _) Hpb Hrx _ Hg _] HD Hct Hty E Hl. destruct (genuine_at S eqb P R at_depth nv C D _ WF Hg) as [Ha Hd].
  eapply Nat.le_trans; [eapply drain_at_most; exact Hl|]. eapply (all_cut S eqb inp orc P R at_depth nv D); eauto; apply WF.
Qed.
Theorem bar_handed alone debug orc inp (d dF : dd S) T T' l d2 : well_formed S eqb P R at_depth nv C -> good_call S P R nv debug orc inp -> domains_within S P at_depth nv D ->
  g_ctype d = LastExactLayer -> i_type inp <> Exact -> returns eqb alone (MddBarrier.compile eqb debug orc inp d) T dF T' -> drain_cutset dF = Some (l, d2) -> length l <= Nat.max (i_width inp) D.
Proof.
  intros WF [(L1 & L2 & _) Hpb Hrx _ Hg _] HD Hct Hty E Hl. destruct (genuine_at S eqb P R at_depth nv C D _ WF Hg) as [Ha Hd].
  eapply Nat.le_trans; [eapply drain_at_most; exact Hl|].
  refine (pw_gets _ _ _ _ _ _ _ (cut_ok S inp D) E _). eapply (bar_cut_pw S eqb inp orc P R at_depth nv D); eauto; apply WF.
Qed.
End Calls.

Section Sizes.
Variable S : Type.
Variable eqb : S -> S -> bool.
Variable cfg : config S.
Variable at_depth : nat -> S -> Prop.
Variable nv : nat -> nat.
Variable C : Z.
Variable M : nat.
Variable inv : fr_t (cf_fr cfg) -> Prop.
Variable content : fr_t (cf_fr cfg) -> list (subproblem S).
Notation P := (cf_pb cfg).
Notation R := (cf_rx cfg).
Notation fr := (cf_fr cfg).
Hypothesis G : good_config S eqb cfg at_depth nv C True inv content.
Notation genuine := (genuine S P nv).
Hypothesis HA : forall orc n lb d d', library_ok S orc -> genuine n -> g_ctype d = cf_ctype cfg -> MddAll.compile eqb false orc (call cfg Relaxed n lb) d = Some d' -> length (g_cutset d') <= M.
Hypothesis HB : forall orc n lb d, library_ok S orc -> genuine n -> g_ctype d = cf_ctype cfg -> pw S (MddBarrier.compile eqb false orc (call cfg Relaxed n lb) d) (fun d' => length (g_cutset d') <= M).
Let WF := gs_formed _ _ _ _ _ _ _ _ _ G.
Let FO := gs_frontier _ _ _ _ _ _ _ _ _ G.
Notation size f := (length (content f)).

(** ** The frontier *)
Lemma push_size f n f' : inv f -> fr_push fr f n = Some f' -> inv f' /\ size f' <= Datatypes.S (size f).
Proof.
  intros Hf H. destruct (fo_push _ _ _ _ FO f n Hf) as (f1 & H1 & Hi & Hc). assert (f1 = f') as -> by congruence. split; [exact Hi|].
  destruct Hc as [Hc|(_ & old & l & _ & H2 & H3)]; [apply Permutation_length in Hc; cbn in Hc; lia|]. apply Permutation_length in H2, H3. cbn in H2, H3. lia.
Qed.
Lemma pop_size f r f' : inv f -> fr_empty fr f = false -> fr_pop fr f = Some (r, f') -> inv f' /\ size f = Datatypes.S (size f').
Proof.
  intros Hf He H. assert (Hn : content f <> []) by (intros E; apply (fo_empty _ _ _ _ FO f Hf) in E; congruence).
  destruct (fo_pop _ _ _ _ FO f Hf Hn) as (p & f1 & H1 & Hi & Hc & _). rewrite H1 in H. injection H as _ <-. split; [exact Hi|]. apply Permutation_length in Hc. exact Hc.
Qed.
Lemma clear_size f : inv f -> size (fr_clear fr f) = 0.
Proof. intros Hf. rewrite (proj2 (fo_clear _ _ _ _ FO f Hf)). reflexivity. Qed.
Lemma enqueue_size lb ub : forall l f f', inv f -> ofold (enqueue_node cfg lb ub) l f = Some f' -> size f' <= size f + length l.
Proof.
  induction l as [|q t IH]; cbn [ofold]; intros f f' Hf H; [injection H as <-; lia|]. destruct (enqueue_node cfg lb ub f q) as [f1|] eqn:E; cbn [obind] in H; [|discriminate].
  unfold enqueue_node in E. cbv zeta in E. destruct (lb <? _)%Z.
  - destruct (push_size _ _ _ Hf E) as [Hi Hs]. specialize (IH _ _ Hi H). cbn [length]. lia.
  - injection E as <-. specialize (IH _ _ Hf H). cbn [length]. lia.
Qed.
Lemma benqueue_size lb ub : forall l f o f' o', inv f -> ofold (benqueue_node cfg lb ub) l (f, o) = Some (f', o') -> size f' <= size f + length l.
Proof.
  induction l as [|q t IH]; cbn [ofold]; intros f o f' o' Hf H; [injection H as <- _; lia|]. destruct (benqueue_node cfg lb ub (f, o) q) as [[f1 o1]|] eqn:E; cbn [obind] in H; [|discriminate].
  unfold benqueue_node in E. cbv zeta in E. destruct (lb <? _)%Z.
  - destruct (fr_push _ _ _) as [f2|] eqn:Ep; cbn [obind] in E; [|discriminate]. destruct (incr _ _) as [o2|]; cbn [obind] in E; [|discriminate]. injection E as <- <-.
    destruct (push_size _ _ _ Hf Ep) as [Hi Hs]. specialize (IH _ _ _ _ Hi H). cbn [length]. lia.
  - injection E as <- <-. specialize (IH _ _ _ _ Hf H). cbn [length]. lia.
Qed.
(** ** parallel.rs *)
Definition owes (t : thread S) : nat := match t_pc t with PStart _ | PRestricted _ | PRelax _ _ | PRelaxed _ _ => M | _ => 0 end.
Definition owed (l : list (thread S)) : nat := list_sum (map owes l).
Lemma owed_wake l : owed (map wake l) = owed l.
Proof. unfold owed. rewrite map_map. f_equal. apply map_ext. intros [[] d]; reflexivity. Qed.
Definition measure (st : state S cfg) : nat := size (c_fringe (s_crit st)) + owed (s_threads st) + c_explored (s_crit st).
Lemma keep_best c d c' : maybe_update_best cfg c d = Some c' -> c_fringe c' = c_fringe c /\ c_explored c' = c_explored c.
Proof.
  unfold maybe_update_best. destruct (best_value d) as [bv|]; cbn [obind]; [|discriminate]. destruct (_ <? _)%Z; [|intros H; injection H as <-; auto].
  destruct (best_solution d); cbn [obind]; [|discriminate]. intros H. injection H as <-. auto.
Qed.
Lemma work_size c i intr c' w : inv (c_fringe c) -> get_workload cfg c i intr = Some (c', w) ->
  match w with WItem _ => c_explored c' = Datatypes.S (c_explored c) /\ size (c_fringe c) = Datatypes.S (size (c_fringe c'))
  | _ => c_explored c' = c_explored c /\ size (c_fringe c') <= size (c_fringe c) end.
Proof.
  intros Hf. unfold get_workload. destruct (Nat.eqb (c_ongoing c) 0 && fr_empty fr (c_fringe c)) eqn:E0; [intros H; injection H as <- <-; cbn; auto|].
  destruct (c_interrupted c); [intros H; injection H as <- <-; auto|]. destruct intr.
  - match goal with |- context [obind ?x _] => destruct x as [[ub f]|] eqn:E1 end; cbn [obind]; [|discriminate]. intros H. injection H as <- <-. cbn. split; [reflexivity|].
    assert (Hi : inv f). { destruct (0 <? c_ongoing c) eqn:Eo; [injection E1 as _ <-; exact Hf|]. apply Nat.ltb_ge in Eo. assert (c_ongoing c = 0) as Eo0 by lia. rewrite Eo0 in E0. cbn in E0.
      destruct (fr_pop fr (c_fringe c)) as [[r f1]|] eqn:Ep; cbn [obind] in E1; [|discriminate]. destruct r; cbn [obind] in E1; [|discriminate]. injection E1 as _ <-. apply (pop_size _ _ _ Hf E0 Ep). }
    rewrite (clear_size _ Hi). lia.
  - destruct (fr_empty fr (c_fringe c)) eqn:Ee; [intros H; injection H as <- <-; auto|]. destruct (fr_pop fr (c_fringe c)) as [[r f]|] eqn:Ep; cbn [obind]; [|discriminate].
    destruct r as [nn|]; cbn [obind]; [|discriminate]. destruct (pop_size _ _ _ Hf Ee Ep) as [Hi Hs]. destruct (_ <=? _)%Z.
    + intros H. injection H as <- <-. cbn. rewrite (clear_size _ Hi). lia.
    + destruct (upd _ _ _); cbn [obind]; [|discriminate]. intros H. injection H as <- <-. cbn. auto.
Qed.
Lemma step_measure orc intr i st st' t t' : inv (c_fringe (s_crit st)) -> Forall (ParFacts.thread_ok S eqb cfg nv (c_lb (s_crit st))) (s_threads st) ->
  thread_step eqb cfg orc intr i st = Next st' -> nth_error (s_threads st) i = Some t -> nth_error (s_threads st') i = Some t' ->
  measure st' + c_explored (s_crit st) * M <= measure st + c_explored (s_crit st') * M.
Proof.
  intros Hf Hth H Ht Ht'. rewrite Forall_forall in Hth. specialize (Hth t (nth_error_In _ _ Ht)). destruct Hth as (Hct & Hgen & Hcomp).
  unfold thread_step in H. rewrite Ht in H. destruct t as [p d]. cbn [t_pc t_dd] in *. unfold measure.
  assert (L : forall (o : option (critical S cfg * thread S)), lift cfg o i st = Next st' -> exists c1 t1, o = Some (c1, t1) /\ s_crit st' = c1 /\ owed (s_threads st') + owes (mk_th p d) = owed (s_threads st) + owes t1).
  { intros [[c1 t1]|] HL; cbn in HL; [|discriminate]. injection HL as <-. exists c1, t1. split; [reflexivity|]. split; [reflexivity|]. exact (sum_put owes _ _ _ _ Ht). }
  destruct p; try discriminate.
  - destruct (L _ H) as (c1 & t1 & E & -> & Hu). destruct (get_workload cfg (s_crit st) i intr) as [[c2 w]|] eqn:Gw; cbn [obind] in E; [|discriminate]. injection E as <- <-.
    pose proof (work_size _ _ _ _ _ Hf Gw) as Hw. destruct w; cbn [owes t_pc] in *; nia.
  - destruct (L _ H) as (c1 & t1 & E & -> & Hu). destruct (_ <=? _)%Z; [injection E as <- <-; cbn [owes t_pc] in *; lia|].
    destruct (MddAll.compile _ _ _ _ _) as [d'|]; cbn [obind] in E; [|discriminate]. injection E as <- <-. cbn [owes t_pc] in *. lia.
  - destruct (L _ H) as (c1 & t1 & E & -> & Hu). destruct (maybe_update_best _ _ _) as [c2|] eqn:Eb; cbn [obind] in E; [|discriminate]. injection E as <- <-. destruct (keep_best _ _ _ Eb) as [-> ->].
    destruct (g_exact d); cbn [owes t_pc] in *; lia.
  - destruct (L _ H) as (c1 & t1 & E & -> & Hu). destruct (MddAll.compile _ _ _ _ _) as [d'|]; cbn [obind] in E; [|discriminate]. injection E as <- <-. cbn [owes t_pc] in *. lia.
  - destruct (L _ H) as (c1 & t1 & E & -> & Hu). destruct (g_exact d).
    + destruct (maybe_update_best _ _ _) as [c2|] eqn:Eb; cbn [obind] in E; [|discriminate]. injection E as <- <-. destruct (keep_best _ _ _ Eb) as [-> ->]. cbn [owes t_pc] in *. lia.
    + unfold enqueue_cutset in E. destruct (drain_cutset d) as [[l d2]|] eqn:Ed; cbn [obind] in E; [|discriminate]. destruct (ofold _ _ _) as [f|] eqn:Ef; cbn [obind] in E; [|discriminate]. injection E as <- <-.
      pose proof (enqueue_size _ _ _ _ _ Hf Ef) as Hs. pose proof (drain_at_most S d l d2 Ed) as Hl. destruct Hcomp as (orc0 & lb0 & d0 & Ho & _ & Hct0 & Ec). apply Forall_inv in Hgen.
      pose proof (HA orc0 _ _ _ _ Ho Hgen Hct0 Ec) as Hm. cbn [set_fringe c_fringe c_explored owes t_pc] in *. lia.
  - destruct (finish_node _ _ _ _) as [c'|] eqn:Ef; [|discriminate]. injection H as <-. cbn [s_threads s_crit] in *. rewrite owed_wake. unfold finish_node in Ef. destruct (c_ongoing (s_crit st)); [discriminate|].
    destruct (upd _ _ _); cbn [obind] in Ef; [|discriminate]. injection Ef as <-. cbn [c_fringe c_explored].
    assert (Hu := sum_put owes i (mk_th PIdle d) _ _ Ht). unfold owed. cbn [owes t_pc] in *. lia.
Qed.
Theorem par_measure n m a b st : m <= n -> counted S eqb cfg n m a b st -> measure st <= 1 + c_explored (s_crit st) * M.
Proof.
  intros Hm. induction 1 as [st H|a b st orc intr i st' t t' HC IH Hl Hs Ht Ht'|a b st st' HC IH Hs].
  - unfold initial in H. destruct (fr_push _ _ _) as [f|] eqn:E; cbn [obind] in H; [|discriminate]. injection H as <-. unfold measure. cbn [s_crit c_fringe c_explored s_threads].
    destruct (fo_new _ _ _ _ FO) as [Hi Hc]. destruct (push_size _ _ _ Hi E) as [_ Hz]. rewrite Hc in Hz. cbn in Hz.
    assert (Hz2 : owed (repeat (mk_th PIdle (dd_new (cf_ctype cfg))) m) = 0) by (unfold owed; clear; induction m as [|m IH]; cbn; [reflexivity|exact IH]). rewrite Hz2. lia.
  - pose proof (ParFacts.reachable_inv1 S eqb cfg at_depth nv C True inv content G n m st Hm (counted_reachable _ _ _ _ _ _ _ _ HC)) as I1.
    pose proof (step_measure orc intr i st st' t t' (ParFacts.i_fr _ _ _ _ _ _ _ I1) (ParFacts.i_th _ _ _ _ _ _ _ I1) Hs Ht Ht'). lia.
  - destruct Hs as (i & d & Hn & ->). unfold measure in *. cbn [s_crit s_threads] in *. pose proof (sum_put owes i (mk_th PIdle d) _ _ Hn) as Hp. unfold owed in *. cbn [owes t_pc] in Hp. lia.
Qed.
Theorem par_fringe_any n m st : m <= n -> reachable S eqb cfg n m st -> size (c_fringe (s_crit st)) + c_explored (s_crit st) <= 1 + c_explored (s_crit st) * M.
Proof. intros Hm Hr. destruct (par_counted_all _ _ _ _ _ _ Hr) as (a & b & HC). pose proof (par_measure _ _ _ _ _ Hm HC) as H. unfold measure in H. lia. Qed.

(** ** barrier.rs *)
Definition bowes (t : bthread S) : nat :=
  match u_pc t with BTry _ | BInsert _ => 1 | BStart _ | BRestrict _ _ | BRelax _ _ | BRelaxing _ _ _ => M | _ => 0 end.
Definition bowed (l : list (bthread S)) : nat := list_sum (map bowes l).
Definition held_cut (t : bthread S) : Prop := match u_pc t with BRelaxing _ _ p => pw S p (fun d => length (g_cutset d) <= M) | _ => True end.
Lemma bowed_wake l : bowed (map bwake l) = bowed l.
Proof. unfold bowed. rewrite map_map. f_equal. apply map_ext. intros [[] d]; reflexivity. Qed.
Lemma held_wake t : held_cut t -> held_cut (bwake t).
Proof. destruct t as [[] d]; auto. Qed.
Notation bsize k := (size (c_fringe (k_c k))).
Notation ce k := (c_explored (k_c k)).
Definition bmeasure (st : bstate S cfg) : nat := bsize (q_crit st) + bowed (q_threads st) + ce (q_crit st).
Lemma decide_size k intr k' p : inv (c_fringe (k_c k)) -> decide cfg k intr = Some (k', p) ->
  ce k' = ce k /\ match p with BTry _ => bsize k = Datatypes.S (bsize k') | BDone | BWait => bsize k' <= bsize k | _ => False end.
Proof.
  intros Hf. unfold decide. cbv zeta. destruct (Nat.eqb (c_ongoing (k_c k)) 0 && fr_empty fr (c_fringe (k_c k))) eqn:E0; [intros H; injection H as <- <-; cbn; auto|].
  destruct (c_interrupted (k_c k)); [intros H; injection H as <- <-; auto|]. destruct intr.
  - match goal with |- context [obind ?x _] => destruct x as [[ub f]|] eqn:E1 end; cbn [obind]; [|discriminate]. intros H. injection H as <- <-. cbn. split; [reflexivity|].
    assert (Hi : inv f). { destruct (0 <? c_ongoing (k_c k)) eqn:Eo; [injection E1 as _ <-; exact Hf|]. apply Nat.ltb_ge in Eo. assert (c_ongoing (k_c k) = 0) as Eo0 by lia. rewrite Eo0 in E0. cbn in E0.
      destruct (fr_pop fr (c_fringe (k_c k))) as [[r f1]|] eqn:Ep; cbn [obind] in E1; [|discriminate]. destruct r; cbn [obind] in E1; [|discriminate]. injection E1 as _ <-. apply (pop_size _ _ _ Hf E0 Ep). }
    rewrite (clear_size _ Hi). lia.
  - destruct (fr_empty fr (c_fringe (k_c k))) eqn:Ee; [intros H; injection H as <- <-; auto|]. destruct (fr_pop fr (c_fringe (k_c k))) as [[r f]|] eqn:Ep; cbn [obind]; [|discriminate].
    destruct r as [nn|]; cbn [obind]; [|discriminate]. destruct (pop_size _ _ _ Hf Ee Ep) as [Hi Hs]. intros H. injection H as <- <-. cbn. auto.
Qed.
Lemma try_size k T n k' p : inv (c_fringe (k_c k)) -> try_node eqb cfg k T n = Some (k', p) ->
  ce k' = ce k /\ match p with BTry _ => bsize k = Datatypes.S (bsize k') | BInsert _ | BIdle => bsize k' <= bsize k | _ => False end.
Proof.
  intros Hf. unfold try_node. cbv zeta. destruct (_ <=? _)%Z; [intros H; injection H as <- <-; cbn; rewrite (clear_size _ Hf); split; [reflexivity|lia]|].
  destruct (nth_error T _) as [l|]; cbn [obind]; [|discriminate]. destruct (match tget _ _ _ with Some _ => _ | None => _ end); [intros H; injection H as <- <-; auto|].
  destruct (decr _ _) as [o|]; cbn [obind]; [|discriminate]. destruct (fr_empty fr (c_fringe (k_c k))) eqn:Ee; [intros H; injection H as <- <-; cbn; auto|].
  destruct (fr_pop fr (c_fringe (k_c k))) as [[r f]|] eqn:Ep; cbn [obind]; [|discriminate]. destruct r as [nn|]; cbn [obind]; [|discriminate].
  destruct (pop_size _ _ _ Hf Ee Ep) as [Hi Hs]. intros H. injection H as <- <-. cbn. auto.
Qed.
Lemma take_size k T i n k' T' : take_node eqb cfg k T i n = Some (k', T') -> ce k' = Datatypes.S (ce k) /\ bsize k' = bsize k.
Proof. unfold take_node. cbv zeta. intros H. repeat match type of H with obind ?x _ = _ => destruct x; cbn [obind] in H; [|discriminate] end. injection H as <- _. cbn. auto. Qed.
Lemma bstep_measure orc intr i st st' t t' : library_ok S orc -> inv (c_fringe (k_c (q_crit st))) -> Forall (BarFacts.thread_ok S eqb cfg at_depth nv C (c_lb (k_c (q_crit st)))) (q_threads st) ->
  Forall held_cut (q_threads st) -> bthread_step eqb cfg orc intr i st = BNext st' -> nth_error (q_threads st) i = Some t -> nth_error (q_threads st') i = Some t' ->
  Forall held_cut (q_threads st') /\ bmeasure st' + ce (q_crit st) * M <= bmeasure st + ce (q_crit st') * M.
Proof.
  intros Hl Hf Hth HL H Ht Ht'. rewrite Forall_forall in Hth. specialize (Hth t (nth_error_In _ _ Ht)). destruct Hth as (Hct & Hg & _).
  assert (Hlt : held_cut t) by (rewrite Forall_forall in HL; apply HL; eapply nth_error_In; exact Ht).
  unfold bthread_step in H. rewrite Ht in H. destruct t as [p d]. cbn [u_pc u_dd] in *. unfold bmeasure.
  assert (K : forall k T t1, goto cfg st i k T t1 = BNext st' -> q_crit st' = k /\ (held_cut t1 -> Forall held_cut (q_threads st')) /\ bowed (q_threads st') + bowes (mk_bth p d) = bowed (q_threads st) + bowes t1).
  { intros k T t1 HG. unfold goto in HG. injection HG as <-. cbn [q_crit q_threads] in *.
    split; [reflexivity|]. split; [intros; apply Forall_put; assumption|]. exact (sum_put bowes _ _ _ _ Ht). }
  destruct p; try discriminate.
  - destruct (locked cfg st); [discriminate|]. destruct (K _ _ _ H) as (-> & Hk & Hu). split; [apply Hk; exact I|]. cbn [bowes u_pc] in *. lia.
  - destruct (clean_turn _ _ _) as [[[k' T']|]|] eqn:E; [| |discriminate].
    + destruct (K _ _ _ H) as (-> & Hk & Hu). apply clean_count in E. rewrite E. split; [apply Hk; exact I|]. cbn [bowes u_pc] in *. lia.
    + destruct (decide _ _ _) as [[k' p]|] eqn:E'; [|discriminate]. destruct (K _ _ _ H) as (-> & Hk & Hu). destruct (decide_size _ _ _ _ Hf E') as (He & Hp).
      split; [apply Hk; destruct p; try destruct Hp; exact I|]. rewrite He. destruct p; try (destruct Hp; fail); cbn [bowes u_pc] in *; lia.
  - destruct (try_node _ _ _ _ _) as [[k' p]|] eqn:E'; [|discriminate]. destruct (K _ _ _ H) as (-> & Hk & Hu). destruct (try_size _ _ _ _ _ Hf E') as (He & Hp).
    split; [apply Hk; destruct p; try destruct Hp; exact I|]. rewrite He. destruct p; try (destruct Hp; fail); cbn [bowes u_pc] in *; lia.
  - destruct (take_node _ _ _ _ _ _) as [[k' T']|] eqn:E'; [|discriminate]. destruct (K _ _ _ H) as (-> & Hk & Hu). destruct (take_size _ _ _ _ _ _ E') as [He Hz]. split; [apply Hk; exact I|]. rewrite He, Hz. cbn [bowes u_pc] in *. nia.
  - destruct (locked cfg st); [discriminate|]. destruct (K _ _ _ H) as (-> & Hk & Hu). destruct (_ <=? _)%Z; (split; [apply Hk; exact I|cbn [u_pc bowes] in *; lia]).
  - destruct p as [d'| | | | ].
    1: { destruct (locked cfg st); [discriminate|]. destruct (maybe_update_best _ _ _) as [c2|] eqn:E; cbn [obind] in H; [|discriminate]. destruct (K _ _ _ H) as (-> & Hk & Hu). destruct (keep_best _ _ _ E) as [Hb1 Hb2].
         cbn [with_c k_c]. rewrite Hb1, Hb2. destruct (g_exact d'); (split; [apply Hk; exact I|cbn [u_pc bowes] in *; lia]). }
    all: unfold compile_step in H; destruct (access _ _ _) as [[p' T']|] eqn:Ea; [|discriminate]; destruct (K _ _ _ H) as (-> & Hk & Hu);
      (split; [apply Hk; exact I|cbn [u_pc bowes] in *; lia]).
  - destruct (locked cfg st); [discriminate|]. destruct (K _ _ _ H) as (-> & Hk & Hu). apply Forall_inv in Hg. split; [apply Hk|cbn [u_pc bowes] in *; lia].
    cbn [held_cut u_pc]. apply HB; [exact Hl|exact Hg|congruence].
  - destruct p as [d'| | | | ].
    1: { destruct (locked cfg st); [discriminate|]. cbn [held_cut u_pc pw] in Hlt. destruct (g_exact d').
         - destruct (maybe_update_best _ _ _) as [c2|] eqn:E; cbn [obind] in H; [|discriminate]. destruct (K _ _ _ H) as (-> & Hk & Hu). destruct (keep_best _ _ _ E) as [Hb1 Hb2]. cbn [with_c k_c]. rewrite Hb1, Hb2.
           split; [apply Hk; exact I|cbn [u_pc bowes] in *; lia].
         - unfold benqueue_cutset in H. destruct (drain_cutset d') as [[l d2]|] eqn:Ed; cbn [obind] in H; [|discriminate].
           destruct (ofold _ _ _) as [[f o]|] eqn:Ef; cbn [obind] in H; [|discriminate]. destruct (K _ _ _ H) as (-> & Hk & Hu). split; [apply Hk; exact I|].
           pose proof (benqueue_size _ _ _ _ _ _ _ Hf Ef) as Hs. pose proof (drain_at_most S d' l d2 Ed) as Hm. cbn [k_c set_fringe c_fringe c_explored u_pc bowes] in *. lia. }
    all: unfold compile_step in H; destruct (access _ _ _) as [[p' T']|] eqn:Ea; [|discriminate]; destruct (K _ _ _ H) as (-> & Hk & Hu);
      (split; [apply Hk; cbn [held_cut u_pc] in *; eapply pw_access; [exact Ea|exact Hlt]|cbn [u_pc bowes] in *; lia]).
  - clear K. destruct (locked cfg st); [discriminate|]. destruct (bfinish_node _ _ _ _ _) as [k'|] eqn:Ef; [|discriminate]. injection H as <-. cbn [q_threads q_crit] in *. rewrite bowed_wake. split.
    + apply Forall_forall. intros x Hx. apply in_map_iff in Hx as (y & <- & Hy). apply held_wake. revert y Hy. apply Forall_forall. apply Forall_put; [exact HL|exact I].
    + unfold bfinish_node, finish_node in Ef. destruct (c_ongoing (k_c (q_crit st))); [discriminate|]. destruct (upd _ _ _); cbn [obind] in Ef; [|discriminate]. destruct (decr _ _); cbn [obind] in Ef; [|discriminate]. injection Ef as <-.
      cbn [k_c c_fringe c_explored]. assert (Hu := sum_put bowes i (mk_bth BIdle d) _ _ Ht). unfold bowed. cbn [u_pc bowes] in *. lia.
Qed.
Theorem bar_measure n m a b st : m <= n -> bcounted S eqb cfg n m a b st -> Forall held_cut (q_threads st) /\ bmeasure st <= 1 + ce (q_crit st) * M.
Proof.
  intros Hm. induction 1 as [st H|a b st orc intr i st' t t' HC [IL IH] Hl Hs Ht Ht'|a b st st' HC [IL IH] Hs].
  - unfold binitial in H. destruct (fr_push _ _ _) as [f|] eqn:E; cbn [obind] in H; [|discriminate]. repeat match type of H with obind ?x _ = _ => destruct x; cbn [obind] in H; [|discriminate] end.
    injection H as <-. unfold bmeasure. cbn [q_crit k_c c_fringe c_explored q_threads]. split; [apply Forall_forall; intros t Ht; apply repeat_spec in Ht; subst t; exact I|].
    destruct (fo_new _ _ _ _ FO) as [Hi Hc]. destruct (push_size _ _ _ Hi E) as [_ Hz]. rewrite Hc in Hz. cbn in Hz.
    assert (Hz2 : bowed (repeat (mk_bth BIdle (dd_new (cf_ctype cfg))) m) = 0) by (unfold bowed; clear; induction m as [|m IH]; cbn; [reflexivity|exact IH]). rewrite Hz2. lia.
  - pose proof (BarFacts.reachable_inv1 S eqb cfg at_depth nv C True inv content G n m st Hm (bcounted_reachable _ _ _ _ _ _ _ _ HC)) as I1.
    destruct (bstep_measure orc intr i st st' t t' Hl (BarFacts.i_fr _ _ _ _ _ _ _ _ _ _ I1) (BarFacts.i_th _ _ _ _ _ _ _ _ _ _ I1) IL Hs Ht Ht') as [HL Hd]. split; [exact HL|lia].
  - destruct Hs as (i & d & Hn & ->). unfold bmeasure in *. cbn [q_crit q_threads] in *. split; [apply Forall_put; [exact IL|exact I]|].
    pose proof (sum_put bowes i (mk_bth BIdle d) _ _ Hn) as Hp. unfold bowed in *. cbn [bowes u_pc] in Hp. lia.
Qed.
Theorem bar_fringe_any n m st : m <= n -> breachable S eqb cfg n m st -> bsize (q_crit st) + ce (q_crit st) <= 1 + ce (q_crit st) * M.
Proof. intros Hm Hr. destruct (bar_counted_all _ _ _ _ _ _ Hr) as (a & b & HC). destruct (bar_measure _ _ _ _ _ Hm HC) as [_ H]. unfold bmeasure in H. lia. Qed.
End Sizes.

(** ** The cutsets of both kinds *)
Section Cuts.
Variable S : Type.
Variable eqb : S -> S -> bool.
Variable cfg : config S.
Variable at_depth : nat -> S -> Prop.
Variable nv : nat -> nat.
Variable C : Z.
Variables D W : nat.
Notation P := (cf_pb cfg).
Notation R := (cf_rx cfg).
Notation N := (pb_nb_vars P).
Hypothesis WF : well_formed S eqb P R at_depth nv C.
Hypothesis HD : domains_within S P at_depth nv D.
Hypothesis HW : forall s, cf_width cfg s <= W.
Notation genuine := (genuine S P nv).
Notation M := (Nat.max W D).
Lemma genuine_lay q : genuine q -> at_depth (depth_of q) (sp_state q) /\ depth_of q <= pb_nb_vars P.
Proof. exact (genuine_at S eqb P R at_depth nv C D q WF). Qed.
Lemma all_cut_call orc n lb d d' : library_ok S orc -> genuine n -> g_ctype d = LastExactLayer -> MddAll.compile eqb false orc (call cfg Relaxed n lb) d = Some d' -> length (g_cutset d') <= M.
Proof.
  intros (H1 & H2 & _) Hn Hct E. destruct (genuine_lay n Hn) as [Ha Hd]. pose proof (HW (sp_state n)).
  assert (K : length (g_cutset d') <= Nat.max (i_width (call cfg Relaxed n lb)) D) by (eapply (all_cut S eqb (call cfg Relaxed n lb) orc P R at_depth nv D); eauto; try apply WF; discriminate).
  cbn in K. lia.
Qed.
Lemma bar_cut_call orc n lb d : library_ok S orc -> genuine n -> g_ctype d = LastExactLayer -> pw S (MddBarrier.compile eqb false orc (call cfg Relaxed n lb) d) (fun d' => length (g_cutset d') <= M).
Proof.
  intros (H1 & H2 & _) Hn Hct. destruct (genuine_lay n Hn) as [Ha Hd]. pose proof (HW (sp_state n)).
  eapply pw_mono; [|eapply (bar_cut_pw S eqb (call cfg Relaxed n lb) orc P R at_depth nv D); eauto; try apply WF; discriminate].
  unfold cut_ok. cbn. lia.
Qed.

(** A cutset holds distinct nodes of the diagram. *)
Lemma done_cut X (d : dd S) : done S X d -> length (g_cutset d) <= length (g_nodes d).
Proof.
  intros [_ Hn _ [Hd Hi] _]. rewrite <- (seq_length (length (g_nodes d)) 0). apply NoDup_incl_length; [exact Hd|]. intros i Hx. apply in_seq.
  destruct (Hn i (Hi i Hx)) as (n & E). unfold get_node in E. pose proof (proj1 (nth_error_Some (g_nodes d) i) ltac:(congruence)). lia.
Qed.
Lemma sized_cut n lb d : genuine n -> sized S (call cfg Relaxed n lb) P D d -> length (g_nodes d) <= most_nodes W D N.
Proof.
  intros Hn Hs. destruct (genuine_lay n Hn) as [_ Hd]. destruct (sized_relaxed S P D (call cfg Relaxed n lb) d eq_refl Hs) as [_ K]. cbn [call i_width i_res] in K. unfold most_nodes.
  pose proof (most_relaxed_le S cfg D W _ (N - depth_of n) (HW (sp_state n)) ltac:(lia)). nia.
Qed.
Lemma all_nodes_call orc n lb d d' : library_ok S orc -> genuine n -> MddAll.compile eqb false orc (call cfg Relaxed n lb) d = Some d' -> length (g_cutset d') <= most_nodes W D N.
Proof.
  intros (H1 & H2 & _) Hn E. destruct (genuine_lay n Hn) as [Ha Hd].
  destruct (all_done S eqb (wfd_eqb _ _ _ _ _ _ _ WF) (call cfg Relaxed n lb) orc H1 H2 false d d' E) as (X & HX).
  eapply Nat.le_trans; [exact (done_cut X d' HX)|]. apply (sized_cut n lb d' Hn). eapply (all_sized S eqb (call cfg Relaxed n lb) orc P R at_depth nv D); eauto; try apply WF; discriminate.
Qed.
Lemma bar_nodes_call orc n lb d : library_ok S orc -> genuine n -> pw S (MddBarrier.compile eqb false orc (call cfg Relaxed n lb) d) (fun d' => length (g_cutset d') <= most_nodes W D N).
Proof.
  intros (H1 & H2 & _) Hn. destruct (genuine_lay n Hn) as [Ha Hd].
  eapply pw_mono; [|apply pw_and; [exact (bar_done S eqb (wfd_eqb _ _ _ _ _ _ _ WF) (call cfg Relaxed n lb) orc H1 H2 false d)|
    eapply (bar_sized_pw S eqb (call cfg Relaxed n lb) orc P R at_depth nv D); eauto; try apply WF; discriminate]].
  intros d' ((X & HX) & Hs). eapply Nat.le_trans; [exact (done_cut X d' HX)|]. exact (sized_cut n lb d' Hn Hs).
Qed.
End Cuts.

(** * The frontier of a search *)
Theorem par_fringe S eqb (cfg : config S) at_depth nv C D W inv content : good_config S eqb cfg at_depth nv C True inv content ->
  domains_within S (cf_pb cfg) at_depth nv D -> (forall s, cf_width cfg s <= W) -> cf_ctype cfg = LastExactLayer ->
  forall n m st, m <= n -> reachable S eqb cfg n m st ->
  length (content (c_fringe (s_crit st))) + c_explored (s_crit st) <= 1 + c_explored (s_crit st) * Nat.max W D.
Proof.
  intros G HD HW Hl. pose proof (gs_formed _ _ _ _ _ _ _ _ _ G) as WF. apply (par_fringe_any S eqb cfg at_depth nv C (Nat.max W D) inv content G).
  all: intros; (eapply (all_cut_call S eqb cfg at_depth nv C D W) || eapply (bar_cut_call S eqb cfg at_depth nv C D W)); eauto; congruence.
Qed.
Theorem bar_fringe S eqb (cfg : config S) at_depth nv C D W inv content : good_config S eqb cfg at_depth nv C True inv content ->
  domains_within S (cf_pb cfg) at_depth nv D -> (forall s, cf_width cfg s <= W) -> cf_ctype cfg = LastExactLayer ->
  forall n m st, m <= n -> breachable S eqb cfg n m st ->
  length (content (c_fringe (k_c (q_crit st)))) + c_explored (k_c (q_crit st)) <= 1 + c_explored (k_c (q_crit st)) * Nat.max W D.
Proof.
  intros G HD HW Hl. pose proof (gs_formed _ _ _ _ _ _ _ _ _ G) as WF. apply (bar_fringe_any S eqb cfg at_depth nv C (Nat.max W D) inv content G).
  all: intros; (eapply (all_cut_call S eqb cfg at_depth nv C D W) || eapply (bar_cut_call S eqb cfg at_depth nv C D W)); eauto; congruence.
Qed.

(** * Cutsets of either kind *)
Theorem all_handed_any S eqb P R at_depth nv C debug orc inp (d dF : dd S) l d2 : well_formed S eqb P R at_depth nv C -> good_call S P R nv debug orc inp ->
  MddAll.compile eqb debug orc inp d = Some dF -> drain_cutset dF = Some (l, d2) -> length l <= length (g_nodes dF).
Proof.
  intros WF [(L1 & L2 & _) _ _ _ _ _] E Hl. destruct (all_done S eqb (wfd_eqb _ _ _ _ _ _ _ WF) inp orc L1 L2 debug d dF E) as (X & HX).
  eapply Nat.le_trans; [eapply drain_at_most; exact Hl|exact (done_cut S X dF HX)].
Qed.
Theorem bar_handed_any S eqb P R at_depth nv C alone debug orc inp (d dF : dd S) T T' l d2 : well_formed S eqb P R at_depth nv C -> good_call S P R nv debug orc inp ->
  returns eqb alone (MddBarrier.compile eqb debug orc inp d) T dF T' -> drain_cutset dF = Some (l, d2) -> length l <= length (g_nodes dF).
Proof.
  intros WF [(L1 & L2 & _) _ _ _ _ _] E Hl. assert (K : exists X, done S X dF).
  { refine (pw_gets _ _ _ _ _ _ _ (fun d' => exists X, done S X d') E _). exact (bar_done S eqb (wfd_eqb _ _ _ _ _ _ _ WF) inp orc L1 L2 debug d). }
  destruct K as (X & HX). eapply Nat.le_trans; [eapply drain_at_most; exact Hl|exact (done_cut S X dF HX)].
Qed.
Theorem par_fringe_cut S eqb (cfg : config S) at_depth nv C D W inv content : good_config S eqb cfg at_depth nv C True inv content ->
  domains_within S (cf_pb cfg) at_depth nv D -> (forall s, cf_width cfg s <= W) -> forall n m st, m <= n -> reachable S eqb cfg n m st ->
  length (content (c_fringe (s_crit st))) + c_explored (s_crit st) <= 1 + c_explored (s_crit st) * most_nodes W D (pb_nb_vars (cf_pb cfg)).
Proof.
  intros G HD HW. pose proof (gs_formed _ _ _ _ _ _ _ _ _ G) as WF. apply (par_fringe_any S eqb cfg at_depth nv C (most_nodes W D (pb_nb_vars (cf_pb cfg))) inv content G).
  all: intros; (eapply (all_nodes_call S eqb cfg at_depth nv C D W) || eapply (bar_nodes_call S eqb cfg at_depth nv C D W)); eauto; congruence.
Qed.
Theorem bar_fringe_cut S eqb (cfg : config S) at_depth nv C D W inv content : good_config S eqb cfg at_depth nv C True inv content ->
  domains_within S (cf_pb cfg) at_depth nv D -> (forall s, cf_width cfg s <= W) -> forall n m st, m <= n -> breachable S eqb cfg n m st ->
  length (content (c_fringe (k_c (q_crit st)))) + c_explored (k_c (q_crit st)) <= 1 + c_explored (k_c (q_crit st)) * most_nodes W D (pb_nb_vars (cf_pb cfg)).
Proof.
  intros G HD HW. pose proof (gs_formed _ _ _ _ _ _ _ _ _ G) as WF. apply (bar_fringe_any S eqb cfg at_depth nv C (most_nodes W D (pb_nb_vars (cf_pb cfg))) inv content G).
  all: intros; (eapply (all_nodes_call S eqb cfg at_depth nv C D W) || eapply (bar_nodes_call S eqb cfg at_depth nv C D W)); eauto; congruence.
Qed.
