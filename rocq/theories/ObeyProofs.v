(** Both solvers after an interruption. *)
From Verif Require Import ParSpec BarSpec FringeSpec ParFacts ObeySpec CrashProofs.
Open Scope Z_scope.

Section Sums.
Context {A : Type}.
Variable w : A -> nat.
Fixpoint sums (l : list A) : nat := match l with [] => 0%nat | t :: r => (w t + sums r)%nat end.
Lemma sums_app l1 l2 : sums (l1 ++ l2) = (sums l1 + sums l2)%nat.
Proof. induction l1 as [|a l1 IH]; cbn [sums app]; lia. Qed.
Lemma sums_put i x l y : nth_error l i = Some y -> (sums (put i x l) + w y = sums l + w x)%nat.
Proof. intros H. destruct (put_split i x l y H) as (l1 & l2 & -> & -> & _). rewrite !sums_app. cbn [sums]. lia. Qed.
Lemma sums_map (g : A -> A) l : (forall a, w (g a) = w a) -> sums (map g l) = sums l.
Proof. intros H. induction l as [|a l IH]; cbn [map sums]; [reflexivity|]. rewrite H, IH. reflexivity. Qed.
Lemma sums_le b l : (forall a, (w a <= b)%nat) -> (sums l <= b * length l)%nat.
Proof. intros H. induction l as [|a l IH]; cbn [sums length]; [lia|]. specialize (H a). lia. Qed.
Lemma sums_tally b (f : A -> bool) l : (forall a, (w a <= if f a then b else 0)%nat) -> (sums l <= b * tally f l)%nat.
Proof. intros H. induction l as [|a l IH]; [cbn; lia|]. rewrite tally_cons. cbn [sums]. specialize (H a). destruct (f a); lia. Qed.
End Sums.

Section Par.
Variable S : Type.
Variable eqb : S -> S -> bool.
Variable cfg : config S.
Notation state := (state S cfg).

Definition steps_left (t : thread S) : nat :=
  match t_pc t with PDone => 0 | PIdle | PWait => 1 | PNotify _ => 2 | PRelaxed _ _ => 3 | PRelax _ _ => 4 | PRestricted _ => 5 | PStart _ => 6 end.
Definition diagrams_left (t : thread S) : nat := match t_pc t with PStart _ => 2 | PRestricted _ | PRelax _ _ => 1 | _ => 0 end.
Definition asked (st : state) : bool := c_interrupted (s_crit st).
Definition Kept (st st' : state) (k d : nat) : Prop :=
  asked st' = true /\ c_explored (s_crit st') = c_explored (s_crit st) /\ length (s_threads st') = length (s_threads st) /\
  (k + sums steps_left (s_threads st') <= sums steps_left (s_threads st))%nat /\
  (d + sums diagrams_left (s_threads st') <= sums diagrams_left (s_threads st))%nat.

Lemma update_keeps c d c' : maybe_update_best cfg c d = Some c' -> c_interrupted c' = c_interrupted c /\ c_explored c' = c_explored c.
Proof.
  unfold maybe_update_best, obind. destruct (best_value d); [|discriminate]. destruct (c_lb c <? _); [|intros [= <-]; auto]. destruct (best_solution d); [|discriminate]. intros [= <-]. auto.
Qed.
Lemma enqueue_keeps c d u c' d' : enqueue_cutset cfg c d u = Some (c', d') -> c_interrupted c' = c_interrupted c /\ c_explored c' = c_explored c.
Proof.
  unfold enqueue_cutset, obind. destruct (drain_cutset d) as [[l e]|]; [|discriminate]. destruct (ofold _ l (c_fringe c)); [|discriminate]. intros [= <- <-]. auto.
Qed.
Lemma finish_keeps c i x c' : finish_node cfg c i x = Some c' -> c_interrupted c' = c_interrupted c /\ c_explored c' = c_explored c.
Proof.
  unfold finish_node, obind. destruct (c_ongoing c); [discriminate|]. destruct (upd _ i IMAX); [|discriminate]. intros [= <-]. auto.
Qed.
Lemma get_keeps c i intr c' w : get_workload cfg c i intr = Some (c', w) -> c_interrupted c = true ->
  c_interrupted c' = true /\ c_explored c' = c_explored c /\ (w = WComplete \/ w = WInterruption).
Proof.
  unfold get_workload. intros H Hi. rewrite Hi in H. destruct (Nat.eqb _ 0 && _); injection H as <- <-; auto.
Qed.
Lemma wake_steps (t : thread S) : steps_left (wake t) = steps_left t.
Proof. destruct t as [[] d]; reflexivity. Qed.
Lemma wake_diagrams (t : thread S) : diagrams_left (wake t) = diagrams_left t.
Proof. destruct t as [[] d]; reflexivity. Qed.

Lemma moved st i t t' c k d : nth_error (s_threads st) i = Some t -> c_interrupted c = true -> c_explored c = c_explored (s_crit st) ->
  (k + steps_left t' <= steps_left t)%nat -> (d + diagrams_left t' <= diagrams_left t)%nat -> Kept st (mk_st c (put i t' (s_threads st))) k d.
Proof.
  intros Ht Hc He Hk Hd. unfold Kept, asked. cbn [s_crit s_threads]. rewrite put_length. pose proof (sums_put steps_left i t' _ _ Ht). pose proof (sums_put diagrams_left i t' _ _ Ht).
  repeat split; auto; lia.
Qed.
Lemma step_kept orc intr i st st' : asked st = true -> thread_step eqb cfg orc intr i st = Next st' -> Kept st st' 1 (if compiles S cfg st i then 1 else 0).
Proof.
  unfold asked. intros Ha. unfold thread_step, compiles. destruct (nth_error (s_threads st) i) as [t|] eqn:Ht; [|discriminate]. destruct (t_pc t) eqn:Hp; try discriminate; unfold lift.
  - destruct (get_workload cfg (s_crit st) i intr) as [[c' w]|] eqn:E; [|discriminate]. cbn [obind]. intros [= <-].
    destruct (get_keeps _ _ _ _ _ E Ha) as (H1 & H2 & H3). apply (moved st i t); auto; unfold steps_left, diagrams_left; rewrite Hp; cbn [t_pc]; destruct H3 as [-> | ->]; cbn; lia.
  - destruct (sp_ub n <=? _); [|destruct (MddAll.compile _ _ _ _ _); [|discriminate]]; cbn [obind]; intros [= <-]; apply (moved st i t); auto; unfold steps_left, diagrams_left; rewrite Hp; cbn; lia.
  - destruct (maybe_update_best cfg (s_crit st) (t_dd t)) as [c'|] eqn:E; [|discriminate]. cbn [obind]. intros [= <-]. destruct (update_keeps _ _ _ E).
    apply (moved st i t); auto; [congruence|unfold steps_left|unfold diagrams_left]; rewrite Hp; cbn [t_pc]; destruct (g_exact (t_dd t)); lia.
  - destruct (MddAll.compile _ _ _ _ _); [|discriminate]; cbn [obind]; intros [= <-]; apply (moved st i t); auto; unfold steps_left, diagrams_left; rewrite Hp; cbn; lia.
  - destruct (g_exact (t_dd t)).
    + destruct (maybe_update_best cfg (s_crit st) (t_dd t)) as [c'|] eqn:E; [|discriminate]. cbn [obind]. intros [= <-]. destruct (update_keeps _ _ _ E).
      apply (moved st i t); auto; [congruence|unfold steps_left|unfold diagrams_left]; rewrite Hp; cbn; lia.
    + destruct (enqueue_cutset cfg (s_crit st) (t_dd t) (sp_ub n)) as [[c' d']|] eqn:E; [|discriminate]. cbn [obind]. intros [= <-]. destruct (enqueue_keeps _ _ _ _ _ E).
      apply (moved st i t); auto; [congruence|unfold steps_left|unfold diagrams_left]; rewrite Hp; cbn; lia.
  - destruct (finish_node cfg (s_crit st) i k) as [c'|] eqn:E; [|discriminate]. intros [= <-]. destruct (finish_keeps _ _ _ _ E) as [H1 H2].
    assert (Kept st (mk_st c' (put i (mk_th PIdle (t_dd t)) (s_threads st))) 1 0) as (K1 & K2 & K3 & K4 & K5).
    { apply (moved st i t); auto; [congruence|unfold steps_left|unfold diagrams_left]; rewrite Hp; cbn; lia. }
    unfold Kept, asked in *. cbn [s_crit s_threads] in *. rewrite map_length. rewrite (sums_map _ wake) by exact wake_steps. rewrite (sums_map _ wake) by exact wake_diagrams. auto.
Qed.
Lemma spurious_kept st st' : asked st = true -> spurious S cfg st st' -> Kept st st' 0 0.
Proof. intros Ha (i & d & Ht & ->). apply (moved st i (mk_th PWait d)); auto. Qed.
Lemma exec_kept st k d st' : asked st = true -> pexec S eqb cfg k d st st' -> Kept st st' k d.
Proof.
  intros Ha H. induction H as [st|k d st st' st'' orc intr i _ IH Ho Hs|k d st st' st'' _ IH Hs].
  - unfold Kept. auto.
  - destruct (IH Ha) as (K1 & K2 & K3 & K4 & K5). destruct (step_kept _ _ _ _ _ K1 Hs) as (L1 & L2 & L3 & L4 & L5). unfold Kept. repeat split; auto; try congruence; lia.
  - destruct (IH Ha) as (K1 & K2 & K3 & K4 & K5). destruct (spurious_kept _ _ K1 Hs) as (L1 & L2 & L3 & L4 & L5). unfold Kept. repeat split; auto; try congruence; lia.
Qed.
Lemma exec_obeys st k d st' : c_interrupted (s_crit st) = true -> pexec S eqb cfg k d st st' ->
  c_interrupted (s_crit st') = true /\ c_explored (s_crit st') = c_explored (s_crit st) /\ (k <= 6 * length (s_threads st))%nat /\
  (d <= 2 * length (filter (in_charge S) (s_threads st)))%nat.
Proof.
  intros Ha H. destruct (exec_kept _ _ _ _ Ha H) as (K1 & K2 & _ & K4 & K5). split; [exact K1|]. split; [exact K2|]. split.
  - pose proof (sums_le steps_left 6 (s_threads st)) as B. assert (forall a, (steps_left a <= 6)%nat) as B' by (intros [[] ?]; cbn; lia). specialize (B B'). lia.
  - pose proof (sums_tally diagrams_left 2 (in_charge S) (s_threads st)) as B. assert (forall a, (diagrams_left a <= if in_charge S a then 2 else 0)%nat) as B' by (intros [[] ?]; cbn; lia). specialize (B B').
    unfold tally in B. lia.
Qed.

Lemma asked_stops orc i st st' t : nth_error (s_threads st) i = Some t -> t_pc t = PIdle -> thread_step eqb cfg orc true i st = Next st' ->
  (exists t', nth_error (s_threads st') i = Some t' /\ t_pc t' = PDone) /\ c_explored (s_crit st') = c_explored (s_crit st) /\
  (c_interrupted (s_crit st') = true \/ c_ongoing (s_crit st) = 0%nat /\ fr_empty (cf_fr cfg) (c_fringe (s_crit st)) = true).
Proof.
  intros Ht Hp. unfold thread_step. rewrite Ht, Hp. unfold lift, get_workload.
  destruct (Nat.eqb _ 0 && _) eqn:E.
  - cbn [obind]. intros [= <-]. cbn [s_threads s_crit]. split; [exists (mk_th PDone (t_dd t)); split; [exact (put_at i _ _ _ Ht)|reflexivity]|]. split; [reflexivity|].
    right. apply andb_prop in E. destruct E as [E1 E2]. apply Nat.eqb_eq in E1. auto.
  - destruct (c_interrupted (s_crit st)) eqn:Ei.
    + cbn [obind]. intros [= <-]. cbn [s_threads s_crit]. split; [exists (mk_th PDone (t_dd t)); split; [exact (put_at i _ _ _ Ht)|reflexivity]|]. auto.
    + destruct (if (0 <? c_ongoing (s_crit st))%nat then _ else _) as [[u f]|]; [|discriminate]. cbn [obind]. intros [= <-]. cbn [s_threads s_crit c_explored c_interrupted].
      split; [exists (mk_th PDone (t_dd t)); split; [exact (put_at i _ _ _ Ht)|reflexivity]|]. auto.
Qed.

(** [interrupt()] always answers yes. *)
Variables (merging : Prop) (inv : fr_t (cf_fr cfg) -> Prop) (content : fr_t (cf_fr cfg) -> list (subproblem S)).
Hypothesis F : frontier_ok merging (cf_fr cfg) inv content.
Variables n m : nat.
Definition out (t : thread S) : bool := match t_pc t with PDone => true | _ => false end.
Record Refused (st : state) : Prop := {
  rf_len : length (s_threads st) = m;
  rf_pc : forall t, In t (s_threads st) -> t_pc t = PIdle \/ t_pc t = PDone;
  rf_o : c_ongoing (s_crit st) = 0%nat;
  rf_e : c_explored (s_crit st) = 0%nat;
  rf_lb : c_lb (s_crit st) = IMIN;
  rf_sol : c_sol (s_crit st) = None;
  rf_inv : inv (c_fringe (s_crit st));
  rf_how : match tally out (s_threads st) with
           | 0 => c_interrupted (s_crit st) = false /\ c_ub (s_crit st) = IMAX /\ content (c_fringe (s_crit st)) = [root_node cfg]
           | 1 => c_interrupted (s_crit st) = true /\ c_ub (s_crit st) = IMAX /\ content (c_fringe (s_crit st)) = []
           | _ => c_interrupted (s_crit st) = true /\ c_ub (s_crit st) = IMIN /\ content (c_fringe (s_crit st)) = []
           end%nat }.
Lemma first_content f : fr_push (cf_fr cfg) (fr_new (cf_fr cfg)) (root_node cfg) = Some f -> inv f /\ content f = [root_node cfg].
Proof.
  intros H. destruct (fo_new _ _ _ _ F) as [N1 N2]. destruct (fo_push _ _ _ _ F _ (root_node cfg) N1) as (f' & Hp & Hi & Hc). rewrite H in Hp. injection Hp as <-. split; [exact Hi|].
  rewrite N2 in Hc. destruct Hc as [Hc|(_ & old & l & _ & Hc & _)]; [symmetry in Hc; apply Permutation_length_1_inv in Hc; exact Hc|]. apply Permutation_nil in Hc. discriminate.
Qed.
Lemma refused_inv st : refused S eqb cfg n m st -> Refused st.
Proof.
  intros H. induction H as [st H|st st' orc i _ IH Ho Hs|st st' _ IH (i & d & Ht & _)].
  - unfold initial, obind in H. destruct (fr_push _ _ _) as [f|] eqn:E; [|discriminate]. injection H as <-. destruct (first_content f E) as [F1 F2]. constructor; cbn [s_threads s_crit c_ongoing c_explored c_lb c_sol c_fringe c_interrupted c_ub]; auto.
    + apply repeat_length.
    + intros t Hin. apply repeat_spec in Hin. subst t. auto.
    + assert (tally out (repeat (mk_th PIdle (dd_new (cf_ctype cfg))) m) = 0%nat) as ->; [|auto]. clear. induction m as [|k IH]; [reflexivity|]. cbn [repeat]. rewrite tally_cons, IH. reflexivity.
  - unfold thread_step in Hs. destruct (nth_error (s_threads st) i) as [t|] eqn:Ht; [|discriminate].
    destruct (rf_pc _ IH t (nth_error_In _ _ Ht)) as [Hp|Hp]; rewrite Hp in Hs; [|discriminate].
    unfold lift in Hs. destruct (get_workload cfg (s_crit st) i true) as [[c' w]|] eqn:E; [|discriminate]. cbn [obind] in Hs. injection Hs as <-.
    pose proof (tally_put out i (mk_th PDone (t_dd t)) _ _ Ht) as HT. assert (out t = false) as Hot by (unfold out; rewrite Hp; reflexivity). rewrite Hot in HT. cbn [out t_pc] in HT.
    assert (forall t0, In t0 (put i (mk_th PDone (t_dd t)) (s_threads st)) -> t_pc t0 = PIdle \/ t_pc t0 = PDone) as HP.
    { intros t0 Hin. apply in_put in Hin. destruct Hin as [->|Hin]; [auto|apply (rf_pc _ IH); exact Hin]. }
    unfold get_workload in E. rewrite (rf_o _ IH) in E. cbn [Nat.eqb andb Nat.ltb Nat.leb] in E. pose proof (rf_how _ IH) as Hh.
    destruct (tally out (s_threads st)) as [|[|k]].
    + destruct Hh as (H1 & H2 & H3). destruct (fr_empty (cf_fr cfg) (c_fringe (s_crit st))) eqn:Ee; [apply (fo_empty _ _ _ _ F _ (rf_inv _ IH)) in Ee; congruence|].
      rewrite H1 in E. destruct (fo_pop _ _ _ _ F _ (rf_inv _ IH) ltac:(congruence)) as (p & f' & Hpop & Hi & Hperm & _). rewrite Hpop in E. cbn [obind] in E. injection E as <- <-.
      rewrite H3 in Hperm. apply Permutation_length_1_inv in Hperm. injection Hperm as Hp' Hc'. subst p. destruct (fo_clear _ _ _ _ F _ Hi) as [C1 C2].
      constructor; cbn [s_threads s_crit c_ongoing c_explored c_lb c_sol c_fringe c_interrupted c_ub]; try apply IH; auto; [rewrite put_length; apply IH|].
      replace (tally out (put i _ _)) with 1%nat by lia. auto.
    + destruct Hh as (H1 & H2 & H3). rewrite (proj2 (fo_empty _ _ _ _ F _ (rf_inv _ IH)) H3) in E. injection E as <- <-.
      constructor; cbn [s_threads s_crit c_ongoing c_explored c_lb c_sol c_fringe c_interrupted c_ub]; try apply IH; auto; [rewrite put_length; apply IH|].
      replace (tally out (put i _ _)) with 2%nat by lia. rewrite (rf_lb _ IH). auto.
    + destruct Hh as (H1 & H2 & H3). rewrite (proj2 (fo_empty _ _ _ _ F _ (rf_inv _ IH)) H3) in E. injection E as <- <-.
      constructor; cbn [s_threads s_crit c_ongoing c_explored c_lb c_sol c_fringe c_interrupted c_ub]; try apply IH; auto; [rewrite put_length; apply IH|].
      replace (tally out (put i _ _)) with (Datatypes.S (Datatypes.S (Datatypes.S k))) by lia. rewrite (rf_lb _ IH). auto.
  - destruct (rf_pc _ IH _ (nth_error_In _ _ Ht)); discriminate.
Qed.
Lemma all_out st : all_done cfg st -> tally out (s_threads st) = length (s_threads st).
Proof.
  unfold all_done. generalize (s_threads st). intros l. induction l as [|a l IH]; intros H; [reflexivity|]. rewrite tally_cons. cbn [length]. rewrite IH by (intros t Ht; apply H; right; exact Ht).
  unfold out. rewrite (H a (or_introl eq_refl)). reflexivity.
Qed.
Lemma refused_end st : (1 <= m)%nat -> refused S eqb cfg n m st ->
  c_explored (s_crit st) = 0%nat /\ best_value_of cfg st = None /\
  (all_done cfg st -> interrupted cfg st /\ lower_bound_of cfg st = IMIN /\ upper_bound_of cfg st = if (m =? 1)%nat then IMAX else IMIN).
Proof.
  intros Hm H. pose proof (refused_inv st H) as R. split; [apply R|]. split; [unfold best_value_of; rewrite (rf_sol _ R); reflexivity|]. intros Hd.
  pose proof (rf_how _ R) as Hh. rewrite (all_out st Hd), (rf_len _ R) in Hh. unfold interrupted, lower_bound_of, upper_bound_of. rewrite (rf_lb _ R).
  destruct m as [|[|k]]; [lia| |]; destruct Hh as (H1 & H2 & H3); cbn [Nat.eqb]; auto.
Qed.
End Par.
