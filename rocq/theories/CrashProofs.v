(** A panic in one thread of the parallel solver: the others go on, and then wait for ever. *)
From Verif Require Import ParSpec FringeSpec ParFacts CrashSpec.
Open Scope Z_scope.

Section Lists.
Context {A : Type}.
Lemma put_at i (x : A) : forall l y, nth_error l i = Some y -> nth_error (put i x l) i = Some x.
Proof. induction i; intros [|h l] y H; cbn in *; try discriminate; eauto. Qed.
Lemma put_else i (x : A) : forall l j, j <> i -> nth_error (put i x l) j = nth_error l j.
Proof. induction i; intros [|h l] [|j] H; cbn; try reflexivity; try lia. apply IHi. lia. Qed.
Lemma put_length i (x : A) : forall l, length (put i x l) = length l.
Proof. induction i; intros [|h l]; cbn; auto. Qed.
Variable f : A -> bool.
Definition tally (l : list A) : nat := length (filter f l).
Lemma tally_app l1 l2 : tally (l1 ++ l2) = (tally l1 + tally l2)%nat.
Proof. unfold tally. rewrite filter_app, app_length. reflexivity. Qed.
Lemma tally_cons a l : tally (a :: l) = ((if f a then 1 else 0) + tally l)%nat.
Proof. unfold tally. cbn. destruct (f a); reflexivity. Qed.
Lemma tally_put i x l y : nth_error l i = Some y ->
  (tally (put i x l) + (if f y then 1 else 0) = tally l + (if f x then 1 else 0))%nat.
Proof.
  intros H. destruct (put_split i x l y H) as (l1 & l2 & -> & -> & _). rewrite !tally_app, !tally_cons. lia.
Qed.
Lemma tally_at l i y : nth_error l i = Some y -> f y = true -> (1 <= tally l)%nat.
Proof.
  intros H Hf. destruct (put_split i y l y H) as (l1 & l2 & -> & _ & _). rewrite tally_app, tally_cons, Hf. lia.
Qed.
Lemma tally_map (g : A -> A) l : (forall a, f (g a) = f a) -> tally (map g l) = tally l.
Proof. intros H. induction l as [|a l IH]; [reflexivity|]. cbn [map]. rewrite !tally_cons, H, IH. reflexivity. Qed.
End Lists.

Section Par.
Variable S : Type.
Variable eqb : S -> S -> bool.
Variable cfg : config S.
Notation fr := (cf_fr cfg).
Notation thread := (thread S).
Notation state := (state S cfg).
Notation cstate := (cstate S cfg).
Notation cstep := (cstep S eqb cfg).
Notation cruns := (cruns S eqb cfg).

Definition busyb (t : thread) : bool :=
  match t_pc t with PStart _ | PRestricted _ | PRelax _ _ | PRelaxed _ _ | PNotify _ => true | _ => false end.
Lemma busyb_busy t : busyb t = true <-> busy S t.
Proof. unfold busyb, busy. destruct (t_pc t); split; intros; auto; discriminate || contradiction. Qed.
Lemma wake_busyb t : busyb (wake t) = busyb t.
Proof. unfold wake, busyb. destruct t as [[] d]; reflexivity. Qed.

(** Nothing is left to do. *)
Definition over (st : state) : Prop := c_ongoing (s_crit st) = 0%nat /\ fr_empty fr (c_fringe (s_crit st)) = true.

Record Inv (m : nat) (x : cstate) : Prop := {
  i_len : length (s_threads (x_st x)) = m;
  i_busy : (tally busyb (s_threads (x_st x)) <= c_ongoing (s_crit (x_st x)))%nat;
  i_over : forall t, In t (s_threads (x_st x)) -> t_pc t = PDone -> over (x_st x);
  i_go : c_interrupted (s_crit (x_st x)) = false }.

Lemma over_nobody m x : Inv m x -> over (x_st x) -> forall i t, nth_error (s_threads (x_st x)) i = Some t -> busyb t = false.
Proof.
  intros HI [Ho _] i t Ht. destruct (busyb t) eqn:E; [|reflexivity]. pose proof (tally_at busyb _ _ _ Ht E). pose proof (i_busy _ _ HI). lia.
Qed.

Lemma get_over (c : critical S cfg) i : c_ongoing c = 0%nat -> fr_empty fr (c_fringe c) = true -> c_interrupted c = false ->
  exists c', get_workload cfg c i false = Some (c', WComplete) /\ c_ongoing c' = 0%nat /\ c_fringe c' = c_fringe c /\ c_interrupted c' = false.
Proof. intros H1 H2 H3. unfold get_workload. rewrite H1, H2. cbn. eexists. split; [reflexivity|]. cbn. auto. Qed.

Lemma in_put (l : list thread) i x t : In t (put i x l) -> t = x \/ In t l.
Proof.
  revert i. induction l as [|h l IH]; intros [|i] H; cbn in *; auto.
  - destruct H as [H|H]; auto.
  - destruct H as [H|H]; [auto|]. destruct (IH _ H); auto.
Qed.

(** Changing the critical data and one thread. *)
Lemma Inv_put m x i t t' c dead : Inv m x -> nth_error (s_threads (x_st x)) i = Some t ->
  (c_ongoing (s_crit (x_st x)) + (if busyb t' then 1 else 0) <= c_ongoing c + (if busyb t then 1 else 0))%nat -> c_interrupted c = false ->
  (t_pc t' = PDone -> c_ongoing c = 0%nat /\ fr_empty fr (c_fringe c) = true) ->
  (over (x_st x) -> c_ongoing c = 0%nat /\ fr_empty fr (c_fringe c) = true) ->
  Inv m (mk_cs (mk_st c (put i t' (s_threads (x_st x)))) dead).
Proof.
  intros HI Ht Hb Hi Hd Ho. destruct HI as [L B O G]. constructor; cbn [x_st s_threads s_crit].
  - rewrite put_length. exact L.
  - pose proof (tally_put busyb i t' _ _ Ht). lia.
  - intros u Hu E. destruct (in_put _ _ _ _ Hu) as [->|Hu']; [exact (Hd E)|]. exact (Ho (O u Hu' E)).
  - exact Hi.
Qed.

Lemma update_keeps c d c' : maybe_update_best cfg c d = Some c' -> c_ongoing c' = c_ongoing c /\ c_fringe c' = c_fringe c /\ c_interrupted c' = c_interrupted c.
Proof.
  unfold maybe_update_best. destruct (best_value d) as [bv|]; [|discriminate]. cbn.
  destruct (c_lb c <? _); [|intros H; injection H as <-; auto]. destruct (best_solution d) as [sol|]; [|discriminate]. cbn. intros H. injection H as <-. auto.
Qed.
Lemma enqueue_keeps c d u c' d' : enqueue_cutset cfg c d u = Some (c', d') -> c_ongoing c' = c_ongoing c /\ c_interrupted c' = c_interrupted c.
Proof.
  unfold enqueue_cutset. destruct (drain_cutset d) as [[l d1]|]; [|discriminate]. cbn. destruct (ofold _ l _) as [f|]; [|discriminate]. cbn.
  intros H. injection H as <- <-. auto.
Qed.

Lemma step_Inv m st st' dead orc i : thread_step eqb cfg orc false i st = Next st' -> Inv m (mk_cs st dead) -> Inv m (mk_cs st' dead).
Proof.
  intros H HI. unfold thread_step in H. destruct (nth_error (s_threads st) i) as [t|] eqn:Ht; [|discriminate].
  pose proof (i_go _ _ HI) as G. cbn in G. assert (Hq : over st -> busyb t = true -> False).
  { intros Ho Hb. pose proof (over_nobody _ _ HI Ho i t Ht). congruence. }
  destruct t as [p d]. cbn [t_pc t_dd] in H. destruct p as [| |n|n|n k|n k|k|]; try discriminate.
  - (* PIdle *)
    destruct (get_workload cfg (s_crit st) i false) as [[c w]|] eqn:E; [|discriminate]. cbn in H. injection H as <-.
    destruct (Nat.eqb (c_ongoing (s_crit st)) 0 && fr_empty fr (c_fringe (s_crit st)))%bool eqn:Eo.
    + apply andb_true_iff in Eo. destruct Eo as [E1 E2]. apply Nat.eqb_eq in E1.
      destruct (get_over (s_crit st) i E1 E2 G) as (c1 & h & h1 & h2 & h3). rewrite h in E. injection E as <- <-.
      eapply (Inv_put m (mk_cs st dead)); eauto; cbn; rewrite ?h2; auto; lia.
    + assert (Hno : over st -> False) by (intros [h1 h2]; rewrite h1, h2 in Eo; discriminate).
      unfold get_workload in E. rewrite Eo, G in E.
      destruct (fr_empty fr (c_fringe (s_crit st))) eqn:Ef.
      * injection E as <- <-. eapply (Inv_put m (mk_cs st dead)); eauto; cbn; try discriminate; try lia; intros; exfalso; auto.
      * destruct (fr_pop fr (c_fringe (s_crit st))) as [[[nn|] f]|]; try discriminate. cbn in E.
        destruct (sp_ub nn <=? c_lb (s_crit st)).
        { injection E as <- <-. eapply (Inv_put m (mk_cs st dead)); eauto; cbn; try discriminate; try lia; intros; exfalso; auto. }
        destruct (upd (c_ubs (s_crit st)) i (sp_ub nn)) as [ubs|]; [|discriminate]. cbn in E. injection E as <- <-.
        eapply (Inv_put m (mk_cs st dead)); eauto; cbn; try discriminate; try lia; intros; exfalso; auto.
  - (* PStart *)
    assert (Hc : exists p' d', st' = mk_st (s_crit st) (put i (mk_th p' d') (s_threads st)) /\ busyb (mk_th p' d') = true).
    { destruct (sp_ub n <=? c_lb (s_crit st)); [injection H as <-; eexists _, _; split; reflexivity|].
      destruct (MddAll.compile eqb false orc _ d) as [d'|]; [|discriminate]. injection H as <-. eexists _, _; split; reflexivity. }
    destruct Hc as (p' & d' & -> & Hb). eapply (Inv_put m (mk_cs st dead)); eauto; rewrite ?Hb; cbn [x_st].
    all: first [cbn; lia | intros E; unfold busyb in Hb; rewrite E in Hb; discriminate].
  - (* PRestricted *)
    destruct (maybe_update_best cfg (s_crit st) d) as [c'|] eqn:E; [|discriminate]. cbn in H. injection H as <-.
    destruct (update_keeps _ _ _ E) as (h1 & h2 & h3).
    assert (Hb : busyb (mk_th (if g_exact d then PNotify (g_explored d) else PRelax n (g_explored d)) d) = true) by (destruct (g_exact d); reflexivity).
    eapply (Inv_put m (mk_cs st dead)); eauto; rewrite ?Hb; cbn [x_st].
    all: first [cbn; lia | congruence | destruct (g_exact d); discriminate | intros Ho; exfalso; apply (Hq Ho); reflexivity].
  - (* PRelax *)
    destruct (MddAll.compile eqb false orc _ d) as [d'|]; [|discriminate]. injection H as <-.
    eapply (Inv_put m (mk_cs st dead)); eauto; cbn; try discriminate; try lia; intros Ho; exfalso; apply (Hq Ho); reflexivity.
  - (* PRelaxed *)
    assert (Hc : exists c' p' d', st' = mk_st c' (put i (mk_th p' d') (s_threads st)) /\ busyb (mk_th p' d') = true /\
                   c_ongoing c' = c_ongoing (s_crit st) /\ c_interrupted c' = false).
    { destruct (g_exact d).
      - destruct (maybe_update_best cfg (s_crit st) d) as [c'|] eqn:E; [|discriminate]. cbn in H. injection H as <-.
        destruct (update_keeps _ _ _ E) as (h1 & h2 & h3). eexists _, _, _. split; [reflexivity|]. split; [reflexivity|]. split; congruence.
      - destruct (enqueue_cutset cfg (s_crit st) d (sp_ub n)) as [[c' d']|] eqn:E; [|discriminate]. cbn in H. injection H as <-.
        destruct (enqueue_keeps _ _ _ _ _ E) as (h1 & h2). eexists _, _, _. split; [reflexivity|]. split; [reflexivity|]. split; congruence. }
    destruct Hc as (c' & p' & d' & -> & Hb & h1 & h2). eapply (Inv_put m (mk_cs st dead)); eauto; rewrite ?Hb; cbn [x_st].
    all: first [cbn; lia | intros E; unfold busyb in Hb; rewrite E in Hb; discriminate | intros Ho; exfalso; apply (Hq Ho); reflexivity].
  - (* PNotify *)
    destruct (finish_node cfg (s_crit st) i k) as [c'|] eqn:E; [|discriminate]. injection H as <-.
    unfold finish_node in E. destruct (c_ongoing (s_crit st)) as [|o] eqn:Eo; [discriminate|].
    destruct (upd (c_ubs (s_crit st)) i IMAX) as [ubs|]; [|discriminate]. cbn in E. injection E as <-.
    assert (Hp : Inv m (mk_cs (mk_st (mk_crit (c_fringe (s_crit st)) o (c_explored (s_crit st)) (c_explored_dd (s_crit st) + k) (c_lb (s_crit st)) (c_ub (s_crit st)) (c_sol (s_crit st)) ubs (c_interrupted (s_crit st)))
              (put i (mk_th PIdle d) (s_threads st))) dead)).
    { eapply (Inv_put m (mk_cs st dead)); eauto; cbn; try discriminate; try lia; intros Ho; exfalso; apply (Hq Ho); reflexivity. }
    destruct Hp as [L B O G']. constructor; cbn [x_st s_threads s_crit] in *; auto.
    + rewrite map_length. exact L.
    + rewrite tally_map; [exact B|apply wake_busyb].
    + intros t Hin E. apply in_map_iff in Hin. destruct Hin as (u & <- & Hu). apply (O u Hu). destruct u as [[] ?]; cbn in *; try discriminate; reflexivity.
Qed.

Lemma dies_Inv m st dead i t c t' : nth_error (s_threads st) i = Some t -> dies (s_crit st) i false t c t' -> Inv m (mk_cs st dead) ->
  Inv m (mk_cs (mk_st c (put i t' (s_threads st))) (i :: dead)).
Proof.
  intros Ht H HI. pose proof (i_go _ _ HI) as G. cbn in G. assert (Hq : over st -> busyb t = true -> False).
  { intros Ho Hb. pose proof (over_nobody _ _ HI Ho i t Ht). congruence. }
  destruct H as [Hp Hg Hi|Hp Hg Hi Hf|n f Hp Hg Hi Hf|n Hp Hl|n k Hp|n v Hp Hu Hv|n k f Hp He Hq' Hs|k Hp Hf]; try discriminate;
    try (assert (Hb : busyb t = true) by (unfold busyb; rewrite Hp; reflexivity)).
  - eapply (Inv_put m (mk_cs st dead)); eauto; cbn; try lia. rewrite Hp. discriminate.
  - eapply (Inv_put m (mk_cs st dead)); eauto; cbn; try lia; try discriminate.
    intros [h1 h2]. destruct (get_over (s_crit st) i h1 h2 G) as (c1 & h & _). congruence.
  - eapply (Inv_put m (mk_cs st dead)); eauto; cbn; try lia. rewrite Hp. discriminate.
  - eapply (Inv_put m (mk_cs st dead)); eauto; cbn; try lia. rewrite Hp. discriminate.
  - assert (Hb : busyb t = true) by (unfold busyb; destruct Hp as [->|(k & -> & _)]; reflexivity).
    eapply (Inv_put m (mk_cs st dead)); eauto; cbn; try lia.
    intros E. unfold busyb in Hb. rewrite E in Hb. discriminate.
  - eapply (Inv_put m (mk_cs st dead)); eauto; cbn; try lia; first [rewrite Hp; discriminate | intros Ho; exfalso; eauto].
  - eapply (Inv_put m (mk_cs st dead)); eauto; cbn; try lia; try discriminate. rewrite Hb. lia.
Qed.

Lemma wakes_Inv m x y : cwakes S cfg x y -> Inv m x -> Inv m y.
Proof.
  intros [(i & d & Ht & E) Hd] HI. destruct y as [st' dead']. cbn in *. subst. eapply Inv_put; eauto; cbn; try discriminate; try lia. exact (i_go _ _ HI).
Qed.

Lemma start_Inv n m st : initial cfg n m = Some st -> Inv m (mk_cs st []).
Proof.
  unfold initial. destruct (fr_push fr (fr_new fr) (root_node cfg)) as [f|]; [|discriminate]. cbn. intros H. injection H as <-.
  constructor; cbn.
  - apply repeat_length.
  - induction m; cbn; [lia|exact IHm].
  - intros t Ht. apply repeat_spec in Ht. subst. discriminate.
  - reflexivity.
Qed.

Lemma creaches_Inv n m x : creaches S eqb cfg false n m x -> Inv m x.
Proof.
  intros (st & H0 & Hr). remember (mk_cs st []) as x0 eqn:E. assert (HI : Inv m x0) by (subst; eapply start_Inv; eauto). clear E H0.
  induction Hr as [x|x y z _ IH Hs]; [exact HI|]. specialize (IH HI). destruct Hs as [Hs|Hs]; [|eapply wakes_Inv; eauto].
  destruct Hs as [orc intr i s s' dead _ Hs _ Hst|intr i t c t' s dead Hs _ Ht Hd].
  - destruct intr; [specialize (Hs eq_refl); discriminate|]. eapply step_Inv; eauto.
  - destruct intr; [specialize (Hs eq_refl); discriminate|]. eapply dies_Inv; eauto.
Qed.

(** A thread that panicked does not move. *)
Lemma step_others orc intr i st st' j t : thread_step eqb cfg orc intr i st = Next st' -> j <> i -> nth_error (s_threads st) j = Some t -> busy S t ->
  nth_error (s_threads st') j = Some t.
Proof.
  intros H Hj Ht Hb. unfold thread_step in H. destruct (nth_error (s_threads st) i) as [[p d]|] eqn:E; [|discriminate]. cbn [t_pc t_dd] in H.
  assert (Hl : forall o, lift cfg o i st = Next st' -> nth_error (s_threads st') j = Some t).
  { intros o Ho. unfold lift in Ho. destruct o as [[c u]|]; [|discriminate]. injection Ho as <-. cbn. rewrite put_else; auto. }
  destruct p; try discriminate; try (eapply Hl; exact H).
  destruct (finish_node cfg (s_crit st) i k) as [c'|]; [|discriminate]. injection H as <-. cbn. rewrite nth_error_map, put_else, Ht by auto.
  cbn. unfold wake, busy in *. destruct (t_pc t); auto; contradiction.
Qed.
Lemma at_work_stays stop x y : cruns stop x y -> died_at_work x -> died_at_work y.
Proof.
  intros Hr Hx. induction Hr as [x|x y z _ IH Hs]; [exact Hx|]. destruct (IH Hx) as (j & t & Hj & Ht & Hb). clear IH Hx.
  destruct Hs as [Hs|[(i & d & Hi & E) Hd]].
  - destruct Hs as [orc intr i s s' dead _ _ Hn Hst|intr i u c u' s dead _ Hn Hu Hd]; cbn in *.
    + exists j, t. split; [exact Hj|]. split; [|exact Hb]. eapply step_others; eauto. intros ->. auto.
    + exists j, t. cbn. split; [auto|]. split; [|exact Hb]. rewrite put_else; [exact Ht|]. intros ->. auto.
  - exists j, t. rewrite Hd, E. split; [exact Hj|]. split; [|exact Hb]. cbn. rewrite put_else; [exact Ht|]. intros ->. rewrite Hi in Ht. injection Ht as <-. destruct Hb.
Qed.

Lemma all_or_none n m x y : creaches S eqb cfg false n m x -> died_at_work x -> cruns false x y -> ended y -> forall i, (i < m)%nat -> In i (x_dead y).
Proof.
  intros Hx Hw Hr He i Hi. assert (Hy : creaches S eqb cfg false n m y).
  { destruct Hx as (st & H0 & Hx). exists st. split; [exact H0|]. clear Hw He. induction Hr as [y|y z z' _ IH Hs]; [exact Hx|]. eapply cruns_step; [apply IH; exact Hx|exact Hs]. }
  pose proof (at_work_stays _ _ _ Hr Hw) as (j & t & Hj & Ht & Hb). pose proof (creaches_Inv _ _ _ Hy) as HI.
  destruct (nth_error (s_threads (x_st y)) i) as [u|] eqn:Eu.
  2:{ apply nth_error_None in Eu. rewrite (i_len _ _ HI) in Eu. lia. }
  destruct (He i u Eu) as [Hd|Hd]; [exfalso|exact Hd].
  pose proof (i_over _ _ HI u (nth_error_In _ _ Eu) Hd) as Ho. pose proof (over_nobody _ _ HI Ho j t Ht) as Hn. apply busyb_busy in Hb. congruence.
Qed.

(** With a frontier that behaves, every panic happens at work. *)
Section Frontier.
Variable merging : Prop.
Variable inv : fr_t fr -> Prop.
Variable content : fr_t fr -> list (subproblem S).
Hypothesis F : frontier_ok merging fr inv content.
Record Fin (x : cstate) : Prop := {
  f_inv : inv (c_fringe (s_crit (x_st x)));
  f_ubs : forall i t, nth_error (s_threads (x_st x)) i = Some t -> ~ In i (x_dead x) -> busy S t -> (i < length (c_ubs (s_crit (x_st x))))%nat;
  f_cnt : (tally busyb (s_threads (x_st x)) <= c_ongoing (s_crit (x_st x)))%nat;
  f_dead : forall i, In i (x_dead x) -> exists t, nth_error (s_threads (x_st x)) i = Some t /\ busy S t }.

Lemma pushes_inv l : forall f f', inv f -> ofold (fun g q => fr_push fr g q) l f = Some f' -> inv f'.
Proof.
  induction l as [|q l IH]; intros f f' Hf H; cbn in H; [injection H as <-; exact Hf|].
  destruct (fo_push _ _ _ _ F f q Hf) as (g & Eg & Hg & _). rewrite Eg in H. cbn in H. eapply IH; eauto.
Qed.
Lemma enqueue_inv lb u l : forall f f', inv f -> ofold (enqueue_node cfg lb u) l f = Some f' -> inv f'.
Proof.
  induction l as [|q l IH]; intros f f' Hf H; cbn in H; [injection H as <-; exact Hf|]. unfold enqueue_node at 1 in H.
  destruct (lb <? _).
  - destruct (fo_push _ _ _ _ F f (with_ub q (Z.min u (sp_ub q))) Hf) as (g & Eg & Hg & _). rewrite Eg in H. cbn in H. eapply IH; eauto.
  - cbn in H. eapply IH; eauto.
Qed.
Lemma pop_fine f : inv f -> fr_empty fr f = false -> exists p f', fr_pop fr f = Some (Some p, f') /\ inv f'.
Proof.
  intros Hf He. destruct (fo_pop _ _ _ _ F f Hf) as (p & f' & h1 & h2 & _); [|eauto].
  intros E. apply (fo_empty _ _ _ _ F f Hf) in E. congruence.
Qed.
Lemma upd_length {A} (l : list A) i v l' : upd l i v = Some l' -> length l' = length l /\ (i < length l)%nat.
Proof.
  revert i l'. induction l as [|h l IH]; intros i l' H; destruct i as [|i]; cbn in H; try discriminate.
  - injection H as <-. cbn. lia.
  - destruct (upd l i v) as [r|] eqn:E; [|discriminate]. cbn in H. injection H as <-. destruct (IH _ _ E). cbn. lia.
Qed.

Lemma Fin_put x i t t' c dead : Fin x -> nth_error (s_threads (x_st x)) i = Some t -> ~ In i (x_dead x) ->
  inv (c_fringe c) -> length (c_ubs c) = length (c_ubs (s_crit (x_st x))) ->
  (c_ongoing (s_crit (x_st x)) + (if busyb t' then 1 else 0) <= c_ongoing c + (if busyb t then 1 else 0))%nat ->
  (dead = x_dead x /\ (busy S t' -> (i < length (c_ubs c))%nat) \/ dead = i :: x_dead x /\ busy S t') ->
  Fin (mk_cs (mk_st c (put i t' (s_threads (x_st x)))) dead).
Proof.
  intros [I U C D] Ht Hn Hi Hl Hc Hd. constructor; cbn [x_st x_dead s_crit s_threads].
  - exact Hi.
  - intros j u Hj Hnj Hb. destruct (Nat.eq_dec j i) as [->|Hji].
    + rewrite (put_at _ _ _ _ Ht) in Hj. injection Hj as <-. destruct Hd as [[-> Hd]|[-> _]]; [auto|]. exfalso. apply Hnj. left. reflexivity.
    + rewrite put_else in Hj by auto. rewrite Hl. eapply U; eauto. intros Hin. apply Hnj. destruct Hd as [[-> _]|[-> _]]; [exact Hin|right; exact Hin].
  - pose proof (tally_put busyb i t' _ _ Ht). lia.
  - intros j Hj. assert (Hc' : j = i /\ busy S t' \/ In j (x_dead x)).
    { destruct Hd as [[-> _]|[-> Hb]]; [auto|]. destruct Hj as [<-|Hj]; auto. }
    destruct (Nat.eq_dec j i) as [->|Hji].
    + destruct Hc' as [[_ Hb]|Hin]; [|contradiction]. exists t'. rewrite (put_at _ _ _ _ Ht). auto.
    + destruct Hc' as [[E _]|Hin]; [contradiction|]. destruct (D j Hin) as (u & Hu & Hb). exists u. rewrite put_else by auto. auto.
Qed.
Lemma Fin_map x c (g : thread -> thread) l dead : (forall a, busyb (g a) = busyb a) ->
  Fin (mk_cs (mk_st c l) dead) -> x = mk_cs (mk_st c (map g l)) dead -> Fin x.
Proof.
  intros Hg [I U C D] ->. constructor; cbn [x_st x_dead s_crit s_threads] in *.
  - exact I.
  - intros i t Ht Hn Hb. rewrite nth_error_map in Ht. destruct (nth_error l i) as [u|] eqn:E; [|discriminate]. injection Ht as <-.
    eapply U; eauto. apply busyb_busy. rewrite <- Hg. apply busyb_busy. exact Hb.
  - rewrite tally_map; auto.
  - intros i Hi. destruct (D i Hi) as (t & Ht & Hb). exists (g t). rewrite nth_error_map, Ht. split; [reflexivity|]. apply busyb_busy. rewrite Hg. apply busyb_busy. exact Hb.
Qed.

(** [get_workload] with such a frontier. *)
Lemma get_fine (c : critical S cfg) i intr : inv (c_fringe c) ->
  match get_workload cfg c i intr with
  | Some (c', w) => inv (c_fringe c') /\ length (c_ubs c') = length (c_ubs c) /\
      match w with WItem _ => c_ongoing c' = Datatypes.S (c_ongoing c) /\ (i < length (c_ubs c))%nat | _ => c_ongoing c' = c_ongoing c end
  | None => intr = false /\ exists n f, fr_pop fr (c_fringe c) = Some (Some n, f) /\ inv f
  end.
Proof.
  intros Hi. unfold get_workload. destruct (Nat.eqb (c_ongoing c) 0 && fr_empty fr (c_fringe c))%bool eqn:Eo; [cbn; auto|].
  destruct (c_interrupted c); [auto|]. destruct intr.
  - destruct (0 <? c_ongoing c)%nat eqn:E0.
    + cbn. split; [apply (fo_clear _ _ _ _ F _ Hi)|auto].
    + apply Nat.ltb_ge in E0. assert (E1 : c_ongoing c = 0%nat) by lia. rewrite E1 in Eo. cbn in Eo.
      destruct (pop_fine _ Hi Eo) as (p & f & -> & Hf). cbn. split; [apply (fo_clear _ _ _ _ F _ Hf)|auto].
  - destruct (fr_empty fr (c_fringe c)) eqn:Ee; [auto|]. destruct (pop_fine _ Hi Ee) as (p & f & E & Hf). rewrite E. cbn.
    destruct (sp_ub p <=? c_lb c); [cbn; split; [apply (fo_clear _ _ _ _ F _ Hf)|auto]|].
    destruct (upd (c_ubs c) i (sp_ub p)) as [ubs|] eqn:Eu; cbn.
    + destruct (upd_length _ _ _ _ Eu). auto.
    + split; [reflexivity|]. exists p, f. auto.
Qed.

Lemma step_Fin stop x y : cstep stop x y -> Fin x -> Fin y.
Proof.
  intros Hs HF. destruct Hs as [orc intr i st st' dead _ _ Hn H|intr i t c t' st dead _ Hn Ht H].
  - unfold thread_step in H. destruct (nth_error (s_threads st) i) as [[p d]|] eqn:Ht; [|discriminate]. cbn [t_pc t_dd] in H.
    pose proof (f_inv _ HF) as HI. cbn in HI.
    assert (Hi : busyb (mk_th p d) = true -> (i < length (c_ubs (s_crit st)))%nat).
    { intros Hb. apply (f_ubs _ HF i _ Ht Hn). apply busyb_busy. exact Hb. }
    destruct p as [| |n|n|n k|n k|k|]; try discriminate.
    + pose proof (get_fine (s_crit st) i intr HI) as Hg. destruct (get_workload cfg (s_crit st) i intr) as [[c w]|]; [|discriminate]. cbn in H. injection H as <-.
      destruct Hg as (h1 & h2 & h3). eapply (Fin_put (mk_cs st dead)); eauto; cbn; destruct w; cbn in *; try lia;
        left; (split; [reflexivity|]); intros Hb; try destruct Hb; lia.
    + assert (Hc : exists p' d', st' = mk_st (s_crit st) (put i (mk_th p' d') (s_threads st)) /\ busyb (mk_th p' d') = true).
      { destruct (sp_ub n <=? c_lb (s_crit st)); [injection H as <-; eexists _, _; split; reflexivity|].
        destruct (MddAll.compile eqb false orc _ d) as [d'|]; [|discriminate]. injection H as <-. eexists _, _; split; reflexivity. }
      destruct Hc as (p' & d' & -> & Hb). eapply (Fin_put (mk_cs st dead)); eauto; rewrite ?Hb; cbn; try lia; auto.
    + destruct (maybe_update_best cfg (s_crit st) d) as [c'|] eqn:E; [|discriminate]. cbn in H. injection H as <-.
      destruct (update_keeps _ _ _ E) as (h1 & h2 & h3).
      assert (h4 : c_ubs c' = c_ubs (s_crit st)).
      { clear - E. unfold maybe_update_best in E. destruct (best_value d) as [bv|]; [|discriminate]. cbn in E.
        destruct (c_lb (s_crit st) <? _); [|injection E as <-; auto]. destruct (best_solution d) as [sol|]; [|discriminate]. cbn in E. injection E as <-. auto. }
      eapply (Fin_put (mk_cs st dead)); eauto; cbn; rewrite ?h2, ?h4; auto; destruct (g_exact d); cbn; try lia; auto.
    + destruct (MddAll.compile eqb false orc _ d) as [d'|]; [|discriminate]. injection H as <-.
      eapply (Fin_put (mk_cs st dead)); eauto; cbn; try lia; auto.
    + destruct (g_exact d).
      * destruct (maybe_update_best cfg (s_crit st) d) as [c'|] eqn:E; [|discriminate]. cbn in H. injection H as <-.
        destruct (update_keeps _ _ _ E) as (h1 & h2 & h3).
        assert (h4 : c_ubs c' = c_ubs (s_crit st)).
        { clear - E. unfold maybe_update_best in E. destruct (best_value d) as [bv|]; [|discriminate]. cbn in E.
          destruct (c_lb (s_crit st) <? _); [|injection E as <-; auto]. destruct (best_solution d) as [sol|]; [|discriminate]. cbn in E. injection E as <-. auto. }
        eapply (Fin_put (mk_cs st dead)); eauto; cbn; rewrite ?h2, ?h4; auto; try lia.
      * destruct (enqueue_cutset cfg (s_crit st) d (sp_ub n)) as [[c' d']|] eqn:E; [|discriminate]. cbn in H. injection H as <-.
        unfold enqueue_cutset in E. destruct (drain_cutset d) as [[l d1]|]; [|discriminate]. cbn in E. destruct (ofold _ l _) as [f|] eqn:Ef; [|discriminate]. cbn in E.
        injection E as <- <-. eapply (Fin_put (mk_cs st dead)); eauto; cbn; try lia; auto. eapply enqueue_inv; eauto.
    + destruct (finish_node cfg (s_crit st) i k) as [c'|] eqn:E; [|discriminate]. injection H as <-.
      unfold finish_node in E. destruct (c_ongoing (s_crit st)) as [|o] eqn:Eo; [discriminate|].
      destruct (upd (c_ubs (s_crit st)) i IMAX) as [ubs|] eqn:Eu; [|discriminate]. cbn in E. injection E as <-. destruct (upd_length _ _ _ _ Eu) as [hl _].
      eapply Fin_map; [apply wake_busyb| |reflexivity]. eapply (Fin_put (mk_cs st dead)); eauto; cbn; try lia; left. split; [reflexivity|]. intros [].
  - pose proof (f_inv _ HF) as HI. cbn in HI.
    assert (Hi : busyb t = true -> (i < length (c_ubs (s_crit st)))%nat) by (intros Hb; apply (f_ubs _ HF i _ Ht Hn), busyb_busy, Hb).
    pose proof (get_fine (s_crit st) i intr HI) as Hg.
    destruct H as [Hp Hw Hi'|Hp Hw Hi' Hf|n f Hp Hw Hi' Hf|n Hp Hl|n k Hp|n v Hp Hu Hv|n k f Hp He Hq' Hs|k Hp Hf].
    + rewrite Hw in Hg. destruct Hg. congruence.
    + rewrite Hw in Hg. destruct Hg as [_ (n & f & E & _)]. exfalso. eapply Hf; eauto.
    + rewrite Hw in Hg. destruct Hg as [_ (n' & f' & E & Hfi)]. rewrite Hf in E. injection E as <- <-.
      eapply (Fin_put (mk_cs st dead)); eauto; cbn; try lia; right. split; [reflexivity|exact I].
    + eapply (Fin_put (mk_cs st dead)); eauto; cbn; try lia; right. split; [reflexivity|]. unfold busy. rewrite Hp. exact I.
    + eapply (Fin_put (mk_cs st dead)); eauto; cbn; try lia; right. split; [reflexivity|]. unfold busy. rewrite Hp. exact I.
    + eapply (Fin_put (mk_cs st dead)); eauto; cbn; try lia; right. split; [reflexivity|]. unfold busy. destruct Hp as [->|(k & -> & _)]; exact I.
    + destruct Hs as (l & Hs). eapply (Fin_put (mk_cs st dead)); eauto; cbn; try lia.
      * eapply pushes_inv; eauto. * right. split; [reflexivity|]. unfold busy. rewrite Hp. exact I.
    + exfalso. assert (Hb : busyb t = true) by (unfold busyb; rewrite Hp; reflexivity). specialize (Hi Hb).
      pose proof (tally_at busyb _ _ _ Ht Hb). pose proof (f_cnt _ HF) as Hc. cbn in Hc. unfold finish_node in Hf.
      destruct (c_ongoing (s_crit st)) as [|o]; [lia|]. destruct (upd_some (c_ubs (s_crit st)) i IMAX Hi) as (ubs & E & _). rewrite E in Hf. discriminate.
Qed.
Lemma wakes_Fin x y : cwakes S cfg x y -> Fin x -> Fin y.
Proof.
  intros [(i & d & Ht & E) Hd] HF. destruct y as [st' dead']. cbn in *. subst. assert (Hn : ~ In i (x_dead x)).
  { intros Hin. destruct (f_dead _ HF i Hin) as (u & Hu & Hb). rewrite Ht in Hu. injection Hu as <-. exact Hb. }
  eapply (Fin_put x); eauto; cbn; try lia. - exact (f_inv _ HF). - left. split; [reflexivity|]. intros [].
Qed.
Lemma creaches_Fin stop n m x : creaches S eqb cfg stop n m x -> Fin x.
Proof.
  intros (st & H0 & Hr). remember (mk_cs st []) as x0 eqn:E. assert (HI : Fin x0).
  { subst. unfold initial in H0. destruct (fo_new _ _ _ _ F) as [Hnew _]. destruct (fo_push _ _ _ _ F (fr_new fr) (root_node cfg) Hnew) as (f & Ef & Hf & _).
    rewrite Ef in H0. cbn in H0. injection H0 as <-. constructor; cbn.
    - exact Hf.
    - intros i t Ht _ Hb. apply nth_error_In in Ht. apply repeat_spec in Ht. subst. destruct Hb.
    - clear. induction m; cbn; [lia|exact IHm].
    - intros i []. }
  clear E H0. induction Hr as [x|x y z _ IH Hs]; [exact HI|]. specialize (IH HI). destruct Hs as [Hs|Hs]; [eapply step_Fin; eauto|eapply wakes_Fin; eauto].
Qed.
Lemma panics_at_work stop n m x : creaches S eqb cfg stop n m x -> x_dead x <> [] -> died_at_work x.
Proof.
  intros Hx Hd. pose proof (f_dead _ (creaches_Fin _ _ _ _ Hx)) as D. destruct (x_dead x) as [|i l] eqn:E; [congruence|].
  destruct (D i (or_introl eq_refl)) as (t & Ht & Hb). exists i, t. rewrite E. split; [left; reflexivity|auto].
Qed.
End Frontier.

(** * A deserted solver *)
Lemma deserted_stuck stop (x y : cstate) : deserted x -> ~ cstep stop x y.
Proof.
  intros [Hd _] Hs. destruct Hs as [orc intr i st st' dead _ _ Hn H|intr i t c t' st dead _ Hn Ht H]; cbn in Hd.
  - unfold thread_step in H. destruct (nth_error (s_threads st) i) as [[p d]|] eqn:E; [|discriminate]. destruct (Hd i _ E) as [Hin|Hp]; [contradiction|].
    cbn in Hp. subst p. discriminate.
  - destruct (Hd i _ Ht) as [Hin|Hp]; [contradiction|]. destruct H as [E|E|? ? E|? E|? ? E|? ? E|? ? ? E|? E]; rewrite Hp in E; try discriminate.
    destruct E as [E|(? & E & _)]; discriminate.
Qed.
Lemma deserted_not_ended (x : cstate) : deserted x -> ~ ended x.
Proof.
  intros [Hd (i & t & Ht & Hn)] He. destruct (Hd i t Ht) as [H|H]; [contradiction|]. destruct (He i t Ht) as [H'|H']; [congruence|contradiction].
Qed.
(** Even when waiting threads wake up for no reason, as long as nobody asks to stop. *)
Record Doomed (a : nat) (x : cstate) : Prop := {
  d_one : exists t, nth_error (s_threads (x_st x)) a = Some t; d_alive : ~ In a (x_dead x);
  d_idle : forall i t, nth_error (s_threads (x_st x)) i = Some t -> In i (x_dead x) \/ t_pc t = PWait \/ t_pc t = PIdle;
  d_crit : c_ongoing (s_crit (x_st x)) <> 0%nat /\ fr_empty fr (c_fringe (s_crit (x_st x))) = true /\ c_interrupted (s_crit (x_st x)) = false }.
Lemma get_doomed (c : critical S cfg) i : c_ongoing c <> 0%nat -> fr_empty fr (c_fringe c) = true -> c_interrupted c = false -> get_workload cfg c i false = Some (c, WPark).
Proof.
  intros H1 H2 H3. unfold get_workload. rewrite H2, H3. destruct (Nat.eqb (c_ongoing c) 0) eqn:E; [apply Nat.eqb_eq in E; contradiction|]. reflexivity.
Qed.
Lemma Doomed_put a x i t t' : Doomed a x -> nth_error (s_threads (x_st x)) i = Some t -> t_pc t' = PWait \/ t_pc t' = PIdle ->
  Doomed a (mk_cs (mk_st (s_crit (x_st x)) (put i t' (s_threads (x_st x)))) (x_dead x)).
Proof.
  intros [(u & Hu) A I C] Ht Hp. constructor; cbn; auto.
  - destruct (Nat.eq_dec a i) as [->|Hn]; [exists t'; eapply put_at; eauto|exists u; rewrite put_else; auto].
  - intros j v Hj. destruct (Nat.eq_dec j i) as [->|Hn]; [|rewrite put_else in Hj by auto; eauto].
    rewrite (put_at _ _ _ _ Ht) in Hj. injection Hj as <-. auto.
Qed.
Lemma doomed_runs a x y : cruns false x y -> Doomed a x -> Doomed a y.
Proof.
  intros Hr HD. induction Hr as [x|x y z _ IH Hs]; [exact HD|]. specialize (IH HD). destruct Hs as [Hs|[(i & d & Hi & E) Hd]].
  - destruct Hs as [orc intr i st st' dead _ Hs Hn H|intr i t c t' st dead Hs Hn Ht H]; (destruct intr; [specialize (Hs eq_refl); discriminate|]);
      pose proof (d_crit _ _ IH) as (c1 & c2 & c3); cbn in c1, c2, c3.
    + unfold thread_step in H. destruct (nth_error (s_threads st) i) as [[p d]|] eqn:E; [|discriminate].
      destruct (d_idle _ _ IH i _ E) as [Hin|[Hp|Hp]]; [contradiction| |]; cbn in Hp; subst p; cbn [t_pc t_dd] in H; [discriminate|].
      rewrite get_doomed in H by auto. injection H as <-. eapply (Doomed_put a (mk_cs st dead)); eauto.
    + exfalso. destruct (d_idle _ _ IH i _ Ht) as [Hin|[Hp|Hp]]; [contradiction| |].
      * destruct H as [E|E|? ? E|? E|? ? E|? ? E|? ? ? E|? E]; rewrite Hp in E; try discriminate. destruct E as [E|(? & E & _)]; discriminate.
      * destruct H as [E W|E W|? ? E W|? E|? ? E|? ? E|? ? ? E|? E]; rewrite ?Hp in E; try discriminate; try (rewrite get_doomed in W by auto; discriminate).
        destruct E as [E|(? & E & _)]; discriminate.
  - destruct z as [st' dead']. cbn in *. subst. eapply (Doomed_put a y); eauto.
Qed.
Lemma deserted_for_ever (x y : cstate) : deserted x -> c_ongoing (s_crit (x_st x)) <> 0%nat -> fr_empty fr (c_fringe (s_crit (x_st x))) = true ->
  c_interrupted (s_crit (x_st x)) = false -> cruns false x y -> ~ ended y.
Proof.
  intros [Hd (a & t & Ht & Hn)] H1 H2 H3 Hr He. assert (HD : Doomed a x).
  { constructor; eauto. intros i u Hu. destruct (Hd i u Hu); auto. }
  pose proof (doomed_runs _ _ _ Hr HD) as [(u & Hu) A I _]. destruct (He a u Hu) as [E|E]; [|contradiction]. destruct (I a u Hu) as [E'|[E'|E']]; [contradiction| |]; congruence.
Qed.

(** With one thread, the call ends when it panics. *)
Lemma one_thread stop n x : creaches S eqb cfg stop n 1 x -> x_dead x <> [] -> ended x.
Proof.
  intros (st & H0 & Hr) Hd. assert (Hl : length (s_threads (x_st x)) = 1%nat /\ forall i, In i (x_dead x) -> i = 0%nat).
  { remember (mk_cs st []) as x0 eqn:E. assert (HI : length (s_threads (x_st x0)) = 1%nat /\ forall i, In i (x_dead x0) -> i = 0%nat).
    { subst. unfold initial in H0. destruct (fr_push fr _ _); [|discriminate]. injection H0 as <-. cbn. split; [reflexivity|intros i []]. }
    clear E H0 Hd. induction Hr as [x|x y z _ IH Hs]; [exact HI|]. specialize (IH HI). destruct IH as [L D]. destruct Hs as [Hs|[(i & d & Hi & E) Hd]].
    - destruct Hs as [orc intr i s s' dead _ _ Hn H|intr i t c t' s dead _ Hn Ht H]; cbn in *.
      + split; [|exact D]. unfold thread_step in H. destruct (nth_error (s_threads s) i) as [[p d]|]; [|discriminate]. cbn [t_pc t_dd] in H.
        assert (Hl : forall o, lift cfg o i s = Next s' -> length (s_threads s') = 1%nat).
        { intros o Ho. unfold lift in Ho. destruct o as [[c u]|]; [|discriminate]. injection Ho as <-. cbn. rewrite put_length. exact L. }
        destruct p; try discriminate; try (eapply Hl; exact H). destruct (finish_node cfg (s_crit s) i k); [|discriminate]. injection H as <-. cbn. rewrite map_length, put_length. exact L.
      + rewrite put_length. split; [exact L|]. intros j [<-|Hj]; [|auto]. assert (Hi : (i < 1)%nat) by (rewrite <- L; apply nth_error_Some; congruence). lia.
    - rewrite Hd, E. cbn. rewrite put_length. auto. }
  destruct Hl as [L D]. intros i t Ht. right. assert (Hi : (i < 1)%nat) by (rewrite <- L; apply nth_error_Some; congruence).
  assert (i = 0%nat) by lia. subst. destruct (x_dead x) as [|j l]; [congruence|]. rewrite (D j (or_introl eq_refl)). left. reflexivity.
Qed.
End Par.

(** What a panic leaves to the caller. *)
Lemma panic_keeps S eqb (cfg : config S) stop x y : cstep S eqb cfg stop x y -> x_dead y <> x_dead x ->
  c_lb (s_crit (x_st x)) <= c_lb (s_crit (x_st y)) /\ c_ub (s_crit (x_st y)) = c_ub (s_crit (x_st x)) /\ c_sol (s_crit (x_st y)) = c_sol (s_crit (x_st x)).
Proof.
  intros H D. destruct H as [orc intr i st st' dead _ _ _ _|intr i t c t' st dead _ _ _ H]; [exfalso; apply D; reflexivity|].
  cbn. destruct H; cbn; repeat split; lia.
Qed.
Lemma first_panic S eqb (cfg : config S) stop n m x : creaches S eqb cfg stop n m x -> x_dead x <> [] ->
  exists y z, creaches S eqb cfg stop n m y /\ cstep S eqb cfg stop y z /\ x_dead z <> x_dead y.
Proof.
  intros (st & H0 & H). remember (mk_cs st []) as x0 eqn:E. induction H as [x|x y z Hr IH Hs]; intros D.
  - subst. cbn in D. congruence.
  - destruct (list_eq_dec Nat.eq_dec (x_dead z) (x_dead y)) as [e|ne].
    + rewrite e in D. exact (IH E D).
    + subst. destruct Hs as [Hs|[_ Hw]]; [|congruence]. exists y, z. split; [exists st; auto|]. auto.
Qed.
