(** When the first subproblem is fatal: with several threads, [maximize] never ends. *)
From Verif Require Import ParSpec FringeSpec ParFacts SortBy CrashSpec CrashProofs SureSpec.
Open Scope Z_scope.

Section Proofs.
Variable S : Type.
Variable eqb : S -> S -> bool.
Variable cfg : config S.
Variable fatal : subproblem S -> Prop.
Variable merging : Prop.
Notation fr := (cf_fr cfg).
Variable inv : fr_t fr -> Prop.
Variable content : fr_t fr -> list (subproblem S).
Hypothesis F : frontier_ok merging fr inv content.
Variables n m : nat.
Hypothesis Hm : (2 <= m <= n)%nat.
Hypothesis Hroot : fatal (root_node cfg).
Notation cstate := (cstate S cfg).

Definition waits (t : thread S) : Prop := t_pc t = PIdle \/ t_pc t = PWait.
Record Common (x : cstate) : Prop := {
  s_len : length (s_threads (x_st x)) = m;
  s_inv : inv (c_fringe (s_crit (x_st x)));
  s_lb : c_lb (s_crit (x_st x)) = IMIN;
  s_go : c_interrupted (s_crit (x_st x)) = false }.
Inductive Stage (x : cstate) : Prop :=
| Fresh : Common x -> x_dead x = [] -> (forall i t, nth_error (s_threads (x_st x)) i = Some t -> t_pc t = PIdle) ->
    content (c_fringe (s_crit (x_st x))) = [root_node cfg] -> c_ongoing (s_crit (x_st x)) = 0%nat -> length (c_ubs (s_crit (x_st x))) = n -> Stage x
| Taken a ta : Common x -> nth_error (s_threads (x_st x)) a = Some ta -> t_pc ta = PStart (root_node cfg) ->
    x_dead x = [] \/ x_dead x = [a] -> (forall i t, nth_error (s_threads (x_st x)) i = Some t -> i <> a -> waits t) ->
    content (c_fringe (s_crit (x_st x))) = [] -> c_ongoing (s_crit (x_st x)) = 1%nat -> Stage x.

Lemma start_Stage st : initial cfg n m = Some st -> Stage (mk_cs st []).
Proof.
  unfold initial. destruct (fo_new _ _ _ _ F) as (h1 & h2). destruct (fo_push _ _ _ _ F (fr_new fr) (root_node cfg) h1) as (f & E & h3 & h4).
  rewrite E. cbn iota. intros H. injection H as <-. apply Fresh; cbn; try reflexivity.
  - constructor; cbn; auto. apply repeat_length.
  - intros i t Ht. apply nth_error_In, repeat_spec in Ht. subst. reflexivity.
  - rewrite h2 in h4. destruct h4 as [h4|(_ & old & l & _ & h4 & _)]; [|apply Permutation_nil in h4; discriminate].
    apply Permutation_sym, Permutation_length_1_inv in h4. exact h4.
  - apply repeat_length.
Qed.

Lemma get_fresh (c : critical S cfg) i : inv (c_fringe c) -> content (c_fringe c) = [root_node cfg] -> c_lb c = IMIN -> c_interrupted c = false -> (i < length (c_ubs c))%nat ->
  exists f ubs, get_workload cfg c i false = Some (mk_crit f (Datatypes.S (c_ongoing c)) (Datatypes.S (c_explored c)) (c_explored_dd c) (c_lb c) (c_ub c) (c_sol c) ubs
              (c_interrupted c), WItem (root_node cfg)) /\ inv f /\ content f = [].
Proof.
  intros Hi Hc Hl Hn Hu. unfold get_workload. assert (E : fr_empty fr (c_fringe c) = false).
  { destruct (fr_empty fr (c_fringe c)) eqn:E; [|reflexivity]. apply (fo_empty _ _ _ _ F _ Hi) in E. congruence. }
  rewrite E, andb_false_r, Hn. destruct (fo_pop _ _ _ _ F _ Hi) as (p & f & Ep & h1 & h2 & _); [rewrite Hc; discriminate|]. rewrite Ep. cbn iota.
  rewrite Hc in h2. apply Permutation_length_1_inv in h2. injection h2 as -> h2. unfold obind. rewrite Hl. cbv beta iota. replace (sp_ub (root_node cfg) <=? IMIN) with false by reflexivity.
  destruct (upd (c_ubs c) i (sp_ub (root_node cfg))) as [ubs|] eqn:Eu.
  - exists f, ubs. split; [|auto]. rewrite ?Eu. reflexivity.
  - exfalso. revert Eu Hu. clear. revert i. induction (c_ubs c) as [|h l IH]; intros [|i] Eu Hu; cbn in *; try lia; try discriminate.
    destruct (upd l i IMAX) eqn:E; [discriminate|]. eapply IH; eauto. lia.
Qed.
Lemma get_taken (c : critical S cfg) i : inv (c_fringe c) -> content (c_fringe c) = [] -> c_ongoing c = 1%nat -> c_interrupted c = false ->
  get_workload cfg c i false = Some (c, WPark).
Proof. intros Hi Hc Ho Hn. unfold get_workload. rewrite Ho, Hn. cbn. apply (fo_empty _ _ _ _ F _ Hi) in Hc. rewrite Hc. reflexivity. Qed.

Lemma lt_threads (l : list (thread S)) i t : nth_error l i = Some t -> (i < length l)%nat.
Proof. intros H. apply nth_error_Some. congruence. Qed.

Lemma fstep_Stage x y : fstep S eqb cfg fatal x y -> Stage x -> Stage y.
Proof.
  intros Hs Hx. destruct Hs as [orc i st st' dead Ho Hn Hf H|i t c t' st dead Hn Ht H].
  - destruct Hx as [[c1 c2 c3 c4] h1 h2 h3 h4 h5|a ta [c1 c2 c3 c4] ha hp h1 h2 h3 h4]; cbn in *.
    + unfold thread_step in H. destruct (nth_error (s_threads st) i) as [[p d]|] eqn:E; [|discriminate]. pose proof (h2 i _ E) as Hp. cbn in Hp. subst p. cbn [t_pc t_dd] in H.
      destruct (get_fresh (s_crit st) i c2 h3 c3 c4) as (f & ubs & Eg & k1 & k2); [rewrite h5; apply lt_threads in E; lia|].
      rewrite Eg in H. cbn in H. injection H as <-. apply (Taken _ i (mk_th (PStart (root_node cfg)) d)); cbn; auto.
      * constructor; cbn; auto. rewrite put_length. exact c1.
      * eapply put_at; eauto.
      * intros j u Hu Hj. rewrite put_else in Hu by auto. left. eapply h2; eauto.
    + unfold thread_step in H. destruct (nth_error (s_threads st) i) as [[p d]|] eqn:E; [|discriminate]. cbn [t_pc t_dd] in H.
      destruct (Nat.eq_dec i a) as [->|Hia].
      { exfalso. apply Hf. exists ta, (root_node cfg). split; [exact ha|]. split; [exact Hroot|]. left. split; [exact hp|]. rewrite c3. reflexivity. }
      destruct (h2 i _ E Hia) as [Hp|Hp]; cbn in Hp; subst p; [|discriminate]. rewrite (get_taken _ i c2 h3 h4 c4) in H. cbn in H. injection H as <-.
      apply (Taken _ a ta); cbn; auto.
      * constructor; cbn; auto. rewrite put_length. exact c1.
      * rewrite put_else by auto. exact ha.
      * intros j u Hu Hj. destruct (Nat.eq_dec j i) as [->|Hji]; [rewrite (put_at _ _ _ _ E) in Hu; injection Hu as <-; right; reflexivity|].
        rewrite put_else in Hu by auto. eapply h2; eauto.
  - destruct Hx as [[c1 c2 c3 c4] h1 h2 h3 h4 h5|a ta [c1 c2 c3 c4] ha hp h1 h2 h3 h4]; cbn in *.
    + exfalso. pose proof (h2 i _ Ht) as Hp. destruct (get_fresh (s_crit st) i c2 h3 c3 c4) as (f & ubs & Eg & _ & _); [rewrite h5; apply lt_threads in Ht; lia|].
      destruct H as [E|E|? ? E|? E|? ? E|? ? E|? ? ? E|? E]; try congruence. destruct E as [E|(? & E & _)]; congruence.
    + destruct (Nat.eq_dec i a) as [->|Hia].
      * assert (t = ta) by congruence. subst t. assert (c = s_crit st /\ t' = ta /\ dead = []) as (-> & -> & ->).
        { destruct h1 as [->| ->]; [|exfalso; apply Hn; left; reflexivity].
          destruct H as [E|E|? ? E|? E|? ? E|? ? E|? ? ? E|? E]; try congruence; auto. destruct E as [E|(? & E & _)]; congruence. }
        apply (Taken _ a ta); cbn; auto.
        -- constructor; cbn; auto. rewrite put_length. exact c1.
        -- eapply put_at; eauto.
        -- intros j u Hu Hj. rewrite put_else in Hu by auto. eapply h2; eauto.
      * exfalso. pose proof (get_taken _ i c2 h3 h4 c4) as Eg. pose proof (h2 i _ Ht Hia) as Hp.
        destruct H as [E|E|? ? E|? E|? ? E|? ? E|? ? ? E|? E]; try congruence; try (destruct Hp; congruence). destruct E as [E|(? & E & _)]; destruct Hp; congruence.
Qed.
Lemma cwakes_Stage x y : cwakes S cfg x y -> Stage x -> Stage y.
Proof.
  intros ((i & d & Hi & Hy) & Hd) Hx. destruct x as [st dead], y as [st' dead']. cbn in *. subst st' dead'.
  destruct Hx as [[c1 c2 c3 c4] h1 h2 h3 h4 h5|a ta [c1 c2 c3 c4] ha hp h1 h2 h3 h4]; cbn in *.
  - exfalso. apply h2 in Hi. discriminate.
  - assert (Hia : i <> a) by (intros ->; assert (mk_th PWait d = ta) by congruence; subst ta; discriminate).
    apply (Taken _ a ta); cbn; auto.
    + constructor; cbn; auto. rewrite put_length. exact c1.
    + rewrite put_else by auto. exact ha.
    + intros j u Hu Hj. destruct (Nat.eq_dec j i) as [->|Hji]; [rewrite (put_at _ _ _ _ Hi) in Hu; injection Hu as <-; left; reflexivity|].
      rewrite put_else in Hu by auto. eapply h2; eauto.
Qed.
Lemma freaches_Stage x : freaches S eqb cfg fatal n m x -> Stage x.
Proof.
  intros (st & H0 & Hr). remember (mk_cs st []) as x0 eqn:E. assert (HI : Stage x0) by (subst; apply start_Stage; auto). clear E H0.
  induction Hr as [x|x y z _ IH Hs]; [exact HI|]. specialize (IH HI). destruct Hs as [Hs|Hs]; [eapply fstep_Stage|eapply cwakes_Stage]; eauto.
Qed.

Lemma other a : exists b, (b < m)%nat /\ b <> a.
Proof. destruct (Nat.eq_dec a 0) as [->|H]; [exists 1%nat|exists 0%nat]; lia. Qed.
Lemma Stage_not_ended x : Stage x -> ~ ended x.
Proof.
  intros [[c1 c2 c3 c4] h1 h2 h3 h4 h5|a ta [c1 c2 c3 c4] ha hp h1 h2 h3 h4] He.
  - destruct (nth_error (s_threads (x_st x)) 0) as [t|] eqn:E; [|apply nth_error_None in E; lia]. pose proof (h2 _ _ E). destruct (He _ _ E) as [H'|H']; [congruence|rewrite h1 in H'; destruct H'].
  - destruct (other a) as (b & Hb & Hba). destruct (nth_error (s_threads (x_st x)) b) as [t|] eqn:E; [|apply nth_error_None in E; lia].
    destruct (He _ _ E) as [H'|H']; [destruct (h2 _ _ E Hba); congruence|]. destruct h1 as [h1|h1]; rewrite h1 in H'; [destruct H'|]. destruct H' as [H'|[]]. congruence.
Qed.
Definition idleb (t : thread S) : bool := match t_pc t with PIdle => true | _ => false end.
Lemma Stage_progress x : Stage x -> (deserted x /\ length (x_dead x) = 1%nat) \/ exists y, fstep S eqb cfg fatal x y.
Proof.
  destruct x as [st dead]. intros [[c1 c2 c3 c4] h1 h2 h3 h4 h5|a ta [c1 c2 c3 c4] ha hp h1 h2 h3 h4]; cbn in *.
  - right. destruct (nth_error (s_threads st) 0) as [[p d]|] eqn:E; [|apply nth_error_None in E; lia]. pose proof (h2 _ _ E) as Hp. cbn in Hp. subst p.
    destruct (get_fresh (s_crit st) 0 c2 h3 c3 c4) as (f & ubs & Eg & k1 & k2); [lia|].
    eexists. eapply (fstep_moves _ _ _ _ orc_fwd 0%nat); [apply orc_fwd_ok|rewrite h1; auto| |].
    + intros (t & n0 & Ht & _ & [(Hp & _)|(k & Hp)]); assert (t = mk_th PIdle d) by congruence; subst t; discriminate.
    + unfold thread_step. rewrite E. cbn [t_pc]. rewrite Eg. cbn. reflexivity.
  - destruct h1 as [->| ->].
    { right. eexists. eapply (fstep_dies _ _ _ _ a ta); [auto|exact ha|]. apply dies_restricting with (n := root_node cfg); [exact hp|]. rewrite c3. reflexivity. }
    destruct (existsb idleb (s_threads st)) eqn:Ex.
    + right. apply existsb_exists in Ex. destruct Ex as (t & Hin & Hi). apply In_nth_error in Hin. destruct Hin as (i & Ht).
      assert (Hp : t_pc t = PIdle) by (unfold idleb in Hi; destruct (t_pc t); try discriminate; reflexivity).
      assert (Hia : i <> a) by (intros ->; assert (t = ta) by congruence; subst t; congruence).
      eexists. eapply (fstep_moves _ _ _ _ orc_fwd i); [apply orc_fwd_ok|intros [->|[]]; auto| |].
      * intros (t0 & n0 & Ht0 & _ & [(Hp0 & _)|(k & Hp0)]); assert (t0 = t) by congruence; subst t0; congruence.
      * unfold thread_step. rewrite Ht, Hp, (get_taken _ i c2 h3 h4 c4). cbn. reflexivity.
    + left. split; [|reflexivity]. split; cbn.
      * intros i t Ht. destruct (Nat.eq_dec i a) as [->|Hia]; [auto|]. right. destruct (h2 i t Ht Hia) as [Hp|Hp]; [|exact Hp]. exfalso.
        assert (existsb idleb (s_threads st) = true); [|congruence]. apply existsb_exists. exists t. split; [eapply nth_error_In; eauto|]. unfold idleb. rewrite Hp. reflexivity.
      * destruct (other a) as (b & Hb & Hba). destruct (nth_error (s_threads st) b) as [t|] eqn:E; [|apply nth_error_None in E; lia]. exists b, t. split; [exact E|]. intros [H|[]]. auto.
Qed.
Lemma Stage_stuck x : Stage x -> (forall y, ~ fstep S eqb cfg fatal x y) -> deserted x /\ length (x_dead x) = 1%nat.
Proof. intros Hx Hs. destruct (Stage_progress x Hx) as [H|(y & H)]; [exact H|destruct (Hs y H)]. Qed.

(** The steps come to an end. *)
Lemma tally_le {A} (f : A -> bool) l : (tally f l <= length l)%nat.
Proof. unfold tally. induction l as [|h l IH]; cbn; [lia|]. destruct (f h); cbn; lia. Qed.
Definition left (x : cstate) : nat := (tally idleb (s_threads (x_st x)) + (1 - length (x_dead x)) + (3 * (1 - c_ongoing (s_crit (x_st x)))))%nat.
Lemma fstep_left x y : Stage x -> fstep S eqb cfg fatal x y -> (left y < left x)%nat.
Proof.
  intros Hx Hs. unfold left. destruct Hs as [orc i st st' dead Ho Hn Hf H|i t c t' st dead Hn Ht H].
  - destruct Hx as [[c1 c2 c3 c4] h1 h2 h3 h4 h5|a ta [c1 c2 c3 c4] ha hp h1 h2 h3 h4]; cbn [x_st x_dead s_threads s_crit c_ongoing] in *.
    + unfold thread_step in H. destruct (nth_error (s_threads st) i) as [[p d]|] eqn:E; [|discriminate]. pose proof (h2 i _ E) as Hp. cbn in Hp. subst p. cbn [t_pc t_dd] in H.
      destruct (get_fresh (s_crit st) i c2 h3 c3 c4) as (f & ubs & Eg & k1 & k2); [rewrite h5; apply lt_threads in E; lia|].
      rewrite Eg in H. cbn in H. injection H as <-. cbn [x_st x_dead s_threads s_crit c_ongoing]. pose proof (tally_put idleb i (mk_th (PStart (root_node cfg)) d) _ _ E) as Ht. cbn in Ht. rewrite h4. lia.
    + unfold thread_step in H. destruct (nth_error (s_threads st) i) as [[p d]|] eqn:E; [|discriminate]. cbn [t_pc t_dd] in H.
      destruct (Nat.eq_dec i a) as [->|Hia].
      { exfalso. apply Hf. exists ta, (root_node cfg). split; [exact ha|]. split; [exact Hroot|]. left. split; [exact hp|]. rewrite c3. reflexivity. }
      destruct (h2 i _ E Hia) as [Hp|Hp]; cbn in Hp; subst p; [|discriminate]. rewrite (get_taken _ i c2 h3 h4 c4) in H. cbn in H. injection H as <-. cbn [x_st x_dead s_threads s_crit c_ongoing].
      pose proof (tally_put idleb i (mk_th PWait d) _ _ E) as Ht. cbn in Ht. lia.
  - destruct Hx as [[c1 c2 c3 c4] h1 h2 h3 h4 h5|a ta [c1 c2 c3 c4] ha hp h1 h2 h3 h4]; cbn [x_st x_dead s_threads s_crit c_ongoing] in *.
    + exfalso. pose proof (h2 i _ Ht) as Hp. destruct (get_fresh (s_crit st) i c2 h3 c3 c4) as (f & ubs & Eg & _ & _); [rewrite h5; apply lt_threads in Ht; lia|].
      destruct H as [E|E|? ? E|? E|? ? E|? ? E|? ? ? E|? E]; try congruence. destruct E as [E|(? & E & _)]; congruence.
    + destruct (Nat.eq_dec i a) as [->|Hia].
      * assert (t = ta) by congruence. subst t. assert (c = s_crit st /\ t' = ta /\ dead = []) as (-> & -> & ->).
        { destruct h1 as [->| ->]; [|exfalso; apply Hn; left; reflexivity].
          destruct H as [E|E|? ? E|? E|? ? E|? ? E|? ? ? E|? E]; try congruence; auto. destruct E as [E|(? & E & _)]; congruence. }
        cbn [x_st x_dead s_threads s_crit c_ongoing length]. pose proof (tally_put idleb a ta _ _ ha) as H'. lia.
      * exfalso. pose proof (get_taken _ i c2 h3 h4 c4) as Eg. pose proof (h2 i _ Ht Hia) as Hp.
        destruct H as [E|E|? ? E|? E|? ? E|? ? E|? ? ? E|? E]; try congruence; try (destruct Hp; congruence). destruct E as [E|(? & E & _)]; destruct Hp; congruence.
Qed.
Lemma Stage_finite x : Stage x -> ~ exists f : nat -> cstate, f 0%nat = x /\ forall k, fstep S eqb cfg fatal (f k) (f (Datatypes.S k)).
Proof.
  intros Hx (f & H0 & Hf). assert (H : forall k, Stage (f k) /\ (left (f k) + k <= left x)%nat).
  { induction k as [|k [IH1 IH2]]; [rewrite H0; split; [exact Hx|lia]|]. split; [eapply fstep_Stage; eauto|]. pose proof (fstep_left _ _ IH1 (Hf k)). lia. }
  destruct (H (Datatypes.S (left x))) as (_ & H1). lia.
Qed.

Lemma fatal_root x : freaches S eqb cfg fatal n m x ->
  ~ ended x /\ (~ exists f : nat -> cstate, f 0%nat = x /\ forall k, fstep S eqb cfg fatal (f k) (f (Datatypes.S k))) /\
  ((forall y, ~ fstep S eqb cfg fatal x y) -> deserted x /\ length (x_dead x) = 1%nat).
Proof. intros H. apply freaches_Stage in H. exact (conj (Stage_not_ended x H) (conj (Stage_finite x H) (Stage_stuck x H))). Qed.
(** It happens. *)
Lemma fatal_happens : exists x, freaches S eqb cfg fatal n m x /\ deserted x.
Proof.
  destruct (fo_new _ _ _ _ F) as (h1 & _). destruct (fo_push _ _ _ _ F (fr_new fr) (root_node cfg) h1) as (f & E & _ & _).
  assert (H0 : exists st, initial cfg n m = Some st) by (unfold initial; rewrite E; cbn; eauto). destruct H0 as (st & H0).
  assert (Hx : freaches S eqb cfg fatal n m (mk_cs st [])) by (exists st; split; [exact H0|apply fruns_refl]). clear - F Hm Hroot Hx. remember (left (mk_cs st [])) as k eqn:Ek.
  assert (H : forall k x, (left x <= k)%nat -> freaches S eqb cfg fatal n m x -> exists y, freaches S eqb cfg fatal n m y /\ deserted y).
  { induction k0 as [|k0 IH]; intros x Hk Hr; pose proof (freaches_Stage x Hr) as Hs; (destruct (Stage_progress x Hs) as [(H & _)|(y & H)]; [eauto|]); pose proof (fstep_left x y Hs H); [lia|].
    apply (IH y ltac:(lia)). destruct Hr as (s0 & r1 & r2). exists s0. split; [exact r1|]. eapply fruns_step; eauto. }
  eapply (H k); [|exact Hx]. lia.
Qed.
End Proofs.
