(** Panics in the callbacks of a user whose problem is well formed: nothing else panics, what is stored stays right, and the threads that are left
    come to a standstill. *)
From Verif Require Import Spec DdSpec ParSpec BarSpec SortBy ParProofs BarProofs CrashSpec CrashProofs CrashBarProofs.
Open Scope Z_scope.

Lemma put_same {A : Type} i : forall (l : list A) x, nth_error l i = Some x -> put i x l = l.
Proof. induction i; intros [|h l] x H; cbn in *; try discriminate; [injection H as <-; reflexivity|]. rewrite (IHi _ _ H). reflexivity. Qed.
Lemma nat_all_or_one (P : nat -> Prop) m : (forall i, P i \/ ~ P i) -> (forall i, (i < m)%nat -> P i) \/ exists i, (i < m)%nat /\ ~ P i.
Proof.
  intros D. induction m as [|m [IH|(i & h1 & h2)]]; [left; lia| |right; exists i; split; [lia|auto]].
  destruct (D m) as [h|h]; [left; intros i Hi; destruct (Nat.eq_dec i m) as [->|]; [auto|apply IH; lia]|right; exists m; split; [lia|auto]].
Qed.
Lemma in_dec_nat (i : nat) l : In i l \/ ~ In i l.
Proof. destruct (in_dec Nat.eq_dec i l); auto. Qed.

Section Par.
Variable S : Type.
Variable eqb : S -> S -> bool.
Variable cfg : config S.
Variable at_depth : nat -> S -> Prop.
Variable nv : nat -> nat.
Variable C : Z.
Hypothesis G : good_solver S eqb cfg at_depth nv C.
Variables (n m : nat) (Hm : (m <= n)%nat).
Notation cstate := (cstate S cfg).
Notation cstep := (cstep S eqb cfg).
Notation cruns := (cruns S eqb cfg).

Lemma dies_how st i intr t c t' : nth_error (s_threads st) i = Some t -> dies (s_crit st) i intr t c t' ->
  thread_step eqb cfg orc_fwd intr i st = Panic \/ (c = s_crit st /\ t' = t /\ busy S t).
Proof.
  intros Ht H. unfold thread_step. rewrite Ht. inversion H as [E1 E2 E3|E1 E2 E3 E4|q f E1 E2 E3 E4|q E1 E2|q k E1|q v E1 E2 E3|q k f E1 E2 E3 E4|k E1 E2]; subst; rewrite ?E1.
  - rewrite E2. auto.
  - rewrite E2. auto.
  - rewrite E2. auto.
  - right. unfold busy. rewrite E1. auto.
  - right. unfold busy. rewrite E1. auto.
  - left. destruct E1 as [E1|(k & E1 & E4)]; rewrite E1, ?E4, E2; reflexivity.
  - left. rewrite E2, E3. reflexivity.
  - left. rewrite E2. reflexivity.
Qed.

Definition Right (x : cstate) : Prop :=
  reachable S eqb cfg n m (x_st x) /\ NoDup (x_dead x) /\ (forall i, In i (x_dead x) -> (i < m)%nat) /\
  (forall i t, In i (x_dead x) -> nth_error (s_threads (x_st x)) i = Some t -> busy S t) /\ length (s_threads (x_st x)) = m.

Lemma step_length orc intr i st st' : thread_step eqb cfg orc intr i st = Next st' -> length (s_threads st') = length (s_threads st).
Proof.
  unfold thread_step. destruct (nth_error (s_threads st) i) as [t|]; [|discriminate]. intros H.
  assert (L : forall o, lift cfg o i st = Next st' -> length (s_threads st') = length (s_threads st)).
  { intros [[c u]|] h; cbn in h; [|discriminate]. injection h as <-. cbn. apply put_length. }
  destruct (t_pc t); try discriminate; try (exact (L _ H)).
  destruct (finish_node cfg (s_crit st) i k); [|discriminate]. injection H as <-. cbn. rewrite map_length. apply put_length.
Qed.
Lemma step_busy orc intr i st st' j t : thread_step eqb cfg orc intr i st = Next st' -> j <> i -> nth_error (s_threads st') j = Some t ->
  (forall u, nth_error (s_threads st) j = Some u -> busy S u) -> busy S t.
Proof.
  intros H Hj Ht Hb. destruct (nth_error (s_threads st) j) as [u|] eqn:Eu.
  - pose proof (step_others S eqb cfg orc intr i st st' j u H Hj Eu (Hb _ eq_refl)) as E. rewrite E in Ht. injection Ht as <-. auto.
  - exfalso. apply nth_error_None in Eu. pose proof (step_length _ _ _ _ _ H). assert (nth_error (s_threads st') j <> None) by congruence.
    apply nth_error_Some in H1. lia.
Qed.

Lemma cstep_Right stop x y : cstep stop x y \/ cwakes S cfg x y -> Right x -> Right y.
Proof.
  intros [H|H] (R & N & B & W & L).
  - destruct H as [orc intr i st st' dead Ho Hs Hd H|intr i t c t' st dead Hs Hd Ht H]; cbn [x_st x_dead] in *.
    + split; [destruct R as (s0 & R0 & R); exists s0; split; [exact R0|]; eapply reaches_step; [exact R|]; left; exists orc, intr, i; auto|].
      split; [exact N|]. split; [exact B|]. cbn [x_st x_dead]. split; [|rewrite (step_length _ _ _ _ _ H); exact L].
      intros j u Hj Hu. eapply (step_busy orc intr i st st' j u H); [intros ->; auto|exact Hu|intros v Hv; eauto].
    + destruct (dies_how st i intr t c t' Ht H) as [P|(-> & -> & Hb)].
      { exfalso. exact (par_no_panic S eqb cfg at_depth nv C n m st orc_fwd intr i G Hm R (orc_fwd_ok S) P). }
      unfold Right. cbn [x_st x_dead s_threads]. rewrite (put_same i _ _ Ht). destruct st as [c l]. cbn [s_crit s_threads] in *.
      split; [exact R|]. split; [constructor; auto|].
      split; [intros j [<-|Hj]; [|auto]; rewrite <- L; apply nth_error_Some; congruence|].
      split; [|exact L]. intros j u [<-|Hj] Hu; [congruence|]. eauto.
  - destruct H as [(i & d & Hi & E) Hd]. unfold Right. rewrite Hd, E. cbn [s_threads].
    split; [destruct R as (s0 & R0 & R); exists s0; split; [exact R0|]; eapply reaches_step; [exact R|]; right; exists i, d; auto|].
    split; [exact N|]. split; [exact B|]. split; [|rewrite put_length; exact L].
    intros j u Hj Hu. destruct (Nat.eq_dec j i) as [->|Hn]; [specialize (W _ _ Hj Hi); contradiction W|]. rewrite (put_else i _ _ j Hn) in Hu. eauto.
Qed.
Lemma cruns_Right stop x y : cruns stop x y -> Right x -> Right y.
Proof. induction 1; intros HR; auto. eapply cstep_Right; eauto. Qed.
Lemma creaches_Right stop x : creaches S eqb cfg stop n m x -> Right x.
Proof.
  intros (st & E & R). eapply cruns_Right; eauto. split; [exists st; split; [exact E|apply reaches_refl]|]. cbn [x_dead x_st]. split; [constructor|].
  split; [intros i []|]. split; [intros i t []|]. unfold initial in E. destruct (fr_push _ _ _); [|discriminate]. cbn in E. injection E as <-. apply repeat_length.
Qed.

(** The solver behaves as if the dead threads had merely been slow. *)
Lemma crash_reachable stop x : creaches S eqb cfg stop n m x -> reachable S eqb cfg n m (x_st x).
Proof. intros H. exact (proj1 (creaches_Right _ _ H)). Qed.

Lemma crash_dead_length x : Right x -> (length (x_dead x) <= m)%nat.
Proof.
  intros (_ & N & B & _). rewrite <- (seq_length m 0). apply NoDup_incl_length; [exact N|]. intros i Hi. apply in_seq. specialize (B i Hi). lia.
Qed.

Lemma crash_no_infinite stop x : Right x -> ~ exists f : nat -> cstate, f 0%nat = x /\ forall k, cstep stop (f k) (f (Datatypes.S k)).
Proof.
  remember (m - length (x_dead x))%nat as b eqn:Eb. revert x Eb. induction b as [b IH] using (well_founded_induction lt_wf). intros x -> HR (f & E & F).
  assert (HA : forall k, Right (f k)).
  { induction k as [|k IHk]; [rewrite E; exact HR|]. eapply cstep_Right; [left; apply F|exact IHk]. }
  assert (Q : forall k, length (x_dead (f k)) = length (x_dead x) \/ (length (x_dead x) < length (x_dead (f k)))%nat).
  { induction k as [|k IHk]; [rewrite E; auto|]. destruct (F k); cbn in *; lia. }
  assert (Q' : forall k, length (x_dead (f k)) = length (x_dead x)).
  { intros k. destruct (Q k) as [h|h]; [exact h|]. exfalso. pose proof (crash_dead_length _ (HA k)).
    apply (IH (m - length (x_dead (f k)))%nat ltac:(lia) (f k) eq_refl (HA k)). exists (fun j => f (j + k)%nat). split; [reflexivity|]. intros j. apply F. }
  apply (par_no_infinite S eqb cfg at_depth nv C n m (x_st x) G Hm (proj1 HR)). exists (fun k => x_st (f k)). split; [rewrite E; reflexivity|].
  intros k. pose proof (Q' k) as q1. pose proof (Q' (Datatypes.S k)) as q2.
  destruct (F k) as [orc intr i st st' dead Ho Hs Hd H|intr i t c t' st dead Hs Hd Ht H]; cbn in *; [exists orc, intr, i; auto|lia].
Qed.

Lemma crash_standstill x : creaches S eqb cfg false n m x -> x_dead x <> [] -> (forall y, ~ cstep false x y) ->
  (forall i, (i < m)%nat -> In i (x_dead x)) \/ deserted x.
Proof.
  intros Hx Hd Hs. pose proof (creaches_Right _ _ Hx) as (R & N & B & W & L). pose proof (creaches_Inv S eqb cfg n m x Hx) as HI.
  destruct (nat_all_or_one (fun i => In i (x_dead x)) m (fun i => in_dec_nat i _)) as [h|(a & Ha & Hn)]; [left; exact h|right].
  split; [|assert (Hl : nth_error (s_threads (x_st x)) a <> None) by (apply nth_error_Some; lia);
    destruct (nth_error (s_threads (x_st x)) a) as [t|] eqn:E; [|congruence]; exists a, t; auto].
  intros i t Ht. destruct (in_dec_nat i (x_dead x)) as [h|h]; [left; exact h|right].
  pose proof (par_no_panic S eqb cfg at_depth nv C n m (x_st x) orc_fwd false i G Hm R (orc_fwd_ok S)) as NP.
  destruct (thread_step eqb cfg orc_fwd false i (x_st x)) as [st'| |] eqn:E; [|congruence|].
  - exfalso. destruct x as [st dead]. refine (Hs _ (cstep_moves S eqb cfg false orc_fwd false i st st' dead (orc_fwd_ok S) _ h E)). discriminate.
  - unfold thread_step in E. rewrite Ht in E. destruct (t_pc t) eqn:Ep; try reflexivity; exfalso.
    all: try (match type of E with lift _ ?o _ _ = _ => destruct o as [[? ?]|]; cbn in E; discriminate end).
    + match type of E with match ?o with _ => _ end = _ => destruct o; discriminate end.
    + destruct (x_dead x) as [|j l] eqn:Ej; [congruence|]. assert (Hj : In j (x_dead x)) by (rewrite Ej; left; reflexivity). rewrite <- Ej in *.
      assert (Hjl : nth_error (s_threads (x_st x)) j <> None) by (apply nth_error_Some; rewrite L; apply B; exact Hj).
      destruct (nth_error (s_threads (x_st x)) j) as [u|] eqn:Eu; [|congruence]. pose proof (W j u Hj Eu) as Hb. apply busyb_busy in Hb.
      rewrite (over_nobody S cfg m x HI (i_over _ _ _ _ HI t (nth_error_In _ _ Ht) Ep) j u Eu) in Hb. discriminate.
Qed.

End Par.

Section Bar.
Variable S : Type.
Variable eqb : S -> S -> bool.
Variable cfg : config S.
Variable at_depth : nat -> S -> Prop.
Variable nv : nat -> nat.
Variable C : Z.
Hypothesis G : good_solver S eqb cfg at_depth nv C.
Variables (n m : nat) (Hm : (m <= n)%nat).
Notation bcstate := (bcstate S cfg).
Notation bcstep := (bcstep S eqb cfg).
Notation bcruns := (bcruns S eqb cfg).

Lemma bdies_how st i intr t k T t' : nth_error (q_threads st) i = Some t -> bdies eqb (q_crit st) (q_table st) i intr (negb (locked cfg st)) t k T t' ->
  bthread_step eqb cfg orc_fwd intr i st = BPanic \/ (k = q_crit st /\ T = q_table st /\ t' = t /\ bbusy S t).
Proof.
  intros Ht H. unfold bthread_step. rewrite Ht.
  inversion H as [E1 E2|E1 E2 E3 E4|q o E1 E2|q E1 E2 E3|q l T' ubs o E1 E2 E3 E4 E5|q E1|q d v E0 E1 E2 E3|q x d f o E0 E1 E2 E3 E4|dp x E0 E1 E2]; subst.
  - left. rewrite E1. destruct E2 as [->|(-> & E2 & ->)]; [reflexivity|]. rewrite E2. reflexivity.
  - left. rewrite E1, E2, E3. reflexivity.
  - left. rewrite E1, E2. reflexivity.
  - left. rewrite E1, E2. reflexivity.
  - left. rewrite E1, E2. reflexivity.
  - right. split; [reflexivity|]. split; [reflexivity|]. split; [reflexivity|]. destruct E1 as [(p & E)|(x & p & E)]; unfold bbusy; rewrite E; auto.
  - left. apply negb_true_iff in E0. destruct E1 as [E1|(x & E1 & E4)]; rewrite E1, E0, ?E4, E2; reflexivity.
  - left. apply negb_true_iff in E0. rewrite E1, E0, E2, E3. reflexivity.
  - left. apply negb_true_iff in E0. rewrite E1, E0, E2. reflexivity.
Qed.

Definition BRight (x : bcstate) : Prop :=
  breachable S eqb cfg n m (z_st x) /\ NoDup (z_dead x) /\ (forall i, In i (z_dead x) -> (i < m)%nat) /\
  (forall i t, In i (z_dead x) -> nth_error (q_threads (z_st x)) i = Some t -> bbusy S t) /\ length (q_threads (z_st x)) = m.

Lemma bstep_length orc intr i st st' : bthread_step eqb cfg orc intr i st = BNext st' -> length (q_threads st') = length (q_threads st).
Proof.
  unfold bthread_step. destruct (nth_error (q_threads st) i) as [t|]; [|discriminate].
  assert (L : forall k T u, goto cfg st i k T u = BNext st' -> length (q_threads st') = length (q_threads st)).
  { intros k T u h. unfold goto in h. injection h as <-. cbn. apply put_length. }
  assert (L2 : forall o, (if locked cfg st then BDisabled else match o with None => BPanic | Some (k', t') => goto cfg st i k' (q_table st) t' end) = BNext st' ->
    length (q_threads st') = length (q_threads st)).
  { intros [[k u]|]; destruct (locked cfg st); try discriminate. apply L. }
  assert (L3 : forall p f d, compile_step eqb cfg st i p f d = BNext st' -> length (q_threads st') = length (q_threads st)).
  { intros p f d. unfold compile_step. destruct (access eqb p (q_table st)) as [[p' T']|]; [apply L|discriminate]. }
  destruct (u_pc t) as [| | |q|q|q|q p|q x|q x p|dp x|]; try discriminate; try (intros H; first [exact (L2 _ H)|exact (L2 (Some (_, _)) H)]).
  - destruct (clean_turn cfg (q_crit st) (q_table st)) as [[[k' T']|]|]; [apply L| |discriminate]. destruct (decide cfg (q_crit st) intr) as [[k' p]|]; [apply L|discriminate].
  - destruct (try_node eqb cfg (q_crit st) (q_table st) q) as [[k' p]|]; [apply L|discriminate].
  - destruct (take_node eqb cfg (q_crit st) (q_table st) i q) as [[k' T']|]; [apply L|discriminate].
  - destruct p; intros H; first [exact (L2 _ H)|exact (L3 _ _ _ H)].
  - destruct p; intros H; first [exact (L2 _ H)|exact (L3 _ _ _ H)].
  - destruct (locked cfg st); [discriminate|]. destruct (bfinish_node cfg (q_crit st) i dp x); [|discriminate]. intros H. injection H as <-. cbn. rewrite map_length. apply put_length.
Qed.
Lemma bstep_busy orc intr i st st' j t : bthread_step eqb cfg orc intr i st = BNext st' -> j <> i -> nth_error (q_threads st') j = Some t ->
  (forall u, nth_error (q_threads st) j = Some u -> bbusy S u) -> bbusy S t.
Proof.
  intros H Hj Ht Hb. destruct (nth_error (q_threads st) j) as [u|] eqn:Eu.
  - pose proof (bstep_others S eqb cfg orc intr i st st' j u H Hj Eu (Hb _ eq_refl)) as E. rewrite E in Ht. injection Ht as <-. auto.
  - exfalso. apply nth_error_None in Eu. pose proof (bstep_length _ _ _ _ _ H). assert (nth_error (q_threads st') j <> None) by congruence.
    apply nth_error_Some in H1. lia.
Qed.

Lemma bcstep_Right stop x y : bcstep stop x y \/ bcwakes S cfg x y -> BRight x -> BRight y.
Proof.
  intros [H|H] (R & N & B & W & L).
  - destruct H as [orc intr i st st' dead Ho Hs Hd H|intr i t k T t' st dead Hs Hd Ht H]; cbn [z_st z_dead] in *.
    + split; [destruct R as (s0 & R0 & R); exists s0; split; [exact R0|]; eapply breaches_step; [exact R|]; left; exists orc, intr, i; auto|].
      split; [exact N|]. split; [exact B|]. cbn [z_st z_dead]. split; [|rewrite (bstep_length _ _ _ _ _ H); exact L].
      intros j u Hj Hu. eapply (bstep_busy orc intr i st st' j u H); [intros ->; auto|exact Hu|intros v Hv; eauto].
    + destruct (bdies_how st i intr t k T t' Ht H) as [P|(-> & -> & -> & Hb)].
      { exfalso. exact (bar_no_panic S eqb cfg at_depth nv C n m st orc_fwd intr i G Hm R (orc_fwd_ok S) P). }
      unfold BRight. cbn [z_st z_dead q_threads]. rewrite (put_same i _ _ Ht). destruct st as [k T l]. cbn [q_crit q_table q_threads] in *.
      split; [exact R|]. split; [constructor; auto|].
      split; [intros j [<-|Hj]; [|auto]; rewrite <- L; apply nth_error_Some; congruence|].
      split; [|exact L]. intros j u [<-|Hj] Hu; [congruence|]. eauto.
  - destruct H as [(i & d & Hi & E) Hd]. unfold BRight. rewrite Hd, E. cbn [q_threads].
    split; [destruct R as (s0 & R0 & R); exists s0; split; [exact R0|]; eapply breaches_step; [exact R|]; right; exists i, d; auto|].
    split; [exact N|]. split; [exact B|]. split; [|rewrite put_length; exact L].
    intros j u Hj Hu. destruct (Nat.eq_dec j i) as [->|Hn]; [specialize (W _ _ Hj Hi); contradiction W|]. rewrite (put_else i _ _ j Hn) in Hu. eauto.
Qed.
Lemma bcruns_Right stop x y : bcruns stop x y -> BRight x -> BRight y.
Proof. induction 1; intros HR; auto. eapply bcstep_Right; eauto. Qed.
Lemma bcreaches_Right stop x : bcreaches S eqb cfg stop n m x -> BRight x.
Proof.
  intros (st & E & R). eapply bcruns_Right; eauto. split; [exists st; split; [exact E|apply breaches_refl]|]. cbn [z_dead z_st]. split; [constructor|].
  split; [intros i []|]. split; [intros i t []|]. unfold binitial in E. destruct (fr_push _ _ _); [|discriminate].
  destruct (upd _ 0 1%nat); [|discriminate]. injection E as <-. apply repeat_length.
Qed.
Lemma bcrash_reachable stop x : bcreaches S eqb cfg stop n m x -> breachable S eqb cfg n m (z_st x).
Proof. intros H. exact (proj1 (bcreaches_Right _ _ H)). Qed.

Lemma bcrash_dead_length x : BRight x -> (length (z_dead x) <= m)%nat.
Proof.
  intros (_ & N & B & _). rewrite <- (seq_length m 0). apply NoDup_incl_length; [exact N|]. intros i Hi. apply in_seq. specialize (B i Hi). lia.
Qed.
Lemma bcrash_at_work stop x : bcreaches S eqb cfg stop n m x -> z_dead x <> [] -> bdied_at_work x.
Proof.
  intros Hx Hd. pose proof (bcreaches_Right _ _ Hx) as (R & N & B & W & L). destruct (z_dead x) as [|j l] eqn:Ej; [congruence|].
  assert (Hj : In j (z_dead x)) by (rewrite Ej; left; reflexivity). rewrite <- Ej in *.
  assert (Hjl : nth_error (q_threads (z_st x)) j <> None) by (apply nth_error_Some; rewrite L; apply B; exact Hj).
  destruct (nth_error (q_threads (z_st x)) j) as [u|] eqn:Eu; [|congruence]. exists j, u. eauto.
Qed.
Lemma bcrash_all_or_none x y : bcreaches S eqb cfg false n m x -> z_dead x <> [] -> bcruns false x y -> bended y -> forall i, (i < m)%nat -> In i (z_dead y).
Proof. intros Hx Hd. exact (ball_or_none S eqb cfg n m x y Hx (bcrash_at_work _ _ Hx Hd)). Qed.

Lemma bcrash_no_infinite stop x : BRight x -> ~ exists f : nat -> bcstate, f 0%nat = x /\ forall k, bcstep stop (f k) (f (Datatypes.S k)).
Proof.
  remember (m - length (z_dead x))%nat as b eqn:Eb. revert x Eb. induction b as [b IH] using (well_founded_induction lt_wf). intros x -> HR (f & E & F).
  assert (HA : forall k, BRight (f k)).
  { induction k as [|k IHk]; [rewrite E; exact HR|]. eapply bcstep_Right; [left; apply F|exact IHk]. }
  assert (Q : forall k, length (z_dead (f k)) = length (z_dead x) \/ (length (z_dead x) < length (z_dead (f k)))%nat).
  { induction k as [|k IHk]; [rewrite E; auto|]. destruct (F k); cbn in *; lia. }
  assert (Q' : forall k, length (z_dead (f k)) = length (z_dead x)).
  { intros k. destruct (Q k) as [h|h]; [exact h|]. exfalso. pose proof (bcrash_dead_length _ (HA k)).
    apply (IH (m - length (z_dead (f k)))%nat ltac:(lia) (f k) eq_refl (HA k)). exists (fun j => f (j + k)%nat). split; [reflexivity|]. intros j. apply F. }
  apply (bar_no_infinite S eqb cfg at_depth nv C n m (z_st x) G Hm (proj1 HR)). exists (fun k => z_st (f k)). split; [rewrite E; reflexivity|].
  intros k. pose proof (Q' k) as q1. pose proof (Q' (Datatypes.S k)) as q2.
  destruct (F k) as [orc intr i st st' dead Ho Hs Hd H|intr i t k' T t' st dead Hs Hd Ht H]; cbn in *; [exists orc, intr, i; auto|lia].
Qed.

(** A thread is held up only by another that has the lock, which moves. *)
Lemma holder_moves x j u : bcreaches S eqb cfg false n m x -> nth_error (q_threads (z_st x)) j = Some u -> holds u = true -> exists y, bcstep false x y.
Proof.
  intros Hx Hu Hh. pose proof (bcreaches_Right _ _ Hx) as (R & N & B & W & L).
  assert (Hj : ~ In j (z_dead x)) by (intros Hj; specialize (W _ _ Hj Hu); unfold bbusy, holds in *; destruct (u_pc u); discriminate || contradiction).
  pose proof (bar_no_panic S eqb cfg at_depth nv C n m (z_st x) orc_fwd false j G Hm R (orc_fwd_ok S)) as NP.
  destruct (bthread_step eqb cfg orc_fwd false j (z_st x)) as [st'| |] eqn:E; [|congruence|].
  - exists (mk_bcs st' (z_dead x)). destruct x as [st dead]. apply (bcstep_moves S eqb cfg false orc_fwd false j st st' dead (orc_fwd_ok S)); [discriminate|exact Hj|exact E].
  - exfalso. unfold bthread_step in E. rewrite Hu in E. unfold holds in Hh. destruct (u_pc u) as [| | |q|q|q|q p|q x'|q x' p|dp x'|]; try discriminate.
    + destruct (clean_turn cfg (q_crit (z_st x)) (q_table (z_st x))) as [[[k' T']|]|]; [discriminate| |discriminate]. destruct (decide cfg (q_crit (z_st x)) false) as [[k' p]|]; discriminate.
    + destruct (try_node eqb cfg (q_crit (z_st x)) (q_table (z_st x)) q) as [[k' p]|]; discriminate.
    + destruct (take_node eqb cfg (q_crit (z_st x)) (q_table (z_st x)) j q) as [[k' T']|]; discriminate.
Qed.

Lemma bcrash_standstill x : bcreaches S eqb cfg false n m x -> z_dead x <> [] -> (forall y, ~ bcstep false x y) ->
  (forall i, (i < m)%nat -> In i (z_dead x)) \/ bdeserted x.
Proof.
  intros Hx Hd Hs. pose proof (bcreaches_Right _ _ Hx) as (R & N & B & W & L). pose proof (bcreaches_Inv S eqb cfg n m x Hx) as HI.
  destruct (nat_all_or_one (fun i => In i (z_dead x)) m (fun i => in_dec_nat i _)) as [h|(a & Ha & Hn)]; [left; exact h|right].
  split; [|assert (Hl : nth_error (q_threads (z_st x)) a <> None) by (apply nth_error_Some; lia);
    destruct (nth_error (q_threads (z_st x)) a) as [t|] eqn:E; [|congruence]; exists a, t; auto].
  intros i t Ht. destruct (in_dec_nat i (z_dead x)) as [h|h]; [left; exact h|right].
  assert (Hk : locked cfg (z_st x) = false).
  { destruct (locked cfg (z_st x)) eqn:El; [|reflexivity]. exfalso. unfold locked in El. apply existsb_exists in El. destruct El as (u & Hu & Hh).
    apply In_nth_error in Hu. destruct Hu as [j Hu]. destruct (holder_moves x j u Hx Hu Hh) as [y Hy]. exact (Hs y Hy). }
  pose proof (bar_no_panic S eqb cfg at_depth nv C n m (z_st x) orc_fwd false i G Hm R (orc_fwd_ok S)) as NP.
  destruct (bthread_step eqb cfg orc_fwd false i (z_st x)) as [st'| |] eqn:E; [|congruence|].
  - exfalso. destruct x as [st dead]. refine (Hs _ (bcstep_moves S eqb cfg false orc_fwd false i st st' dead (orc_fwd_ok S) _ h E)). discriminate.
  - destruct (u_pc t) eqn:Ep; try reflexivity; exfalso.
    all: try (destruct (holder_moves x i t Hx Ht) as [y Hy]; [unfold holds; rewrite Ep; reflexivity|]; exact (Hs y Hy)).
    all: try (unfold bthread_step in E; rewrite Ht, Ep, Hk in E; unfold goto, compile_step in E;
      repeat match type of E with
             | BNext _ = _ => discriminate | BPanic = _ => discriminate
             | match ?o with _ => _ end = _ => destruct o end; discriminate).
    destruct (bcrash_at_work _ _ Hx Hd) as (j & u & Hj & Eu & Hb). apply bbusyb_busy in Hb.
    rewrite (proj1 (bover_nobody S cfg m x HI (j_over _ _ _ _ HI t (nth_error_In _ _ Ht) Ep) j u Eu)) in Hb. discriminate.
Qed.

End Bar.

Section Ends.
Variable S : Type.
Variable eqb : S -> S -> bool.
Variable cfg : config S.
Variable at_depth : nat -> S -> Prop.
Variable nv : nat -> nat.
Variable C : Z.
Hypothesis G : good_solver S eqb cfg at_depth nv C.
Variables (n m : nat) (Hm : (m <= n)%nat).

Lemma cruns_trans stop x y z : cruns S eqb cfg stop x y -> cruns S eqb cfg stop y z -> cruns S eqb cfg stop x z.
Proof. intros H1 H2. revert H1. induction H2 as [|y z w H IH Hs]; intros H1; [exact H1|]. exact (cruns_step S eqb cfg stop x z w (IH H1) Hs). Qed.
Lemma bcruns_trans stop x y z : bcruns S eqb cfg stop x y -> bcruns S eqb cfg stop y z -> bcruns S eqb cfg stop x z.
Proof. intros H1 H2. revert H1. induction H2 as [|y z w H IH Hs]; intros H1; [exact H1|]. exact (bcruns_step S eqb cfg stop x z w (IH H1) Hs). Qed.
Lemma dead_stay stop x y : cruns S eqb cfg stop x y -> x_dead x <> [] -> x_dead y <> [].
Proof. induction 1 as [|x y z H IH [H1|[_ H1]]]; auto; intros Hd; specialize (IH Hd); [inversion H1; subst; cbn in *; congruence|congruence]. Qed.
Lemma bdead_stay stop x y : bcruns S eqb cfg stop x y -> z_dead x <> [] -> z_dead y <> [].
Proof. induction 1 as [|x y z H IH [H1|[_ H1]]]; auto; intros Hd; specialize (IH Hd); [inversion H1; subst; cbn in *; congruence|congruence]. Qed.

Lemma left_waiting x : creaches S eqb cfg false n m x -> x_dead x <> [] ->
  (~ exists f : nat -> cstate S cfg, f 0%nat = x /\ forall k, cstep S eqb cfg false (f k) (f (Datatypes.S k))) /\
  (forall y, cruns S eqb cfg false x y -> (forall z, ~ cstep S eqb cfg false y z) ->
     (forall i, (i < m)%nat -> In i (x_dead y)) \/ (deserted y /\ ~ ended y /\ forall z, ~ cstep S eqb cfg true y z)).
Proof.
  intros Hx Hd. split; [exact (crash_no_infinite S eqb cfg at_depth nv C G n m Hm false x (creaches_Right S eqb cfg at_depth nv C G n m Hm false x Hx))|].
  intros y Hr Hs. assert (Hy : creaches S eqb cfg false n m y) by (destruct Hx as (st & E & R); exists st; split; [exact E|eapply cruns_trans; eauto]).
  destruct (crash_standstill S eqb cfg at_depth nv C G n m Hm y Hy (dead_stay _ _ _ Hr Hd) Hs) as [h|h]; [left; exact h|right].
  split; [exact h|]. split; [exact (deserted_not_ended S cfg y h)|]. intros z. exact (deserted_stuck S eqb cfg true y z h).
Qed.
Lemma bleft_waiting x : bcreaches S eqb cfg false n m x -> z_dead x <> [] ->
  (~ exists f : nat -> bcstate S cfg, f 0%nat = x /\ forall k, bcstep S eqb cfg false (f k) (f (Datatypes.S k))) /\
  (forall y, bcruns S eqb cfg false x y -> (forall z, ~ bcstep S eqb cfg false y z) ->
     (forall i, (i < m)%nat -> In i (z_dead y)) \/ (bdeserted y /\ ~ bended y /\ forall z, ~ bcstep S eqb cfg true y z)).
Proof.
  intros Hx Hd. split; [exact (bcrash_no_infinite S eqb cfg at_depth nv C G n m Hm false x (bcreaches_Right S eqb cfg at_depth nv C G n m Hm false x Hx))|].
  intros y Hr Hs. assert (Hy : bcreaches S eqb cfg false n m y) by (destruct Hx as (st & E & R); exists st; split; [exact E|eapply bcruns_trans; eauto]).
  destruct (bcrash_standstill S eqb cfg at_depth nv C G n m Hm y Hy (bdead_stay _ _ _ Hr Hd) Hs) as [h|h]; [left; exact h|right].
  split; [exact h|]. split; [exact (bdeserted_not_ended S cfg y h)|]. intros z. exact (bdeserted_stuck S eqb cfg true y z h).
Qed.

Lemma crash_solution stop x : creaches S eqb cfg stop n m x ->
  (best_solution_of cfg (x_st x) = None /\ best_value_of cfg (x_st x) = None /\ lower_bound_of cfg (x_st x) = IMIN) \/
  (exists l v, best_solution_of cfg (x_st x) = Some l /\ best_value_of cfg (x_st x) = Some v /\ lower_bound_of cfg (x_st x) = v /\
     reported_solution S (cf_pb cfg) nv l v).
Proof. intros H. exact (par_solution S eqb cfg at_depth nv C n m (x_st x) G Hm (crash_reachable S eqb cfg at_depth nv C G n m Hm stop x H)). Qed.
Lemma bcrash_solution stop x : bcreaches S eqb cfg stop n m x ->
  (bbest_solution cfg (z_st x) = None /\ bbest_value cfg (z_st x) = None /\ blower_bound cfg (z_st x) = IMIN) \/
  (exists l v, bbest_solution cfg (z_st x) = Some l /\ bbest_value cfg (z_st x) = Some v /\ blower_bound cfg (z_st x) = v /\
     reported_solution S (cf_pb cfg) nv l v).
Proof. intros H. exact (bar_solution S eqb cfg at_depth nv C n m (z_st x) G Hm (bcrash_reachable S eqb cfg at_depth nv C G n m Hm stop x H)). Qed.
End Ends.
