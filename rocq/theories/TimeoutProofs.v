(** Proofs of the statements of PropTimeout.v. *)
From Verif Require Import Base Timeout TimeoutSpec.
From Coq Require Import Lia ZArith PeanoNat.
Open Scope nat_scope.

Section Proofs.
Variable duration : nat.
Variables action at_exit : behaviour.
Variable t0 : nat.
Notation reaches := (preaches duration action at_exit t0).
Notation step := (pstep duration action at_exit t0).
Notation goes := (pgoes duration action at_exit t0).
Notation mstep := (main_step action).
Notation tstep := (timer_step duration at_exit t0).

Definition goes_on (b : behaviour) (k : nat) : Prop := forall j, j < k -> b j = GoesOn.
Definition main_ok (m : main_pc) : Prop :=
  match m with MAction k => goes_on action k | _ => exists k, ends Returns action k end.
Definition mutex_ok (m : main_pc) (t : timer_pc) (x : mutex) : Prop :=
  match x with
  | Free => m <> MExit /\ (t = TSleep \/ t = TLock)
  | HeldByMain => m = MExit /\ (t = TSleep \/ t = TLock)
  | HeldByTimer => m <> MExit /\ ((exists k, t = TAtExit k /\ goes_on at_exit k) \/ (t = TExit /\ exists k, ends Returns at_exit k))
  | Poisoned => m <> MExit /\ t = TDead /\ exists k, ends Panics at_exit k
  end.
Definition code_ok (p : process) : Prop :=
  match p_code p with
  | None => True
  | Some c => (c = 0%Z /\ p_main p = MExit) \/ (c = 1%Z /\ p_timer p = TExit) \/
      (c = 101%Z /\ ((exists k, p_main p = MAction k /\ ends Panics action k) \/ (p_main p = MLock /\ p_mutex p = Poisoned)))
  end.
Definition pinv (p : process) : Prop :=
  main_ok (p_main p) /\ mutex_ok (p_main p) (p_timer p) (p_mutex p) /\ (p_timer p <> TSleep -> t0 + duration <= p_clock p) /\ code_ok p.

Lemma goes_on_S b k : goes_on b k -> b k = GoesOn -> goes_on b (S k).
Proof. intros H Hk j Hj. destruct (Nat.eq_dec j k) as [->|]; [exact Hk|apply H; lia]. Qed.

Lemma main_inv p p' : pinv p -> mstep p = Some p' -> pinv p'.
Proof.
  intros (H1 & H2 & H3 & H4) H. destruct p as [c m t x code]. cbn [p_main p_timer p_mutex p_clock p_code] in *. unfold main_step in H.
  destruct code; [discriminate|]. destruct m as [k| |].
  - destruct (action k) eqn:E; injection H as <-.
    + split; [exact (goes_on_S _ _ H1 E)|]. split; [|split; [exact H3|exact I]]. destruct x; cbn in *; intuition discriminate.
    + split; [exists k; split; [exact E|exact H1]|]. split; [|split; [exact H3|exact I]]. destruct x; cbn in *; intuition discriminate.
    + split; [exact H1|]. split; [exact H2|]. split; [exact H3|]. unfold code_ok. cbn. right. right. split; [reflexivity|]. left. exists k. split; [reflexivity|]. split; [exact E|exact H1].
  - destruct x; try discriminate; injection H as <-.
    + split; [exact H1|]. split; [|split; [exact H3|exact I]]. cbn in *. intuition.
    + split; [exact H1|]. split; [exact H2|]. split; [exact H3|]. unfold code_ok. cbn. auto 6.
  - injection H as <-. split; [exact H1|]. split; [exact H2|]. split; [exact H3|]. unfold code_ok. cbn. auto.
Qed.
Lemma timer_inv p p' : pinv p -> tstep p = Some p' -> pinv p'.
Proof.
  intros (H1 & H2 & H3 & H4) H. destruct p as [c m t x code]. cbn [p_main p_timer p_mutex p_clock p_code] in *. unfold timer_step in H.
  destruct code; [discriminate|]. destruct t as [| |k| |].
  - destruct (Nat.leb_spec (t0 + duration) c) as [Hc|]; [|discriminate]. injection H as <-.
    split; [exact H1|]. split; [|split; [intros _; exact Hc|exact I]]. destruct x; cbn in *; [destruct H2; auto|destruct H2; auto|destruct H2 as (_ & [(k & E & _)|(E & _)]); discriminate|destruct H2 as (_ & E & _); discriminate].
  - assert (Hc : t0 + duration <= c) by (apply H3; discriminate). destruct x; try discriminate; injection H as <-.
    + split; [exact H1|]. split; [|split; [intros _; exact Hc|exact I]]. cbn in *. split; [apply H2|]. left. exists 0. split; [reflexivity|]. intros j Hj. lia.
    + exfalso. destruct H2 as (_ & H2 & _). discriminate.
  - assert (Hc : t0 + duration <= c) by (apply H3; discriminate).
    assert (Hx : x = HeldByTimer /\ m <> MExit /\ goes_on at_exit k).
    { destruct x; cbn in H2; try (destruct H2 as (_ & [H2|H2]); discriminate).
      - destruct H2 as (Hm & [(k' & E & Hg)|(E & _)]); [injection E as <-; auto|discriminate].
      - destruct H2 as (_ & H2 & _). discriminate. }
    destruct Hx as (-> & Hm & Hg). destruct (at_exit k) eqn:E; injection H as <-; (split; [exact H1|]); (split; [|split; [intros _; exact Hc|exact I]]); cbn.
    + split; [exact Hm|]. left. exists (S k). split; [reflexivity|]. exact (goes_on_S _ _ Hg E).
    + split; [exact Hm|]. right. split; [reflexivity|]. exists k. split; [exact E|exact Hg].
    + split; [exact Hm|]. split; [reflexivity|]. exists k. split; [exact E|exact Hg].
  - injection H as <-. split; [exact H1|]. split; [exact H2|]. split; [exact H3|]. unfold code_ok. cbn. auto.
  - discriminate.
Qed.
Lemma tick_inv p : pinv p -> pinv (tick p).
Proof.
  intros (H1 & H2 & H3 & H4). unfold pinv, tick, code_ok in *. cbn. split; [exact H1|]. split; [exact H2|]. split; [|exact H4]. intros H. specialize (H3 H). lia.
Qed.
Lemma step_inv p p' : pinv p -> step p p' -> pinv p'.
Proof. intros H Hs. destruct Hs; [eapply main_inv|eapply timer_inv|apply tick_inv]; eauto. Qed.
Lemma start_inv : pinv (started t0).
Proof.
  unfold pinv, started. cbn. split; [intros j Hj; lia|]. split; [split; [discriminate|auto]|]. split; [congruence|exact I].
Qed.
Lemma reach_inv p : reaches p -> pinv p.
Proof. induction 1; [apply start_inv|eapply step_inv; eauto]. Qed.
Lemma goes_reach p p' : reaches p -> goes p p' -> reaches p'.
Proof. intros H Hg. induction Hg as [|p p1 p2 Hg IH Hs]; [exact H|]. exact (pr_step _ _ _ _ _ _ (IH H) Hs). Qed.

(** * Exit codes *)
Lemma to_codes p c : reaches p -> p_code p = Some c -> c = 0%Z \/ c = 1%Z \/ c = 101%Z.
Proof. intros H E. destruct (reach_inv p H) as (_ & _ & _ & H4). unfold code_ok in H4. rewrite E in H4. intuition. Qed.
Lemma to_zero p : reaches p -> p_code p = Some 0%Z -> action_done p /\ (exists k, ends Returns action k) /\ ~ at_exit_called p.
Proof.
  intros H E. destruct (reach_inv p H) as (H1 & H2 & _ & H4). unfold code_ok in H4. rewrite E in H4.
  destruct H4 as [(_ & Hm)|[(Hx & _)|(Hx & _)]]; try discriminate. unfold action_done. rewrite Hm in *. split; [auto|]. split; [exact H1|].
  assert (Ht : p_timer p = TSleep \/ p_timer p = TLock) by (destruct (p_mutex p); cbn in H2; intuition congruence).
  intros [(k & Hk)|[Hk|Hk]]; rewrite Hk in Ht; destruct Ht; discriminate.
Qed.
Lemma to_one p : reaches p -> p_code p = Some 1%Z -> t0 + duration <= p_clock p /\ at_exit_done p /\ exists k, ends Returns at_exit k.
Proof.
  intros H E. destruct (reach_inv p H) as (H1 & H2 & H3 & H4). unfold code_ok in H4. rewrite E in H4.
  destruct H4 as [(Hx & _)|[(_ & Ht)|(Hx & _)]]; try discriminate. rewrite Ht in *. split; [apply H3; discriminate|]. split; [exact Ht|].
  destruct (p_mutex p); cbn in H2.
  - destruct H2 as (_ & [H2|H2]); discriminate.
  - destruct H2 as (_ & [H2|H2]); discriminate.
  - destruct H2 as (_ & [(k & Hk & _)|(_ & Hk)]); [discriminate|exact Hk].
  - destruct H2 as (_ & H2 & _). discriminate.
Qed.
Lemma to_101 p : reaches p -> p_code p = Some 101%Z ->
  (exists k, ends Panics action k) \/ (exists k, ends Panics at_exit k) /\ action_done p /\ t0 + duration <= p_clock p.
Proof.
  intros H E. destruct (reach_inv p H) as (H1 & H2 & H3 & H4). unfold code_ok in H4. rewrite E in H4.
  destruct H4 as [(Hx & _)|[(Hx & _)|(_ & [(k & _ & Hk)|(Hm & Hx)])]]; try discriminate; [left; exists k; exact Hk|]. right.
  rewrite Hx in H2. destruct H2 as (_ & Ht & Hk). split; [exact Hk|]. split; [left; exact Hm|]. apply H3. rewrite Ht. discriminate.
Qed.
Lemma to_called p : reaches p -> at_exit_called p -> t0 + duration <= p_clock p /\ p_code p <> Some 0%Z.
Proof.
  intros H Hc. split.
  - apply (reach_inv p H). destruct Hc as [(k & ->)|[->| ->]]; discriminate.
  - intros E. apply (to_zero p H E). exact Hc.
Qed.
Lemma to_once p p' : at_exit_called p -> step p p' -> at_exit_called p'.
Proof.
  intros Hc Hs. destruct Hs as [[c m t x code] p' H|[c m t x code] p' H|[c m t x code]]; unfold at_exit_called in *; cbn in *; [| |exact Hc].
  - destruct code; [discriminate|]. destruct m; [destruct (action k)|destruct x|]; try discriminate; injection H as <-; exact Hc.
  - destruct code; [discriminate|]. destruct Hc as [(k & ->)|[->| ->]].
    + destruct (at_exit k); injection H as <-; cbn; eauto.
    + injection H as <-. cbn. auto.
    + discriminate.
Qed.
Lemma to_not_again p p' : at_exit_called p -> step p p' -> at_exit_called p' /\ (p_timer p' = TAtExit 0 -> p_timer p = TAtExit 0).
Proof.
  intros H Hs. split; [exact (to_once p p' H Hs)|]. intros E. destruct Hs as [p p' Hm|p p' Ht|p].
  - destruct p as [c m t x code]. cbn in *. destruct code; [discriminate|]. destruct m as [k| |]; [destruct (action k)|destruct x|]; try discriminate; injection Hm as <-; exact E.
  - destruct p as [c m t x code]. destruct H as [(k & H)|[H|H]]; cbn in H; subst t; cbn in Ht; destruct code; try discriminate.
    + destruct (at_exit k); injection Ht as <-; cbn in E; discriminate.
    + injection Ht as <-. cbn in E. discriminate.
  - exact E.
Qed.

(** * Progress *)
Lemma to_moves p : reaches p -> p_code p = None -> mstep p <> None \/ tstep p <> None.
Proof.
  intros H E. destruct (reach_inv p H) as (_ & H2 & _). destruct p as [c m t x code]. cbn in *. subst code. destruct m as [k| |]; [left; destruct (action k); discriminate| |left; discriminate].
  destruct x; try (left; discriminate); right.
  - destruct H2. discriminate.
  - destruct H2 as (_ & [(k & -> & _)|(-> & _)]); [destruct (at_exit k)|]; discriminate.
Qed.

Section Fair.
Variable f : nat -> process.
Hypothesis F : fair_run duration action at_exit t0 f.

Lemma run_reach n : reaches (f n).
Proof. induction n; [rewrite (fr_start _ _ _ _ _ F); constructor|]. eapply pr_step; [exact IHn|]. apply (fr_step _ _ _ _ _ F). Qed.
Lemma clock_step p p' : step p p' -> p_clock p <= p_clock p'.
Proof.
  intros Hs. destruct Hs as [[c m t x code] p' H|[c m t x code] p' H|[c m t x code]]; cbn in *; [| |lia].
  - destruct code; [discriminate|]. destruct m; [destruct (action k)|destruct x|]; try discriminate; injection H as <-; cbn; lia.
  - destruct code; [discriminate|]. destruct t; [destruct (_ <=? _)|destruct x|destruct (at_exit k)| |]; try discriminate; injection H as <-; cbn; lia.
Qed.
Lemma clock_le n m : n <= m -> p_clock (f n) <= p_clock (f m).
Proof. induction 1; [lia|]. etransitivity; [exact IHle|]. apply clock_step, (fr_step _ _ _ _ _ F). Qed.
Lemma code_step p p' c : step p p' -> p_code p = Some c -> p_code p' = Some c.
Proof.
  intros Hs E. destruct Hs as [[x1 m t x code] p' H|[x1 m t x code] p' H|[x1 m t x code]]; cbn in *; [subst; discriminate..|exact E].
Qed.
Lemma code_le n m c : n <= m -> p_code (f n) = Some c -> p_code (f m) = Some c.
Proof. induction 1; [auto|]. intros E. eapply code_step; [apply (fr_step _ _ _ _ _ F)|auto]. Qed.

(** Steps of the other thread or of time leave a thread where it is. *)
Lemma timer_kept p p' : step p p' -> p_timer p' = p_timer p /\ p_code p' = None \/ p_code p' <> None \/ tstep p = Some p'.
Proof.
  intros Hs. destruct Hs as [[x1 m t x code] p' H|p p' H|[x1 m t x code]]; [|auto|].
  - cbn in H. destruct code; [discriminate|]. destruct m; [destruct (action k)|destruct x|]; try discriminate; injection H as <-; cbn; auto; right; left; discriminate.
  - cbn. destruct code; [right; left; discriminate|auto].
Qed.
Lemma main_kept p p' : step p p' -> p_main p' = p_main p /\ p_code p' = None \/ p_code p' <> None \/ mstep p = Some p'.
Proof.
  intros Hs. destruct Hs as [p p' H|[x1 m t x code] p' H|[x1 m t x code]]; [auto| |].
  - cbn in H. destruct code; [discriminate|]. destruct t; [destruct (_ <=? _)|destruct x|destruct (at_exit k)| |]; try discriminate; injection H as <-; cbn; auto; right; left; discriminate.
  - cbn. destruct code; [right; left; discriminate|auto].
Qed.
Definition over : Prop := exists n c, p_code (f n) = Some c.
Lemma over_dec n : p_code (f n) = None \/ over.
Proof. destruct (p_code (f n)) as [c|] eqn:E; [right; exists n, c; exact E|auto]. Qed.

(** Between [n] and [m], either the thread moves at some point, or it is in the same place at [m]. *)
Lemma timer_between n m : n <= m -> p_code (f m) = None ->
  (exists j, n <= j < m /\ p_timer (f j) = p_timer (f n) /\ tstep (f j) = Some (f (S j))) \/ p_timer (f m) = p_timer (f n).
Proof.
  induction 1 as [|m H IH]; intros E; [auto|]. assert (E0 : p_code (f m) = None).
  { destruct (p_code (f m)) as [c|] eqn:Ec; [|reflexivity]. rewrite (code_step _ _ c (fr_step _ _ _ _ _ F m) Ec) in E. discriminate. }
  destruct (IH E0) as [(j & Hj & Ht & Hs)|Ht]; [left; exists j; split; [lia|auto]|].
  destruct (timer_kept _ _ (fr_step _ _ _ _ _ F m)) as [(Hk & _)|[Hk|Hk]]; [right; congruence|contradiction|]. left. exists m. split; [lia|auto].
Qed.
Lemma main_between n m : n <= m -> p_code (f m) = None ->
  (exists j, n <= j < m /\ p_main (f j) = p_main (f n) /\ mstep (f j) = Some (f (S j))) \/ p_main (f m) = p_main (f n).
Proof.
  induction 1 as [|m H IH]; intros E; [auto|]. assert (E0 : p_code (f m) = None).
  { destruct (p_code (f m)) as [c|] eqn:Ec; [|reflexivity]. rewrite (code_step _ _ c (fr_step _ _ _ _ _ F m) Ec) in E. discriminate. }
  destruct (IH E0) as [(j & Hj & Ht & Hs)|Ht]; [left; exists j; split; [lia|auto]|].
  destruct (main_kept _ _ (fr_step _ _ _ _ _ F m)) as [(Hk & _)|[Hk|Hk]]; [right; congruence|contradiction|]. left. exists m. split; [lia|auto].
Qed.

(** The main thread, once it has the lock, ends the process. *)
Lemma exits_main n : p_main (f n) = MExit -> over.
Proof.
  intros E. destruct (fr_main _ _ _ _ _ F n) as (m & Hm & Hs). destruct (over_dec m) as [Ec|]; [|assumption].
  destruct (main_between n m Hm Ec) as [(j & Hj & Hx & Hy)|Hx].
  - rewrite E in Hx. destruct (f j) as [c mm t x code]. cbn in *. destruct code; [discriminate|]. subst mm. injection Hy as Hy. exists (S j), 0%Z. rewrite <- Hy. reflexivity.
  - rewrite E in Hx. destruct (f m) as [c mm t x code]. cbn in *. subst. destruct Hs as [Hs|Hs]; [|discriminate]. injection Hs as Hs. exists (S m), 0%Z. rewrite <- Hs. reflexivity.
Qed.

(** The deadline has passed: the spawned thread moves, or the main thread has the lock, or it is dead. *)
Lemma timer_moves n : t0 + duration <= p_clock (f n) -> p_timer (f n) <> TDead ->
  over \/ exists j, n <= j /\ p_timer (f j) = p_timer (f n) /\ tstep (f j) = Some (f (S j)).
Proof.
  intros Hc Hd. destruct (fr_timer _ _ _ _ _ F n) as (m & Hm & Hs). destruct (over_dec m) as [Ec|]; [|auto].
  destruct (timer_between n m Hm Ec) as [(j & Hj & Hx & Hy)|Hx]; [right; exists j; split; [lia|auto]|].
  destruct Hs as [Hs|Hs]; [right; exists m; auto|].
  assert (Hc' := clock_le n m Hm). destruct (reach_inv _ (run_reach m)) as (_ & H2 & _). rewrite <- Hx in Hd. destruct (p_main (f m)) as [k| |] eqn:Em.
  3: left; exact (exits_main m Em).
  all: exfalso; clear Hx; destruct (f m) as [c mm t x code]; cbn in *; subst; destruct t as [| |k'| |]; try congruence.
  all: try (replace (t0 + duration <=? c) with true in Hs by (symmetry; apply Nat.leb_le; lia); discriminate).
  all: try (destruct (at_exit k'); discriminate).
  all: destruct x; try discriminate; cbn in H2; destruct H2 as (Hq & H2); try discriminate; destruct H2 as [(kk & Hk & _)|(Hk & _)]; discriminate.
Qed.

(** How far the spawned thread is from its end. *)
Definition rank (K : nat) (t : timer_pc) : nat := match t with TSleep => K + 4 | TLock => K + 3 | TAtExit k => K + 2 - k | TExit => 1 | TDead => 0 end.
Lemma rank_step K r p p' : pinv p -> ends r at_exit K -> r <> GoesOn -> tstep p = Some p' -> p_code p' = None -> p_timer p' = TDead \/ rank K (p_timer p') < rank K (p_timer p).
Proof.
  intros (_ & H2 & _) (HK & HK') Hr H Ec. destruct p as [c m t x code]. cbn in *. destruct code; [discriminate|]. destruct t as [| |k| |].
  - destruct (_ <=? _); [|discriminate]. injection H as <-. cbn. lia.
  - destruct x; try discriminate; injection H as <-; cbn; [right; lia|left; reflexivity].
  - assert (Hk : k <= K).
    { destruct (Nat.le_gt_cases k K) as [|Hlt]; [assumption|]. exfalso. apply Hr. rewrite <- HK.
      destruct x; cbn in H2; try (destruct H2 as (_ & [H2|H2]); discriminate).
      - destruct H2 as (_ & [(k' & E & Hg)|(E & _)]); [injection E as <-; exact (Hg K Hlt)|discriminate].
      - destruct H2 as (_ & H2 & _). discriminate. }
    destruct (at_exit k) eqn:E; injection H as <-; cbn; [|right; lia|left; reflexivity].
    assert (k <> K) by (intros ->; congruence). right. lia.
  - injection H as <-. discriminate.
  - discriminate.
Qed.
Lemma timer_ends K r : ends r at_exit K -> r <> GoesOn -> over \/ exists n, p_timer (f n) = TDead.
Proof.
  intros HK Hr. destruct (fr_time _ _ _ _ _ F (t0 + duration)) as (n0 & Hn0).
  assert (Hind : forall R n, rank K (p_timer (f n)) <= R -> t0 + duration <= p_clock (f n) -> over \/ exists n, p_timer (f n) = TDead).
  { induction R as [|R IH]; intros n HR Hn.
    - right. exists n. destruct (p_timer (f n)) as [| |k| |] eqn:E; cbn in HR; try lia; [|reflexivity]. exfalso.
      destruct (reach_inv _ (run_reach n)) as (_ & H2 & _). rewrite E in H2. destruct (p_mutex (f n)); cbn in H2; try (destruct H2 as (_ & [H2|H2]); discriminate).
      + destruct H2 as (_ & [(k' & Ek & Hg)|(Ek & _)]); [|discriminate]. injection Ek as <-. apply Hr. destruct HK as (HK & _). rewrite <- HK. apply Hg. lia.
      + destruct H2 as (_ & H2 & _). discriminate.
    - assert (Hdd : p_timer (f n) = TDead \/ p_timer (f n) <> TDead) by (destruct (p_timer (f n)); auto; right; discriminate).
      destruct Hdd as [Hd|Hd]; [eauto|]. destruct (timer_moves n Hn Hd) as [|(j & Hj & Hx & Hy)]; [auto|].
      destruct (over_dec (S j)) as [Ec|]; [|auto]. destruct (rank_step K r _ _ (reach_inv _ (run_reach j)) HK Hr Hy Ec) as [Hd'|Hlt]; [eauto|].
      apply (IH (S j)); [rewrite Hx in Hlt; lia|]. assert (Hcl := clock_le n (S j) ltac:(lia)). lia. }
  exact (Hind _ n0 (Nat.le_refl _) Hn0).
Qed.
Lemma to_ends K : ends Returns at_exit K -> over.
Proof.
  intros HK. destruct (timer_ends K Returns HK ltac:(discriminate)) as [|(n & Hn)]; [assumption|]. exfalso.
  destruct (reach_inv _ (run_reach n)) as (_ & H2 & _). rewrite Hn in H2.
  destruct (p_mutex (f n)); cbn in H2; try (destruct H2 as (_ & [H2|H2]); discriminate).
  - destruct H2 as (_ & [(k & Hk & _)|(Hk & _)]); discriminate.
  - destruct H2 as (_ & _ & k & Hk & Hk'). destruct HK as (HK & HK'). destruct (Nat.lt_trichotomy k K) as [Hlt|[->|Hlt]]; [rewrite (HK' _ Hlt) in Hk|rewrite HK in Hk|rewrite (Hk' _ Hlt) in HK]; discriminate.
Qed.

(** A main thread whose mutex is poisoned, and whose action ends, ends the process. *)
Definition mrank (K : nat) (m : main_pc) : nat := match m with MAction k => K + 2 - k | MLock => 1 | MExit => 0 end.
Lemma poisoned_kept p p' : step p p' -> p_mutex p = Poisoned -> p_mutex p' = Poisoned.
Proof.
  intros Hs E. destruct Hs as [[x1 m t x code] p' H|[x1 m t x code] p' H|[x1 m t x code]]; cbn in *; subst; [| |reflexivity].
  - destruct code; [discriminate|]. destruct m; [destruct (action k)|..]; injection H as <-; reflexivity.
  - destruct code; [discriminate|]. destruct t; [destruct (_ <=? _)| |destruct (at_exit k)| |]; try discriminate; injection H as <-; reflexivity.
Qed.
Lemma poisoned_le n m : n <= m -> p_mutex (f n) = Poisoned -> p_mutex (f m) = Poisoned.
Proof. induction 1; [auto|]. intros E. eapply poisoned_kept; [apply (fr_step _ _ _ _ _ F)|auto]. Qed.
Lemma main_ends K r : ends r action K -> r <> GoesOn -> (exists n, p_mutex (f n) = Poisoned) -> over.
Proof.
  intros HK Hr (n0 & Hn0).
  assert (Hind : forall R n, mrank K (p_main (f n)) <= R -> p_mutex (f n) = Poisoned -> over).
  { induction R as [|R IH]; intros n HR Hn; destruct (fr_main _ _ _ _ _ F n) as (m & Hm & Hs); (destruct (over_dec m) as [Ec|]; [|assumption]).
    - destruct (p_main (f n)) as [k| |] eqn:E; cbn in HR; try lia; [|exact (exits_main n E)]. exfalso.
      destruct (reach_inv _ (run_reach n)) as (H1 & _). rewrite E in H1. apply Hr. rewrite <- (proj1 HK). apply H1. lia.
    - assert (Hmv : exists j, n <= j /\ p_main (f j) = p_main (f n) /\ mstep (f j) = Some (f (S j))).
      { destruct (main_between n m Hm Ec) as [(j & Hj & Hx & Hy)|Hx]; [exists j; split; [lia|auto]|]. exists m. split; [exact Hm|]. split; [exact Hx|].
        destruct Hs as [Hs|Hs]; [exact Hs|]. exfalso. assert (Hp := poisoned_le n m Hm Hn). destruct (f m) as [c mm t x code]. cbn in *. subst.
        destruct (p_main (f n)) as [k| |]; try discriminate. destruct (action k); discriminate. }
      destruct Hmv as (j & Hj & Hx & Hy). destruct (over_dec (S j)) as [Ecj|]; [|assumption]. apply (IH (S j)); [|exact (poisoned_le n (S j) ltac:(lia) Hn)].
      assert (Hp := poisoned_le n j Hj Hn). destruct (reach_inv _ (run_reach j)) as (H1 & _). destruct (f j) as [c mm t x code]. cbn in *. subst x. destruct code; [discriminate|]. subst mm.
      destruct (p_main (f n)) as [k| |].
      + assert (Hk : k <= K) by (destruct (Nat.le_gt_cases k K) as [|Hlt]; [assumption|]; exfalso; apply Hr; rewrite <- (proj1 HK); exact (H1 K Hlt)).
        destruct (action k) eqn:E; injection Hy as Hy; rewrite <- Hy in *; cbn in *; [|lia|discriminate]. assert (k <> K) by (intros ->; destruct HK; congruence). lia.
      + injection Hy as Hy. rewrite <- Hy in Ecj. discriminate.
      + injection Hy as Hy. rewrite <- Hy in Ecj. discriminate. }
  exact (Hind _ n0 (Nat.le_refl _) Hn0).
Qed.
Lemma to_ends_both K r K' r' : ends r at_exit K -> r <> GoesOn -> ends r' action K' -> r' <> GoesOn -> over.
Proof.
  intros H1 H2 H3 H4. destruct (timer_ends K r H1 H2) as [|(n & Hn)]; [assumption|]. apply (main_ends K' r' H3 H4). exists n.
  destruct (reach_inv _ (run_reach n)) as (_ & Hi & _). rewrite Hn in Hi. destruct (p_mutex (f n)); cbn in Hi; try (destruct Hi as (_ & [Hi|Hi]); discriminate); [|reflexivity].
  destruct Hi as (_ & [(k & Hk & _)|(Hk & _)]); discriminate.
Qed.
End Fair.

(** * Fair executions exist *)
Fixpoint robin (n : nat) : process :=
  match n with
  | 0 => started t0
  | S m => let p := robin m in
           match m mod 3 with
           | 0 => match mstep p with Some p' => p' | None => tick p end
           | 1 => match tstep p with Some p' => p' | None => tick p end
           | _ => tick p
           end
  end.
Lemma robin_step n : step (robin n) (robin (S n)).
Proof.
  cbn [robin]. destruct (n mod 3) as [|[|k]].
  - destruct (mstep (robin n)) eqn:E; [apply by_main; exact E|apply by_clock].
  - destruct (tstep (robin n)) eqn:E; [apply by_timer; exact E|apply by_clock].
  - apply by_clock.
Qed.
Lemma robin_fair : fair_run duration action at_exit t0 robin.
Proof.
  constructor.
  - reflexivity.
  - apply robin_step.
  - intros t. exists (3 * t). induction t as [|t IH]; [lia|]. replace (3 * S t) with (S (S (S (3 * t)))) by lia.
    pose proof (clock_step _ _ (robin_step (3 * t))) as H1. pose proof (clock_step _ _ (robin_step (S (3 * t)))) as H2.
    assert (E : robin (S (S (S (3 * t)))) = tick (robin (S (S (3 * t))))).
    { cbn [robin]. replace (S (S (3 * t)) mod 3) with 2; [reflexivity|]. rewrite Nat.mul_comm. change (S (S (t * 3))) with (2 + t * 3). rewrite Nat.mod_add by discriminate. reflexivity. }
    rewrite E. unfold tick. cbn [p_clock]. lia.
  - intros n. exists (3 * n). split; [lia|]. cbn [robin]. replace ((3 * n) mod 3) with 0 by (rewrite Nat.mul_comm, Nat.mod_mul; [reflexivity|discriminate]). destruct (mstep (robin (3 * n))); auto.
  - intros n. exists (S (3 * n)). split; [lia|]. set (m := S (3 * n)). cbn [robin].
    replace (m mod 3) with 1; [destruct (tstep (robin m)); auto|]. unfold m. rewrite Nat.mul_comm. change (S (n * 3)) with (1 + n * 3). rewrite Nat.mod_add by discriminate. reflexivity.
Qed.

(** * The main thread has the lock *)
Lemma to_locked p p' : reaches p -> p_main p = MExit -> goes p p' -> p_main p' = MExit /\ (p_code p' = None \/ p_code p' = Some 0%Z).
Proof.
  intros Hr Hm Hg. assert (H : p_main p' = MExit).
  { induction Hg as [|p p' p'' Hg IH Hs]; [exact Hm|]. specialize (IH Hr Hm). destruct Hs as [[x1 m t x code] p1 H|[x1 m t x code] p1 H|]; [| |exact IH]; cbn in *; subst m.
    - destruct code; [discriminate|]. injection H as <-. reflexivity.
    - destruct code; [discriminate|]. destruct t; [destruct (_ <=? _)|destruct x|destruct (at_exit k)| |]; try discriminate; injection H as <-; reflexivity. }
  split; [exact H|]. assert (Hr' := goes_reach _ _ Hr Hg). destruct (reach_inv _ Hr') as (_ & H2 & _ & H4). unfold code_ok in H4. destruct (p_code p') as [c|]; [right|auto]. rewrite H in *.
  destruct H4 as [(-> & _)|[(_ & Ht)|(_ & [(k & Hk & _)|(Hk & _)])]]; try discriminate; [reflexivity|]. exfalso. rewrite Ht in H2.
  destruct (p_mutex p'); cbn in H2; try (destruct H2 as (_ & [H2|H2]); discriminate); destruct H2; congruence.
Qed.
(** A process whose spawned thread is in [at_exit] forever never ends, and neither does one whose action goes on after a panic of [at_exit]. *)
Lemma stuck_at_exit p p' k : never_ends at_exit -> p_main p = MLock -> p_timer p = TAtExit k -> p_mutex p = HeldByTimer -> p_code p = None -> goes p p' -> p_code p' = None.
Proof.
  intros Hn h1 h2 h3 h4 Hg. assert (H : p_main p' = MLock /\ (exists k, p_timer p' = TAtExit k) /\ p_mutex p' = HeldByTimer /\ p_code p' = None).
  { induction Hg as [|p p' p'' Hg IH Hs]; [eauto|]. specialize (IH h1 h2 h3 h4) as (i1 & (k' & i2) & i3 & i4).
    destruct Hs as [[x1 m t x code] p1 H|[x1 m t x code] p1 H|[x1 m t x code]]; cbn in *; subst; [discriminate| |eauto]. rewrite Hn in H. injection H as <-. cbn. eauto. }
  apply H.
Qed.
End Proofs.
