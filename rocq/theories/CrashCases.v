(** Concrete executions in which a thread panics. Nothing here models code of /repo. *)
From Verif Require Import Spec Dd DdSpec MddAll ParSpec BarSpec Table TableFacts MddCases ParCases BarCases ReportCases CrashSpec CrashProofs CrashBarProofs.
Open Scope Z_scope.

(** A step of a thread, or its death. *)
Inductive act := Move (i : nat) | Die (i : nat).
Definition mem (i : nat) (l : list nat) : bool := existsb (Nat.eqb i) l.
Lemma mem_in i l : mem i l = false -> ~ In i l.
Proof. intros H Hin. assert (mem i l = true) by (apply existsb_exists; exists i; split; [exact Hin|apply Nat.eqb_refl]). congruence. Qed.
Fixpoint moves (n i : nat) : list act := match n with O => [] | S k => Move i :: moves k i end.

(** * The parallel solver *)
Definition death {cfg : config tstate} (c : critical tstate cfg) (i : nat) (t : thread tstate) : option (critical tstate cfg * thread tstate) :=
  match t_pc t with
  | PStart n => if c_lb c <? sp_ub n then Some (c, t) else None
  | PRelax _ _ => Some (c, t)
  | PIdle =>
      match get_workload cfg c i false, fr_pop (cf_fr cfg) (c_fringe c) with
      | None, Some (Some n, f) => Some (counted c f, mk_th (PStart n) (t_dd t))
      | _, _ => None
      end
  | _ => None
  end.
Lemma death_dies cfg (c : critical tstate cfg) i t c' t' : death c i t = Some (c', t') -> dies c i false t c' t'.
Proof.
  unfold death. destruct (t_pc t) as [| |n|n|n k|n k|k|] eqn:E; try discriminate.
  - destruct (get_workload cfg c i false) eqn:Eg; [discriminate|]. destruct (fr_pop _ _) as [[[n|] f]|] eqn:Ep; try discriminate. intros H. injection H as <- <-.
    eapply dies_recording; eauto.
  - destruct (c_lb c <? sp_ub n) eqn:El; [|discriminate]. intros H. injection H as <- <-. eapply dies_restricting; eauto. apply Z.ltb_lt. exact El.
  - intros H. injection H as <- <-. eapply dies_relaxing; eauto.
Qed.
Fixpoint cexec {cfg : config tstate} (s : list act) (x : cstate tstate cfg) : option (cstate tstate cfg) :=
  match s with
  | [] => Some x
  | Move i :: r =>
      if mem i (x_dead x) then None
      else match thread_step ts_eqb cfg orc_fwd false i (x_st x) with Next st => cexec r (mk_cs st (x_dead x)) | _ => None end
  | Die i :: r =>
      if mem i (x_dead x) then None
      else match nth_error (s_threads (x_st x)) i with
           | Some t => match death (s_crit (x_st x)) i t with
                       | Some (c, t') => cexec r (mk_cs (mk_st c (put i t' (s_threads (x_st x)))) (i :: x_dead x))
                       | None => None
                       end
           | None => None
           end
  end.
Definition crun (cfg : config tstate) (n m : nat) (s : list act) : option (cstate tstate cfg) :=
  match initial cfg n m with Some st => cexec s (mk_cs st []) | None => None end.
Lemma cexec_runs cfg stop s : forall x0 x y, cruns tstate ts_eqb cfg stop x0 x -> cexec s x = Some y -> cruns tstate ts_eqb cfg stop x0 y.
Proof.
  induction s as [|a s IH]; intros x0 x y H0 H; cbn [cexec] in H; [injection H as <-; exact H0|]. destruct x as [st dead]. destruct a as [i|i]; cbn [x_st x_dead] in H;
    destruct (mem i dead) eqn:Em; try discriminate; apply mem_in in Em.
  - destruct (thread_step ts_eqb cfg orc_fwd false i st) as [st1| |] eqn:E; try discriminate. eapply IH; [|exact H]. eapply cruns_step; [exact H0|]. left.
    refine (cstep_moves _ _ _ _ orc_fwd false i st st1 dead _ _ Em E); [apply orc_fwd_ok|discriminate].
  - destruct (nth_error (s_threads st) i) as [t|] eqn:Et; [|discriminate]. destruct (death (s_crit st) i t) as [[c t']|] eqn:Ed; [|discriminate].
    eapply IH; [|exact H]. eapply cruns_step; [exact H0|]. left.
    refine (cstep_dies _ _ _ _ false i t c t' st dead _ Em Et (death_dies _ _ _ _ _ _ Ed)). discriminate.
Qed.
Lemma crun_reaches cfg stop n m s x : crun cfg n m s = Some x -> creaches tstate ts_eqb cfg stop n m x.
Proof.
  unfold crun. destruct (initial cfg n m) as [st|] eqn:E; [|discriminate]. intros H. exists st. split; [exact E|]. eapply cexec_runs; [apply cruns_refl|exact H].
Qed.

(** What matters of a state here. *)
Inductive spot := SIdle | SWait | SWork | SDone.
Definition spot_of (t : thread tstate) : spot :=
  match t_pc t with PIdle => SIdle | PWait => SWait | PDone => SDone | _ => SWork end.
Record snap := mk_snap { n_spots : list spot; n_dead : list nat; n_ongoing : nat; n_empty : bool; n_int : bool }.
Definition snap_of {cfg} (x : option (cstate tstate cfg)) : option snap :=
  match x with
  | Some x => Some (mk_snap (map spot_of (s_threads (x_st x))) (x_dead x) (c_ongoing (s_crit (x_st x))) (fr_empty (cf_fr cfg) (c_fringe (s_crit (x_st x)))) (c_interrupted (s_crit (x_st x))))
  | None => None
  end.
(** A thread died, and the other waits for it. *)
Definition abandoned (a : nat) : snap := mk_snap (if Nat.eqb a 0 then [SWork; SWait] else [SWait; SWork]) [a] 1 true false.
Definition hangs {cfg : config tstate} (x : cstate tstate cfg) : Prop :=
  deserted x /\ (forall y, ~ cstep tstate ts_eqb cfg true x y) /\ forall y, cruns tstate ts_eqb cfg false x y -> ~ ended y.
Lemma spot_wait t : spot_of t = SWait -> t_pc t = PWait.
Proof. unfold spot_of. destruct (t_pc t); try discriminate. reflexivity. Qed.
Lemma spot_work t : spot_of t = SWork -> busy tstate t.
Proof. unfold spot_of, busy. destruct (t_pc t); try discriminate; auto. Qed.
Lemma abandoned_hangs cfg n m s a : snap_of (crun cfg n m s) = Some (abandoned a) -> (a <= 1)%nat ->
  exists x, crun cfg n m s = Some x /\ creaches tstate ts_eqb cfg false n m x /\ x_dead x = [a] /\ died_at_work x /\ hangs x.
Proof.
  intros H Ha. destruct (crun cfg n m s) as [x|] eqn:E; [|discriminate]. exists x. split; [reflexivity|]. split; [eapply crun_reaches; eauto|].
  injection H as Ht Hd Ho He Hi. split; [exact Hd|].
  assert (Hs : exists t u, (if Nat.eqb a 0 then s_threads (x_st x) = [t; u] else s_threads (x_st x) = [u; t]) /\ busy tstate t /\ t_pc u = PWait).
  { destruct (Nat.eqb a 0); destruct (s_threads (x_st x)) as [|t [|u [|]]]; try discriminate; cbn in Ht; injection Ht as h1 h2.
    - exists t, u. auto using spot_work, spot_wait.
    - exists u, t. auto using spot_work, spot_wait. }
  destruct Hs as (t & u & Hl & Hb & Hu).
  assert (D : deserted x).
  { split.
    - intros i v Hv. rewrite Hd. destruct (Nat.eqb a 0) eqn:Ea; rewrite Hl in Hv; destruct i as [|[|[|i]]]; cbn in Hv; try discriminate; injection Hv as <-.
      + apply Nat.eqb_eq in Ea. left. left. exact Ea.
      + right. exact Hu.
      + right. exact Hu.
      + apply Nat.eqb_neq in Ea. left. left. lia.
    - destruct (Nat.eqb a 0) eqn:Ea.
      + apply Nat.eqb_eq in Ea. exists 1%nat, u. rewrite Hl, Hd. split; [reflexivity|]. intros [h|[]]. lia.
      + apply Nat.eqb_neq in Ea. exists 0%nat, u. rewrite Hl, Hd. split; [reflexivity|]. intros [h|[]]. lia. }
  split.
  - exists a, t. rewrite Hd. split; [left; reflexivity|]. split; [|exact Hb]. destruct (Nat.eqb a 0) eqn:Ea; rewrite Hl.
    + apply Nat.eqb_eq in Ea. subst. reflexivity.
    + apply Nat.eqb_neq in Ea. replace a with 1%nat by lia. reflexivity.
  - split; [exact D|]. split; [intros y; apply deserted_stuck; exact D|]. intros y Hr. eapply (deserted_for_ever tstate ts_eqb cfg); eauto. rewrite Ho. discriminate.
Qed.

(** A callback panics in the thread that has the first subproblem; the other thread waits. *)
Lemma callback_snap : snap_of (crun cfgI 2 2 [Move 0; Die 0; Move 1]) = Some (abandoned 0). Proof. vm_compute. reflexivity. Qed.
(** A width of zero: the relaxed diagram of the first subproblem panics. *)
Lemma width_snap : snap_of (crun cfgZ 2 2 (moves 3 0 ++ [Die 0; Move 1])) = Some (abandoned 0). Proof. vm_compute. reflexivity. Qed.
Definition panics_at {cfg} (x : option (cstate tstate cfg)) (i : nat) : bool :=
  match x with Some x => match thread_step ts_eqb cfg orc_fwd false i (x_st x) with Panic => true | _ => false end | None => false end.
Lemma width_panics : panics_at (crun cfgZ 2 2 (moves 3 0)) 0 = true. Proof. vm_compute. reflexivity. Qed.
(** More threads than the solver was created with: the second takes the first subproblem. *)
Lemma threads_snap : snap_of (crun cfgI 1 2 [Die 1; Move 0]) = Some (abandoned 1). Proof. vm_compute. reflexivity. Qed.
Lemma threads_panics : panics_at (crun cfgI 1 2 []) 1 = true. Proof. vm_compute. reflexivity. Qed.
(** Both threads die: the call ends. *)
Lemma both_snap : snap_of (crun cfgI 2 2 (moves 6 0 ++ [Move 0; Move 1; Die 0; Die 1])) = Some (mk_snap [SWork; SWork] [1; 0]%nat 2 true false). Proof. vm_compute. reflexivity. Qed.
Lemma single_snap : snap_of (crun cfgI 1 1 [Move 0; Die 0]) = Some (mk_snap [SWork] [0]%nat 1 true false). Proof. vm_compute. reflexivity. Qed.

(** * The solver with thresholds *)
Definition bdeath {cfg : config tstate} (k : bcritical tstate cfg) (T : thresholds tstate) (i : nat) (t : bthread tstate) :
  option (bcritical tstate cfg * thresholds tstate * bthread tstate) :=
  match u_pc t with
  | BRestrict _ _ | BRelaxing _ _ _ => Some (k, T, t)
  | BInsert n =>
      match take_node ts_eqb cfg k T i n, nth_error T (length (sp_path n)), upd (c_ubs (k_c k)) i (sp_ub n) with
      | None, Some l, None =>
          match upd T (length (sp_path n)) (tput ts_eqb l (sp_state n) (mk_info (sp_value n) true)) with
          | Some T' => Some (mk_bc (mk_crit (c_fringe (k_c k)) (S (c_ongoing (k_c k))) (S (c_explored (k_c k))) (c_explored_dd (k_c k)) (c_lb (k_c k)) (c_ub (k_c k))
                              (c_sol (k_c k)) (c_ubs (k_c k)) (c_interrupted (k_c k))) (k_open k) (k_ongoing k) (k_lowest k), T', mk_bth (BStart n) (u_dd t))
          | None => None
          end
      | _, _, _ => None
      end
  | _ => None
  end.
Lemma bdeath_dies cfg (k : bcritical tstate cfg) T i free t k' T' t' : bdeath k T i t = Some (k', T', t') -> bdies ts_eqb k T i false free t k' T' t'.
Proof.
  unfold bdeath. destruct (u_pc t) as [| | |n|n|n|n p|n x|n x p|depth x|] eqn:E; try discriminate.
  - destruct (take_node ts_eqb cfg k T i n) eqn:Et; [discriminate|]. destruct (nth_error T _) as [l|] eqn:El; [|discriminate].
    destruct (upd (c_ubs _) i _) eqn:Eu; [discriminate|]. destruct (upd T _ _) as [T1|] eqn:Ei; [|discriminate]. intros H. injection H as <- <- <-.
    eapply bdies_recording; eauto 6.
  - intros H. injection H as <- <- <-. eapply bdies_compiling. left. eauto.
  - intros H. injection H as <- <- <-. eapply bdies_compiling. right. eauto.
Qed.
Fixpoint bcexec {cfg : config tstate} (s : list act) (x : bcstate tstate cfg) : option (bcstate tstate cfg) :=
  match s with
  | [] => Some x
  | Move i :: r =>
      if mem i (z_dead x) then None
      else match bthread_step ts_eqb cfg orc_fwd false i (z_st x) with BNext st => bcexec r (mk_bcs st (z_dead x)) | _ => None end
  | Die i :: r =>
      if mem i (z_dead x) then None
      else match nth_error (q_threads (z_st x)) i with
           | Some t => match bdeath (q_crit (z_st x)) (q_table (z_st x)) i t with
                       | Some (k, T, t') => bcexec r (mk_bcs (mk_bst k T (put i t' (q_threads (z_st x)))) (i :: z_dead x))
                       | None => None
                       end
           | None => None
           end
  end.
Definition bcrun (cfg : config tstate) (n m : nat) (s : list act) : option (bcstate tstate cfg) :=
  match binitial cfg n m with Some st => bcexec s (mk_bcs st []) | None => None end.
Lemma bcexec_runs cfg stop s : forall x0 x y, bcruns tstate ts_eqb cfg stop x0 x -> bcexec s x = Some y -> bcruns tstate ts_eqb cfg stop x0 y.
Proof.
  induction s as [|a s IH]; intros x0 x y H0 H; cbn [bcexec] in H; [injection H as <-; exact H0|]. destruct x as [st dead]. destruct a as [i|i]; cbn [z_st z_dead] in H;
    destruct (mem i dead) eqn:Em; try discriminate; apply mem_in in Em.
  - destruct (bthread_step ts_eqb cfg orc_fwd false i st) as [st1| |] eqn:E; try discriminate. eapply IH; [|exact H]. eapply bcruns_step; [exact H0|]. left.
    refine (bcstep_moves _ _ _ _ orc_fwd false i st st1 dead _ _ Em E); [apply orc_fwd_ok|discriminate].
  - destruct (nth_error (q_threads st) i) as [t|] eqn:Et; [|discriminate]. destruct (bdeath (q_crit st) (q_table st) i t) as [[[k T] t']|] eqn:Ed; [|discriminate].
    eapply IH; [|exact H]. eapply bcruns_step; [exact H0|]. left.
    refine (bcstep_dies _ _ _ _ false i t k T t' st dead _ Em Et (bdeath_dies _ _ _ _ _ _ _ _ _ Ed)). discriminate.
Qed.
Lemma bcrun_reaches cfg stop n m s x : bcrun cfg n m s = Some x -> bcreaches tstate ts_eqb cfg stop n m x.
Proof.
  unfold bcrun. destruct (binitial cfg n m) as [st|] eqn:E; [|discriminate]. intros H. exists st. split; [exact E|]. eapply bcexec_runs; [apply bcruns_refl|exact H].
Qed.
Definition bspot_of (t : bthread tstate) : spot :=
  match u_pc t with BWait => SWait | BDone => SDone | BIdle | BClean | BTry _ | BInsert _ => SIdle | _ => SWork end.
Definition bsized {cfg} (st : bstate tstate cfg) : bool :=
  (pb_nb_vars (cf_pb cfg) <=? length (k_open (q_crit st)))%nat && (pb_nb_vars (cf_pb cfg) <=? length (k_ongoing (q_crit st)))%nat && (pb_nb_vars (cf_pb cfg) <=? length (q_table st))%nat.
Definition bsnap_of {cfg} (x : option (bcstate tstate cfg)) : option (snap * bool) :=
  match x with
  | Some x => Some (mk_snap (map bspot_of (q_threads (z_st x))) (z_dead x) (c_ongoing (k_c (q_crit (z_st x))))
                     (fr_empty (cf_fr cfg) (c_fringe (k_c (q_crit (z_st x))))) (c_interrupted (k_c (q_crit (z_st x)))), bsized (z_st x))
  | None => None
  end.
Definition bhangs {cfg : config tstate} (x : bcstate tstate cfg) : Prop :=
  bdeserted x /\ (forall y, ~ bcstep tstate ts_eqb cfg true x y) /\ forall y, bcruns tstate ts_eqb cfg false x y -> ~ bended y.
Lemma bspot_wait t : bspot_of t = SWait -> u_pc t = BWait.
Proof. unfold bspot_of. destruct (u_pc t); try discriminate. reflexivity. Qed.
Lemma bspot_work t : bspot_of t = SWork -> bbusy tstate t.
Proof. unfold bspot_of, bbusy. destruct (u_pc t); try discriminate; auto. Qed.
Lemma babandoned_hangs cfg n m s a : bsnap_of (bcrun cfg n m s) = Some (abandoned a, true) -> (a <= 1)%nat ->
  exists x, bcrun cfg n m s = Some x /\ bcreaches tstate ts_eqb cfg false n m x /\ z_dead x = [a] /\ bdied_at_work x /\ bhangs x.
Proof.
  intros H Ha. destruct (bcrun cfg n m s) as [x|] eqn:E; [|discriminate]. exists x. split; [reflexivity|]. split; [eapply bcrun_reaches; eauto|].
  injection H as Ht Hd Ho He Hi Hz. split; [exact Hd|].
  assert (Hs : exists t u, (if Nat.eqb a 0 then q_threads (z_st x) = [t; u] else q_threads (z_st x) = [u; t]) /\ bbusy tstate t /\ u_pc u = BWait).
  { destruct (Nat.eqb a 0); destruct (q_threads (z_st x)) as [|t [|u [|]]]; try discriminate; cbn in Ht; injection Ht as h1 h2.
    - exists t, u. auto using bspot_work, bspot_wait.
    - exists u, t. auto using bspot_work, bspot_wait. }
  destruct Hs as (t & u & Hl & Hb & Hu).
  assert (D : bdeserted x).
  { split.
    - intros i v Hv. rewrite Hd. destruct (Nat.eqb a 0) eqn:Ea; rewrite Hl in Hv; destruct i as [|[|[|i]]]; cbn in Hv; try discriminate; injection Hv as <-.
      + apply Nat.eqb_eq in Ea. left. left. exact Ea.
      + right. exact Hu.
      + right. exact Hu.
      + apply Nat.eqb_neq in Ea. left. left. lia.
    - destruct (Nat.eqb a 0) eqn:Ea.
      + apply Nat.eqb_eq in Ea. exists 1%nat, u. rewrite Hl, Hd. split; [reflexivity|]. intros [h|[]]. lia.
      + apply Nat.eqb_neq in Ea. exists 0%nat, u. rewrite Hl, Hd. split; [reflexivity|]. intros [h|[]]. lia. }
  split.
  - exists a, t. rewrite Hd. split; [left; reflexivity|]. split; [|exact Hb]. destruct (Nat.eqb a 0) eqn:Ea; rewrite Hl.
    + apply Nat.eqb_eq in Ea. subst. reflexivity.
    + apply Nat.eqb_neq in Ea. replace a with 1%nat by lia. reflexivity.
  - split; [exact D|]. split; [intros y; apply bdeserted_stuck; exact D|]. intros y Hr. eapply (bdeserted_for_ever tstate ts_eqb cfg); eauto; [rewrite Ho; discriminate|].
    unfold bsized in Hz. apply andb_true_iff in Hz. destruct Hz as [Hz h3]. apply andb_true_iff in Hz. destruct Hz as [h1 h2]. unfold sized.
    apply Nat.leb_le in h1, h2, h3. auto.
Qed.
Lemma bcallback_snap : bsnap_of (bcrun cfgI 2 2 (moves 5 0 ++ [Die 0] ++ moves 2 1)) = Some (abandoned 0, true). Proof. vm_compute. reflexivity. Qed.
Lemma bwidth_snap : bsnap_of (bcrun cfgZ 2 2 (moves 14 0 ++ [Die 0] ++ moves 2 1)) = Some (abandoned 0, true). Proof. vm_compute. reflexivity. Qed.
Definition bpanics_at {cfg} (x : option (bcstate tstate cfg)) (i : nat) : bool :=
  match x with Some x => match bthread_step ts_eqb cfg orc_fwd false i (z_st x) with BPanic => true | _ => false end | None => false end.
Lemma bwidth_panics : bpanics_at (bcrun cfgZ 2 2 (moves 14 0)) 0 = true. Proof. vm_compute. reflexivity. Qed.
Lemma bthreads_snap : bsnap_of (bcrun cfgI 1 2 (moves 3 1 ++ [Die 1] ++ moves 2 0)) = Some (abandoned 1, true). Proof. vm_compute. reflexivity. Qed.
Lemma bthreads_panics : bpanics_at (bcrun cfgI 1 2 (moves 3 1)) 1 = true. Proof. vm_compute. reflexivity. Qed.
Lemma bsingle_snap : bsnap_of (bcrun cfgI 1 1 (moves 5 0 ++ [Die 0])) = Some (mk_snap [SWork] [0]%nat 1 true false, true). Proof. vm_compute. reflexivity. Qed.
Lemma panics_before cfg n m s i : panics_at (crun cfg n m s) i = true -> exists x, creaches tstate ts_eqb cfg false n m x /\ thread_step ts_eqb cfg orc_fwd false i (x_st x) = Panic.
Proof.
  intros H. destruct (crun cfg n m s) as [x|] eqn:E; [|discriminate]. exists x. split; [eapply crun_reaches; eauto|]. cbn in H.
  destruct (thread_step ts_eqb cfg orc_fwd false i (x_st x)); try discriminate. reflexivity.
Qed.
Lemma bpanics_before cfg n m s i : bpanics_at (bcrun cfg n m s) i = true -> exists x, bcreaches tstate ts_eqb cfg false n m x /\ bthread_step ts_eqb cfg orc_fwd false i (z_st x) = BPanic.
Proof.
  intros H. destruct (bcrun cfg n m s) as [x|] eqn:E; [|discriminate]. exists x. split; [eapply bcrun_reaches; eauto|]. cbn in H.
  destruct (bthread_step ts_eqb cfg orc_fwd false i (z_st x)); try discriminate. reflexivity.
Qed.
