(** Concrete compilations for the statements of PropMddBarrier.v. Nothing here models code of /repo. *)
From Verif Require Import Spec Dd DdSpec FlagsFacts MddAll ParSpec MddBarrier BarSpec MddBarrierSpec Table TableFacts MddCases ParCases BarCases RaceCases EndCases.
Open Scope Z_scope.

Notation b_compile inp ct := (MddBarrier.compile ts_eqb true orc_fwd inp (dd_new ct)).

(** The execution where, just before the access number [i], the thresholds become [w i] of what they were. *)
Fixpoint among {A} (w : nat -> thresholds tstate -> thresholds tstate) (i : nat) (p : prog tstate A) (T : thresholds tstate) : option (A * thresholds tstate) :=
  match p with
  | Ret a => Some (a, T)
  | Fail => None
  | IsEmpty d k => let T := w i T in do l <- nth_error T d; among w (S i) (k (is_nil l)) T
  | Get d s k => let T := w i T in do l <- nth_error T d; among w (S i) (k (tget ts_eqb l s)) T
  | Put d s x k => let T := w i T in do l <- nth_error T d; do T' <- upd T d (tput ts_eqb l s x); among w (S i) k T'
  end.
Definition idle (i : nat) (T : thresholds tstate) := T.

Lemma among_returns {A} solo w (p : prog tstate A) : (forall i T, meanwhile tstate solo T (w i T)) ->
  forall i T a T', among w i p T = Some (a, T') -> returns ts_eqb solo p T a T'.
Proof.
  intros Hw. induction p as [a0| |d k IH|d s k IH|d s x k IH]; intros i T a T' H; cbn [among] in H; try discriminate.
  - injection H as -> ->. constructor.
  - destruct (nth_error (w i T) d) as [l|] eqn:E; [|discriminate]. econstructor; [apply (Hw i)|cbn [access]; rewrite E; reflexivity|]. eapply IH. exact H.
  - destruct (nth_error (w i T) d) as [l|] eqn:E; [|discriminate]. econstructor; [apply (Hw i)|cbn [access]; rewrite E; reflexivity|]. eapply IH. exact H.
  - destruct (nth_error (w i T) d) as [l|] eqn:E; [|discriminate]. cbn [obind] in H. destruct (upd (w i T) d _) as [T1|] eqn:Eu; [|discriminate].
    econstructor; [apply (Hw i)|cbn [access]; rewrite E; cbn [obind]; rewrite Eu; reflexivity|]. eapply IH. exact H.
Qed.
Definition seen (o : option (dd tstate * thresholds tstate)) :=
  match o with
  | Some (d, T) => Some (best_value d, best_solution d, g_exact d, option_map fst (drain_cutset d), T)
  | None => None
  end.
Lemma seen_returns solo w (p : prog tstate (dd tstate)) T v : (forall i T, meanwhile tstate solo T (w i T)) -> seen (among w 0 p T) = Some v ->
  exists dF T', returns ts_eqb solo p T dF T' /\ (best_value dF, best_solution dF, g_exact dF, option_map fst (drain_cutset dF), T') = v.
Proof.
  intros Hw H. destruct (among w 0 p T) as [[d T']|] eqn:E; [|discriminate]. exists d, T'. split; [eapply among_returns; eauto|]. injection H as H. exact H.
Qed.


(** No threshold; and one threshold, on the state 1 of layer 2, through which the best solution goes. *)
Definition none4 : thresholds tstate := [[]; []; []; []].
Definition some4 : thresholds tstate := [[]; []; [((2%nat, 1), mk_info 5 true)]; []].
(** Another thread adds that threshold just before the second access. *)
Definition added (i : nat) (T : thresholds tstate) : thresholds tstate := if (i =? 1)%nat then match upd T 2 [((2%nat, 1), mk_info 5 true)] with Some T' => T' | None => T end else T.
Lemma idle_ok i T : meanwhile tstate true T (idle i T).
Proof. reflexivity. Qed.
Lemma upd_length {A} (l : list A) : forall i x l', upd l i x = Some l' -> length l' = length l.
Proof.
  induction l as [|h t IH]; intros [|i] x l' H; cbn in H; try discriminate; [injection H as <-; reflexivity|].
  destruct (upd t i x) eqn:E; [|discriminate]. injection H as <-. cbn. f_equal. eapply IH. exact E.
Qed.
Lemma added_ok i T : meanwhile tstate false T (added i T).
Proof. unfold added. destruct (i =? 1)%nat; [|reflexivity]. destruct (upd T 2 _) as [T'|] eqn:E; [|reflexivity]. exact (upd_length _ _ _ _ E). Qed.

Lemma lel_none : seen (among idle 0 (b_compile (t_call tabA Relaxed 2 0 (t_root tabA)) LastExactLayer) none4) =
  Some (Some (Some 10), Some (Some (rev solA7)), false, Some [qA2; qA1],
    [[((0%nat, 0), mk_info 0 true)]; [((1%nat, 2), mk_info 0 false); ((1%nat, 1), mk_info 5 false)]; []; []]).
Proof. vm_compute. reflexivity. Qed.
(** The only solution worth 8 goes through the threshold: the diagram is exact and reports 7. *)
Lemma lel_some : seen (among idle 0 (b_compile (t_call tabA Relaxed 2 0 (t_root tabA)) LastExactLayer) some4) =
  Some (Some (Some 7), Some (Some (rev solA7)), true, Some [],
    [[((0%nat, 0), mk_info 0 true)]; [((1%nat, 2), mk_info 0 true); ((1%nat, 1), mk_info 5 true)];
     [((2%nat, 1), mk_info 5 true); ((2%nat, 3), mk_info 1 true); ((2%nat, 2), mk_info 0 true)]; [((3%nat, 2), mk_info 7 false)]]).
Proof. vm_compute. reflexivity. Qed.
Lemma restricted_none : seen (among idle 0 (b_compile (t_call tabA Restricted 3 0 (t_root tabA)) LastExactLayer) none4) =
  Some (Some (Some 8), Some (Some (rev solA8)), true, Some [], none4).
Proof. vm_compute. reflexivity. Qed.
Lemma restricted_added : seen (among added 0 (b_compile (t_call tabA Restricted 3 0 (t_root tabA)) LastExactLayer) none4) =
  Some (Some (Some 7), Some (Some (rev solA7)), true, Some [], some4).
Proof. vm_compute. reflexivity. Qed.
(** Without the node 1 of layer 2, only one subproblem is left in the cutset. *)
Lemma relaxed_added : seen (among added 0 (b_compile (t_call tabA Relaxed 1 0 (t_root tabA)) LastExactLayer) none4) =
  Some (Some (Some 10), Some (Some (rev solA7)), false, Some [qA2],
    [[((0%nat, 0), mk_info 0 true)]; [((1%nat, 2), mk_info 0 false); ((1%nat, 1), mk_info 5 false)]; [((2%nat, 1), mk_info 5 true)]; []]).
Proof. vm_compute. reflexivity. Qed.
(** With one final state, the frontier cutset holds the node of layer 2 through which the best solution goes. *)
Definition qG1 : subproblem tstate := mk_sub (2%nat, 1) 5 [mk_dec 1 0; mk_dec 0 0] 8.
Definition qG2 : subproblem tstate := mk_sub (1%nat, 2) 1 [mk_dec 0 1] 10.
Definition qG3 : subproblem tstate := mk_sub (1%nat, 3) 1 [mk_dec 0 2] 10.
Lemma frontier_none : seen (among idle 0 (b_compile (t_call tabG Relaxed 2 0 (t_root tabG)) Frontier) none4) =
  Some (Some (Some 10), Some (Some [mk_dec 2 0; mk_dec 1 0; mk_dec 0 1]), false, Some [qG1; qG2; qG3],
    [[((0%nat, 0), mk_info 0 true)]; [((1%nat, 3), mk_info 1 false); ((1%nat, 2), mk_info 1 false); ((1%nat, 1), mk_info 0 true)];
     [((2%nat, 1), mk_info 5 false)]; []]).
Proof. vm_compute. reflexivity. Qed.
(** A weak threshold is replaced. *)
Definition weak4 : thresholds tstate := [[]; [((1%nat, 1), mk_info 2 true)]; []; []].
Lemma lel_weak : seen (among idle 0 (b_compile (t_call tabA Relaxed 2 0 (t_root tabA)) LastExactLayer) weak4) =
  Some (Some (Some 10), Some (Some (rev solA7)), false, Some [qA2; qA1],
    [[((0%nat, 0), mk_info 0 true)]; [((1%nat, 1), mk_info 5 false); ((1%nat, 2), mk_info 0 false)]; []; []]).
Proof. vm_compute. reflexivity. Qed.

(** The race: a step that lowers a threshold. *)
Lemma bexec_app cfg a b : forall st : bstate tstate cfg, bexec (a ++ b) st = match bexec a st with BNext st1 => bexec b st1 | o => o end.
Proof.
  induction a as [|[i x] a IH]; intros st; cbn [bexec app]; [reflexivity|]. destruct (bthread_step ts_eqb cfg orc_fwd x i st); auto.
Qed.
Lemma brun_app cfg n m a b : brun cfg n m (a ++ b) = match brun cfg n m a with BNext st1 => bexec b st1 | o => o end.
Proof. unfold brun. destruct (binitial cfg n m); [apply bexec_app|reflexivity]. Qed.
Lemma entry_threshold cfg (st : bstate tstate cfg) s i : RaceCases.entry (BNext st) s = Some (Some i) -> threshold_of tstate ts_eqb cfg st (fst s) s = Some i.
Proof.
  unfold RaceCases.entry, threshold_of. cbn. intros H. destruct (nth_error (q_table st) (fst s)) as [l|] eqn:E.
  - rewrite (nth_error_nth _ _ _ E) in H. injection H as H. exact H.
  - rewrite nth_overflow in H by (apply nth_error_None; exact E). discriminate.
Qed.
Lemma lowered : exists st st', breachable tstate ts_eqb cfgD 2 2 st /\ bstep tstate ts_eqb cfgD st st' /\
  threshold_of tstate ts_eqb cfgD st 3 (3%nat, 1) = Some (mk_info 5 true) /\ threshold_of tstate ts_eqb cfgD st' 3 (3%nat, 1) = Some (mk_info 3 false).
Proof.
  destruct race2_entries as (_ & H1 & H2 & _). rewrite app_assoc, brun_app in H2. destruct (brun cfgD 2 2 (go 50 0 ++ go 88 1)) as [st| |] eqn:E; try discriminate H1.
  change (go 1 0) with [(0%nat, false)] in H2. cbn [bexec] in H2.
  destruct (bthread_step ts_eqb cfgD orc_fwd false 0 st) as [st'| |] eqn:Es; [|discriminate H2|rewrite H1 in H2; discriminate H2].
  exists st, st'. split; [eapply brun_reachable; exact E|]. split; [exists orc_fwd, false, 0%nat; split; [apply orc_fwd_ok|exact Es]|].
  split; [apply (entry_threshold _ _ (3%nat, 1)); exact H1|apply (entry_threshold _ _ (3%nat, 1)); exact H2].
Qed.
(** A problem that still names a variable when the layer is empty: the diagram says it is exact although it dropped a node. *)
Lemma early_seen : seen (among idle 0 (b_compile callB LastExactLayer) [[]; []; []]) = Some (Some None, Some None, true, Some [], [[]; []; []]).
Proof. vm_compute. reflexivity. Qed.
Lemma early_wrong : exists dF, returns ts_eqb true (b_compile callB LastExactLayer) [[]; []; []] dF [[]; []; []] /\ g_exact dF = true /\ best_value dF = Some None.
Proof. destruct (seen_returns true idle _ _ _ idle_ok early_seen) as (dF & T' & H & E). injection E as E1 E2 E3 E4 E5. subst T'. exists dF. auto. Qed.
Lemma early_exact :
  exists (t : table) (f : list tstate -> option nat) inp dF ds,
  well_behaved tstate ts_eqb (t_problem t) (t_relax t) t_at t_nv 1000 /\
  (forall l, l <> [] -> f l = pb_next_var (t_problem t) l) /\
  i_pb inp = with_next tstate (t_problem t) f /\ i_type inp = Restricted /\ i_lb inp = 0 /\ i_width inp = 1%nat /\
  returns ts_eqb true (b_compile inp LastExactLayer) [[]; []; []] dF [[]; []; []] /\ g_exact dF = true /\ best_value dF = Some None /\
  completes tstate (t_problem t) t_nv (i_res inp) ds 3.
Proof.
  destruct early_wrong as (dF & H1 & H2 & H3). exists MddCases.tabB, nextB, callB, dF, [dA 0 1; dA 1 0].
  split; [exact MddCases.tabB_ok|]. split; [intros [|s l] H; [congruence|reflexivity]|]. split; [reflexivity|]. split; [reflexivity|]. split; [reflexivity|]. split; [reflexivity|].
  split; [exact H1|]. split; [exact H2|]. split; [exact H3|]. exact MddCases.tabB_sol.
Qed.
