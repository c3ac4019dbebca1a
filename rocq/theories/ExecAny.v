(** Concrete executions of both solvers on any problem, and enumeration of completions. Nothing here models code of /repo. *)
From Verif Require Import Spec Dd DdSpec MddAll FringeSpec ParSpec ParProofs MddBarrier BarSpec BarProofs Table MddCases ParCases.
Open Scope Z_scope.

Section Any.
Variable S : Type.
Variable eqb : S -> S -> bool.
Variable cfg : config S.

Fixpoint pexec (s : schedule) (st : state S cfg) : outcome S cfg :=
  match s with
  | [] => Next st
  | (i, intr) :: r => match thread_step eqb cfg orc_fwd intr i st with Next st' => pexec r st' | Panic => Panic | Disabled => pexec r st end
  end.
Definition prun (n m : nat) (s : schedule) : outcome S cfg := match initial cfg n m with Some st => pexec s st | None => Panic end.
Definition pdone (p : pc S) : bool := match p with PDone => true | _ => false end.
Definition plook (o : outcome S cfg) : option view :=
  match o with
  | Next st => Some (mk_view (forallb (fun t => pdone (t_pc t)) (s_threads st)) (c_interrupted (s_crit st)) (lower_bound_of cfg st) (upper_bound_of cfg st) (best_value_of cfg st) (best_solution_of cfg st))
  | _ => None
  end.
Lemma pexec_reaches s : forall st st', pexec s st = Next st' -> reaches S eqb cfg st st'.
Proof.
  induction s as [|[i intr] r IH]; intros st st' H; cbn [pexec] in H; [injection H as ->; apply reaches_refl|].
  destruct (thread_step eqb cfg orc_fwd intr i st) as [st1| |] eqn:E; [|discriminate|auto].
  eapply ParProofs.reaches_left; [|apply IH; exact H]. exists orc_fwd, intr, i. split; [apply orc_fwd_ok|exact E].
Qed.
Lemma prun_look n m s v : plook (prun n m s) = Some v -> exists st, reachable S eqb cfg n m st /\
  (v_done v = true -> all_done cfg st) /\ c_interrupted (s_crit st) = v_int v /\ best_value_of cfg st = v_val v /\ best_solution_of cfg st = v_sol v.
Proof.
  unfold prun. destruct (initial cfg n m) as [st0|] eqn:E0; [|discriminate]. destruct (pexec s st0) as [st| |] eqn:E; try discriminate. intros H.
  exists st. split; [exists st0; split; [exact E0|eapply pexec_reaches; eauto]|]. injection H as <-. cbn [v_done v_int v_val v_sol]. split; [|auto].
  intros H t Ht. rewrite forallb_forall in H. specialize (H t Ht). destruct (t_pc t); cbn in H; try discriminate. reflexivity.
Qed.

Fixpoint qexec (s : schedule) (st : bstate S cfg) : boutcome S cfg :=
  match s with
  | [] => BNext st
  | (i, intr) :: r => match bthread_step eqb cfg orc_fwd intr i st with BNext st' => qexec r st' | BPanic => BPanic | BDisabled => qexec r st end
  end.
Definition qrun (n m : nat) (s : schedule) : boutcome S cfg := match binitial cfg n m with Some st => qexec s st | None => BPanic end.
Definition qdone (p : bpc S) : bool := match p with BDone => true | _ => false end.
Definition qlook (o : boutcome S cfg) : option view :=
  match o with
  | BNext st => Some (mk_view (forallb (fun t => qdone (u_pc t)) (q_threads st)) (c_interrupted (k_c (q_crit st))) (blower_bound cfg st) (bupper_bound cfg st) (bbest_value cfg st) (bbest_solution cfg st))
  | _ => None
  end.
Lemma qexec_reaches s : forall st st', qexec s st = BNext st' -> breaches S eqb cfg st st'.
Proof.
  induction s as [|[i intr] r IH]; intros st st' H; cbn [qexec] in H; [injection H as ->; apply breaches_refl|].
  destruct (bthread_step eqb cfg orc_fwd intr i st) as [st1| |] eqn:E; [|discriminate|auto].
  eapply breaches_left; [|apply IH; exact H]. exists orc_fwd, intr, i. split; [apply orc_fwd_ok|exact E].
Qed.
Lemma qrun_look n m s v : qlook (qrun n m s) = Some v -> exists st, breachable S eqb cfg n m st /\
  (v_done v = true -> ball_done cfg st) /\ c_interrupted (k_c (q_crit st)) = v_int v /\ bbest_value cfg st = v_val v /\ bbest_solution cfg st = v_sol v.
Proof.
  unfold qrun. destruct (binitial cfg n m) as [st0|] eqn:E0; [|discriminate]. destruct (qexec s st0) as [st| |] eqn:E; try discriminate. intros H.
  exists st. split; [exists st0; split; [exact E0|eapply qexec_reaches; eauto]|]. injection H as <-. cbn [v_done v_int v_val v_sol]. split; [|auto].
  intros H t Ht. rewrite forallb_forall in H. specialize (H t Ht). destruct (u_pc t); cbn in H; try discriminate. reflexivity.
Qed.
End Any.

Section Completions.
Variable S : Type.
Variable P : problem S.
Variable nv : nat -> nat.
(** Every completion of [s], with [fuel] variables left. *)
Fixpoint completions (fuel k : nat) (s : S) : list (list decision * Z) :=
  match fuel with
  | O => [([], 0)]
  | Datatypes.S f => flat_map (fun d => map (fun x => (d :: fst x, pb_cost P s d + snd x)) (completions f (Datatypes.S k) (pb_trans P s d))) (pb_domain P (nv k) s)
  end.
Lemma completions_all k s ds k' s' c : run S P nv k s ds k' s' c -> k' = pb_nb_vars P -> In (ds, c) (completions (pb_nb_vars P - k) k s).
Proof.
  induction 1 as [k s|k s d ds k' s' c Hk Hd Hr IH]; intros E.
  - subst k. rewrite Nat.sub_diag. left. reflexivity.
  - replace (pb_nb_vars P - k)%nat with (Datatypes.S (pb_nb_vars P - Datatypes.S k)) by lia. cbn [completions]. apply in_flat_map. exists d. split; [exact Hd|].
    apply in_map_iff. exists (ds, c). split; [reflexivity|auto].
Qed.
Lemma completions_only : forall fuel k s ds c, (k + fuel)%nat = pb_nb_vars P -> In (ds, c) (completions fuel k s) -> completion S P nv k s ds c.
Proof.
  induction fuel as [|f IH]; intros k s ds c E H; cbn [completions] in H.
  - destruct H as [H|[]]. injection H as <- <-. exists s. replace (pb_nb_vars P) with k by lia. constructor.
  - apply in_flat_map in H as (d & Hd & H). apply in_map_iff in H as ([ds' c'] & Ex & H). injection Ex as <- <-. destruct (IH (Datatypes.S k) (pb_trans P s d) ds' c' ltac:(lia) H) as (s' & Hr).
    exists s'. constructor; [lia|exact Hd|exact Hr].
Qed.
Lemma completion_in k s ds c : completion S P nv k s ds c -> In (ds, c) (completions (pb_nb_vars P - k) k s).
Proof. intros (s' & Hr). eapply completions_all; eauto. Qed.

(** Following given decisions. *)
Fixpoint follow (k : nat) (s : S) (ds : list decision) : option (S * Z) :=
  match ds with
  | [] => Some (s, 0)
  | d :: t =>
      if (k <? pb_nb_vars P)%nat && existsb (fun e => (d_var e =? d_var d)%nat && (d_val e =? d_val d)) (pb_domain P (nv k) s) then
        match follow (Datatypes.S k) (pb_trans P s d) t with Some (s', c) => Some (s', pb_cost P s d + c) | None => None end
      else None
  end.
Lemma follow_run : forall ds k s s' c, follow k s ds = Some (s', c) -> run S P nv k s ds (k + length ds) s' c.
Proof.
  induction ds as [|d ds IH]; intros k s s' c H; cbn [follow] in H.
  - injection H as <- <-. cbn [length]. rewrite Nat.add_0_r. constructor.
  - destruct (_ && _) eqn:E; [|discriminate]. apply andb_true_iff in E as [Hk E]. apply Nat.ltb_lt in Hk. apply existsb_exists in E as ([v x] & Hin & E).
    cbn [d_var d_val] in E. apply andb_true_iff in E as [Ev Ex]. apply Nat.eqb_eq in Ev. apply Z.eqb_eq in Ex. destruct d as [v' x']. cbn [d_var d_val] in *. subst v' x'.
    destruct (follow _ _ _) as [[s1 c1]|] eqn:Ef; [|discriminate]. injection H as <- <-. cbn [length]. replace (k + Datatypes.S (length ds))%nat with (Datatypes.S k + length ds)%nat by lia.
    constructor; auto.
Qed.
End Completions.
Arguments completions {S}. Arguments follow {S}.
