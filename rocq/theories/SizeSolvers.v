(** Proofs about the size of a search: how many nodes the solvers expand for each subproblem they take. *)
From Verif Require Import Spec Dd DdSpec MddAll MddBarrier MddBarrierSpec FringeSpec ParSolver ParSpec ParFacts BarSolver BarSpec BarFacts CountersSpec CountersProofs SizeSpec DdCountMdd SizeProofs.
From Coq Require Import Lia ZArith List Permutation.
Import ListNotations.
Open Scope nat_scope.

Section Sizes.
Variable S : Type.
Variable eqb : S -> S -> bool.
Variable cfg : config S.
Variable at_depth : nat -> S -> Prop.
Variable nv : nat -> nat.
Variable C : Z.
Variables D W : nat.
Notation P := (cf_pb cfg).
Notation R := (cf_rx cfg).
Notation N := (pb_nb_vars P).
Hypothesis WF : well_formed S eqb P R at_depth nv C.
Hypothesis HD : domains_within S P at_depth nv D.
Hypothesis HW : forall s, cf_width cfg s <= W.
Notation genuine := (genuine S P nv).
Notation Kr := (most_restricted W N).
Notation Kx := (most_relaxed W D N).

Lemma run_layer k s ds k' s' c : run S P nv k s ds k' s' c -> at_depth k s -> k <= N -> at_depth k' s' /\ k' <= N.
Proof. induction 1 as [|k s d ds k' s' c Hk Hd Hr IH]; intros Ha Hl; [auto|]. apply IH; [|lia]. eapply wf_trans; eauto. apply WF. Qed.
Lemma genuine_layer q : genuine q -> at_depth (depth_of q) (sp_state q) /\ depth_of q <= N.
Proof. intros (ds & c & _ & Hr & _). eapply run_layer; [exact Hr| |lia]. apply (wf_init _ _ _ _ (wfd_problem _ _ _ _ _ _ _ WF)). Qed.
Lemma most_relaxed_le w r : w <= W -> r <= N -> most_relaxed w D r <= Kx.
Proof. intros Hw Hr. unfold most_relaxed. destruct r as [|[|r]], (pb_nb_vars P) as [|[|m]]; nia. Qed.
Lemma most_restricted_le w r : w <= W -> r <= N -> most_restricted w r <= Kr.
Proof. intros Hw Hr. unfold most_restricted. nia. Qed.
Definition limit (ty : comp_type) : nat := match ty with Relaxed => Kx | _ => Kr end.
Lemma sized_limit ty n lb d : ty <> Exact -> sized S (call cfg ty n lb) P D d -> g_explored d <= limit ty.
Proof.
  intros Hty [H _]. unfold most in H. cbn [call i_type i_width i_res] in H. destruct ty; [congruence| |]; cbn [limit].
  - eapply Nat.le_trans; [exact H|]. apply most_relaxed_le; [apply HW|lia].
  - eapply Nat.le_trans; [exact H|]. apply most_restricted_le; [apply HW|lia].
Qed.
Lemma all_limit orc ty n lb d d' : library_ok S orc -> genuine n -> ty <> Exact -> MddAll.compile eqb false orc (call cfg ty n lb) d = Some d' -> g_explored d' <= limit ty.
Proof.
  intros (H1 & H2 & _) Hn Hty E. destruct (genuine_layer n Hn) as [Ha Hd]. eapply sized_limit; [exact Hty|].
  eapply (all_sized S eqb (call cfg ty n lb) orc P R at_depth nv D); eauto; try apply WF.
Qed.
Lemma bar_limit orc ty n lb d : library_ok S orc -> genuine n -> ty <> Exact -> pw S (MddBarrier.compile eqb false orc (call cfg ty n lb) d) (fun d' => g_explored d' <= limit ty).
Proof.
  intros (H1 & H2 & _) Hn Hty. destruct (genuine_layer n Hn) as [Ha Hd]. eapply pw_mono; [intros a; apply (sized_limit ty n lb); exact Hty|].
  eapply (bar_sized_pw S eqb (call cfg ty n lb) orc P R at_depth nv D); eauto; try apply WF.
Qed.

(** ** parallel.rs *)
Definition due (t : thread S) : nat := match t_pc t with PStart _ => Kr + Kx | PRestricted _ | PRelax _ _ => Kx | _ => 0 end.
Definition dues (l : list (thread S)) : nat := list_sum (map due l).
Lemma dues_wake l : dues (map wake l) = dues l.
Proof. unfold dues. rewrite map_map. f_equal. apply map_ext. intros [[] d]; reflexivity. Qed.
Lemma step_due orc intr i st st' t t' : library_ok S orc -> Forall genuine (ParFacts.held S t) -> thread_step eqb cfg orc intr i st = Next st' ->
  nth_error (s_threads st) i = Some t -> nth_error (s_threads st') i = Some t' ->
  expanded S (t_pc t) (t_pc t') (t_dd t') + dues (s_threads st') <= dues (s_threads st) + took S (t_pc t) (t_pc t') * (Kr + Kx).
Proof.
  intros Hl Hg H Ht Ht'. unfold thread_step in H. rewrite Ht in H. destruct t as [p d]. cbn [t_pc t_dd] in *.
  assert (L : forall (o : option (critical S cfg * thread S)) c1 t1, lift cfg o i st = Next st' -> o = Some (c1, t1) -> t' = t1 /\
    dues (s_threads st') + due (mk_th p d) = dues (s_threads st) + due t1).
  { intros o c1 t1 HL ->. cbn in HL. injection HL as <-. cbn [s_crit s_threads] in *. rewrite (nth_put _ _ _ _ Ht) in Ht'. injection Ht' as <-.
    split; [reflexivity|]. exact (sum_put due _ _ _ _ Ht). }
  assert (LN : forall (o : option (critical S cfg * thread S)), lift cfg o i st = Next st' -> exists x, o = Some x).
  { intros o HL. destruct o; [eauto|discriminate]. }
  destruct p; try discriminate.
  - destruct (LN _ H) as [[c1 t1] E]. destruct (L _ _ _ H E) as (-> & Hu). clear L LN H.
    destruct (get_workload cfg (s_crit st) i intr) as [[c2 w]|] eqn:G; cbn [obind] in E; [|discriminate]. injection E as <- <-. destruct w; cbn in *; lia.
  - destruct (LN _ H) as [[c1 t1] E]. destruct (L _ _ _ H E) as (-> & Hu). clear L LN H.
    destruct (_ <=? _)%Z; [injection E as <- <-; cbn in *; lia|]. destruct (MddAll.compile _ _ _ _ _) as [d'|] eqn:Ec; cbn [obind] in E; [|discriminate].
    injection E as <- <-. apply Forall_inv in Hg. pose proof (all_limit orc Restricted _ _ _ _ Hl Hg ltac:(discriminate) Ec) as Hx. cbn [limit] in Hx. cbn [due t_pc expanded took t_dd] in *. lia.
  - destruct (LN _ H) as [[c1 t1] E]. destruct (L _ _ _ H E) as (-> & Hu). clear L LN H.
    destruct (maybe_update_best _ _ _) as [c2|]; cbn [obind] in E; [|discriminate]. injection E as <- <-. destruct (g_exact d); cbn [due t_pc expanded took t_dd] in *; lia.
  - destruct (LN _ H) as [[c1 t1] E]. destruct (L _ _ _ H E) as (-> & Hu). clear L LN H.
    destruct (MddAll.compile _ _ _ _ _) as [d'|] eqn:Ec; cbn [obind] in E; [|discriminate]. injection E as <- <-. apply Forall_inv in Hg.
    pose proof (all_limit orc Relaxed _ _ _ _ Hl Hg ltac:(discriminate) Ec) as Hx. cbn [limit] in Hx. cbn [due t_pc expanded took t_dd] in *. lia.
  - destruct (LN _ H) as [[c1 t1] E]. destruct (L _ _ _ H E) as (-> & Hu). clear L LN H. destruct (g_exact d).
    + destruct (maybe_update_best _ _ _) as [c2|]; cbn [obind] in E; [|discriminate]. injection E as <- <-. cbn in *. lia.
    + unfold enqueue_cutset in E. destruct (drain_cutset d) as [[l d2]|]; cbn [obind] in E; [|discriminate]. destruct (ofold _ _ _); cbn [obind] in E; [|discriminate]. injection E as <- <-. cbn in *. lia.
  - destruct (finish_node _ _ _ _) as [c'|]; [|discriminate]. injection H as <-. cbn [s_threads] in *. rewrite dues_wake. rewrite nth_error_map, (nth_put _ _ _ _ Ht) in Ht'. injection Ht' as <-.
    assert (Hu := sum_put due i (mk_th PIdle d) _ _ Ht). unfold dues. cbn [due t_pc expanded took t_dd wake] in *. lia.
Qed.
Lemma dues_init n m st : initial cfg n m = Some st -> dues (s_threads st) = 0.
Proof.
  unfold initial. destruct (fr_push _ _ _); cbn [obind]; [|discriminate]. intros H. injection H as <-. cbn [s_threads]. unfold dues.
  induction m as [|m IH]; cbn; [reflexivity|exact IH].
Qed.
Lemma dues_spurious st st' : spurious S cfg st st' -> dues (s_threads st') = dues (s_threads st).
Proof. intros (i & d & Hn & ->). cbn [s_threads]. pose proof (sum_put due i (mk_th PIdle d) _ _ Hn) as Hs. cbn [due t_pc] in Hs. unfold dues. lia. Qed.
Lemma counted_reachable n m a b st : counted S eqb cfg n m a b st -> reachable S eqb cfg n m st.
Proof.
  induction 1 as [st H|a b st orc intr i st' t t' _ (st0 & H0 & IH) Hl Hs _ _|a b st st' _ (st0 & H0 & IH) Hs].
  - exists st. split; [exact H|constructor].
  - exists st0. split; [exact H0|]. econstructor; [exact IH|]. left. exists orc, intr, i. auto.
  - exists st0. split; [exact H0|]. econstructor; [exact IH|]. right. exact Hs.
Qed.
Lemma par_due n m a b st : good_solver S eqb cfg at_depth nv C -> m <= n -> counted S eqb cfg n m a b st -> b + dues (s_threads st) <= a * (Kr + Kx).
Proof.
  intros (inv & content & G) Hm. induction 1 as [st H|a b st orc intr i st' t t' HC IH Hl Hs Ht Ht'|a b st st' HC IH Hs].
  - rewrite (dues_init _ _ _ H). lia.
  - pose proof (ParFacts.i_th _ _ _ _ _ _ _ (ParFacts.reachable_inv1 S eqb cfg at_depth nv C True inv content G n m st Hm (counted_reachable _ _ _ _ _ HC))) as Hth.
    rewrite Forall_forall in Hth. specialize (Hth t (nth_error_In _ _ Ht)). destruct Hth as (_ & Hg & _).
    pose proof (step_due orc intr i st st' t t' Hl Hg Hs Ht Ht'). lia.
  - rewrite (dues_spurious _ _ Hs). exact IH.
Qed.
Theorem par_per_subproblem n m st : good_solver S eqb cfg at_depth nv C -> m <= n -> reachable S eqb cfg n m st ->
  c_explored_dd (s_crit st) <= c_explored (s_crit st) * (Kr + Kx).
Proof.
  intros G Hm Hr. destruct (par_counted_all _ _ _ _ _ _ Hr) as (a & b & HC). destruct (par_counters _ _ _ _ _ _ _ _ HC) as (-> & Hb & _).
  pose proof (par_due _ _ _ _ _ G Hm HC). lia.
Qed.

(** ** barrier.rs *)
Definition bdue (t : bthread S) : nat := match u_pc t with BStart _ | BRestrict _ _ => Kr + Kx | BRelax _ _ | BRelaxing _ _ _ => Kx | _ => 0 end.
Definition bdues (l : list (bthread S)) : nat := list_sum (map bdue l).
Definition limited (t : bthread S) : Prop :=
  match u_pc t with
  | BRestrict _ p => pw S p (fun d => g_explored d <= Kr)
  | BRelaxing _ _ p => pw S p (fun d => g_explored d <= Kx)
  | _ => True
  end.
Lemma bdues_wake l : bdues (map bwake l) = bdues l.
Proof. unfold bdues. rewrite map_map. f_equal. apply map_ext. intros [[] d]; reflexivity. Qed.
Lemma limited_wake t : limited t -> limited (bwake t).
Proof. destruct t as [[] d]; auto. Qed.
Lemma pw_access {A} (p : prog S A) T p' T' (Q : A -> Prop) : access eqb p T = Some (p', T') -> pw S p Q -> pw S p' Q.
Proof.
  intros Ha H. destruct p; cbn in Ha; try discriminate.
  - destruct (nth_error T depth); cbn in Ha; [|discriminate]. injection Ha as <- _. apply H.
  - destruct (nth_error T depth); cbn in Ha; [|discriminate]. injection Ha as <- _. apply H.
  - destruct (nth_error T depth); cbn in Ha; [|discriminate]. destruct (upd T depth _); cbn in Ha; [|discriminate]. injection Ha as <- _. exact H.
Qed.
Lemma Forall_put {A} (Q : A -> Prop) i x : forall l, Forall Q l -> Q x -> Forall Q (put i x l).
Proof. induction i; intros [|h l] H Hx; cbn; auto; inversion H; subst; constructor; auto. Qed.
Lemma bstep_due orc intr i st st' t t' : library_ok S orc -> Forall genuine (BarFacts.held S t) -> Forall limited (q_threads st) -> bthread_step eqb cfg orc intr i st = BNext st' ->
  nth_error (q_threads st) i = Some t -> nth_error (q_threads st') i = Some t' ->
  Forall limited (q_threads st') /\ bexpanded S (u_pc t) (u_pc t') + bdues (q_threads st') <= bdues (q_threads st) + btook S (u_pc t) (u_pc t') * (Kr + Kx).
Proof.
  intros Hl Hg HL H Ht Ht'. assert (Hlt : limited t) by (rewrite Forall_forall in HL; apply HL; eapply nth_error_In; exact Ht).
  unfold bthread_step in H. rewrite Ht in H. destruct t as [p d]. cbn [u_pc u_dd] in *.
  assert (G : forall k T t1, goto cfg st i k T t1 = BNext st' -> t' = t1 /\ (limited t1 -> Forall limited (q_threads st')) /\ bdues (q_threads st') + bdue (mk_bth p d) = bdues (q_threads st) + bdue t1).
  { intros k T t1 HG. unfold goto in HG. injection HG as <-. cbn [q_crit q_threads] in *. rewrite (nth_put _ _ _ _ Ht) in Ht'. injection Ht' as <-.
    split; [reflexivity|]. split; [intros; apply Forall_put; assumption|]. exact (sum_put bdue _ _ _ _ Ht). }
  destruct p; try discriminate.
  - destruct (locked cfg st); [discriminate|]. destruct (G _ _ _ H) as (-> & Hk & Hu). split; [apply Hk; exact I|]. cbn in *. lia.
  - destruct (clean_turn _ _ _) as [[[k' T']|]|] eqn:E; [| |discriminate].
    + destruct (G _ _ _ H) as (-> & Hk & Hu). split; [apply Hk; exact I|]. cbn in *. lia.
    + destruct (decide _ _ _) as [[k' p]|] eqn:E'; [|discriminate]. destruct (G _ _ _ H) as (-> & Hk & Hu). destruct (decide_count _ _ _ _ _ _ E') as (_ & _ & Hp).
      split; [apply Hk; destruct p; try destruct Hp; exact I|]. cbn [u_pc]. destruct p; try destruct Hp; cbn in *; lia.
  - destruct (try_node _ _ _ _ _) as [[k' p]|] eqn:E'; [|discriminate]. destruct (G _ _ _ H) as (-> & Hk & Hu). destruct (try_count _ _ _ _ _ _ _ _ E') as (_ & _ & Hp).
    split; [apply Hk; destruct p; try destruct Hp; exact I|]. cbn [u_pc]. destruct p; try destruct Hp; cbn in *; lia.
  - destruct (take_node _ _ _ _ _ _) as [[k' T']|] eqn:E'; [|discriminate]. destruct (G _ _ _ H) as (-> & Hk & Hu). split; [apply Hk; exact I|]. cbn in *. lia.
  - destruct (locked cfg st); [discriminate|]. destruct (G _ _ _ H) as (-> & Hk & Hu). apply Forall_inv in Hg. destruct (_ <=? _)%Z; (split; [apply Hk|cbn [u_pc bdue bexpanded btook] in *; lia]); [exact I|].
    cbn [limited u_pc]. apply (bar_limit orc Restricted); [exact Hl|exact Hg|discriminate].
  - destruct p as [d'| | | | ].
    1: { destruct (locked cfg st); [discriminate|]. destruct (maybe_update_best _ _ _) as [c2|] eqn:E; cbn [obind] in H; [|discriminate]. destruct (G _ _ _ H) as (-> & Hk & Hu).
         cbn [limited u_pc pw] in Hlt. destruct (g_exact d'); (split; [apply Hk; exact I|cbn [u_pc bdue bexpanded btook] in *; lia]). }
    all: unfold compile_step in H; destruct (access _ _ _) as [[p' T']|] eqn:Ea; [|discriminate]; destruct (G _ _ _ H) as (-> & Hk & Hu);
      (split; [apply Hk; cbn [limited u_pc] in *; eapply pw_access; [exact Ea|exact Hlt]|cbn [u_pc bdue bexpanded btook] in *; lia]).
  - destruct (locked cfg st); [discriminate|]. destruct (G _ _ _ H) as (-> & Hk & Hu). apply Forall_inv in Hg. split; [apply Hk|cbn [u_pc bdue bexpanded btook] in *; lia].
    cbn [limited u_pc]. apply (bar_limit orc Relaxed); [exact Hl|exact Hg|discriminate].
  - destruct p as [d'| | | | ].
    1: { destruct (locked cfg st); [discriminate|]. cbn [limited u_pc pw] in Hlt. destruct (g_exact d').
         - destruct (maybe_update_best _ _ _) as [c2|] eqn:E; cbn [obind] in H; [|discriminate]. destruct (G _ _ _ H) as (-> & Hk & Hu). split; [apply Hk; exact I|cbn [u_pc bdue bexpanded btook] in *; lia].
         - unfold benqueue_cutset in H. destruct (drain_cutset d') as [[l d2]|]; cbn [obind] in H; [|discriminate].
           destruct (ofold _ _ _) as [[f o]|]; cbn [obind] in H; [|discriminate]. destruct (G _ _ _ H) as (-> & Hk & Hu). split; [apply Hk; exact I|cbn [u_pc bdue bexpanded btook] in *; lia]. }
    all: unfold compile_step in H; destruct (access _ _ _) as [[p' T']|] eqn:Ea; [|discriminate]; destruct (G _ _ _ H) as (-> & Hk & Hu);
      (split; [apply Hk; cbn [limited u_pc] in *; eapply pw_access; [exact Ea|exact Hlt]|cbn [u_pc bdue bexpanded btook] in *; lia]).
  - clear G. destruct (locked cfg st); [discriminate|]. destruct (bfinish_node _ _ _ _ _) as [k'|]; [|discriminate]. injection H as <-. cbn [q_threads] in *. rewrite bdues_wake.
    rewrite nth_error_map, (nth_put _ _ _ _ Ht) in Ht'. cbn in Ht'. injection Ht' as <-. split.
    + apply Forall_forall. intros x Hx. apply in_map_iff in Hx as (y & <- & Hy). apply limited_wake. revert y Hy. apply Forall_forall. apply Forall_put; [exact HL|exact I].
    + assert (Hu := sum_put bdue i (mk_bth BIdle d) _ _ Ht). unfold bdues. cbn [u_pc bdue bexpanded btook] in *. lia.
Qed.
Lemma bdues_init n m st : binitial cfg n m = Some st -> bdues (q_threads st) = 0 /\ Forall limited (q_threads st).
Proof.
  unfold binitial. intros H. repeat match type of H with obind ?x _ = _ => destruct x; cbn [obind] in H; [|discriminate] end. injection H as <-. cbn [q_threads]. split.
  - unfold bdues. induction m as [|m IH]; cbn; [reflexivity|exact IH].
  - apply Forall_forall. intros t Ht. apply repeat_spec in Ht. subst t. exact I.
Qed.
Lemma bdues_spurious st st' : bspurious S cfg st st' -> Forall limited (q_threads st) -> bdues (q_threads st') = bdues (q_threads st) /\ Forall limited (q_threads st').
Proof.
  intros (i & d & Hn & ->) HL. cbn [q_threads]. split; [|apply Forall_put; [exact HL|exact I]].
  pose proof (sum_put bdue i (mk_bth BIdle d) _ _ Hn) as Hs. cbn [bdue u_pc] in Hs. unfold bdues. lia.
Qed.
Lemma bcounted_reachable n m a b st : bcounted S eqb cfg n m a b st -> breachable S eqb cfg n m st.
Proof.
  induction 1 as [st H|a b st orc intr i st' t t' _ (st0 & H0 & IH) Hl Hs _ _|a b st st' _ (st0 & H0 & IH) Hs].
  - exists st. split; [exact H|constructor].
  - exists st0. split; [exact H0|]. econstructor; [exact IH|]. left. exists orc, intr, i. auto.
  - exists st0. split; [exact H0|]. econstructor; [exact IH|]. right. exact Hs.
Qed.
Lemma bar_due n m a b st : good_solver S eqb cfg at_depth nv C -> m <= n -> bcounted S eqb cfg n m a b st -> Forall limited (q_threads st) /\ b + bdues (q_threads st) <= a * (Kr + Kx).
Proof.
  intros (inv & content & G) Hm. induction 1 as [st H|a b st orc intr i st' t t' HC [IL IH] Hl Hs Ht Ht'|a b st st' HC [IL IH] Hs].
  - destruct (bdues_init _ _ _ H) as [-> HL]. split; [exact HL|lia].
  - pose proof (BarFacts.i_th _ _ _ _ _ _ _ _ _ _ (BarFacts.reachable_inv1 S eqb cfg at_depth nv C True inv content G n m st Hm (bcounted_reachable _ _ _ _ _ HC))) as Hth.
    rewrite Forall_forall in Hth. specialize (Hth t (nth_error_In _ _ Ht)). destruct Hth as (_ & Hg & _).
    destruct (bstep_due orc intr i st st' t t' Hl Hg IL Hs Ht Ht') as [HL Hd]. split; [exact HL|lia].
  - destruct (bdues_spurious _ _ Hs IL) as [-> HL]. split; [exact HL|exact IH].
Qed.
Theorem bar_per_subproblem n m st : good_solver S eqb cfg at_depth nv C -> m <= n -> breachable S eqb cfg n m st ->
  c_explored_dd (k_c (q_crit st)) <= c_explored (k_c (q_crit st)) * (Kr + Kx).
Proof.
  intros G Hm Hr. destruct (bar_counted_all _ _ _ _ _ _ Hr) as (a & b & HC). destruct (bar_counters _ _ _ _ _ _ _ _ HC) as (-> & Hb & _).
  destruct (bar_due _ _ _ _ _ G Hm HC). lia.
Qed.
End Sizes.

(** * One compilation *)
Section Calls.
Variable S : Type.
Variable eqb : S -> S -> bool.
Variable P : problem S.
Variable R : relaxation S.
Variable at_depth : nat -> S -> Prop.
Variable nv : nat -> nat.
Variable C : Z.
Variable D : nat.
Notation N := (pb_nb_vars P).
Lemma genuine_at q : well_formed S eqb P R at_depth nv C -> genuine S P nv q -> at_depth (depth_of q) (sp_state q) /\ depth_of q <= N.
Proof.
  intros WF (ds & c & _ & Hr & _). assert (H : forall k s ds k' s' c, run S P nv k s ds k' s' c -> at_depth k s -> k <= N -> at_depth k' s' /\ k' <= N).
  { induction 1 as [|k s d ds0 k' s' c0 Hk Hd Hr' IH]; intros Ha Hl; [auto|]. apply IH; [|lia]. eapply wf_trans; eauto. apply WF. }
  eapply H; [exact Hr| |lia]. apply (wf_init _ _ _ _ (wfd_problem _ _ _ _ _ _ _ WF)).
Qed.
Lemma all_call debug orc inp (d dF : dd S) : well_formed S eqb P R at_depth nv C -> good_call S P R nv debug orc inp -> domains_within S P at_depth nv D ->
  MddAll.compile eqb debug orc inp d = Some dF -> i_type inp <> Exact -> sized S inp P D dF.
Proof.
  intros WF [(L1 & L2 & _) Hpb Hrx _ Hg _] HD E Hty. destruct (genuine_at _ WF Hg) as [Ha Hd].
  eapply (all_sized S eqb inp orc P R at_depth nv D); eauto; apply WF.
Qed.
Lemma bar_call alone debug orc inp (d dF : dd S) T T' : well_formed S eqb P R at_depth nv C -> good_call S P R nv debug orc inp -> domains_within S P at_depth nv D ->
  returns eqb alone (MddBarrier.compile eqb debug orc inp d) T dF T' -> i_type inp <> Exact -> sized S inp P D dF.
Proof.
  intros WF [(L1 & L2 & _) Hpb Hrx _ Hg _] HD E Hty. destruct (genuine_at _ WF Hg) as [Ha Hd].
  eapply (bar_sized S eqb inp orc P R at_depth nv D); eauto; apply WF.
Qed.
Lemma sized_restricted inp d : i_type inp = Restricted -> sized S inp P D d ->
  g_explored d <= most_restricted (i_width inp) (N - depth_of (i_res inp)) /\ length (g_nodes d) <= 1 + most_restricted (i_width inp) (N - depth_of (i_res inp)) * D.
Proof. intros Ht [H1 H2]. unfold most, extra in *. rewrite Ht in *. split; [exact H1|lia]. Qed.
Lemma sized_relaxed inp d : i_type inp = Relaxed -> sized S inp P D d ->
  g_explored d <= most_relaxed (i_width inp) D (N - depth_of (i_res inp)) /\
  length (g_nodes d) <= 1 + most_relaxed (i_width inp) D (N - depth_of (i_res inp)) * D + (N - depth_of (i_res inp) - 2).
Proof. intros Ht [H1 H2]. unfold most, extra in *. rewrite Ht in *. split; [exact H1|exact H2]. Qed.
Theorem all_restricted debug orc inp (d dF : dd S) : well_formed S eqb P R at_depth nv C -> good_call S P R nv debug orc inp -> domains_within S P at_depth nv D ->
  MddAll.compile eqb debug orc inp d = Some dF -> i_type inp = Restricted ->
  g_explored dF <= most_restricted (i_width inp) (N - depth_of (i_res inp)) /\ length (g_nodes dF) <= 1 + most_restricted (i_width inp) (N - depth_of (i_res inp)) * D.
Proof. intros WF Hg HD E Ht. apply sized_restricted; [exact Ht|]. eapply all_call; eauto. congruence. Qed.
Theorem all_relaxed debug orc inp (d dF : dd S) : well_formed S eqb P R at_depth nv C -> good_call S P R nv debug orc inp -> domains_within S P at_depth nv D ->
  MddAll.compile eqb debug orc inp d = Some dF -> i_type inp = Relaxed ->
  g_explored dF <= most_relaxed (i_width inp) D (N - depth_of (i_res inp)) /\
  length (g_nodes dF) <= 1 + most_relaxed (i_width inp) D (N - depth_of (i_res inp)) * D + (N - depth_of (i_res inp) - 2).
Proof. intros WF Hg HD E Ht. apply sized_relaxed; [exact Ht|]. eapply all_call; eauto. congruence. Qed.
Theorem bar_restricted alone debug orc inp (d dF : dd S) T T' : well_formed S eqb P R at_depth nv C -> good_call S P R nv debug orc inp -> domains_within S P at_depth nv D ->
  returns eqb alone (MddBarrier.compile eqb debug orc inp d) T dF T' -> i_type inp = Restricted ->
  g_explored dF <= most_restricted (i_width inp) (N - depth_of (i_res inp)) /\ length (g_nodes dF) <= 1 + most_restricted (i_width inp) (N - depth_of (i_res inp)) * D.
Proof. intros WF Hg HD E Ht. apply sized_restricted; [exact Ht|]. eapply bar_call; eauto. congruence. Qed.
Theorem bar_relaxed alone debug orc inp (d dF : dd S) T T' : well_formed S eqb P R at_depth nv C -> good_call S P R nv debug orc inp -> domains_within S P at_depth nv D ->
  returns eqb alone (MddBarrier.compile eqb debug orc inp d) T dF T' -> i_type inp = Relaxed ->
  g_explored dF <= most_relaxed (i_width inp) D (N - depth_of (i_res inp)) /\
  length (g_nodes dF) <= 1 + most_relaxed (i_width inp) D (N - depth_of (i_res inp)) * D + (N - depth_of (i_res inp) - 2).
Proof. intros WF Hg HD E Ht. apply sized_relaxed; [exact Ht|]. eapply bar_call; eauto. congruence. Qed.
End Calls.

(** * The solvers *)
Theorem par_work S eqb (cfg : config S) at_depth nv C D W n m st : good_solver S eqb cfg at_depth nv C -> domains_within S (cf_pb cfg) at_depth nv D ->
  (forall s, cf_width cfg s <= W) -> m <= n -> reachable S eqb cfg n m st ->
  c_explored_dd (s_crit st) <= c_explored (s_crit st) * (most_restricted W (pb_nb_vars (cf_pb cfg)) + most_relaxed W D (pb_nb_vars (cf_pb cfg))).
Proof. intros G HD HW Hm Hr. eapply par_per_subproblem; eauto. destruct G as (inv & content & G). exact (gs_formed _ _ _ _ _ _ _ _ _ G). Qed.
Theorem bar_work S eqb (cfg : config S) at_depth nv C D W n m st : good_solver S eqb cfg at_depth nv C -> domains_within S (cf_pb cfg) at_depth nv D ->
  (forall s, cf_width cfg s <= W) -> m <= n -> breachable S eqb cfg n m st ->
  c_explored_dd (k_c (q_crit st)) <= c_explored (k_c (q_crit st)) * (most_restricted W (pb_nb_vars (cf_pb cfg)) + most_relaxed W D (pb_nb_vars (cf_pb cfg))).
Proof. intros G HD HW Hm Hr. eapply bar_per_subproblem; eauto. destruct G as (inv & content & G). exact (gs_formed _ _ _ _ _ _ _ _ _ G). Qed.
