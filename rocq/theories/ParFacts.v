(** Invariants of the parallel solver. *)
From Verif Require Import Spec Dd DdSpec FlagsFacts MddAll MddAllProofs FringeSpec ParSpec.
From Verif Require Import DdFacts DdLoop DdFinal MddAllBounds MddAllObs.
From Coq Require Import ZifyNat Wf_nat.
Open Scope Z_scope.

(** * Lists *)
Section Lists.
Context {A : Type}.
Lemma put_split i (x : A) : forall l t, nth_error l i = Some t ->
  exists l1 l2, l = l1 ++ t :: l2 /\ put i x l = l1 ++ x :: l2 /\ length l1 = i.
Proof.
  induction i; intros [|h l] t H; cbn in H; try discriminate.
  - injection H as ->. exists [], l. auto.
  - destruct (IHi l t H) as (l1 & l2 & -> & E & L). exists (h :: l1), l2. cbn. rewrite E, L. auto.
Qed.
Lemma upd_some (l : list A) i x : (i < length l)%nat -> exists l', upd l i x = Some l' /\ length l' = length l.
Proof.
  revert i. induction l as [|h l IH]; intros i H; cbn in H; [lia|]. destruct i; cbn; [eauto|].
  destruct (IH i) as (l' & -> & E); [lia|]. cbn. eexists. split; [reflexivity|cbn; congruence].
Qed.
End Lists.

(** * The lexicographic order on vectors of naturals *)
Definition lt_vec (K : nat) (f g : nat -> nat) : Prop :=
  exists k, (k < K)%nat /\ (f k < g k)%nat /\ forall j, (j < k)%nat -> (f j <= g j)%nat.
Lemma lt_vec_wf K : well_founded (lt_vec K).
Proof.
  induction K as [|K IH]; intros g; [constructor; intros f (k & Hk & _); lia|].
  remember (g 0%nat) as a eqn:Ea. assert (Ha : (g 0 <= a)%nat) by lia. clear Ea. revert g Ha. induction a as [a IHa] using lt_wf_ind. intros g Ha.
  remember (fun j => g (Datatypes.S j)) as h eqn:Eh. assert (Hh : forall j, g (Datatypes.S j) = h j) by (intros; subst; auto). clear Eh.
  revert g Ha Hh. induction (IH h) as [h _ IHh]. intros g Ha Hh. constructor. intros f (k & Hk & Hlt & Hle).
  destruct k as [|k].
  - apply (IHa (f 0%nat)); lia.
  - apply (IHh (fun j => f (Datatypes.S j))); auto.
    + exists k. split; [lia|]. rewrite <- Hh. split; [exact Hlt|]. intros j Hj. rewrite <- Hh. apply Hle. lia.
    + specialize (Hle 0%nat). lia.
Qed.

Section Par.
Variable S : Type.
Variable eqb : S -> S -> bool.
Variable cfg : config S.
Variable at_depth : nat -> S -> Prop.
Variable nv : nat -> nat.
Variable C : Z.
Variable merging : Prop.
Variable inv : fr_t (cf_fr cfg) -> Prop.
Variable content : fr_t (cf_fr cfg) -> list (subproblem S).
Notation P := (cf_pb cfg).
Notation R := (cf_rx cfg).
Notation N := (pb_nb_vars P).
Notation sub := (subproblem S).
Notation genuine := (genuine S P nv).
Notation completes := (completes S P nv).
Notation thread := (thread S).
Notation state := (state S cfg).
Notation fr := (cf_fr cfg).
Notation lib := (library_ok S).
Notation root_node := ParSolver.root_node.
Hypothesis G : good_config S eqb cfg at_depth nv C merging inv content.
Let WF := gs_formed _ _ _ _ _ _ _ _ _ G.
Let FO := gs_frontier _ _ _ _ _ _ _ _ _ G.

(** * Diagrams keep their cutset type *)
Lemma compile_ctype orc inp d dF : good_call S P R nv false orc inp -> compile eqb false orc inp d = Some dF -> g_ctype dF = g_ctype d.
Proof.
  intros Hg E. assert (Hgen := gc_res _ _ _ _ _ _ _ Hg). destruct WF as [H1 H2 H3 H4].
  destruct (compile_good S eqb H1 P R at_depth nv C H2 H3 H4 (depth_of (i_res inp)) (i_res inp) Hgen eq_refl false orc inp d eq_refl Hg) as (dF' & d1 & past & curr & kF & b & e & E' & HL & Hend & Hb & He & HF).
  rewrite E in E'. injection E' as <-. assert (Hc := li_ctype _ _ _ _ _ _ _ _ _ _ _ _ _ _ _ HL).
  destruct (match i_type inp with Relaxed => negb e | _ => false end).
  - destruct HF as (HW & _). destruct (w_frame _ _ _ _ _ _ HW) as (_ & _ & _ & _ & _ & W & _). rewrite W. exact Hc.
  - subst dF. exact Hc.
Qed.
Lemma drain_ctype (d : dd S) L d' : drain_cutset d = Some (L, d') -> g_ctype d' = g_ctype d.
Proof.
  unfold drain_cutset. destruct (best_value d) as [[b|]|]; cbn [obind]; try discriminate.
  - destruct (drain_list d b (g_cutset d)); cbn [obind]; [|discriminate]. injection 1 as _ <-. reflexivity.
  - injection 1 as _ <-. reflexivity.
Qed.

(** * Positions *)
Definition held (t : thread) : list sub :=
  match t_pc t with PStart n | PRestricted n | PRelax n _ | PRelaxed n _ => [n] | _ => [] end.
Definition working (t : thread) : nat :=
  match t_pc t with PStart _ | PRestricted _ | PRelax _ _ | PRelaxed _ _ | PNotify _ => 1 | _ => 0 end.
Definition nworking (l : list thread) : nat := list_sum (map working l).

(** The diagram of the thread is the result of compiling [n] with some earlier lower bound. *)
Definition compiled (lb : Z) (ty : comp_type) (n : sub) (d : dd S) : Prop :=
  exists orc lb0 d0, lib orc /\ lb0 <= lb /\ g_ctype d0 = cf_ctype cfg /\ compile eqb false orc (call cfg ty n lb0) d0 = Some d.

Definition thread_ok (lb : Z) (t : thread) : Prop :=
  g_ctype (t_dd t) = cf_ctype cfg /\ Forall genuine (held t) /\
  match t_pc t with
  | PRestricted n => compiled lb Restricted n (t_dd t)
  | PRelaxed n _ => compiled lb Relaxed n (t_dd t)
  | _ => True
  end.

Definition sol_ok (c : critical S cfg) : Prop :=
  match c_sol c with None => c_lb c = IMIN | Some l => reported_solution S P nv l (c_lb c) end.

Record inv1 (st : state) : Prop := {
  i_fr : inv (c_fringe (s_crit st));
  i_gen : Forall genuine (content (c_fringe (s_crit st)));
  i_th : Forall (thread_ok (c_lb (s_crit st))) (s_threads st);
  i_on : c_ongoing (s_crit st) = nworking (s_threads st);
  i_ubs : (length (s_threads st) <= length (c_ubs (s_crit st)))%nat;
  i_sol : sol_ok (s_crit st);
  i_wait : forall t, In t (s_threads st) -> t_pc t = PWait -> (0 < c_ongoing (s_crit st))%nat }.

Lemma good_call_of orc ty n lb : lib orc -> genuine n -> good_call S P R nv false orc (call cfg ty n lb).
Proof. intros. constructor; auto; [apply (gs_width _ _ _ _ _ _ _ _ _ G)|discriminate]. Qed.

Lemma compiled_mono lb lb' ty n d : lb <= lb' -> compiled lb ty n d -> compiled lb' ty n d.
Proof. intros H (orc & lb0 & d0 & h1 & h2 & h3). exists orc, lb0, d0. split; [auto|]. split; [lia|auto]. Qed.
Lemma thread_ok_mono lb lb' t : lb <= lb' -> thread_ok lb t -> thread_ok lb' t.
Proof.
  intros H (h1 & h2 & h3). split; [auto|]. split; [auto|]. destruct (t_pc t); auto; eapply compiled_mono; eauto.
Qed.

(** * Operations *)
Lemma fr_push_genuine f n : inv f -> Forall genuine (content f) -> genuine n ->
  exists f', fr_push fr f n = Some f' /\ inv f' /\ Forall genuine (content f').
Proof.
  intros Hi Hc Hn. destruct (fo_push _ _ _ _ FO f n Hi) as (f' & E & Hi' & H). exists f'. split; [exact E|]. split; [exact Hi'|].
  destruct H as [H|(_ & old & l & Hs & H1 & H2)].
  - eapply Permutation_Forall; [symmetry; exact H|]. constructor; auto.
  - assert (Hc' := Permutation_Forall H1 Hc). inversion Hc'; subst. eapply Permutation_Forall; [symmetry; exact H2|].
    constructor; auto. unfold merge_sub, DdSpec.genuine, depth_of. destruct (_ <? _); cbn [with_ub sp_path sp_state sp_value]; auto.
Qed.

Lemma with_ub_genuine n u : genuine n -> genuine (with_ub n u).
Proof. unfold DdSpec.genuine, depth_of. cbn. auto. Qed.

Lemma enqueue_total lb ub L : forall f, inv f -> Forall genuine (content f) -> Forall genuine L ->
  exists f', ofold (enqueue_node cfg lb ub) L f = Some f' /\ inv f' /\ Forall genuine (content f').
Proof.
  induction L as [|q L IH]; intros f Hi Hc HL; cbn [ofold]; [eauto|]. inversion HL; subst.
  unfold enqueue_node at 1. cbn zeta. destruct (_ <? _); cbn [obind].
  - destruct (fr_push_genuine f (with_ub q (Z.min ub (sp_ub q))) Hi Hc) as (f' & -> & Hi' & Hc'); [apply with_ub_genuine; auto|]. cbn [obind]. apply IH; auto.
  - apply IH; auto.
Qed.

(** Updating the best solution with a diagram that is restricted or exact. *)
Lemma update_best c ty n d : genuine n -> compiled (c_lb c) ty n d -> ty <> Relaxed \/ g_exact d = true -> sol_ok c ->
  exists c', maybe_update_best cfg c d = Some c' /\ sol_ok c' /\ c_lb c <= c_lb c' /\ c_fringe c' = c_fringe c /\ c_ongoing c' = c_ongoing c /\
    c_ubs c' = c_ubs c /\ c_interrupted c' = c_interrupted c /\ c_ub c' = c_ub c /\
    (forall v, best_value d = Some (Some v) -> v <= c_lb c').
Proof.
  intros Hn (orc & lb0 & d0 & Ho & _ & _ & E) Hty Hs.
  assert (Hty' : i_type (call cfg ty n lb0) <> Relaxed \/ g_exact d = true) by exact Hty.
  destruct (all_feasible S eqb P R at_depth nv C false orc _ d0 d WF (good_call_of orc ty n lb0 Ho Hn) E Hty') as [(e1 & e2)|(v & l & e1 & e2 & e3 & _)].
  - unfold maybe_update_best. rewrite e1. cbn [obind]. assert (c_lb c <? IMIN = false) as ->.
    { apply Z.ltb_ge. unfold sol_ok in Hs. destruct (c_sol c) as [l|]; [|lia]. destruct Hs as (ds & _ & (c0 & (s' & Hr) & Hv)).
      destruct WF as [H1 H2 H3 H4].
      destruct (run_bound S eqb H1 P R at_depth nv C H2 H4 _ _ _ _ _ _ Hr (wf_init _ _ _ _ H2)) as (_ & Hb).
      assert (H5 := bd_range _ _ _ _ _ _ H4). assert (H6 := bd_init _ _ _ _ _ _ H4). rewrite IMIN_IMAX. assert (H7 := bd_pos _ _ _ _ _ _ H4). rewrite Nat.sub_0_r in Hb. nia. }
    exists c. repeat (split; [auto; lia|]). intros; congruence.
  - unfold maybe_update_best. rewrite e1. cbn [obind]. destruct (c_lb c <? v) eqn:Hlt.
    + rewrite e2. cbn [obind]. eexists. split; [reflexivity|]. unfold sol_ok. cbn. repeat (split; [auto; lia|]). intros; assert (v = v0) by congruence; lia.
    + exists c. repeat (split; [auto; lia|]). intros; assert (v = v0) by congruence; lia.
Qed.

(** * The steps, case by case *)
Definition upd_of (c c' : critical S cfg) : Prop :=
  sol_ok c' /\ c_lb c <= c_lb c' /\ c_fringe c' = c_fringe c /\ c_ongoing c' = c_ongoing c /\
  c_ubs c' = c_ubs c /\ c_interrupted c' = c_interrupted c /\ c_ub c' = c_ub c.

(** [act c t c' t']: a thread goes from [t] to [t'] and turns the shared state [c] into [c']. *)
Inductive act (c : critical S cfg) (d : dd S) : pc S -> critical S cfg -> pc S -> dd S -> Prop :=
| act_complete c' : c_ongoing c = 0%nat -> content (c_fringe c) = [] ->
    c' = mk_crit (c_fringe c) (c_ongoing c) (c_explored c) (c_explored_dd c) (c_lb c) (c_lb c) (c_sol c) (c_ubs c) (c_interrupted c) ->
    act c d PIdle c' PDone d
| act_stopped : c_interrupted c = true -> act c d PIdle c PDone d
| act_interrupt c' : c_interrupted c = false ->
    (c_ongoing c = 0%nat -> exists p, In p (content (c_fringe c)) /\ c_ub c' = sp_ub p /\ forall q, In q (content (c_fringe c)) -> sp_ub q <= sp_ub p) ->
    inv (c_fringe c') -> content (c_fringe c') = [] ->
    c_lb c' = c_lb c -> c_sol c' = c_sol c -> c_ubs c' = c_ubs c -> c_ongoing c' = c_ongoing c -> c_interrupted c' = true ->
    act c d PIdle c' PDone d
| act_park : c_interrupted c = false -> content (c_fringe c) = [] -> (0 < c_ongoing c)%nat -> act c d PIdle c PWait d
| act_starve p f' c' : c' = set_fringe cfg c f' -> c_interrupted c = false -> In p (content (c_fringe c)) -> (forall q, In q (content (c_fringe c)) -> sp_ub q <= sp_ub p) ->
    sp_ub p <= c_lb c -> inv f' -> content f' = [] ->
    act c d PIdle c' PIdle d
| act_take p c' : c_interrupted c = false -> Permutation (content (c_fringe c)) (p :: content (c_fringe c')) -> inv (c_fringe c') ->
    c_lb c < sp_ub p -> c_lb c' = c_lb c -> c_ub c' = c_ub c -> c_sol c' = c_sol c -> length (c_ubs c') = length (c_ubs c) ->
    c_ongoing c' = Datatypes.S (c_ongoing c) -> c_interrupted c' = c_interrupted c ->
    act c d PIdle c' (PStart p) d
| act_drop n : sp_ub n <= c_lb c -> act c d (PStart n) c (PNotify 0) d
| act_restrict n d' : c_lb c < sp_ub n -> compiled (c_lb c) Restricted n d' -> g_ctype d' = cf_ctype cfg -> act c d (PStart n) c (PRestricted n) d'
| act_closed n c' k : g_exact d = true -> upd_of c c' -> (forall v, best_value d = Some (Some v) -> v <= c_lb c') ->
    act c d (PRestricted n) c' (PNotify k) d
| act_open n c' k : upd_of c c' -> act c d (PRestricted n) c' (PRelax n k) d
| act_relax n k d' k' : compiled (c_lb c) Relaxed n d' -> g_ctype d' = cf_ctype cfg -> act c d (PRelax n k) c (PRelaxed n k') d'
| act_solved n k c' : g_exact d = true -> upd_of c c' -> (forall v, best_value d = Some (Some v) -> v <= c_lb c') ->
    act c d (PRelaxed n k) c' (PNotify k) d
| act_branch n k L d' f' : g_exact d = false -> drain_cutset d = Some (L, d') -> g_ctype d' = cf_ctype cfg -> Forall genuine L ->
    ofold (enqueue_node cfg (c_lb c) (sp_ub n)) L (c_fringe c) = Some f' -> inv f' -> Forall genuine (content f') ->
    act c d (PRelaxed n k) (set_fringe cfg c f') (PNotify k) d'.

Inductive move (st : state) : state -> Prop :=
| move_act l1 l2 p p' d d' c' : s_threads st = l1 ++ mk_th p d :: l2 -> act (s_crit st) d p c' p' d' ->
    move st (mk_st c' (l1 ++ mk_th p' d' :: l2))
| move_notify l1 l2 k d c' : s_threads st = l1 ++ mk_th (PNotify k) d :: l2 ->
    c_ongoing (s_crit st) = Datatypes.S (c_ongoing c') -> length (c_ubs c') = length (c_ubs (s_crit st)) ->
    c_fringe c' = c_fringe (s_crit st) -> c_lb c' = c_lb (s_crit st) -> c_ub c' = c_ub (s_crit st) -> c_sol c' = c_sol (s_crit st) ->
    c_interrupted c' = c_interrupted (s_crit st) ->
    move st (mk_st c' (map wake (l1 ++ mk_th PIdle d :: l2))).

Lemma workload_ok c i intr d : inv (c_fringe c) -> (i < length (c_ubs c))%nat ->
  exists c' w, get_workload cfg c i intr = Some (c', w) /\
   act c d PIdle c' (match w with WComplete | WInterruption => PDone | WStarvation => PIdle | WPark => PWait | WItem n => PStart n end) d.
Proof.
  intros Hi Hl. unfold get_workload.
  assert (Hem := fo_empty _ _ _ _ FO _ Hi).
  destruct (Nat.eqb (c_ongoing c) 0 && fr_empty fr (c_fringe c)) eqn:E1.
  - apply andb_true_iff in E1 as (e1 & e2). apply Nat.eqb_eq in e1. apply Hem in e2. do 2 eexists. split; [reflexivity|]. eapply act_complete; eauto.
  - destruct (c_interrupted c) eqn:E2; [do 2 eexists; split; [reflexivity|]; cbn; apply act_stopped; auto|].
    destruct (fr_empty fr (c_fringe c)) eqn:E4.
    + assert (Hc : content (c_fringe c) = []) by (apply Hem; reflexivity). rewrite andb_true_r in E1. apply Nat.eqb_neq in E1.
      destruct intr.
      * assert (0 <? c_ongoing c = true)%nat as -> by (apply Nat.ltb_lt; lia). cbn [obind].
        destruct (fo_clear _ _ _ _ FO _ Hi) as (g1 & g2). do 2 eexists. split; [reflexivity|]. cbn iota. eapply act_interrupt; eauto; try reflexivity; intros Hz; lia.
      * do 2 eexists. split; [reflexivity|]. cbn iota. apply act_park; auto. lia.
    + assert (Hc : content (c_fringe c) <> []) by (intros Hc; apply Hem in Hc; congruence).
      destruct (fo_pop _ _ _ _ FO _ Hi Hc) as (p & f' & Ep & Hi' & Hp & Hmax). assert (Hin : In p (content (c_fringe c))) by (eapply Permutation_in; [symmetry; exact Hp|left; auto]).
      destruct intr.
      * destruct (0 <? c_ongoing c)%nat eqn:E3; cbn [obind].
        -- destruct (fo_clear _ _ _ _ FO _ Hi) as (g1 & g2). do 2 eexists. split; [reflexivity|]. cbn iota. eapply act_interrupt; eauto; try reflexivity; intros Hz; rewrite Hz in E3; discriminate.
        -- rewrite Ep. cbn [obind]. destruct (fo_clear _ _ _ _ FO _ Hi') as (g1 & g2). do 2 eexists. split; [reflexivity|]. cbn iota. eapply act_interrupt; eauto; try reflexivity; intros _; exists p; auto.
      * rewrite Ep. cbn [obind]. destruct (sp_ub p <=? c_lb c) eqn:E5.
        -- destruct (fo_clear _ _ _ _ FO _ Hi') as (g1 & g2). do 2 eexists. split; [reflexivity|]. cbn iota. apply (act_starve c d p (fr_clear fr f')); auto; [unfold set_fringe; rewrite E2; reflexivity|lia].
        -- destruct (upd_some (c_ubs c) i (sp_ub p) Hl) as (ubs & -> & Hlen). cbn [obind]. do 2 eexists. split; [reflexivity|]. cbn iota.
           eapply act_take; eauto; try reflexivity; cbn; lia.
Qed.

Lemma step_total st i t orc intr : inv1 st -> lib orc -> nth_error (s_threads st) i = Some t -> t_pc t <> PWait -> t_pc t <> PDone ->
  exists st', thread_step eqb cfg orc intr i st = Next st' /\ move st st'.
Proof.
  intros HI Ho Hn Hw Hd.
  assert (Hlen : (i < length (s_threads st))%nat) by (apply nth_error_Some; congruence).
  assert (Hub : (i < length (c_ubs (s_crit st)))%nat) by (assert (H := i_ubs _ HI); lia).
  assert (Hth : thread_ok (c_lb (s_crit st)) t) by (apply (proj1 (Forall_forall _ _) (i_th _ HI)); eapply nth_error_In; eauto).
  destruct Hth as (Hct & Hgen & Hpc).
  destruct t as [p d]. cbn [t_pc t_dd] in *.
  assert (Hsp : forall x, exists l1 l2, s_threads st = l1 ++ mk_th p d :: l2 /\ put i x (s_threads st) = l1 ++ x :: l2 /\ length l1 = i)
    by (intros x; apply put_split; exact Hn).
  assert (Hmk : forall c' p' d', act (s_crit st) d p c' p' d' -> exists st', lift cfg (Some (c', mk_th p' d')) i st = Next st' /\ move st st').
  { intros c' p' d' Ha. destruct (Hsp (mk_th p' d')) as (l1 & l2 & h1 & h2 & _). cbn [lift]. rewrite h2. eexists. split; [reflexivity|]. eapply move_act; eauto. }
  unfold thread_step. rewrite Hn. cbn [t_pc t_dd]. cbn zeta. destruct p as [| |n|n|n k|n k|k|]; try congruence.
  - destruct (workload_ok (s_crit st) i intr d (i_fr _ HI) Hub) as (c' & w & -> & Ha). cbn [obind]. apply Hmk. exact Ha.
  - inversion Hgen as [|? ? Hg0 _]; subst. destruct (sp_ub n <=? c_lb (s_crit st)) eqn:E.
    + apply Hmk. apply act_drop. lia.
    + assert (Hgc := good_call_of orc Restricted n (c_lb (s_crit st)) Ho Hg0).
      destruct (all_total S eqb P R at_depth nv C false orc _ d WF Hgc) as (dF & _ & _ & _ & _ & E1 & _). rewrite E1. cbn [obind].
      apply Hmk. apply act_restrict; [lia| |rewrite <- Hct; exact (compile_ctype _ _ _ _ Hgc E1)]. exists orc, (c_lb (s_crit st)), d. split; [auto|]. split; [lia|auto].
  - inversion Hgen as [|? ? Hg0 _]; subst. assert (Hnr : Restricted <> Relaxed \/ g_exact d = true) by (left; discriminate).
    destruct (update_best (s_crit st) Restricted n d Hg0 Hpc Hnr (i_sol _ HI)) as (c' & -> & h1 & h2 & h3 & h4 & h5 & h6 & h7 & h8). cbn [obind].
    apply Hmk. destruct (g_exact d) eqn:E; [apply act_closed|apply act_open]; unfold upd_of; auto 10.
  - inversion Hgen as [|? ? Hg0 _]; subst.
    assert (Hgc := good_call_of orc Relaxed n (c_lb (s_crit st)) Ho Hg0).
    destruct (all_total S eqb P R at_depth nv C false orc _ d WF Hgc) as (dF & _ & _ & _ & _ & E1 & _). rewrite E1. cbn [obind].
    apply Hmk. apply act_relax; [|rewrite <- Hct; exact (compile_ctype _ _ _ _ Hgc E1)]. exists orc, (c_lb (s_crit st)), d. split; [auto|]. split; [lia|auto].
  - inversion Hgen as [|? ? Hg0 _]; subst. destruct (g_exact d) eqn:E.
    + destruct (update_best (s_crit st) Relaxed n d Hg0 Hpc (or_intror E) (i_sol _ HI)) as (c' & -> & h1 & h2 & h3 & h4 & h5 & h6 & h7 & h8). cbn [obind].
      apply Hmk. apply act_solved; unfold upd_of; auto 10.
    + destruct Hpc as (orc0 & lb0 & d0 & Ho0 & Hlb0 & Hct0 & E0).
      destruct (all_cut_genuine S eqb P R at_depth nv C false orc0 _ d0 d WF (good_call_of orc0 Relaxed n lb0 Ho0 Hg0) E0) as (L & d2 & ED & HL).
      assert (HLg : Forall genuine L) by (apply Forall_forall; intros q Hq; apply HL; auto).
      unfold enqueue_cutset. rewrite ED. cbn [obind].
      destruct (enqueue_total (c_lb (s_crit st)) (sp_ub n) L (c_fringe (s_crit st)) (i_fr _ HI) (i_gen _ HI) HLg) as (f' & Ef & Hi' & Hg').
      rewrite Ef. cbn [obind]. apply Hmk. eapply act_branch; eauto. rewrite (drain_ctype _ _ _ ED). exact Hct.
  - unfold finish_node.
    assert (Hon := i_on _ HI). destruct (Hsp (mk_th PIdle d)) as (l1 & l2 & h1 & h2 & _).
    destruct (c_ongoing (s_crit st)) as [|o] eqn:Eo.
    { exfalso. rewrite h1 in Hon. unfold nworking in Hon. rewrite map_app, list_sum_app in Hon. cbn in Hon. lia. }
    destruct (upd_some (c_ubs (s_crit st)) i IMAX Hub) as (ubs & -> & Hlen'). cbn [obind]. rewrite h2. eexists. split; [reflexivity|].
    eapply move_notify; eauto.
Qed.

(** * The first invariant *)
Lemma act_frame c d p c' p' d' : act c d p c' p' d' -> inv (c_fringe c) -> Forall genuine (content (c_fringe c)) -> sol_ok c -> thread_ok (c_lb c) (mk_th p d) ->
  inv (c_fringe c') /\ Forall genuine (content (c_fringe c')) /\ sol_ok c' /\ c_lb c <= c_lb c' /\ thread_ok (c_lb c') (mk_th p' d') /\
  (c_ongoing c' + working (mk_th p d) = c_ongoing c + working (mk_th p' d'))%nat /\ length (c_ubs c') = length (c_ubs c) /\
  (c_ongoing c <= c_ongoing c')%nat /\ (p' = PWait -> (0 < c_ongoing c')%nat).
Proof.
  intros Ha Hi Hg Hs (Hct & Hgen & Hpc). unfold thread_ok. cbn [t_pc t_dd] in *.
  destruct Ha as [c' e1 e2 -> | e1 | c' e1 e2 e3 e4 e5 e6 e7 e8 e9 | e1 e2 e3 | p f' c' -> e1 e2 e3 e4 e5 e6 | p c' e1 e2 e3 e4 e5 e6 e7 e8 e9 e10
    | n e1 | n d' e1 e2 e3 | n c' k e1 e2 e3 | n c' k e1 | n k d' k' e1 e2 | n k c' e1 e2 e3 | n k L d' f' e1 e2 e3 e4 e5 e6 e7];
  unfold upd_of, sol_ok, held, set_fringe in *; cbn [c_fringe c_lb c_sol c_ongoing c_ubs working t_pc t_dd] in *.
  - repeat (split; [auto; try lia|]). discriminate.
  - repeat (split; [auto; try lia|]). discriminate.
  - rewrite e5, e6, e7, e8, e4. repeat (split; [auto; try lia|]). discriminate.
  - repeat (split; [auto; try lia|]). lia.
  - rewrite e6. repeat (split; [auto; try lia|]). discriminate.
  - assert (Hg' := Permutation_Forall e2 Hg). inversion Hg'; subst. rewrite e5, e7, e8, e9. repeat (split; [auto; try lia|]). discriminate.
  - repeat (split; [auto; try lia|]). discriminate.
  - repeat (split; [auto; try lia|]). discriminate.
  - destruct e2 as (u1 & u2 & u3 & u4 & u5 & u6 & u7). rewrite u3, u4, u5. repeat (split; [auto; try lia|]). discriminate.
  - destruct e1 as (u1 & u2 & u3 & u4 & u5 & u6 & u7). rewrite u3, u4, u5. repeat (split; [auto; try lia|]). discriminate.
  - repeat (split; [auto; try lia|]). discriminate.
  - destruct e2 as (u1 & u2 & u3 & u4 & u5 & u6 & u7). rewrite u3, u4, u5. repeat (split; [auto; try lia|]). discriminate.
  - repeat (split; [auto; try lia|]). discriminate.
Qed.

Lemma nworking_app l1 t l2 : nworking (l1 ++ t :: l2) = (nworking l1 + working t + nworking l2)%nat.
Proof. unfold nworking. rewrite map_app, list_sum_app. cbn [map]. change (list_sum (working t :: map working l2)) with (working t + list_sum (map working l2))%nat. lia. Qed.
Lemma wake_working t : working (wake t) = working t.
Proof. destruct t as [[]]; reflexivity. Qed.
Lemma nworking_wake l : nworking (map wake l) = nworking l.
Proof. unfold nworking. rewrite map_map. f_equal. apply map_ext. apply wake_working. Qed.
Lemma wake_ok lb t : thread_ok lb t -> thread_ok lb (wake t).
Proof. destruct t as [[]]; cbn; auto. Qed.

Lemma move_inv1 st st' : inv1 st -> move st st' -> inv1 st' /\ c_lb (s_crit st) <= c_lb (s_crit st').
Proof.
  intros HI [l1 l2 p p' d d' c' E Ha | l1 l2 k d c' E h1 h2 h3 h4 h5 h6 h7].
  - destruct HI as [i1 i2 i3 i4 i5 i6 i7]. rewrite E in *. rewrite Forall_app in i3. destruct i3 as (t1 & t2). inversion t2 as [|? ? t3 t4]; subst.
    destruct (act_frame _ _ _ _ _ _ Ha i1 i2 i6 t3) as (a1 & a2 & a3 & a4 & a5 & a6 & a7 & a8 & a9). split; [|exact a4].
    constructor; cbn [s_crit s_threads]; auto.
    + apply Forall_app. split; [eapply Forall_impl; [intros t; apply thread_ok_mono; exact a4|exact t1]|].
      constructor; [exact a5|]. eapply Forall_impl; [intros t; apply thread_ok_mono; exact a4|exact t4].
    + rewrite nworking_app in *. lia.
    + rewrite app_length in *. cbn in *. lia.
    + intros t Ht Hp. apply in_app_iff in Ht as [Ht|[<-|Ht]]; [|auto|].
      * assert (0 < c_ongoing (s_crit st))%nat by (apply (i7 t); auto; apply in_app_iff; auto). lia.
      * assert (0 < c_ongoing (s_crit st))%nat by (apply (i7 t); auto; apply in_app_iff; cbn; auto). lia.
  - destruct HI as [i1 i2 i3 i4 i5 i6 i7]. cbn [s_crit]. split; [|lia]. rewrite E in *. rewrite Forall_app in i3. destruct i3 as (t1 & t2). inversion t2 as [|? ? t3 t4]; subst.
    constructor; cbn [s_crit s_threads].
    + congruence.
    + congruence.
    + rewrite h4. apply Forall_map. eapply Forall_impl; [intros t; apply wake_ok|]. apply Forall_app. split; auto.
    + rewrite nworking_wake. rewrite nworking_app in *. cbn [working t_pc] in *. lia.
    + rewrite map_length. rewrite app_length in *. cbn in *. lia.
    + unfold sol_ok in *. rewrite h4, h6. exact i6.
    + intros t Ht Hp. apply in_map_iff in Ht as ([q e] & <- & Ht). destruct q; cbn in Hp; discriminate.
Qed.

Lemma spurious_inv1 st st' : inv1 st -> spurious S cfg st st' -> inv1 st' /\ s_crit st' = s_crit st.
Proof.
  intros [i1 i2 i3 i4 i5 i6 i7] (i & d & Hn & ->). split; [|reflexivity].
  destruct (put_split i (mk_th PIdle d) _ _ Hn) as (l1 & l2 & h1 & h2 & _). constructor; cbn [s_crit s_threads]; auto; rewrite h2; rewrite h1 in *.
  - rewrite Forall_app in *. destruct i3 as (t1 & t2). inversion t2; subst. auto.
  - rewrite nworking_app in *. cbn [working t_pc] in *. lia.
  - rewrite app_length in *. cbn in *. lia.
  - intros t Ht Hp. apply (i7 t); auto. apply in_app_iff in Ht as [Ht|[<-|Ht]]; [apply in_app_iff; auto|discriminate|apply in_app_iff; cbn; auto].
Qed.

Lemma step_move st st' : inv1 st -> step S eqb cfg st st' -> move st st'.
Proof.
  intros HI (orc & intr & i & Ho & E). destruct (nth_error (s_threads st) i) as [t|] eqn:Hn.
  - destruct (t_pc t) eqn:Hp; try (destruct (step_total st i t orc intr HI Ho Hn) as (st'' & E' & Hm); [congruence|congruence|]; congruence);
    unfold thread_step in E; rewrite Hn in E; cbn zeta in E; rewrite Hp in E; discriminate.
  - unfold thread_step in E. rewrite Hn in E. discriminate.
Qed.

Lemma root_genuine : genuine (root_node cfg).
Proof. exists [], 0. split; [constructor|]. split; [constructor|]. cbn. lia. Qed.

Lemma initial_ok n m : exists st, initial cfg n m = Some st /\ inv (c_fringe (s_crit st)) /\ Permutation (content (c_fringe (s_crit st))) [root_node cfg] /\
  c_lb (s_crit st) = IMIN /\ c_ub (s_crit st) = IMAX /\ c_sol (s_crit st) = None /\ c_ongoing (s_crit st) = 0%nat /\ c_interrupted (s_crit st) = false /\
  c_ubs (s_crit st) = repeat IMAX n /\ s_threads st = repeat (mk_th PIdle (dd_new (cf_ctype cfg))) m.
Proof.
  destruct (fo_new _ _ _ _ FO) as (n1 & n2). destruct (fo_push _ _ _ _ FO (fr_new fr) (root_node cfg) n1) as (f & E & Hi & H).
  unfold initial. rewrite E. cbn [obind]. eexists. split; [reflexivity|]. cbn. split; [exact Hi|]. split; [|auto 10].
  rewrite n2 in H. destruct H as [H|(_ & old & l & _ & H & _)]; [exact H|]. apply Permutation_nil in H. discriminate.
Qed.

Lemma nworking_idle d m : nworking (repeat (mk_th PIdle d) m) = 0%nat.
Proof. induction m; [reflexivity|]. unfold nworking in *. cbn in *. exact IHm. Qed.

Lemma initial_inv1 n m st : (m <= n)%nat -> initial cfg n m = Some st -> inv1 st.
Proof.
  intros Hm E. destruct (initial_ok n m) as (st0 & E' & e1 & e2 & e3 & e4 & e5 & e6 & e7 & e8 & e9). rewrite E in E'. injection E' as <-.
  constructor; auto.
  - eapply Permutation_Forall; [symmetry; exact e2|]. constructor; [apply root_genuine|constructor].
  - rewrite e9. apply Forall_forall. intros t Ht. apply repeat_spec in Ht. subst t. split; [reflexivity|split; [constructor|exact I]].
  - rewrite e6, e9, nworking_idle. reflexivity.
  - rewrite e8, e9, !repeat_length. exact Hm.
  - unfold sol_ok. rewrite e5. exact e3.
  - intros t Ht Hp. rewrite e9 in Ht. apply repeat_spec in Ht. subst t. discriminate.
Qed.

Lemma reaches_inv1 st st' : inv1 st -> reaches S eqb cfg st st' -> inv1 st' /\ c_lb (s_crit st) <= c_lb (s_crit st').
Proof.
  intros HI H. induction H as [|st st1 st2 _ IH [H|H]]; [split; [auto|lia]| |]; destruct (IH HI) as (I1 & L1).
  - destruct (move_inv1 _ _ I1 (step_move _ _ I1 H)) as (I2 & L2). split; [auto|lia].
  - destruct (spurious_inv1 _ _ I1 H) as (I2 & L2). split; [auto|rewrite L2; lia].
Qed.
Lemma reachable_inv1 n m st : (m <= n)%nat -> reachable S eqb cfg n m st -> inv1 st.
Proof. intros Hm (st0 & E & H). eapply reaches_inv1; [|exact H]. eapply initial_inv1; eauto. Qed.

(** * No deadlock *)
Lemma working_exists l : (0 < nworking l)%nat -> exists i t, nth_error l i = Some t /\ t_pc t <> PWait /\ t_pc t <> PDone.
Proof.
  induction l as [|t l IH]; [cbn; lia|]. intros H. change (nworking (t :: l)) with (working t + nworking l)%nat in H. destruct (working t) as [|k] eqn:E.
  - destruct IH as (i & t' & h); [lia|]. exists (Datatypes.S i), t'. exact h.
  - exists 0%nat, t. split; [reflexivity|]. destruct t as [[]]; cbn in *; split; try discriminate.
Qed.

Lemma inv1_moves st : inv1 st -> ~ all_done cfg st -> can_move S eqb cfg st.
Proof.
  intros HI Hnd.
  assert (exists i t, nth_error (s_threads st) i = Some t /\ t_pc t <> PWait /\ t_pc t <> PDone) as (i & t & Hn & Hw & Hd).
  { destruct (Nat.eq_dec (nworking (s_threads st)) 0) as [E|E]; [|apply working_exists; lia].
    assert (Hnw : forall t, In t (s_threads st) -> t_pc t <> PWait).
    { intros t Ht Hp. assert (H := i_wait _ HI t Ht Hp). rewrite (i_on _ HI) in H. lia. }
    unfold all_done in Hnd. clear E HI. induction (s_threads st) as [|t l IH]; [exfalso; apply Hnd; intros t []|].
    assert (Hdec : t_pc t = PDone \/ t_pc t <> PDone) by (destruct (t_pc t); auto; right; discriminate).
    destruct Hdec as [E|E].
    - destruct IH as (i & t' & h).
      + intros H. apply Hnd. intros x [<-|Hx]; auto.
      + intros x Hx. apply Hnw. right. exact Hx.
      + exists (Datatypes.S i), t'. exact h.
    - exists 0%nat, t. split; [reflexivity|]. split; [apply Hnw; left; auto|exact E]. }
  exists i. intros orc intr Ho. destruct (step_total st i t orc intr HI Ho Hn Hw Hd) as (st' & E & _). eauto.
Qed.
Lemma inv1_no_panic st orc intr i : inv1 st -> lib orc -> thread_step eqb cfg orc intr i st <> Panic.
Proof.
  intros HI Ho. destruct (nth_error (s_threads st) i) as [t|] eqn:Hn.
  - destruct (t_pc t) eqn:Hp; try (destruct (step_total st i t orc intr HI Ho Hn) as (st'' & E' & Hm); [congruence|congruence|]; congruence);
    unfold thread_step; rewrite Hn; cbn zeta; rewrite Hp; discriminate.
  - unfold thread_step. rewrite Hn. discriminate.
Qed.
End Par.
