(** Invariants of the solver with thresholds that hold for any number of threads. *)
From Verif Require Import Spec Dd DdSpec FlagsFacts MddAll MddAllProofs FringeSpec ParSpec ParFacts ParTerm MddBarrier BarWp MddBarrierProofs BarSpec.
From Verif Require Import DdFacts DdLoop DdFinal MddAllBounds MddAllObs.
From Coq Require Import ZifyNat Wf_nat.
Open Scope Z_scope.

(** What one access may do to the thresholds. *)
Lemma wp_write S eqb alone L G A (p : prog S A) T0 T Q p' T' : wp S eqb alone L G p T0 Q -> access eqb p T = Some (p', T') ->
  T' = T \/ exists d s i l, G d s i /\ nth_error T d = Some l /\ upd T d (tput eqb l s i) = Some T'.
Proof.
  intros H E. destruct p as [a| |d k|d s k|d s i k]; cbn [access] in E; try discriminate.
  - destruct (nth_error T d); cbn [obind] in E; [|discriminate]. left. congruence.
  - destruct (nth_error T d); cbn [obind] in E; [|discriminate]. left. congruence.
  - destruct (nth_error T d) as [l|] eqn:El; cbn [obind] in E; [|discriminate]. destruct (upd T d (tput eqb l s i)) as [T1|] eqn:Eu; cbn [obind] in E; [|discriminate].
    injection E as <- <-. right. exists d, s, i, l. destruct H as (_ & H & _). auto.
Qed.

(** * Counters *)
Definition get (v : list nat) (i : nat) : nat := nth i v 0%nat.
Lemma get_nth v i : (i < length v)%nat -> nth_error v i = Some (get v i).
Proof. intros H. unfold get. apply nth_error_nth'. exact H. Qed.
Lemma upd_get v i x v' j : upd v i x = Some v' -> get v' j = if Nat.eqb j i then x else get v j.
Proof.
  intros H. assert (Hn := upd_nth v i x v' j H). unfold get. rewrite !nth_default_eq || idtac.
  destruct (Nat.eqb_spec j i) as [->|Hne].
  - erewrite nth_error_nth; [reflexivity|exact Hn].
  - destruct (nth_error v j) as [y|] eqn:E; [rewrite (nth_error_nth _ _ _ Hn), (nth_error_nth _ _ _ E); reflexivity|].
    apply nth_error_None in Hn. apply nth_error_None in E. rewrite !nth_overflow by assumption. reflexivity.
Qed.
Lemma incr_ok v i : (i < length v)%nat -> exists v', incr v i = Some v' /\ length v' = length v /\ forall j, get v' j = ((if Nat.eqb j i then 1 else 0) + get v j)%nat.
Proof.
  intros H. unfold incr. rewrite (get_nth v i H). cbn [obind]. destruct (upd_ex v i (Datatypes.S (get v i)) H) as (v' & E). exists v'. split; [exact E|].
  split; [eapply upd_len; eauto|]. intros j. rewrite (upd_get _ _ _ _ j E). destruct (Nat.eqb_spec j i) as [->|]; lia.
Qed.
Lemma decr_ok v i : (i < length v)%nat -> (0 < get v i)%nat ->
  exists v', decr v i = Some v' /\ length v' = length v /\ forall j, get v j = ((if Nat.eqb j i then 1 else 0) + get v' j)%nat.
Proof.
  intros H Hp. unfold decr. rewrite (get_nth v i H). cbn [obind]. destruct (get v i) as [|y] eqn:Ey; [lia|]. destruct (upd_ex v i y H) as (v' & E). exists v'. split; [exact E|].
  split; [eapply upd_len; eauto|]. intros j. rewrite (upd_get _ _ _ _ j E). destruct (Nat.eqb_spec j i) as [->|]; lia.
Qed.
Lemma get_zero v d : get (map (fun _ : nat => 0%nat) v) d = 0%nat.
Proof. unfold get. revert d. induction v; intros [|d]; cbn; auto. Qed.

Section Bar.
Variable S : Type.
Variable eqb : S -> S -> bool.
Variable cfg : config S.
Variable at_depth : nat -> S -> Prop.
Variable nv : nat -> nat.
Variable C : Z.
Variable merging : Prop.
Variable inv : fr_t (cf_fr cfg) -> Prop.
Variable content : fr_t (cf_fr cfg) -> list (subproblem S).
Notation P := (cf_pb cfg).
Notation R := (cf_rx cfg).
Notation N := (pb_nb_vars P).
Notation L := (Datatypes.S N).
Notation sub := (subproblem S).
Notation genuine := (genuine S P nv).
Notation completes := (completes S P nv).
Notation thread := (bthread S).
Notation state := (bstate S cfg).
Notation crit := (bcritical S cfg).
Notation fr := (cf_fr cfg).
Notation lib := (library_ok S).
Notation root_node := ParSolver.root_node.
Notation results := (results S eqb P R at_depth nv C).
Notation sol_ok := (sol_ok S cfg nv).
Notation upd_of := (upd_of S cfg nv).
Notation count := (count S).
Notation lookup := (lookup S eqb).
Hypothesis G : good_config S eqb cfg at_depth nv C merging inv content.
Let WF := gs_formed _ _ _ _ _ _ _ _ _ G.
Let FO := gs_frontier _ _ _ _ _ _ _ _ _ G.

(** * Positions *)
Definition trying (t : thread) : list sub := match u_pc t with BTry n | BInsert n => [n] | _ => [] end.
Definition held (t : thread) : list sub :=
  match u_pc t with BTry n | BInsert n | BStart n | BRestrict n _ | BRelax n _ | BRelaxing n _ _ => [n] | _ => [] end.
Definition running (t : thread) : list nat :=
  match u_pc t with BStart n | BRestrict n _ | BRelax n _ | BRelaxing n _ _ => [depth_of n] | BNotify d _ => [d] | _ => [] end.
Definition working (t : thread) : nat := length (running t).
Definition holding (t : thread) : nat := if holds t then 1%nat else 0%nat.
Definition total (f : thread -> nat) (l : list thread) : nat := list_sum (map f l).
Definition occ (k : nat) (l : list nat) : nat := length (filter (fun d => Nat.eqb d k) l).

Definition compiled (lb : Z) (ty : comp_type) (n : sub) (d : dd S) : Prop :=
  exists lb0 T0 T', lb0 <= lb /\ results false (call cfg ty n lb0) (cf_ctype cfg) T0 d T'.
(** What a compilation may write. *)
Definition allowed (ty : comp_type) (n : sub) (k : nat) (s : S) (i : info) : Prop := ty = Relaxed /\ (depth_of n <= k)%nat.
Definition compiling (lb : Z) (ty : comp_type) (n : sub) (p : prog S (dd S)) : Prop :=
  exists T, wp S eqb false L (allowed ty n) p T (fun d _ => compiled lb ty n d).

Definition thread_ok (lb : Z) (t : thread) : Prop :=
  g_ctype (u_dd t) = cf_ctype cfg /\ Forall genuine (held t) /\ Forall (fun d => (d <= N)%nat) (running t) /\
  match u_pc t with
  | BRestrict n p => compiling lb Restricted n p
  | BRelaxing n _ p => compiling lb Relaxed n p
  | _ => True
  end.

Notation KF k := (c_fringe (k_c k)).
Record winv (first : Prop) (st : state) : Prop := {
  i_fr : inv (KF (q_crit st));
  i_gen : Forall genuine (content (KF (q_crit st)));
  i_th : Forall (thread_ok (c_lb (k_c (q_crit st)))) (q_threads st);
  i_on : c_ongoing (k_c (q_crit st)) = total working (q_threads st);
  i_ubs : (length (q_threads st) <= length (c_ubs (k_c (q_crit st))))%nat;
  i_sol : sol_ok (k_c (q_crit st));
  i_wait : forall t, In t (q_threads st) -> u_pc t = BWait -> (0 < c_ongoing (k_c (q_crit st)))%nat;
  i_lock : (total holding (q_threads st) <= 1)%nat;
  i_table : length (q_table st) = L;
  i_olen : length (k_open (q_crit st)) = L;
  i_open : forall k, (count k (content (KF (q_crit st)) ++ flat_map trying (q_threads st)) <= get (k_open (q_crit st)) k)%nat;
  i_rlen : length (k_ongoing (q_crit st)) = L;
  i_run : forall k, get (k_ongoing (q_crit st)) k = occ k (flat_map running (q_threads st));
  i_lowN : (k_lowest (q_crit st) <= N)%nat;
  i_low : first -> forall k, (k < k_lowest (q_crit st))%nat -> count k (content (KF (q_crit st)) ++ flat_map trying (q_threads st)) = 0%nat /\ occ k (flat_map running (q_threads st)) = 0%nat;
  i_drop : first -> forall k, (k < k_lowest (q_crit st))%nat -> nth_error (q_table st) k = Some [] }.
Notation inv1 := (winv True).

Lemma good_call_of orc ty n lb : lib orc -> genuine n -> good_call S P R nv false orc (call cfg ty n lb).
Proof. intros. constructor; auto; [apply (gs_width _ _ _ _ _ _ _ _ _ G)|discriminate]. Qed.
Lemma gdepth q : genuine q -> (depth_of q <= N)%nat.
Proof. intros H. exact (genuine_depth S eqb P R at_depth nv C q WF H). Qed.

Lemma compiled_mono lb lb' ty n d : lb <= lb' -> compiled lb ty n d -> compiled lb' ty n d.
Proof. intros H (lb0 & T0 & T' & h1 & h2). exists lb0, T0, T'. split; [lia|auto]. Qed.
Lemma compiling_mono lb lb' ty n p : lb <= lb' -> compiling lb ty n p -> compiling lb' ty n p.
Proof. intros H (T & h). exists T. eapply wp_mono; [|exact h]. intros d T'. apply compiled_mono. exact H. Qed.
Lemma thread_ok_mono lb lb' t : lb <= lb' -> thread_ok lb t -> thread_ok lb' t.
Proof.
  intros H (h1 & h2 & h3 & h4). do 3 (split; [auto|]). destruct (u_pc t); auto; eapply compiling_mono; eauto.
Qed.

Lemma start_compiling lb ty n orc d : lib orc -> genuine n -> g_ctype d = cf_ctype cfg -> compiling lb ty n (compile eqb false orc (call cfg ty n lb) d).
Proof.
  intros Ho Hn Hct. assert (HT : length (repeat ([] : list (S * info)) L) = L) by apply repeat_length. exists (repeat [] L).
  eapply wp_mono; [|apply (bar_total S eqb P R at_depth nv C false (allowed ty n) false orc (call cfg ty n lb) d _ WF (good_call_of orc ty n lb Ho Hn) HT)].
  - intros dF T' H. exists lb, (repeat [] L), T'. split; [lia|]. rewrite <- Hct. exact H.
  - cbn. intros -> k s i Hk. split; auto.
Qed.

(** * Operations *)
Lemma update_best (c : critical S cfg) ty n d : genuine n -> compiled (c_lb c) ty n d -> ty <> Relaxed \/ g_exact d = true -> sol_ok c ->
  exists c', maybe_update_best cfg c d = Some c' /\ upd_of c c' /\ (forall v, best_value d = Some (Some v) -> v <= c_lb c').
Proof.
  intros Hn (lb0 & T0 & T' & _ & HR) Hty Hs. unfold ParFacts.upd_of.
  assert (Hty' : i_type (call cfg ty n lb0) <> Relaxed \/ g_exact d = true) by exact Hty.
  destruct (bar_feasible S eqb P R at_depth nv C false (call cfg ty n lb0) _ _ _ _ WF Hn HR Hty') as [(e1 & e2)|(v & l & e1 & e2 & e3 & _)].
  - unfold maybe_update_best. rewrite e1. cbn [obind]. assert (c_lb c <? IMIN = false) as ->.
    { apply Z.ltb_ge. unfold ParFacts.sol_ok in Hs. destruct (c_sol c) as [l|]; [|lia]. destruct Hs as (ds & _ & (c0 & (s' & Hr) & Hv)).
      destruct WF as [H1 H2 H3 H4].
      destruct (run_bound S eqb H1 P R at_depth nv C H2 H4 _ _ _ _ _ _ Hr (wf_init _ _ _ _ H2)) as (_ & Hb).
      assert (H5 := bd_range _ _ _ _ _ _ H4). assert (H6 := bd_init _ _ _ _ _ _ H4). rewrite IMIN_IMAX. assert (H7 := bd_pos _ _ _ _ _ _ H4). rewrite Nat.sub_0_r in Hb. nia. }
    exists c. split; [reflexivity|]. split; [|intros; congruence]. repeat (split; [auto; lia|]). reflexivity.
  - unfold maybe_update_best. rewrite e1. cbn [obind]. destruct (c_lb c <? v) eqn:Hlt.
    + rewrite e2. cbn [obind]. eexists. split; [reflexivity|]. unfold ParFacts.sol_ok. cbn. split; [repeat (split; [auto; lia|]); reflexivity|]. intros; assert (v = v0) by congruence; lia.
    + exists c. split; [reflexivity|]. split; [repeat (split; [auto; lia|]); reflexivity|]. intros; assert (v = v0) by congruence; lia.
Qed.

(** Pushing adds at most one subproblem, in its layer. *)
Lemma push_counts f n : inv f -> Forall genuine (content f) -> genuine n ->
  exists f', fr_push fr f n = Some f' /\ inv f' /\ Forall genuine (content f') /\
    (forall k, (count k (content f') <= (if Nat.eqb k (depth_of n) then 1 else 0) + count k (content f))%nat).
Proof.
  intros Hi Hc Hn. destruct (fr_push_genuine S eqb cfg at_depth nv C merging inv content G f n Hi Hc Hn) as (f' & E & Hi' & Hc'). exists f'. do 3 (split; [auto|]).
  destruct (fo_push _ _ _ _ FO f n Hi) as (f1 & E1 & _ & H). rewrite E in E1. injection E1 as <-. intros k.
  destruct H as [H|(_ & old & l & Hs & H1 & H2)].
  - rewrite (count_perm _ _ _ _ H), count_cons. rewrite (Nat.eqb_sym k). lia.
  - rewrite (count_perm _ _ _ _ H1), (count_perm _ _ _ _ H2), !count_cons. unfold merge_sub. rewrite (Nat.eqb_sym k).
    destruct (sp_value old <? sp_value n); unfold depth_of in *; cbn [sp_path with_ub]; destruct (Nat.eqb (length (sp_path n)) k); destruct (Nat.eqb (length (sp_path old)) k); lia.
Qed.

Lemma enqueue_ok lb ub LL : forall f o, inv f -> Forall genuine (content f) -> Forall genuine LL -> length o = L ->
  (forall k, (count k (content f) <= get o k)%nat) ->
  exists f' o', ofold (benqueue_node cfg lb ub) LL (f, o) = Some (f', o') /\ inv f' /\ Forall genuine (content f') /\ length o' = L /\
    ofold (enqueue_node cfg lb ub) LL f = Some f' /\
    (forall k x, (x + count k (content f) <= get o k)%nat -> (x + count k (content f') <= get o' k)%nat) /\
    (forall k, (forall q, In q LL -> (k < depth_of q)%nat) -> (count k (content f') <= count k (content f))%nat).
Proof.
  induction LL as [|q LL IH]; intros f o Hi Hc HL Ho Hk; cbn [ofold].
  - exists f, o. do 5 (split; [auto|]). split; auto.
  - inversion HL as [|? ? Hq HL']; subst. unfold benqueue_node at 1, enqueue_node at 1. cbn zeta.
    set (q' := with_ub q (Z.min ub (sp_ub q))) in *. assert (Hq' : genuine q') by exact Hq.
    destruct (lb <? sp_ub q') eqn:El; cbn [obind].
    + destruct (push_counts f q' Hi Hc Hq') as (f1 & E1 & Hi1 & Hc1 & Hn1). rewrite E1. cbn [obind].
      destruct (incr_ok o (depth_of q')) as (o1 & E2 & Ho1 & Hg1); [rewrite Ho; assert (H := gdepth _ Hq'); lia|].
      change (length (sp_path q')) with (depth_of q'). rewrite E2. cbn [obind].
      destruct (IH f1 o1 Hi1 Hc1 HL') as (f2 & o2 & r1 & r2 & r3 & r4 & r5 & r6 & r7).
      { congruence. }
      { intros k. rewrite Hg1. specialize (Hk k). specialize (Hn1 k). lia. }
      exists f2, o2. do 5 (split; [auto|]). split.
      * intros k x Hx. apply r6. rewrite Hg1. specialize (Hn1 k). lia.
      * intros k Hd. specialize (Hn1 k). assert (h1 := r7 k (fun x Hx => Hd x (or_intror Hx))). assert (h2 := Hd q (or_introl eq_refl)).
        change (depth_of q') with (depth_of q) in Hn1. assert (Nat.eqb k (depth_of q) = false) as He by (apply Nat.eqb_neq; lia). rewrite He in Hn1. lia.
    + destruct (IH f o Hi Hc HL' Ho Hk) as (f2 & o2 & r1 & r2 & r3 & r4 & r5 & r6 & r7). exists f2, o2. do 5 (split; [auto|]). split; [auto|].
      intros k Hd. apply r7. intros x Hx. apply Hd. right. exact Hx.
Qed.

(** * The steps, case by case *)
(** The entry of the thresholds that makes a thread skip the subproblem it just popped. *)
Definition blocked (T : thresholds S) (n : sub) : Prop :=
  exists i, lookup T (depth_of n) (sp_state n) = Some i /\ sp_value n <= b_theta i /\ (sp_value n = b_theta i -> b_explored i = true).
Definition unblocked (T : thresholds S) (n : sub) : Prop :=
  forall i, lookup T (depth_of n) (sp_state n) = Some i -> b_theta i < sp_value n \/ (sp_value n = b_theta i /\ b_explored i = false).

Inductive act (k : crit) (T : thresholds S) (d : dd S) : bpc S -> crit -> thresholds S -> bpc S -> dd S -> Prop :=
| a_enter : act k T d BIdle k T BClean d
| a_sweep T' : (k_lowest k < N)%nat -> get (k_open k) (k_lowest k) = 0%nat -> get (k_ongoing k) (k_lowest k) = 0%nat ->
    upd T (k_lowest k) [] = Some T' ->
    act k T d BClean (mk_bc (k_c k) (k_open k) (k_ongoing k) (Datatypes.S (k_lowest k))) T' BClean d
| a_complete : c_ongoing (k_c k) = 0%nat -> content (KF k) = [] ->
    act k T d BClean (with_c k (with_ubound (k_c k) (c_lb (k_c k)))) T BDone d
| a_stopped : c_interrupted (k_c k) = true -> act k T d BClean k T BDone d
| a_interrupt c' : c_interrupted (k_c k) = false ->
    (c_ongoing (k_c k) = 0%nat -> exists p, In p (content (KF k)) /\ c_ub c' = sp_ub p /\ forall q, In q (content (KF k)) -> sp_ub q <= sp_ub p) ->
    inv (c_fringe c') -> content (c_fringe c') = [] ->
    c_lb c' = c_lb (k_c k) -> c_sol c' = c_sol (k_c k) -> c_ubs c' = c_ubs (k_c k) -> c_ongoing c' = c_ongoing (k_c k) -> c_interrupted c' = true ->
    act k T d BClean (with_c k c') T BDone d
| a_park : c_interrupted (k_c k) = false -> content (KF k) = [] -> (0 < c_ongoing (k_c k))%nat -> act k T d BClean k T BWait d
| a_pop p f' : c_interrupted (k_c k) = false -> Permutation (content (KF k)) (p :: content f') -> inv f' ->
    (forall q, In q (content (KF k)) -> sp_ub q <= sp_ub p) ->
    act k T d BClean (with_c k (set_fringe cfg (k_c k) f')) T (BTry p) d
| a_starve n f' o : sp_ub n <= c_lb (k_c k) -> inv f' -> content f' = [] -> length o = length (k_open k) ->
    act k T d (BTry n) (mk_bc (set_fringe cfg (k_c k) f') o (k_ongoing k) (k_lowest k)) T BIdle d
| a_insert n : c_lb (k_c k) < sp_ub n -> unblocked T n -> act k T d (BTry n) k T (BInsert n) d
| a_skip n o : c_lb (k_c k) < sp_ub n -> blocked T n -> length o = length (k_open k) ->
    (forall j, get (k_open k) j = ((if Nat.eqb j (depth_of n) then 1 else 0) + get o j)%nat) -> content (KF k) = [] ->
    act k T d (BTry n) (mk_bc (k_c k) o (k_ongoing k) (k_lowest k)) T BIdle d
| a_next n o p f' : c_lb (k_c k) < sp_ub n -> blocked T n -> length o = length (k_open k) ->
    (forall j, get (k_open k) j = ((if Nat.eqb j (depth_of n) then 1 else 0) + get o j)%nat) ->
    Permutation (content (KF k)) (p :: content f') -> inv f' -> (forall q, In q (content (KF k)) -> sp_ub q <= sp_ub p) ->
    act k T d (BTry n) (mk_bc (set_fringe cfg (k_c k) f') o (k_ongoing k) (k_lowest k)) T (BTry p) d
| a_take n l T' c' o g : nth_error T (depth_of n) = Some l -> upd T (depth_of n) (tput eqb l (sp_state n) (mk_info (sp_value n) true)) = Some T' ->
    length o = length (k_open k) -> (forall j, get (k_open k) j = ((if Nat.eqb j (depth_of n) then 1 else 0) + get o j)%nat) ->
    length g = length (k_ongoing k) -> (forall j, get g j = ((if Nat.eqb j (depth_of n) then 1 else 0) + get (k_ongoing k) j)%nat) ->
    c_fringe c' = KF k -> c_ongoing c' = Datatypes.S (c_ongoing (k_c k)) -> c_lb c' = c_lb (k_c k) -> c_ub c' = c_ub (k_c k) -> c_sol c' = c_sol (k_c k) ->
    length (c_ubs c') = length (c_ubs (k_c k)) -> c_interrupted c' = c_interrupted (k_c k) ->
    act k T d (BInsert n) (mk_bc c' o g (k_lowest k)) T' (BStart n) d
| a_drop n : sp_ub n <= c_lb (k_c k) -> act k T d (BStart n) k T (BNotify (depth_of n) 0) d
| a_restrict n orc : lib orc -> c_lb (k_c k) < sp_ub n ->
    act k T d (BStart n) k T (BRestrict n (compile eqb false orc (call cfg Restricted n (c_lb (k_c k))) d)) d
| a_restricting n p p' T' : access eqb p T = Some (p', T') -> act k T d (BRestrict n p) k T' (BRestrict n p') d
| a_closed n d' c' x : g_exact d' = true -> upd_of (k_c k) c' -> (forall v, best_value d' = Some (Some v) -> v <= c_lb c') ->
    act k T d (BRestrict n (Ret d')) (with_c k c') T (BNotify (depth_of n) x) d'
| a_open n d' c' x : upd_of (k_c k) c' -> g_exact d' = false -> act k T d (BRestrict n (Ret d')) (with_c k c') T (BRelax n x) d'
| a_relax n x orc : lib orc -> act k T d (BRelax n x) k T (BRelaxing n x (compile eqb false orc (call cfg Relaxed n (c_lb (k_c k))) d)) d
| a_relaxing n x p p' T' : access eqb p T = Some (p', T') -> act k T d (BRelaxing n x p) k T' (BRelaxing n x p') d
| a_solved n x y d' c' : g_exact d' = true -> upd_of (k_c k) c' -> (forall v, best_value d' = Some (Some v) -> v <= c_lb c') ->
    act k T d (BRelaxing n x (Ret d')) (with_c k c') T (BNotify (depth_of n) y) d'
| a_branch n x y d' LL d'' f' o' : g_exact d' = false -> drain_cutset d' = Some (LL, d'') -> g_ctype d'' = cf_ctype cfg -> Forall genuine LL ->
    (forall q, In q LL -> (depth_of n < depth_of q)%nat) -> length o' = length (k_open k) ->
    ofold (enqueue_node cfg (c_lb (k_c k)) (sp_ub n)) LL (KF k) = Some f' -> inv f' -> Forall genuine (content f') ->
    (forall j x, (x + count j (content (KF k)) <= get (k_open k) j)%nat -> (x + count j (content f') <= get o' j)%nat) ->
    (forall j, (j <= depth_of n)%nat -> (count j (content f') <= count j (content (KF k)))%nat) ->
    act k T d (BRelaxing n x (Ret d')) (mk_bc (set_fringe cfg (k_c k) f') o' (k_ongoing k) (k_lowest k)) T (BNotify (depth_of n) y) d''.

(** The step of a thread that has the lock, or needs it free. *)
Definition needs_lock (p : bpc S) : bool :=
  match p with
  | BIdle | BStart _ | BRelax _ _ | BNotify _ _ | BRestrict _ (Ret _) | BRelaxing _ _ (Ret _) => true
  | _ => false
  end.

Inductive move (st : state) : state -> Prop :=
| move_act l1 l2 p p' d d' k' T' : q_threads st = l1 ++ mk_bth p d :: l2 -> (needs_lock p = true -> locked cfg st = false) ->
    act (q_crit st) (q_table st) d p k' T' p' d' ->
    move st (mk_bst k' T' (l1 ++ mk_bth p' d' :: l2))
| move_notify l1 l2 n x d c' g : q_threads st = l1 ++ mk_bth (BNotify n x) d :: l2 -> locked cfg st = false ->
    c_ongoing (k_c (q_crit st)) = Datatypes.S (c_ongoing c') -> length (c_ubs c') = length (c_ubs (k_c (q_crit st))) ->
    c_fringe c' = KF (q_crit st) -> c_lb c' = c_lb (k_c (q_crit st)) -> c_ub c' = c_ub (k_c (q_crit st)) -> c_sol c' = c_sol (k_c (q_crit st)) ->
    c_interrupted c' = c_interrupted (k_c (q_crit st)) -> length g = length (k_ongoing (q_crit st)) ->
    (forall j, get (k_ongoing (q_crit st)) j = ((if Nat.eqb j n then 1 else 0) + get g j)%nat) ->
    move st (mk_bst (mk_bc c' (k_open (q_crit st)) g (k_lowest (q_crit st))) (q_table st) (map bwake (l1 ++ mk_bth BIdle d :: l2))).

Lemma total_app f l1 t l2 : total f (l1 ++ t :: l2) = (total f l1 + f t + total f l2)%nat.
Proof. unfold total. rewrite map_app, list_sum_app. cbn [map]. change (list_sum (f t :: map f l2)) with (f t + list_sum (map f l2))%nat. lia. Qed.
Lemma total_wake f l : (forall t, f (bwake t) = f t) -> total f (map bwake l) = total f l.
Proof. intros H. unfold total. rewrite map_map. f_equal. apply map_ext. exact H. Qed.
Lemma flat_wake {A} (f : thread -> list A) l : (forall t, f (bwake t) = f t) -> flat_map f (map bwake l) = flat_map f l.
Proof. intros H. induction l as [|t l IH]; [reflexivity|]. cbn. rewrite IH, H. reflexivity. Qed.
Lemma wake_working t : working (bwake t) = working t. Proof. destruct t as [[]]; reflexivity. Qed.
Lemma wake_holding t : holding (bwake t) = holding t. Proof. destruct t as [[]]; reflexivity. Qed.
Lemma wake_trying t : trying (bwake t) = trying t. Proof. destruct t as [[]]; reflexivity. Qed.
Lemma wake_running t : running (bwake t) = running t. Proof. destruct t as [[]]; reflexivity. Qed.
Lemma wake_held t : held (bwake t) = held t. Proof. destruct t as [[]]; reflexivity. Qed.
Lemma occ_app k l l' : occ k (l ++ l') = (occ k l + occ k l')%nat.
Proof. unfold occ. rewrite filter_app, app_length. reflexivity. Qed.
Lemma occ_cons k x l : occ k (x :: l) = ((if Nat.eqb x k then 1 else 0) + occ k l)%nat.
Proof. unfold occ. cbn. destruct (Nat.eqb x k); reflexivity. Qed.
Lemma occ_in k l : In k l -> (0 < occ k l)%nat.
Proof. induction l as [|x l IH]; intros []; rewrite occ_cons; [subst; rewrite Nat.eqb_refl; lia|specialize (IH H); lia]. Qed.
Lemma count_mid k c (f : thread -> list sub) l1 t l2 : count k (c ++ flat_map f (l1 ++ t :: l2)) = (count k c + count k (f t) + count k (flat_map f (l1 ++ l2)))%nat.
Proof. rewrite !flat_map_app. cbn [flat_map]. rewrite !count_app. lia. Qed.
Lemma occ_mid k (f : thread -> list nat) l1 t l2 : occ k (flat_map f (l1 ++ t :: l2)) = (occ k (f t) + occ k (flat_map f (l1 ++ l2)))%nat.
Proof. rewrite !flat_map_app. cbn [flat_map]. rewrite !occ_app. lia. Qed.

Lemma lookup_in (T : thresholds S) n : (depth_of n <= N)%nat -> length T = L -> exists l, nth_error T (depth_of n) = Some l /\ lookup T (depth_of n) (sp_state n) = tget eqb l (sp_state n).
Proof. intros H HT. destruct (nth_ex T (depth_of n)) as (l & E); [lia|]. exists l. split; [exact E|]. unfold BarWp.lookup. rewrite E. reflexivity. Qed.

(** A step of [get_workload]. *)
Lemma clean_ok k T d intr : inv (KF k) -> length T = L -> length (k_open k) = L -> length (k_ongoing k) = L -> (k_lowest k <= N)%nat ->
  exists k' T' p', act k T d BClean k' T' p' d /\
  (clean_turn cfg k T = Some (Some (k', T')) /\ p' = BClean \/ clean_turn cfg k T = Some None /\ decide cfg k intr = Some (k', p') /\ T' = T).
Proof.
  intros Hi HT Ho Hg Hl. unfold clean_turn.
  assert (Hdec : exists k' p', decide cfg k intr = Some (k', p') /\ act k T d BClean k' T p' d).
  { unfold decide. cbn zeta. assert (Hem := fo_empty _ _ _ _ FO _ Hi).
    destruct (Nat.eqb (c_ongoing (k_c k)) 0 && fr_empty fr (KF k)) eqn:E1.
    - apply andb_true_iff in E1 as (e1 & e2). apply Nat.eqb_eq in e1. apply Hem in e2. do 2 eexists. split; [reflexivity|]. apply a_complete; auto.
    - destruct (c_interrupted (k_c k)) eqn:E2; [do 2 eexists; split; [reflexivity|]; apply a_stopped; auto|].
      destruct (fr_empty fr (KF k)) eqn:E4.
      + assert (Hc : content (KF k) = []) by (apply Hem; reflexivity). rewrite andb_true_r in E1. apply Nat.eqb_neq in E1.
        destruct intr.
        * assert (0 <? c_ongoing (k_c k) = true)%nat as -> by (apply Nat.ltb_lt; lia). cbn [obind].
          destruct (fo_clear _ _ _ _ FO _ Hi) as (g1 & g2). do 2 eexists. split; [reflexivity|]. eapply a_interrupt; eauto; try reflexivity; intros Hz; lia.
        * do 2 eexists. split; [reflexivity|]. apply a_park; auto. lia.
      + assert (Hc : content (KF k) <> []) by (intros Hc; apply Hem in Hc; congruence).
        destruct (fo_pop _ _ _ _ FO _ Hi Hc) as (p & f' & Ep & Hi' & Hp & Hmax). assert (Hin : In p (content (KF k))) by (eapply Permutation_in; [symmetry; exact Hp|left; auto]).
        destruct intr.
        * destruct (0 <? c_ongoing (k_c k))%nat eqn:E3; cbn [obind].
          -- destruct (fo_clear _ _ _ _ FO _ Hi) as (g1 & g2). do 2 eexists. split; [reflexivity|]. eapply a_interrupt; eauto; try reflexivity; intros Hz; rewrite Hz in E3; discriminate.
          -- rewrite Ep. cbn [obind]. destruct (fo_clear _ _ _ _ FO _ Hi') as (g1 & g2). do 2 eexists. split; [reflexivity|]. eapply a_interrupt; eauto; try reflexivity; intros _; exists p; auto.
        * rewrite Ep. cbn [obind]. do 2 eexists. split; [reflexivity|]. apply a_pop; auto. }
  destruct (k_lowest k <? N)%nat eqn:El.
  - rewrite (get_nth (k_open k)), (get_nth (k_ongoing k)) by lia. cbn [obind]. destruct (get (k_open k) (k_lowest k) + get (k_ongoing k) (k_lowest k) =? 0)%nat eqn:Ez.
    + destruct (upd_ex T (k_lowest k) [] ltac:(lia)) as (T' & ET). rewrite ET. cbn [obind]. apply Nat.eqb_eq in Ez. apply Nat.ltb_lt in El.
      do 3 eexists. split; [|left; split; reflexivity]. apply a_sweep; auto; lia.
    + destruct Hdec as (k' & p' & E & Ha). exists k', T, p'. split; [exact Ha|]. right. auto.
  - destruct Hdec as (k' & p' & E & Ha). exists k', T, p'. split; [exact Ha|]. right. auto.
Qed.

Lemma try_ok k T d n : inv (KF k) -> genuine n -> length T = L -> length (k_open k) = L -> (0 < get (k_open k) (depth_of n))%nat ->
  exists k' p', try_node eqb cfg k T n = Some (k', p') /\ act k T d (BTry n) k' T p' d.
Proof.
  intros Hi Hn HT Ho Hpos. unfold try_node. cbn zeta. destruct (sp_ub n <=? c_lb (k_c k)) eqn:Eu.
  - destruct (fo_clear _ _ _ _ FO _ Hi) as (g1 & g2). do 2 eexists. split; [reflexivity|]. apply a_starve; auto; [lia|apply map_length].
  - assert (Hd := gdepth _ Hn). destruct (lookup_in T n Hd HT) as (l & El & Elk). change (length (sp_path n)) with (depth_of n). rewrite El. cbn [obind].
    apply Z.leb_gt in Eu.
    destruct (match tget eqb l (sp_state n) with None => true | Some i => _ end) eqn:Et.
    + do 2 eexists. split; [reflexivity|]. apply a_insert; [exact Eu|]. intros i Hi'. rewrite Elk in Hi'. rewrite Hi' in Et. apply orb_true_iff in Et as [Et|Et]; [left; lia|].
      apply andb_true_iff in Et as (e1 & e2). apply negb_true_iff in e2. right. split; [lia|exact e2].
    + assert (Hb : blocked T n).
      { destruct (tget eqb l (sp_state n)) as [i|] eqn:Ei; [|discriminate]. exists i. split; [exact Elk|]. apply orb_false_iff in Et as (e1 & e2). apply Z.ltb_ge in e1. split; [exact e1|].
        intros He. apply andb_false_iff in e2 as [e2|e2]; [apply Z.eqb_neq in e2; congruence|]. apply negb_false_iff in e2. exact e2. }
      destruct (decr_ok (k_open k) (depth_of n)) as (o & Eo & Hol & Hog); [lia|lia|]. rewrite Eo. cbn [obind]. assert (Hem := fo_empty _ _ _ _ FO _ Hi).
      destruct (fr_empty fr (KF k)) eqn:E4.
      * do 2 eexists. split; [reflexivity|]. apply a_skip; auto. apply Hem. reflexivity.
      * assert (Hc : content (KF k) <> []) by (intros Hc; apply Hem in Hc; congruence).
        destruct (fo_pop _ _ _ _ FO _ Hi Hc) as (p & f' & Ep & Hi' & Hp & Hmax). rewrite Ep. cbn [obind]. do 2 eexists. split; [reflexivity|]. apply (a_next k T d n o p f'); auto.
Qed.

Lemma take_ok k T d i n : genuine n -> length T = L -> length (k_open k) = L -> length (k_ongoing k) = L -> (0 < get (k_open k) (depth_of n))%nat ->
  (i < length (c_ubs (k_c k)))%nat ->
  exists k' T', take_node eqb cfg k T i n = Some (k', T') /\ act k T d (BInsert n) k' T' (BStart n) d.
Proof.
  intros Hn HT Ho Hg Hpos Hi. unfold take_node. cbn zeta. assert (Hd := gdepth _ Hn). destruct (lookup_in T n Hd HT) as (l & El & Elk).
  change (length (sp_path n)) with (depth_of n). rewrite El. cbn [obind].
  destruct (upd_ex T (depth_of n) (tput eqb l (sp_state n) (mk_info (sp_value n) true)) ltac:(lia)) as (T' & ET). rewrite ET. cbn [obind].
  destruct (upd_some (c_ubs (k_c k)) i (sp_ub n) Hi) as (ubs & -> & Hlen). cbn [obind].
  destruct (decr_ok (k_open k) (depth_of n)) as (o & -> & Hol & Hog); [lia|lia|]. cbn [obind].
  destruct (incr_ok (k_ongoing k) (depth_of n)) as (g & -> & Hgl & Hgg); [lia|]. cbn [obind].
  do 2 eexists. split; [reflexivity|]. eapply a_take; eauto.
Qed.

Lemma unlocked_split st l1 t l2 : q_threads st = l1 ++ t :: l2 -> locked cfg st = false -> holds t = false.
Proof. intros E H. unfold locked in H. rewrite E, existsb_app in H. cbn in H. apply orb_false_iff in H as (_ & H). apply orb_false_iff in H as (H & _). exact H. Qed.

(** Every thread that is not waiting nor done can do a step unless it needs the lock and another thread has it. *)
Lemma step_total {first} st i t orc intr : winv first st -> lib orc -> nth_error (q_threads st) i = Some t -> u_pc t <> BWait -> u_pc t <> BDone ->
  (bthread_step eqb cfg orc intr i st = BDisabled /\ needs_lock (u_pc t) = true /\ locked cfg st = true) \/
  exists st', bthread_step eqb cfg orc intr i st = BNext st' /\ move st st'.
Proof.
  intros HI Ho Hn Hw Hd.
  assert (Hlen : (i < length (q_threads st))%nat) by (apply nth_error_Some; congruence).
  assert (Hub : (i < length (c_ubs (k_c (q_crit st))))%nat) by (assert (H := i_ubs _ _ HI); lia).
  assert (Hth : thread_ok (c_lb (k_c (q_crit st))) t) by (apply (proj1 (Forall_forall _ _) (i_th _ _ HI)); eapply nth_error_In; eauto).
  destruct Hth as (Hct & Hgen & Hrun & Hpc).
  destruct t as [p d]. cbn [u_pc u_dd] in *.
  assert (Hsp : forall x, exists l1 l2, q_threads st = l1 ++ mk_bth p d :: l2 /\ put i x (q_threads st) = l1 ++ x :: l2 /\ length l1 = i)
    by (intros x; apply put_split; exact Hn).
  assert (Hmk : (needs_lock p = true -> locked cfg st = false) -> forall k' T' p' d', act (q_crit st) (q_table st) d p k' T' p' d' ->
     exists st', goto cfg st i k' T' (mk_bth p' d') = BNext st' /\ move st st').
  { intros Hlk k' T' p' d' Ha. destruct (Hsp (mk_bth p' d')) as (l1 & l2 & h1 & h2 & _). unfold goto. rewrite h2. eexists. split; [reflexivity|]. eapply move_act; eauto. }
  assert (Hopen : forall n, trying (mk_bth p d) = [n] -> (0 < get (k_open (q_crit st)) (depth_of n))%nat).
  { intros n Htr. assert (H := i_open _ _ HI (depth_of n)). destruct (Hsp (mk_bth p d)) as (l1 & l2 & h1 & _ & _). rewrite h1, count_mid, Htr, count_cons, Nat.eqb_refl in H. lia. }
  unfold bthread_step. rewrite Hn. cbn [u_pc u_dd]. cbn zeta.
  destruct p as [| | |n|n|n|n pr|n x|n x pr|n x|]; try congruence; cbn [needs_lock] in *.
  - destruct (locked cfg st) eqn:El; [left; auto|right]. apply Hmk; [auto|]. apply a_enter.
  - right. destruct (clean_ok (q_crit st) (q_table st) d intr (i_fr _ _ HI) (i_table _ _ HI) (i_olen _ _ HI) (i_rlen _ _ HI) (i_lowN _ _ HI)) as (k' & T' & p' & Ha & [(E & ->)|(E & E2 & ->)]); rewrite E.
    + apply Hmk; [discriminate|exact Ha].
    + rewrite E2. apply Hmk; [discriminate|exact Ha].
  - right. inversion Hgen as [|? ? Hg0 _]; subst.
    destruct (try_ok (q_crit st) (q_table st) d n (i_fr _ _ HI) Hg0 (i_table _ _ HI) (i_olen _ _ HI) (Hopen n eq_refl)) as (k' & p' & E & Ha). rewrite E. apply Hmk; [discriminate|exact Ha].
  - right. inversion Hgen as [|? ? Hg0 _]; subst.
    destruct (take_ok (q_crit st) (q_table st) d i n Hg0 (i_table _ _ HI) (i_olen _ _ HI) (i_rlen _ _ HI) (Hopen n eq_refl) Hub) as (k' & T' & E & Ha). rewrite E. apply Hmk; [discriminate|exact Ha].
  - destruct (locked cfg st) eqn:El; [left; auto|right]. apply Hmk; [auto|]. destruct (sp_ub n <=? c_lb (k_c (q_crit st))) eqn:E; [apply a_drop; lia|apply a_restrict; [exact Ho|lia]].
  - inversion Hgen as [|? ? Hg0 _]; subst. destruct Hpc as (T0 & Hwp). assert (Hacc := wp_access S eqb false L (allowed Restricted n) pr T0 (q_table st) _ Hwp (i_table _ _ HI) ltac:(discriminate)).
    destruct pr as [d'| |j f|j s f|j s f g].
    + cbn [wp] in Hwp. destruct (locked cfg st) eqn:El; [left; auto|right].
      destruct (update_best (k_c (q_crit st)) Restricted n d' Hg0 Hwp ltac:(left; discriminate) (i_sol _ _ HI)) as (c' & -> & h1 & h2). cbn [obind].
      apply Hmk; [auto|]. destruct (g_exact d') eqn:E; [apply a_closed; auto|apply a_open; auto].
    + destruct Hwp.
    + right. destruct Hacc as (p' & T' & E & _ & _). unfold compile_step. rewrite E. apply Hmk; [discriminate|]. apply a_restricting. exact E.
    + right. destruct Hacc as (p' & T' & E & _ & _). unfold compile_step. rewrite E. apply Hmk; [discriminate|]. apply a_restricting. exact E.
    + right. destruct Hacc as (p' & T' & E & _ & _). unfold compile_step. rewrite E. apply Hmk; [discriminate|]. apply a_restricting. exact E.
  - destruct (locked cfg st) eqn:El; [left; auto|right]. apply Hmk; [auto|]. apply a_relax; auto.
  - inversion Hgen as [|? ? Hg0 _]; subst. destruct Hpc as (T0 & Hwp). assert (Hacc := wp_access S eqb false L (allowed Relaxed n) pr T0 (q_table st) _ Hwp (i_table _ _ HI) ltac:(discriminate)).
    destruct pr as [d'| |j f|j s f|j s f g].
    + cbn [wp] in Hwp. destruct (locked cfg st) eqn:El; [left; auto|right]. destruct (g_exact d') eqn:E.
      * destruct (update_best (k_c (q_crit st)) Relaxed n d' Hg0 Hwp (or_intror E) (i_sol _ _ HI)) as (c' & -> & h1 & h2). cbn [obind]. apply Hmk; [auto|]. apply a_solved; auto.
      * destruct Hwp as (lb0 & TA & TB & Hlb & HR). destruct (bar_cut S eqb P R at_depth nv C false (call cfg Relaxed n lb0) _ _ _ _ WF Hg0 HR) as (_ & LL & d2 & ED & Hc2 & HL).
        assert (HLg : Forall genuine LL) by (apply Forall_forall; intros q Hq; apply HL; auto).
        unfold benqueue_cutset. rewrite ED. cbn [obind].
        destruct (enqueue_ok (c_lb (k_c (q_crit st))) (sp_ub n) LL (KF (q_crit st)) (k_open (q_crit st)) (i_fr _ _ HI) (i_gen _ _ HI) HLg (i_olen _ _ HI)) as (f' & o' & r1 & r2 & r3 & r4 & r5 & r6 & r7).
        { intros k. assert (H := i_open _ _ HI k). rewrite count_app in H. lia. }
        rewrite r1. cbn [obind]. apply Hmk; [auto|]. eapply a_branch; eauto.
        -- intros q Hq. apply HL. exact Hq.
        -- rewrite r4. symmetry. apply HI.
        -- intros j Hj. apply r7. intros q Hq. destruct (HL q Hq) as (_ & _ & H). cbn in H. lia.
    + destruct Hwp.
    + right. destruct Hacc as (p' & T' & E & _ & _). unfold compile_step. rewrite E. apply Hmk; [discriminate|]. apply a_relaxing. exact E.
    + right. destruct Hacc as (p' & T' & E & _ & _). unfold compile_step. rewrite E. apply Hmk; [discriminate|]. apply a_relaxing. exact E.
    + right. destruct Hacc as (p' & T' & E & _ & _). unfold compile_step. rewrite E. apply Hmk; [discriminate|]. apply a_relaxing. exact E.
  - destruct (locked cfg st) eqn:El; [left; auto|right]. unfold bfinish_node, finish_node. cbn zeta.
    destruct (Hsp (mk_bth BIdle d)) as (l1 & l2 & h1 & h2 & _).
    assert (Hon := i_on _ _ HI). rewrite h1, total_app in Hon. cbn in Hon.
    destruct (c_ongoing (k_c (q_crit st))) as [|o] eqn:Eo; [exfalso; lia|].
    destruct (upd_some (c_ubs (k_c (q_crit st))) i IMAX Hub) as (ubs & -> & Hlen'). cbn [obind].
    inversion Hrun as [|? ? Hr0 _]; subst. assert (Hrn := i_run _ _ HI n). rewrite h1, occ_mid in Hrn. cbn [running u_pc] in Hrn. rewrite occ_cons, Nat.eqb_refl in Hrn.
    destruct (decr_ok (k_ongoing (q_crit st)) n) as (g & -> & Hgl & Hgg); [rewrite (i_rlen _ _ HI); lia|lia|]. cbn [obind].
    rewrite h2. eexists. split; [reflexivity|]. eapply move_notify; eauto.
Qed.

(** * The first invariant *)
(** The same from the point of view of one thread: [xs], [ys], [ow] and [oh] are what the others contribute. *)
Record loc (first : Prop) (k : crit) (T : thresholds S) (t : thread) (xs ys : nat -> nat) (ow oh : nat) : Prop := {
  l_fr : inv (KF k);
  l_gen : Forall genuine (content (KF k));
  l_th : thread_ok (c_lb (k_c k)) t;
  l_on : c_ongoing (k_c k) = (working t + ow)%nat;
  l_sol : sol_ok (k_c k);
  l_lock : (holding t + oh <= 1)%nat;
  l_xs : oh = 0%nat -> forall j, xs j = 0%nat;
  l_table : length T = L;
  l_olen : length (k_open k) = L;
  l_open : forall j, (count j (content (KF k)) + count j (trying t) + xs j <= get (k_open k) j)%nat;
  l_rlen : length (k_ongoing k) = L;
  l_run : forall j, get (k_ongoing k) j = (occ j (running t) + ys j)%nat;
  l_lowN : (k_lowest k <= N)%nat;
  l_low : first -> forall j, (j < k_lowest k)%nat -> (count j (content (KF k)) + count j (trying t) + xs j = 0)%nat /\ (occ j (running t) + ys j = 0)%nat;
  l_drop : first -> forall j, (j < k_lowest k)%nat -> nth_error T j = Some [] }.

Lemma loc_of first st l1 t l2 : winv first st -> q_threads st = l1 ++ t :: l2 ->
  loc first (q_crit st) (q_table st) t (fun j => count j (flat_map trying (l1 ++ l2))) (fun j => occ j (flat_map running (l1 ++ l2))) (total working (l1 ++ l2)) (total holding (l1 ++ l2)).
Proof.
  intros [i1 i2 i3 i4 i5 i6 i7 i8 i9 i10 i11 i12 i13 i14 i15 i16] E. rewrite E in *.
  assert (Htot : forall f, total f (l1 ++ t :: l2) = (f t + total f (l1 ++ l2))%nat) by (intros f; rewrite total_app; unfold total; rewrite map_app, list_sum_app; lia).
  constructor; auto.
  - apply Forall_app in i3 as (_ & i3). inversion i3; auto.
  - rewrite i4. apply Htot.
  - rewrite <- Htot. exact i8.
  - intros Hz j. clear -Hz. induction (l1 ++ l2) as [|x l IH]; [reflexivity|]. change (total holding (x :: l)) with (holding x + total holding l)%nat in Hz.
    cbn [flat_map]. rewrite count_app, IH by lia. destruct x as [[]]; cbn in *; try reflexivity; lia.
  - intros j. specialize (i11 j). rewrite count_mid in i11. exact i11.
  - intros j. rewrite i13. apply occ_mid.
  - intros HF j Hj. destruct (i15 HF j Hj) as (a1 & a2). rewrite count_mid in a1. rewrite occ_mid in a2. auto.
Qed.

Lemma of_loc first k T l1 t l2 : loc first k T t (fun j => count j (flat_map trying (l1 ++ l2))) (fun j => occ j (flat_map running (l1 ++ l2))) (total working (l1 ++ l2)) (total holding (l1 ++ l2)) ->
  Forall (thread_ok (c_lb (k_c k))) (l1 ++ l2) -> (length (l1 ++ t :: l2) <= length (c_ubs (k_c k)))%nat ->
  (forall x, In x (l1 ++ t :: l2) -> u_pc x = BWait -> (0 < c_ongoing (k_c k))%nat) -> winv first (mk_bst k T (l1 ++ t :: l2)).
Proof.
  intros [j1 j2 j3 j4 j5 j6 j7 j8 j9 j10 j11 j12 j13 j14 j15] Ho Hub Hw.
  assert (Htot : forall f, total f (l1 ++ t :: l2) = (f t + total f (l1 ++ l2))%nat) by (intros f; rewrite total_app; unfold total; rewrite map_app, list_sum_app; lia).
  constructor; cbn [q_crit q_table q_threads]; auto.
  - apply Forall_app in Ho as (o1 & o2). apply Forall_app. auto.
  - rewrite j4. symmetry. apply Htot.
  - rewrite Htot. exact j6.
  - intros j. rewrite count_mid. apply j10.
  - intros j. rewrite j12. symmetry. apply occ_mid.
  - intros HF j Hj. rewrite count_mid, occ_mid. auto.
Qed.

Lemma upd_other {A} (l : list A) i x l' j : upd l i x = Some l' -> j <> i -> nth_error l' j = nth_error l j.
Proof. intros E H. rewrite (upd_nth _ _ _ _ j E). apply Nat.eqb_neq in H. rewrite H. reflexivity. Qed.

Lemma access_ok lb ty n p T p' T' : compiling lb ty n p -> access eqb p T = Some (p', T') -> length T = L ->
  compiling lb ty n p' /\ length T' = L /\
  (forall low, (low <= depth_of n)%nat -> (forall j, (j < low)%nat -> nth_error T j = Some []) -> forall j, (j < low)%nat -> nth_error T' j = Some []).
Proof.
  intros (T0 & Hwp) E HT. assert (Hacc := wp_access S eqb false L (allowed ty n) p T0 T _ Hwp HT ltac:(discriminate)).
  assert (HW := wp_write S eqb false L _ _ _ _ _ _ _ _ Hwp E).
  assert (Hx : exists p' T', access eqb p T = Some (p', T') /\ wp S eqb false L (allowed ty n) p' T' (fun d _ => compiled lb ty n d) /\ length T' = L) by (destruct p; [discriminate E|exact Hacc..]).
  destruct Hx as (p1 & T1 & E1 & h1 & h2). rewrite E in E1. injection E1 as <- <-. split; [exists T'; exact h1|]. split; [exact h2|].
  intros low Hl Hd j Hj. destruct HW as [->|(d & s & i & l & (_ & Hg) & Hn & Hu)]; [auto|]. rewrite (upd_other _ _ _ _ j Hu); [auto|lia].
Qed.

Lemma act_loc first k T d p k' T' p' d' xs ys ow oh : act k T d p k' T' p' d' -> (p = BIdle -> oh = 0%nat) -> loc first k T (mk_bth p d) xs ys ow oh ->
  loc first k' T' (mk_bth p' d') xs ys ow oh /\ c_lb (k_c k) <= c_lb (k_c k') /\ length (c_ubs (k_c k')) = length (c_ubs (k_c k)) /\
  (p' = BWait -> (0 < c_ongoing (k_c k'))%nat) /\ (c_ongoing (k_c k) <= c_ongoing (k_c k'))%nat.
Proof.
  intros Ha Hfree [j1 j2 (j3 & j3a & j3b & j3c) j4 j5 j6 j7 j8 j9 j10 j11 j12 j13 j14 j15].
  assert (Hbelow : first -> forall n : sub, running (mk_bth p d) = [depth_of n] -> (k_lowest k <= depth_of n)%nat).
  { intros HF n Hn. destruct (Nat.le_gt_cases (k_lowest k) (depth_of n)) as [H|H]; [exact H|]. destruct (j14 HF _ H) as (_ & Hz). rewrite Hn, occ_cons, Nat.eqb_refl in Hz. lia. }
  assert (Hbelow' : first -> forall n : sub, trying (mk_bth p d) = [n] -> (k_lowest k <= depth_of n)%nat).
  { intros HF n Hn. destruct (Nat.le_gt_cases (k_lowest k) (depth_of n)) as [H|H]; [exact H|]. destruct (j14 HF _ H) as (Hz & _). rewrite Hn, count_cons, Nat.eqb_refl in Hz. lia. }
  unfold ParFacts.upd_of, working, holding, thread_ok in *.
  destruct Ha as [ | T1 e1 e2 e3 e4 | e1 e2 | e1 | c' e1 e2 e3 e4 e5 e6 e7 e8 e9 | e1 e2 e3 | p f' e1 e2 e3 e4
    | n f' o e1 e2 e3 e4 | n e1 e2 | n o e1 e2 e3 e4 e5 | n o p f' e1 e2 e3 e4 e5 e6 e7 | n l T1 c' o g e1 e2 e3 e4 e5 e6 e7 e8 e9 e10 e11 e12 e13
    | n e1 | n orc e1 e2 | n p p1 T1 e1 | n d1 c' x e1 e2 e3 | n d1 c' x e1 | n x orc e1 | n x p p1 T1 e1 | n x y d1 c' e1 e2 e3
    | n x y d1 LL d2 f' o e1 e2 e3 e4 e5 e6 e7 e8 e9 e10 e11];
  unfold set_fringe, with_c, with_ubound in *; cbn [u_pc u_dd trying running held holds length k_c k_open k_ongoing k_lowest c_fringe c_ongoing c_lb c_ubs c_sol c_interrupted] in *.
  - (* enter *) split; [|repeat split; try lia; discriminate]. constructor; auto; [unfold thread_ok; cbn; auto|]. unfold holding; cbn. assert (oh = 0%nat) by auto. lia.
  - (* sweep *) split; [|repeat split; try lia; discriminate]. constructor; cbn [k_c k_open k_ongoing k_lowest]; auto.
    + unfold thread_ok; cbn; auto.
    + rewrite (upd_len _ _ _ _ e4). exact j8.
    + intros HF j Hj. destruct (Nat.eq_dec j (k_lowest k)) as [->|Hne]; [|apply j14; [exact HF|lia]]. specialize (j10 (k_lowest k)). specialize (j12 (k_lowest k)). cbn in *. lia.
    + intros HF j Hj. rewrite (upd_nth _ _ _ _ j e4). destruct (Nat.eqb_spec j (k_lowest k)); [reflexivity|]. apply j15; [exact HF|lia].
  - (* complete *) split; [|repeat split; try lia; discriminate]. constructor; cbn [k_c k_open k_ongoing k_lowest c_fringe c_lb c_sol c_ongoing]; auto.
    + unfold thread_ok; cbn; auto.
    + unfold holding in *; cbn in *. lia.
  - (* stopped *) split; [|repeat split; try lia; discriminate]. constructor; auto.
    + unfold thread_ok; cbn; auto.
    + unfold holding in *; cbn in *. lia.
  - (* interrupt *) split; [|rewrite e5, e7, e8; repeat split; try lia; discriminate]. constructor; cbn [k_c k_open k_ongoing k_lowest]; auto.
    + rewrite e4. constructor.
    + rewrite e5. unfold thread_ok; cbn; auto.
    + rewrite e8. exact j4.
    + unfold ParFacts.sol_ok in *. rewrite e5, e6. exact j5.
    + unfold holding in *; cbn in *. lia.
    + rewrite e4. intros j. specialize (j10 j). cbn in *. lia.
    + rewrite e4. intros HF j Hj. destruct (j14 HF j Hj) as (a1 & a2). split; [|exact a2]. cbn in *. lia.
  - (* park *) split; [|repeat split; auto; try lia]. constructor; auto.
    + unfold thread_ok; cbn; auto.
    + unfold holding in *; cbn in *. lia.
  - (* pop *) assert (Hg' := Permutation_Forall e2 j2). inversion Hg' as [|? ? g1 g2]; subst. split; [|repeat split; try lia; discriminate].
    assert (Hcnt : forall j, count j (content (KF k)) = (count j (content f') + count j [p])%nat) by (intros j; rewrite (count_perm _ _ _ _ e2), !count_cons; cbn; lia).
    constructor; cbn [k_c k_open k_ongoing k_lowest c_fringe]; auto.
    + unfold thread_ok; cbn; auto.
    + intros j. specialize (j10 j). rewrite Hcnt in j10. cbn [trying u_pc] in *. change (count j []) with 0%nat in *. lia.
    + intros HF j Hj. destruct (j14 HF j Hj) as (a1 & a2). rewrite Hcnt in a1. cbn [trying u_pc] in *. change (count j []) with 0%nat in *. split; [lia|exact a2].
  - (* starve *) assert (Hoh : oh = 0%nat) by lia. split; [|repeat split; try lia; discriminate].
    constructor; cbn [k_c k_open k_ongoing k_lowest c_fringe c_lb]; auto.
    + rewrite e3. constructor.
    + unfold thread_ok; cbn; auto.
    + unfold holding; cbn. lia.
    + congruence.
    + rewrite e3. intros j. rewrite (j7 Hoh j). cbn. lia.
    + rewrite e3. intros HF j Hj. destruct (j14 HF j Hj) as (a1 & a2). split; [|exact a2]. cbn in *. lia.
  - (* insert *) split; [|repeat split; try lia; discriminate]. constructor; auto. unfold thread_ok; cbn; auto.
  - (* skip *) split; [|repeat split; try lia; discriminate].
    constructor; cbn [k_c k_open k_ongoing k_lowest]; auto.
    + unfold thread_ok; cbn; auto.
    + unfold holding; cbn. lia.
    + congruence.
    + intros j. specialize (j10 j). rewrite e4, count_cons, (Nat.eqb_sym (depth_of n)) in j10. cbn [trying u_pc] in *. change (count j []) with 0%nat in *. lia.
    + intros HF j Hj. destruct (j14 HF j Hj) as (a1 & a2). split; [|exact a2]. rewrite count_cons in a1. cbn [trying u_pc] in *. change (count j []) with 0%nat in *. lia.
  - (* next *) assert (Hg' := Permutation_Forall e5 j2). inversion Hg' as [|? ? g1 g2]; subst. split; [|repeat split; try lia; discriminate].
    assert (Hcnt : forall j, count j (content (KF k)) = (count j (content f') + count j [p])%nat) by (intros j; rewrite (count_perm _ _ _ _ e5), !count_cons; cbn; lia).
    constructor; cbn [k_c k_open k_ongoing k_lowest c_fringe]; auto.
    + unfold thread_ok; cbn; auto.
    + congruence.
    + intros j. specialize (j10 j). rewrite Hcnt, e4, (count_cons _ _ n), (Nat.eqb_sym (depth_of n)) in j10. cbn [trying u_pc] in *. change (count j []) with 0%nat in *. lia.
    + intros HF j Hj. destruct (j14 HF j Hj) as (a1 & a2). rewrite Hcnt, (count_cons _ _ n) in a1. cbn [trying u_pc] in *. split; [lia|exact a2].
  - (* take *) split; [|rewrite e8, e9, e12; repeat split; try lia; discriminate]. inversion j3a as [|? ? g1 _]; subst.
    assert (Hnl : first -> (k_lowest k <= depth_of n)%nat) by (intros HF; apply Hbelow'; [exact HF|reflexivity]).
    constructor; cbn [k_c k_open k_ongoing k_lowest]; rewrite ?e7; auto.
    + rewrite e9. unfold thread_ok; cbn. do 2 (split; [auto|]). split; [constructor; [apply gdepth; exact g1|constructor]|exact I].
    + rewrite e8, j4. reflexivity.
    + unfold ParFacts.sol_ok in *. rewrite e9, e11. exact j5.
    + unfold holding; cbn. lia.
    + rewrite (upd_len _ _ _ _ e2). exact j8.
    + congruence.
    + intros j. specialize (j10 j). rewrite e4, (count_cons _ _ n), (Nat.eqb_sym (depth_of n)) in j10. cbn [trying u_pc] in *. change (count j []) with 0%nat in *. lia.
    + congruence.
    + intros j. rewrite e6, j12. cbn [running u_pc]. rewrite occ_cons, (Nat.eqb_sym j). change (occ j []) with 0%nat. lia.
    + intros HF j Hj. destruct (j14 HF j Hj) as (a1 & a2). rewrite (count_cons _ _ n) in a1. cbn [trying running u_pc] in *. rewrite occ_cons. assert (Hne : Nat.eqb (depth_of n) j = false) by (apply Nat.eqb_neq; specialize (Hnl HF); lia). rewrite Hne. change (count j []) with 0%nat in *. split; lia.
    + intros HF j Hj. rewrite (upd_other _ _ _ _ j e2); [auto|specialize (Hnl HF); lia].
  - (* drop *) split; [|repeat split; try lia; discriminate]. constructor; auto. unfold thread_ok; cbn; auto.
  - (* restrict *) inversion j3a as [|? ? g1 _]; subst. split; [|repeat split; try lia; discriminate]. constructor; auto. unfold thread_ok; cbn. do 3 (split; [auto|]). apply start_compiling; auto.
  - (* restricting *) assert (Hnl : first -> (k_lowest k <= depth_of n)%nat) by (intros HF; apply Hbelow; [exact HF|reflexivity]).
    destruct (access_ok _ _ _ _ _ _ _ j3c e1 j8) as (b1 & b2 & b3). split; [|repeat split; try lia; discriminate]. constructor; auto; [unfold thread_ok; cbn; auto|]. intros HF. exact (b3 _ (Hnl HF) (j15 HF)).
  - (* closed *) destruct e2 as (u1 & u2 & u3 & u4 & u5 & u6 & u7). inversion j3a as [|? ? g1 _]; subst. destruct j3c as (T0 & (lb0 & TA & TB & _ & HR)).
    assert (Hc1 := proj1 (bar_cut S eqb P R at_depth nv C false (call cfg Restricted n lb0) _ _ _ _ WF g1 HR)).
    split; [|rewrite u4, u5; repeat split; try lia; discriminate]. constructor; cbn [k_c k_open k_ongoing k_lowest]; rewrite ?u3, ?u4; auto.
    unfold thread_ok; cbn. auto.
  - (* open *) destruct e1 as (u1 & u2 & u3 & u4 & u5 & u6 & u7). inversion j3a as [|? ? g1 _]; subst. destruct j3c as (T0 & (lb0 & TA & TB & _ & HR)).
    assert (Hc1 := proj1 (bar_cut S eqb P R at_depth nv C false (call cfg Restricted n lb0) _ _ _ _ WF g1 HR)).
    split; [|rewrite u4, u5; repeat split; try lia; discriminate]. constructor; cbn [k_c k_open k_ongoing k_lowest]; rewrite ?u3, ?u4; auto.
    unfold thread_ok; cbn. auto.
  - (* relax *) inversion j3a as [|? ? g1 _]; subst. split; [|repeat split; try lia; discriminate]. constructor; auto. unfold thread_ok; cbn. do 3 (split; [auto|]). apply start_compiling; auto.
  - (* relaxing *) assert (Hnl : first -> (k_lowest k <= depth_of n)%nat) by (intros HF; apply Hbelow; [exact HF|reflexivity]).
    destruct (access_ok _ _ _ _ _ _ _ j3c e1 j8) as (b1 & b2 & b3). split; [|repeat split; try lia; discriminate]. constructor; auto; [unfold thread_ok; cbn; auto|]. intros HF. exact (b3 _ (Hnl HF) (j15 HF)).
  - (* solved *) destruct e2 as (u1 & u2 & u3 & u4 & u5 & u6 & u7). inversion j3a as [|? ? g1 _]; subst. destruct j3c as (T0 & (lb0 & TA & TB & _ & HR)).
    assert (Hc1 := proj1 (bar_cut S eqb P R at_depth nv C false (call cfg Relaxed n lb0) _ _ _ _ WF g1 HR)).
    split; [|rewrite u4, u5; repeat split; try lia; discriminate]. constructor; cbn [k_c k_open k_ongoing k_lowest]; rewrite ?u3, ?u4; auto.
    unfold thread_ok; cbn. auto.
  - (* branch *) split; [|repeat split; try lia; discriminate].
    assert (Hnl : first -> (k_lowest k <= depth_of n)%nat) by (intros HF; apply Hbelow; [exact HF|reflexivity]).
    constructor; cbn [k_c k_open k_ongoing k_lowest c_fringe c_lb]; auto.
    + unfold thread_ok; cbn. auto.
    + congruence.
    + intros j. specialize (j10 j). cbn [trying u_pc] in *. change (count j []) with 0%nat in *. assert (H := e10 j (xs j)). lia.
    + intros HF j Hj. destruct (j14 HF j Hj) as (a1 & a2). split; [|exact a2]. cbn [trying u_pc] in *. change (count j []) with 0%nat in *. specialize (e11 j). specialize (Hnl HF). lia.
Qed.

Lemma locked_free st l1 t l2 : q_threads st = l1 ++ t :: l2 -> locked cfg st = false -> total holding (l1 ++ l2) = 0%nat.
Proof.
  intros E H. unfold locked in H. rewrite E, existsb_app in H. cbn in H. apply orb_false_iff in H as (h1 & H). apply orb_false_iff in H as (_ & h2).
  assert (Hl : existsb (holds (S := S)) (l1 ++ l2) = false) by (rewrite existsb_app, h1, h2; reflexivity). clear -Hl.
  induction (l1 ++ l2) as [|x l IH]; [reflexivity|]. cbn in Hl. apply orb_false_iff in Hl as (h1 & h2). change (total holding (x :: l)) with (holding x + total holding l)%nat. rewrite IH by exact h2. unfold holding. rewrite h1. reflexivity.
Qed.

Lemma move_inv1 {first} st st' : winv first st -> move st st' -> winv first st' /\ c_lb (k_c (q_crit st)) <= c_lb (k_c (q_crit st')).
Proof.
  intros HI [l1 l2 p p' d d' k' T' E Hlk Ha | l1 l2 n x d c' g E Hlk h1 h2 h3 h4 h5 h6 h7 h8 h9].
  - assert (HL := loc_of _ _ _ _ _ HI E).
    assert (Hfree : p = BIdle -> total holding (l1 ++ l2) = 0%nat) by (intros ->; eapply locked_free; eauto).
    destruct (act_loc _ _ _ _ _ _ _ _ _ _ _ _ _ Ha Hfree HL) as (HL' & Hlb & Hub & Hw & Hon). split; [|exact Hlb].
    assert (Hth := i_th _ _ HI). rewrite E in Hth.
    apply of_loc; [exact HL'| | |].
    + apply Forall_app in Hth as (t1 & t2). inversion t2 as [|? ? t3 t4]; subst. apply Forall_app. split; (eapply Forall_impl; [intros t; apply thread_ok_mono; exact Hlb|assumption]).
    + rewrite Hub. assert (H := i_ubs _ _ HI). rewrite E, app_length in H. rewrite app_length. exact H.
    + intros y Hy Hp. assert (Hwt := i_wait _ _ HI). rewrite E in Hwt. apply in_app_iff in Hy as [Hy|[<-|Hy]]; [| |].
      * assert (0 < c_ongoing (k_c (q_crit st)))%nat by (apply (Hwt y); auto; apply in_app_iff; auto). lia.
      * apply Hw. exact Hp.
      * assert (0 < c_ongoing (k_c (q_crit st)))%nat by (apply (Hwt y); auto; apply in_app_iff; cbn; auto). lia.
  - cbn [q_crit k_c]. split; [|lia]. destruct HI as [i1 i2 i3 i4 i5 i6 i7 i8 i9 i10 i11 i12 i13 i14 i15 i16]. rewrite E in *.
    constructor; cbn [q_crit q_table q_threads k_c k_open k_ongoing k_lowest]; rewrite ?h3, ?h4; auto.
    + apply Forall_map. apply Forall_app in i3 as (t1 & t2). inversion t2 as [|? ? t3 t4]; subst. apply (Forall_impl (P := thread_ok (c_lb (k_c (q_crit st))))).
      * intros [[] ?] (a1 & a2 & a3 & a4); split; auto.
      * apply Forall_app. split; [exact t1|]. constructor; [|exact t4]. destruct t3 as (a1 & _). split; [exact a1|]. cbn. auto.
    + rewrite total_wake by apply wake_working. rewrite total_app in *. cbn in i4 |- *. unfold working in *. cbn in *. lia.
    + rewrite map_length, h2. rewrite app_length in *. cbn in *. exact i5.
    + unfold ParFacts.sol_ok in *. rewrite h4, h6. exact i6.
    + intros t Ht Hp. apply in_map_iff in Ht as ([q e] & <- & Ht). destruct q; cbn in Hp; discriminate.
    + rewrite total_wake by apply wake_holding. rewrite total_app in *. unfold holding in *. cbn in *. exact i8.
    + intros j. rewrite flat_wake by apply wake_trying. specialize (i11 j). rewrite count_mid in *. exact i11.
    + congruence.
    + intros j. rewrite flat_wake by apply wake_running. specialize (i13 j). specialize (h9 j). rewrite occ_mid in *. cbn [running u_pc] in *. rewrite occ_cons, (Nat.eqb_sym n) in i13. change (occ j []) with 0%nat in *. lia.
    + intros HF j Hj. rewrite flat_wake by apply wake_trying. rewrite flat_wake by apply wake_running. specialize (i15 HF j Hj). rewrite count_mid, occ_mid in *. destruct i15 as (a1 & a2). split; [exact a1|]. cbn [running u_pc] in *. rewrite occ_cons in a2. change (occ j []) with 0%nat in *. lia.
Qed.

Lemma spurious_inv1 {first} st st' : winv first st -> bspurious S cfg st st' -> winv first st' /\ q_crit st' = q_crit st.
Proof.
  intros [i1 i2 i3 i4 i5 i6 i7 i8 i9 i10 i11 i12 i13 i14 i15 i16] (i & d & Hn & ->). split; [|reflexivity].
  destruct (put_split i (mk_bth BIdle d) _ _ Hn) as (l1 & l2 & h1 & h2 & _). rewrite h1 in *. constructor; cbn [q_crit q_table q_threads]; auto; rewrite h2.
  - rewrite Forall_app in *. destruct i3 as (t1 & t2). inversion t2; subst. auto.
  - rewrite total_app in *. exact i4.
  - rewrite app_length in *. exact i5.
  - intros t Ht Hp. apply (i7 t); auto. apply in_app_iff in Ht as [Ht|[<-|Ht]]; [apply in_app_iff; auto|discriminate|apply in_app_iff; cbn; auto].
  - rewrite total_app in *. exact i8.
  - intros k. specialize (i11 k). rewrite count_mid in *. exact i11.
  - intros k. specialize (i13 k). rewrite occ_mid in *. exact i13.
  - intros HF k Hk. specialize (i15 HF k Hk). rewrite count_mid, occ_mid in *. exact i15.
Qed.

Lemma step_move {first} st st' : winv first st -> bstep S eqb cfg st st' -> move st st'.
Proof.
  intros HI (orc & intr & i & Ho & E). destruct (nth_error (q_threads st) i) as [t|] eqn:Hn.
  - destruct (u_pc t) eqn:Hp; try (destruct (step_total st i t orc intr HI Ho Hn) as [(E' & _)|(st'' & E' & Hm)]; [congruence|congruence|congruence|]; congruence);
    unfold bthread_step in E; rewrite Hn in E; cbn zeta in E; rewrite Hp in E; discriminate.
  - unfold bthread_step in E. rewrite Hn in E. discriminate.
Qed.

Lemma root_genuine : genuine (root_node cfg).
Proof. exact (ParFacts.root_genuine S cfg nv). Qed.

Lemma initial_ok n m : exists st, binitial cfg n m = Some st /\ inv (KF (q_crit st)) /\ Permutation (content (KF (q_crit st))) [root_node cfg] /\
  c_lb (k_c (q_crit st)) = IMIN /\ c_ub (k_c (q_crit st)) = IMAX /\ c_sol (k_c (q_crit st)) = None /\ c_ongoing (k_c (q_crit st)) = 0%nat /\ c_interrupted (k_c (q_crit st)) = false /\
  c_ubs (k_c (q_crit st)) = repeat IMAX n /\ q_threads st = repeat (mk_bth BIdle (dd_new (cf_ctype cfg))) m /\ q_table st = repeat [] L /\
  k_ongoing (q_crit st) = repeat 0%nat L /\ k_lowest (q_crit st) = 0%nat /\ length (k_open (q_crit st)) = L /\ get (k_open (q_crit st)) 0 = 1%nat.
Proof.
  destruct (fo_new _ _ _ _ FO) as (n1 & n2). destruct (fo_push _ _ _ _ FO (fr_new fr) (root_node cfg) n1) as (f & E & Hi & H).
  unfold binitial. rewrite E. cbn [obind repeat upd]. eexists. split; [reflexivity|]. cbn [q_crit k_c c_fringe]. split; [exact Hi|]. split.
  { rewrite n2 in H. destruct H as [H|(_ & old & l & _ & H & _)]; [exact H|]. apply Permutation_nil in H. discriminate. }
  cbn [c_lb c_ub c_sol c_ongoing c_interrupted c_ubs q_threads q_table k_c k_ongoing k_lowest k_open length]. rewrite repeat_length. auto 20.
Qed.

Lemma initial_inv1 n m st : (m <= n)%nat -> binitial cfg n m = Some st -> inv1 st.
Proof.
  intros Hm E. destruct (initial_ok n m) as (st0 & E' & e1 & e2 & e3 & e4 & e5 & e6 & e7 & e8 & e9 & e10 & e11 & e12 & e13 & e14). rewrite E in E'. injection E' as <-.
  assert (Hz : forall (A : Type) (f : thread -> list A), f (mk_bth BIdle (dd_new (cf_ctype cfg))) = [] -> flat_map f (q_threads st) = []).
  { intros A f Hf. rewrite e9. clear -Hf. induction m; [reflexivity|]. cbn. rewrite Hf, IHm. reflexivity. }
  assert (Ht : forall f, f (mk_bth BIdle (dd_new (cf_ctype cfg))) = 0%nat -> total f (q_threads st) = 0%nat).
  { intros f Hf. rewrite e9. clear -Hf. induction m as [|m IHm]; [reflexivity|]. change (f (mk_bth BIdle (dd_new (cf_ctype cfg))) + total f (repeat (mk_bth BIdle (dd_new (cf_ctype cfg))) m) = 0)%nat. rewrite Hf, IHm. reflexivity. }
  constructor; auto.
  - eapply Permutation_Forall; [symmetry; exact e2|]. constructor; [apply root_genuine|constructor].
  - rewrite e9. apply Forall_forall. intros t Hin. apply repeat_spec in Hin. subst t. split; [reflexivity|split; [constructor|split; [constructor|exact I]]].
  - rewrite e6. symmetry. apply Ht. reflexivity.
  - rewrite e8, e9, !repeat_length. exact Hm.
  - unfold ParFacts.sol_ok. rewrite e5. exact e3.
  - intros t Hin Hp. rewrite e9 in Hin. apply repeat_spec in Hin. subst t. discriminate.
  - rewrite Ht; [lia|reflexivity].
  - rewrite e10. apply repeat_length.
  - intros k. rewrite (Hz _ trying eq_refl), app_nil_r, (count_perm _ _ _ _ e2), count_cons. change (depth_of (root_node cfg)) with 0%nat. change (count k []) with 0%nat.
    destruct k; cbn; [rewrite e14; lia|lia].
  - rewrite e11. apply repeat_length.
  - intros k. rewrite (Hz _ running eq_refl), e11. change (occ k []) with 0%nat. unfold get. clear. revert k. generalize L. induction n; intros [|k]; cbn; auto.
  - rewrite e12. lia.
  - intros _ k Hk. rewrite e12 in Hk. lia.
  - intros _ k Hk. rewrite e12 in Hk. lia.
Qed.

Lemma reaches_inv1 {first} st st' : winv first st -> breaches S eqb cfg st st' -> winv first st' /\ c_lb (k_c (q_crit st)) <= c_lb (k_c (q_crit st')).
Proof.
  intros HI H. induction H as [|st st1 st2 _ IH [H|H]]; [split; [auto|lia]| |]; destruct (IH HI) as (I1 & L1).
  - destruct (move_inv1 _ _ I1 (step_move _ _ I1 H)) as (I2 & L2). split; [auto|lia].
  - destruct (spurious_inv1 _ _ I1 H) as (I2 & L2). split; [auto|rewrite L2; lia].
Qed.
Lemma reachable_inv1 n m st : (m <= n)%nat -> breachable S eqb cfg n m st -> inv1 st.
Proof. intros Hm (st0 & E & H). exact (proj1 (reaches_inv1 _ _ (initial_inv1 n m st0 Hm E) H)). Qed.

Lemma inv1_no_panic {first} st orc intr i : winv first st -> lib orc -> bthread_step eqb cfg orc intr i st <> BPanic.
Proof.
  intros HI Ho. destruct (nth_error (q_threads st) i) as [t|] eqn:Hn.
  - destruct (u_pc t) eqn:Hp; try (destruct (step_total st i t orc intr HI Ho Hn) as [(E' & _)|(st'' & E' & Hm)]; [congruence|congruence|congruence|]; congruence);
    unfold bthread_step; rewrite Hn; cbn zeta; rewrite Hp; discriminate.
  - unfold bthread_step. rewrite Hn. discriminate.
Qed.

(** A thread that is not done nor waiting, or one that works if there is a waiting one, or the one that has the lock, can move. *)
Lemma inv1_moves {first} st : winv first st -> ~ ball_done cfg st -> bcan_move S eqb cfg st.
Proof.
  intros HI Hd.
  assert (Hmove : forall i t, nth_error (q_threads st) i = Some t -> u_pc t <> BWait -> u_pc t <> BDone -> (needs_lock (u_pc t) = true -> locked cfg st = false) -> bcan_move S eqb cfg st).
  { intros i t Hn h1 h2 Hl. exists i. intros orc intr Ho. destruct (step_total st i t orc intr HI Ho Hn h1 h2) as [(_ & a1 & a2)|(st' & E & _)]; [|eauto]. rewrite (Hl a1) in a2. discriminate. }
  destruct (locked cfg st) eqn:El.
  - unfold locked in El. apply existsb_exists in El as (t & Hin & Hh). apply In_nth_error in Hin as (i & Hn). apply (Hmove i t Hn); destruct (u_pc t) eqn:Hp; unfold holds in Hh; rewrite Hp in Hh; try discriminate.
  - assert (Hex : exists t, In t (q_threads st) /\ u_pc t <> BWait /\ u_pc t <> BDone).
    { assert (Hdec : (exists t, In t (q_threads st) /\ u_pc t <> BWait /\ u_pc t <> BDone) \/ forall t, In t (q_threads st) -> u_pc t = BWait \/ u_pc t = BDone).
      { clear. induction (q_threads st) as [|t l IH]; [right; intros t []|]. assert (Ht : (u_pc t = BWait \/ u_pc t = BDone) \/ (u_pc t <> BWait /\ u_pc t <> BDone)) by (destruct (u_pc t); auto; right; split; discriminate).
        destruct Ht as [Ht|Ht]; [|left; exists t; split; [left; auto|exact Ht]]. destruct IH as [(x & h1 & h2)|IH]; [left; exists x; split; [right; auto|auto]|right; intros x [<-|Hx]; auto]. }
      destruct Hdec as [H|H]; [exact H|]. exfalso.
      assert (Hz : total working (q_threads st) = 0%nat).
      { clear -H. induction (q_threads st) as [|t l IH]; [reflexivity|]. change (total working (t :: l)) with (working t + total working l)%nat. rewrite IH by (intros x Hx; apply H; right; auto).
        destruct (H t (or_introl eq_refl)) as [Hp|Hp]; unfold working, running; rewrite Hp; reflexivity. }
      apply Hd. intros t Ht. destruct (H t Ht) as [Hp|Hp]; [|exact Hp]. assert (Hw := i_wait _ _ HI t Ht Hp). rewrite (i_on _ _ HI), Hz in Hw. lia. }
    destruct Hex as (t & Hin & h1 & h2). apply In_nth_error in Hin as (i & Hn). apply (Hmove i t Hn); auto.
Qed.
End Bar.
