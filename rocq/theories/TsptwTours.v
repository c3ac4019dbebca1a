(** The TSPTW example on exact states: its solutions are the feasible tours (C38), its estimate is a bound (C40). *)
From Verif Require Import TsptwSpec BitsFacts MatrixFacts TsptwFacts DdSpec.
Open Scope Z_scope.

Section Tours.
Variable debug : bool.
Variable I : tw_inst.
Variable M : Z.
Hypothesis Hok : tw_inst_ok I M.
Notation n := (tw_n I).
Notation P := (tw_problem debug I).
Notation layer := (tw_layer I M).
Notation may_be_at := (may_be_at I).
Notation dist := (dist I).
Notation opens := (opens I).
Notation closes := (closes I).
Notation walk := (walk I).
Notation L s := (bs_iter n (tw_must s)).

(** A state in which the salesman stands in [p]. *)
Record exact_at (k : nat) (s : tw_state) (p : nat) : Prop := {
  ea_layer : layer k s;
  ea_pos : tw_pos s = AtNode p;
  ea_maybe : tw_maybe s = None;
  ea_away : ~ must_visit s p;
  ea_len : (length (L s) + S k)%nat = n }.

Lemma exact_gap k s p j : exact_at k s p -> (j < n)%nat -> gap I s j = dist p j.
Proof.
  intros [H1 H2 _ _ _] Hj. destruct (gap_spec I M Hok k s j H1 Hj) as (_ & (i & Hi & ->) & _). unfold TsptwSpec.may_be_at in Hi. rewrite H2 in Hi. subst i. reflexivity.
Qed.
Lemma in_L k s i : layer k s -> (In i (L s) <-> must_visit s i).
Proof. intros HL. rewrite in_bs_iter. unfold must_visit. split; [tauto|]. intros H. split; [|exact H]. pose proof (tl_must _ _ _ _ HL i H). lia. Qed.
Lemma exact_pos k s p : exact_at k s p -> (p < n)%nat.
Proof. intros [H1 H2 _ _ _]. apply (tl_virt _ _ _ _ H1). unfold TsptwSpec.may_be_at. rewrite H2. reflexivity. Qed.

Lemma exact_step k s p v j : exact_at k s p -> must_visit s j ->
  exact_at (S k) (pb_trans P s (mk_dec v (Z.of_nat j))) j /\ Permutation (L s) (j :: L (pb_trans P s (mk_dec v (Z.of_nat j)))) /\
  time_of (pb_trans P s (mk_dec v (Z.of_nat j))) = Z.max (time_of s + dist p j) (opens j).
Proof.
  intros He Hj. pose proof He as [H1 H2 H3 H4 H5]. assert (Hjn : (j < n)%nat) by (pose proof (tl_must _ _ _ _ H1 j Hj); lia).
  destruct (trans_spec debug I M Hok k s v j H1 Hjn) as [Hm HL']. set (s' := pb_trans P s (mk_dec v (Z.of_nat j))) in *.
  assert (HP : Permutation (L s) (j :: L s')).
  { apply NoDup_Permutation; [apply nodup_bs_iter|constructor; [|apply nodup_bs_iter]|].
    - rewrite (in_L (S k) s' j HL'), (mv_must _ _ _ _ Hm). tauto.
    - intros i. cbn [In]. rewrite (in_L k s i H1), (in_L (S k) s' i HL'), (mv_must _ _ _ _ Hm). destruct (Nat.eq_dec j i) as [->|Hne]; [tauto|]. split; [right; auto|intros [H|H]; [congruence|tauto]]. }
  split; [|split; [exact HP|]].
  - constructor; [exact HL'|apply (mv_pos _ _ _ _ Hm)|apply (mv_nomaybe _ _ _ _ Hm), H3|rewrite (mv_must _ _ _ _ Hm); tauto|].
    apply Permutation_length in HP. cbn [length] in HP. lia.
  - rewrite (mv_time _ _ _ _ Hm), (exact_gap k s p j He Hjn). reflexivity.
Qed.

Lemma exact_init : exact_at 0 (pb_init P) 0.
Proof.
  assert (HL := init_layer debug I M Hok). assert (Hn := io_n _ _ Hok). constructor; [exact HL|reflexivity|reflexivity| |].
  - unfold must_visit. cbn [tw_problem pb_init tw_init tw_must]. rewrite get_off. cbn. discriminate.
  - assert (HP : Permutation (0%nat :: L (pb_init P)) (seq 0 n)).
    { apply NoDup_Permutation; [constructor; [|apply nodup_bs_iter]|apply seq_NoDup|].
      - rewrite in_bs_iter. cbn [tw_problem pb_init tw_init tw_must]. rewrite get_off. cbn. intros [_ H]. discriminate.
      - intros i. rewrite in_seq. cbn [In]. rewrite in_bs_iter. cbn [tw_problem pb_init tw_init tw_must]. rewrite get_off, get_all.
        destruct (Nat.eqb_spec i 0) as [->|Hi]; cbn [negb andb]; [split; [lia|left; reflexivity]|]. rewrite Nat.ltb_lt. split; [intros [H|[H _]]; lia|intros H; right; lia]. }
    apply Permutation_length in HP. rewrite seq_length in HP. cbn [length] in HP. lia.
Qed.

Lemma allowed_exact k s p j : exact_at k s p -> (S k < n)%nat -> allowed I k s j -> must_visit s j /\ time_of s + dist p j <= closes j.
Proof.
  intros He Hk [H1 [[H2 _]|(_ & H2 & _)]]; [lia|]. destruct H2 as [H2|(m & H2 & _)]; [|rewrite (ea_maybe _ _ _ He) in H2; discriminate].
  split; [exact H2|]. unfold in_time in H1. rewrite (exact_gap k s p j He) in H1; [exact H1|]. pose proof (tl_must _ _ _ _ (ea_layer _ _ _ He) j H2). lia.
Qed.
Lemma allowed_last k s p j : exact_at k s p -> S k = n -> allowed I k s j -> j = 0%nat /\ time_of s + dist p 0 <= closes 0.
Proof.
  intros He Hk [H1 [[_ ->]|(H2 & _)]]; [|lia]. split; [reflexivity|]. unfold in_time in H1. rewrite (exact_gap k s p 0 He) in H1; [exact H1|]. lia.
Qed.

Lemma run_exact k s ds k' s' c : run tw_state P tw_nv k s ds k' s' c -> forall p, exact_at k s p -> (k' < n)%nat -> exists p', exact_at k' s' p'.
Proof.
  induction 1 as [k s|k s d ds k' s' c Hk Hd Hr IH]; intros p He Hk'; [eauto|]. cbn [tw_problem pb_nb_vars] in Hk.
  apply (in_domain debug I M Hok k) in Hd; [|apply He|exact Hk]. destruct Hd as (j & -> & Hal).
  assert (Hlt : (S k <= k')%nat). { destruct (run_time debug I M Hok _ _ _ _ _ _ Hr) as (_ & H & _); [|lia|lia]. apply trans_spec; [exact Hok|apply He|]. eapply allowed_lt; [apply He| |exact Hal]; assumption. }
  destruct (allowed_exact k s p j He ltac:(lia) Hal) as [Hm _]. destruct (exact_step k s p (tw_nv k) j He Hm) as (He' & _ & _). eapply IH; eauto.
Qed.

(** Completing an exact state is walking through the cities left, then home. *)
Lemma completion_walk k s ds k' s' c : run tw_state P tw_nv k s ds k' s' c -> k' = n -> forall p, exact_at k s p ->
  exists l, Permutation l (L s) /\ ds = visits k (l ++ [0%nat]) /\ walk p (time_of s) (l ++ [0%nat]) = Some (time_of s').
Proof.
  induction 1 as [k s|k s d ds k' s' c Hk Hd Hr IH]; intros E p He.
  - pose proof (ea_len _ _ _ He). lia.
  - apply (in_domain debug I M Hok k) in Hd; [|apply He|exact Hk]. destruct Hd as (j & -> & Hal). cbn [tw_problem pb_nb_vars] in Hk.
    destruct (Nat.eq_dec (S k) n) as [Hl|Hl].
    + destruct (allowed_last k s p j He Hl Hal) as [-> Ht]. exists []. pose proof (ea_len _ _ _ He) as Hlen.
      split; [destruct (L s); [constructor|cbn [length] in Hlen; lia]|].
      assert (Hs0 : layer k s) by apply He. destruct (trans_spec debug I M Hok k s (tw_nv k) 0%nat Hs0 ltac:(lia)) as [Hm HL'].
      inversion Hr; subst; [|cbn [tw_problem pb_nb_vars] in *; lia]. cbn [app visits TsptwSpec.walk]. rewrite (proj2 (Z.leb_le _ _) Ht).
      split; [reflexivity|]. f_equal. symmetry. rewrite (mv_time _ _ _ _ Hm), (exact_gap k s p 0 He) by lia. reflexivity.
    + destruct (allowed_exact k s p j He ltac:(lia) Hal) as [Hm Ht]. destruct (exact_step k s p (tw_nv k) j He Hm) as (He' & HP & Htm).
      destruct (IH E j He') as (l & Hl1 & -> & Hl3). exists (j :: l). split; [rewrite Hl1; symmetry; exact HP|]. split; [reflexivity|].
      cbn [app TsptwSpec.walk]. rewrite (proj2 (Z.leb_le _ _) Ht), <- Htm. exact Hl3.
Qed.

(** With the triangle inequality, nothing on the way is out of direct reach. *)
Lemma walk_direct : triangle I -> forall l p t T, (p < n)%nat -> Forall (fun j => (j < n)%nat) l -> walk p t l = Some T -> forall i, In i l -> t + dist p i <= closes i.
Proof.
  intros Ht. induction l as [|j l IH]; intros p t T Hp HF HW i Hi; [destruct Hi|]. inversion HF; subst. cbn [TsptwSpec.walk] in HW.
  destruct (t + dist p j <=? closes j) eqn:E; [|discriminate]. apply Z.leb_le in E. destruct Hi as [->|Hi]; [exact E|].
  specialize (IH j _ T H1 H2 HW i Hi). rewrite Forall_forall in H2. specialize (Ht p j i Hp H1 (H2 i Hi)). lia.
Qed.
Lemma walk_completion : triangle I -> forall l k s p T, exact_at k s p -> Permutation l (L s) -> walk p (time_of s) (l ++ [0%nat]) = Some T ->
  exists s', run tw_state P tw_nv k s (visits k (l ++ [0%nat])) n s' (time_of s - T).
Proof.
  intros Ht. induction l as [|j l IH]; intros k s p T He HP HW.
  - apply Permutation_nil in HP. pose proof (ea_len _ _ _ He) as Hlen. rewrite HP in Hlen. cbn [length] in Hlen. cbn [app TsptwSpec.walk visits] in *.
    destruct (time_of s + dist p 0 <=? closes 0) eqn:E; [|discriminate]. apply Z.leb_le in E. injection HW as HW. pose proof (ea_layer _ _ _ He) as HL.
    assert (Hk : (k < pb_nb_vars P)%nat) by (cbn [tw_problem pb_nb_vars]; lia).
    destruct (trans_spec debug I M Hok k s (tw_nv k) 0%nat HL ltac:(lia)) as [Hm HL']. exists (pb_trans P s (mk_dec (tw_nv k) (Z.of_nat 0))).
    replace (time_of s - T) with (pb_cost P s (mk_dec (tw_nv k) (Z.of_nat 0)) + 0).
    2:{ rewrite (cost_spec debug I M Hok k s (tw_nv k) 0 HL ltac:(lia)), (mv_time _ _ _ _ Hm), (exact_gap k s p 0 He) by lia. lia. }
    replace n with (S k) by lia. constructor; [exact Hk| |constructor].
    apply (in_domain debug I M Hok k); [exact HL|exact Hk|]. exists 0%nat. split; [reflexivity|]. split; [unfold in_time; rewrite (exact_gap k s p 0 He) by lia; exact E|]. left. split; [lia|reflexivity].
  - pose proof (ea_layer _ _ _ He) as HL. assert (Hin : forall i, In i (j :: l) -> must_visit s i). { intros i Hi. apply (in_L k s i HL). eapply Permutation_in; eauto. }
    assert (Hlt : forall i, In i (j :: l) -> (i < n)%nat). { intros i Hi. pose proof (tl_must _ _ _ _ HL i (Hin i Hi)). lia. }
    assert (Hm : must_visit s j) by (apply Hin; left; reflexivity). destruct (exact_step k s p (tw_nv k) j He Hm) as (He' & HP' & Htm).
    assert (Hd := walk_direct Ht ((j :: l) ++ [0%nat]) p (time_of s) T (exact_pos k s p He)).
    assert (HF : Forall (fun j => (j < n)%nat) ((j :: l) ++ [0%nat])). { apply Forall_forall. intros i Hi. apply in_app_iff in Hi as [Hi|[<-|[]]]; [apply Hlt, Hi|]. pose proof (io_n _ _ Hok). lia. }
    specialize (Hd HF HW). cbn [app TsptwSpec.walk] in HW. destruct (time_of s + dist p j <=? closes j) eqn:E; [|discriminate]. rewrite <- Htm in HW.
    destruct (IH (S k) _ j T He' ltac:(apply (Permutation_cons_inv (a := j)); rewrite HP; exact HP') HW) as (s' & Hr). exists s'. cbn [app visits].
    assert (Hjn : (j < n)%nat) by (apply Hlt; left; reflexivity). pose proof (Permutation_length HP) as HPl. cbn [length] in HPl. pose proof (ea_len _ _ _ He).
    assert (Hk : (k < pb_nb_vars P)%nat) by (cbn [tw_problem pb_nb_vars]; lia).
    replace (time_of s - T) with (pb_cost P s (mk_dec (tw_nv k) (Z.of_nat j)) + (time_of (pb_trans P s (mk_dec (tw_nv k) (Z.of_nat j))) - T)).
    2:{ rewrite (cost_spec debug I M Hok k s (tw_nv k) j HL Hjn). lia. }
    constructor; [exact Hk| |exact Hr]. apply (in_domain debug I M Hok k); [exact HL|exact Hk|]. exists j. split; [reflexivity|]. apply Z.leb_le in E.
    split; [unfold in_time; rewrite (exact_gap k s p j He) by exact Hjn; exact E|]. right. split; [lia|]. split; [left; exact Hm|].
    intros i Hi. assert (Hi' : In i (j :: l)) by (eapply Permutation_in; [symmetry; exact HP|]; apply (in_L k s i HL), Hi).
    unfold in_time. rewrite (exact_gap k s p i He) by (apply Hlt, Hi'). apply Hd. apply in_app_iff. left. exact Hi'.
Qed.

(** C38 *)
Lemma must_init : Permutation (L (pb_init P)) (seq 1 (n - 1)).
Proof.
  apply NoDup_Permutation; [apply nodup_bs_iter|apply seq_NoDup|]. intros i. rewrite in_seq, in_bs_iter. cbn [tw_problem pb_init tw_init tw_must].
  rewrite get_off, get_all, andb_true_iff, negb_true_iff, Nat.eqb_neq, Nat.ltb_lt. lia.
Qed.
Lemma solutions_are_tours ds v : solution tw_state P tw_nv ds v ->
  exists l T, feasible_tour I l T /\ ds = visits 0 (l ++ [0%nat]) /\ v = - T.
Proof.
  intros (c & (s' & Hr) & ->). destruct (completion_walk _ _ _ _ _ _ Hr eq_refl 0%nat exact_init) as (l & H1 & H2 & H3).
  exists l, (time_of s'). split; [split; [rewrite H1; apply must_init|exact H3]|]. split; [exact H2|].
  destruct (run_time debug I M Hok _ _ _ _ _ _ Hr (init_layer debug I M Hok) ltac:(lia)) as (_ & _ & ->). cbn. lia.
Qed.
Lemma tours_are_solutions l T : triangle I -> feasible_tour I l T -> solution tw_state P tw_nv (visits 0 (l ++ [0%nat])) (- T).
Proof.
  intros Ht [H1 H2]. destruct (walk_completion Ht l 0 (pb_init P) 0 T exact_init) as (s' & Hr).
  - rewrite H1. symmetry. apply must_init.
  - exact H2.
  - exists (0 - T). split; [exists s'; exact Hr|]. cbn. lia.
Qed.

(** C40 *)
Definition cheap (i : nat) : Z := fold_left (fun m j => if (i =? j)%nat then m else Z.min m (dist j i)) (seq 0 n) UMAX.
Lemma cheap_some i : (i < n)%nat -> cheapest_edge I i = Some (cheap i).
Proof.
  intros Hi. unfold cheapest_edge, cheap. apply ofold_some. intros b x Hx. apply in_seq in Hx. destruct (i =? x)%nat; [reflexivity|]. rewrite (get_dist I M Hok) by lia. reflexivity.
Qed.
Lemma cheap_le i j : (j < n)%nat -> i <> j -> cheap i <= dist j i.
Proof.
  intros Hj Hne. unfold cheap. assert (H : forall l m, fold_left (fun m j => if (i =? j)%nat then m else Z.min m (dist j i)) l m <= m /\ (In j l -> fold_left (fun m j => if (i =? j)%nat then m else Z.min m (dist j i)) l m <= dist j i)).
  { induction l as [|x l IH]; intros m; cbn [fold_left]; [split; [lia|intros []]|]. destruct (i =? x)%nat eqn:E.
    - destruct (IH m) as [H1 H2]. split; [exact H1|]. intros [->|H]; [apply Nat.eqb_eq in E; congruence|auto].
    - destruct (IH (Z.min m (dist x i))) as [H1 H2]. split; [lia|]. intros [->|H]; [lia|auto]. }
  apply H. apply in_seq. lia.
Qed.
Lemma cheap_nonneg i : (i < n)%nat -> 0 <= cheap i.
Proof.
  intros Hi. unfold cheap. assert (H : forall l m, 0 <= m -> (forall j, In j l -> (j < n)%nat) -> 0 <= fold_left (fun m j => if (i =? j)%nat then m else Z.min m (dist j i)) l m).
  { induction l as [|x l IH]; intros m Hm Hl; cbn [fold_left]; [exact Hm|]. apply IH; [|intros j H; apply Hl; right; exact H].
    destruct (i =? x)%nat; [exact Hm|]. pose proof (io_dist _ _ Hok x i (Hl x (or_introl eq_refl)) Hi). lia. }
  apply H; [unfold UMAX; lia|]. intros j Hj. apply in_seq in Hj. lia.
Qed.
Lemma cheapest_all : cheapest_edges I = Some (map cheap (seq 0 n)).
Proof. unfold cheapest_edges. apply omap_some. intros x Hx. apply in_seq in Hx. apply cheap_some. lia. Qed.
Lemma cheapest_nth i : (i < n)%nat -> nth_error (map cheap (seq 0 n)) i = Some (cheap i).
Proof. intros Hi. rewrite nth_error_map, nth_error_nth' with (d := 0%nat) by (rewrite seq_length; exact Hi). rewrite seq_nth by exact Hi. reflexivity. Qed.
Lemma add_time s d : el_earliest (add_duration (tw_el s) d) = time_of s + d.
Proof. unfold time_of. destruct (tw_el s); reflexivity. Qed.

(** The pass over the cities that must be visited. *)
Lemma musts_spec s : forall l a b0 m0, (forall i, In i l -> (i < n)%nat) -> Z.of_nat (length l) <= a ->
  (exists i, In i l /\ closes i < time_of s + cheap i) /\ est_musts debug I (map cheap (seq 0 n)) s l (a, m0, b0) = Some None \/
  (forall i, In i l -> time_of s + cheap i <= closes i) /\
  est_musts debug I (map cheap (seq 0 n)) s l (a, m0, b0) = Some (Some (a - Z.of_nat (length l), m0 + zsum (map cheap l), fold_left Z.min (map (fun i => dist i 0) l) b0)).
Proof.
  induction l as [|i l IH]; intros a b0 m0 Hl Ha.
  - right. split; [intros i []|]. cbn. repeat f_equal; lia.
  - assert (Hi : (i < n)%nat) by (apply Hl; left; reflexivity). destruct (get_win I M Hok i Hi) as (w & Hw & _ & Hwl). cbn [est_musts]. unfold est_must. cbn [length] in Ha.
    rewrite usub_some by lia. cbn [obind]. rewrite (cheapest_nth i Hi). cbn [obind]. rewrite (get_dist I M Hok) by lia. cbn [obind]. rewrite Hw. cbn [obind]. rewrite add_time, Hwl.
    destruct (closes i <? time_of s + cheap i) eqn:E; cbn [obind].
    + left. split; [|reflexivity]. exists i. split; [left; reflexivity|]. apply Z.ltb_lt, E.
    + apply Z.ltb_ge in E. destruct (IH (a - 1) (Z.min b0 (dist i 0)) (m0 + cheap i)) as [[(x & Hx & Hc) ->]|[H ->]].
      * intros x Hx. apply Hl. right. exact Hx.
      * lia.
      * left. split; [exists x; split; [right; exact Hx|exact Hc]|reflexivity].
      * right. split; [intros x [<-|Hx]; [exact E|auto]|]. cbn [map fold_left length]. unfold zsum at 2. cbn [fold_right]. fold (zsum (map cheap l)).
        replace (a - Z.of_nat (S (length l))) with (a - 1 - Z.of_nat (length l)) by lia. rewrite Z.add_assoc. reflexivity.
Qed.

(** Along a walk through distinct cities. *)
Lemma walk_bound : forall l p t T, (p < n)%nat -> 0 <= t -> NoDup (p :: l) -> (forall i, In i l -> (i < n)%nat) -> walk p t (l ++ [0%nat]) = Some T ->
  t + zsum (map cheap l) + dist (last l p) 0 <= T /\ T <= closes 0 /\ forall i, In i l -> t + cheap i <= closes i.
Proof.
  induction l as [|j l IH]; intros p t T Hp Ht Hnd Hl HW; cbn [app TsptwSpec.walk] in HW.
  - destruct (t + dist p 0 <=? closes 0) eqn:E; [|discriminate]. apply Z.leb_le in E. injection HW as <-. cbn [map last]. unfold zsum. cbn [fold_right].
    pose proof (io_open _ _ Hok 0%nat ltac:(lia)). split; [lia|]. split; [lia|]. intros i [].
  - destruct (t + dist p j <=? closes j) eqn:E; [|discriminate]. apply Z.leb_le in E. assert (Hj : (j < n)%nat) by (apply Hl; left; reflexivity).
    inversion Hnd as [|? ? Hni Hnd']; subst. assert (Hc : cheap j <= dist p j). { apply cheap_le; [exact Hp|]. intros ->. apply Hni. left. reflexivity. }
    pose proof (io_dist _ _ Hok p j Hp Hj) as Hd. destruct (IH j (Z.max (t + dist p j) (opens j)) T Hj ltac:(lia) Hnd' ltac:(intros i Hi; apply Hl; right; exact Hi) HW) as (H1 & H2 & H3).
    assert (El : last (j :: l) p = last l j). { clear. revert j p. induction l as [|x l IHl]; intros j p; [reflexivity|]. cbn [last] in *. destruct l; [reflexivity|]. apply IHl. }
    rewrite El. cbn [map]. unfold zsum. cbn [fold_right]. fold (zsum (map cheap l)). split; [lia|]. split; [exact H2|].
    intros i [<-|Hi]; [lia|]. pose proof (H3 i Hi). lia.
Qed.

Lemma estimate_exact k s p : exact_at k s p -> exists e, tw_estimate debug I s = Some e /\ forall ds c, completion tw_state P tw_nv k s ds c -> c <= e.
Proof.
  intros He. pose proof He as [HL Hpos Hmay Haway Hlen]. assert (Hp := exact_pos k s p He).
  assert (Hlt : forall i, In i (L s) -> (i < n)%nat) by (intros i Hi; apply in_bs_iter in Hi; tauto).
  destruct (get_win I M Hok 0%nat ltac:(lia)) as (w0 & Hw0 & _ & Hwl0).
  assert (Hcomp : forall ds c, completion tw_state P tw_nv k s ds c -> exists l T, Permutation l (L s) /\ walk p (time_of s) (l ++ [0%nat]) = Some T /\ c = time_of s - T).
  { intros ds c (s' & Hr). destruct (completion_walk _ _ _ _ _ _ Hr eq_refl p He) as (l & H1 & _ & H3). exists l, (time_of s'). split; [exact H1|]. split; [exact H3|].
    eapply (run_time debug I M Hok); [exact Hr|exact HL|]. lia. }
  assert (Hwb : forall l T, Permutation l (L s) -> walk p (time_of s) (l ++ [0%nat]) = Some T ->
    time_of s + zsum (map cheap (L s)) + dist (last l p) 0 <= T /\ T <= closes 0 /\ forall i, In i (L s) -> time_of s + cheap i <= closes i).
  { intros l T Hl HW. destruct (walk_bound l p (time_of s) T) as (H1 & H2 & H3); auto.
    - apply (tl_time _ _ _ _ HL).
    - constructor; [|eapply Permutation_NoDup; [symmetry; exact Hl|apply nodup_bs_iter]]. intros H. apply Haway, (in_L k s p HL). eapply Permutation_in; eauto.
    - intros i Hi. apply Hlt. eapply Permutation_in; eauto.
    - rewrite <- (zsum_perm (map cheap l) (map cheap (L s))) by (apply Permutation_map; exact Hl). split; [exact H1|]. split; [exact H2|].
      intros i Hi. apply H3. eapply Permutation_in; [symmetry; exact Hl|exact Hi]. }
  unfold tw_estimate. rewrite cheapest_all. cbn [obind]. rewrite (tl_depth _ _ _ _ HL), usub_some by lia. cbn [obind].
  destruct (musts_spec s (L s) (Z.of_nat n - Z.of_nat k) UMAX 0 Hlt ltac:(lia)) as [[(x & Hx & Hc) ->]|[Hall ->]]; cbn [obind].
  - exists IMIN. split; [reflexivity|]. intros ds c H. destruct (Hcomp ds c H) as (l & T & H1 & H2 & _). destruct (Hwb l T H1 H2) as (_ & _ & H4). specialize (H4 x Hx). lia.
  - rewrite Hmay. cbn [obind]. set (mand := 0 + zsum (map cheap (L s))). set (back := fold_left Z.min (map (fun i => dist i 0) (L s)) UMAX).
    set (back' := if mand =? 0 then Z.min back (dist p 0) else back).
    replace (if mand =? 0 then _ else Some back) with (Some back') by (unfold back'; rewrite Hpos, (get_dist I M Hok) by lia; destruct (mand =? 0); reflexivity).
    cbn [obind]. rewrite Hw0. cbn [obind]. rewrite add_time, Hwl0.
    assert (Hback : forall l T, Permutation l (L s) -> walk p (time_of s) (l ++ [0%nat]) = Some T -> back' <= dist (last l p) 0).
    { intros l T Hl HW. destruct (fold_min_le (map (fun i => dist i 0) (L s)) UMAX) as (_ & Hmin & _). fold back in Hmin. destruct l as [|j l].
      - apply Permutation_nil in Hl. unfold back', mand. rewrite Hl. cbn. lia.
      - assert (Hb : back <= dist (last (j :: l) p) 0).
        { apply Hmin. apply in_map_iff. exists (last (j :: l) p). split; [reflexivity|]. eapply Permutation_in; [exact Hl|].
          rewrite (app_removelast_last (l := j :: l) p) at 2 by discriminate. apply in_app_iff. right. left. reflexivity. }
        unfold back'. destruct (mand =? 0); lia. }
    eexists. split; [reflexivity|]. intros ds c H. destruct (Hcomp ds c H) as (l & T & H1 & H2 & ->). destruct (Hwb l T H1 H2) as (H3 & H4 & _). pose proof (Hback l T H1 H2) as H5.
    destruct (closes 0 <? time_of s + (mand + back')) eqn:E; [apply Z.ltb_lt in E|]; unfold mand in *; lia.
Qed.

Lemma estimate_reached k s ds0 c0 : run tw_state P tw_nv 0 (pb_init P) ds0 k s c0 -> (k < n)%nat ->
  exists e, tw_estimate debug I s = Some e /\ forall ds c, completion tw_state P tw_nv k s ds c -> c <= e.
Proof. intros Hr Hk. destruct (run_exact _ _ _ _ _ _ Hr 0%nat exact_init Hk) as (p & He). apply (estimate_exact k s p He). Qed.
End Tours.
