(** Every execution of the solver with thresholds is finite. *)
From Verif Require Import Spec Dd DdSpec MddAll MddAllProofs FringeSpec ParSpec ParFacts ParTerm MddBarrier BarWp MddBarrierProofs BarSpec BarFacts.
From Coq Require Import ZifyNat.
Open Scope Z_scope.

(** * Lists of programs of which one makes an access *)
Section Programs.
Variable S : Type.
Variable eqb : S -> S -> bool.
Notation prog := (prog S (dd S)).

Definition after (p' p : prog) : Prop := exists T T', access eqb p T = Some (p', T').
Lemma after_wf : well_founded after.
Proof.
  intros p. induction p as [a| |d k IH|d s k IH|d s i k IH]; constructor; intros p0 (T & T' & E); cbn [access] in E; try discriminate.
  - destruct (nth_error T d); [|discriminate]. cbn [obind] in E. injection E as <- _. apply IH.
  - destruct (nth_error T d); [|discriminate]. cbn [obind] in E. injection E as <- _. apply IH.
  - destruct (nth_error T d); [|discriminate]. cbn [obind] in E. destruct (upd _ _ _); [|discriminate]. cbn [obind] in E. injection E as <- _. exact IH.
Qed.
Definition one_after (l' l : list prog) : Prop := exists l1 l2 p p', l = l1 ++ p :: l2 /\ l' = l1 ++ p' :: l2 /\ after p' p.
Lemma one_after_wf : well_founded one_after.
Proof.
  intros l. induction l as [|x l IH]; [constructor; intros l' ([|] & l2 & q & q' & E & _); discriminate|].
  revert x. induction IH as [l Hl IHl]. intros x. induction (after_wf x) as [x _ IHx]. constructor. intros l' ([|y l1] & l2 & p & p' & E & -> & Ha); cbn in E; injection E as -> ->.
  - cbn. apply IHx. exact Ha.
  - cbn. apply IHl. exists l1, l2, p, p'. auto.
Qed.
End Programs.

Section Term.
Variable S : Type.
Variable eqb : S -> S -> bool.
Variable cfg : config S.
Variable at_depth : nat -> S -> Prop.
Variable nv : nat -> nat.
Variable C : Z.
Variable merging : Prop.
Variable inv : fr_t (cf_fr cfg) -> Prop.
Variable content : fr_t (cf_fr cfg) -> list (subproblem S).
Notation P := (cf_pb cfg).
Notation R := (cf_rx cfg).
Notation N := (pb_nb_vars P).
Notation sub := (subproblem S).
Notation genuine := (genuine S P nv).
Notation thread := (bthread S).
Notation state := (bstate S cfg).
Notation crit := (bcritical S cfg).
Notation fr := (cf_fr cfg).
Notation KF k := (c_fringe (k_c k)).
Notation winv := (winv S eqb cfg at_depth nv C inv content).
Notation inv1 := (winv True).
Notation move := (move S eqb cfg nv inv content).
Notation act := (act S eqb cfg nv inv content).
Notation held := (held S).
Notation count := (count S).
Hypothesis G : good_config S eqb cfg at_depth nv C merging inv content.
Let WF := gs_formed _ _ _ _ _ _ _ _ _ G.
Let FO := gs_frontier _ _ _ _ _ _ _ _ _ G.

Definition weight (M : nat) (t : thread) : nat :=
  match u_pc t with
  | BTry _ => 2 * M + 9 | BInsert _ => 2 * M + 8 | BStart _ => 2 * M + 7 | BRestrict _ _ => 2 * M + 6 | BRelax _ _ => 2 * M + 5 | BRelaxing _ _ _ => 2 * M + 4
  | BNotify _ _ => 2 * M + 3 | BIdle => 2 | BClean => 1 | BWait | BDone => 0
  end%nat.
Definition weights (M : nat) (l : list thread) : nat := list_sum (map (weight M) l).
Definition program (t : thread) : prog S (dd S) := match u_pc t with BRestrict _ p | BRelaxing _ _ p => p | _ => Fail end.
Definition pending (st : state) : list sub := content (KF (q_crit st)) ++ flat_map held (q_threads st).
Definition load (M : nat) (k : crit) : nat := ((2 * M + 9) * length (content (KF k)) + (N - k_lowest k))%nat.
Definition vec (st : state) (k : nat) : nat :=
  if (k <=? N)%nat then count k (pending st) else (load (length (q_threads st)) (q_crit st) + weights (length (q_threads st)) (q_threads st))%nat.

Lemma weights_app M l1 t l2 : weights M (l1 ++ t :: l2) = (weights M l1 + weight M t + weights M l2)%nat.
Proof. unfold weights. rewrite map_app, list_sum_app. cbn [map]. change (list_sum (weight M t :: map (weight M) l2)) with (weight M t + list_sum (map (weight M) l2))%nat. lia. Qed.
Lemma weights_wake M l : (weights M (map bwake l) <= weights M l + 2 * length l)%nat.
Proof.
  induction l as [|t l IH]; [cbn; lia|]. cbn [map length].
  change (weights M (bwake t :: map bwake l)) with (weight M (bwake t) + weights M (map bwake l))%nat. change (weights M (t :: l)) with (weight M t + weights M l)%nat.
  assert (weight M (bwake t) <= weight M t + 2)%nat; [|lia]. destruct t as [[]]; unfold weight, bwake; cbn [u_pc]; lia.
Qed.

Lemma act_decreases k T d p k' T' p' d' M : act k T d p k' T' p' d' -> thread_ok S eqb cfg at_depth nv C (c_lb (k_c k)) (mk_bth p d) ->
  let X := content (KF k) ++ held (mk_bth p d) in let X' := content (KF k') ++ held (mk_bth p' d') in
  ((forall j, (count j X' <= count j X)%nat) /\ (load M k' + weight M (mk_bth p' d') < load M k + weight M (mk_bth p d))%nat) \/
  (exists j, (j <= N)%nat /\ (count j X' < count j X)%nat /\ forall i, (i < j)%nat -> (count i X' <= count i X)%nat) \/
  ((forall j, count j X' = count j X) /\ (load M k' + weight M (mk_bth p' d') = load M k + weight M (mk_bth p d))%nat /\
   after S eqb (program (mk_bth p' d')) (program (mk_bth p d))).
Proof.
  intros Ha (Hct & Hgen & Hpc). cbn zeta.
  assert (Hdrop : forall n l l', genuine n -> (forall j, (count j l' <= count j l)%nat) ->
     exists j, (j <= N)%nat /\ (count j l' < count j (l ++ [n]))%nat /\ forall i, (i < j)%nat -> (count i l' <= count i (l ++ [n]))%nat).
  { intros n l l' Hn Hle. exists (depth_of n). split; [eapply genuine_depth; eauto|]. split; [|intros i _; rewrite count_app; specialize (Hle i); lia].
    rewrite count_app, count_cons, Nat.eqb_refl. specialize (Hle (depth_of n)). lia. }
  destruct Ha as [ | T1 e1 e2 e3 e4 | e1 e2 | e1 | c' e1 e2 e3 e4 e5 e6 e7 e8 e9 | e1 e2 e3 | p f' e1 e2 e3 e4
    | n f' o e1 e2 e3 e4 | n e1 e2 | n o e1 e2 e3 e4 e5 | n o p f' e1 e2 e3 e4 e5 e6 e7 | n l T1 c' o g e1 e2 e3 e4 e5 e6 e7 e8 e9 e10 e11 e12 e13
    | n e1 | n orc e1 e2 | n p p1 T1 e1 | n d1 c' x e1 e2 e3 | n d1 c' x e1 | n x orc e1 | n x p p1 T1 e1 | n x y d1 c' e1 e2 e3
    | n x y d1 LL d2 f' o e1 e2 e3 e4 e5 e6 e7 e8 e9 e10 e11];
  unfold ParFacts.upd_of, set_fringe, with_c, with_ubound, load in *;
  cbn [k_c k_lowest c_fringe c_lb u_pc u_dd BarFacts.held weight program] in *; rewrite ?app_nil_r in *.
  - left. split; [intros; lia|lia].
  - left. split; [intros; lia|lia].
  - left. split; [intros; lia|lia].
  - left. split; [intros; lia|lia].
  - left. rewrite e4. split; [intros j; change (count j []) with 0%nat; lia|cbn [length]; lia].
  - left. split; [intros; lia|lia].
  - left. split; [intros j; rewrite (count_perm _ _ _ _ e2), count_app, !count_cons; change (count j []) with 0%nat; lia|].
    rewrite (Permutation_length e2). cbn [length]. lia.
  - inversion Hgen; subst. right; left. rewrite e3. apply Hdrop; auto. intros j. change (count j []) with 0%nat. lia.
  - left. split; [intros; lia|lia].
  - inversion Hgen; subst. right; left. apply Hdrop; auto.
  - inversion Hgen; subst. right; left. apply Hdrop; auto. intros j. rewrite (count_perm _ _ _ _ e5), count_app, !count_cons. change (count j []) with 0%nat. lia.
  - left. rewrite e7. split; [intros; lia|lia].
  - inversion Hgen; subst. right; left. apply Hdrop; auto.
  - left. split; [intros; lia|lia].
  - right; right. split; [auto|]. split; [lia|]. exists T, T1. exact e1.
  - inversion Hgen; subst. right; left. destruct e2 as (u1 & u2 & -> & _). apply Hdrop; auto.
  - left. destruct e1 as (u1 & u2 & -> & _). split; [intros; lia|lia].
  - left. split; [intros; lia|lia].
  - right; right. split; [auto|]. split; [lia|]. exists T, T1. exact e1.
  - inversion Hgen; subst. right; left. destruct e2 as (u1 & u2 & -> & _). apply Hdrop; auto.
  - inversion Hgen as [|? ? Hg0 _]; subst. right; left. exists (depth_of n). split; [eapply genuine_depth; eauto|]. split.
    + rewrite count_app, count_cons, Nat.eqb_refl. specialize (e11 (depth_of n)). lia.
    + intros j Hj. rewrite count_app. specialize (e11 j). lia.
Qed.

Lemma pending_split st l1 t l2 : q_threads st = l1 ++ t :: l2 ->
  Permutation (pending st) ((content (KF (q_crit st)) ++ held t) ++ flat_map held (l1 ++ l2)).
Proof.
  intros E. unfold pending. rewrite E, <- app_assoc. apply Permutation_app_head. rewrite !flat_map_app. cbn [flat_map].
  rewrite !app_assoc. apply Permutation_app_tail. apply Permutation_app_comm.
Qed.

Lemma move_decreases {first} st st' : winv first st -> move st st' -> lt_vec (N + 2) (vec st') (vec st) \/
  ((forall k, vec st' k = vec st k) /\ one_after S eqb (map program (q_threads st')) (map program (q_threads st))).
Proof.
  intros HI HM.
  assert (Hlo : forall s k, (k <= N)%nat -> vec s k = count k (pending s)) by (intros s k Hk; unfold vec; apply Nat.leb_le in Hk; rewrite Hk; reflexivity).
  assert (Hhi : forall s k, (N < k)%nat -> vec s k = (load (length (q_threads s)) (q_crit s) + weights (length (q_threads s)) (q_threads s))%nat).
  { intros s k Hk. unfold vec. apply Nat.leb_gt in Hk. rewrite Hk. reflexivity. }
  destruct HM as [l1 l2 p p' d d' k' T' E Hl Ha | l1 l2 n x d c' g E Hlk h1 h2 h3 h4 h5 h6 h7 h8 h9].
  - assert (Hth := i_th _ _ _ _ _ _ _ _ _ _ HI). rewrite E in Hth. apply Forall_app in Hth as (_ & t2). inversion t2 as [|? ? t3 t4]; subst.
    assert (Hp := pending_split st l1 _ l2 E). assert (Hp' := pending_split (mk_bst k' T' (l1 ++ mk_bth p' d' :: l2)) l1 _ l2 eq_refl). cbn [q_crit] in Hp'.
    assert (Hln : length (l1 ++ mk_bth p' d' :: l2) = length (q_threads st)) by (rewrite E, !app_length; reflexivity).
    assert (Hws : weights (length (q_threads st)) (q_threads st) = weights (length (q_threads st)) (l1 ++ mk_bth p d :: l2)) by (rewrite <- E; reflexivity).
    destruct (act_decreases _ _ _ _ _ _ _ _ (length (q_threads st)) Ha t3) as [(H1 & H2)|[(k & H1 & H2 & H3)|(H1 & H2 & H3)]].
    + left. exists (N + 1)%nat. split; [lia|]. split.
      * rewrite !Hhi by lia. cbn [q_threads q_crit]. rewrite Hln, Hws, !weights_app. lia.
      * intros j Hj. rewrite !Hlo by lia. rewrite (count_perm _ _ _ _ Hp), (count_perm _ _ _ _ Hp'), !(count_app _ _ _ (flat_map _ _)). specialize (H1 j). lia.
    + left. exists k. split; [lia|]. split.
      * rewrite !Hlo by lia. rewrite (count_perm _ _ _ _ Hp), (count_perm _ _ _ _ Hp'), !(count_app _ _ _ (flat_map _ _)). lia.
      * intros j Hj. rewrite !Hlo by lia. rewrite (count_perm _ _ _ _ Hp), (count_perm _ _ _ _ Hp'), !(count_app _ _ _ (flat_map _ _)). specialize (H3 j Hj). lia.
    + right. split.
      * intros j. destruct (Nat.le_gt_cases j N) as [Hj|Hj].
        -- rewrite !Hlo by lia. rewrite (count_perm _ _ _ _ Hp), (count_perm _ _ _ _ Hp'), !(count_app _ _ _ (flat_map _ _)). specialize (H1 j). lia.
        -- rewrite !Hhi by lia. cbn [q_threads q_crit]. rewrite Hln, Hws, !weights_app. lia.
      * cbn [q_threads]. rewrite E, !map_app. cbn [map]. eexists _, _, _, _. split; [reflexivity|]. split; [reflexivity|exact H3].
  - left. exists (N + 1)%nat. split; [lia|]. split.
    + rewrite !Hhi by lia. cbn [q_threads q_crit]. unfold load. cbn [k_c k_lowest]. rewrite map_length, h3.
      assert (Hln : length (l1 ++ mk_bth BIdle d :: l2) = length (q_threads st)) by (rewrite E, !app_length; reflexivity).
      rewrite Hln. assert (Hw := weights_wake (length (q_threads st)) (l1 ++ mk_bth BIdle d :: l2)). rewrite Hln in Hw. rewrite weights_app in Hw.
      assert (Hws : weights (length (q_threads st)) (q_threads st) = weights (length (q_threads st)) (l1 ++ mk_bth (BNotify n x) d :: l2)) by (rewrite <- E; reflexivity).
      rewrite Hws, weights_app. change (weight (length (q_threads st)) (mk_bth BIdle d)) with 2%nat in Hw. change (weight (length (q_threads st)) (mk_bth (BNotify n x) d)) with (2 * length (q_threads st) + 3)%nat. lia.
    + intros j Hj. rewrite !Hlo by lia. unfold pending. cbn [q_threads q_crit k_c]. rewrite (flat_wake S held) by apply wake_held. rewrite h3, E, !flat_map_app. cbn. lia.
Qed.

Lemma inv1_acc {first} st : winv first st -> Acc (fun b a => bstep S eqb cfg a b) st.
Proof.
  remember (vec st) as v eqn:Ev. assert (Hv : forall k, vec st k = v k) by (intros; subst; reflexivity). clear Ev.
  revert st Hv. induction (lt_vec_wf (N + 2) v) as [v _ IH]. intros st Hv HI.
  remember (map program (q_threads st)) as ps eqn:Eps. revert st Hv HI Eps. induction (one_after_wf S eqb ps) as [ps _ IHp]. intros st Hv HI ->.
  constructor. intros st' Hs. assert (HM := step_move S eqb cfg at_depth nv C merging inv content G _ _ HI Hs).
  assert (HI' := proj1 (move_inv1 S eqb cfg at_depth nv C merging inv content G _ _ HI HM)).
  destruct (move_decreases _ _ HI HM) as [(k & k1 & k2 & k3)|(Hk & Ho)].
  - apply (IH (vec st')); [|reflexivity|exact HI']. exists k. rewrite <- Hv. split; [auto|]. split; [auto|]. intros j Hj. rewrite <- Hv. auto.
  - apply (IHp _ Ho); auto. intros k. rewrite Hk. apply Hv.
Qed.
Lemma no_infinite_run n m st : (m <= n)%nat -> breachable S eqb cfg n m st -> ~ exists f : nat -> state, f 0%nat = st /\ forall k, bstep S eqb cfg (f k) (f (Datatypes.S k)).
Proof.
  intros Hm Hr (f & Hf & Hs). assert (Ha := inv1_acc st (reachable_inv1 S eqb cfg at_depth nv C merging inv content G n m st Hm Hr)). rewrite <- Hf in Ha. clear Hf Hr.
  remember (f 0%nat) as a eqn:Ea. assert (He : exists k, a = f k) by eauto. clear Ea. induction Ha as [a _ IH]. destruct He as (k & ->). eapply (IH (f (Datatypes.S k))); eauto.
Qed.
End Term.
