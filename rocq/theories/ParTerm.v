(** Every execution of the parallel solver is finite. *)
From Verif Require Import Spec Dd DdSpec MddAll MddAllProofs FringeSpec ParSpec ParFacts.
From Coq Require Import ZifyNat.
Open Scope Z_scope.

Section Term.
Variable S : Type.
Variable eqb : S -> S -> bool.
Variable cfg : config S.
Variable at_depth : nat -> S -> Prop.
Variable nv : nat -> nat.
Variable C : Z.
Variable merging : Prop.
Variable inv : fr_t (cf_fr cfg) -> Prop.
Variable content : fr_t (cf_fr cfg) -> list (subproblem S).
Notation P := (cf_pb cfg).
Notation R := (cf_rx cfg).
Notation N := (pb_nb_vars P).
Notation sub := (subproblem S).
Notation genuine := (genuine S P nv).
Notation thread := (thread S).
Notation state := (state S cfg).
Notation fr := (cf_fr cfg).
Notation inv1 := (inv1 S eqb cfg nv inv content).
Notation move := (move S eqb cfg nv inv content).
Notation act := (act S eqb cfg nv inv content).
Notation held := (held S).
Hypothesis G : good_config S eqb cfg at_depth nv C merging inv content.
Let WF := gs_formed _ _ _ _ _ _ _ _ _ G.
Let FO := gs_frontier _ _ _ _ _ _ _ _ _ G.

Definition count (k : nat) (l : list sub) : nat := length (filter (fun q => Nat.eqb (depth_of q) k) l).
Lemma count_app k l l' : count k (l ++ l') = (count k l + count k l')%nat.
Proof. unfold count. rewrite filter_app, app_length. reflexivity. Qed.
Lemma count_cons k q l : count k (q :: l) = ((if Nat.eqb (depth_of q) k then 1 else 0) + count k l)%nat.
Proof. unfold count. cbn. destruct (Nat.eqb _ _); reflexivity. Qed.
Lemma count_perm k l l' : Permutation l l' -> count k l = count k l'.
Proof. intros H. induction H; rewrite ?count_cons; lia. Qed.
Lemma count_in q l : In q l -> (0 < count (depth_of q) l)%nat.
Proof. induction l as [|x l IH]; intros []; rewrite count_cons; [subst; rewrite Nat.eqb_refl; lia|specialize (IH H); lia]. Qed.

Definition weight (M : nat) (t : thread) : nat :=
  match t_pc t with
  | PStart _ => M + 6 | PRestricted _ => M + 5 | PRelax _ _ => M + 4 | PRelaxed _ _ => M + 3 | PNotify _ => M + 2
  | PIdle => 1 | PWait | PDone => 0
  end%nat.
Definition weights (M : nat) (l : list thread) : nat := list_sum (map (weight M) l).
Definition pending (st : state) : list sub := content (c_fringe (s_crit st)) ++ flat_map held (s_threads st).
Definition vec (st : state) (k : nat) : nat :=
  if (k <=? N)%nat then count k (pending st)
  else ((length (s_threads st) + 6) * length (content (c_fringe (s_crit st))) + weights (length (s_threads st)) (s_threads st))%nat.

Lemma weights_app M l1 t l2 : weights M (l1 ++ t :: l2) = (weights M l1 + weight M t + weights M l2)%nat.
Proof. unfold weights. rewrite map_app, list_sum_app. cbn [map]. change (list_sum (weight M t :: map (weight M) l2)) with (weight M t + list_sum (map (weight M) l2))%nat. lia. Qed.
Lemma weights_wake M l : (weights M (map wake l) <= weights M l + length l)%nat.
Proof.
  induction l as [|t l IH]; [cbn; lia|]. cbn [map length].
  change (weights M (wake t :: map wake l)) with (weight M (wake t) + weights M (map wake l))%nat. change (weights M (t :: l)) with (weight M t + weights M l)%nat.
  assert (weight M (wake t) <= weight M t + 1)%nat; [|lia]. destruct t as [[]]; cbn; lia.
Qed.

Lemma push_count f n f' j : inv f -> fr_push fr f n = Some f' -> (j < depth_of n)%nat -> (count j (content f') <= count j (content f))%nat.
Proof.
  intros Hi E Hj. destruct (fo_push _ _ _ _ FO f n Hi) as (f1 & E1 & Hi1 & H). rewrite E in E1. injection E1 as <-.
  assert (Hne : Nat.eqb (depth_of n) j = false) by (apply Nat.eqb_neq; lia).
  destruct H as [H|(_ & old & l & Hs & H1 & H2)].
  - rewrite (count_perm _ _ _ H), count_cons, Hne. lia.
  - rewrite (count_perm _ _ _ H1), (count_perm _ _ _ H2), !count_cons. unfold merge_sub. destruct (sp_value old <? sp_value n); unfold depth_of in *; cbn [sp_path with_ub]; rewrite ?Hne; lia.
Qed.
Lemma enqueue_count lb ub k j L : forall f f', inv f -> Forall genuine (content f) -> Forall genuine L -> ofold (enqueue_node cfg lb ub) L f = Some f' ->
  (forall q, In q L -> (k < depth_of q)%nat) -> (j <= k)%nat -> (count j (content f') <= count j (content f))%nat.
Proof.
  induction L as [|q L IH]; intros f f' Hi Hc HL E Hk Hj; cbn [ofold] in E; [injection E as <-; lia|].
  inversion HL as [|? ? Hq HL']; subst. unfold enqueue_node at 1 in E. cbn zeta in E. set (q' := with_ub q (Z.min ub (sp_ub q))) in *.
  assert (Hk' : forall q, In q L -> (k < depth_of q)%nat) by (intros x Hx; apply Hk; right; exact Hx).
  destruct (lb <? sp_ub q') eqn:El; cbn [obind] in E; [|eapply IH; eauto].
  destruct (fr_push_genuine S eqb cfg at_depth nv C merging inv content G f q' Hi Hc Hq) as (f1 & E1 & Hi1 & Hc1). rewrite E1 in E. cbn [obind] in E.
  assert (H1 := IH f1 f' Hi1 Hc1 HL' E Hk' Hj). assert (Hkq := Hk q (or_introl eq_refl)).
  assert (H2 : (count j (content f1) <= count j (content f))%nat) by (eapply push_count; eauto; change (depth_of q') with (depth_of q); lia). lia.
Qed.

Lemma act_decreases c d p c' p' d' M : act c d p c' p' d' -> inv (c_fringe c) -> Forall genuine (content (c_fringe c)) -> thread_ok S eqb cfg nv (c_lb c) (mk_th p d) ->
  let X := content (c_fringe c) ++ held (mk_th p d) in let X' := content (c_fringe c') ++ held (mk_th p' d') in
  ((forall k, (count k X' <= count k X)%nat) /\
   ((M + 6) * length (content (c_fringe c')) + weight M (mk_th p' d') < (M + 6) * length (content (c_fringe c)) + weight M (mk_th p d))%nat) \/
  (exists k, (k <= N)%nat /\ (count k X' < count k X)%nat /\ forall j, (j < k)%nat -> (count j X' <= count j X)%nat).
Proof.
  intros Ha Hi Hg (Hct & Hgen & Hpc). cbn zeta.
  assert (Hdrop : forall n f, genuine n -> content f = content (c_fringe c) -> exists k, (k <= N)%nat /\ (count k (content f) < count k (content (c_fringe c) ++ [n]))%nat /\
     forall j, (j < k)%nat -> (count j (content f) <= count j (content (c_fringe c) ++ [n]))%nat).
  { intros n f Hn ->. exists (depth_of n). split; [eapply genuine_depth; eauto|]. rewrite count_app, count_cons, Nat.eqb_refl. split; [lia|]. intros j _. rewrite count_app. lia. }
  destruct Ha as [c' e1 e2 -> | e1 | c' e1 e2 e3 e4 e5 e6 e7 e8 e9 | e1 e2 e3 | p f' c' -> e1 e2 e3 e4 e5 e6 | p c' e1 e2 e3 e4 e5 e6 e7 e8 e9 e10
    | n e1 | n d' e1 e2 e3 | n c' k e1 e2 e3 | n c' k e1 | n k d' k' e1 e2 | n k c' e1 e2 e3 | n k L d' f' e1 e2 e3 e4 e5 e6 e7];
  unfold upd_of, set_fringe in *; cbn [c_fringe c_lb t_pc t_dd ParFacts.held weight] in *; rewrite ?app_nil_r in *.
  - left. split; [intros; lia|lia].
  - left. split; [intros; lia|lia].
  - left. rewrite e4. split; [intros j0; cbn; lia|cbn; lia].
  - left. split; [intros; lia|lia].
  - right. rewrite e6. exists (depth_of p). split; [eapply genuine_depth; eauto; eapply (proj1 (Forall_forall _ _) Hg); exact e2|]. split; [|intros j0 _; unfold count; cbn; lia].
    assert (H := count_in p _ e2). cbn. lia.
  - left. split; [intros k; rewrite (count_perm _ _ _ e2), count_app, !count_cons; cbn; lia|].
    rewrite (Permutation_length e2). cbn [length]. nia.
  - inversion Hgen; subst. right. apply Hdrop; auto.
  - left. split; [intros; lia|lia].
  - inversion Hgen; subst. right. apply Hdrop; auto. f_equal. apply e2.
  - left. destruct e1 as (u1 & u2 & -> & _). split; [intros; lia|lia].
  - left. split; [intros; lia|lia].
  - inversion Hgen; subst. right. apply Hdrop; auto. f_equal. apply e2.
  - inversion Hgen as [|? ? Hg0 _]; subst. right. destruct Hpc as (orc & lb0 & d0 & Ho & _ & _ & E).
    assert (Hgc := good_call_of S eqb cfg at_depth nv C merging inv content G orc Relaxed n lb0 Ho Hg0).
    destruct (all_cut_genuine S eqb P R at_depth nv C false orc _ d0 d WF Hgc E) as (L1 & d1 & ED1 & HD). rewrite e2 in ED1. injection ED1 as <- <-.
    assert (HK : forall j, (j <= depth_of n)%nat -> (count j (content f') <= count j (content (c_fringe c)))%nat).
    { intros j Hj. eapply (enqueue_count _ _ (depth_of n) j L); [exact Hi|exact Hg|exact e4|exact e5| |exact Hj]. intros q Hq. apply (HD q Hq). }
    exists (depth_of n). split; [eapply genuine_depth; eauto|]. split.
    + rewrite count_app, count_cons, Nat.eqb_refl. specialize (HK (depth_of n)). lia.
    + intros j Hj. rewrite count_app. specialize (HK j). lia.
Qed.

Lemma flat_held_wake l : flat_map held (map wake l) = flat_map held l.
Proof. induction l as [|t l IH]; [reflexivity|]. cbn. rewrite IH. destruct t as [[]]; reflexivity. Qed.
Lemma pending_split st l1 t l2 : s_threads st = l1 ++ t :: l2 ->
  Permutation (pending st) ((content (c_fringe (s_crit st)) ++ held t) ++ flat_map held (l1 ++ l2)).
Proof.
  intros E. unfold pending. rewrite E, <- app_assoc. apply Permutation_app_head. rewrite !flat_map_app. cbn [flat_map].
  rewrite !app_assoc. apply Permutation_app_tail. apply Permutation_app_comm.
Qed.

Lemma move_decreases st st' : inv1 st -> move st st' -> lt_vec (N + 2) (vec st') (vec st).
Proof.
  intros HI HM.
  assert (Hlo : forall s k, (k <= N)%nat -> vec s k = count k (pending s)) by (intros s k Hk; unfold vec; apply Nat.leb_le in Hk; rewrite Hk; reflexivity).
  assert (Hhi : forall s, vec s (N + 1)%nat = ((length (s_threads s) + 6) * length (content (c_fringe (s_crit s))) + weights (length (s_threads s)) (s_threads s))%nat).
  { intros s. unfold vec. assert (N + 1 <=? N = false)%nat as -> by (apply Nat.leb_gt; lia). reflexivity. }
  destruct HM as [l1 l2 p p' d d' c' E Ha | l1 l2 k d c' E h1 h2 h3 h4 h5 h6 h7].
  - assert (Hth := i_th _ _ _ _ _ _ _ HI). rewrite E in Hth. apply Forall_app in Hth as (_ & t2). inversion t2 as [|? ? t3 t4]; subst.
    assert (Hp := pending_split st l1 _ l2 E). assert (Hp' := pending_split (mk_st c' (l1 ++ mk_th p' d' :: l2)) l1 _ l2 eq_refl). cbn [s_crit] in Hp'.
    destruct (act_decreases _ _ _ _ _ _ (length (s_threads st)) Ha (i_fr _ _ _ _ _ _ _ HI) (i_gen _ _ _ _ _ _ _ HI) t3) as [(H1 & H2)|(k & H1 & H2 & H3)].
    + exists (N + 1)%nat. split; [lia|]. split.
      * rewrite !Hhi. cbn [s_threads s_crit]. assert (Hl : length (l1 ++ mk_th p' d' :: l2) = length (s_threads st)) by (rewrite E, !app_length; reflexivity).
        rewrite Hl. assert (Hws : weights (length (s_threads st)) (s_threads st) = weights (length (s_threads st)) (l1 ++ mk_th p d :: l2)) by (rewrite <- E; reflexivity).
        rewrite Hws, !weights_app. lia.
      * intros j Hj. rewrite !Hlo by lia. rewrite (count_perm _ _ _ Hp), (count_perm _ _ _ Hp'), !(count_app _ _ (flat_map _ _)). specialize (H1 j). lia.
    + exists k. split; [lia|]. split.
      * rewrite !Hlo by lia. rewrite (count_perm _ _ _ Hp), (count_perm _ _ _ Hp'), !(count_app _ _ (flat_map _ _)). lia.
      * intros j Hj. rewrite !Hlo by lia. rewrite (count_perm _ _ _ Hp), (count_perm _ _ _ Hp'), !(count_app _ _ (flat_map _ _)). specialize (H3 j Hj). lia.
  - exists (N + 1)%nat. split; [lia|]. split.
    + rewrite !Hhi. cbn [s_threads s_crit]. rewrite map_length, h3. assert (Hl : length (l1 ++ mk_th PIdle d :: l2) = length (s_threads st)) by (rewrite E, !app_length; reflexivity).
      rewrite Hl. assert (Hw := weights_wake (length (s_threads st)) (l1 ++ mk_th PIdle d :: l2)). rewrite Hl in Hw. rewrite weights_app in Hw.
      assert (Hws : weights (length (s_threads st)) (s_threads st) = weights (length (s_threads st)) (l1 ++ mk_th (PNotify k) d :: l2)) by (rewrite <- E; reflexivity).
      rewrite Hws, weights_app. change (weight (length (s_threads st)) (mk_th PIdle d)) with 1%nat in Hw. change (weight (length (s_threads st)) (mk_th (PNotify k) d)) with (length (s_threads st) + 2)%nat. lia.
    + intros j Hj. rewrite !Hlo by lia. unfold pending. cbn [s_threads s_crit]. rewrite flat_held_wake, h3, E, !flat_map_app. cbn. lia.
Qed.

Lemma inv1_acc st : inv1 st -> Acc (fun b a => step S eqb cfg a b) st.
Proof.
  remember (vec st) as v eqn:Ev. assert (Hv : forall k, vec st k = v k) by (intros; subst; reflexivity). clear Ev.
  revert st Hv. induction (lt_vec_wf (N + 2) v) as [v _ IH]. intros st Hv HI. constructor. intros st' Hs.
  assert (HM := step_move S eqb cfg at_depth nv C merging inv content G _ _ HI Hs).
  apply (IH (vec st')); [|reflexivity|eapply move_inv1; eauto].
  destruct (move_decreases _ _ HI HM) as (k & k1 & k2 & k3). exists k. rewrite <- Hv. split; [auto|]. split; [auto|]. intros j Hj. rewrite <- Hv. auto.
Qed.
Lemma no_infinite_run n m st : (m <= n)%nat -> reachable S eqb cfg n m st -> ~ exists f : nat -> state, f 0%nat = st /\ forall k, step S eqb cfg (f k) (f (Datatypes.S k)).
Proof.
  intros Hm Hr (f & Hf & Hs). assert (Ha := inv1_acc st (reachable_inv1 S eqb cfg at_depth nv C merging inv content G n m st Hm Hr)). rewrite <- Hf in Ha. clear Hf Hr.
  remember (f 0%nat) as a eqn:Ea. assert (He : exists k, a = f k) by eauto. clear Ea. induction Ha as [a _ IH]. destruct He as (k & ->). eapply (IH (f (Datatypes.S k))); eauto.
Qed.
End Term.
