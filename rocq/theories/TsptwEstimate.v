(** The estimate of the TSPTW example on the states of a relaxed diagram. *)
From Verif Require Import TsptwSpec BitsFacts MatrixFacts TsptwFacts TsptwMerge TsptwTours DdSpec.
Open Scope Z_scope.

Section Estimate.
Variable debug : bool.
Variable I : tw_inst.
Variable M : Z.
Hypothesis Hok : tw_inst_ok I M.
Notation n := (tw_n I).
Notation P := (tw_problem debug I).
Notation layer := (tw_layer I M).
Notation dist := (dist I).
Notation closes := (closes I).
Notation cheap := (cheap I).
Notation ch := (map cheap (seq 0 n)).
Notation L s := (bs_iter n (tw_must s)).
Notation B s := (match tw_maybe s with Some b => bs_iter n b | None => [] end).

(** What completing an exact state costs at least. *)
Lemma completion_bound k s p ds c : exact_at I M k s p -> completion tw_state P tw_nv k s ds c ->
  (exists q, zsum (map cheap (L s)) + dist q 0 <= - c /\ (In q (L s) \/ L s = [] /\ q = p)) /\
  time_of s - c <= closes 0 /\ forall i, In i (L s) -> time_of s + cheap i <= closes i.
Proof.
  intros He (s' & Hr). destruct (completion_walk debug I M Hok _ _ _ _ _ _ Hr eq_refl p He) as (l & Hl & _ & HW). pose proof He as [HL Hpos Hmay Haway Hlen].
  assert (Hc : c = time_of s - time_of s'). { eapply (run_time debug I M Hok); [exact Hr|exact HL|]. lia. }
  assert (Hlt : forall i, In i (L s) -> (i < n)%nat) by (intros i Hi; apply in_bs_iter in Hi; tauto).
  destruct (walk_bound I M Hok l p (time_of s) (time_of s')) as (H1 & H2 & H3).
  - exact (exact_pos I M k s p He).
  - apply (tl_time _ _ _ _ HL).
  - constructor; [|eapply Permutation_NoDup; [symmetry; exact Hl|apply nodup_bs_iter]]. intros H. apply Haway, (in_L I M k s p HL). eapply Permutation_in; eauto.
  - intros i Hi. apply Hlt. eapply Permutation_in; eauto.
  - exact HW.
  - rewrite (zsum_perm (map cheap l) (map cheap (L s))) in H1 by (apply Permutation_map; exact Hl). split; [|split; [lia|]].
    + exists (last l p). split; [lia|]. destruct l as [|j l].
      * right. apply Permutation_nil in Hl. split; [exact Hl|reflexivity].
      * left. eapply Permutation_in; [exact Hl|]. rewrite (app_removelast_last (l := j :: l) p) at 2 by discriminate. apply in_app_iff. right. left. reflexivity.
    + intros i Hi. apply H3. eapply Permutation_in; [symmetry; exact Hl|exact Hi].
Qed.

(** The pass over the cities that may be visited. *)
Definition late (s : tw_state) (i : nat) : bool := closes i <? time_of s + cheap i.
Lemma maybes_spec s : forall l t b v, (forall i, In i l -> (i < n)%nat) ->
  ofold (est_maybe I ch s) l (t, b, v) = Some (t ++ map cheap l, fold_left Z.min (map (fun i => dist i 0) l) b, v + Z.of_nat (length (filter (late s) l))).
Proof.
  induction l as [|i l IH]; intros t b v Hl; cbn [ofold map fold_left filter].
  - rewrite app_nil_r. cbn [length]. f_equal. f_equal. lia.
  - assert (Hi : (i < n)%nat) by (apply Hl; left; reflexivity). unfold est_maybe at 1. rewrite (cheapest_nth I i Hi). cbn [obind]. rewrite (get_dist I M Hok) by lia. cbn [obind].
    destruct (get_win I M Hok i Hi) as (w & Hw & _ & Hwl). rewrite Hw. cbn [obind]. rewrite add_time, Hwl. fold (late s i). rewrite IH by (intros x Hx; apply Hl; right; exact Hx).
    rewrite <- app_assoc. cbn [app]. destruct (late s i); cbn [length]; (f_equal; f_equal; lia).
Qed.
Lemma not_late s : forall l, (length (filter (late s) l) + length (filter (fun i => negb (late s i)) l) = length l)%nat.
Proof. induction l as [|i l IH]; [reflexivity|]. cbn [filter]. destruct (late s i); cbn [negb length]; lia. Qed.

(** The way back from where the salesman may be. *)
Lemma back_spec k m : layer k m -> exists d,
  match tw_pos m with
  | AtNode x => mat_get (tw_dist I) x 0
  | Virtual bs => do l <- omap (fun x => mat_get (tw_dist I) x 0) (bs_iter n bs); zmin_of l
  end = Some d /\ forall i, may_be_at I m i -> d <= dist i 0.
Proof.
  intros HL. pose proof (tl_pos _ _ _ _ HL) as (p & Hp & Hat). pose proof (tl_virt _ _ _ _ HL) as Hv. unfold may_be_at in *. destruct (tw_pos m) as [x|bs].
  - subst p. rewrite (get_dist I M Hok) by lia. eexists. split; [reflexivity|]. intros i ->. lia.
  - destruct (virtual_list I M Hok bs ltac:(exists p; tauto) 0%nat ltac:(lia)) as [-> Hne]. cbn [obind]. destruct (zmin_of_spec _ Hne) as (y & -> & Hy). exists y. split; [reflexivity|].
    intros i Hi. apply Hy. apply in_map_iff. exists i. split; [reflexivity|]. apply in_bs_iter. exact Hi.
Qed.

Lemma in_B k m i : layer k m -> (In i (B m) <-> may_visit m i).
Proof.
  intros HL. pose proof (tl_maybe _ _ _ _ HL i) as H. unfold may_visit in *. destruct (tw_maybe m) as [b|].
  - rewrite in_bs_iter. split; [intros [_ H1]; eauto|]. intros (b' & E & H1). injection E as <-. assert ((1 <= i < n)%nat) by eauto. split; [lia|exact H1].
  - split; [intros []|]. intros (b' & E & _). discriminate E.
Qed.
Lemma nodup_B m : NoDup (B m).
Proof. destruct (tw_maybe m); [apply nodup_bs_iter|constructor]. Qed.

Lemma nodup_app {A} (a b : list A) : NoDup a -> NoDup b -> (forall x, In x a -> In x b -> False) -> NoDup (a ++ b).
Proof.
  induction 1 as [|x a Hx Ha IH]; intros Hb H; [exact Hb|]. cbn [app]. constructor.
  - rewrite in_app_iff. intros [H1|H1]; [contradiction|]. exact (H x (or_introl eq_refl) H1).
  - apply IH; [exact Hb|]. intros y H1 H2. exact (H y (or_intror H1) H2).
Qed.
Lemma nodup_part {A} (t l : list A) : NoDup t -> NoDup l -> (forall x, In x t -> In x l) -> exists r, Permutation l (t ++ r).
Proof.
  intros Ht. revert l. induction Ht as [|x t Hx Ht IH]; intros l Hl H; [exists l; reflexivity|].
  destruct (in_split x l (H x (or_introl eq_refl))) as (a & b & ->). apply NoDup_remove in Hl as [Hl Hnx].
  destruct (IH (a ++ b) Hl) as (r & Hr).
  - intros y Hy. specialize (H y (or_intror Hy)). apply in_app_iff in H as [H|[->|H]]; [apply in_app_iff; auto|contradiction|apply in_app_iff; auto].
  - exists r. cbn [app]. rewrite <- Permutation_middle. constructor. exact Hr.
Qed.
(** The cities an exact state still has to visit, sorted by what the covering state says of them. *)
Definition chosen (m s : tw_state) : list nat := filter (bs_get (tw_must s)) (B m).
Lemma chosen_perm k m s p : layer k m -> exact_at I M k s p -> covers I m s -> Permutation (L s) (L m ++ chosen m s).
Proof.
  intros HLm He Hc. pose proof (ea_layer _ _ _ _ _ He) as HL. unfold chosen. apply NoDup_Permutation; [apply nodup_bs_iter| |].
  - apply nodup_app.
    + apply nodup_bs_iter.
    + apply NoDup_filter, nodup_B.
    + intros i H1 H2. apply filter_In in H2 as [H2 _]. apply (in_B k m i HLm) in H2. apply (in_L I M k m i HLm) in H1. exact (tl_disj _ _ _ _ HLm i H1 H2).
  - intros i. rewrite in_app_iff, filter_In, (in_L I M k s i HL), (in_L I M k m i HLm), (in_B k m i HLm). split.
    + intros H. destruct (cv_all _ _ _ Hc i (or_introl H)) as [H1|H1]; [left; exact H1|right; split; [exact H1|exact H]].
    + intros [H|[_ H]]; [exact (cv_must _ _ _ Hc i H)|exact H].
Qed.

Lemma estimate_covering k m s p : layer k m -> exact_at I M k s p -> covers I m s ->
  exists e, tw_estimate debug I m = Some e /\
    forall ds c, completion tw_state P tw_nv k s ds c ->
      (tw_maybe m = None -> c <= e) /\
      (forall i j, (S k < n)%nat -> may_visit m i -> ~ must_visit s i -> (j < n)%nat -> j <> i ->
         time_of m + dist j i <= closes i -> time_of m - c + dist j i <= closes 0 -> c <= e + dist j i).
Proof.
  intros HLm He Hc. pose proof He as [HL Hpos Hmay Haway Hlen]. assert (HP := chosen_perm k m s p HLm He Hc). assert (HPl := Permutation_length HP). rewrite app_length in HPl.
  assert (Hlt : forall b i, In i (bs_iter n b) -> (i < n)%nat) by (intros b i Hi; apply in_bs_iter in Hi; tauto).
  destruct (get_win I M Hok 0%nat ltac:(lia)) as (w0 & Hw0 & _ & Hwl0). destruct (back_spec k m HLm) as (d & Hd & Hdl).
  assert (Hp : may_be_at I m p). { apply (cv_pos _ _ _ Hc). unfold may_be_at. rewrite Hpos. reflexivity. }
  pose proof (cv_time _ _ _ Hc) as Ht.
  assert (HB : forall ds c, completion tw_state P tw_nv k s ds c ->
    (exists q, zsum (map cheap (L m)) + zsum (map cheap (chosen m s)) + dist q 0 <= - c /\ (In q (L m ++ chosen m s) \/ (k + 1 = n)%nat /\ q = p)) /\
    time_of m - c <= closes 0 /\ forall i, In i (L m ++ chosen m s) -> time_of m + cheap i <= closes i).
  { intros ds c Hcm. destruct (completion_bound k s p ds c He Hcm) as ((q & H1 & H2) & H3 & H4). split; [exists q|split; [lia|]].
    - rewrite (zsum_perm (map cheap (L s)) (map cheap (L m) ++ map cheap (chosen m s))) in H1 by (rewrite <- map_app; apply Permutation_map; exact HP). rewrite zsum_app in H1. split; [lia|].
      destruct H2 as [H2|[H2 ->]]; [left; eapply Permutation_in; [exact HP|exact H2]|right]. rewrite H2 in Hlen. cbn [length] in Hlen. split; [lia|reflexivity].
    - intros i Hi. enough (time_of s + cheap i <= closes i) by lia. apply H4. eapply Permutation_in; [symmetry; exact HP|exact Hi]. }
  unfold tw_estimate. rewrite (cheapest_all I M Hok). cbn [obind]. rewrite (tl_depth _ _ _ _ HLm), usub_some by lia. cbn [obind].
  destruct (musts_spec debug I M Hok m (L m) (Z.of_nat n - Z.of_nat k) UMAX 0 (Hlt _) ltac:(lia)) as [[(x & Hx & Hcl) ->]|[Hall ->]]; cbn [obind].
  { exists IMIN. split; [reflexivity|]. intros ds c H. destruct (HB ds c H) as (_ & _ & H4). specialize (H4 x ltac:(apply in_app_iff; left; exact Hx)). lia. }
  set (back := fold_left Z.min (map (fun i => dist i 0) (L m)) UMAX).
  assert (Hb1 : forall q, In q (L m) -> back <= dist q 0).
  { intros q Hq. destruct (fold_min_le (map (fun i => dist i 0) (L m)) UMAX) as (_ & H & _). apply H. apply in_map_iff. eauto. }
  destruct (tw_maybe m) as [b|] eqn:Eb.
  - rewrite (maybes_spec m (bs_iter n b) [] back 0 (Hlt _)). cbn [obind app]. set (vi := length (filter (late m) (bs_iter n b))).
    assert (Hnl := not_late m (bs_iter n b)). fold vi in Hnl. rewrite map_length. rewrite usub_some by lia. cbn [obind].
    set (back' := fold_left Z.min (map (fun i => dist i 0) (bs_iter n b)) back).
    assert (Hb2 : back' <= back /\ forall q, In q (bs_iter n b) -> back' <= dist q 0).
    { destruct (fold_min_le (map (fun i => dist i 0) (bs_iter n b)) back) as (H1 & H & _). split; [exact H1|]. intros q Hq. apply H. apply in_map_iff. eauto. }
    assert (EB : B m = bs_iter n b) by (rewrite Eb; reflexivity).
    assert (Hgood : forall ds c i j, completion tw_state P tw_nv k s ds c -> (S k < n)%nat -> may_visit m i -> ~ must_visit s i -> (j < n)%nat -> j <> i ->
         time_of m + dist j i <= closes i -> time_of m - c + dist j i <= closes 0 ->
         (Z.of_nat (length (bs_iter n b)) - (0 + Z.of_nat vi) <? Z.of_nat n - Z.of_nat k - Z.of_nat (length (L m))) = false /\
         0 + zsum (map cheap (L m)) + zsum (take (Z.of_nat n - Z.of_nat k - Z.of_nat (length (L m))) (zsort (map cheap (bs_iter n b)))) + back' <= - c + dist j i).
    { intros ds c i j Hcm Hk Hi Hni Hj Hne Hin Hcl. destruct (HB ds c Hcm) as ((q & H1 & H2) & H3 & H4). pose proof (cheap_le I i j Hj ltac:(congruence)) as Hch.
      assert (HiB : In i (bs_iter n b)) by (rewrite <- EB; apply (in_B k m i HLm), Hi).
      assert (HVB : forall x, In x (chosen m s) -> In x (bs_iter n b)) by (intros x Hx; unfold chosen in Hx; apply filter_In in Hx; rewrite EB in Hx; tauto).
      assert (HiV : ~ In i (chosen m s)) by (unfold chosen; rewrite filter_In; intros [_ H]; apply Hni, H).
      assert (HNV : NoDup (i :: chosen m s)) by (constructor; [exact HiV|apply NoDup_filter, nodup_B]).
      assert (Hfree : (length (i :: chosen m s) <= length (filter (fun i => negb (late m i)) (bs_iter n b)))%nat).
      { apply NoDup_incl_length; [exact HNV|]. intros x Hx. apply filter_In. unfold late. destruct Hx as [<-|Hx].
        - split; [exact HiB|]. apply negb_true_iff, Z.ltb_ge. lia.
        - split; [apply HVB, Hx|]. apply negb_true_iff, Z.ltb_ge. apply H4. apply in_app_iff. right. exact Hx. }
      cbn [length] in Hfree. split; [apply Z.ltb_ge; lia|].
      destruct (nodup_part (i :: chosen m s) (bs_iter n b) HNV (nodup_bs_iter _ _)) as (r & Hr).
      { intros x [<-|Hx]; [exact HiB|apply HVB, Hx]. }
      assert (Hs := smallest_le (map cheap (bs_iter n b)) (map cheap (i :: chosen m s)) (map cheap r) ltac:(rewrite <- map_app; apply Permutation_map; exact Hr)).
      rewrite map_length in Hs. cbn [length] in Hs. rewrite take_eq by lia. replace (Z.to_nat (Z.of_nat n - Z.of_nat k - Z.of_nat (length (L m)))) with (S (length (chosen m s))) by lia.
      assert (Hbq : back' <= dist q 0). { destruct H2 as [H2|[H2 _]]; [|lia]. apply in_app_iff in H2 as [H2|H2]; [pose proof (Hb1 q H2); lia|apply Hb2, HVB, H2]. }
      cbn [map] in Hs. unfold zsum in Hs at 2. cbn [fold_right] in Hs. fold (zsum (map cheap (chosen m s))) in Hs. lia. }
    destruct (_ <? _) eqn:Ef; cbn [obind].
    + exists IMIN. split; [reflexivity|]. intros ds c Hcm. split; [discriminate|]. intros i j H1 H2 H3 H4 H5 H6 H7. destruct (Hgood ds c i j Hcm H1 H2 H3 H4 H5 H6 H7) as (H & _). congruence.
    + set (mand := 0 + zsum (map cheap (L m)) + zsum (take _ _)) in *.
      set (back2 := if mand =? 0 then Z.min back' d else back'). rewrite Hd. cbn [obind].
      replace (if mand =? 0 then Some (Z.min back' d) else Some back') with (Some back2) by (unfold back2; destruct (mand =? 0); reflexivity). cbn [obind]. rewrite Hw0. cbn [obind]. rewrite add_time, Hwl0.
      eexists. split; [reflexivity|]. intros ds c Hcm. split; [discriminate|]. intros i j H1 H2 H3 H4 H5 H6 H7. destruct (Hgood ds c i j Hcm H1 H2 H3 H4 H5 H6 H7) as (_ & Hle).
      assert (Hb3 : back2 <= back') by (unfold back2; destruct (mand =? 0); lia).
      destruct (closes 0 <? time_of m + (mand + back2)) eqn:E; [apply Z.ltb_lt in E|]; lia.
  - cbn [obind]. assert (EV : chosen m s = []) by (unfold chosen; rewrite Eb; reflexivity). rewrite EV in *. cbn [length] in *. rewrite app_nil_r in *.
    set (mand := 0 + zsum (map cheap (L m))). set (back2 := if mand =? 0 then Z.min back d else back). rewrite Hd. cbn [obind].
    replace (if mand =? 0 then Some (Z.min back d) else Some back) with (Some back2) by (unfold back2; destruct (mand =? 0); reflexivity). cbn [obind]. rewrite Hw0. cbn [obind]. rewrite add_time, Hwl0.
    eexists. split; [reflexivity|]. intros ds c Hcm. destruct (HB ds c Hcm) as ((q & H1 & H2) & H3 & _).
    assert (Hb3 : back2 <= dist q 0).
    { destruct H2 as [H2|[H2 ->]]; [pose proof (Hb1 q H2); unfold back2; destruct (mand =? 0); lia|].
      assert (E : L m = []) by (destruct (L m); [reflexivity|cbn [length] in *; lia]). unfold back2, mand. rewrite E. cbn. pose proof (Hdl p Hp). lia. }
    cbn [map] in H1. unfold zsum in H1 at 2. cbn [fold_right] in H1. split.
    + intros _. destruct (closes 0 <? time_of m + (mand + back2)) eqn:E; [apply Z.ltb_lt in E|]; unfold mand in *; lia.
    + intros i j _ (b & E & _). congruence.
Qed.
Lemma estimate_covering_reached k m s ds0 c0 : run tw_state P tw_nv 0 (pb_init P) ds0 k s c0 -> (k < n)%nat -> layer k m -> covers I m s ->
  exists e, tw_estimate debug I m = Some e /\
    forall ds c, completion tw_state P tw_nv k s ds c ->
      (tw_maybe m = None -> c <= e) /\
      (forall i j, (S k < n)%nat -> may_visit m i -> ~ must_visit s i -> (j < n)%nat -> j <> i ->
         time_of m + dist j i <= closes i -> time_of m - c + dist j i <= closes 0 -> c <= e + dist j i).
Proof.
  intros Hr Hk HLm Hc. destruct (run_exact debug I M Hok _ _ _ _ _ _ Hr 0%nat (exact_init debug I M Hok) Hk) as (p & He).
  exact (estimate_covering k m s p HLm He Hc).
Qed.
Lemma merged_covers k l s : (k <= n)%nat -> Forall (layer k) l -> In s l -> layer k (rx_merge (tw_relax I) l) /\ covers I (rx_merge (tw_relax I) l) s.
Proof.
  intros Hk HF Hs. split.
  - apply (merge_spec I M Hok k l Hk); [intros ->; destruct Hs|exact HF].
  - exact (merge_covers I M Hok k l s Hk HF Hs).
Qed.
Lemma step_covers k m s j : layer k m -> layer k s -> covers I m s ->
  let d := mk_dec (tw_nv k) (Z.of_nat j) in
  In d (pb_domain P (tw_nv k) s) -> (k < n)%nat ->
  In d (pb_domain P (tw_nv k) m) /\ layer (S k) (pb_trans P m d) /\ covers I (pb_trans P m d) (pb_trans P s d).
Proof.
  intros HLm HLs Hc d Hd Hk. unfold d in *. apply (in_domain debug I M Hok k) in Hd; [|exact HLs|exact Hk]. destruct Hd as (j' & E & Ha).
  injection E as E. apply Nat2Z.inj in E. subst j'. pose proof (allowed_lt I M k s j HLs Hk Ha) as Hj. split; [|split].
  - apply (in_domain debug I M Hok k); [exact HLm|exact Hk|]. exists j. split; [reflexivity|]. exact (covers_allowed I M Hok k m s j HLm HLs Hk Hc Ha).
  - apply (trans_spec debug I M Hok k m _ j HLm Hj).
  - exact (covers_step debug I M Hok k m s _ j HLm HLs Hc Hj).
Qed.
End Estimate.
