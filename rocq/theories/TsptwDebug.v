(** When exactly the estimate of the TSPTW example panics in a debug build. Proofs for PropTsptw.v; nothing here models code of
    /repo. *)
From Verif Require Import TsptwSpec BitsFacts MatrixFacts TsptwFacts TsptwTours TsptwPanic DdSpec.
From Coq Require Import Sorting.Sorted.
Open Scope Z_scope.

Section Debug.
Variable I : tw_inst.
Variable M : Z.
Hypothesis Hok : tw_inst_ok I M.
Notation n := (tw_n I).
Notation layer := (tw_layer I M).
Notation ch := (map (cheap I) (seq 0 n)).
Notation fits s i := (time_of s + cheap I i <= closes I i).

Lemma musts_debug s : forall l a m0 b0, (forall i, In i l -> (i < n)%nat) -> 0 <= a ->
  (est_musts true I ch s l (a, m0, b0) = None <-> (Z.to_nat a < length l)%nat /\ forall i, In i (firstn (Z.to_nat a) l) -> fits s i).
Proof.
  induction l as [|i l IH]; intros a m0 b0 Hl Ha; cbn [est_musts length].
  { split; [discriminate|]. intros [H _]. lia. }
  assert (Hi : (i < n)%nat) by (apply Hl; left; reflexivity). unfold est_must, usub.
  destruct (1 <=? a) eqn:E1; cbn [obind].
  - apply Z.leb_le in E1. rewrite (cheapest_nth I i Hi). cbn [obind]. rewrite (get_dist I M Hok) by lia. cbn [obind].
    destruct (get_win I M Hok i Hi) as (w & -> & _ & Hw). cbn [obind]. rewrite Hw, add_time.
    replace (Z.to_nat a) with (S (Z.to_nat (a - 1))) by lia. cbn [firstn].
    destruct (closes I i <? time_of s + cheap I i) eqn:E2; cbn [obind].
    + split; [discriminate|]. intros [_ H]. apply Z.ltb_lt in E2. specialize (H i (or_introl eq_refl)). lia.
    + apply Z.ltb_ge in E2. rewrite IH; [|intros x Hx; apply Hl; right; exact Hx|lia]. split.
      * intros [H1 H2]. split; [lia|]. intros x [<-|Hx]; [exact E2|auto].
      * intros [H1 H2]. split; [lia|]. intros x Hx. apply H2. right. exact Hx.
  - apply Z.leb_gt in E1. assert (a = 0) as -> by lia. cbn. split; [intros _; split; [lia|intros x []]|reflexivity].
Qed.

Lemma count_viol s : forall l temp b v t b' v', ofold (est_maybe I ch s) l (temp, b, v) = Some (t, b', v') ->
  v <= Z.of_nat (length temp) -> v' <= Z.of_nat (length t).
Proof.
  induction l as [|i l IH]; intros temp b v t b' v' H Hv; cbn [ofold] in H; [injection H as <- _ <-; exact Hv|].
  destruct (est_maybe I ch s (temp, b, v) i) as [[[t1 b1] v1]|] eqn:E; cbn [obind] in H; [|discriminate]. apply (IH _ _ _ _ _ _ H).
  unfold est_maybe in E. destruct (nth_error ch i); cbn [obind] in E; [|discriminate]. destruct (mat_get _ i 0); cbn [obind] in E; [|discriminate].
  destruct (nth_error (tw_win I) i); cbn [obind] in E; [|discriminate]. injection E as <- _ <-. rewrite app_length. cbn [length]. destruct (_ <? _); lia.
Qed.

Lemma cheap_attained i : (i < n)%nat -> i <> 0%nat -> exists j, (j < n)%nat /\ j <> i /\ dist I j i = cheap I i.
Proof.
  intros Hi H0. unfold cheap.
  assert (H : forall l m, (forall j, In j l -> (j < n)%nat) ->
    let f := fold_left (fun m j => if (i =? j)%nat then m else Z.min m (dist I j i)) l m in
    f = m \/ exists j, (j < n)%nat /\ j <> i /\ dist I j i = f).
  { induction l as [|x l IH]; intros m Hl; cbn [fold_left]; [left; reflexivity|]. assert (Hl' : forall j, In j l -> (j < n)%nat) by (intros j Hj; apply Hl; right; exact Hj).
    destruct (i =? x)%nat eqn:E; [apply IH, Hl'|]. apply Nat.eqb_neq in E. destruct (IH (Z.min m (dist I x i)) Hl') as [H|H]; [|right; exact H].
    destruct (Z.min_spec m (dist I x i)) as [[_ Hm]|[_ Hm]]; rewrite Hm in H |- *; [left; exact H|right]. exists x. split; [apply Hl; left; reflexivity|]. split; [congruence|]. symmetry. exact H. }
  assert (Hb := cheap_le I i 0 ltac:(lia) H0).
  destruct (H (seq 0 n) UMAX) as [E|E]; [intros j Hj; apply in_seq in Hj; lia| |exact E].
  exfalso. fold (cheap I i) in E. pose proof (io_dist _ _ Hok 0%nat i ltac:(lia) Hi) as Hd. pose proof (io_range _ _ Hok) as Hr. rewrite E in Hb.
  assert (M <= IMAX) by nia. unfold UMAX, IMAX in *. lia.
Qed.

Lemma musts_none k s : layer k s -> (k < n)%nat ->
  (tw_estimate true I s = None <-> est_musts true I ch s (bs_iter n (tw_must s)) (Z.of_nat n - Z.of_nat k, 0, UMAX) = None).
Proof.
  intros HL Hk. unfold tw_estimate. rewrite (cheapest_all I M Hok). cbn [obind]. rewrite (tl_depth _ _ _ _ HL), usub_some by lia. cbn [obind].
  assert (Hin : forall b i, In i (bs_iter n b) -> (i < n)%nat) by (intros b i Hi; apply in_bs_iter in Hi; tauto).
  destruct (est_musts true I ch s (bs_iter n (tw_must s)) (Z.of_nat n - Z.of_nat k, 0, UMAX)) as [[[[a m] b]|]|] eqn:Em; cbn [obind]; [|split; discriminate|tauto].
  split; [|discriminate]. intros H. exfalso. revert H.
  assert (Hr2 : exists r2, match tw_maybe s with
               | None => Some (Some (m, b))
               | Some my =>
                   do ' (temp, back', viol) <- ofold (est_maybe I ch s) (bs_iter n my) ([], b, 0);
                   do free <- usub true (Z.of_nat (length temp)) viol;
                   if free <? a then Some None
                   else Some (Some (m + zsum (take a (zsort temp)), back'))
               end = Some r2).
  { destruct (tw_maybe s) as [my|]; [|eauto]. destruct (maybe_release I M Hok s (bs_iter n my) ([], b, 0) (Hin _)) as ([[temp b'] viol] & E). rewrite E. cbn [obind].
    apply count_viol in E; [|cbn; lia]. rewrite usub_some by lia. cbn [obind]. destruct (_ <? a); eauto. }
  destruct Hr2 as (r2 & ->). cbn [obind]. destruct r2 as [[m' b']|]; [|discriminate].
  assert (Hb : exists b2, (if m' =? 0 then
                         do d <- match tw_pos s with
                                 | AtNode x => mat_get (tw_dist I) x 0
                                 | Virtual bs => do l <- omap (fun x => mat_get (tw_dist I) x 0) (bs_iter n bs); zmin_of l
                                 end;
                         Some (Z.min b' d)
                       else Some b') = Some b2).
  { destruct (m' =? 0); [|eauto]. pose proof (tl_pos _ _ _ _ HL) as (p & Hp & Hat). pose proof (tl_virt _ _ _ _ HL) as Hv. unfold may_be_at in Hat, Hv. destruct (tw_pos s) as [x|bs].
    - subst p. rewrite (get_dist I M Hok) by lia. cbn [obind]. eauto.
    - destruct (virtual_list I M Hok bs ltac:(exists p; tauto) 0%nat ltac:(lia)) as [-> Hne]. cbn [obind]. destruct (zmin_of_spec _ Hne) as (y & -> & _). cbn [obind]. eauto. }
  destruct Hb as (b2 & ->). cbn [obind]. destruct (get_win I M Hok 0%nat ltac:(lia)) as (w & -> & _). cbn [obind]. discriminate.
Qed.

Lemma sorted_filter (f : nat -> bool) l : StronglySorted lt l -> StronglySorted lt (filter f l).
Proof.
  induction 1 as [|x l Hs IH Hx]; cbn; [constructor|]. destruct (f x); [|exact IH]. constructor; [exact IH|].
  apply Forall_forall. intros y Hy. apply filter_In in Hy as [Hy _]. exact (proj1 (Forall_forall _ _) Hx y Hy).
Qed.
Lemma sorted_seq : forall m a, StronglySorted lt (seq a m).
Proof. induction m as [|m IH]; intros a; cbn; constructor; [apply IH|]. apply Forall_forall. intros y Hy. apply in_seq in Hy. lia. Qed.
Lemma sorted_unique : forall l l', StronglySorted lt l -> StronglySorted lt l' -> (forall i, In i l <-> In i l') -> l = l'.
Proof.
  induction l as [|x l IH]; intros l' Hs Hs' Hin.
  - destruct l' as [|y l']; [reflexivity|]. destruct (proj2 (Hin y) (or_introl eq_refl)).
  - destruct l' as [|y l']; [destruct (proj1 (Hin x) (or_introl eq_refl))|]. inversion Hs as [|? ? Hs1 Hx]; subst. inversion Hs' as [|? ? Hs1' Hy]; subst.
    rewrite Forall_forall in Hx, Hy.
    assert (x = y). { destruct (proj1 (Hin x) (or_introl eq_refl)) as [?|H1]; [congruence|]. destruct (proj2 (Hin y) (or_introl eq_refl)) as [?|H2]; [congruence|]. specialize (Hx y H2). specialize (Hy x H1). lia. }
    subst y. f_equal. apply IH; auto. intros i. split; intros H.
    + destruct (proj1 (Hin i) (or_intror H)) as [<-|H']; [specialize (Hx x H); lia|exact H'].
    + destruct (proj2 (Hin i) (or_intror H)) as [<-|H']; [specialize (Hy x H); lia|exact H'].
Qed.

Theorem debug_exactly k s l : (k < n)%nat -> layer k s -> StronglySorted lt l -> (forall i, In i l <-> must_visit s i) ->
  (tw_estimate true I s = None <->
   (n - k < length l)%nat /\ forall i, In i (firstn (n - k) l) -> exists j, (j < n)%nat /\ j <> i /\ time_of s + dist I j i <= closes I i).
Proof.
  intros Hk HL Hs Hin. rewrite (musts_none k s HL Hk). rewrite musts_debug; [|intros i Hi; apply in_bs_iter in Hi; tauto|lia].
  assert (bs_iter n (tw_must s) = l) as ->.
  { apply sorted_unique; [apply sorted_filter, sorted_seq|exact Hs|]. intros i. rewrite in_bs_iter, Hin. unfold must_visit. split; [tauto|]. intros H. split; [|exact H]. apply (tl_must _ _ _ _ HL i H). }
  replace (Z.to_nat (Z.of_nat n - Z.of_nat k)) with (n - k)%nat by lia.
  assert (Hl : forall i, In i (firstn (n - k) l) -> (1 <= i < n)%nat).
  { intros i Hi. apply (tl_must _ _ _ _ HL). apply Hin. rewrite <- (firstn_skipn (n - k) l). apply in_or_app. left. exact Hi. }
  split; intros [H1 H2]; (split; [exact H1|]); intros i Hi; specialize (H2 i Hi); specialize (Hl i Hi).
  - destruct (cheap_attained i ltac:(lia) ltac:(lia)) as (j & Hj & Hne & E). exists j. rewrite E. auto.
  - destruct H2 as (j & Hj & Hne & H). pose proof (cheap_le I i j Hj ltac:(congruence)). lia.
Qed.

(** There a release build wraps around, and thinks that an enormous number of cities is still to be visited. *)
Lemma musts_wraps s : forall l a m0 b0, (forall i, In i l -> (i < n)%nat) -> 0 <= a ->
  match est_musts false I ch s l (a, m0, b0) with
  | Some (Some (c, _, _)) => a - Z.of_nat (length l) <= c /\ (a < Z.of_nat (length l) -> Z.of_nat (length l) <= 2 ^ 64 -> c = a - Z.of_nat (length l) + 2 ^ 64)
  | Some None => True
  | None => False
  end.
Proof.
  induction l as [|i l IH]; intros a m0 b0 Hl Ha; cbn [est_musts length]; [split; lia|].
  assert (Hi : (i < n)%nat) by (apply Hl; left; reflexivity). assert (Hl' : forall j, In j l -> (j < n)%nat) by (intros j Hj; apply Hl; right; exact Hj). unfold est_must, usub.
  destruct (1 <=? a) eqn:E1; cbn [obind]; rewrite (cheapest_nth I i Hi); cbn [obind]; rewrite (get_dist I M Hok) by lia; cbn [obind];
    destruct (get_win I M Hok i Hi) as (w & -> & _ & Hw); cbn [obind]; destruct (w_latest w <? _); cbn [obind]; try exact Logic.I.
  - apply Z.leb_le in E1. specialize (IH (a - 1) (m0 + cheap I i) (Z.min b0 (dist I i 0)) Hl' ltac:(lia)).
    destruct (est_musts false I ch s l _) as [[[[c ?] ?]|]|]; auto. destruct IH as [H1 H2]. split; [lia|]. intros H3 H4. rewrite H2 by lia. lia.
  - apply Z.leb_gt in E1. assert (a = 0) as -> by lia. specialize (IH (0 - 1 + 2 ^ 64) (m0 + cheap I i) (Z.min b0 (dist I i 0)) Hl' ltac:(lia)).
    destruct (est_musts false I ch s l _) as [[[[c ?] ?]|]|] eqn:E; auto. destruct IH as [H1 H2]. split; [lia|]. intros H3 H4.
    enough (Hc : forall l a m0 b0 c m b, (forall i, In i l -> (i < n)%nat) -> Z.of_nat (length l) <= a -> est_musts false I ch s l (a, m0, b0) = Some (Some (c, m, b)) -> c = a - Z.of_nat (length l)).
    { apply Hc in E; [|exact Hl'|lia]. rewrite E. lia. }
    clear. intros l. induction l as [|i l IH]; intros a m0 b0 c m b Hl Ha; cbn [est_musts length]; [intros H; injection H as <- _ _; lia|].
    unfold est_must. cbn [length] in Ha. rewrite usub_some by lia. cbn [obind]. destruct (nth_error ch i); cbn [obind]; [|discriminate]. destruct (mat_get _ i 0); cbn [obind]; [|discriminate].
    destruct (nth_error (tw_win I) i); cbn [obind]; [|discriminate]. destruct (_ <? _); cbn [obind]; [discriminate|]. intros H. apply IH in H; [lia|intros j Hj; apply Hl; right; exact Hj|lia].
Qed.

Lemma temp_length s : forall l temp b v t b' v', ofold (est_maybe I ch s) l (temp, b, v) = Some (t, b', v') ->
  length t = (length temp + length l)%nat /\ v <= v'.
Proof.
  induction l as [|i l IH]; intros temp b v t b' v' H; cbn [ofold] in H; [injection H as <- _ <-; cbn; lia|].
  destruct (est_maybe I ch s (temp, b, v) i) as [[[t1 b1] v1]|] eqn:E; cbn [obind] in H; [|discriminate]. destruct (IH _ _ _ _ _ _ H) as [H1 H2]. rewrite H1. cbn [length].
  unfold est_maybe in E. destruct (nth_error ch i); cbn [obind] in E; [|discriminate]. destruct (mat_get _ i 0); cbn [obind] in E; [|discriminate].
  destruct (nth_error (tw_win I) i); cbn [obind] in E; [|discriminate]. injection E as <- _ <-. rewrite app_length. cbn [length]. destruct (_ <? _); lia.
Qed.

Theorem release_hopeless k s : Z.of_nat n <= IMAX -> (k < n)%nat -> layer k s -> tw_maybe s <> None ->
  tw_estimate true I s = None -> tw_estimate false I s = Some IMIN.
Proof.
  intros Hn Hk HL Hmy Hd. rewrite (musts_none k s HL Hk) in Hd. assert (Hin : forall b i, In i (bs_iter n b) -> (i < n)%nat) by (intros b i Hi; apply in_bs_iter in Hi; tauto).
  apply musts_debug in Hd as [Hlen _]; [|apply Hin|lia].
  assert (Hcount : forall b, (length (bs_iter n b) <= n)%nat).
  { intros b. rewrite <- (seq_length n 0) at 2. apply NoDup_incl_length; [apply nodup_bs_iter|]. intros i Hi. apply in_seq. specialize (Hin b i Hi). lia. }
  unfold tw_estimate. rewrite (cheapest_all I M Hok). cbn [obind]. rewrite (tl_depth _ _ _ _ HL), usub_some by lia. cbn [obind].
  pose proof (musts_wraps s (bs_iter n (tw_must s)) (Z.of_nat n - Z.of_nat k) 0 UMAX (Hin _) ltac:(lia)) as H.
  destruct (est_musts false I ch s (bs_iter n (tw_must s)) (Z.of_nat n - Z.of_nat k, 0, UMAX)) as [[[[c m] b]|]|] eqn:Em; [|reflexivity|destruct H].
  cbn [obind]. destruct H as [_ H]. pose proof (Hcount (tw_must s)) as Hc1. unfold IMAX in Hn. rewrite H in * by lia.
  destruct (tw_maybe s) as [my|]; [|congruence]. destruct (maybe_release I M Hok s (bs_iter n my) ([], b, 0) (Hin _)) as ([[temp b'] viol] & E). rewrite E. cbn [obind].
  pose proof (count_viol s _ _ _ _ _ _ _ E ltac:(cbn; lia)) as Hv. destruct (temp_length s _ _ _ _ _ _ _ E) as [Hlt Hv0]. cbn [length] in Hlt. pose proof (Hcount my).
  rewrite usub_some by lia. cbn [obind].
  assert (Z.of_nat (length temp) - viol <? Z.of_nat n - Z.of_nat k - Z.of_nat (length (bs_iter n (tw_must s))) + 2 ^ 64 = true) as -> by (apply Z.ltb_lt; lia).
  reflexivity.
Qed.
End Debug.
