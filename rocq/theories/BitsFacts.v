(** Facts about the helpers of Bits.v. *)
From Verif Require Import Bits.
From Coq Require Import Sorting.Sorted.
Open Scope Z_scope.

Lemma in_bs_iter n b i : In i (bs_iter n b) <-> (i < n)%nat /\ bs_get b i = true.
Proof. unfold bs_iter. rewrite filter_In, in_seq. intuition lia. Qed.
Lemma nodup_bs_iter n b : NoDup (bs_iter n b).
Proof. apply NoDup_filter, seq_NoDup. Qed.

Lemma get_none i : bs_get bs_none i = false.
Proof. reflexivity. Qed.
Lemma get_all n i : bs_get (bs_all n) i = (i <? n)%nat.
Proof.
  unfold bs_get, bs_all. destruct (Nat.ltb_spec i n).
  - apply N.ones_spec_low. lia.
  - apply N.ones_spec_high. lia.
Qed.
Lemma get_on b i j : bs_get (bs_on b i) j = (j =? i)%nat || bs_get b j.
Proof.
  unfold bs_get, bs_on. rewrite N.setbit_eqb. f_equal.
  destruct (N.eqb_spec (N.of_nat i) (N.of_nat j)), (Nat.eqb_spec j i); try reflexivity; lia.
Qed.
Lemma get_off b i j : bs_get (bs_off b i) j = negb (j =? i)%nat && bs_get b j.
Proof.
  unfold bs_get, bs_off. rewrite N.clearbit_eqb, andb_comm. f_equal. f_equal.
  destruct (N.eqb_spec (N.of_nat i) (N.of_nat j)), (Nat.eqb_spec j i); try reflexivity; lia.
Qed.
Lemma get_or a b i : bs_get (N.lor a b) i = bs_get a i || bs_get b i.
Proof. apply N.lor_spec. Qed.
Lemma get_and a b i : bs_get (N.land a b) i = bs_get a i && bs_get b i.
Proof. apply N.land_spec. Qed.
Lemma get_xor a b i : bs_get (N.lxor a b) i = xorb (bs_get a i) (bs_get b i).
Proof. apply N.lxor_spec. Qed.
Lemma bs_ext a b : (forall i, bs_get a i = bs_get b i) -> a = b.
Proof. intros H. apply N.bits_inj. intros k. specialize (H (N.to_nat k)). unfold bs_get in H. rewrite N2Nat.id in H. exact H. Qed.
Lemma count_pos n b : (0 <? bs_count n b)%nat = true <-> exists i, (i < n)%nat /\ bs_get b i = true.
Proof.
  unfold bs_count. rewrite Nat.ltb_lt. split.
  - intros H. destruct (bs_iter n b) as [|i t] eqn:E; [cbn in H; lia|]. exists i. apply in_bs_iter. rewrite E. left. reflexivity.
  - intros (i & H). apply in_bs_iter in H. destruct (bs_iter n b); [destruct H|cbn; lia].
Qed.

Lemma usub_some debug a b : b <= a -> usub debug a b = Some (a - b).
Proof. intros H. unfold usub. rewrite (proj2 (Z.leb_le b a) H). reflexivity. Qed.

Lemma omap_some {A B} (f : A -> option B) (g : A -> B) l : (forall x, In x l -> f x = Some (g x)) -> omap f l = Some (map g l).
Proof.
  induction l as [|x l IH]; intros H; [reflexivity|]. cbn [omap map]. rewrite (H x (or_introl eq_refl)). cbn [obind].
  rewrite IH by (intros; apply H; right; assumption). reflexivity.
Qed.
Lemma ofilter_some {A} (f : A -> option bool) (g : A -> bool) l : (forall x, In x l -> f x = Some (g x)) -> ofilter f l = Some (filter g l).
Proof.
  induction l as [|x l IH]; intros H; [reflexivity|]. cbn [ofilter filter]. rewrite (H x (or_introl eq_refl)). cbn [obind].
  rewrite IH by (intros; apply H; right; assumption). reflexivity.
Qed.
Lemma ofold_some {A B} (f : B -> A -> option B) (g : B -> A -> B) l : forall b, (forall b x, In x l -> f b x = Some (g b x)) -> ofold f l b = Some (fold_left g l b).
Proof.
  induction l as [|x l IH]; intros b H; [reflexivity|]. cbn [ofold fold_left]. rewrite (H b x (or_introl eq_refl)). cbn [obind].
  apply IH. intros; apply H; right; assumption.
Qed.

Lemma fold_min_le l : forall x, fold_left Z.min l x <= x /\ (forall y, In y l -> fold_left Z.min l x <= y) /\ (fold_left Z.min l x = x \/ In (fold_left Z.min l x) l).
Proof.
  induction l as [|a l IH]; intros x; cbn [fold_left]; [split; [lia|]; split; [intros y []|left; reflexivity]|].
  destruct (IH (Z.min x a)) as (H1 & H2 & H3). split; [lia|]. split.
  - intros y [->|H]; [lia|auto].
  - destruct H3 as [H3|H3]; [|right; right; exact H3]. rewrite H3. destruct (Z.min_spec x a) as [[_ ->]|[_ ->]]; [left; reflexivity|right; left; reflexivity].
Qed.
Lemma fold_max_ge l : forall x, x <= fold_left Z.max l x /\ (forall y, In y l -> y <= fold_left Z.max l x) /\ (fold_left Z.max l x = x \/ In (fold_left Z.max l x) l).
Proof.
  induction l as [|a l IH]; intros x; cbn [fold_left]; [split; [lia|]; split; [intros y []|left; reflexivity]|].
  destruct (IH (Z.max x a)) as (H1 & H2 & H3). split; [lia|]. split.
  - intros y [->|H]; [lia|auto].
  - destruct H3 as [H3|H3]; [|right; right; exact H3]. rewrite H3. destruct (Z.max_spec x a) as [[_ ->]|[_ ->]]; [right; left; reflexivity|left; reflexivity].
Qed.
Lemma zmin_of_spec l : l <> [] -> exists m, zmin_of l = Some m /\ In m l /\ forall y, In y l -> m <= y.
Proof.
  destruct l as [|x l]; intros H; [congruence|]. destruct (fold_min_le l x) as (H1 & H2 & H3). eexists. split; [reflexivity|]. split.
  - destruct H3 as [->|H3]; [left; reflexivity|right; exact H3].
  - intros y [->|Hy]; auto.
Qed.
Lemma zmax_of_spec l : l <> [] -> exists m, zmax_of l = Some m /\ In m l /\ forall y, In y l -> y <= m.
Proof.
  destruct l as [|x l]; intros H; [congruence|]. destruct (fold_max_ge l x) as (H1 & H2 & H3). eexists. split; [reflexivity|]. split.
  - destruct H3 as [->|H3]; [left; reflexivity|right; exact H3].
  - intros y [->|Hy]; auto.
Qed.

Lemma zsum_app a b : zsum (a ++ b) = zsum a + zsum b.
Proof. unfold zsum. induction a as [|x a IH]; cbn [app fold_right]; lia. Qed.
Lemma zsum_perm a b : Permutation a b -> zsum a = zsum b.
Proof. unfold zsum. induction 1; cbn [fold_right]; lia. Qed.
Lemma zsum_nonneg l : (forall x, In x l -> 0 <= x) -> 0 <= zsum l.
Proof. unfold zsum. induction l as [|x l IH]; intros H; cbn [fold_right]; [lia|]. pose proof (H x (or_introl eq_refl)). assert (0 <= fold_right Z.add 0 l) by (apply IH; intros; apply H; right; assumption). lia. Qed.
Lemma zsum_le {A} (f g : A -> Z) l : (forall x, In x l -> f x <= g x) -> zsum (map f l) <= zsum (map g l).
Proof. unfold zsum. induction l as [|x l IH]; intros H; cbn [map fold_right]; [lia|]. pose proof (H x (or_introl eq_refl)). specialize (IH (fun y h => H y (or_intror h))). lia. Qed.

Lemma zinsert_perm x l : Permutation (x :: l) (zinsert x l).
Proof. induction l as [|y l IH]; cbn [zinsert]; [reflexivity|]. destruct (x <=? y); [reflexivity|]. rewrite perm_swap. constructor. exact IH. Qed.
Lemma zsort_perm l : Permutation l (zsort l).
Proof. induction l as [|x l IH]; cbn [zsort fold_right]; [reflexivity|]. rewrite <- zinsert_perm. constructor. exact IH. Qed.
Lemma zinsert_sorted x l : StronglySorted Z.le l -> StronglySorted Z.le (zinsert x l).
Proof.
  induction 1 as [|y l H IH HF]; cbn [zinsert]; [repeat constructor|]. destruct (Z.leb_spec x y).
  - constructor; [constructor; assumption|]. constructor; [assumption|]. eapply Forall_impl; [|exact HF]. cbn. intros. lia.
  - constructor; [exact IH|]. apply Forall_forall. intros z Hz. apply (Permutation_in _ (Permutation_sym (zinsert_perm x l))) in Hz.
    destruct Hz as [<-|Hz]; [lia|]. rewrite Forall_forall in HF. apply HF. exact Hz.
Qed.
Lemma zsort_sorted l : StronglySorted Z.le (zsort l).
Proof. induction l as [|x l IH]; cbn [zsort fold_right]; [constructor|apply zinsert_sorted; exact IH]. Qed.

Lemma take_eq {A} k (l : list A) : 0 <= k -> take k l = firstn (Z.to_nat k) l.
Proof. intros Hk. unfold take. destruct (Z.leb_spec (Z.of_nat (length l)) k); [|reflexivity]. symmetry. apply firstn_all2. lia. Qed.

(** The first [k] entries of a sorted list have the smallest sum among the sub-collections of that size. *)
Lemma sorted_prefix_le : forall l, StronglySorted Z.le l -> forall t r, Permutation l (t ++ r) -> zsum (firstn (length t) l) <= zsum t.
Proof.
  intros l Hl. induction Hl as [|x l Hl IH HF]; intros t r Hp.
  - apply Permutation_nil in Hp. apply app_eq_nil in Hp as [-> _]. cbn. lia.
  - destruct t as [|y t]; [cbn; lia|].
    assert (Hx : In x ((y :: t) ++ r)) by (eapply Permutation_in; [exact Hp|left; reflexivity]).
    apply in_app_or in Hx as [Hx|Hx].
    + apply in_split in Hx as (t1 & t2 & Et). rewrite Et in *. 
      assert (Hp' : Permutation l ((t1 ++ t2) ++ r)).
      { apply Permutation_cons_inv with (a := x). rewrite Hp. rewrite <- !app_assoc. cbn [app]. symmetry. apply Permutation_middle. }
      specialize (IH (t1 ++ t2) r Hp'). rewrite (zsum_perm (t1 ++ x :: t2) (x :: t1 ++ t2)) by (symmetry; apply Permutation_middle).
      replace (length (t1 ++ x :: t2)) with (S (length (t1 ++ t2))) by (rewrite !app_length; cbn; lia).
      cbn [firstn zsum fold_right] in *. unfold zsum in *. lia.
    + apply in_split in Hx as (r1 & r2 & ->).
      assert (Hp' : Permutation l (t ++ (y :: r1 ++ r2))).
      { apply Permutation_cons_inv with (a := x). rewrite Hp. cbn [app]. rewrite <- (Permutation_middle t (r1 ++ r2) y).
        rewrite perm_swap. constructor. rewrite !app_assoc. symmetry. apply Permutation_middle. }
      specialize (IH t _ Hp').
      assert (x <= y). { rewrite Forall_forall in HF. apply HF. eapply Permutation_in; [symmetry; exact Hp'|]. apply in_or_app. right. left. reflexivity. }
      cbn [length firstn zsum fold_right] in *. unfold zsum in *. lia.
Qed.
Lemma smallest_le l t r : Permutation l (t ++ r) -> zsum (firstn (length t) (zsort l)) <= zsum t.
Proof. intros H. apply (sorted_prefix_le _ (zsort_sorted l) t r). rewrite <- zsort_perm. exact H. Qed.
