(** Sorted lists and the two exchange arguments behind the estimate of the SRFLP example: rearranging a sum of products, and
    ordering by ratio. *)
From Verif Require Import Base Bits BitsFacts PspFacts Srflp.
From Coq Require Import Lia Sorted Permutation.
Open Scope Z_scope.

(** *** Insertion sort *)
Section Insertion.
Context {A : Type} (leb : A -> A -> bool) (ok : A -> Prop) (R : A -> A -> Prop).
Hypothesis Ht : forall x y, ok x -> ok y -> leb x y = true -> R x y.
Hypothesis Hf : forall x y, ok x -> ok y -> leb x y = false -> R y x.
Hypothesis Htr : forall x y z, ok x -> ok y -> ok z -> R x y -> R y z -> R x z.

Lemma insert_by_perm x l : Permutation (x :: l) (insert_by leb x l).
Proof.
  induction l as [|y l IH]; cbn [insert_by]; [reflexivity|]. destruct (leb x y); [reflexivity|]. rewrite perm_swap, IH. reflexivity.
Qed.
Lemma insert_sort_perm l : Permutation l (insert_sort leb l).
Proof. induction l as [|x l IH]; cbn [insert_sort fold_right]; [constructor|]. rewrite <- insert_by_perm. constructor. exact IH. Qed.
Lemma insert_by_sorted x l : ok x -> Forall ok l -> StronglySorted R l -> StronglySorted R (insert_by leb x l).
Proof.
  intros Hx Hl Hs. induction Hs as [|y l Hs IH HF]; cbn [insert_by]; [repeat constructor|]. inversion Hl as [|? ? Hy Hl']; subst.
  destruct (leb x y) eqn:E.
  - constructor; [constructor; assumption|]. constructor; [apply Ht; assumption|]. rewrite Forall_forall in *. intros z Hz. apply (Htr x y z); auto.
  - constructor; [apply IH; exact Hl'|]. apply (Permutation_Forall (insert_by_perm x l)). constructor; [apply Hf; assumption|exact HF].
Qed.
Lemma insert_sort_sorted l : Forall ok l -> StronglySorted R (insert_sort leb l).
Proof.
  intros H. induction H as [|x l Hx Hl IH]; cbn [insert_sort fold_right]; [constructor|]. apply insert_by_sorted; [exact Hx| |exact IH].
  apply (Permutation_Forall (insert_sort_perm l)). exact Hl.
Qed.
End Insertion.

Lemma sorted_filter {A} (R : A -> A -> Prop) (f : A -> bool) l : StronglySorted R l -> StronglySorted R (filter f l).
Proof.
  intros H. induction H as [|x l H IH HF]; cbn [filter]; [constructor|]. destruct (f x); [|exact IH]. constructor; [exact IH|].
  rewrite Forall_forall in *. intros y Hy. apply filter_In in Hy. apply HF. tauto.
Qed.
Lemma sorted_map {A B} (R : A -> A -> Prop) (Q : B -> B -> Prop) (f : A -> B) l : (forall x y, R x y -> Q (f x) (f y)) -> StronglySorted R l -> StronglySorted Q (map f l).
Proof.
  intros HRQ H. induction H as [|x l H IH HF]; cbn [map]; [constructor|]. constructor; [exact IH|].
  rewrite Forall_forall in *. intros y Hy. apply in_map_iff in Hy. destruct Hy as (z & <- & Hz). apply HRQ. auto.
Qed.
Lemma sorted_firstn {A} (R : A -> A -> Prop) q l : StronglySorted R l -> StronglySorted R (firstn q l).
Proof.
  intros H. revert q. induction H as [|x l H IH HF]; intros [|q]; cbn [firstn]; try constructor; [apply IH|].
  rewrite Forall_forall in *. intros y Hy. apply HF. clear - Hy. revert l Hy. induction q as [|q IH]; intros [|z l] Hy; cbn in Hy; [contradiction..|]. destruct Hy as [->|Hy]; [left; reflexivity|right; apply IH; exact Hy].
Qed.

(** *** Sorted integers *)
Lemma sorted_unique : forall a b, StronglySorted Z.le a -> StronglySorted Z.le b -> Permutation a b -> a = b.
Proof.
  induction a as [|x a IH]; intros b Ha Hb Hp; [apply Permutation_nil in Hp; auto|].
  destruct b as [|y b]; [apply Permutation_sym, Permutation_nil in Hp; discriminate|].
  inversion Ha as [|? ? Ha' Fa]; inversion Hb as [|? ? Hb' Fb]; subst. rewrite Forall_forall in Fa, Fb.
  assert (x = y) as ->.
  { assert (y <= x). { assert (In x (y :: b)) as H by (apply (Permutation_in _ Hp); left; reflexivity). destruct H as [->|H]; [lia|apply Fb; exact H]. }
    assert (x <= y). { assert (In y (x :: a)) as H1 by (apply (Permutation_in _ (Permutation_sym Hp)); left; reflexivity). destruct H1 as [->|H1]; [lia|apply Fa; exact H1]. }
    lia. }
  f_equal. apply IH; auto. apply Permutation_cons_inv with y. exact Hp.
Qed.
Lemma zsort_eq a b : Permutation a b -> zsort a = zsort b.
Proof. intros H. apply sorted_unique; try apply zsort_sorted. rewrite <- !zsort_perm. exact H. Qed.
Lemma zsort_id a : StronglySorted Z.le a -> zsort a = a.
Proof. intros H. apply sorted_unique; [apply zsort_sorted|exact H|]. symmetry. apply zsort_perm. Qed.
Lemma zsort_length a : length (zsort a) = length a.
Proof. symmetry. apply Permutation_length, zsort_perm. Qed.

Lemma Forall2_le_refl l : Forall2 Z.le l l.
Proof. induction l; constructor; auto. lia. Qed.
Lemma Forall2_le_trans : forall a b c, Forall2 Z.le a b -> Forall2 Z.le b c -> Forall2 Z.le a c.
Proof. intros a b c H. revert c. induction H as [|x y a b Hxy H IH]; intros c Hc; inversion Hc; subst; constructor; [lia|auto]. Qed.
Lemma Forall2_len (a b : list Z) : Forall2 Z.le a b -> length a = length b.
Proof. induction 1; cbn; congruence. Qed.
Lemma zinsert_first y l : Forall (Z.le y) l -> zinsert y l = y :: l.
Proof. intros H. destruct l as [|z l]; [reflexivity|]. inversion H; subst. cbn [zinsert]. rewrite (proj2 (Z.leb_le _ _)) by assumption. reflexivity. Qed.
Lemma zinsert_above : forall l b y, StronglySorted Z.le (b :: l) -> b <= y -> Forall2 Z.le (b :: l) (zinsert y l).
Proof.
  induction l as [|z l IH]; intros b y Hs Hby; [repeat constructor; exact Hby|]. cbn [zinsert]. inversion Hs as [|? ? Hs' HF]; subst. inversion HF as [|? ? Hbz HF']; subst. destruct (Z.leb_spec y z).
  - constructor; [exact Hby|]. apply Forall2_le_refl.
  - constructor; [exact Hbz|]. apply IH; [exact Hs'|lia].
Qed.
Lemma zinsert_mono : forall a b, Forall2 Z.le a b -> StronglySorted Z.le a -> StronglySorted Z.le b -> forall x y, x <= y -> Forall2 Z.le (zinsert x a) (zinsert y b).
Proof.
  intros a b H. induction H as [|u v a b Huv H IH]; intros Ha Hb x y Hxy; [repeat constructor; exact Hxy|].
  inversion Ha as [|? ? Ha' Fa]; inversion Hb as [|? ? Hb' Fb]; subst. cbn [zinsert]. destruct (Z.leb_spec x u), (Z.leb_spec y v).
  - constructor; [lia|]. constructor; [lia|exact H].
  - constructor; [lia|]. apply (Forall2_le_trans _ (v :: b)); [constructor; assumption|]. apply zinsert_above; [exact Hb|lia].
  - constructor; [lia|]. rewrite <- (zinsert_first v b Fb). apply IH; auto. lia.
  - constructor; [lia|]. apply IH; auto.
Qed.

(** [a] has the size of [b] and, sorted, lies below it. *)
Definition dom (a b : list Z) : Prop := Forall2 Z.le (zsort a) (zsort b).
Lemma dom_of a b : Forall2 Z.le a b -> dom a b.
Proof. unfold dom. intros H. induction H as [|x y a b Hxy H IH]; cbn [zsort fold_right]; [constructor|]. apply zinsert_mono; auto; apply zsort_sorted. Qed.
Lemma dom_perm a a' b b' : Permutation a a' -> Permutation b b' -> dom a b -> dom a' b'.
Proof. unfold dom. intros Ha Hb. rewrite (zsort_eq _ _ Ha), (zsort_eq _ _ Hb). auto. Qed.
Lemma dom_refl a : dom a a.
Proof. apply Forall2_le_refl. Qed.
Lemma dom_trans a b c : dom a b -> dom b c -> dom a c.
Proof. apply Forall2_le_trans. Qed.
Lemma dom_length a b : dom a b -> length a = length b.
Proof. intros H. apply Forall2_len in H. rewrite !zsort_length in H. exact H. Qed.
Lemma dom_app a b a' b' : dom a b -> dom a' b' -> dom (a ++ a') (b ++ b').
Proof.
  intros H H'. apply (dom_perm (zsort a ++ zsort a') _ (zsort b ++ zsort b')).
  - apply Permutation_app; symmetry; apply zsort_perm.
  - apply Permutation_app; symmetry; apply zsort_perm.
  - apply dom_of. apply Forall2_app; assumption.
Qed.
Lemma insert_below x l : StronglySorted Z.le l -> Forall2 Z.le (firstn (length l) (zinsert x l)) l.
Proof.
  intros H. induction H as [|y l H IH HF]; [constructor|]. cbn [zinsert]. destruct (Z.leb_spec x y).
  - change (length (y :: l)) with (S (length l)). cbn [firstn]. constructor; [lia|].
    clear IH. revert y HF H0. induction H as [|z l H IH HF']; intros y HF H0; cbn [length firstn]; constructor; [inversion HF; subst; lia|]. apply IH; [exact HF'|lia || (inversion HF; subst; lia)].
  - change (length (y :: l)) with (S (length l)). cbn [firstn]. constructor; [lia|exact IH].
Qed.
Lemma Forall2_firstn q : forall a b, Forall2 Z.le a b -> Forall2 Z.le (firstn q a) (firstn q b).
Proof. induction q as [|q IH]; intros a b H; cbn [firstn]; [constructor|]. inversion H; subst; constructor; auto. Qed.
Lemma below_app r t : Forall2 Z.le (firstn (length t) (zsort (r ++ t))) (zsort t).
Proof.
  induction r as [|x r IH]; cbn [app]; [rewrite firstn_all2 by (rewrite zsort_length; lia); apply Forall2_le_refl|].
  apply (Forall2_le_trans _ (firstn (length t) (zsort (r ++ t)))); [|exact IH]. change (zsort (x :: r ++ t)) with (zinsert x (zsort (r ++ t))).
  pose proof (insert_below x _ (zsort_sorted (r ++ t))) as H. apply (Forall2_firstn (length t)) in H. rewrite firstn_firstn in H.
  rewrite zsort_length, app_length in H. replace (Nat.min (length t) (length r + length t)) with (length t) in H by lia. exact H.
Qed.
(** The smallest elements of [l] lie below any choice of as many. *)
Lemma smallest_below l t r : Permutation l (t ++ r) -> Forall2 Z.le (firstn (length t) (zsort l)) (zsort t).
Proof. intros H. rewrite (zsort_eq l (r ++ t)); [apply below_app|]. rewrite H. apply Permutation_app_comm. Qed.
Lemma smallest_dom l t r : Permutation l (t ++ r) -> dom (firstn (length t) (zsort l)) t.
Proof. intros H. unfold dom. rewrite (zsort_id (firstn _ _)) by apply sorted_firstn, zsort_sorted. apply (smallest_below l t r H). Qed.
Lemma zsum_Forall2 a b : Forall2 Z.le a b -> zsum a <= zsum b.
Proof. induction 1; rewrite ?zsum_cons; [lia|lia]. Qed.
Lemma dom_prefix a b q : dom a b -> zsum (firstn q (zsort a)) <= zsum (firstn q (zsort b)).
Proof. intros H. apply zsum_Forall2, Forall2_firstn. exact H. Qed.

(** *** Rearrangement *)
Fixpoint dot (a b : list Z) : Z := match a, b with x :: s, y :: t => x * y + dot s t | _, _ => 0 end.
Lemma dot_nil_r a : dot a [] = 0.
Proof. destruct a; reflexivity. Qed.
Lemma dot_le a b s : Forall2 Z.le a b -> Forall (Z.le 0) s -> dot a s <= dot b s.
Proof.
  intros H. revert s. induction H as [|x y a b Hxy H IH]; intros s Hs; cbn [dot]; [lia|]. destruct s as [|z s]; [lia|]. inversion Hs; subst. specialize (IH s ltac:(assumption)). nia.
Qed.
Lemma insert_dot x : forall a z s, length a = length s -> StronglySorted Z.ge (z :: s) -> dot (zinsert x a) (z :: s) <= x * z + dot a s.
Proof.
  induction a as [|y a IH]; intros z s Hl Hs; cbn [zinsert dot]; [rewrite dot_nil_r || idtac; lia|]. destruct s as [|w s]; [discriminate|].
  destruct (Z.leb_spec x y); cbn [dot]; [lia|]. inversion Hs as [|? ? Hs' HF]; subst. inversion HF; subst.
  specialize (IH w s ltac:(cbn in Hl; lia) Hs'). cbn [dot] in *. nia.
Qed.
Lemma dot_sorted : forall a s, length a = length s -> StronglySorted Z.ge s -> dot (zsort a) s <= dot a s.
Proof.
  induction a as [|x a IH]; intros s Hl Hs; cbn [zsort fold_right]; [cbn; lia|]. destruct s as [|z s]; [discriminate|].
  change (fold_right zinsert [] a) with (zsort a). inversion Hs; subst.
  pose proof (insert_dot x (zsort a) z s ltac:(rewrite zsort_length; cbn in Hl; lia) Hs). specialize (IH s ltac:(cbn in Hl; lia) ltac:(assumption)). cbn [dot]. lia.
Qed.
Lemma dot_dom a b s : dom a b -> length b = length s -> StronglySorted Z.ge s -> Forall (Z.le 0) s -> dot (zsort a) s <= dot b s.
Proof. intros H Hl Hs H0. pose proof (dot_le _ _ s H H0). pose proof (dot_sorted b s Hl Hs). lia. Qed.
Lemma dot_app : forall a b s t, length a = length s -> dot (a ++ b) (s ++ t) = dot a s + dot b t.
Proof. induction a as [|x a IH]; intros b [|y s] t H; cbn [app dot] in *; try discriminate; [lia|]. rewrite IH by (cbn in H; lia). lia. Qed.
Lemma dot_snoc a s x y : length a = length s -> dot (a ++ [x]) (s ++ [y]) = dot a s + x * y.
Proof. intros H. rewrite dot_app by exact H. cbn. lia. Qed.
Lemma dot_rev : forall a s, length a = length s -> dot (rev a) (rev s) = dot a s.
Proof. induction a as [|x a IH]; intros [|y s] H; cbn [rev dot] in *; try discriminate; [lia|]. rewrite dot_snoc by (rewrite !rev_length; cbn in H; lia). rewrite IH by (cbn in H; lia). lia. Qed.
(** A sum of products as a sum over pairs, which may be put in any order. *)
Definition pairs_dot (l : list (Z * Z)) : Z := zsum (map (fun p => fst p * snd p) l).
Lemma dot_pairs : forall a s, dot a s = pairs_dot (combine a s).
Proof. unfold pairs_dot. induction a as [|x a IH]; intros [|y s]; cbn [combine map dot]; try reflexivity. rewrite zsum_cons, IH. reflexivity. Qed.
Lemma pairs_dot_split l : pairs_dot l = dot (map fst l) (map snd l).
Proof. unfold pairs_dot. induction l as [|[x y] l IH]; cbn [map dot fst snd]; [reflexivity|]. rewrite zsum_cons, IH. reflexivity. Qed.
Lemma pairs_dot_perm l l' : Permutation l l' -> pairs_dot l = pairs_dot l'.
Proof. intros H. apply zsum_perm, Permutation_map. exact H. Qed.
(** The least a sum of products can be: values no smaller than [a], weights [s], however they are paired. *)
Lemma pairs_bound l a s : dom a (map fst l) -> Permutation (map snd l) s -> StronglySorted Z.ge s -> Forall (Z.le 0) s -> dot (zsort a) s <= pairs_dot l.
Proof.
  intros Hd Hp Hs H0. destruct (Permutation_map_inv snd l (Permutation_sym Hp)) as (l' & E & Hl).
  rewrite (pairs_dot_perm _ _ Hl), pairs_dot_split, <- E. apply dot_dom; auto.
  - apply (dom_perm a a (map fst l)); [reflexivity|apply Permutation_map; exact Hl|exact Hd].
  - rewrite E, !map_length. reflexivity.
Qed.

(** *** Smith's rule *)

(** Each pair is a length and a cut: every cut pays for the lengths that come before it. *)
Fixpoint crossed (l : list (Z * Z)) : Z := match l with [] => 0 | (x, _) :: t => x * zsum (map snd t) + crossed t end.
Definition ratio_before (a b : Z * Z) : Prop := 0 < fst a /\ 0 < fst b /\ snd b * fst a <= snd a * fst b.
Lemma ratio_before_trans a b c : ratio_before a b -> ratio_before b c -> ratio_before a c.
Proof.
  destruct a as [la ca], b as [lb cb], c as [lc cc]. unfold ratio_before. cbn. intros (H1 & H2 & H3) (_ & H4 & H5). split; [exact H1|]. split; [exact H4|].
  assert (lb * (cc * la) <= lb * (ca * lc)) by nia. nia.
Qed.
Lemma crossed_move x : forall l1 l2, Forall (fun y => ratio_before x y) l1 -> crossed (x :: l1 ++ l2) <= crossed (l1 ++ x :: l2).
Proof.
  induction l1 as [|y l1 IH]; intros l2 H; cbn [app]; [lia|]. inversion H as [|? ? Hy H']; subst. specialize (IH l2 H').
  destruct x as [lx cx], y as [ly cy]. destruct Hy as (H1 & H2 & H3). cbn [fst snd] in *.
  cbn [crossed map snd]. cbn [crossed map snd] in IH. rewrite !map_app in *. cbn [map snd]. rewrite !zsum_cons, !zsum_app, !zsum_cons in *. nia.
Qed.
Theorem smith l l' : Permutation l l' -> StronglySorted ratio_before l -> crossed l <= crossed l'.
Proof.
  intros Hp Hs. revert l' Hp. induction Hs as [|x l Hs IH HF]; intros l' Hp; [apply Permutation_nil in Hp; subst; reflexivity|].
  assert (In x l') as Hx by (apply (Permutation_in _ Hp); left; reflexivity). apply in_split in Hx. destruct Hx as (l1 & l2 & ->).
  apply Permutation_cons_app_inv in Hp. etransitivity; [|apply crossed_move].
  - destruct x as [lx cx]. cbn [crossed]. specialize (IH _ Hp). rewrite (zsum_perm _ _ (Permutation_map snd Hp)). lia.
  - rewrite Forall_forall in *. intros y Hy. apply HF. apply (Permutation_in _ (Permutation_sym Hp)). apply in_or_app. auto.
Qed.
(** The same sum, from the side of the cuts. *)
Lemma crossed_prefix : forall l a b, fst (fold_left (fun acc r => let '(bound, cumul) := acc in let '(len, c) := r in (bound + cumul * c, cumul + len)) l (a, b)) = a + b * zsum (map snd l) + crossed l.
Proof.
  induction l as [|[x c] l IH]; intros a b; cbn [fold_left map crossed]; [cbn; lia|]. rewrite IH. cbn [snd]. rewrite zsum_cons. lia.
Qed.
