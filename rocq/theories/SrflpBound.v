(** The estimate of the SRFLP example: what it computes, and that no completion does better. *)
From Verif Require Import Spec Srflp SrflpSpec Bits BitsFacts MatrixFacts PspFacts SrflpFacts SrflpLayouts SrflpMerge SrflpSort SrflpOrder SrflpFloat SrflpEstimate.
From Coq Require Import Lia Sorted Permutation.
Open Scope Z_scope.

Lemma perm_filter {A} (f : A -> bool) l l' : Permutation l l' -> Permutation (filter f l) (filter f l').
Proof.
  intros H. induction H as [|x l l' H IH|x y l|l l' l'' _ IH1 _ IH2]; cbn [filter]; [constructor| | |etransitivity; eassumption].
  - destruct (f x); [constructor|]; exact IH.
  - destruct (f x), (f y); try reflexivity. apply perm_swap.
Qed.
Lemma sorted_rev l : StronglySorted Z.le l -> StronglySorted Z.ge (rev l).
Proof.
  intros H. induction H as [|x l H IH HF]; cbn [rev]; [constructor|].
  assert (forall a, StronglySorted Z.ge a -> Forall (fun y => y >= x) a -> StronglySorted Z.ge (a ++ [x])) as Hs.
  { induction a as [|y a IHa]; intros Ha Hf; cbn [app]; [repeat constructor|]. inversion Ha; inversion Hf; subst. constructor; [apply IHa; assumption|]. apply Forall_app. split; [assumption|repeat constructor; assumption]. }
  apply Hs; [exact IH|]. apply Forall_forall. intros y Hy. apply in_rev in Hy. rewrite Forall_forall in HF. specialize (HF y Hy). lia.
Qed.
Lemma sorted_app {A} (R : A -> A -> Prop) a b : StronglySorted R a -> StronglySorted R b -> (forall x y, In x a -> In y b -> R x y) -> StronglySorted R (a ++ b).
Proof.
  intros Ha Hb H. induction Ha as [|x a Ha IH HF]; cbn [app]; [exact Hb|]. constructor; [apply IH; intros u v Hu Hv; apply H; [right; exact Hu|exact Hv]|].
  apply Forall_app. split; [exact HF|]. apply Forall_forall. intros y Hy. apply H; [left; reflexivity|exact Hy].
Qed.
Lemma prefix_mono lens : Forall (Z.le 0) lens -> forall i j, (i <= j)%nat -> prefix_sum lens i <= prefix_sum lens j.
Proof.
  intros H. unfold prefix_sum. induction H as [|x lens Hx H IH]; intros i j Hij; [rewrite !firstn_nil; lia|].
  destruct i as [|i], j as [|j]; try lia; cbn [firstn]; rewrite ?zsum_cons.
  - specialize (IH 0%nat j ltac:(lia)). cbn [firstn] in IH. change (zsum []) with 0 in *. lia.
  - specialize (IH i j ltac:(lia)). lia.
Qed.
Lemma prefix_nonneg lens i : Forall (Z.le 0) lens -> 0 <= prefix_sum lens i.
Proof. intros H. apply (prefix_mono lens H 0 i). lia. Qed.
Lemma blocks_sorted (f : nat -> Z) (c : nat -> nat) : (forall i j, (i <= j)%nat -> f i <= f j) -> forall q a, StronglySorted Z.le (flat_map (fun i => repeat (f i) (c i)) (seq a q)).
Proof.
  intros Hf. induction q as [|q IH]; intros a; cbn [seq flat_map]; [constructor|]. apply sorted_app; [|apply IH|].
  - induction (c a) as [|m IHm]; cbn [repeat]; constructor; [exact IHm|]. apply Forall_forall. intros y Hy. apply repeat_spec in Hy. lia.
  - intros x y Hx Hy. apply repeat_spec in Hx. subst x. apply in_flat_map in Hy. destruct Hy as (i & Hi & Hy). apply repeat_spec in Hy. subst y. apply in_seq in Hi. apply Hf. lia.
Qed.

(** *** Lengths and flows *)
Section Pick.
Variable s : sr_state.
Definition cls1 (x : Z * nat) : nat := if must s (snd x) then 0%nat else if maybe s (snd x) then 1%nat else 3%nat.
Definition cls2 (p : nat * nat) : nat :=
  let '(i, j) := p in
  if must s i && must s j then 0%nat
  else if (must s i && maybe s j) || (maybe s i && must s j) then 1%nat
  else if maybe s i && maybe s j then 2%nat else 3%nat.
Definition key3 (x : Z * nat * nat) : Z := fst (fst x).
Definition clsf (x : Z * nat * nat) : nat := cls2 (snd (fst x), snd x).
Hypothesis Hdis : forall i, must s i = true -> maybe s i = true -> False.

Lemma picked_done {A} (cls : A -> nat) (l : list A) : of_class cls 0 l = [] -> picked cls 0 0 l = [].
Proof. intros H. apply Permutation_nil. symmetry. rewrite picked_perm, H. reflexivity. Qed.

Lemma est_lengths_spec : forall l lens may r complete, complete = Z.of_nat (length lens + quota cls1 r 0 l) -> (r <= length (of_class cls1 1 l))%nat ->
  est_lengths s complete l lens may (Z.of_nat r) = (lens ++ map fst (picked cls1 r 0 l), may ++ map fst (firstn r (of_class cls1 1 l))).
Proof.
  induction l as [|[x i] l IH]; intros lens may r complete Hc Hr; cbn [est_lengths picked].
  - cbn [of_class filter length] in Hr. assert (r = 0%nat) as -> by lia. cbn. rewrite !app_nil_r. reflexivity.
  - assert (forall lens' may' r', (r' <= length (of_class cls1 1 l))%nat -> complete = Z.of_nat (length lens' + quota cls1 r' 0 l) ->
      (if Z.of_nat (length lens') =? complete then (lens', may') else est_lengths s complete l lens' may' (Z.of_nat r')) =
      (lens' ++ map fst (picked cls1 r' 0 l), may' ++ map fst (firstn r' (of_class cls1 1 l)))) as Hstep.
    { intros lens' may' r' Hr' Hc'. destruct (Z.eqb_spec (Z.of_nat (length lens')) complete) as [E|E]; [|apply IH; assumption].
      unfold quota in Hc'. assert (r' = 0%nat /\ length (of_class cls1 0 l) = 0%nat) as [-> El] by lia. apply length_zero_iff_nil in El. rewrite (picked_done cls1 l El). cbn. rewrite !app_nil_r. reflexivity. }
    unfold quota, of_class in Hc, Hr |- *. cbn [filter] in *.
    assert (cls1 (x, i) = if must s i then 0%nat else if maybe s i then 1%nat else 3%nat) as Ec by reflexivity. rewrite Ec in *. clear Ec. fold (must s i).
    destruct (must s i) eqn:Em; cbn [Nat.eqb length] in *.
    + rewrite Hstep; [|exact Hr|rewrite app_length; unfold quota, of_class; cbn [length]; lia]. cbn [map fst]. rewrite <- app_assoc. reflexivity.
    + assert ((match sr_maybe s with Some m => if bs_get m i && (0 <? Z.of_nat r) then (lens ++ [x], may ++ [x], Z.of_nat r - 1) else (lens, may, Z.of_nat r) | None => (lens, may, Z.of_nat r) end) =
        if maybe s i && (0 <? Z.of_nat r) then (lens ++ [x], may ++ [x], Z.of_nat r - 1) else (lens, may, Z.of_nat r)) as -> by (unfold maybe; destruct (sr_maybe s); reflexivity).
      destruct (maybe s i) eqn:Ey; cbn [andb Nat.eqb length] in *.
      * destruct r as [|r]; cbn [Z.of_nat Z.ltb Z.compare] in *.
        -- apply (Hstep lens may 0%nat); [lia|unfold quota, of_class; lia].
        -- change (0 <? Z.pos (Pos.of_succ_nat r)) with true. cbn iota. replace (Z.pos (Pos.of_succ_nat r) - 1) with (Z.of_nat r) by lia.
           rewrite Hstep; [|unfold of_class; lia|rewrite app_length; unfold quota, of_class; cbn [length]; lia]. cbn [map fst firstn]. rewrite <- !app_assoc. reflexivity.
      * apply Hstep; [exact Hr|unfold quota, of_class; lia].
Qed.

Lemma est_flows_spec : forall l flows a b nf, nf = Z.of_nat (length flows + quota clsf a b l) -> (a <= length (of_class clsf 1 l))%nat -> (b <= length (of_class clsf 2 l))%nat ->
  est_flows s nf l flows (Z.of_nat a) (Z.of_nat b) = flows ++ map key3 (picked clsf a b l).
Proof.
  induction l as [|[[f i] j] l IH]; intros flows a b nf Hc Ha Hb; cbn [est_flows picked].
  - cbn. rewrite app_nil_r. reflexivity.
  - assert (forall flows' a' b', (a' <= length (of_class clsf 1 l))%nat -> (b' <= length (of_class clsf 2 l))%nat -> nf = Z.of_nat (length flows' + quota clsf a' b' l) ->
      (if Z.of_nat (length flows') =? nf then flows' else est_flows s nf l flows' (Z.of_nat a') (Z.of_nat b')) = flows' ++ map key3 (picked clsf a' b' l)) as Hstep.
    { intros flows' a' b' Ha' Hb' Hc'. destruct (Z.eqb_spec (Z.of_nat (length flows')) nf) as [E|E]; [|apply IH; assumption].
      unfold quota in Hc'. assert (a' = 0%nat /\ b' = 0%nat /\ length (of_class clsf 0 l) = 0%nat) as (-> & -> & El) by lia. apply length_zero_iff_nil in El. rewrite (picked_done clsf l El). cbn. rewrite app_nil_r. reflexivity. }
    fold (must s i). fold (must s j).
    assert ((match sr_maybe s with
             | Some m =>
                 if must s i && bs_get m j && (0 <? Z.of_nat a) then (flows ++ [f], Z.of_nat a - 1, Z.of_nat b)
                 else if bs_get m i && must s j && (0 <? Z.of_nat a) then (flows ++ [f], Z.of_nat a - 1, Z.of_nat b)
                 else if bs_get m i && bs_get m j && (0 <? Z.of_nat b) then (flows ++ [f], Z.of_nat a, Z.of_nat b - 1)
                 else (flows, Z.of_nat a, Z.of_nat b)
             | None => (flows, Z.of_nat a, Z.of_nat b)
             end) =
      if ((must s i && maybe s j) || (maybe s i && must s j)) && (0 <? Z.of_nat a) then (flows ++ [f], Z.of_nat a - 1, Z.of_nat b)
      else if maybe s i && maybe s j && (0 <? Z.of_nat b) then (flows ++ [f], Z.of_nat a, Z.of_nat b - 1)
      else (flows, Z.of_nat a, Z.of_nat b)) as ->.
    { unfold maybe. destruct (sr_maybe s) as [m|]; [|rewrite !andb_false_r; reflexivity].
      destruct (must s i), (must s j), (bs_get m i), (bs_get m j), (0 <? Z.of_nat a), (0 <? Z.of_nat b); reflexivity. }
    unfold quota, of_class in Hc, Ha, Hb |- *. cbn [filter] in *.
    assert (clsf (f, i, j) = if must s i && must s j then 0%nat else if (must s i && maybe s j) || (maybe s i && must s j) then 1%nat else if maybe s i && maybe s j then 2%nat else 3%nat) as Ec by reflexivity. rewrite Ec in *. clear Ec.
    pose proof (Hdis i) as Hi. pose proof (Hdis j) as Hj.
    destruct (must s i && must s j) eqn:E0; cbn [Nat.eqb length] in *.
    + rewrite Hstep; [|exact Ha|exact Hb|rewrite app_length; unfold quota, of_class; cbn [length]; lia]. cbn [map]. rewrite <- app_assoc. reflexivity.
    + destruct ((must s i && maybe s j) || (maybe s i && must s j)) eqn:E1; cbn [andb Nat.eqb length] in *.
      * assert (maybe s i && maybe s j = false) as E2.
        { destruct (maybe s i), (maybe s j); try reflexivity. rewrite !andb_true_r in E1. exfalso. destruct (must s i), (must s j); try discriminate; auto. }
        rewrite E2. cbn [andb]. destruct a as [|a]; cbn [Z.of_nat].
        -- change (0 <? 0) with false. cbn iota. apply (Hstep flows 0%nat b); [lia|exact Hb|unfold quota, of_class; lia].
        -- change (0 <? Z.pos (Pos.of_succ_nat a)) with true. cbn iota. replace (Z.pos (Pos.of_succ_nat a) - 1) with (Z.of_nat a) by lia.
           rewrite Hstep; [|unfold of_class; lia|exact Hb|rewrite app_length; unfold quota, of_class; cbn [length]; lia]. cbn [map]. rewrite <- app_assoc. reflexivity.
      * destruct (maybe s i && maybe s j) eqn:E2; cbn [andb Nat.eqb length] in *.
        -- destruct b as [|b]; cbn [Z.of_nat].
           ++ change (0 <? 0) with false. cbn iota. apply (Hstep flows a 0%nat); [exact Ha|lia|unfold quota, of_class; lia].
           ++ change (0 <? Z.pos (Pos.of_succ_nat b)) with true. cbn iota. replace (Z.pos (Pos.of_succ_nat b) - 1) with (Z.of_nat b) by lia.
              rewrite Hstep; [|exact Ha|unfold of_class; lia|rewrite app_length; unfold quota, of_class; cbn [length]; lia]. cbn [map]. rewrite <- app_assoc. reflexivity.
        -- apply Hstep; [exact Ha|exact Hb|unfold quota, of_class; lia].
Qed.
Lemma cls2_sym i j : cls2 (i, j) = cls2 (j, i).
Proof. unfold cls2. destruct (must s i), (must s j), (maybe s i), (maybe s j); reflexivity. Qed.
End Pick.

(** *** The two loops *)
Lemma inner_loop debug (flows : list Z) cumul : forall q a bound idx, (idx + q <= length flows)%nat ->
  ofold (fun acc (_ : nat) => let '(bound, idx) := acc in
     do j <- usub debug (Z.of_nat (length flows)) 1; do j <- usub debug j idx;
     do f <- vget flows j;
     Some (bound + cumul * f, idx + 1)) (seq a q) (bound, Z.of_nat idx)
  = Some (bound + dot (skipn idx (rev flows)) (repeat cumul q), Z.of_nat (idx + q)).
Proof.
  match goal with |- forall q a bound idx, _ -> ofold ?g _ _ = _ => set (body := g) end.
  assert (forall bound idx x, (idx < length flows)%nat -> body (bound, Z.of_nat idx) x = Some (bound + cumul * nth idx (rev flows) 0, Z.of_nat (S idx))) as Hbody.
  { intros bound idx x H. unfold body. rewrite usub_some by lia. cbn [obind]. rewrite usub_some by lia. cbn [obind]. unfold vget. rewrite (proj2 (Z.ltb_lt _ _)) by lia.
    replace (Z.to_nat (Z.of_nat (length flows) - 1 - Z.of_nat idx)) with (length flows - S idx)%nat by lia.
    rewrite (nth_error_nth' flows 0) by lia. cbn [obind]. replace (Z.of_nat idx + 1) with (Z.of_nat (S idx)) by lia. rewrite rev_nth by lia. reflexivity. }
  induction q as [|q IH]; intros a bound idx H; cbn [seq ofold].
  - rewrite dot_nil_r, Z.add_0_r, Nat.add_0_r. reflexivity.
  - rewrite Hbody by lia. cbn [obind]. rewrite IH by lia. f_equal. f_equal; [|f_equal; lia].
    assert (forall (l : list Z) i, (i < length l)%nat -> skipn i l = nth i l 0 :: skipn (S i) l) as Hsk.
    { clear. induction l as [|x l IH]; intros [|i] Hi; cbn [length] in Hi; try lia; [reflexivity|]. cbn [skipn nth]. apply IH. lia. }
    rewrite (Hsk (rev flows) idx) by (rewrite rev_length; lia). cbn [repeat dot]. lia.
Qed.
Lemma dot_skip : forall (v w1 w2 : list Z), (length w1 <= length v)%nat -> dot v (w1 ++ w2) = dot v w1 + dot (skipn (length w1) v) w2.
Proof. intros v w1. revert v. induction w1 as [|x w1 IH]; intros v w2 H; cbn [app length skipn]; [rewrite dot_nil_r; lia|]. destruct v as [|y v]; cbn [length] in H; [lia|]. cbn [dot]. rewrite IH by lia. lia. Qed.
Lemma skipn_skipn {A} (l : list A) : forall a b, skipn a (skipn b l) = skipn (b + a) l.
Proof. intros a b. revert l. induction b as [|b IH]; intros l; [reflexivity|]. destruct l as [|x l]; [rewrite !skipn_nil; reflexivity|]. cbn [skipn plus]. apply IH. Qed.
Lemma outer_loop debug (flows lens : list Z) m : forall q a bound idx,
  (idx + length (flat_map (fun i => repeat (prefix_sum lens i) (m - S i)) (seq a q)) <= length flows)%nat -> (a + q <= length lens)%nat ->
  exists idx' cumul', ofold (fun acc i => let '(bound, idx, cumul) := acc in
        do ' (bound, idx) <- ofold (fun acc (_ : nat) => let '(bound, idx) := acc in
              do j <- usub debug (Z.of_nat (length flows)) 1; do j <- usub debug j idx;
              do f <- vget flows j;
              Some (bound + cumul * f, idx + 1)) (seq 0 (Z.to_nat (Z.of_nat m - (Z.of_nat i + 1)))) (bound, idx);
        do l <- nth_error lens i;
        Some (bound, idx, cumul + l)) (seq a q) (bound, Z.of_nat idx, prefix_sum lens a)
  = Some (bound + dot (skipn idx (rev flows)) (flat_map (fun i => repeat (prefix_sum lens i) (m - S i)) (seq a q)), idx', cumul').
Proof.
  induction q as [|q IH]; intros a bound idx Hi Ha; cbn [seq flat_map] in *.
  - do 2 eexists. cbn [ofold]. rewrite dot_nil_r, Z.add_0_r. reflexivity.
  - cbn [ofold]. replace (Z.to_nat (Z.of_nat m - (Z.of_nat a + 1))) with (m - S a)%nat by lia. rewrite app_length, repeat_length in Hi.
    rewrite inner_loop by lia. cbn [obind]. rewrite (nth_error_nth' lens 0) by lia. cbn [obind].
    replace (prefix_sum lens a + nth a lens 0) with (prefix_sum lens (S a)).
    + destruct (IH (S a) (bound + dot (skipn idx (rev flows)) (repeat (prefix_sum lens a) (m - S a))) (idx + (m - S a))%nat ltac:(lia) ltac:(lia)) as (idx' & cumul' & H).
      exists idx', cumul'. rewrite H. f_equal. f_equal. f_equal. rewrite dot_skip by (rewrite repeat_length, skipn_length, rev_length; lia). rewrite repeat_length, skipn_skipn. lia.
    + unfold prefix_sum. clear - Ha. revert a Ha. induction lens as [|x lens IHl]; intros [|a] Ha; cbn [length] in Ha; try lia.
      * cbn [firstn nth]. rewrite zsum_cons. cbn. lia.
      * specialize (IHl a ltac:(lia)). cbn [firstn nth] in *. rewrite !zsum_cons. lia.
Qed.
Lemma edge_spec debug m flows lens : (1 <= m)%nat -> length lens = m -> length flows = length (cols (prefix_sum lens) m) ->
  edge_bound debug (Z.of_nat m) (Z.of_nat (length flows)) lens flows = Some (dot (rev flows) (cols (prefix_sum lens) m)).
Proof.
  intros Hm Hl Hf. unfold edge_bound. rewrite (proj2 (Z.eqb_neq _ _)) by lia. replace (Z.to_nat (Z.of_nat m - 1)) with (m - 1)%nat by lia.
  destruct (outer_loop debug flows lens m (m - 1) 0 0 0) as (idx & cumul & H); [unfold cols in Hf; lia|lia|].
  change (Z.of_nat 0) with 0 in H. change (prefix_sum lens 0) with 0 in H. rewrite H. reflexivity.
Qed.

(** *** Ratios *)
Definition plain (r : ratio) : Z * Z := (snd (fst r), snd r).
Lemma cut_bound_spec l : cut_bound l = crossed (map plain l).
Proof.
  unfold cut_bound. rewrite <- (Z.add_0_l (crossed (map plain l))). replace 0 with (0 + 0 * zsum (map snd (map plain l))) at 3 by lia. rewrite <- crossed_prefix. f_equal.
  generalize (0, 0) as acc. induction l as [|[[x y] z] l IH]; intros [a b]; [reflexivity|]. cbn [map fold_left plain fst snd]. apply IH.
Qed.
Section Ratios.
Variables CM LM : Z.      (* bounds on the cuts and on the lengths *)
Hypothesis Hprod : CM * LM < 2 ^ 23.
Hypothesis HC : 1 <= CM.
Hypothesis HL : 1 <= LM.
Definition fine (r : ratio) : Prop := exists l c, r = mk_ratio l c /\ 1 <= l <= LM /\ 0 <= c <= CM.
Lemma fine_order l c l' c' : 1 <= l <= LM -> 0 <= c <= CM -> 1 <= l' <= LM -> 0 <= c' <= CM -> c * l' < c' * l ->
  f32_cmp (f32_div (f32_of c) (f32_of l)) (f32_div (f32_of c') (f32_of l')) = Lt /\ f32_cmp (f32_div (f32_of c') (f32_of l')) (f32_div (f32_of c) (f32_of l)) = Gt.
Proof.
  intros H1 H2 H3 H4 Hlt. assert (2 ^ 24 = 2 * 2 ^ 23) by reflexivity. assert (CM < 2 ^ 23) by nia. assert (LM < 2 ^ 23) by nia.
  apply f32_order; try lia; try nia.
Qed.
Lemma ratio_sorted l : Forall fine l -> StronglySorted ratio_before (map plain (insert_sort ratio_geb l)).
Proof.
  intros H. apply (sorted_map (fun a b => ratio_before (plain a) (plain b))); [auto|]. apply (insert_sort_sorted _ fine); [| | |exact H].
  - intros x y (l1 & c1 & -> & Hl1 & Hc1) (l2 & c2 & -> & Hl2 & Hc2) E. unfold ratio_before, plain, mk_ratio. cbn [fst snd]. split; [lia|]. split; [lia|].
    enough (~ c1 * l2 < c2 * l1) by lia. intros Hlt. destruct (fine_order l1 c1 l2 c2 Hl1 Hc1 Hl2 Hc2 Hlt) as [E1 _].
    unfold ratio_geb, ratio_cmp, mk_ratio in E. rewrite E1 in E. discriminate.
  - intros x y (l1 & c1 & -> & Hl1 & Hc1) (l2 & c2 & -> & Hl2 & Hc2) E. unfold ratio_before, plain, mk_ratio. cbn [fst snd]. split; [lia|]. split; [lia|].
    enough (~ c2 * l1 < c1 * l2) by lia. intros Hlt. destruct (fine_order l2 c2 l1 c1 Hl2 Hc2 Hl1 Hc1 Hlt) as [_ E1].
    unfold ratio_geb, ratio_cmp, mk_ratio in E. rewrite E1 in E. discriminate.
  - intros x y z _ _ _. apply ratio_before_trans.
Qed.
End Ratios.
