(** The estimate of the SRFLP example: it does not panic in a release build, and no completion does better than it says. *)
From Verif Require Import Spec Srflp SrflpSpec Bits BitsFacts MatrixFacts PspFacts SrflpFacts SrflpLayouts SrflpMerge SrflpSort SrflpOrder SrflpFloat SrflpEstimate SrflpBound.
From Coq Require Import Lia Sorted Permutation.
Open Scope Z_scope.

Section Admissible.
Variable I : sr_inst.
Variables F L : Z.
Hypothesis Hok : sr_ok I F L.
Let n := sr_n I.
Notation layer := (sr_layer I F).
Notation len := (len I).
Notation flow := (flow I).
Notation mustl := (mustl I).
Notation maybel := (maybel I).

Lemma must_iter s : bs_iter n (sr_must s) = mustl s.
Proof. apply mustl_eq. Qed.

(** *** Completions as orders *)
Record chosen (k : nat) (s : sr_state) (l : list nat) : Prop := {
  cs_nodup : NoDup l;
  cs_free : forall j, In j l -> free s j = true;
  cs_must : forall j, must s j = true -> In j l;
  cs_length : length l = (n - k)%nat }.

Lemma chosen_mu k s l mb : layer k s -> chosen k s l -> (forall j, free s j = true -> mb j = maybe s j) -> Permutation (mu mb l) (mustl s).
Proof.
  intros Hs Hl Hmb. apply NoDup_Permutation; [apply NoDup_filter; apply (cs_nodup _ _ _ Hl)|apply mustl_nodup|]. intros j. unfold mu. rewrite filter_In, (in_mustl I F k s j Hs), negb_true_iff. split.
  - intros [Hj Hn]. pose proof (cs_free _ _ _ Hl j Hj) as Hf. rewrite (Hmb j Hf) in Hn. unfold free in Hf. rewrite Hn, orb_false_r in Hf. exact Hf.
  - intros Hm. split; [apply (cs_must _ _ _ Hl); exact Hm|]. rewrite Hmb by (unfold free; rewrite Hm; reflexivity). destruct (maybe s j) eqn:E; [|reflexivity]. exfalso. apply (sl_disjoint _ _ _ _ Hs j Hm E).
Qed.
Lemma mu_my_length mb l : (length (mu mb l) + length (my mb l) = length l)%nat.
Proof. unfold mu, my. induction l as [|x l IH]; [reflexivity|]. cbn [filter length]. destruct (mb x); cbn [negb length]; lia. Qed.
Lemma mu_my_perm mb l : Permutation l (mu mb l ++ my mb l).
Proof. unfold mu, my. induction l as [|x l IH]; [reflexivity|]. cbn [filter]. destruct (mb x); cbn [negb app]; [rewrite IH at 1; apply Permutation_middle|constructor; exact IH]. Qed.

Lemma completion_order debug mb : forall q k s ds c, (k + q = n)%nat -> layer k s -> (forall j, free s j = true -> mb j = maybe s j) ->
  completion sr_state (sr_problem debug I) sr_nv k s ds c -> exists l, chosen k s l /\ c = - relaxed len flow mb (cut s) (maybel s) l.
Proof.
  induction q as [|q IH]; intros k s ds c Hk Hs Hmb H.
  - assert (k = n) as -> by lia. apply completion_end in H. destruct H as [_ ->]. exists []. split; [|reflexivity]. constructor; [constructor|intros j []| |cbn; lia].
    intros j Hj. pose proof (sl_must _ _ _ _ Hs) as Hm. rewrite size_must in Hm. fold n in Hm. apply (in_mustl I F n s j Hs) in Hj. destruct (mustl s); [exact Hj|cbn in Hm; lia].
  - apply (completion_step debug I F L Hok k s ds c Hs ltac:(fold n; lia)) in H. destruct H as (i & ds' & c1 & Hi & H & _ & ->).
    pose proof (next_placed debug I F L Hok k s i Hs Hi) as Hp. pose proof (next_layer debug I F L Hok k s i Hs ltac:(fold n; lia) Hi) as Hn. set (s' := next debug I k s i) in *.
    assert (forall j, free s' j = true -> free s j = true /\ j <> i) as Hfr.
    { intros j Hj. rewrite (placed_free I s i s' j Hp) in Hj. apply andb_prop in Hj. destruct Hj as [Hj1 Hj2]. apply negb_true_iff, Nat.eqb_neq in Hj1. auto. }
    assert (forall j, free s' j = true -> mb j = maybe s' j) as Hmb'.
    { intros j Hj. rewrite (pd_maybe _ _ _ _ Hp). destruct (Hfr j Hj) as [Hf Hji]. rewrite (proj2 (Nat.eqb_neq _ _) Hji). apply Hmb. exact Hf. }
    destruct (IH (S k) s' ds' c1 ltac:(lia) Hn Hmb' H) as (t & Ht & ->). exists (i :: t). split.
    + constructor.
      * constructor; [intros Hin; apply (cs_free _ _ _ Ht) in Hin; apply Hfr in Hin; tauto|apply (cs_nodup _ _ _ Ht)].
      * intros j [<-|Hj]; [apply (placeable_free I k s i Hi)|]. apply Hfr. apply (cs_free _ _ _ Ht). exact Hj.
      * intros j Hj. destruct (Nat.eq_dec i j) as [->|Hne]; [left; reflexivity|right]. apply (cs_must _ _ _ Ht). rewrite (pd_must _ _ _ _ Hp), Hj, (proj2 (Nat.eqb_neq j i)) by congruence. reflexivity.
      * cbn [length]. rewrite (cs_length _ _ _ Ht). lia.
    + cbn [relaxed]. pose proof (chosen_mu (S k) s' t mb Hn Ht Hmb') as Hmu. rewrite (placed_mustl I s i s' Hp) in Hmu.
      unfold crossing. pose proof (mu_my_length mb t) as Hl. rewrite (cs_length _ _ _ Ht), (Permutation_length Hmu) in Hl. fold n.
      replace (n - S k - length (wo i (mustl s)))%nat with (length (my mb t)) by lia. rewrite <- (zsum_map_perm (cut s) _ _ Hmu).
      rewrite (placed_maybel I s i s' Hp).
      rewrite (relaxed_ext len flow mb t (cut s') (fun j => cut s j + flow i j) (wo i (maybel s))); [lia|].
      intros j Hj. apply (pd_cut _ _ _ _ Hp). destruct Hj as [Hj|Hj]; [apply (cs_free _ _ _ Ht); exact Hj|].
      apply in_wo in Hj. destruct Hj as [Hj Hne]. apply (in_maybel I F k s j Hs) in Hj. rewrite (placed_free I s i s' j Hp), (proj2 (Nat.eqb_neq _ _) Hne). unfold free. rewrite Hj. apply orb_true_r.
Qed.

Lemma n_small : Z.of_nat n * Z.of_nat n < 2 ^ 63.
Proof.
  pose proof (so_range _ _ _ Hok) as Hr. fold n in Hr. pose proof (so_n _ _ _ Hok) as Hn. fold n in Hn. pose proof (so_F _ _ _ Hok) as HF. pose proof (so_L _ _ _ Hok) as HL.
  set (N := Z.of_nat n) in *. assert (1 <= N) by (unfold N; lia). assert (1 <= F * L) by nia. assert (N * N <= N * N * F * L). { replace (N * N * F * L) with (N * N * (F * L)) by ring. nia. }
  unfold IMAX in Hr. assert (0 <= N * N * F * L) by nia. nia.
Qed.

Section State.
Variable debug : bool.
Variable k : nat.
Variable s : sr_state.
Hypothesis Hs : layer k s.
Hypothesis Hk : (k < n)%nat.
Let m := (n - k)%nat.
Let a := length (mustl s).
Let q := (m - a)%nat.
Hypothesis Hd : debug = false \/ (1 <= q)%nat.

Lemma must_fit : (a <= m)%nat.
Proof. pose proof (sl_must _ _ _ _ Hs) as H. rewrite size_must in H. exact H. Qed.
Lemma maybe_fit : (q <= length (maybel s))%nat.
Proof. pose proof (sl_free _ _ _ _ Hs) as H. rewrite (size_free I F k s Hs) in H. fold n a in H. unfold q, m. lia. Qed.
Lemma mustl_lt j : In j (mustl s) -> (j < n)%nat.
Proof. intros H. apply filter_In in H. destruct H as [H _]. apply in_seq in H. lia. Qed.
Lemma maybel_lt j : In j (maybel s) -> (j < n)%nat.
Proof. intros H. apply filter_In in H. destruct H as [H _]. apply in_seq in H. lia. Qed.
Lemma must_not_maybe j : must s j = true -> maybe s j = true -> False.
Proof. apply (sl_disjoint _ _ _ _ Hs). Qed.

(** Lengths. *)
Definition trip1 (i : nat) : Z * nat := (len i, i).
Lemma lengths_perm : Permutation (sorted_lengths I) (map trip1 (seq 0 n)).
Proof.
  unfold sorted_lengths. rewrite <- insert_sort_perm. pose proof (so_len _ _ _ Hok) as Hl. fold n in Hl. rewrite Hl.
  assert (combine (sr_len I) (seq 0 n) = map trip1 (seq 0 n)) as ->; [|reflexivity].
  unfold trip1, SrflpSpec.len. clear - Hl. revert Hl. generalize (sr_len I) as l. generalize n as p. intros p l Hl.
  assert (forall b l0, combine l0 (seq b (length l0)) = map (fun i => (nth (i - b) l0 0, i)) (seq b (length l0))) as H.
  { intros b l0. revert b. induction l0 as [|x l0 IH]; intros b; [reflexivity|]. cbn [length seq combine map]. rewrite Nat.sub_diag. cbn [nth]. f_equal. rewrite IH. apply map_ext_in. intros i Hi. apply in_seq in Hi.
    replace (i - b)%nat with (S (i - S b)) by lia. reflexivity. }
  rewrite <- Hl, H. apply map_ext. intros i. rewrite Nat.sub_0_r. reflexivity.
Qed.
Lemma lengths_sorted : StronglySorted (fun x y => fst x <= fst y) (sorted_lengths I).
Proof.
  unfold sorted_lengths. apply (insert_sort_sorted _ (fun _ => True)).
  - intros [x i] [y j] _ _. unfold lex2_leb. cbn [fst snd]. intros H. apply orb_prop in H. destruct H as [H|H]; [apply Z.ltb_lt in H; lia|]. apply andb_prop in H. destruct H as [H _]. apply Z.eqb_eq in H. lia.
  - intros [x i] [y j] _ _. unfold lex2_leb. cbn [fst snd]. intros H. apply orb_false_iff in H. destruct H as [H _]. apply Z.ltb_ge in H. lia.
  - intros x y z _ _ _. lia.
  - apply Forall_forall. intros; exact Logic.I.
Qed.
Lemma class1 c : Permutation (of_class (cls1 s) c (sorted_lengths I)) (map trip1 (filter (fun i => Nat.eqb (cls1 s (trip1 i)) c) (seq 0 n))).
Proof.
  unfold of_class. rewrite (perm_filter _ _ _ lengths_perm). generalize (seq 0 n) as l. induction l as [|i l IH]; [reflexivity|]. cbn [map filter]. destruct (Nat.eqb (cls1 s (trip1 i)) c); cbn [map]; rewrite IH; reflexivity.
Qed.
Lemma class1_must : Permutation (of_class (cls1 s) 0 (sorted_lengths I)) (map trip1 (mustl s)).
Proof.
  rewrite class1. unfold SrflpFacts.mustl. fold n. erewrite filter_ext; [reflexivity|]. intros i. unfold cls1, trip1. cbn [snd]. destruct (must s i); [reflexivity|]. destruct (maybe s i); reflexivity.
Qed.
Lemma class1_maybe : Permutation (of_class (cls1 s) 1 (sorted_lengths I)) (map trip1 (maybel s)).
Proof.
  rewrite class1. unfold SrflpFacts.maybel. fold n. erewrite filter_ext; [reflexivity|]. intros i. unfold cls1, trip1. cbn [snd]. pose proof (must_not_maybe i). destruct (must s i), (maybe s i); try reflexivity. exfalso. auto.
Qed.
Definition est_lens : list Z := map fst (picked (cls1 s) q 0 (sorted_lengths I)).
Definition est_may : list Z := firstn q (zsort (map len (maybel s))).
Lemma maybe_lengths : map fst (of_class (cls1 s) 1 (sorted_lengths I)) = zsort (map len (maybel s)).
Proof.
  apply sorted_unique; [apply keys_sorted; exact lengths_sorted|apply zsort_sorted|]. rewrite <- zsort_perm. rewrite (Permutation_map fst class1_maybe), map_map. reflexivity.
Qed.
Lemma est_lengths_eq : est_lengths s (Z.of_nat m) (sorted_lengths I) [] [] (Z.of_nat q) = (est_lens, est_may).
Proof.
  pose proof must_fit. pose proof maybe_fit. rewrite est_lengths_spec.
  - unfold est_lens, est_may. rewrite <- maybe_lengths, firstn_map. reflexivity.
  - cbn [length]. unfold quota. rewrite (Permutation_length class1_must), map_length. fold a. unfold q. lia.
  - rewrite (Permutation_length class1_maybe), map_length. exact maybe_fit.
Qed.
Lemma est_lens_perm : Permutation est_lens (map len (mustl s) ++ est_may).
Proof.
  unfold est_lens. rewrite (Permutation_map fst (picked_perm (cls1 s) (sorted_lengths I) q 0)), !map_app. cbn [firstn map]. rewrite app_nil_r. apply Permutation_app.
  - rewrite (Permutation_map fst class1_must), map_map. reflexivity.
  - unfold est_may. rewrite <- firstn_map, maybe_lengths. reflexivity.
Qed.
Lemma est_lens_sorted : StronglySorted Z.le est_lens.
Proof. unfold est_lens. apply (sorted_map (fun x y : Z * nat => fst x <= fst y)); [auto|]. apply picked_sorted. exact lengths_sorted. Qed.
Lemma est_may_length : length est_may = q.
Proof. unfold est_may. apply firstn_length_le. rewrite zsort_length, map_length. exact maybe_fit. Qed.
Lemma est_lens_length : length est_lens = m.
Proof. rewrite (Permutation_length est_lens_perm), app_length, map_length, est_may_length. fold a. pose proof must_fit. unfold q. lia. Qed.
Lemma est_may_in x : In x est_may -> exists j, In j (maybel s) /\ x = len j.
Proof.
  intros H. unfold est_may in H. assert (In x (zsort (map len (maybel s)))) as Hx.
  { revert H. generalize (zsort (map len (maybel s))) as z. generalize q as p. clear. induction p as [|p IH]; intros [|y z] H; cbn in H; [contradiction..|]. destruct H as [->|H]; [left; reflexivity|right; apply IH; exact H]. }
  apply (Permutation_in _ (Permutation_sym (zsort_perm _))) in Hx. apply in_map_iff in Hx. destruct Hx as (j & <- & Hj). eauto.
Qed.
Lemma est_lens_pos : Forall (Z.le 0) est_lens.
Proof.
  apply (Permutation_Forall (Permutation_sym est_lens_perm)). apply Forall_forall. intros x Hx. apply in_app_or in Hx. destruct Hx as [Hx|Hx].
  - apply in_map_iff in Hx. destruct Hx as (j & <- & Hj). pose proof (so_len_range _ _ _ Hok j (mustl_lt j Hj)). lia.
  - apply est_may_in in Hx. destruct Hx as (j & Hj & ->). pose proof (so_len_range _ _ _ Hok j (maybel_lt j Hj)). lia.
Qed.

(** Flows. *)
Definition trip3 (p : nat * nat) : Z * nat * nat := (flow (fst p) (snd p), fst p, snd p).
Notation fl2 := (flow2 flow).
Definition sf : list (Z * nat * nat) := insert_sort lex3_leb (map trip3 (upairs (seq 0 n))).
Lemma sorted_flows_eq : sorted_flows I = Some sf.
Proof.
  unfold sorted_flows. fold n. rewrite (omap_some _ trip3); [cbn [obind]; rewrite sr_pairs_upairs; reflexivity|].
  intros [i j] Hp. rewrite sr_pairs_upairs in Hp. apply upairs_in in Hp. destruct Hp as [Hi Hj]. apply in_seq in Hi. apply in_seq in Hj. cbn [fst snd]. rewrite (mat_flow I F L Hok i j) by (fold n; lia). reflexivity.
Qed.
Lemma sf_sorted : StronglySorted (fun x y => key3 x <= key3 y) sf.
Proof.
  unfold sf. apply (insert_sort_sorted _ (fun _ => True)).
  - intros [[f i] j] [[g x] y] _ _. unfold lex3_leb, key3. cbn [fst snd]. intros H. apply orb_prop in H. destruct H as [H|H]; [apply Z.ltb_lt in H; lia|]. apply andb_prop in H. destruct H as [H _]. apply Z.eqb_eq in H. lia.
  - intros [[f i] j] [[g x] y] _ _. unfold lex3_leb, key3. cbn [fst snd]. intros H. apply orb_false_iff in H. destruct H as [H _]. apply Z.ltb_ge in H. lia.
  - intros x y z _ _ _. lia.
  - apply Forall_forall. intros; exact Logic.I.
Qed.
Definition vals_of (c : nat) (l : list (nat * nat)) : list Z := map fl2 (of_class (cls2 s) c l).
Lemma class2 c : Permutation (map key3 (of_class (clsf s) c sf)) (vals_of c (upairs (seq 0 n))).
Proof.
  unfold of_class at 1. unfold sf. rewrite (Permutation_map key3 (perm_filter _ _ _ (Permutation_sym (insert_sort_perm _ _)))). unfold vals_of, of_class.
  generalize (upairs (seq 0 n)) as l. induction l as [|[i j] l IH]; [reflexivity|]. cbn [map filter]. change (clsf s (trip3 (i, j))) with (cls2 s (i, j)).
  destruct (Nat.eqb (cls2 s (i, j)) c); cbn [map]; rewrite IH; reflexivity.
Qed.
Lemma class_sorted c : map key3 (of_class (clsf s) c sf) = zsort (vals_of c (upairs (seq 0 n))).
Proof. apply sorted_unique; [apply keys_sorted; exact sf_sorted|apply zsort_sorted|]. rewrite <- zsort_perm. apply class2. Qed.

Definition others : list nat := filter (fun i => negb (free s i)) (seq 0 n).
Lemma departments : Permutation (seq 0 n) (mustl s ++ maybel s ++ others).
Proof.
  unfold SrflpFacts.mustl, SrflpFacts.maybel, others. fold n. generalize (seq 0 n) as l. induction l as [|i l IH]; [reflexivity|]. cbn [filter]. unfold free at 1. pose proof (must_not_maybe i).
  destruct (must s i), (maybe s i); cbn [orb negb app].
  - exfalso. auto.
  - constructor. exact IH.
  - rewrite IH at 1. apply Permutation_middle.
  - rewrite IH at 1. rewrite !app_assoc. apply Permutation_middle.
Qed.
Lemma vals_of_app c x y : vals_of c (x ++ y) = vals_of c x ++ vals_of c y.
Proof. unfold vals_of, of_class. rewrite filter_app, map_app. reflexivity. Qed.
Lemma vals_of_all c l : (forall p, In p l -> cls2 s p = c) -> vals_of c l = map fl2 l.
Proof. intros H. unfold vals_of, of_class. f_equal. induction l as [|p l IH]; [reflexivity|]. cbn [filter]. rewrite (H p (or_introl eq_refl)), Nat.eqb_refl. f_equal. apply IH. intros r Hr. apply H. right. exact Hr. Qed.
Lemma vals_of_none c l : (forall p, In p l -> cls2 s p <> c) -> vals_of c l = [].
Proof. intros H. unfold vals_of, of_class. induction l as [|p l IH]; [reflexivity|]. cbn [filter]. rewrite (proj2 (Nat.eqb_neq _ _) (H p (or_introl eq_refl))). apply IH. intros r Hr. apply H. right. exact Hr. Qed.
Lemma vals_of_perm c l l' : Permutation (map (fun p => (cls2 s p, fl2 p)) l) (map (fun p => (cls2 s p, fl2 p)) l') -> Permutation (vals_of c l) (vals_of c l').
Proof.
  intros H. assert (forall x, vals_of c x = map snd (filter (fun r => Nat.eqb (fst r) c) (map (fun p => (cls2 s p, fl2 p)) x))) as E.
  { intros x. unfold vals_of, of_class. induction x as [|p x IH]; [reflexivity|]. cbn [map filter fst]. destruct (Nat.eqb (cls2 s p) c); cbn [map snd]; rewrite IH; reflexivity. }
  rewrite !E. apply Permutation_map, perm_filter. exact H.
Qed.
Lemma class_split c : Permutation (vals_of c (upairs (seq 0 n)))
  (vals_of c (upairs (mustl s)) ++ vals_of c (list_prod (mustl s) (maybel s ++ others)) ++ vals_of c (upairs (maybel s)) ++ vals_of c (list_prod (maybel s) others) ++ vals_of c (upairs others)).
Proof.
  rewrite <- !vals_of_app. apply vals_of_perm. set (h := fun p => (cls2 s p, fl2 p)). rewrite (upairs_perm h _ _ departments).
  - rewrite upairs_app, !map_app. apply Permutation_app_head, Permutation_app_head. apply upairs_app.
  - intros i j Hi Hj. apply in_seq in Hi. apply in_seq in Hj. unfold h, flow2. cbn [fst snd]. rewrite cls2_sym, (so_sym _ _ _ Hok i j) by (fold n; lia). reflexivity.
Qed.
Lemma cls_mustl i : In i (mustl s) -> must s i = true /\ maybe s i = false.
Proof. intros H. apply (in_mustl I F k s i Hs) in H. split; [exact H|]. destruct (maybe s i) eqn:E; [|reflexivity]. exfalso. apply (must_not_maybe i H E). Qed.
Lemma cls_maybel i : In i (maybel s) -> must s i = false /\ maybe s i = true.
Proof. intros H. apply (in_maybel I F k s i Hs) in H. split; [|exact H]. destruct (must s i) eqn:E; [|reflexivity]. exfalso. apply (must_not_maybe i E H). Qed.
Lemma cls_others i : In i others -> must s i = false /\ maybe s i = false.
Proof. intros H. apply filter_In in H. destruct H as [_ H]. unfold free in H. apply negb_true_iff, orb_false_iff in H. exact H. Qed.
Lemma cls_mm p : In p (upairs (mustl s)) -> cls2 s p = 0%nat.
Proof. destruct p as [i j]. intros H. apply upairs_in in H. destruct H as [Hi Hj]. apply cls_mustl in Hi. apply cls_mustl in Hj. destruct Hi as [Hi _], Hj as [Hj _]. unfold cls2. rewrite Hi, Hj. reflexivity. Qed.
Lemma cls_mx p : In p (list_prod (mustl s) (maybel s)) -> cls2 s p = 1%nat.
Proof. destruct p as [i j]. intros H. apply in_prod_iff in H. destruct H as [Hi Hj]. apply cls_mustl in Hi. apply cls_maybel in Hj. destruct Hi as [Hi Hi'], Hj as [Hj Hj']. unfold cls2. rewrite Hi, Hi', Hj, Hj'. reflexivity. Qed.
Lemma cls_mo p : In p (list_prod (mustl s) others) -> cls2 s p = 3%nat.
Proof. destruct p as [i j]. intros H. apply in_prod_iff in H. destruct H as [Hi Hj]. apply cls_mustl in Hi. apply cls_others in Hj. destruct Hi as [Hi Hi'], Hj as [Hj Hj']. unfold cls2. rewrite Hi, Hi', Hj, Hj'. reflexivity. Qed.
Lemma cls_xx p : In p (upairs (maybel s)) -> cls2 s p = 2%nat.
Proof. destruct p as [i j]. intros H. apply upairs_in in H. destruct H as [Hi Hj]. apply cls_maybel in Hi. apply cls_maybel in Hj. destruct Hi as [Hi Hi'], Hj as [Hj Hj']. unfold cls2. rewrite Hi, Hi', Hj, Hj'. reflexivity. Qed.
Lemma cls_xo p : In p (list_prod (maybel s) others) -> cls2 s p = 3%nat.
Proof. destruct p as [i j]. intros H. apply in_prod_iff in H. destruct H as [Hi Hj]. apply cls_maybel in Hi. apply cls_others in Hj. destruct Hi as [Hi Hi'], Hj as [Hj Hj']. unfold cls2. rewrite Hi, Hi', Hj, Hj'. reflexivity. Qed.
Lemma cls_oo p : In p (upairs others) -> cls2 s p = 3%nat.
Proof. destruct p as [i j]. intros H. apply upairs_in in H. destruct H as [Hi Hj]. apply cls_others in Hi. apply cls_others in Hj. destruct Hi as [Hi Hi'], Hj as [Hj Hj']. unfold cls2. rewrite Hi, Hi', Hj, Hj'. reflexivity. Qed.

Ltac none l := rewrite (vals_of_none _ l) by (intros p Hp; first [rewrite (cls_mm p Hp)|rewrite (cls_mx p Hp)|rewrite (cls_mo p Hp)|rewrite (cls_xx p Hp)|rewrite (cls_xo p Hp)|rewrite (cls_oo p Hp)]; discriminate).
Lemma prod_app {A B} (x : list A) (y z : list B) : Permutation (list_prod x (y ++ z)) (list_prod x y ++ list_prod x z).
Proof.
  induction x as [|u x IH]; [reflexivity|]. cbn [list_prod]. rewrite map_app, IH, <- !app_assoc. apply Permutation_app_head. apply Permutation_app_swap_app.
Qed.
Lemma vals_of_prod c : Permutation (vals_of c (list_prod (mustl s) (maybel s ++ others))) (vals_of c (list_prod (mustl s) (maybel s)) ++ vals_of c (list_prod (mustl s) others)).
Proof. rewrite <- vals_of_app. apply vals_of_perm. apply Permutation_map. apply prod_app. Qed.
Lemma class_mm : Permutation (vals_of 0 (upairs (seq 0 n))) (map fl2 (upairs (mustl s))).
Proof.
  rewrite class_split, vals_of_prod. none (list_prod (mustl s) (maybel s)). none (list_prod (mustl s) others). none (upairs (maybel s)). none (list_prod (maybel s) others). none (upairs others).
  rewrite vals_of_all by exact cls_mm. cbn [app]. rewrite !app_nil_r. reflexivity.
Qed.
Lemma class_mx : Permutation (vals_of 1 (upairs (seq 0 n))) (map fl2 (list_prod (mustl s) (maybel s))).
Proof.
  rewrite class_split, vals_of_prod. none (upairs (mustl s)). none (list_prod (mustl s) others). none (upairs (maybel s)). none (list_prod (maybel s) others). none (upairs others).
  rewrite vals_of_all by exact cls_mx. cbn [app]. rewrite !app_nil_r. reflexivity.
Qed.
Lemma class_xx : Permutation (vals_of 2 (upairs (seq 0 n))) (map fl2 (upairs (maybel s))).
Proof.
  rewrite class_split, vals_of_prod. none (upairs (mustl s)). none (list_prod (mustl s) (maybel s)). none (list_prod (mustl s) others). none (list_prod (maybel s) others). none (upairs others).
  rewrite vals_of_all by exact cls_xx. cbn [app]. rewrite !app_nil_r. reflexivity.
Qed.

Let cr := (a * q)%nat.
Let ins := (q * (q - 1) / 2)%nat.
Lemma half p : (2 * (p * (p - 1) / 2) = p * (p - 1))%nat.
Proof.
  assert (Nat.Even (p * (p - 1))) as [h E].
  { destruct p as [|p]; [exists 0%nat; reflexivity|]. replace (S p - 1)%nat with p by lia. destruct (Nat.Even_or_Odd p) as [[h E]|[h E]]; [exists (S p * h)%nat|exists ((h + 1) * p)%nat]; rewrite E; nia. }
  rewrite E. rewrite Nat.mul_comm, Nat.mul_comm. rewrite (Nat.mul_comm 2 h), Nat.div_mul by lia. lia.
Qed.
Lemma cross_fit : (cr <= length (of_class (clsf s) 1 sf))%nat.
Proof. rewrite <- (map_length key3), (Permutation_length (class2 1)), (Permutation_length class_mx), map_length, prod_length. fold a. unfold cr. pose proof maybe_fit. nia. Qed.
Lemma inside_fit : (ins <= length (of_class (clsf s) 2 sf))%nat.
Proof.
  rewrite <- (map_length key3), (Permutation_length (class2 2)), (Permutation_length class_xx), map_length. pose proof (upairs_length (maybel s)). unfold ins. pose proof (half q). pose proof maybe_fit. nia.
Qed.
Lemma flows_quota : (2 * quota (clsf s) cr ins sf = m * (m - 1))%nat.
Proof.
  unfold quota. rewrite <- (map_length key3), (Permutation_length (class2 0)), (Permutation_length class_mm), map_length. pose proof (upairs_length (mustl s)) as H1. fold a in H1. pose proof (half q) as H2. fold ins in H2. unfold cr. pose proof must_fit.
  assert (m = a + q)%nat as Hmq by (unfold q; lia). clear - H1 H2 Hmq. revert H1 H2 Hmq. generalize m a q ins. clear. intros m a q ins H1 H2 ->. destruct a as [|a'], q as [|q']; nia.
Qed.
Definition est_fl : list Z := map key3 (picked (clsf s) cr ins sf).
Lemma est_fl_length : length est_fl = quota (clsf s) cr ins sf.
Proof. unfold est_fl. rewrite map_length. apply picked_length; [apply cross_fit|apply inside_fit]. Qed.
Lemma est_flows_eq : est_flows s (Z.of_nat (length est_fl)) sf [] (Z.of_nat cr) (Z.of_nat ins) = est_fl.
Proof. rewrite est_flows_spec; [reflexivity|exact must_not_maybe|rewrite est_fl_length; reflexivity|apply cross_fit|apply inside_fit]. Qed.
Lemma est_fl_sorted : StronglySorted Z.le est_fl.
Proof. unfold est_fl. apply (sorted_map (fun x y => key3 x <= key3 y)); [auto|]. apply picked_sorted. exact sf_sorted. Qed.
Lemma est_fl_perm : Permutation est_fl (map fl2 (upairs (mustl s)) ++ firstn cr (zsort (map fl2 (list_prod (mustl s) (maybel s)))) ++ firstn ins (zsort (map fl2 (upairs (maybel s))))).
Proof.
  unfold est_fl. rewrite (Permutation_map key3 (picked_perm (clsf s) sf cr ins)), !map_app, <- !firstn_map. rewrite (class_sorted 1), (class_sorted 2), (class2 0), class_mm.
  rewrite (zsort_eq _ _ class_mx), (zsort_eq _ _ class_xx). reflexivity.
Qed.

(** Ratios. *)
Definition est_pairs : list (Z * Z) := map (fun j => (len j, cut s j)) (mustl s) ++ combine est_may (rev (firstn q (zsort (map (cut s) (maybel s))))).
Lemma est_ratios_eq : est_ratios debug I s (Z.of_nat q) est_may = Some (map (fun r => mk_ratio (fst r) (snd r)) est_pairs).
Proof.
  pose proof (sl_len _ _ _ _ Hs) as Hlen. fold n in Hlen. unfold est_ratios. fold n. rewrite must_iter. rewrite (omap_some _ (fun i => mk_ratio (len i) (cut s i))).
  2:{ intros i Hi. apply mustl_lt in Hi. rewrite (cut_some I s i Hlen Hi). cbn [obind]. rewrite (len_some I F L Hok i Hi). reflexivity. }
  cbn [obind]. unfold est_pairs. rewrite map_app, map_map. cbn [fst snd]. set (C := rev (firstn q (zsort (map (cut s) (maybel s))))).
  match goal with |- obind ?X _ = _ => assert (X = Some (map (fun r => mk_ratio (fst r) (snd r)) (combine est_may C))) as ->; [|reflexivity] end.
  pose proof maybe_fit as Hq. destruct (sr_maybe s) as [mm|] eqn:Em.
  - pose proof (maybel_some I s mm Em) as Eb. fold n in Eb. rewrite Eb. rewrite (omap_some _ (cut s)) by (intros i Hi; apply (cut_some I s i Hlen); apply maybel_lt; exact Hi). cbn [obind]. rewrite Nat2Z.id.
    set (cuts := zsort (map (cut s) (maybel s))) in *. assert (length cuts = length (maybel s)) as Hcl by (unfold cuts; rewrite zsort_length, map_length; reflexivity).
    rewrite (omap_some _ (fun i => mk_ratio (nth i est_may 0) (nth (q - 1 - i) cuts 0))).
    + f_equal. assert (length est_may = q) as He by exact est_may_length. assert (length C = q) as HC by (unfold C; rewrite rev_length; apply firstn_length_le; lia).
      assert (forall i, (i < q)%nat -> nth (q - 1 - i) cuts 0 = nth i C 0) as Hnth.
      { intros i Hi. unfold C. assert (length (firstn q cuts) = q) as Hfl by (apply firstn_length_le; lia). rewrite rev_nth by lia. rewrite Hfl. replace (q - S i)%nat with (q - 1 - i)%nat by lia.
        rewrite <- (firstn_skipn q cuts) at 1. rewrite app_nth1 by lia. reflexivity. }
      clear - He HC Hnth. rewrite (map_ext_in _ (fun i => mk_ratio (nth i est_may 0) (nth i C 0))) by (intros i Hi; apply in_seq in Hi; rewrite Hnth by lia; reflexivity). clear Hnth.
      revert He HC. generalize est_may as x. generalize C as y. generalize q as p. clear. intros p y x. revert y p. induction x as [|u x IH]; intros [|v y] [|p] H1 H2; cbn [length] in *; try lia; [reflexivity|]. cbn [seq map combine nth fst snd]. f_equal.
      rewrite <- seq_shift, map_map. cbn [nth]. apply IH; lia.
    + intros i Hi. apply in_seq in Hi. rewrite (nth_error_nth' est_may 0) by (rewrite est_may_length; lia). cbn [obind]. rewrite usub_some by lia. cbn [obind]. rewrite usub_some by lia. cbn [obind]. unfold vget. rewrite (proj2 (Z.ltb_lt _ _)) by lia.
      replace (Z.to_nat (Z.of_nat q - 1 - Z.of_nat i)) with (q - 1 - i)%nat by lia. rewrite (nth_error_nth' cuts 0) by lia. reflexivity.
  - assert (q = 0%nat) as E0 by (rewrite (maybel_none I s Em) in Hq; cbn in Hq; lia). unfold C, est_may. rewrite E0. reflexivity.
Qed.

Lemma two_m (x y : nat) : (1 <= y)%nat -> (2 * x = y * (y - 1))%nat -> Z.of_nat y * (Z.of_nat y - 1) = Z.of_nat x * 2.
Proof. clear. nia. Qed.
Definition est_cut : Z := crossed (map plain (insert_sort ratio_geb (map (fun r => mk_ratio (fst r) (snd r)) est_pairs))).
Definition est_edge : Z := dot (rev est_fl) (cols (prefix_sum est_lens) m).
Lemma cols_length low p : (2 * length (cols low p) = p * (p - 1))%nat.
Proof. rewrite <- (Permutation_length (rows_cols low p)). apply rows_length. Qed.
Theorem estimate_eq : sr_estimate debug I s = Some (- (est_cut + est_edge)).
Proof.
  pose proof must_fit as Ha. pose proof maybe_fit as Hq. pose proof n_small as Hn. destruct (sl_depth _ _ _ _ Hs) as [_ Hdep].
  assert (2 ^ 64 = 2 * 2 ^ 63) as E64 by reflexivity. assert (m <= n)%nat as Hm by (unfold m; lia).
  unfold sr_estimate. fold n. rewrite Hdep. rewrite usub_some by lia. cbn [obind]. replace (Z.of_nat n - Z.of_nat k) with (Z.of_nat m) by (unfold m; lia).
  rewrite usub_some by (unfold m; lia). cbn [obind]. unfold umul at 1. rewrite (proj2 (Z.ltb_lt _ _)) by nia. cbn [obind].
  change (bs_count n (sr_must s)) with (length (bs_iter n (sr_must s))). rewrite must_iter. fold a.
  rewrite usub_some by lia. cbn [obind]. replace (Z.of_nat m - Z.of_nat a) with (Z.of_nat q) by (unfold q; lia).
  rewrite est_lengths_eq. unfold umul at 1. rewrite (proj2 (Z.ltb_lt _ _)) by nia. cbn [obind].
  assert (exists f1, usub debug (Z.of_nat q) 1 = Some f1 /\ umul debug (Z.of_nat q) f1 = Some (Z.of_nat (q * (q - 1)))) as (f1 & -> & Hf1).
  { destruct (Nat.eq_dec q 0) as [E|E].
    - destruct Hd as [-> |Hd']; [|lia]. rewrite E. eexists. split; reflexivity.
    - rewrite usub_some by lia. eexists. split; [reflexivity|]. unfold umul. rewrite (proj2 (Z.ltb_lt _ _)) by nia. f_equal. nia. }
  cbn [obind]. rewrite Hf1. cbn [obind]. rewrite sorted_flows_eq. cbn [obind].
  assert (Z.of_nat m * (Z.of_nat m - 1) / 2 = Z.of_nat (length est_fl)) as ->.
  { pose proof flows_quota as H2. rewrite <- est_fl_length in H2. rewrite (two_m (length est_fl) m) by (first [exact H2|unfold m; lia]). apply Z.div_mul. lia. }
  assert (Z.of_nat (q * (q - 1)) / 2 = Z.of_nat ins) as ->.
  { pose proof (half q) as H2. fold ins in H2. rewrite <- H2. replace (Z.of_nat (2 * ins)) with (Z.of_nat ins * 2) by lia. apply Z.div_mul. lia. }
  replace (Z.of_nat a * Z.of_nat q) with (Z.of_nat cr) by (unfold cr; lia). rewrite est_flows_eq, est_ratios_eq. cbn [obind].
  rewrite edge_spec; [|unfold m; lia|apply est_lens_length|].
  - cbn [obind]. rewrite cut_bound_spec. reflexivity.
  - pose proof flows_quota as H2. rewrite <- est_fl_length in H2. pose proof (cols_length (prefix_sum est_lens) m). lia.
Qed.

(** *** It bounds every order *)
Hypothesis Hfloat : Z.of_nat n * F * L < 2 ^ 23.
Variable l : list nat.
Hypothesis Hl : chosen k s l.
Notation mb := (maybe s).
Lemma order_chosen : order len mb (maybel s) l.
Proof.
  constructor.
  - apply (cs_nodup _ _ _ Hl).
  - apply maybel_nodup.
  - intros j Hj. apply filter_In in Hj. apply (in_maybel I F k s j Hs). tauto.
  - intros j Hj. apply (in_maybel I F k s j Hs). exact Hj.
  - intros j Hj. pose proof (so_len_range _ _ _ Hok j (sl_bits _ _ _ _ Hs j (cs_free _ _ _ Hl j Hj))). lia.
Qed.
Lemma mu_perm : Permutation (mu mb l) (mustl s).
Proof. apply (chosen_mu k s l); auto. Qed.
Lemma my_length : length (my mb l) = q.
Proof. pose proof (mu_my_length mb l) as H. rewrite (cs_length _ _ _ Hl), (Permutation_length mu_perm) in H. fold m a in H. unfold q. lia. Qed.
Lemma my_sub : exists r, Permutation (maybel s) (my mb l ++ r).
Proof. apply perm_sub; [apply NoDup_filter; apply (cs_nodup _ _ _ Hl)|apply maybel_nodup|apply (od_my _ _ _ _ order_chosen)]. Qed.
Lemma may_dom : dom est_may (map len (my mb l)).
Proof.
  destruct my_sub as (r & Hr). unfold est_may. rewrite <- my_length, <- (map_length len (my mb l)). apply (smallest_dom _ _ (map len r)). rewrite <- map_app. apply Permutation_map. exact Hr.
Qed.
Lemma range j : In j l \/ In j (maybel s) -> (j < n)%nat.
Proof. intros [H|H]; [apply (sl_bits _ _ _ _ Hs j (cs_free _ _ _ Hl j H))|apply maybel_lt; exact H]. Qed.
Lemma cut_range j : free s j = true -> 0 <= cut s j <= Z.of_nat n * F.
Proof. intros H. pose proof (sl_cut _ _ _ _ Hs j H). pose proof (so_F _ _ _ Hok). nia. Qed.

Lemma cut_admissible : est_cut <= static len mb (cut s) (maybel s) l.
Proof.
  assert (forall r, In r est_pairs -> 1 <= fst r <= L /\ 0 <= snd r <= Z.of_nat n * F) as Hfine.
  { intros r Hr. unfold est_pairs in Hr. apply in_app_or in Hr. destruct Hr as [Hr|Hr].
    - apply in_map_iff in Hr. destruct Hr as (j & <- & Hj). cbn [fst snd]. split; [apply (so_len_range _ _ _ Hok j (mustl_lt j Hj))|apply cut_range]. unfold free. rewrite (proj1 (cls_mustl j Hj)). reflexivity.
    - destruct r as [x y]. cbn [fst snd]. split.
      + apply in_combine_l in Hr. apply est_may_in in Hr. destruct Hr as (j & Hj & ->). apply (so_len_range _ _ _ Hok j (maybel_lt j Hj)).
      + apply in_combine_r in Hr. apply in_rev in Hr. assert (In y (zsort (map (cut s) (maybel s)))) as Hy.
        { revert Hr. generalize (zsort (map (cut s) (maybel s))) as z. generalize q as p. clear. induction p as [|p IH]; intros [|w z] H; cbn in H; [contradiction..|]. destruct H as [->|H]; [left; reflexivity|right; apply IH; exact H]. }
        apply (Permutation_in _ (Permutation_sym (zsort_perm _))) in Hy. apply in_map_iff in Hy. destruct Hy as (j & <- & Hj). apply cut_range. unfold free. rewrite (proj2 (cls_maybel j Hj)). apply orb_true_r. }
  unfold est_cut. apply (cut_part len flow mb (cut s) (maybel s) l est_may).
  - exact order_chosen.
  - intros j Hj. apply cut_range. destruct Hj as [Hj|Hj]; [apply (cs_free _ _ _ Hl j Hj)|]. unfold free. rewrite (proj2 (cls_maybel j Hj)). apply orb_true_r.
  - unfold est_may. apply sorted_firstn, zsort_sorted.
  - exact may_dom.
  - rewrite <- (Permutation_map plain (insert_sort_perm ratio_geb _)), map_map. cbn [plain mk_ratio fst snd].
    rewrite (map_ext (fun x => plain (mk_ratio (fst x) (snd x))) (fun x => x)) by (intros [x y]; reflexivity). rewrite map_id. rewrite my_length. unfold est_pairs. apply Permutation_app_tail. apply Permutation_map. symmetry. exact mu_perm.
  - pose proof (so_F _ _ _ Hok). pose proof (so_L _ _ _ Hok). pose proof (so_n _ _ _ Hok) as Hn. fold n in Hn.
    apply (ratio_sorted (Z.of_nat n * F) L); [exact Hfloat|nia|lia|]. apply Forall_forall. intros r Hr. apply in_map_iff in Hr. destruct Hr as (x & <- & Hx). exists (fst x), (snd x). split; [reflexivity|]. apply Hfine. exact Hx.
Qed.

Lemma lens_low t r : Permutation (map len l) (t ++ r) -> prefix_sum est_lens (length t) <= zsum t.
Proof.
  intros Ht. unfold prefix_sum. rewrite <- (zsort_id est_lens est_lens_sorted). etransitivity; [|apply (smallest_le (map len l) t r Ht)]. apply dom_prefix.
  apply (dom_perm (map len (mustl s) ++ est_may) _ (map len (mu mb l) ++ map len (my mb l))).
  - symmetry. exact est_lens_perm.
  - rewrite <- map_app. apply Permutation_map. symmetry. apply mu_my_perm.
  - apply dom_app; [|exact may_dom]. apply (dom_perm (map len (mustl s)) _ (map len (mustl s))); [reflexivity|apply Permutation_map; symmetry; exact mu_perm|apply dom_refl].
Qed.
Lemma sorted_maybel : StronglySorted lt (maybel s).
Proof. apply sorted_filter. apply seq_sorted. Qed.
Lemma flows_dom : dom est_fl (map fst (cells flow mb (prefix_sum est_lens) (maybel s) l)).
Proof.
  assert (forall i j, (i < n)%nat -> (j < n)%nat -> flow i j = flow j i) as Hsym by (intros i j; apply (so_sym _ _ _ Hok)).
  destruct (cells_choice flow mb (fun j => (j < n)%nat) Hsym len (prefix_sum est_lens) l (maybel s) order_chosen range) as (X & W & H1 & H2 & H3 & H4 & H5 & H6 & H7).
  apply (dom_perm _ _ _ _ (Permutation_sym est_fl_perm) (Permutation_sym H1)). apply dom_app; [|apply dom_app].
  - apply (dom_perm (map fl2 (upairs (mustl s))) _ (map fl2 (upairs (mustl s)))); [reflexivity| |apply dom_refl]. apply upairs_perm; [symmetry; exact mu_perm|].
    intros i j Hi Hj. unfold flow2. cbn [fst snd]. apply Hsym; apply mustl_lt; assumption.
  - rewrite my_length, (Permutation_length mu_perm) in H4. fold a cr in H4. rewrite <- H4, <- (map_length fl2 X).
    destruct (perm_sub_pairs X (list_prod (mustl s) (maybel s)) H2) as (r & Hr); [apply nodup_prod; [apply mustl_nodup|apply maybel_nodup]| |].
    + intros [i j] Hp. apply H3 in Hp. cbn [fst snd] in Hp. apply in_prod; [apply (Permutation_in _ mu_perm)|]; tauto.
    + apply (smallest_dom _ _ (map fl2 r)). rewrite <- map_app. apply Permutation_map. exact Hr.
  - rewrite my_length in H7. pose proof (half q) as Hh. fold ins in Hh. assert (length W = ins) as HW by lia. rewrite <- HW, <- (map_length norm W), <- (map_length fl2 (map norm W)).
    assert (map fl2 W = map fl2 (map norm W)) as ->.
    { rewrite map_map. apply map_ext_in. intros [i j] Hp. apply H6 in Hp. cbn [fst snd] in Hp. destruct Hp as (Hi & Hj & _). apply maybel_lt in Hi. apply maybel_lt in Hj. unfold flow2, norm. cbn [fst snd].
      destruct (Nat.le_gt_cases i j); [rewrite Nat.min_l, Nat.max_r by lia; reflexivity|rewrite Nat.min_r, Nat.max_l by lia; apply Hsym; assumption]. }
    destruct (upairs_ordered (maybel s) sorted_maybel) as [N1 N2].
    destruct (perm_sub_pairs (map norm W) (upairs (maybel s)) H5 N1) as (r & Hr).
    + intros p Hp. apply in_map_iff in Hp. destruct Hp as ([i j] & <- & Hp). apply H6 in Hp. cbn [fst snd] in Hp. destruct Hp as (Hi & Hj & Hne). unfold norm. cbn [fst snd].
      destruct (Nat.le_gt_cases i j); [rewrite Nat.min_l, Nat.max_r by lia|rewrite Nat.min_r, Nat.max_l by lia]; apply N2; auto; lia.
    + apply (smallest_dom _ _ (map fl2 r)). rewrite <- map_app. apply Permutation_map. exact Hr.
Qed.
Lemma edge_admissible : est_edge <= mutual len flow mb (maybel s) l.
Proof.
  etransitivity; [|apply (mutual_cells len flow mb (prefix_sum est_lens) l (maybel s) [])].
  - unfold est_edge. set (co := cols (prefix_sum est_lens) m).
    assert (length est_fl = length co) as Hlen. { pose proof flows_quota as H2. rewrite <- est_fl_length in H2. pose proof (cols_length (prefix_sum est_lens) m) as H. fold co in H. lia. }
    rewrite <- (rev_involutive co), dot_rev by (rewrite rev_length; exact Hlen). rewrite <- (zsort_id est_fl est_fl_sorted).
    assert (StronglySorted Z.le co) as Hco by (apply blocks_sorted; apply prefix_mono; exact est_lens_pos).
    apply pairs_bound.
    + exact flows_dom.
    + rewrite cells_snd, (cs_length _ _ _ Hl). fold m. rewrite rows_cols. apply Permutation_rev.
    + apply sorted_rev. exact Hco.
    + apply Forall_forall. intros x Hx. apply in_rev in Hx. unfold co, cols in Hx. apply in_flat_map in Hx. destruct Hx as (i & _ & Hx). apply repeat_spec in Hx. subst x. apply prefix_nonneg. exact est_lens_pos.
  - exact order_chosen.
  - intros i j Hi Hj. apply (so_flow_range _ _ _ Hok); apply range; assumption.
  - intros t r. apply lens_low.
Qed.
Theorem estimate_bound : est_cut + est_edge <= relaxed len flow mb (cut s) (maybel s) l.
Proof. pose proof cut_admissible. pose proof edge_admissible. pose proof (relaxed_split len flow mb l (cut s) (maybel s) order_chosen). lia. Qed.
End State.

(** Without departments that only may be placed, the estimate panics in a debug build. *)
Theorem estimate_debug_panics k s : layer k s -> (k < n)%nat -> size I (must s) = (n - k)%nat -> sr_estimate true I s = None.
Proof.
  intros Hs Hk Hm. pose proof (n_small) as Hn. destruct (sl_depth _ _ _ _ Hs) as [_ Hdep]. assert (2 ^ 64 = 2 * 2 ^ 63) as E64 by reflexivity. rewrite size_must in Hm.
  unfold sr_estimate. fold n. rewrite Hdep. rewrite usub_some by lia. cbn [obind]. rewrite usub_some by lia. cbn [obind]. unfold umul at 1. rewrite (proj2 (Z.ltb_lt _ _)) by (set (x := Z.of_nat n) in *; set (y := Z.of_nat k) in *; assert (0 <= y < x) by (unfold x, y; lia); assert ((x - y) * (x - y - 1) <= x * x) by (apply Z.mul_le_mono_nonneg; lia); lia). cbn [obind].
  change (bs_count n (sr_must s)) with (length (bs_iter n (sr_must s))). rewrite must_iter. rewrite usub_some by (rewrite Hm; lia). cbn [obind].
  destruct (est_lengths s _ _ _ _ _) as [lens may]. replace (Z.of_nat n - Z.of_nat k - Z.of_nat (length (mustl s))) with 0 by lia. rewrite Z.mul_0_r || idtac.
  unfold umul at 1. rewrite Z.mul_0_r. cbn [Z.ltb]. reflexivity.
Qed.

Theorem estimate_admissible debug k s ds c : layer k s -> (k < n)%nat -> debug = false \/ (size I (must s) < n - k)%nat -> Z.of_nat n * F * L < 2 ^ 23 ->
  completion sr_state (sr_problem debug I) sr_nv k s ds c -> exists e, sr_estimate debug I s = Some e /\ c <= e.
Proof.
  intros Hs Hk Hd Hf Hc. assert (debug = false \/ (1 <= n - k - length (mustl s))%nat) as Hd' by (destruct Hd as [Hd|Hd]; [left; exact Hd|right; rewrite size_must in Hd; lia]). eexists. split.
  - apply (estimate_eq debug k s Hs Hk Hd').
  - destruct (completion_order debug (maybe s) (n - k) k s ds c ltac:(lia) Hs (fun j _ => eq_refl) Hc) as (l & Hl & ->).
    pose proof (estimate_bound debug k s Hs Hk Hd' Hf l Hl). lia.
Qed.
Theorem estimate_release k s : layer k s -> (k < n)%nat -> exists e, sr_estimate false I s = Some e.
Proof. intros Hs Hk. eexists. apply (estimate_eq false k s Hs Hk). left. reflexivity. Qed.
End Admissible.
