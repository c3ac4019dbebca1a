(** Reading an SRFLP instance: flows that differ in the two directions are added up. *)
From Verif Require Import Srflp SrflpSpec Matrix MatrixFacts SrflpSort SrflpOrder SrflpEstimate.
From Coq Require Import Lia.
Open Scope Z_scope.

Lemma total_sym a b : total_flow a b = total_flow b a.
Proof. unfold total_flow. rewrite (Z.eqb_sym b a). destruct (Z.eqb_spec a b); lia. Qed.

Lemma iadd_ok debug a b : in_isize (a + b) -> iadd debug a b = Some (a + b).
Proof. unfold in_isize, iadd. intros H. destruct (Z.leb_spec IMIN (a + b)); [|lia]. destruct (Z.leb_spec (a + b) IMAX); [reflexivity|lia]. Qed.

Section Flows.
Variable debug : bool.
Variable n : nat.
Notation square := (square n).
Lemma square_wf m : square m -> mat_wf m.
Proof. intros (H1 & H2 & H3). unfold mat_wf. rewrite H1, H2. exact H3. Qed.
Lemma square_range m i j : square m -> (i < n)%nat -> (j < n)%nat -> in_range m i j.
Proof. intros (H1 & H2 & _) Hi Hj. unfold in_range. rewrite H1, H2. auto. Qed.
Lemma entry_some m i j : square m -> (i < n)%nat -> (j < n)%nat -> mat_get m i j = Some (entry m i j).
Proof.
  intros Hm Hi Hj. unfold entry, mat_get. pose proof (pos_bound m i j (square_wf m Hm) (square_range m i j Hm Hi Hj)) as H.
  rewrite (nth_error_nth' _ 0 H). reflexivity.
Qed.
Lemma set_some m i j x : square m -> (i < n)%nat -> (j < n)%nat -> exists m', mat_set m i j x = Some m' /\ square m' /\ entry m' i j = x /\
  forall a b, (a < n)%nat -> (b < n)%nat -> (a, b) <> (i, j) -> entry m' a b = entry m a b.
Proof.
  intros Hm Hi Hj. destruct (mat_rw m i j x (square_wf m Hm) (square_range m i j Hm Hi Hj)) as (m' & E & Hw & Hn & Hmm & Hx & Ho). exists m'. split; [exact E|].
  destruct Hm as (H1 & H2 & H3). split; [|split].
  - split; [congruence|]. split; [congruence|]. unfold mat_wf in Hw. rewrite Hw, Hn, Hmm, H1, H2. reflexivity.
  - unfold entry. rewrite Hx. reflexivity.
  - intros a b Ha Hb Hne. unfold entry. rewrite Ho; [reflexivity| |exact Hne]. unfold in_range. rewrite H1, H2. auto.
Qed.

(** One pair. *)
Lemma fold_pair m i j : square m -> (i < n)%nat -> (j < n)%nat -> i <> j -> in_isize (total_flow (entry m i j) (entry m j i)) ->
  exists m', sr_fold_pair debug m (i, j) = Some m' /\ square m' /\
  entry m' i j = total_flow (entry m i j) (entry m j i) /\ entry m' j i = total_flow (entry m i j) (entry m j i) /\
  forall a b, (a < n)%nat -> (b < n)%nat -> (a, b) <> (i, j) -> (a, b) <> (j, i) -> entry m' a b = entry m a b.
Proof.
  intros Hm Hi Hj Hne Hs. unfold sr_fold_pair. rewrite (entry_some m i j Hm Hi Hj), (entry_some m j i Hm Hj Hi). cbn [obind]. unfold total_flow in *.
  destruct (Z.eqb_spec (entry m i j) (entry m j i)) as [E|E].
  - exists m. repeat split; auto; apply Hm.
  - rewrite (iadd_ok debug _ _ Hs). cbn [obind]. destruct (set_some m i j (entry m i j + entry m j i) Hm Hi Hj) as (m1 & E1 & S1 & V1 & O1). rewrite E1. cbn [obind].
    rewrite (entry_some m1 i j S1 Hi Hj). cbn [obind]. destruct (set_some m1 j i (entry m1 i j) S1 Hj Hi) as (m2 & E2 & S2 & V2 & O2). exists m2. split; [exact E2|]. split; [exact S2|].
    split; [rewrite O2, V1; congruence|]. split; [congruence|]. intros a b Ha Hb H1 H2. rewrite O2, O1; auto.
Qed.
(** All of them. *)
Lemma fold_pairs l : NoDup l -> (forall p, In p l -> (fst p < snd p < n)%nat) -> forall m, square m ->
  (forall i j, In (i, j) l -> in_isize (total_flow (entry m i j) (entry m j i))) -> exists m', ofold (sr_fold_pair debug) l m = Some m' /\ square m' /\
  (forall i j, In (i, j) l -> entry m' i j = total_flow (entry m i j) (entry m j i) /\ entry m' j i = total_flow (entry m i j) (entry m j i)) /\
  forall a b, (a < n)%nat -> (b < n)%nat -> ~ In (a, b) l -> ~ In (b, a) l -> entry m' a b = entry m a b.
Proof.
  induction l as [|[i j] l IH]; intros Hnd Hr m Hm Hs.
  - exists m. split; [reflexivity|]. split; [exact Hm|]. split; [intros ? ? []|auto].
  - inversion Hnd as [|? ? Hni Hnd']; subst. pose proof (Hr _ (or_introl eq_refl)) as Hij. cbn [fst snd] in Hij.
    destruct (fold_pair m i j Hm ltac:(lia) ltac:(lia) ltac:(lia) (Hs i j (or_introl eq_refl))) as (m1 & E1 & S1 & V1 & W1 & O1).
    assert (~ In (j, i) l) as Hji. { intros H. specialize (Hr _ (or_intror H)). cbn [fst snd] in Hr. lia. }
    assert (forall a b, In (a, b) l -> entry m1 a b = entry m a b /\ entry m1 b a = entry m b a) as Hold.
    { intros a b Hab. pose proof (Hr _ (or_intror Hab)) as Hab'. cbn [fst snd] in Hab'.
      split; apply O1; try lia; intros H; inversion H; subst; try contradiction; lia. }
    destruct (IH Hnd' (fun p Hp => Hr p (or_intror Hp)) m1 S1) as (m2 & E2 & S2 & V2 & O2).
    { intros a b Hab. destruct (Hold a b Hab) as [-> ->]. apply Hs. right. exact Hab. }
    exists m2. cbn [ofold]. rewrite E1. cbn [obind]. split; [exact E2|]. split; [exact S2|].
    split.
    + intros a b [Hab|Hab].
      * inversion Hab; subst a b. rewrite (O2 i j), (O2 j i) by (auto; lia). auto.
      * specialize (V2 a b Hab). destruct (Hold a b Hab) as [Ea Eb]. rewrite Ea, Eb in V2. exact V2.
    + intros a b Ha Hb H1 H2. rewrite O2 by (cbn in H1, H2; tauto). apply O1; [exact Ha|exact Hb|intros E; apply H1; left; congruence|]. intros E. apply H2. left. inversion E. congruence.
Qed.
Lemma pairs_in i j : In (i, j) (sr_pairs n) <-> (i < j < n)%nat.
Proof.
  unfold sr_pairs. rewrite in_flat_map. split.
  - intros (x & Hx & H). apply in_seq in Hx. apply in_map_iff in H. destruct H as (y & E & Hy). inversion E; subst. apply in_seq in Hy. lia.
  - intros H. exists i. split; [apply in_seq; lia|]. apply in_map. apply in_seq. lia.
Qed.
Lemma pairs_nodup : NoDup (sr_pairs n).
Proof. rewrite sr_pairs_upairs. apply (upairs_ordered (seq 0 n)). apply seq_sorted. Qed.

Lemma flows_values m : square m -> (forall i j, (i < n)%nat -> (j < n)%nat -> i <> j -> in_isize (total_flow (entry m i j) (entry m j i))) ->
  exists m', sr_fold_flows debug n m = Some m' /\ square m' /\
  forall i j, (i < n)%nat -> (j < n)%nat -> entry m' i j = if Nat.eqb i j then entry m i j else total_flow (entry m i j) (entry m j i).
Proof.
  intros Hm Hs. destruct (fold_pairs (sr_pairs n) pairs_nodup) with (m := m) as (m' & E & S' & V & O); [|exact Hm| |].
  - intros [i j] H. apply pairs_in in H. exact H.
  - intros i j H. apply pairs_in in H. apply Hs; lia.
  - exists m'. split; [exact E|]. split; [exact S'|]. intros i j Hi Hj. destruct (Nat.eqb_spec i j) as [<-|Hne].
    + apply O; auto; rewrite pairs_in; lia.
    + destruct (Nat.lt_ge_cases i j) as [H|H].
      * apply (V i j). apply pairs_in. lia.
      * rewrite total_sym. apply (V j i). apply pairs_in. lia.
Qed.
Theorem flows_folded m : square m -> (forall i j, (i < n)%nat -> (j < n)%nat -> i <> j -> in_isize (total_flow (entry m i j) (entry m j i))) ->
  exists m', sr_fold_flows debug n m = Some m' /\ square m' /\
  forall i j, (i < n)%nat -> (j < n)%nat -> entry m' i j = entry m' j i /\ entry m' i j = if Nat.eqb i j then entry m i j else total_flow (entry m i j) (entry m j i).
Proof.
  intros Hm Hs. destruct (flows_values m Hm Hs) as (m' & E & S' & V). exists m'. split; [exact E|]. split; [exact S'|]. intros i j Hi Hj. split; [|apply V; assumption].
  rewrite (V i j Hi Hj), (V j i Hj Hi), (Nat.eqb_sym j i). destruct (Nat.eqb_spec i j) as [->|_]; [reflexivity|apply total_sym].
Qed.
End Flows.
