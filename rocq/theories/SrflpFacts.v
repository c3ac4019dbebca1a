(** The functions of the SRFLP example, described without their loops. *)
From Verif Require Import Spec Srflp SrflpSpec Bits BitsFacts MatrixFacts PspFacts.
From Coq Require Import Lia.
Open Scope Z_scope.

Definition wo (i : nat) (l : list nat) : list nat := filter (fun j => negb (Nat.eqb j i)) l.
Definition mins (q : nat) (l : list Z) : Z := zsum (firstn q (zsort l)).

Lemma in_wo i l j : In j (wo i l) <-> In j l /\ j <> i.
Proof. unfold wo. rewrite filter_In, negb_true_iff, Nat.eqb_neq. tauto. Qed.
Lemma wo_nodup i l : NoDup l -> NoDup (wo i l).
Proof. apply NoDup_filter. Qed.
Lemma wo_notin i l : ~ In i l -> wo i l = l.
Proof.
  induction l as [|x l IH]; intros H; [reflexivity|]. unfold wo in *. cbn [filter]. destruct (Nat.eqb_spec x i) as [->|Hx]; cbn [negb].
  - exfalso. apply H. left. reflexivity.
  - f_equal. apply IH. intros Hi. apply H. right. exact Hi.
Qed.
Lemma wo_perm i l : NoDup l -> In i l -> Permutation l (i :: wo i l).
Proof.
  intros Hd Hi. apply NoDup_Permutation; [exact Hd| |].
  - constructor; [|apply wo_nodup; exact Hd]. rewrite in_wo. tauto.
  - intros j. cbn [In]. rewrite in_wo. destruct (Nat.eq_dec j i) as [->|]; [tauto|]. split; [tauto|]. intros [E|E]; [subst; exact Hi|tauto].
Qed.
Lemma wo_length i l : NoDup l -> In i l -> length l = S (length (wo i l)).
Proof. intros Hd Hi. apply (Permutation_length (wo_perm i l Hd Hi)). Qed.

Lemma nodup_filter_seq f n : NoDup (filter f (seq 0 n)).
Proof. apply NoDup_filter, seq_NoDup. Qed.
Lemma filter_ext_seq f g n : (forall i, (i < n)%nat -> f i = g i) -> filter f (seq 0 n) = filter g (seq 0 n).
Proof.
  intros H. assert (forall i, In i (seq 0 n) -> f i = g i) as H' by (intros i Hi; apply H; apply in_seq in Hi; lia). revert H'.
  generalize (seq 0 n). induction l as [|x l IH]; intros H'; [reflexivity|]. cbn [filter]. rewrite (H' x) by (left; reflexivity). rewrite IH; [reflexivity|]. intros i Hi. apply H'. right. exact Hi.
Qed.
Lemma filter_nothing l : filter (fun _ : nat => false) l = [].
Proof. induction l; cbn; auto. Qed.
Lemma filter_length_le {A} (f g : A -> bool) l : (forall x, In x l -> f x = true -> g x = true) -> (length (filter f l) <= length (filter g l))%nat.
Proof.
  induction l as [|x l IH]; intros H; [cbn; lia|]. cbn [filter]. assert (length (filter f l) <= length (filter g l))%nat as Hl by (apply IH; intros y Hy; apply H; right; exact Hy).
  pose proof (H x (or_introl eq_refl)) as Hx. destruct (f x), (g x); cbn [length]; try lia.
Qed.
Lemma filter_length_or {A} (f g : A -> bool) l : (forall x, In x l -> f x = true -> g x = true -> False) ->
  length (filter (fun x => f x || g x) l) = (length (filter f l) + length (filter g l))%nat.
Proof.
  induction l as [|x l IH]; intros H; [reflexivity|]. cbn [filter].
  specialize (IH (fun y Hy => H y (or_intror Hy))). pose proof (H x (or_introl eq_refl)) as Hx. destruct (f x), (g x); cbn [orb length]; try lia.
Qed.

Lemma usub_chain debug l : forall c : Z, Z.of_nat (length l) <= c -> ofold (fun c (_ : nat) => usub debug c 1) l c = Some (c - Z.of_nat (length l)).
Proof.
  induction l as [|x l IH]; intros c Hc; cbn [ofold length]; [f_equal; cbn; lia|]. cbn [length] in Hc. rewrite usub_some by lia. cbn [obind]. rewrite IH by lia. f_equal. lia.
Qed.

Section Facts.
Variable debug : bool.
Variable I : sr_inst.
Variables F L : Z.
Hypothesis Hok : sr_ok I F L.
Let n := sr_n I.

Lemma mat_flow i j : (i < n)%nat -> (j < n)%nat -> mat_get (sr_flow I) i j = Some (flow I i j).
Proof.
  intros Hi Hj. destruct (so_flow _ _ _ Hok) as (H1 & H2 & H3). fold n in H1. fold n in H2. fold n in H3.
  destruct (mat_total (sr_flow I) i j) as (x & Hx); [unfold mat_wf; rewrite H1, H2; exact H3|unfold in_range; rewrite H1, H2; auto|].
  unfold flow. rewrite Hx. reflexivity.
Qed.
Lemma len_some i : (i < n)%nat -> nth_error (sr_len I) i = Some (len I i).
Proof. intros Hi. apply nth_error_nth'. rewrite (so_len _ _ _ Hok). exact Hi. Qed.
Lemma cut_some s i : length (sr_cut s) = n -> (i < n)%nat -> nth_error (sr_cut s) i = Some (cut s i).
Proof. intros Hs Hi. apply nth_error_nth'. rewrite Hs. exact Hi. Qed.

Lemma nth_upd (l : list Z) i x l' : upd l i x = Some l' -> forall j, nth j l' 0 = if Nat.eqb j i then x else nth j l 0.
Proof.
  intros H j. pose proof (upd_nth l i x l' H j) as Hj. destruct (Nat.eqb j i).
  - apply nth_error_nth. exact Hj.
  - destruct (nth_error l j) as [y|] eqn:E.
    + rewrite (nth_error_nth _ _ 0 E). apply nth_error_nth. exact Hj.
    + apply nth_error_None in E. apply nth_error_None in Hj. rewrite !nth_overflow by assumption. reflexivity.
Qed.

Lemma add_flows_spec d l : (d < n)%nat -> NoDup l -> (forall i, In i l -> (i < n)%nat) -> forall c, length c = n ->
  exists c', add_flows I d l c = Some c' /\ length c' = n /\
    forall j, nth j c' 0 = nth j c 0 + if in_dec Nat.eq_dec j l then flow I d j else 0.
Proof.
  intros Hd Hl Hb. unfold add_flows. induction Hl as [|x l Hx Hl IH]; intros c Hc; cbn [ofold].
  - exists c. split; [reflexivity|]. split; [exact Hc|]. intros j. cbn. lia.
  - pose proof (Hb x (or_introl eq_refl)) as Hxn. rewrite (nth_error_nth' c 0) by lia. cbn [obind]. rewrite (mat_flow d x Hd Hxn). cbn [obind].
    destruct (upd_some c x (nth x c 0 + flow I d x) ltac:(lia)) as (c1 & H1). rewrite H1.
    destruct (IH (fun i Hi => Hb i (or_intror Hi)) c1) as (c' & H2 & H3 & H4); [rewrite (upd_length _ _ _ _ H1); exact Hc|].
    exists c'. split; [exact H2|]. split; [exact H3|]. intros j. rewrite H4, (nth_upd _ _ _ _ H1).
    destruct (Nat.eqb_spec j x) as [->|Hj].
    + destruct (in_dec Nat.eq_dec x l) as [|_]; [contradiction|]. destruct (in_dec Nat.eq_dec x (x :: l)) as [|Hn]; [lia|]. exfalso. apply Hn. left. reflexivity.
    + destruct (in_dec Nat.eq_dec j l) as [Hi|Hi], (in_dec Nat.eq_dec j (x :: l)) as [Hi'|Hi']; try lia.
      * exfalso. apply Hi'. right. exact Hi.
      * destruct Hi' as [|Hi']; [congruence|contradiction].
Qed.

Definition mustl (s : sr_state) : list nat := filter (must s) (seq 0 n).
Definition maybel (s : sr_state) : list nat := filter (maybe s) (seq 0 n).
Lemma mustl_eq s : bs_iter n (sr_must s) = mustl s.
Proof. reflexivity. Qed.
Lemma maybel_some s m : sr_maybe s = Some m -> bs_iter n m = maybel s.
Proof. intros E. unfold bs_iter, maybel. apply filter_ext_seq. intros i _. unfold maybe. rewrite E. reflexivity. Qed.
Lemma maybel_none s : sr_maybe s = None -> maybel s = [].
Proof. intros E. unfold maybel. rewrite (filter_ext_seq _ (fun _ => false)); [apply filter_nothing|]. intros i _. unfold maybe. rewrite E. reflexivity. Qed.
Lemma maybel_match s : match sr_maybe s with Some m => bs_iter n m | None => [] end = maybel s.
Proof. destruct (sr_maybe s) as [m|] eqn:E; [apply maybel_some; exact E|symmetry; apply maybel_none; exact E]. Qed.

Lemma size_must s : size I (must s) = length (mustl s).
Proof. reflexivity. Qed.
Lemma size_maybe s : size I (maybe s) = length (maybel s).
Proof. reflexivity. Qed.
Lemma size_free k s : sr_layer I F k s -> size I (free s) = (length (mustl s) + length (maybel s))%nat.
Proof. intros Hs. apply filter_length_or. intros i _. apply (sl_disjoint _ _ _ _ Hs). Qed.
Lemma in_mustl k s i : sr_layer I F k s -> In i (mustl s) <-> must s i = true.
Proof.
  intros Hs. unfold mustl. rewrite filter_In, in_seq. split; [tauto|]. intros H. split; [|exact H].
  pose proof (sl_bits _ _ _ _ Hs i) as Hb. unfold free in Hb. rewrite H in Hb. cbn in Hb. specialize (Hb eq_refl). fold n in Hb. lia.
Qed.
Lemma in_maybel k s i : sr_layer I F k s -> In i (maybel s) <-> maybe s i = true.
Proof.
  intros Hs. unfold maybel. rewrite filter_In, in_seq. split; [tauto|]. intros H. split; [|exact H].
  pose proof (sl_bits _ _ _ _ Hs i) as Hb. unfold free in Hb. rewrite H, orb_true_r in Hb. specialize (Hb eq_refl). fold n in Hb. lia.
Qed.
Lemma mustl_nodup s : NoDup (mustl s).
Proof. apply nodup_filter_seq. Qed.
Lemma maybel_nodup s : NoDup (maybel s).
Proof. apply nodup_filter_seq. Qed.

(** *** The domain *)

(** The departments that may be placed next. *)
Definition placeable (k : nat) (s : sr_state) (i : nat) : Prop :=
  must s i = true \/ (maybe s i = true /\ (size I (must s) < n - k)%nat).

Lemma placeable_free k s i : placeable k s i -> free s i = true.
Proof. unfold free. intros [->|[-> _]]; [reflexivity|apply orb_true_r]. Qed.
Lemma placeable_lt k s i : sr_layer I F k s -> placeable k s i -> (i < n)%nat.
Proof. intros Hs Hi. apply (sl_bits _ _ _ _ Hs). apply (placeable_free k). exact Hi. Qed.

Lemma domain_eq k s v : sr_layer I F k s ->
  sr_domain debug I v s = Some (map (fun i => mk_dec v (Z.of_nat i)) (mustl s ++ if (size I (must s) <? n - k)%nat then maybel s else [])).
Proof.
  intros Hs. destruct (sl_depth _ _ _ _ Hs) as [Hk Hd]. pose proof (sl_must _ _ _ _ Hs) as Hm. fold n in Hk. fold n in Hm. rewrite size_must in *.
  unfold sr_domain. fold n. rewrite Hd, usub_some by lia. cbn [obind]. rewrite mustl_eq, usub_chain by lia. cbn [obind]. f_equal. f_equal. f_equal.
  rewrite maybel_match. destruct (Nat.ltb_spec (length (mustl s)) (n - k)) as [H|H]; destruct (Z.ltb_spec 0 (Z.of_nat n - Z.of_nat k - Z.of_nat (length (mustl s)))); try lia; reflexivity.
Qed.
Lemma domain_in k s d v : sr_layer I F k s ->
  In d (or_else [] (sr_domain debug I v s)) <-> exists i, placeable k s i /\ d = mk_dec v (Z.of_nat i).
Proof.
  intros Hs. rewrite (domain_eq k s v Hs). cbn [or_else]. rewrite in_map_iff. unfold placeable.
  split.
  - intros (i & <- & Hi). exists i. split; [|reflexivity]. apply in_app_or in Hi. destruct Hi as [Hi|Hi].
    + left. apply (in_mustl k s i Hs). exact Hi.
    + right. destruct (Nat.ltb_spec (size I (must s)) (n - k)); [|destruct Hi]. split; [|assumption]. apply (in_maybel k s i Hs). exact Hi.
  - intros (i & Hi & ->). exists i. split; [reflexivity|]. apply in_or_app. destruct Hi as [Hi|[Hi Hlt]].
    + left. apply (in_mustl k s i Hs). exact Hi.
    + right. rewrite (proj2 (Nat.ltb_lt _ _) Hlt). apply (in_maybel k s i Hs). exact Hi.
Qed.

(** *** The transition *)

(** What the state becomes when department [i] is placed. *)
Record placed (s : sr_state) (i : nat) (s' : sr_state) : Prop := {
  pd_must : forall j, must s' j = negb (Nat.eqb j i) && must s j;
  pd_maybe : forall j, maybe s' j = negb (Nat.eqb j i) && maybe s j;
  pd_depth : sr_depth s' = S (sr_depth s);
  pd_len : length (sr_cut s') = n;
  pd_cut : forall j, free s' j = true -> cut s' j = cut s j + flow I i j }.

Lemma trans_spec k s i v : sr_layer I F k s -> (i < n)%nat ->
  exists s', sr_trans I s (mk_dec v (Z.of_nat i)) = Some s' /\ placed s i s'.
Proof.
  intros Hs Hi. pose proof (sl_len _ _ _ _ Hs) as Hlen. fold n in Hlen.
  unfold sr_trans. cbn [d_val]. rewrite Nat2Z.id. fold n. rewrite (proj2 (Nat.ltb_lt _ _) Hi).
  destruct (upd_some (sr_cut s) i 0 ltac:(lia)) as (c0 & H0). rewrite H0. cbn [obind].
  assert (length c0 = n) as L0 by (rewrite (upd_length _ _ _ _ H0); exact Hlen).
  set (rem := bs_off (sr_must s) i).
  assert (forall j, In j (bs_iter n rem) <-> (j < n)%nat /\ j <> i /\ must s j = true) as Hrem.
  { intros j. rewrite in_bs_iter. unfold rem. rewrite get_off, andb_true_iff, negb_true_iff, Nat.eqb_neq. tauto. }
  destruct (add_flows_spec i (bs_iter n rem) Hi (nodup_bs_iter n rem) (fun j Hj => proj1 (proj1 (Hrem j) Hj)) c0 L0) as (c1 & H1 & L1 & V1). rewrite H1. cbn [obind].
  set (may := option_map (fun m => bs_off m i) (sr_maybe s)).
  assert (exists c2, match may with Some m => add_flows I i (bs_iter n m) c1 | None => Some c1 end = Some c2 /\ length c2 = n /\
    forall j, (j < n)%nat -> nth j c2 0 = nth j c1 0 + if negb (Nat.eqb j i) && maybe s j then flow I i j else 0) as (c2 & H2 & L2 & V2).
  { unfold may, maybe. destruct (sr_maybe s) as [m|]; cbn [option_map].
    - assert (forall j, In j (bs_iter n (bs_off m i)) <-> (j < n)%nat /\ negb (Nat.eqb j i) && bs_get m j = true) as Hm.
      { intros j. rewrite in_bs_iter, get_off. tauto. }
      destruct (add_flows_spec i (bs_iter n (bs_off m i)) Hi (nodup_bs_iter n _) (fun j Hj => proj1 (proj1 (Hm j) Hj)) c1 L1) as (c2 & H2 & L2 & V2).
      exists c2. split; [exact H2|]. split; [exact L2|]. intros j Hj. rewrite V2. f_equal.
      destruct (in_dec Nat.eq_dec j (bs_iter n (bs_off m i))) as [Hin|Hin], (negb (Nat.eqb j i) && bs_get m j) eqn:E; try reflexivity.
      + apply Hm in Hin. destruct Hin. congruence.
      + exfalso. apply Hin. apply Hm. auto.
    - exists c1. split; [reflexivity|]. split; [exact L1|]. intros j Hj. rewrite andb_false_r. lia. }
  rewrite H2. cbn [obind]. eexists. split; [reflexivity|].
  assert (forall j, must {| sr_must := rem; sr_maybe := may; sr_cut := c2; sr_depth := S (sr_depth s) |} j = negb (Nat.eqb j i) && must s j) as Pm.
  { intros j. unfold must, rem. cbn [sr_must]. apply get_off. }
  assert (forall j, maybe {| sr_must := rem; sr_maybe := may; sr_cut := c2; sr_depth := S (sr_depth s) |} j = negb (Nat.eqb j i) && maybe s j) as Py.
  { intros j. unfold maybe, may. cbn [sr_maybe]. destruct (sr_maybe s) as [m|]; cbn [option_map]; [apply get_off|]. rewrite andb_false_r. reflexivity. }
  constructor; try assumption; try reflexivity.
  intros j Hj. unfold free in Hj. rewrite Pm, Py, <- andb_orb_distrib_r in Hj. apply andb_prop in Hj. destruct Hj as [Hji Hf].
  pose proof (sl_bits _ _ _ _ Hs j Hf) as Hjn. fold n in Hjn. unfold cut at 1. cbn [sr_cut]. rewrite (V2 j Hjn), V1, (nth_upd _ _ _ _ H0).
  apply negb_true_iff in Hji. rewrite Hji. cbn [negb andb]. apply Nat.eqb_neq in Hji. unfold free in Hf. fold (cut s j).
  destruct (in_dec Nat.eq_dec j (bs_iter n rem)) as [Hin|Hin].
  - apply Hrem in Hin. destruct Hin as (_ & _ & Hin). destruct (maybe s j) eqn:E; [exfalso; apply (sl_disjoint _ _ _ _ Hs j Hin E)|]. lia.
  - destruct (must s j) eqn:E; [exfalso; apply Hin; apply Hrem; auto|]. cbn [orb] in Hf. rewrite Hf. lia.
Qed.

Lemma placed_mustl s i s' : placed s i s' -> mustl s' = wo i (mustl s).
Proof.
  intros H. unfold mustl, wo. rewrite <- (filter_ext_seq (fun j => must s j && negb (Nat.eqb j i))); [|intros j _; rewrite (pd_must _ _ _ H); apply andb_comm].
  generalize (seq 0 n). induction l as [|x l IH]; [reflexivity|]. cbn [filter]. destruct (must s x); cbn [andb filter]; [destruct (negb (Nat.eqb x i)); rewrite IH; reflexivity|exact IH].
Qed.
Lemma placed_maybel s i s' : placed s i s' -> maybel s' = wo i (maybel s).
Proof.
  intros H. unfold maybel, wo. rewrite <- (filter_ext_seq (fun j => maybe s j && negb (Nat.eqb j i))); [|intros j _; rewrite (pd_maybe _ _ _ H); apply andb_comm].
  generalize (seq 0 n). induction l as [|x l IH]; [reflexivity|]. cbn [filter]. destruct (maybe s x); cbn [andb filter]; [destruct (negb (Nat.eqb x i)); rewrite IH; reflexivity|exact IH].
Qed.
Lemma placed_free s i s' j : placed s i s' -> free s' j = negb (Nat.eqb j i) && free s j.
Proof. intros H. unfold free. rewrite (pd_must _ _ _ H), (pd_maybe _ _ _ H), <- andb_orb_distrib_r. reflexivity. Qed.

Lemma layer_placed k s i s' : sr_layer I F k s -> (k < n)%nat -> placeable k s i -> placed s i s' -> sr_layer I F (S k) s'.
Proof.
  intros Hs Hk Hi H. pose proof (placeable_lt k s i Hs Hi) as Hin. destruct (sl_depth _ _ _ _ Hs) as [_ Hd].
  pose proof (sl_must _ _ _ _ Hs) as Hm. pose proof (sl_free _ _ _ _ Hs) as Hf. rewrite (size_free k s Hs) in Hf. rewrite size_must in Hm.
  fold n in Hm. fold n in Hf.
  assert (forall j, must s' j = true -> maybe s' j = true -> False) as Hdis.
  { intros j. rewrite (pd_must _ _ _ H), (pd_maybe _ _ _ H). intros H1 H2. apply andb_prop in H1. apply andb_prop in H2. apply (sl_disjoint _ _ _ _ Hs j); tauto. }
  assert (size I (free s') = (length (mustl s') + length (maybel s'))%nat) as Hsz by (apply filter_length_or; intros j _; apply Hdis).
  rewrite (placed_mustl _ _ _ H), (placed_maybel _ _ _ H) in Hsz.
  assert (length (wo i (mustl s)) <= n - S k /\ n - S k <= length (wo i (mustl s)) + length (wo i (maybel s)))%nat as [Hm' Hf'].
  { destruct Hi as [Hi|[Hi Hlt]].
    - assert (~ In i (maybel s)) as Hni by (rewrite (in_maybel k s i Hs); intros Hy; apply (sl_disjoint _ _ _ _ Hs i Hi Hy)).
      rewrite (wo_notin i (maybel s) Hni). apply (in_mustl k s i Hs) in Hi. pose proof (wo_length i (mustl s) (mustl_nodup s) Hi). lia.
    - assert (~ In i (mustl s)) as Hni by (rewrite (in_mustl k s i Hs); intros Hy; apply (sl_disjoint _ _ _ _ Hs i Hy Hi)).
      rewrite (wo_notin i (mustl s) Hni). apply (in_maybel k s i Hs) in Hi. pose proof (wo_length i (maybel s) (maybel_nodup s) Hi). rewrite size_must in Hlt. lia. }
  constructor.
  - rewrite (pd_depth _ _ _ H), Hd. fold n. lia.
  - intros j Hj. rewrite (placed_free _ _ _ j H) in Hj. apply andb_prop in Hj. apply (sl_bits _ _ _ _ Hs j). tauto.
  - exact Hdis.
  - rewrite size_must, (placed_mustl _ _ _ H). exact Hm'.
  - fold n. rewrite Hsz. exact Hf'.
  - apply (pd_len _ _ _ H).
  - intros j Hj. rewrite (pd_cut _ _ _ H j Hj). rewrite (placed_free _ _ _ j H) in Hj. apply andb_prop in Hj. destruct Hj as [_ Hj].
    pose proof (sl_cut _ _ _ _ Hs j Hj). pose proof (so_flow_range _ _ _ Hok i j Hin (sl_bits _ _ _ _ Hs j Hj)). nia.
Qed.

(** *** The cost *)

(** What placing department [i] costs: its length, crossed by the flows from what is placed to what is left to place; of the
    departments that may be placed, those with the least flow are counted. *)
Definition crossing (k : nat) (s : sr_state) (i : nat) : Z :=
  zsum (map (cut s) (wo i (mustl s))) + mins (n - S k - length (wo i (mustl s))) (map (cut s) (wo i (maybel s))).

Lemma cost_loop s i l : length (sr_cut s) = n -> (forall j, In j l -> (j < n)%nat) -> forall a c, Z.of_nat (length (wo i l)) <= c ->
  ofold (fun acc j => let '(cut, complete) := acc in
        if Nat.eqb j i then Some acc
        else do c <- nth_error (sr_cut s) j; do complete' <- usub debug complete 1; Some (cut + c, complete')) l (a, c)
  = Some (a + zsum (map (cut s) (wo i l)), c - Z.of_nat (length (wo i l))).
Proof.
  intros Hlen. induction l as [|x l IH]; intros Hl a c Hc; cbn [ofold].
  - cbn. f_equal. f_equal; lia.
  - unfold wo in *. cbn [filter] in *. destruct (Nat.eqb x i); cbn [negb] in *.
    + cbn [obind]. apply IH; [|exact Hc]. intros j Hj. apply Hl. right. exact Hj.
    + cbn [length] in Hc. rewrite (cut_some s x Hlen (Hl x (or_introl eq_refl))). cbn [obind]. rewrite usub_some by lia. cbn [obind].
      rewrite IH; [|intros j Hj; apply Hl; right; exact Hj|lia]. cbn [map length]. rewrite zsum_cons. f_equal. f_equal; lia.
Qed.

Lemma wo_must_le k s i : sr_layer I F k s -> (k < n)%nat -> placeable k s i -> (length (wo i (mustl s)) <= n - S k)%nat.
Proof.
  intros Hs Hk Hi. destruct (trans_spec k s i 0%nat Hs (placeable_lt k s i Hs Hi)) as (s' & _ & Hp).
  pose proof (layer_placed k s i s' Hs Hk Hi Hp) as Hl. pose proof (sl_must _ _ _ _ Hl) as Hm. rewrite size_must, (placed_mustl _ _ _ Hp) in Hm. exact Hm.
Qed.

Lemma cost_spec k s i v : sr_layer I F k s -> (k < n)%nat -> placeable k s i ->
  sr_cost debug I s (mk_dec v (Z.of_nat i)) = Some (- (len I i * crossing k s i)).
Proof.
  intros Hs Hk Hi. pose proof (placeable_lt k s i Hs Hi) as Hin. destruct (sl_depth _ _ _ _ Hs) as [_ Hd]. pose proof (sl_len _ _ _ _ Hs) as Hlen. fold n in Hlen.
  pose proof (wo_must_le k s i Hs Hk Hi) as Hle.
  unfold sr_cost. cbn [d_val]. rewrite Nat2Z.id. fold n. rewrite Hd, usub_some by lia. cbn [obind]. rewrite mustl_eq.
  rewrite cost_loop; [|exact Hlen|intros j Hj; apply filter_In in Hj; destruct Hj as [Hj _]; apply in_seq in Hj; lia|lia]. cbn [obind].
  set (q := Z.of_nat n - (Z.of_nat k + 1) - Z.of_nat (length (wo i (mustl s)))).
  assert (q = Z.of_nat (n - S k - length (wo i (mustl s)))) as Hq by (unfold q; lia).
  assert ((if 0 <? q then
             match sr_maybe s with
             | Some m => do temp <- omap (fun j => nth_error (sr_cut s) j) (filter (fun j => negb (Nat.eqb j i)) (bs_iter n m));
                         Some (0 + zsum (map (cut s) (wo i (mustl s))) + zsum (take q (zsort temp)))
             | None => Some (0 + zsum (map (cut s) (wo i (mustl s))))
             end
           else Some (0 + zsum (map (cut s) (wo i (mustl s))))) = Some (crossing k s i)) as ->.
  { unfold crossing, mins. destruct (Z.ltb_spec 0 q) as [Hpos|Hpos].
    - destruct (sr_maybe s) as [m|] eqn:E.
      + rewrite (maybel_some s m E). fold (wo i (maybel s)). rewrite (omap_some _ (cut s)).
        * cbn [obind]. f_equal. rewrite take_eq by lia. rewrite Hq, Nat2Z.id. lia.
        * intros j Hj. apply in_wo in Hj. destruct Hj as [Hj _]. apply filter_In in Hj. destruct Hj as [Hj _]. apply in_seq in Hj. apply cut_some; [exact Hlen|lia].
      + rewrite (maybel_none s E). cbn. rewrite firstn_nil. cbn. f_equal. lia.
    - replace (n - S k - length (wo i (mustl s)))%nat with 0%nat by lia. cbn. f_equal. lia. }
  cbn [obind]. rewrite (len_some i Hin). cbn [obind]. f_equal. lia.
Qed.

(** *** The initial state and the next variable *)
Lemma init_must i : must (sr_init I) i = (i <? n)%nat.
Proof. unfold must, sr_init. cbn [sr_must]. apply get_all. Qed.
Lemma init_maybe i : maybe (sr_init I) i = false.
Proof. reflexivity. Qed.
Lemma init_mustl : mustl (sr_init I) = seq 0 n.
Proof.
  unfold mustl. rewrite (filter_ext_seq _ (fun _ => true)); [|intros i Hi; rewrite init_must; apply Nat.ltb_lt; exact Hi]. induction (seq 0 n); cbn; congruence.
Qed.
Lemma init_layer : sr_layer I F 0 (sr_init I).
Proof.
  assert (forall i, free (sr_init I) i = (i <? n)%nat) as Hf by (intros i; unfold free; rewrite init_must, init_maybe; apply orb_false_r).
  constructor.
  - split; [lia|reflexivity].
  - intros i. rewrite Hf. apply Nat.ltb_lt.
  - intros i _ H. rewrite init_maybe in H. discriminate.
  - rewrite size_must, init_mustl, seq_length. fold n. lia.
  - unfold size. rewrite (filter_ext_seq _ (must (sr_init I))); [|intros i _; rewrite Hf, init_must; reflexivity]. fold n. fold (mustl (sr_init I)). rewrite init_mustl, seq_length. fold n. lia.
  - cbn. apply repeat_length.
  - intros i _. unfold cut, sr_init. cbn [sr_cut]. rewrite nth_repeat. lia.
Qed.

(** *** Panics of everything but the estimate *)
Theorem no_panic k s v : (k < n)%nat -> sr_layer I F k s ->
  exists l, sr_domain debug I v s = Some l /\
    forall d, In d l -> (exists s', sr_trans I s d = Some s') /\ (exists c, sr_cost debug I s d = Some c).
Proof.
  intros Hk Hs. eexists. split; [apply (domain_eq k); exact Hs|]. intros d Hd.
  assert (In d (or_else [] (sr_domain debug I v s))) as Hd' by (rewrite (domain_eq k s v Hs); exact Hd).
  apply (domain_in k) in Hd'; [|exact Hs]. destruct Hd' as (i & Hi & ->). split.
  - destruct (trans_spec k s i v Hs (placeable_lt k s i Hs Hi)) as (s' & H & _). exists s'. exact H.
  - eexists. apply (cost_spec k); assumption.
Qed.
End Facts.
