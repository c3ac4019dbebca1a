(** Merging in the SRFLP example: what the merged state is, and that it simulates the states it stands for. *)
From Verif Require Import Spec DdSpec Srflp SrflpSpec Bits BitsFacts MatrixFacts PspFacts SrflpFacts SrflpLayouts.
From Coq Require Import Lia.
Open Scope Z_scope.

Lemma perm_sub (a l : list nat) : NoDup a -> NoDup l -> incl a l -> exists r, Permutation l (a ++ r).
Proof.
  intros Ha Hl Hi. exists (filter (fun x => if in_dec Nat.eq_dec x a then false else true) l).
  apply NoDup_Permutation; [exact Hl| |].
  - revert Ha. clear Hi. assert (forall x, In x (filter (fun x => if in_dec Nat.eq_dec x a then false else true) l) -> ~ In x a) as Hd.
    { intros x Hx. apply filter_In in Hx. destruct Hx as [_ Hx]. destruct (in_dec Nat.eq_dec x a); [discriminate|assumption]. }
    pose proof (NoDup_filter (fun x => if in_dec Nat.eq_dec x a then false else true) Hl) as Hf. revert Hd Hf. generalize (filter (fun x => if in_dec Nat.eq_dec x a then false else true) l) as r.
    intros r Hd Hf Ha. induction Ha as [|x a Hx Ha IH]; [exact Hf|]. cbn. constructor.
    + rewrite in_app_iff. intros [H|H]; [contradiction|]. apply (Hd x H). left. reflexivity.
    + apply IH. intros y Hy H. apply (Hd y Hy). right. exact H.
  - intros x. rewrite in_app_iff, filter_In. split.
    + intros H. destruct (in_dec Nat.eq_dec x a); [left; assumption|right; auto].
    + intros [H|[H _]]; [apply Hi; exact H|exact H].
Qed.
Lemma mins_attained (f : nat -> Z) l q : (q <= length l)%nat -> exists t r, Permutation l (t ++ r) /\ length t = q /\ mins q (map f l) = zsum (map f t).
Proof.
  intros Hq. destruct (Permutation_map_inv f l (Permutation_sym (zsort_perm (map f l)))) as (l' & E & Hp).
  exists (firstn q l'), (skipn q l'). split; [rewrite firstn_skipn; exact Hp|]. split.
  - apply firstn_length_le. rewrite <- (Permutation_length Hp). exact Hq.
  - unfold mins. rewrite E, firstn_map. reflexivity.
Qed.
Lemma mins_le (f : nat -> Z) l t r : Permutation l (t ++ r) -> mins (length t) (map f l) <= zsum (map f t).
Proof.
  intros H. unfold mins. rewrite <- (map_length f t). apply (smallest_le _ _ (map f r)). rewrite <- map_app. apply Permutation_map. exact H.
Qed.

Section Merge.
Variable debug : bool.
Variable I : sr_inst.
Variables F L : Z.
Hypothesis Hok : sr_ok I F L.
Let n := sr_n I.
Notation P := (sr_problem debug I).
Notation layer := (sr_layer I F).
Notation compl := (completion sr_state P sr_nv).
Notation plc := (placeable I).
Notation pld := (placed I).
Notation cross := (crossing I).
Notation next := (next debug I).

(** A choice of what will be placed after [i]. *)
Record choice (k : nat) (s : sr_state) (i : nat) (t : list nat) : Prop := {
  ch_nodup : NoDup t;
  ch_free : forall j, In j t -> free s j = true /\ j <> i;
  ch_must : forall j, must s j = true -> j <> i -> In j t;
  ch_length : length t = (n - Datatypes.S k)%nat }.

Lemma split_choice k s i t : layer k s -> choice k s i t -> exists u r,
  Permutation t (wo i (mustl I s) ++ u) /\ Permutation (wo i (maybel I s)) (u ++ r).
Proof.
  intros Hs Ht. destruct (perm_sub (wo i (mustl I s)) t) as (u & Hu); [apply wo_nodup, mustl_nodup|apply (ch_nodup _ _ _ _ Ht)| |].
  - intros j Hj. apply in_wo in Hj. destruct Hj as [Hj Hn]. apply (in_mustl I F k s j Hs) in Hj. apply (ch_must _ _ _ _ Ht); assumption.
  - assert (NoDup u) as Hnu.
    { pose proof (Permutation_NoDup Hu (ch_nodup _ _ _ _ Ht)) as H. clear - H. induction (wo i (mustl I s)) as [|x l IH]; [exact H|]. inversion H; subst. apply IH. assumption. }
    destruct (perm_sub u (wo i (maybel I s)) Hnu) as (r & Hr); [apply wo_nodup, maybel_nodup| |exists u, r; auto].
    intros j Hj. assert (In j t) as Hjt by (apply (Permutation_in _ (Permutation_sym Hu)); apply in_or_app; auto).
    destruct (ch_free _ _ _ _ Ht j Hjt) as [Hf Hn]. apply in_wo. split; [|exact Hn]. apply (in_maybel I F k s j Hs).
    unfold free in Hf. apply orb_prop in Hf. destruct Hf as [Hf|Hf]; [|exact Hf]. exfalso.
    pose proof (Permutation_NoDup Hu (ch_nodup _ _ _ _ Ht)) as H. apply in_split in Hj. destruct Hj as (u1 & u2 & ->). rewrite app_assoc in H. apply NoDup_remove_2 in H. apply H. rewrite !in_app_iff. left. left.
    apply in_wo. split; [|exact Hn]. apply (in_mustl I F k s j Hs). exact Hf.
Qed.

Lemma crossing_le k s i t : layer k s -> choice k s i t -> cross k s i <= zsum (map (cut s) t).
Proof.
  intros Hs Ht. destruct (split_choice k s i t Hs Ht) as (u & r & Hu & Hr).
  rewrite (zsum_map_perm (cut s) _ _ Hu), map_app, zsum_app. unfold crossing.
  pose proof (Permutation_length Hu) as El. rewrite app_length, (ch_length _ _ _ _ Ht) in El. unfold n in El.
  replace (sr_n I - Datatypes.S k - length (wo i (mustl I s)))%nat with (length u) by lia. pose proof (mins_le (cut s) _ _ _ Hr). lia.
Qed.

Lemma crossing_choice k s i : layer k s -> (k < n)%nat -> plc k s i -> exists t, choice k s i t /\ cross k s i = zsum (map (cut s) t).
Proof.
  intros Hs Hk Hi. pose proof (wo_must_le I F L Hok k s i Hs Hk Hi) as Hle.
  pose proof (next_layer debug I F L Hok k s i Hs Hk Hi) as Hn. pose proof (next_placed debug I F L Hok k s i Hs Hi) as Hp.
  pose proof (sl_free _ _ _ _ Hn) as Hf. rewrite (size_free I F (Datatypes.S k) _ Hn), (placed_mustl I s i _ Hp), (placed_maybel I s i _ Hp) in Hf.
  destruct (mins_attained (cut s) (wo i (maybel I s)) (n - Datatypes.S k - length (wo i (mustl I s)))) as (u & r & Hu & Lu & Eu); [unfold n; lia|].
  exists (wo i (mustl I s) ++ u). split; [|unfold crossing; fold n; rewrite Eu, map_app, zsum_app; reflexivity].
  assert (forall j, In j u -> In j (wo i (maybel I s))) as Hin by (intros j Hj; apply (Permutation_in _ (Permutation_sym Hu)); apply in_or_app; auto).
  assert (NoDup u) as Hnu.
  { pose proof (Permutation_NoDup Hu (wo_nodup i _ (maybel_nodup I s))) as H. clear - H. induction u as [|x l IH]; [constructor|]. inversion H; subst. constructor; [rewrite in_app_iff in *; tauto|auto]. }
  constructor.
  - assert (forall j, In j u -> ~ In j (wo i (mustl I s))) as Hd.
    { intros j Hj Hm. apply Hin, in_wo in Hj. apply in_wo in Hm. destruct Hj as [Hj _], Hm as [Hm _]. apply (in_maybel I F k s j Hs) in Hj. apply (in_mustl I F k s j Hs) in Hm. apply (sl_disjoint _ _ _ _ Hs j Hm Hj). }
    pose proof (wo_nodup i _ (mustl_nodup I s)) as Hw. revert Hd. clear - Hw Hnu. induction Hw as [|x l Hx Hl IH]; intros Hd; [exact Hnu|]. cbn. constructor.
    + rewrite in_app_iff. intros [H|H]; [contradiction|]. apply (Hd x H). left. reflexivity.
    + apply IH. intros y Hy H. apply (Hd y Hy). right. exact H.
  - intros j Hj. apply in_app_or in Hj. unfold free. destruct Hj as [Hj|Hj]; [|apply Hin in Hj]; apply in_wo in Hj; destruct Hj as [Hj Hne]; (split; [|exact Hne]).
    + apply (in_mustl I F k s j Hs) in Hj. rewrite Hj. reflexivity.
    + apply (in_maybel I F k s j Hs) in Hj. rewrite Hj. apply orb_true_r.
  - intros j Hj Hne. apply in_or_app. left. apply in_wo. split; [|exact Hne]. apply (in_mustl I F k s j Hs). exact Hj.
  - rewrite app_length, Lu. unfold n. lia.
Qed.

(** [m] can do whatever [s] can, at most as expensively. *)
Record covers (m s : sr_state) : Prop := {
  cv_must : forall i, must m i = true -> must s i = true;
  cv_free : forall i, free s i = true -> free m i = true;
  cv_cut : forall i, free s i = true -> cut m i <= cut s i }.

Lemma covers_crossing k m s i : layer k m -> layer k s -> (k < n)%nat -> covers m s -> plc k s i -> cross k m i <= cross k s i.
Proof.
  intros Hm Hs Hk Hc Hi. destruct (crossing_choice k s i Hs Hk Hi) as (t & Ht & ->).
  transitivity (zsum (map (cut m) t)).
  - apply crossing_le; [exact Hm|]. constructor; try apply Ht.
    + intros j Hj. destruct (ch_free _ _ _ _ Ht j Hj). split; [apply (cv_free _ _ Hc)|]; assumption.
    + intros j Hj. apply (ch_must _ _ _ _ Ht). apply (cv_must _ _ Hc). exact Hj.
  - apply zsum_le. intros j Hj. apply (cv_cut _ _ Hc). apply (ch_free _ _ _ _ Ht j Hj).
Qed.
Lemma covers_size m s : covers m s -> (size I (must m) <= size I (must s))%nat.
Proof. intros Hc. apply filter_length_le. intros j _. apply (cv_must _ _ Hc). Qed.
Lemma covers_placeable k m s i : layer k m -> layer k s -> (k < n)%nat -> covers m s -> plc k s i -> plc k m i.
Proof.
  intros Hm Hs Hk Hc Hi. pose proof (cv_free _ _ Hc i (placeable_free I k s i Hi)) as Hf. unfold free in Hf. apply orb_prop in Hf.
  unfold placeable. destruct Hf as [Hf|Hf]; [left; exact Hf|]. destruct (must m i) eqn:E; [left; reflexivity|right]. split; [exact Hf|].
  destruct Hi as [Hi|[Hi Hlt]]; [|pose proof (covers_size m s Hc); lia].
  (* [i] is of [must s] but not of [must m] *)
  pose proof (sl_must _ _ _ _ Hs) as Hle. fold n in Hle. fold n. enough (size I (must m) < size I (must s))%nat by lia.
  rewrite !size_must. pose proof (proj2 (in_mustl I F k s i Hs) Hi) as Hin. rewrite (wo_length i _ (mustl_nodup I s) Hin).
  apply le_n_S. apply NoDup_incl_length; [apply mustl_nodup|]. intros j Hj. apply (in_mustl I F k m j Hm) in Hj. apply in_wo. split; [|intros ->; congruence].
  apply (in_mustl I F k s j Hs). apply (cv_must _ _ Hc). exact Hj.
Qed.
Lemma covers_next k m s i : layer k m -> layer k s -> (k < n)%nat -> covers m s -> plc k s i -> covers (next k m i) (next k s i).
Proof.
  intros Hm Hs Hk Hc Hi. pose proof (next_placed debug I F L Hok k m i Hm (covers_placeable k m s i Hm Hs Hk Hc Hi)) as Pm. pose proof (next_placed debug I F L Hok k s i Hs Hi) as Ps.
  assert (forall j, free (next k s i) j = true -> free (next k m i) j = true) as Hf.
  { intros j. rewrite (placed_free I s i _ j Ps), (placed_free I m i _ j Pm). intros H. apply andb_prop in H. destruct H as [-> H]. apply (cv_free _ _ Hc j H). }
  constructor; [|exact Hf|].
  - intros j. rewrite (pd_must _ _ _ _ Pm), (pd_must _ _ _ _ Ps). intros H. apply andb_prop in H. destruct H as [-> H]. apply (cv_must _ _ Hc j H).
  - intros j Hj. rewrite (pd_cut _ _ _ _ Pm j (Hf j Hj)), (pd_cut _ _ _ _ Ps j Hj). rewrite (placed_free I s i _ j Ps) in Hj. apply andb_prop in Hj. pose proof (cv_cut _ _ Hc j (proj2 Hj)). lia.
Qed.

Lemma covers_completion : forall q k m s ds c, (k + q = n)%nat -> layer k m -> layer k s -> covers m s -> compl k s ds c ->
  exists c', compl k m ds c' /\ c <= c'.
Proof.
  induction q as [|q IH]; intros k m s ds c Hk Hm Hs Hc H.
  - assert (k = n) as -> by lia. exists c. split; [|lia]. apply completion_end. apply completion_end in H. exact H.
  - apply (completion_step debug I F L Hok k s ds c Hs ltac:(fold n; lia)) in H. destruct H as (i & ds' & c1 & Hi & H & -> & ->).
    pose proof (covers_placeable k m s i Hm Hs ltac:(lia) Hc Hi) as Him.
    destruct (IH (Datatypes.S k) (next k m i) (next k s i) ds' c1 ltac:(lia)) as (c' & H' & Hle); auto.
    + apply (next_layer debug I F L Hok); auto. fold n. lia.
    + apply (next_layer debug I F L Hok); auto. fold n. lia.
    + apply covers_next; auto. lia.
    + exists (c' - len I i * cross k m i). split.
      * apply (completion_step debug I F L Hok k m _ _ Hm ltac:(fold n; lia)). exists i, ds', c'. auto.
      * pose proof (covers_crossing k m s i Hm Hs ltac:(lia) Hc Hi). pose proof (so_len_range _ _ _ Hok i (placeable_lt I F k s i Hs Hi)). nia.
Qed.

(** *** The helper *)

Lemma min_cuts_spec s l : length (sr_cut s) = n -> NoDup l -> (forall i, In i l -> (i < n)%nat) -> forall c, length c = n ->
  exists c', min_cuts s l c = Some c' /\ length c' = n /\
    forall j, nth j c' 0 = if in_dec Nat.eq_dec j l then Z.min (nth j c 0) (cut s j) else nth j c 0.
Proof.
  intros Hs Hl Hb. unfold min_cuts. induction Hl as [|x l Hx Hl IH]; intros c Hc; cbn [ofold].
  - exists c. split; [reflexivity|]. split; [exact Hc|]. reflexivity.
  - pose proof (Hb x (or_introl eq_refl)) as Hxn. rewrite (nth_error_nth' c 0) by lia. cbn [obind]. rewrite (cut_some I s x Hs Hxn). cbn [obind].
    destruct (upd_some c x (Z.min (nth x c 0) (cut s x)) ltac:(lia)) as (c1 & H1). rewrite H1.
    destruct (IH (fun i Hi => Hb i (or_intror Hi)) c1) as (c' & H2 & H3 & H4); [rewrite (upd_length _ _ _ _ H1); exact Hc|].
    exists c'. split; [exact H2|]. split; [exact H3|]. intros j. rewrite H4, (nth_upd _ _ _ _ H1).
    destruct (Nat.eqb_spec j x) as [->|Hj].
    + destruct (in_dec Nat.eq_dec x l) as [|_]; [contradiction|]. destruct (in_dec Nat.eq_dec x (x :: l)) as [|Hn]; [reflexivity|]. exfalso. apply Hn. left. reflexivity.
    + destruct (in_dec Nat.eq_dec j l) as [Hi|Hi], (in_dec Nat.eq_dec j (x :: l)) as [Hi'|Hi']; try reflexivity.
      * exfalso. apply Hi'. right. exact Hi.
      * destruct Hi' as [|Hi']; [congruence|contradiction].
Qed.

Lemma track_spec k h s : layer k s -> length (rh_cut h) = n -> exists h', sr_track I h s = Some h' /\
  rh_depth h' = Nat.max (rh_depth h) (sr_depth s) /\
  (forall i, bs_get (rh_must h') i = bs_get (rh_must h) i || must s i) /\
  (forall i, bs_get (rh_agree h') i = bs_get (rh_agree h) i && must s i) /\
  (forall i, bs_get (rh_maybe h') i = bs_get (rh_maybe h) i || maybe s i) /\
  length (rh_cut h') = n /\
  (forall i, nth i (rh_cut h') 0 = if free s i then Z.min (nth i (rh_cut h) 0) (cut s i) else nth i (rh_cut h) 0).
Proof.
  intros Hs Hh. pose proof (sl_len _ _ _ _ Hs) as Hlen. fold n in Hlen. unfold sr_track. fold n. change (bs_iter n (sr_must s)) with (mustl I s).
  destruct (min_cuts_spec s (mustl I s) Hlen (mustl_nodup I s) (fun i Hi => sl_bits _ _ _ _ Hs i ltac:(unfold free; rewrite (proj1 (in_mustl I F k s i Hs) Hi); reflexivity)) _ Hh) as (c1 & H1 & L1 & V1).
  rewrite H1. cbn [obind].
  assert (exists c2, match sr_maybe s with Some m => min_cuts s (bs_iter n m) c1 | None => Some c1 end = Some c2 /\ length c2 = n /\
    forall j, nth j c2 0 = if maybe s j then Z.min (nth j c1 0) (cut s j) else nth j c1 0) as (c2 & H2 & L2 & V2).
  { destruct (sr_maybe s) as [m|] eqn:E.
    - pose proof (maybel_some I s m E) as Em. fold n in Em. rewrite Em.
      destruct (min_cuts_spec s (maybel I s) Hlen (maybel_nodup I s) (fun i Hi => sl_bits _ _ _ _ Hs i ltac:(unfold free; rewrite (proj1 (in_maybel I F k s i Hs) Hi); apply orb_true_r)) _ L1) as (c2 & H2 & L2 & V2).
      exists c2. split; [exact H2|]. split; [exact L2|]. intros j. rewrite V2. pose proof (in_maybel I F k s j Hs) as Hj.
      destruct (in_dec Nat.eq_dec j (maybel I s)) as [Hi|Hi], (maybe s j); try reflexivity; [apply Hj in Hi; discriminate|exfalso; apply Hi, Hj; reflexivity].
    - exists c1. split; [reflexivity|]. split; [exact L1|]. intros j. unfold maybe. rewrite E. reflexivity. }
  rewrite H2. cbn [obind]. eexists. split; [reflexivity|]. cbn [rh_depth rh_must rh_agree rh_maybe rh_cut].
  split; [reflexivity|]. split; [intros i; apply get_or|]. split; [intros i; apply get_and|]. split; [|split; [exact L2|]].
  - intros i. unfold maybe. destruct (sr_maybe s); [apply get_or|]. rewrite orb_false_r. reflexivity.
  - intros i. rewrite V2, V1. pose proof (in_mustl I F k s i Hs) as Hm. unfold free.
    destruct (in_dec Nat.eq_dec i (mustl I s)) as [Hi|Hi].
    + rewrite (proj1 Hm Hi). cbn [orb]. destruct (maybe s i) eqn:E; [|reflexivity]. exfalso. apply (sl_disjoint _ _ _ _ Hs i (proj1 Hm Hi) E).
    + destruct (must s i); [exfalso; apply Hi, Hm; reflexivity|]. reflexivity.
Qed.

Record tracked (l : list sr_state) (h h' : sr_helper) : Prop := {
  tr_depth : forall k, Forall (fun s => sr_depth s = k) l -> l <> [] -> (rh_depth h <= k)%nat -> rh_depth h' = k;
  tr_must : forall i, bs_get (rh_must h') i = true <-> bs_get (rh_must h) i = true \/ exists s, In s l /\ must s i = true;
  tr_agree : forall i, bs_get (rh_agree h') i = true <-> bs_get (rh_agree h) i = true /\ forall s, In s l -> must s i = true;
  tr_maybe : forall i, bs_get (rh_maybe h') i = true <-> bs_get (rh_maybe h) i = true \/ exists s, In s l /\ maybe s i = true;
  tr_len : length (rh_cut h') = n;
  tr_below : forall i, nth i (rh_cut h') 0 <= nth i (rh_cut h) 0;
  tr_cut : forall i s, In s l -> free s i = true -> nth i (rh_cut h') 0 <= cut s i;
  tr_from : forall i, nth i (rh_cut h') 0 = nth i (rh_cut h) 0 \/ exists s, In s l /\ free s i = true /\ nth i (rh_cut h') 0 = cut s i }.

Lemma track_all k l : Forall (layer k) l -> forall h, length (rh_cut h) = n -> exists h', ofold (sr_track I) l h = Some h' /\ tracked l h h'.
Proof.
  intros HF. induction HF as [|s l Hs HF IH]; intros h Hh; cbn [ofold].
  - exists h. split; [reflexivity|]. constructor; try (intros i; split; [tauto|]; intros [Hx|(s & [] & _)]; exact Hx).
    + intros k' _ H. congruence.
    + intros i. split; [intros H; split; [exact H|intros s []]|tauto].
    + exact Hh.
    + intros i. lia.
    + intros i s [].
    + intros i. left. reflexivity.
  - destruct (track_spec k h s Hs Hh) as (h1 & H1 & Hd & Hm & Ha & Hy & L1 & Hc). rewrite H1. destruct (IH h1 L1) as (h' & H' & [K1 K2 K3 K4 K5 K6 K7 K8]).
    exists h'. split; [exact H'|]. constructor.
    + intros k' Hf _ Hk. inversion Hf as [|? ? Hsd Hf']; subst. destruct l as [|s2 l2].
      * cbn [ofold] in H'. inversion H'; subst. lia.
      * apply K1; [exact Hf'|discriminate|lia].
    + intros i. rewrite K2, Hm, orb_true_iff. split.
      * intros [[H|H]|(s' & H2 & H3)]; [left; exact H|right; exists s; split; [left; reflexivity|exact H]|right; exists s'; split; [right; exact H2|exact H3]].
      * intros [H|(s' & [<-|H2] & H3)]; [left; left; exact H|left; right; exact H3|right; eauto].
    + intros i. rewrite K3, Ha, andb_true_iff. split.
      * intros [[H2 H3] H4]. split; [exact H2|]. intros s' [<-|H]; auto.
      * intros [H2 H3]. split; [split; [exact H2|apply H3; left; reflexivity]|]. intros s' H. apply H3. right. exact H.
    + intros i. rewrite K4, Hy, orb_true_iff. split.
      * intros [[H|H]|(s' & H2 & H3)]; [left; exact H|right; exists s; split; [left; reflexivity|exact H]|right; exists s'; split; [right; exact H2|exact H3]].
      * intros [H|(s' & [<-|H2] & H3)]; [left; left; exact H|left; right; exact H3|right; eauto].
    + exact K5.
    + intros i. specialize (K6 i). rewrite Hc in K6. destruct (free s i); lia.
    + intros i s' [<-|H2] Hf; [|apply K7; assumption]. specialize (K6 i). rewrite Hc, Hf in K6. lia.
    + intros i. destruct (K8 i) as [H2|(s' & H2 & H3 & H4)]; [|right; exists s'; split; [right; exact H2|auto]].
      rewrite Hc in H2. destruct (free s i) eqn:Ef; [|left; exact H2].
      destruct (Z.min_spec (nth i (rh_cut h) 0) (cut s i)) as [[_ Em]|[_ Em]]; rewrite Em in H2; [left; exact H2|right; exists s; split; [left; reflexivity|auto]].
Qed.

(** The merged state. *)
Record merged_from (l : list sr_state) (m : sr_state) : Prop := {
  mg_must : forall i, must m i = true <-> forall s, In s l -> must s i = true;
  mg_free : forall i, free m i = true <-> exists s, In s l /\ free s i = true;
  mg_cut : forall i s, In s l -> free s i = true -> cut m i <= cut s i }.

Lemma big_cut k s i : layer k s -> free s i = true -> cut s i < IMAX.
Proof.
  intros Hs Hf. pose proof (sl_cut _ _ _ _ Hs i Hf) as Hc. destruct (sl_depth _ _ _ _ Hs) as [Hk _]. fold n in Hk.
  pose proof (so_range _ _ _ Hok) as Hr. fold n in Hr. pose proof (so_n _ _ _ Hok) as Hn. fold n in Hn. pose proof (so_F _ _ _ Hok). pose proof (so_L _ _ _ Hok).
  assert (Z.of_nat k * F <= Z.of_nat n * F) by nia.
  assert (1 <= Z.of_nat n * F) by nia.
  assert (Z.of_nat n * F <= Z.of_nat n * Z.of_nat n * F * L).
  { transitivity (Z.of_nat n * F * L); [nia|]. assert (0 <= F * L) by nia. nia. }
  nia.
Qed.

Lemma merge_spec k l : l <> [] -> Forall (layer k) l -> exists m, sr_merge I l = Some m /\ merged_from l m /\ layer k m.
Proof.
  intros Hne HF. pose proof HF as HA. rewrite Forall_forall in HA. destruct l as [|s0 l0]; [congruence|]. set (l := s0 :: l0) in *.
  assert (H0 : In s0 l) by (left; reflexivity). pose proof (HA s0 H0) as HL0.
  destruct (track_all k l HF (sr_helper_new I) ltac:(apply repeat_length)) as (h & Eh & [K1 K2 K3 K4 K5 K6 K7 K8]).
  unfold sr_merge. rewrite Eh. cbn [obind]. fold n.
  cbn [sr_helper_new rh_depth rh_must rh_agree rh_maybe rh_cut] in *. fold n in K3, K6, K8.
  set (mb := N.lxor (N.lor (rh_maybe h) (rh_must h)) (rh_agree h)). eexists. split; [reflexivity|].
  set (m := mk_srs _ _ _ _).
  assert (Hmust : forall i, must m i = true <-> forall s, In s l -> must s i = true).
  { intros i. unfold must at 1, m. cbn [sr_must]. rewrite K3, get_all. split; [tauto|]. intros H. split; [|exact H]. apply Nat.ltb_lt. apply (sl_bits _ _ _ _ HL0). unfold free. rewrite (H s0 H0). reflexivity. }
  assert (Hun : forall i, bs_get (rh_maybe h) i || bs_get (rh_must h) i = true <-> exists s, In s l /\ free s i = true).
  { intros i. rewrite orb_true_iff, K2, K4, get_none. unfold free. split.
    - intros [[H|(s & H1 & H2)]|[H|(s & H1 & H2)]]; try discriminate; exists s; rewrite H2; auto using orb_true_r.
    - intros (s & H1 & H2). apply orb_prop in H2. destruct H2 as [H2|H2]; [right; right; eauto|left; right; eauto]. }
  assert (Hmb : forall i, bs_get mb i = true <-> (exists s, In s l /\ free s i = true) /\ must m i = false).
  { intros i. unfold mb. rewrite get_xor, get_or, <- Hun. change (bs_get (rh_agree h) i) with (must m i).
    destruct (bs_get (rh_maybe h) i || bs_get (rh_must h) i) eqn:Eb; destruct (must m i) eqn:Ea; cbn [xorb]; split; try discriminate; try tauto; try (intros [H1 H2]; discriminate).
    intros _. exfalso. assert (false = true); [|discriminate]. rewrite <- Eb. apply Hun. exists s0. split; [exact H0|]. unfold free. rewrite (proj1 (Hmust i) Ea s0 H0). reflexivity. }
  assert (Hmay : forall i, maybe m i = bs_get mb i).
  { intros i. unfold maybe, m. cbn [sr_maybe]. destruct (0 <? bs_count n mb)%nat eqn:Ec; [reflexivity|]. destruct (bs_get mb i) eqn:E; [|reflexivity].
    exfalso. assert (false = true); [|discriminate]. rewrite <- Ec. apply count_pos. exists i. split; [|exact E]. apply Hmb in E. destruct E as [(s & Hs & Hf) _]. apply (sl_bits _ _ _ _ (HA s Hs) i Hf). }
  assert (Hfree : forall i, free m i = true <-> exists s, In s l /\ free s i = true).
  { intros i. unfold free at 1. rewrite Hmay, orb_true_iff, Hmb. split.
    - intros [H|[H _]]; [|exact H]. exists s0. split; [exact H0|]. unfold free. rewrite (proj1 (Hmust i) H s0 H0). reflexivity.
    - intros H. destruct (must m i); auto. }
  split; [constructor; auto|].
  assert (Hfl : forall f g : nat -> bool, (forall i, f i = true -> g i = true) -> (size I f <= size I g)%nat) by (intros f g Hfg; apply filter_length_le; auto).
  constructor.
  - split; [apply (sl_depth _ _ _ _ HL0)|]. apply K1; [|discriminate|lia]. apply Forall_forall. intros s Hs. apply (sl_depth _ _ _ _ (HA s Hs)).
  - intros i Hi. apply Hfree in Hi. destruct Hi as (s & Hs & Hf). apply (sl_bits _ _ _ _ (HA s Hs) i Hf).
  - intros i H1 H2. rewrite Hmay in H2. apply Hmb in H2. destruct H2. congruence.
  - etransitivity; [apply (Hfl (must m) (must s0))|apply (sl_must _ _ _ _ HL0)]. intros i Hi. apply Hmust; assumption.
  - etransitivity; [apply (sl_free _ _ _ _ HL0)|]. apply Hfl. intros i Hi. apply Hfree. eauto.
  - exact K5.
  - intros i Hi. unfold cut, m. cbn [sr_cut]. apply Hfree in Hi. destruct Hi as (s & Hs & Hf). destruct (K8 i) as [H|(s' & Hs' & Hf' & H)].
    + exfalso. pose proof (K7 i s Hs Hf) as Hlt. pose proof (big_cut k s i (HA s Hs) Hf) as Hb. rewrite H in Hlt.
      rewrite (nth_indep _ 0 IMAX), nth_repeat in Hlt by (rewrite repeat_length; apply (sl_bits _ _ _ _ (HA s Hs) i Hf)). lia.
    + rewrite H. apply (sl_cut _ _ _ _ (HA s' Hs') i Hf').
Qed.

Lemma merge_covers k l s : Forall (layer k) l -> In s l -> exists m, sr_merge I l = Some m /\ layer k m /\ covers m s.
Proof.
  intros HF Hs. destruct (merge_spec k l ltac:(intros ->; destruct Hs) HF) as (m & Em & [K1 K2 K3] & Hm). exists m. split; [exact Em|]. split; [exact Hm|]. constructor.
  - intros i H. apply K1; assumption.
  - intros i H. apply K2. eauto.
  - intros i H. apply K3; assumption.
Qed.

(** Every completion of a state that is merged is one of the merged state, at no higher cost. *)
Theorem merge_completion k l s ds c : (k <= n)%nat -> Forall (layer k) l -> In s l -> compl k s ds c ->
  exists m c', sr_merge I l = Some m /\ compl k m ds c' /\ c <= c'.
Proof.
  intros Hk HF Hs Hc. destruct (merge_covers k l s HF Hs) as (m & Em & Hm & Hcv). exists m. rewrite Forall_forall in HF.
  destruct (covers_completion (n - k) k m s ds c ltac:(lia) Hm (HF s Hs) Hcv Hc) as (c' & H1 & H2). exists c'. auto.
Qed.
End Merge.
