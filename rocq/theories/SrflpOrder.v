(** Orders in which the departments left may be placed, what they cost in the relaxed sense of the SRFLP example, and bounds
    on this cost. *)
From Verif Require Import Spec Srflp SrflpSpec Bits BitsFacts MatrixFacts PspFacts SrflpFacts SrflpLayouts SrflpMerge SrflpSort.
From Coq Require Import Lia Sorted Permutation.
Open Scope Z_scope.

Lemma nodup_app {A} (a b : list A) : NoDup a -> NoDup b -> (forall x, In x a -> In x b -> False) -> NoDup (a ++ b).
Proof.
  intros Ha Hb H. induction Ha as [|x a Hx Ha IH]; [exact Hb|]. cbn [app]. constructor.
  - rewrite in_app_iff. intros [Hi|Hi]; [contradiction|]. apply (H x); [left; reflexivity|exact Hi].
  - apply IH. intros y Hy. apply H. right. exact Hy.
Qed.
Lemma nodup_app_l {A} (a b : list A) : NoDup (a ++ b) -> NoDup a.
Proof. induction a as [|x a IH]; intros H; [constructor|]. inversion H; subst. constructor; [rewrite in_app_iff in *; tauto|auto]. Qed.
Lemma firstn_perm {A} q (l : list A) : Permutation l (firstn q l ++ skipn q l).
Proof. rewrite firstn_skipn. reflexivity. Qed.

Lemma mins_S q l : (q < length l)%nat -> mins (S q) l = mins q l + nth q (zsort l) 0.
Proof.
  unfold mins. rewrite <- (zsort_length l). generalize (zsort l) as z. clear l. induction q as [|q IH]; intros [|x z] H; cbn [length] in H; try lia.
  - cbn [firstn nth]. rewrite zsum_cons. lia.
  - specialize (IH z ltac:(lia)). cbn [firstn nth] in *. rewrite !zsum_cons. lia.
Qed.
Lemma smallest_choice (f : nat -> Z) l q : (q <= length l)%nat -> exists t r, Permutation l (t ++ r) /\ length t = q /\ firstn q (zsort (map f l)) = map f t.
Proof.
  intros Hq. destruct (Permutation_map_inv f l (Permutation_sym (zsort_perm (map f l)))) as (l' & E & Hp).
  exists (firstn q l'), (skipn q l'). split; [rewrite firstn_skipn; exact Hp|]. split; [|rewrite E, firstn_map; reflexivity].
  apply firstn_length_le. rewrite <- (Permutation_length Hp). exact Hq.
Qed.
Lemma mins_sup (g f : nat -> Z) l q : (q <= length l)%nat -> mins q (map g l) + mins q (map f l) <= mins q (map (fun j => g j + f j) l).
Proof.
  intros Hq. destruct (mins_attained (fun j => g j + f j) l q Hq) as (t & r & Hp & Ht & ->). rewrite zsum_add. subst q.
  pose proof (mins_le g _ _ _ Hp). pose proof (mins_le f _ _ _ Hp). lia.
Qed.
Lemma mins_sub (g : nat -> Z) a l q : NoDup a -> NoDup l -> incl a l -> (q <= length a)%nat -> mins q (map g l) <= mins q (map g a).
Proof.
  intros Ha Hl Hi Hq. destruct (perm_sub a l Ha Hl Hi) as (r & Hr). destruct (mins_attained g a q Hq) as (t & r' & Hp & Ht & ->). subst q.
  apply (mins_le g l t (r' ++ r)). rewrite Hr, Hp, <- app_assoc. reflexivity.
Qed.

Section Order.
Variable len : nat -> Z.
Variable flow : nat -> nat -> Z.
Variable mb : nat -> bool.     (* departments that only may be placed *)

Definition mu (l : list nat) : list nat := filter (fun j => negb (mb j)) l.
Definition my (l : list nat) : list nat := filter mb l.
Notation nm l := (length (my l)).

(** The relaxed cost of an order: [g] are the cuts and [Y] the departments that may be placed. *)
Fixpoint relaxed (g : nat -> Z) (Y l : list nat) : Z :=
  match l with
  | [] => 0
  | d :: t => len d * (zsum (map g (mu t)) + mins (nm t) (map g (wo d Y))) + relaxed (fun j => g j + flow d j) (wo d Y) t
  end.
(** The part of it that cuts [g] account for, not looking at which departments are gone. *)
Fixpoint static (g : nat -> Z) (Y l : list nat) : Z :=
  match l with [] => 0 | d :: t => len d * (zsum (map g (mu t)) + mins (nm t) (map g Y)) + static g Y t end.
(** The part of the flows between departments not yet placed. *)
Fixpoint mutual (Y l : list nat) : Z :=
  match l with [] => 0 | d :: t => static (flow d) (wo d Y) t + mutual (wo d Y) t end.

(** Orders: no department twice, lengths are not negative, and those that only may be placed are in [Y]. *)
Record order (Y l : list nat) : Prop := {
  od_nodup : NoDup l;
  od_Y : NoDup Y;
  od_my : incl (my l) Y;
  od_mb : forall j, In j Y -> mb j = true;
  od_len : forall j, In j l -> 0 <= len j }.
Lemma order_tail d t Y : order Y (d :: t) -> order (wo d Y) t.
Proof.
  intros [H1 H2 H3 H4 H5]. inversion H1 as [|? ? Hd Ht]; subst. constructor.
  - exact Ht.
  - apply wo_nodup. exact H2.
  - intros j Hj. apply in_wo. split; [apply H3; unfold my; cbn [filter]; destruct (mb d); [right|]; exact Hj|]. intros ->. apply filter_In in Hj. tauto.
  - intros j Hj. apply in_wo in Hj. apply H4. tauto.
  - intros j Hj. apply H5. right. exact Hj.
Qed.
Lemma order_fewer d t Y : order Y (d :: t) -> order Y t.
Proof.
  intros [H1 H2 H3 H4 H5]. inversion H1 as [|? ? Hd Ht]; subst. constructor; auto.
  - intros j Hj. apply H3. unfold my. cbn [filter]. destruct (mb d); [right|]; exact Hj.
  - intros j Hj. apply H5. right. exact Hj.
Qed.
Lemma order_count Y l : order Y l -> (nm l <= length Y)%nat.
Proof. intros H. apply NoDup_incl_length; [apply NoDup_filter; apply (od_nodup _ _ H)|apply (od_my _ _ H)]. Qed.

Lemma static_sup g f Y l : order Y l -> static g Y l + static f Y l <= static (fun j => g j + f j) Y l.
Proof.
  induction l as [|d t IH]; intros H; cbn [static]; [lia|]. specialize (IH (order_fewer _ _ _ H)).
  pose proof (mins_sup g f Y (nm t) (order_count _ _ (order_fewer _ _ _ H))). rewrite zsum_add. pose proof (od_len _ _ H d (or_introl eq_refl)). nia.
Qed.
Lemma static_sub g Y Y' l : order Y l -> order Y' l -> incl Y' Y -> static g Y l <= static g Y' l.
Proof.
  induction l as [|d t IH]; intros H H' Hi; cbn [static]; [lia|]. specialize (IH (order_fewer _ _ _ H) (order_fewer _ _ _ H') Hi).
  pose proof (mins_sub g Y' Y (nm t) (od_Y _ _ H') (od_Y _ _ H) Hi (order_count _ _ (order_fewer _ _ _ H'))). pose proof (od_len _ _ H d (or_introl eq_refl)). nia.
Qed.
Theorem relaxed_split : forall l g Y, order Y l -> static g Y l + mutual Y l <= relaxed g Y l.
Proof.
  induction l as [|d t IH]; intros g Y H; cbn [static mutual relaxed]; [lia|].
  pose proof (order_tail _ _ _ H) as Ht. pose proof (order_fewer _ _ _ H) as Ht'.
  assert (incl (wo d Y) Y) as Hi by (intros j Hj; apply in_wo in Hj; tauto).
  specialize (IH (fun j => g j + flow d j) (wo d Y) Ht). pose proof (static_sup g (flow d) (wo d Y) t Ht). pose proof (static_sub g Y (wo d Y) t Ht' Ht Hi).
  pose proof (mins_sub g (wo d Y) Y (nm t) (od_Y _ _ Ht) (od_Y _ _ H) Hi (order_count _ _ Ht)). pose proof (od_len _ _ H d (or_introl eq_refl)). nia.
Qed.
Lemma relaxed_ext : forall l g g' Y, (forall j, In j l \/ In j Y -> g j = g' j) -> relaxed g Y l = relaxed g' Y l.
Proof.
  induction l as [|d t IH]; intros g g' Y H; cbn [relaxed]; [reflexivity|].
  rewrite (zsum_ext g g' (mu t)) by (intros j Hj; apply filter_In in Hj; apply H; left; right; tauto).
  rewrite (map_ext_in g g' (wo d Y)) by (intros j Hj; apply in_wo in Hj; apply H; tauto).
  rewrite (IH (fun j => g j + flow d j) (fun j => g' j + flow d j) (wo d Y)); [reflexivity|].
  intros j [Hj|Hj]; [rewrite (H j) by (left; right; exact Hj); reflexivity|]. apply in_wo in Hj. rewrite (H j) by tauto. reflexivity.
Qed.

(** *** Values along an order *)
Fixpoint vals (g : nat -> Z) (Y l : list nat) : list Z :=
  match l with [] => [] | d :: t => (if mb d then nth (nm t) (zsort (map g Y)) 0 else g d) :: vals g Y t end.
Lemma vals_length g Y l : length (vals g Y l) = length l.
Proof. induction l as [|d t IH]; cbn [vals length]; congruence. Qed.
Lemma vals_sum g Y l : (nm l <= length Y)%nat -> zsum (vals g Y l) = zsum (map g (mu l)) + mins (nm l) (map g Y).
Proof.
  induction l as [|d t IH]; intros H; [reflexivity|]. cbn [vals]. rewrite zsum_cons. unfold mu, my in *. cbn [filter] in *. destruct (mb d); cbn [negb length] in *.
  - rewrite IH by lia. rewrite mins_S by (rewrite map_length; lia). lia.
  - rewrite IH by lia. cbn [map]. rewrite zsum_cons. lia.
Qed.
Lemma vals_nonneg g Y l : (forall j, In j l \/ In j Y -> 0 <= g j) -> Forall (Z.le 0) (vals g Y l).
Proof.
  induction l as [|d t IH]; intros H; cbn [vals]; [constructor|]. constructor; [|apply IH; intros j Hj; apply H; cbn; tauto]. destruct (mb d); [|apply H; left; left; reflexivity].
  destruct (Nat.lt_ge_cases (nm t) (length (zsort (map g Y)))) as [Hlt|Hge]; [|rewrite nth_overflow by exact Hge; lia].
  pose proof (nth_In _ 0 Hlt) as Hin. apply (Permutation_in _ (Permutation_sym (zsort_perm _))) in Hin. apply in_map_iff in Hin. destruct Hin as (j & <- & Hj). apply H. auto.
Qed.
Lemma vals_perm g Y l : (nm l <= length Y)%nat -> Permutation (vals g Y l) (map g (mu l) ++ firstn (nm l) (zsort (map g Y))).
Proof.
  induction l as [|d t IH]; intros H; [reflexivity|]. cbn [vals]. unfold mu, my in *. cbn [filter] in *. destruct (mb d); cbn [negb length] in *.
  - rewrite IH by lia. assert (Datatypes.S (length (filter mb t)) <= length (zsort (map g Y)))%nat as Hl by (rewrite zsort_length, map_length; lia).
    assert (firstn (S (length (filter mb t))) (zsort (map g Y)) = firstn (length (filter mb t)) (zsort (map g Y)) ++ [nth (length (filter mb t)) (zsort (map g Y)) 0]) as ->.
    { revert Hl. generalize (zsort (map g Y)) as z. generalize (length (filter mb t)) as q. clear. induction q as [|q IH]; intros [|x z] Hl; cbn [length] in Hl; try lia; [reflexivity|]. cbn [firstn nth app]. f_equal. apply IH. lia. }
    rewrite app_assoc. apply Permutation_cons_append.
  - cbn [map app]. constructor. apply IH. exact H.
Qed.
Lemma combine_snd {A B} : forall (a : list A) (b : list B), length a = length b -> map snd (combine a b) = b.
Proof. induction a as [|x a IH]; intros [|y b] H; cbn in *; try discriminate; [reflexivity|]. rewrite IH by lia. reflexivity. Qed.
Lemma combine_fst {A B} : forall (a : list A) (b : list B), length a = length b -> map fst (combine a b) = a.
Proof. induction a as [|x a IH]; intros [|y b] H; cbn in *; try discriminate; [reflexivity|]. rewrite IH by lia. reflexivity. Qed.
Lemma static_crossed g Y l : order Y l -> static g Y l = crossed (combine (map len l) (vals g Y l)).
Proof.
  induction l as [|d t IH]; intros H; [reflexivity|]. cbn [static map vals combine crossed]. rewrite (IH (order_fewer _ _ _ H)).
  rewrite combine_snd by (rewrite map_length, vals_length; reflexivity). rewrite vals_sum by (apply order_count; apply (order_fewer _ _ _ H)). reflexivity.
Qed.

(** *** The cuts *)
Fixpoint suffixes (v : list Z) : list Z := match v with [] => [] | _ :: t => zsum t :: suffixes t end.
Lemma suffixes_length v : length (suffixes v) = length v.
Proof. induction v; cbn; congruence. Qed.
Lemma crossed_suffixes : forall a v, length a = length v -> crossed (combine a v) = dot a (suffixes v).
Proof.
  induction a as [|x a IH]; intros [|y v] H; cbn [combine crossed suffixes dot] in *; try discriminate; try reflexivity.
  rewrite combine_snd by (cbn in H; lia). rewrite IH by (cbn in H; lia). reflexivity.
Qed.
Lemma suffixes_sorted v : Forall (Z.le 0) v -> StronglySorted Z.ge (suffixes v) /\ Forall (fun x => 0 <= x <= zsum v) (suffixes v).
Proof.
  intros H. induction H as [|x v Hx H [IH1 IH2]]; cbn [suffixes]; [split; constructor|].
  assert (0 <= zsum v) as Hv. { apply zsum_nonneg. intros y Hy. rewrite Forall_forall in H. apply H. exact Hy. }
  split.
  - constructor; [exact IH1|]. eapply Forall_impl; [|exact IH2]. cbn. intros y Hy. lia.
  - rewrite zsum_cons. constructor; [lia|]. eapply Forall_impl; [|exact IH2]. cbn. intros y Hy. lia.
Qed.
(** The entries of a list that stand where departments that only may be placed do (or the others). *)
Fixpoint sel (b : bool) (l : list nat) (w : list Z) : list Z :=
  match l, w with d :: t, x :: w => if Bool.eqb (mb d) b then x :: sel b t w else sel b t w | _, _ => [] end.
Lemma sel_in b : forall l w x, In x (sel b l w) -> In x w.
Proof. induction l as [|d t IH]; intros [|y w] x; cbn [sel]; [intros []|intros []|intros []|]. destruct (Bool.eqb (mb d) b); cbn [In]; [intros [->|H]; [auto|]|intros H]; right; eauto. Qed.
Lemma sel_sorted b : forall l w, StronglySorted Z.ge w -> StronglySorted Z.ge (sel b l w).
Proof.
  induction l as [|d t IH]; intros [|y w] H; cbn [sel]; try constructor. inversion H as [|? ? H1 H2]; subst. destruct (Bool.eqb (mb d) b); [|apply IH; exact H1].
  constructor; [apply IH; exact H1|]. rewrite Forall_forall in *. intros x Hx. apply H2. apply (sel_in b t w x Hx).
Qed.
Lemma sel_length : forall l w, length w = length l -> length (sel true l w) = nm l.
Proof. unfold my. induction l as [|d t IH]; intros [|y w] H; cbn [sel filter length] in *; try discriminate; [reflexivity|]. destruct (mb d); cbn [Bool.eqb length]; rewrite IH by lia; reflexivity. Qed.
(** The lengths along an order, those of the departments that only may be placed replaced by [ls]. *)
Fixpoint relen (ls : list Z) (l : list nat) : list Z :=
  match l with [] => [] | d :: t => if mb d then hd 0 ls :: relen (tl ls) t else len d :: relen ls t end.
Lemma relen_length : forall l ls, length (relen ls l) = length l.
Proof. induction l as [|d t IH]; intros ls; cbn [relen length]; [reflexivity|]. destruct (mb d); cbn [length]; rewrite IH; reflexivity. Qed.
Lemma relen_dot : forall l ls w, length w = length l -> length ls = nm l -> dot (relen ls l) w = dot (map len (mu l)) (sel false l w) + dot ls (sel true l w).
Proof.
  unfold my, mu. induction l as [|d t IH]; intros ls [|y w] Hw Hl; cbn [relen filter sel map length dot] in *; try discriminate.
  - rewrite dot_nil_r. reflexivity.
  - destruct (mb d); cbn [negb Bool.eqb length map dot] in *.
    + destruct ls as [|x ls]; [discriminate|]. cbn [hd tl dot]. rewrite IH by (cbn in Hl; lia). lia.
    + rewrite IH by lia. lia.
Qed.
Lemma relen_my l : relen (map len (my l)) l = map len l.
Proof. unfold my. induction l as [|d t IH]; cbn [relen filter map]; [reflexivity|]. destruct (mb d); cbn [map hd tl]; rewrite IH; reflexivity. Qed.
Lemma relen_bound ls l v : length v = length l -> Forall (Z.le 0) v -> StronglySorted Z.le ls -> dom ls (map len (my l)) ->
  crossed (combine (relen ls l) v) <= crossed (combine (map len l) v).
Proof.
  intros Hv H0 Hs Hd. pose proof (dom_length _ _ Hd) as Hl. rewrite map_length in Hl.
  rewrite !crossed_suffixes by (rewrite ?relen_length, ?map_length; lia). rewrite <- (relen_my l). rewrite !relen_dot by (rewrite ?suffixes_length, ?map_length; lia).
  destruct (suffixes_sorted v H0) as [S1 S2].
  enough (dot ls (sel true l (suffixes v)) <= dot (map len (my l)) (sel true l (suffixes v))) by lia.
  rewrite <- (zsort_id ls Hs) at 1. apply dot_dom.
  - exact Hd.
  - rewrite map_length, sel_length by (rewrite suffixes_length; exact Hv). reflexivity.
  - apply sel_sorted. exact S1.
  - rewrite Forall_forall in *. intros x Hx. apply S2. apply (sel_in true l _ x Hx).
Qed.
Lemma relen_perm g Y : forall l ls, (nm l <= length Y)%nat -> length ls = nm l ->
  Permutation (combine (relen ls l) (vals g Y l)) (map (fun j => (len j, g j)) (mu l) ++ combine ls (rev (firstn (nm l) (zsort (map g Y))))).
Proof.
  unfold my, mu. induction l as [|d t IH]; intros ls Hl Hls; cbn [relen vals filter map length combine app] in *.
  - destruct ls; [reflexivity|discriminate].
  - destruct (mb d); cbn [negb length map app] in *.
    + destruct ls as [|x ls]; [discriminate|]. cbn [hd tl combine].
      assert (rev (firstn (S (length (filter mb t))) (zsort (map g Y))) = nth (length (filter mb t)) (zsort (map g Y)) 0 :: rev (firstn (length (filter mb t)) (zsort (map g Y)))) as ->.
      { assert (S (length (filter mb t)) <= length (zsort (map g Y)))%nat as Hz by (rewrite zsort_length, map_length; lia).
        revert Hz. generalize (zsort (map g Y)) as z. generalize (length (filter mb t)) as q. clear. induction q as [|q IH]; intros [|x z] Hl; cbn [length] in Hl; try lia; [reflexivity|].
        cbn [firstn rev nth] in *. specialize (IH z ltac:(lia)). cbn [firstn] in IH. rewrite IH. reflexivity. }
      cbn [combine]. rewrite IH by (cbn in Hls; lia). apply Permutation_middle.
    + constructor. apply IH; assumption.
Qed.
(** Cuts: the bound of the code, for any of the orders. *)
Theorem cut_part g Y l ls r : order Y l -> (forall j, In j l \/ In j Y -> 0 <= g j) -> StronglySorted Z.le ls -> dom ls (map len (my l)) ->
  Permutation r (map (fun j => (len j, g j)) (mu l) ++ combine ls (rev (firstn (nm l) (zsort (map g Y))))) -> StronglySorted ratio_before r ->
  crossed r <= static g Y l.
Proof.
  intros Ho Hg Hs Hd Hr Hsr. rewrite (static_crossed g Y l Ho). pose proof (order_count _ _ Ho) as Hc.
  pose proof (dom_length _ _ Hd) as Hl. rewrite map_length in Hl.
  etransitivity; [|apply (relen_bound ls)]; [|apply vals_length|apply vals_nonneg; exact Hg|exact Hs|exact Hd].
  apply smith; [|exact Hsr]. etransitivity; [exact Hr|]. symmetry. apply relen_perm; assumption.
Qed.

(** *** The flows between departments not placed *)
Definition prefix_sum (a : list Z) (i : nat) : Z := zsum (firstn i a).
Lemma dot_shift x : forall v w, length v = length w -> dot v (map (fun y => x + y) w) = x * zsum v + dot v w.
Proof. induction v as [|a v IH]; intros [|b w] H; cbn [map dot] in *; try discriminate; [cbn; lia|]. rewrite IH by (cbn in H; lia). rewrite zsum_cons. lia. Qed.
Lemma crossed_prefixes : forall a v, length a = length v -> crossed (combine a v) = dot v (map (prefix_sum a) (seq 0 (length a))).
Proof.
  induction a as [|x a IH]; intros [|y v] H; cbn [combine crossed length seq map dot] in *; try discriminate; try reflexivity.
  rewrite combine_snd by lia. rewrite IH by lia. change (prefix_sum (x :: a) 0) with 0.
  rewrite <- seq_shift, map_map. rewrite (map_ext (fun i => prefix_sum (x :: a) (S i)) (fun i => x + prefix_sum a i)) by (intros i; unfold prefix_sum; cbn [firstn]; apply zsum_cons).
  rewrite <- (map_map (prefix_sum a) (fun y => x + y)). rewrite dot_shift by (rewrite map_length, seq_length; lia). lia.
Qed.
Fixpoint cells (low : nat -> Z) (Y l : list nat) : list (Z * Z) :=
  match l with [] => [] | d :: t => combine (vals (flow d) (wo d Y) t) (map low (seq 0 (length t))) ++ cells low (wo d Y) t end.
Lemma dot_mono_r : forall v w w', Forall2 Z.le w w' -> Forall (Z.le 0) v -> dot v w <= dot v w'.
Proof. induction v as [|x v IH]; intros w w' H Hv; cbn [dot]; [lia|]. inversion Hv; subst. destruct H as [|a b w w' Hab H]; [lia|]. specialize (IH w w' H ltac:(assumption)). nia. Qed.
Lemma mutual_cells low : forall l Y pre, order Y l -> (forall i j, In i (pre ++ l) \/ In i Y -> In j (pre ++ l) \/ In j Y -> 0 <= flow i j) ->
  (forall t r, Permutation (map len (pre ++ l)) (t ++ r) -> low (length t) <= zsum t) ->
  pairs_dot (cells low Y l) <= mutual Y l.
Proof.
  induction l as [|d t IH]; intros Y pre Ho Hf Hlow; cbn [cells mutual]; [unfold pairs_dot; cbn; lia|].
  pose proof (order_tail _ _ _ Ho) as Ht. unfold pairs_dot. rewrite map_app, zsum_app. fold (pairs_dot (cells low (wo d Y) t)). fold (pairs_dot (combine (vals (flow d) (wo d Y) t) (map low (seq 0 (length t))))).
  rewrite <- dot_pairs. rewrite (static_crossed (flow d) (wo d Y) t Ht). rewrite crossed_prefixes by (rewrite map_length, vals_length; reflexivity). rewrite map_length.
  assert (forall j, In j (wo d Y) -> In j Y) as HY by (intros j Hj; apply in_wo in Hj; tauto).
  specialize (IH (wo d Y) (pre ++ [d]) Ht). rewrite <- !app_assoc in IH. cbn [app] in IH.
  enough (dot (vals (flow d) (wo d Y) t) (map low (seq 0 (length t))) <= dot (vals (flow d) (wo d Y) t) (map (prefix_sum (map len t)) (seq 0 (length t)))).
  { assert (pairs_dot (cells low (wo d Y) t) <= mutual (wo d Y) t); [|lia]. apply IH; [|exact Hlow]. intros i j Hi Hj. apply Hf; [destruct Hi; auto|destruct Hj; auto]. }
  apply dot_mono_r.
  - assert (forall i, In i (seq 0 (length t)) -> low i <= prefix_sum (map len t) i) as Hle.
    { intros i Hi. apply in_seq in Hi. unfold prefix_sum. rewrite firstn_map.
      assert (length (map len (firstn i t)) = i) as Ei by (rewrite map_length, firstn_length_le; lia). rewrite <- Ei at 1.
      apply (Hlow _ (map len (pre ++ [d]) ++ map len (skipn i t))). rewrite <- !map_app. apply Permutation_map.
      rewrite <- (firstn_skipn i t) at 1. clear. generalize (firstn i t) as a. generalize (skipn i t) as b. intros b a.
      change (d :: a ++ b) with ([d] ++ a ++ b). rewrite !app_assoc. apply Permutation_app_tail. rewrite <- (app_assoc a pre [d]). apply (Permutation_app_comm (pre ++ [d]) a). }
    revert Hle. generalize (seq 0 (length t)) as q. clear. induction q as [|i q IH]; intros H; cbn [map]; constructor; [apply H; left; reflexivity|]. apply IH. intros j Hj. apply H. right. exact Hj.
  - apply vals_nonneg. intros j Hj. apply Hf; [left; apply in_or_app; right; left; reflexivity|]. destruct Hj as [Hj|Hj]; [left; apply in_or_app; right; right; exact Hj|right; apply HY; exact Hj].
Qed.

(** Weights: one for each pair of positions. *)
Fixpoint rows (low : nat -> Z) (m : nat) : list Z := match m with O => [] | S m => map low (seq 0 m) ++ rows low m end.
Definition cols (low : nat -> Z) (m : nat) : list Z := flat_map (fun i => repeat (low i) (m - S i)) (seq 0 (m - 1)).
Lemma cells_snd low : forall l Y, map snd (cells low Y l) = rows low (length l).
Proof.
  induction l as [|d t IH]; intros Y; cbn [cells length rows]; [reflexivity|]. rewrite map_app, IH, combine_snd; [reflexivity|]. rewrite vals_length, map_length, seq_length. reflexivity.
Qed.
Lemma flat_cons {A B} (x : A -> B) (f : A -> list B) l : Permutation (flat_map (fun i => x i :: f i) l) (map x l ++ flat_map f l).
Proof.
  induction l as [|a l IH]; cbn [flat_map map app]; [reflexivity|]. constructor. rewrite IH, !app_assoc. apply Permutation_app_tail. apply Permutation_app_comm.
Qed.
Lemma rows_cols low : forall m, Permutation (rows low m) (cols low m).
Proof.
  induction m as [|m IH]; [reflexivity|]. cbn [rows]. rewrite IH. unfold cols. replace (S m - 1)%nat with m by lia.
  assert (flat_map (fun i => repeat (low i) (S m - S i)) (seq 0 m) = flat_map (fun i => low i :: repeat (low i) (m - S i)) (seq 0 m)) as ->.
  { rewrite !flat_map_concat_map. f_equal. apply map_ext_in. intros i Hi. apply in_seq in Hi. replace (S m - S i)%nat with (S (m - S i)) by lia. reflexivity. }
  rewrite flat_cons. apply Permutation_app_head. destruct m as [|m]; [reflexivity|]. replace (S m - 1)%nat with m by lia. rewrite seq_S, flat_map_app. cbn [flat_map plus].
  replace (S m - S m)%nat with 0%nat by lia. cbn [repeat]. rewrite !app_nil_r. reflexivity.
Qed.
Lemma rows_length low m : (2 * length (rows low m) = m * (m - 1))%nat.
Proof. induction m as [|m IH]; [reflexivity|]. cbn [rows]. rewrite app_length, map_length, seq_length. destruct m; [reflexivity|]. nia. Qed.
End Order.
