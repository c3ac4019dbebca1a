(** Merging states of the PSP example. *)
From Verif Require Import Spec Psp PspSpec Bits BitsFacts MatrixFacts PspFacts PspPlans.
Open Scope Z_scope.

(** ** Merging *)
Definition merge_fold (l : list psp_state) (acc : nat * list Z) : nat * list Z :=
  fold_left (fun acc s => let '(time, xxx) := acc in
      (Nat.max time (pt_time s),
       match xxx with
       | [] => pt_u s
       | _ => map (fun uv => Z.min (fst uv) (snd uv)) (combine xxx (pt_u s)) ++ skipn (length (pt_u s)) xxx
       end)) l acc.

Lemma min_zip (a b : list Z) : length a = length b ->
  let c := map (fun uv => Z.min (fst uv) (snd uv)) (combine a b) ++ skipn (length b) a in
  length c = length a /\ forall i, (i < length a)%nat -> nth i c 0 = Z.min (nth i a 0) (nth i b 0).
Proof.
  intros H. rewrite skipn_all2 by lia. rewrite app_nil_r. cbv zeta.
  rewrite map_length, combine_length, <- H, Nat.min_id. split; [reflexivity|].
  intros i Hi. rewrite (nth_indep _ 0 (Z.min (fst (0, 0)) (snd (0, 0)))) by (rewrite map_length, combine_length; lia).
  rewrite (map_nth (fun uv => Z.min (fst uv) (snd uv))), combine_nth by exact H. reflexivity.
Qed.

Lemma merge_fold_spec n t : forall l a, Forall (fun s => pt_time s = t /\ length (pt_u s) = n) l ->
  fst a = t -> length (snd a) = n ->
  fst (merge_fold l a) = t /\ length (snd (merge_fold l a)) = n /\
  forall i, (i < n)%nat ->
    nth i (snd (merge_fold l a)) 0 <= nth i (snd a) 0 /\ (forall s, In s l -> nth i (snd (merge_fold l a)) 0 <= deadline s i) /\
    (nth i (snd (merge_fold l a)) 0 = nth i (snd a) 0 \/ exists s, In s l /\ nth i (snd (merge_fold l a)) 0 = deadline s i).
Proof.
  induction l as [|s l IH]; intros [ta xa] Hf Ht Hn; cbn [fst snd] in *.
  - split; [exact Ht|]. split; [exact Hn|]. intros i Hi. split; [apply Z.le_refl|]. split; [intros s []|left; reflexivity].
  - inversion Hf as [|s' l' [Hs1 Hs2] Hf']; subst s' l'.
    set (b := match xa with [] => pt_u s | _ => map (fun uv => Z.min (fst uv) (snd uv)) (combine xa (pt_u s)) ++ skipn (length (pt_u s)) xa end).
    assert (length b = n /\ forall i, (i < n)%nat -> nth i b 0 = Z.min (nth i xa 0) (deadline s i)) as [Hb1 Hb2].
    { destruct xa as [|x xa].
      - cbn in Hn. subst n. split; [exact Hs2|]. intros i Hi. lia.
      - subst b. destruct (min_zip (x :: xa) (pt_u s)) as [H1 H2]; [congruence|]. split; [congruence|]. intros i Hi. apply H2. lia. }
    change (merge_fold (s :: l) (ta, xa)) with (merge_fold l (Nat.max ta (pt_time s), b)).
    destruct (IH (Nat.max ta (pt_time s), b) Hf') as (H1 & H2 & H3); [cbn [fst]; lia|exact Hb1|].
    split; [exact H1|]. split; [exact H2|]. intros i Hi. destruct (H3 i Hi) as (H4 & H5 & H6). cbn [snd] in H4, H6.
    rewrite (Hb2 i Hi) in H4, H6. split; [lia|]. split.
    + intros s0 [<-|Hs0]; [lia|apply H5; exact Hs0].
    + destruct H6 as [H6|(s0 & H6 & H7)].
      * destruct (Z.min_spec (nth i xa 0) (deadline s i)) as [[_ E]|[_ E]]; rewrite E in H6; [left; exact H6|right; exists s; split; [left; reflexivity|exact H6]].
      * right. exists s0. split; [right; exact H6|exact H7].
Qed.

(** The merged state: no item chosen, and the smallest deadline for each item. *)
Lemma merge_spec n t l : l <> [] -> Forall (fun s => pt_time s = t /\ length (pt_u s) = n) l ->
  pt_time (ps_merge l) = t /\ pt_k (ps_merge l) = BOT /\ length (pt_u (ps_merge l)) = n /\
  forall i, (i < n)%nat -> (forall s, In s l -> deadline (ps_merge l) i <= deadline s i) /\
    exists s, In s l /\ deadline (ps_merge l) i = deadline s i.
Proof.
  intros Hl Hf. destruct l as [|s l]; [contradiction|]. inversion Hf as [|s' l' [Hs1 Hs2] Hf']; subst s' l'.
  assert (ps_merge (s :: l) = let '(time, xxx) := merge_fold l (pt_time s, pt_u s) in mk_pst time BOT xxx) as -> by reflexivity.
  destruct (merge_fold_spec n t l (pt_time s, pt_u s) Hf' Hs1 Hs2) as (H1 & H2 & H3).
  destruct (merge_fold l (pt_time s, pt_u s)) as [tm xm]. cbn [fst snd] in *. cbn [pt_time pt_k pt_u].
  split; [exact H1|]. split; [reflexivity|]. split; [exact H2|]. intros i Hi. destruct (H3 i Hi) as (H4 & H5 & H6).
  unfold deadline in *. cbn [pt_u]. split.
  - intros s0 [<-|Hs0]; [exact H4|apply H5; exact Hs0].
  - destruct H6 as [H6|(s0 & H6 & H7)]; [exists s; split; [left; reflexivity|exact H6]|exists s0; split; [right; exact H6|exact H7]].
Qed.

(** ** Thinning a plan: keep only the first units of each item *)
Fixpoint thin (keep : nat -> Z) (p : plan) : plan :=
  match p with
  | [] => []
  | x :: q =>
      match x with
      | Some i => if 0 <? keep i then Some i :: thin (fun j => if Nat.eqb j i then keep j - 1 else keep j) q
                  else None :: thin keep q
      | None => None :: thin keep q
      end
  end.
Lemma thin_len p : forall keep, length (thin keep p) = length p.
Proof. induction p as [|[i|] p IH]; intros keep; cbn [thin length]; [reflexivity| |rewrite IH; reflexivity]. destruct (0 <? keep i); cbn [length]; rewrite IH; reflexivity. Qed.
Lemma produced_cons x p i t : produced (x :: p) i (S t) = is_item x i + produced p i t.
Proof.
  unfold produced. induction t as [|t IH].
  - rewrite count_S, !count_0. unfold produces, is_item. cbn [nth_error]. destruct x as [j|]; [|reflexivity]. rewrite Nat.eqb_sym. lia.
  - rewrite count_S, IH, (count_S (produces p i)). unfold produces at 2 4. cbn [nth_error]. lia.
Qed.
Lemma produced_thin p : forall keep i t, 0 <= keep i -> produced (thin keep p) i t = Z.min (produced p i t) (keep i).
Proof.
  induction p as [|x p IH]; intros keep i t Hk; cbn [thin]; [rewrite produced_nil; lia|].
  destruct t as [|t]; [cbn; lia|]. rewrite produced_cons. pose proof (produced_nonneg p i t).
  destruct x as [j|].
  - destruct (Z.ltb_spec 0 (keep j)).
    + rewrite produced_cons. cbn [is_item]. destruct (Nat.eqb_spec i j) as [->|Hne].
      * rewrite IH; rewrite Nat.eqb_refl; lia.
      * rewrite IH; destruct (Nat.eqb_spec i j); lia.
    + rewrite produced_cons, IH by exact Hk. cbn [is_item]. destruct (Nat.eqb_spec i j) as [->|Hne]; lia.
  - rewrite produced_cons, IH by exact Hk. cbn [is_item]. lia.
Qed.
Lemma thin_in p : forall keep i, In (Some i) (thin keep p) -> In (Some i) p.
Proof.
  induction p as [|[j|] p IH]; intros keep i; cbn [thin]; [intros []| |].
  - destruct (0 <? keep j); intros [H|H]; [left; exact H|right; eapply IH; exact H|discriminate|right; eapply IH; exact H].
  - intros [H|H]; [discriminate|right; eapply IH; exact H].
Qed.

Section Merge.
Variable D : psp_data.
Variable M : Z.
Hypothesis Hok : psp_ok D M.
Let T := pd_T D.
Let n := pd_n D.
Variable mst : list Z.
Let I := psp_build D mst.
Variable debug : bool.
Let P := psp_pb I debug.

Lemma layer_merge k l : l <> [] -> Forall (psp_layer D k) l -> psp_layer D k (ps_merge l) /\ pt_k (ps_merge l) = BOT /\
  forall s i, In s l -> (i < n)%nat -> deadline (ps_merge l) i <= deadline s i.
Proof.
  intros Hl Hf. destruct (merge_spec n (T - k)%nat l Hl) as (H1 & H2 & H3 & H4).
  { eapply Forall_impl; [|exact Hf]. intros s Hs. split; [apply Hs|apply Hs]. }
  rewrite Forall_forall in Hf. split; [|split; [exact H2|intros s i Hs Hi; apply H4; assumption]].
  assert (exists s, In s l) as [s0 Hs0] by (destruct l as [|s l]; [contradiction|exists s; left; reflexivity]).
  constructor.
  - split; [apply (Hf s0 Hs0)|exact H1].
  - exact H3.
  - left. exact H2.
  - intros i Hi. destruct (H4 i Hi) as [_ (s & Hs & ->)]. apply (Hf s Hs). exact Hi.
  - intros i Hi. destruct (H4 i Hi) as [_ (s & Hs & ->)]. rewrite H1. pose proof (pl_orders _ _ _ (Hf s Hs) i Hi) as H. destruct (pl_time _ _ _ (Hf s Hs)) as [_ Ht].
    rewrite Ht in H. exact H.
  - intros Hk. pose proof (pl_sum _ _ _ (Hf s0 Hs0) Hk) as H. destruct (pl_time _ _ _ (Hf s0 Hs0)) as [_ Ht]. fold T in Ht. rewrite H1, <- Ht.
    eapply Z.le_trans; [|exact H]. apply zsum_le. intros i Hi. apply in_seq in Hi. apply orders_mono. apply H4; [fold n in Hi; lia|exact Hs0].
Qed.

(** Leaving items out does not make the changeovers dearer. *)
Hypothesis Htri : change_triangle D.
Notation changeovers := (changeovers D). Notation change := (change D).
Lemma changeovers_skip x y l : (forall i, In i (x :: y :: l) -> (i < n)%nat) -> changeovers (x :: l) <= changeovers (x :: y :: l).
Proof.
  intros H. destruct l as [|z l].
  - cbn [PspSpec.changeovers]. pose proof (po_change_range _ _ Hok x y (H x ltac:(cbn; auto)) (H y ltac:(cbn; auto))). lia.
  - change (change x z + changeovers (z :: l) <= change x y + (change y z + changeovers (z :: l))).
    pose proof (Htri x y z (H x ltac:(cbn; auto)) (H y ltac:(cbn; auto)) (H z ltac:(cbn; auto))). lia.
Qed.
Lemma changeovers_head x l : (forall i, In i (x :: l) -> (i < n)%nat) -> changeovers l <= changeovers (x :: l).
Proof.
  intros H. destruct l as [|z l]; [cbn; lia|]. change (changeovers (z :: l) <= change x z + changeovers (z :: l)).
  pose proof (po_change_range _ _ Hok x z (H x ltac:(cbn; auto)) (H z ltac:(cbn; auto))). lia.
Qed.
Lemma changeovers_nonneg l : (forall i, In i l -> (i < n)%nat) -> 0 <= changeovers l.
Proof.
  induction l as [|x l IH]; intros H; [cbn; lia|]. pose proof (changeovers_head x l H). specialize (IH ltac:(intros i Hi; apply H; right; exact Hi)). lia.
Qed.
Lemma thin_head p : forall keep x, (forall i, In i (x :: sequence p) -> (i < n)%nat) -> changeovers (x :: sequence (thin keep p)) <= changeovers (x :: sequence p).
Proof.
  induction p as [|[j|] p IH]; intros keep x H; cbn [thin sequence] in *; [lia| |apply IH; exact H].
  assert (forall i, In i (x :: sequence p) -> (i < n)%nat) as H' by (intros i [Hi|Hi]; apply H; [left; exact Hi|right; right; exact Hi]).
  destruct (0 <? keep j); cbn [sequence].
  - change (change x j + changeovers (j :: sequence (thin (fun k => if Nat.eqb k j then keep k - 1 else keep k) p)) <= change x j + changeovers (j :: sequence p)).
    apply Zplus_le_compat_l. apply IH. intros i Hi. apply H. right. exact Hi.
  - eapply Z.le_trans; [apply IH; exact H'|]. apply changeovers_skip. exact H.
Qed.
Lemma thin_changeovers p : forall keep, (forall i, In i (sequence p) -> (i < n)%nat) -> changeovers (sequence (thin keep p)) <= changeovers (sequence p).
Proof.
  induction p as [|[j|] p IH]; intros keep H; cbn [thin sequence] in *; [lia| |apply IH; exact H].
  destruct (0 <? keep j); cbn [sequence]; [apply thin_head; exact H|].
  eapply Z.le_trans; [apply IH; intros i Hi; apply H; right; exact Hi|]. apply changeovers_head. exact H.
Qed.
Lemma changeovers_ahead p : forall l, (forall i, In i (p ++ l) -> (i < n)%nat) -> changeovers p <= changeovers (p ++ l).
Proof.
  induction p as [|x p IH]; intros l H; cbn [app] in *; [apply changeovers_nonneg; exact H|].
  assert (forall i, In i (p ++ l) -> (i < n)%nat) as H' by (intros i Hi; apply H; right; exact Hi).
  destruct p as [|y p]; cbn [app] in *.
  - cbn [PspSpec.changeovers]. destruct l as [|z l]; [lia|]. pose proof (changeovers_nonneg (z :: l) H').
    pose proof (po_change_range _ _ Hok x z (H x ltac:(cbn; auto)) (H z ltac:(cbn; auto))). lia.
  - change (change x y + changeovers (y :: p) <= change x y + changeovers (y :: p ++ l)). pose proof (IH l H'). lia.
Qed.

(** Whatever serves a state serves, once thinned, any state with the same time and smaller deadlines; it costs no more when
    that state has no item chosen. *)
Lemma serves_smaller k s m p : psp_layer D k s -> psp_layer D k m -> (forall i, (i < n)%nat -> deadline m i <= deadline s i) -> pt_k m = BOT ->
  serves D s p -> exists q, serves D m q /\ bill D m q <= bill D s p.
Proof.
  intros Hs Hm Hd Hk Hv. set (keep := fun i => orders D i (deadline m i)).
  assert (pt_time m = pt_time s) as Ht by (destruct (pl_time _ _ _ Hs) as [_ H1]; destruct (pl_time _ _ _ Hm) as [_ H2]; congruence).
  assert (forall i, 0 <= keep i) as Hk0 by (intros i; apply orders_nonneg).
  assert (forall i, (i < n)%nat -> keep i <= orders D i (deadline s i)) as Hle by (intros i Hi; apply orders_mono; apply Hd; exact Hi).
  assert (forall i t, (i < n)%nat -> (pt_time s <= t)%nat -> produced p i t = orders D i (deadline s i)) as Hpt.
  { intros i t Hi Hle'. rewrite produced_after by (rewrite (sv_len _ _ _ Hv); exact Hle'). rewrite (sv_len _ _ _ Hv). apply (sv_total _ _ _ Hv). exact Hi. }
  exists (thin keep p). split.
  - constructor.
    + rewrite thin_len, Ht. apply Hv.
    + intros i Hi. apply thin_in in Hi. apply Hv. exact Hi.
    + intros i Hi. rewrite produced_thin by apply Hk0. rewrite Ht, (sv_total _ _ _ Hv i Hi). pose proof (Hle i Hi). fold (keep i). lia.
    + intros i t Hi Ht'. rewrite produced_thin by apply Hk0. rewrite Ht in Ht'. pose proof (sv_time _ _ _ Hv i t Hi Ht').
      pose proof (pl_orders _ _ _ Hm i Hi) as Ho. rewrite Ht in Ho. fold (keep i) in Ho. pose proof (count_mono (due D i) t (pt_time s) Ht'). unfold demanded in *. lia.
  - unfold bill. apply Z.add_le_mono.
    + unfold ahead at 1. rewrite Hk. change (BOT =? BOT) with true. cbv iota. rewrite app_nil_r.
      assert (forall i, In i (sequence p) -> (i < n)%nat) as Hi by (intros i Hi; apply in_sequence in Hi; apply Hv; exact Hi).
      eapply Z.le_trans; [apply thin_changeovers; exact Hi|]. apply changeovers_ahead. intros i Hin. apply in_app_iff in Hin.
      destruct Hin as [Hin|Hin]; [apply Hi; exact Hin|]. unfold ahead in Hin. destruct (Z.eqb_spec (pt_k s) BOT); [destruct Hin|].
      destruct Hin as [<-|[]]. destruct (pl_k _ _ _ Hs) as [|Hks]; [contradiction|]. fold n in Hks. lia.
    + apply zsum_le. intros i Hi. apply in_seq in Hi. assert (i < n)%nat as Hi' by (fold n in Hi; lia).
      apply Z.mul_le_mono_nonneg_l; [apply (po_stock_range _ _ Hok); exact Hi'|]. unfold held. apply zsum_le. intros t Ht'. apply in_seq in Ht'.
      rewrite produced_thin by apply Hk0. fold (keep i). pose proof (Hle i Hi').
      destruct (Nat.le_gt_cases t (pt_time s)) as [Hc|Hc].
      * pose proof (sv_time _ _ _ Hv i t Hi' Hc). pose proof (count_mono (produces p i) t (pt_time s) Hc) as Hmono. fold (produced p i t) in Hmono. fold (produced p i (pt_time s)) in Hmono.
        rewrite (sv_total _ _ _ Hv i Hi') in Hmono. lia.
      * rewrite (Hpt i t Hi') by lia. lia.
Qed.

Theorem merge_covers : forall k l s ds c, (k <= T)%nat -> Forall (psp_layer D k) l -> In s l -> completion psp_state P (psp_nv D) k s ds c ->
  exists ds' c', completion psp_state P (psp_nv D) k (ps_merge l) ds' c' /\ c <= c'.
Proof.
  intros k l s ds c Hk Hl Hin Hc. assert (l <> []) as Hne by (intros ->; destruct Hin).
  destruct (layer_merge k l Hne Hl) as (Hm & Hmk & Hd). rewrite Forall_forall in Hl. pose proof (Hl s Hin) as Hs.
  destruct (completion_serves D M Hok mst debug k s ds c Hs Hc) as (p & Hv & -> & ->).
  destruct (serves_smaller k s (ps_merge l) p Hs Hm) as (q & Hq & Hb); [intros i Hi; apply Hd; assumption|exact Hmk|exact Hv|].
  exists (plan_decisions q), (- bill D (ps_merge l) q). split; [|lia]. apply (serves_completion D M Hok mst debug (T - k)%nat); [exact Hm|reflexivity|exact Hq].
Qed.
End Merge.
