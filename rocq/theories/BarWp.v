(** Reasoning about programs over the shared thresholds.
    [wp p T Q]: whatever the other threads do between two accesses, [p] never panics, only writes what the guarantee [G]
    allows, and if it returns, [Q] holds of its result and of the thresholds just after its last access. When [alone] is
    [true] nobody else touches the thresholds. *)
From Verif Require Import Base MddBarrier.

Section Wp.
Variable S : Type.
Variable eqb : S -> S -> bool.
Hypothesis eqb_spec : forall a b, eqb a b = true <-> a = b.
Variable alone : bool.
Variable L : nat.
Variable G : nat -> S -> info -> Prop.
Notation thresholds := (thresholds S).
Notation prog := (prog S).

Definition env (T T' : thresholds) : Prop := length T' = L /\ (alone = true -> T' = T).

Fixpoint wp {A} (p : prog A) (T : thresholds) (Q : A -> thresholds -> Prop) : Prop :=
  match p with
  | Ret a => Q a T
  | Fail => False
  | IsEmpty d k => (d < L)%nat /\ forall T' l, env T T' -> nth_error T' d = Some l -> wp (k (is_nil l)) T' Q
  | Get d s k => (d < L)%nat /\ forall T' l, env T T' -> nth_error T' d = Some l -> wp (k (tget eqb l s)) T' Q
  | Put d s i k => (d < L)%nat /\ G d s i /\
      forall T' T'' l, env T T' -> nth_error T' d = Some l -> upd T' d (tput eqb l s i) = Some T'' -> wp k T'' Q
  end.

Lemma upd_len {A} (l : list A) : forall i x l', upd l i x = Some l' -> length l' = length l.
Proof.
  induction l as [|h t IH]; intros [|i] x l' H; cbn in H; try discriminate.
  - inversion H. reflexivity.
  - destruct (upd t i x) eqn:E; [|discriminate]. inversion H. cbn. f_equal. eapply IH. exact E.
Qed.
Lemma upd_ex {A} (l : list A) : forall i x, (i < length l)%nat -> exists l', upd l i x = Some l'.
Proof.
  induction l as [|h t IH]; intros [|i] x H; cbn in H; try lia; cbn; [eexists; reflexivity|].
  destruct (IH i x ltac:(lia)) as [l' ->]. eexists. reflexivity.
Qed.
Lemma upd_nth {A} (l : list A) : forall i x l' j, upd l i x = Some l' -> nth_error l' j = if Nat.eqb j i then Some x else nth_error l j.
Proof.
  induction l as [|h t IH]; intros [|i] x l' j H; cbn in H; try discriminate.
  - inversion H. subst. destruct j; reflexivity.
  - destruct (upd t i x) eqn:E; [|discriminate]. inversion H. subst. destruct j as [|j]; [reflexivity|]. cbn. apply (IH i x l j E).
Qed.
Lemma nth_ex {A} (l : list A) i : (i < length l)%nat -> exists x, nth_error l i = Some x.
Proof. intros H. destruct (nth_error l i) eqn:E; [eauto|]. apply nth_error_None in E. lia. Qed.

Lemma wp_mono {A} (p : prog A) : forall T (Q Q' : A -> thresholds -> Prop), (forall a T', Q a T' -> Q' a T') -> wp p T Q -> wp p T Q'.
Proof.
  induction p as [a| |d k IH|d s k IH|d s i k IH]; intros T Q Q' H; cbn.
  - apply H.
  - auto.
  - intros [H1 H2]. split; [exact H1|]. intros T' l He Hn. eapply IH; eauto.
  - intros [H1 H2]. split; [exact H1|]. intros T' l He Hn. eapply IH; eauto.
  - intros (H1 & H2 & H3). split; [exact H1|]. split; [exact H2|]. intros T' T'' l He Hn Hu. eapply IH; eauto.
Qed.
Lemma wp_bind {A B} (p : prog A) (f : A -> prog B) : forall T Q, wp p T (fun a T' => wp (f a) T' Q) -> wp (pbind p f) T Q.
Proof.
  induction p as [a| |d k IH|d s k IH|d s i k IH]; intros T Q; cbn [pbind wp].
  - auto.
  - auto.
  - intros [H1 H2]. split; [exact H1|]. intros T' l He Hn. apply IH; eauto.
  - intros [H1 H2]. split; [exact H1|]. intros T' l He Hn. apply IH; eauto.
  - intros (H1 & H2 & H3). split; [exact H1|]. split; [exact H2|]. intros T' T'' l He Hn Hu. apply IH; eauto.
Qed.
Lemma wp_pure {A B} (o : option A) (a : A) (f : A -> prog B) T Q : o = Some a -> wp (f a) T Q -> wp (pbind (pure o) f) T Q.
Proof. intros -> H. exact H. Qed.

(** One access keeps the promise. *)
Lemma wp_access {A} (p : prog A) T0 T Q : wp p T0 Q -> length T = L -> (alone = true -> T = T0) ->
  match p with Ret _ => True | _ => exists p' T', access eqb p T = Some (p', T') /\ wp p' T' Q /\ length T' = L end.
Proof.
  intros H HL Ha. assert (He : env T0 T) by (split; assumption). destruct p as [a| |d k|d s k|d s i k]; cbn [wp] in H; auto.
  - destruct H.
  - destruct H as [H1 H2]. destruct (nth_ex T d ltac:(lia)) as [l Hl]. cbn [access]. rewrite Hl. cbn [obind]. eexists _, _. split; [reflexivity|]. split; [eauto|exact HL].
  - destruct H as [H1 H2]. destruct (nth_ex T d ltac:(lia)) as [l Hl]. cbn [access]. rewrite Hl. cbn [obind]. eexists _, _. split; [reflexivity|]. split; [eauto|exact HL].
  - destruct H as (H1 & H2 & H3). destruct (nth_ex T d ltac:(lia)) as [l Hl]. cbn [access]. rewrite Hl. cbn [obind].
    destruct (upd_ex T d (tput eqb l s i) ltac:(lia)) as [T' HT']. rewrite HT'. cbn [obind]. eexists _, _. split; [reflexivity|].
    split; [eauto|]. rewrite (upd_len _ _ _ _ HT'). exact HL.
Qed.

(** ** The contents of the thresholds *)
Definition lookup (T : thresholds) (d : nat) (s : S) : option info := match nth_error T d with Some l => tget eqb l s | None => None end.

Lemma tget_tput l s i s' : tget eqb (tput eqb l s i) s' = if eqb s s' then Some i else tget eqb l s'.
Proof.
  induction l as [|[k v] t IH]; cbn [tput tget].
  - reflexivity.
  - destruct (eqb k s) eqn:Ek; cbn [tget].
    + apply eqb_spec in Ek. subst k. destruct (eqb s s'); reflexivity.
    + destruct (eqb k s') eqn:Ek'; [|exact IH]. apply eqb_spec in Ek'. subst k. destruct (eqb s s') eqn:Es; [|reflexivity].
      apply eqb_spec in Es. subst s'. assert (eqb s s = true) by (apply eqb_spec; reflexivity). congruence.
Qed.
Lemma lookup_put T T' d l s i d' s' : nth_error T d = Some l -> upd T d (tput eqb l s i) = Some T' ->
  lookup T' d' s' = if Nat.eqb d' d && eqb s s' then Some i else lookup T d' s'.
Proof.
  intros Hn Hu. unfold lookup. rewrite (upd_nth _ _ _ _ d' Hu). destruct (Nat.eqb_spec d' d) as [->|]; [|reflexivity].
  rewrite Hn, tget_tput. cbn [andb]. destruct (eqb s s'); reflexivity.
Qed.

(** [T'] is [T] but for one entry, which is [i]. *)
Definition updated (T T' : thresholds) (d : nat) (s : S) (i : info) : Prop :=
  forall d' s', lookup T' d' s' = lookup T d' s' \/ (d' = d /\ s' = s /\ lookup T' d' s' = Some i).

Lemma wp_try_update (g : dd S) depth s theta explored T :
  (depth < L)%nat -> length T = L ->
  let skip := match g_ctype g, g_lel g with LastExactLayer, Some l => (l <? depth)%nat | _, _ => false end in
  (skip = false -> G depth s (mk_info theta explored)) ->
  wp (try_update_barrier g depth s theta explored) T (fun _ T' => length T' = L /\ (alone = true -> T' = T \/ skip = false /\ updated T T' depth s (mk_info theta explored))).
Proof.
  intros Hd HT skip HG. unfold try_update_barrier. fold skip. destruct skip; [cbn; auto|]. cbn [wp]. split; [exact Hd|].
  intros T' l [HL He] Hl. destruct (match tget eqb l s with None => true | Some i => _ end); cbn [wp]; [|split; [exact HL|auto]].
  split; [exact Hd|]. split; [auto|]. intros T1 T2 l1 [HL1 He1] Hl1 Hu. split; [rewrite (upd_len _ _ _ _ Hu); exact HL1|].
  intros Ha. right. split; [reflexivity|]. intros d' s'. specialize (He Ha). specialize (He1 Ha). subst T1 T'.
  rewrite (lookup_put _ _ _ _ _ _ d' s' Hl1 Hu). destruct (Nat.eqb_spec d' depth) as [->|]; cbn [andb]; [|auto]. destruct (eqb s s') eqn:E; [|auto].
  apply eqb_spec in E. auto.
Qed.
End Wp.
