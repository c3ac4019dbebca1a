(** The estimate of the TSPTW example does not panic in a release build, whatever the state. *)
From Verif Require Import TsptwSpec BitsFacts MatrixFacts TsptwFacts TsptwTours DdSpec.
Open Scope Z_scope.

Section Panic.
Variable I : tw_inst.
Variable M : Z.
Hypothesis Hok : tw_inst_ok I M.
Notation n := (tw_n I).
Notation layer := (tw_layer I M).
Notation ch := (map (cheap I) (seq 0 n)).

Lemma usub_release a b : exists c, usub false a b = Some c.
Proof. unfold usub. destruct (b <=? a); eauto. Qed.
Lemma musts_release s : forall l acc, (forall i, In i l -> (i < n)%nat) -> exists r, est_musts false I ch s l acc = Some r.
Proof.
  induction l as [|i l IH]; intros [[a m0] b0] Hl; cbn [est_musts]; [eauto|]. assert (Hi : (i < n)%nat) by (apply Hl; left; reflexivity). unfold est_must.
  destruct (usub_release a 1) as (a' & ->). cbn [obind]. rewrite (cheapest_nth I i Hi). cbn [obind]. rewrite (get_dist I M Hok) by lia. cbn [obind].
  destruct (get_win I M Hok i Hi) as (w & -> & _). cbn [obind]. destruct (w_latest w <? _); cbn [obind]; [eauto|]. apply IH. intros x Hx. apply Hl. right. exact Hx.
Qed.
Lemma maybe_release s : forall l acc, (forall i, In i l -> (i < n)%nat) -> exists r, ofold (est_maybe I ch s) l acc = Some r.
Proof.
  induction l as [|i l IH]; intros [[a m0] b0] Hl; cbn [ofold]; [eauto|]. assert (Hi : (i < n)%nat) by (apply Hl; left; reflexivity). unfold est_maybe at 1.
  rewrite (cheapest_nth I i Hi). cbn [obind]. rewrite (get_dist I M Hok) by lia. cbn [obind].
  destruct (get_win I M Hok i Hi) as (w & -> & _). cbn [obind]. apply IH. intros x Hx. apply Hl. right. exact Hx.
Qed.
Lemma estimate_release k s : layer k s -> (k < n)%nat -> exists e, tw_estimate false I s = Some e.
Proof.
  intros HL Hk. unfold tw_estimate. rewrite (cheapest_all I M Hok). cbn [obind]. destruct (usub_release (Z.of_nat n) (Z.of_nat (tw_depth s))) as (c0 & ->). cbn [obind].
  assert (Hin : forall b i, In i (bs_iter n b) -> (i < n)%nat) by (intros b i Hi; apply in_bs_iter in Hi; tauto).
  destruct (musts_release s (bs_iter n (tw_must s)) (c0, 0, UMAX) (Hin _)) as ([[[a m] b]|] & ->); cbn [obind]; [|eauto].
  assert (Hr2 : exists r2, match tw_maybe s with
               | None => Some (Some (m, b))
               | Some my =>
                   do ' (temp, back', viol) <- ofold (est_maybe I ch s) (bs_iter n my) ([], b, 0);
                   do free <- usub false (Z.of_nat (length temp)) viol;
                   if free <? a then Some None
                   else Some (Some (m + zsum (take a (zsort temp)), back'))
               end = Some r2).
  { destruct (tw_maybe s) as [my|]; [|eauto]. destruct (maybe_release s (bs_iter n my) ([], b, 0) (Hin _)) as ([[temp b'] viol] & ->). cbn [obind].
    destruct (usub_release (Z.of_nat (length temp)) viol) as (free & ->). cbn [obind]. destruct (free <? a); eauto. }
  destruct Hr2 as (r2 & ->). cbn [obind]. destruct r2 as [[m' b']|]; [|eauto].
  assert (Hb : exists b2, (if m' =? 0 then
                         do d <- match tw_pos s with
                                 | AtNode x => mat_get (tw_dist I) x 0
                                 | Virtual bs => do l <- omap (fun x => mat_get (tw_dist I) x 0) (bs_iter n bs); zmin_of l
                                 end;
                         Some (Z.min b' d)
                       else Some b') = Some b2).
  { destruct (m' =? 0); [|eauto]. pose proof (tl_pos _ _ _ _ HL) as (p & Hp & Hat). pose proof (tl_virt _ _ _ _ HL) as Hv. unfold may_be_at in Hat, Hv. destruct (tw_pos s) as [x|bs].
    - subst p. rewrite (get_dist I M Hok) by lia. cbn [obind]. eauto.
    - destruct (virtual_list I M Hok bs ltac:(exists p; tauto) 0%nat ltac:(lia)) as [-> Hne]. cbn [obind]. destruct (zmin_of_spec _ Hne) as (y & -> & _). cbn [obind]. eauto. }
  destruct Hb as (b2 & ->). cbn [obind]. destruct (get_win I M Hok 0%nat ltac:(lia)) as (w & -> & _). cbn [obind]. eauto.
Qed.
End Panic.
