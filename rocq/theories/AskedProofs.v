(** The variables that the diagrams of the three examples ask for. Proofs for PropTsptw.v, PropPsp.v and PropSrflp.v; nothing here
    models code of /repo. *)
From Verif Require Import Spec Dd DdSpec WideSpec WideCount Tsptw TsptwSpec TsptwFacts TsptwMerge Psp PspSpec PspProofs Srflp SrflpSpec SrflpLayouts SrflpProofs.
Open Scope Z_scope.

Lemma asked S (P : problem S) at_depth nv : wf_problem S P at_depth nv -> forall k l, l <> [] ->
  (forall s, In s l -> exists ds c, run S P nv 0 (pb_init P) ds k s c) ->
  pb_next_var P l = if (k <? pb_nb_vars P)%nat then Some (nv k) else None.
Proof.
  intros Hw k l Hl Hr. assert (HF : Forall (at_depth k) l) by (apply Forall_forall; intros s Hs; eapply reached_at; [exact Hw|exact (Hr s Hs)]).
  destruct (Nat.ltb_spec k (pb_nb_vars P)) as [Hk|Hk]; [eapply wf_next; eauto|].
  assert (k <= pb_nb_vars P)%nat. { destruct l as [|s t]; [congruence|]. eapply reached_le. exact (Hr s (or_introl eq_refl)). }
  assert (k = pb_nb_vars P) as -> by lia. eapply wf_last; eauto.
Qed.

Lemma tw_asked debug I M : tw_inst_ok I M -> forall k l, l <> [] ->
  (forall s, In s l -> exists ds c, run tw_state (tw_problem debug I) tw_nv 0 (pb_init (tw_problem debug I)) ds k s c) ->
  pb_next_var (tw_problem debug I) l = if (k <? tw_n I)%nat then Some k else None.
Proof. intros Hok. exact (asked _ _ _ _ (wfd_problem _ _ _ _ _ _ _ (tsptw_formed debug I M Hok))). Qed.
Lemma psp_asked D M : psp_ok D M -> forall J, loaded D J -> forall debug k l, l <> [] ->
  (forall s, In s l -> exists ds c, run psp_state (psp_pb J debug) (psp_nv D) 0 (pb_init (psp_pb J debug)) ds k s c) ->
  pb_next_var (psp_pb J debug) l = if (k <? pd_T D)%nat then Some (pd_T D - 1 - k)%nat else None.
Proof.
  intros Hok J HJ debug k l Hl Hr. rewrite (asked _ _ _ _ (wfd_problem _ _ _ _ _ _ _ (psp_formed D M Hok J HJ debug)) k l Hl Hr).
  change (pb_nb_vars (psp_pb J debug)) with (ps_T J). rewrite (T_eq D M Hok J HJ). reflexivity.
Qed.
Lemma sr_asked debug I F L : sr_ok I F L -> forall k l, l <> [] ->
  (forall s, In s l -> exists ds c, run sr_state (sr_problem debug I) sr_nv 0 (pb_init (sr_problem debug I)) ds k s c) ->
  pb_next_var (sr_problem debug I) l = if (k <? sr_n I)%nat then Some k else None.
Proof. intros Hok. exact (asked _ _ _ _ (wfd_problem _ _ _ _ _ _ _ (sr_formed I F L Hok debug))). Qed.
