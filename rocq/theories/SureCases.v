(** Debug builds of two of the programs: the estimate of the initial state panics. *)
From Verif Require Import Spec Dd DdSpec Fringe FringeFacts ParSpec BarSpec CrashSpec SureSpec SureProofs SureBarProofs Srflp SrflpSpec SrflpProofs Psp PspSpec PspFacts PspEstimate PspProofs.
Open Scope Z_scope.

(** A subproblem on the state of which the estimate (examples/srflp/model.rs:176, examples/psp/psp.rs:201; called by src/mdd/with_all.rs:272 and
    src/mdd/with_barrier.rs:313) panics in a debug build. *)
Definition sr_fatal (I : sr_inst) (q : subproblem sr_state) : Prop := sr_estimate true I (sp_state q) = None.
Definition ps_fatal (J : psp) (q : subproblem psp_state) : Prop := ps_estimate J true (sp_state q) = None.
(** The configuration of examples/psp/main.rs (see PspProofs.v) in a debug build. *)
Definition psp_debug_cfg (J : psp) (factor : nat) (ct : cutset_type) : config psp_state :=
  mk_cfg (psp_pb J true) psp_rx ps_rank (ps_width J factor) ct (nodup_frontier psp_eqb ps_rank).

Lemma sr_root I F L : sr_ok I F L -> forall factor ct, sr_fatal I (root_node (sr_cfg true I factor ct)).
Proof. intros H factor ct. apply (exact_debug_panics I F L H [] 0%nat (sr_init I) 0); [apply run_nil|apply (so_n _ _ _ H)]. Qed.

Section Psp.
Variable D : psp_data.
Variable M : Z.
Hypothesis Hok : psp_ok D M.
Variable J : psp.
Hypothesis HJ : loaded D J.
Lemma ps_root : zsum (map (fun i => demanded D i (pd_T D)) (seq 0 (pd_n D))) + 1 < Z.of_nat (pd_T D) ->
  forall factor ct, ps_fatal J (root_node (psp_debug_cfg J factor ct)).
Proof.
  intros H factor ct. unfold ps_fatal. cbn [root_node sp_state psp_debug_cfg cf_pb].
  destruct (loaded_ok D M Hok J HJ) as (mst & Hm & EJ).
  assert (exists s, pb_init (psp_pb J true) = s /\ psp_layer D 0 s /\ forall i, (i < pd_n D)%nat -> orders D i (deadline s i) = demanded D i (pd_T D)) as (s & -> & Hs & Ho).
  { rewrite EJ. destruct (init_spec D M Hok mst true) as (s & _ & H2 & H3 & _ & H4). exists s. auto. }
  apply (debug_panics D M Hok J HJ 0 s Hs). rewrite (PspFacts.zsum_ext _ (fun i => demanded D i (pd_T D))).
  - destruct (pl_time _ _ _ Hs) as [_ ->]. rewrite Nat.sub_0_r. exact H.
  - intros i Hi. apply in_seq in Hi. apply Ho. lia.
Qed.
End Psp.

(** Both programs keep their frontier without duplicates. *)
Lemma sr_frontier I factor ct : FringeSpec.frontier_ok True (cf_fr (sr_cfg true I factor ct)) (NoDupFacts.Inv sr_state sr_rank) (nd_list sr_state).
Proof. apply nodup_frontier_ok; [apply sr_eqb_spec|apply sr_rank_preorder]. Qed.
Lemma psp_frontier J factor ct : FringeSpec.frontier_ok True (cf_fr (psp_debug_cfg J factor ct)) (NoDupFacts.Inv psp_state ps_rank) (nd_list psp_state).
Proof. apply nodup_frontier_ok; [apply psp_eqb_spec|apply ps_rank_preorder]. Qed.

Lemma sr_never I F L : sr_ok I F L -> forall factor ct n m, (2 <= m <= n)%nat ->
  sr_estimate true I (sr_init I) = None /\
  (forall x, freaches sr_state sr_eqb (sr_cfg true I factor ct) (sr_fatal I) n m x -> ~ ended x) /\
  (forall x, bfreaches sr_state sr_eqb (sr_cfg true I factor ct) (sr_fatal I) n m x -> ~ bended x).
Proof.
  intros H factor ct n m Hm. pose proof (sr_root I F L H factor ct) as Hr. split; [exact Hr|]. split; intros x Hx.
  - apply (fatal_root _ _ _ _ _ _ _ (sr_frontier I factor ct) n m Hm Hr x Hx).
  - apply (bfatal_root _ _ _ _ _ _ _ (sr_frontier I factor ct) n m Hm Hr x Hx).
Qed.
Lemma psp_never D M : psp_ok D M -> forall J, loaded D J -> zsum (map (fun i => demanded D i (pd_T D)) (seq 0 (pd_n D))) + 1 < Z.of_nat (pd_T D) ->
  forall factor ct n m, (2 <= m <= n)%nat ->
  ps_estimate J true (pb_init (psp_pb J true)) = None /\
  (forall x, freaches psp_state psp_eqb (psp_debug_cfg J factor ct) (ps_fatal J) n m x -> ~ ended x) /\
  (forall x, bfreaches psp_state psp_eqb (psp_debug_cfg J factor ct) (ps_fatal J) n m x -> ~ bended x).
Proof.
  intros H J HJ Hi factor ct n m Hm. pose proof (ps_root D M H J HJ Hi factor ct) as Hr. split; [exact Hr|]. split; intros x Hx.
  - apply (fatal_root _ _ _ _ _ _ _ (psp_frontier J factor ct) n m Hm Hr x Hx).
  - apply (bfatal_root _ _ _ _ _ _ _ (psp_frontier J factor ct) n m Hm Hr x Hx).
Qed.
