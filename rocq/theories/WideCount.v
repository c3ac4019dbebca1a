(** How wide a layer can be: the number of states is at most the product of the numbers of values. *)
From Verif Require Import Spec Dd WideSpec.
From Coq Require Import ZifyNat.
Open Scope Z_scope.

Section Count.
Variable S : Type.
Variable P : problem S.
Variable nv : nat -> nat.
Notation N := (pb_nb_vars P).
Notation reached := (reached S P nv).

Lemma reached_last k s ds k' s' c : run S P nv k s ds k' s' c -> (k' = k /\ s' = s) \/
  exists k0 s0 ds0 c0 d, k' = Datatypes.S k0 /\ (k0 < N)%nat /\ run S P nv k s ds0 k0 s0 c0 /\ In d (pb_domain P (nv k0) s0) /\ s' = pb_trans P s0 d.
Proof.
  induction 1 as [k s|k s d ds k' s' c Hk Hd Hr IH]; [left; auto|]. right. destruct IH as [(-> & ->)|(k0 & s0 & ds0 & c0 & d0 & H1 & H2 & H3 & H4 & H5)].
  - exists k, s, [], 0, d. repeat split; auto. constructor.
  - exists k0, s0, (d :: ds0), (pb_cost P s d + c0), d0. repeat split; auto. constructor; auto.
Qed.
Lemma run_snoc k s ds k' s' c d : run S P nv k s ds k' s' c -> (k' < N)%nat -> In d (pb_domain P (nv k') s') ->
  run S P nv k s (ds ++ [d]) (Datatypes.S k') (pb_trans P s' d) (c + pb_cost P s' d).
Proof.
  induction 1 as [k s|k s d0 ds k' s' c Hk Hd Hr IH]; intros Hk' Hd'; cbn [app].
  - replace (0 + pb_cost P s d) with (pb_cost P s d + 0) by lia. constructor; auto. constructor.
  - rewrite <- Z.add_assoc. constructor; auto.
Qed.
Lemma reached_le k s : reached k s -> (k <= N)%nat.
Proof. intros (ds & c & H). destruct (reached_last _ _ _ _ _ _ H) as [(-> & _)|(k0 & ? & ? & ? & ? & -> & H2 & _)]; lia. Qed.

Lemma reached_at at_depth k s : wf_problem S P at_depth nv -> reached k s -> at_depth k s.
Proof.
  intros Hw (ds & c & H). assert (Hx : forall k s ds k' s' c, run S P nv k s ds k' s' c -> at_depth k s -> at_depth k' s').
  { clear - Hw. induction 1 as [k s|k s d ds k' s' c Hk Hd Hr IH]; intros Ha; [exact Ha|]. apply IH, (wf_trans _ _ _ _ Hw); auto. }
  apply (Hx _ _ _ _ _ _ H), (wf_init _ _ _ _ Hw).
Qed.
Lemma reached_admissible at_depth : wf_problem S P at_depth nv -> admissible S P at_depth nv -> admissible_reached S P nv.
Proof. intros Hw Ha k s ds c Hk Hr. apply Ha; [exact Hk|]. apply reached_at; auto. Qed.

Lemma wide_mono w w' : (w <= w')%nat -> no_layer_exceeds S P nv w -> no_layer_exceeds S P nv w'.
Proof. intros Hw H k. destruct (H k) as (l & Hl & Hin). exists l. split; [lia|exact Hin]. Qed.

Variable D : nat -> nat.
Definition narrow : Prop := forall k s, (k < N)%nat -> reached k s -> exists l, (length l <= D k)%nat /\ forall d, In d (pb_domain P (nv k) s) -> In d l.

Lemma dec_eq (a b : decision) : {a = b} + {a <> b}.
Proof. repeat decide equality. Qed.

Lemma layer_count : narrow -> forall k, (k <= N)%nat -> exists l, (length l <= product D k)%nat /\ forall s, reached k s <-> In s l.
Proof.
  intros Hn. induction k as [|k IH]; intros Hk.
  - exists [pb_init P]. split; [cbn; lia|]. intros s. split.
    + intros (ds & c & Hr). destruct (reached_last _ _ _ _ _ _ Hr) as [(_ & ->)|(k0 & ? & ? & ? & ? & H & _)]; [left; reflexivity|discriminate].
    + intros [<-|[]]. exists [], 0. constructor.
  - destruct (IH ltac:(lia)) as (l & Hl & Hin). clear IH.
    exists (flat_map (fun s => map (pb_trans P s) (nodup dec_eq (pb_domain P (nv k) s))) l). split.
    + assert (Hx : Forall (reached k) l) by (apply Forall_forall; intros s Hs; apply Hin, Hs). cbn [product].
      enough (length (flat_map (fun s => map (pb_trans P s) (nodup dec_eq (pb_domain P (nv k) s))) l) <= D k * length l)%nat by nia.
      clear Hin Hl. induction Hx as [|s l Hs Hx IH]; [cbn; lia|]. cbn [flat_map length]. rewrite app_length, map_length.
      destruct (Hn k s ltac:(lia) Hs) as (vals & Hv & Hc).
      assert (length (nodup dec_eq (pb_domain P (nv k) s)) <= length vals)%nat.
      { apply NoDup_incl_length; [apply NoDup_nodup|]. intros d Hd. apply Hc, (nodup_In dec_eq), Hd. }
      lia.
    + intros s. rewrite in_flat_map. split.
      * intros (ds & c & Hr). destruct (reached_last _ _ _ _ _ _ Hr) as [(H & _)|(k0 & s0 & ds0 & c0 & d & H1 & H2 & H3 & H4 & ->)]; [discriminate|].
        injection H1 as <-. exists s0. split; [apply Hin; exists ds0, c0; exact H3|]. apply in_map, nodup_In, H4.
      * intros (s0 & H1 & H2). apply in_map_iff in H2 as (d & <- & Hd). apply nodup_In in Hd. apply Hin in H1 as (ds & c & Hr).
        exists (ds ++ [d]), (c + pb_cost P s0 d). apply run_snoc; auto; lia.
Qed.
Lemma count_wide w : narrow -> (forall k, (k <= N)%nat -> (product D k <= w)%nat) -> no_layer_exceeds S P nv w.
Proof.
  intros Hn Hw k. destruct (Nat.le_gt_cases k N) as [Hk|Hk].
  - destruct (layer_count Hn k Hk) as (l & Hl & Hin). exists l. split; [specialize (Hw k Hk); lia|]. intros s. apply Hin.
  - exists []. split; [cbn; lia|]. intros s Hs. apply reached_le in Hs. lia.
Qed.
Lemma few_wide w : (forall k s, (k < N)%nat -> reached k s -> (length (pb_domain P (nv k) s) <= D k)%nat) ->
  (forall k, (k <= N)%nat -> (product D k <= w)%nat) -> no_layer_exceeds S P nv w.
Proof. intros H. apply count_wide. intros k s Hk Hs. exists (pb_domain P (nv k) s). auto. Qed.
End Count.

(** The layers of a small problem, computed. *)
Section Compute.
Variable S : Type.
Variable eqb : S -> S -> bool.
Hypothesis EQ : forall a b, eqb a b = true <-> a = b.
Variable P : problem S.
Variable nv : nat -> nat.
Notation N := (pb_nb_vars P).

Fixpoint distinct (l : list S) : list S := match l with [] => [] | x :: t => let t' := distinct t in if existsb (eqb x) t' then t' else x :: t' end.
Lemma in_distinct l x : In x l -> In x (distinct l).
Proof.
  induction l as [|y l IH]; [intros []|]. cbn [distinct In]. intros [->|H]; destruct (existsb (eqb _) (distinct l)) eqn:E; cbn [In]; auto.
  apply existsb_exists in E as (z & Hz & Ez). apply EQ in Ez. subst z. exact Hz.
Qed.
Definition next_layer (k : nat) (l : list S) : list S := distinct (flat_map (fun s => map (pb_trans P s) (pb_domain P (nv k) s)) l).
Fixpoint fit (w fuel k : nat) (l : list S) : bool :=
  (length l <=? w)%nat && match fuel with O => true | Datatypes.S f => fit w f (Datatypes.S k) (next_layer k l) end.
Definition layers_fit (w : nat) : bool := fit w N 0 [pb_init P].

Lemma fit_ok w : forall fuel k l, (k + fuel = N)%nat -> fit w fuel k l = true -> (forall s, reached S P nv k s -> In s l) ->
  forall j, (k <= j <= N)%nat -> exists l', (length l' <= w)%nat /\ forall s, reached S P nv j s -> In s l'.
Proof.
  induction fuel as [|f IH]; intros k l Hk Hf Hl j Hj; cbn [fit] in Hf; apply andb_prop in Hf as (H1 & H2); apply Nat.leb_le in H1.
  - assert (j = k) by lia. subst j. exists l. auto.
  - destruct (Nat.eq_dec j k) as [->|Hne]; [exists l; auto|]. apply (IH (Datatypes.S k) (next_layer k l)); [lia|exact H2| |lia].
    intros s (ds & c & Hr). destruct (reached_last _ _ _ _ _ _ _ _ _ Hr) as [(H & _)|(k0 & s0 & ds0 & c0 & d & E & _ & H3 & H4 & ->)]; [discriminate|].
    injection E as <-. apply in_distinct, in_flat_map. exists s0. split; [apply Hl; exists ds0, c0; exact H3|]. apply in_map, H4.
Qed.
Lemma layers_checked w : layers_fit w = true -> no_layer_exceeds S P nv w.
Proof.
  intros H k. destruct (Nat.le_gt_cases k N) as [Hk|Hk].
  - apply (fit_ok w N 0 [pb_init P] eq_refl H); [|lia]. intros s (ds & c & Hr).
    destruct (reached_last _ _ _ _ _ _ _ _ _ Hr) as [(_ & ->)|(k0 & ? & ? & ? & ? & E & _)]; [left; reflexivity|discriminate].
  - exists []. split; [cbn; lia|]. intros s Hs. apply reached_le in Hs. lia.
Qed.
Fixpoint layer_at (k : nat) : list S := match k with O => [pb_init P] | Datatypes.S k' => next_layer k' (layer_at k') end.
Lemma in_layer : forall k s, reached S P nv k s -> In s (layer_at k).
Proof.
  induction k as [|k IH]; intros s (ds & c & Hr); destruct (reached_last _ _ _ _ _ _ _ _ _ Hr) as [(H & E)|(k0 & s0 & ds0 & c0 & d & E & _ & H3 & H4 & ->)]; try discriminate.
  - left. auto.
  - injection E as <-. apply in_distinct, in_flat_map. exists s0. split; [apply IH; exists ds0, c0; exact H3|]. apply in_map, H4.
Qed.
Definition few_check (D : nat -> nat) : bool := forallb (fun k => forallb (fun s => (length (pb_domain P (nv k) s) <=? D k)%nat) (layer_at k)) (seq 0 N).
Lemma few_checked D : few_check D = true -> forall k s, (k < N)%nat -> reached S P nv k s -> (length (pb_domain P (nv k) s) <= D k)%nat.
Proof.
  intros H k s Hk Hs. unfold few_check in H. rewrite forallb_forall in H. specialize (H k ltac:(apply in_seq; lia)). rewrite forallb_forall in H.
  apply Nat.leb_le, H, in_layer, Hs.
Qed.
End Compute.
