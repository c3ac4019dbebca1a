(** Tables that pass the checks are well behaved problems. *)
From Verif Require Import Spec Dd DdSpec Table.
Open Scope Z_scope.

Lemma ts_eqb_spec a b : ts_eqb a b = true <-> a = b.
Proof.
  destruct a as [a1 a2], b as [b1 b2]. unfold ts_eqb. cbn. rewrite andb_true_iff, Nat.eqb_eq, Z.eqb_eq. split; [intros [-> ->]; reflexivity|intros H; inversion H; auto].
Qed.

Section Table.
Variable t : table.
Variable C : Z.
Hypothesis Hok : table_ok t C = true.
Notation P := (t_problem t).

Lemma ok_parts : 0 <= C /\ (Z.of_nat (t_n t) + 2) * C <= IMAX /\ Z.abs (t_val t) <= C /\ 0 <= t_dflt t /\
  (forall r, In r (t_rows t) -> (r_depth r < t_n t)%nat /\ Z.abs (r_cost r) <= C /\
    ole (tval t (r_depth r, r_from r)) (tval t (r_depth r, t_top t)) = true /\
    ole (tval t (r_depth r, r_from r)) (Some (test t (r_depth r, r_from r))) = true) /\
  (forall p, In p (t_est t) -> fst (fst p) = t_n t -> 0 <= snd p).
Proof.
  unfold table_ok in Hok. rewrite !andb_true_iff, !forallb_forall in Hok. destruct Hok as (((((H1 & H2) & H3) & H4) & H5) & H6).
  apply Z.leb_le in H1, H2, H3, H4. repeat split; auto.
  - specialize (H5 r H). rewrite !andb_true_iff in H5. destruct H5 as (((H5 & _) & _) & _). apply Nat.ltb_lt in H5. exact H5.
  - specialize (H5 r H). rewrite !andb_true_iff in H5. destruct H5 as (((_ & H5) & _) & _). apply Z.leb_le in H5. exact H5.
  - specialize (H5 r H). rewrite !andb_true_iff in H5. apply H5.
  - specialize (H5 r H). rewrite !andb_true_iff in H5. apply H5.
  - intros p Hp Hn. specialize (H6 p Hp). apply orb_true_iff in H6 as [H6|H6]; [|apply Z.leb_le; exact H6].
    apply negb_true_iff, Nat.eqb_neq in H6. congruence.
Qed.

Lemma domain_row v s d : In d (pb_domain P v s) -> exists r, In r (t_rows t) /\ row_of t s d = Some r /\ r_depth r = fst s /\ r_from r = snd s.
Proof.
  cbn. intros H. apply in_map_iff in H as (r & <- & H). apply filter_In in H as [Hin Hr]. unfold row_of. cbn [d_val].
  destruct (find _ _) as [r'|] eqn:E.
  - apply find_some in E as [H1 H2]. exists r'. split; [exact H1|]. split; [reflexivity|]. apply andb_true_iff in H2 as [H2 _]. unfold row_is in H2.
    apply andb_true_iff in H2 as [H2 H3]. apply Nat.eqb_eq in H2. apply Z.eqb_eq in H3. auto.
  - exfalso. pose proof (find_none _ _ E r Hin) as H. cbn in H. rewrite Hr, Z.eqb_refl in H. discriminate.
Qed.

Lemma tbest_ge : forall fuel s ds c, (fst s + fuel = t_n t)%nat -> completion tstate P t_nv (fst s) s ds c -> exists v, tbest t fuel s = Some v /\ c <= v.
Proof.
  induction fuel as [|fuel IH]; intros s ds c Hf (s' & Hr).
  - cbn [tbest]. exists 0. split; [reflexivity|]. inversion Hr; subst; [lia|]. cbn in *. lia.
  - inversion Hr as [|k s0 d ds0 k' s0' c0 Hk Hd Hr0]; subst; [cbn in *; lia|]. cbn [tbest].
    assert (Hc0 : completion tstate P t_nv (fst (pb_trans P s d)) (pb_trans P s d) ds0 c0) by (exists s'; exact Hr0).
    destruct (IH (pb_trans P s d) ds0 c0) as (v & Ev & Hv); [cbn; lia|exact Hc0|].
    set (f := fun (d : decision) (acc : option Z) => _).
    assert (G : forall l, In d l -> exists w, fold_right f None l = Some w /\ pb_cost P s d + v <= w).
    { induction l as [|x l IHl]; intros Hin; [destruct Hin|]. cbn [fold_right]. destruct Hin as [->|Hin].
      - unfold f at 1. rewrite Ev. destruct (fold_right f None l); eexists; (split; [reflexivity|]); lia.
      - destruct (IHl Hin) as (w & -> & Hw). unfold f. destruct (tbest t fuel (pb_trans P s x)); eexists; (split; [reflexivity|]); lia. }
    destruct (G (pb_domain P (fst s) s)) as (w & -> & Hw); [exact Hd|]. exists w. split; [reflexivity|lia].
Qed.
Lemma tbest_ex : forall fuel s v, (fst s + fuel = t_n t)%nat -> tbest t fuel s = Some v -> exists ds, completion tstate P t_nv (fst s) s ds v.
Proof.
  induction fuel as [|fuel IH]; intros s v Hf H.
  - cbn in H. inversion H. exists [], s. replace (pb_nb_vars P) with (fst s) by (cbn; lia). constructor.
  - cbn [tbest] in H. set (f := fun (d : decision) (acc : option Z) => _) in H.
    assert (G : forall l w, fold_right f None l = Some w -> exists d v0, In d l /\ tbest t fuel (pb_trans P s d) = Some v0 /\ w = pb_cost P s d + v0).
    { induction l as [|x l IHl]; intros w Hw; [discriminate|]. cbn [fold_right] in Hw. unfold f at 1 in Hw.
      destruct (tbest t fuel (pb_trans P s x)) as [v0|] eqn:E.
      - destruct (fold_right f None l) as [w0|] eqn:E2.
        + assert (Hw' : w = Z.max (pb_cost P s x + v0) w0) by congruence. rewrite Hw'. destruct (Z.max_spec (pb_cost P s x + v0) w0) as [[_ ->]|[_ ->]].
          * destruct (IHl w0 eq_refl) as (d & v1 & H1 & H2). exists d, v1. split; [right; exact H1|exact H2].
          * exists x, v0. split; [left; reflexivity|auto].
        + exists x, v0. split; [left; reflexivity|]. split; [exact E|congruence].
      - destruct (IHl w Hw) as (d & v1 & H1 & H2). exists d, v1. split; [right; exact H1|exact H2]. }
    destruct (G _ _ H) as (d & v0 & H1 & H2 & ->). destruct (IH (pb_trans P s d) v0 ltac:(cbn; lia) H2) as (ds & s' & Hr). exists (d :: ds), s'.
    apply run_cons; [cbn; lia|exact H1|exact Hr].
Qed.

Lemma run_le k s ds k' s' c : run tstate P t_nv k s ds k' s' c -> (k <= k')%nat.
Proof. intros H. induction H; lia. Qed.

(** A state with a completion is in the table, or in the last layer. *)
Lemma completion_row k s ds c : fst s = k -> completion tstate P t_nv k s ds c -> k = t_n t \/ (k < t_n t)%nat /\ exists r, In r (t_rows t) /\ r_depth r = k /\ r_from r = snd s.
Proof.
  intros Hk (s' & Hr). inversion Hr as [|? ? d ? ? ? ? Hlt Hd Hr0]; subst; [left; auto|right]. split; [exact Hlt|].
  destruct (domain_row _ _ _ Hd) as (r & H1 & _ & H2 & H3). exists r. auto.
Qed.

Theorem table_well_behaved : well_behaved tstate ts_eqb P (t_relax t) t_at t_nv C.
Proof.
  destruct ok_parts as (K1 & K2 & K3 & K4 & K5 & K6).
  assert (Hdom : forall k s d, (k < t_n t)%nat -> t_at k s -> In d (pb_domain P (t_nv k) s) -> Z.abs (pb_cost P s d) <= C).
  { intros k s d _ _ Hd. destruct (domain_row _ _ _ Hd) as (r & H1 & H2 & _). cbn. rewrite H2. apply (K5 r H1). }
  constructor; [constructor| |].
  - exact ts_eqb_spec.
  - constructor; unfold t_at, t_nv; cbn [t_problem pb_init pb_next_var pb_nb_vars pb_trans fst]; auto.
    + intros k [|s l] Hl HF Hk; [congruence|]. inversion HF; subst. destruct (Nat.ltb_spec (fst s) (t_n t)); [reflexivity|contradiction (Nat.lt_irrefl (fst s)); lia].
    + intros [|s l] Hl HF; [congruence|]. inversion HF as [|? ? H]; subst. rewrite H, Nat.ltb_irrefl. reflexivity.
  - intros k [|s l] _ Hl HF; [congruence|]. inversion HF; subst. unfold t_at in *. cbn. assumption.
  - constructor; auto. intros k l src d Hk Hs Hd _ _. cbn. apply (Hdom k src d Hk Hs Hd).
  - intros k s ds c HkN Hat Hc. unfold t_at in Hat. subst k. destruct (completion_row _ _ _ _ eq_refl Hc) as [Hn|(Hlt & r & Hr & R1 & R2)].
    + cbn [t_problem pb_nb_vars] in HkN. lia.
    + destruct (K5 r Hr) as (_ & _ & _ & H). rewrite R1, R2, <- surjective_pairing in H.
      destruct (tbest_ge (t_n t - fst s) s ds c ltac:(lia) Hc) as (v & Ev & Hv). unfold tval in H. rewrite Ev in H. cbn in H. apply Z.leb_le in H. cbn. lia.
  - intros k l src d ds c Hk Hs Hd HF Hin Hc. unfold t_at in Hs. destruct l as [|s0 l]; [destruct Hin|].
    inversion HF as [|? ? Hs0 _]; subst. unfold t_at in Hs0. cbn [rx_merge t_relax rx_relax]. rewrite Hs0.
    enough (exists ds' c', completion tstate P t_nv (S (fst src)) (S (fst src), t_top t) ds' c' /\ c <= c') as (ds' & c' & H1 & H2) by (exists ds', c'; split; [exact H1|lia]).
    destruct (completion_row (S (fst src)) (pb_trans P src d) ds c eq_refl Hc) as [Hn|(Hlt & r & Hr & R1 & R2)].
    + exists [], 0. split; [exists (S (fst src), t_top t); change (pb_nb_vars P) with (t_n t); rewrite <- Hn; constructor|]. destruct Hc as (s' & Hr). inversion Hr; subst; [lia|cbn in *; lia].
    + destruct (K5 r Hr) as (_ & _ & H & _). rewrite R1, R2 in H. destruct (tbest_ge (t_n t - S (fst src)) (pb_trans P src d) ds c ltac:(cbn; lia) Hc) as (v & Ev & Hv).
      unfold tval in H. cbn [fst] in H. change (S (fst src), snd (pb_trans P src d)) with (pb_trans P src d) in H. rewrite Ev in H. unfold ole in H.
      destruct (tbest t (t_n t - S (fst src)) (S (fst src), t_top t)) as [w|] eqn:Ew; [|discriminate]. apply Z.leb_le in H.
      destruct (tbest_ex (t_n t - S (fst src)) (S (fst src), t_top t) w ltac:(cbn; lia) Ew) as (ds' & Hds'). exists ds', w. split; [exact Hds'|lia].
Qed.

Lemma table_layered : layered_states tstate t_at.
Proof. intros k k' s H H'. unfold t_at in *. congruence. Qed.

(** The optimum of the problem is computed by [tval]. *)
Lemma table_optimum v : tval t (0%nat, t_init t) = Some v -> optimum tstate P t_nv (t_val t + v).
Proof.
  intros H. unfold tval in H. cbn [fst] in H. rewrite Nat.sub_0_r in H. split.
  - destruct (tbest_ex (t_n t) (0%nat, t_init t) v eq_refl H) as (ds & Hds). exists ds, v. split; [exact Hds|reflexivity].
  - intros ds w (c & Hc & ->). destruct (tbest_ge (t_n t) (0%nat, t_init t) ds c eq_refl Hc) as (v' & Hv' & Hle). cbn. assert (v' = v) as -> by congruence. lia.
Qed.
End Table.
