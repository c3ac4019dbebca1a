(** Facts about the flag byte. *)
From Verif Require Import Flags.

Lemma test_pow2 f k : f_test f (2 ^ k) = N.testbit f k.
Proof.
  unfold f_test. destruct (N.testbit f k) eqn:E.
  - apply N.eqb_eq. apply N.bits_inj. intros j. rewrite N.land_spec.
    destruct (N.eq_dec k j) as [->|Hne].
    + rewrite E, N.pow2_bits_true. reflexivity.
    + rewrite N.pow2_bits_false by assumption. apply andb_false_r.
  - apply N.eqb_neq. intros H. apply (f_equal (fun x => N.testbit x k)) in H.
    rewrite N.land_spec, E, N.pow2_bits_true in H. discriminate.
Qed.

Lemma bits255 j : (j < 8)%N -> N.testbit 255 j = true.
Proof. intros H. change 255%N with (N.ones 8). apply N.ones_spec_low. exact H. Qed.

Lemma testbit_add f m j : N.testbit (f_add f m) j = N.testbit f j || N.testbit m j.
Proof. apply N.lor_spec. Qed.

Lemma testbit_remove f m j : (j < 8)%N ->
  N.testbit (f_remove f m) j = N.testbit f j && negb (N.testbit m j).
Proof. intros H. unfold f_remove. rewrite N.land_spec, N.lxor_spec, bits255 by assumption.
  reflexivity. Qed.

Lemma testbit_set f k v j : (j < 8)%N ->
  N.testbit (f_set f (2 ^ k) v) j = if N.eqb k j then v else N.testbit f j.
Proof.
  intros H. unfold f_set. destruct (N.eqb_spec k j) as [->|Hne].
  - destruct v.
    + rewrite testbit_add, N.pow2_bits_true. apply orb_true_r.
    + rewrite testbit_remove, N.pow2_bits_true by assumption. apply andb_false_r.
  - destruct v.
    + rewrite testbit_add, N.pow2_bits_false by assumption. apply orb_false_r.
    + rewrite testbit_remove, N.pow2_bits_false by assumption. apply andb_true_r.
Qed.

Lemma eq_exact : F_EXACT = (2 ^ 0)%N. Proof. reflexivity. Qed.
Lemma eq_relaxed : F_RELAXED = (2 ^ 1)%N. Proof. reflexivity. Qed.
Lemma eq_marked : F_MARKED = (2 ^ 2)%N. Proof. reflexivity. Qed.
Lemma eq_cutset : F_CUTSET = (2 ^ 3)%N. Proof. reflexivity. Qed.
Lemma eq_deleted : F_DELETED = (2 ^ 4)%N. Proof. reflexivity. Qed.
Lemma eq_barrier : F_BARRIER = (2 ^ 5)%N. Proof. reflexivity. Qed.

Ltac flag_crush :=
  unfold is_exact, is_relaxed, is_marked, is_cutset, is_deleted, is_pruned_by_barrier,
    set_exact, set_relaxed, set_marked, set_cutset, set_deleted, set_pruned_by_barrier;
  rewrite ?eq_exact, ?eq_relaxed, ?eq_marked, ?eq_cutset, ?eq_deleted, ?eq_barrier;
  rewrite ?test_pow2; rewrite ?testbit_set by reflexivity; cbn [N.eqb Pos.eqb]; auto.

Section Setters.
Variable f : flags.
Variable v : bool.
Lemma relaxed_set_exact : is_relaxed (set_exact f v) = is_relaxed f. Proof. flag_crush. Qed.
Lemma marked_set_exact : is_marked (set_exact f v) = is_marked f. Proof. flag_crush. Qed.
Lemma cutset_set_exact : is_cutset (set_exact f v) = is_cutset f. Proof. flag_crush. Qed.
Lemma deleted_set_exact : is_deleted (set_exact f v) = is_deleted f. Proof. flag_crush. Qed.
Lemma barrier_set_exact : is_pruned_by_barrier (set_exact f v) = is_pruned_by_barrier f. Proof. flag_crush. Qed.
Lemma exact_set_exact : is_exact (set_exact f v) = v && negb (is_relaxed f). Proof. flag_crush. Qed.

Lemma exact_set_marked : is_exact (set_marked f v) = is_exact f. Proof. flag_crush. Qed.
Lemma relaxed_set_marked : is_relaxed (set_marked f v) = is_relaxed f. Proof. flag_crush. Qed.
Lemma marked_set_marked : is_marked (set_marked f v) = v. Proof. flag_crush. Qed.
Lemma cutset_set_marked : is_cutset (set_marked f v) = is_cutset f. Proof. flag_crush. Qed.
Lemma deleted_set_marked : is_deleted (set_marked f v) = is_deleted f. Proof. flag_crush. Qed.
Lemma barrier_set_marked : is_pruned_by_barrier (set_marked f v) = is_pruned_by_barrier f. Proof. flag_crush. Qed.

Lemma exact_set_cutset : is_exact (set_cutset f v) = is_exact f. Proof. flag_crush. Qed.
Lemma relaxed_set_cutset : is_relaxed (set_cutset f v) = is_relaxed f. Proof. flag_crush. Qed.
Lemma marked_set_cutset : is_marked (set_cutset f v) = is_marked f. Proof. flag_crush. Qed.
Lemma cutset_set_cutset : is_cutset (set_cutset f v) = v. Proof. flag_crush. Qed.
Lemma deleted_set_cutset : is_deleted (set_cutset f v) = is_deleted f. Proof. flag_crush. Qed.
Lemma barrier_set_cutset : is_pruned_by_barrier (set_cutset f v) = is_pruned_by_barrier f. Proof. flag_crush. Qed.

Lemma exact_set_relaxed : is_exact (set_relaxed f v) = f_test f F_EXACT && negb v. Proof. flag_crush. Qed.
Lemma relaxed_set_relaxed : is_relaxed (set_relaxed f v) = v. Proof. flag_crush. Qed.
Lemma marked_set_relaxed : is_marked (set_relaxed f v) = is_marked f. Proof. flag_crush. Qed.
Lemma cutset_set_relaxed : is_cutset (set_relaxed f v) = is_cutset f. Proof. flag_crush. Qed.
Lemma deleted_set_relaxed : is_deleted (set_relaxed f v) = is_deleted f. Proof. flag_crush. Qed.
Lemma barrier_set_relaxed : is_pruned_by_barrier (set_relaxed f v) = is_pruned_by_barrier f. Proof. flag_crush. Qed.

Lemma exact_set_deleted : is_exact (set_deleted f v) = is_exact f. Proof. flag_crush. Qed.
Lemma relaxed_set_deleted : is_relaxed (set_deleted f v) = is_relaxed f. Proof. flag_crush. Qed.
Lemma marked_set_deleted : is_marked (set_deleted f v) = is_marked f. Proof. flag_crush. Qed.
Lemma cutset_set_deleted : is_cutset (set_deleted f v) = is_cutset f. Proof. flag_crush. Qed.
Lemma deleted_set_deleted : is_deleted (set_deleted f v) = v. Proof. flag_crush. Qed.
Lemma barrier_set_deleted : is_pruned_by_barrier (set_deleted f v) = is_pruned_by_barrier f. Proof. flag_crush. Qed.

Lemma exact_set_barrier : is_exact (set_pruned_by_barrier f v) = is_exact f. Proof. flag_crush. Qed.
Lemma relaxed_set_barrier : is_relaxed (set_pruned_by_barrier f v) = is_relaxed f. Proof. flag_crush. Qed.
Lemma marked_set_barrier : is_marked (set_pruned_by_barrier f v) = is_marked f. Proof. flag_crush. Qed.
Lemma cutset_set_barrier : is_cutset (set_pruned_by_barrier f v) = is_cutset f. Proof. flag_crush. Qed.
Lemma deleted_set_barrier : is_deleted (set_pruned_by_barrier f v) = is_deleted f. Proof. flag_crush. Qed.
Lemma barrier_set_barrier : is_pruned_by_barrier (set_pruned_by_barrier f v) = v. Proof. flag_crush. Qed.
End Setters.

Lemma exact_not_relaxed f : is_exact f = true -> is_relaxed f = false.
Proof. unfold is_exact, is_relaxed. rewrite andb_true_iff, negb_true_iff. tauto. Qed.

(** ** Refinement to six independent booleans *)

(** Operations on flags, for histories. *)
Inductive fop := SetExact (v : bool) | SetRelaxed (v : bool) | SetMarked (v : bool) | SetCutset (v : bool)
               | SetDeleted (v : bool) | SetBarrier (v : bool).
Definition fop_run (f : flags) (o : fop) : flags :=
  match o with
  | SetExact v => set_exact f v | SetRelaxed v => set_relaxed f v | SetMarked v => set_marked f v
  | SetCutset v => set_cutset f v | SetDeleted v => set_deleted f v
  | SetBarrier v => set_pruned_by_barrier f v
  end.

(** The specification: six booleans, each setter touches its own. *)
Record six := mk_six { x_exact : bool; x_relaxed : bool; x_marked : bool; x_cutset : bool; x_deleted : bool; x_barrier : bool }.
Definition six_run (s : six) (o : fop) : six :=
  let (e, r, m, c, d, b) := s in
  match o with
  | SetExact v => mk_six v r m c d b | SetRelaxed v => mk_six e v m c d b
  | SetMarked v => mk_six e r v c d b | SetCutset v => mk_six e r m v d b
  | SetDeleted v => mk_six e r m c v b | SetBarrier v => mk_six e r m c d v
  end.
Definition six_of (f : flags) (s : six) : Prop :=
  f_test f F_EXACT = x_exact s /\ is_relaxed f = x_relaxed s /\ is_marked f = x_marked s /\
  is_cutset f = x_cutset s /\ is_deleted f = x_deleted s /\ is_pruned_by_barrier f = x_barrier s.

Lemma six_step f s o : six_of f s -> six_of (fop_run f o) (six_run s o).
Proof.
  destruct s as [e r m c d b]. unfold six_of. cbn [x_exact x_relaxed x_marked x_cutset x_deleted x_barrier].
  intros (He & Hr & Hm & Hc & Hd & Hb). revert He Hr Hm Hc Hd Hb.
  destruct o; cbn [fop_run six_run x_exact x_relaxed x_marked x_cutset x_deleted x_barrier];
    flag_crush; intros; repeat split; auto.
Qed.

Lemma six_runs ops f s : six_of f s -> six_of (fold_left fop_run ops f) (fold_left six_run ops s).
Proof.
  revert f s; induction ops as [|o ops IH]; intros f s H; [exact H|].
  cbn [fold_left]. apply IH. apply six_step. exact H.
Qed.

Definition queries (f : flags) : list bool :=
  [is_exact f; is_relaxed f; is_marked f; is_cutset f; is_deleted f; is_pruned_by_barrier f].
Definition six_queries (s : six) : list bool :=
  [x_exact s && negb (x_relaxed s); x_relaxed s; x_marked s; x_cutset s; x_deleted s; x_barrier s].

Lemma flags_history r ops :
  queries (fold_left fop_run ops (new_flags r)) =
  six_queries (fold_left six_run ops (mk_six (negb r) r false false false false)).
Proof.
  assert (H0 : six_of (new_flags r) (mk_six (negb r) r false false false false))
    by (destruct r; repeat split; reflexivity).
  pose proof (six_runs ops _ _ H0) as (He & Hr & Hm & Hc & Hd & Hb).
  unfold queries, six_queries. rewrite <- He, <- Hr, <- Hm, <- Hc, <- Hd, <- Hb. reflexivity.
Qed.

Lemma flags_masks f m j : (j < 8)%N ->
  N.testbit (f_add f m) j = N.testbit f j || N.testbit m j /\
  N.testbit (f_remove f m) j = N.testbit f j && negb (N.testbit m j).
Proof. intros H. split; [apply testbit_add | apply testbit_remove; exact H]. Qed.

Lemma flags_test_incl f m : f_test f m = true <-> (forall j, N.testbit m j = true -> N.testbit f j = true).
Proof.
  unfold f_test. rewrite N.eqb_eq. split.
  - intros H j Hj. rewrite <- H, N.land_spec in Hj. apply andb_true_iff in Hj. tauto.
  - intros H. apply N.bits_inj. intros j. rewrite N.land_spec.
    destruct (N.testbit m j) eqn:E; [rewrite (H j E); reflexivity | apply andb_false_r].
Qed.
