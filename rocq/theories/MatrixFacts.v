(** Facts about matrices. *)
From Verif Require Import Matrix.
Open Scope nat_scope.

Lemma upd_some {A} (l : list A) i x : i < length l -> exists l', upd l i x = Some l'.
Proof.
  revert i; induction l as [|h t IH]; intros [|i] H; cbn [length] in H; try lia; cbn [upd]; [eauto|].
  destruct (IH i) as [t' ->]; [lia|]. eauto.
Qed.
Lemma upd_length {A} (l : list A) i x l' : upd l i x = Some l' -> length l' = length l.
Proof.
  revert i l'; induction l as [|h t IH]; intros [|i] l' H; cbn [upd] in H; try discriminate.
  - inversion H; reflexivity.
  - destruct (upd t i x) as [t'|] eqn:E; [|discriminate]. inversion H; subst. cbn. f_equal. eapply IH; eauto.
Qed.
Lemma upd_bound {A} (l : list A) i x l' : upd l i x = Some l' -> i < length l.
Proof.
  revert i l'; induction l as [|h t IH]; intros [|i] l' H; cbn [upd] in H; try discriminate; cbn [length]; [lia|].
  destruct (upd t i x) as [t'|] eqn:E; [|discriminate]. apply IH in E. lia.
Qed.
Lemma upd_nth {A} (l : list A) i x l' : upd l i x = Some l' ->
  forall j, nth_error l' j = if Nat.eqb j i then Some x else nth_error l j.
Proof.
  revert i l'; induction l as [|h t IH]; intros [|i] l' H j; cbn [upd] in H; try discriminate.
  - inversion H; subst. destruct j; reflexivity.
  - destruct (upd t i x) as [t'|] eqn:E; [|discriminate]. inversion H; subst.
    destruct j; [reflexivity|]. cbn. apply (IH _ _ E).
Qed.

(** A matrix whose storage has one slot per cell. *)
Definition mat_wf {T} (a : matrix T) : Prop := length (mx_data a) = mx_n a * mx_m a.
Definition in_range {T} (a : matrix T) (i j : nat) : Prop := i < mx_n a /\ j < mx_m a.

Lemma pos_inj {T} (a : matrix T) i j i' j' : in_range a i j -> in_range a i' j' ->
  mat_pos a i j = mat_pos a i' j' -> i = i' /\ j = j'.
Proof.
  unfold in_range, mat_pos. intros [Hi Hj] [Hi' Hj'] H.
  assert (i = i') by nia. subst. lia.
Qed.
Lemma pos_bound {T} (a : matrix T) i j : mat_wf a -> in_range a i j -> mat_pos a i j < length (mx_data a).
Proof. unfold mat_wf, in_range, mat_pos. intros -> [Hi Hj]. nia. Qed.

Lemma mat_new_wf {T} m n (x : T) : mat_wf (mat_new m n x).
Proof. unfold mat_wf, mat_new; cbn. rewrite repeat_length. lia. Qed.
Lemma pmat_new_wf {T} n m (x : T) : mat_wf (pmat_new n m x).
Proof. unfold mat_wf, pmat_new; cbn. rewrite repeat_length. lia. Qed.

Lemma mat_get_new {T} (a : matrix T) x i j : mx_data a = repeat x (mx_n a * mx_m a) -> in_range a i j ->
  mat_get a i j = Some x.
Proof.
  intros Hd Hr. unfold mat_get. rewrite Hd. apply nth_error_repeat.
  pose proof (pos_bound a i j) as H. unfold mat_wf in H. rewrite Hd, repeat_length in H. auto.
Qed.

Lemma mat_rw {T} (a : matrix T) i j x : mat_wf a -> in_range a i j ->
  exists a', mat_set a i j x = Some a' /\ mat_wf a' /\ mx_n a' = mx_n a /\ mx_m a' = mx_m a /\
    mat_get a' i j = Some x /\
    (forall i' j', in_range a i' j' -> (i', j') <> (i, j) -> mat_get a' i' j' = mat_get a i' j').
Proof.
  intros Hw Hr. destruct (upd_some (mx_data a) (mat_pos a i j) x) as [d Hd]; [apply pos_bound; auto|].
  unfold mat_set. rewrite Hd. cbn [obind]. eexists. split; [reflexivity|].
  unfold mat_wf, mat_get, mat_pos in *. cbn [mx_n mx_m mx_data].
  split; [rewrite (upd_length _ _ _ _ Hd); exact Hw|]. split; [reflexivity|]. split; [reflexivity|]. split.
  - rewrite (upd_nth _ _ _ _ Hd), Nat.eqb_refl. reflexivity.
  - intros i' j' Hr' Hne. rewrite (upd_nth _ _ _ _ Hd).
    destruct (Nat.eqb_spec (mx_m a * i' + j') (mx_m a * i + j)) as [E|]; [|reflexivity].
    exfalso. apply Hne. destruct (pos_inj a i' j' i j) as [-> ->]; auto.
Qed.

Lemma mat_total {T} (a : matrix T) i j : mat_wf a -> in_range a i j -> exists x, mat_get a i j = Some x.
Proof.
  intros Hw Hr. unfold mat_get. destruct (nth_error (mx_data a) (mat_pos a i j)) as [x|] eqn:E; [eauto|].
  apply nth_error_None in E. pose proof (pos_bound a i j Hw Hr). lia.
Qed.

Lemma nth_error_firstn {A} (l : list A) n j : j < n -> nth_error (firstn n l) j = nth_error l j.
Proof. revert l j; induction n as [|n IH]; intros l j H; [lia|]. destruct l; [reflexivity|].
  destruct j; [reflexivity|]. cbn. apply IH. lia. Qed.
Lemma nth_error_skipn {A} (l : list A) n j : nth_error (skipn n l) j = nth_error l (n + j).
Proof. revert l; induction n as [|n IH]; intros l; [reflexivity|]. destruct l; cbn; [destruct j; reflexivity | apply IH]. Qed.

(** In range the assertions hold. *)
Lemma pmat_pos_in {T} debug (a : matrix T) i j : in_range a i j -> pmat_pos debug a i j = Some (mat_pos a i j).
Proof.
  intros [Hi Hj]. unfold pmat_pos. destruct (Nat.ltb_spec i (mx_n a)); [|lia]. destruct (Nat.ltb_spec j (mx_m a)); [|lia]. rewrite andb_false_r. reflexivity.
Qed.
Lemma pmat_get_in {T} debug (a : matrix T) i j : in_range a i j -> pmat_get debug a i j = mat_get a i j.
Proof. intros H. unfold pmat_get. rewrite pmat_pos_in by exact H. reflexivity. Qed.
Lemma pmat_set_in {T} debug (a : matrix T) i j x : in_range a i j -> pmat_set debug a i j x = mat_set a i j x.
Proof. intros H. unfold pmat_set. rewrite pmat_pos_in by exact H. reflexivity. Qed.
Lemma pmat_out {T} (a : matrix T) i j x : ~ in_range a i j -> pmat_get true a i j = None /\ pmat_set true a i j x = None.
Proof.
  intros H. unfold pmat_get, pmat_set, pmat_pos. destruct (Nat.ltb_spec i (mx_n a)); [|split; reflexivity]. destruct (Nat.ltb_spec j (mx_m a)); [|split; reflexivity].
  exfalso. apply H. split; assumption.
Qed.
Lemma pmat_row_debug {T} (a : matrix T) i : pmat_row true a i = None.
Proof.
  unfold pmat_row, pmat_pos. destruct (Nat.ltb_spec i (mx_n a)); [|reflexivity]. destruct (Nat.ltb_spec (mx_m a) (mx_m a)); [lia|]. destruct (Nat.ltb_spec 0 (mx_m a)); reflexivity.
Qed.
Lemma pmat_row_spec {T} (a : matrix T) i : mat_wf a -> i < mx_n a ->
  exists l, pmat_row false a i = Some l /\ length l = mx_m a /\
    forall j, j < mx_m a -> nth_error l j = mat_get a i j.
Proof.
  intros Hw Hi. unfold pmat_row, pmat_pos, mat_get, mat_pos, mat_wf in *. cbn [andb obind]. rewrite Hw.
  destruct (Nat.leb_spec (mx_m a * i + mx_m a) (mx_n a * mx_m a)) as [H|H]; [|nia].
  eexists. split; [reflexivity|].
  replace (mx_m a * i + mx_m a - (mx_m a * i + 0)) with (mx_m a) by lia. split.
  - rewrite firstn_length, skipn_length. lia.
  - intros j Hj. rewrite nth_error_firstn by exact Hj. rewrite nth_error_skipn. f_equal. lia.
Qed.

Lemma ofold_collect {A B} (g : A -> option B) l acc :
  (forall r, In r l -> exists x, g r = Some x) ->
  exists xs, ofold (fun acc r => do x <- g r; Some (acc ++ [x])) l acc = Some (acc ++ xs) /\ map Some xs = map g l.
Proof.
  revert acc; induction l as [|r l IH]; intros acc H.
  - exists []. rewrite app_nil_r. split; reflexivity.
  - destruct (H r (or_introl eq_refl)) as [x Hx]. cbn [ofold]. rewrite Hx. cbn [obind].
    destruct (IH (acc ++ [x])) as (xs & H1 & H2); [intros r' Hr'; apply H; right; exact Hr'|].
    exists (x :: xs). rewrite H1, <- app_assoc. split; [reflexivity|]. cbn. rewrite Hx, H2. reflexivity.
Qed.

Lemma pmat_col_spec {T} debug (a : matrix T) i : mat_wf a -> i < mx_m a ->
  exists l, pmat_col debug a i = Some l /\ length l = mx_n a /\
    forall r, r < mx_n a -> nth_error l r = mat_get a r i.
Proof.
  intros Hw Hi. unfold pmat_col.
  destruct (ofold_collect (fun r => pmat_get debug a r i) (seq 0 (mx_n a)) []) as (xs & H1 & H2).
  { intros r Hr. apply in_seq in Hr. rewrite pmat_get_in by (split; lia). apply mat_total; [exact Hw|split; lia]. }
  exists xs. split; [exact H1|].
  assert (Hl : length xs = mx_n a).
  { apply (f_equal (@length _)) in H2. rewrite !map_length, seq_length in H2. exact H2. }
  split; [exact Hl|]. intros r Hr.
  assert (E : nth_error (map Some xs) r = Some (mat_get a r i)).
  { rewrite H2. rewrite (map_nth_error (fun r => pmat_get debug a r i) r (seq 0 (mx_n a)) (d := r)); [rewrite pmat_get_in by (split; lia); reflexivity|].
    rewrite (nth_error_nth' _ 0) by (rewrite seq_length; lia). rewrite seq_nth by lia. reflexivity. }
  rewrite nth_error_map in E. destruct (nth_error xs r) as [x|]; cbn in E; congruence.
Qed.
