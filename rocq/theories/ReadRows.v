(** Filling the rows of a matrix with the numbers of a line. Nothing here models code of /repo. *)
From Verif Require Import Base Matrix MatrixFacts.
From Coq Require Import Lia ZArith List String.
Import ListNotations.
Open Scope string_scope.
Open Scope Z_scope.

Lemma ofold_app {A B} (f : B -> A -> option B) a c : forall x, ofold f (a ++ c)%list x = do y <- ofold f a x; ofold f c y.
Proof. induction a as [|e a IH]; intros x; [reflexivity|]. cbn. destruct (f x e); [apply IH|reflexivity]. Qed.
(** A matrix with [n] rows and [m] columns. *)
Definition rect (n m : nat) (a : matrix Z) : Prop := mat_wf a /\ mx_n a = n /\ mx_m a = m.
Lemma rect_new n m : rect n m (mk_mat n m (repeat 0 (m * n))).
Proof. split; [|split; reflexivity]. unfold mat_wf. cbn. rewrite repeat_length. lia. Qed.
Lemma rect_get n m a i j : rect n m a -> (i < n)%nat -> (j < m)%nat -> exists x, mat_get a i j = Some x.
Proof.
  intros (Hw & Hn & Hm) Hi Hj. unfold mat_get, mat_pos. destruct (nth_error (mx_data a) (mx_m a * i + j)) eqn:E; [eauto|]. apply nth_error_None in E. unfold mat_wf in Hw. rewrite Hw, Hn, Hm in E. nia.
Qed.
Lemma rect_ext n m a b : rect n m a -> rect n m b -> (forall i j, (i < n)%nat -> (j < m)%nat -> mat_get a i j = mat_get b i j) -> a = b.
Proof.
  intros (Wa & Na & Ma) (Wb & Nb & Mb) H. destruct a as [na ma da], b as [nb mb db]. unfold mat_wf, mat_get, mat_pos in *. cbn in *. subst. f_equal.
  apply (nth_ext _ _ 0 0); [congruence|]. intros p Hp. rewrite Wa in Hp. assert (m <> 0)%nat by nia.
  specialize (H (p / m)%nat (p mod m)%nat). rewrite <- (Nat.div_mod p m) in H by assumption.
  assert (p / m < n)%nat by (apply Nat.div_lt_upper_bound; lia). assert (p mod m < m)%nat by (apply Nat.mod_upper_bound; assumption). specialize (H ltac:(lia) ltac:(lia)).
  rewrite !(nth_error_nth' _ 0) in H by lia. injection H as H. exact H.
Qed.
Section Rows.
Variables (n m : nat) (parse : string -> option Z).
Lemma row_fold i (g : nat -> Z) ts : (i < n)%nat -> forall j0 a, rect n m a -> (j0 + List.length ts <= m)%nat ->
  (forall q, (q < List.length ts)%nat -> parse (nth q ts "") = Some (g (j0 + q)%nat)) ->
  exists a', ofold (fun a jt => do x <- parse (snd jt); mat_set a i (fst jt) x) (combine (seq j0 (List.length ts)) ts) a = Some a' /\ rect n m a' /\
    (forall j, (j0 <= j < j0 + List.length ts)%nat -> mat_get a' i j = Some (g j)) /\
    (forall i' j, (i' < n)%nat -> (j < m)%nat -> (i' <> i \/ j < j0)%nat -> mat_get a' i' j = mat_get a i' j).
Proof.
  intros Hi. induction ts as [|t ts IH]; intros j0 a Hs Hl Hr.
  - exists a. split; [reflexivity|]. split; [exact Hs|]. split; [cbn; lia|reflexivity].
  - cbn [List.length seq combine ofold]. pose proof (Hr 0%nat ltac:(cbn; lia)) as H0. cbn in H0. rewrite Nat.add_0_r in H0. cbn [snd fst]. rewrite H0. cbn [obind]. cbn in Hl.
    destruct Hs as (Hw & Hn & Hm). destruct (mat_rw a i j0 (g j0) Hw ltac:(split; lia)) as (m1 & -> & W1 & N1 & M1 & G1 & O1). cbn [obind].
    destruct (IH (S j0) m1) as (m' & E & S' & A & B); [split; [exact W1|split; congruence]|lia|intros q Hq; specialize (Hr (S q) ltac:(cbn; lia)); cbn in Hr; rewrite Hr; f_equal; f_equal; lia|].
    exists m'. split; [exact E|]. split; [exact S'|]. split.
    + intros j Hj. destruct (Nat.eq_dec j j0) as [->|Hne]; [|apply A; lia]. rewrite B by lia. exact G1.
    + intros i' j Hi' Hj Hd. rewrite B by lia. apply O1; [split; lia|]. intros H. injection H as -> ->. lia.
Qed.
End Rows.
