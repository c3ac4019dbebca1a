(** The reading of TSPTW files. Nothing here models code of /repo. *)
From Verif Require Import Base F32 TsptwFile TsptwFileSpec TextFacts TsptwFileFacts TsptwFileLoop TsptwFileNum MatrixFacts.
From Coq Require Import Lia ZArith List.
Import ListNotations.
Open Scope string_scope.
Open Scope Z_scope.

Lemma fd_square lines I : file_denotes lines I -> square (tw_n I) (tw_dist I).
Proof. intros [_ (H1 & H2 & H3) _]. split; [|auto]. unfold mat_wf. rewrite H1, H2. exact H3. Qed.
(** Every place of the file. *)
Lemma fd_word lines I : file_denotes lines I -> exists word_at : place -> string, forall p, in_inst I p -> denotes (word_at p) (time_at I p).
Proof.
  intros [(h & ex & D & W & n & _ & _ & _ & _ & _ & HD & HW) _ _]. exists (fun p => match p with Leg i j => nth j (nth i D []) "" | Opens i => nth 0 (nth i W []) "" | Closes i => nth 1 (nth i W []) "" end).
  intros [i j|i|i] Hp; cbn in *; [apply HD; tauto| |]; destruct (HW i Hp) as (a & b & -> & Ha & Hb); assumption.
Qed.

Lemma file_exact debug lines I : file_denotes lines I -> 2 * Z.of_nat (tw_n I) + 1 <= 65535 ->
  (forall p, in_inst I p -> exists j s, 0 <= j <= 26843 /\ 0 <= s <= 10 /\ time_at I p = 625 * j * 2 ^ s) -> tw_read debug lines = Some I.
Proof.
  intros Hf Hn Hp. pose proof (fd_square _ _ Hf) as Hs. destruct Hf as [(h & ex & D & W & d & Hc & Hh & LD & LW & Hrow & HD & HW) _ Hw].
  apply (read_ok debug lines I h ex D W d); try assumption.
  - intros i j Hi Hj. apply read_exact; [apply HD; assumption|]. apply (Hp (Leg i j)). split; assumption.
  - intros i Hi. destruct (HW i Hi) as (a & b & E & Ha & Hb). exists a, b. split; [exact E|]. split; apply read_exact; try assumption; [apply (Hp (Opens i) Hi)|apply (Hp (Closes i) Hi)].
Qed.

(** The instance that is read. *)
Definition word_time (t : string) : Z := or_else 0 (read_time t).
Lemma rows_nth n D : (forall i, (i < List.length D)%nat -> List.length (nth i D []) = n) ->
  List.length (flat_map (map word_time) D) = (List.length D * n)%nat /\
  forall i j, (i < List.length D)%nat -> (j < n)%nat -> nth_error (flat_map (map word_time) D) (n * i + j) = Some (word_time (nth j (nth i D []) "")).
Proof.
  induction D as [|r D IH]; intros H.
  - split; [reflexivity|]. cbn. lia.
  - destruct IH as [IH1 IH2]. { intros i Hi. apply (H (S i)). cbn. lia. } pose proof (H 0%nat ltac:(cbn; lia)) as Hr. cbn in Hr. cbn [flat_map List.length]. split.
    + rewrite app_length, map_length, IH1. lia.
    + intros [|i] j Hi Hj.
      * rewrite nth_error_app1 by (rewrite map_length; lia). rewrite Nat.mul_0_r, Nat.add_0_l. rewrite nth_error_map, (nth_error_nth' r "") by lia. reflexivity.
      * rewrite nth_error_app2 by (rewrite map_length; nia). rewrite map_length, Hr. replace (n * S i + j - n)%nat with (n * i + j)%nat by lia. apply IH2; [lia|exact Hj].
Qed.
Lemma file_near debug lines I : file_denotes lines I -> 2 * Z.of_nat (tw_n I) + 1 <= 65535 -> (forall p, in_inst I p -> time_at I p < 2 ^ 24) ->
  exists I', tw_read debug lines = Some I' /\ tw_n I' = tw_n I /\ mx_n (tw_dist I') = tw_n I /\ mx_m (tw_dist I') = tw_n I /\ List.length (tw_win I') = tw_n I /\
    (forall p, in_inst I p -> 0 <= time_at I' p /\ Z.abs (time_at I' p - time_at I p) <= 1) /\
    (forall p q, in_inst I p -> in_inst I q -> time_at I p < time_at I q -> time_at I' p <= time_at I' q).
Proof.
  intros Hf Hn Hb. destruct Hf as [(h & ex & D & W & d & Hc & Hh & LD & LW & Hrow & HD & HW) _ Hw]. set (n := tw_n I) in *.
  set (I' := mk_tw n (mk_mat n n (flat_map (map word_time) D)) (map (fun l => mk_window (word_time (nth 0 l "")) (word_time (nth 1 l ""))) W)).
  destruct (rows_nth n D) as [R1 R2]. { rewrite LD. exact Hrow. } rewrite LD in R1, R2.
  set (word_at := fun p => match p with Leg i j => nth j (nth i D []) "" | Opens i => nth 0 (nth i W []) "" | Closes i => nth 1 (nth i W []) "" end).
  assert (forall p, in_inst I p -> denotes (word_at p) (time_at I p)) as Hden.
  { intros [i j|i|i] Hp; cbn in *; [apply HD; tauto| |]; destruct (HW i Hp) as (a & b & -> & Ha & Hb'); assumption. }
  assert (forall p, in_inst I p -> read_time (word_at p) = Some (time_at I' p)) as Hread.
  { intros p Hp. destruct (read_near (word_at p) (time_at I p) (Hden p Hp) (Hb p Hp)) as (y & Ey & _ & _). rewrite Ey. f_equal.
    assert (word_time (word_at p) = y) as <- by (unfold word_time; rewrite Ey; reflexivity). destruct p as [i j|i|i]; cbn in Hp; fold n in Hp.
    - cbn [time_at word_at]. unfold dist. cbn [tw_dist I']. unfold mat_get, mat_pos. cbn [mx_m mx_data]. rewrite R2 by tauto. reflexivity.
    - cbn [time_at word_at]. unfold opens. cbn [tw_win I']. rewrite (nth_indep _ _ ((fun l => mk_window (word_time (nth 0 l "")) (word_time (nth 1 l ""))) [])) by (rewrite map_length; lia).
      rewrite (map_nth (fun l => mk_window (word_time (nth 0 l "")) (word_time (nth 1 l "")))). reflexivity.
    - cbn [time_at word_at]. unfold closes. cbn [tw_win I']. rewrite (nth_indep _ _ ((fun l => mk_window (word_time (nth 0 l "")) (word_time (nth 1 l ""))) [])) by (rewrite map_length; lia).
      rewrite (map_nth (fun l => mk_window (word_time (nth 0 l "")) (word_time (nth 1 l "")))). reflexivity. }
  exists I'. split.
  { apply (read_ok debug lines I' h ex D W d); try assumption.
    - split; [exact R1|]. split; reflexivity.
    - cbn [tw_win I']. rewrite map_length. exact LW.
    - intros i j Hi Hj. apply (Hread (Leg i j)). split; assumption.
    - intros i Hi. destruct (HW i Hi) as (a & b & E & _ & _). exists a, b. split; [exact E|]. pose proof (Hread (Opens i) Hi) as Ho. pose proof (Hread (Closes i) Hi) as Hcl. cbn in Ho, Hcl. rewrite E in Ho, Hcl. split; assumption. }
  split; [reflexivity|]. split; [reflexivity|]. split; [reflexivity|]. split; [cbn [tw_win I']; rewrite map_length; exact LW|]. split.
  - intros p Hp. destruct (read_near (word_at p) (time_at I p) (Hden p Hp) (Hb p Hp)) as (y & Ey & H1 & H2). rewrite (Hread p Hp) in Ey. injection Ey as <-. split; assumption.
  - intros p q Hp Hq Hlt. apply (read_order (word_at p) (time_at I p) (word_at q) (time_at I q)); auto. pose proof (Hb q Hq). change (2 ^ 24) with 16777216 in *. change (2 ^ 35) with 34359738368. lia.
Qed.
