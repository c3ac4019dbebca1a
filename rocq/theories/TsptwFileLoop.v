(** The reading of TSPTW files: the loop over the lines. Nothing here models code of /repo. *)
From Verif Require Import Base TsptwFile TsptwFileSpec TextFacts TsptwFileFacts MatrixFacts ReadRows.
From Coq Require Import Lia ZArith List.
Import ListNotations.
Open Scope string_scope.
Open Scope Z_scope.

Notation square n := (rect n n).
Definition row_fold n i := row_fold n n read_time i.
Lemma rows_fold debug n (g : nat -> nat -> Z) D : forall k m, square n m -> (k + List.length D <= n)%nat -> Z.of_nat n < 65535 ->
  (forall i, (i < List.length D)%nat -> List.length (nth i D []) = n) ->
  (forall i j, (i < List.length D)%nat -> (j < n)%nat -> read_time (nth j (nth i D []) "") = Some (g (k + i)%nat j)) ->
  (forall i j, (i < k)%nat -> (j < n)%nat -> mat_get m i j = Some (g i j)) ->
  exists m', ofold (token_step debug) D (mk_rd (Z.of_nat k + 1) (Z.of_nat n) m []) = Some (mk_rd (Z.of_nat (k + List.length D) + 1) (Z.of_nat n) m' []) /\
    square n m' /\ (forall i j, (i < k + List.length D)%nat -> (j < n)%nat -> mat_get m' i j = Some (g i j)).
Proof.
  induction D as [|ts D IH]; intros k m Hs Hl Hn Hlen Hr Hk.
  - exists m. cbn. rewrite Nat.add_0_r. auto.
  - cbn in Hl. pose proof (Hlen 0%nat ltac:(cbn; lia)) as L0. cbn in L0.
    destruct (row_fold n k (g k) ts ltac:(lia) 0 m Hs ltac:(lia)) as (m1 & E & S1 & A & B).
    { intros q Hq. specialize (Hr 0%nat q ltac:(cbn; lia) ltac:(lia)). cbn in Hr. rewrite Nat.add_0_r in Hr. exact Hr. }
    destruct (IH (S k) m1 S1 ltac:(lia) Hn) as (m' & E' & S' & G').
    { intros i Hi. apply (Hlen (S i)). cbn. lia. }
    { intros i j Hi Hj. specialize (Hr (S i) j ltac:(cbn; lia) Hj). cbn in Hr. rewrite Hr. do 2 f_equal. lia. }
    { intros i j Hi Hj. destruct (Nat.eq_dec i k) as [->|Hne]; [apply A; lia|]. rewrite B by lia. apply Hk; lia. }
    exists m'. cbn [ofold]. unfold token_step at 1. cbn [rd_lc rd_nb rd_dist rd_win].
    destruct (Z.eqb_spec (Z.of_nat k + 1) 0); [lia|]. destruct (Z.leb_spec 1 (Z.of_nat k + 1)); [|lia]. destruct (Z.leb_spec (Z.of_nat k + 1) (Z.of_nat n)); [|lia]. cbn [andb].
    replace (Z.to_nat (Z.of_nat k + 1 - 1)) with k by lia. rewrite E. cbn [obind rd_lc rd_nb rd_dist rd_win]. destruct (Z.ltb_spec (Z.of_nat k + 1) 65535); [|lia]. cbn [obind].
    replace (Z.of_nat k + 1 + 1) with (Z.of_nat (S k) + 1) by lia. rewrite E'. split; [do 2 f_equal; cbn [List.length]; lia|]. split; [exact S'|]. intros i j Hi Hj. apply G'; [cbn in Hi; lia|exact Hj].
Qed.
Lemma windows_fold debug n m W : forall k ws, (n <= k)%nat -> Z.of_nat k + 1 + Z.of_nat (List.length W) <= 65535 -> forall g : nat -> window,
  (forall i, (i < List.length W)%nat -> exists a b, nth i W [] = [a; b] /\ read_time a = Some (w_earliest (g i)) /\ read_time b = Some (w_latest (g i))) ->
  ofold (token_step debug) W (mk_rd (Z.of_nat k + 1) (Z.of_nat n) m ws) = Some (mk_rd (Z.of_nat (k + List.length W) + 1) (Z.of_nat n) m (ws ++ map g (seq 0 (List.length W)))%list).
Proof.
  induction W as [|l W IH]; intros k ws Hk Hl g Hr.
  - cbn. rewrite Nat.add_0_r, app_nil_r. reflexivity.
  - cbn [List.length] in Hl. destruct (Hr 0%nat ltac:(cbn; lia)) as (a & b & E & Ha & Hb). cbn in E. subst l. cbn [ofold]. unfold token_step at 1. cbn [rd_lc rd_nb rd_dist rd_win].
    destruct (Z.eqb_spec (Z.of_nat k + 1) 0); [lia|]. destruct (Z.leb_spec (Z.of_nat k + 1) (Z.of_nat n)); [lia|]. rewrite andb_false_r. rewrite Ha, Hb. cbn [obind rd_lc rd_nb rd_dist rd_win].
    destruct (Z.ltb_spec (Z.of_nat k + 1) 65535); [|lia]. cbn [obind]. replace (Z.of_nat k + 1 + 1) with (Z.of_nat (S k) + 1) by lia.
    rewrite (IH (S k) (ws ++ [mk_window (w_earliest (g 0%nat)) (w_latest (g 0%nat))])%list ltac:(lia) ltac:(lia) (fun i => g (S i))).
    + do 2 f_equal; [cbn; lia|]. cbn [List.length seq map]. rewrite <- app_assoc. cbn. rewrite <- seq_shift, map_map. destruct (g 0%nat); reflexivity.
    + intros i Hi. apply (Hr (S i)). cbn. lia.
Qed.

Lemma get_dist I i j : square (tw_n I) (tw_dist I) -> (i < tw_n I)%nat -> (j < tw_n I)%nat -> mat_get (tw_dist I) i j = Some (dist I i j).
Proof. intros Hs Hi Hj. destruct (rect_get _ _ _ _ _ Hs Hi Hj) as [x E]. unfold dist. rewrite E. reflexivity. Qed.
(** A file whose numbers are read as those of [I] is read as [I]. *)
Lemma read_ok debug lines I h ex D W d : let n := tw_n I in
  content lines ((h :: ex) :: D ++ W) -> digits h (Z.of_nat n) d -> 2 * Z.of_nat n + 1 <= 65535 -> List.length D = n -> List.length W = n ->
  square n (tw_dist I) -> List.length (tw_win I) = n ->
  (forall i, (i < n)%nat -> List.length (nth i D []) = n) ->
  (forall i j, (i < n)%nat -> (j < n)%nat -> read_time (nth j (nth i D []) "") = Some (dist I i j)) ->
  (forall i, (i < n)%nat -> exists a b, nth i W [] = [a; b] /\ read_time a = Some (opens I i) /\ read_time b = Some (closes I i)) ->
  tw_read debug lines = Some I.
Proof.
  intros n Hc Hh Hn LD LW Hs Lw Hrow Hd Hw. unfold tw_read. rewrite (content_fold debug _ _ Hc).
  change ((h :: ex) :: D ++ W)%list with ([h :: ex] ++ (D ++ W))%list. cbn [app ofold]. unfold token_step at 1. cbn [rd_lc rd_nb rd_dist rd_win Z.eqb].
  rewrite (parse_u16_digits h _ d Hh) by lia. cbn [obind rd_lc rd_nb rd_dist rd_win]. change (0 <? 65535) with true. cbv iota. cbn [obind]. rewrite Nat2Z.id.
  destruct (rows_fold debug n (dist I) D 0 (mat_new n n 0) (rect_new n n) ltac:(lia) ltac:(lia)) as (m & E & Sm & G).
  { rewrite LD. exact Hrow. } { rewrite LD. exact Hd. } { intros; lia. }
  rewrite ofold_app. change (0 + 1) with (Z.of_nat 0 + 1). rewrite E. cbn [obind].
  rewrite (windows_fold debug n m W (0 + List.length D) [] ltac:(lia) ltac:(lia) (fun i => nth i (tw_win I) (mk_window 0 0))) by (rewrite LW; exact Hw).
  cbn [obind rd_lc rd_nb rd_dist rd_win app]. rewrite Nat2Z.id. assert (m = tw_dist I) as ->.
  { apply (rect_ext n n); [exact Sm|exact Hs|]. intros i j Hi Hj. rewrite G by lia. symmetry. apply get_dist; assumption. }
  replace (map (fun i => nth i (tw_win I) (mk_window 0 0)) (seq 0 (List.length W))) with (tw_win I); [destruct I; reflexivity|].
  rewrite LW, <- Lw. symmetry. apply (nth_ext _ _ (mk_window 0 0) (mk_window 0 0)).
  - rewrite map_length, seq_length. reflexivity.
  - intros i Hi. rewrite map_length, seq_length in Hi. rewrite (nth_indep _ _ ((fun i => nth i (tw_win I) (mk_window 0 0)) 0%nat)) by (rewrite map_length, seq_length; exact Hi).
    rewrite (map_nth (fun i => nth i (tw_win I) (mk_window 0 0))), seq_nth by exact Hi. reflexivity.
Qed.
