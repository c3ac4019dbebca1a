(** The reading of PSP files. Nothing here models code of /repo. *)
From Verif Require Import Base Bits BitsFacts Text TextSpec TextFacts ReadRows Matrix MatrixFacts Psp PspSpec PspFacts PspEstimate PspFile PspFileSpec.
From Coq Require Import Lia ZArith List.
Import ListNotations.
Open Scope string_scope.
Open Scope Z_scope.

(** ** Text *)
Lemma trim_end_word t : all (fun c => ~ blank c) t -> trim_end t = t.
Proof.
  induction t as [|c t IH]; [reflexivity|]. intros [Hc Ht]. cbn [trim_end]. rewrite (IH Ht). destruct t; [rewrite (not_blank c Hc)|]; reflexivity.
Qed.
Lemma trim_end_blanks a w : all blank w -> trim_end (a ++ w) = trim_end a.
Proof.
  intros Hw. assert (trim_end w = "") as E. { induction w as [|c w IH]; [reflexivity|]. destruct Hw as [Hc Hw]. cbn [trim_end]. rewrite (IH Hw). apply is_ws_blank in Hc. rewrite Hc. reflexivity. }
  induction a as [|c a IH]; [exact E|]. cbn [append trim_end]. rewrite IH. reflexivity.
Qed.
Lemma trim_start_word t s : word t -> trim_start (t ++ s) = t ++ s.
Proof. intros [Hn Ht]. destruct t as [|c t]; [contradiction Hn; reflexivity|]. destruct Ht as [Hc _]. cbn [append trim_start]. rewrite (not_blank c Hc). reflexivity. Qed.
Lemma parted_none s : spaced [] s -> all blank s.
Proof. intros H. inversion H; assumption. Qed.
Lemma trim_one t s : spaced [t] s -> trim s = t.
Proof.
  intros H. inversion H as [|w t' Hw Ht|w t' b s' ts Hw Ht Hb Hs]; subst; unfold trim; rewrite trim_start_blank by exact Hw.
  - pose proof (trim_start_word t "" Ht) as E. rewrite app_empty in E. rewrite E. apply trim_end_word, Ht.
  - rewrite trim_start_word by exact Ht. rewrite trim_end_blanks; [apply trim_end_word, Ht|]. split; [exact Hb|apply parted_none, Hs].
Qed.
Lemma row_words row s : row <> [] -> says_row row s -> exists ts c s', trim s = String c s' /\ tokens (trim s) = ts /\ Forall2 natural ts row /\ Forall (fun v => v < 2 ^ 64) row.
Proof.
  intros Hn (ts & Hs & Hts & Hv). destruct ts as [|a ts]; [inversion Hts; subst; contradiction|].
  destruct (parted_head blank a ts s Hs) as (w & c & x & y & _ & Hc & -> & ->). pose proof (trim_keeps w c y Hc) as Hk.
  exists (String c x :: ts). destruct (trim (w ++ String c y)) as [|c' s'] eqn:E; [contradiction Hk; reflexivity|]. exists c', s'. split; [reflexivity|]. rewrite <- E, tokens_trim. split; [apply split_spaced, Hs|auto].
Qed.

(** ** Matrices *)
Section Read.
Variable debug : bool.
Lemma pset n m (a : matrix Z) i j x : rect n m a -> (i < n)%nat -> (j < m)%nat -> exists a', pmat_set debug a i j x = Some a' /\ rect n m a' /\
  mat_get a' i j = Some x /\ forall i' j', (i' < n)%nat -> (j' < m)%nat -> (i', j') <> (i, j) -> mat_get a' i' j' = mat_get a i' j'.
Proof.
  intros (Hw & Hn & Hm) Hi Hj. rewrite pmat_set_in by (split; lia). destruct (mat_rw a i j x Hw ltac:(split; lia)) as (a' & E & W & N1 & M1 & G & O). exists a'. split; [exact E|].
  split; [split; [exact W|split; congruence]|]. split; [exact G|]. intros i' j' Hi' Hj'. apply O. split; lia.
Qed.
Lemma pget n m (a : matrix Z) i j : rect n m a -> (i < n)%nat -> (j < m)%nat -> pmat_get debug a i j = mat_get a i j.
Proof. intros (_ & Hn & Hm) Hi Hj. apply pmat_get_in. split; lia. Qed.

(** ** Changeovers *)
Lemma change_fold n i : (i < n)%nat -> forall row ts j0 a, rect n n a -> Forall2 natural ts row -> Forall (fun v => v < 2 ^ 64) row -> (j0 + List.length row <= n)%nat ->
  exists a', tfold (pf_change debug i) (combine (seq j0 (List.length ts)) ts) a = Fine a' /\ rect n n a' /\
    (forall q, (q < List.length row)%nat -> mat_get a' i (j0 + q) = nth_error row q) /\
    (forall i' j, (i' < n)%nat -> (j < n)%nat -> (i' <> i \/ j < j0)%nat -> mat_get a' i' j = mat_get a i' j).
Proof.
  intros Hi. induction row as [|v row IH]; intros ts j0 a Ha Hts Hv Hl; inversion Hts as [|t v' ts' row' Ht Hts']; subst.
  - exists a. split; [reflexivity|]. split; [exact Ha|]. split; [cbn; lia|reflexivity].
  - inversion Hv as [|v' row' Hv1 Hv2]; subst. cbn [List.length seq combine tfold]. unfold pf_change at 1. cbn [fst snd]. rewrite (parse_usize_natural t v Ht Hv1). cbn [checked tbind]. cbn [List.length] in Hl.
    destruct (pset n n a i j0 v Ha Hi ltac:(lia)) as (a1 & -> & R1 & G1 & O1). cbn [unchecked tbind].
    destruct (IH ts' (S j0) a1 R1 Hts' Hv2 ltac:(lia)) as (a' & -> & R' & G' & O'). exists a'. split; [reflexivity|]. split; [exact R'|]. split.
    + intros [|q] Hq; [rewrite Nat.add_0_r, O' by lia; exact G1|]. rewrite <- Nat.add_succ_comm. apply G'. cbn in Hq. lia.
    + intros i' j Hi' Hj Hd. rewrite O' by lia. apply O1; [assumption|assumption|]. intros E. injection E as -> ->. lia.
Qed.
Lemma changes_fold n rows lines : Forall2 says_row rows lines -> (forall r, In r rows -> List.length r = n) -> forall i a rest, rect n n a -> (i + List.length rows <= n)%nat ->
  exists a', pf_changes debug i a (lines ++ rest) = pf_changes debug (i + List.length rows) a' rest /\ rect n n a' /\
    (forall q j, (q < List.length rows)%nat -> (j < n)%nat -> mat_get a' (i + q) j = nth_error (nth q rows []) j) /\
    (forall i' j, (i' < i)%nat -> (j < n)%nat -> mat_get a' i' j = mat_get a i' j).
Proof.
  intros Hf. induction Hf as [|row s rows lines Hs Hf IH]; intros Hr i a rest Ha Hl.
  - exists a. cbn. rewrite Nat.add_0_r. split; [reflexivity|]. split; [exact Ha|]. split; [lia|reflexivity].
  - cbn [List.length] in Hl. pose proof (Hr row (or_introl eq_refl)) as Hrow. destruct (row_words row s) as (ts & c & s' & Et & Etok & Hts & Hv); [intros ->; cbn in Hrow; lia|exact Hs|].
    cbn [app pf_changes]. rewrite Et in *. rewrite Etok. destruct (change_fold n i ltac:(lia) row ts 0 a Ha Hts Hv ltac:(lia)) as (a1 & E1 & R1 & G1 & O1). unfold enumerated. rewrite E1. cbn [tbind].
    destruct (IH ltac:(intros r Hin; apply Hr; right; exact Hin) (S i) a1 rest R1 ltac:(lia)) as (a' & E' & R' & G' & O'). exists a'. rewrite E'. split; [cbn [List.length]; f_equal; lia|]. split; [exact R'|]. split.
    + intros [|q] j Hq Hj; [rewrite Nat.add_0_r, O' by lia; apply (G1 j); lia|]. rewrite <- Nat.add_succ_comm. apply G'; [cbn in Hq; lia|exact Hj].
    + intros i' j Hi' Hj. rewrite O' by lia. apply O1; lia.
Qed.

(** ** Stocking costs *)
Lemma stock_fold row : forall ts, Forall2 natural ts row -> Forall (fun v => v < 2 ^ 64) row -> pf_stock (List.length row) ts = Fine row.
Proof.
  induction row as [|v row IH]; intros ts Hts Hv; inversion Hts as [|t v' ts' row' Ht Hts']; subst; [reflexivity|]. inversion Hv as [|v' row' Hv1 Hv2]; subst.
  cbn [List.length pf_stock]. rewrite (parse_usize_natural t v Ht Hv1). cbn [checked tbind]. rewrite (IH ts' Hts' Hv2). reflexivity.
Qed.

(** ** Demands *)
Lemma i32_small x : 0 <= x < 2 ^ 31 -> as_i32 x = x.
Proof. intros H. unfold as_i32. rewrite Z.mod_small by lia. lia. Qed.
Lemma demand_fold n T i : (i < n)%nat -> Z.of_nat T < 2 ^ 31 -> forall ds ts j0 last cnt prev rem, rect n (S T) prev -> rect n T rem ->
  Forall2 natural ts ds -> Forall (fun v => v < 2 ^ 64) ds -> (j0 + List.length ds = T)%nat ->
  (j0 = 0%nat -> cnt = 0 /\ mat_get rem i 0 = Some 0) -> ((0 < j0)%nat -> mat_get rem i (j0 - 1) = Some cnt) -> (ds = [] -> mat_get prev i T = Some last) ->
  exists last' prev' rem', tfold (pf_demand debug T i) (combine (seq j0 (List.length ts)) ts) (last, prev, rem) = Fine (last', prev', rem') /\ rect n (S T) prev' /\ rect n T rem' /\
    (forall q, (q <= List.length ds)%nat -> mat_get prev' i (j0 + q) = nth_error (prev_row j0 last ds) q) /\
    (forall q, (q < List.length ds)%nat -> mat_get rem' i (j0 + q) = nth_error (rem_row cnt ds) q) /\
    (forall i' j, (i' < n)%nat -> (j <= T)%nat -> (i' <> i \/ j < j0)%nat -> mat_get prev' i' j = mat_get prev i' j) /\
    (forall i' j, (i' < n)%nat -> (j < T)%nat -> (i' <> i \/ j < j0)%nat -> mat_get rem' i' j = mat_get rem i' j).
Proof.
  intros Hi HT. induction ds as [|d ds IH]; intros ts j0 last cnt prev rem Rp Rr Hts Hv Hl H0 Hc Hnil; inversion Hts as [|t d' ts' ds' Ht Hts']; subst ts.
  - cbn in Hl. exists last, prev, rem. split; [reflexivity|]. split; [exact Rp|]. split; [exact Rr|]. split; [|split; [cbn; lia|split; reflexivity]].
    intros q Hq. cbn in Hq. assert (q = 0%nat) by lia. subst q. cbn [prev_row nth_error]. replace (j0 + 0)%nat with T by lia. apply Hnil. reflexivity.
  - subst d' ds'. inversion Hv as [|v' row' Hv1 Hv2]; subst. cbn [List.length seq combine tfold]. unfold pf_demand at 1. cbn [List.length] in *.
    destruct (pset n _ prev i j0 last Rp Hi ltac:(lia)) as (p1 & -> & Rp1 & Gp1 & Op1). cbn [unchecked tbind].
    set (T := (j0 + S (List.length ds))%nat) in *.
    assert (exists r1, (if (0 <? j0)%nat then do x <- pmat_get debug rem i (j0 - 1); pmat_set debug rem i j0 x else Some rem) = Some r1 /\ rect n T r1 /\ mat_get r1 i j0 = Some cnt /\
      forall i' j, (i' < n)%nat -> (j < T)%nat -> (i' <> i \/ j < j0)%nat -> mat_get r1 i' j = mat_get rem i' j) as (r1 & -> & Rr1 & Gr1 & Or1).
    { destruct (Nat.ltb_spec 0 j0) as [Hj|Hj].
      - rewrite (pget n T rem) by (assumption || lia). rewrite (Hc Hj). cbn [obind]. destruct (pset n T rem i j0 cnt Rr Hi ltac:(lia)) as (r1 & E & R & G & O). exists r1. split; [exact E|]. split; [exact R|]. split; [exact G|].
        intros i' j Hi' Hj' Hd. apply O; [assumption|assumption|]. intros Eq. injection Eq as -> ->. lia.
      - assert (j0 = 0%nat) as Ej by lia. destruct (H0 Ej) as [-> H00]. exists rem. split; [reflexivity|]. split; [exact Rr|]. split; [rewrite Ej; exact H00|reflexivity]. }
    cbn [unchecked tbind]. rewrite (parse_usize_natural t d Ht Hv1). cbn [checked tbind]. rewrite i32_small by lia.
    set (cnt' := if 0 <? d then cnt + 1 else cnt). set (last' := if 0 <? d then Z.of_nat j0 else last).
    assert (exists r2, (if 0 <? d then do x <- pmat_get debug r1 i j0; pmat_set debug r1 i j0 (x + 1) else Some r1) = Some r2 /\ rect n T r2 /\ mat_get r2 i j0 = Some cnt' /\
      forall i' j, (i' < n)%nat -> (j < T)%nat -> (i' <> i \/ j < j0)%nat -> mat_get r2 i' j = mat_get r1 i' j) as (r2 & -> & Rr2 & Gr2 & Or2).
    { unfold cnt'. destruct (0 <? d); [|exists r1; auto]. rewrite (pget n T r1) by (assumption || lia). rewrite Gr1. cbn [obind]. destruct (pset n T r1 i j0 (cnt + 1) Rr1 Hi ltac:(lia)) as (r2 & E & R & G & O). exists r2. split; [exact E|]. split; [exact R|]. split; [exact G|].
      intros i' j Hi' Hj' Hd. apply O; [assumption|assumption|]. intros Eq. injection Eq as -> ->. lia. }
    cbn [unchecked tbind]. rewrite usub_some by lia. cbn [unchecked tbind].
    assert (exists p2, (if Z.of_nat j0 =? Z.of_nat T - 1 then pmat_set debug p1 i (1 + j0) last' else Some p1) = Some p2 /\ rect n (S T) p2 /\ (ds = [] -> mat_get p2 i T = Some last') /\
      forall i' j, (i' < n)%nat -> (j <= T)%nat -> (i' <> i \/ j <= j0)%nat -> mat_get p2 i' j = mat_get p1 i' j) as (p2 & -> & Rp2 & Gp2 & Op2).
    { destruct (Z.eqb_spec (Z.of_nat j0) (Z.of_nat T - 1)) as [Ej|Ej].
      - destruct (pset n (S T) p1 i (1 + j0) last' Rp1 Hi ltac:(lia)) as (p2 & E & R & G & O). exists p2. split; [exact E|]. split; [exact R|]. split; [intros _; replace T with (1 + j0)%nat by lia; exact G|].
        intros i' j Hi' Hj' Hd. apply O; [assumption|lia|]. intros Eq. injection Eq as -> ->. lia.
      - exists p1. split; [reflexivity|]. split; [exact Rp1|]. split; [|reflexivity]. intros ->. unfold T in Ej. cbn [List.length] in Ej. lia. }
    cbn [unchecked tbind].
    destruct (IH ts' (S j0) last' cnt' p2 r2 Rp2 Rr2 Hts' Hv2 ltac:(lia)) as (l3 & p3 & r3 & -> & Rp3 & Rr3 & Gp3 & Gr3 & Op3 & Or3); [intros E; discriminate E|intros _; replace (S j0 - 1)%nat with j0 by lia; exact Gr2|exact Gp2|].
    exists l3, p3, r3. split; [reflexivity|]. split; [exact Rp3|]. split; [exact Rr3|]. split; [|split; [|split]].
    + intros [|q] Hq; cbn [prev_row nth_error]; [rewrite Nat.add_0_r, Op3, Op2 by lia; exact Gp1|]. rewrite <- Nat.add_succ_comm. apply Gp3. lia.
    + intros [|q] Hq; cbn [rem_row nth_error]; cbv zeta; [rewrite Nat.add_0_r, Or3 by lia; exact Gr2|]. rewrite <- Nat.add_succ_comm. apply Gr3. lia.
    + intros i' j Hi' Hj Hd. rewrite Op3, Op2 by lia. apply Op1; [assumption|lia|]. intros Eq. injection Eq as -> ->. lia.
    + intros i' j Hi' Hj Hd. rewrite Or3, Or2 by lia. apply Or1; assumption.
Qed.
Lemma demands_fold n T rows lines : (1 <= T)%nat -> Z.of_nat T < 2 ^ 31 -> Forall2 says_row rows lines -> (forall r, In r rows -> List.length r = T) -> forall i prev rem rest,
  rect n (S T) prev -> rect n T rem -> (i + List.length rows <= n)%nat -> (forall i', (i <= i' < n)%nat -> mat_get rem i' 0 = Some 0) ->
  exists prev' rem', pf_demands debug T i prev rem (lines ++ rest) = pf_demands debug T (i + List.length rows) prev' rem' rest /\ rect n (S T) prev' /\ rect n T rem' /\
    (forall q j, (q < List.length rows)%nat -> (j <= T)%nat -> mat_get prev' (i + q) j = nth_error (prev_row 0 BOT (nth q rows [])) j) /\
    (forall q j, (q < List.length rows)%nat -> (j < T)%nat -> mat_get rem' (i + q) j = nth_error (rem_row 0 (nth q rows [])) j) /\
    (forall i' j, (i' < i)%nat -> (j <= T)%nat -> mat_get prev' i' j = mat_get prev i' j) /\ (forall i' j, (i' < i)%nat -> (j < T)%nat -> mat_get rem' i' j = mat_get rem i' j).
Proof.
  intros HT1 HT2 Hf. induction Hf as [|row s rows lines Hs Hf IH]; intros Hr i prev rem rest Rp Rr Hl Hz.
  - exists prev, rem. cbn. rewrite Nat.add_0_r. split; [reflexivity|]. split; [exact Rp|]. split; [exact Rr|]. split; [lia|]. split; [lia|]. split; reflexivity.
  - cbn [List.length] in Hl. pose proof (Hr row (or_introl eq_refl)) as Hrow. destruct (row_words row s) as (ts & c & s' & Et & Etok & Hts & Hv); [intros ->; cbn in Hrow; lia|exact Hs|].
    cbn [app pf_demands]. rewrite Et in *. rewrite Etok.
    destruct (demand_fold n T i ltac:(lia) HT2 row ts 0 BOT 0 prev rem Rp Rr Hts Hv ltac:(lia)) as (l1 & p1 & r1 & E1 & Rp1 & Rr1 & Gp1 & Gr1 & Op1 & Or1); [intros _; split; [reflexivity|apply Hz; lia]|lia|intros ->; cbn in Hrow; lia|].
    unfold enumerated. rewrite E1. cbn [tbind].
    destruct (IH ltac:(intros r Hin; apply Hr; right; exact Hin) (S i) p1 r1 rest Rp1 Rr1 ltac:(lia)) as (p' & r' & E' & Rp' & Rr' & Gp' & Gr' & Op' & Or'); [intros i' Hi'; rewrite Or1 by lia; apply Hz; lia|].
    exists p', r'. rewrite E'. split; [cbn [List.length]; f_equal; lia|]. split; [exact Rp'|]. split; [exact Rr'|]. split; [|split; [|split]].
    + intros [|q] j Hq Hj; [rewrite Nat.add_0_r, Op' by lia; apply (Gp1 j); lia|]. rewrite <- Nat.add_succ_comm. apply Gp'; [cbn in Hq; lia|exact Hj].
    + intros [|q] j Hq Hj; [rewrite Nat.add_0_r, Or' by lia; apply (Gr1 j); lia|]. rewrite <- Nat.add_succ_comm. apply Gr'; [cbn in Hq; lia|exact Hj].
    + intros i' j Hi' Hj. rewrite Op' by lia. apply Op1; lia.
    + intros i' j Hi' Hj. rewrite Or' by lia. apply Or1; lia.
Qed.

(** ** The end of the file *)
Lemma end_read lines opt : says_end lines opt -> forall T i prev rem, exists rest, pf_demands debug T i prev rem lines = Fine (prev, rem, rest) /\ pf_optimum rest = Fine opt.
Proof.
  intros [|e He|e s He|e s o v rest He (ts & Hs & Hts & Hv)] T i prev rem; cbn [pf_demands]; try (rewrite (trim_blank e He)); try (eexists; split; reflexivity).
  inversion Hts as [|t v' ts' l Ht Hn]; subst. inversion Hn; subst. inversion Hv as [|v' l Hv1 Hv2]; subst. eexists. split; [reflexivity|]. unfold pf_optimum. cbn [tl]. rewrite (trim_one t o Hs), (parse_usize_natural t v Ht Hv1). reflexivity.
Qed.

(** ** The file *)
Lemma table_get (f : list Z -> list Z) w rows i j : (forall r, In r rows -> List.length (f r) = w) -> (i < List.length rows)%nat -> (j < w)%nat ->
  mat_get (mk_mat (List.length rows) w (concat (map f rows))) i j = nth_error (f (nth i rows [])) j.
Proof.
  intros Hf Hi Hj. unfold mat_get, mat_pos. cbn [mx_m mx_data]. rewrite concat_nth with (m := w); [|intros r Hr; apply in_map_iff in Hr; destruct Hr as (r' & <- & Hr); apply Hf, Hr|exact Hj].
  rewrite nth_error_map, (nth_error_nth' rows [] Hi). reflexivity.
Qed.
Lemma table_rect (f : list Z -> list Z) w rows : (forall r, In r rows -> List.length (f r) = w) -> rect (List.length rows) w (mk_mat (List.length rows) w (concat (map f rows))).
Proof.
  intros Hf. split; [|split; reflexivity]. unfold mat_wf. cbn [mx_data mx_n mx_m]. rewrite (concat_len _ w), map_length; [reflexivity|]. intros r Hr. apply in_map_iff in Hr. destruct Hr as (r' & <- & Hr). apply Hf, Hr.
Qed.
Lemma rows_of_get (a : matrix Z) n i j : rect n n a -> (i < n)%nat -> (j < n)%nat -> nth_error (nth i (rows_of a) []) j = mat_get a i j.
Proof.
  intros Ha Hi Hj. destruct Ha as (W & N & M') eqn:E. unfold rows_of. rewrite (nth_indep _ [] (row_of a 0)) by (rewrite map_length, seq_length, N; exact Hi). rewrite (map_nth (row_of a)), seq_nth by (rewrite N; exact Hi).
  unfold row_of. rewrite nth_error_map. rewrite (nth_error_nth' (seq 0 (mx_m a)) 0%nat) by (rewrite seq_length, M'; exact Hj). rewrite seq_nth by (rewrite M'; exact Hj). cbn [option_map Nat.add].
  destruct (rect_get n n a i j Ha Hi Hj) as [x ->]. reflexivity.
Qed.
Theorem psp_file_read : forall sort lines D orders opt M, (forall l, Permutation l (sort l)) -> psp_says lines D orders opt -> psp_ok D M ->
  exists J, psp_read debug sort lines = Fine (J, orders, opt) /\ loaded D J.
Proof.
  intros sort lines D orders opt M Hsort (_ & s1 & s2 & s3 & any1 & changes & empty & stocks & any2 & demands & final & -> & [N1 B1] & [N2 B2] & [N3 B3] & Hch & He & (ts & Hst & Hts & Hv) & Hdem & Hend) Hok.
  set (n := pd_n D) in *. set (T := pd_T D) in *.
  unfold psp_read. cbn [next_line tbind]. rewrite (parse_usize_natural s1 _ N1 B1). cbn [checked tbind next_line]. rewrite (parse_usize_natural s2 _ N2 B2). cbn [checked tbind next_line]. rewrite (parse_usize_natural s3 _ N3 B3). cbn [checked tbind tl]. rewrite !Nat2Z.id.
  pose proof (po_change _ _ Hok) as (C1 & C2 & C3). fold n in C1, C2, C3. assert (rect n n (pd_change D)) as Rc by (split; [unfold mat_wf; congruence|split; assumption]).
  assert (List.length (rows_of (pd_change D)) = n) as Lr by (unfold rows_of; rewrite map_length, seq_length; exact C1).
  destruct (changes_fold n (rows_of (pd_change D)) changes Hch) with (i := 0%nat) (a := mat_new n n 0) (rest := (empty :: stocks :: any2 :: demands ++ final)%list) as (a' & -> & Ra & Ga & _); [|apply rect_new|lia|].
  { intros r Hr. apply in_map_iff in Hr. destruct Hr as (i & <- & _). unfold row_of. rewrite map_length, seq_length. exact C2. }
  assert (a' = pd_change D) as ->. { apply (rect_ext n n); [exact Ra|exact Rc|]. intros i j Hi Hj. etransitivity; [exact (Ga i j ltac:(lia) Hj)|]. apply rows_of_get with (n := n); assumption. }
  cbn [pf_changes]. rewrite (trim_blank empty He). cbn [tbind next_line]. rewrite (split_spaced ts stocks Hst).
  pose proof (stock_fold _ ts Hts Hv) as Es. rewrite (po_stock _ _ Hok : _ = n) in Es. rewrite Es. cbn [tbind tl].
  pose proof (po_dem _ _ Hok) as Ld. fold n in Ld. pose proof (po_rows _ _ Hok) as Lrow. fold T in Lrow. pose proof (po_T _ _ Hok) as HT. fold T in HT. pose proof (po_small _ _ Hok) as HT2. fold T in HT2.
  destruct (demands_fold n T (pd_dem D) demands HT HT2 Hdem Lrow 0 (pmat_new n (S T) 0) (pmat_new n T 0) final) as (p & r & -> & Rp & Rr & Gp & Gr & _ & _); [apply rect_new|apply rect_new|lia| |].
  { intros i' Hi'. apply mat_get_new; [cbn; f_equal; lia|]. split; cbn; lia. }
  destruct (end_read final opt Hend T (0 + List.length (pd_dem D)) p r) as (rest & -> & Ho). cbn [tbind]. rewrite Ho. cbn [tbind].
  assert (p = prev_table D) as ->.
  { apply (rect_ext n (S T)); [exact Rp| |].
    - unfold prev_table. fold n T. rewrite <- Ld. apply table_rect. intros row Hrow. rewrite prev_row_len, (Lrow row Hrow). reflexivity.
    - intros i j Hi Hj. etransitivity; [exact (Gp i j ltac:(lia) ltac:(lia))|]. unfold prev_table. fold n T. rewrite <- Ld. symmetry. apply table_get; [|lia|exact Hj]. intros row Hrow. rewrite prev_row_len, (Lrow row Hrow). reflexivity. }
  assert (r = rem_table D) as ->.
  { apply (rect_ext n T); [exact Rr| |].
    - unfold rem_table. fold n T. rewrite <- Ld. apply table_rect. intros row Hrow. rewrite rem_row_len. apply (Lrow row Hrow).
    - intros i j Hi Hj. etransitivity; [exact (Gr i j ltac:(lia) Hj)|]. unfold rem_table. fold n T. rewrite <- Ld. symmetry. apply table_get; [|lia|exact Hj]. intros row Hrow. rewrite rem_row_len. apply (Lrow row Hrow). }
  destruct (precompute_ok D M Hok debug sort Hsort) as (mst & Em & _). fold n in Em. rewrite Em. cbn [unchecked tbind]. eexists. split; [reflexivity|]. exists debug, sort, mst. split; [exact Hsort|]. split; [exact Em|reflexivity].
Qed.
End Read.
