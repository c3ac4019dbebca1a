(** The reading of TSPTW files: lines and decimal numbers. Nothing here models code of /repo. *)
From Verif Require Import Base TsptwFile TsptwFileSpec TextFacts MatrixFacts.
From Coq Require Import Lia ZArith List.
Import ListNotations.
Open Scope string_scope.
Open Scope Z_scope.

(** A line by its words. *)
Definition token_step (debug : bool) (r : tw_reader) (ts : list string) : option tw_reader :=
  do r <- (if rd_lc r =? 0 then
             match ts with [] => None | t :: _ => do n <- parse_u16 t; Some (mk_rd (rd_lc r) n (mat_new (Z.to_nat n) (Z.to_nat n) 0) (rd_win r)) end
           else if (1 <=? rd_lc r) && (rd_lc r <=? rd_nb r) then
             do m <- ofold (fun m jt => do x <- read_time (snd jt); mat_set m (Z.to_nat (rd_lc r - 1)) (fst jt) x) (combine (seq 0 (List.length ts)) ts) (rd_dist r);
             Some (mk_rd (rd_lc r) (rd_nb r) m (rd_win r))
           else match ts with
                | a :: b :: _ => do e <- read_time a; do l <- read_time b; Some (mk_rd (rd_lc r) (rd_nb r) (rd_dist r) (rd_win r ++ [mk_window e l]))
                | _ => None
                end);
  if rd_lc r <? 65535 then Some (mk_rd (rd_lc r + 1) (rd_nb r) (rd_dist r) (rd_win r))
  else if debug then None else Some (mk_rd 0 (rd_nb r) (rd_dist r) (rd_win r)).
Lemma line_kept s a ts : spaced (a :: ts) s -> (forall x, a <> String "#" x) -> skipped (trim s) = false.
Proof.
  intros H Ha.
  destruct (parted_head blank a ts s H) as (w & c & x & y & Hw & Hc & -> & ->).
  assert (trim_start (w ++ String c y) = String c y) as E by (rewrite trim_start_blank by exact Hw; cbn; rewrite (not_blank _ Hc); reflexivity).
  unfold trim. rewrite E. destruct (trim_end_head c y (not_blank _ Hc)) as [z ->]. cbn. destruct (Ascii.eqb_spec c "#"); [|reflexivity]. subst. exfalso. apply (Ha x). reflexivity.
Qed.
Lemma comment_skipped w s : all blank w -> skipped (trim (w ++ String "#" s)) = true.
Proof.
  intros Hw. unfold trim. rewrite trim_start_blank by exact Hw. change (trim_start (String "#" s)) with (String "#" s). destruct (trim_end_head "#" s eq_refl) as [z ->]. reflexivity.
Qed.
Lemma line_tokens debug r s a ts : spaced (a :: ts) s -> (forall x, a <> String "#" x) -> read_line debug r s = token_step debug r (a :: ts).
Proof.
  intros H Ha. unfold read_line. rewrite (line_kept s a ts H Ha). unfold token_step, read_header, read_row, read_window. rewrite tokens_trim, (split_spaced _ _ H). reflexivity.
Qed.
(** What a file says is determined by the file. *)
Lemma content_eq lines c : content lines c -> c = map tokens (filter (fun s => negb (skipped (trim s))) lines).
Proof.
  induction 1 as [|s l c Hs _ IH|w s l c Hw _ IH|s a ts l c Hs Ha _ IH]; [reflexivity| | |]; cbn [filter].
  - rewrite (trim_blank _ Hs). exact IH.
  - rewrite (comment_skipped w s Hw). exact IH.
  - rewrite (line_kept s a ts Hs Ha). cbn. rewrite (split_spaced _ _ Hs), <- IH. reflexivity.
Qed.
Lemma content_fold debug lines c : content lines c -> forall r, ofold (read_line debug) lines r = ofold (token_step debug) c r.
Proof.
  induction 1 as [|s l c Hs _ IH|w s l c Hw _ IH|s a ts l c Hs Ha _ IH]; intros r; [reflexivity| | |]; cbn [ofold].
  - replace (read_line debug r s) with (Some r); [apply IH|]. unfold read_line. rewrite (trim_blank _ Hs). reflexivity.
  - replace (read_line debug r (w ++ String "#" s)) with (Some r); [apply IH|]. unfold read_line. rewrite (comment_skipped w s Hw). reflexivity.
  - rewrite (line_tokens debug r s a ts Hs Ha). cbn. destruct (token_step debug r (a :: ts)); [apply IH|reflexivity].
Qed.

(** Numbers. *)
Definition stops (r : string) : Prop := match r with EmptyString => True | String c _ => digit_of c = None /\ Ascii.eqb c "." = false end.
Lemma scan_stops r acc n : stops r -> scan_digits acc n r = (acc, n, r).
Proof. destruct r as [|c r]; [reflexivity|]. intros [H _]. cbn [scan_digits]. rewrite H. reflexivity. Qed.
Lemma after_stops r (a : Z) : stops r ->
  (match r with String c s' => if Ascii.eqb c "." then scan_digits a 0 s' else (a, 0%nat, r) | _ => (a, 0%nat, r) end) = (a, 0%nat, r).
Proof. destruct r as [|c r]; [reflexivity|]. intros [_ H]. rewrite H. reflexivity. Qed.
Lemma plain_scan t p k r : plain t p k -> stops r -> 0 <= p /\ exists a na s1, scan_digits 0 0 (t ++ r) = (a, na, s1) /\ (na + k =? 0)%nat = false /\
  (match s1 with String c s' => if Ascii.eqb c "." then scan_digits a 0 s' else (a, 0%nat, s1) | _ => (a, 0%nat, s1) end) = (p, k, r).
Proof.
  intros H Hr. destruct H as [s v n H|s v n H|a v n b w k Ha Hb|b w k Hb].
  - destruct (digits_bounds _ _ _ H) as [Hv Hn]. split; [lia|]. exists v, n, r. rewrite (scan_more s v n H), scan_stops by exact Hr. change (0 * 10 ^ Z.of_nat n) with 0. rewrite Z.add_0_l, Nat.add_0_l.
    split; [reflexivity|]. split; [apply Nat.eqb_neq; lia|apply after_stops; exact Hr].
  - destruct (digits_bounds _ _ _ H) as [Hv Hn]. split; [lia|]. exists v, n, (String "." r). rewrite app_assoc_s, (scan_more s v n H). change (0 * 10 ^ Z.of_nat n) with 0. rewrite Z.add_0_l, Nat.add_0_l.
    split; [reflexivity|]. split; [apply Nat.eqb_neq; lia|]. change (Ascii.eqb "." ".") with true. cbv iota. apply scan_stops. exact Hr.
  - destruct (digits_bounds a v n Ha) as [Hv Hn]. destruct (digits_bounds b w k Hb) as [Hw Hk]. pose proof (Z.pow_nonneg 10 (Z.of_nat k) ltac:(lia)). split; [nia|].
    exists v, n, (String "." (b ++ r)). rewrite !app_assoc_s, (scan_more a v n Ha). change (0 * 10 ^ Z.of_nat n) with 0. rewrite Z.add_0_l, Nat.add_0_l.
    split; [reflexivity|]. split; [apply Nat.eqb_neq; lia|]. change (Ascii.eqb "." ".") with true. cbv iota. rewrite (scan_more b w k Hb), scan_stops by exact Hr. rewrite Nat.add_0_l. reflexivity.
  - destruct (digits_bounds b w k Hb) as [Hw Hk]. split; [lia|].
    exists 0, 0%nat, (String "." (b ++ r)). split; [reflexivity|]. split; [apply Nat.eqb_neq; lia|]. change (Ascii.eqb "." ".") with true. cbv iota.
    rewrite (scan_more b w k Hb), scan_stops by exact Hr. rewrite Nat.add_0_l. reflexivity.
Qed.
Lemma plain_head t p k : plain t p k -> exists c x, t = String c x /\ Ascii.eqb c "-" = false /\ Ascii.eqb c "+" = false.
Proof.
  intros H. assert (Hd : forall s v n r, digits s v n -> exists c x, s ++ r = String c x /\ Ascii.eqb c "-" = false /\ Ascii.eqb c "+" = false).
  { clear. intros s v n r H. destruct (digits_head s v n H) as (d & x & Hd & ->). cbn [append]. do 2 eexists. split; [reflexivity|]. split; apply head_not; auto. }
  destruct H as [s v n H|s v n H|a v n b w k Ha Hb|b w k Hb]; [rewrite <- (app_empty s); apply (Hd _ _ _ _ H)|apply (Hd _ _ _ _ H)|apply (Hd _ _ _ _ Ha)|].
  cbn [append]. do 2 eexists. split; [reflexivity|]. split; reflexivity.
Qed.
Lemma parse_exp_digits c s e n : digits s e n ->
  (In c ["e"; "E"; "e+"; "E+"] -> parse_exp (c ++ s) = Some e) /\ (In c ["e-"; "E-"] -> parse_exp (c ++ s) = Some (- e)).
Proof.
  intros H. destruct (digits_bounds _ _ _ H) as [Hv Hn]. destruct (no_sign s e n "" H) as (_ & H1 & _). rewrite app_empty in H1.
  assert (E : scan_digits 0 0 s = (e, n, "")) by (rewrite <- (app_empty s), (scan_more s e n H); cbn [scan_digits]; change (0 * 10 ^ Z.of_nat n) with 0; reflexivity).
  assert (En : (n =? 0)%nat = false) by (apply Nat.eqb_neq; lia).
  split; intros Hc; cbn [In] in Hc; repeat (destruct Hc as [<-|Hc]); try contradiction; cbn [append]; unfold parse_exp.
  1,2: change (Ascii.eqb "e" "e" || Ascii.eqb "e" "E") with true; change (Ascii.eqb "E" "e" || Ascii.eqb "E" "E") with true; cbv iota; rewrite H1, E, En; f_equal; lia.
  all: change (Ascii.eqb "e" "e" || Ascii.eqb "e" "E") with true; change (Ascii.eqb "E" "e" || Ascii.eqb "E" "E") with true; change (Ascii.eqb "+" "-") with false; change (Ascii.eqb "+" "+") with true; change (Ascii.eqb "-" "-") with true; cbv iota beta; rewrite E, En; f_equal; lia.
Qed.
Lemma exp_stops c s : In c ["e"; "E"; "e+"; "E+"] \/ In c ["e-"; "E-"] -> stops (c ++ s).
Proof. intros [H|H]; cbn [In] in H; repeat (destruct H as [<-|H]); try contradiction; split; reflexivity. Qed.

(** The part of [parse_f32] after the sign. *)
Definition parse_unsigned_f32 (s : string) : option spec_float :=
  let '(a, na, s1) := scan_digits 0 0 s in
  let '(v, nb, s2) := match s1 with
                      | String c s' => if Ascii.eqb c "." then scan_digits a 0 s' else (a, 0%nat, s1)
                      | _ => (a, 0%nat, s1)
                      end in
  if (na + nb =? 0)%nat then special_f32 s
  else do e <- parse_exp s2; Some (f32_ratio (v * 10 ^ Z.max 0 e) (10 ^ (Z.of_nat nb + Z.max 0 (- e)))).
Lemma parse_unsigned_ok t p k : unsigned t p k -> parse_unsigned_f32 t = Some (f32_ratio p (10 ^ Z.of_nat k)) /\ 0 <= p.
Proof.
  assert (Hg : forall t p k r e, plain t p k -> stops r -> parse_exp r = Some e -> parse_unsigned_f32 (t ++ r) = Some (f32_ratio (p * 10 ^ Z.max 0 e) (10 ^ (Z.of_nat k + Z.max 0 (- e)))) /\ 0 <= p).
  { clear. intros t p k r e H Hr He. destruct (plain_scan t p k r H Hr) as (Hp & a & na & s1 & E1 & E2 & E3). split; [|exact Hp]. unfold parse_unsigned_f32. rewrite E1, E3, E2, He. reflexivity. }
  intros [t' p' k' H|t' p' k' c s e n H Hc Hs|t' p' k' c s e n H Hc Hs].
  - destruct (Hg t' p' k' "" 0 H Logic.I eq_refl) as [E Hp]. rewrite app_empty in E. rewrite E. split; [|exact Hp]. change (Z.max 0 0) with 0. change (Z.max 0 (- 0)) with 0. change (10 ^ 0) with 1. rewrite Z.mul_1_r, Z.add_0_r. reflexivity.
  - destruct (digits_bounds _ _ _ Hs) as [Hv Hn]. destruct (Hg t' p' k' (c ++ s) e H (exp_stops _ _ (or_introl Hc)) (proj1 (parse_exp_digits c s e n Hs) Hc)) as [E Hp]. rewrite E. split; [|apply Z.mul_nonneg_nonneg; [exact Hp|apply Z.pow_nonneg; lia]].
    rewrite Z.max_r, Z.max_l, Z.add_0_r by lia. reflexivity.
  - destruct (digits_bounds _ _ _ Hs) as [Hv Hn]. destruct (Hg t' p' k' (c ++ s) (- e) H (exp_stops _ _ (or_intror Hc)) (proj2 (parse_exp_digits c s e n Hs) Hc)) as [E Hp]. rewrite E. split; [|exact Hp].
    rewrite Z.opp_involutive, Z.max_l, Z.max_r by lia. change (10 ^ 0) with 1. rewrite Z.mul_1_r, Nat2Z.inj_add, Z2Nat.id by lia. reflexivity.
Qed.
Lemma parse_unsigned_sign s : (forall c x, s = String c x -> Ascii.eqb c "-" = false /\ Ascii.eqb c "+" = false) -> parse_f32 s = parse_unsigned_f32 s.
Proof.
  intros H. unfold parse_f32, parse_unsigned_f32. replace (match s with String c s' => if Ascii.eqb c "-" then (true, s') else if Ascii.eqb c "+" then (false, s') else (false, s) | _ => (false, s) end) with (false, s).
  - destruct (scan_digits 0 0 s) as [[a na] s1]. destruct (match s1 with String c s' => if Ascii.eqb c "." then scan_digits a 0 s' else (a, 0%nat, s1) | _ => (a, 0%nat, s1) end) as [[v nb] s2].
    destruct (if (na + nb =? 0)%nat then _ else _); reflexivity.
  - destruct s as [|c x]; [reflexivity|]. destruct (H c x eq_refl) as [-> ->]. reflexivity.
Qed.
Lemma parse_plus_sign s : parse_f32 ("+" ++ s) = parse_unsigned_f32 s.
Proof.
  unfold parse_f32, parse_unsigned_f32. cbn [append]. change (Ascii.eqb "+" "-") with false. change (Ascii.eqb "+" "+") with true. cbv iota beta.
  destruct (scan_digits 0 0 s) as [[a na] s1]. destruct (match s1 with String c s' => if Ascii.eqb c "." then scan_digits a 0 s' else (a, 0%nat, s1) | _ => (a, 0%nat, s1) end) as [[v nb] s2].
    destruct (if (na + nb =? 0)%nat then _ else _); reflexivity.
Qed.
Lemma unsigned_head t p k : unsigned t p k -> forall c x, t = String c x -> Ascii.eqb c "-" = false /\ Ascii.eqb c "+" = false.
Proof.
  intros H. assert (Hg : forall t p k r c x, plain t p k -> t ++ r = String c x -> Ascii.eqb c "-" = false /\ Ascii.eqb c "+" = false).
  { clear. intros t p k r c x H E. destruct (plain_head t p k H) as (c' & x' & -> & H1 & H2). cbn [append] in E. injection E as <- _. auto. }
  intros c x. destruct H as [t' p' k' H|t' p' k' c' s e n H Hc Hs|t' p' k' c' s e n H Hc Hs]; [rewrite <- (app_empty t')|..]; apply (Hg _ _ _ _ _ _ H).
Qed.
Lemma parse_decimal t p k : decimal t p k -> parse_f32 t = Some (f32_ratio p (10 ^ Z.of_nat k)) /\ 0 <= p.
Proof.
  intros [t' p' k' H|t' p' k' H].
  - rewrite parse_unsigned_sign by exact (unsigned_head _ _ _ H). apply parse_unsigned_ok, H.
  - rewrite parse_plus_sign. apply parse_unsigned_ok, H.
Qed.
Lemma plain_first t p k : plain t p k -> exists c x, t = String c x /\ (digit_of c <> None \/ c = "."%char).
Proof.
  assert (Hd : forall s v n r, digits s v n -> exists c x, s ++ r = String c x /\ (digit_of c <> None \/ c = "."%char)).
  { clear. intros s v n r H. destruct (digits_head s v n H) as (d & x & Hd & ->). cbn [append]. do 2 eexists. split; [reflexivity|]. left. rewrite digit_of_digit by exact Hd. discriminate. }
  intros [s v n H|s v n H|a v n b w k' Ha Hb|b w k' Hb]; [rewrite <- (app_empty s); apply (Hd _ _ _ _ H)|apply (Hd _ _ _ _ H)|apply (Hd _ _ _ _ Ha)|].
  cbn [append]. do 2 eexists. split; [reflexivity|]. right. reflexivity.
Qed.
Lemma decimal_first t p k : decimal t p k -> exists c x, t = String c x /\ (digit_of c <> None \/ c = "."%char \/ c = "+"%char).
Proof.
  intros [t' p' k' H|t' p' k' H]; [|exists "+"%char, t'; split; [reflexivity|tauto]].
  destruct H as [t1 p1 k1 H|t1 p1 k1 c s e n H _ _|t1 p1 k1 c s e n H _ _]; destruct (plain_first _ _ _ H) as (c' & x & -> & Hc); cbn [append]; do 2 eexists; (split; [reflexivity|]); tauto.
Qed.
