(** Text: words and numbers. Nothing here models code of /repo. *)
From Verif Require Import Base Text TextSpec.
From Coq Require Import Lia ZArith List.
Import ListNotations.
Open Scope string_scope.
Open Scope Z_scope.

Lemma is_ws_blank c : is_ws c = true <-> blank c.
Proof.
  unfold is_ws, blank. destruct c as [[] [] [] [] [] [] [] []]; vm_compute; split; intros H; try discriminate H; try reflexivity;
    repeat (destruct H as [H|H]; [discriminate H|]); try contradiction H; auto 10.
Qed.
Lemma not_blank c : ~ blank c -> is_ws c = false.
Proof. intros H. destruct (is_ws c) eqn:E; [|reflexivity]. apply is_ws_blank in E. contradiction. Qed.
Lemma app_empty s : s ++ "" = s.
Proof. induction s as [|c s IH]; [reflexivity|]. cbn. rewrite IH. reflexivity. Qed.
Lemma app_assoc_s a b c : (a ++ b) ++ c = a ++ b ++ c.
Proof. induction a as [|x a IH]; [reflexivity|]. cbn. rewrite IH. reflexivity. Qed.
Lemma all_app P a b : all P (a ++ b) <-> all P a /\ all P b.
Proof. induction a as [|c a IH]; cbn; [tauto|]. rewrite IH. tauto. Qed.
Lemma all_imp (P Q : ascii -> Prop) s : (forall c, P c -> Q c) -> all P s -> all Q s.
Proof. intros H. induction s as [|c s IH]; cbn; [tauto|]. intros [H1 H2]. auto. Qed.

(** Words. *)
Section Sep.
Variables (sepb : ascii -> bool) (sep : ascii -> Prop).
Hypothesis Hsep : forall c, sepb c = true <-> sep c.
Lemma not_sep c : ~ sep c -> sepb c = false.
Proof. intros H. destruct (sepb c) eqn:E; [|reflexivity]. apply Hsep in E. contradiction. Qed.
Lemma split_sep w s : all sep w -> split_by sepb "" (w ++ s) = split_by sepb "" s.
Proof. induction w as [|c w IH]; intros H; [reflexivity|]. destruct H as [H1 H2]. cbn. apply Hsep in H1. rewrite H1. apply IH, H2. Qed.
Lemma split_word t s : all (fun c => ~ sep c) t -> forall cur, split_by sepb cur (t ++ s) = split_by sepb (cur ++ t) s.
Proof.
  induction t as [|c t IH]; intros H cur; [rewrite app_empty; reflexivity|]. destruct H as [H1 H2]. cbn [append split_by]. rewrite (not_sep _ H1), IH by exact H2.
  rewrite app_assoc_s. reflexivity.
Qed.
Lemma split_parted ts s : parted sep ts s -> split_by sepb "" s = ts.
Proof.
  induction 1 as [w Hw|w t Hw [Ht1 Ht2]|w t b s ts Hw [Ht1 Ht2] Hb _ IH].
  - rewrite <- (app_empty w), split_sep by exact Hw. reflexivity.
  - rewrite split_sep by exact Hw. rewrite <- (app_empty t), split_word by exact Ht2. rewrite app_empty. cbn. destruct t; [contradiction Ht1; reflexivity|reflexivity].
  - rewrite split_sep by exact Hw. rewrite split_word by exact Ht2. cbn. apply Hsep in Hb. rewrite Hb. destruct t; [contradiction Ht1; reflexivity|]. rewrite IH. reflexivity.
Qed.
(** Trimming does not change the words when white space separates them. *)
Lemma split_trim_end s : all (fun c => is_ws c = true -> sepb c = true) s -> forall cur, split_by sepb cur (trim_end s) = split_by sepb cur s.
Proof.
  induction s as [|c s IH]; intros Hs cur; [reflexivity|]. destruct Hs as [Hc Hs]. specialize (IH Hs). cbn [trim_end]. destruct (trim_end s) as [|c' r] eqn:E.
  - destruct (is_ws c) eqn:Ec; cbn [split_by].
    + rewrite (Hc eq_refl). destruct cur; rewrite <- (IH ""); reflexivity.
    + destruct (sepb c); [destruct cur|]; rewrite <- IH; reflexivity.
  - change (split_by sepb cur (String c (String c' r))) with (if sepb c then match cur with "" => split_by sepb "" (String c' r) | _ => cur :: split_by sepb "" (String c' r) end else split_by sepb (cur ++ String c "") (String c' r)).
    rewrite !IH. reflexivity.
Qed.
Lemma split_trim_start s : all (fun c => is_ws c = true -> sepb c = true) s -> split_by sepb "" (trim_start s) = split_by sepb "" s.
Proof. induction s as [|c s IH]; [reflexivity|]. intros [Hc Hs]. cbn. destruct (is_ws c) eqn:E; [rewrite (Hc eq_refl); exact (IH Hs)|]. reflexivity. Qed.
Lemma trim_start_all P s : all P s -> all P (trim_start s).
Proof. induction s as [|c s IH]; [exact (fun H => H)|]. intros [Hc Hs]. cbn [trim_start]. destruct (is_ws c); [exact (IH Hs)|split; assumption]. Qed.
Lemma split_trim s : all (fun c => is_ws c = true -> sepb c = true) s -> split_by sepb "" (trim s) = split_by sepb "" s.
Proof. intros H. unfold trim. rewrite split_trim_end by (apply trim_start_all, H). apply split_trim_start, H. Qed.
(** The head of a line. *)
Lemma parted_head a ts s : parted sep (a :: ts) s -> exists w c x y, all sep w /\ ~ sep c /\ a = String c x /\ s = w ++ String c y.
Proof.
  inversion 1 as [|w t Hw [Ht1 Ht2]|w t b s' ts' Hw [Ht1 Ht2] Hb Hs]; subst.
  - destruct a as [|c x]; [contradiction Ht1; reflexivity|]. destruct Ht2 as [Hc _]. exists w, c, x, x. auto.
  - destruct a as [|c x]; [contradiction Ht1; reflexivity|]. destruct Ht2 as [Hc _]. exists w, c, x, (x ++ String b s'). auto.
Qed.
(** A property of the separators and of the words holds of the line. *)
Lemma parted_all (P : ascii -> Prop) ts s : parted sep ts s -> (forall c, sep c -> P c) -> (forall t, In t ts -> all P t) -> all P s.
Proof.
  intros H Hs. induction H as [w Hw|w t Hw _|w t b s ts Hw _ Hb _ IH]; intros Ht; rewrite ?all_app.
  - apply (all_imp sep); assumption.
  - split; [apply (all_imp sep); assumption|]. apply Ht. left. reflexivity.
  - split; [apply (all_imp sep); assumption|]. split; [apply Ht; left; reflexivity|]. split; [apply Hs, Hb|]. apply IH. intros t' H'. apply Ht. right. exact H'.
Qed.
End Sep.
Lemma split_spaced ts s : spaced ts s -> tokens s = ts.
Proof. apply split_parted, is_ws_blank. Qed.
Lemma tokens_trim s : tokens (trim s) = tokens s.
Proof. apply split_trim. induction s as [|c s IH]; [exact Logic.I|]. split; [exact (fun H => H)|exact IH]. Qed.
Lemma trim_start_blank w s : all blank w -> trim_start (w ++ s) = trim_start s.
Proof. induction w as [|c w IH]; intros H; [reflexivity|]. destruct H as [H1 H2]. cbn. apply is_ws_blank in H1. rewrite H1. apply IH, H2. Qed.
Lemma trim_end_head c s : is_ws c = false -> exists r, trim_end (String c s) = String c r.
Proof. intros H. cbn. destruct (trim_end s) as [|c' r]; [rewrite H|]; eauto. Qed.
Lemma trim_blank w : all blank w -> trim w = "".
Proof. intros H. unfold trim. rewrite <- (app_empty w), trim_start_blank by exact H. reflexivity. Qed.
(** A text with a character that is not blank is not empty once trimmed. *)
Lemma trim_end_keeps a c b : ~ blank c -> trim_end (a ++ String c b) <> "".
Proof.
  intros Hc. induction a as [|x a IH]; cbn [append trim_end].
  - destruct (trim_end b); [rewrite (not_blank _ Hc)|]; discriminate.
  - destruct (trim_end (a ++ String c b)); [contradiction IH; reflexivity|discriminate].
Qed.
Lemma trim_keeps a c b : ~ blank c -> trim (a ++ String c b) <> "".
Proof.
  intros Hc. unfold trim. induction a as [|x a IH].
  - cbn [append trim_start]. rewrite (not_blank _ Hc). apply (trim_end_keeps "" c b Hc).
  - cbn [append trim_start]. destruct (is_ws x); [exact IH|]. apply (trim_end_keeps (String x a) c b Hc).
Qed.

(** Numbers. *)
Lemma digit_of_digit d : 0 <= d < 10 -> digit_of (ascii_of_N (48 + Z.to_N d)) = Some d.
Proof. intros H. assert (d = 0 \/ d = 1 \/ d = 2 \/ d = 3 \/ d = 4 \/ d = 5 \/ d = 6 \/ d = 7 \/ d = 8 \/ d = 9) as E by lia. repeat destruct E as [->|E]; try subst d; reflexivity. Qed.
Lemma digits_bounds s v n : digits s v n -> 0 <= v < 10 ^ Z.of_nat n /\ (1 <= n)%nat.
Proof.
  induction 1 as [d Hd|s v n d _ IH Hd]; [change (10 ^ Z.of_nat 1) with 10; lia|]. rewrite Nat2Z.inj_succ, Z.pow_succ_r by lia. lia.
Qed.
Lemma digits_head s v n : digits s v n -> exists d x, 0 <= d < 10 /\ s = String (ascii_of_N (48 + Z.to_N d)) x.
Proof. induction 1 as [d Hd|s v n d _ IH Hd]; [eauto|]. destruct IH as (d' & x & Hd' & ->). exists d', (x ++ String (ascii_of_N (48 + Z.to_N d)) ""). split; [exact Hd'|reflexivity]. Qed.
Lemma head_not d c : 0 <= d < 10 -> digit_of c = None -> Ascii.eqb (ascii_of_N (48 + Z.to_N d)) c = false.
Proof. intros Hd Hc. destruct (Ascii.eqb_spec (ascii_of_N (48 + Z.to_N d)) c) as [<-|]; [|reflexivity]. rewrite digit_of_digit in Hc by exact Hd. discriminate Hc. Qed.
Lemma digit_not_blank d : 0 <= d < 10 -> ~ blank (ascii_of_N (48 + Z.to_N d)).
Proof. intros Hd H. unfold blank in H. assert (H' := digit_of_digit d Hd). repeat (destruct H as [H|H]; [rewrite <- H in H'; discriminate H'|]). contradiction H. Qed.
Lemma digits_all (P : ascii -> Prop) s v n : digits s v n -> (forall d, 0 <= d < 10 -> P (ascii_of_N (48 + Z.to_N d))) -> all P s.
Proof. intros H HP. induction H as [d Hd|s v n d _ IH Hd]; [split; [apply HP, Hd|exact Logic.I]|]. apply all_app. split; [exact IH|]. split; [apply HP, Hd|exact Logic.I]. Qed.
Lemma no_sign s v n r : digits s v n -> (match s ++ r with String c s' => if Ascii.eqb c "+" then s' else s ++ r | _ => s ++ r end) = s ++ r /\
  (forall A (x y : A), (match s ++ r with String c s' => if Ascii.eqb c "-" then (x, s') else if Ascii.eqb c "+" then (y, s') else (y, s ++ r) | _ => (y, s ++ r) end) = (y, s ++ r)) /\ s ++ r <> "".
Proof.
  intros H. destruct (digits_head s v n H) as (d & x & Hd & ->). cbn [append]. rewrite !head_not by (exact Hd || reflexivity). split; [reflexivity|]. split; [|discriminate].
  reflexivity.
Qed.
(** Reading digits when all intermediate values fit. *)
Lemma digits_more fits sign s v n : digits s v n -> forall acc r,
  (forall x, Z.abs acc <= Z.abs x <= Z.abs (acc * 10 ^ Z.of_nat n + sign * v) -> 0 <= sign * x -> fits x = true) ->
  (sign = 1 \/ sign = -1) -> 0 <= sign * acc ->
  parse_digits fits sign acc (s ++ r) = parse_digits fits sign (acc * 10 ^ Z.of_nat n + sign * v) r.
Proof.
  induction 1 as [d Hd|s v n d Hs IH Hd]; intros acc r Hf Hsg Ha.
  - cbn [append parse_digits]. rewrite (digit_of_digit d Hd). change (10 ^ Z.of_nat 1) with 10 in *. cbn [obind]. rewrite (Hf (acc * 10 + sign * d)); [reflexivity| |]; destruct Hsg; subst sign; nia.
  - destruct (digits_bounds _ _ _ Hs) as [Hv _]. rewrite Nat2Z.inj_succ, Z.pow_succ_r in * by lia.
    assert (0 <= sign * acc * 10 ^ Z.of_nat n) as Hp by (apply Z.mul_nonneg_nonneg; [exact Ha|apply Z.pow_nonneg; lia]).
    assert (0 < 10 ^ Z.of_nat n) as Hq by (apply Z.pow_pos_nonneg; lia).
    assert (acc * (10 * 10 ^ Z.of_nat n) = 10 * (acc * 10 ^ Z.of_nat n)) as Eq by ring. rewrite Eq in *.
    assert (Z.abs acc <= Z.abs (acc * 10 ^ Z.of_nat n)) as Hge by (rewrite Z.abs_mul, (Z.abs_eq (10 ^ _)) by lia; nia).
    assert (0 <= sign * (acc * 10 ^ Z.of_nat n)) as Hp' by (rewrite Z.mul_assoc; exact Hp). clear Hp.
    specialize (IH acc (String (ascii_of_N (48 + Z.to_N d)) "" ++ r)).
    set (q := acc * 10 ^ Z.of_nat n) in *. clearbody q.
    rewrite app_assoc_s, IH; [|intros x Hx Hsx; apply Hf; [|exact Hsx]; destruct Hsg; subst sign; lia|exact Hsg|exact Ha].
    cbn [append parse_digits]. rewrite (digit_of_digit d Hd). cbn [obind].
    replace ((q + sign * v) * 10 + sign * d) with (10 * q + sign * (10 * v + d)) by ring.
    rewrite Hf; [reflexivity| |]; destruct Hsg; subst sign; lia.
Qed.
Lemma parse_unsigned_natural bound s v : natural s v -> v < bound -> parse_unsigned bound s = Some v.
Proof.
  intros [n H] Hv. unfold parse_unsigned. destruct (no_sign s v n "" H) as (H1 & _ & H2). rewrite app_empty in H1, H2. rewrite H1. destruct s as [|c s]; [contradiction H2; reflexivity|].
  destruct (digits_bounds _ _ _ H) as [Hb _].
  rewrite <- (app_empty (String c s)), (digits_more _ 1 _ v n H); [cbn [parse_digits]; f_equal; lia| |left; reflexivity|lia].
  intros x Hx Hx'. apply Z.ltb_lt. lia.
Qed.
Lemma parse_usize_natural s v : natural s v -> v < 2 ^ 64 -> parse_usize s = Some v.
Proof. apply parse_unsigned_natural. Qed.
Lemma parse_u16_digits s v n : digits s v n -> v < 65536 -> parse_u16 s = Some v.
Proof. intros H. apply parse_unsigned_natural. exists n. exact H. Qed.
Lemma parse_isize_integer s v : integer s v -> in_isize v -> parse_isize s = Some v.
Proof.
  intros H Hv. unfold in_isize in Hv. unfold parse_isize.
  assert (forall s v sign, natural s v -> sign = 1 \/ sign = -1 -> IMIN <= sign * v <= IMAX ->
            match s with "" => None | _ => parse_digits (fun v => (IMIN <=? v) && (v <=? IMAX)) sign 0 s end = Some (sign * v)) as Hd.
  { clear. intros s v sign [n H] Hs Hv. destruct (no_sign s v n "" H) as (_ & _ & H2). rewrite app_empty in H2. destruct (digits_bounds _ _ _ H) as [Hb _].
    assert (parse_digits (fun v => (IMIN <=? v) && (v <=? IMAX)) sign 0 (s ++ "") = Some (sign * v)) as E.
    { rewrite (digits_more _ sign _ v n H); [reflexivity| |exact Hs|lia]. intros x Hx Hx'. rewrite Z.mul_0_l, Z.add_0_l in Hx. unfold IMIN, IMAX in *. apply andb_true_intro. rewrite !Z.leb_le. destruct Hs; subst sign; lia. }
    rewrite app_empty in E. destruct s; [contradiction H2; reflexivity|exact E]. }
  destruct H as [s v [n H]|s v H|s v H].
  - destruct (no_sign s v n "" H) as (_ & H1 & _). rewrite app_empty in H1. rewrite H1. cbv iota beta. replace (Some v) with (Some (1 * v)) by (f_equal; lia). apply Hd; [exists n; exact H|left; reflexivity|lia].
  - change (Ascii.eqb "-" "-") with true. cbv iota beta. replace (- v) with (-1 * v) by ring. apply Hd; [exact H|right; reflexivity|lia].
  - change (Ascii.eqb "+" "-") with false. change (Ascii.eqb "+" "+") with true. cbv iota beta. replace (Some v) with (Some (1 * v)) by (f_equal; lia). apply Hd; [exact H|left; reflexivity|lia].
Qed.
(** Numbers are words without blanks. *)
Lemma natural_chars (P : ascii -> Prop) s v : natural s v -> (forall d, 0 <= d < 10 -> P (ascii_of_N (48 + Z.to_N d))) -> all P s /\ s <> "".
Proof. intros [n H] HP. split; [apply (digits_all P s v n H HP)|]. destruct (digits_head s v n H) as (d & x & _ & ->). discriminate. Qed.
Lemma scan_more s v n : digits s v n -> forall acc k r, scan_digits acc k (s ++ r) = scan_digits (acc * 10 ^ Z.of_nat n + v) (k + n) r.
Proof.
  induction 1 as [d Hd|s v n d _ IH Hd]; intros acc k r.
  - cbn [append scan_digits]. rewrite (digit_of_digit d Hd). replace (acc * 10 ^ Z.of_nat 1 + d) with (acc * 10 + d) by (change (10 ^ Z.of_nat 1) with 10; lia). replace (k + 1)%nat with (S k) by lia. reflexivity.
  - rewrite app_assoc_s, IH. cbn [append scan_digits]. rewrite (digit_of_digit d Hd). rewrite Nat2Z.inj_succ, Z.pow_succ_r by lia. replace (k + S n)%nat with (S (k + n)) by lia. f_equal. ring.
Qed.
