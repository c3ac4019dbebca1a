(** The reading of TSPTW files: times. Nothing here models code of /repo. *)
From Verif Require Import Base F32 F32Facts GapFacts TsptwFile TsptwFileSpec TextFacts TsptwFileFacts.
From Coq Require Import Lia ZArith List.
Import ListNotations.
Open Scope string_scope.
Open Scope Z_scope.

Lemma to_usize_floor f E : -200 <= E -> f32_to_usize (finite f E) = Z.min (Zpos f * U E / U 0) (2 ^ 64 - 1).
Proof.
  intros HE. unfold f32_to_usize. f_equal. destruct (Z_lt_ge_dec E 0).
  - rewrite <- (Z.opp_involutive E) at 1. rewrite Z.shiftl_opp_r, Z.shiftr_div_pow2 by lia. replace (U 0) with (U E * 2 ^ (- E)) by (rewrite <- U_add by lia; f_equal; lia).
    rewrite (Z.mul_comm (Z.pos f)), Z.div_mul_cancel_l; [reflexivity| |].
    + pose proof (F32Facts.pow_pos (- E) ltac:(lia)). lia.
    + pose proof (U_pos E HE). lia.
  - rewrite Z.shiftl_mul_pow2 by lia. replace (U E) with (2 ^ E * U 0) by (replace E with (0 + E) at 2 by lia; rewrite U_add by lia; ring).
    rewrite Z.mul_assoc, Z.div_mul; [reflexivity|]. pose proof (U_pos 0 ltac:(lia)). lia.
Qed.
Definition V (f : positive) (E : Z) : Z := Zpos f * U E.
Lemma time_rounds p q : 0 < p < 2 ^ 90 -> 0 < q < 2 ^ 90 -> exists f1 E1 f E, rounds f1 E1 (p * U 0) q /\ rounds f E (10000 * V f1 E1) 1 /\
  f32_ratio p q = finite f1 E1 /\ f32_mul (finite f1 E1) (f32_of 10000) = finite f E /\ to_time (f32_ratio p q) = Z.min (V f E / U 0) (2 ^ 64 - 1).
Proof.
  intros Hp Hq. destruct (f32_ratio_rounds p q Hp Hq) as (f1 & E1 & H1 & R1 & B1).
  destruct (f32_mul_rounds f1 E1 10240000 (-10) (rd_f _ _ _ _ R1) ltac:(lia) ltac:(lia)) as (f & E & H2 & R2 & B2). exists f1, E1, f, E.
  assert (f32_of 10000 = finite 10240000 (-10)) as E0 by (vm_compute; reflexivity). rewrite E0. split; [exact R1|]. split.
  - replace (10000 * V f1 E1) with (Z.pos f1 * 10240000 * U (E1 + -10)); [exact R2|]. unfold V. replace (U E1) with (U (E1 + -10) * 2 ^ 10); [change (2 ^ 10) with 1024; ring|]. rewrite <- U_add by lia. f_equal. lia.
  - split; [exact H1|]. split; [exact H2|]. unfold to_time. rewrite H1, E0, H2. apply to_usize_floor. apply (rd_E _ _ _ _ R2).
Qed.
Lemma time_zero q : to_time (f32_ratio 0 q) = 0.
Proof. reflexivity. Qed.

(** Multiples of 1/16 are read as they are, if they fit in 24 bits. *)
Lemma time_exact p q j s : 0 <= j <= 26843 -> 0 <= s <= 10 -> 0 < q < 2 ^ 90 -> 0 <= p < 2 ^ 90 -> 625 * j * 2 ^ s * q = 10000 * p -> to_time (f32_ratio p q) = 625 * j * 2 ^ s.
Proof.
  intros Hj Hs Hq Hp H. destruct (Z.eq_dec p 0) as [->|Hne].
  - rewrite time_zero. pose proof (F32Facts.pow_pos s ltac:(lia)). nia.
  - destruct (time_rounds p q ltac:(lia) Hq) as (f1 & E1 & f & E & R1 & R2 & _ & _ & ->).
    assert (V f1 E1 = j * U (s - 4)) as E'.
    { apply (rounds_exact f1 E1 (p * U 0) q); [lia|exact R1|lia|lia|]. assert (U 0 * 2 ^ s = 16 * U (s - 4)) as Eu by (rewrite <- U_add by lia; replace (0 + s) with (s - 4 + 4) by lia; rewrite (U_add (s - 4)) by lia; ring).
      assert (j * 2 ^ s * q = 16 * p) by lia. assert (16 * (p * U 0) = 16 * (j * U (s - 4) * q)); [|lia].
      transitivity (16 * p * U 0); [ring|]. rewrite <- H0. transitivity (j * q * (U 0 * 2 ^ s)); [ring|]. rewrite Eu. ring. }
    assert (V f E = 625 * j * U s) as ->.
    { apply (rounds_exact f E _ 1 _ s ltac:(lia) R2); [lia|lia|]. rewrite E'. replace s with (s - 4 + 4) at 2 by lia. rewrite U_add by lia. change (2 ^ 4) with 16. ring. }
    replace (U s) with (2 ^ s * U 0) by (replace s with (0 + s) at 2 by lia; rewrite U_add by lia; ring). rewrite Z.mul_assoc, Z.div_mul by (pose proof (U_pos 0 ltac:(lia)); lia).
    assert (2 ^ s <= 2 ^ 10) by (apply Z.pow_le_mono_r; lia). apply Z.min_l. change (2 ^ 10) with 1024 in *. change (2 ^ 64 - 1) with 18446744073709551615. nia.
Qed.

Lemma time_near p q x : 0 < q < 2 ^ 90 -> 0 <= p < 2 ^ 90 -> x * q = 10000 * p -> x < 2 ^ 24 -> Z.abs (to_time (f32_ratio p q) - x) <= 1.
Proof.
  intros Hq Hp Hx Hb. destruct (Z.eq_dec p 0) as [->|Hne]; [rewrite time_zero; assert (x = 0) by nia; subst; cbn; lia|].
  destruct (time_rounds p q ltac:(lia) Hq) as (f1 & E1 & f & E & R1 & R2 & _ & _ & ->).
  pose proof (rel_err f1 E1 _ q ltac:(lia) R1) as e1. fold (V f1 E1) in e1. set (v := V f1 E1) in *. set (o := U 0) in *. assert (0 < o) as Po by (apply U_pos; lia).
  assert (0 < x) as Px by nia. set (Y := 10000 * v) in *. set (W := 2 ^ 24) in *. assert (W = 16777216) as EW by reflexivity.
  assert (W * Z.abs (Y - x * o) <= Y) as Hy.
  { assert (W * Z.abs (Y - x * o) * q <= Y * q); [|nia]. replace (W * Z.abs (Y - x * o) * q) with (10000 * (W * Z.abs (v * q - p * o))); [unfold Y; nia|].
    assert (Z.abs (Y - x * o) * q = 10000 * Z.abs (v * q - p * o)) as Ea; [|nia]. rewrite <- (Z.abs_eq q) at 1 by lia. rewrite <- Z.abs_mul. replace ((Y - x * o) * q) with (10000 * (v * q - p * o)) by (unfold Y; nia). rewrite Z.abs_mul. reflexivity. }
  destruct R2 as [Rf RE Rh Rn]. rewrite !Z.mul_1_r in Rh. fold (V f E) in *. pose proof (Rn x 0 ltac:(lia) ltac:(lia)) as N1. pose proof (Rn W 0 ltac:(lia) ltac:(lia)) as N2. rewrite !Z.mul_1_r in N1, N2. fold o in N1, N2. fold (V f E) in N1, N2.
  replace (2 * Z.pos f * U E) with (2 * V f E) in Rh by (unfold V; ring). pose proof (U_pos E RE) as PE.
  set (X := x * o) in *. assert (X <= W * o - o) as HX by (unfold X; nia). assert (Y <= W * o) as HY by lia.
  assert ((x - 1) * o <= V f E < (x + 2) * o) as [B1 B2].
  { replace ((x - 1) * o) with (X - o) by (unfold X; ring). replace ((x + 2) * o) with (X + 2 * o) by (unfold X; ring).
    assert (E <= -1 \/ E = 0 \/ 1 <= E) as [Hc|[Hc|Hc]] by lia.
    - assert (2 * U E <= o) as Hu. { unfold o. replace 0 with (E + (1 + (- E - 1))) by lia. rewrite U_add, Z.pow_add_r by lia. pose proof (F32Facts.pow_pos (- E - 1) ltac:(lia)). nia. }
      assert (V f E < 2 ^ 23 * o) by (unfold V; change (2 ^ 24) with (2 ^ 23 * 2) in *; nia). change (2 ^ 23) with 8388608 in *. lia.
    - subst E. fold o in Rh. assert (V f 0 = Z.pos f * o) as Ev by reflexivity. assert (2 * X - 3 * o <= 2 * V f 0 <= 2 * X + 3 * o) as [b1 b2] by lia. split; [|lia].
      rewrite Ev in *. unfold X in *. assert (2 * x - 3 <= 2 * Z.pos f) by nia. nia.
    - assert (W * o <= V f E). { unfold V. assert (2 * o <= U E). { unfold o. replace E with (0 + (1 + (E - 1))) by lia. rewrite U_add, Z.pow_add_r by lia. pose proof (F32Facts.pow_pos (E - 1) ltac:(lia)). pose proof (U_pos 0 ltac:(lia)). nia. } change (2 ^ 23) with 8388608 in Rf. nia. }
      split; [lia|]. lia. }
  assert (x - 1 <= V f E / o < x + 2) as [C1 C2].
  { split; [apply Z.div_le_lower_bound; [lia|]; rewrite Z.mul_comm; lia|]. apply Z.div_lt_upper_bound; [lia|]. rewrite Z.mul_comm. exact B2. }
  rewrite Z.min_l; [lia|]. change (2 ^ 64 - 1) with 18446744073709551615. lia.
Qed.

(** Reading keeps the order. *)
Lemma V_inj f1 E1 f2 E2 : 2 ^ 23 <= Zpos f1 < 2 ^ 24 -> 2 ^ 23 <= Zpos f2 < 2 ^ 24 -> -200 <= E1 -> -200 <= E2 -> V f1 E1 = V f2 E2 -> f1 = f2 /\ E1 = E2.
Proof.
  assert (forall f1 E1 f2 E2, 2 ^ 23 <= Zpos f1 < 2 ^ 24 -> 2 ^ 23 <= Zpos f2 < 2 ^ 24 -> -200 <= E1 -> E1 < E2 -> V f1 E1 < V f2 E2) as Hlt.
  { intros f E g F H1 H2 HE HF. unfold V. replace F with (E + (1 + (F - E - 1))) by lia. rewrite U_add, Z.pow_add_r by lia. pose proof (F32Facts.pow_pos (F - E - 1) ltac:(lia)). pose proof (U_pos E HE).
    change (2 ^ 24) with (2 ^ 23 * 2) in *. assert (U E * (2 ^ 1 * 1) <= U E * (2 ^ 1 * 2 ^ (F - E - 1))) by nia. change (2 ^ 1) with 2 in *. nia. }
  intros H1 H2 HE HF H. assert (E1 = E2) as ->.
  { destruct (Z.lt_trichotomy E1 E2) as [L|[L|L]]; [|exact L|]; [pose proof (Hlt f1 E1 f2 E2 H1 H2 HE L)|pose proof (Hlt f2 E2 f1 E1 H2 H1 HF L)]; lia. }
  split; [|reflexivity]. unfold V in H. pose proof (U_pos E2 HF). assert (Z.pos f1 = Z.pos f2) by nia. congruence.
Qed.
Lemma time_order p q p' q' : 0 < q < 2 ^ 90 -> 0 <= p < 2 ^ 90 -> 0 < q' < 2 ^ 90 -> 0 <= p' < 2 ^ 90 -> p * q' < p' * q -> to_time (f32_ratio p q) <= to_time (f32_ratio p' q').
Proof.
  intros Hq Hp Hq' Hp' H. destruct (time_rounds p' q' ltac:(nia) Hq') as (g1 & F1 & g & F & S1 & S2 & S3 & S4 & ->).
  pose proof (U_pos 0 ltac:(lia)) as P0. assert (0 <= V g F) as Pg by (unfold V; pose proof (U_pos F (rd_E _ _ _ _ S2)); nia).
  destruct (Z.eq_dec p 0) as [->|Hne]; [rewrite time_zero; apply Z.min_glb; [apply Z.div_pos; lia|vm_compute; discriminate]|].
  destruct (time_rounds p q ltac:(lia) Hq) as (f1 & E1 & f & E & R1 & R2 & R3 & R4 & ->). enough (V f E <= V g F) by (apply Z.min_le_compat_r, Z.div_le_mono; lia).
  assert (V f1 E1 <= V g1 F1) as Hle by (apply (rounds_mono f1 E1 (p * U 0) q g1 F1 (p' * U 0) q'); [lia|lia|exact R1|exact S1|]; nia).
  destruct (Z.eq_dec (V f1 E1) (V g1 F1)) as [Heq|Hlt].
  - destruct (V_inj f1 E1 g1 F1 (rd_f _ _ _ _ R1) (rd_f _ _ _ _ S1) (rd_E _ _ _ _ R1) (rd_E _ _ _ _ S1) Heq) as [-> ->]. rewrite S4 in R4. injection R4 as -> ->. lia.
  - apply (rounds_mono f E (10000 * V f1 E1) 1 g F (10000 * V g1 F1) 1); [lia|lia|exact R2|exact S2|]. lia.
Qed.

(** The same, of the words of a file. *)
Lemma ten_bound k : (k <= 20)%nat -> 0 < 10 ^ Z.of_nat k < 2 ^ 67.
Proof. intros H. split; [apply Z.pow_pos_nonneg; lia|]. assert (10 ^ Z.of_nat k <= 10 ^ 20) by (apply Z.pow_le_mono_r; lia). assert (10 ^ 20 < 2 ^ 67) by reflexivity. lia. Qed.
Lemma read_denotes t x : denotes t x -> 0 <= x /\ (x < 2 ^ 35 -> exists p q, read_time t = Some (to_time (f32_ratio p q)) /\ 0 <= p < 2 ^ 90 /\ 0 < q < 2 ^ 90 /\ x * q = 10000 * p).
Proof.
  intros (p & k & Hk & Hd & Hx). destruct (parse_decimal t p k Hd) as [E Hp]. pose proof (ten_bound k Hk) as Hq. split; [nia|]. intros Hb. exists p, (10 ^ Z.of_nat k).
  split; [unfold read_time; rewrite E; reflexivity|]. assert (2 ^ 67 < 2 ^ 90) by reflexivity. split; [|split; [lia|exact Hx]]. split; [exact Hp|].
  set (q := 10 ^ Z.of_nat k) in *. assert (x * q <= 2 ^ 35 * 2 ^ 67) by (apply Z.mul_le_mono_nonneg; nia). assert (2 ^ 35 * 2 ^ 67 < 10000 * 2 ^ 90) by reflexivity. lia.
Qed.
Lemma read_exact t x : denotes t x -> (exists j s, 0 <= j <= 26843 /\ 0 <= s <= 10 /\ x = 625 * j * 2 ^ s) -> read_time t = Some x.
Proof.
  intros H (j & s & Hj & Hs & ->). assert (2 ^ s <= 2 ^ 10) by (apply Z.pow_le_mono_r; lia). pose proof (F32Facts.pow_pos s ltac:(lia)). change (2 ^ 10) with 1024 in *.
  destruct (read_denotes _ _ H) as [_ Hr]. destruct Hr as (p & q & -> & Hp & Hq & E); [change (2 ^ 35) with 34359738368; nia|]. f_equal. apply time_exact; assumption.
Qed.
Lemma read_near t x : denotes t x -> x < 2 ^ 24 -> exists y, read_time t = Some y /\ 0 <= y /\ Z.abs (y - x) <= 1.
Proof.
  intros H Hx. destruct (read_denotes _ _ H) as [_ Hr]. destruct Hr as (p & q & -> & Hp & Hq & E); [change (2 ^ 35) with 34359738368; change (2 ^ 24) with 16777216 in Hx; lia|].
  eexists. split; [reflexivity|]. split; [|apply (time_near p q x); [exact Hq|exact Hp|exact E|exact Hx]].
  destruct (Z.eq_dec p 0) as [->|Hne]; [rewrite time_zero; lia|]. destruct (time_rounds p q ltac:(lia) Hq) as (f1 & E1 & f & E' & _ & R2 & _ & _ & ->). apply Z.min_glb; [|vm_compute; discriminate].
  pose proof (U_pos 0 ltac:(lia)). pose proof (U_pos E' (rd_E _ _ _ _ R2)). apply Z.div_pos; [unfold V; nia|lia].
Qed.
Lemma read_order t x t' x' y y' : denotes t x -> denotes t' x' -> x < x' -> x' < 2 ^ 35 -> read_time t = Some y -> read_time t' = Some y' -> y <= y'.
Proof.
  intros H H' Hlt Hb Ey Ey'. destruct (read_denotes _ _ H) as [_ Hr]. destruct (read_denotes _ _ H') as [_ Hr']. destruct (Hr ltac:(lia)) as (p & q & E & Hp & Hq & Hx). destruct (Hr' Hb) as (p' & q' & E' & Hp' & Hq' & Hx').
  rewrite E in Ey. rewrite E' in Ey'. injection Ey as <-. injection Ey' as <-. apply time_order; try assumption. assert (x * (q * q') < x' * (q * q')) as Hl by (apply Z.mul_lt_mono_pos_r; nia).
  replace (x * (q * q')) with (10000 * (p * q')) in Hl by (transitivity (x * q * q'); [rewrite Hx|]; ring). replace (x' * (q * q')) with (10000 * (p' * q)) in Hl by (transitivity (x' * q' * q); [rewrite Hx'|]; ring). lia.
Qed.
