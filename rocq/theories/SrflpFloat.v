(** Single-precision quotients of small integers: they are ordered as the fractions are. *)
From Verif Require Import Base Bits F32 F32Facts Srflp.
From Coq Require Import Lia ZArith Floats.SpecFloat.
Open Scope Z_scope.

Lemma shr_none p loc e : 2 ^ 23 <= Zpos p < 2 ^ 24 -> -149 <= e -> shr_fexp 24 128 (Zpos p) e loc = (shr_record_of_loc (Zpos p) loc, e).
Proof.
  intros Hp He. unfold shr_fexp. cbn [Zdigits2]. rewrite (digits_unique p 24) by (change (24 - 1) with 23; lia). rewrite fexp_big by lia. replace (24 + e - 24 - e) with 0 by lia. reflexivity.
Qed.
Lemma shr_one p loc e : 2 ^ 24 <= Zpos p < 2 ^ 25 -> -149 <= e -> shr_fexp 24 128 (Zpos p) e loc = (shr_1 (shr_record_of_loc (Zpos p) loc), e + 1).
Proof.
  intros Hp He. unfold shr_fexp. cbn [Zdigits2]. rewrite (digits_unique p 25) by (change (25 - 1) with 24; lia). rewrite fexp_big by lia. replace (25 + e - 24 - e) with 1 by lia. reflexivity.
Qed.
Lemma record_loc q loc : loc_of_shr_record (shr_record_of_loc q loc) = loc.
Proof. destruct loc as [|[]]; reflexivity. Qed.
Lemma record_m q loc : shr_m (shr_record_of_loc q loc) = q.
Proof. destruct loc as [|[]]; reflexivity. Qed.

(** The last step of the rounding. *)
Lemma finish N e : 2 ^ 23 <= N <= 2 ^ 24 -> -149 <= e <= 100 ->
  exists m dlt, (let '(mrs, e2) := shr_fexp 24 128 N e loc_Exact in
    match shr_m mrs with
    | Z0 => S754_zero false
    | Zpos m => if Zle_bool e2 (128 - 24) then finite m e2 else S754_infinity false
    | _ => S754_nan
    end) = finite m (e + dlt) /\ 2 ^ 23 <= Zpos m < 2 ^ 24 /\ (dlt = 0 \/ dlt = 1) /\ Zpos m * 2 ^ dlt = N.
Proof.
  intros HN He. destruct N as [|p|p]; [lia| |lia]. destruct (Z.eq_dec (Zpos p) (2 ^ 24)) as [E|E].
  - change (2 ^ 24) with (Zpos 16777216) in E. injection E as ->. rewrite shr_one by (cbn; lia). cbn [shr_record_of_loc shr_1 shr_m].
    exists 8388608%positive, 1. rewrite (proj2 (Z.leb_le _ _)) by lia. split; [reflexivity|]. split; [cbn; lia|]. split; [auto|]. reflexivity.
  - rewrite shr_none by lia. cbn [shr_record_of_loc shr_m]. exists p, 0. rewrite (proj2 (Z.leb_le _ _)) by lia. split; [f_equal; lia|]. split; [lia|]. split; [auto|]. lia.
Qed.

(** Rounding [A / m], given as quotient and remainder. *)
Lemma round_aux q e loc r m : 2 ^ 23 <= q < 2 ^ 25 -> 0 <= r < m -> loc_ok loc r m -> -100 <= e <= 0 ->
  exists f dlt, binary_round_aux 24 128 false q e loc = finite f (e + dlt) /\ 2 ^ 23 <= Zpos f < 2 ^ 24 /\ 0 <= dlt <= 2 /\
    Z.abs (2 * Zpos f * 2 ^ dlt * m - 2 * (q * m + r)) <= 2 ^ dlt * m.
Proof.
  intros Hq Hr Hl He. unfold binary_round_aux. destruct q as [|p|p]; [lia| |lia]. destruct (Z_lt_ge_dec (Zpos p) (2 ^ 24)) as [Hp|Hp].
  - rewrite shr_none by lia. rewrite record_loc, record_m. destruct (round_ok (Zpos p) loc r m Hl Hr) as [HN HE]. set (N := round_nearest_even (Z.pos p) loc) in *.
    destruct (finish N e ltac:(lia) ltac:(lia)) as (f & dlt & H1 & H2 & H3 & H4). exists f, dlt. split; [exact H1|]. split; [exact H2|]. split; [lia|].
    replace (2 * Z.pos f * 2 ^ dlt * m) with (2 * N * m) by (rewrite <- H4; ring). assert (1 <= 2 ^ dlt) by (destruct H3 as [-> | ->]; cbn; lia). nia.
  - rewrite shr_one by lia. destruct (shr_ok p loc r m Hl Hr) as (b & E & Hb & Hl'). set (rec := shr_1 (shr_record_of_loc (Z.pos p) loc)) in *.
    destruct (round_ok (shr_m rec) (loc_of_shr_record rec) (b * m + r) (2 * m) Hl' ltac:(nia)) as [HN HE]. set (N := round_nearest_even (shr_m rec) (loc_of_shr_record rec)) in *.
    assert (2 ^ 25 = 2 * 2 ^ 24) as E25 by reflexivity. assert (2 ^ 24 = 2 * 2 ^ 23) as E24 by reflexivity.
    destruct (finish N (e + 1) ltac:(lia) ltac:(lia)) as (f & dlt & H1 & H2 & H3 & H4). exists f, (1 + dlt). split; [rewrite H1; f_equal; lia|]. split; [exact H2|]. split; [lia|].
    rewrite Z.pow_add_r by lia. change (2 ^ 1) with 2.
    replace (2 * Z.pos f * (2 * 2 ^ dlt) * m) with (2 * N * (2 * m)) by (rewrite <- H4; ring).
    replace (2 * (shr_m rec * (2 * m) + (b * m + r))) with (2 * (Z.pos p * m + r)) in HE by (rewrite E; ring).
    assert (1 <= 2 ^ dlt) by (destruct H3 as [-> | ->]; cbn; lia). nia.
Qed.

(** Small integers are exact. *)
Lemma f32_of_spec x : 1 <= x < 2 ^ 24 -> exists d f, 1 <= d <= 24 /\ f32_of x = finite f (d - 24) /\ Zpos f = x * 2 ^ (24 - d) /\ 2 ^ 23 <= Zpos f < 2 ^ 24.
Proof.
  intros Hx. destruct x as [|p|p]; [lia| |lia]. unfold f32_of, binary_normalize, binary_round. set (d := Z.pos (digits2_pos p)).
  destruct (digits_spec p) as [H1 H2]. fold d in H1, H2. assert (1 <= d) by (unfold d; lia).
  assert (d <= 24) by (assert (d - 1 < 24); [apply (Z.pow_lt_mono_r_iff 2); lia|lia]).
  rewrite fexp_big by lia. rewrite Z.add_0_r. unfold shl_align. rewrite Z.sub_0_r.
  assert (2 ^ 23 <= Z.pos p * 2 ^ (24 - d) < 2 ^ 24) as Hm.
  { assert (0 < 2 ^ (24 - d)) by (apply Z.pow_pos_nonneg; lia).
    assert (2 ^ 23 = 2 ^ (d - 1) * 2 ^ (24 - d)) as Ea by (rewrite <- Z.pow_add_r by lia; f_equal; lia).
    assert (2 ^ 24 = 2 ^ d * 2 ^ (24 - d)) as Eb by (rewrite <- Z.pow_add_r by lia; f_equal; lia).
    rewrite Ea, Eb. nia. }
  assert (forall f, 2 ^ 23 <= Z.pos f < 2 ^ 24 -> -149 <= d - 24 -> binary_round_aux 24 128 false (Z.pos f) (d - 24) loc_Exact = finite f (d - 24)) as Haux.
  { intros f Hf He. unfold binary_round_aux. rewrite shr_none by assumption. cbn [shr_record_of_loc loc_of_shr_record shr_m round_nearest_even]. rewrite shr_none by assumption. cbn [shr_record_of_loc shr_m].
    rewrite (proj2 (Z.leb_le _ _)) by lia. reflexivity. }
  destruct (d - 24) as [|e|e] eqn:E; [|lia|].
  - exists d, p. split; [lia|]. assert (d = 24) as Hd by lia. rewrite Hd in *. change (2 ^ (24 - 24)) with 1 in *. rewrite E. rewrite Haux by lia. split; [reflexivity|]. lia.
  - assert (Z.pos (shift_pos e p) = Z.pos p * 2 ^ (24 - d)) as Es.
    { rewrite shift_pos_correct, Z.pow_pos_fold. replace (24 - d) with (Z.pos e) by lia. rewrite Z.mul_comm. reflexivity. }
    exists d, (shift_pos e p). split; [lia|]. rewrite E. rewrite Haux by lia. split; [reflexivity|]. split; [exact Es|]. lia.
Qed.

(** The quotient is rounded to nearest: its error is at most half a unit in the last place. *)
Lemma f32_div_spec c l : 1 <= c < 2 ^ 24 -> 1 <= l < 2 ^ 24 -> exists f e, f32_div (f32_of c) (f32_of l) = finite f e /\
  2 ^ 23 <= Zpos f < 2 ^ 24 /\ 0 <= e + 64 /\ Z.abs (2 * Zpos f * 2 ^ (e + 64) * l - 2 * (c * 2 ^ 64)) <= 2 ^ (e + 64) * l.
Proof.
  intros Hc Hl. destruct (f32_of_spec c Hc) as (d1 & m1 & Hd1 & -> & E1 & R1). destruct (f32_of_spec l Hl) as (d2 & m2 & Hd2 & -> & E2 & R2).
  unfold f32_div, SFdiv. cbn [xorb]. unfold SFdiv_core_binary. cbn [Zdigits2]. rewrite (digits_unique m1 24), (digits_unique m2 24) by (change (24 - 1) with 23; lia).
  replace (Z.min (fexp 24 128 (24 + (d1 - 24) - (24 + (d2 - 24)))) (d1 - 24 - (d2 - 24))) with (d1 - d2 - 24) by (unfold fexp, emin; lia).
  replace (d1 - 24 - (d2 - 24) - (d1 - d2 - 24)) with 24 by lia. rewrite Z.shiftl_mul_pow2 by lia.
  pose proof (Z_div_mod (Z.pos m1 * 2 ^ 24) (Z.pos m2) ltac:(lia)) as Hdm. destruct (Z.div_eucl (Z.pos m1 * 2 ^ 24) (Z.pos m2)) as [q r]. destruct Hdm as [Hdm Hr].
  assert (2 ^ 24 = 2 * 2 ^ 23) as E24 by reflexivity. assert (2 ^ 25 = 2 * 2 ^ 24) as E25 by reflexivity.
  assert (2 ^ 23 <= q < 2 ^ 25) as Hq.
  { split.
    - enough (~ q <= 2 ^ 23 - 1) by lia. intros Hn. assert (Z.pos m2 * q + r < Z.pos m2 * 2 ^ 23) by nia. nia.
    - enough (~ 2 ^ 25 <= q) by lia. intros Hn. assert (Z.pos m2 * 2 ^ 25 <= Z.pos m2 * q + r) by nia. nia. }
  destruct (round_aux q (d1 - d2 - 24) (new_location (Z.pos m2) r) r (Z.pos m2) Hq Hr (new_location_ok _ _ Hr) ltac:(lia)) as (f & dlt & H1 & H2 & H3 & H4).
  exists f, (d1 - d2 - 24 + dlt). split; [exact H1|]. split; [exact H2|]. split; [lia|].
  rewrite (Z.mul_comm q), <- Hdm in H4. rewrite E1, E2 in H4.
  assert (2 ^ (d1 - d2 - 24 + dlt + 64) = 2 ^ dlt * 2 ^ (24 - d2) * 2 ^ (16 + d1)) as Ee by (rewrite <- !Z.pow_add_r by lia; f_equal; lia).
  assert (2 ^ 64 = 2 ^ (24 - d1) * 2 ^ 24 * 2 ^ (16 + d1)) as E64 by (rewrite <- !Z.pow_add_r by lia; f_equal; lia).
  rewrite Ee, E64. set (w := 2 ^ (16 + d1)) in *. assert (0 < w) by (apply Z.pow_pos_nonneg; lia).
  replace (2 * Z.pos f * (2 ^ dlt * 2 ^ (24 - d2) * w) * l - 2 * (c * (2 ^ (24 - d1) * 2 ^ 24 * w))) with ((2 * Z.pos f * 2 ^ dlt * (l * 2 ^ (24 - d2)) - 2 * (c * 2 ^ (24 - d1) * 2 ^ 24)) * w) by ring.
  rewrite Z.abs_mul, (Z.abs_eq w) by lia. nia.
Qed.
Lemma f32_zero : f32_of 0 = S754_zero false.
Proof. reflexivity. Qed.
Lemma f32_div_zero l : 1 <= l < 2 ^ 24 -> f32_div (f32_of 0) (f32_of l) = S754_zero false.
Proof. intros Hl. destruct (f32_of_spec l Hl) as (d & m & _ & -> & _). reflexivity. Qed.

Lemma pos_bits e e' : 0 <= e -> e < e' -> 2 * 2 ^ e <= 2 ^ e'.
Proof. intros H1 H2. replace (2 * 2 ^ e) with (2 ^ (1 + e)) by (rewrite Z.pow_add_r by lia; reflexivity). apply Z.pow_le_mono_r; lia. Qed.

Theorem f32_order c1 l1 c2 l2 : 0 <= c1 < 2 ^ 24 -> 1 <= l1 < 2 ^ 24 -> 1 <= c2 < 2 ^ 24 -> 1 <= l2 < 2 ^ 24 -> c2 * l1 < 2 ^ 23 -> c1 * l2 < c2 * l1 ->
  f32_cmp (f32_div (f32_of c1) (f32_of l1)) (f32_div (f32_of c2) (f32_of l2)) = Lt /\
  f32_cmp (f32_div (f32_of c2) (f32_of l2)) (f32_div (f32_of c1) (f32_of l1)) = Gt.
Proof.
  intros Hc1 Hl1 Hc2 Hl2 Hs Hlt. destruct (f32_div_spec c2 l2 Hc2 Hl2) as (f2 & e2 & -> & R2 & P2 & B2).
  destruct (Z.eq_dec c1 0) as [->|Hne]; [rewrite f32_div_zero by exact Hl1; split; reflexivity|].
  destruct (f32_div_spec c1 l1 ltac:(lia) Hl1) as (f1 & e1 & -> & R1 & P1 & B1).
  set (w1 := 2 ^ (e1 + 64)) in *. set (w2 := 2 ^ (e2 + 64)) in *. set (K := 2 ^ 64) in *.
  assert (0 < w1) as Hw1 by (apply Z.pow_pos_nonneg; lia). assert (0 < w2) as Hw2 by (apply Z.pow_pos_nonneg; lia).
  assert (2 ^ 24 = 2 * 2 ^ 23) as E24 by reflexivity. set (h := 2 ^ 23) in *. assert (0 < h) as Hh by (unfold h; lia).
  assert (0 < K) as HK by (unfold K; lia).
  (* values: [f1 * w1] and [f2 * w2] over [K] *)
  assert (Z.pos f1 * w1 < Z.pos f2 * w2) as Hval.
  { (* units in the last place are small *)
    assert ((2 * h - 1) * (w1 * l1) <= 2 * (c1 * K)) as U1 by nia.
    assert ((2 * h - 1) * (w2 * l2) <= 2 * (c2 * K)) as U2 by nia.
    assert ((2 * Z.pos f1 - 1) * w1 * l1 <= 2 * (c1 * K)) as V1 by nia.
    assert (2 * (c2 * K) <= (2 * Z.pos f2 + 1) * w2 * l2) as V2 by nia.
    clear B1 B2.
    enough (0 < 2 * (Z.pos f2 * w2 - Z.pos f1 * w1) * (l1 * l2) * (2 * h - 1)) as Hpos by (assert (0 < l1 * l2) by nia; assert (0 < (l1 * l2) * (2 * h - 1)) by nia; nia).
    set (D := 2 * h - 1) in *. assert (0 < D) by lia.
    assert (2 * Z.pos f1 * w1 * l1 * D <= 2 * (c1 * K) * D + 2 * (c1 * K)) as W1 by nia.
    assert (2 * (c2 * K) * D - 2 * (c2 * K) <= 2 * Z.pos f2 * w2 * l2 * D) as W2 by nia.
    assert (2 * Z.pos f1 * w1 * l1 * D * l2 <= (2 * (c1 * K) * D + 2 * (c1 * K)) * l2) as X1 by nia.
    assert ((2 * (c2 * K) * D - 2 * (c2 * K)) * l1 <= 2 * Z.pos f2 * w2 * l2 * D * l1) as X2 by nia.
    assert ((2 * (c1 * K) * D + 2 * (c1 * K)) * l2 < (2 * (c2 * K) * D - 2 * (c2 * K)) * l1); [|nia].
    assert (c1 * l2 * (D + 1) < c2 * l1 * (D - 1)); [|nia]. nia. }
  unfold f32_cmp, SFcompare.
  assert (e1 <= e2) as Hle.
  { enough (~ e2 < e1) by lia. intros Hn. pose proof (pos_bits (e2 + 64) (e1 + 64) P2 ltac:(lia)) as Hp. fold w1 w2 in Hp. nia. }
  destruct (Z.compare_spec e1 e2) as [E|E|E]; [|rewrite (proj2 (Z.compare_gt_iff e2 e1) E); split; reflexivity|lia].
  subst e2. rewrite Z.compare_refl. fold w1 in w2. subst w2. assert (Z.pos f1 < Z.pos f2) as Hf by nia.
  split; [apply Pos.compare_lt_iff; exact Hf|apply Pos.compare_gt_iff; exact Hf].
Qed.
