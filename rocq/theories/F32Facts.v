(** Rounding to nearest. Nothing here models code of /repo. *)
From Verif Require Import Base F32.
From Coq Require Import Lia ZArith.
Open Scope Z_scope.

Lemma digits_spec p : 2 ^ (Zpos (digits2_pos p) - 1) <= Zpos p < 2 ^ Zpos (digits2_pos p).
Proof.
  induction p as [p IH|p IH|]; cbn [digits2_pos]; [| |cbn; lia].
  - rewrite Pos2Z.inj_succ, <- Z.add_1_r. replace (Z.pos (digits2_pos p) + 1 - 1) with (Z.pos (digits2_pos p) - 1 + 1) by lia.
    rewrite !Z.pow_add_r by lia. change (2 ^ 1) with 2. lia.
  - rewrite Pos2Z.inj_succ, <- Z.add_1_r. replace (Z.pos (digits2_pos p) + 1 - 1) with (Z.pos (digits2_pos p) - 1 + 1) by lia.
    rewrite !Z.pow_add_r by lia. change (2 ^ 1) with 2. lia.
Qed.
Lemma digits_unique p d : 0 < d -> 2 ^ (d - 1) <= Zpos p < 2 ^ d -> Zpos (digits2_pos p) = d.
Proof.
  intros Hd [H1 H2]. destruct (digits_spec p) as [H3 H4]. set (e := Z.pos (digits2_pos p)) in *.
  assert (d - 1 < e) by (apply (Z.pow_lt_mono_r_iff 2); lia). assert (e - 1 < d) by (apply (Z.pow_lt_mono_r_iff 2); lia). lia.
Qed.

(** Where a remainder lies. *)
Definition loc_ok (loc : location) (r m : Z) : Prop :=
  match loc with
  | loc_Exact => r = 0
  | loc_Inexact Lt => 0 < r /\ 2 * r < m
  | loc_Inexact Eq => 0 < r /\ 2 * r = m
  | loc_Inexact Gt => m < 2 * r
  end.
Lemma new_location_ok m r : 0 <= r < m -> loc_ok (new_location m r) r m.
Proof.
  intros H. unfold new_location, new_location_even, new_location_odd.
  destruct (Z.even m) eqn:E; destruct (Zeq_bool r 0) eqn:Er; cbn [loc_ok]; try (apply Zeq_bool_eq; exact Er); apply Zeq_bool_neq in Er.
  - destruct (Z.compare_spec (2 * r) m); cbn [loc_ok]; lia.
  - assert (Z.odd m = true) as Ho by (rewrite <- Z.negb_even, E; reflexivity). apply Z.odd_spec in Ho. destruct Ho as (h & ->).
    destruct (Z.compare_spec (2 * r + 1) (2 * h + 1)); cbn [loc_ok]; lia.
Qed.
Lemma round_ok q loc r m : loc_ok loc r m -> 0 <= r < m ->
  let N := round_nearest_even q loc in q <= N <= q + 1 /\ Z.abs (2 * N * m - 2 * (q * m + r)) <= m.
Proof.
  intros Hl Hr. cbn zeta. destruct loc as [|[]]; cbn [loc_ok round_nearest_even] in *; try (destruct (Z.even q)); split; nia.
Qed.
Lemma shr_ok p loc r m : loc_ok loc r m -> 0 <= r < m ->
  let rec := shr_1 (shr_record_of_loc (Zpos p) loc) in
  exists b, Zpos p = 2 * shr_m rec + b /\ (b = 0 \/ b = 1) /\ loc_ok (loc_of_shr_record rec) (b * m + r) (2 * m).
Proof.
  intros Hl Hr. cbn zeta. destruct p as [p|p|].
  - exists 1. destruct loc as [|[]]; cbn [loc_ok shr_record_of_loc shr_1 shr_m loc_of_shr_record orb] in *; (split; [lia|]); (split; [auto|]); lia.
  - exists 0. destruct loc as [|[]]; cbn [loc_ok shr_record_of_loc shr_1 shr_m loc_of_shr_record orb] in *; (split; [lia|]); (split; [auto|]); lia.
  - exists 1. destruct loc as [|[]]; cbn [loc_ok shr_record_of_loc shr_1 shr_m loc_of_shr_record orb] in *; (split; [lia|]); (split; [auto|]); lia.
Qed.

Notation finite := (S754_finite false).
Lemma fexp_big d e : -149 <= d + e - 24 -> fexp 24 128 (d + e) = d + e - 24.
Proof. intros H. unfold fexp, emin. lia. Qed.

(** What a record of a right shift says about the number shifted, [A / m]. *)
Definition rec_ok (rc : shr_record) (A m : Z) : Prop :=
  0 <= shr_m rc /\ exists r, A = shr_m rc * m + r /\ 0 <= r < m /\ loc_ok (loc_of_shr_record rc) r m.
Lemma rec_start q loc r m : 0 <= q -> 0 <= r < m -> loc_ok loc r m -> rec_ok (shr_record_of_loc q loc) (q * m + r) m.
Proof. intros Hq Hr Hl. split; [destruct loc as [|[]]; exact Hq|]. exists r. destruct loc as [|[]]; auto. Qed.
Lemma rec_step rc A m : rec_ok rc A m -> rec_ok (shr_1 rc) A (m * 2).
Proof.
  intros (Hm & r & -> & Hr & Hl). destruct rc as [q b s]. cbn [shr_m] in *. destruct q as [|p|p]; [| |lia].
  - cbn [shr_1]. split; [cbn; lia|]. exists r. destruct b, s; cbn [shr_m orb loc_of_shr_record loc_ok] in *; repeat split; lia.
  - destruct p as [p|p|]; cbn [shr_1]; (split; [cbn; lia|]); cbn [shr_m].
    + exists (m + r). destruct b, s; cbn [orb loc_of_shr_record loc_ok] in *; repeat split; lia.
    + exists r. destruct b, s; cbn [orb loc_of_shr_record loc_ok] in *; repeat split; lia.
    + exists (m + r). destruct b, s; cbn [orb loc_of_shr_record loc_ok] in *; repeat split; lia.
Qed.
Lemma rec_iter A p : forall rc m, rec_ok rc A m -> rec_ok (SpecFloat.iter_pos shr_1 p rc) A (m * 2 ^ Zpos p).
Proof.
  induction p as [p IH|p IH|]; intros rc m H; cbn [SpecFloat.iter_pos].
  - replace (m * 2 ^ Z.pos p~1) with (m * 2 * 2 ^ Z.pos p * 2 ^ Z.pos p); [apply IH, IH, rec_step, H|].
    rewrite (Pos2Z.inj_xI p). replace (2 * Z.pos p + 1) with (1 + Z.pos p + Z.pos p) by lia. rewrite !Z.pow_add_r by lia. change (2 ^ 1) with 2. ring.
  - replace (m * 2 ^ Z.pos p~0) with (m * 2 ^ Z.pos p * 2 ^ Z.pos p); [apply IH, IH, H|].
    rewrite (Pos2Z.inj_xO p). replace (2 * Z.pos p) with (Z.pos p + Z.pos p) by lia. rewrite !Z.pow_add_r by lia. ring.
  - change (2 ^ 1) with 2. apply rec_step, H.
Qed.
Lemma rec_shr rc A m e n : 0 <= n -> rec_ok rc A m -> exists rc', shr rc e n = (rc', e + n) /\ rec_ok rc' A (m * 2 ^ n).
Proof.
  intros Hn H. destruct n as [|p|p]; [| |lia]; cbn [shr].
  - exists rc. rewrite Z.add_0_r. change (2 ^ 0) with 1. rewrite Z.mul_1_r. auto.
  - exists (SpecFloat.iter_pos shr_1 p rc). split; [reflexivity|]. apply rec_iter, H.
Qed.
Lemma rec_round rc A m : rec_ok rc A m -> 0 < m -> exists N, N = round_nearest_even (shr_m rc) (loc_of_shr_record rc) /\ shr_m rc <= N <= shr_m rc + 1 /\
  shr_m rc * m <= A < shr_m rc * m + m /\ Z.abs (2 * N * m - 2 * A) <= m.
Proof.
  intros (Hm & r & -> & Hr & Hl) Hp. destruct (round_ok (shr_m rc) (loc_of_shr_record rc) r m Hl Hr) as [H1 H2]. eexists. split; [reflexivity|]. split; [exact H1|]. split; [nia|exact H2].
Qed.

Lemma digits_range q : 0 < q -> 0 < Zdigits2 q /\ 2 ^ (Zdigits2 q - 1) <= q < 2 ^ Zdigits2 q.
Proof. intros H. destruct q as [|p|p]; [lia| |lia]. cbn [Zdigits2]. split; [lia|]. apply digits_spec. Qed.
Lemma digits_eq q d : 0 < d -> 2 ^ (d - 1) <= q < 2 ^ d -> Zdigits2 q = d.
Proof. intros Hd H. destruct q as [|p|p]; [assert (0 < 2 ^ (d - 1)) by (apply Z.pow_pos_nonneg; lia); lia| |assert (0 < 2 ^ (d - 1)) by (apply Z.pow_pos_nonneg; lia); lia]. cbn [Zdigits2]. apply digits_unique; assumption. Qed.

(** The last step of the rounding. *)
Lemma finish_round N e : 2 ^ 23 <= N <= 2 ^ 24 -> -149 <= e <= 100 ->
  exists m dlt, (let '(mrs, e2) := shr_fexp 24 128 N e loc_Exact in
    match shr_m mrs with
    | Z0 => S754_zero false
    | Zpos m => if Zle_bool e2 (128 - 24) then finite m e2 else S754_infinity false
    | _ => S754_nan
    end) = finite m (e + dlt) /\ 2 ^ 23 <= Zpos m < 2 ^ 24 /\ (dlt = 0 \/ dlt = 1) /\ Zpos m * 2 ^ dlt = N.
Proof.
  intros HN He. unfold shr_fexp. destruct (Z.eq_dec N (2 ^ 24)) as [->|E].
  - replace (Zdigits2 (2 ^ 24)) with 25 by reflexivity. rewrite fexp_big by lia. replace (25 + e - 24 - e) with 1 by lia. cbn.
    exists 8388608%positive, 1. rewrite (proj2 (Z.leb_le _ _)) by lia. split; [reflexivity|]. split; [lia|]. split; [auto|]. reflexivity.
  - rewrite (digits_eq N 24) by (change (24 - 1) with 23; lia). rewrite fexp_big by lia. replace (24 + e - 24 - e) with 0 by lia. cbn [shr shr_record_of_loc shr_m].
    destruct N as [|p|p]; [lia| |lia]. exists p, 0. rewrite (proj2 (Z.leb_le _ _)) by lia. split; [f_equal; lia|]. split; [lia|]. split; [auto|]. lia.
Qed.

(** Rounding [(q + r / m) * 2 ^ e]; [k] bits are dropped. *)
Lemma round_pos q e loc r m k : 0 <= k -> 2 ^ (k + 23) <= q < 2 ^ (k + 24) -> 0 <= r < m -> loc_ok loc r m -> -149 <= e + k <= 100 ->
  exists f dlt, binary_round_aux 24 128 false q e loc = finite f (e + k + dlt) /\ 2 ^ 23 <= Zpos f < 2 ^ 24 /\ (dlt = 0 \/ dlt = 1) /\
    Z.abs (2 * (Zpos f * 2 ^ dlt) * (2 ^ k * m) - 2 * (q * m + r)) <= 2 ^ k * m.
Proof.
  intros Hk Hq Hr Hl He. unfold binary_round_aux. unfold shr_fexp at 1. assert (0 < 2 ^ (k + 23)) by (apply Z.pow_pos_nonneg; lia).
  rewrite (digits_eq q (k + 24)) by (try lia; replace (k + 24 - 1) with (k + 23) by lia; lia).
  rewrite fexp_big by lia. replace (k + 24 + e - 24 - e) with k by lia.
  destruct (rec_shr (shr_record_of_loc q loc) (q * m + r) m e k Hk (rec_start q loc r m ltac:(lia) Hr Hl)) as (rc & -> & Hrc).
  assert (0 < 2 ^ k) as H2k by (apply Z.pow_pos_nonneg; lia). destruct (rec_round rc _ _ Hrc ltac:(nia)) as (N & <- & HN & HA & HE).
  assert (2 ^ (k + 23) = 2 ^ 23 * 2 ^ k) as E1 by (rewrite <- Z.pow_add_r by lia; f_equal; lia).
  assert (2 ^ (k + 24) = 2 ^ 24 * 2 ^ k) as E2 by (rewrite <- Z.pow_add_r by lia; f_equal; lia). rewrite E1, E2 in Hq.
  assert (2 ^ 23 <= shr_m rc < 2 ^ 24) as Hs.
  { set (w := 2 ^ k) in *. split.
    - enough (~ shr_m rc + 1 <= 2 ^ 23) by lia. intros Hn. assert ((shr_m rc + 1) * (m * w) <= 2 ^ 23 * (m * w)) by nia. nia.
    - enough (~ 2 ^ 24 <= shr_m rc) by lia. intros Hn. assert (2 ^ 24 * (m * w) <= shr_m rc * (m * w)) by nia. nia. }
  destruct (finish_round N (e + k) ltac:(lia) ltac:(lia)) as (f & dlt & H1 & H2 & H3 & H4). exists f, dlt. split; [exact H1|]. split; [exact H2|]. split; [exact H3|].
  rewrite H4. rewrite (Z.mul_comm (2 ^ k) m). exact HE.
Qed.

(** Values are counted in units of [2 ^ -200]. *)
Definition U (e : Z) : Z := 2 ^ (e + 200).
Lemma U_pos e : -200 <= e -> 0 < U e.
Proof. intros H. apply Z.pow_pos_nonneg; lia. Qed.
Lemma U_add e k : -200 <= e -> 0 <= k -> U (e + k) = U e * 2 ^ k.
Proof. intros H1 H2. unfold U. rewrite <- Z.pow_add_r by lia. f_equal. lia. Qed.
Lemma pow_pos k : 0 <= k -> 0 < 2 ^ k. Proof. intros. apply Z.pow_pos_nonneg; lia. Qed.

(** [f * 2 ^ E] is a number with 24 bits nearest to [A / m]. *)
Record rounds (f : positive) (E A m : Z) : Prop := mk_rounds {
  rd_f : 2 ^ 23 <= Zpos f < 2 ^ 24;
  rd_E : -200 <= E;
  rd_half : Z.abs (2 * Zpos f * U E * m - 2 * A) <= U E * m;
  rd_near : forall g e, 0 <= g <= 2 ^ 24 -> -200 <= e -> Z.abs (Zpos f * U E * m - A) <= Z.abs (g * U e * m - A)
}.

Lemma round_rounds q e loc r m k : 0 <= k -> 2 ^ (k + 23) <= q < 2 ^ (k + 24) -> 0 <= r < m -> loc_ok loc r m -> -149 <= e + k <= 100 -> -200 <= e ->
  exists f E, binary_round_aux 24 128 false q e loc = finite f E /\ rounds f E ((q * m + r) * U e) m /\ e + k <= E <= e + k + 1.
Proof.
  intros Hk Hq Hr Hl He He2. destruct (round_pos q e loc r m k Hk Hq Hr Hl He) as (f & dlt & H1 & H2 & H3 & H4).
  exists f, (e + k + dlt). split; [exact H1|]. split; [|lia].
  assert (2 ^ (k + 23) = 2 ^ 23 * 2 ^ k) as E1 by (rewrite <- Z.pow_add_r by lia; f_equal; lia). rewrite E1 in Hq.
  pose proof (pow_pos k Hk) as Pk. pose proof (U_pos e He2) as Pe. assert (0 < 2 ^ dlt) as Pd by (destruct H3 as [-> | ->]; cbn; lia).
  assert (U (e + k + dlt) = U e * 2 ^ k * 2 ^ dlt) as EU by (rewrite !U_add by lia; reflexivity).
  set (w := U e * 2 ^ k) in *. assert (0 < w) as Pw by (unfold w; nia). set (A := (q * m + r) * U e).
  set (N := Z.pos f * 2 ^ dlt) in *. assert (Z.abs (2 * (N * w * m) - 2 * A) <= w * m) as HN.
  { unfold w, A. replace (2 * (N * (U e * 2 ^ k) * m) - 2 * ((q * m + r) * U e)) with ((2 * N * (2 ^ k * m) - 2 * (q * m + r)) * U e) by ring. rewrite Z.abs_mul, (Z.abs_eq (U e)) by lia. nia. }
  assert (2 ^ 23 * w * m <= A) as HA. { unfold w, A. replace (2 ^ 23 * (U e * 2 ^ k) * m) with (2 ^ 23 * 2 ^ k * m * U e) by ring. apply Z.mul_le_mono_nonneg_r; [lia|]. nia. }
  assert (forall g e', 0 <= g -> e + k <= e' -> Z.abs (N * w * m - A) <= Z.abs (g * U e' * m - A)) as Hbig.
  { intros g e' Hg Hge. replace e' with (e + k + (e' - e - k)) by lia. rewrite (U_add (e + k)), (U_add e) by lia. fold w.
    set (t := g * 2 ^ (e' - e - k)). replace (g * (w * 2 ^ (e' - e - k)) * m) with (t * w * m) by (unfold t; ring).
    destruct (Z.eq_dec t N) as [->|Hne]; [lia|].
    assert (w * m <= Z.abs (t * w * m - N * w * m)). { replace (t * w * m - N * w * m) with ((t - N) * (w * m)) by ring. rewrite Z.abs_mul, (Z.abs_eq (w * m)) by nia. assert (1 <= Z.abs (t - N)) by lia. nia. } lia. }
  split.
  - exact H2.
  - lia.
  - rewrite EU. replace (2 * Z.pos f * (w * 2 ^ dlt) * m) with (2 * (N * w * m)) by (unfold N; ring). assert (1 <= 2 ^ dlt) by lia. assert (w * m <= w * 2 ^ dlt * m) by nia. lia.
  - intros g e' Hg He'. rewrite EU. replace (Z.pos f * (w * 2 ^ dlt) * m) with (N * w * m) by (unfold N; ring).
    destruct (Z_lt_ge_dec e' (e + k)) as [Hlt|Hge]; [|apply Hbig; lia].
    assert (g * U e' * m <= 2 ^ 23 * w * m) as Hle.
    { apply Z.mul_le_mono_nonneg_r; [lia|]. assert (2 * U e' <= w). { unfold w. rewrite <- U_add by lia. replace (e + k) with (e' + (1 + (e + k - e' - 1))) by lia. rewrite U_add, Z.pow_add_r by lia. change (2 ^ 1) with 2. pose proof (U_pos e' He'). pose proof (pow_pos (e + k - e' - 1) ltac:(lia)). nia. }
      assert (g * U e' <= 2 ^ 24 * U e') by (pose proof (U_pos e' He'); nia). change (2 ^ 24) with (2 ^ 23 * 2) in *. lia. }
    specialize (Hbig (2 ^ 23) (e + k) ltac:(lia) ltac:(lia)). rewrite (U_add e k) in Hbig by lia. fold w in Hbig. lia.
Qed.

Lemma rounds_mono f1 E1 A1 m1 f2 E2 A2 m2 : 0 < m1 -> 0 < m2 -> rounds f1 E1 A1 m1 -> rounds f2 E2 A2 m2 -> A1 * m2 < A2 * m1 -> Zpos f1 * U E1 <= Zpos f2 * U E2.
Proof.
  intros P1 P2 [R1 e1 _ N1] [R2 e2 _ N2] H. specialize (N1 (Zpos f2) E2 ltac:(lia) e2). specialize (N2 (Zpos f1) E1 ltac:(lia) e1).
  set (v1 := Z.pos f1 * U E1) in *. set (v2 := Z.pos f2 * U E2) in *. enough (~ v2 < v1) by lia. intros Hv.
  assert ((v1 + v2) * m1 <= 2 * A1). { assert (v2 * m1 < v1 * m1) by nia. lia. }
  assert (2 * A2 <= (v1 + v2) * m2). { assert (v2 * m2 < v1 * m2) by nia. lia. } nia.
Qed.
Lemma rounds_exact f E A m g e : 0 < m -> rounds f E A m -> 0 <= g <= 2 ^ 24 -> -200 <= e -> A = g * U e * m -> Zpos f * U E = g * U e.
Proof. intros Hm [_ _ _ H] Hg He HA. specialize (H g e Hg He). rewrite <- HA in H. assert (Z.pos f * U E * m = g * U e * m) by lia. nia. Qed.

Lemma digits_cases q : 2 ^ 23 <= q -> exists k, 0 <= k /\ 2 ^ (k + 23) <= q < 2 ^ (k + 24).
Proof.
  intros H. destruct (digits_range q ltac:(lia)) as [Hp Hd]. exists (Zdigits2 q - 24). replace (Zdigits2 q - 24 + 23) with (Zdigits2 q - 1) by lia. replace (Zdigits2 q - 24 + 24) with (Zdigits2 q) by lia.
  split; [|exact Hd]. enough (~ Zdigits2 q < 24) by lia. intros Hn. assert (2 ^ Zdigits2 q <= 2 ^ 23) by (apply Z.pow_le_mono_r; lia). lia.
Qed.

(** Integers. *)
Lemma f32_of_rounds x : 1 <= x < 2 ^ 64 -> exists f E, f32_of x = finite f E /\ rounds f E (x * U 0) 1 /\ -23 <= E <= 41.
Proof.
  intros Hx. destruct x as [|p|p]; [lia| |lia]. unfold f32_of, binary_normalize, binary_round. set (d := Z.pos (digits2_pos p)).
  destruct (digits_spec p) as [H1 H2]. fold d in H1, H2. assert (1 <= d) by (unfold d; lia). assert (d <= 64) by (assert (d - 1 < 64); [apply (Z.pow_lt_mono_r_iff 2); lia|lia]).
  rewrite fexp_big by lia. rewrite Z.add_0_r. unfold shl_align. rewrite Z.sub_0_r.
  destruct (Z_lt_ge_dec d 24) as [Hd|Hd].
  - destruct (d - 24) as [|e|e] eqn:E; [lia|lia|].
    assert (Z.pos (shift_pos e p) = Z.pos p * 2 ^ (24 - d)) as Es by (rewrite shift_pos_correct, Z.pow_pos_fold; replace (24 - d) with (Z.pos e) by lia; rewrite Z.mul_comm; reflexivity).
    assert (2 ^ 23 = 2 ^ (d - 1) * 2 ^ (24 - d)) as Ea by (rewrite <- Z.pow_add_r by lia; f_equal; lia).
    assert (2 ^ 24 = 2 ^ d * 2 ^ (24 - d)) as Eb by (rewrite <- Z.pow_add_r by lia; f_equal; lia). pose proof (pow_pos (24 - d) ltac:(lia)).
    destruct (round_rounds (Z.pos (shift_pos e p)) (Z.neg e) loc_Exact 0 1 0) as (f & E' & F1 & F2 & F3); [lia|rewrite Es; change (0 + 23) with 23; change (0 + 24) with 24; rewrite Ea, Eb; nia|lia|reflexivity|lia|lia|].
    exists f, E'. split; [exact F1|]. split; [|lia]. replace (Z.pos p * U 0) with ((Z.pos (shift_pos e p) * 1 + 0) * U (Z.neg e)); [exact F2|].
    rewrite Es. replace 0 with (Z.neg e + (24 - d)) at 2 by lia. rewrite U_add by lia. ring.
  - destruct (round_rounds (Z.pos p) 0 loc_Exact 0 1 (d - 24)) as (f & E' & F1 & F2 & F3); [lia|replace (d - 24 + 23) with (d - 1) by lia; replace (d - 24 + 24) with d by lia; exact (conj H1 H2)|lia|reflexivity|lia|lia|].
    exists f, E'. split; [destruct (d - 24) eqn:Ed; [exact F1|exact F1|lia]|]. split; [|lia]. replace (Z.pos p * U 0) with ((Z.pos p * 1 + 0) * U 0) by ring. exact F2.
Qed.

(** Products. *)
Lemma f32_mul_rounds f1 E1 f2 E2 : 2 ^ 23 <= Zpos f1 < 2 ^ 24 -> 2 ^ 23 <= Zpos f2 < 2 ^ 24 -> -170 <= E1 + E2 <= 70 ->
  exists f E, f32_mul (finite f1 E1) (finite f2 E2) = finite f E /\ rounds f E (Zpos f1 * Zpos f2 * U (E1 + E2)) 1 /\ E1 + E2 + 23 <= E <= E1 + E2 + 25.
Proof.
  intros R1 R2 He. unfold f32_mul, SFmul. cbn [xorb]. assert (Z.pos (f1 * f2) = Z.pos f1 * Z.pos f2) as Em by reflexivity.
  assert (2 ^ 46 <= Z.pos (f1 * f2) < 2 ^ 48) as Hq by (rewrite Em; change (2 ^ 46) with (2 ^ 23 * 2 ^ 23); change (2 ^ 48) with (2 ^ 24 * 2 ^ 24); nia).
  destruct (Z_lt_ge_dec (Z.pos (f1 * f2)) (2 ^ 47)) as [Hlt|Hge].
  - destruct (round_rounds (Z.pos (f1 * f2)) (E1 + E2) loc_Exact 0 1 23) as (f & E & F1 & F2 & F3); [lia|change (23 + 23) with 46; change (23 + 24) with 47; lia|lia|reflexivity|lia|lia|].
    exists f, E. split; [exact F1|]. split; [|lia]. replace (Z.pos f1 * Z.pos f2 * U (E1 + E2)) with ((Z.pos (f1 * f2) * 1 + 0) * U (E1 + E2)) by (rewrite Em; ring). exact F2.
  - destruct (round_rounds (Z.pos (f1 * f2)) (E1 + E2) loc_Exact 0 1 24) as (f & E & F1 & F2 & F3); [lia|change (24 + 23) with 47; change (24 + 24) with 48; lia|lia|reflexivity|lia|lia|].
    exists f, E. split; [exact F1|]. split; [|lia]. replace (Z.pos f1 * Z.pos f2 * U (E1 + E2)) with ((Z.pos (f1 * f2) * 1 + 0) * U (E1 + E2)) by (rewrite Em; ring). exact F2.
Qed.

(** Quotients: of [p * 2 ^ e1] by [q * 2 ^ e2]. *)
Lemma core_rounds p e1 q e2 : 0 < p -> 0 < q -> -100 <= e1 - e2 -> -100 <= Zdigits2 p + e1 - (Zdigits2 q + e2) <= 100 ->
  exists f E, (let '(m, e, l) := SFdiv_core_binary 24 128 p e1 q e2 in binary_round_aux 24 128 false m e l) = finite f E /\ rounds f E (p * U (e1 - e2)) q /\ Zdigits2 p + e1 - (Zdigits2 q + e2) - 24 <= E <= Zdigits2 p + e1 - (Zdigits2 q + e2) - 22.
Proof.
  intros Hp Hq H1 H2. unfold SFdiv_core_binary. set (D := Zdigits2 p + e1 - (Zdigits2 q + e2)) in *.
  replace (fexp 24 128 D) with (D - 24) by (unfold fexp, emin; lia). set (e := Z.min (D - 24) (e1 - e2)). set (s := e1 - e2 - e). assert (0 <= s) as Hs by lia.
  replace (match s with 0 => p | Z.pos _ => Z.shiftl p s | Z.neg _ => 0 end) with (p * 2 ^ s) by (destruct s eqn:Es; [cbn; lia|rewrite Z.shiftl_mul_pow2 by lia; reflexivity|lia]).
  pose proof (Z_div_mod (p * 2 ^ s) q ltac:(lia)) as Hdm. destruct (Z.div_eucl (p * 2 ^ s) q) as [Q r]. destruct Hdm as [Hdm Hr].
  destruct (digits_range p Hp) as [Pp Dp]. destruct (digits_range q Hq) as [Pq Dq]. set (d1 := Zdigits2 p) in *. set (d2 := Zdigits2 q) in *.
  set (j := d1 + s - d2). assert (24 <= j) as Hj by (unfold j, s, e, D; lia).
  pose proof (pow_pos s Hs) as Ps. pose proof (pow_pos (d2 - 1) ltac:(lia)) as P2.
  assert (2 ^ d2 = 2 * 2 ^ (d2 - 1)) as E2 by (replace d2 with (1 + (d2 - 1)) at 1 by lia; rewrite Z.pow_add_r by lia; reflexivity).
  assert (2 ^ (d1 - 1) * 2 ^ s = 2 ^ (j - 1) * 2 ^ d2) as Ea by (rewrite <- !Z.pow_add_r by lia; f_equal; lia).
  assert (2 ^ d1 * 2 ^ s = 2 ^ (j + 1) * 2 ^ (d2 - 1)) as Eb by (rewrite <- !Z.pow_add_r by lia; f_equal; lia).
  pose proof (pow_pos (j - 1) ltac:(lia)) as Pj. assert (2 ^ (j + 1) = 2 * (2 * 2 ^ (j - 1))) as Ej by (replace (j + 1) with (1 + (1 + (j - 1))) by lia; rewrite !Z.pow_add_r by lia; reflexivity).
  assert (2 ^ (j - 1) <= Q < 2 ^ (j + 1)) as HQ.
  { split.
    - enough (~ Q + 1 <= 2 ^ (j - 1)) by lia. intros Hn. assert (p * 2 ^ s < q * 2 ^ (j - 1)) by nia. assert (2 ^ (j - 1) * 2 ^ d2 <= p * 2 ^ s) by nia. nia.
    - enough (~ 2 ^ (j + 1) <= Q) by lia. intros Hn. assert (q * 2 ^ (j + 1) <= p * 2 ^ s) by nia. assert (p * 2 ^ s < 2 ^ (j + 1) * 2 ^ (d2 - 1)) by nia. nia. }
  assert (exists k, 0 <= k /\ (k = j - 24 \/ k = j - 23) /\ 2 ^ (k + 23) <= Q < 2 ^ (k + 24)) as (k & Hk & Kk & HQk).
  { destruct (Z_lt_ge_dec Q (2 ^ j)).
    - exists (j - 24). replace (j - 24 + 23) with (j - 1) by lia. replace (j - 24 + 24) with j by lia. split; [lia|]. split; [auto|]. lia.
    - exists (j - 23). replace (j - 23 + 23) with j by lia. replace (j - 23 + 24) with (j + 1) by lia. split; [lia|]. split; [auto|]. lia. }
  destruct (round_rounds Q e (new_location q r) r q k Hk HQk Hr (new_location_ok _ _ Hr)) as (f & E & F1 & F2 & F3); [unfold j, s, e, D in *; lia|unfold e, D; lia|].
  exists f, E. split; [exact F1|]. split; [|unfold j, s, e, D in *; lia].
  rewrite (Z.mul_comm Q), <- Hdm in F2. replace (p * U (e1 - e2)) with (p * 2 ^ s * U e); [exact F2|].
  replace (e1 - e2) with (e + s) by (unfold s; lia). rewrite U_add by (unfold e, D in *; lia). ring.
Qed.
Lemma f32_div_rounds f1 E1 f2 E2 : 2 ^ 23 <= Zpos f1 < 2 ^ 24 -> 2 ^ 23 <= Zpos f2 < 2 ^ 24 -> -100 <= E1 - E2 <= 100 ->
  exists f E, f32_div (finite f1 E1) (finite f2 E2) = finite f E /\ rounds f E (Zpos f1 * U (E1 - E2)) (Zpos f2) /\ E1 - E2 - 24 <= E <= E1 - E2 - 22.
Proof.
  intros R1 R2 He. unfold f32_div, SFdiv. cbn [xorb].
  assert (Zdigits2 (Z.pos f1) = 24) as D1 by (apply digits_eq; change (24 - 1) with 23; lia). assert (Zdigits2 (Z.pos f2) = 24) as D2 by (apply digits_eq; change (24 - 1) with 23; lia).
  destruct (core_rounds (Z.pos f1) E1 (Z.pos f2) E2) as (f & E & H1 & H2 & H3); [lia|lia|lia|lia|]. exists f, E. split; [exact H1|]. split; [exact H2|lia].
Qed.
Lemma digits_le q n : 0 < q < 2 ^ n -> Zdigits2 q <= n.
Proof.
  intros H. destruct (digits_range q ltac:(lia)) as [Hp Hd]. enough (~ n < Zdigits2 q) by lia. intros Hn.
  assert (2 ^ n <= 2 ^ (Zdigits2 q - 1)) by (apply Z.pow_le_mono_r; lia). lia.
Qed.
Lemma f32_ratio_rounds p q : 0 < p < 2 ^ 90 -> 0 < q < 2 ^ 90 -> exists f E, f32_ratio p q = finite f E /\ rounds f E (p * U 0) q /\ -114 <= E <= 68.
Proof.
  intros Hp Hq. unfold f32_ratio. destruct (Z.eqb_spec p 0); [lia|].
  pose proof (digits_le p 90 Hp). pose proof (digits_le q 90 Hq). destruct (digits_range p ltac:(lia)). destruct (digits_range q ltac:(lia)).
  destruct (core_rounds p 0 q 0) as (f & E & H1' & H2' & H3'); [lia|lia|lia|lia|]. exists f, E. split; [exact H1'|]. split; [exact H2'|lia].
Qed.
