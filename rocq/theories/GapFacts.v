(** The gap, as an [f32]. Nothing here models code of /repo. *)
From Verif Require Import Base F32 F32Spec F32Facts Names NamesFacts.
From Coq Require Import Lia ZArith.
Open Scope Z_scope.

Lemma U_mul a b : -200 <= a -> -200 <= b -> -200 <= a + b -> U a * U b = U (a + b) * U 0.
Proof. intros H1 H2 H3. unfold U. rewrite <- !Z.pow_add_r by lia. f_equal. lia. Qed.
Lemma rel_err f E A m : 0 < m -> rounds f E A m -> (2 ^ 24) * Z.abs (Zpos f * U E * m - A) <= Zpos f * U E * m.
Proof.
  intros Hm [Hf HE Hh _]. pose proof (U_pos E HE). assert (2 * Z.abs (Z.pos f * U E * m - A) <= U E * m) by lia.
  assert (2 ^ 23 * (U E * m) <= Z.pos f * (U E * m)) by (apply Z.mul_le_mono_nonneg_r; nia). change (2 ^ 24) with (2 ^ 23 * 2) in *. lia.
Qed.
(** A value below one is rounded to at most one. *)
Lemma rounds_le_one f E A m : 0 < m -> rounds f E A m -> A <= U 0 * m -> Zpos f * U E <= U 0.
Proof.
  intros Hm [_ _ _ H] HA. specialize (H (2 ^ 23) (-23) ltac:(lia) ltac:(lia)). assert (2 ^ 23 * U (-23) = U 0) as E0 by (unfold U; rewrite <- Z.pow_add_r by lia; reflexivity). rewrite E0 in H.
  enough (~ U 0 < Z.pos f * U E) by lia. intros Hn. assert (U 0 * m < Z.pos f * U E * m) by nia. lia.
Qed.

(** The quotient of two integers converted to [f32]. *)
Lemma quotient n u : 1 <= n < 2 ^ 64 -> 1 <= u < 2 ^ 64 -> exists f E, f32_div (f32_of n) (f32_of u) = finite f E /\ -200 <= E /\
  (n <= u -> Zpos f * U E <= U 0) /\ 2 ^ 22 * Z.abs (Zpos f * U E * u - n * U 0) <= n * U 0.
Proof.
  intros Hn Hu. destruct (f32_of_rounds n ltac:(lia)) as (f1 & E1 & En & R1 & B1). destruct (f32_of_rounds u ltac:(lia)) as (f2 & E2 & Eu & R2 & B2).
  pose proof (U_pos 0 ltac:(lia)) as P0. pose proof (U_pos E1 ltac:(lia)) as P1. pose proof (U_pos E2 ltac:(lia)) as P2.
  assert (n <= u -> Z.pos f1 * U E1 <= Z.pos f2 * U E2) as Hab.
  { intros Hle. destruct (Z.eq_dec n u) as [->|Hne].
    - rewrite Eu in En. injection En as -> ->. lia.
    - apply (rounds_mono f1 E1 (n * U 0) 1 f2 E2 (u * U 0) 1); [lia|lia|exact R1|exact R2|]. nia. }
  rewrite En, Eu. destruct (f32_div_rounds f1 E1 f2 E2 (rd_f _ _ _ _ R1) (rd_f _ _ _ _ R2) ltac:(lia)) as (f & E & -> & R & _). exists f, E.
  pose proof (rd_E _ _ _ _ R) as HE. pose proof (U_pos E HE) as PE. split; [reflexivity|]. split; [exact HE|].
  pose proof (U_mul (E1 - E2) E2 ltac:(lia) ltac:(lia) ltac:(lia)) as Em. replace (E1 - E2 + E2) with E1 in Em by lia.
  split.
  - intros Hle. specialize (Hab Hle). apply (rounds_le_one f E (Zpos f1 * U (E1 - E2)) (Zpos f2)); [lia|exact R|]. enough (Z.pos f1 * U (E1 - E2) * U E2 <= U 0 * Z.pos f2 * U E2) by nia.
    replace (Z.pos f1 * U (E1 - E2) * U E2) with (Z.pos f1 * U E1 * U 0) by (rewrite <- !Z.mul_assoc, <- Em; ring). nia.
  - pose proof (rel_err f1 E1 _ 1 ltac:(lia) R1) as e1. pose proof (rel_err f2 E2 _ 1 ltac:(lia) R2) as e2. pose proof (rel_err f E _ (Zpos f2) ltac:(lia) R) as e3.
    set (V := Z.pos f * U E) in *. set (a := Z.pos f1 * U E1) in *. set (b := Z.pos f2 * U E2) in *.
    assert (2 ^ 24 * Z.abs (V * b - a * U 0) <= V * b) as e3'.
    { assert (2 ^ 24 * Z.abs (V * Z.pos f2 - Z.pos f1 * U (E1 - E2)) * U E2 <= V * Z.pos f2 * U E2) as H by nia.
      replace (V * b) with (V * Z.pos f2 * U E2) by (unfold b; ring).
      replace (a * U 0) with (Z.pos f1 * U (E1 - E2) * U E2) by (unfold a; rewrite <- !Z.mul_assoc, <- Em; ring).
      replace (V * Z.pos f2 * U E2 - Z.pos f1 * U (E1 - E2) * U E2) with ((V * Z.pos f2 - Z.pos f1 * U (E1 - E2)) * U E2) by ring.
      rewrite Z.abs_mul, (Z.abs_eq (U E2)) by lia. lia. }
    assert (0 < V) as PV by (unfold V; nia). assert (0 < a) as Pa by (unfold a; nia). assert (0 < b) as Pb by (unfold b; nia). clearbody V a b. clear e3 R R1 R2 En Eu Em Hab. clear f E HE PE f1 E1 f2 E2 B1 B2 P1 P2.
    rewrite !Z.mul_1_r in e1, e2. set (W := 2 ^ 24) in *. assert (W = 16777216) as EW by reflexivity. change (2 ^ 22) with 4194304. clearbody W. set (o := U 0) in *. clearbody o.
    set (nn := n * o) in *. set (uu := u * o) in *. assert (0 < nn) by (unfold nn; nia). assert (0 < uu) by (unfold uu; nia).
    assert (W * uu <= (W + 1) * b /\ (W - 1) * b <= W * uu) as [b1 b2] by lia.
    assert ((W - 1) * a <= W * nn /\ W * nn <= (W + 1) * a) as [a1 a2] by lia.
    assert ((W - 1) * (V * b) <= W * (a * o) /\ W * (a * o) <= (W + 1) * (V * b)) as [v1 v2] by lia.
    assert (W * (V * u * o) = V * (W * uu)) as Ev by (unfold uu; ring).
    assert (W * (V * u) <= (W + 4) * nn) as Hup.
    { assert (V * (W * uu) <= (W + 1) * (V * b)) by nia.
      assert ((W - 1) * (W * (V * u * o)) <= (W + 1) * (W * (a * o))) by nia.
      assert ((W - 1) * (V * u * o) <= (W + 1) * (a * o)) by nia.
      assert ((W - 1) * (V * u) <= (W + 1) * a) by nia.
      assert ((W - 1) * ((W - 1) * (V * u)) <= (W + 1) * (W * nn)) by nia.
      assert ((W + 1) * (W * W) <= (W + 4) * ((W - 1) * (W - 1))) by (subst W; lia).
      assert ((W - 1) * (W - 1) * (W * (V * u)) <= (W - 1) * (W - 1) * ((W + 4) * nn)) by nia.
      apply (Z.mul_le_mono_pos_l _ _ ((W - 1) * (W - 1))); [subst W; lia|assumption]. }
    assert ((W - 4) * nn <= W * (V * u)) as Hlo.
    { assert ((W - 1) * (V * b) <= V * (W * uu)) by nia.
      assert ((W - 1) * (W * (a * o)) <= (W + 1) * (W * (V * u * o))) by nia.
      assert ((W - 1) * (a * o) <= (W + 1) * (V * u * o)) by nia.
      assert ((W - 1) * a <= (W + 1) * (V * u)) by nia.
      assert ((W - 1) * (W * nn) <= (W + 1) * ((W + 1) * (V * u))) by nia.
      assert ((W - 4) * ((W + 1) * (W + 1)) <= (W - 1) * (W * W)) by (subst W; lia).
      assert ((W + 1) * (W + 1) * ((W - 4) * nn) <= (W + 1) * (W + 1) * (W * (V * u))) by nia.
      apply (Z.mul_le_mono_pos_l _ _ ((W + 1) * (W + 1))); [subst W; lia|assumption]. }
    subst W. lia.
Qed.

Lemma value_finite f E : -200 <= E -> (1 * inject_Z (Zpos f) * Qpower 2 E == inject_Z (Zpos f * U E) / inject_Z (U 0))%Q.
Proof.
  intros HE. unfold U. rewrite inject_Z_mult, !Zpower_Qpower by lia. change (inject_Z 2) with 2%Q.
  rewrite Qpower_plus by discriminate. assert (~ (2 ^ 200 == 0)%Q) as Hz by (apply Qpower_not_0; discriminate).
  change (0 + 200) with 200. field.
Qed.

Lemma gap_magnitudes lb ub : IMIN < lb <= IMAX -> IMIN < ub <= IMAX -> (lb <> 0 \/ ub <> 0) ->
  let exact := (inject_Z (Z.max (Z.abs lb) (Z.abs ub) - Z.min (Z.abs lb) (Z.abs ub)) / inject_Z (Z.max (Z.abs lb) (Z.abs ub)))%Q in
  exists v, f32_value (gap lb ub) = Some v /\ (0 <= v <= 1)%Q /\ (v == 0 <-> Z.abs lb = Z.abs ub)%Q /\ (Qabs (v - exact) <= exact * (1 # 4194304))%Q.
Proof.
  intros H1 H2 Hz exact.
  assert (gap lb ub = f32_div (f32_of (Z.max (Z.abs lb) (Z.abs ub) - Z.min (Z.abs lb) (Z.abs ub))) (f32_of (Z.max (Z.abs lb) (Z.abs ub)))) as ->.
  { unfold gap, gap_fraction, wrap_abs. replace (ub =? IMIN) with false by lia. replace (lb =? IMIN) with false by lia.
    assert (Hb : Z.abs ub <= IMAX /\ Z.abs lb <= IMAX) by (unfold IMIN, IMAX in *; lia).
    rewrite wrap_sub_id by (unfold in_isize, IMIN, IMAX in *; lia). f_equal; f_equal; lia. }
  set (u := Z.max (Z.abs lb) (Z.abs ub)) in *. set (n := u - Z.min (Z.abs lb) (Z.abs ub)) in *. assert (0 <= n <= u) as Hn by (unfold n, u; lia). assert (1 <= u <= IMAX) as Hu by (unfold u, IMIN, IMAX in *; lia).
  destruct (Z.eq_dec n 0) as [E0|E0].
  - rewrite E0. exists 0%Q. destruct (f32_of_rounds u ltac:(unfold IMAX in *; lia)) as (f & E & -> & _). split; [reflexivity|].
    split; [split; discriminate|]. split; [split; [intros _; unfold n, u in E0; lia|reflexivity]|]. unfold exact. rewrite E0. cbn -[Z.max Z.min]. unfold Qdiv. rewrite !Qmult_0_l. cbn. discriminate.
  - destruct (quotient n u ltac:(unfold IMAX in *; lia) ltac:(unfold IMAX in *; lia)) as (f & E & -> & HE & Hle & Herr). specialize (Hle ltac:(lia)). cbn [f32_value]. eexists. split; [reflexivity|].
    pose proof (U_pos 0 ltac:(lia)) as P0. pose proof (U_pos E HE) as PE.
    set (V := Zpos f * U E) in *. assert (0 < V) as PV by (unfold V; nia). set (o := U 0) in *.
    assert (Qlt 0 (inject_Z o)) as Qo by (change (inject_Z 0 < inject_Z o)%Q; rewrite <- Zlt_Qlt; exact P0). assert (Qlt 0 (inject_Z u)) as Qu by (change (inject_Z 0 < inject_Z u)%Q; rewrite <- Zlt_Qlt; lia).
    assert (1 * inject_Z (Z.pos f) * 2 ^ E == inject_Z V / inject_Z o)%Q as Ev by (apply value_finite; exact HE).
    split; [split|split].
    + rewrite Ev. apply Qle_shift_div_l; [exact Qo|]. rewrite Qmult_0_l. change (inject_Z 0 <= inject_Z V)%Q. rewrite <- Zle_Qle. lia.
    + rewrite Ev. apply Qle_shift_div_r; [exact Qo|]. rewrite Qmult_1_l. rewrite <- Zle_Qle. exact Hle.
    + rewrite Ev. split; [intros Hv|intros Heq; exfalso; unfold n, u in E0; lia]. exfalso. assert (inject_Z V == 0)%Q as Hv' by (rewrite <- (Qmult_0_l (inject_Z o)), <- Hv; field; intros Hc; rewrite Hc in Qo; discriminate Qo).
      unfold Qeq, inject_Z in Hv'. cbn [Qnum Qden] in Hv'. clearbody V. lia.
    + rewrite Ev. unfold exact.
      assert (inject_Z V / inject_Z o - inject_Z n / inject_Z u == inject_Z (V * u - n * o) / (inject_Z o * inject_Z u))%Q as ->.
      { unfold Z.sub. rewrite inject_Z_plus, inject_Z_opp, !inject_Z_mult. field. split; intros Hc; [rewrite Hc in Qu; discriminate Qu|rewrite Hc in Qo; discriminate Qo]. }
      assert (Qlt 0 (inject_Z o * inject_Z u)) as Qou by (apply Qmult_lt_0_compat; assumption).
      unfold Qdiv at 1. rewrite Qabs_Qmult, (Qabs_pos (/ (inject_Z o * inject_Z u))) by (apply Qlt_le_weak, Qinv_lt_0_compat; exact Qou).
      apply Qle_shift_div_r; [exact Qou|].
      assert (inject_Z n / inject_Z u * (1 # 4194304) * (inject_Z o * inject_Z u) == inject_Z (n * o) * (1 # 4194304))%Q as ->.
      { rewrite inject_Z_mult. field. intros Hc; rewrite Hc in Qu; discriminate Qu. }
      change (Qabs (inject_Z (V * u - n * o))) with (inject_Z (Z.abs (V * u - n * o))).
      change (2 ^ 22) with 4194304 in Herr. unfold Qle, inject_Z, Qmult. cbn [Qnum Qden]. lia.
Qed.

Lemma gap_value lb ub : IMIN < lb -> ub <= IMAX -> lb <= ub -> 0 <= lb * ub -> (lb <> 0 \/ ub <> 0) ->
  let exact := (inject_Z (ub - lb) / inject_Z (Z.max (Z.abs lb) (Z.abs ub)))%Q in
  exists v, f32_value (gap lb ub) = Some v /\ (0 <= v <= 1)%Q /\ (v == 0 <-> lb = ub)%Q /\ (Qabs (v - exact) <= exact * (1 # 4194304))%Q.
Proof.
  intros H1 H2 H3 Hs Hz exact. assert (Hsg : (0 <= lb /\ 0 <= ub) \/ (lb <= 0 /\ ub <= 0)) by nia.
  destruct (gap_magnitudes lb ub ltac:(lia) ltac:(lia) Hz) as (v & Hv & H01 & H0 & He). exists v. split; [exact Hv|]. split; [exact H01|].
  split; [rewrite H0; split; lia|]. unfold exact. replace (ub - lb) with (Z.max (Z.abs lb) (Z.abs ub) - Z.min (Z.abs lb) (Z.abs ub)) by lia. exact He.
Qed.

(** The order of the bounds does not matter. *)
Lemma gap_sym lb ub : gap lb ub = gap ub lb.
Proof. unfold gap, gap_fraction. rewrite (Z.max_comm (wrap_abs ub)), (Z.min_comm (wrap_abs ub)). reflexivity. Qed.

(** Signs. *)
Lemma round_aux_neg q e l f E : binary_round_aux 24 128 false q e l = finite f E -> binary_round_aux 24 128 true q e l = S754_finite true f E.
Proof.
  unfold binary_round_aux. destruct (shr_fexp 24 128 q e l) as [a b]. destruct (shr_fexp 24 128 _ b loc_Exact) as [c d].
  destruct (shr_m c); [discriminate| |discriminate]. destruct (Zle_bool d (128 - 24)); [|discriminate]. intros H. injection H as -> ->. reflexivity.
Qed.
Lemma f32_of_neg n f E : 1 <= n -> f32_of n = finite f E -> f32_of (- n) = S754_finite true f E.
Proof.
  intros Hn. destruct n as [|p|p]; [lia| |lia]. unfold f32_of. cbn [Z.opp binary_normalize]. unfold binary_round.
  destruct (shl_align _ _ _) as [a b]. apply round_aux_neg.
Qed.
Lemma f32_div_neg f1 E1 f2 E2 f E : f32_div (finite f1 E1) (finite f2 E2) = finite f E -> f32_div (S754_finite true f1 E1) (finite f2 E2) = S754_finite true f E.
Proof. unfold f32_div, SFdiv. cbn [xorb]. destruct (SFdiv_core_binary _ _ _ _ _ _) as [[a b] c]. apply round_aux_neg. Qed.

(** One of the bounds is [isize::MIN]. *)
Lemma gap_min ub : IMIN < ub <= IMAX -> ub <> 0 ->
  let exact := (inject_Z (2 ^ 63 - Z.abs ub) / inject_Z (Z.abs ub))%Q in
  exists v, f32_value (gap IMIN ub) = Some v /\ (v < 0)%Q /\ (Qabs (v + exact) <= exact * (1 # 4194304))%Q.
Proof.
  intros H1 Hz exact.
  set (u := Z.abs ub) in *. set (n := 2 ^ 63 - u) in *. assert (1 <= u <= IMAX) as Hu by (unfold u, IMIN, IMAX in *; lia).
  assert (1 <= n < 2 ^ 64) as Hn by (unfold n, IMAX in *; lia).
  assert (gap IMIN ub = f32_div (f32_of (- n)) (f32_of u)) as ->.
  { unfold gap, gap_fraction, wrap_abs. replace (ub =? IMIN) with false by lia. rewrite Z.eqb_refl. fold u.
    rewrite Z.max_l by (unfold IMIN in *; lia). rewrite Z.min_r by (unfold IMIN in *; lia). f_equal. f_equal. unfold wrap_sub, n. replace (u - IMIN + 2 ^ 63) with (u + 1 * 2 ^ 64) by (unfold IMIN; lia).
    rewrite Z_mod_plus_full, Z.mod_small by (unfold IMAX in *; lia). lia. }
  destruct (quotient n u Hn ltac:(unfold IMAX in *; lia)) as (f & E & Eq & HE & _ & Herr).
  destruct (f32_of_rounds n Hn) as (f1 & E1 & En & _). destruct (f32_of_rounds u ltac:(unfold IMAX in *; lia)) as (f2 & E2 & Eu & _).
  rewrite Eu in *. rewrite En in Eq. rewrite (f32_of_neg n f1 E1) by (lia || exact En). rewrite (f32_div_neg _ _ _ _ _ _ Eq). cbn [f32_value]. eexists. split; [reflexivity|].
  pose proof (U_pos 0 ltac:(lia)) as P0. pose proof (U_pos E HE) as PE.
  set (V := Zpos f * U E) in *. assert (0 < V) as PV by (unfold V; nia). set (o := U 0) in *.
  assert (Qlt 0 (inject_Z o)) as Qo by (change (inject_Z 0 < inject_Z o)%Q; rewrite <- Zlt_Qlt; exact P0). assert (Qlt 0 (inject_Z u)) as Qu by (change (inject_Z 0 < inject_Z u)%Q; rewrite <- Zlt_Qlt; lia).
  assert (1 * inject_Z (Z.pos f) * 2 ^ E == inject_Z V / inject_Z o)%Q as Ev by (apply value_finite; exact HE).
  assert (-1 * inject_Z (Z.pos f) * 2 ^ E == - (inject_Z V / inject_Z o))%Q as Ev' by (rewrite <- Ev; ring).
  split.
  - rewrite Ev'. assert (Qlt 0 (inject_Z V / inject_Z o)) as Hp; [|apply Qopp_lt_compat in Hp; exact Hp].
    apply Qlt_shift_div_l; [exact Qo|]. rewrite Qmult_0_l. change (inject_Z 0 < inject_Z V)%Q. rewrite <- Zlt_Qlt. lia.
  - rewrite Ev'. unfold exact.
    assert (- (inject_Z V / inject_Z o) + inject_Z n / inject_Z u == - (inject_Z (V * u - n * o) / (inject_Z o * inject_Z u)))%Q as ->.
    { unfold Z.sub. rewrite inject_Z_plus, inject_Z_opp, !inject_Z_mult. field. split; intros Hc; [rewrite Hc in Qu; discriminate Qu|rewrite Hc in Qo; discriminate Qo]. }
    rewrite Qabs_opp.
    assert (Qlt 0 (inject_Z o * inject_Z u)) as Qou by (apply Qmult_lt_0_compat; assumption).
    unfold Qdiv at 1. rewrite Qabs_Qmult, (Qabs_pos (/ (inject_Z o * inject_Z u))) by (apply Qlt_le_weak, Qinv_lt_0_compat; exact Qou).
    apply Qle_shift_div_r; [exact Qou|].
    assert (inject_Z n / inject_Z u * (1 # 4194304) * (inject_Z o * inject_Z u) == inject_Z (n * o) * (1 # 4194304))%Q as ->.
    { rewrite inject_Z_mult. field. intros Hc; rewrite Hc in Qu; discriminate Qu. }
    change (Qabs (inject_Z (V * u - n * o))) with (inject_Z (Z.abs (V * u - n * o))).
    change (2 ^ 22) with 4194304 in Herr. unfold Qle, inject_Z, Qmult. cbn [Qnum Qden]. lia.
Qed.

Lemma gap_every_pair lb ub : in_isize lb -> in_isize ub ->
  gap lb ub = gap ub lb /\
  (lb <> IMIN -> ub <> IMIN -> (lb <> 0 \/ ub <> 0) ->
    let big := Z.max (Z.abs lb) (Z.abs ub) in let small := Z.min (Z.abs lb) (Z.abs ub) in
    let exact := (inject_Z (big - small) / inject_Z big)%Q in
    exists v, f32_value (gap lb ub) = Some v /\ (0 <= v <= 1)%Q /\ ((v == 0)%Q <-> lb = ub \/ lb = - ub) /\ (Qabs (v - exact) <= exact * (1 # 4194304))%Q) /\
  (lb = IMIN -> ub <> IMIN -> ub <> 0 ->
    let exact := (inject_Z (2 ^ 63 - Z.abs ub) / inject_Z (Z.abs ub))%Q in
    exists v, f32_value (gap lb ub) = Some v /\ (v < 0)%Q /\ (Qabs (v + exact) <= exact * (1 # 4194304))%Q) /\
  (lb = 0 -> ub = 0 -> gap lb ub = S754_nan) /\ (lb = IMIN -> ub = 0 -> gap lb ub = S754_infinity true) /\ (lb = IMIN -> ub = IMIN -> f32_value (gap lb ub) = Some 0%Q).
Proof.
  unfold in_isize. intros H1 H2. split; [apply gap_sym|]. split; [|split; [|split; [|split]]].
  - intros N1 N2 Hz. cbn zeta. destruct (gap_magnitudes lb ub ltac:(lia) ltac:(lia) Hz) as (v & Hv & H01 & H0 & He). exists v. split; [exact Hv|]. split; [exact H01|].
    split; [rewrite H0; split; lia|exact He].
  - intros -> N2 Hz. apply gap_min; [lia|exact Hz].
  - intros -> ->. vm_compute. reflexivity.
  - intros -> ->. vm_compute. reflexivity.
  - intros -> ->. vm_compute. reflexivity.
Qed.
