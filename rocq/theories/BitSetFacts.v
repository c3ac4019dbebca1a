(** Facts about bit set iteration and lexicographic comparison. *)
From Verif Require Import BitSet.
From Coq Require Import Sorting.Sorted.

(** Membership of [i] in the bit set stored in words [ws]. *)
Definition bit (ws : list N) (i : N) : bool := N.testbit (nth (N.to_nat (i / 64)) ws 0%N) (i mod 64).

Definition word_ok (w : N) : Prop := (w < 2 ^ 64)%N.

Lemma shl64_pow2 off : (off < 64)%N -> shl64 1 off = (2 ^ off)%N.
Proof. intros H. unfold shl64. rewrite N.shiftl_1_l. apply N.mod_small.
  apply N.pow_lt_mono_r; lia. Qed.
Lemma shl64_step off : (off < 64)%N -> shl64 (shl64 1 off) 1 = shl64 1 (off + 1).
Proof.
  intros H. rewrite (shl64_pow2 off H). unfold shl64.
  rewrite N.shiftl_mul_pow2, N.shiftl_mul_pow2, N.mul_1_l, N.pow_add_r. reflexivity.
Qed.

Lemma land_pow2_zero w k : (N.land w (2 ^ k) =? 0)%N = negb (N.testbit w k).
Proof.
  destruct (N.testbit w k) eqn:E; cbn [negb].
  - apply N.eqb_neq. intros H. apply (f_equal (fun x => N.testbit x k)) in H.
    rewrite N.land_spec, E, N.pow2_bits_true, N.bits_0 in H. discriminate.
  - apply N.eqb_eq. apply N.bits_inj. intros j. rewrite N.land_spec, N.bits_0.
    destruct (N.eq_dec k j) as [->|Hne]; [rewrite E; reflexivity|].
    rewrite N.pow2_bits_false by assumption. apply andb_false_r.
Qed.

Lemma scan_spec fuel w off : (off <= 64)%N -> (65 - N.to_nat off <= fuel)%nat ->
  exists off', bsi_scan fuel w (shl64 1 off) off = Some off' /\ (off <= off' <= 64)%N /\
    (forall j, (off <= j < off')%N -> N.testbit w j = false) /\ ((off' < 64)%N -> N.testbit w off' = true).
Proof.
  revert off; induction fuel as [|k IH]; intros off Hoff Hf; [lia|].
  cbn [bsi_scan]. destruct (N.ltb_spec off 64) as [Hlt|Hge].
  - rewrite (shl64_pow2 off Hlt), land_pow2_zero.
    destruct (N.testbit w off) eqn:E; cbn [negb andb].
    + exists off. repeat split; try lia. intros _. exact E.
    + rewrite <- (shl64_pow2 off Hlt), (shl64_step off Hlt).
      destruct (IH (off + 1)%N) as (off' & H1 & H2 & H3 & H4); [lia|lia|].
      exists off'. repeat split; auto; try lia.
      intros j Hj. destruct (N.eq_dec j off) as [->|]; [exact E | apply H3; lia].
  - rewrite andb_false_r. exists off. repeat split; try lia.
Qed.

(** What remains to be yielded. *)
Definition wbits (base off w : N) : list N :=
  map (fun k => (base + N.of_nat k)%N)
      (filter (fun k => N.testbit w (N.of_nat k)) (seq (N.to_nat off) (64 - N.to_nat off))).
Fixpoint rwords (base : N) (ws : list N) : list N :=
  match ws with [] => [] | w :: t => wbits base 0 w ++ rwords (base + 64) t end.
Definition rest (it : bsi) : list N :=
  match bi_word it with
  | None => []
  | Some w => wbits (bi_base it) (bi_offset it) w ++ rwords (bi_base it + 64) (bi_iter it)
  end.

Lemma filter_none {A} (f : A -> bool) l : (forall x, In x l -> f x = false) -> filter f l = [].
Proof. induction l as [|a l IH]; intros H; [reflexivity|]. cbn [filter].
  rewrite (H a (or_introl eq_refl)). apply IH. intros x Hx. apply H. right. exact Hx. Qed.

Lemma wbits_skip base off off' w : (off <= off' <= 64)%N ->
  (forall j, (off <= j < off')%N -> N.testbit w j = false) -> wbits base off w = wbits base off' w.
Proof.
  intros Ho Hz. unfold wbits. f_equal.
  replace (64 - N.to_nat off)%nat with ((N.to_nat off' - N.to_nat off) + (64 - N.to_nat off'))%nat by lia.
  rewrite seq_app, filter_app, filter_none.
  - cbn [app]. f_equal. f_equal. lia.
  - intros x Hx. apply in_seq in Hx. apply Hz. lia.
Qed.

Lemma wbits_hit base off w : (off < 64)%N -> N.testbit w off = true ->
  wbits base off w = (base + off)%N :: wbits base (off + 1) w.
Proof.
  intros Ho Ht. unfold wbits.
  replace (64 - N.to_nat off)%nat with (S (64 - N.to_nat (off + 1)))%nat by lia.
  cbn [seq filter]. rewrite N2Nat.id, Ht. cbn [map]. rewrite N2Nat.id.
  replace (N.to_nat (off + 1)) with (S (N.to_nat off)) by lia. reflexivity.
Qed.

Lemma wbits_nil base off w : (off >= 64)%N \/ w = 0%N -> wbits base off w = [].
Proof.
  intros [H|H]; unfold wbits.
  - replace (64 - N.to_nat off)%nat with 0%nat by lia. reflexivity.
  - subst w. rewrite filter_none; [reflexivity|]. intros x _. apply N.bits_0.
Qed.

Definition it_ok (it : bsi) : Prop := (bi_offset it <= 64)%N.

Lemma rest_advance w off base it0 : wbits base off w = [] ->
  rest (mk_bsi it0 (Some w) base off) =
  rest (mk_bsi (tl it0) (hd_error it0) (base + 64) 0).
Proof.
  intros H. unfold rest. cbn [bi_word bi_base bi_offset bi_iter]. rewrite H. cbn [app].
  destruct it0 as [|h t]; cbn [hd_error tl]; reflexivity.
Qed.

Lemma next_spec fuel it : it_ok it ->
  ((if bi_word it then 2 * length (bi_iter it) + (if (bi_offset it <? 64)%N then 4 else 3) else 1) <= fuel)%nat ->
  exists r it', bsi_next fuel it = Some (r, it') /\ it_ok it' /\
    (length (bi_iter it') <= length (bi_iter it))%nat /\
    match r with
    | None => rest it = [] /\ bi_word it' = None
    | Some x => rest it = x :: rest it'
    end.
Proof.
  revert it; induction fuel as [|k IH]; intros [ws w base off] Hok Hf;
    cbn [bi_iter bi_word bi_offset] in *; [destruct w; destruct (off <? 64)%N; lia|].
  cbn [bsi_next bi_iter bi_word bi_offset bi_base].
  destruct w as [w|].
  2:{ exists None, (mk_bsi ws None base off). repeat split; auto. }
  assert (Hadv : wbits base off w = [] -> (2 * length ws + 3 <= S k)%nat ->
    exists r it', (let '(w', t') := match ws with [] => (None, []) | h :: t => (Some h, t) end in
       bsi_next k (mk_bsi t' w' (base + 64) 0)) = Some (r, it') /\ it_ok it' /\
    (length (bi_iter it') <= length ws)%nat /\
    match r with
    | None => rest (mk_bsi ws (Some w) base off) = [] /\ bi_word it' = None
    | Some x => rest (mk_bsi ws (Some w) base off) = x :: rest it'
    end).
  { intros Hnil Hfu. rewrite (rest_advance _ _ _ _ Hnil).
    destruct ws as [|h t]; cbn [tl hd_error].
    - destruct (IH (mk_bsi [] None (base + 64) 0)) as (r & it' & H1 & H2 & H3 & H4);
        [unfold it_ok; cbn; lia | cbn in *; lia |].
      exists r, it'. auto.
    - destruct (IH (mk_bsi t (Some h) (base + 64) 0)) as (r & it' & H1 & H2 & H3 & H4);
        [unfold it_ok; cbn; lia | cbn [bi_word bi_iter bi_offset length N.ltb N.compare] in *; lia |].
      exists r, it'. cbn [bi_iter length] in *. repeat split; auto; lia. }
  destruct (N.eqb_spec w 0) as [Hw|Hw]; cbn [orb].
  { apply Hadv; [apply wbits_nil; auto|]. destruct (off <? 64)%N; lia. }
  destruct (N.leb_spec 64 off) as [Ho|Ho]; cbn [orb].
  { apply Hadv; [apply wbits_nil; left; lia|]. destruct (off <? 64)%N; lia. }
  unfold it_ok in Hok; cbn [bi_offset] in Hok.
  destruct (scan_spec 65 w off) as (off' & Hs1 & Hs2 & Hs3 & Hs4); [lia|lia|].
  rewrite Hs1. cbn [obind].
  destruct (N.ltb_spec off' 64) as [Hlt|Hge].
  - eexists (Some _), _. split; [reflexivity|]. split; [unfold it_ok; cbn; lia|]. split; [cbn; lia|].
    unfold rest. cbn [bi_word bi_base bi_offset bi_iter].
    rewrite (wbits_skip base off off' w), (wbits_hit base off' w) by (auto; lia). reflexivity.
  - assert (off' = 64%N) by lia. subst off'.
    destruct (N.ltb_spec off 64) as [_|]; [|lia].
    destruct (IH (mk_bsi ws (Some w) base 64)) as (r & it' & H1 & H2 & H3 & H4);
      [unfold it_ok; cbn; lia | cbn; lia |].
    exists r, it'. rewrite H1. repeat split; auto.
    unfold rest in *. cbn [bi_word bi_base bi_offset bi_iter] in *.
    rewrite (wbits_skip base off 64 w) by (auto; lia). exact H4.
Qed.

Lemma collect_spec n it : it_ok it -> (length (rest it) < n)%nat -> bsi_collect n it = Some (rest it).
Proof.
  revert it; induction n as [|n IH]; intros it Hok Hn; [lia|].
  cbn [bsi_collect].
  destruct (next_spec (bsi_fuel it) it Hok) as (r & it' & H1 & H2 & _ & H4).
  { unfold bsi_fuel. destruct (bi_word it); [destruct (bi_offset it <? 64)%N|]; lia. }
  rewrite H1. destruct r as [x|].
  - rewrite H4 in *. cbn [length] in Hn. rewrite IH by (auto; lia). reflexivity.
  - destruct H4 as [-> _]. reflexivity.
Qed.

Lemma rest_new ws : rest (bsi_new ws) = rwords 0 ws.
Proof. destruct ws; unfold rest, bsi_new; cbn [bi_word bi_base bi_offset bi_iter rwords]; reflexivity. Qed.

Lemma in_wbits base w x : In x (wbits base 0 w) <-> exists j, (j < 64)%N /\ x = (base + j)%N /\ N.testbit w j = true.
Proof.
  unfold wbits. rewrite in_map_iff. split.
  - intros (k & <- & Hk). apply filter_In in Hk as [Hk Ht]. apply in_seq in Hk.
    exists (N.of_nat k). repeat split; auto; lia.
  - intros (j & Hj & -> & Ht). exists (N.to_nat j). rewrite N2Nat.id. split; [reflexivity|].
    apply filter_In. rewrite N2Nat.id. split; [apply in_seq; lia | exact Ht].
Qed.

Lemma in_rwords ws base x : In x (rwords base ws) <->
  exists i, x = (base + i)%N /\ bit ws i = true.
Proof.
  revert base; induction ws as [|w ws IH]; intros base; cbn [rwords].
  - split; [intros []|]. intros (i & _ & H). unfold bit in H.
    destruct (N.to_nat (i / 64)); cbn [nth] in H; rewrite N.bits_0 in H; discriminate.
  - rewrite in_app_iff, in_wbits, IH. split.
    + intros [(j & Hj & -> & Ht) | (i & -> & Ht)].
      * exists j. split; [reflexivity|]. unfold bit. rewrite N.div_small, N.mod_small by exact Hj. exact Ht.
      * exists (64 + i)%N. split; [lia|]. unfold bit in *.
        replace (64 + i)%N with (i + 1 * 64)%N by lia. rewrite N.div_add, N.mod_add by lia.
        replace (N.to_nat (i / 64 + 1)) with (S (N.to_nat (i / 64))) by lia. exact Ht.
    + intros (i & -> & Ht). destruct (N.ltb_spec i 64) as [Hlt|Hge].
      * left. exists i. repeat split; auto. unfold bit in Ht.
        rewrite N.div_small, N.mod_small in Ht by exact Hlt. exact Ht.
      * right. exists (i - 64)%N. split; [lia|]. unfold bit in *.
        replace i with ((i - 64) + 1 * 64)%N in Ht by lia. rewrite N.div_add, N.mod_add in Ht by lia.
        replace (N.to_nat ((i - 64) / 64 + 1)) with (S (N.to_nat ((i - 64) / 64))) in Ht by lia. exact Ht.
Qed.

Lemma sorted_app l1 l2 : StronglySorted N.lt l1 -> StronglySorted N.lt l2 ->
  (forall x y, In x l1 -> In y l2 -> (x < y)%N) -> StronglySorted N.lt (l1 ++ l2).
Proof.
  induction 1 as [|a l1 Hs IH Ha]; intros H2 Hx; [exact H2|]. cbn [app]. constructor.
  - apply IH; auto. intros x y Hx1 Hy. apply Hx; [right|]; assumption.
  - apply Forall_app. split; [exact Ha|]. apply Forall_forall. intros y Hy. apply Hx; [left; reflexivity|exact Hy].
Qed.

Lemma sorted_seq_filter f base s n :
  StronglySorted N.lt (map (fun k => (base + N.of_nat k)%N) (filter f (seq s n))).
Proof.
  revert s; induction n as [|n IH]; intros s; cbn [seq filter]; [constructor|].
  destruct (f s); [|apply IH]. cbn [map]. constructor; [apply IH|].
  apply Forall_forall. intros x Hx. apply in_map_iff in Hx as (k & <- & Hk).
  apply filter_In in Hk as [Hk _]. apply in_seq in Hk. lia.
Qed.

Lemma sorted_rwords ws base : StronglySorted N.lt (rwords base ws).
Proof.
  revert base; induction ws as [|w ws IH]; intros base; cbn [rwords]; [constructor|].
  apply sorted_app; [apply sorted_seq_filter | apply IH |].
  intros x y Hx Hy. apply in_wbits in Hx as (j & Hj & -> & _). apply in_rwords in Hy as (i & -> & _). lia.
Qed.

Lemma filter_len {A} (f : A -> bool) l : (length (filter f l) <= length l)%nat.
Proof. induction l as [|a l IH]; cbn [filter length]; [lia|]. destruct (f a); cbn [length]; lia. Qed.

Lemma length_rwords ws base : (length (rwords base ws) <= 64 * length ws)%nat.
Proof.
  revert base; induction ws as [|w ws IH]; intros base; cbn [rwords length]; [lia|].
  rewrite app_length. specialize (IH (base + 64)%N).
  assert (length (wbits base 0 w) <= 64)%nat.
  { unfold wbits. rewrite map_length. etransitivity; [apply filter_len|]. rewrite seq_length. lia. }
  lia.
Qed.

Lemma bitset_iter_spec ws :
  exists l, bsi_collect (64 * length ws + 1) (bsi_new ws) = Some l /\
    StronglySorted N.lt l /\ (forall i, In i l <-> bit ws i = true).
Proof.
  exists (rwords 0 ws). rewrite <- rest_new. split.
  - apply collect_spec; [destruct ws; unfold it_ok; cbn; lia|].
    rewrite rest_new. pose proof (length_rwords ws 0). lia.
  - rewrite rest_new. split; [apply sorted_rwords|]. intros i. rewrite in_rwords. split.
    + intros (j & -> & H). exact H.
    + intros H. exists i. split; [lia|exact H].
Qed.

(** Once [next] has answered [None] it does so for ever. *)
Lemma bitset_iter_fused fuel it it' : bsi_next fuel it = Some (None, it') ->
  forall n, bsi_next (S n) it' = Some (None, it').
Proof.
  intros H n. assert (Hw : bi_word it' = None).
  { revert it H; induction fuel as [|k IH]; intros it H; [discriminate|]. cbn [bsi_next] in H.
    destruct (bi_word it) as [w|] eqn:E; [|inversion H; subst; exact E].
    destruct ((w =? 0)%N || (64 <=? bi_offset it)%N).
    - destruct (bi_iter it); eapply IH; exact H.
    - destruct (bsi_scan _ _ _ _) as [off|]; [|discriminate]. cbn [obind] in H.
      destruct (off <? 64)%N; [discriminate|]. eapply IH; exact H. }
  cbn [bsi_next]. rewrite Hw. reflexivity.
Qed.

(** ** Lexicographic order *)

Lemma lex_bits_spec n x y off : (N.to_nat off + n = 64)%nat ->
  match lex_bits n x y (shl64 1 off) with
  | Eq => forall j, (off <= j < 64)%N -> N.testbit x j = N.testbit y j
  | Lt => exists k, (off <= k < 64)%N /\ N.testbit x k = false /\ N.testbit y k = true /\
            forall j, (off <= j < k)%N -> N.testbit x j = N.testbit y j
  | Gt => exists k, (off <= k < 64)%N /\ N.testbit x k = true /\ N.testbit y k = false /\
            forall j, (off <= j < k)%N -> N.testbit x j = N.testbit y j
  end.
Proof.
  revert off; induction n as [|n IH]; intros off Hn; cbn [lex_bits]; [intros j Hj; lia|].
  assert (Hlt : (off < 64)%N) by lia.
  rewrite (shl64_pow2 off Hlt).
  assert (Hl : forall w, N.land w (2 ^ off) = if N.testbit w off then (2 ^ off)%N else 0%N).
  { intros w. apply N.bits_inj. intros j. rewrite N.land_spec. destruct (N.eq_dec off j) as [->|Hne].
    - destruct (N.testbit w j); [rewrite N.pow2_bits_true | rewrite N.bits_0]; reflexivity.
    - rewrite N.pow2_bits_false by exact Hne. rewrite andb_false_r.
      destruct (N.testbit w off); [rewrite N.pow2_bits_false by exact Hne | rewrite N.bits_0]; reflexivity. }
  rewrite !Hl. assert (Hp : (2 ^ off)%N <> 0%N) by (apply N.pow_nonzero; lia).
  rewrite <- (shl64_pow2 off Hlt), (shl64_step off Hlt), (shl64_pow2 off Hlt).
  specialize (IH (off + 1)%N ltac:(lia)).
  destruct (N.testbit x off) eqn:Ex; destruct (N.testbit y off) eqn:Ey.
  - rewrite N.eqb_refl. cbn [negb].
    destruct (lex_bits n x y (shl64 1 (off + 1))).
    + intros j Hj. destruct (N.eq_dec j off) as [->|]; [congruence | apply IH; lia].
    + destruct IH as (k & H1 & H2 & H3 & H4). exists k. repeat split; auto; try lia.
      intros j Hj. destruct (N.eq_dec j off) as [->|]; [congruence | apply H4; lia].
    + destruct IH as (k & H1 & H2 & H3 & H4). exists k. repeat split; auto; try lia.
      intros j Hj. destruct (N.eq_dec j off) as [->|]; [congruence | apply H4; lia].
  - destruct (N.eqb_spec (2 ^ off) 0); [contradiction|]. cbn [negb].
    replace (2 ^ off ?= 0)%N with Gt by (symmetry; apply N.compare_gt_iff; lia).
    exists off. repeat split; auto; try lia.
  - destruct (N.eqb_spec 0 (2 ^ off)); [congruence|]. cbn [negb].
    replace (0 ?= 2 ^ off)%N with Lt by (symmetry; apply N.compare_lt_iff; lia).
    exists off. repeat split; auto; try lia.
  - rewrite N.eqb_refl. cbn [negb].
    destruct (lex_bits n x y (shl64 1 (off + 1))).
    + intros j Hj. destruct (N.eq_dec j off) as [->|]; [congruence | apply IH; lia].
    + destruct IH as (k & H1 & H2 & H3 & H4). exists k. repeat split; auto; try lia.
      intros j Hj. destruct (N.eq_dec j off) as [->|]; [congruence | apply H4; lia].
    + destruct IH as (k & H1 & H2 & H3 & H4). exists k. repeat split; auto; try lia.
      intros j Hj. destruct (N.eq_dec j off) as [->|]; [congruence | apply H4; lia].
Qed.

(** The specification of the order: the smallest element on which the sets differ decides. *)
Definition set_lt (x y : list N) : Prop :=
  exists k, bit x k = false /\ bit y k = true /\ forall j, (j < k)%N -> bit x j = bit y j.
Definition set_eq (x y : list N) : Prop := forall j, bit x j = bit y j.

Lemma bit_low x j : (j < 64)%N -> bit x j = N.testbit (hd 0%N x) j.
Proof. intros H. unfold bit. rewrite N.div_small, N.mod_small by exact H. destruct x; reflexivity. Qed.
Lemma bit_high x j : bit x (64 + j) = bit (tl x) j.
Proof.
  unfold bit. replace (64 + j)%N with (j + 1 * 64)%N by lia. rewrite N.div_add, N.mod_add by lia.
  replace (N.to_nat (j / 64 + 1)) with (S (N.to_nat (j / 64))) by lia.
  destruct x; [destruct (N.to_nat (j / 64)); reflexivity | reflexivity].
Qed.
Lemma bit_cases (P : N -> Prop) : (forall j, (j < 64)%N -> P j) -> (forall j, P (64 + j)%N) -> forall j, P j.
Proof. intros H1 H2 j. destruct (N.ltb_spec j 64) as [H|H]; [auto|].
  replace j with (64 + (j - 64))%N by lia. apply H2. Qed.

Lemma hd_ok x : Forall word_ok x -> word_ok (hd 0%N x).
Proof. intros H. destruct x; cbn; [unfold word_ok; lia | inversion H; assumption]. Qed.
Lemma tl_ok x : Forall word_ok x -> Forall word_ok (tl x).
Proof. intros H. destruct x; cbn; [constructor | inversion H; assumption]. Qed.

Lemma word_ext x y : word_ok x -> word_ok y -> (forall j, (j < 64)%N -> N.testbit x j = N.testbit y j) -> x = y.
Proof.
  intros Hx Hy H. apply N.bits_inj. intros j. destruct (N.ltb_spec j 64) as [Hj|Hj]; [apply H; exact Hj|].
  unfold word_ok in *.
  assert (Hhi : forall w, (w < 2 ^ 64)%N -> N.testbit w j = false).
  { intros w Hw. destruct (N.eq_dec w 0) as [->|Hn]; [apply N.bits_0|]. apply N.bits_above_log2.
    apply N.log2_lt_pow2; [lia|]. apply N.lt_le_trans with (2 ^ 64)%N; [exact Hw|].
    apply N.pow_le_mono_r; lia. }
  rewrite !Hhi by assumption. reflexivity.
Qed.

Lemma lex_words_spec n x y : (Nat.max (length x) (length y) <= n)%nat -> Forall word_ok x -> Forall word_ok y ->
  match lex_words n x y with
  | Eq => set_eq x y
  | Lt => set_lt x y
  | Gt => set_lt y x
  end.
Proof.
  revert x y; induction n as [|n IH]; intros x y Hn Hx Hy; cbn [lex_words].
  - destruct x; [|destruct y; cbn [length] in Hn; lia]. destruct y; [|cbn [length] in Hn; lia]. intros j. reflexivity.
  - specialize (IH (tl x) (tl y)).
    assert (Hn' : (Nat.max (length (tl x)) (length (tl y)) <= n)%nat)
      by (destruct x, y; cbn [tl length] in *; lia).
    specialize (IH Hn' (tl_ok _ Hx) (tl_ok _ Hy)).
    assert (Hsame : hd 0%N x = hd 0%N y ->
      match lex_words n (tl x) (tl y) with
      | Eq => set_eq x y | Lt => set_lt x y | Gt => set_lt y x end).
    { intros He. destruct (lex_words n (tl x) (tl y)).
      - intros j. apply (bit_cases (fun j => bit x j = bit y j)).
        + intros i Hi. rewrite !bit_low by exact Hi. congruence.
        + intros i. rewrite !bit_high. apply IH.
      - destruct IH as (k & H1 & H2 & H3). exists (64 + k)%N. rewrite !bit_high. repeat split; auto.
        apply (bit_cases (fun j => (j < 64 + k)%N -> bit x j = bit y j)).
        + intros i Hi _. rewrite !bit_low by exact Hi. congruence.
        + intros i Hi. rewrite !bit_high. apply H3. lia.
      - destruct IH as (k & H1 & H2 & H3). exists (64 + k)%N. rewrite !bit_high. repeat split; auto.
        apply (bit_cases (fun j => (j < 64 + k)%N -> bit y j = bit x j)).
        + intros i Hi _. rewrite !bit_low by exact Hi. congruence.
        + intros i Hi. rewrite !bit_high. apply H3. lia. }
    destruct (N.eqb_spec (hd 0%N x) (hd 0%N y)) as [He|He]; cbn [negb]; [apply Hsame; exact He|].
    pose proof (lex_bits_spec 64 (hd 0%N x) (hd 0%N y) 0 eq_refl) as Hb.
    change (shl64 1 0) with 1%N in Hb.
    destruct (lex_bits 64 (hd 0%N x) (hd 0%N y) 1); cbn [then_with].
    + exfalso. apply He. apply word_ext; [apply hd_ok; exact Hx | apply hd_ok; exact Hy |].
      intros j Hj. apply Hb. lia.
    + destruct Hb as (k & H1 & H2 & H3 & H4). exists k. rewrite !bit_low by lia. repeat split; auto.
      intros j Hj. rewrite !bit_low by lia. apply H4. lia.
    + destruct Hb as (k & H1 & H2 & H3 & H4). exists k. rewrite !bit_low by lia. repeat split; auto.
      intros j Hj. rewrite !bit_low by lia. symmetry. apply H4. lia.
Qed.

Lemma lex_cmp_spec x y : Forall word_ok x -> Forall word_ok y ->
  match lex_cmp x y with Eq => set_eq x y | Lt => set_lt x y | Gt => set_lt y x end.
Proof. intros Hx Hy. apply lex_words_spec; auto. Qed.

Lemma set_lt_irrefl x y : set_eq x y -> ~ set_lt x y.
Proof. intros He (k & H1 & H2 & _). rewrite He in H1. congruence. Qed.
Lemma set_lt_asym x y : set_lt x y -> ~ set_lt y x.
Proof.
  intros (k & H1 & H2 & H3) (k' & H1' & H2' & H3').
  destruct (N.lt_trichotomy k k') as [H|[->|H]].
  - rewrite (H3' k H) in H2. congruence.
  - congruence.
  - rewrite (H3 k' H) in H2'. congruence.
Qed.
Lemma set_lt_trans x y z : set_lt x y -> set_lt y z -> set_lt x z.
Proof.
  intros (k & H1 & H2 & H3) (k' & H1' & H2' & H3').
  destruct (N.lt_trichotomy k k') as [H|[->|H]].
  - exists k. rewrite <- (H3' k H). repeat split; auto. intros j Hj. rewrite H3 by lia. apply H3'. lia.
  - congruence.
  - exists k'. rewrite (H3 k' H). repeat split; auto. intros j Hj. rewrite H3 by lia. apply H3'. lia.
Qed.
Lemma set_lt_eq_l x y z : set_eq x y -> set_lt y z -> set_lt x z.
Proof. intros He (k & H1 & H2 & H3). exists k. rewrite He. repeat split; auto. intros j Hj. rewrite He. auto. Qed.
Lemma set_lt_eq_r x y z : set_lt x y -> set_eq y z -> set_lt x z.
Proof. intros (k & H1 & H2 & H3) He. exists k. rewrite <- He. repeat split; auto. intros j Hj. rewrite <- He. auto. Qed.

Lemma lex_iff x y : Forall word_ok x -> Forall word_ok y ->
  (lex_cmp x y = Lt <-> set_lt x y) /\ (lex_cmp x y = Eq <-> set_eq x y) /\ (lex_cmp x y = Gt <-> set_lt y x).
Proof.
  intros Hx Hy. pose proof (lex_cmp_spec x y Hx Hy) as H. destruct (lex_cmp x y).
  - repeat split; auto; try discriminate.
    + intros Hl. exfalso. revert Hl. apply set_lt_irrefl. exact H.
    + intros Hl. exfalso. revert Hl. apply set_lt_irrefl. intros j. symmetry. apply H.
  - repeat split; auto; try discriminate.
    + intros He. exfalso. revert H. apply set_lt_irrefl. exact He.
    + intros Hl. exfalso. revert Hl. apply set_lt_asym. exact H.
  - repeat split; auto; try discriminate.
    + intros Hl. exfalso. revert Hl. apply set_lt_asym. exact H.
    + intros He. exfalso. revert H. apply set_lt_irrefl. intros j. symmetry. apply He.
Qed.

Lemma lex_antisym x y : Forall word_ok x -> Forall word_ok y -> lex_cmp y x = CompOpp (lex_cmp x y).
Proof.
  intros Hx Hy. destruct (lex_iff x y Hx Hy) as (Hl & He & Hg), (lex_iff y x Hy Hx) as (Hl' & He' & Hg').
  destruct (lex_cmp x y); cbn [CompOpp].
  - apply He'. intros j. symmetry. apply He; reflexivity.
  - apply Hg'. apply Hl; reflexivity.
  - apply Hl'. apply Hg; reflexivity.
Qed.

Lemma lex_trans x y z : Forall word_ok x -> Forall word_ok y -> Forall word_ok z ->
  lex_cmp x y <> Gt -> lex_cmp y z <> Gt -> lex_cmp x z <> Gt /\
  (lex_cmp x z = Eq -> lex_cmp x y = Eq /\ lex_cmp y z = Eq).
Proof.
  intros Hx Hy Hz H1 H2.
  pose proof (lex_cmp_spec x y Hx Hy) as Hxy. pose proof (lex_cmp_spec y z Hy Hz) as Hyz.
  destruct (lex_iff x z Hx Hz) as (Hl & He & Hg).
  destruct (lex_cmp x y); [| |congruence]; (destruct (lex_cmp y z); [| |congruence]).
  - assert (E : lex_cmp x z = Eq) by (apply He; intros j; rewrite Hxy; apply Hyz). rewrite E. split; [discriminate|auto].
  - assert (E : lex_cmp x z = Lt) by (apply Hl; eapply set_lt_eq_l; eauto). rewrite E. split; discriminate.
  - assert (E : lex_cmp x z = Lt) by (apply Hl; eapply set_lt_eq_r; eauto). rewrite E. split; discriminate.
  - assert (E : lex_cmp x z = Lt) by (apply Hl; eapply set_lt_trans; eauto). rewrite E. split; discriminate.
Qed.

Lemma words_eqb_eq x y : words_eqb x y = true -> x = y.
Proof.
  revert y; induction x as [|a x IH]; intros [|b y] H; cbn in H; try discriminate; [reflexivity|].
  apply andb_true_iff in H as [H1 H2]. apply N.eqb_eq in H1. rewrite H1, (IH _ H2). reflexivity.
Qed.

Lemma lex_eq_spec x y : Forall word_ok x -> Forall word_ok y -> (lex_eq x y = true <-> set_eq x y).
Proof.
  intros Hx Hy. destruct (lex_iff x y Hx Hy) as (_ & He & _). unfold lex_eq. rewrite orb_true_iff. split.
  - intros [H|H]; [apply words_eqb_eq in H; subst; intros j; reflexivity|].
    apply He. destruct (lex_cmp x y); [reflexivity|discriminate|discriminate].
  - intros H. right. apply He in H. rewrite H. reflexivity.
Qed.
