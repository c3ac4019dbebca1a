(** The estimate of the PSP example: it never panics in a release build and is never negative; a debug build panics where
    there are more periods than orders. *)
From Verif Require Import Spec Psp PspSpec Bits BitsFacts MatrixFacts PspFacts PspPlans PspMerge.
Open Scope Z_scope.

(** ** The table of spanning trees *)
Lemma count_less f g t i : (forall s, (s < t)%nat -> g s = true -> f s = true) -> (i < t)%nat -> f i = true -> g i = false -> count g t + 1 <= count f t.
Proof.
  induction t as [|t IH]; intros Hle Hi Hf Hg; [lia|]. rewrite !count_S.
  destruct (Nat.eq_dec i t) as [->|Hne].
  - rewrite Hf, Hg. assert (count g t <= count f t); [|lia]. clear - Hle. induction t as [|t IH]; [reflexivity|]. rewrite !count_S.
    assert (count g t <= count f t) by (apply IH; intros s Hs; apply Hle; lia). specialize (Hle t ltac:(lia)).
    destruct (g t); [rewrite Hle by reflexivity; lia|destruct (f t); lia].
  - assert (count g t + 1 <= count f t) by (apply IH; [intros s Hs; apply Hle; lia|lia|exact Hf|exact Hg]). specialize (Hle t ltac:(lia)).
    destruct (g t); [rewrite Hle by reflexivity; lia|destruct (f t); lia].
Qed.

Definition edge_ok (n : nat) (M : Z) (e : Z * nat * nat) : Prop := 0 <= fst (fst e) <= M /\ (snd (fst e) < n)%nat /\ (snd e < n)%nat.
Lemma scan_range n M heap : 0 <= M -> Forall (edge_ok n M) heap -> forall vs total emax, 0 <= emax <= total ->
  0 <= mst_scan heap vs total emax <= total + M * count (bs_get vs) n.
Proof.
  intros HM Hf. induction Hf as [|[[l i] j] heap (Hl & Hi & Hj) _ IH]; intros vs total emax Ht; cbn [mst_scan fst snd] in *;
    pose proof (proj1 (count_range (bs_get vs) n)).
  - destruct (N.eqb vs 0); nia.
  - destruct (N.eqb vs 0); [nia|]. destruct (bs_get vs i || bs_get vs j) eqn:E; [|apply IH; exact Ht].
    assert (count (bs_get (bs_off (bs_off vs i) j)) n + 1 <= count (bs_get vs) n) as Hc.
    { apply orb_prop in E. destruct E as [E|E].
      - apply (count_less _ _ _ i); [|exact Hi|exact E|]; [intros s _|]; rewrite !get_off.
        + intros Hs. apply andb_prop in Hs. destruct Hs as [_ Hs]. apply andb_prop in Hs. apply Hs.
        + rewrite Nat.eqb_refl. cbn. apply andb_false_r.
      - apply (count_less _ _ _ j); [|exact Hj|exact E|]; [intros s _|]; rewrite !get_off.
        + intros Hs. apply andb_prop in Hs. destruct Hs as [_ Hs]. apply andb_prop in Hs. apply Hs.
        + rewrite Nat.eqb_refl. reflexivity. }
    pose proof (IH (bs_off (bs_off vs i) j) (total + l) (Z.max emax l) ltac:(lia)). nia.
Qed.

Lemma omap_len {A B} (f : A -> option B) l r : omap f l = Some r -> length r = length l.
Proof.
  revert r. induction l as [|x l IH]; intros r H; cbn [omap] in H; [inversion H; reflexivity|].
  destruct (f x); [|discriminate]. cbn [obind] in H. destruct (omap f l); [|discriminate]. inversion H; subst. cbn. f_equal. apply IH. reflexivity.
Qed.

Lemma all_bits_below n a : (forall m, (n <= m)%nat -> bs_get a m = false) -> (N.to_nat a < 2 ^ n)%nat.
Proof.
  intros H. assert (a = a mod 2 ^ N.of_nat n)%N as He.
  { apply N.bits_inj. intros m. destruct (N.lt_ge_cases m (N.of_nat n)) as [Hm|Hm].
    - rewrite N.mod_pow2_bits_low by exact Hm. reflexivity.
    - rewrite N.mod_pow2_bits_high by exact Hm. specialize (H (N.to_nat m) ltac:(lia)). unfold bs_get in H. rewrite N2Nat.id in H. exact H. }
  assert (a < 2 ^ N.of_nat n)%N as Hlt by (rewrite He; apply N.mod_lt; apply N.pow_nonzero; lia).
  assert (N.of_nat (2 ^ n) = 2 ^ N.of_nat n)%N as Hp by (rewrite Nat2N.inj_pow; reflexivity). lia.
Qed.

Section Estimate.
Variable D : psp_data.
Variable M : Z.
Hypothesis Hok : psp_ok D M.
Let T := pd_T D.
Let n := pd_n D.

Definition mst_ok (mst : list Z) : Prop := length mst = (2 ^ n)%nat /\ Forall (fun x => 0 <= x <= M * Z.of_nat n) mst.

Lemma mst_edges_ok dbg vs : exists es, mst_edges dbg (pd_change D) n vs = Some es /\ Forall (edge_ok n M) es.
Proof.
  unfold mst_edges.
  set (row := fun i => map (fun j => (Z.min (change D i j) (change D j i), i, j)) (filter (fun j => negb (Nat.eqb i j)) (bs_iter n vs))).
  rewrite (omap_some _ row).
  2:{ intros i Hi. apply in_bs_iter in Hi. apply (omap_some _ (fun j => (Z.min (change D i j) (change D j i), i, j))).
      intros j Hj. apply filter_In in Hj. destruct Hj as [Hj _]. apply in_bs_iter in Hj.
      rewrite !(change_get D M Hok dbg) by (fold n; lia). reflexivity. }
  cbn [obind]. eexists. split; [reflexivity|]. rewrite Forall_forall. intros e He. apply in_concat in He. destruct He as (r & Hr & He).
  apply in_map_iff in Hr. destruct Hr as (i & <- & Hi). apply in_bs_iter in Hi. unfold row in He. apply in_map_iff in He. destruct He as (j & <- & Hj).
  apply filter_In in Hj. destruct Hj as [Hj _]. apply in_bs_iter in Hj. unfold edge_ok. cbn [fst snd].
  pose proof (po_change_range _ _ Hok i j (proj1 Hi) (proj1 Hj)). pose proof (po_change_range _ _ Hok j i (proj1 Hj) (proj1 Hi)). lia.
Qed.

Lemma precompute_ok dbg sort : (forall l, Permutation l (sort l)) -> exists mst, precompute_all_mst dbg sort n (pd_change D) = Some mst /\ mst_ok mst.
Proof.
  intros Hp. unfold precompute_all_mst.
  assert (forall l acc, Forall (edge_ok n M) (fst acc) -> Forall (fun x => 0 <= x <= M * Z.of_nat n) (snd acc) ->
    exists heap out, ofold (mst_one dbg sort (pd_change D) n) l acc = Some (heap, out) /\ length out = (length (snd acc) + length l)%nat /\
      Forall (fun x => 0 <= x <= M * Z.of_nat n) out) as H.
  { induction l as [|i l IH]; intros [heap out] Hh Ho; cbn [fst snd ofold] in *.
    - exists heap, out. split; [reflexivity|]. split; [cbn; lia|exact Ho].
    - unfold mst_one at 1. destruct (mst_edges_ok dbg (N.of_nat i)) as (es & -> & Hes). cbn [obind].
      assert (Forall (edge_ok n M) (sort (heap ++ es))) as Hs.
      { rewrite Forall_forall in *. intros e He. apply Permutation_in with (l' := heap ++ es) in He; [|symmetry; apply Hp].
        apply in_app_iff in He. destruct He as [He|He]; auto. }
      destruct (IH (sort (heap ++ es), out ++ [mst_scan (sort (heap ++ es)) (N.of_nat i) 0 0])) as (h' & o' & H1 & H2 & H3).
      + exact Hs.
      + cbn [snd]. apply Forall_app. split; [exact Ho|]. constructor; [|constructor].
        pose proof (scan_range n M (sort (heap ++ es)) (po_M _ _ Hok) Hs (N.of_nat i) 0 0 ltac:(lia)).
        pose proof (count_range (bs_get (N.of_nat i)) n). pose proof (po_M _ _ Hok). nia.
      + exists h', o'. split; [exact H1|]. split; [|exact H3]. rewrite H2. cbn [snd]. rewrite app_length. cbn [length]. lia. }
  destruct (H (seq 0 (2 ^ n)) ([], []) ltac:(constructor) ltac:(constructor)) as (heap & out & -> & H1 & H2). cbn [obind].
  exists out. split; [reflexivity|]. split; [|exact H2]. rewrite H1, seq_length. reflexivity.
Qed.
Lemma loaded_ok J : loaded D J -> exists mst, mst_ok mst /\ J = psp_build D mst.
Proof.
  intros (dbg & sort & mst & Hp & H1 & ->). destruct (precompute_ok dbg sort Hp) as (mst' & H2 & H3). exists mst. split; [|reflexivity].
  change (pd_n D) with n in H1. rewrite H2 in H1. inversion H1; subst. exact H3.
Qed.

(** ** The greedy stocking plan *)
Variable mst : list Z.
Hypothesis Hmst : mst_ok mst.
Let I := psp_build D mst.

Definition us_ok (us : list Z) : Prop := length us = n /\ forall i, (i < n)%nat -> dl_ok D i (nth i us 0).
Lemma pick_nonneg time : forall l it d c r, 0 <= it -> ofold (fun acc iu => let '(item, deadline, cost) := acc in let '(i, u) := iu in
  if u <? time then Some acc else do c <- nth_error (pd_stock D) i; Some (if cost <=? c then (Z.of_nat i, u, c) else acc)) l (it, d, c) = Some r -> 0 <= fst (fst r).
Proof.
  induction l as [|[i' u'] l IH]; intros it d' c' r Hit H; cbn [ofold] in H; [inversion H; subst; exact Hit|].
  destruct (u' <? time); cbn [obind] in H; [eapply IH; eassumption|]. destruct (nth_error (pd_stock D) i'); [|discriminate]. cbn [obind] in H.
  destruct (c' <=? z); (eapply IH; [|exact H]); lia.
Qed.
Lemma pick_spec time us : us_ok us -> exists item dl cost, ideal_pick (pd_stock D) time us = Some (item, dl, cost) /\
  ((item = IDLE /\ dl = 0 /\ cost = 0 /\ forall i, (i < n)%nat -> nth i us 0 < time) \/
   exists i, (i < n)%nat /\ item = Z.of_nat i /\ dl = nth i us 0 /\ time <= dl /\ cost = stock D i).
Proof.
  intros [Hl _]. unfold ideal_pick.
  assert (forall l acc, (forall i u, In (i, u) l -> (i < n)%nat /\ u = nth i us 0) ->
    (let '(item, dl, cost) := acc in (item = IDLE /\ dl = 0 /\ cost = 0) \/ exists i, (i < n)%nat /\ item = Z.of_nat i /\ dl = nth i us 0 /\ time <= dl /\ cost = stock D i) ->
    exists item dl cost, ofold (fun acc iu => let '(item, deadline, cost) := acc in let '(i, u) := iu in
       if u <? time then Some acc else do c <- nth_error (pd_stock D) i; Some (if cost <=? c then (Z.of_nat i, u, c) else acc)) l acc = Some (item, dl, cost) /\
    ((item = IDLE /\ dl = 0 /\ cost = 0 /\ (forall i u, In (i, u) l -> u < time)) \/ exists i, (i < n)%nat /\ item = Z.of_nat i /\ dl = nth i us 0 /\ time <= dl /\ cost = stock D i)) as H.
  { induction l as [|[i u] l IH]; intros [[item dl] cost] Hin Hacc; cbn [ofold].
    - exists item, dl, cost. split; [reflexivity|]. destruct Hacc as [(-> & -> & ->)|Ha]; [left; repeat split; intros i u []|right; exact Ha].
    - destruct (Hin i u (or_introl eq_refl)) as [Hi Hu]. destruct (Z.ltb_spec u time) as [Hlt|Hge]; cbn [obind].
      + destruct (IH (item, dl, cost)) as (it & d & c & H1 & H2); [intros i' u' H'; apply Hin; right; exact H'|exact Hacc|].
        exists it, d, c. split; [exact H1|]. destruct H2 as [(Ha & Hb & Hc & Hd)|H2]; [left|right; exact H2].
        split; [exact Ha|]. split; [exact Hb|]. split; [exact Hc|]. intros i' u' [H'|H']; [inversion H'; subst; exact Hlt|apply (Hd i' u' H')].
      + rewrite (nth_error_nth' (pd_stock D) 0) by (rewrite (po_stock _ _ Hok); exact Hi). cbn [obind]. fold (stock D i).
        destruct (Z.leb_spec cost (stock D i)) as [Hc|Hc].
        * destruct (IH (Z.of_nat i, u, stock D i)) as (it & d & c & H1 & H2); [intros i' u' H'; apply Hin; right; exact H'| |].
          { right. exists i. repeat split; [exact Hi|exact Hu|lia]. }
          exists it, d, c. split; [exact H1|]. destruct H2 as [(Ha & Hb & Hc' & Hd)|H2]; [|right; exact H2].
          exfalso. subst it.
          pose proof (pick_nonneg time) as Hn.
          apply Hn in H1; [unfold IDLE in H1; cbn in H1; lia|lia].
        * destruct (IH (item, dl, cost)) as (it & d & c & H1 & H2); [intros i' u' H'; apply Hin; right; exact H'|exact Hacc|].
          exists it, d, c. split; [exact H1|]. destruct H2 as [(Ha & Hb & Hc' & Hd)|H2]; [|right; exact H2].
          destruct Hacc as [(-> & -> & ->)|(j & Hj & -> & -> & Hj2 & ->)].
          { exfalso. pose proof (po_stock_range _ _ Hok i Hi). lia. }
          exfalso. subst it.
          pose proof (pick_nonneg time) as Hn.
          apply Hn in H1; [unfold IDLE in H1; cbn in H1; lia|lia]. }
  destruct (H (combine (seq 0 (length us)) us) (IDLE, 0, 0)) as (item & dl & cost & H1 & H2).
  - intros i u Hin. destruct (In_nth _ _ (O, 0) Hin) as (m & Hm & He). rewrite combine_length, seq_length, Nat.min_id in Hm.
    rewrite combine_nth, seq_nth in He by (rewrite ?seq_length; lia). inversion He; subst. cbn. split; [lia|reflexivity].
  - left. auto.
  - exists item, dl, cost. split; [exact H1|]. destruct H2 as [(Ha & Hb & Hc & Hd)|H2]; [left|right; exact H2].
    split; [exact Ha|]. split; [exact Hb|]. split; [exact Hc|]. intros i Hi. apply (Hd i).
    apply (nth_error_In _ i). rewrite (nth_error_nth' _ (O, 0)) by (rewrite combine_length, seq_length; lia).
    rewrite combine_nth, seq_nth by (rewrite ?seq_length; lia). reflexivity.
Qed.

Lemma us_next us i v : us_ok us -> (i < n)%nat -> dl_ok D i v -> exists us', upd us i v = Some us' /\ us_ok us' /\
  forall j, (j < n)%nat -> nth j us' 0 = if Nat.eqb j i then v else nth j us 0.
Proof.
  intros [Hl Hd] Hi Hv. destruct (upd_some us i v) as [us' Hus]; [lia|]. exists us'. split; [exact Hus|].
  assert (forall j, (j < n)%nat -> nth j us' 0 = if Nat.eqb j i then v else nth j us 0) as Hn.
  { intros j Hj. pose proof (upd_nth _ _ _ _ Hus j) as H. rewrite (nth_error_nth' us 0) in H by lia.
    destruct (Nat.eqb j i); apply nth_error_nth with (d := 0) in H; exact H. }
  split; [|exact Hn]. split; [rewrite (upd_length _ _ _ _ Hus); exact Hl|]. intros j Hj. rewrite (Hn j Hj).
  destruct (Nat.eqb_spec j i) as [->|]; [exact Hv|apply Hd; exact Hj].
Qed.

Lemma costs_ok : forall periods us, (periods <= T)%nat -> us_ok us -> exists l, ideal_costs I false periods us = Some l /\ length l = periods /\
  Forall (fun x => 0 <= x <= Z.of_nat T * M) l.
Proof.
  induction periods as [|t IH]; intros us Ht Hus; cbn [ideal_costs]; [exists []; repeat split; constructor|].
  destruct (pick_spec (Z.of_nat t) us Hus) as (item & dl & cost & Hp & H). change (ps_stock I) with (pd_stock D). rewrite Hp. cbn [obind].
  destruct H as [(-> & -> & -> & _)|(i & Hi & -> & -> & Hle & ->)].
  - assert (exists gap, usub false 0 (Z.of_nat t) = Some gap) as [gap ->] by (unfold usub; destruct (Z.of_nat t <=? 0); eexists; reflexivity).
    cbn [obind]. change (IDLE =? IDLE) with true. cbv iota. cbn [obind]. destruct (IH us ltac:(lia) Hus) as (l & -> & Hl & Hf). cbn [obind].
    eexists. split; [reflexivity|]. split; [rewrite app_length, Hl; cbn; lia|]. apply Forall_app. split; [exact Hf|]. constructor; [|constructor].
    rewrite Z.mul_0_r. pose proof (po_M _ _ Hok). nia.
  - rewrite (usub_some false) by exact Hle. cbn [obind]. destruct (Z.eqb_spec (Z.of_nat i) IDLE) as [He|_]; [unfold IDLE in He; lia|]. rewrite Nat2Z.id.
    pose proof (proj2 Hus i Hi) as Hdl. destruct (prev_spec D M Hok false i (nth i us 0) Hi Hdl) as (v & Hv & _ & Hv2 & _); [lia|].
    change (ps_prev I) with (prev_table D). rewrite Hv. cbn [obind]. destruct (us_next us i v Hus Hi Hv2) as (us' & -> & Hus' & _). cbn [obind].
    destruct (IH us' ltac:(lia) Hus') as (l & -> & Hl & Hf). cbn [obind].
    eexists. split; [reflexivity|]. split; [rewrite app_length, Hl; cbn; lia|]. apply Forall_app. split; [exact Hf|]. constructor; [|constructor].
    pose proof (po_stock_range _ _ Hok i Hi). destruct Hdl as [Hdl|[Hdl _]]; [lia|]. fold T in Hdl. nia.
Qed.

(** A debug build panics at the first period, other than period 0, for which no item is available. *)
Lemma costs_panic : forall periods us, (periods <= T)%nat -> us_ok us -> zsum (map (fun i => orders D i (nth i us 0)) (seq 0 n)) + 1 < Z.of_nat periods ->
  ideal_costs I true periods us = None.
Proof.
  induction periods as [|t IH]; intros us Ht Hus Hs; cbn [ideal_costs].
  - assert (0 <= zsum (map (fun i => orders D i (nth i us 0)) (seq 0 n))); [|lia].
    apply zsum_nonneg. intros x Hx. apply in_map_iff in Hx. destruct Hx as (j & <- & _). apply orders_nonneg.
  - destruct (pick_spec (Z.of_nat t) us Hus) as (item & dl & cost & Hp & H). change (ps_stock I) with (pd_stock D). rewrite Hp. cbn [obind].
    assert (0 <= zsum (map (fun i => orders D i (nth i us 0)) (seq 0 n))) as H0.
    { apply zsum_nonneg. intros x Hx. apply in_map_iff in Hx. destruct Hx as (j & <- & _). apply orders_nonneg. }
    destruct H as [(-> & -> & -> & _)|(i & Hi & -> & -> & Hle & ->)].
    + unfold usub. destruct (Z.leb_spec (Z.of_nat t) 0); [lia|]. reflexivity.
    + rewrite (usub_some true) by exact Hle. cbn [obind]. destruct (Z.eqb_spec (Z.of_nat i) IDLE) as [He|_]; [unfold IDLE in He; lia|]. rewrite Nat2Z.id.
      pose proof (proj2 Hus i Hi) as Hdl. destruct (prev_spec D M Hok true i (nth i us 0) Hi Hdl) as (v & Hv & _ & Hv2 & Hv3); [lia|].
      change (ps_prev I) with (prev_table D). rewrite Hv. cbn [obind]. destruct (us_next us i v Hus Hi Hv2) as (us' & -> & Hus' & Hn). cbn [obind].
      rewrite IH; [reflexivity|lia|exact Hus'|].
      rewrite (zsum_update _ (fun j => orders D j (nth j us 0)) n i Hi).
      * rewrite (Hn i Hi), Nat.eqb_refl, Hv3. lia.
      * intros j Hj Hne. rewrite (Hn j Hj). destruct (Nat.eqb_spec j i); [contradiction|reflexivity].
Qed.

Lemma stocking_ok periods us : (periods <= T)%nat -> us_ok us -> exists g, ideal_stocking I false periods us = Some g /\ 0 <= g <= Z.of_nat T * (Z.of_nat T * M).
Proof.
  intros Ht Hus. unfold ideal_stocking. destruct (costs_ok periods us Ht Hus) as (l & -> & Hl & Hf). cbn [obind]. eexists. split; [reflexivity|].
  assert (forall l acc, Forall (fun x => 0 <= x <= Z.of_nat T * M) l -> 0 <= acc ->
    0 <= fold_left (fun tot v => Z.min (2 ^ 64 - 1) (tot + v)) l acc <= acc + Z.of_nat (length l) * (Z.of_nat T * M)) as H.
  { clear. induction l as [|x l IH]; intros acc Hf Ha; [cbn; lia|]. inversion Hf as [|y m Hx Hf']; subst. cbn [fold_left length].
    assert (0 <= Z.min (2 ^ 64 - 1) (acc + x)) as Hm by (clear - Ha Hx; apply Z.min_glb; lia). specialize (IH _ Hf' Hm). rewrite Nat2Z.inj_succ, Z.mul_succ_l. lia. }
  specialize (H l 0 Hf ltac:(lia)). pose proof (po_M _ _ Hok) as HM. assert (0 <= Z.of_nat T * M) as HB by (apply Z.mul_nonneg_nonneg; lia).
  pose proof (Z.mul_le_mono_nonneg_r (Z.of_nat (length l)) (Z.of_nat T) (Z.of_nat T * M) HB ltac:(lia)). lia.
Qed.

Lemma vertices_ok k us : (k = BOT \/ 0 <= k < Z.of_nat n) -> length us = n -> exists vs, ps_vertices k us = Some vs /\ (N.to_nat vs < 2 ^ n)%nat.
Proof.
  intros Hk Hl. pose proof (po_n _ _ Hok) as H32. fold n in H32. unfold ps_vertices.
  assert (exists v0, (if k =? -1 then Some bs_none else ps_insert bs_none (Z.to_nat k)) = Some v0 /\ forall m, (n <= m)%nat -> bs_get v0 m = false) as (v0 & -> & Hv0).
  { destruct (Z.eqb_spec k (-1)) as [|Hne]; [exists bs_none; split; [reflexivity|intros; apply get_none]|].
    destruct Hk as [->|Hk]; [contradiction|]. unfold ps_insert. destruct (Nat.ltb_spec (Z.to_nat k) 32); [|lia].
    eexists. split; [reflexivity|]. intros m Hm. rewrite get_on, get_none. destruct (Nat.eqb_spec m (Z.to_nat k)); [lia|reflexivity]. }
  cbn [obind].
  assert (forall l v, (forall i u, In (i, u) l -> (i < n)%nat) -> (forall m, (n <= m)%nat -> bs_get v m = false) ->
    exists vs, ofold (fun vs iu => if 0 <=? snd iu then ps_insert vs (fst iu) else Some vs) l v = Some vs /\ forall m, (n <= m)%nat -> bs_get vs m = false) as H.
  { induction l as [|[i u] l IH]; intros v Hin Hv; cbn [ofold fst snd]; [exists v; split; [reflexivity|exact Hv]|].
    assert (i < n)%nat as Hi by (apply (Hin i u); left; reflexivity).
    destruct (0 <=? u); cbn [obind].
    - assert (ps_insert v i = Some (bs_on v i)) as -> by (unfold ps_insert; destruct (Nat.ltb_spec i 32); [reflexivity|lia]). cbn [obind]. apply IH; [intros i' u' H'; apply (Hin i' u'); right; exact H'|].
      intros m Hm. rewrite get_on, (Hv m Hm). destruct (Nat.eqb_spec m i); [lia|reflexivity].
    - apply IH; [intros i' u' H'; apply (Hin i' u'); right; exact H'|exact Hv]. }
  destruct (H (combine (seq 0 (length us)) us) v0) as (vs & Hvs & Hb).
  - intros i u Hin. apply in_combine_l in Hin. apply in_seq in Hin. lia.
  - exact Hv0.
  - exists vs. split; [exact Hvs|]. apply all_bits_below. exact Hb.
Qed.

Lemma layer_us k s : psp_layer D k s -> us_ok (pt_u s).
Proof. intros Hs. split; [apply Hs|]. intros i Hi. apply Hs. exact Hi. Qed.

Theorem estimate_release : forall k s, psp_layer D k s -> exists e, ps_estimate I false s = Some e /\ 0 <= e <= IMAX.
Proof.
  intros k s Hs. unfold ps_estimate. destruct (pt_time s) as [|t] eqn:Ht; [exists 0; split; [reflexivity|unfold IMAX; lia]|]. rewrite <- Ht.
  destruct (pl_time _ _ _ Hs) as [_ Ht']. fold T in Ht'.
  destruct (stocking_ok (pt_time s) (pt_u s) ltac:(lia) (layer_us k s Hs)) as (g & -> & Hg). cbn [obind].
  destruct (vertices_ok (pt_k s) (pt_u s)) as (vs & -> & Hvs); [apply Hs|apply Hs|]. cbn [obind].
  destruct Hmst as [Hlen Hf]. change (ps_mst I) with mst. destruct (nth_error mst (N.to_nat vs)) as [m|] eqn:E.
  2:{ apply nth_error_None in E. lia. }
  cbn [obind]. eexists. split; [reflexivity|]. rewrite Forall_forall in Hf. pose proof (Hf m (nth_error_In _ _ E)).
  pose proof (po_range _ _ Hok) as Hr. fold T in Hr. fold n in Hr. pose proof (po_M _ _ Hok). assert (g + m <= IMAX) by nia.
  unfold as_isize. destruct (Z.leb_spec (g + m) IMAX); lia.
Qed.

Theorem estimate_debug_panics : forall k s, psp_layer D k s -> todo D s + 1 < Z.of_nat (pt_time s) -> ps_estimate I true s = None.
Proof.
  intros k s Hs Hlt. unfold ps_estimate. destruct (pt_time s) as [|t] eqn:Ht.
  - assert (0 <= todo D s); [|lia]. apply zsum_nonneg. intros x Hx. apply in_map_iff in Hx. destruct Hx as (j & <- & _). apply orders_nonneg.
  - rewrite <- Ht. unfold ideal_stocking. rewrite costs_panic; [reflexivity| |apply (layer_us k); exact Hs|rewrite Ht; exact Hlt].
    destruct (pl_time _ _ _ Hs) as [_ Ht']. fold T in Ht'. lia.
Qed.
End Estimate.
