(** The completions of a state of the PSP example are the plans of the remaining periods that serve its orders. *)
From Verif Require Import Spec Psp PspSpec Bits BitsFacts MatrixFacts PspFacts.
Open Scope Z_scope.

(** ** Plans *)
Lemma produces_app_old p q i t : (t < length p)%nat -> produces (p ++ q) i t = produces p i t.
Proof. intros H. unfold produces. rewrite nth_error_app1 by exact H. reflexivity. Qed.
Lemma produces_out p i t : (length p <= t)%nat -> produces p i t = false.
Proof. intros H. unfold produces. rewrite (proj2 (nth_error_None p t) H). reflexivity. Qed.
Definition is_item (x : option nat) (i : nat) : Z := match x with Some j => if Nat.eqb i j then 1 else 0 | None => 0 end.
Lemma produced_snoc p x i t : produced (p ++ [x]) i t = produced p i t + (if (length p <? t)%nat then is_item x i else 0).
Proof.
  unfold produced. induction t as [|t IH]; [cbn; lia|]. rewrite !count_S, IH.
  destruct (Nat.lt_trichotomy t (length p)) as [H|[->|H]].
  - rewrite produces_app_old by exact H. destruct (Nat.ltb_spec (length p) t); [lia|]. destruct (Nat.ltb_spec (length p) (S t)); [lia|]. lia.
  - rewrite Nat.ltb_irrefl. destruct (Nat.ltb_spec (length p) (S (length p))); [|lia].
    rewrite (produces_out p) by lia. unfold produces. rewrite nth_error_app2, Nat.sub_diag by lia. cbn [nth_error].
    unfold is_item. destruct x as [j|]; [|lia]. rewrite Nat.eqb_sym. destruct (Nat.eqb i j); lia.
  - destruct (Nat.ltb_spec (length p) t); [|lia]. destruct (Nat.ltb_spec (length p) (S t)); [|lia].
    rewrite !produces_out; [lia|lia|]. rewrite app_length. cbn. lia.
Qed.
Lemma produced_after p i t : (length p <= t)%nat -> produced p i t = produced p i (length p).
Proof.
  unfold produced. induction 1 as [|m Hm IH]; [reflexivity|]. rewrite count_S, IH, produces_out by exact Hm. lia.
Qed.
Lemma produced_nil i t : produced [] i t = 0.
Proof. rewrite (produced_after [] i t); [reflexivity|cbn; lia]. Qed.
Lemma produced_nonneg p i t : 0 <= produced p i t.
Proof. apply count_range. Qed.

Lemma sequence_app p q : sequence (p ++ q) = sequence p ++ sequence q.
Proof. induction p as [|[i|] p IH]; cbn [app sequence]; [reflexivity| |exact IH]. f_equal. exact IH. Qed.
Lemma in_sequence p i : In i (sequence p) <-> In (Some i) p.
Proof.
  induction p as [|[j|] p IH]; cbn [sequence In]; [tauto| |].
  - rewrite IH. split; (intros [H|H]; [left; congruence|right; exact H]).
  - rewrite IH. split; [auto|]. intros [H|H]; [discriminate|exact H].
Qed.
Lemma decisions_snoc p x : plan_decisions (p ++ [x]) = mk_dec (length p) (plan_value x) :: plan_decisions p.
Proof.
  unfold plan_decisions. rewrite app_length. cbn [length]. rewrite Nat.add_1_r, seq_S. cbn [Nat.add].
  assert (forall (a : list nat) (b : list (option nat)) c e, length a = length b -> combine (a ++ [c]) (b ++ [e]) = combine a b ++ [(c, e)]) as Hc.
  { induction a as [|y a IH]; intros [|z b] c e H; try discriminate; [reflexivity|]. cbn. f_equal. apply IH. cbn in H. lia. }
  rewrite Hc by (rewrite seq_length; reflexivity). rewrite map_app, rev_app_distr. reflexivity.
Qed.

Section Plans.
Variable D : psp_data.
Variable M : Z.
Hypothesis Hok : psp_ok D M.
Let T := pd_T D.
Let n := pd_n D.
Variable mst : list Z.
Let I := psp_build D mst.
Variable debug : bool.
Let P := psp_pb I debug.

Lemma changeovers_split l i l' : changeovers D (l ++ i :: l') = changeovers D (l ++ [i]) + changeovers D (i :: l').
Proof.
  induction l as [|a l IH]; cbn [app]; [cbn; lia|]. destruct l as [|b l]; cbn [app] in *.
  - cbn [changeovers]. lia.
  - change (change D a b + changeovers D (b :: l ++ i :: l') = change D a b + changeovers D (b :: l ++ [i]) + changeovers D (i :: l')). lia.
Qed.

(** A plan for the periods before the time of a state. *)
Record serves (s : psp_state) (p : plan) : Prop := {
  sv_len : length p = pt_time s;
  sv_items : forall i, In (Some i) p -> (i < n)%nat;
  sv_total : forall i, (i < n)%nat -> produced p i (pt_time s) = orders D i (deadline s i);
  sv_time : forall i t, (i < n)%nat -> (t <= pt_time s)%nat -> demanded D i t <= produced p i t }.

(** What it costs: stocks up to the last deadline served, and changeovers up to the item already chosen. *)
Definition held (p : plan) (i : nat) (r : Z) : Z :=
  zsum (map (fun t => produced p i t - Z.min (demanded D i t) r) (seq 1 T)).
Definition ahead (s : psp_state) : list nat := if pt_k s =? BOT then [] else [Z.to_nat (pt_k s)].
Definition bill (s : psp_state) (p : plan) : Z :=
  changeovers D (sequence p ++ ahead s) + zsum (map (fun i => stock D i * held p i (orders D i (deadline s i))) (seq 0 n)).

Lemma held_same p x j r : is_item x j = 0 -> held (p ++ [x]) j r = held p j r.
Proof.
  intros H. unfold held. apply zsum_ext. intros t _. rewrite produced_snoc, H. destruct (_ <? _)%nat; lia.
Qed.
Lemma held_step p i u : dl_ok D i u -> (length p < T)%nat -> Z.of_nat (length p) <= u ->
  held (p ++ [Some i]) i (orders D i u) = held p i (orders D i u - 1) + (u - Z.of_nat (length p)).
Proof.
  intros Hu Hp Hle. unfold held.
  set (a := fun t => produced p i t - Z.min (demanded D i t) (orders D i u - 1)).
  rewrite (zsum_ext _ (fun t => a t + ((if (length p <? t)%nat then 1 else 0) + -1 * (if (Z.to_nat u <? t)%nat then 1 else 0)))).
  2:{ intros t Ht. apply in_seq in Ht. unfold a. rewrite produced_snoc. unfold is_item. rewrite Nat.eqb_refl.
      pose proof (orders_after D i u t Hu) as Ho.
      destruct (Nat.ltb_spec (Z.to_nat u) t); [assert (~ Z.of_nat t <= u) by lia|assert (Z.of_nat t <= u) by lia];
      destruct (length p <? t)%nat; lia. }
  rewrite !zsum_add, zsum_mul, !zsum_after; [lia| |lia]. destruct Hu as [->|[Hu _]]; [lia|]. fold T in Hu. lia.
Qed.

(** The next state of a step serves the rest of the plan. *)
Lemma serves_step k s p x : psp_layer D k s -> (k < T)%nat -> let t := psp_nv D k in let s' := pb_trans P s (mk_dec t (plan_value x)) in
  (serves s (p ++ [x]) <-> allowed D t s x /\ serves s' p).
Proof.
  intros Hs Hk t s'. destruct (pl_time _ _ _ Hs) as [_ Ht]. fold T in Ht.
  assert (pt_time s = S t) as Ht' by (unfold t, psp_nv; fold T; lia).
  assert (allowed D t s x -> pt_time s' = t /\ forall j, (j < n)%nat -> orders D j (deadline s' j) = orders D j (deadline s j) - is_item x j) as Hn.
  { intros Ha. destruct (trans_spec D M Hok mst debug k s x t Hs Ht' Ha) as (_ & H1 & _ & _ & H2). split; [exact H1|].
    intros j Hj. destruct (H2 j Hj) as [_ H]. exact H. }
  split.
  - intros Hv. pose proof (sv_len _ _ Hv) as Hl. rewrite app_length, Ht' in Hl. cbn [length] in Hl. assert (length p = t) as Hp by lia.
    assert (forall j, produced (p ++ [x]) j (S t) = produced p j t + is_item x j) as Hpr.
    { intros j. rewrite produced_snoc, Hp. destruct (Nat.ltb_spec t (S t)); [|lia]. rewrite (produced_after p j (S t)) by lia. rewrite Hp. reflexivity. }
    assert (forall i, In (Some i) p -> (i < n)%nat) as Hi1 by (intros i Hi; apply (sv_items _ _ Hv); apply in_app_iff; left; exact Hi).
    assert (todo D s = zsum (map (fun i => produced p i t + is_item x i) (seq 0 n))) as Htodo.
    { unfold todo. apply zsum_ext. intros j Hj. apply in_seq in Hj. rewrite <- (sv_total _ _ Hv j) by (fold n in Hj; lia). rewrite Ht'. apply Hpr. }
    assert (zsum (map (fun i => produced p i t) (seq 0 n)) <= Z.of_nat t) as Hsum.
    { clear - Hi1 n. revert Hi1. generalize t. clear t. intros t Hi1. unfold produced. induction t as [|t IH].
      - rewrite (zsum_ext _ (fun _ => 0 * 0)) by reflexivity. rewrite (zsum_mul (fun _ => 0) 0). lia.
      - rewrite (zsum_ext _ (fun i => count (produces p i) t + (if produces p i t then 1 else 0))) by (intros; apply count_S).
        rewrite zsum_add. enough (zsum (map (fun x => if produces p x t then 1 else 0) (seq 0 n)) <= 1) by lia.
        unfold produces. destruct (nth_error p t) as [[j|]|] eqn:E.
        + assert (j < n)%nat as Hj by (apply Hi1; eapply nth_error_In; exact E).
          rewrite (zsum_update _ (fun _ => 0 * 0) n j Hj).
          * rewrite (zsum_mul (fun _ => 0) 0), Nat.eqb_refl. lia.
          * intros i _ Hne. destruct (Nat.eqb_spec j i); [congruence|reflexivity].
        + rewrite (zsum_ext _ (fun _ => 0 * 0)) by reflexivity. rewrite (zsum_mul (fun _ => 0) 0). lia.
        + rewrite (zsum_ext _ (fun _ => 0 * 0)) by reflexivity. rewrite (zsum_mul (fun _ => 0) 0). lia. }
    rewrite zsum_add in Htodo.
    assert (allowed D t s x) as Ha.
    { destruct x as [i|]; cbn [allowed].
      - assert (i < n)%nat as Hi by (apply (sv_items _ _ Hv); apply in_app_iff; right; left; reflexivity). split; [exact Hi|]. split.
        + apply (orders_after D i (deadline s i)); [apply Hs; exact Hi|]. rewrite <- (sv_total _ _ Hv i Hi), Ht', Hpr. unfold is_item. rewrite Nat.eqb_refl.
          pose proof (sv_time _ _ Hv i t Hi ltac:(lia)) as H. rewrite produced_snoc, Hp, Nat.ltb_irrefl in H. lia.
        + rewrite Htodo. rewrite (zsum_update (is_item (Some i)) (fun _ => 0 * 0) n i Hi).
          * rewrite (zsum_mul (fun _ => 0) 0). unfold is_item. rewrite Nat.eqb_refl. lia.
          * intros j _ Hne. unfold is_item. destruct (Nat.eqb_spec j i); [contradiction|reflexivity].
      - rewrite Htodo. rewrite (zsum_ext (is_item None) (fun _ => 0 * 0)) by reflexivity. rewrite (zsum_mul (fun _ => 0) 0). lia. }
    split; [exact Ha|]. destruct (Hn Ha) as [H1 H2]. constructor.
    + congruence.
    + exact Hi1.
    + intros i Hi. rewrite H1, (H2 i Hi), <- (sv_total _ _ Hv i Hi), Ht', Hpr. lia.
    + intros i t' Hi Ht2. rewrite H1 in Ht2. pose proof (sv_time _ _ Hv i t' Hi ltac:(lia)) as H. rewrite produced_snoc, Hp in H.
      destruct (Nat.ltb_spec t t'); [lia|]. lia.
  - intros [Ha Hv]. destruct (Hn Ha) as [H1 H2]. pose proof (sv_len _ _ Hv) as Hl. rewrite H1 in Hl.
    assert (forall j, produced (p ++ [x]) j (S t) = produced p j t + is_item x j) as Hpr.
    { intros j. rewrite produced_snoc, Hl. destruct (Nat.ltb_spec t (S t)); [|lia]. rewrite (produced_after p j (S t)) by lia. rewrite Hl. reflexivity. }
    assert (forall i, (i < n)%nat -> produced (p ++ [x]) i (S t) = orders D i (deadline s i)) as Htot.
    { intros i Hi. rewrite Hpr. pose proof (sv_total _ _ Hv i Hi) as H. rewrite H1, (H2 i Hi) in H. lia. }
    constructor.
    + rewrite app_length, Ht'. cbn [length]. lia.
    + intros i Hi. apply in_app_iff in Hi. destruct Hi as [Hi|[->|[]]]; [apply (sv_items _ _ Hv); exact Hi|]. apply Ha.
    + rewrite Ht'. exact Htot.
    + intros i t' Hi Ht2. rewrite Ht' in Ht2. destruct (Nat.eq_dec t' (S t)) as [->|Hne].
      * rewrite (Htot i Hi). rewrite <- Ht'. apply Hs. exact Hi.
      * rewrite produced_snoc, Hl. destruct (Nat.ltb_spec t t'); [lia|]. pose proof (sv_time _ _ Hv i t' Hi ltac:(lia)). lia.
Qed.

Lemma bill_step k s p x : psp_layer D k s -> (k < T)%nat -> let t := psp_nv D k in let s' := pb_trans P s (mk_dec t (plan_value x)) in
  allowed D t s x -> length p = t -> bill s (p ++ [x]) = - step_cost D t s x + bill s' p.
Proof.
  intros Hs Hk t s' Ha Hp. destruct (pl_time _ _ _ Hs) as [_ Ht]. fold T in Ht.
  assert (pt_time s = S t) as Ht' by (unfold t, psp_nv; fold T; lia).
  destruct (trans_spec D M Hok mst debug k s x t Hs Ht' Ha) as (_ & H1 & H2 & _ & H3).
  fold I in H1, H2, H3. fold P in H1, H2, H3. fold s' in H1, H2, H3. unfold bill. rewrite sequence_app.
  destruct x as [i|]; cbn [allowed next_k step_cost] in *.
  - destruct Ha as (Hi & Hd & _).
    assert (ahead s' = [i]) as Ha'.
    { unfold ahead. rewrite H2. destruct (Z.eqb_spec (Z.of_nat i) BOT) as [He|_]; [unfold BOT in He; lia|]. rewrite Nat2Z.id. reflexivity. }
    cbn [sequence]. rewrite <- app_assoc. cbn [app]. rewrite changeovers_split, Ha'.
    rewrite (zsum_update _ (fun j => stock D j * held p j (orders D j (deadline s' j))) n i Hi).
    + rewrite held_step; [|apply Hs; exact Hi|unfold t in *; unfold psp_nv in Hp; fold T in Hp; lia|lia].
      destruct (H3 i Hi) as [_ ->]. unfold next_orders. rewrite Nat.eqb_refl, Hp.
      assert (changeovers D (i :: ahead s) = if pt_k s =? BOT then 0 else change D i (Z.to_nat (pt_k s))) as ->.
      { unfold ahead. destruct (pt_k s =? BOT); cbn [changeovers]; lia. }
      lia.
    + intros j Hj Hne. destruct (H3 j Hj) as [_ ->]. unfold next_orders. destruct (Nat.eqb_spec j i); [contradiction|].
      rewrite Z.sub_0_r, held_same; [reflexivity|]. unfold is_item. destruct (Nat.eqb_spec j i); [contradiction|reflexivity].
  - cbn [sequence]. rewrite app_nil_r. assert (ahead s' = ahead s) as -> by (unfold ahead; rewrite H2; reflexivity).
    rewrite (zsum_ext (fun i => stock D i * held (p ++ [None]) i (orders D i (deadline s i))) (fun i => stock D i * held p i (orders D i (deadline s' i)))).
    + lia.
    + intros j Hj. apply in_seq in Hj. destruct (H3 j) as [_ ->]; [fold n in Hj; lia|]. unfold next_orders. rewrite Z.sub_0_r, held_same; reflexivity.
Qed.

Theorem completion_serves : forall k s ds c, psp_layer D k s -> completion psp_state P (psp_nv D) k s ds c ->
  exists p, serves s p /\ ds = plan_decisions p /\ c = - bill s p.
Proof.
  intros k s ds c Hs [s' Hr]. remember (pb_nb_vars P) as N eqn:HN. revert Hs HN.
  induction Hr as [k s|k s d ds k' s' c Hk Hd Hr IH]; intros Hs HN.
  - exists []. destruct (pl_time _ _ _ Hs) as [_ Ht]. fold T in Ht. change (pb_nb_vars P) with T in HN. assert (pt_time s = O) as H0 by lia.
    assert (forall i, (i < n)%nat -> orders D i (deadline s i) = 0) as Ho.
    { intros i Hi. pose proof (pl_sum _ _ _ Hs ltac:(pose proof (po_T _ _ Hok) as HT1; fold T in HT1; lia)) as H. rewrite H0 in H.
      pose proof (orders_nonneg D i (deadline s i)).
      rewrite (zsum_update _ (fun j => if Nat.eqb j i then 0 else orders D j (deadline s j)) n i Hi), Nat.eqb_refl in H.
      - assert (0 <= zsum (map (fun j => if Nat.eqb j i then 0 else orders D j (deadline s j)) (seq 0 n))); [|lia].
        apply zsum_nonneg. intros x Hx. apply in_map_iff in Hx. destruct Hx as (j & <- & _). destruct (Nat.eqb j i); [lia|]. apply orders_nonneg.
      - intros j _ Hne. destruct (Nat.eqb_spec j i); [contradiction|reflexivity]. }
    split; [|split; [reflexivity|]].
    + constructor; [rewrite H0; reflexivity|intros i []|intros i Hi; rewrite Ho by exact Hi; apply produced_nil|].
      intros i t Hi Ht'. rewrite H0 in Ht'. assert (t = O) by lia. subst t. cbn. lia.
    + unfold bill. cbn [sequence app]. rewrite (zsum_ext _ (fun _ => 0 * 0)).
      * rewrite (zsum_mul (fun _ => 0) 0). unfold ahead. destruct (pt_k s =? BOT); reflexivity.
      * intros i Hi. apply in_seq in Hi. rewrite Ho by (fold n in Hi; lia). unfold held. rewrite (zsum_ext _ (fun _ => 0 * 0)).
        -- rewrite (zsum_mul (fun _ => 0) 0). lia.
        -- intros t _. rewrite produced_nil. pose proof (proj1 (count_range (due D i) t)). unfold demanded. lia.
  - change (pb_nb_vars P) with T in Hk. apply (domain_in D M Hok mst debug k) in Hd; [|exact Hs]. destruct Hd as (x & Ha & ->).
    destruct IH as (p & Hv & -> & Hc); [apply (layer_trans D M Hok); auto|exact HN|].
    assert (length p = psp_nv D k) as Hp.
    { rewrite (sv_len _ _ Hv). destruct (pl_time _ _ _ Hs) as [_ Ht]. fold T in Ht.
      apply (trans_spec D M Hok mst debug k s x _ Hs); [unfold psp_nv; fold T; lia|exact Ha]. }
    exists (p ++ [x]). split; [apply (serves_step k); auto|]. split; [rewrite decisions_snoc, Hp; reflexivity|].
    rewrite (bill_step k); auto. change (pb_cost P s ?d) with (or_else 0 (ps_cost I debug s d)).
    unfold I. rewrite (cost_spec D M Hok mst debug k s x _ Hs Ha). cbn [or_else]. rewrite Hc. unfold P, I. lia.
Qed.

Theorem serves_completion : forall t k s p, psp_layer D k s -> (T - k)%nat = t -> serves s p ->
  completion psp_state P (psp_nv D) k s (plan_decisions p) (- bill s p).
Proof.
  induction t as [|t IH]; intros k s p Hs Hk Hv; destruct (pl_time _ _ _ Hs) as [Hk' Ht]; fold T in Hk', Ht.
  - pose proof (sv_len _ _ Hv) as Hl. assert (p = []) as -> by (destruct p; [reflexivity|cbn in Hl; lia]).
    assert (k = T) as -> by lia. assert (- bill s [] = 0) as ->.
    { unfold bill. cbn [sequence app]. rewrite (zsum_ext _ (fun _ => 0 * 0)).
      * rewrite (zsum_mul (fun _ => 0) 0). unfold ahead. destruct (pt_k s =? BOT); reflexivity.
      * intros i Hi. apply in_seq in Hi. rewrite <- (sv_total _ _ Hv i) by (fold n in Hi; lia). rewrite produced_nil. unfold held. rewrite (zsum_ext _ (fun _ => 0 * 0)).
        -- rewrite (zsum_mul (fun _ => 0) 0). lia.
        -- intros t' _. rewrite produced_nil. pose proof (proj1 (count_range (due D i) t')). unfold demanded. lia. }
    exists s. apply run_nil.
  - pose proof (sv_len _ _ Hv) as Hl. destruct (exists_last (l := p)) as (q & x & ->); [intros ->; cbn in Hl; lia|].
    assert (k < T)%nat as Hlt by lia. pose proof Hv as Hv'. apply (serves_step k) in Hv; auto. destruct Hv as [Ha Hv].
    rewrite app_length in Hl. cbn [length] in Hl.
    assert (length q = psp_nv D k) as Hq by (unfold psp_nv; fold T; lia).
    destruct (IH (S k) _ q (layer_trans D M Hok mst debug k s x _ Hs Hlt eq_refl Ha) ltac:(lia) Hv) as [s' Hr].
    exists s'. rewrite decisions_snoc, Hq, (bill_step k s q x Hs Hlt Ha Hq).
    replace (- (- step_cost D (psp_nv D k) s x + bill (pb_trans P s (mk_dec (psp_nv D k) (plan_value x))) q))
      with (pb_cost P s (mk_dec (psp_nv D k) (plan_value x)) + - bill (pb_trans P s (mk_dec (psp_nv D k) (plan_value x))) q).
    + apply run_cons; [exact Hlt| |exact Hr]. apply (domain_in D M Hok mst debug k); [exact Hs|]. exists x. split; [exact Ha|reflexivity].
    + change (pb_cost P s ?d) with (or_else 0 (ps_cost I debug s d)). unfold I. rewrite (cost_spec D M Hok mst debug k s x _ Hs Ha). cbn [or_else]. lia.
Qed.

(** ** Full plans *)
Lemma bill_plan s p : psp_layer D 0 s -> pt_k s = BOT -> (forall i, (i < n)%nat -> orders D i (deadline s i) = demanded D i T) ->
  bill s p = plan_cost D p.
Proof.
  intros Hs Hk Ho. unfold bill, plan_cost, ahead. rewrite Hk. change (BOT =? BOT) with true. cbv iota. rewrite app_nil_r. f_equal.
  unfold stocking. apply zsum_ext. intros i Hi. apply in_seq in Hi. rewrite Ho by (fold n in Hi; lia). f_equal. unfold held. apply zsum_ext.
  intros t Ht. apply in_seq in Ht. pose proof (count_mono (due D i) t T ltac:(fold T in Ht; lia)). unfold demanded in *. lia.
Qed.
Lemma serves_plan s p : psp_layer D 0 s -> (forall i, (i < n)%nat -> orders D i (deadline s i) = demanded D i T) ->
  serves s p <-> feasible_plan D p.
Proof.
  intros Hs Ho. destruct (pl_time _ _ _ Hs) as [_ Ht]. rewrite Nat.sub_0_r in Ht. split; intros [H1 H2 H3 H4].
  - constructor; [congruence|exact H2| |].
    + intros i Hi. change (produced p i T = demanded D i T). rewrite <- (Ho i Hi), <- (H3 i Hi), Ht. reflexivity.
    + intros i t Hi Ht'. apply H4; [exact Hi|]. rewrite Ht. exact Ht'.
  - constructor; [congruence|exact H2| |].
    + intros i Hi. rewrite Ht, (Ho i Hi). apply H3. exact Hi.
    + intros i t Hi Ht'. apply H4; [exact Hi|]. rewrite Ht in Ht'. exact Ht'.
Qed.

Theorem solutions_are_plans : forall ds v, solution psp_state P (psp_nv D) ds v <->
  exists p, feasible_plan D p /\ ds = plan_decisions p /\ v = - plan_cost D p.
Proof.
  intros ds v. destruct (init_spec D M Hok mst debug) as (s & _ & Hi & Hs & Hk & Ho). fold I in Hi. fold P in Hi. split.
  - intros (c & Hc & ->). rewrite Hi in Hc. destruct (completion_serves 0 s ds c Hs Hc) as (p & Hv & -> & ->).
    exists p. rewrite (bill_plan s p Hs Hk Ho). split; [apply (serves_plan s); assumption|]. split; [reflexivity|]. cbn. lia.
  - intros (p & Hf & -> & ->). exists (- plan_cost D p). split; [|cbn; lia]. rewrite Hi, <- (bill_plan s p Hs Hk Ho).
    apply (serves_completion T); [exact Hs|lia|]. apply (serves_plan s); assumption.
Qed.
End Plans.
