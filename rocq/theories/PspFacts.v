(** Facts about the PSP example: counting, tables, steps of the model. *)
From Verif Require Import Spec Psp PspSpec Bits BitsFacts MatrixFacts.
Open Scope Z_scope.

(** ** Counting *)
Lemma count_0 f : count f 0 = 0.
Proof. reflexivity. Qed.
Lemma count_S f t : count f (S t) = count f t + (if f t then 1 else 0).
Proof.
  unfold count. rewrite seq_S, map_app, zsum_app. cbn [map zsum fold_right Nat.add]. lia.
Qed.
Lemma count_ext f g t : (forall s, (s < t)%nat -> f s = g s) -> count f t = count g t.
Proof.
  induction t as [|t IH]; intros H; [reflexivity|]. rewrite !count_S, IH, H; auto with arith.
Qed.
Lemma count_range f t : 0 <= count f t <= Z.of_nat t.
Proof. induction t as [|t IH]; [cbn; lia|]. rewrite count_S. destruct (f t); lia. Qed.
Lemma count_mono f t t' : (t <= t')%nat -> count f t <= count f t'.
Proof. induction 1 as [|m _ IH]; [lia|]. rewrite count_S. destruct (f m); lia. Qed.
Lemma count_strict f t t' s : f s = true -> (t <= s < t')%nat -> count f t < count f t'.
Proof.
  intros Hf H. pose proof (count_mono f t s ltac:(lia)). pose proof (count_mono f (S s) t' ltac:(lia)).
  rewrite count_S, Hf in *. lia.
Qed.

(** ** Sums *)
Lemma zsum_ext {A} (f g : A -> Z) l : (forall x, In x l -> f x = g x) -> zsum (map f l) = zsum (map g l).
Proof. intros H. f_equal. apply map_ext_in. exact H. Qed.
Lemma zsum_add {A} (f g : A -> Z) l : zsum (map (fun x => f x + g x) l) = zsum (map f l) + zsum (map g l).
Proof. induction l as [|x l IH]; cbn [map zsum fold_right]; [reflexivity|]. fold (zsum (map (fun x => f x + g x) l)). fold (zsum (map f l)). fold (zsum (map g l)). lia. Qed.
Lemma zsum_cons x l : zsum (x :: l) = x + zsum l.
Proof. reflexivity. Qed.
Lemma zsum_update (f g : nat -> Z) n i : (i < n)%nat -> (forall j, (j < n)%nat -> j <> i -> f j = g j) ->
  zsum (map f (seq 0 n)) = zsum (map g (seq 0 n)) + (f i - g i).
Proof.
  induction n as [|n IH]; intros Hi H; [lia|]. rewrite seq_S, !map_app, !zsum_app. cbn [map Nat.add]. rewrite !zsum_cons.
  destruct (Nat.eq_dec i n) as [->|Hne].
  - rewrite (zsum_ext f g); [cbn [zsum fold_right]; lia|]. intros x Hx. apply in_seq in Hx. apply H; lia.
  - rewrite IH; [|lia|intros j Hj; apply H; lia]. rewrite (H n); [|lia|lia]. lia.
Qed.
Lemma zsum_after T t : (t <= T)%nat -> zsum (map (fun t' => if (t <? t')%nat then 1 else 0) (seq 1 T)) = Z.of_nat T - Z.of_nat t.
Proof.
  induction T as [|T IH]; intros H; [assert (t = O) by lia; subst; reflexivity|].
  rewrite seq_S, map_app, zsum_app. cbn [map]. rewrite zsum_cons. cbn [zsum fold_right].
  destruct (Nat.ltb_spec t (1 + T)).
  - rewrite IH; lia.
  - assert (t = S T) by lia. subst t.
    rewrite (zsum_ext _ (fun _ => 0)); [|intros x Hx; apply in_seq in Hx; destruct (Nat.ltb_spec (S T) x); [lia|reflexivity]].
    assert (forall l : list nat, zsum (map (fun _ => 0) l) = 0) as -> by (induction l; cbn; auto). lia.
Qed.
Lemma zsum_mul {A} (f : A -> Z) c l : zsum (map (fun x => c * f x) l) = c * zsum (map f l).
Proof. induction l as [|x l IH]; cbn [map]; rewrite ?zsum_cons; [cbn; lia|]. lia. Qed.

(** ** Tables *)
Lemma concat_len {A} (rows : list (list A)) m : (forall r, In r rows -> length r = m) -> length (concat rows) = (length rows * m)%nat.
Proof.
  induction rows as [|r rows IH]; intros H; [reflexivity|]. cbn [concat length]. rewrite app_length, IH, (H r); cbn; auto with datatypes.
Qed.
Lemma concat_nth {A} (rows : list (list A)) m : (forall r, In r rows -> length r = m) ->
  forall i j, (j < m)%nat -> nth_error (concat rows) (m * i + j) = match nth_error rows i with Some r => nth_error r j | None => None end.
Proof.
  induction rows as [|r rows IH]; intros H i j Hj.
  - cbn. destruct i; cbn; destruct (m * _ + j)%nat; reflexivity.
  - cbn [concat]. pose proof (H r (or_introl eq_refl)) as Hr. destruct i as [|i]; cbn [nth_error].
    + rewrite Nat.mul_0_r. rewrite nth_error_app1 by lia. reflexivity.
    + rewrite nth_error_app2 by lia. rewrite <- IH; auto with datatypes. f_equal. nia.
Qed.

Definition is_due (ds : list Z) (t : nat) : bool := 0 <? nth t ds 0.
Lemma rem_row_len ds : forall c, length (rem_row c ds) = length ds.
Proof. induction ds as [|d ds IH]; intros c; cbn [rem_row length]; auto. Qed.
Lemma prev_row_len ds : forall t l, length (prev_row t l ds) = S (length ds).
Proof. induction ds as [|d ds IH]; intros t l; cbn [prev_row length]; auto. Qed.
Lemma count_cons d ds t : count (is_due (d :: ds)) (S t) = (if 0 <? d then 1 else 0) + count (is_due ds) t.
Proof.
  induction t as [|t IH].
  - rewrite count_S, !count_0. unfold is_due. cbn [nth]. lia.
  - rewrite count_S, IH, (count_S (is_due ds)). unfold is_due at 2 4. cbn [nth]. lia.
Qed.
Lemma rem_row_nth ds : forall c j, (j < length ds)%nat -> nth_error (rem_row c ds) j = Some (c + count (is_due ds) (S j)).
Proof.
  induction ds as [|d ds IH]; intros c j Hj; cbn [length] in Hj; [lia|]. cbn [rem_row]. cbv zeta. destruct j as [|j]; cbn [nth_error].
  - rewrite count_cons, count_0. f_equal. destruct (0 <? d); lia.
  - rewrite IH by lia. rewrite count_cons. f_equal. destruct (0 <? d); lia.
Qed.
Lemma prev_row_nth ds : forall t l j, (j <= length ds)%nat -> exists v, nth_error (prev_row t l ds) j = Some v /\
  ((v = l /\ count (is_due ds) j = 0) \/
   exists q, (q < j)%nat /\ v = Z.of_nat (t + q) /\ is_due ds q = true /\ count (is_due ds) (S q) = count (is_due ds) j).
Proof.
  induction ds as [|d ds IH]; intros t l j Hj; cbn [length] in Hj.
  - assert (j = O) by lia. subst. exists l. split; [reflexivity|]. left. auto.
  - cbn [prev_row]. destruct j as [|j]; cbn [nth_error]; [exists l; split; [reflexivity|]; left; auto|].
    destruct (IH (S t) (if 0 <? d then Z.of_nat t else l) j) as (v & Hv & H); [lia|]. exists v. split; [exact Hv|].
    destruct H as [[-> H]|(q & H1 & -> & H2 & H3)].
    + rewrite count_cons. destruct (0 <? d) eqn:E.
      * right. exists O. repeat split; [lia|f_equal; lia|exact E|]. rewrite count_cons, E, count_0. lia.
      * left. lia.
    + right. exists (S q). repeat split; [lia|f_equal; lia|exact H2|]. rewrite !count_cons. lia.
Qed.

Section Facts.
Variable D : psp_data.
Variable M : Z.
Hypothesis Hok : psp_ok D M.
Let T := pd_T D.
Let n := pd_n D.

Notation due := (due D). Notation orders := (orders D). Notation demanded := (demanded D).

Lemma row_get i : (i < n)%nat -> nth_error (pd_dem D) i = Some (nth i (pd_dem D) []) /\ length (nth i (pd_dem D) []) = T.
Proof.
  intros Hi. rewrite <- (po_dem _ _ Hok : _ = n) in Hi. split; [apply nth_error_nth'; exact Hi|].
  apply (po_rows _ _ Hok). apply nth_In. exact Hi.
Qed.
Lemma rem_get dbg i t : (i < n)%nat -> (t < T)%nat -> pmat_get dbg (rem_table D) i t = Some (demanded i (S t)).
Proof.
  intros Hi Ht. destruct (row_get i Hi) as [Hr Hl]. rewrite pmat_get_in by (split; [exact Hi|exact Ht]). unfold mat_get, rem_table, mat_pos. cbn [mx_m mx_data].
  rewrite concat_nth with (m := T); [|intros r Hin; apply in_map_iff in Hin; destruct Hin as (r' & <- & Hin); rewrite rem_row_len; apply (po_rows _ _ Hok); exact Hin|exact Ht].
  rewrite nth_error_map, Hr. cbn [option_map]. rewrite rem_row_nth by lia. reflexivity.
Qed.
Lemma prev_get dbg i t : (i < n)%nat -> (t <= T)%nat -> exists v, pmat_get dbg (prev_table D) i t = Some v /\
  ((v = -1 /\ demanded i t = 0) \/ exists q, (q < t)%nat /\ v = Z.of_nat q /\ due i q = true /\ demanded i (S q) = demanded i t).
Proof.
  intros Hi Ht. destruct (row_get i Hi) as [Hr Hl]. rewrite pmat_get_in by (split; [exact Hi|cbn; fold T; lia]). unfold mat_get, prev_table, mat_pos. cbn [mx_m mx_data].
  rewrite concat_nth with (m := S T); [|intros r Hin; apply in_map_iff in Hin; destruct Hin as (r' & <- & Hin); rewrite prev_row_len; f_equal; apply (po_rows _ _ Hok); exact Hin|fold T; lia].
  rewrite nth_error_map, Hr. cbn [option_map].
  destruct (prev_row_nth (nth i (pd_dem D) []) 0 BOT t) as (v & Hv & H); [lia|]. exists v. split; [exact Hv|]. exact H.
Qed.

(** ** Deadlines *)
Definition dl_ok (i : nat) (u : Z) : Prop := u = -1 \/ (0 <= u < Z.of_nat T /\ due i (Z.to_nat u) = true).
Lemma orders_nonneg i u : 0 <= orders i u.
Proof. unfold PspSpec.orders. destruct (u <? 0); [lia|]. apply count_range. Qed.
Lemma orders_mono i u u' : u <= u' -> orders i u <= orders i u'.
Proof.
  intros H. unfold PspSpec.orders. destruct (Z.ltb_spec u 0), (Z.ltb_spec u' 0); try lia.
  - apply count_range.
  - apply count_mono. lia.
Qed.
Lemma orders_after i u t : dl_ok i u -> (demanded i t < orders i u <-> Z.of_nat t <= u).
Proof.
  unfold PspSpec.orders. intros [->|[Hu Hd]].
  - cbn. pose proof (count_range (due i) t). unfold PspSpec.demanded in *. lia.
  - destruct (Z.ltb_spec u 0); [lia|]. split; intros H'.
    + destruct (Z.le_gt_cases (Z.of_nat t) u) as [|Hgt]; [assumption|]. exfalso.
      pose proof (count_mono (due i) (S (Z.to_nat u)) t ltac:(lia)). unfold PspSpec.demanded in *. lia.
    + apply (count_strict _ _ _ (Z.to_nat u)); [exact Hd|lia].
Qed.
Lemma prev_spec dbg i u : (i < n)%nat -> dl_ok i u -> 0 <= u -> exists v, pmat_get dbg (prev_table D) i (Z.to_nat u) = Some v /\ v < u /\
  dl_ok i v /\ orders i v = orders i u - 1.
Proof.
  intros Hi [->|[Hu Hd]] H0; [lia|]. destruct (prev_get dbg i (Z.to_nat u) Hi) as (v & Hv & H); [lia|]. exists v. split; [exact Hv|].
  assert (orders i u = demanded i (Z.to_nat u) + 1) as ->.
  { unfold PspSpec.orders. destruct (Z.ltb_spec u 0); [lia|]. unfold PspSpec.demanded. rewrite count_S, Hd. reflexivity. }
  destruct H as [[-> H]|(q & H1 & -> & H2 & H3)].
  - split; [lia|]. split; [left; reflexivity|]. cbn. lia.
  - split; [lia|]. split; [right; rewrite Nat2Z.id; split; [lia|exact H2]|]. unfold PspSpec.orders. destruct (Z.ltb_spec (Z.of_nat q) 0); [lia|].
    rewrite Nat2Z.id. lia.
Qed.
Lemma last_spec dbg i : (i < n)%nat -> exists v, pmat_get dbg (prev_table D) i T = Some v /\ dl_ok i v /\ orders i v = demanded i T.
Proof.
  intros Hi. destruct (prev_get dbg i T Hi) as (v & Hv & H); [lia|]. exists v. split; [exact Hv|].
  destruct H as [[-> H]|(q & H1 & -> & H2 & H3)].
  - split; [left; reflexivity|]. cbn. lia.
  - split; [right; rewrite Nat2Z.id; split; [lia|exact H2]|]. unfold PspSpec.orders. destruct (Z.ltb_spec (Z.of_nat q) 0); [lia|].
    rewrite Nat2Z.id. exact H3.
Qed.

(** ** Steps of the model *)
Variable mst : list Z.
Let I := psp_build D mst.
Variable debug : bool.
Let P := psp_pb I debug.

Notation deadline := deadline.
Definition todo (s : psp_state) : Z := zsum (map (fun i => orders i (deadline s i)) (seq 0 n)).

Lemma deadline_get s i : length (pt_u s) = n -> (i < n)%nat -> nth_error (pt_u s) i = Some (deadline s i).
Proof. intros H Hi. apply nth_error_nth'. lia. Qed.

Lemma domain_eq k s t : psp_layer D k s -> ps_domain I debug t s = Some
  (if Z.of_nat t + 1 <? todo s then []
   else map (fun i => mk_dec t (Z.of_nat i)) (filter (fun i => Z.of_nat t <=? deadline s i) (seq 0 n)) ++
        (if todo s <? Z.of_nat t + 1 then [mk_dec t IDLE] else [])).
Proof.
  intros Hs. unfold ps_domain.
  rewrite (omap_some _ (fun i => orders i (deadline s i))).
  2:{ intros i Hi. apply in_seq in Hi. unfold ps_orders. rewrite deadline_get; [|apply Hs|cbn in Hi; fold n in Hi; lia]. cbn [obind].
      unfold PspSpec.orders. destruct (Z.ltb_spec (deadline s i) 0); [reflexivity|].
      destruct (pl_deadline _ _ _ Hs i ltac:(cbn in Hi; lia)) as [He|[Hr _]]; [lia|].
      apply (rem_get debug); [cbn in Hi; fold n in Hi; lia|fold T in Hr; lia]. }
  cbn [obind]. cbv zeta. change (ps_n I) with n. fold (todo s). destruct (Z.of_nat t + 1 <? todo s); [reflexivity|].
  rewrite (ofilter_some _ (fun i => Z.of_nat t <=? deadline s i)); [reflexivity|].
  intros i Hi. apply in_seq in Hi. rewrite deadline_get; [reflexivity|apply Hs|lia].
Qed.

(** What may be decided: an item with a deadline not yet passed, or nothing when there is time left. *)
Definition allowed (t : nat) (s : psp_state) (x : option nat) : Prop :=
  match x with
  | Some i => (i < n)%nat /\ Z.of_nat t <= deadline s i /\ todo s <= Z.of_nat t + 1
  | None => todo s <= Z.of_nat t
  end.
Lemma domain_in k s t d : psp_layer D k s -> (In d (pb_domain P t s) <-> exists x, allowed t s x /\ d = mk_dec t (plan_value x)).
Proof.
  intros Hs. cbn [P pb_domain psp_pb]. rewrite (domain_eq _ _ _ Hs). cbn [or_else].
  destruct (Z.ltb_spec (Z.of_nat t + 1) (todo s)) as [H|H].
  - split; [intros []|]. intros ([i|] & Ha & _); cbn [allowed] in Ha; lia.
  - rewrite in_app_iff, in_map_iff. split.
    + intros [(i & <- & Hi)|Hi].
      * apply filter_In in Hi. destruct Hi as [Hi Hd]. apply in_seq in Hi. exists (Some i). cbn [allowed plan_value]. split; [lia|reflexivity].
      * destruct (Z.ltb_spec (todo s) (Z.of_nat t + 1)); [|destruct Hi]. destruct Hi as [<-|[]]. exists None. cbn [allowed plan_value]. split; [lia|reflexivity].
    + intros ([i|] & Ha & ->); cbn [allowed plan_value] in *.
      * left. exists i. split; [reflexivity|]. apply filter_In. split; [apply in_seq; lia|]. apply Z.leb_le. lia.
      * right. destruct (Z.ltb_spec (todo s) (Z.of_nat t + 1)); [left; reflexivity|lia].
Qed.

(** The change due to a step, the cost excepted. *)
Definition next_k (s : psp_state) (x : option nat) : Z := match x with Some i => Z.of_nat i | None => pt_k s end.
Definition next_orders (s : psp_state) (x : option nat) (j : nat) : Z :=
  orders j (deadline s j) - match x with Some i => if Nat.eqb j i then 1 else 0 | None => 0 end.
Lemma trans_spec k s x t : psp_layer D k s -> pt_time s = S t -> allowed t s x ->
  let d := mk_dec t (plan_value x) in
  ps_trans I debug s d = Some (pb_trans P s d) /\
  pt_time (pb_trans P s d) = t /\ pt_k (pb_trans P s d) = next_k s x /\ length (pt_u (pb_trans P s d)) = n /\
  (forall j, (j < n)%nat -> dl_ok j (deadline (pb_trans P s d) j) /\ orders j (deadline (pb_trans P s d) j) = next_orders s x j).
Proof.
  intros Hs Ht Ha d. cbn [P pb_trans psp_pb]. unfold ps_trans. rewrite Ht. cbn [d d_val].
  destruct x as [i|]; cbn [allowed plan_value next_k next_orders] in *.
  - destruct Ha as (Hi & Hd & _). destruct (Z.eqb_spec (Z.of_nat i) IDLE) as [He|_]; [unfold IDLE in He; lia|].
    rewrite Nat2Z.id. rewrite (deadline_get s i); [|apply Hs|exact Hi]. cbn [obind].
    destruct (prev_spec debug i (deadline s i) Hi) as (v & Hv & _ & Hv2 & Hv3); [apply Hs; exact Hi|lia|].
    change (ps_prev I) with (prev_table D). rewrite Hv. cbn [obind].
    destruct (upd_some (pt_u s) i v) as [us Hus]; [rewrite (pl_len _ _ _ Hs); exact Hi|]. rewrite Hus. cbn [obind or_else pt_time pt_k pt_u].
    split; [reflexivity|]. split; [reflexivity|]. split; [reflexivity|]. split; [rewrite (upd_length _ _ _ _ Hus); apply Hs|].
    intros j Hj. unfold PspSpec.deadline at 1 2. cbn [pt_u].
    assert (nth j us 0 = if Nat.eqb j i then v else deadline s j) as ->.
    { pose proof (upd_nth _ _ _ _ Hus j) as H. rewrite (deadline_get s j) in H; [|apply Hs|exact Hj].
      destruct (Nat.eqb j i); apply nth_error_nth with (d := 0) in H; exact H. }
    unfold next_orders. destruct (Nat.eqb_spec j i) as [->|_]; [split; assumption|]. split; [apply Hs; exact Hj|lia].
  - change (-1 =? IDLE) with true. cbv iota. cbn [or_else pt_time pt_k pt_u]. split; [reflexivity|]. split; [reflexivity|]. split; [reflexivity|].
    split; [apply Hs|]. intros j Hj. split; [apply Hs; exact Hj|]. unfold next_orders, PspSpec.deadline. cbn [pt_u]. lia.
Qed.

Definition step_cost (t : nat) (s : psp_state) (x : option nat) : Z :=
  match x with
  | Some i => - ((if pt_k s =? BOT then 0 else change D i (Z.to_nat (pt_k s))) + stock D i * (deadline s i - Z.of_nat t))
  | None => 0
  end.
Lemma change_get dbg i j : (i < n)%nat -> (j < n)%nat -> pmat_get dbg (pd_change D) i j = Some (change D i j).
Proof.
  intros Hi Hj. unfold change. destruct (po_change _ _ Hok) as (H1 & H2 & H3). rewrite pmat_get_in by (split; fold n in H1, H2; lia).
  destruct (mat_total (pd_change D) i j) as [x ->]; [|split; fold n in H1, H2; lia|reflexivity].
  unfold mat_wf. rewrite H1, H2. exact H3.
Qed.
Lemma cost_spec k s x t : psp_layer D k s -> allowed t s x ->
  ps_cost I debug s (mk_dec t (plan_value x)) = Some (step_cost t s x).
Proof.
  intros Hs Ha. unfold ps_cost, step_cost. cbn [d_val d_var].
  destruct x as [i|]; cbn [allowed plan_value] in *; [|reflexivity].
  destruct Ha as (Hi & Hd & _). destruct (Z.eqb_spec (Z.of_nat i) IDLE) as [He|_]; [unfold IDLE in He; lia|]. rewrite Nat2Z.id.
  assert ((if pt_k s =? BOT then Some 0 else pmat_get debug (ps_change I) i (Z.to_nat (pt_k s))) =
          Some (if pt_k s =? BOT then 0 else change D i (Z.to_nat (pt_k s)))) as ->.
  { destruct (Z.eqb_spec (pt_k s) BOT) as [|Hne]; [reflexivity|]. apply change_get; [exact Hi|].
    destruct (pl_k _ _ _ Hs) as [|Hk]; [contradiction|]. fold n in Hk. lia. }
  cbn [obind]. change (ps_stock I) with (pd_stock D).
  rewrite (nth_error_nth' (pd_stock D) 0) by (rewrite (po_stock _ _ Hok); exact Hi). cbn [obind].
  rewrite (deadline_get s i); [|apply Hs|exact Hi]. cbn [obind]. destruct (Z.ltb_spec (deadline s i) (Z.of_nat t)); [lia|]. reflexivity.
Qed.

Lemma todo_after s t x s' : (forall j, (j < n)%nat -> orders j (deadline s' j) = next_orders s x j) -> allowed t s x -> todo s' <= Z.of_nat t.
Proof.
  intros H Ha. unfold todo. rewrite (zsum_ext _ (next_orders s x)).
  2:{ intros j Hj. apply in_seq in Hj. apply H. lia. }
  destruct x as [i|]; cbn [allowed] in Ha.
  - destruct Ha as (Hi & _ & Ha). rewrite (zsum_update _ (fun j => orders j (deadline s j)) n i Hi).
    + fold (todo s). unfold next_orders. rewrite Nat.eqb_refl. lia.
    + intros j _ Hne. unfold next_orders. destruct (Nat.eqb_spec j i); [contradiction|lia].
  - rewrite (zsum_ext _ (fun j => orders j (deadline s j))); [exact Ha|]. intros j _. unfold next_orders. lia.
Qed.

Lemma layer_trans k s x t : psp_layer D k s -> (k < T)%nat -> t = psp_nv D k -> allowed t s x ->
  psp_layer D (S k) (pb_trans P s (mk_dec t (plan_value x))).
Proof.
  intros Hs Hk -> Ha. destruct (pl_time _ _ _ Hs) as [_ Ht]. fold T in Ht.
  assert (pt_time s = S (psp_nv D k)) as Ht' by (unfold psp_nv; fold T; lia).
  destruct (trans_spec k s x _ Hs Ht' Ha) as (_ & H1 & H2 & H3 & H4). set (s' := pb_trans P s _) in *.
  constructor.
  - split; [fold T; lia|]. rewrite H1. unfold psp_nv. fold T. lia.
  - exact H3.
  - rewrite H2. destruct x as [i|]; cbn [next_k allowed] in *; [right; fold n; lia|apply Hs].
  - intros i Hi. apply H4. exact Hi.
  - intros i Hi. destruct (H4 i Hi) as [_ ->]. rewrite H1. unfold next_orders.
    pose proof (pl_orders _ _ _ Hs i Hi) as Ho. rewrite Ht' in Ho.
    pose proof (count_mono (due i) (psp_nv D k) (S (psp_nv D k)) ltac:(lia)). unfold PspSpec.demanded in *.
    destruct x as [j|]; [|lia]. destruct (Nat.eqb_spec i j) as [<-|]; [|lia]. destruct Ha as (_ & Ha & _).
    apply (orders_after i (deadline s i)) in Ha; [|apply Hs; exact Hi]. unfold PspSpec.demanded in Ha. lia.
  - intros _. apply (todo_after s (psp_nv D k) x s') in Ha; [rewrite H1; exact Ha|]. intros j Hj. apply H4. exact Hj.
Qed.

Lemma init_spec : exists s, ps_init I debug = Some s /\ pb_init P = s /\ psp_layer D 0 s /\ pt_k s = BOT /\ (forall i, (i < n)%nat -> orders i (deadline s i) = demanded i T).
Proof.
  unfold P, psp_pb. cbn [pb_init]. unfold ps_init. change (ps_prev I) with (prev_table D). change (ps_T I) with T.
  destruct (pmat_col_spec debug (prev_table D) T) as (us & Hus & Hl & Hu).
  { unfold mat_wf, prev_table. cbn [mx_data mx_n mx_m]. rewrite concat_len with (m := S T).
    - rewrite map_length, (po_dem _ _ Hok). reflexivity.
    - intros r Hin; apply in_map_iff in Hin; destruct Hin as (r' & <- & Hin); rewrite prev_row_len; f_equal; apply (po_rows _ _ Hok); exact Hin. }
  { cbn. lia. }
  rewrite Hus. cbn [obind or_else]. exists (mk_pst T BOT us). split; [reflexivity|]. split; [reflexivity|].
  change (mx_n (prev_table D)) with n in Hl, Hu.
  assert (forall i, (i < n)%nat -> dl_ok i (nth i us 0) /\ orders i (nth i us 0) = demanded i T) as H.
  { intros i Hi. destruct (last_spec debug i Hi) as (v & Hv & H). rewrite pmat_get_in in Hv by (split; [exact Hi|cbn; fold T; lia]). rewrite <- Hu in Hv by exact Hi.
    apply nth_error_nth with (d := 0) in Hv. rewrite Hv. exact H. }
  split; [|split; [reflexivity|]]; [|intros i Hi; apply H; exact Hi]. constructor; cbn [pt_time pt_k pt_u].
  - fold T. lia.
  - fold n. exact Hl.
  - left. reflexivity.
  - intros i Hi. apply H. exact Hi.
  - intros i Hi. unfold PspSpec.deadline. cbn [pt_u]. destruct (H i Hi) as [_ ->]. lia.
  - lia.
Qed.
End Facts.
