(** The functions of the TSPTW example on the states of a layer: they do not panic (in a release build) and this is what they
    compute. *)
From Verif Require Import TsptwSpec BitsFacts MatrixFacts.
Open Scope Z_scope.

Section Facts.
Variable debug : bool.
Variable I : tw_inst.
Variable M : Z.
Hypothesis Hok : tw_inst_ok I M.
Notation n := (tw_n I).
Notation P := (tw_problem debug I).
Notation layer := (tw_layer I M).
Notation dist := (dist I).
Notation opens := (opens I).
Notation closes := (closes I).
Notation may_be_at := (may_be_at I).

Lemma M_pos : 0 <= M.
Proof. pose proof (io_n _ _ Hok). pose proof (io_dist _ _ Hok 0 0 ltac:(lia) ltac:(lia)). lia. Qed.

Lemma get_dist i j : (i < n)%nat -> (j < n)%nat -> mat_get (tw_dist I) i j = Some (dist i j).
Proof.
  intros Hi Hj. destruct (io_dim _ _ Hok) as (D1 & D2 & D3).
  destruct (mat_total (tw_dist I) i j) as [x Hx]; [unfold mat_wf; rewrite D1, D2; exact D3|split; lia|].
  unfold TsptwSpec.dist. rewrite Hx. reflexivity.
Qed.
Lemma get_win j : (j < n)%nat -> exists w, nth_error (tw_win I) j = Some w /\ w_earliest w = opens j /\ w_latest w = closes j.
Proof.
  intros Hj. destruct (nth_error (tw_win I) j) as [w|] eqn:E.
  - exists w. split; [reflexivity|]. unfold TsptwSpec.opens, TsptwSpec.closes. rewrite (nth_error_nth _ _ _ E). auto.
  - apply nth_error_None in E. rewrite (io_win _ _ Hok) in E. lia.
Qed.

(** Distance from where the salesman may be. *)
Definition gap (s : tw_state) (j : nat) : Z := or_else 0 (min_distance_to I s j).

Lemma virtual_list c : (exists i, (i < n)%nat /\ bs_get c i = true) -> forall j, (j < n)%nat ->
  omap (fun i => mat_get (tw_dist I) i j) (bs_iter n c) = Some (map (fun i => dist i j) (bs_iter n c)) /\ map (fun i => dist i j) (bs_iter n c) <> [].
Proof.
  intros (i & Hi & Hc) j Hj. split.
  - apply omap_some. intros x Hx. apply in_bs_iter in Hx as [Hx _]. apply get_dist; assumption.
  - intros H. apply map_eq_nil in H. assert (Hin : In i (bs_iter n c)) by (apply in_bs_iter; auto). rewrite H in Hin. destruct Hin.
Qed.

Lemma gap_spec k s j : layer k s -> (j < n)%nat ->
  min_distance_to I s j = Some (gap s j) /\ (exists i, may_be_at s i /\ gap s j = dist i j) /\ (forall i, may_be_at s i -> gap s j <= dist i j).
Proof.
  intros HL Hj. unfold gap, min_distance_to, may_be_at. destruct (tl_pos _ _ _ _ HL) as (i0 & Hi0 & Hm). unfold TsptwSpec.may_be_at in *.
  destruct (tw_pos s) as [i|c] eqn:E.
  - subst i0. rewrite (get_dist i j Hi0 Hj). cbn [or_else]. split; [reflexivity|]. split; [eauto|]. intros i' ->. lia.
  - destruct (virtual_list c (ex_intro _ i0 (conj Hi0 (proj2 Hm))) j Hj) as [E1 E2]. rewrite E1. cbn [obind].
    destruct (zmin_of_spec _ E2) as (m & -> & Hin & Hle). cbn [or_else]. split; [reflexivity|]. split.
    + apply in_map_iff in Hin as (i & <- & Hin). apply in_bs_iter in Hin. eauto.
    + intros i Hi. apply Hle. apply in_map_iff. exists i. split; [reflexivity|]. apply in_bs_iter. exact Hi.
Qed.
Lemma max_dist_spec k s j : layer k s -> (j < n)%nat -> exists d, max_distance_to I s j = Some d /\ gap s j <= d <= M.
Proof.
  intros HL Hj. destruct (gap_spec k s j HL Hj) as (E1 & (i0 & Hi0 & Eg) & Hle). pose proof (tl_virt _ _ _ _ HL) as HV.
  unfold max_distance_to, gap, min_distance_to in *. unfold TsptwSpec.may_be_at in *. destruct (tw_pos s) as [i|c] eqn:E.
  - exists (dist i j). subst i0. rewrite E1. cbn [or_else] in *. specialize (HV i eq_refl). rewrite (get_dist i j HV Hj) in *. cbn [or_else]. split; [reflexivity|].
    pose proof (io_dist _ _ Hok i j HV Hj). lia.
  - destruct (virtual_list c (ex_intro _ i0 Hi0) j Hj) as [E3 E2]. rewrite E3 in *. cbn [obind] in *.
    destruct (zmax_of_spec _ E2) as (m & -> & Hin & Hge). exists m. split; [reflexivity|]. rewrite Eg. split; [apply Hge; apply in_map_iff; exists i0; split; [reflexivity|apply in_bs_iter; exact Hi0]|].
    apply in_map_iff in Hin as (i & <- & Hin). apply in_bs_iter in Hin as [Hin _]. apply (io_dist _ _ Hok); assumption.
Qed.
Lemma gap_range k s j : layer k s -> (j < n)%nat -> 0 <= gap s j <= M.
Proof.
  intros HL Hj. destruct (gap_spec k s j HL Hj) as (_ & (i & Hi & ->) & _). apply (io_dist _ _ Hok); [apply (tl_virt _ _ _ _ HL); exact Hi|exact Hj].
Qed.

(** The salesman can be at [j] before it closes. *)
Definition in_time (s : tw_state) (j : nat) : Prop := time_of s + gap s j <= closes j.

Lemma can_move_spec k s j : layer k s -> (j < n)%nat -> can_move_to I s j = Some (time_of s + gap s j <=? closes j).
Proof.
  intros HL Hj. unfold can_move_to. destruct (get_win j Hj) as (w & -> & _ & Hw). cbn [obind].
  rewrite (proj1 (gap_spec k s j HL Hj)). cbn [obind]. unfold time_of. rewrite <- Hw. destruct (tw_el s); reflexivity.
Qed.
Lemma all_reachable_spec k s l : layer k s -> (forall j, In j l -> (j < n)%nat) ->
  exists b, all_reachable I s l = Some b /\ (b = true <-> forall j, In j l -> in_time s j).
Proof.
  intros HL. induction l as [|j l IH]; intros Hl; cbn [all_reachable]; [exists true; split; [reflexivity|]; split; [intros _ j []|reflexivity]|].
  rewrite (can_move_spec k s j HL (Hl j (or_introl eq_refl))). cbn [obind]. destruct (Z.leb_spec (time_of s + gap s j) (closes j)) as [H|H].
  - destruct (IH (fun x h => Hl x (or_intror h))) as (b & -> & Hb). exists b. split; [reflexivity|]. rewrite Hb. split; [intros G x [<-|Hx]; auto|]. intros G x Hx. apply G. right. exact Hx.
  - exists false. split; [reflexivity|]. split; [discriminate|]. intros G. specialize (G j (or_introl eq_refl)). unfold in_time in G. lia.
Qed.

(** What the domain holds: the way back to the depot in the last layer, elsewhere the cities that must or may be visited and can be,
    provided that none of those that must be visited is out of reach. *)
Definition allowed (k : nat) (s : tw_state) (j : nat) : Prop :=
  in_time s j /\
  (S k = n /\ j = 0%nat \/
   (S k < n)%nat /\ (must_visit s j \/ may_visit s j) /\ forall i, must_visit s i -> in_time s i).

Lemma domain_some k s v : layer k s -> (k < n)%nat -> exists l, tw_domain debug I v s = Some l /\ forall d, In d l <-> exists j, d = mk_dec v (Z.of_nat j) /\ allowed k s j.
Proof.
  intros HL Hk. unfold tw_domain. rewrite usub_some by lia. cbn [obind]. rewrite (tl_depth _ _ _ _ HL).
  pose proof (io_n _ _ Hok) as Hn. destruct (Z.eqb_spec (Z.of_nat k) (Z.of_nat n - 1)) as [E|E].
  - rewrite (can_move_spec k s 0 HL ltac:(lia)). cbn [obind]. eexists. split; [reflexivity|]. intros d.
    destruct (Z.leb_spec (time_of s + gap s 0) (closes 0)) as [H|H].
    + split; [intros [<-|[]]; exists 0%nat; split; [reflexivity|]; split; [exact H|left; lia]|].
      intros (j & -> & [_ [[_ ->]|[H1 _]]]); [left; reflexivity|lia].
    + split; [intros []|]. intros (j & -> & [H1 [[_ ->]|[H2 _]]]); [unfold in_time in H1; lia|lia].
  - destruct (all_reachable_spec k s (bs_iter n (tw_must s)) HL) as (b & -> & Hb); [intros j Hj; apply in_bs_iter in Hj; tauto|]. cbn [obind].
    assert (Hmust : forall j, In j (bs_iter n (tw_must s)) <-> must_visit s j).
    { intros j. rewrite in_bs_iter. unfold must_visit. split; [tauto|]. intros H. split; [apply (tl_must _ _ _ _ HL) in H; lia|exact H]. }
    destruct b.
    + assert (Hex : exists e, (match tw_maybe s with Some m => ofilter (can_move_to I s) (bs_iter n m) | None => Some [] end) = Some e /\ forall j, In j e <-> may_visit s j /\ in_time s j).
      { unfold may_visit. destruct (tw_maybe s) as [m|] eqn:Em.
        - rewrite (ofilter_some _ (fun j => time_of s + gap s j <=? closes j)).
          2: { intros x Hx. apply in_bs_iter in Hx. apply (can_move_spec k); tauto. }
          eexists. split; [reflexivity|]. intros j. rewrite filter_In, in_bs_iter, Z.leb_le. unfold in_time. split.
          + intros ((H1 & H2) & H3). split; [eauto|exact H3].
          + intros ((m' & E1 & H1) & H2). inversion E1; subst m'. split; [|exact H2]. split; [|exact H1].
            assert (1 <= j < n)%nat by (apply (tl_maybe _ _ _ _ HL); exists m; auto). lia.
        - exists []. split; [reflexivity|]. intros j. split; [intros []|]. intros ((m & E1 & _) & _). discriminate. }
      destruct Hex as (e & -> & He). cbn [obind]. eexists. split; [reflexivity|]. intros d. rewrite in_map_iff. split.
      * intros (j & <- & Hj). exists j. split; [reflexivity|]. apply in_app_or in Hj. destruct Hb as [Hb _]. specialize (Hb eq_refl). split.
        { destruct Hj as [Hj|Hj]; [auto|apply He; exact Hj]. }
        right. split; [lia|]. split; [destruct Hj as [Hj|Hj]; [left; apply Hmust; exact Hj|right; apply He; exact Hj]|]. intros i Hi. apply Hb, Hmust, Hi.
      * intros (j & -> & H1 & [[H2 _]|(H2 & H3 & H4)]); [lia|]. exists j. split; [reflexivity|]. apply in_or_app. destruct H3 as [H3|H3]; [left; apply Hmust; exact H3|right; apply He; auto].
    + exists []. split; [reflexivity|]. intros d. split; [intros []|]. intros (j & -> & H1 & [[H2 _]|(H2 & H3 & H4)]); [lia|].
      exfalso. assert (false = true); [|discriminate]. apply Hb. intros i Hi. apply H4, Hmust, Hi.
Qed.
Lemma in_domain k s v d : layer k s -> (k < n)%nat -> (In d (pb_domain P v s) <-> exists j, d = mk_dec v (Z.of_nat j) /\ allowed k s j).
Proof. intros HL Hk. destruct (domain_some k s v HL Hk) as (l & E & H). cbn [tw_problem pb_domain]. rewrite E. apply H. Qed.
Lemma allowed_lt k s j : layer k s -> (k < n)%nat -> allowed k s j -> (j < n)%nat.
Proof.
  intros HL Hk (_ & [(_ & ->)|(_ & [H|H] & _)]); [lia| |].
  - apply (tl_must _ _ _ _ HL) in H. lia.
  - apply (tl_maybe _ _ _ _ HL) in H. lia.
Qed.

(** Where a move leads. *)
Record moved (s s' : tw_state) (j : nat) : Prop := {
  mv_pos : tw_pos s' = AtNode j;
  mv_time : time_of s' = Z.max (time_of s + gap s j) (opens j);
  mv_must : forall i, must_visit s' i <-> must_visit s i /\ i <> j;
  mv_maybe : forall i, may_visit s' i <-> may_visit s i /\ i <> j;
  mv_nomaybe : tw_maybe s = None -> tw_maybe s' = None;
  mv_depth : tw_depth s' = S (tw_depth s) }.

Lemma trans_some k s v j : layer k s -> (j < n)%nat -> exists s', tw_trans I s (mk_dec v (Z.of_nat j)) = Some s' /\ moved s s' j /\
  match tw_el s' with FixedAmount _ => True | FuzzyAmount _ y => 0 <= y <= (Z.of_nat (S k) + 1) * M end.
Proof.
  intros HL Hj. unfold tw_trans. cbn [d_val]. rewrite Nat2Z.id. rewrite (proj2 (Nat.ltb_lt j n) Hj). unfold arrival_time.
  rewrite (proj1 (gap_spec k s j HL Hj)). cbn [obind]. destruct (max_dist_spec k s j HL Hj) as (d & -> & Hd). cbn [obind].
  destruct (get_win j Hj) as (w & -> & W1 & W2). cbn [obind]. rewrite W1, W2. eexists. split; [reflexivity|]. cbn [tw_el].
  pose proof (tl_time _ _ _ _ HL) as Ht. pose proof (tl_late _ _ _ _ HL) as Hl. pose proof (gap_range k s j HL Hj) as Hg. pose proof (io_open _ _ Hok j Hj) as Ho. pose proof M_pos as HM.
  split.
  - constructor; cbn [tw_pos tw_must tw_maybe tw_depth]; auto.
    + unfold time_of. cbn [tw_el]. destruct (tw_el s) as [x|x y]; cbn [add_duration el_earliest].
      * destruct (Z.eqb_spec (x + gap s j) (x + d)); [reflexivity|]. destruct (Z.eqb_spec (Z.max (x + gap s j) (opens j)) (Z.min (x + d) (closes j))); reflexivity.
      * destruct (Z.eqb_spec (x + gap s j) (y + d)); [reflexivity|]. destruct (Z.eqb_spec (Z.max (x + gap s j) (opens j)) (Z.min (y + d) (closes j))); reflexivity.
    + intros i. unfold must_visit. cbn [tw_must]. rewrite get_off, andb_true_iff, negb_true_iff, Nat.eqb_neq. tauto.
    + intros i. unfold may_visit. cbn [tw_maybe]. destruct (tw_maybe s) as [m|]; cbn [option_map].
      * split; [intros (m' & E & H); inversion E; subst m'; rewrite get_off, andb_true_iff, negb_true_iff, Nat.eqb_neq in H; split; [exists m; tauto|tauto]|].
        intros ((m' & E & H) & Hi). inversion E; subst m'. eexists. split; [reflexivity|]. rewrite get_off, andb_true_iff, negb_true_iff, Nat.eqb_neq. tauto.
      * split; [intros (m & E & _); discriminate|intros ((m & E & _) & _); discriminate].
    + intros ->. reflexivity.
  - unfold time_of in Ht. destruct (tw_el s) as [x|x y]; cbn [add_duration el_earliest] in *.
    + destruct (Z.eqb_spec (x + gap s j) (x + d)); [exact Logic.I|]. destruct (Z.eqb_spec (Z.max (x + gap s j) (opens j)) (Z.min (x + d) (closes j))); [exact Logic.I|]. nia.
    + destruct (Z.eqb_spec (x + gap s j) (y + d)); [exact Logic.I|]. destruct (Z.eqb_spec (Z.max (x + gap s j) (opens j)) (Z.min (y + d) (closes j))); [exact Logic.I|]. nia.
Qed.
Lemma trans_spec k s v j : layer k s -> (j < n)%nat -> moved s (pb_trans P s (mk_dec v (Z.of_nat j))) j /\ layer (S k) (pb_trans P s (mk_dec v (Z.of_nat j))).
Proof.
  intros HL Hj. destruct (trans_some k s v j HL Hj) as (s' & E & Hm & Hlate). cbn [tw_problem pb_trans]. rewrite E. cbn [or_else]. split; [exact Hm|].
  pose proof (tl_time _ _ _ _ HL) as Ht. pose proof (gap_range k s j HL Hj) as Hg. pose proof (io_open _ _ Hok j Hj) as Ho. pose proof M_pos as HM.
  constructor.
  - rewrite (mv_depth _ _ _ Hm), (tl_depth _ _ _ _ HL). reflexivity.
  - exists j. unfold TsptwSpec.may_be_at. rewrite (mv_pos _ _ _ Hm). auto.
  - intros i. unfold TsptwSpec.may_be_at. rewrite (mv_pos _ _ _ Hm). intros ->. exact Hj.
  - rewrite (mv_time _ _ _ Hm). nia.
  - exact Hlate.
  - intros i Hi. apply (mv_must _ _ _ Hm) in Hi. apply (tl_must _ _ _ _ HL), Hi.
  - intros i Hi. apply (mv_maybe _ _ _ Hm) in Hi. apply (tl_maybe _ _ _ _ HL), Hi.
  - intros i H1 H2. apply (mv_must _ _ _ Hm) in H1. apply (mv_maybe _ _ _ Hm) in H2. apply (tl_disj _ _ _ _ HL i); tauto.
Qed.
Lemma cost_some k s v j : layer k s -> (j < n)%nat -> tw_cost I s (mk_dec v (Z.of_nat j)) = Some (time_of s - Z.max (time_of s + gap s j) (opens j)).
Proof.
  intros HL Hj. unfold tw_cost. cbn [d_val]. rewrite Nat2Z.id. destruct (get_win j Hj) as (w & -> & W1 & _). cbn [obind].
  rewrite (proj1 (gap_spec k s j HL Hj)). cbn [obind]. rewrite W1. unfold time_of. f_equal. destruct (tw_el s) as [x|x y]; cbn [el_earliest].
  all: destruct (Z.ltb_spec (x + gap s j) (opens j)); lia.
Qed.
Lemma cost_spec k s v j : layer k s -> (j < n)%nat ->
  pb_cost P s (mk_dec v (Z.of_nat j)) = time_of s - time_of (pb_trans P s (mk_dec v (Z.of_nat j))).
Proof.
  intros HL Hj. rewrite (mv_time _ _ _ (proj1 (trans_spec k s v j HL Hj))). cbn [tw_problem pb_cost]. rewrite (cost_some k s v j HL Hj). reflexivity.
Qed.

(** The initial state. *)
Lemma init_layer : layer 0 (pb_init P).
Proof.
  pose proof (io_n _ _ Hok) as Hn. cbn [tw_problem pb_init]. unfold tw_init.
  constructor; cbn [tw_depth tw_pos tw_el tw_must tw_maybe]; unfold time_of, TsptwSpec.may_be_at, must_visit, may_visit; cbn [tw_depth tw_pos tw_el tw_must tw_maybe el_earliest]; auto.
  - exists 0%nat. split; [lia|reflexivity].
  - intros i ->. lia.
  - pose proof M_pos. lia.
  - intros i. rewrite get_off, get_all, andb_true_iff, negb_true_iff, Nat.eqb_neq, Nat.ltb_lt. lia.
  - intros i (m & E & _). discriminate.
  - intros i _ (m & E & _). discriminate.
Qed.

(** A run costs the time it takes. *)
Lemma run_time k s ds k' s' c : run tw_state P tw_nv k s ds k' s' c -> layer k s -> (k <= n)%nat -> layer k' s' /\ (k <= k' <= n)%nat /\ c = time_of s - time_of s'.
Proof.
  induction 1 as [k s|k s d ds k' s' c Hk Hd Hr IH]; intros HL Hn; [split; [exact HL|]; split; [lia|lia]|].
  apply (in_domain k) in Hd; [|exact HL|exact Hk]. destruct Hd as (j & -> & Hal). pose proof (allowed_lt k s j HL Hk Hal) as Hj.
  destruct (trans_spec k s (tw_nv k) j HL Hj) as [_ HL']. destruct (IH HL' Hk) as (H1 & H2 & H3). split; [exact H1|]. split; [lia|].
  rewrite (cost_spec k s _ j HL Hj). lia.
Qed.

Lemma wf_tsptw : wf_problem tw_state P layer tw_nv.
Proof.
  constructor.
  - exact init_layer.
  - reflexivity.
  - intros k [|s l] Hl HF Hk; [congruence|]. cbn [tw_problem pb_next_var tw_next_var]. inversion HF as [|? ? HL]; subst. rewrite (tl_depth _ _ _ _ HL).
    cbn [tw_problem pb_nb_vars] in Hk. destruct (Nat.eqb_spec k n); [lia|reflexivity].
  - intros [|s l] Hl HF; [congruence|]. cbn [tw_problem pb_next_var tw_next_var]. inversion HF as [|? ? HL]; subst. rewrite (tl_depth _ _ _ _ HL).
    cbn [tw_problem pb_nb_vars]. rewrite Nat.eqb_refl. reflexivity.
  - intros k s d Hk HL Hd. apply (in_domain k) in Hd; [|exact HL|exact Hk]. destruct Hd as (j & -> & Hal).
    apply (trans_spec k s _ j HL). exact (allowed_lt k s j HL Hk Hal).
Qed.
End Facts.
