(** Facts about the frontiers. *)
From Verif Require Import NoDup FrontierSpec MatrixFacts.
From Coq Require Import ZifyNat ZifyBool Sorting.Permutation.
Ltac Zify.zify_post_hook ::= Z.div_mod_to_equations.

Section Facts.
Variable S : Type.
Variable eqb : S -> S -> bool.
Variable rank : ranking S.
Hypothesis eqb_spec : forall a b, eqb a b = true <-> a = b.
Hypothesis rank_pre : total_preorder rank.

Notation sub := (subproblem S).
Notation cmp := (max_ub rank).

Lemma max_ub_preorder : total_preorder cmp.
Proof.
  destruct rank_pre as [Ha Ht]. split.
  - intros a b. unfold max_ub, then_with. rewrite (Z.compare_antisym (sp_ub a) (sp_ub b)).
    destruct (sp_ub a ?= sp_ub b)%Z; cbn [CompOpp]; auto.
  - intros a b c. unfold max_ub, then_with.
    destruct (Z.compare_spec (sp_ub a) (sp_ub b)) as [E1|E1|E1];
    destruct (Z.compare_spec (sp_ub b) (sp_ub c)) as [E2|E2|E2]; intros H1 H2; try congruence.
    + rewrite E1, E2, Z.compare_refl. eauto.
    + rewrite E1. rewrite (proj2 (Z.compare_lt_iff _ _) E2). discriminate.
    + rewrite <- E2. rewrite (proj2 (Z.compare_lt_iff _ _) E1). discriminate.
    + rewrite (proj2 (Z.compare_lt_iff _ _)) by lia. discriminate.
Qed.

Definition le (a b : sub) : Prop := cmp a b <> Gt.
Lemma le_trans a b c : le a b -> le b c -> le a c.
Proof. apply max_ub_preorder. Qed.
Lemma gt_le a b : cmp a b = Gt -> le b a.
Proof. unfold le. rewrite (proj1 max_ub_preorder a b). intros ->. discriminate. Qed.
Lemma notlt_le a b : cmp a b <> Lt -> le b a.
Proof. unfold le. rewrite (proj1 max_ub_preorder a b). destruct (cmp a b); cbn; congruence. Qed.
Lemma lt_le a b : cmp a b = Lt -> le a b.
Proof. unfold le. congruence. Qed.
Lemma le_refl a : le a a.
Proof. unfold le. pose proof (proj1 max_ub_preorder a a) as H. destruct (cmp a a); cbn in H; congruence. Qed.
Lemma rank_refl s : rank s s = Eq.
Proof. pose proof (proj1 rank_pre s s) as H. destruct (rank s s); cbn in H; congruence. Qed.

Open Scope nat_scope.

Lemma parent_div i : 0 < i -> parent i = (i - 1) / 2.
Proof.
  intros H. unfold parent. destruct (Nat.eqb_spec i 0) as [->|_]; [lia|].
  destruct (Nat.eqb_spec (i mod 2) 1) as [E|E]; lia.
Qed.
Lemma parent_lt i : 0 < i -> parent i < i.
Proof. intros H. rewrite parent_div by exact H. lia. Qed.
Lemma parent_child i p : 0 < i -> parent i = p <-> i = left_child p \/ i = right_child p.
Proof. intros H. rewrite parent_div by exact H. unfold left_child, right_child. lia. Qed.

(** ** Shape of the heap *)
Definition shape (f : nodup S) : Prop :=
  NoDup (nd_heap f) /\ length (nd_pos f) = length (nd_nodes f) /\
  (forall i id, nth_error (nd_heap f) i = Some id ->
     nth_error (nd_pos f) id = Some i /\ id < length (nd_nodes f)).

Definition key (f : nodup S) (i : nat) (n : sub) : Prop :=
  exists id, nth_error (nd_heap f) i = Some id /\ nth_error (nd_nodes f) id = Some n.

Definition heap_ok (f : nodup S) : Prop :=
  forall i a b, 0 < i -> key f i a -> key f (parent i) b -> le a b.

Lemma key_ex f i : shape f -> i < length (nd_heap f) -> exists n, key f i n.
Proof.
  intros (_ & _ & H) Hi. destruct (nth_error (nd_heap f) i) as [id|] eqn:E.
  - destruct (H i id E) as [_ Hid]. destruct (nth_error (nd_nodes f) id) as [n|] eqn:E2.
    + exists n, id. auto.
    + apply nth_error_None in E2. lia.
  - apply nth_error_None in E. lia.
Qed.
Lemma key_fun f i a b : key f i a -> key f i b -> a = b.
Proof. intros (x & H1 & H2) (y & H3 & H4). congruence. Qed.
Lemma key_lt f i a : key f i a -> i < length (nd_heap f).
Proof. intros (x & H1 & H2). apply nth_error_Some. congruence. Qed.

Lemma compare_at_pos_key f x y a b : key f x a -> key f y b -> compare_at_pos rank f x y = Some (cmp a b).
Proof. intros (i & H1 & H2) (j & H3 & H4). unfold compare_at_pos. rewrite H1; cbn. rewrite H2; cbn.
  rewrite H3; cbn. rewrite H4; cbn. reflexivity. Qed.

Lemma nodup_nth (l : list nat) i j x : NoDup l -> nth_error l i = Some x -> nth_error l j = Some x -> i = j.
Proof.
  intros H H1 H2. rewrite NoDup_nth_error in H. apply H; [apply nth_error_Some; congruence | congruence].
Qed.

Lemma swap_perm (l l2 : list nat) a b x y : a <> b -> nth_error l a = Some x -> nth_error l b = Some y ->
  length l2 = length l ->
  (forall i, nth_error l2 i = if Nat.eqb i a then Some y else if Nat.eqb i b then Some x else nth_error l i) ->
  Permutation l l2.
Proof.
  intros Hne Ha Hb Hlen H. apply Permutation_nth_error. split; [symmetry; exact Hlen|].
  exists (fun i => if Nat.eqb i a then b else if Nat.eqb i b then a else i). split.
  - intros i j. destruct (Nat.eqb_spec i a), (Nat.eqb_spec i b), (Nat.eqb_spec j a), (Nat.eqb_spec j b); lia.
  - intros i. rewrite H. destruct (Nat.eqb_spec i a); [subst; symmetry; exact Hb|].
    destruct (Nat.eqb_spec i b); [subst; symmetry; exact Ha | reflexivity].
Qed.

Lemma swap_spec f id me other oid : shape f -> me <> other ->
  nth_error (nd_heap f) me = Some id -> nth_error (nd_heap f) other = Some oid ->
  exists f', swap_with f id me other = Some f' /\ shape f' /\
    nd_states f' = nd_states f /\ nd_nodes f' = nd_nodes f /\ nd_recycle f' = nd_recycle f /\
    Permutation (nd_heap f) (nd_heap f') /\ length (nd_heap f') = length (nd_heap f) /\
    (forall i, nth_error (nd_heap f') i =
       if Nat.eqb i me then Some oid else if Nat.eqb i other then Some id else nth_error (nd_heap f) i).
Proof.
  intros (Hnd & Hlen & Hpos) Hne Hme Ho. unfold swap_with. rewrite Ho. cbn [obind].
  destruct (Hpos _ _ Hme) as [Pme Lid]. destruct (Hpos _ _ Ho) as [Po Loid].
  assert (Hid : id <> oid) by (intros ->; apply Hne; eapply nodup_nth; eauto).
  assert (Hml : me < length (nd_heap f)) by (apply nth_error_Some; congruence).
  assert (Hol : other < length (nd_heap f)) by (apply nth_error_Some; congruence).
  destruct (upd_some (nd_pos f) oid me) as [p1 E1]; [lia|]. rewrite E1; cbn [obind].
  destruct (upd_some p1 id other) as [p2 E2]; [rewrite (upd_length _ _ _ _ E1); lia|]. rewrite E2; cbn [obind].
  destruct (upd_some (nd_heap f) me oid) as [h1 E3]; [lia|]. rewrite E3; cbn [obind].
  destruct (upd_some h1 other id) as [h2 E4]; [rewrite (upd_length _ _ _ _ E3); lia|]. rewrite E4; cbn [obind].
  eexists. split; [reflexivity|]. cbn [nd_states nd_nodes nd_recycle nd_heap nd_pos].
  assert (Hn : forall i, nth_error h2 i = if Nat.eqb i me then Some oid else if Nat.eqb i other then Some id
                else nth_error (nd_heap f) i).
  { intros i. rewrite (upd_nth _ _ _ _ E4), (upd_nth _ _ _ _ E3).
    destruct (Nat.eqb_spec i other), (Nat.eqb_spec i me); subst; congruence. }
  assert (Hl2 : length h2 = length (nd_heap f)) by (rewrite (upd_length _ _ _ _ E4), (upd_length _ _ _ _ E3); lia).
  assert (Hp : Permutation (nd_heap f) h2) by (exact (swap_perm _ _ me other id oid Hne Hme Ho Hl2 Hn)).
  split; [|repeat split; auto].
  unfold shape; cbn [nd_heap nd_pos nd_nodes]. split; [eapply Permutation_NoDup; eauto|]. split.
  { rewrite (upd_length _ _ _ _ E2), (upd_length _ _ _ _ E1). exact Hlen. }
  intros i j Hj. rewrite Hn in Hj. rewrite (upd_nth _ _ _ _ E2), (upd_nth _ _ _ _ E1).
  destruct (Nat.eqb_spec i me) as [->|Hime].
  - inversion Hj; subst j. destruct (Nat.eqb_spec oid id); [congruence|]. rewrite Nat.eqb_refl. auto.
  - destruct (Nat.eqb_spec i other) as [->|Hio].
    + inversion Hj; subst j. rewrite Nat.eqb_refl. auto.
    + destruct (Hpos _ _ Hj) as [Pj Lj]. split; [|exact Lj].
      destruct (Nat.eqb_spec j id) as [->|]; [exfalso; apply Hime; eapply nodup_nth; eauto|].
      destruct (Nat.eqb_spec j oid) as [->|]; [exfalso; apply Hio; eapply nodup_nth; eauto|]. exact Pj.
Qed.

Lemma swap_key f f' id me other oid : nd_nodes f' = nd_nodes f ->
  nth_error (nd_heap f) me = Some id -> nth_error (nd_heap f) other = Some oid ->
  (forall i, nth_error (nd_heap f') i =
       if Nat.eqb i me then Some oid else if Nat.eqb i other then Some id else nth_error (nd_heap f) i) ->
  forall i n, key f' i n <-> key f (if Nat.eqb i me then other else if Nat.eqb i other then me else i) n.
Proof.
  intros Hn Hme Ho H i n. unfold key. rewrite Hn, H.
  destruct (Nat.eqb_spec i me); [rewrite Ho; reflexivity|].
  destruct (Nat.eqb_spec i other); [rewrite Hme; reflexivity | reflexivity].
Qed.

Definition same_but_heap (f f' : nodup S) : Prop :=
  nd_states f' = nd_states f /\ nd_nodes f' = nd_nodes f /\ nd_recycle f' = nd_recycle f /\
  Permutation (nd_heap f) (nd_heap f').

Lemma bubble_up_loop_spec fuel f id me : shape f -> nth_error (nd_heap f) me = Some id -> me < fuel ->
  (forall i a b, 0 < i -> i <> me -> key f i a -> key f (parent i) b -> le a b) ->
  (forall i a b, 0 < i -> parent i = me -> 0 < me -> key f i a -> key f (parent me) b -> le a b) ->
  exists f', bubble_up_loop rank fuel f id me = Some f' /\ shape f' /\ heap_ok f' /\ same_but_heap f f'.
Proof.
  revert f me; induction fuel as [|k IH]; intros f me Hs Hme Hf H1 H2; [lia|].
  cbn [bubble_up_loop]. destruct (Nat.eqb_spec me 0) as [->|Hme0].
  { exists f. split; [reflexivity|]. split; [exact Hs|]. split.
    - intros i a b Hi Ha Hb. apply (H1 i); auto. lia.
    - repeat split; auto. }
  assert (Hml : me < length (nd_heap f)) by (apply nth_error_Some; congruence).
  pose proof (parent_lt me ltac:(lia)) as Hpl.
  destruct (key_ex f me Hs Hml) as [a Ka]. destruct (key_ex f (parent me) Hs ltac:(lia)) as [b Kb].
  rewrite (compare_at_pos_key f me (parent me) a b Ka Kb). cbn [obind].
  assert (Hdone : cmp a b <> Gt -> exists f', Some f = Some f' /\ shape f' /\ heap_ok f' /\ same_but_heap f f').
  { intros Hc. exists f. split; [reflexivity|]. split; [exact Hs|]. split; [|repeat split; auto].
    intros i x y Hi Kx Ky. destruct (Nat.eq_dec i me) as [->|Hne]; [|apply (H1 i); auto].
    rewrite (key_fun _ _ _ _ Kx Ka), (key_fun _ _ _ _ Ky Kb). exact Hc. }
  destruct (cmp a b) eqn:Ec; [apply Hdone; congruence | apply Hdone; congruence |].
  destruct Kb as (oid & Ho & Hob).
  destruct (swap_spec f id me (parent me) oid Hs ltac:(lia) Hme Ho)
    as (f' & E & Hs' & S1 & S2 & S3 & S4 & S5 & S6).
  rewrite E. cbn [obind].
  pose proof (swap_key f f' id me (parent me) oid S2 Hme Ho S6) as K.
  assert (Kb : key f (parent me) b) by (exists oid; auto).
  destruct (IH f' (parent me)) as (f'' & E'' & Hs'' & Hh'' & T1 & T2 & T3 & T4); auto.
  - rewrite S6. destruct (Nat.eqb_spec (parent me) me); [lia|]. rewrite Nat.eqb_refl. reflexivity.
  - lia.
  - intros i x y Hi Hne Kx Ky. apply K in Kx. apply K in Ky.
    destruct (Nat.eqb_spec i me) as [->|Him].
    + (* i = me *) destruct (Nat.eqb_spec (parent me) me); [lia|]. rewrite Nat.eqb_refl in Ky.
      rewrite (key_fun _ _ _ _ Kx Kb), (key_fun _ _ _ _ Ky Ka). apply gt_le. exact Ec.
    + destruct (Nat.eqb_spec i (parent me)); [congruence|].
      destruct (Nat.eqb_spec (parent i) me) as [Hpm|Hpm].
      * apply (H2 i); auto. lia.
      * destruct (Nat.eqb_spec (parent i) (parent me)) as [Hpp|Hpp].
        -- rewrite (key_fun _ _ _ _ Ky Ka). apply le_trans with b; [|apply gt_le; exact Ec].
           apply (H1 i); auto. rewrite Hpp. exact Kb.
        -- apply (H1 i); auto.
  - intros i x y Hi Hp Hp0 Kx Ky. apply K in Kx. apply K in Ky.
    pose proof (parent_lt (parent me) Hp0).
    destruct (Nat.eqb_spec (parent (parent me)) me); [lia|].
    destruct (Nat.eqb_spec (parent (parent me)) (parent me)); [lia|].
    destruct (Nat.eqb_spec i me) as [->|Him].
    + apply (H1 (parent me)); auto; lia.
    + pose proof (parent_lt i Hi). destruct (Nat.eqb_spec i (parent me)); [lia|].
      apply le_trans with b; [apply (H1 i); auto; rewrite Hp; exact Kb|]. apply (H1 (parent me)); auto; lia.
  - exists f''. split; [exact E''|]. split; [exact Hs''|]. split; [exact Hh''|].
    unfold same_but_heap. rewrite T1, T2, T3. repeat split; auto. eapply Permutation_trans; eauto.
Qed.

Lemma bubble_down_loop_spec fuel f id me : shape f -> nth_error (nd_heap f) me = Some id ->
  length (nd_heap f) - me < fuel ->
  (forall i a b, 0 < i -> parent i <> me -> key f i a -> key f (parent i) b -> le a b) ->
  (forall i a b, 0 < i -> parent i = me -> 0 < me -> key f i a -> key f (parent me) b -> le a b) ->
  exists f', bubble_down_loop rank fuel f id me = Some f' /\ shape f' /\ heap_ok f' /\ same_but_heap f f'.
Proof.
  revert f me; induction fuel as [|k IH]; intros f me Hs Hme Hf H1 H2; [lia|].
  cbn [bubble_down_loop].
  assert (Hml : me < length (nd_heap f)) by (apply nth_error_Some; congruence).
  destruct (key_ex f me Hs Hml) as [a Ka].
  unfold max_child_of, nd_len.
  destruct (Nat.leb_spec (length (nd_heap f)) (left_child me)) as [Hl|Hl].
  { cbn [obind Nat.eqb]. exists f. split; [reflexivity|]. split; [exact Hs|]. split; [|repeat split; auto].
    intros i x y Hi Kx Ky. apply (H1 i); auto. intros Hp. apply parent_child in Hp; [|exact Hi].
    apply key_lt in Kx. unfold left_child, right_child in *. lia. }
  assert (Hkid : exists kid kk, (if length (nd_heap f) <=? right_child me then Some (left_child me)
       else do c <- compare_at_pos rank f (left_child me) (right_child me);
            Some match c with Gt => left_child me | _ => right_child me end) = Some kid /\
       key f kid kk /\ parent kid = me /\ 0 < kid /\
       (forall i x, 0 < i -> parent i = me -> key f i x -> le x kk)).
  { destruct (key_ex f (left_child me) Hs Hl) as [xl Kl].
    destruct (Nat.leb_spec (length (nd_heap f)) (right_child me)) as [Hr|Hr].
    - exists (left_child me), xl. split; [reflexivity|]. split; [exact Kl|].
      split; [apply parent_child; unfold left_child; lia|]. split; [unfold left_child; lia|].
      intros i x Hi Hp Kx. apply parent_child in Hp; [|exact Hi]. destruct Hp as [->| ->].
      + rewrite (key_fun _ _ _ _ Kx Kl). apply le_refl.
      + apply key_lt in Kx. lia.
    - destruct (key_ex f (right_child me) Hs Hr) as [xr Kr].
      rewrite (compare_at_pos_key _ _ _ _ _ Kl Kr). cbn [obind].
      destruct (cmp xl xr) eqn:Ec.
      1,2: exists (right_child me), xr; split; [reflexivity|]; split; [exact Kr|];
        split; [apply parent_child; unfold right_child; lia|]; split; [unfold right_child; lia|];
        intros i x Hi Hp Kx; apply parent_child in Hp; [|exact Hi]; destruct Hp as [->| ->];
        [rewrite (key_fun _ _ _ _ Kx Kl); unfold le; congruence | rewrite (key_fun _ _ _ _ Kx Kr); apply le_refl].
      exists (left_child me), xl; split; [reflexivity|]; split; [exact Kl|].
      split; [apply parent_child; unfold left_child; lia|]; split; [unfold left_child; lia|].
      intros i x Hi Hp Kx; apply parent_child in Hp; [|exact Hi]; destruct Hp as [->| ->];
        [rewrite (key_fun _ _ _ _ Kx Kl); apply le_refl | rewrite (key_fun _ _ _ _ Kx Kr); apply gt_le; exact Ec]. }
  destruct Hkid as (kid & kk & Ekid & Kk & Hpk & Hk0 & Hmax).
  rewrite Ekid. cbn [obind]. destruct (Nat.eqb_spec kid 0); [lia|].
  rewrite (compare_at_pos_key _ _ _ _ _ Ka Kk). cbn [obind].
  assert (Hdone : cmp a kk <> Lt -> exists f', Some f = Some f' /\ shape f' /\ heap_ok f' /\ same_but_heap f f').
  { intros Hc. exists f. split; [reflexivity|]. split; [exact Hs|]. split; [|repeat split; auto].
    intros i x y Hi Kx Ky. destruct (Nat.eq_dec (parent i) me) as [Hp|Hne]; [|apply (H1 i); auto].
    rewrite Hp in Ky. rewrite (key_fun _ _ _ _ Ky Ka). apply le_trans with kk; [apply (Hmax i); auto|].
    apply notlt_le. exact Hc. }
  destruct (cmp a kk) eqn:Ec; [apply Hdone; congruence | | apply Hdone; congruence].
  pose proof (parent_lt kid Hk0) as Hpl.
  assert (Kk' := Kk). destruct Kk' as (oid & Ho & Hob).
  destruct (swap_spec f id me kid oid Hs ltac:(lia) Hme Ho) as (f' & E & Hs' & S1 & S2 & S3 & S4 & S5 & S6).
  rewrite E. cbn [obind].
  pose proof (swap_key f f' id me kid oid S2 Hme Ho S6) as K.
  assert (Hkl : kid < length (nd_heap f)) by (eapply key_lt; eauto).
  destruct (IH f' kid) as (f'' & E'' & Hs'' & Hh'' & T1 & T2 & T3 & T4); auto.
  - rewrite S6. destruct (Nat.eqb_spec kid me); [lia|]. rewrite Nat.eqb_refl. reflexivity.
  - lia.
  - intros i x y Hi Hne Kx Ky. apply K in Kx. apply K in Ky.
    destruct (Nat.eqb_spec (parent i) kid); [congruence|].
    destruct (Nat.eqb_spec (parent i) me) as [Hp|Hp].
    + rewrite (key_fun _ _ _ _ Ky Kk). destruct (Nat.eqb_spec i me); [pose proof (parent_lt i Hi); lia|].
      destruct (Nat.eqb_spec i kid); [rewrite (key_fun _ _ _ _ Kx Ka); apply lt_le; exact Ec|].
      apply (Hmax i); auto.
    + destruct (Nat.eqb_spec i me) as [->|Him].
      * apply (H2 kid); auto.
      * destruct (Nat.eqb_spec i kid); [congruence|]. apply (H1 i); auto.
  - intros i x y Hi Hp Hp0 Kx Ky. apply K in Kx. apply K in Ky. rewrite Hpk, Nat.eqb_refl in Ky.
    rewrite (key_fun _ _ _ _ Ky Kk). pose proof (parent_lt i Hi).
    destruct (Nat.eqb_spec i me); [lia|]. destruct (Nat.eqb_spec i kid); [lia|].
    apply (H1 i); auto; try lia. rewrite Hp. exact Kk.
  - exists f''. split; [exact E''|]. split; [exact Hs''|]. split; [exact Hh''|].
    unfold same_but_heap. rewrite T1, T2, T3. repeat split; auto. eapply Permutation_trans; eauto.
Qed.

Lemma heap_root f b : heap_ok f -> shape f -> key f 0 b -> forall i a, key f i a -> le a b.
Proof.
  intros Hh Hs Kb i. induction i as [i IH] using lt_wf_ind. intros a Ka.
  destruct (Nat.eq_dec i 0) as [->|Hi]; [rewrite (key_fun _ _ _ _ Ka Kb); apply le_refl|].
  pose proof (parent_lt i ltac:(lia)) as Hp. pose proof (key_lt _ _ _ Ka) as Hl.
  destruct (key_ex f (parent i) Hs ltac:(lia)) as [p Kp].
  apply le_trans with p; [apply (Hh i); auto; lia | apply (IH (parent i)); auto].
Qed.

(** ** The complete invariant and the abstract content *)
Definition states_ok (f : nodup S) : Prop :=
  Permutation (map snd (nd_states f)) (nd_heap f) /\ NoDup (map fst (nd_states f)) /\
  (forall s id, In (s, id) (nd_states f) -> exists n, nth_error (nd_nodes f) id = Some n /\ sp_state n = s).
Definition recycle_ok (f : nodup S) : Prop :=
  NoDup (nd_recycle f) /\
  (forall id, In id (nd_recycle f) -> id < length (nd_nodes f) /\ ~ In id (nd_heap f)).
Definition Inv (f : nodup S) : Prop := shape f /\ heap_ok f /\ states_ok f /\ recycle_ok f.

Definition content (f : nodup S) (s : S) : option sub :=
  do id <- map_get eqb (nd_states f) s; nth_error (nd_nodes f) id.

Lemma eqb_refl s : eqb s s = true. Proof. apply eqb_spec. reflexivity. Qed.
Lemma eqb_neq a b : a <> b -> eqb a b = false.
Proof. intros H. destruct (eqb a b) eqn:E; [|reflexivity]. apply eqb_spec in E. contradiction. Qed.

Lemma map_get_in {V} (m : list (S * V)) s v : NoDup (map fst m) -> (map_get eqb m s = Some v <-> In (s, v) m).
Proof.
  induction m as [|[k w] m IH]; cbn [map fst map_get In]; intros Hn.
  - split; [discriminate|tauto].
  - inversion Hn as [|x l Hx Hl]; subst. destruct (eqb k s) eqn:E.
    + apply eqb_spec in E. subst k. split.
      * intros [= ->]. left. reflexivity.
      * intros [[= ->]|H]; [reflexivity|]. exfalso. apply Hx. apply in_map_iff. exists (s, v). auto.
    + rewrite IH by exact Hl. split; [auto|]. intros [[= -> ->]|H]; [|exact H].
      rewrite eqb_refl in E. discriminate.
Qed.
Lemma map_get_none {V} (m : list (S * V)) s : map_get eqb m s = None <-> ~ In s (map fst m).
Proof.
  induction m as [|[k w] m IH]; cbn [map fst map_get In]; [tauto|].
  destruct (eqb k s) eqn:E.
  - apply eqb_spec in E. split; [discriminate|tauto].
  - rewrite IH. split; [|tauto]. intros H [->|H']; [rewrite eqb_refl in E; discriminate | tauto].
Qed.
Lemma map_remove_in {V} (m : list (S * V)) s k v : NoDup (map fst m) ->
  (In (k, v) (map_remove eqb m s) <-> In (k, v) m /\ k <> s).
Proof.
  induction m as [|[k' w] m IH]; cbn [map fst map_remove In]; intros Hn; [tauto|].
  inversion Hn as [|x l Hx Hl]; subst. destruct (eqb k' s) eqn:E.
  - apply eqb_spec in E. subst k'. split.
    + intros H. split; [right; exact H|]. intros ->. apply Hx. apply in_map_iff. exists (s, v). auto.
    + intros [[[= -> ->]|H] Hne]; [congruence|exact H].
  - cbn [In]. rewrite IH by exact Hl. split.
    + intros [[= -> ->]|[H1 H2]]; [|tauto]. split; [left; reflexivity|]. intros ->. rewrite eqb_refl in E. discriminate.
    + intros [[[= -> ->]|H] Hne]; [left; reflexivity | right; tauto].
Qed.
Lemma map_remove_perm {V} (m : list (S * V)) s v : NoDup (map fst m) -> In (s, v) m ->
  Permutation (map snd m) (v :: map snd (map_remove eqb m s)).
Proof.
  induction m as [|[k' w] m IH]; cbn [map fst snd map_remove In]; intros Hn H; [destruct H|].
  inversion Hn as [|x l Hx Hl]; subst. destruct (eqb k' s) eqn:E.
  - apply eqb_spec in E. subst k'. destruct H as [[= ->]|H]; [reflexivity|].
    exfalso. apply Hx. apply in_map_iff. exists (s, v). auto.
  - destruct H as [[= -> ->]|H]; [rewrite eqb_refl in E; discriminate|]. cbn [map snd].
    rewrite (IH Hl H). apply perm_swap.
Qed.
Lemma map_remove_nodup {V} (m : list (S * V)) s : NoDup (map fst m) -> NoDup (map fst (map_remove eqb m s)).
Proof.
  induction m as [|[k w] m IH]; cbn [map fst map_remove]; intros Hn; [constructor|].
  inversion Hn as [|x l Hx Hl]; subst. destruct (eqb k s) eqn:E; [exact Hl|]. cbn [map fst]. constructor; [|auto].
  intros H. apply Hx. apply in_map_iff in H as ([k2 w2] & Hk & Hin). cbn in Hk. subst k2.
  apply map_remove_in in Hin; [|exact Hl]. apply in_map_iff. exists (k, w2). tauto.
Qed.

Lemma Inv_new : Inv nd_new.
Proof.
  unfold Inv, shape, heap_ok, states_ok, recycle_ok, nd_new; cbn. repeat split; try constructor; auto.
  all: try (destruct i; discriminate).
  all: try (intros i a b _ (id & H & _); destruct i; discriminate).
  all: try tauto.
Qed.

(** The specification of merging a duplicate. *)
Definition merged (old new : sub) : sub :=
  let best := if (sp_value old <? sp_value new)%Z then new else old in
  with_ub best (Z.max (sp_ub old) (sp_ub new)).

Lemma content_get f s id n : Inv f -> In (s, id) (nd_states f) -> nth_error (nd_nodes f) id = Some n ->
  content f s = Some n.
Proof.
  intros (_ & _ & (_ & Hn & _) & _) Hin Hnode. unfold content.
  apply map_get_in in Hin; [|exact Hn]. rewrite Hin. exact Hnode.
Qed.

Lemma with_ub_id (n : sub) : with_ub n (sp_ub n) = n.
Proof. destruct n; reflexivity. Qed.

Lemma same_but_heap_key_transfer f f' : shape f -> shape f' -> same_but_heap f f' ->
  states_ok f -> recycle_ok f -> states_ok f' /\ recycle_ok f'.
Proof.
  intros _ _ (E1 & E2 & E3 & E4) (Ha & Hb & Hc) (Hd & He). unfold states_ok, recycle_ok.
  rewrite E1, E2, E3. repeat split; auto.
  - eapply Permutation_trans; eauto.
  - apply He; assumption.
  - intros Hin. apply (proj2 (He id H)). eapply Permutation_in; [symmetry; exact E4|exact Hin].
Qed.

Lemma content_same f f' s : nd_states f' = nd_states f -> nd_nodes f' = nd_nodes f -> content f' s = content f s.
Proof. intros H1 H2. unfold content. rewrite H1, H2. reflexivity. Qed.

Lemma push_occupied f n id : Inv f -> map_get eqb (nd_states f) (sp_state n) = Some id ->
  exists f' old, nd_push eqb rank f n = Some f' /\ Inv f' /\ content f (sp_state n) = Some old /\
    (forall s, content f' s = if eqb (sp_state n) s then Some (merged old n) else content f s).
Proof.
  intros HI Hget. assert (HI' := HI). destruct HI as (Hs & Hh & Hst & Hre).
  destruct Hst as (Hp & Hnd & Hsn). assert (Hin := Hget). apply map_get_in in Hin; [|exact Hnd].
  destruct (Hsn _ _ Hin) as (old & Hold & Hos).
  unfold nd_push. rewrite Hget, Hold. cbn [obind].
  destruct Hs as (Hs1 & Hs2 & Hs3).
  assert (Hid : id < length (nd_nodes f)) by (apply nth_error_Some; congruence).
  assert (Hheap : In id (nd_heap f)).
  { eapply Permutation_in; [exact Hp|]. apply in_map_iff. exists (sp_state n, id). auto. }
  (* the node list after the two conditional writes *)
  set (node := with_ub n (Z.max (sp_ub n) (sp_ub old))).
  assert (Hnodes : exists nodes2,
    (do nodes1 <- (if (sp_value old <? sp_value n)%Z then upd (nd_nodes f) id node else Some (nd_nodes f));
     do nodes2 <- (if (sp_ub old <? sp_ub n)%Z
                    then (do cur <- nth_error nodes1 id; upd nodes1 id (with_ub cur (sp_ub n)))
                    else Some nodes1); Some nodes2) = Some nodes2 /\
    length nodes2 = length (nd_nodes f) /\
    (forall j, nth_error nodes2 j = if Nat.eqb j id then Some (merged old n) else nth_error (nd_nodes f) j)).
  { assert (H1 : exists nodes1 cur, (if (sp_value old <? sp_value n)%Z then upd (nd_nodes f) id node else Some (nd_nodes f)) = Some nodes1
      /\ length nodes1 = length (nd_nodes f) /\ nth_error nodes1 id = Some cur /\
         cur = (if (sp_value old <? sp_value n)%Z then node else old) /\
         forall j, nth_error nodes1 j = if Nat.eqb j id then Some cur else nth_error (nd_nodes f) j).
    { destruct (sp_value old <? sp_value n)%Z.
      - destruct (upd_some (nd_nodes f) id node Hid) as [l El]. exists l, node. rewrite El.
        split; [reflexivity|]. split; [eapply upd_length; eauto|]. pose proof (upd_nth _ _ _ _ El) as Hn.
        split; [rewrite Hn, Nat.eqb_refl; reflexivity|]. split; [reflexivity|exact Hn].
      - exists (nd_nodes f), old. repeat split; auto. intros j.
        destruct (Nat.eqb_spec j id) as [->|]; [exact Hold|reflexivity]. }
    destruct H1 as (nodes1 & cur & E1 & L1 & N1 & C1 & P1). rewrite E1. cbn [obind].
    destruct (Z.ltb_spec (sp_ub old) (sp_ub n)) as [Hu|Hu].
    - rewrite N1. cbn [obind]. destruct (upd_some nodes1 id (with_ub cur (sp_ub n))) as [l El]; [lia|].
      rewrite El. cbn [obind]. exists l. split; [reflexivity|]. split; [rewrite (upd_length _ _ _ _ El); exact L1|].
      intros j. rewrite (upd_nth _ _ _ _ El), P1. destruct (Nat.eqb_spec j id) as [->|]; [|reflexivity].
      f_equal. unfold merged. rewrite C1. replace (Z.max (sp_ub old) (sp_ub n)) with (sp_ub n) by lia.
      destruct (sp_value old <? sp_value n)%Z; reflexivity.
    - cbn [obind]. exists nodes1. split; [reflexivity|]. split; [exact L1|].
      intros j. rewrite P1. destruct (Nat.eqb_spec j id); [|reflexivity]. f_equal. rewrite C1. unfold merged, node.
      replace (Z.max (sp_ub old) (sp_ub n)) with (sp_ub old) by lia.
      replace (Z.max (sp_ub n) (sp_ub old)) with (sp_ub old) by lia.
      destruct (sp_value old <? sp_value n)%Z; [reflexivity|]. symmetry. apply with_ub_id. }
  destruct Hnodes as (nodes2 & En & Ln & Pn).
  set (f1 := mk_nd (nd_states f) nodes2 (nd_pos f) (nd_heap f) (nd_recycle f)).
  assert (Hmst : sp_state (merged old n) = sp_state n).
  { unfold merged, with_ub. cbn. destruct (sp_value old <? sp_value n)%Z; [reflexivity|exact Hos]. }
  assert (Hs' : shape f1).
  { unfold shape, f1; cbn. rewrite Ln. repeat split; auto; apply (Hs3 i id0); assumption. }
  assert (Hst' : states_ok f1).
  { unfold states_ok, f1; cbn. repeat split; auto. intros s j Hj. rewrite Pn.
    destruct (Nat.eqb_spec j id) as [->|]; [|apply Hsn; exact Hj].
    exists (merged old n). split; [reflexivity|]. rewrite Hmst.
    destruct (Hsn _ _ Hj) as (o2 & Ho2 & <-). congruence. }
  assert (Hre' : recycle_ok f1).
  { destruct Hre as [Hr1 Hr2]. unfold recycle_ok, f1; cbn. rewrite Ln. split; auto. }
  assert (Hcmp : forall x, cmp x node = cmp x (merged old n)).
  { intros x. unfold max_ub, node, merged, with_ub. cbn. rewrite (Z.max_comm (sp_ub n)).
    destruct (sp_value old <? sp_value n)%Z; [reflexivity|]. rewrite Hos. reflexivity. }
  assert (Hkey : forall i x, key f1 i x -> (nth_error (nd_heap f) i = Some id /\ x = merged old n) \/
                               (nth_error (nd_heap f) i <> Some id /\ key f i x)).
  { intros i x (j & Hj & Hx). unfold f1 in Hj, Hx; cbn in Hj, Hx. rewrite Pn in Hx.
    destruct (Nat.eqb_spec j id) as [->|Hne]; [left; split; congruence|].
    right. split; [congruence|]. exists j. auto. }
  assert (Hkold : forall i, nth_error (nd_heap f) i = Some id -> key f i old) by (intros i Hi; exists id; auto).
  assert (Hge : le old (merged old n)).
  { unfold le, max_ub, merged, with_ub. cbn.
    destruct (Z.compare_spec (sp_ub old) (Z.max (sp_ub old) (sp_ub n))) as [E|E|E]; cbn; try congruence; [|lia].
    assert (sp_state (if (sp_value old <? sp_value n)%Z then n else old) = sp_state old) as ->
      by (destruct (sp_value old <? sp_value n)%Z; congruence).
    rewrite rank_refl. discriminate. }
  assert (Hfin : forall f2, shape f2 -> heap_ok f2 -> same_but_heap f1 f2 ->
     exists f' old0, Some f2 = Some f' /\ Inv f' /\ content f (sp_state n) = Some old0 /\
       (forall s, content f' s = if eqb (sp_state n) s then Some (merged old0 n) else content f s)).
  { intros f2 Hs2' Hh2' Hsame. exists f2, old. split; [reflexivity|].
    destruct (same_but_heap_key_transfer f1 f2 Hs' Hs2' Hsame Hst' Hre') as [Hst2 Hre2].
    split; [unfold Inv; auto|]. split; [eapply content_get; eauto|].
    intros s. destruct Hsame as (Q1 & Q2 & _). rewrite (content_same f1 f2 s Q1 Q2).
    unfold content, f1; cbn. destruct (eqb (sp_state n) s) eqn:E.
    - apply eqb_spec in E. subst s. rewrite Hget. cbn. rewrite Pn, Nat.eqb_refl. reflexivity.
    - destruct (map_get eqb (nd_states f) s) as [j|] eqn:Ej; [|reflexivity]. cbn. rewrite Pn.
      destruct (Nat.eqb_spec j id) as [->|]; [|reflexivity]. exfalso.
      apply map_get_in in Ej; [|exact Hnd]. destruct (Hsn _ _ Ej) as (o2 & Ho2 & Hs2x).
      rewrite <- Hs2x in E. rewrite Hold in Ho2. inversion Ho2; subst o2. rewrite Hos, eqb_refl in E. discriminate. }
  destruct (In_nth_error _ _ Hheap) as [me Hme].
  assert (Hgoal : exists f2, process_action rank f1 (match cmp node old with Gt => BubbleUp id | _ => DoNothing end) = Some f2
            /\ shape f2 /\ heap_ok f2 /\ same_but_heap f1 f2).
  { destruct (cmp node old) eqn:Ec.
    3:{ (* bubble up *) cbn [process_action]. unfold bubble_up, position. unfold f1 at 1; cbn [nd_pos].
      destruct (Hs3 _ _ Hme) as [-> _]. cbn [obind].
      apply bubble_up_loop_spec; auto.
      - unfold nd_len, f1; cbn. assert (me < length (nd_heap f)) by (apply nth_error_Some; congruence). lia.
      - intros i x y Hi Hne Kx Ky. destruct (Hkey _ _ Kx) as [[Hx ->]|[Hx Kx']].
        + exfalso. apply Hne. eapply nodup_nth; eauto.
        + destruct (Hkey _ _ Ky) as [[Hy ->]|[Hy Ky']].
          * apply le_trans with old; [|exact Hge]. apply (Hh i); auto.
          * apply (Hh i); auto.
      - intros i x y Hi Hpi Hm0 Kx Ky. pose proof (parent_lt i Hi). pose proof (parent_lt me Hm0).
        destruct (Hkey _ _ Kx) as [[Hx ->]|[Hx Kx']];
          [assert (i = me) by (eapply nodup_nth; eauto); lia|].
        destruct (Hkey _ _ Ky) as [[Hy ->]|[Hy Ky']];
          [assert (parent me = me) by (eapply nodup_nth; eauto); lia|].
        apply le_trans with old; [apply (Hh i); auto; rewrite Hpi; auto | apply (Hh me); auto]. }
    1,2: exists f1; split; [reflexivity|]; split; [exact Hs'|]; split; [|repeat split; auto];
      intros i x y Hi Kx Ky;
      destruct (Hkey _ _ Kx) as [[Hx ->]|[Hx Kx']]; destruct (Hkey _ _ Ky) as [[Hy ->]|[Hy Ky']];
      [apply le_refl
      | apply le_trans with old; [|apply (Hh i); auto]; unfold le;
        rewrite (proj1 max_ub_preorder), <- Hcmp, <- (proj1 max_ub_preorder); congruence
      | apply le_trans with old; [|exact Hge]; apply (Hh i); auto
      | apply (Hh i); auto]. }
  destruct Hgoal as (f2 & Ea & G1 & G2 & G3).
  destruct (if (sp_value old <? sp_value n)%Z then upd (nd_nodes f) id node else Some (nd_nodes f)) as [nodes1|];
    cbn [obind] in En |- *; [|discriminate].
  destruct (if (sp_ub old <? sp_ub n)%Z then do cur <- nth_error nodes1 id; upd nodes1 id (with_ub cur (sp_ub n)) else Some nodes1)
    as [nodes2'|]; cbn [obind] in En |- *; [|discriminate].
  inversion En; subst nodes2'. fold f1. fold node. rewrite Ea. apply Hfin; auto.
Qed.


Lemma push_vacant f n : Inv f -> map_get eqb (nd_states f) (sp_state n) = None ->
  exists f', nd_push eqb rank f n = Some f' /\ Inv f' /\ content f (sp_state n) = None /\
    (forall s, content f' s = if eqb (sp_state n) s then Some n else content f s).
Proof.
  intros HI Hget. destruct HI as (Hs & Hh & (Hp & Hnd & Hsn) & (Hr1 & Hr2)).
  destruct Hs as (Hs1 & Hs2 & Hs3).
  unfold nd_push. rewrite Hget.
  assert (Hheaplt : forall j, In j (nd_heap f) -> j < length (nd_nodes f)).
  { intros j Hj. destruct (In_nth_error _ _ Hj) as [i Hi]. apply (Hs3 i j Hi). }
  (* allocation of the identifier *)
  assert (Hal : exists id nodes1 pos1 rec1,
     (match nd_recycle f with
         | [] => Some (length (nd_nodes f), nd_nodes f ++ [n], nd_pos f ++ [0], [])
         | id :: r => do nodes1 <- upd (nd_nodes f) id n; Some (id, nodes1, nd_pos f, r)
         end) = Some (id, nodes1, pos1, rec1) /\ ~ In id (nd_heap f) /\ id < length nodes1 /\
     length nodes1 = length pos1 /\ length (nd_nodes f) <= length nodes1 /\
     nth_error nodes1 id = Some n /\
     (forall j, j <> id -> j < length (nd_nodes f) ->
         nth_error nodes1 j = nth_error (nd_nodes f) j /\ nth_error pos1 j = nth_error (nd_pos f) j) /\
     NoDup rec1 /\ (forall j, In j rec1 -> j <> id /\ j < length nodes1 /\ ~ In j (nd_heap f))).
  { destruct (nd_recycle f) as [|id r] eqn:Er.
    - exists (length (nd_nodes f)), (nd_nodes f ++ [n]), (nd_pos f ++ [0]), [].
      split; [reflexivity|]. rewrite !app_length. cbn [length].
      split; [intros H; apply Hheaplt in H; lia|]. split; [lia|]. split; [lia|]. split; [lia|].
      split; [rewrite nth_error_app2, Nat.sub_diag by lia; reflexivity|].
      split; [|split; [constructor|intros j []]].
      intros j Hj Hl. rewrite !nth_error_app1 by lia. auto.
    - destruct (Hr2 id (or_introl eq_refl)) as [Hid Hnh].
      destruct (upd_some (nd_nodes f) id n Hid) as [l El]. rewrite El. cbn [obind].
      exists id, l, (nd_pos f), r. split; [reflexivity|]. rewrite (upd_length _ _ _ _ El).
      pose proof (upd_nth _ _ _ _ El) as Hn.
      split; [exact Hnh|]. split; [exact Hid|]. split; [lia|]. split; [lia|].
      split; [rewrite Hn, Nat.eqb_refl; reflexivity|]. inversion Hr1 as [|x y Hx Hy]; subst.
      split; [|split; [exact Hy|]].
      + intros j Hj Hl. rewrite Hn. destruct (Nat.eqb_spec j id); [contradiction|auto].
      + intros j Hj. split; [intros ->; contradiction|]. apply Hr2. right. exact Hj. }
  destruct Hal as (id & nodes1 & pos1 & rec1 & -> & Hnh & Hid & Hlen1 & Hle & Hnode & Hsame & Hrec1 & Hrec2).
  cbn [obind]. rewrite app_length. cbn [length]. replace (length (nd_heap f) + 1 - 1) with (length (nd_heap f)) by lia.
  destruct (upd_some pos1 id (length (nd_heap f))) as [pos2 Ep]; [lia|]. rewrite Ep. cbn [obind].
  pose proof (upd_nth _ _ _ _ Ep) as Hpn.
  set (f1 := mk_nd ((sp_state n, id) :: nd_states f) nodes1 pos2 (nd_heap f ++ [id]) rec1).
  assert (Hhn : forall i j, nth_error (nd_heap f ++ [id]) i = Some j ->
            (i < length (nd_heap f) /\ nth_error (nd_heap f) i = Some j /\ j <> id) \/ (i = length (nd_heap f) /\ j = id)).
  { intros i j H. destruct (Nat.lt_ge_cases i (length (nd_heap f))) as [Hi|Hi].
    - rewrite nth_error_app1 in H by exact Hi. left. repeat split; auto. intros ->. apply Hnh.
      eapply nth_error_In; eauto.
    - rewrite nth_error_app2 in H by exact Hi. right.
      destruct (i - length (nd_heap f)) as [|k] eqn:E; [|destruct k; discriminate].
      cbn in H. inversion H. split; [lia|reflexivity]. }
  assert (Hs' : shape f1).
  { unfold shape, f1; cbn [nd_heap nd_pos nd_nodes]. split; [|split].
    - apply (Permutation_NoDup (l := id :: nd_heap f)); [apply Permutation_cons_append|].
      constructor; assumption.
    - rewrite (upd_length _ _ _ _ Ep). lia.
    - intros i j H. apply Hhn in H. rewrite Hpn. destruct H as [(Hi & Hj & Hne)|(-> & ->)].
      + destruct (Hs3 _ _ Hj) as [Pj Lj]. destruct (Nat.eqb_spec j id); [contradiction|].
        destruct (Hsame j Hne Lj) as [_ ->]. split; [exact Pj|lia].
      + rewrite Nat.eqb_refl. auto. }
  assert (Hst' : states_ok f1).
  { unfold states_ok, f1; cbn [nd_states nd_heap nd_nodes map fst snd]. split; [|split].
    - apply Permutation_trans with (id :: nd_heap f); [constructor; exact Hp|apply Permutation_cons_append].
    - constructor; [apply map_get_none; exact Hget|exact Hnd].
    - intros s j [[= <- <-]|Hj]; [exists n; auto|]. destruct (Hsn _ _ Hj) as (m & Hm & Hms).
      exists m. split; [|exact Hms]. assert (j < length (nd_nodes f)) by (apply nth_error_Some; congruence).
      assert (j <> id).
      { intros ->. apply Hnh. eapply Permutation_in; [exact Hp|]. apply in_map_iff. exists (s, id). auto. }
      destruct (Hsame j H0 H) as [-> _]. exact Hm. }
  assert (Hre' : recycle_ok f1).
  { unfold recycle_ok, f1; cbn [nd_recycle nd_heap nd_nodes]. split; [exact Hrec1|].
    intros j Hj. destruct (Hrec2 j Hj) as (H1 & H2 & H3). split; [exact H2|].
    rewrite in_app_iff. intros [H|[H|[]]]; [contradiction|congruence]. }
  assert (Hkey : forall i x, key f1 i x -> (i < length (nd_heap f) /\ key f i x) \/ i = length (nd_heap f)).
  { intros i x (j & Hj & Hx). unfold f1 in Hj, Hx; cbn [nd_heap nd_nodes] in Hj, Hx. apply Hhn in Hj.
    destruct Hj as [(Hi & Hj & Hne)|(-> & ->)]; [|right; reflexivity]. left. split; [exact Hi|].
    exists j. split; [exact Hj|]. destruct (Hs3 _ _ Hj) as [_ Lj]. destruct (Hsame j Hne Lj) as [<- _]. exact Hx. }
  cbn [process_action]. unfold bubble_up, position. unfold f1 at 1; cbn [nd_pos].
  rewrite Hpn, Nat.eqb_refl. cbn [obind].
  destruct (bubble_up_loop_spec (Datatypes.S (nd_len f1)) f1 id (length (nd_heap f))) as (f2 & E2 & G1 & G2 & G3).
  - exact Hs'.
  - unfold f1; cbn [nd_heap]. rewrite nth_error_app2, Nat.sub_diag by lia. reflexivity.
  - unfold nd_len, f1; cbn [nd_heap]. rewrite app_length. cbn. lia.
  - intros i a b Hi Hne Ka Kb. destruct (Hkey _ _ Ka) as [[Hia Ka']|]; [|contradiction].
    pose proof (parent_lt i Hi). destruct (Hkey _ _ Kb) as [[_ Kb']|]; [|lia]. apply (Hh i); auto.
  - intros i a b Hi Hpi Hm0 Ka Kb. pose proof (parent_lt i Hi). destruct (Hkey _ _ Ka) as [[? _]|?]; lia.
  - fold f1. rewrite E2. exists f2. split; [reflexivity|].
    destruct (same_but_heap_key_transfer f1 f2 Hs' G1 G3 Hst' Hre') as [Hst2 Hre2].
    split; [unfold Inv; auto|]. split; [unfold content; rewrite Hget; reflexivity|].
    intros s. destruct G3 as (Q1 & Q2 & _). rewrite (content_same f1 f2 s Q1 Q2).
    unfold content, f1; cbn [nd_states nd_nodes map_get]. destruct (eqb (sp_state n) s) eqn:E; [exact Hnode|].
    destruct (map_get eqb (nd_states f) s) as [j|] eqn:Ej; [|reflexivity]. cbn [obind].
    apply map_get_in in Ej; [|exact Hnd]. destruct (Hsn _ _ Ej) as (m & Hm & _).
    assert (j < length (nd_nodes f)) by (apply nth_error_Some; congruence).
    apply Hsame; [|assumption]. intros ->. apply Hnh. eapply Permutation_in; [exact Hp|].
    apply in_map_iff. exists (s, id). auto.
Qed.

Lemma push_spec f n : Inv f ->
  exists f', nd_push eqb rank f n = Some f' /\ Inv f' /\
    (forall s, content f' s = if eqb (sp_state n) s
       then Some (match content f s with None => n | Some old => merged old n end) else content f s).
Proof.
  intros HI. destruct (map_get eqb (nd_states f) (sp_state n)) as [id|] eqn:E.
  - destruct (push_occupied f n id HI E) as (f' & old & E1 & H1 & H2 & H3). exists f'. split; [exact E1|].
    split; [exact H1|]. intros s. rewrite H3. destruct (eqb (sp_state n) s) eqn:Es; [|reflexivity].
    apply eqb_spec in Es. subst s. rewrite H2. reflexivity.
  - destruct (push_vacant f n HI E) as (f' & E1 & H1 & H2 & H3). exists f'. split; [exact E1|].
    split; [exact H1|]. intros s. rewrite H3. destruct (eqb (sp_state n) s) eqn:Es; [|reflexivity].
    apply eqb_spec in Es. subst s. rewrite H2. reflexivity.
Qed.

Lemma last_removelast (t : list nat) : t <> [] -> t = removelast t ++ [last t 0].
Proof. intros H. apply app_removelast_last. exact H. Qed.

Lemma swap_remove0_spec h t : t <> [] ->
  exists x u, swap_remove0 (h :: t) = x :: u /\ t = u ++ [x].
Proof.
  intros H. exists (last t 0), (removelast t). split; [|apply last_removelast; exact H].
  destruct t; [congruence|reflexivity].
Qed.

Lemma content_in_heap f s n : Inv f -> content f s = Some n ->
  sp_state n = s /\ exists i, key f i n.
Proof.
  intros (Hs & Hh & (Hp & Hnd & Hsn) & _) H. unfold content in H.
  destruct (map_get eqb (nd_states f) s) as [id|] eqn:E; [|discriminate]. cbn in H.
  apply map_get_in in E; [|exact Hnd]. destruct (Hsn _ _ E) as (m & Hm & Hms).
  rewrite H in Hm. inversion Hm; subst m. split; [exact Hms|].
  assert (Hin : In id (nd_heap f)).
  { eapply Permutation_in; [exact Hp|]. apply in_map_iff. exists (s, id). auto. }
  destruct (In_nth_error _ _ Hin) as [i Hi]. exists i, id. auto.
Qed.

Lemma pop_empty f : Inv f -> nd_heap f = [] -> nd_pop eqb rank f = Some (None, f) /\ forall s, content f s = None.
Proof.
  intros HI H. unfold nd_pop. rewrite H. split; [reflexivity|]. intros s.
  destruct (content f s) as [n|] eqn:E; [|reflexivity]. destruct (content_in_heap f s n HI E) as (_ & i & j & Hj & _).
  rewrite H in Hj. destruct i; discriminate.
Qed.

Lemma pop_spec f id t : Inv f -> nd_heap f = id :: t ->
  exists n f', nd_pop eqb rank f = Some (Some n, f') /\ Inv f' /\
    content f (sp_state n) = Some n /\ (forall s m, content f s = Some m -> le m n) /\
    (forall s, content f' s = if eqb (sp_state n) s then None else content f s).
Proof.
  intros HI E. assert (HI' := HI). destruct HI as (Hs & Hh & (Hp & Hnd & Hsn) & (Hr1 & Hr2)).
  assert (Hs0 := Hs). destruct Hs as (Hs1 & Hs2 & Hs3).
  destruct (Hs3 0 id) as [Hp0 Hid]; [rewrite E; reflexivity|].
  destruct (nth_error (nd_nodes f) id) as [n|] eqn:En; [|apply nth_error_None in En; lia].
  assert (Hst : In (sp_state n, id) (nd_states f)).
  { assert (In id (map snd (nd_states f))) as H.
    { eapply Permutation_in; [symmetry; exact Hp|]. rewrite E. left. reflexivity. }
    apply in_map_iff in H as ([s j] & Hj & Hin). cbn in Hj. subst j.
    destruct (Hsn _ _ Hin) as (m & Hm & Hms). rewrite En in Hm. inversion Hm; subst m. rewrite Hms. exact Hin. }
  assert (Hc : content f (sp_state n) = Some n) by (eapply content_get; eauto).
  assert (Hmax : forall s m, content f s = Some m -> le m n).
  { intros s m Hm. destruct (content_in_heap f s m HI' Hm) as (_ & i & Hi).
    apply (heap_root f n Hh Hs0) with i; [|exact Hi]. exists id. rewrite E. auto. }
  assert (Hndt : NoDup t /\ ~ In id t) by (rewrite E in Hs1; inversion Hs1; auto).
  destruct Hndt as [Hndt Hnit].
  (* the state after bubbling down *)
  assert (Hmid : exists f2,
    (do '(f1, act) <-
        (match swap_remove0 (nd_heap f) with
         | [] => Some (mk_nd (nd_states f) (nd_nodes f) (nd_pos f) (swap_remove0 (nd_heap f)) (nd_recycle f), DoNothing)
         | h0 :: _ =>
             do pos1 <- upd (nd_pos f) h0 0%nat;
             Some (mk_nd (nd_states f) (nd_nodes f) pos1 (swap_remove0 (nd_heap f)) (nd_recycle f), BubbleDown h0)
         end); process_action rank f1 act) = Some f2 /\
    shape f2 /\ heap_ok f2 /\ nd_states f2 = nd_states f /\ nd_nodes f2 = nd_nodes f /\
    nd_recycle f2 = nd_recycle f /\ Permutation t (nd_heap f2)).
  { rewrite E. destruct t as [|t0 t'].
    - cbn [swap_remove0 obind process_action]. eexists. split; [reflexivity|].
      unfold shape, heap_ok; cbn [nd_heap nd_states nd_nodes nd_pos nd_recycle].
      repeat split; auto; try constructor.
      + destruct i; discriminate.
      + destruct i; discriminate.
      + intros i a b _ (j & Hj & _). cbn in Hj. destruct i; discriminate.
    - destruct (swap_remove0_spec id (t0 :: t') ltac:(discriminate)) as (x & u & Ex & Et).
      rewrite Ex. rewrite Et in *. clear t0 t' Et Ex.
      assert (Hx : nth_error (nd_heap f) (Datatypes.S (length u)) = Some x).
      { rewrite E. cbn. rewrite nth_error_app2, Nat.sub_diag by lia. reflexivity. }
      destruct (Hs3 _ _ Hx) as [Px Lx].
      destruct (upd_some (nd_pos f) x 0) as [pos1 Ep]; [lia|]. rewrite Ep. cbn [obind].
      pose proof (upd_nth _ _ _ _ Ep) as Hpn.
      set (f1 := mk_nd (nd_states f) (nd_nodes f) pos1 (x :: u) (nd_recycle f)).
      assert (Hperm : Permutation (u ++ [x]) (x :: u)) by (symmetry; apply Permutation_cons_append).
      assert (Hold : forall i j, 0 < i -> nth_error (x :: u) i = Some j -> nth_error (nd_heap f) i = Some j).
      { intros i j Hi H. destruct i as [|i]; [lia|]. rewrite E. cbn in *.
        rewrite nth_error_app1; [exact H|]. apply nth_error_Some. congruence. }
      assert (Hs' : shape f1).
      { unfold shape, f1; cbn [nd_heap nd_pos nd_nodes]. split; [eapply Permutation_NoDup; eauto|].
        split; [rewrite (upd_length _ _ _ _ Ep); exact Hs2|].
        intros i j Hj. rewrite Hpn. destruct (Nat.eq_dec i 0) as [->|Hi].
        - cbn in Hj. inversion Hj; subst j. rewrite Nat.eqb_refl. auto.
        - assert (Hj' := Hj). apply Hold in Hj; [|lia]. destruct (Hs3 _ _ Hj) as [Pj Lj]. split; [|exact Lj].
          destruct (Nat.eqb_spec j x) as [->|]; [|exact Pj].
          exfalso. assert (i = Datatypes.S (length u)) by (eapply nodup_nth; [exact Hs1|exact Hj|exact Hx]).
          assert (i < length (x :: u)) by (apply nth_error_Some; congruence). cbn [length] in *. lia. }
      cbn [process_action]. unfold bubble_down, position. unfold f1 at 1; cbn [nd_pos].
      rewrite Hpn, Nat.eqb_refl. cbn [obind].
      destruct (bubble_down_loop_spec (Datatypes.S (nd_len f1)) f1 x 0) as (f2 & E2 & G1 & G2 & G3).
      + exact Hs'.
      + reflexivity.
      + unfold nd_len. lia.
      + intros i a b Hi Hne (ja & Hja & Ha) (jb & Hjb & Hb). apply (Hh i).
        * exact Hi.
        * exists ja. split; [apply Hold; auto|exact Ha].
        * exists jb. split; [apply Hold; [lia|auto]|exact Hb].
      + intros; lia.
      + exists f2. fold f1. rewrite E2. split; [reflexivity|]. split; [exact G1|]. split; [exact G2|].
        destruct G3 as (Q1 & Q2 & Q3 & Q4). repeat split; auto. eapply Permutation_trans; [exact Hperm|exact Q4]. }
  destruct Hmid as (f2 & Em & G1 & G2 & Q1 & Q2 & Q3 & Q4).
  unfold nd_pop. rewrite E. rewrite E in Em. cbn iota beta zeta.
  match type of Em with (obind ?X _ = _) => destruct X as [[f1 act]|]; [|discriminate] end.
  cbn [obind] in Em |- *. rewrite Em. cbn [obind]. rewrite Q2, En. cbn [obind].
  eexists n, _. split; [reflexivity|].
  split; [|split; [exact Hc|split; [exact Hmax|]]].
  - unfold Inv. split; [|split; [|split]].
    + destruct G1 as (A & B & C). unfold shape; cbn [nd_heap nd_pos nd_nodes]. rewrite <- Q2. repeat split; auto; apply (C i); assumption.
    + intros i a b Hi Ka Kb. apply (G2 i); auto; unfold key in *; cbn in *; rewrite Q2; assumption.
    + unfold states_ok; cbn [nd_heap nd_states nd_nodes]. rewrite Q1. split; [|split].
      * apply Permutation_trans with t; [|exact Q4].
        pose proof (map_remove_perm (nd_states f) (sp_state n) id Hnd Hst) as H1.
        assert (H2 : Permutation (id :: map snd (map_remove eqb (nd_states f) (sp_state n))) (id :: t)).
        { eapply Permutation_trans; [symmetry; exact H1|]. rewrite <- E. exact Hp. }
        apply Permutation_cons_inv in H2. exact H2.
      * apply map_remove_nodup. exact Hnd.
      * intros s j Hj. apply map_remove_in in Hj; [|exact Hnd]. apply Hsn. tauto.
    + unfold recycle_ok; cbn [nd_heap nd_recycle nd_nodes]. rewrite Q3. split.
      * constructor; [|exact Hr1]. intros H. apply Hr2 in H as [_ H]. apply H. rewrite E. left. reflexivity.
      * intros j [<-|Hj].
        -- split; [lia|]. intros H. apply Hnit. eapply Permutation_in; [symmetry; exact Q4|exact H].
        -- apply Hr2 in Hj as [H1 H2]. split; [exact H1|]. intros H. apply H2. rewrite E. right.
           eapply Permutation_in; [symmetry; exact Q4|exact H].
  - intros s. unfold content; cbn [nd_states nd_nodes]. rewrite Q1.
    destruct (eqb (sp_state n) s) eqn:Es.
    + apply eqb_spec in Es. subst s.
      destruct (map_get eqb (map_remove eqb (nd_states f) (sp_state n)) (sp_state n)) as [j|] eqn:Ej; [|reflexivity].
      apply map_get_in in Ej; [|apply map_remove_nodup; exact Hnd]. apply map_remove_in in Ej; [|exact Hnd]. tauto.
    + assert (Hget : map_get eqb (map_remove eqb (nd_states f) (sp_state n)) s = map_get eqb (nd_states f) s).
      { destruct (map_get eqb (nd_states f) s) as [j|] eqn:Ej.
        - apply map_get_in; [apply map_remove_nodup; exact Hnd|]. apply map_remove_in; [exact Hnd|].
          apply map_get_in in Ej; [|exact Hnd]. split; [exact Ej|]. intros ->. rewrite eqb_refl in Es. discriminate.
        - destruct (map_get eqb (map_remove eqb (nd_states f) (sp_state n)) s) as [j|] eqn:Ej'; [|reflexivity].
          apply map_get_in in Ej'; [|apply map_remove_nodup; exact Hnd]. apply map_remove_in in Ej'; [|exact Hnd].
          destruct Ej' as [Ej' _]. apply map_get_in in Ej'; [|exact Hnd]. congruence. }
      rewrite Hget. reflexivity.
Qed.

Lemma len_spec f : Inv f -> exists l, NoDup l /\ length l = nd_len f /\ forall s, In s l <-> content f s <> None.
Proof.
  intros (Hs & Hh & (Hp & Hnd & Hsn) & _). exists (map fst (nd_states f)). split; [exact Hnd|]. split.
  - unfold nd_len. rewrite <- (Permutation_length Hp), !map_length. reflexivity.
  - intros s. unfold content. destruct (map_get eqb (nd_states f) s) as [id|] eqn:E.
    + apply map_get_in in E; [|exact Hnd]. destruct (Hsn _ _ E) as (m & Hm & _). cbn. rewrite Hm.
      split; [discriminate|]. intros _. apply in_map_iff. exists (s, id). auto.
    + apply map_get_none in E. cbn. tauto.
Qed.

End Facts.
