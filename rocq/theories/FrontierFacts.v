(** Facts about whole histories of frontier operations. *)
From Verif Require Import NoDup FrontierSpec NoDupFacts.
From Coq Require Import Sorting.Permutation.

Section Hist.
Variable S : Type.
Variable eqb : S -> S -> bool.
Variable rank : ranking S.
Hypothesis eqb_spec : forall a b, eqb a b = true <-> a = b.
Hypothesis rank_pre : total_preorder rank.
Notation sub := (subproblem S).
Notation content := (content S eqb).
Notation Inv := (Inv S rank).

Lemma le_no_priority (q p : sub) : max_ub rank q p <> Gt <-> no_priority rank q p.
Proof.
  unfold max_ub, then_with, no_priority. destruct (Z.compare_spec (sp_ub q) (sp_ub p)) as [E|E|E].
  - split; [auto|intros [H|[_ H]]; [lia|exact H]].
  - split; [auto|discriminate].
  - split; [congruence|intros [H|[H _]]; lia].
Qed.

Definition summary (l : list sub) : option sub :=
  match l with [] => None | a :: t => Some (fold_left (merged S) t a) end.
Definition agrees (f : nodup S) (w : S -> list sub) : Prop :=
  (forall s, content f s = summary (w s)) /\ (forall s q, In q (w s) -> sp_state q = s).

Lemma summary_app l n : summary (l ++ [n]) = Some (match summary l with None => n | Some o => merged S o n end).
Proof. destruct l as [|a l]; [reflexivity|]. cbn. rewrite fold_left_app. reflexivity. Qed.

Lemma step_spec f w o : Inv f -> agrees f w ->
  exists e f', nd_step eqb rank f o = Some (e, f') /\ Inv f' /\ agrees f' (waiting_step eqb w e) /\ call_of e = o /\
    match e with
    | EvPop None => forall s, w s = []
    | EvPop (Some p) => summary (w (sp_state p)) = Some p /\
         (forall s m, summary (w s) = Some m -> no_priority rank m p)
    | EvLen k => exists l, NoDup l /\ length l = k /\ forall s, In s l <-> w s <> []
    | _ => True
    end.
Proof.
  intros HI [Hag Hst]. destruct o as [n| | |]; cbn [nd_step].
  - destruct (push_spec S eqb rank eqb_spec rank_pre f n HI) as (f' & E & HI' & Hc). rewrite E. cbn [obind].
    eexists _, f'. split; [reflexivity|]. split; [exact HI'|]. split; [|split; [reflexivity|exact I]].
    split.
    + intros s. rewrite Hc. cbn [waiting_step]. destruct (eqb (sp_state n) s) eqn:Es; [|apply Hag].
      rewrite summary_app, Hag. reflexivity.
    + intros s q. cbn [waiting_step]. destruct (eqb (sp_state n) s) eqn:Es; [|apply Hst].
      rewrite in_app_iff. intros [H|[<-|[]]]; [apply Hst; exact H|apply eqb_spec; exact Es].
  - destruct (nd_heap f) as [|id t] eqn:Eh.
    + destruct (pop_empty S eqb rank eqb_spec f HI Eh) as [E Hc]. rewrite E. cbn [obind].
      eexists _, f. split; [reflexivity|]. split; [exact HI|]. split; [split; auto|].
      split; [reflexivity|]. intros s. specialize (Hc s). rewrite Hag in Hc. destruct (w s); [reflexivity|discriminate].
    + destruct (pop_spec S eqb rank eqb_spec rank_pre f id t HI Eh) as (n & f' & E & HI' & H1 & H2 & H3).
      rewrite E. cbn [obind]. eexists _, f'. split; [reflexivity|]. split; [exact HI'|]. split.
      * split.
        -- intros s. rewrite H3. cbn [waiting_step]. destruct (eqb (sp_state n) s); [reflexivity|apply Hag].
        -- intros s q. cbn [waiting_step]. destruct (eqb (sp_state n) s); [intros []|apply Hst].
      * split; [reflexivity|]. split; [rewrite <- Hag; exact H1|].
        intros s m Hm. apply le_no_priority. rewrite <- Hag in Hm. exact (H2 s m Hm).
  - eexists _, _. split; [reflexivity|]. split; [apply Inv_new|]. split; [|split; [reflexivity|exact I]].
    split; [reflexivity|intros s q []].
  - eexists _, _. split; [reflexivity|]. split; [exact HI|]. split; [split; auto|]. split; [reflexivity|].
    destruct (len_spec S eqb rank eqb_spec f HI) as (l & Hl1 & Hl2 & Hl3). exists l. split; [exact Hl1|]. split; [exact Hl2|].
    intros s. rewrite Hl3, Hag. destruct (w s); cbn; split; congruence.
Qed.

Definition event_ok (w : S -> list sub) (e : fr_event S) : Prop :=
  match e with
  | EvPop None => forall s, w s = []
  | EvPop (Some p) => summary (w (sp_state p)) = Some p /\
       (forall s m, summary (w s) = Some m -> no_priority rank m p)
  | EvLen k => exists l, NoDup l /\ length l = k /\ forall s, In s l <-> w s <> []
  | _ => True
  end.

Lemma run_spec ops : forall f w, Inv f -> agrees f w ->
  exists evs f', nd_run eqb rank f ops = Some (evs, f') /\ map call_of evs = ops /\ Inv f' /\
    agrees f' (fold_left (waiting_step eqb) evs w) /\
    (forall tr1 e tr2, evs = tr1 ++ e :: tr2 -> event_ok (fold_left (waiting_step eqb) tr1 w) e /\
        forall s q, In q (fold_left (waiting_step eqb) tr1 w s) -> sp_state q = s).
Proof.
  induction ops as [|o ops IH]; intros f w HI Hag.
  - exists [], f. split; [reflexivity|]. split; [reflexivity|]. split; [exact HI|]. split; [exact Hag|].
    intros [|] e tr2 H; discriminate.
  - destruct (step_spec f w o HI Hag) as (e & f1 & E & HI1 & Hag1 & Hc & Hok).
    destruct (IH f1 _ HI1 Hag1) as (evs & f' & E' & Hc' & HI' & Hag' & Hall).
    exists (e :: evs), f'. cbn [nd_run]. rewrite E. cbn [obind]. rewrite E'. cbn [obind].
    split; [reflexivity|]. split; [cbn; congruence|]. split; [exact HI'|]. split; [exact Hag'|].
    intros [|e1 tr1] e2 tr2 H; cbn in H; inversion H; subst.
    + split; [exact Hok|]. exact (proj2 Hag).
    + cbn [fold_left]. exact (Hall tr1 e2 tr2 eq_refl).
Qed.

Lemma Inv_agree_new : Inv nd_new /\ agrees nd_new (fun _ => []).
Proof. split; [apply Inv_new|]. split; [reflexivity|intros s q []]. Qed.

Lemma nodup_run_total ops : exists evs f, nd_run eqb rank nd_new ops = Some (evs, f) /\ map call_of evs = ops.
Proof. destruct Inv_agree_new as [H1 H2]. destruct (run_spec ops _ _ H1 H2) as (evs & f' & E & Hc & _). eauto. Qed.

Lemma nodup_run_events ops evs f tr1 e tr2 : nd_run eqb rank nd_new ops = Some (evs, f) -> evs = tr1 ++ e :: tr2 ->
  event_ok (waiting eqb tr1) e /\ forall s q, In q (waiting eqb tr1 s) -> sp_state q = s.
Proof.
  intros E H. destruct Inv_agree_new as [H1 H2]. destruct (run_spec ops _ _ H1 H2) as (evs' & f' & E' & _ & _ & _ & Hall).
  rewrite E in E'. inversion E'; subst. eapply Hall. reflexivity.
Qed.

Lemma merged_fold t : forall a, let p := fold_left (merged S) t a in
  (forall q, In q (a :: t) -> sp_value q <= sp_value p /\ sp_ub q <= sp_ub p) /\
  (exists q, In q (a :: t) /\ sp_state q = sp_state p /\ sp_value q = sp_value p /\ sp_path q = sp_path p) /\
  (exists q, In q (a :: t) /\ sp_ub q = sp_ub p).
Proof.
  induction t as [|b t IH]; intros a; cbn [fold_left].
  - cbn. repeat split; try (destruct H as [<-|[]]; lia); exists a; auto.
  - destruct (IH (merged S a b)) as (H1 & (q2 & H2 & H2') & (q3 & H3 & H3')).
    assert (Hm : sp_value a <= sp_value (merged S a b) /\ sp_value b <= sp_value (merged S a b) /\
                 sp_ub (merged S a b) = Z.max (sp_ub a) (sp_ub b)).
    { unfold merged, with_ub; cbn. destruct (Z.ltb_spec (sp_value a) (sp_value b)); lia. }
    destruct (H1 (merged S a b) (or_introl eq_refl)) as [Hv Hu].
    split; [|split].
    + intros q [<-|[<-|Hq]]; [lia|lia|apply H1; right; exact Hq].
    + destruct H2 as [<-|H2]; [|exists q2; cbn; tauto].
      assert (Hq : exists q, (q = a \/ q = b) /\ sp_state q = sp_state (merged S a b) /\
                sp_value q = sp_value (merged S a b) /\ sp_path q = sp_path (merged S a b)).
      { unfold merged, with_ub; cbn. destruct (sp_value a <? sp_value b); [exists b|exists a]; auto. }
      destruct Hq as (q & Hq & Q1 & Q2 & Q3). destruct H2' as (R1 & R2 & R3). exists q.
      split; [destruct Hq; cbn; auto|]. repeat split; congruence.
    + destruct H3 as [<-|H3]; [|exists q3; cbn; tauto].
      rewrite <- H3'. destruct Hm as (_ & _ & ->). destruct (Z.max_spec (sp_ub a) (sp_ub b)) as [[_ ->]|[_ ->]];
        [exists b|exists a]; cbn; auto.
Qed.

Lemma nodup_pop_max ops evs f tr1 p tr2 : nd_run eqb rank nd_new ops = Some (evs, f) ->
  evs = tr1 ++ EvPop (Some p) :: tr2 -> forall s q, In q (waiting eqb tr1 s) -> no_priority rank q p.
Proof.
  intros E H s q Hq. destruct (nodup_run_events _ _ _ _ _ _ E H) as [[_ Hok] Hst].
  destruct (waiting eqb tr1 s) as [|a t] eqn:Ew; [destruct Hq|].
  specialize (Hok s (fold_left (merged S) t a)). rewrite Ew in Hok. specialize (Hok eq_refl).
  destruct (merged_fold t a) as (H1 & (q2 & H2 & H2' & _) & _).
  destruct (H1 q Hq) as [_ Hu].
  assert (sp_state (fold_left (merged S) t a) = sp_state q) as Hs.
  { rewrite <- H2'. rewrite (Hst s q2), (Hst s q); auto; rewrite Ew; auto. }
  unfold no_priority in *. rewrite Hs in Hok. destruct Hok as [Hok|[Hok Hr]]; [left; lia|].
  destruct (Z.eq_dec (sp_ub q) (sp_ub p)); [right; auto|left; lia].
Qed.

Lemma nodup_pop_content ops evs f tr1 p tr2 : nd_run eqb rank nd_new ops = Some (evs, f) ->
  evs = tr1 ++ EvPop (Some p) :: tr2 ->
  let l := waiting eqb tr1 (sp_state p) in
  (forall q, In q l -> sp_state q = sp_state p /\ sp_value q <= sp_value p /\ sp_ub q <= sp_ub p) /\
  (exists q, In q l /\ sp_value q = sp_value p /\ sp_path q = sp_path p) /\
  (exists q, In q l /\ sp_ub q = sp_ub p).
Proof.
  intros E H l. destruct (nodup_run_events _ _ _ _ _ _ E H) as [[Hsum _] Hst]. fold l in Hsum.
  specialize (Hst (sp_state p)). fold l in Hst. destruct l as [|a t]; [discriminate|].
  cbn [summary] in Hsum. inversion Hsum as [Hp]. destruct (merged_fold t a) as (H1 & (q2 & H2 & H2') & H3).
  rewrite Hp in *. split; [|split].
  - intros q Hq. split; [apply Hst; exact Hq|]. apply H1. exact Hq.
  - exists q2. tauto.
  - exact H3.
Qed.

Lemma nodup_pop_none ops evs f tr1 tr2 : nd_run eqb rank nd_new ops = Some (evs, f) ->
  evs = tr1 ++ EvPop None :: tr2 -> forall s, waiting eqb tr1 s = [].
Proof. intros E H. exact (proj1 (nodup_run_events _ _ _ _ _ _ E H)). Qed.

Lemma nodup_pop_none_complete ops evs f tr1 r tr2 : nd_run eqb rank nd_new ops = Some (evs, f) ->
  evs = tr1 ++ EvPop r :: tr2 -> (r = None <-> forall s, waiting eqb tr1 s = []).
Proof.
  intros E H. destruct r as [p|].
  - split; [discriminate|]. intros Hw. destruct (nodup_run_events _ _ _ _ _ _ E H) as [[Hsum _] _].
    rewrite Hw in Hsum. discriminate.
  - split; [|auto]. intros _. eapply nodup_pop_none; eauto.
Qed.

Lemma nodup_len ops evs f tr1 k tr2 : nd_run eqb rank nd_new ops = Some (evs, f) ->
  evs = tr1 ++ EvLen k :: tr2 -> exists l, NoDup l /\ length l = k /\ forall s, In s l <-> waiting eqb tr1 s <> [].
Proof. intros E H. exact (proj1 (nodup_run_events _ _ _ _ _ _ E H)). Qed.

(** ** SimpleFrontier *)
Variable choose : (sub -> sub -> comparison) -> list sub -> nat.
Hypothesis choose_ok : heap_oracle choose.

Lemma split_nth (l : list sub) k x : nth_error l k = Some x -> l = firstn k l ++ x :: skipn (Datatypes.S k) l.
Proof.
  revert k; induction l as [|a l IH]; intros [|k] H; cbn in *; try discriminate; [congruence|].
  f_equal. apply IH. exact H.
Qed.

Definition si_event_ok (ps qs : list sub) (e : fr_event S) : Prop :=
  exists rest, Permutation ps (qs ++ rest) /\
  match e with
  | EvPop None => rest = []
  | EvPop (Some p) => In p rest /\ (forall q, In q rest -> no_priority rank q p)
  | EvLen k => k = length rest
  | _ => True
  end.

Lemma si_step_spec f ps qs o : Permutation ps (qs ++ f) ->
  let '(e, f') := si_step rank choose f o in
  call_of e = o /\ si_event_ok ps qs e /\
  Permutation (pushed_step ps e) (popped_step qs e ++ f').
Proof.
  intros Hp. destruct o as [n| | |]; cbn [si_step].
  - split; [reflexivity|]. split; [exists f; auto|]. cbn. unfold si_push.
    rewrite Hp, <- app_assoc. apply Permutation_app_head. symmetry. apply Permutation_cons_append.
  - destruct f as [|a t] eqn:Ef.
    + cbn. split; [reflexivity|]. split; [exists []; auto|exact Hp].
    + unfold si_pop. clear Ef f.
      destruct (choose_ok (max_ub rank) (a :: t) (max_ub_preorder S rank rank_pre) ltac:(discriminate)) as (x & Hx & Hm).
      cbv zeta. rewrite Hx. pose proof (split_nth (a :: t) _ x Hx) as Hs.
      split; [reflexivity|]. split.
      * exists (a :: t). split; [exact Hp|]. split; [eapply nth_error_In; eauto|]. intros q Hq.
        apply le_no_priority. apply Hm. exact Hq.
      * cbn [pushed_step popped_step]. rewrite Hp. rewrite <- app_assoc. apply Permutation_app_head.
        rewrite Hs at 1. cbn [app]. symmetry. apply Permutation_middle.
  - cbn. split; [reflexivity|]. split; [exists f; auto|constructor].
  - cbn. split; [reflexivity|]. split; [exists f; auto|exact Hp].
Qed.

Lemma si_run_spec ops : forall f ps qs evs f', Permutation ps (qs ++ f) -> si_run rank choose f ops = (evs, f') ->
  map call_of evs = ops /\
  (forall tr1 e tr2, evs = tr1 ++ e :: tr2 -> si_event_ok (fold_left pushed_step tr1 ps) (fold_left popped_step tr1 qs) e).
Proof.
  induction ops as [|o ops IH]; intros f ps qs evs f' Hp E; cbn [si_run] in E.
  - inversion E; subst. split; [reflexivity|]. intros [|] e tr2 H; discriminate.
  - pose proof (si_step_spec f ps qs o Hp) as Hs. destruct (si_step rank choose f o) as [e f1].
    destruct Hs as (Hc & Hok & Hp1). destruct (si_run rank choose f1 ops) as [es f2] eqn:E1.
    inversion E; subst. destruct (IH _ _ _ _ _ Hp1 E1) as [Hc' Hall]. split; [cbn; congruence|].
    intros [|e1 tr1] e2 tr2 H; cbn in H; inversion H; subst; [exact Hok|]. cbn [fold_left]. exact (Hall _ _ _ eq_refl).
Qed.

Lemma simple_run ops evs f' : si_run rank choose si_new ops = (evs, f') ->
  map call_of evs = ops /\
  (forall tr1 e tr2, evs = tr1 ++ e :: tr2 -> si_event_ok (pushed tr1) (popped tr1) e).
Proof. intros E. exact (si_run_spec ops si_new [] [] evs f' (perm_nil _) E). Qed.

End Hist.

Lemma max_ub_bound_first (S : Type) (rank : ranking S) a b : sp_ub a < sp_ub b -> max_ub rank a b = Lt.
Proof. intros H. unfold max_ub, then_with. rewrite (proj2 (Z.compare_lt_iff _ _) H). reflexivity. Qed.
Lemma max_ub_tie (S : Type) (rank : ranking S) a b : sp_ub a = sp_ub b ->
  max_ub rank a b = rank (sp_state a) (sp_state b).
Proof. intros H. unfold max_ub, then_with. rewrite H, Z.compare_refl. reflexivity. Qed.

(** An oracle meeting [heap_oracle]: the first of the greatest elements. *)
Fixpoint first_max_from {A} (cmp : A -> A -> comparison) (k best : nat) (b : A) (t : list A) : nat :=
  match t with
  | [] => best
  | x :: t' => match cmp x b with Gt => first_max_from cmp (Datatypes.S k) k x t' | _ => first_max_from cmp (Datatypes.S k) best b t' end
  end.
Definition first_max {A} (cmp : A -> A -> comparison) (l : list A) : nat :=
  match l with [] => 0%nat | b :: t => first_max_from cmp 1 0 b t end.

Lemma first_max_from_ok {A} (cmp : A -> A -> comparison) : total_preorder cmp -> forall t pre best b,
  nth_error pre best = Some b -> (forall y, In y pre -> cmp y b <> Gt) ->
  exists x, nth_error (pre ++ t) (first_max_from cmp (length pre) best b t) = Some x /\
    forall y, In y (pre ++ t) -> cmp y x <> Gt.
Proof.
  intros [Ha Ht] t. induction t as [|x t IH]; intros pre best b Hb Hm; cbn [first_max_from].
  - rewrite app_nil_r. exists b. auto.
  - assert (Hx : cmp x x <> Gt) by (pose proof (Ha x x) as H; destruct (cmp x x); cbn in H; congruence).
    replace (Datatypes.S (length pre)) with (length (pre ++ [x])) by (rewrite app_length; cbn; lia).
    replace (pre ++ x :: t) with ((pre ++ [x]) ++ t) by (rewrite <- app_assoc; reflexivity).
    destruct (cmp x b) eqn:E; apply IH.
    5: (rewrite nth_error_app2, Nat.sub_diag by lia; reflexivity).
    5: { intros y Hy. apply in_app_iff in Hy as [Hy|[<-|[]]]; [|exact Hx].
         apply Ht with b; [auto|]. rewrite Ha, E. discriminate. }
    1,3: (rewrite nth_error_app1; [exact Hb|]; apply nth_error_Some; congruence).
    all: intros y Hy; apply in_app_iff in Hy as [Hy|[<-|[]]]; [auto|congruence].
Qed.
Lemma first_max_ok {A} : @heap_oracle A first_max.
Proof.
  intros cmp l Hp Hne. destruct l as [|b t]; [congruence|].
  destruct (first_max_from_ok cmp Hp t [b] 0 b) as (x & H1 & H2).
  - reflexivity.
  - intros y [<-|[]]. pose proof (proj1 Hp b b) as H; destruct (cmp b b); cbn in H; congruence.
  - exists x. auto.
Qed.
